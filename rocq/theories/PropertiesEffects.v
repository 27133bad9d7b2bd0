(** * Properties of closures with side effects: C50

    [etree St] (Effects.v): an expression whose `map` and fold functions read and change a state
    of type [St].  [e_t E]: the same expression with the closures erased.  The specification is
    [ev x s k st] (EffectsLaws.v): the expression evaluated for the one key [k] - which calls are
    made, in which order, and what the element is.  [evs]: evaluated for a list of keys in order. *)
From Verif Require Import Base BitUtils BitQueue LevelIndices LevelIndicesProofs Hierarchy Ops Dense Spec Client TreeClient DenseHistory Materialize
  Compose ViewLaws MaterializeViews MaterializeOrder Findings Examples Effects EffectsLaws EffectsMat.

Section c50.
Context {St : Type} {b : bool} {E : etree St} (x : eview St b E) (pk : N -> Prop) (s : t_T (e_t E)).
Hypothesis Hr : reached pk (under x) s.

(** C50: `get` evaluates its key once; out of range nothing is called *)
Theorem C50_get k st : view_key_ok (e_t E) k -> e_get E s k st = Ok (ev x s k st).
Proof. exact (e_get_ev x pk s Hr k st). Qed.
Theorem C50_get_out_of_range k st : ~ view_key_ok (e_t E) k -> e_get E s k st = Panic.
Proof.
  intros Hk. unfold e_get. destruct (index_from_spec (t_nw (e_t E)) (t_depth (e_t E)) k) as [[_ Hlt]|[-> _]]; [exfalso; by apply Hk|done].
Qed.
(** C50: so does `get_unchecked` of a present key *)
Theorem C50_get_unchecked k st v : tree_get (e_t E) s k = Ok (Some v) ->
  exists y st', ev x s k st = (Some y, st') /\ e_get_unchecked E s k st = Ok (y, st').
Proof. exact (e_get_u_ev x pk s Hr k st v). Qed.
(** C50: [m] calls of `next` on a new iterator evaluate exactly the first [m] keys of the iteration,
    in that order, once each; the calls past the end evaluate nothing *)
Theorem C50_iter : exists n l, (forall fuel, n <= fuel -> iter_collect fuel (e_t E) s = Ok l) /\
  forall m fuel st, n <= fuel -> e_iter fuel m E s st =
    Ok (let '(r, st) := evs x s (take m l.*1) st in ((Some <$> r) ++ replicate (m - length l) None, st)).
Proof. exact (e_iter_ev x pk s Hr). Qed.
(** C50: `materialize` evaluates every key of the iteration once, in that order, and stores the
    results in that order *)
Theorem C50_materialize d st : t_nw (e_t E) = 1 -> few (e_t E) s -> materialize (e_t E) s = Ok d -> exists n l,
  (forall fuel, n <= fuel -> iter_collect fuel (e_t E) s = Ok l) /\
  exists r st', evs x s l.*1 st = (r, st') /\ r.*1 = l.*1 /\
  e_materialize E s st = Ok (Dense (d_root d) (d_heap d) (None :: (Some <$> r.*2)) (d_keys d), st').
Proof. intros Hnw Hf. exact (e_materialize_ev x s st pk Hr Hnw d Hf). Qed.
(** C50: evaluating a key gives an element iff the key is present (whatever the closures do) ... *)
Theorem C50_present k st : is_Some (fst (ev x s k st)) <-> exists v, tree_get (e_t E) s k = Ok (Some v).
Proof. exact (ev_present x pk s Hr k st). Qed.
(** ... and if it is absent and there is no intersection, nothing is called *)
Theorem C50_absent k st : no_intersection x = true -> (~ exists v, tree_get (e_t E) s k = Ok (Some v)) -> ev x s k st = (None, st).
Proof.
  intros Hx Hk. assert (fst (ev x s k st) = None) as Hn.
  { destruct (ev x s k st) as [[y|] st'] eqn:Ey; [|done]. exfalso. apply Hk, (C50_present k st). rewrite Ey. by eexists. }
  pose proof (ev_absent pk x Hx s k st Hr Hn) as Hs. by destruct (ev x s k st); cbn in *; subst.
Qed.
End c50.
(** the keys and elements of a materialized tree are stored in the order of iteration *)
Theorem C50_materialize_order {b t} (v : view b t) pk s d : reached pk v s -> t_nw t = 1 -> few t s -> materialize t s = Ok d -> exists n l,
  (forall fuel, n <= fuel -> iter_collect fuel t s = Ok l) /\ dense_key_values d = Ok (l.*1, l.*2).
Proof.
  intros Hr Hnw Hf Hd. destruct (materialize_order v pk s Hr Hnw Hf d Hd) as (n & l & Hl & E1 & E2). exists n, l. split; [done|].
  assert (forall A (vs : list A), all_init (Some <$> vs) = Ok vs) as Ha.
  { intros A vs. induction vs as [|y vs IH]; [done|]. rewrite fmap_cons. cbn [all_init]. by rewrite IH. }
  unfold dense_key_values. rewrite E1, E2. unfold from_1. cbn [length]. rewrite !decide_True by lia. cbn [drop rbind].
  etrans; [|done]. etrans; [apply (f_equal (fun r => let* data := r in Ok (l.*1, data))); exact (Ha _ l.*2)|done].
Qed.

(** ** the hypotheses are met.  The state is the log of the calls; `f` logs its argument. *)
Definition ex_f (n : N) : N -> list N -> N * list N := fun y st => ((y + n)%N, st ++ [y]).
Definition ex_leaf_E : etree (list N) := e_pure (dense_tree N 3).
Definition ex_map_E (n : N) : etree (list N) := e_map (W := N) ex_leaf_E (ex_f n).
Definition ex_map_x (n : N) : eview (list N) true (ex_map_E n) := EMap true ex_leaf_E N (ex_f n) (EView true _ ex_leaf).
Definition ex_E : etree (list N) := e_intersection (ex_map_E 1000) (ex_map_E 2000).
Definition ex_x : eview (list N) true ex_E := EIntersection true true (ex_map_E 1000) (ex_map_E 2000) eq_refl eq_refl (ex_map_x 1000) (ex_map_x 2000).
Example C50_example_reached : reached any_key (under ex_x) (ex_a, ex_b).
Proof. split; [exact ex_a_ok|exact (ex_b_ok any_key)]. Qed.
(** [ex_a] = 5, 70, 200000 and [ex_b] = 5, 71, 200000: one call of `next` calls f for the element 5 of each *)
Example C50_example_iter : e_iter 100 1 ex_E (ex_a, ex_b) [] = Ok ([Some (5, (1056, 2005))], [56; 5])%N /\
  e_iter 100 3 ex_E (ex_a, ex_b) [] = Ok ([Some (5, (1056, 2005)); Some (200000, (201009, 202000)); None], [56; 5; 200009; 200000])%N.
Proof. vm_compute. done. Qed.
Example C50_example_get : e_get ex_E (ex_a, ex_b) 5 [] = Ok (Some (1056, 2005), [56; 5])%N /\
  e_get ex_E (ex_a, ex_b) 71 [] = Ok (None, [71])%N.
Proof. vm_compute. done. Qed.
(** an intersection evaluates its left operand also for keys that only that one has: iterating
    `union(intersection(map(a, f), b), a)` calls f for the element of a under 70, which b lacks *)
Definition ex_E2 : etree (list N) := e_union (e_intersection (ex_map_E 1000) ex_leaf_E) ex_leaf_E.
Definition ex_x2 : eview (list N) true ex_E2 :=
  EUnion (e_intersection (ex_map_E 1000) ex_leaf_E) ex_leaf_E eq_refl eq_refl
    (EIntersection true true (ex_map_E 1000) ex_leaf_E eq_refl eq_refl (ex_map_x 1000) (EView true _ ex_leaf)) (EView true _ ex_leaf).
Theorem C50_only_elements_of_the_result_refuted :
  reached any_key (under ex_x2) ((ex_a, ex_b), ex_a) /\
  tree_get (e_t (ex_map_E 1000)) ex_a 70 = Ok (Some 78%N) /\ tree_get (e_t ex_leaf_E) ex_b 70 = Ok None /\
  e_iter 100 4 ex_E2 ((ex_a, ex_b), ex_a) [] =
    Ok ([Some (5, (Some (1056, 5), Some 56)); Some (70, (None, Some 78)); Some (200000, (Some (201009, 200000), Some 200009)); None], [56; 78; 200009])%N.
Proof.
  split; [split; [split; [exact ex_a_ok|exact (ex_b_ok any_key)]|exact ex_a_ok]|].
  vm_compute. done.
Qed.
