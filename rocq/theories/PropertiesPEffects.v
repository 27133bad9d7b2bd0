(** * Properties of closures with side effects and panics in any position: C51, C52

    [ptree St] (PEffects.v): an expression whose functions read and change a state of type [St] and
    may panic.  [p_t E]: the same expression with the closures erased; [p_src E s]: its operands.
    The specification is [pev x m s k] (PEffectsLaws.v): the expression evaluated for the one key [k],
    asked for in the way [m]: which calls are made, in which order, where a panic ends it, and what
    the element is.  [pevs]: evaluated for an iterator, for a list of keys in order. *)
From Verif Require Import Base BitUtils BitQueue LevelIndices LevelIndicesProofs Hierarchy Ops Dense Spec Client TreeClient DenseHistory
  Compose ViewLaws Findings Examples EffectsLaws PEffects PEffectsLaws.

Section c51.
Context {St : Type} {b : bool} {E : ptree St} (x : pview St b E) (pk : N -> Prop) (s : p_S E).
Hypothesis Hr : reached pk (punder x) (p_src E s).

(** C51: `get` evaluates its key once, and unwinds iff a function panicked; out of range nothing is called *)
Theorem C51_get k st : view_key_ok (p_t E) k -> p_get E s k st = Ok (pev x Get s k st).
Proof. exact (p_get_ev x pk s Hr k st). Qed.
Theorem C51_get_out_of_range k st : ~ view_key_ok (p_t E) k -> p_get E s k st = Panic.
Proof.
  intros Hk. unfold p_get. destruct (index_from_spec (t_nw (p_t E)) (t_depth (p_t E)) k) as [[_ Hlt]|[-> _]]; [exfalso; by apply Hk|done].
Qed.
(** C51: so does `get_unchecked` of a present key *)
Theorem C51_get_unchecked k st v : tree_get (p_t E) (p_src E s) k = Ok (Some v) -> exists o st',
  p_get_unchecked E s k st = Ok (o, st') /\ pev x GetU s k st = (match o with Some y => Some (Some y) | None => None end, st').
Proof.
  intros Hg. pose proof (pev_present x pk s Hr GetU k st v Hg) as Hn. rewrite (p_get_u_ev x pk s Hr k st v Hg). unfold unsome.
  destruct (pev x GetU s k st) as [[[y|]|] st']; [|done|]; by eexists _, _.
Qed.
(** C51: [m] calls of `next` on a new iterator - the caller catches the panics - evaluate exactly the
    first [m] keys of the iteration, in that order, once each; a panicked call loses its own element
    and no other; the calls past the end evaluate nothing *)
Theorem C51_iter : exists n l, (forall fuel, n <= fuel -> iter_collect fuel (p_t E) (p_src E s) = Ok l) /\
  forall m fuel st, n <= fuel -> p_iter fuel m E s st =
    Ok (let '(r, st) := pevs x s (take m l.*1) st in (r ++ replicate (m - length l) (Some None), st)).
Proof. exact (p_iter_ev x pk s Hr). Qed.
(** C51: a key that is present is evaluated to an element or a function panics, however it is asked for .. *)
Theorem C51_present m k st v : tree_get (p_t E) (p_src E s) k = Ok (Some v) ->
  (exists y st', pev x m s k st = (Some (Some y), st')) \/ exists st', pev x m s k st = (None, st').
Proof.
  intros Hg. pose proof (pev_present x pk s Hr m k st v Hg) as Hn. destruct (pev x m s k st) as [[[y|]|] st']; [left|done|right]; eauto.
Qed.
(** .. and `get` of an absent key answers None or a function panics *)
Theorem C51_absent k st : view_key_ok (p_t E) k -> tree_get (p_t E) (p_src E s) k = Ok None ->
  exists st', p_get E s k st = Ok (Some None, st') \/ p_get E s k st = Ok (None, st').
Proof.
  intros Hk Hg. rewrite (p_get_ev x pk s Hr k st Hk). pose proof (fun y => pev_absent x pk s Hr Get k st y Hk ltac:(done) Hg) as Hn.
  destruct (pev x Get s k st) as [[[y|]|] st']; [exfalso; by apply (Hn y)|eauto..].
Qed.
(** C52: if the operands of the multi operations have no closures of their own, then `get`,
    `get_unchecked` and an iterator make the same calls in the same order, with the same result *)
Theorem C52_same_calls_partial k st : flat x = true -> pev x It s k st = pev x Get s k st /\
  ((exists v, tree_get (p_t E) (p_src E s) k = Ok (Some v)) -> pev x GetU s k st = pev x Get s k st).
Proof.
  intros Hx. destruct (modes_agree x pk Hx s Hr k st) as [H1 H2]. split; [done|]. intros [v Hv]. apply H2. unfold phas, got. by rewrite Hv.
Qed.
End c51.

(** C51: `multi_map_fold` consumes the items from the left: `init` first, then `f` once per item, in
    order, the operand of an item evaluated just before; the first panic is the result *)
Theorem C51_fold {St X A : Type} (init : ufn St unit A) (f : A -> ufn St X A) (l : list (ans (St := St) (option X))) st :
  consume (folder init f) l st =
  fold_left (fun '(o, st) item => match o with
    | None => (None, st)
    | Some a => match item st with
      | (None, st) => (None, st)
      | (Some None, st) => (Some a, st)
      | (Some (Some y), st) => f a y st
      end
    end) l (init tt st).
Proof.
  unfold consume, abind. cbn [folder c_init]. destruct (init tt st) as [o st0]. clear st. revert o st0. induction l as [|m l IH]; intros o st; [by destruct o|].
  destruct o as [a|]; [|cbn [fold_left]; by rewrite <- IH]. cbn [feed fold_left]. unfold abind. destruct (m st) as [[[y|]|] st1].
  - cbn [folder c_step]. destruct (f a y st1) as [[a'|] st2]; by rewrite <- IH.
  - by rewrite <- IH.
  - by rewrite <- IH.
Qed.

(** ** the hypotheses are met.  The state is the log of the calls: [px_f] logs its argument and panics
    on 78 (the element of [ex_a] under 70); the fold logs 1 when it starts and 2 for every item. *)
Definition px_f : ufn (list N) N N := fun y st => (if (y =? 78)%N then None else Some (y + 1000)%N, st ++ [y]).
Definition px_fold : consumer (list N) N N N := folder (fun _ st => (Some 0%N, st ++ [1%N])) (fun a y st => (Some (a + y)%N, st ++ [2%N])).
Definition px_leaf : ptree (list N) := p_pure (dense_tree N 3).
Definition px_map : ptree (list N) := p_map px_leaf N.
Definition px_map_x : pview (list N) true px_map := PMap true px_leaf N (PView true _ ex_leaf).
Definition px_E : ptree (list N) := p_multi_union px_map N N.
Lemma px_depth : 2 <= t_depth (p_t px_map).
Proof. by vm_compute; repeat constructor. Qed.
Definition px_x : pview (list N) false px_E := PMultiUnion px_map N N px_depth px_map_x.
Definition px_s : p_S px_E := ([(ex_a, px_f); (ex_b, px_f)], px_fold).
Example C51_example_reached : reached any_key (punder px_x) (p_src px_E px_s).
Proof.
  split; [cbn; lia|]. cbn [px_s px_E p_multi_union p_src fst fmap list_fmap px_map p_map px_leaf p_pure]. repeat constructor; [exact ex_a_ok|exact (ex_b_ok any_key)].
Qed.
(** the keys are 5, 70, 71, 200000.  The second call of `next` panics (the function of [ex_a] under 70);
    the third and the fourth go on *)
Example C51_example_iter : p_iter 200 5 px_E px_s [] =
  Ok ([Some (Some (5, 2061)); None; Some (Some (71, 1071)); Some (Some (200000, 402009)); Some None],
      [1; 56; 2; 5; 2;  1; 78;  1; 71; 2;  1; 200009; 2; 200000; 2])%N.
Proof. vm_compute. done. Qed.
Example C51_example_get : p_get px_E px_s 70 [] = Ok (None, [78])%N /\ p_get px_E px_s 71 [] = Ok (Some (Some 1071), [71; 1; 2])%N /\ p_get px_E px_s 72 [] = Ok (Some None, []).
Proof. vm_compute. done. Qed.
Definition px_E1 : ptree (list N) := p_map (p_multi_union px_leaf N N) N.
Lemma px_depth1 : 2 <= t_depth (p_t px_leaf).
Proof. by vm_compute; repeat constructor. Qed.
Definition px_x1 : pview (list N) false px_E1 := PMap false _ N (PMultiUnion px_leaf N N px_depth1 (PView true _ ex_leaf)).
Example C52_example_flat : flat px_x1 = true /\ reached any_key (punder px_x1) (p_src px_E1 (([ex_a; ex_b], px_fold), px_f)).
Proof. split; [done|]. split; [cbn; lia|]. cbn [px_E1 p_map p_multi_union p_src fst fmap list_fmap px_leaf p_pure]. repeat constructor; [exact ex_a_ok|exact (ex_b_ok any_key)]. Qed.

(** C52: in general `get` and an iterator call the closures in different orders: over
    `multi_union([map(a, f), map(b, f)])` with `multi_map_fold`, `get(5)` calls f for a and for b before
    it starts the fold; `get_unchecked(5)` and `next` start the fold and alternate *)
Theorem C52_same_calls_refuted :
  reached any_key (punder px_x) (p_src px_E px_s) /\
  p_get px_E px_s 5 [] = Ok (Some (Some 2061), [56; 5; 1; 2; 2])%N /\
  p_get_unchecked px_E px_s 5 [] = Ok (Some 2061, [1; 56; 2; 5; 2])%N /\
  p_iter 200 1 px_E px_s [] = Ok ([Some (Some (5, 2061))], [1; 56; 2; 5; 2])%N.
Proof. split; [exact C51_example_reached|]. vm_compute. done. Qed.
