(** * Closures with side effects and panics in every nesting of the operations: more of C45, C51, C52, C56

    PropertiesPEffects.v and PropertiesPMaterialize.v exclude `union` and `multi_union` over a
    `multi_union`.  Here nothing is excluded ([pxview], PEffectsAll.v).  The specification is
    [pxev x m s k]: the expression evaluated for the one key [k], asked for in the way [m] (`get`,
    `get_unchecked`, or by an iterator): which calls are made, in which order, where a panic ends it,
    and what the element is.  [pxevs]: evaluated for an iterator, for a list of keys in order.
    [until_panic_x] (PMaterializeAll.v): the same up to the first panic. *)
From Verif Require Import Base BitUtils BitQueue LevelIndices LevelIndicesProofs Hierarchy Ops Dense Spec SpecLaws Client TreeClient DenseHistory DenseLaws
  DenseProofs Materialize MaterializeLaws MaterializeViews Compose ViewLaws Findings Examples EffectsLaws PEffects PEffectsLaws PMaterialize PMaterializeLaws
  AllViews PEffectsAll PMaterializeAll PropertiesPEffects PropertiesPMaterialize.

Section c51.
Context {St : Type} {E : ptree St} (x : pxview E) (pk : N -> Prop) (s : p_S E).
Hypothesis Hr : xreached pk (pxunder x) (p_src E s).

(** C51: `get` evaluates its key once, and unwinds iff a function panicked; out of range nothing is called *)
Theorem C51_all_nestings_get k st : p_get E s k st = if decide (view_key_ok (p_t E) k) then Ok (pxev x Get s k st) else Panic.
Proof.
  destruct (decide _) as [Hk|Hk]; [exact (px_get_ev x pk s Hr k st Hk)|].
  unfold p_get. destruct (index_from_spec (t_nw (p_t E)) (t_depth (p_t E)) k) as [[_ Hlt]|[-> _]]; [exfalso; by apply Hk|done].
Qed.
(** C51: so does `get_unchecked` of a present key *)
Theorem C51_all_nestings_get_unchecked k st v : tree_get (p_t E) (p_src E s) k = Ok (Some v) -> exists o st',
  p_get_unchecked E s k st = Ok (o, st') /\ pxev x GetU s k st = (match o with Some y => Some (Some y) | None => None end, st').
Proof.
  intros Hg. pose proof (pxev_present x pk s Hr GetU k st v Hg) as Hn. rewrite (px_get_u_ev x pk s Hr k st v Hg). unfold unsome.
  destruct (pxev x GetU s k st) as [[[y|]|] st']; [|done|]; by eexists _, _.
Qed.
(** C51: [m] calls of `next` on a new iterator - the caller catches the panics - evaluate exactly the
    first [m] keys of the iteration, in that order, once each; a panicked call loses its own element
    and no other; the calls past the end evaluate nothing *)
Theorem C51_all_nestings_iter : exists n l, (forall fuel, n <= fuel -> iter_collect fuel (p_t E) (p_src E s) = Ok l) /\
  forall m fuel st, n <= fuel -> p_iter fuel m E s st =
    Ok (let '(r, st) := pxevs x s (take m l.*1) st in (r ++ replicate (m - length l) (Some None), st)).
Proof. exact (px_iter_ev x pk s Hr). Qed.
(** C51: a key that is present is evaluated to an element or a function panics, however it is asked for .. *)
Theorem C51_all_nestings_present m k st v : tree_get (p_t E) (p_src E s) k = Ok (Some v) ->
  (exists y st', pxev x m s k st = (Some (Some y), st')) \/ exists st', pxev x m s k st = (None, st').
Proof.
  intros Hg. pose proof (pxev_present x pk s Hr m k st v Hg) as Hn. destruct (pxev x m s k st) as [[[y|]|] st']; [left|done|right]; eauto.
Qed.
(** .. and `get` of an absent key answers None or a function panics *)
Theorem C51_all_nestings_absent k st : view_key_ok (p_t E) k -> tree_get (p_t E) (p_src E s) k = Ok None ->
  exists st', p_get E s k st = Ok (Some None, st') \/ p_get E s k st = Ok (None, st').
Proof.
  intros Hk Hg. rewrite (px_get_ev x pk s Hr k st Hk). pose proof (fun y => pxev_absent x pk s Hr k st y Hk Hg) as Hn.
  destruct (pxev x Get s k st) as [[[y|]|] st']; [exfalso; by apply (Hn y)|eauto..].
Qed.

Hypothesis Hnw : t_nw (p_t E) = 1.
Hypothesis Hfew : few (p_t E) (p_src E s).
Hypothesis Hsome : t_exact (p_t E) = true \/ t_depth (p_t E) = 1 \/ exists k v, tree_get (p_t E) (p_src E s) k = Ok (Some v).
(** C56: `materialize` evaluates the keys of the iteration once each, in that order, up to the first
    panic; if there is none, the copy holds the results, and is an ordinary tree from then on (for a
    source that declares EXACT_HIERARCHY, or of depth 1); if there is one, no later key is evaluated
    and - element types without destructor - the panic reaches the caller *)
Theorem C56_all_nestings_materialize needs_drop st : exists n l,
  (forall fuel, n <= fuel -> iter_collect fuel (p_t E) (p_src E s) = Ok l) /\
  match until_panic_x x s l.*1 st with
  | (r, true, st') => length r = length l /\ exists d, p_materialize E s needs_drop st = Ok (Some d, st') /\
      holds (t_depth (p_t E)) d (zip l.*1 r) /\
      (t_exact (p_t E) = true \/ t_depth (p_t E) = 1 -> goes_on_like (t_depth (p_t E)) d (list_to_map (zip l.*1 r)))
  | (r, false, st') => needs_drop = false -> p_materialize E s needs_drop st = Ok (None, st')
  end.
Proof.
  destruct (px_materialize_ev x pk s Hr Hnw Hfew Hsome needs_drop st) as (n & l & d0 & Hl & Hs & Hk & (m0 & Hi0) & Hfix & Hp).
  exists n, l. split; [done|]. destruct (until_panic_x x s l.*1 st) as [[r []] st'] eqn:Eu; [|by rewrite Hp; intros ->].
  assert (length r = length l.*1) as Hlen by (rewrite until_panic_x_stop in Eu; exact (until_length st (pxev x It s) _ _ _ Eu)).
  split; [by rewrite Hlen, fmap_length|]. exists (re_data d0 r). split; [done|].
  destruct (xview_depth (pxunder x)) as [H0 H9]. destruct (copy_holds (t_depth (p_t E)) H0 H9 d0 m0 l.*1 r Hi0 Hk Hs Hlen) as [G1 G2].
  split; [exact G1|]. intros Hc. by apply G2, Hfix.
Qed.
(** C45: for element types with a destructor every panic of a closure, wherever it sits in the
    expression, is undefined behaviour: `data` is dropped with its uninitialised slot 0 *)
Theorem C45_all_nestings_any_closure_actual st n l : (forall fuel, n <= fuel -> iter_collect fuel (p_t E) (p_src E s) = Ok l) ->
  snd (fst (until_panic_x x s l.*1 st)) = false -> p_materialize E s true st = UB.
Proof.
  intros Hl Hu. destruct (px_materialize_ev x pk s Hr Hnw Hfew Hsome true st) as (n' & l' & d0 & Hl' & _ & _ & _ & _ & Hp).
  assert (l' = l) as -> by (specialize (Hl (n + n') ltac:(lia)); rewrite (Hl' (n + n') ltac:(lia)) in Hl; congruence).
  destruct (until_panic_x x s l.*1 st) as [[r ok] st']. cbn in Hu. by subst ok.
Qed.
End c51.
(** C56: what [until_panic_x] says: either every key is evaluated, once, in order, to an element, or a
    first part of them is and the next one panics *)
Theorem C56_all_nestings_until_panic {St} {E : ptree St} (x : pxview E) s ks st :
  match until_panic_x x s ks st with
  | (r, true, st') => pxevs x s ks st = ((fun kv => Some (Some kv)) <$> zip ks r, st') /\ length r = length ks
  | (r, false, st') => exists ks1 k ks2 st1, ks = ks1 ++ k :: ks2 /\ length r = length ks1 /\
      pxevs x s ks1 st = ((fun kv => Some (Some kv)) <$> zip ks1 r, st1) /\ snd (pxev x It s k st1) = st' /\
      forall y, fst (pxev x It s k st1) <> Some (Some y)
  end.
Proof.
  revert st. induction ks as [|k ks IH]; intros st; cbn [until_panic_x pxevs]; [done|].
  destruct (pxev x It s k st) as [[[y|]|] st1] eqn:Ek.
  - specialize (IH st1). destruct (until_panic_x x s ks st1) as [[r []] st2].
    + destruct IH as [-> Hl]. split; [done|]. cbn. by rewrite Hl.
    + destruct IH as (ks1 & k' & ks2 & st3 & -> & Hl & Hp & He). exists (k :: ks1), k', ks2, st3. split; [done|]. split; [cbn; by rewrite Hl|].
      split; [|done]. cbn [pxevs]. by rewrite Ek, Hp.
  - exists [], k, ks, st. split; [done|]. split; [done|]. split; [done|]. by rewrite Ek.
  - exists [], k, ks, st. split; [done|]. split; [done|]. split; [done|]. by rewrite Ek.
Qed.

(** ** the hypotheses are met: union(fold(multi_union[map(a, f)]), fold(multi_union[map(b, f)])); [px_f],
    [px_f9], [px_fold] as in PropertiesPEffects.v: the state is the log of the calls, [px_f] panics on
    the element 78 of a (key 70), the fold logs 1 when it starts and 2 for every item *)
Definition pxu_E : ptree (list N) := p_union px_E px_E.
Definition pxu_m : pxview px_E := PXMultiUnion px_map N N px_depth (PXMap px_leaf N (PXView _ (XView _ ex_leaf))).
Definition pxu_x : pxview pxu_E := PXUnion px_E px_E eq_refl eq_refl pxu_m pxu_m.
Definition pxu_s (f : ufn (list N) N N) : p_S pxu_E := (([(ex_a, f)], px_fold), ([(ex_b, f)], px_fold)).
Lemma pxu_reached f : xreached any_key (pxunder pxu_x) (p_src pxu_E (pxu_s f)).
Proof. split; (split; [cbn; lia|]); cbn [fst snd pxu_s pxu_E p_union px_E p_multi_union p_src fmap list_fmap px_map p_map px_leaf p_pure]; repeat constructor; [exact ex_a_ok|exact (ex_b_ok any_key)]. Qed.
Example C51_all_nestings_example f : xreached any_key (pxunder pxu_x) (p_src pxu_E (pxu_s f)) /\ t_nw (p_t pxu_E) = 1 /\ t_exact (p_t pxu_E) = true /\ few (p_t pxu_E) (p_src pxu_E (pxu_s f)).
Proof.
  split; [exact (pxu_reached f)|]. split; [done|]. split; [done|].
  exact (few_small (gview (pxunder pxu_x)) any_key _ (gview_reached any_key (pxunder pxu_x) _ (pxu_reached f)) eq_refl ltac:(cbn; lia)).
Qed.
(** the keys are 5, 70, 71, 200000.  70 is in a only, 71 in b only, both in the same last node: for
    each the iterator also starts (1), and at once ends, the fold of the other operand *)
Example C51_all_nestings_example_iter : p_iter 200 5 pxu_E (pxu_s px_f9) [] =
  Ok ([Some (Some (5, (Some 1056, Some 1005))); Some (Some (70, (Some 1078, Some 0))); Some (Some (71, (Some 0, Some 1071)));
       Some (Some (200000, (Some 201009, Some 201000))); Some None],
      [1; 56; 2; 1; 5; 2;  1; 78; 2; 1;  1; 1; 71; 2;  1; 200009; 2; 1; 200000; 2])%N.
Proof. vm_compute. done. Qed.
(** [px_f] panics under 70: the second operand is not evaluated; the iteration goes on with 71 *)
Example C51_all_nestings_example_panic : p_iter 200 3 pxu_E (pxu_s px_f) [] =
  Ok ([Some (Some (5, (Some 1056, Some 1005))); None; Some (Some (71, (Some 0, Some 1071)))],
      [1; 56; 2; 1; 5; 2;  1; 78;  1; 1; 71; 2])%N.
Proof. vm_compute. done. Qed.
Example C56_all_nestings_example : p_materialize pxu_E (pxu_s px_f) false [] = Ok (None, [1; 56; 2; 1; 5; 2;  1; 78]%N) /\ p_materialize pxu_E (pxu_s px_f) true [] = UB /\
  match p_materialize pxu_E (pxu_s px_f9) true [] with
  | Ok (Some d, log) => log = [1; 56; 2; 1; 5; 2;  1; 78; 2; 1;  1; 1; 71; 2;  1; 200009; 2; 1; 200000; 2]%N /\
      dense_key_values d = Ok ([5; 70; 71; 200000], [(Some 1056, Some 1005); (Some 1078, Some 0); (Some 0, Some 1071); (Some 201009, Some 201000)])%N
  | _ => False end.
Proof. split; [|split]; vm_compute; done. Qed.
(** C52: so `get(71)` and the iterator's item of 71 differ, in the functions that they call and in the element:
    `get` does not start the fold of the operand without an element *)
Theorem C52_all_nestings_refuted : xreached any_key (pxunder pxu_x) (p_src pxu_E (pxu_s px_f9)) /\
  p_get pxu_E (pxu_s px_f9) 71 [] = Ok (Some (Some (None, Some 1071)), [71; 1; 2])%N /\
  pxev pxu_x It (pxu_s px_f9) 71 [] = (Some (Some (Some 0, Some 1071)), [1; 1; 71; 2])%N.
Proof. split; [exact (pxu_reached px_f9)|]. vm_compute. done. Qed.
