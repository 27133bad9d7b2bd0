(** * `materialize` over closures with side effects and panics in any position: C56 (and more of C45)

    [ptree St], [pev] as in PropertiesPEffects.v.  [p_materialize E s needs_drop st] (PMaterialize.v):
    `s.materialize()` started in the closures' state [st]; it answers [Some d] or [None]: a panic of
    a closure reached the caller.  [until_panic x s ks st] (PMaterializeLaws.v): the keys [ks] are
    evaluated as by an iterator, one after the other, up to the first panic. *)
From Verif Require Import Base BitUtils BitQueue LevelIndices LevelIndicesProofs Hierarchy Ops Dense Spec SpecLaws Client TreeClient DenseHistory DenseLaws
  DenseProofs DenseDrop Materialize MaterializeLaws MaterializeViews Compose ViewLaws Findings Examples EffectsLaws PEffects PEffectsLaws PMaterialize PMaterializeLaws MaterializeLeak PropertiesPEffects.

(** the tree [d] holds exactly the pairs [l] (keys ascending): `get`, iteration, `key_values`; dropping
    it frees all its nodes and drops every element once *)
Definition holds {V} (D : nat) (d : dense V) (l : list (N * V)) : Prop :=
  (forall k v, (k, v) ∈ l -> tree_get (dense_tree V D) d k = Ok (Some v)) /\
  (forall k, (k < 64 ^ N.of_nat D)%N -> k ∉ l.*1 -> tree_get (dense_tree V D) d k = Ok None) /\
  (exists n, forall fuel, n <= fuel -> iter_collect fuel (dense_tree V D) d = Ok l) /\
  dense_key_values d = Ok (l.*1, l.*2) /\
  exists h dr, dense_drop D d = Ok (h, dr) /\ h_nodes h = ∅ /\ dr ≡ₚ l.*2.
(** every further history of calls on [d] behaves like the map [m], and each value is accounted for once *)
Definition goes_on_like {V} (D : nat) (d : dense V) (m : gmap N V) : Prop :=
  forall cs, dense_legal_from D m cs ->
  exists d' dr h dr2, dense_calls D d cs = Ok (d', spec_outs (64 ^ N.of_nat D) None m cs, dr) /\
    (forall k, tree_get (dense_tree V D) d' k = if (k <? 64 ^ N.of_nat D)%N then Ok (spec_run (64 ^ N.of_nat D) m cs !! k) else Panic) /\
    dense_drop D d' = Ok (h, dr2) /\ h_nodes h = ∅ /\
    spec_collect (64 ^ N.of_nat D) (spec_in (64 ^ N.of_nat D)) m cs ++ vals m ≡ₚ removed_values cs (spec_outs (64 ^ N.of_nat D) None m cs) ++ dr ++ dr2.

Lemma all_init_some {A} (vs : list A) : all_init (Some <$> vs) = Ok vs.
Proof. induction vs as [|y vs IH]; [done|]. rewrite fmap_cons. cbn [all_init]. by rewrite IH. Qed.

(** a copy with the results [r] in the place of its elements *)
Lemma copy_holds {V W} D (H0 : 1 <= D) (H9 : D <= 9) (d0 : dense V) m0 ks (r : list W) : dense_inv D allp (fixd d0) m0 -> d_keys d0 = USIZE_MAX :: ks -> StronglySorted N.lt ks ->
  length r = length ks -> holds D (re_data d0 r) (zip ks r) /\ (fixd d0 = d0 -> goes_on_like D (re_data d0 r) (list_to_map (zip ks r))).
Proof.
  intros Hi0 Hk Hs Hlen.
  assert (NoDup ks) as Hnd by (by apply ssorted_nodup).
  pose proof (re_inv _ _ _ _ _ r Hi0 Hk Hnd Hlen) as Hi.
  assert ((zip ks r).*1 = ks) as Ef by (apply fst_zip; lia). assert ((zip ks r).*2 = r) as Es by (apply snd_zip; lia).
  set (z := zip ks r) in *. assert (forall k w, (k, w) ∈ z <-> (list_to_map z : gmap N W) !! k = Some w) as Hz by (intros k w; apply elem_of_list_to_map; by rewrite Ef).
  assert (vals (list_to_map z : gmap N W) ≡ₚ r) as Hvals.
  { unfold vals. rewrite map_to_list_to_map by (by rewrite Ef). by rewrite Es. }
  split.
  - split; [|split; [|split; [|split]]].
    + intros k w Hin. rewrite (re_get _ H0 H9 _ _ Hi). apply Hz in Hin as Hm. destruct Hi as (P & J & _ & Hv & _). apply (vec_bound _ _ _ _ _ Hv) in Hm as Hb.
      rewrite (proj2 (N.ltb_lt _ _) Hb). exact (f_equal Ok Hm).
    + intros k Hb Hn. rewrite (re_get _ H0 H9 _ _ Hi). unfold KB. rewrite (proj2 (N.ltb_lt _ _) Hb). f_equal. apply not_elem_of_list_to_map. done.
    + apply (re_iter _ H0 H9 _ _ Hi); [by rewrite Ef|done].
    + unfold dense_key_values, re_data. cbn [d_keys d_data]. rewrite Hk. unfold from_1. cbn [length]. rewrite !decide_True by lia. cbn [drop rbind].
      rewrite Ef, Es. etrans; [apply (f_equal (fun a => let* data := a in Ok (ks, data))); exact (all_init_some r)|done].
    + destruct (re_drop _ H0 H9 _ _ Hi) as (h & dr & E1 & E2 & E3). exists h, dr. split; [done|]. split; [done|]. by rewrite E3, Hvals, Es.
  - intros Hfix. assert (fixd (re_data d0 r) = re_data d0 r) as Hf.
    { unfold fixd, re_data. cbn [d_root d_heap d_keys d_data]. f_equal. by apply (f_equal d_heap) in Hfix. }
    rewrite Hf in Hi. intros cs (Ha & Hrm & Hsz).
    destruct (dense_calls_ok _ H0 H9 _ _ _ cs Hi Ha Hrm Hsz) as (d' & dr & ex' & E1 & Hdr & Hi' & _).
    destruct (dense_drop_ok _ H0 H9 ex' d' _ Hi') as (h & dr2 & E2 & Hh & Hd2).
    exists d', dr, h, dr2. split; [done|]. split; [|split; [done|split; [done|]]].
    + intros k. by apply (dense_get_ok _ H0 H9 ex').
    + rewrite removed_values_spec, spec_balance_run, Hdr, Hd2. done.
Qed.

Section c56.
Context {St : Type} {b : bool} {E : ptree St} (x : pview St b E) (pk : N -> Prop) (s : p_S E).
Hypothesis Hr : reached pk (punder x) (p_src E s).
Hypothesis Hnw : t_nw (p_t E) = 1.
Hypothesis Hfew : few (p_t E) (p_src E s).
(** as in C18: a source without elements that is not exact may be undefined behaviour *)
Hypothesis Hsome : t_exact (p_t E) = true \/ t_depth (p_t E) = 1 \/ exists k v, tree_get (p_t E) (p_src E s) k = Ok (Some v).

(** C56: `materialize` evaluates the keys of the iteration once each, in that order, up to the first
    panic; if there is none, the copy holds the results, and is an ordinary tree from then on (for a
    source that declares EXACT_HIERARCHY, or of depth 1); if there is one, no later key is evaluated
    and - element types without destructor - the panic reaches the caller *)
Theorem C56_materialize needs_drop st : exists n l,
  (forall fuel, n <= fuel -> iter_collect fuel (p_t E) (p_src E s) = Ok l) /\
  match until_panic x s l.*1 st with
  | (r, true, st') => length r = length l /\ exists d, p_materialize E s needs_drop st = Ok (Some d, st') /\
      holds (t_depth (p_t E)) d (zip l.*1 r) /\
      (t_exact (p_t E) = true \/ t_depth (p_t E) = 1 -> goes_on_like (t_depth (p_t E)) d (list_to_map (zip l.*1 r)))
  | (r, false, st') => needs_drop = false -> p_materialize E s needs_drop st = Ok (None, st')
  end.
Proof.
  destruct (p_materialize_ev x pk s Hr Hnw Hfew Hsome needs_drop st) as (n & l & d0 & Hl & Hs & Hk & (m0 & Hi0) & Hfix & Hp).
  exists n, l. split; [done|]. destruct (until_panic x s l.*1 st) as [[r []] st'] eqn:Eu; [|by rewrite Hp; intros ->].
  assert (length r = length l.*1) as Hlen by (rewrite until_panic_stop in Eu; exact (until_length st (pev x It s) _ _ _ Eu)).
  split; [by rewrite Hlen, fmap_length|]. exists (re_data d0 r). split; [done|].
  destruct (view_depth (punder x)) as [H0 H9]. destruct (copy_holds (t_depth (p_t E)) H0 H9 d0 m0 l.*1 r Hi0 Hk Hs Hlen) as [G1 G2].
  split; [exact G1|]. intros Hc. by apply G2, Hfix.
Qed.
(** C45: for element types with a destructor every panic of a closure, wherever it sits in the
    expression, is undefined behaviour: `data` is dropped with its uninitialised slot 0 *)
Theorem C45_any_closure_actual st n l : (forall fuel, n <= fuel -> iter_collect fuel (p_t E) (p_src E s) = Ok l) ->
  snd (fst (until_panic x s l.*1 st)) = false -> p_materialize E s true st = UB.
Proof.
  intros Hl Hu. destruct (p_materialize_ev x pk s Hr Hnw Hfew Hsome true st) as (n' & l' & d0 & Hl' & _ & _ & _ & _ & Hp).
  assert (l' = l) as -> by (specialize (Hl (n + n') ltac:(lia)); rewrite (Hl' (n + n') ltac:(lia)) in Hl; congruence).
  destruct (until_panic x s l.*1 st) as [[r ok] st']. cbn in Hu. by subst ok.
Qed.
End c56.
(** C56: what [until_panic] says: either every key is evaluated, once, in order, to an element, or a
    first part of them is and the next one panics *)
Theorem C56_until_panic {St b} {E : ptree St} (x : pview St b E) s ks st :
  match until_panic x s ks st with
  | (r, true, st') => pevs x s ks st = ((fun kv => Some (Some kv)) <$> zip ks r, st') /\ length r = length ks
  | (r, false, st') => exists ks1 k ks2 st1, ks = ks1 ++ k :: ks2 /\ length r = length ks1 /\
      pevs x s ks1 st = ((fun kv => Some (Some kv)) <$> zip ks1 r, st1) /\ snd (pev x It s k st1) = st' /\
      forall y, fst (pev x It s k st1) <> Some (Some y)
  end.
Proof.
  revert st. induction ks as [|k ks IH]; intros st; cbn [until_panic pevs]; [done|].
  destruct (pev x It s k st) as [[[y|]|] st1] eqn:Ek.
  - specialize (IH st1). destruct (until_panic x s ks st1) as [[r []] st2].
    + destruct IH as [-> Hl]. split; [done|]. cbn. by rewrite Hl.
    + destruct IH as (ks1 & k' & ks2 & st3 & -> & Hl & Hp & He). exists (k :: ks1), k', ks2, st3. split; [done|]. split; [cbn; by rewrite Hl|].
      split; [|done]. cbn [pevs]. by rewrite Ek, Hp.
  - exists [], k, ks, st. split; [done|]. split; [done|]. split; [done|]. by rewrite Ek.
  - exists [], k, ks, st. split; [done|]. split; [done|]. split; [done|]. by rewrite Ek.
Qed.

(** ** the hypotheses are met: `multi_union([map(a, f), map(b, f)])` folded, `f` panicking on 78 or on 79 *)
Definition px_f9 : ufn (list N) N N := fun y st => (if (y =? 79)%N then None else Some (y + 1000)%N, st ++ [y]).
Definition px_s9 : p_S px_E := ([(ex_a, px_f9); (ex_b, px_f9)], px_fold).
Lemma px_few s : p_src px_E s = p_src px_E px_s -> few (p_t px_E) (p_src px_E s).
Proof. intros ->. exact (few_small (punder px_x) any_key _ C51_example_reached eq_refl ltac:(cbn; lia)). Qed.
Example C56_example_hypotheses : reached any_key (punder px_x) (p_src px_E px_s) /\ t_nw (p_t px_E) = 1 /\ few (p_t px_E) (p_src px_E px_s) /\
  (exists k v, tree_get (p_t px_E) (p_src px_E px_s) k = Ok (Some v)) /\ p_src px_E px_s9 = p_src px_E px_s.
Proof.
  split; [exact C51_example_reached|]. split; [done|]. split; [by apply px_few|]. split; [|done].
  destruct (tree_get (p_t px_E) (p_src px_E px_s) 71) as [[v|]| | |] eqn:Ev; [by exists 71%N, v|vm_compute in Ev; done..].
Qed.
(** the keys are 5, 70, 71, 200000.  [px_f9] panics on no element of a or b: all are evaluated *)
Example C56_example_ok : match p_materialize px_E px_s9 true [] with
  | Ok (Some d, log) => log = [1; 56; 2; 5; 2;  1; 78; 2;  1; 71; 2;  1; 200009; 2; 200000; 2]%N /\
      dense_key_values d = Ok ([5; 70; 71; 200000], [2061; 1078; 1071; 402009])%N
  | _ => False end.
Proof. vm_compute. done. Qed.
(** [px_f] panics on the element of a under 70: 5 was evaluated, 71 and 200000 are not *)
Example C56_example_panic : p_materialize px_E px_s false [] = Ok (None, [1; 56; 2; 5; 2;  1; 78]%N) /\ p_materialize px_E px_s true [] = UB.
Proof. split; vm_compute; done. Qed.

(** C45, memory: whenever a user function panics during `materialize`, every node the call has allocated so far (there is at least one) stays
    allocated for ever: nothing has been freed and nothing refers to them.  For every source, library view or not *)
Theorem C45_every_panic_leaks_actual : forall {St} (E : ptree St) (s : p_S E) (st st' : St),
  p_materialize E s false st = Ok (None, st') ->
  exists h, p_unwound E s st = Ok (Some h) /\ (0 < h_next h)%N /\ N.of_nat (size (h_nodes h)) = h_next h.
Proof.
  intros St E s st st' H. destruct (proj2 (unwound_iff E s st)) as [h Hh]; [by exists st'|]. exists h. split; [done|].
  destruct (unwound_leak E s st h Hh) as [[Hs _] Hn]. done.
Qed.
(** hence it is not true that a panic leaves nothing allocated: after the panic of C56_example_panic four nodes remain *)
Theorem C45_leak_refuted : ~ (forall {St} (E : ptree St) (s : p_S E) (st st' : St) h,
  p_materialize E s false st = Ok (None, st') -> p_unwound E s st = Ok (Some h) -> h_nodes h = ∅).
Proof.
  intros H. destruct (C45_every_panic_leaks_actual px_E px_s [] _ (proj1 C56_example_panic)) as (h & Hh & Hn & Hs).
  specialize (H _ px_E px_s [] _ h (proj1 C56_example_panic) Hh). rewrite H, map_size_empty in Hs. rewrite <- Hs in Hn. done.
Qed.
Example C45_leak_example : match p_unwound px_E px_s [] with Ok (Some h) => size (h_nodes h) = 4 | _ => False end.
Proof. vm_compute. done. Qed.
