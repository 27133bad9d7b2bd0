(** * DenseTree as a lawful HibitTree; enumeration and drop *)
From Verif Require Import Base BitUtils BitUtilsProofs BitQueue BitQueueProofs LevelIndices LevelIndicesProofs
  ConstLoops Hierarchy Lawful Dense DenseNode DenseShape DenseProofs DenseRemove.

(** ** Abstract reading of a tree: walk along a path through set mask bits only *)
Fixpoint dwalk (h : heap) (x : ptr) (p : list N) : option ptr :=
  match p with
  | [] => Some x
  | i :: p =>
    match node_contains h x i, child_ptr h x i with
    | Ok true, Ok y => dwalk h y p
    | _, _ => None
    end
  end.
Definition dtm {V} (t : dense V) (p : list N) (i : N) : bool :=
  match dwalk (d_heap t) (d_root t) p with
  | Some x => match hread (d_heap t) x with Ok n => N.testbit (n_mask n) i | _ => false end
  | None => false
  end.
Definition dsem {V} (D : nat) (t : dense V) (q : list N) : option V :=
  match dense_data D t (key_of_path 1 q) q with Ok o => o | _ => None end.
(** the node a cursor holds for path [p] *)
Definition node_at {V} (D : nat) (t : dense V) (p : list N) (x : ptr) : Prop :=
  match dwalk (d_heap t) (d_root t) p with
  | Some y => x = y
  | None => x = PStatic (9 - D + length p)
  end.
Definition dRv {V} (D : nat) (t : dense V) (c : dcursor) : Prop := length c = D - 1.
Definition dRk {V} (D : nat) (t : dense V) (c : dcursor) (p : list N) : Prop :=
  length c = D - 1 /\ forall m, m < length p -> exists x, c !! m = Some (Some x) /\ node_at D t (take (S m) p) x.

Section dense_tree.
Context (D : nat).
Hypothesis HD0 : 1 <= D.
Hypothesis HD : D <= 9.
Context {V : Type}.
Implicit Types (t : dense V) (m : gmap N V).

Section walk.
Context (h : heap) (root : ptr) (P J : gmap (list N) N) (Sh : shape D h root P J None).

Lemma dwalk_from p p0 a : P !! p0 = Some a -> path_ok 1 (length p) p -> length p0 + length p < D ->
  dwalk h (PHeap a) p = PHeap <$> P !! (p0 ++ p).
Proof.
  revert p0 a. induction p as [|i p IH]; intros p0 a Ha [_ Hp] Hl.
  - cbn. by rewrite app_nil_r, Ha.
  - apply Forall_cons_1 in Hp as [Hi Hp]. cbn [length] in Hl.
    destruct (sh_node _ _ _ _ _ _ Sh _ _ Ha) as (n & Hn & Hk & Hr). cbn [dwalk].
    rewrite (contains_ok _ _ _ _ _ Hn Hr) by exact Hi.
    assert (childs D P J None p0 i = (fun a => SPtr (PHeap a)) <$> P !! (p0 ++ [i])) as Ec.
    { cbn. unfold childs0. by rewrite decide_True by lia. }
    rewrite Ec. destruct (P !! (p0 ++ [i])) as [b|] eqn:Eb.
    + rewrite bool_decide_true by (cbn; eauto). rewrite (child_ptr_present D HD _ _ _ _ Sh p0 i a b) by done.
      rewrite (IH (p0 ++ [i]) b Eb); [by rewrite <- app_assoc|by split|rewrite app_length; cbn; lia].
    + rewrite bool_decide_false by (by intros [? ?]).
      destruct (P !! (p0 ++ i :: p)) as [c|] eqn:Ec'; [|done]. exfalso.
      rewrite cons_middle, app_assoc in Ec'. destruct (sh_prefix _ _ _ _ _ _ _ _ _ Sh Ec'). congruence.
Qed.
Lemma dwalk_ok p : path_ok 1 (length p) p -> length p < D -> dwalk h root p = PHeap <$> P !! p.
Proof.
  intros Hp Hl. destruct (sh_root _ _ _ _ _ _ Sh) as (a & E & Ha). rewrite E. by rewrite (dwalk_from p [] a).
Qed.
Lemma no_node_childs p i : P !! p = None -> childs D P J None p i = None.
Proof.
  intros Hn. apply childs_no_node; [done|apply (sh_parent _ _ _ _ _ _ Sh)|apply (sh_jpath _ _ _ _ _ _ Sh)].
Qed.
End walk.

Section inv.
Context (t : dense V) (P J : gmap (list N) N) (Sh : shape D (d_heap t) (d_root t) P J None).
Lemma dtm_ok p i : path_ok 1 (length p) p -> length p < D ->
  dtm t p i = bool_decide (is_Some (childs D P J None p i)).
Proof.
  intros Hp Hl. unfold dtm. rewrite (dwalk_ok _ _ _ _ Sh) by done. destruct (P !! p) as [a|] eqn:Ea; cbn [fmap option_fmap option_map].
  - destruct (sh_node _ _ _ _ _ _ Sh _ _ Ea) as (n & Hn & Hk & Hr). cbn [hread]. rewrite Hn.
    apply Bool.eq_iff_eq_true. rewrite bool_decide_eq_true. apply (nr_bits _ _ _ Hr).
  - symmetry. apply bool_decide_eq_false. rewrite (no_node_childs _ _ _ _ Sh) by done. by intros [? ?].
Qed.
Lemma dtm_node p i : path_ok 1 (length p) p -> S (length p) < D -> dtm t p i = true <-> is_Some (P !! (p ++ [i])).
Proof.
  intros Hp Hl. rewrite dtm_ok, bool_decide_eq_true by (done || lia). cbn. unfold childs0. rewrite decide_True by lia.
  apply fmap_is_Some.
Qed.
Lemma dtm_elem p i : path_ok 1 (D - 1) p -> dtm t p i = true <-> is_Some (J !! (p ++ [i])).
Proof.
  intros Hp. pose proof (proj1 Hp) as Hl. rewrite dtm_ok, bool_decide_eq_true by (lia || by eapply path_ok_len). cbn. unfold childs0.
  rewrite decide_False by lia. apply fmap_is_Some.
Qed.
Lemma node_at_level p x : path_ok 1 (length p) p -> length p < D -> node_at D t p x -> level_ptr D P (length p) x.
Proof.
  intros Hp Hl. unfold node_at. rewrite (dwalk_ok _ _ _ _ Sh) by done. destruct (P !! p) as [a|] eqn:Ea; cbn [fmap option_fmap option_map].
  - intros ->. left. eauto.
  - intros ->. by right.
Qed.
Lemma node_at_contains p x i : path_ok 1 (length p) p -> length p < D -> (i < 64)%N -> node_at D t p x ->
  node_contains (d_heap t) x i = Ok (dtm t p i).
Proof.
  intros Hp Hl Hi. unfold node_at, dtm. rewrite (dwalk_ok _ _ _ _ Sh) by done.
  destruct (P !! p) as [a|] eqn:Ea; cbn [fmap option_fmap option_map]; intros ->.
  - destruct (sh_node _ _ _ _ _ _ Sh _ _ Ea) as (n & Hn & Hk & Hr). unfold node_contains. cbn [hread]. rewrite Hn, bind_ok.
    by apply get_bit_unchecked_ok.
  - unfold node_contains. cbn [hread]. unfold static_node.
    destruct (decide (9 - D + length p < 8)); [|rewrite decide_True by lia]; rewrite bind_ok; cbn [n_mask];
      by rewrite get_bit_unchecked_ok, N.bits_0.
Qed.
Lemma node_at_mask p x : path_ok 1 (length p) p -> length p < D -> node_at D t p x ->
  exists w, node_mask (d_heap t) x = Ok w /\ mask_is 1 [w] (dtm t p).
Proof.
  intros Hp Hl. unfold node_at, dtm, mask_is, node_mask. rewrite (dwalk_ok _ _ _ _ Sh) by done.
  destruct (P !! p) as [a|] eqn:Ea; cbn [fmap option_fmap option_map]; intros ->.
  - destruct (sh_node _ _ _ _ _ _ Sh _ _ Ea) as (n & Hn & Hk & Hr). cbn [hread]. rewrite Hn, bind_ok.
    pose proof (nr_word _ _ _ Hr) as Hw. exists (n_mask n). split; [done|]. split; [split; [done|by constructor]|].
    intros i. apply Bool.eq_iff_eq_true. rewrite <- elem_of_mbits, mbits_single, elem_of_wbits by done.
    split; [by intros [??]|]. intros Hb. split; [|done]. destruct (decide (i < 64)%N); [done|].
    rewrite testbit_high in Hb; [done..|lia].
  - exists 0%N. cbn [hread]. unfold static_node.
    split; [destruct (decide (9 - D + length p < 8)); [done|by rewrite decide_True by lia]|].
    split; [split; [done|constructor; [apply word_ok_0|constructor]]|].
    intros i. apply not_true_is_false. rewrite <- elem_of_mbits, mbits_single, wbits_0 by apply word_ok_0. set_solver.
Qed.
End inv.

Lemma dsem_ok ex t m q : dense_inv D ex t m -> path_ok 1 D q -> dsem D t q = m !! key_of_path 1 q.
Proof. intros Hi Hq. unfold dsem. by rewrite (dense_data_ok D HD0 HD ex t m). Qed.
Lemma dsem_J t P J m q : shape D (d_heap t) (d_root t) P J None -> vec_ok D J (d_keys t) (d_data t) m -> path_ok 1 D q ->
  is_Some (dsem D t q) <-> is_Some (J !! q).
Proof.
  intros Sh Hv Hq. assert (dense_inv D allp t m) as Hi by (exists P, J; split; [done|]; split; [done|]; by left).
  rewrite (dsem_ok allp t m) by done.
  rewrite (vec_m_J D HD0 HD _ _ _ _ Hv) by (rewrite KB_msize; apply path_ok_bound; [by left|done]).
  rewrite level_indices_of_path by (done || by left). done.
Qed.

Lemma take_app_len {A} (p : list A) x : take (S (length p)) (p ++ [x]) = p ++ [x].
Proof. apply take_ge. rewrite app_length. cbn. lia. Qed.
Lemma take_app_lt {A} (p : list A) x n : n < length p -> take (S n) (p ++ [x]) = take (S n) p.
Proof. intros Hn. apply take_app_le. lia. Qed.

Lemma dRk_take t c p n : dRk D t c p -> dRk D t c (take n p).
Proof.
  intros [Hl H]. split; [done|]. intros k Hk. rewrite take_length in Hk. destruct (H k ltac:(lia)) as (x & Hx & Hn).
  exists x. split; [done|]. rewrite take_take. by replace (S k `min` n) with (S k) by lia.
Qed.
Lemma prev_ok t P J c p : shape D (d_heap t) (d_root t) P J None -> dRk D t c p -> S (length p) < D ->
  exists x, dcur_prev t c (S (length p)) = Ok x /\ node_at D t p x.
Proof.
  intros Sh [Hl H] Hp. unfold dcur_prev. destruct p as [|i p].
  - cbn [length]. rewrite decide_True by done. eexists. split; [done|]. done.
  - cbn [length]. rewrite decide_False by lia. replace (S (S (length p)) - 2) with (length p) by lia.
    destruct (H (length p)) as (x & Hx & Hn); [cbn; lia|]. rewrite (get_u_ok _ _ _ Hx), bind_ok. exists x.
    split; [done|]. rewrite take_ge in Hn; [done|cbn; lia].
Qed.
Lemma term_ok t P J c p : shape D (d_heap t) (d_root t) P J None -> dRk D t c p -> path_ok 1 (D - 1) p ->
  exists x, dcur_node D t c = Ok x /\ node_at D t p x.
Proof.
  intros Sh [Hl H] [Hp _]. unfold dcur_node. destruct (decide (D = 1)) as [->|Hne].
  - destruct p; [|done]. eexists. split; [done|]. done.
  - destruct (H (D - 2)) as (x & Hx & Hn); [lia|]. rewrite Hl. replace (D - 1 - 1) with (D - 2) by lia.
    rewrite (get_u_ok _ _ _ Hx), bind_ok. exists x. split; [done|]. rewrite take_ge in Hn; [done|lia].
Qed.
Lemma select_commit t P J c p i (x : ptr) : shape D (d_heap t) (d_root t) P J None -> dRk D t c p ->
  path_ok 1 (length p) p -> S (length p) < D -> (i < 64)%N -> node_at D t (p ++ [i]) x ->
  exists c' w, set_u c (S (length p) - 1) (Some x) = Ok c' /\ node_mask (d_heap t) x = Ok w /\
    mask_is 1 [w] (dtm t (p ++ [i])) /\ dRk D t c' (p ++ [i]).
Proof.
  intros Sh [Hl H] Hp Hlt Hi Hx. replace (S (length p) - 1) with (length p) by lia.
  assert (length (p ++ [i]) = S (length p)) as Hla by (rewrite app_length; cbn; lia).
  assert (path_ok 1 (length (p ++ [i])) (p ++ [i])) as Hpa by (rewrite Hla; by apply path_ok_snoc).
  destruct (node_at_mask t P J Sh (p ++ [i]) x) as (w & Hw & Hm); [done|lia|done|].
  eexists _, w. rewrite set_u_ok by lia. split; [done|]. split; [done|]. split; [done|]. split; [by rewrite insert_length|].
  intros k Hk. destruct (decide (k = length p)) as [->|Hne].
  - exists x. rewrite list_lookup_insert by lia. split; [done|]. by rewrite take_app_len.
  - destruct (H k ltac:(lia)) as (y & Hy & Hn). exists y. rewrite list_lookup_insert_ne by done. split; [done|].
    by rewrite take_app_lt by lia.
Qed.

Definition lawful_dense (ex : list N -> Prop) : lawful (dense_tree V D).
Proof.
  refine (Lawful (dense_tree V D) (fun t => exists m, dense_inv D ex t m) (dsem D) dtm true (dRv D) (dRk D) (dRk D)
    _ _ _ _ _ _ _ _ _ _ _ _ _ _ _ _ _ _ _); cbn [t_nw t_depth t_T t_C t_V t_data t_data_u t_new t_select t_select_u t_cdata t_cdata_u dense_tree].
  - by left.
  - lia.
  - intros t q v n i [m (P & J & Sh & Hv & _)] Hq Hs Hn. pose proof (lookup_lt_Some _ _ _ Hn) as Hlt.
    assert (is_Some (J !! q)) as [j Hj] by (apply (dsem_J t P J m); [done..|]; by rewrite Hs).
    assert (path_ok 1 (length (take n q)) (take n q)) as Ht.
    { eapply path_ok_len, (path_ok_take _ _ _ n), Hq. }
    pose proof (proj1 Hq) as Hlen.
    destruct (decide (S n < D)) as [HnD|HnD].
    + rewrite (dtm_node t P J Sh) by (done || rewrite take_length; lia).
      rewrite <- take_snoc by done. destruct (J_node D HD0 HD _ _ _ _ _ _ _ Sh Hj) as [_ [a Ha]].
      eapply (sh_prefix _ _ _ _ _ _ _ (drop (S n) (take (D - 1) q)) _ Sh).
      replace (take (S n) q) with (take (S n) (take (D - 1) q)) by (rewrite take_take; f_equal; lia).
      rewrite take_drop. exact Ha.
    + rewrite (dtm_elem t P J Sh); [|split; [rewrite take_length; lia|apply Ht]].
      rewrite <- take_snoc by done. rewrite take_ge by lia. eauto.
  - intros t p i [m (P & J & Sh & Hv & _)] Hp Hb. apply (dtm_elem t P J Sh) in Hb; [|done].
    destruct Hb as [j Hj]. apply (dsem_J t P J m); [done..| |eauto]. apply (sh_jpath _ _ _ _ _ _ Sh _ _ Hj).
  - intros t p i [m (P & J & Sh & Hv & _)] Hp Hl Hb.
    rewrite (dtm_ok t P J Sh), bool_decide_eq_true in Hb by done. destruct Hb as [s Hs].
    destruct (P !! p) as [a|] eqn:Ea.
    + destruct (sh_node _ _ _ _ _ _ Sh _ _ Ea) as (n & Hn & Hk & Hr). by eapply nr_bound.
    + by rewrite (no_node_childs _ _ _ _ Sh) in Hs.
  - intros t p i j [m (P & J & Sh & Hv & _)] Hp Hl Hi Hb. apply (dtm_node t P J Sh); [done..|].
    rewrite (dtm_ok t P J Sh), bool_decide_eq_true in Hb; [|rewrite app_length; cbn; try lia..].
    + destruct (P !! (p ++ [i])) as [a|] eqn:Ea; [eauto|]. rewrite (no_node_childs _ _ _ _ Sh) in Hb by done. by destruct Hb.
    + rewrite Nat.add_1_r. by apply path_ok_snoc.
  - done.
  - intros t c p [H _]. exact H.
  - intros t c p n. apply dRk_take.
  - intros t c p n. apply dRk_take.
  - intros t _. eexists. split; [done|]. unfold dRv, dcur_new. by rewrite replicate_length.
  - intros t c [m (P & J & Sh & Hv & _)] Hc. unfold dcur_select. rewrite decide_True by done.
    destruct (node_at_mask t P J Sh [] (d_root t)) as (w & -> & Hm); [apply path_ok_nil|cbn; lia|done|].
    eexists _, _. split; [reflexivity|]. split; [done|]. split; [done|]. cbn. lia.
  - intros t c [m (P & J & Sh & Hv & _)] Hc. unfold dcur_select_u. rewrite decide_True by done.
    destruct (node_at_mask t P J Sh [] (d_root t)) as (w & -> & Hm); [apply path_ok_nil|cbn; lia|done|].
    eexists _, _. split; [reflexivity|]. split; [done|]. split; [done|]. cbn. lia.
  - intros t c p i [m (P & J & Sh & Hv & _)] Hc Hp Hl Hi. unfold dcur_select. rewrite decide_False by lia.
    destruct (prev_ok t P J c p Sh Hc Hl) as (x & -> & Hx). rewrite bind_ok.
    rewrite (node_at_contains t P J Sh p x) by (done || lia). rewrite bind_ok.
    destruct (child_ptr_any D HD _ _ _ _ Sh (length p) x i) as (y & Hy & Hly); [apply (node_at_level t P J Sh); (done || lia)|done|done|].
    rewrite Hy, bind_ok. unfold empty_node. rewrite decide_True by (unfold EMPTY_LEN; lia).
    rewrite decide_True by (unfold EMPTY_LEN; lia). rewrite bind_ok.
    assert (length (p ++ [i]) = S (length p)) as Hla by (rewrite app_length; cbn; lia).
    assert (path_ok 1 (length (p ++ [i])) (p ++ [i])) as Hpa by (rewrite Hla; by apply path_ok_snoc).
    destruct (select_commit t P J c p i (if dtm t p i then y else PStatic (EMPTY_LEN - D + S (length p)))) as (c' & w & -> & Hw & Hm & Hc');
      try done.
    { unfold node_at. rewrite (dwalk_ok _ _ _ _ Sh) by (done || lia).
      pose proof (dtm_node t P J Sh p i Hp Hl) as Hd. destruct (P !! (p ++ [i])) as [b|] eqn:Eb; cbn [fmap option_fmap option_map].
      - rewrite (proj2 Hd) by eauto. unfold node_at in Hx. rewrite (dwalk_ok _ _ _ _ Sh) in Hx by (done || lia).
        destruct (sh_parent _ _ _ _ _ _ Sh _ _ _ Eb) as [a Ha]. rewrite Ha in Hx. cbn in Hx. subst x.
        rewrite (child_ptr_present D HD _ _ _ _ Sh p i a b) in Hy by done. by injection Hy as <-.
      - destruct (dtm t p i); [by destruct (proj1 Hd eq_refl)|]. by rewrite Hla. }
    rewrite bind_ok, Hw, bind_ok. eauto.
  - intros t c p i [m (P & J & Sh & Hv & _)] Hc Hp Hl Hb. unfold dcur_select_u. rewrite decide_False by lia.
    destruct (prev_ok t P J c p Sh Hc Hl) as (x & -> & Hx). rewrite bind_ok.
    apply (dtm_node t P J Sh) in Hb as [b Hb]; [|done..].
    destruct (sh_path _ _ _ _ _ _ Sh _ _ Hb) as [Hpb _].
    assert (i < 64)%N as Hi by (destruct Hpb as [_ Hpb]; apply Forall_app in Hpb as [_ Hpb]; by apply Forall_inv in Hpb).
    destruct (sh_parent _ _ _ _ _ _ Sh _ _ _ Hb) as [a Ha].
    unfold node_at in Hx. rewrite (dwalk_ok _ _ _ _ Sh) in Hx by (done || lia). rewrite Ha in Hx. cbn in Hx. subst x.
    rewrite (child_ptr_present D HD _ _ _ _ Sh p i a b), bind_ok by done.
    destruct (select_commit t P J c p i (PHeap b)) as (c' & w & -> & Hw & Hm & Hc'); try done.
    { unfold node_at. rewrite (dwalk_ok _ _ _ _ Sh); [by rewrite Hb|done|rewrite app_length; cbn; lia]. }
    rewrite bind_ok, Hw, bind_ok. eauto.
  - intros t q [m Hm] Hq. rewrite (dense_data_ok D HD0 HD ex t m) by done. by rewrite (dsem_ok ex t m).
  - intros t q v [m Hm] Hq Hs. unfold dense_data_unchecked. rewrite (dense_data_ok D HD0 HD ex t m), bind_ok by done.
    rewrite (dsem_ok ex t m) in Hs by done. by rewrite Hs.
  - intros t c p i [m (P & J & Sh & Hv & He)] Hc Hp Hi. unfold dcur_data.
    assert (path_ok 1 D (p ++ [i])) as Hq by (replace D with (S (D - 1)) by lia; by apply path_ok_snoc).
    pose proof (proj1 Hp) as Hpl.
    destruct (term_ok t P J c p Sh Hc Hp) as (x & -> & Hx). rewrite bind_ok.
    rewrite (node_at_contains t P J Sh p x), bind_ok by (done || lia || by eapply path_ok_len).
    rewrite (dsem_ok ex t m) by (done || by exists P, J).
    pose proof (dtm_elem t P J Sh p i Hp) as Hd. destruct (J !! (p ++ [i])) as [j|] eqn:Ej.
    + rewrite (proj2 Hd) by eauto. destruct (J_node D HD0 HD _ _ _ _ _ _ _ Sh Ej) as [_ [a Ha]].
      rewrite take_app_alt in Ha by lia. unfold node_at in Hx. rewrite (dwalk_ok _ _ _ _ Sh) in Hx by (lia || by eapply path_ok_len).
      rewrite Ha in Hx. cbn in Hx. subst x. rewrite (child_idx_present D HD _ _ _ _ Sh p i a j), bind_ok by (done || lia).
      destruct (vec_J_data D HD0 HD _ _ _ _ Hv _ _ Ej) as (v & Hdv & Hmv). unfold data_get.
      rewrite (get_u_ok _ _ _ Hdv), bind_ok, bind_ok. eexists. split; [done|]. rewrite Hmv. split; congruence.
    + destruct (dtm t p i); [by destruct (proj1 Hd eq_refl)|]. eexists. split; [done|]. split; [|done].
      intros v Hmv. exfalso. assert (is_Some (J !! level_indices 1 D (key_of_path 1 (p ++ [i])))) as [j Hj].
      { apply (vec_m_J D HD0 HD _ _ _ _ Hv); [|eauto]. rewrite KB_msize. apply path_ok_bound; [by left|done]. }
      rewrite level_indices_of_path in Hj by (done || by left). congruence.
  - intros t c p i v [m (P & J & Sh & Hv & He)] Hc Hp Hi Hs. unfold dcur_data_u.
    assert (path_ok 1 D (p ++ [i])) as Hq by (replace D with (S (D - 1)) by lia; by apply path_ok_snoc).
    pose proof (proj1 Hp) as Hpl.
    destruct (term_ok t P J c p Sh Hc Hp) as (x & -> & Hx). rewrite bind_ok.
    assert (is_Some (J !! (p ++ [i]))) as [j Ej] by (apply (dsem_J t P J m); [done..|]; by rewrite Hs).
    rewrite (dsem_ok ex t m) in Hs by (done || by exists P, J).
    destruct (J_node D HD0 HD _ _ _ _ _ _ _ Sh Ej) as [_ [a Ha]].
    rewrite take_app_alt in Ha by lia. unfold node_at in Hx. rewrite (dwalk_ok _ _ _ _ Sh) in Hx by (lia || by eapply path_ok_len).
    rewrite Ha in Hx. cbn in Hx. subst x. rewrite (child_idx_present D HD _ _ _ _ Sh p i a j), bind_ok by (done || lia).
    destruct (vec_J_data D HD0 HD _ _ _ _ Hv _ _ Ej) as (v' & Hdv & Hmv). unfold data_get.
    rewrite (get_u_ok _ _ _ Hdv), bind_ok. congruence.
Defined.

Lemma dense_at ex t m k : dense_inv D ex t m -> (k < KB D)%N -> l_at (lawful_dense ex) t k = m !! k.
Proof.
  intros Hi Hk. unfold l_at. cbn [t_nw t_depth dense_tree l_sem lawful_dense].
  destruct (key_path D HD0 k Hk) as [Hq E]. rewrite (dsem_ok ex t m) by done. by rewrite E.
Qed.

(** no empty nodes: no false-positive bits *)
Lemma dense_hierarchy_exact bad ex t m : dense_inv D (above 1 D bad) t m -> hierarchy_exact bad (lawful_dense ex) t.
Proof.
  intros (P & J & Sh & Hv & He). intros p i.
  cbn [t_nw t_depth dense_tree l_sem l_tm lawful_dense].
  remember (D - length p) as n eqn:En. revert p i En. induction n as [|n IH]; intros p i En Hp Hl Hb; [lia|].
  destruct (decide (S (length p) < D)) as [HpD|HpD].
  - apply (dtm_node t P J Sh) in Hb; [|done..]. destruct (He (p ++ [i])) as [(r & Hr & Hbad)|[i' Hi']]; [by destruct p|done| |].
    { exists r. rewrite <- app_assoc in Hr, Hbad. split; [done|]. by right. }
    assert (path_ok 1 (length (p ++ [i])) (p ++ [i])) as Hpi by (destruct Hb as [b Hb]; apply (sh_path _ _ _ _ _ _ Sh _ _ Hb)).
    assert (length (p ++ [i]) = S (length p)) as Hlen by (rewrite app_length; cbn; lia).
    destruct (IH (p ++ [i]) i') as (r & Hr & Hs); [lia|done|lia| |].
    + rewrite (dtm_ok t P J Sh) by (done || lia). by apply bool_decide_eq_true.
    + exists (i' :: r). rewrite <- app_assoc in Hr, Hs. done.
  - assert (path_ok 1 (D - 1) p) as Hp1 by (split; [lia|apply Hp]).
    apply (dtm_elem t P J Sh) in Hb; [|done]. exists []. destruct Hb as [j Hj].
    destruct (sh_jpath _ _ _ _ _ _ Sh _ _ Hj) as [Hq _]. split; [done|]. left. apply (dsem_J t P J m); eauto.
Qed.
End dense_tree.
