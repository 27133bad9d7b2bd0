(** * SparseTree: the public operations preserve the invariant and refine the map *)
From Verif Require Import Base BitUtils BitUtilsProofs BitQueue LevelIndices LevelIndicesProofs
  ConstLoops Hierarchy Lawful Dense DenseNode DenseShape Sparse SparseVec SparseShape SparseProofs.

Section sops.
Context (nw D : nat).
Hypothesis Hnw : nw_ok nw.
Hypothesis HD0 : 1 <= D.
Hypothesis HD : D <= 9.
Notation pmap := (gmap (list N) N).
Notation sshape := (sshape nw D).
Notation schilds := (schilds D).
Notation schilds0 := (schilds0 D).
Notation SKB := (SKB nw D).
Notation fits := (fits nw D).
Notation on_path := (on_path nw D).
Notation scover := (scover nw D).
Implicit Types (P J : pmap).
(** bound of a value index *)
Definition VB : N := 2 ^ lbits (D - 1).

Context {V : Type} (first : option V).
Implicit Types (t : sparse V) (m : gmap N V) (E : gset N).
Notation svec_ok := (svec_ok nw D VB first).

(** back references: the block and in-block index of every value *)
Definition lbi_ok P J (lbi : list (N * N)) : Prop :=
  forall q j, J !! q = Some j -> exists p i a, q = p ++ [i] /\ P !! p = Some a /\ lbi !! N.to_nat j = Some (a, i).
Definition sparse_inv (E : gset N) t m : Prop := exists P J,
  sshape (s_levels t) P J None /\ svec_ok J (s_keys t) (s_values t) m /\
  length (s_lbi t) = length (s_keys t) /\ lbi_ok P J (s_lbi t) /\ scover E P J None.

Lemma sparse_inv_mono E E' t m : E ⊆ E' -> sparse_inv E t m -> sparse_inv E' t m.
Proof.
  intros HE (P & J & H1 & H2 & H3 & H4 & H5). exists P, J. repeat (split; [done|]). intros p Hp HP.
  destruct (H5 p Hp HP) as [?|(k & Hk & Ho)]; [by left|right]. exists k. split; [by apply HE|done].
Qed.

(** ** lookup *)
Lemma sparse_fetch E t m q : sparse_inv E t m -> path_ok nw D q ->
  exists j, fetch_block_index D t q = Ok j /\
   match m !! key_of_path nw q with
   | Some v => (0 < j)%N /\ data_get (s_values t) (N.to_nat j) = Ok v /\ s_keys t !! N.to_nat j = Some (key_of_path nw q)
   | None => j = 0%N
   end.
Proof.
  intros (P & J & Sh & Hv & _ & _ & _) Hq. unfold fetch_block_index.
  destruct (fetch_ok nw D HD0 HD _ _ _ _ _ Sh Hq) as (out & -> & _ & _). rewrite bind_ok. eexists. split; [done|].
  pose proof (path_ok_bound nw D q Hnw Hq) as Hb.
  destruct (J !! q) as [j|] eqn:Ej.
  - destruct (svec_J_data nw D VB HD0 first _ _ _ _ Hv _ _ Ej) as (v & Hd & ->). pose proof (J_pos nw D _ _ _ _ _ _ Sh Ej).
    cbn [from_option id]. split; [done|]. unfold data_get. rewrite (get_u_ok _ _ _ Hd). split; [done|].
    by apply (sv_J _ _ _ _ _ _ _ _ Hv) in Ej as (_ & _ & Hk).
  - destruct (m !! key_of_path nw q) as [v|] eqn:Em; [|done].
    pose proof (proj1 (svec_m_J nw D VB Hnw HD0 first _ _ _ _ Hv (key_of_path nw q) Hb) ltac:(eauto)) as Hs.
    rewrite level_indices_of_path in Hs by (done || lia). rewrite Ej in Hs. by destruct Hs.
Qed.

Lemma sparse_data_ok E t m q : sparse_inv E t m -> path_ok nw D q ->
  sparse_data D t (key_of_path nw q) q = Ok (m !! key_of_path nw q).
Proof.
  intros Hi Hq. unfold sparse_data. destruct (sparse_fetch _ _ _ _ Hi Hq) as (j & -> & Hm). rewrite bind_ok.
  destruct (m !! key_of_path nw q) as [v|].
  - destruct Hm as (Hj & Hd & _). assert ((j =? 0)%N = false) as -> by (apply N.eqb_neq; lia). by rewrite Hd.
  - by subst j.
Qed.

(** ** default *)
Lemma sparse_default_ok req dflt : (req = true -> is_Some dflt) ->
  first = (if req then dflt else None) ->
  exists t, sparse_default V nw D req dflt = Ok t /\ sparse_inv ∅ t ∅.
Proof.
  intros Hd Hf. unfold sparse_default.
  assert ((if req then match dflt with Some v => Ok (Some v) | None => UB end else Ok None) = Ok first) as ->.
  { subst first. destruct req; [|done]. by destruct (Hd eq_refl) as [v ->]. }
  rewrite bind_ok. eexists. split; [done|]. exists {[ [] := 0%N ]}, ∅. cbn [s_levels s_values s_keys s_lbi].
  assert (forall r (j : N), ({[ [] := 0%N ]} : gmap (list N) N) !! (r ++ [j]) = None) as Hnone.
  { intros r j. apply lookup_singleton_ne. intros E. symmetry in E. by apply app_nil in E as [_ ?]. }
  assert (forall p i, schilds {[ [] := 0%N ]} ∅ None p i = None) as Hch.
  { intros p i. cbn. unfold SparseShape.schilds0. destruct (decide _); [apply Hnone|apply lookup_empty]. }
  split; [|split; [|split; [|split]]].
  - constructor.
    + by rewrite fmap_length, seq_length.
    + intros n l Hl. rewrite list_lookup_fmap in Hl. destruct (seq 0 D !! n) as [n'|] eqn:En; [|done].
      apply lookup_seq in En as [-> Hn]. cbn in Hl. injection Hl as <-. destruct n as [|n]; cbn [lvl_ok lv_default].
      * exists (blk_empty nw). split; [done|]. eapply br_ext; [|apply blk_empty_rep]. intros i. by rewrite Hch.
      * exists [blk_empty nw], U64MAX, []. split; [done|]. constructor; try done.
        -- intros p a [<- _]%lookup_singleton_Some. done.
        -- constructor.
        -- by intros a ?%elem_of_nil.
        -- intros a H1 H2. cbn in H2. lia.
        -- cbn [length]. apply N.lt_pred_le. apply N.neq_0_lt_0. apply N.pow_nonzero. done.
    + apply lookup_singleton.
    + intros p a [<- _]%lookup_singleton_Some ?. done.
    + intros p q a [<- _]%lookup_singleton_Some [<- _]%lookup_singleton_Some. done.
    + intros p a [<- _]%lookup_singleton_Some. split; [apply path_ok_nil|cbn; lia].
    + intros p i a Hpi. by rewrite Hnone in Hpi.
    + intros q j Hj. by rewrite lookup_empty in Hj.
  - constructor; try done.
    + cbn [length]. unfold VB. apply N.lt_pred_le. apply N.neq_0_lt_0. apply N.pow_nonzero. done.
    + intros [|j] k Hj; [lia|done].
    + intros q j. rewrite lookup_empty. split; [done|]. intros (_ & Hj & Hk).
      destruct (N.to_nat j) eqn:E; [lia|done].
    + intros [|j] Hj Hl; cbn in Hl; lia.
    + intros k v. rewrite lookup_empty. split; [done|]. intros ([|j] & Hj & Hk & _); [lia|done].
  - done.
  - intros q j Hj. by rewrite lookup_empty in Hj.
  - intros p Hp [a Ha]. apply lookup_singleton_Some in Ha as [<- _]. done.
Qed.

(** ** references to values *)
Definition splace_of t (j : N) (k : N) : Prop := (1 <= j)%N /\ s_keys t !! N.to_nat j = Some k.
Definition swrite_place t (j : N) (v : V) : res (sparse V) :=
  let* data := set_u (s_values t) (N.to_nat j) (Some v) in Ok (Sparse (s_levels t) data (s_keys t) (s_lbi t)).
Lemma swrite_place_ok E t m j k v : sparse_inv E t m -> splace_of t j k ->
  exists t', swrite_place t j v = Ok t' /\ sparse_inv E t' (<[k := v]> m).
Proof.
  intros (P & J & Sh & Hv & Hr) [Hj Hk]. unfold swrite_place. rewrite set_u_ok.
  - rewrite bind_ok. eexists. split; [done|]. exists P, J. cbn [s_levels s_values s_keys s_lbi].
    split; [done|]. split; [|done]. eapply svec_set; [done|done|exact Hv|lia|done].
  - rewrite (sv_len _ _ _ _ _ _ _ _ Hv). by eapply lookup_lt_Some.
Qed.
Lemma splace_read E t m j k : sparse_inv E t m -> splace_of t j k ->
  exists v, m !! k = Some v /\ data_get (s_values t) (N.to_nat j) = Ok v.
Proof.
  intros (P & J & Sh & Hv & _) [Hj Hk].
  destruct (sv_data _ _ _ _ _ _ _ _ Hv (N.to_nat j) ltac:(lia)) as [v Hd]; [rewrite (sv_len _ _ _ _ _ _ _ _ Hv); by eapply lookup_lt_Some|].
  exists v. split; [apply (sv_m _ _ _ _ _ _ _ _ Hv); exists (N.to_nat j); split; [lia|done]|].
  unfold data_get. by rewrite (get_u_ok _ _ _ Hd).
Qed.

Lemma sparse_get_mut_ok E t m k : sparse_inv E t m -> (k < SKB)%N -> index_from nw D k = Ok k ->
  match m !! k with
  | Some v => exists j, sparse_get_mut nw D t k = Ok (Some j) /\ splace_of t j k
  | None => sparse_get_mut nw D t k = Ok None
  end.
Proof.
  intros Hi Hk Hix. unfold sparse_get_mut. rewrite Hix, bind_ok.
  destruct (level_indices_ok nw D k Hnw ltac:(lia) Hk) as [Hq Hkq].
  destruct (sparse_fetch _ _ _ _ Hi Hq) as (j & -> & Hm). rewrite Hkq in Hm. rewrite bind_ok.
  destruct (m !! k) as [v|].
  - destruct Hm as (Hj & Hd & Hkk). assert ((j =? 0)%N = false) as -> by (apply N.eqb_neq; lia). rewrite Hd, bind_ok.
    exists j. split; [done|]. split; [lia|done].
  - by subst j.
Qed.
Lemma sparse_get_or_default_ok E t m k d : sparse_inv E t m -> (k < SKB)%N -> index_from nw D k = Ok k -> first = Some d ->
  sparse_get_or_default nw D t k = Ok (default d (m !! k)).
Proof.
  intros Hi Hk Hix Hf. unfold sparse_get_or_default. rewrite Hix, bind_ok.
  destruct (level_indices_ok nw D k Hnw ltac:(lia) Hk) as [Hq Hkq].
  destruct (sparse_fetch _ _ _ _ Hi Hq) as (j & -> & Hm). rewrite Hkq in Hm. rewrite bind_ok.
  destruct (m !! k) as [v|]; [by destruct Hm as (_ & -> & _)|]. subst j.
  destruct Hi as (P & J & Sh & Hv & _). pose proof (sv_d0 _ _ _ _ _ _ _ _ Hv) as H0. rewrite Hf in H0.
  unfold data_get. change (N.to_nat 0) with 0. by rewrite (get_u_ok _ _ _ H0).
Qed.

(** ** get_or_insert / insert *)
Lemma sdom_covered E t m P J : sshape (s_levels t) P J None -> svec_ok J (s_keys t) (s_values t) m -> scover E P J None ->
  covered nw D (dom m ∪ E) P.
Proof.
  intros Sh Hv Hc. eapply scover_covered; [done|done|done|exact Sh|exact Hc|set_solver|].
  intros q j Hj. destruct (svec_J_data nw D VB HD0 first _ _ _ _ Hv _ _ Hj) as (v & _ & Hm).
  apply elem_of_union_l. by apply elem_of_dom_2 in Hm.
Qed.
Lemma level_keys_D K : level_keys nw D D K = K.
Proof.
  apply set_eq. intros x. unfold level_keys. rewrite elem_of_map, Nat.sub_diag. change (N.of_nat 0) with 0%N.
  rewrite N.pow_0_r. split.
  - intros (y & -> & Hy). by rewrite N.div_1_r.
  - intros Hx. exists x. by rewrite N.div_1_r.
Qed.

Lemma sgoi_impl_ok E t m k ins vf : sparse_inv E t m -> (k < SKB)%N ->
  (m !! k = None -> fits (dom m ∪ E ∪ {[k]})) ->
  exists t' oj dr, sgoi_impl nw D t k ins vf = Ok (t', oj, dr) /\
  match m !! k, vf with
  | Some old, Some v =>
      if ins then sparse_inv E t' (<[k := v]> m) /\ dr = [old] /\ exists j, oj = Some j /\ splace_of t' j k
      else sparse_inv E t' m /\ dr = [] /\ exists j, oj = Some j /\ splace_of t' j k
  | Some old, None =>
      sparse_inv E t' m /\ dr = [] /\
      if ins then oj = None else exists j, oj = Some j /\ splace_of t' j k
  | None, Some v => sparse_inv E t' (<[k := v]> m) /\ dr = [] /\ exists j, oj = Some j /\ splace_of t' j k
  | None, None => sparse_inv (E ∪ {[k]}) t' m /\ dr = [] /\ oj = None
  end.
Proof.
  intros (P & J & Sh & Hv & HLl & Hlbi & Hc) Hk Hguard.
  destruct (level_indices_ok nw D k Hnw ltac:(lia) Hk) as [Hq Hkq].
  unfold sgoi_impl. set (q := level_indices nw D k) in *.
  destruct (spath_last nw D HD0 HD q Hq) as (i & Eq & Hi & Hib & ->). rewrite bind_ok.
  rewrite const_loop_ok by lia. rewrite Nat.sub_0_r.
  assert (m !! k = None <-> J !! q = None) as HmJ.
  { rewrite !eq_None_not_Some, (svec_m_J nw D VB Hnw HD0 first _ _ _ _ Hv k Hk). done. }
  destruct (sgoi_loop nw D Hnw HD0 HD (D - 1) 0 (s_levels t) P J q k 0%N (dom m ∪ E ∪ {[k]}) Sh eq_refl Hk)
    as (ls1 & P1 & a1 & -> & Sh1 & Ha1 & [G1 G2]).
  { lia. }
  { change (take 0 q) with (@nil N). apply (ss_root _ _ _ _ _ _ Sh). }
  { destruct (J !! q) as [j|] eqn:Ej; [left; by eapply sJ_node|right].
    split; [|split; [set_solver|by apply Hguard, HmJ]].
    pose proof (sdom_covered _ _ _ _ _ Sh Hv Hc) as Hcov. intros p Hp HP. destruct (Hcov p Hp HP) as (k' & Hk' & Ho).
    exists k'. split; [set_solver|done]. }
  rewrite bind_ok. pose proof (spath_take_len nw D HD0 HD q (D - 1) Hq ltac:(lia)) as Hlen.
  destruct (ss_block _ _ _ _ _ _ _ _ Sh1 Ha1) as (b & Hb & Hr). rewrite Hlen in Hb. rewrite Hb, bind_ok.
  rewrite (blk_get_ok _ _ _ _ Hr Hib), bind_ok.
  assert (schilds P1 J None (take (D - 1) q) i = J !! q) as Hci.
  { cbn. unfold SparseShape.schilds0. rewrite decide_False by lia. by rewrite <- Eq. }
  rewrite Hci.
  assert (lbi_ok P1 J (s_lbi t)) as Hlbi1.
  { intros q' j Hj. destruct (Hlbi q' j Hj) as (p & i' & a & -> & Ha & Hl). exists p, i', a. split; [done|]. split; [by apply G1|done]. }
  (* children along q *)
  assert (forall J' p, is_Some (J' !! q) -> p <> [] -> is_Some (P1 !! p) -> p = take (length p) q ->
     exists x, is_Some (schilds P1 J' None p x)) as Halong.
  { intros J' p HJq Hp [ap Hap] Ep. destruct (ss_path _ _ _ _ _ _ Sh1 _ _ Hap) as [_ Hpl].
    destruct (spath_lookup nw D HD0 HD q (length p) Hq Hpl) as (x & Hx & _). exists x. cbn. unfold SparseShape.schilds0.
    assert (p ++ [x] = take (S (length p)) q) as Epx by (rewrite (spath_take_S _ _ _ Hx), <- Ep; done).
    rewrite Epx. destruct (decide (S (length p) < D)) as [Hlt|Hge].
    - eapply (sprefix_take nw D _ _ _ _ _ _ (S (length p)) Sh1); [eauto|lia].
    - replace (S (length p)) with (length q) by (destruct Hq; lia). by rewrite firstn_all. }
  assert (forall J', (forall r, is_Some (J !! r) -> is_Some (J' !! r)) -> is_Some (J' !! q) -> scover E P1 J' None) as Hc1.
  { intros J' Hsub HJq p Hp HP1. destruct (G2 p HP1) as [HP|Ep].
    - destruct (Hc p Hp HP) as [[x Hx]|?]; [left|by right]. exists x. cbn in *. unfold SparseShape.schilds0 in *.
      destruct (decide (S (length p) < D)); [|by apply Hsub]. destruct Hx as [y Hy]. exists y. by apply G1.
    - left. by apply Halong. }
  destruct (J !! q) as [j|] eqn:Ej; cbn [from_option id].
  - (* present *)
    pose proof (J_pos nw D _ _ _ _ _ _ Sh Ej) as Hj0.
    assert ((j =? 0)%N = false) as -> by (apply N.eqb_neq; lia).
    destruct (svec_J_data nw D VB HD0 first _ _ _ _ Hv _ _ Ej) as (old & Hd & Hmv). rewrite Hkq in Hmv. rewrite Hmv.
    pose proof Ej as Hjk. apply (sv_J _ _ _ _ _ _ _ _ Hv) in Hjk as (_ & Hj1 & Hkj). rewrite Hkq in Hkj.
    assert (data_get (s_values t) (N.to_nat j) = Ok old) as Hdg by (unfold data_get; by rewrite (get_u_ok _ _ _ Hd)).
    pose proof (Hc1 J (fun _ H => H) (mk_is_Some _ _ Ej)) as Hc2.
    assert (splace_of (Sparse ls1 (s_values t) (s_keys t) (s_lbi t)) j k) as Hpl by (split; cbn [s_keys]; [lia|done]).
    assert (sparse_inv E (Sparse ls1 (s_values t) (s_keys t) (s_lbi t)) m) as Hinv1 by (exists P1, J; done).
    destruct ins, vf as [v|]; rewrite ?Hdg, ?bind_ok.
    + rewrite set_u_ok by (by eapply lookup_lt_Some). rewrite bind_ok. eexists _, _, _. split; [reflexivity|].
      split; [|split; [done|]].
      * exists P1, J. cbn [s_levels s_values s_keys s_lbi]. split; [done|]. split; [|done].
        eapply svec_set; [done|done|exact Hv|lia|done].
      * eexists. split; [done|]. exact Hpl.
    + eexists _, _, _. split; [reflexivity|]. done.
    + eexists _, _, _. split; [reflexivity|]. split; [done|]. split; [done|]. eauto.
    + eexists _, _, _. split; [reflexivity|]. split; [done|]. split; [done|]. eauto.
  - (* absent *)
    change (0 =? 0)%N with true. cbn match. pose proof (proj2 HmJ eq_refl) as Hmk. rewrite Hmk. specialize (Hguard Hmk).
    destruct vf as [v|].
    + pose proof (svec_size nw D VB Hnw HD0 first _ _ _ _ Hv) as Hsz. pose proof (sv_len _ _ _ _ _ _ _ _ Hv) as HL.
      assert (N.of_nat (length (s_values t)) < VB)%N as Hlt.
      { specialize (Hguard D ltac:(lia)). rewrite level_keys_D in Hguard. fold VB in Hguard.
        assert (S (size m) <= size (dom m ∪ E ∪ {[k]})) as Hle; [|lia].
        rewrite <- size_dom.
        assert (size (dom m ∪ {[k]}) = S (size (dom m))) as <-.
        { rewrite size_union; [rewrite size_singleton; lia|]. apply disjoint_singleton_r. by apply not_elem_of_dom. }
        apply subseteq_size. set_solver. }
      unfold insert_child. rewrite Hb, bind_ok. unfold VB in Hlt. rewrite trunc_small by done. fold VB in Hlt.
      destruct (blk_insert_ok nw b _ i (N.of_nat (length (s_values t))) Hr Hib) as (b' & -> & Hr'). rewrite bind_ok.
      set (J' := <[q := N.of_nat (length (s_values t))]> J).
      pose proof (svec_pos nw D VB first _ _ _ _ Hv) as Hpos.
      destruct (ss_put nw D HD0 _ _ _ _ J' None _ _ b' Sh1 Ha1) as (ls2 & Hput & Sh2 & _ & _).
      * eapply br_ext; [|exact Hr']. intros x. unfold upd. cbn. unfold SparseShape.schilds0. rewrite !decide_False by lia.
        unfold J'. destruct (N.eqb_spec x i) as [->|Hne].
        -- rewrite <- Eq. by rewrite lookup_insert.
        -- rewrite lookup_insert_ne; [done|]. intros E'. rewrite Eq in E' at 1. by apply app_one_inj in E' as [_ ?].
      * intros r x Hne _. cbn. unfold SparseShape.schilds0. destruct (decide _); [done|]. unfold J'.
        rewrite lookup_insert_ne; [done|]. intros E'. rewrite Eq in E' at 1. by apply app_one_inj in E' as [? _].
      * intros q0 j Hj. apply lookup_insert_Some in Hj as [[<- <-]|[_ Hj]]; [|by eapply (ss_jpath _ _ _ _ _ _ Sh1)].
        split; [done|]. split; [lia|]. eexists _, _. split; [exact Eq|]. eauto.
      * rewrite Hlen in Hput. rewrite Hput, bind_ok. eexists _, _, _. split; [reflexivity|]. split; [|split; [done|]].
        -- exists P1, J'. cbn [s_levels s_values s_keys s_lbi]. split; [done|]. split; [|split; [|split]].
           ++ apply svec_add; [done|done|exact Hv|done|done|lia].
           ++ rewrite !app_length. cbn. lia.
           ++ intros q0 j Hj. apply lookup_insert_Some in Hj as [[<- <-]|[_ Hj]].
              ** exists (take (D - 1) q), i, a1. split; [done|]. split; [done|]. rewrite Nat2N.id, lookup_app_r by lia.
                 by replace (length (s_values t) - length (s_lbi t)) with 0 by lia.
              ** destruct (Hlbi1 q0 j Hj) as (p & i' & a & -> & Ha & Hl). exists p, i', a. split; [done|]. split; [done|].
                 by apply lookup_app_l_Some.
           ++ apply Hc1; unfold J'; [|rewrite lookup_insert; eauto]. intros r Hrs. apply lookup_insert_is_Some'. by right.
        -- eexists. split; [done|]. split; cbn [s_keys]; [lia|]. rewrite Nat2N.id, lookup_app_r by lia.
           by replace (length (s_values t) - length (s_keys t)) with 0 by lia.
    + eexists _, _, _. split; [reflexivity|]. split; [|done]. exists P1, J. cbn [s_levels s_values s_keys s_lbi].
      repeat (split; [done|]). intros p Hp HP1. destruct (G2 p HP1) as [HP|Ep].
      * destruct (Hc p Hp HP) as [[x Hx]|(k' & Hk' & Ho)]; [left|right; exists k'; split; [set_solver|done]].
        exists x. cbn in *. unfold SparseShape.schilds0 in *. destruct (decide (S (length p) < D)); [|done].
        destruct Hx as [y Hy]. exists y. by apply G1.
      * right. exists k. split; [set_solver|]. done.
Qed.

(** ** remove *)
Lemma sparse_remove_impl_ok E t m k : sparse_inv E t m -> (k < SKB)%N ->
  exists t', sparse_remove_impl nw D t k = Ok (t', m !! k) /\ sparse_inv E t' (delete k m).
Proof.
  intros (P & J & Sh & Hv & HLl & Hlbi & Hc) Hk.
  destruct (level_indices_ok nw D k Hnw ltac:(lia) Hk) as [Hq Hkq].
  unfold sparse_remove_impl. set (q := level_indices nw D k) in *.
  destruct (fetch_ok nw D HD0 HD _ _ _ _ _ Sh Hq) as (lbis & -> & Hlb1 & Hlb2). rewrite bind_ok.
  assert (m !! k = None <-> J !! q = None) as HmJ.
  { rewrite !eq_None_not_Some, (svec_m_J nw D VB Hnw HD0 first _ _ _ _ Hv k Hk). done. }
  destruct (J !! q) as [j|] eqn:Ej; cbn [from_option id].
  2: { change (0 =? 0)%N with true. cbn match. pose proof (proj2 HmJ eq_refl) as Hmk. rewrite Hmk. exists t. split; [done|].
       rewrite delete_notin by done. exists P, J. done. }
  pose proof (J_pos nw D _ _ _ _ _ _ Sh Ej) as Hj0.
  assert ((j =? 0)%N = false) as -> by (apply N.eqb_neq; lia).
  destruct (svec_J_data nw D VB HD0 first _ _ _ _ Hv _ _ Ej) as (old & Hd & Hmv). rewrite Hkq in Hmv. rewrite Hmv.
  pose proof Ej as Hjk. apply (sv_J _ _ _ _ _ _ _ _ Hv) in Hjk as (_ & Hj1 & Hkj). rewrite Hkq in Hkj.
  destruct (sJ_node nw D HD0 HD _ _ _ _ _ _ Sh Ej) as [_ [a Ha]].
  destruct (spath_last nw D HD0 HD q Hq) as (i & Eq & Hi & Hib & _).
  pose proof (spath_take_len nw D HD0 HD q (D - 1) Hq ltac:(lia)) as Hlen.
  assert (take (S (D - 1)) q = q) as EqD by (apply take_ge; destruct Hq; lia).
  (* the structural loop *)
  assert (forall p x, schilds P (delete q J) (Some (q, Some j)) p x = schilds P J None p x) as Hsame.
  { intros p x. cbn. destruct (decide (p ++ [x] = q)) as [E'|E'].
    - unfold SparseShape.schilds0. rewrite decide_False; [by rewrite E', Ej|].
      apply (f_equal length) in E'. rewrite app_length in E'. cbn in E'. destruct Hq. lia.
    - unfold SparseShape.schilds0. destruct (decide _); [done|]. by rewrite lookup_delete_ne. }
  replace (rev (seq 0 D)) with (rev (seq 0 (S (D - 1)))) by (do 2 f_equal; lia).
  destruct (sremove_loop nw D Hnw HD0 HD E q lbis Hq (D - 1) (s_levels t) P (delete q J) j) as (ls1 & o & P1 & -> & Sh1 & Hc1 & Hsub).
  { lia. }
  { rewrite EqD. eapply ss_ext; [exact Sh| |].
    - intros p x _. apply Hsame.
    - intros q0 j' [_ Hq0]%lookup_delete_Some. by eapply (ss_jpath _ _ _ _ _ _ Sh). }
  { rewrite Hi. cbn [from_option id]. unfold SparseShape.schilds0. rewrite decide_False by lia. rewrite <- Eq. apply lookup_delete. }
  { intros n Hn. destruct (sprefix_take nw D _ _ _ _ q (D - 1) (S n) Sh ltac:(eauto) ltac:(lia)) as [x Hx].
    exists x. split; [|done]. rewrite Hlb2 by lia. unfold next_idx. rewrite decide_True by lia. by rewrite Hx. }
  { eauto. }
  { intros p Hp HP. rewrite EqD. destruct (Hc p Hp HP) as [[x Hx]|?]; [left|by right]. exists x. by rewrite Hsame. }
  rewrite bind_ok.
  pose proof (svec_pos nw D VB first _ _ _ _ Hv) as Hpos. pose proof (sv_len _ _ _ _ _ _ _ _ Hv) as HL.
  pose proof (lookup_lt_Some _ _ _ Hkj) as Hjl. pose proof (sv_le _ _ _ _ _ _ _ _ Hv) as Hle.
  destruct (lookup_lt_is_Some_2 (s_keys t) (length (s_keys t) - 1) ltac:(lia)) as [lk Hlk].
  destruct (lookup_lt_is_Some_2 (s_lbi t) (length (s_lbi t) - 1) ltac:(lia)) as [[la li] Hla].
  unfold pop_u. rewrite (get_u_ok _ _ _ Hla), bind_ok, bind_ok. rewrite take_length, Nat.min_l by lia.
  assert ((lk < SKB)%N) as Hlkb by (eapply (sv_key _ _ _ _ _ _ _ _ Hv); [|exact Hlk]; lia).
  destruct (level_indices_ok nw D lk Hnw ltac:(lia) Hlkb) as [Hql Hkql]. set (ql := level_indices nw D lk) in *.
  assert (J !! ql = Some (N.of_nat (length (s_keys t) - 1))) as HJl.
  { apply (sv_J _ _ _ _ _ _ _ _ Hv). rewrite Nat2N.id, Hkql. split; [done|]. split; [lia|done]. }
  assert (exists lbi' ls2 J', (if decide (N.to_nat j < length (s_lbi t) - 1) then
        let* lbi := set_u (take (length (s_lbi t) - 1) (s_lbi t)) (N.to_nat j) (la, li) in
        let* b := get_block ls1 (D - 1) la in
        let* b0 := blk_set b li (trunc (D - 1) j) in
        let* ls := put_block ls1 (D - 1) la b0 in Ok (lbi, ls)
      else Ok (take (length (s_lbi t) - 1) (s_lbi t), ls1)) = Ok (lbi', ls2) /\
      sshape ls2 P1 J' None /\ scover E P1 J' None /\ length lbi' = length (s_lbi t) - 1 /\ lbi_ok P1 J' lbi' /\
      (forall r, J' !! r = if decide (r = q) then None else if decide (key_of_path nw r = lk /\ path_ok nw D r) then Some j else J !! r))
    as (lbi' & ls2 & J' & -> & Sh2 & Hc2 & Ll & Hlbi2 & HJ').
  { (* remaining nodes keep their address *)
    assert (forall p x, is_Some (delete q J !! (p ++ [x])) -> P1 !! p = P !! p) as Hkeep.
    { intros p x [y Hy]. destruct (Hsub p) as [?|Hn]; [done|]. 
      destruct (ss_jpath _ _ _ _ _ _ Sh1 _ _ Hy) as (_ & _ & p' & x' & E' & [z Hz]). apply app_one_inj in E' as [<- _]. congruence. }
    assert (forall q' j', q' <> q -> J !! q' = Some j' -> exists p i' a', q' = p ++ [i'] /\ P1 !! p = Some a' /\ s_lbi t !! N.to_nat j' = Some (a', i')) as Hlbk.
    { intros q' j' Hne Hj'. destruct (Hlbi q' j' Hj') as (p & i' & a' & -> & Ha' & Hl'). exists p, i', a'. split; [done|]. split; [|done].
      rewrite (Hkeep p i'); [done|]. rewrite lookup_delete_ne by done. eauto. }
    destruct (decide (N.to_nat j < length (s_lbi t) - 1)) as [Hlt|Hge].
    - rewrite set_u_ok, bind_ok by (rewrite take_length; lia).
      assert (ql <> q) as Hqne by (intros E'; rewrite E', Ej in HJl; injection HJl; lia).
      destruct (Hlbk ql _ Hqne HJl) as (p & i' & a' & Eql & Ha' & Hl'). rewrite Nat2N.id in Hl'.
      replace (length (s_keys t) - 1) with (length (s_lbi t) - 1) in Hl' by lia. rewrite Hla in Hl'. injection Hl' as -> ->.
      destruct (ss_block _ _ _ _ _ _ _ _ Sh1 Ha') as (b & Hb & Hr).
      assert (S (length p) = D) as Hpl by (destruct Hql as [Hl' _]; rewrite Eql, app_length in Hl'; cbn in Hl'; lia).
      replace (D - 1) with (length p) by lia. rewrite Hb, bind_ok.
      assert ((i' < msize nw)%N) as Hib' by (destruct Hql as [_ Hf]; rewrite Eql in Hf; apply Forall_app in Hf as [_ Hf]; by inversion Hf).
      assert (is_Some (schilds P1 (delete q J) None p i')) as His.
      { cbn. unfold SparseShape.schilds0. rewrite decide_False by lia. rewrite <- Eql, lookup_delete_ne by done. eauto. }
      rewrite trunc_small by (replace (length p) with (D - 1) by lia; fold VB; lia).
      destruct (blk_set_ok nw b _ i' j Hr Hib' His) as (b' & -> & Hr'). rewrite bind_ok.
      destruct (ss_put nw D HD0 _ _ _ _ (<[ql := j]> (delete q J)) None _ _ b' Sh1 Ha') as (ls2 & -> & Sh2 & _ & _).
      + eapply br_ext; [|exact Hr']. intros x. unfold upd. cbn. unfold SparseShape.schilds0. rewrite !decide_False by lia.
        destruct (N.eqb_spec x i') as [->|Hne].
        * rewrite <- Eql. by rewrite lookup_insert.
        * rewrite (lookup_insert_ne _ ql); [done|]. rewrite Eql. intros E'. by apply app_one_inj in E' as [_ ?].
      + intros r x Hne _. cbn. unfold SparseShape.schilds0. destruct (decide _); [done|].
        rewrite (lookup_insert_ne _ ql); [done|]. rewrite Eql. intros E'. by apply app_one_inj in E' as [? _].
      + intros q0 j' Hj'. apply lookup_insert_Some in Hj' as [[<- <-]|[_ Hj']]; [|by eapply (ss_jpath _ _ _ _ _ _ Sh1)].
        split; [done|]. split; [done|]. eexists _, _. split; [exact Eql|]. eauto.
      + rewrite bind_ok. eexists _, _, _. split; [reflexivity|]. split; [done|]. split; [|split; [|split]].
        * intros r Hr1 HPr. destruct (Hc1 r Hr1 HPr) as [[x Hx]|?]; [left|by right]. exists x. cbn in *. unfold SparseShape.schilds0 in *.
          destruct (decide (S (length r) < D)); [done|]. apply lookup_insert_is_Some'. by right.
        * rewrite insert_length, take_length. lia.
        * intros q0 j' Hj'. apply lookup_insert_Some in Hj' as [[<- <-]|[Hn1 Hj']].
          -- exists p, i', a'. split; [done|]. split; [done|]. apply list_lookup_insert. rewrite take_length. lia.
          -- apply lookup_delete_Some in Hj' as [Hn2 Hj']. destruct (Hlbk q0 j' ltac:(done) Hj') as (p0 & i0 & a0 & -> & Ha0 & Hl0).
             exists p0, i0, a0. split; [done|]. split; [done|].
             assert (j' <> j) as Hjj.
             { intros ->. apply (sv_J _ _ _ _ _ _ _ _ Hv) in Hj' as (Hqo & _ & Hk0). rewrite Hkj in Hk0. injection Hk0 as Hk0.
               apply Hn2. apply (skey_inj nw D Hnw HD0); [done|done|]. congruence. }
             assert (N.to_nat j' <> length (s_lbi t) - 1) as Hjl'.
             { intros E'. apply (sv_J _ _ _ _ _ _ _ _ Hv) in Hj' as (Hqo & _ & Hk0). rewrite E' in Hk0.
               replace (length (s_lbi t) - 1) with (length (s_keys t) - 1) in Hk0 by lia. rewrite Hlk in Hk0. injection Hk0 as Hk0.
               apply Hn1. apply (skey_inj nw D Hnw HD0); [done|done|]. congruence. }
             rewrite list_lookup_insert_ne by lia. rewrite lookup_take; [done|]. apply lookup_lt_Some in Hl0. lia.
        * intros r. destruct (decide (r = q)) as [->|Hrq].
          -- rewrite lookup_insert_ne by done. by rewrite lookup_delete.
          -- destruct (decide (key_of_path nw r = lk /\ path_ok nw D r)) as [[E' Hrp]|Hn'].
             ++ assert (r = ql) as -> by (apply (skey_inj nw D Hnw HD0); [done..|congruence]). by rewrite lookup_insert.
             ++ rewrite lookup_insert_ne by (intros <-; by apply Hn'). by rewrite lookup_delete_ne.
    - assert (length (s_keys t) - 1 = N.to_nat j) as Ejl by lia.
      assert (lk = k) as Elk by (rewrite Ejl, Hkj in Hlk; congruence).
      eexists _, _, (delete q J). split; [reflexivity|]. split; [done|]. split; [done|]. split; [rewrite take_length; lia|]. split.
      + intros q0 j' Hj'. apply lookup_delete_Some in Hj' as [Hn2 Hj']. destruct (Hlbk q0 j' ltac:(done) Hj') as (p0 & i0 & a0 & -> & Ha0 & Hl0).
        exists p0, i0, a0. split; [done|]. split; [done|].
        assert (j' <> j) as Hjj.
        { intros ->. apply (sv_J _ _ _ _ _ _ _ _ Hv) in Hj' as (Hqo & _ & Hk0). rewrite Hkj in Hk0. injection Hk0 as Hk0.
          apply Hn2. apply (skey_inj nw D Hnw HD0); [done|done|]. congruence. }
        rewrite lookup_take; [done|]. apply lookup_lt_Some in Hl0. lia.
      + intros r. destruct (decide (r = q)) as [->|Hrq]; [by rewrite lookup_delete|].
        rewrite decide_False; [by rewrite lookup_delete_ne|]. intros [E' Hrp]. apply Hrq. apply (skey_inj nw D Hnw HD0); [done..|congruence]. }
  rewrite bind_ok. unfold swap_remove, get_c. rewrite Hkj, bind_ok, Hlk, bind_ok, bind_ok.
  destruct (lookup_lt_is_Some_2 (s_values t) (length (s_values t) - 1) ltac:(lia)) as [ld Hld].
  rewrite Hd, bind_ok, Hld, bind_ok, bind_ok. cbn [unwrap_unc rbind]. eexists. split; [reflexivity|].
  exists P1, J'. cbn [s_levels s_values s_keys s_lbi]. split; [done|]. split; [|split; [|done]].
  - eapply (svec_remove nw D VB Hnw HD0); [exact Hv|exact Ej|by rewrite Hkq|exact Hlk| | | | |exact HJ'].
    + rewrite take_length, insert_length. lia.
    + rewrite take_length, insert_length. lia.
    + intros x Hx. rewrite lookup_take by lia. destruct (decide (x = N.to_nat j)) as [->|Hne].
      * by rewrite list_lookup_insert by lia.
      * by rewrite list_lookup_insert_ne.
    + intros x Hx. rewrite lookup_take by lia. destruct (decide (x = N.to_nat j)) as [->|Hne].
      * rewrite list_lookup_insert by lia. by rewrite Hld.
      * by rewrite list_lookup_insert_ne.
  - rewrite take_length, insert_length. lia.
Qed.

(** ** enumeration and drop *)
Lemma sparse_key_values_ok E t m : sparse_inv E t m -> exists ks vs, sparse_key_values t = Ok (ks, vs) /\
  length ks = length vs /\ zip ks vs ≡ₚ map_to_list m.
Proof.
  intros (P & J & Sh & Hv & _). destruct (svec_entries nw D VB HD0 first _ _ _ _ Hv) as (ks & vs & Ek & Ed & El & Ea).
  exists ks, vs. unfold sparse_key_values, from_1. rewrite Ek, Ed. rewrite Ed in Ea.
  rewrite !decide_True by (cbn; lia). cbn [rbind]. change (drop 1 (USIZE_MAX :: ks)) with ks. rewrite Ea. split; [done|]. split; [done|].
  symmetry. by apply (svec_perm nw D VB Hnw HD0 first _ _ _ _ Hv).
Qed.
Lemma sparse_drop_ok E t m req : sparse_inv E t m -> (req = true -> is_Some first) ->
  exists dr, sparse_drop req t = Ok dr /\
    dr ≡ₚ (if req then from_option (fun v => [v]) [] first else []) ++ (map_to_list m).*2.
Proof.
  intros (P & J & Sh & Hv & _) Hreq. destruct (svec_entries nw D VB HD0 first _ _ _ _ Hv) as (ks & vs & Ek & Ed & El & Ea).
  pose proof (svec_perm nw D VB Hnw HD0 first _ _ _ _ Hv _ _ Ek Ed El) as Hp.
  assert ((map_to_list m).*2 ≡ₚ vs) as Hp2 by (rewrite Hp, snd_zip by lia; done).
  unfold sparse_drop, sub_u. rewrite Ed in *. destruct req.
  - destruct (Hreq eq_refl) as [d Hd]. rewrite decide_True by (cbn; lia). rewrite bind_ok.
    change (drop 1 (first :: (Some <$> vs))) with (Some <$> vs) in Ea. cbn [drop]. rewrite Hd. cbn [all_init]. rewrite Ea. cbn [rbind].
    exists (d :: vs). split; [done|]. cbn. by rewrite Hp2.
  - rewrite decide_True by (cbn; lia). rewrite bind_ok, Ea. exists vs. split; [done|]. cbn. by rewrite Hp2.
Qed.
End sops.
