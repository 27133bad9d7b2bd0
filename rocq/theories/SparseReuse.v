(** * SparseTree: which block is handed out next (C25) *)
From Verif Require Import Base BitUtils BitUtilsProofs BitQueue LevelIndices LevelIndicesProofs
  ConstLoops Hierarchy Lawful Dense Sparse SparseVec SparseShape SparseProofs SparseOps SparseTree Spec Client DenseHistory SparseHistory.

(** block [j] of level [n] is used: the walk along some path of indices comes by *)
Definition block_used {V} (nw D : nat) (t : sparse V) (n : nat) (j : N) : Prop :=
  exists q out d, length q = D /\ Forall (fun i => (i < msize nw)%N) q /\
    fetch_block_indices D t q = Ok (out, d) /\ out !! (n - 1) = Some j.

Section reuse.
Context (nw D : nat).
Hypothesis Hnw : nw_ok nw.
Hypothesis HD0 : 1 <= D.
Hypothesis HD : D <= 9.
Context {V : Type} (first : option V).
Implicit Types (t : sparse V) (m : gmap N V) (E : gset N).
Notation sparse_inv := (sparse_inv nw D first).

Lemma used_iff t P J n j : sshape nw D (s_levels t) P J None -> 1 <= n -> n < D -> (0 < j)%N ->
  block_used nw D t n j <-> exists p, length p = n /\ P !! p = Some j.
Proof.
  intros Sh Hn Hlt Hj. pose proof (msize_pos nw Hnw) as Hm. split.
  - intros (q & out & d & Hl & Hq & Hf & Ho). assert (path_ok nw D q) as Hp by (by split).
    destruct (fetch_ok nw D HD0 HD _ _ _ _ _ Sh Hp) as (out' & Hf' & _ & Hm'). rewrite Hf in Hf'. injection Hf' as <- _.
    rewrite (Hm' (n - 1)) in Ho by lia. injection Ho as Ho. replace (S (n - 1)) with n in Ho by lia. unfold next_idx in Ho.
    rewrite decide_True in Ho by done. exists (take n q). split; [rewrite take_length; lia|].
    destruct (P !! take n q) as [a|]; cbn in Ho; [by subst|lia].
  - intros (p & Hl & Hp). set (q := p ++ replicate (D - n) 0%N).
    destruct (ss_path _ _ _ _ _ _ Sh _ _ Hp) as [[_ Hpo] _].
    assert (path_ok nw D q) as Hq.
    { split; [unfold q; rewrite app_length, replicate_length; lia|]. apply Forall_app. split; [done|]. apply Forall_replicate. lia. }
    destruct (fetch_ok nw D HD0 HD _ _ _ _ _ Sh Hq) as (out & Hf & _ & Hm'). eexists q, out, _. split; [apply Hq|]. split; [apply Hq|]. split; [exact Hf|].
    rewrite (Hm' (n - 1)) by lia. replace (S (n - 1)) with n by lia. unfold next_idx. rewrite decide_True by done.
    unfold q. rewrite <- Hl at 1. by rewrite take_app, Hp.
Qed.

Lemma reuse_inv E t m n l : sparse_inv E t m -> 1 <= n -> n < D -> s_levels t !! n = Some l ->
  exists l' i, lv_insert_empty nw l = Ok (l', i) /\ lv_get l' i = Ok (blk_empty nw) /\ (0 < i)%N /\ ~ block_used nw D t n i /\
    (forall j, j <> i -> (N.to_nat j < length (lv_blocks l)) -> lv_get l' j = lv_get l j) /\
    (forall j, (0 < j)%N -> (N.to_nat j < length (lv_blocks l)) -> ~ block_used nw D t n j -> length (lv_blocks l') = length (lv_blocks l)).
Proof.
  intros (P & J & Sh & _) Hn Hlt Hl. pose proof (ss_lvl _ _ _ _ _ _ Sh _ _ Hl) as Hok.
  destruct n as [|n]; [lia|]. cbn [lvl_ok] in Hok. destruct Hok as (bs & r & fl & -> & Hll).
  destruct Hll as [L1 L2 L3 L4 L5 L6 L7]. replace (S n - 1) with n in * by lia. pose proof (lbits_le D HD0 n) as Hlb. pose proof (lookup_lt_Some _ _ _ L1) as Hbs0.
  unfold lv_insert_empty, lv_pop, lv_get. cbn [lv_blocks].
  destruct fl as [|f fl]; cbn [chain] in L3.
  - subst r. rewrite N.eqb_refl, bind_ok. eexists _, _. split; [reflexivity|]. cbn [lv_blocks]. rewrite Nat2N.id.
    split; [unfold get_u; by rewrite lookup_app_r, Nat.sub_diag by lia|]. split; [lia|]. split.
    { intros Hu%(used_iff _ _ _ _ _ Sh Hn Hlt); [|lia]. destruct Hu as (p & Hp & Hb). destruct (L2 _ _ Hb Hp) as (b & Hbb & _). apply lookup_lt_Some in Hbb. lia. }
    split; [intros j _ Hj; unfold get_u; by rewrite lookup_app_l by done|].
    intros j Hj0 Hj Hu. exfalso. apply Hu. apply (used_iff _ _ _ _ _ Sh Hn Hlt Hj0).
    destruct (L6 (N.to_nat j)) as [?%elem_of_nil|(p & Hp & Hb)]; [lia|done|done|]. rewrite N2Nat.id in Hb. eauto.
  - destruct L3 as (-> & link & Hf & Hc). destruct (L5 f ltac:(left)) as [Hfp Hfn].
    pose proof (lookup_lt_Some _ _ _ Hf) as Hfl.
    assert ((f =? U64MAX)%N = false) as Hfm.
    { apply N.eqb_neq. unfold U64MAX. change (2 ^ 32)%N with 4294967296%N in Hlb. change (2 ^ 64 - 1)%N with 18446744073709551615%N. lia. }
    rewrite Hfm, (get_u_ok _ _ _ Hf), bind_ok, free_link, bind_ok, free_restore, bind_ok, set_u_ok, bind_ok, bind_ok by done.
    eexists _, _. split; [reflexivity|]. cbn [lv_blocks]. split; [unfold get_u; by rewrite list_lookup_insert by done|]. split; [done|]. split.
    { intros Hu%(used_iff _ _ _ _ _ Sh Hn Hlt); [|done]. destruct Hu as (p & Hp & Hb). by eapply Hfn. }
    split; [intros j Hj _; unfold get_u; rewrite list_lookup_insert_ne; [done|]; intros ?%N2Nat.inj; congruence|].
    intros j _ _ _. by rewrite insert_length.
Qed.
End reuse.
