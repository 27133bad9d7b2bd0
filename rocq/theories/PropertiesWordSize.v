(** * C63: the key arithmetic on targets with any word size *)
From Verif Require Import Base BitUtils BitUtilsProofs LevelIndices LevelIndicesProofs Hierarchy WordSize Sparse.

Section proofs.
Context (dbg : bool) (W : N) (nw : nat) (Hw : nw_ok nw).
Lemma li_w_ok k r : (lsize nw * N.of_nat k < W)%N -> level_indices_loop_w dbg W nw k r = Ok (level_indices_loop nw k r).
Proof using Hw.
  revert r. induction k as [|k IH]; intros r Hk; cbn [level_indices_loop_w level_indices_loop]; [done|].
  unfold shl_w, shr_w. rewrite (proj2 (N.ltb_lt _ _) Hk), !bind_ok.
  assert (N.land (N.shiftl 1 (lsize nw * N.of_nat (S k))) (N.ones W) = N.shiftl 1 (lsize nw * N.of_nat (S k))) as ->.
  { rewrite N.land_ones, N.mod_small; [done|]. rewrite N.shiftl_1_l. apply N.pow_lt_mono_r; [lia|done]. }
  unfold sub_w. assert (1 <= N.shiftl 1 (lsize nw * N.of_nat (S k)))%N as H1.
  { rewrite N.shiftl_1_l. assert (2 ^ (lsize nw * N.of_nat (S k)) <> 0)%N by (apply N.pow_nonzero; lia). lia. }
  rewrite (proj2 (N.leb_le _ _) H1), bind_ok, IH; [done|].
  assert (lsize nw * N.of_nat k <= lsize nw * N.of_nat (S k))%N by (apply N.mul_le_mono_l; lia). lia.
Qed.
Lemma dbi_w_ok k p acc : (lsize nw * N.of_nat k < W)%N -> path_ok nw k p ->
  (acc + key_of_path nw p * msize nw < 2 ^ W)%N ->
  data_block_index_loop_w dbg W nw k p acc = data_block_index_loop nw k p acc.
Proof using Hw.
  pose proof (msize_pos nw Hw) as Hm. revert p acc.
  induction k as [|k IH]; intros p acc Hk [Hl Hp] Hb; cbn [data_block_index_loop_w data_block_index_loop]; [done|].
  destruct p as [|i p]; [done|]. injection Hl as Hl. inversion_clear Hp as [|? ? Hi Hp'].
  rewrite key_of_path_cons, Hl in Hb.
  unfold shl_w. rewrite (proj2 (N.ltb_lt _ _) Hk), bind_ok.
  assert (N.shiftl i (lsize nw * N.of_nat (S k)) = i * msize nw ^ N.of_nat k * msize nw)%N as Hs.
  { rewrite N.shiftl_mul_pow2, pow_lsize by done. replace (N.of_nat (S k)) with (N.succ (N.of_nat k)) by lia.
    rewrite N.pow_succ_r'. nia. }
  assert (N.land (N.shiftl i (lsize nw * N.of_nat (S k))) (N.ones W) = N.shiftl i (lsize nw * N.of_nat (S k))) as ->.
  { rewrite N.land_ones, N.mod_small; [done|]. rewrite Hs. nia. }
  unfold add_w. assert (acc + N.shiftl i (lsize nw * N.of_nat (S k)) < 2 ^ W)%N as Ha.
  { rewrite Hs. nia. }
  rewrite (proj2 (N.ltb_lt _ _) Ha), bind_ok. apply IH; [nia|done|]. rewrite Hs. nia.
Qed.
End proofs.

(** A hierarchy fits a word of [W] bits if the shift that extracts the root's index is smaller than [W] *)
Definition fits (W : N) (nw D : nat) : Prop := (lsize nw * N.of_nat (D - 1) < W)%N.
(** For every word size and every hierarchy that fits, in debug and release builds: exactly the keys below width^depth (and below usize::MAX) are accepted;
    the path of an accepted key has one in-range index per level, is the key's numeral, and the key computed back from it (by the
    iterators) is the key *)
Theorem C63_paths_partial : forall (dbg : bool) (W : N) (nw D : nat) (k : N), nw_ok nw -> 0 < D -> fits W nw D -> (k < 2 ^ W)%N ->
  (index_from_w W nw D k = Ok k <-> (k < msize nw ^ N.of_nat D /\ k <> 2 ^ W - 1)%N) /\
  (index_from_w W nw D k = Ok k ->
    exists p i, level_indices_w dbg W nw D k = Ok (p ++ [i]) /\ path_ok nw D (p ++ [i]) /\ key_of_path nw (p ++ [i]) = k /\
      data_block_index_w dbg W nw D p i = Ok k).
Proof.
  intros dbg W nw D k Hw HD Hf Hk.
  assert (index_from_w W nw D k = Ok k <-> (k < msize nw ^ N.of_nat D /\ k <> 2 ^ W - 1)%N) as Hi.
  { unfold index_from_w. destruct (N.ltb_spec k (N.min (msize nw ^ N.of_nat D) (2 ^ W - 1))) as [H|H].
    - split; [|done]. intros _. lia.
    - split; [done|]. lia. }
  split; [done|]. intros [Hb _]%Hi. destruct (level_indices_ok nw D k Hw HD Hb) as [Hp Hkey].
  unfold level_indices_w. rewrite (li_w_ok dbg W nw Hw) by done. change (level_indices_loop nw (D - 1) k) with (level_indices nw D k).
  destruct Hp as [Hl Hp]. destruct (level_indices nw D k) as [|i p _] eqn:E using rev_ind; [cbn in Hl; lia|].
  exists p, i. split; [done|]. split; [done|]. split; [done|].
  rewrite app_length in Hl. cbn in Hl. apply Forall_app in Hp as [Hp Hi']. rewrite Forall_singleton in Hi'.
  rewrite key_of_path_snoc in Hkey.
  unfold data_block_index_w. rewrite (dbi_w_ok dbg W nw Hw (D - 1)); [|done|split; [lia|done]|lia].
  change (data_block_index_loop nw (D - 1) p i) with (data_block_index nw D p i).
  rewrite data_block_index_ok by (done || lia). by rewrite key_of_path_snoc, Hkey.
Qed.
(** Hence `get` of every tree (containers, lazy operations, user trees) answers as on a 64-bit target, for every key of a smaller target *)
Theorem C63_get_partial : forall (dbg : bool) (W : N) (t : tree) (s : t_T t) (k : N), (W <= 64)%N -> nw_ok (t_nw t) ->
  0 < t_depth t -> fits W (t_nw t) (t_depth t) -> (k < 2 ^ W - 1)%N ->
  tree_get_w dbg W t s k = tree_get t s k.
Proof.
  intros dbg W t s k HW Hw HD Hf Hk. unfold tree_get_w, tree_get, index_from_w, index_from, saturating_pow, USIZE_MAX.
  assert (2 ^ W <= 2 ^ 64)%N as H64 by (apply N.pow_le_mono_r; lia).
  destruct (N.ltb_spec k (msize (t_nw t) ^ N.of_nat (t_depth t))) as [H|H].
  - rewrite !(proj2 (N.ltb_lt _ _)) by lia. rewrite !bind_ok. unfold level_indices_w. rewrite (li_w_ok dbg W _ Hw) by done. done.
  - rewrite !(proj2 (N.ltb_ge _ _)) by lia. done.
Qed.
(** `index_range` is right whenever width^depth is a usize *)
Theorem C63_index_range_partial : forall (dbg : bool) (W : N) (nw D : nat), (msize nw ^ N.of_nat D < 2 ^ W)%N ->
  index_range_w dbg W nw D = Ok (msize nw ^ N.of_nat D)%N.
Proof. intros dbg W nw D H. unfold index_range_w. by rewrite (proj2 (N.ltb_lt _ _) H). Qed.
(** which public configurations fit *)
Example C63_configurations : forall nw D, nw_ok nw -> 0 < D <= 8 ->
  fits 64 nw D /\ (fits 32 nw D <-> (nw = 1 /\ D <= 6) \/ (nw = 2 /\ D <= 5) \/ (nw = 4 /\ D <= 4)).
Proof.
  intros nw D Hw HD. unfold fits. destruct Hw as [->|[->| ->]].
  - change (lsize 1) with 6%N. lia.
  - change (lsize 2) with 7%N. lia.
  - change (lsize 4) with 8%N. lia.
Qed.
Example C63_nontrivial : level_indices_w true 32 2 5 (2 ^ 31 + 1) = Ok [8; 0; 0; 0; 1]%N /\
  data_block_index_w true 32 2 5 [8; 0; 0; 0]%N 1 = Ok (2 ^ 31 + 1)%N /\ index_from_w 32 2 5 (2 ^ 31 + 1) = Ok (2 ^ 31 + 1)%N.
Proof. vm_compute. done. Qed.
(** The others do not work on a 32-bit target: a debug build panics at every access of every key; a release build computes indices outside the
    nodes, and looking one up in an empty SparseTree reads behind a block's array *)
Theorem C63_refuted :
  (forall nw D k, nw_ok nw -> 0 < D <= 8 -> ~ fits 32 nw D -> level_indices_w true 32 nw D k = Panic) /\
  index_from_w 32 1 7 (2 ^ 31) = Ok (2 ^ 31)%N /\
  level_indices_w false 32 1 7 (2 ^ 31) = Ok [2 ^ 27; 0; 0; 0; 0; 0; 0]%N /\
  (exists t, sparse_default N 1 7 false None = Ok t /\ tree_get_w false 32 (sparse_tree N 1 7) t (2 ^ 31) = UB).
Proof.
  split_and!.
  - intros nw D k Hw HD Hf. unfold fits, level_indices_w in *. destruct (D - 1) as [|d]; [lia|].
    cbn [level_indices_loop_w]. unfold shl_w. rewrite (proj2 (N.ltb_ge _ _)) by lia. done.
  - vm_compute. done.
  - vm_compute. done.
  - eexists. split; [vm_compute; reflexivity|]. vm_compute. reflexivity.
Qed.
