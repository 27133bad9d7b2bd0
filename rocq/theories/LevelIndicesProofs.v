(** * Keys and paths *)
From Verif Require Import Base BitUtils LevelIndices.

(** Specification: the key addressed by a path, most significant index first
    (positional numeral system in base [msize nw]). *)
Definition key_of_path (nw : nat) (p : list N) : N :=
  fold_left (fun acc i => acc * msize nw + i)%N p 0%N.
(** In-range path of length [n] *)
Definition path_ok (nw n : nat) (p : list N) : Prop :=
  length p = n /\ Forall (fun i => (i < msize nw)%N) p.

Lemma lsize_pow nw : nw_ok nw -> (2 ^ lsize nw = msize nw)%N.
Proof. intros [->|[->| ->]]; reflexivity. Qed.
Lemma msize_pos nw : nw_ok nw -> (64 <= msize nw)%N.
Proof. intros [->|[->| ->]]; cbn; unfold msize; lia. Qed.
Lemma nw_ok_pos nw : nw_ok nw -> 0 < nw.
Proof. intros [->|[->| ->]]; lia. Qed.
Lemma pow_lsize nw k : nw_ok nw -> (2 ^ (lsize nw * N.of_nat k) = msize nw ^ N.of_nat k)%N.
Proof. intros H. rewrite N.pow_mul_r, lsize_pow by done. done. Qed.

Lemma key_of_path_acc nw p a :
  fold_left (fun acc i => acc * msize nw + i)%N p a =
  (a * msize nw ^ N.of_nat (length p) + key_of_path nw p)%N.
Proof.
  unfold key_of_path. revert a. induction p as [|i p IH]; intros a; cbn [fold_left length].
  - change (N.of_nat 0) with 0%N. rewrite N.pow_0_r. lia.
  - rewrite (IH (a * msize nw + i)%N), (IH (0 * msize nw + i)%N).
    replace (N.of_nat (S (length p))) with (N.succ (N.of_nat (length p))) by lia.
    rewrite N.pow_succ_r'. nia.
Qed.
Lemma key_of_path_cons nw i p :
  key_of_path nw (i :: p) = (i * msize nw ^ N.of_nat (length p) + key_of_path nw p)%N.
Proof. unfold key_of_path at 1. cbn [fold_left]. rewrite key_of_path_acc. f_equal. Qed.
Lemma key_of_path_nil nw : key_of_path nw [] = 0%N.
Proof. done. Qed.
Lemma key_of_path_snoc nw p i : key_of_path nw (p ++ [i]) = (key_of_path nw p * msize nw + i)%N.
Proof. unfold key_of_path. by rewrite fold_left_app. Qed.
Lemma key_of_path_app nw p q :
  key_of_path nw (p ++ q) = (key_of_path nw p * msize nw ^ N.of_nat (length q) + key_of_path nw q)%N.
Proof. unfold key_of_path at 1. rewrite fold_left_app. apply key_of_path_acc. Qed.
Lemma key_of_path_bound nw p : (0 < msize nw)%N -> Forall (fun i => (i < msize nw)%N) p ->
  (key_of_path nw p < msize nw ^ N.of_nat (length p))%N.
Proof.
  intros Hm. induction p as [|i p IH]; intros Hp.
  - cbn. change (N.of_nat 0) with 0%N. rewrite N.pow_0_r. lia.
  - inversion_clear Hp as [|? ? Hi Hp']. rewrite key_of_path_cons. specialize (IH Hp').
    cbn [length]. replace (N.of_nat (S (length p))) with (N.succ (N.of_nat (length p))) by lia.
    rewrite N.pow_succ_r'. nia.
Qed.
Lemma path_ok_bound nw n p : nw_ok nw -> path_ok nw n p -> (key_of_path nw p < msize nw ^ N.of_nat n)%N.
Proof.
  intros Hw [<- Hp]. apply key_of_path_bound; [|done]. pose proof (msize_pos nw Hw). lia.
Qed.

Lemma li_step nw k r : nw_ok nw ->
  level_indices_loop nw (S k) r =
    (r / msize nw ^ N.of_nat (S k))%N :: level_indices_loop nw k (r mod msize nw ^ N.of_nat (S k)).
Proof.
  intros Hw. cbn [level_indices_loop].
  rewrite N.shiftr_div_pow2, pow_lsize by done.
  rewrite N.shiftl_1_l. replace (2 ^ (lsize nw * N.of_nat (S k)) - 1)%N with (N.ones (lsize nw * N.of_nat (S k))).
  - rewrite N.land_ones, pow_lsize by done. done.
  - rewrite N.ones_equiv. lia.
Qed.
Lemma li_loop_ok nw k r : nw_ok nw -> (r < msize nw ^ N.of_nat (S k))%N ->
  path_ok nw (S k) (level_indices_loop nw k r) /\ key_of_path nw (level_indices_loop nw k r) = r.
Proof.
  intros Hw. pose proof (msize_pos nw Hw) as Hm. revert r. induction k as [|k IH]; intros r Hr.
  - change (N.of_nat 1) with 1%N in Hr. rewrite N.pow_1_r in Hr. cbn [level_indices_loop].
    split; [split; [done|by repeat constructor]|]. unfold key_of_path. cbn [fold_left]. lia.
  - rewrite li_step by done. set (q := (msize nw ^ N.of_nat (S k))%N) in *.
    assert (q <> 0)%N by (apply N.pow_nonzero; lia).
    destruct (IH (r mod q)%N) as [[Hl Hp] Hk]; [by apply N.mod_lt|].
    replace (N.of_nat (S (S k))) with (N.succ (N.of_nat (S k))) in Hr by lia.
    rewrite N.pow_succ_r' in Hr. fold q in Hr. split.
    + split; [cbn [length]; by rewrite Hl|]. constructor; [|done].
      apply N.div_lt_upper_bound; [done|]. lia.
    + rewrite key_of_path_cons, Hl, Hk. fold q. rewrite (N.div_mod r q) at 3 by done. lia.
Qed.
Lemma level_indices_ok nw D k : nw_ok nw -> 0 < D -> (k < msize nw ^ N.of_nat D)%N ->
  path_ok nw D (level_indices nw D k) /\ key_of_path nw (level_indices nw D k) = k.
Proof.
  intros Hw HD Hk. unfold level_indices. destruct D as [|D]; [lia|].
  replace (S D - 1) with D by lia. by apply li_loop_ok.
Qed.
Lemma li_loop_of_path nw k p : nw_ok nw -> path_ok nw (S k) p ->
  level_indices_loop nw k (key_of_path nw p) = p.
Proof.
  intros Hw. pose proof (msize_pos nw Hw) as Hm. revert p. induction k as [|k IH]; intros p [Hl Hp].
  - destruct p as [|i [|? ?]]; try done.
  - destruct p as [|i p]; [done|]. inversion_clear Hp as [|? ? Hi Hp']. cbn in Hl. injection Hl as Hl.
    rewrite li_step, key_of_path_cons, Hl by done.
    assert (key_of_path nw p < msize nw ^ N.of_nat (S k))%N as Hb by (by apply path_ok_bound).
    set (q := (msize nw ^ N.of_nat (S k))%N) in *.
    assert (q <> 0)%N by (apply N.pow_nonzero; lia).
    rewrite N.div_add_l, (N.div_small _ q), N.add_0_r by done. f_equal.
    rewrite N.add_comm, N.mod_add, N.mod_small by done. by apply IH.
Qed.
Lemma level_indices_of_path nw D p : nw_ok nw -> 0 < D -> path_ok nw D p ->
  level_indices nw D (key_of_path nw p) = p.
Proof.
  intros Hw HD Hp. unfold level_indices. destruct D as [|D]; [lia|].
  replace (S D - 1) with D by lia. by apply li_loop_of_path.
Qed.
Lemma level_indices_inj nw D k1 k2 : nw_ok nw -> 0 < D ->
  (k1 < msize nw ^ N.of_nat D)%N -> (k2 < msize nw ^ N.of_nat D)%N ->
  level_indices nw D k1 = level_indices nw D k2 -> k1 = k2.
Proof.
  intros Hw HD H1 H2 He. destruct (level_indices_ok nw D k1) as [_ <-]; [done..|].
  destruct (level_indices_ok nw D k2) as [_ <-]; [done..|]. by rewrite He.
Qed.
Lemma level_indices_length nw D k : 0 < D -> length (level_indices nw D k) = D.
Proof.
  intros HD. unfold level_indices. assert (forall n r, length (level_indices_loop nw n r) = S n) as H.
  { induction n as [|n IH]; intros r; cbn [level_indices_loop length]; [done|]. by rewrite IH. }
  rewrite H. lia.
Qed.

Lemma dbi_loop_ok nw k p acc : nw_ok nw -> length p = k ->
  data_block_index_loop nw k p acc = Ok (acc + key_of_path nw p * msize nw)%N.
Proof.
  intros Hw. revert p acc. induction k as [|k IH]; intros p acc Hl; cbn [data_block_index_loop].
  - destruct p; [|done]. rewrite key_of_path_nil. f_equal. lia.
  - destruct p as [|i p]; [done|]. cbn in Hl. injection Hl as Hl. rewrite IH by done. f_equal.
    rewrite key_of_path_cons, Hl, N.shiftl_mul_pow2, pow_lsize by done.
    replace (N.of_nat (S k)) with (N.succ (N.of_nat k)) by lia. rewrite N.pow_succ_r'. nia.
Qed.
Lemma dbi_loop_take nw k p q acc : length p = k ->
  data_block_index_loop nw k (p ++ q) acc = data_block_index_loop nw k p acc.
Proof.
  revert p acc. induction k as [|k IH]; intros p acc Hl; [done|].
  destruct p as [|i p]; [done|]. cbn [data_block_index_loop app]. apply IH. by injection Hl.
Qed.
(** recombination: prefix of D-1 indices plus the data index *)
Lemma data_block_index_ok nw D p i : nw_ok nw -> length p = D - 1 ->
  data_block_index nw D p i = Ok (key_of_path nw (p ++ [i])).
Proof.
  intros Hw Hl. unfold data_block_index. rewrite dbi_loop_ok by done.
  rewrite key_of_path_snoc. f_equal. lia.
Qed.

(** ** order *)
(** lexicographic order on paths of equal length *)
Fixpoint lex_lt (p q : list N) : Prop :=
  match p, q with
  | i :: p, j :: q => (i < j)%N \/ (i = j /\ lex_lt p q)
  | _, _ => False
  end.
Lemma key_of_path_lex nw n p q : nw_ok nw -> path_ok nw n p -> path_ok nw n q ->
  (key_of_path nw p < key_of_path nw q)%N <-> lex_lt p q.
Proof.
  intros Hw. pose proof (msize_pos nw Hw) as Hm. revert p q.
  induction n as [|n IH]; intros p q [Hlp Hp] [Hlq Hq].
  - destruct p, q; try done.
  - destruct p as [|i p], q as [|j q]; try done. inversion_clear Hp as [|? ? Hi Hp'].
    inversion_clear Hq as [|? ? Hj Hq']. cbn in Hlp, Hlq. injection Hlp as Hlp. injection Hlq as Hlq.
    specialize (IH p q (conj Hlp Hp') (conj Hlq Hq')). cbn [lex_lt]. rewrite <- IH.
    rewrite !key_of_path_cons, Hlp, Hlq.
    pose proof (path_ok_bound nw n p Hw (conj Hlp Hp')) as Bp.
    pose proof (path_ok_bound nw n q Hw (conj Hlq Hq')) as Bq.
    set (b := (msize nw ^ N.of_nat n)%N) in *.
    destruct (N.lt_trichotomy i j) as [H|[->|H]]; split; intros H'; try nia.
Qed.

(** ** key check *)
Lemma index_from_spec nw D i :
  index_from nw D i = Ok i /\ (i < N.min (msize nw ^ N.of_nat D) USIZE_MAX)%N \/
  index_from nw D i = Panic /\ (N.min (msize nw ^ N.of_nat D) USIZE_MAX <= i)%N.
Proof.
  unfold index_from, saturating_pow.
  destruct (N.ltb_spec i (N.min (msize nw ^ N.of_nat D) USIZE_MAX)); [by left|by right].
Qed.

(** ** no overflow in the supported configurations: [lsize * D <= 64] *)
Lemma li_dbg_ok nw k r : nw_ok nw -> (lsize nw * N.of_nat k < 64)%N ->
  level_indices_dbg_loop nw k r = Ok (level_indices_loop nw k r).
Proof.
  intros Hw. revert r. induction k as [|k IH]; intros r Hk; cbn [level_indices_dbg_loop level_indices_loop]; [done|].
  unfold shl_dbg, shr_dbg. rewrite (proj2 (N.ltb_lt _ _) Hk), !bind_ok.
  assert (shl64 1 (lsize nw * N.of_nat (S k)) = N.shiftl 1 (lsize nw * N.of_nat (S k))) as ->.
  { unfold shl64. rewrite N.mod_small by done. change WMAX with (N.ones 64). rewrite N.land_ones, N.mod_small; [done|].
    rewrite N.shiftl_1_l. by apply N.pow_lt_mono_r. }
  unfold sub_dbg. assert (1 <= N.shiftl 1 (lsize nw * N.of_nat (S k)))%N as H1.
  { rewrite N.shiftl_1_l. assert (2 ^ (lsize nw * N.of_nat (S k)) <> 0)%N by (apply N.pow_nonzero; lia). lia. }
  rewrite (proj2 (N.leb_le _ _) H1), bind_ok, IH; [done|].
  assert (lsize nw * N.of_nat k <= lsize nw * N.of_nat (S k))%N by (apply N.mul_le_mono_l; lia). lia.
Qed.
Lemma dbi_dbg_ok nw k p acc : nw_ok nw -> (lsize nw * N.of_nat (S k) <= 64)%N -> path_ok nw k p ->
  (acc + key_of_path nw p * msize nw < 2 ^ 64)%N ->
  data_block_index_dbg_loop nw k p acc = data_block_index_loop nw k p acc.
Proof.
  intros Hw. pose proof (msize_pos nw Hw) as Hm. revert p acc.
  induction k as [|k IH]; intros p acc Hk [Hl Hp] Hb; cbn [data_block_index_dbg_loop data_block_index_loop]; [done|].
  destruct p as [|i p]; [done|]. injection Hl as Hl. inversion_clear Hp as [|? ? Hi Hp'].
  rewrite key_of_path_cons, Hl in Hb.
  assert (0 < lsize nw)%N as Hls by (destruct Hw as [->|[->| ->]]; by vm_compute).
  assert (lsize nw * N.of_nat (S k) < 64)%N as Hk' by nia.
  unfold shl_dbg. rewrite (proj2 (N.ltb_lt _ _) Hk'), bind_ok.
  assert (N.shiftl i (lsize nw * N.of_nat (S k)) = i * msize nw ^ N.of_nat k * msize nw)%N as Hs.
  { rewrite N.shiftl_mul_pow2, pow_lsize by done. replace (N.of_nat (S k)) with (N.succ (N.of_nat k)) by lia.
    rewrite N.pow_succ_r'. nia. }
  assert (shl64 i (lsize nw * N.of_nat (S k)) = N.shiftl i (lsize nw * N.of_nat (S k))) as ->.
  { unfold shl64. rewrite N.mod_small by done. change WMAX with (N.ones 64). rewrite N.land_ones, N.mod_small; [done|].
    rewrite Hs. nia. }
  unfold add_dbg. assert (acc + N.shiftl i (lsize nw * N.of_nat (S k)) <= USIZE_MAX)%N as Ha.
  { rewrite Hs. unfold USIZE_MAX. nia. }
  rewrite (proj2 (N.leb_le _ _) Ha), bind_ok. apply IH; [nia|done|]. rewrite Hs. nia.
Qed.
