(** * Facts about bit_utils.rs / bit_block.rs *)
From Verif Require Import Base BitUtils.

(** ** Counting *)
(** number of [i < n] with [f i] *)
Fixpoint cnt (f : N -> bool) (n : nat) : nat :=
  match n with O => 0 | S n => cnt f n + (if f (N.of_nat n) then 1 else 0) end.

Lemma cnt_ext f g n : (forall i, (i < N.of_nat n)%N -> f i = g i) -> cnt f n = cnt g n.
Proof.
  induction n as [|n IH]; intros H; cbn [cnt]; [done|].
  rewrite IH by (intros; apply H; lia). rewrite H by lia. done.
Qed.
Lemma cnt_le f n : cnt f n <= n.
Proof. induction n as [|n IH]; cbn [cnt]; [lia|]. destruct (f _); lia. Qed.
Lemma cnt_mono f n m : n <= m -> cnt f n <= cnt f m.
Proof. induction 1 as [|m H IH]; cbn [cnt]; [lia|]. lia. Qed.
Lemma cnt_strict f i j : f i = true -> (N.to_nat i < j) -> cnt f (N.to_nat i) < cnt f j.
Proof.
  intros Hf H. assert (cnt f (S (N.to_nat i)) <= cnt f j) as H1 by (apply cnt_mono; lia).
  cbn [cnt] in H1. rewrite N2Nat.id, Hf in H1. lia.
Qed.
Lemma cnt_inj f i j : f i = true -> f j = true -> cnt f (N.to_nat i) = cnt f (N.to_nat j) -> i = j.
Proof.
  intros Hi Hj He. destruct (decide (i = j)) as [|Hn]; [done|exfalso].
  destruct (decide (i < j)%N).
  - assert (cnt f (N.to_nat i) < cnt f (N.to_nat j)) by (apply cnt_strict; [done|lia]). lia.
  - assert (cnt f (N.to_nat j) < cnt f (N.to_nat i)) by (apply cnt_strict; [done|lia]). lia.
Qed.
Lemma cnt_surj f n c : c < cnt f n ->
  exists i, f i = true /\ (N.to_nat i < n) /\ cnt f (N.to_nat i) = c.
Proof.
  induction n as [|n IH]; cbn [cnt]; intros H; [lia|].
  destruct (decide (c < cnt f n)) as [Hc|Hc].
  - destruct (IH Hc) as (i & ? & ? & ?). exists i. split_and!; [done|lia|done].
  - destruct (f (N.of_nat n)) eqn:Hf; [|lia].
    exists (N.of_nat n). rewrite Nat2N.id. split_and!; [done|lia|lia].
Qed.
Lemma cnt_set f k n : f k = false ->
  cnt (fun i => (i =? k)%N || f i) n = cnt f n + (if decide (N.to_nat k < n) then 1 else 0).
Proof.
  intros Hk. induction n as [|n IH]; cbn [cnt]; [rewrite decide_False by lia; done|].
  rewrite IH. destruct (N.eqb_spec (N.of_nat n) k) as [<-|Hne]; cbn [orb].
  - rewrite Hk. rewrite decide_False by lia. rewrite decide_True by lia. lia.
  - destruct (decide (N.to_nat k < n)), (decide (N.to_nat k < S n)); lia.
Qed.
Lemma cnt_clear f k n : f k = true ->
  cnt f n = cnt (fun i => negb (i =? k)%N && f i) n + (if decide (N.to_nat k < n) then 1 else 0).
Proof.
  intros Hk. induction n as [|n IH]; cbn [cnt]; [rewrite decide_False by lia; done|].
  rewrite IH. destruct (N.eqb_spec (N.of_nat n) k) as [<-|Hne]; cbn [andb negb].
  - rewrite Hk. rewrite decide_False by lia. rewrite decide_True by lia. lia.
  - destruct (decide (N.to_nat k < n)), (decide (N.to_nat k < S n)); lia.
Qed.
Lemma cnt_shift f n : cnt f (S n) = (if f 0%N then 1 else 0) + cnt (fun i => f (N.succ i)) n.
Proof.
  induction n as [|n IH]; [cbn [cnt]; change (N.of_nat 0) with 0%N; lia|].
  cbn [cnt] in *. rewrite IH. replace (N.of_nat (S n)) with (N.succ (N.of_nat n)) by lia. lia.
Qed.
Lemma cnt_zero f n : cnt f n = 0 <-> forall i, (i < N.of_nat n)%N -> f i = false.
Proof.
  induction n as [|n IH]; cbn [cnt]; [split; [lia|done]|].
  split.
  - intros H i Hi. destruct (f (N.of_nat n)) eqn:E; [lia|].
    destruct (decide (i = N.of_nat n)) as [->|]; [done|]. apply IH; lia.
  - intros H. rewrite (H (N.of_nat n)) by lia. rewrite (proj2 IH); [lia|]. intros; apply H; lia.
Qed.
Lemma cnt_full f n : cnt f n = n -> forall i, (i < N.of_nat n)%N -> f i = true.
Proof.
  induction n as [|n IH]; cbn [cnt]; intros H i Hi; [lia|].
  pose proof (cnt_le f n). destruct (f (N.of_nat n)) eqn:E; [|lia].
  destruct (decide (i = N.of_nat n)) as [->|]; [done|]. apply IH; lia.
Qed.
Lemma cnt_true n : cnt (fun _ => true) n = n.
Proof. induction n as [|n IH]; cbn [cnt]; lia. Qed.
Lemma cnt_filter f n : cnt f n = length (filter (fun i => f i = true) (seqN 0 n)).
Proof.
  induction n as [|n IH]; [done|]. cbn [cnt]. replace (S n) with (n + 1) by lia.
  rewrite seqN_app, filter_app, app_length, <- IH. f_equal. cbn [seqN].
  rewrite filter_cons, filter_nil. replace (0 + N.of_nat n)%N with (N.of_nat n) by lia.
  destruct (f (N.of_nat n)) eqn:E; [by rewrite decide_True|by rewrite decide_False].
Qed.

(** ** Words *)
Lemma testbit_high w i : word_ok w -> (64 <= i)%N -> N.testbit w i = false.
Proof.
  intros Hw Hi. unfold word_ok, W64 in *. destruct (decide (w = 0%N)) as [->|Hz]; [apply N.bits_0|].
  apply N.bits_above_log2. apply N.lt_le_trans with 64%N; [|done].
  apply N.log2_lt_pow2; lia.
Qed.
Lemma word_ext w1 w2 : word_ok w1 -> word_ok w2 ->
  (forall i, (i < 64)%N -> N.testbit w1 i = N.testbit w2 i) -> w1 = w2.
Proof.
  intros H1 H2 H. apply N.bits_inj. intros i. destruct (decide (i < 64)%N) as [Hi|Hi].
  - by apply H.
  - rewrite !testbit_high by (done || lia). done.
Qed.
Lemma word_ok_bits w : (forall i, (64 <= i)%N -> N.testbit w i = false) -> word_ok w.
Proof.
  intros H. unfold word_ok, W64. destruct (decide (w = 0%N)) as [->|Hz]; [lia|].
  destruct (decide (w < 2 ^ 64)%N) as [|Hge]; [done|exfalso].
  assert (64 <= N.log2 w)%N as Hl by (apply N.log2_le_pow2; lia).
  apply H in Hl. rewrite N.bit_log2 in Hl by done. done.
Qed.
Lemma wmax_bit i : N.testbit WMAX i = (i <? 64)%N.
Proof.
  unfold WMAX. destruct (N.ltb_spec i 64).
  - by apply N.ones_spec_low.
  - by apply N.ones_spec_high.
Qed.
Lemma word_ok_0 : word_ok 0.
Proof. done. Qed.
Lemma word_ok_max : word_ok WMAX.
Proof. vm_compute. done. Qed.
Lemma word_ok_land_l a b : word_ok a -> word_ok (N.land a b).
Proof. intros H. apply word_ok_bits. intros i Hi. rewrite N.land_spec, (testbit_high a) by done. done. Qed.
Lemma word_ok_land_r a b : word_ok b -> word_ok (N.land a b).
Proof. rewrite N.land_comm. apply word_ok_land_l. Qed.
Lemma word_ok_lor a b : word_ok a -> word_ok b -> word_ok (N.lor a b).
Proof. intros Ha Hb. apply word_ok_bits. intros i Hi. rewrite N.lor_spec, !testbit_high by done. done. Qed.
Lemma word_ok_lxor a b : word_ok a -> word_ok b -> word_ok (N.lxor a b).
Proof. intros Ha Hb. apply word_ok_bits. intros i Hi. rewrite N.lxor_spec, !testbit_high by done. done. Qed.
Lemma word_ok_shl64 a n : word_ok (shl64 a n).
Proof. apply word_ok_land_r, word_ok_max. Qed.
Lemma shl64_bit x n i : (n < 64)%N -> N.testbit (shl64 x n) i =
  ((i <? 64) && (n <=? i) && N.testbit x (i - n))%N.
Proof.
  intros Hn. unfold shl64. rewrite (N.mod_small n) by done. rewrite N.land_spec, wmax_bit. destruct (N.ltb_spec i 64); cbn [andb]; [|by rewrite andb_false_r].
  rewrite andb_true_r. destruct (N.leb_spec n i).
  - by rewrite N.shiftl_spec_high'.
  - by rewrite N.shiftl_spec_low.
Qed.
Lemma not64_bit x i : word_ok x -> N.testbit (not64 x) i = ((i <? 64)%N && negb (N.testbit x i)).
Proof.
  intros Hx. unfold not64. rewrite N.lxor_spec, wmax_bit. destruct (N.ltb_spec i 64); cbn [andb].
  - by rewrite xorb_true_r.
  - by rewrite testbit_high.
Qed.
Lemma one_bit i : N.testbit 1 i = (i =? 0)%N.
Proof. destruct (N.eqb_spec i 0) as [->|]; [done|]. rewrite (N.bits_above_log2 1); [done|]. cbn. lia. Qed.
Lemma bit_mask i k : (k < 64)%N -> N.testbit (shl64 1 k) i = (i =? k)%N.
Proof.
  intros Hk. rewrite shl64_bit, one_bit by done.
  destruct (N.ltb_spec i 64), (N.leb_spec k i), (N.eqb_spec (i - k) 0), (N.eqb_spec i k); cbn; lia.
Qed.
Lemma land_ones_low w n : (N.land w (N.ones n) = w mod 2 ^ n)%N.
Proof. apply N.land_ones. Qed.

(** *** set/get bit *)
Lemma get_bit_unchecked_ok w i : (i < 64)%N -> get_bit_unchecked w i = Ok (N.testbit w i).
Proof.
  intros Hi. unfold get_bit_unchecked. destruct (N.ltb_spec i 64); [|lia]. f_equal.
  change 1%N with (N.ones 1). rewrite N.land_ones.
  rewrite <- N.bit0_mod, N.shiftr_spec by lia. cbn [N.ones]. rewrite N.add_0_l.
  change (N.ones 1) with 1%N. by destruct (N.testbit w i).
Qed.
Lemma set_bit_unchecked_ok flag w i : word_ok w -> (i < 64)%N ->
  exists w', set_bit_unchecked flag w i = Ok (w', N.testbit w i) /\ word_ok w' /\
    forall j, N.testbit w' j = if (j =? i)%N then flag else N.testbit w j.
Proof.
  intros Hw Hi. unfold set_bit_unchecked. destruct (N.ltb_spec i 64); [|lia]. cbn zeta.
  assert (negb (N.land w (shl64 1 i) =? 0)%N = N.testbit w i) as ->.
  { destruct (N.testbit w i) eqn:E.
    - destruct (N.eqb_spec (N.land w (shl64 1 i)) 0) as [E0|]; [|done].
      assert (N.testbit (N.land w (shl64 1 i)) i = true) as C.
      { rewrite N.land_spec, E, bit_mask, N.eqb_refl by lia. done. }
      rewrite E0, N.bits_0 in C. done.
    - replace (N.land w (shl64 1 i)) with 0%N; [done|]. symmetry. apply N.bits_inj_0. intros j.
      rewrite N.land_spec, bit_mask by lia. destruct (N.eqb_spec j i) as [->|]; [by rewrite E|by rewrite andb_false_r]. }
  eexists. split; [reflexivity|]. split.
  - destruct flag; [apply word_ok_lor; [done|apply word_ok_shl64]|by apply word_ok_land_l].
  - intros j. destruct flag.
    + rewrite N.lor_spec, bit_mask by lia. destruct (N.eqb_spec j i); [by rewrite orb_true_r|by rewrite orb_false_r].
    + rewrite N.land_spec, not64_bit, bit_mask by (lia || apply word_ok_shl64).
      destruct (N.eqb_spec j i); cbn [negb]; [by rewrite andb_false_r, andb_false_r|].
      rewrite andb_true_r. destruct (N.ltb_spec j 64); [by rewrite andb_true_r|].
      rewrite testbit_high by done. done.
Qed.

(** *** trailing zeros, lowest bit *)
Lemma pos_tz_spec p : exists m, Npos p = (2 ^ pos_tz p * (2 * m + 1))%N.
Proof.
  induction p as [p IH|p IH|]; cbn [pos_tz].
  - exists (Npos p). rewrite N.pow_0_r. lia.
  - destruct IH as [m Hm]. exists m. rewrite N.pow_succ_r', <- N.mul_assoc, <- Hm. lia.
  - exists 0%N. reflexivity.
Qed.
Lemma odd_mul_bit k m i : N.testbit (2 ^ k * (2 * m + 1)) i =
  ((k <=? i) && ((i =? k) || N.testbit m (i - k - 1)))%N.
Proof.
  rewrite N.mul_comm, <- N.shiftl_mul_pow2. destruct (N.leb_spec k i); cbn [andb].
  - rewrite N.shiftl_spec_high' by done. destruct (N.eqb_spec i k) as [->|]; cbn [orb].
    + rewrite N.sub_diag. apply N.testbit_odd_0.
    + replace (i - k)%N with (N.succ (i - k - 1)) by lia.
      rewrite N.testbit_odd_succ by lia. f_equal. lia.
  - by rewrite N.shiftl_spec_low.
Qed.
Lemma tz_bit w : w <> 0%N -> N.testbit w (trailing_zeros w) = true.
Proof.
  destruct w as [|p]; [done|intros _]. cbn [trailing_zeros]. destruct (pos_tz_spec p) as [m Hm].
  rewrite Hm. rewrite odd_mul_bit. rewrite N.leb_refl, N.eqb_refl. done.
Qed.
Lemma tz_low w i : w <> 0%N -> (i < trailing_zeros w)%N -> N.testbit w i = false.
Proof.
  destruct w as [|p]; [done|intros _]. cbn [trailing_zeros]. destruct (pos_tz_spec p) as [m Hm].
  intros Hi. rewrite Hm. rewrite odd_mul_bit. destruct (N.leb_spec (pos_tz p) i); [lia|done].
Qed.
Lemma tz_lt w : word_ok w -> w <> 0%N -> (trailing_zeros w < 64)%N.
Proof.
  intros Hw Hz. destruct (N.ltb_spec (trailing_zeros w) 64); [done|].
  pose proof (tz_bit w Hz) as H1. rewrite testbit_high in H1 by done. done.
Qed.
Lemma wrapping_neg_lnot w : word_ok w -> w <> 0%N -> wrapping_neg w = N.lnot (w - 1) 64.
Proof.
  intros Hw Hz. unfold word_ok, W64 in Hw. unfold wrapping_neg, W64. rewrite N.mod_small by lia.
  rewrite N.lnot_sub_low.
  - rewrite N.ones_equiv. lia.
  - destruct (decide (w - 1 = 0)%N) as [->|]; [done|]. apply N.log2_lt_pow2; lia.
Qed.
Lemma clear_lowest_bit w i : word_ok w -> w <> 0%N ->
  N.testbit (clear_lowest w) i = (negb (i =? trailing_zeros w)%N && N.testbit w i).
Proof.
  intros Hw Hz. unfold clear_lowest. rewrite N.lxor_spec, N.land_spec, wrapping_neg_lnot by done.
  destruct (N.leb_spec 64 i) as [Hi|Hi].
  { rewrite (testbit_high w) by done. by rewrite andb_false_r. }
  rewrite N.lnot_spec_low by done.
  destruct w as [|p]; [done|]. cbn [trailing_zeros]. destruct (pos_tz_spec p) as [m Hm].
  set (k := pos_tz p) in *.
  assert (N.testbit (N.pos p - 1) i = if (i <? k)%N then true else if (i =? k)%N then false else N.testbit (N.pos p) i) as ->.
  { assert (N.pos p - 1 = m * 2 ^ (k + 1) + N.ones k)%N as ->.
    { rewrite Hm, N.ones_equiv, N.pow_add_r, N.pow_1_r.
      assert (2 ^ k <> 0)%N by (apply N.pow_nonzero; done). nia. }
    assert (N.land (m * 2 ^ (k + 1)) (N.ones k) = 0)%N as Hd.
    { apply N.bits_inj_0. intros j. rewrite N.land_spec, <- N.shiftl_mul_pow2.
      destruct (N.ltb_spec j k).
      - rewrite N.shiftl_spec_low by lia. done.
      - rewrite N.ones_spec_high by done. by rewrite andb_false_r. }
    rewrite N.add_nocarry_lxor by done.
    rewrite N.lxor_spec, <- N.shiftl_mul_pow2.
    destruct (N.ltb_spec i k).
    - rewrite N.ones_spec_low, N.shiftl_spec_low by lia. done.
    - rewrite N.ones_spec_high, xorb_false_r by done.
      destruct (N.eqb_spec i k) as [->|].
      + rewrite N.shiftl_spec_low by lia. done.
      + rewrite N.shiftl_spec_high' by lia. rewrite Hm, odd_mul_bit.
        destruct (N.leb_spec k i); [|lia]. destruct (N.eqb_spec i k); [lia|]. cbn.
        f_equal. lia. }
  destruct (N.ltb_spec i k) as [Hik|Hik].
  { assert (N.testbit (N.pos p) i = false) as ->; [|by destruct (i =? k)%N].
    rewrite Hm, odd_mul_bit. destruct (N.leb_spec k i); [lia|done]. }
  destruct (N.eqb_spec i k) as [->|]; cbn [negb andb].
  - rewrite andb_true_r. apply xorb_nilpotent.
  - destruct (N.testbit (N.pos p) i); done.
Qed.
Lemma clear_lowest_ok w : word_ok w -> word_ok (clear_lowest w).
Proof. intros H. apply word_ok_lxor; [done|by apply word_ok_land_l]. Qed.

(** *** the list of set bits of a word: specification object *)
Definition wbits (w : N) : list N := filter (fun i => N.testbit w i = true) (seqN 0 64).
Global Arguments wbits : simpl never.
Lemma elem_of_wbits w i : i ∈ wbits w <-> (i < 64)%N /\ N.testbit w i = true.
Proof. unfold wbits. rewrite elem_of_list_filter, elem_of_seqN. naive_solver lia. Qed.
Lemma wbits_sorted w : StronglySorted N.lt (wbits w).
Proof. apply ssorted_filter, seqN_sorted. Qed.
Lemma wbits_0 : wbits 0 = [].
Proof. apply ssorted_ext; [apply wbits_sorted|constructor|]. intros i. rewrite elem_of_wbits, N.bits_0. set_solver. Qed.
Lemma wbits_nil w : word_ok w -> wbits w = [] -> w = 0%N.
Proof.
  intros Hw H. destruct (decide (w = 0%N)) as [|Hz]; [done|].
  assert (trailing_zeros w ∈ wbits w) as Hc by (apply elem_of_wbits; split; [by apply tz_lt|by apply tz_bit]).
  rewrite H in Hc. set_solver.
Qed.
Lemma wbits_step w : word_ok w -> w <> 0%N ->
  wbits w = trailing_zeros w :: wbits (clear_lowest w).
Proof.
  intros Hw Hz. apply ssorted_ext; [apply wbits_sorted| |].
  - constructor; [apply wbits_sorted|]. apply Forall_forall. intros i [Hi Hb]%elem_of_wbits.
    rewrite clear_lowest_bit in Hb by done. destruct (N.eqb_spec i (trailing_zeros w)); [done|].
    cbn in Hb. destruct (N.ltb_spec (trailing_zeros w) i); [done|].
    rewrite tz_low in Hb; [done|done|lia].
  - intros i. rewrite elem_of_cons, !elem_of_wbits, clear_lowest_bit by done.
    destruct (N.eqb_spec i (trailing_zeros w)) as [->|]; cbn; [|naive_solver].
    rewrite tz_bit by done. pose proof (tz_lt w Hw Hz). naive_solver.
Qed.
Lemma wbits_length w : length (wbits w) <= 64.
Proof. unfold wbits. etrans; [apply filter_length|]. by rewrite seqN_length. Qed.

(** fold with early exit: specification of a traversal *)
Fixpoint visit {St} (l : list N) (f : St -> N -> St * bool) (s : St) : St * bool :=
  match l with
  | [] => (s, false)
  | i :: l => let '(s', brk) := f s i in if brk then (s', true) else visit l f s'
  end.
Lemma visit_app {St} l1 l2 (f : St -> N -> St * bool) s :
  visit (l1 ++ l2) f s = let '(s', b) := visit l1 f s in if b then (s', true) else visit l2 f s'.
Proof.
  revert s. induction l1 as [|i l1 IH]; intros s; cbn [visit app]; [done|].
  destruct (f s i) as [s' []]; [done|]. apply IH.
Qed.
Lemma visit_fmap {St} (g : N -> N) l (f : St -> N -> St * bool) s :
  visit (g <$> l) f s = visit l (fun s i => f s (g i)) s.
Proof.
  revert s. induction l as [|i l IH]; intros s; [done|]. cbn [visit fmap list_fmap].
  destruct (f s (g i)) as [s' []]; [done|]. apply IH.
Qed.

Lemma one_bits_next_spec w : word_ok w ->
  word_ok (fst (one_bits_next w)) /\
  snd (one_bits_next w) = head (wbits w) /\ wbits (fst (one_bits_next w)) = tail (wbits w).
Proof.
  intros Hw. unfold one_bits_next. destruct (N.eqb_spec w 0) as [->|Hz]; cbn [negb fst snd].
  - rewrite wbits_0. done.
  - rewrite (wbits_step w) by done. cbn. split_and!; [by apply clear_lowest_ok|done|done].
Qed.
Lemma traverse_one_bits_loop_ok {St} fuel w (f : St -> N -> St * bool) s :
  word_ok w -> length (wbits w) < fuel ->
  traverse_one_bits_loop fuel w f s = Ok (visit (wbits w) f s).
Proof.
  revert w s. induction fuel as [|fuel IH]; intros w s Hw Hl; [lia|].
  cbn [traverse_one_bits_loop]. destruct (N.eqb_spec w 0) as [->|Hz].
  - by rewrite wbits_0.
  - rewrite (wbits_step w) in * by done. cbn [visit length] in *.
    destruct (f s (trailing_zeros w)) as [s' []]; [done|].
    apply IH; [by apply clear_lowest_ok|lia].
Qed.
Lemma traverse_one_bits_ok {St} w (f : St -> N -> St * bool) s :
  word_ok w -> traverse_one_bits w f s = Ok (visit (wbits w) f s).
Proof. intros Hw. apply traverse_one_bits_loop_ok; [done|]. pose proof (wbits_length w). lia. Qed.
Lemma one_bits_fold_loop_ok {B} fuel w (f : B -> N -> B) s :
  word_ok w -> length (wbits w) < fuel ->
  one_bits_fold_loop fuel w f s = Ok (fold_left f (wbits w) s).
Proof.
  revert w s. induction fuel as [|fuel IH]; intros w s Hw Hl; [lia|].
  cbn [one_bits_fold_loop]. destruct (N.eqb_spec w 0) as [->|Hz].
  - by rewrite wbits_0.
  - rewrite (wbits_step w) in * by done. cbn [fold_left length] in *.
    apply IH; [by apply clear_lowest_ok|lia].
Qed.
Lemma one_bits_fold_ok {B} w (f : B -> N -> B) s :
  word_ok w -> one_bits_fold w f s = Ok (fold_left f (wbits w) s).
Proof. intros Hw. apply one_bits_fold_loop_ok; [done|]. pose proof (wbits_length w). lia. Qed.

(** *** popcount *)
Lemma popcount_cnt w n : (w < 2 ^ N.of_nat n)%N -> popcount w = cnt (N.testbit w) n.
Proof.
  revert w. induction n as [|n IH]; intros w Hw.
  - replace w with 0%N by (rewrite N.pow_0_r in Hw; lia). done.
  - rewrite cnt_shift. destruct w as [|p].
    { rewrite N.bits_0. symmetry. rewrite (proj2 (cnt_zero _ _)); [done|]. intros; apply N.bits_0. }
    replace (N.of_nat (S n)) with (N.succ (N.of_nat n)) in Hw by lia. rewrite N.pow_succ_r' in Hw.
    destruct p as [p|p|]; cbn [popcount pos_pop].
    + change (pos_pop p) with (popcount (N.pos p)). rewrite (IH (N.pos p)) by lia.
      change (N.pos p~1) with (2 * N.pos p + 1)%N. rewrite N.testbit_odd_0. f_equal.
      apply cnt_ext. intros i _. rewrite N.testbit_odd_succ by lia. done.
    + change (pos_pop p) with (popcount (N.pos p)). rewrite (IH (N.pos p)) by lia.
      change (N.pos p~0) with (2 * N.pos p)%N. rewrite N.testbit_even_0.
      apply cnt_ext. intros i _. rewrite N.testbit_even_succ by lia. done.
    + rewrite one_bit, N.eqb_refl. rewrite (proj2 (cnt_zero _ _)); [done|].
      intros i Hi. rewrite one_bit. destruct (N.eqb_spec (N.succ i) 0); [lia|done].
Qed.
Lemma popcount_word w : word_ok w -> popcount w = cnt (N.testbit w) 64.
Proof. intros H. apply popcount_cnt. exact H. Qed.
Lemma popcount_wbits w : word_ok w -> popcount w = length (wbits w).
Proof. intros H. rewrite popcount_word by done. apply cnt_filter. Qed.
Lemma popcount_le w : word_ok w -> popcount w <= 64.
Proof. intros. rewrite popcount_word by done. apply cnt_le. Qed.

(** ** Blocks *)
Definition mask_ok (nw : nat) (m : mask) : Prop := length m = nw /\ Forall word_ok m.
(** membership of an index in a block, independent of the code's accessors *)
Definition mbit (m : mask) (i : N) : bool :=
  match m !! N.to_nat (i / 64) with Some w => N.testbit w (i mod 64) | None => false end.
(** ascending list of set indices *)
Definition mbits (m : mask) : list N :=
  filter (fun i => mbit m i = true) (seqN 0 (64 * length m)).

Global Arguments mbits : simpl never.
Lemma mbit_bound m i : mbit m i = true -> (i < 64 * N.of_nat (length m))%N.
Proof.
  unfold mbit. destruct (m !! N.to_nat (i / 64)) eqn:E; [|done]. intros _.
  apply lookup_lt_Some in E. lia.
Qed.
Lemma elem_of_mbits m i : i ∈ mbits m <-> mbit m i = true.
Proof.
  unfold mbits. rewrite elem_of_list_filter, elem_of_seqN. split; [naive_solver|].
  intros H. split; [done|]. apply mbit_bound in H. lia.
Qed.
Lemma mbits_sorted m : StronglySorted N.lt (mbits m).
Proof. apply ssorted_filter, seqN_sorted. Qed.
Lemma mbit_single w i : word_ok w -> mbit [w] i = N.testbit w i.
Proof.
  intros Hw. unfold mbit. destruct (decide (i < 64)%N) as [Hi|Hi].
  - replace (N.to_nat (i / 64)) with 0 by lia. cbn. f_equal. lia.
  - rewrite testbit_high by (done || lia). destruct (N.to_nat (i / 64)) eqn:E; [lia|done].
Qed.
Lemma mbits_single w : word_ok w -> mbits [w] = wbits w.
Proof.
  intros Hw. apply ssorted_ext; [apply mbits_sorted|apply wbits_sorted|].
  intros i. rewrite elem_of_mbits, elem_of_wbits, mbit_single by done.
  split; [|naive_solver]. intros H. split; [|done].
  destruct (decide (i < 64)%N) as [|Hi]; [done|]. rewrite testbit_high in H by (done || lia). done.
Qed.
Lemma mbit_cons w m i : mbit (w :: m) i = if (i <? 64)%N then N.testbit w i else mbit m (i - 64).
Proof.
  unfold mbit. destruct (N.ltb_spec i 64).
  - replace (N.to_nat (i / 64)) with 0 by lia. cbn. f_equal. lia.
  - replace (N.to_nat (i / 64)) with (S (N.to_nat ((i - 64) / 64))) by lia. cbn.
    replace ((i - 64) mod 64)%N with (i mod 64)%N by lia. done.
Qed.
Lemma mbits_cons w m : mbits (w :: m) = wbits w ++ ((fun i => 64 + i)%N <$> mbits m).
Proof.
  apply ssorted_ext; [apply mbits_sorted| |].
  - apply ssorted_app; [apply wbits_sorted| |].
    + generalize (mbits_sorted m). induction 1 as [|x l Hs IH Hf]; [constructor|]. cbn.
      constructor; [done|]. rewrite Forall_fmap. eapply Forall_impl; [exact Hf|]. cbn. lia.
    + intros i j [Hi _]%elem_of_wbits (j' & -> & Hj)%elem_of_list_fmap. lia.
  - intros i. rewrite elem_of_app, elem_of_list_fmap, elem_of_mbits, elem_of_wbits, mbit_cons.
    destruct (N.ltb_spec i 64).
    + split; [naive_solver|]. intros [|(j & -> & Hj)]; [naive_solver|lia].
    + split.
      * intros Hb. right. exists (i - 64)%N. rewrite elem_of_mbits. split; [lia|done].
      * intros [|(j & -> & Hj)]; [naive_solver lia|]. rewrite elem_of_mbits in Hj. by replace (64 + j - 64)%N with j by lia.
Qed.
Lemma mbits_nil : mbits [] = [].
Proof. done. Qed.

Lemma traverse_array_loop_ok {St} m i (f : St -> N -> St * bool) s :
  Forall word_ok m ->
  traverse_array_loop m i f s = Ok (visit (mbits m) (fun s j => f s (i * 64 + j)%N) s).
Proof.
  revert i s. induction m as [|w m IH]; intros i s Hm; [done|].
  inversion_clear Hm as [|? ? Hw Hm']. cbn [traverse_array_loop].
  rewrite traverse_one_bits_ok, bind_ok, mbits_cons, visit_app by done.
  destruct (visit (wbits w) _ s) as [s' []]; [done|].
  rewrite IH by done. rewrite visit_fmap. f_equal.
  assert (forall l s, visit l (fun s j => f s (N.succ i * 64 + j)%N) s =
                      visit l (fun s j => f s (i * 64 + (64 + j))%N) s) as H; [|apply H].
  intros l. induction l as [|j l IHl]; intros s0; [done|]. cbn [visit].
  replace (N.succ i * 64 + j)%N with (i * 64 + (64 + j))%N by lia.
  destruct (f s0 _) as [s1 []]; [done|]. apply IHl.
Qed.
Lemma visit_ext {St} l (f g : St -> N -> St * bool) s :
  (forall s i, f s i = g s i) -> visit l f s = visit l g s.
Proof.
  intros H. revert s. induction l as [|i l IH]; intros s; [done|]. cbn [visit]. rewrite H.
  destruct (g s i) as [s' []]; [done|]. apply IH.
Qed.
Lemma traverse_array_ok {St} m (f : St -> N -> St * bool) s :
  Forall word_ok m -> traverse_array_one_bits m f s = Ok (visit (mbits m) f s).
Proof.
  intros Hm. unfold traverse_array_one_bits. rewrite traverse_array_loop_ok by done. f_equal.
Qed.
Lemma mask_traverse_ok {St} m (f : St -> N -> St * bool) s :
  Forall word_ok m -> mask_traverse_bits m f s = Ok (visit (mbits m) f s).
Proof.
  intros Hm. unfold mask_traverse_bits. destruct (decide (length m = 1)) as [Hl|]; [|by apply traverse_array_ok].
  destruct m as [|w [|? ?]]; try done. inversion_clear Hm.
  change (get_u [w] 0) with (Ok w). rewrite bind_ok, traverse_one_bits_ok, mbits_single by done. done.
Qed.

Lemma land_63 i : N.land i (64 - 1) = (i mod 64)%N.
Proof. change (64 - 1)%N with (N.ones 6). rewrite N.land_ones. done. Qed.

Lemma mask_get_bit_ok nw m i : mask_ok nw m -> (i < 64 * N.of_nat nw)%N ->
  mask_get_bit m i = Ok (mbit m i).
Proof.
  intros [Hl Hm] Hi. unfold mask_get_bit. destruct (decide (length m = 1)) as [H1|H1].
  - destruct m as [|w [|? ?]]; try done. inversion_clear Hm.
    change (get_u [w] 0) with (Ok w). rewrite bind_ok, get_bit_unchecked_ok, mbit_single by (done || cbn in *; lia). done.
  - unfold get_array_bit_unchecked, mbit.
    destruct (lookup_lt_is_Some_2 m (N.to_nat (i / 64))) as [w Hw]; [lia|].
    rewrite (get_u_ok _ _ _ Hw), bind_ok, land_63, get_bit_unchecked_ok by lia. by rewrite Hw.
Qed.
Lemma mask_set_bit_ok flag nw m i : mask_ok nw m -> (i < 64 * N.of_nat nw)%N ->
  exists m', mask_set_bit flag m i = Ok (m', mbit m i) /\ mask_ok nw m' /\
    forall j, mbit m' j = if (j =? i)%N then flag else mbit m j.
Proof.
  intros [Hl Hm] Hi. unfold mask_set_bit. destruct (decide (length m = 1)) as [H1|H1].
  - destruct m as [|w [|? ?]]; try done. inversion_clear Hm.
    change (get_u [w] 0) with (Ok w). rewrite bind_ok.
    destruct (set_bit_unchecked_ok flag w i) as (w' & -> & Hw' & Hb); [done|cbn in *; lia|].
    rewrite bind_ok. rewrite set_u_ok, bind_ok by (cbn; lia). cbn [list_insert insert].
    eexists. rewrite mbit_single by done. split; [done|]. split.
    + split; [done|]. by constructor.
    + intros j. rewrite !mbit_single by done. apply Hb.
  - unfold set_array_bit_unchecked.
    destruct (lookup_lt_is_Some_2 m (N.to_nat (i / 64))) as [w Hw]; [lia|].
    rewrite (get_u_ok _ _ _ Hw), bind_ok, land_63.
    assert (word_ok w) as Hwok by (rewrite Forall_forall in Hm; apply Hm; by eapply elem_of_list_lookup_2).
    destruct (set_bit_unchecked_ok flag w (i mod 64)) as (w' & -> & Hw' & Hb); [done|lia|].
    rewrite bind_ok, set_u_ok, bind_ok by lia. eexists. split; [|split].
    + unfold mbit. rewrite Hw. done.
    + split; [by rewrite insert_length|]. by apply Forall_insert.
    + intros j. unfold mbit. destruct (decide (j / 64 = i / 64)%N) as [He|He].
      * rewrite He, list_lookup_insert by lia. rewrite Hb, Hw.
        destruct (N.eqb_spec j i) as [->|]; [by rewrite N.eqb_refl|].
        destruct (N.eqb_spec (j mod 64) (i mod 64)); [lia|done].
      * rewrite list_lookup_insert_ne by lia. destruct (N.eqb_spec j i) as [->|]; done.
Qed.
Lemma mask_zero_ok nw : mask_ok nw (mask_zero nw).
Proof. split; [apply replicate_length|]. apply Forall_replicate. done. Qed.
Lemma mbit_zero nw i : mbit (mask_zero nw) i = false.
Proof.
  unfold mbit, mask_zero. destruct (replicate nw 0%N !! _) eqn:E; [|done].
  apply lookup_replicate in E as [-> _]. apply N.bits_0.
Qed.
Lemma mask_ext nw m1 m2 : mask_ok nw m1 -> mask_ok nw m2 ->
  (forall i, (i < 64 * N.of_nat nw)%N -> mbit m1 i = mbit m2 i) -> m1 = m2.
Proof.
  intros [Hl1 H1] [Hl2 H2] H. apply list_eq_same_length with nw; [done|lia|].
  intros k w1 w2 Hk Hw1 Hw2. rewrite Forall_forall in H1, H2.
  apply word_ext; [apply H1; by eapply elem_of_list_lookup_2|apply H2; by eapply elem_of_list_lookup_2|].
  intros i Hi. specialize (H (64 * N.of_nat k + i)%N). unfold mbit in H.
  replace (N.to_nat ((64 * N.of_nat k + i) / 64)) with k in H by lia.
  replace ((64 * N.of_nat k + i) mod 64)%N with i in H by lia.
  rewrite Hw1, Hw2 in H. apply H. lia.
Qed.
Lemma mask_is_zero_ok nw m : mask_ok nw m ->
  mask_is_zero m = true <-> forall i, mbit m i = false.
Proof.
  intros Hm. unfold mask_is_zero. rewrite bool_decide_eq_true. destruct Hm as [Hl Hm]. rewrite Hl. split.
  - intros ->. intros i. apply mbit_zero.
  - intros H. apply (mask_ext nw); [done|apply mask_zero_ok|]. intros i _. by rewrite H, mbit_zero.
Qed.
Lemma mask_and_ok nw m1 m2 : mask_ok nw m1 -> mask_ok nw m2 -> mask_ok nw (mask_and m1 m2).
Proof.
  intros [Hl1 H1] [Hl2 H2]. split; [unfold mask_and; rewrite zip_with_length; lia|].
  unfold mask_and. clear Hl1 Hl2. revert m2 H2.
  induction H1 as [|w1 m1 Hw1 H1 IH]; intros m2 H2; destruct H2 as [|w2 m2 Hw2 H2]; cbn [zip_with];
    try constructor; [by apply word_ok_land_l|by apply IH].
Qed.
Lemma mask_or_ok nw m1 m2 : mask_ok nw m1 -> mask_ok nw m2 -> mask_ok nw (mask_or m1 m2).
Proof.
  intros [Hl1 H1] [Hl2 H2]. split; [unfold mask_or; rewrite zip_with_length; lia|].
  unfold mask_or. clear Hl1 Hl2. revert m2 H2.
  induction H1 as [|w1 m1 Hw1 H1 IH]; intros m2 H2; destruct H2 as [|w2 m2 Hw2 H2]; cbn [zip_with];
    try constructor; [by apply word_ok_lor|by apply IH].
Qed.
Lemma mbit_and nw m1 m2 i : mask_ok nw m1 -> mask_ok nw m2 ->
  mbit (mask_and m1 m2) i = mbit m1 i && mbit m2 i.
Proof.
  intros [Hl1 _] [Hl2 _]. unfold mbit, mask_and. rewrite lookup_zip_with.
  destruct (m1 !! _) eqn:E1, (m2 !! _) eqn:E2; cbn; [apply N.land_spec| |done|done].
  by rewrite andb_false_r.
Qed.
Lemma mbit_or nw m1 m2 i : mask_ok nw m1 -> mask_ok nw m2 ->
  mbit (mask_or m1 m2) i = mbit m1 i || mbit m2 i.
Proof.
  intros [Hl1 _] [Hl2 _]. unfold mbit, mask_or. rewrite lookup_zip_with.
  destruct (m1 !! _) eqn:E1, (m2 !! _) eqn:E2; cbn; [apply N.lor_spec| | |done].
  - apply lookup_lt_Some in E1. apply lookup_ge_None in E2. lia.
  - apply lookup_ge_None in E1. apply lookup_lt_Some in E2. lia.
Qed.
Lemma mask_count_ones_ok m : Forall word_ok m -> mask_count_ones m = length (mbits m).
Proof.
  induction 1 as [|w m Hw Hm IH]; [done|]. unfold mask_count_ones in *. cbn [fmap list_fmap sum_list].
  rewrite mbits_cons, app_length, fmap_length, <- IH, popcount_wbits by done. done.
Qed.
