(** * The public bit queues at every primitive width

    bit_queue.rs is generic in the primitive type [P] (u8, u16, u32, u64, usize:
    src/utils/primitive.rs:84-88).  BitUtils.v / BitQueue.v model what the trees use (u64); here
    is the same code at any of the widths, plus `for_each` and `EmptyBitQueue`. *)
From Verif Require Import Base BitUtils BitUtilsProofs BitQueue BitQueueProofs.

Section width.
Context (W : N).
Hypothesis HW : W = 8%N \/ W = 16%N \/ W = 32%N \/ W = 64%N.

(** ** Model: src/bit_utils.rs and src/bit_queue.rs at primitive type [P] of [W] bits *)
(** `P::MAX` (src/utils/primitive.rs:45) *)
Definition WMAX_w : N := N.ones W.
Definition word_ok_w (w : N) : Prop := (w < 2 ^ W)%N.
(** `P::trailing_zeros_w`: [W] on zero (primitive.rs:66-68) *)
Definition trailing_zeros_w (w : N) : N := match w with N0 => W | Npos p => pos_tz p end.
(** `P::wrapping_neg_w` (primitive.rs:71-73) *)
Definition wrapping_neg_w (w : N) : N := ((2 ^ W - w) mod 2 ^ W)%N.
(** `x << n` on [P], as in release builds (the shift amount is masked) *)
Definition shl_w (x n : N) : N := N.land (N.shiftl x (n mod W)) WMAX_w.
(** bit_utils.rs:125-127, 161-162, 185-187 *)
Definition clear_lowest_w (element : N) : N :=
  let t := N.land element (wrapping_neg_w element) in N.lxor element t.
(** `OneBitsIter::next` bit_utils.rs:153-168 *)
Definition one_bits_next_w (element : N) : N * option N :=
  if negb (element =? 0)%N then (clear_lowest_w element, Some (trailing_zeros_w element))
  else (element, None).
(** `traverse_one_bits_w` bit_utils.rs:108-130 *)
Fixpoint traverse_one_bits_loop_w {St} (fuel : nat) (element : N)
    (f : St -> N -> St * bool) (s : St) : res (St * bool) :=
  match fuel with
  | O => OutOfFuel
  | S fuel =>
    if (element =? 0)%N then Ok (s, false) else
    let '(s, brk) := f s (trailing_zeros_w element) in
    if brk then Ok (s, true)
    else traverse_one_bits_loop_w fuel (clear_lowest_w element) f s
  end.
Definition traverse_one_bits_w {St} (element : N) (f : St -> N -> St * bool) (s : St)
  : res (St * bool) := traverse_one_bits_loop_w (S (N.to_nat W)) element f s.
(** `traverse_array_one_bits_w` bit_utils.rs:85-105 (`i * size_of::<P>() * 8 + r`) *)
Fixpoint traverse_array_loop_w {St} (array : list N) (i : N)
    (f : St -> N -> St * bool) (s : St) : res (St * bool) :=
  match array with
  | [] => Ok (s, false)
  | element :: rest =>
    let* (s, brk) := traverse_one_bits_w element (fun (s : St) (r : N) => f s (i * W + r)%N) s in
    if brk then Ok (s, true) else traverse_array_loop_w rest (N.succ i) f s
  end.
Definition traverse_array_one_bits_w {St} (array : list N) (f : St -> N -> St * bool) (s : St)
  : res (St * bool) := traverse_array_loop_w array 0 f s.
(** `OneBitsIter::fold` bit_utils.rs:171-190 *)
Fixpoint one_bits_fold_loop_w {B} (fuel : nat) (element : N) (f : B -> N -> B) (init : B)
  : res B :=
  match fuel with
  | O => OutOfFuel
  | S fuel =>
    if (element =? 0)%N then Ok init else
    one_bits_fold_loop_w fuel (clear_lowest_w element) f (f init (trailing_zeros_w element))
  end.
Definition one_bits_fold_w {B} (element : N) (f : B -> N -> B) (init : B) : res B :=
  one_bits_fold_loop_w (S (N.to_nat W)) element f init.
(** `saturating_shl_w` bit_queue.rs:10-17 *)
Definition saturating_shl_w (p n : N) : N :=
  if (W <=? n)%N then 0%N else shl_w p n.

(** ** PrimitiveBitQueue<P> bit_queue.rs:94-165 *)
Definition pq_new_w (value : N) : N := value. (* bit_queue.rs:106-110 *)
Definition pq_empty_w : N := 0%N. (* bit_queue.rs:118-120 *)
Definition pq_filled_w : N := WMAX_w. (* bit_queue.rs:123-125 *)
Definition pq_trim_to_w (block n : N) : N := (* bit_queue.rs:128-134 *)
  N.land block (saturating_shl_w WMAX_w n).
Definition pq_current_w (block : N) : N := trailing_zeros_w block. (* bit_queue.rs:137-139 *)
Definition pq_traverse_w {St} (block : N) (f : St -> N -> St * bool) (s : St) :=
  traverse_one_bits_w block f s.                                    (* 142-147 *)
Definition pq_next_w (block : N) : N * option N := one_bits_next_w block. (* bit_queue.rs:162-164 *)

(** ** ArrayBitQueue<P, N> bit_queue.rs:167-174 (the record of BitQueue.v) *)
Definition aq_new_w (array : list N) : aq := AQ array 0. (* bit_queue.rs:181-190 *)
Definition aq_empty_w (n : nat) : aq := AQ (replicate n 0%N) (n - 1). (* bit_queue.rs:198-203 *)
Definition aq_filled_w (n : nat) : aq := aq_new_w (replicate n WMAX_w). (* bit_queue.rs:206-208 *)
(** `trim_to` bit_queue.rs:211-265 *)
Definition aq_trim_to_w (q : aq) (n : N) : res aq :=
  let len := length (aq_iters q) in
  let element_index := N.to_nat (n / W) in
  if decide (len <= element_index) then
    if decide (0 < len) then Ok (AQ (<[0 := 0%N]> (aq_iters q)) (len - 1)) else Panic
  else if decide (element_index < aq_index q) then Ok q
  else
    let* q1 :=
      if decide (element_index <> aq_index q) then
        let* w := get_u (aq_iters q) element_index in
        Ok (AQ (<[0 := w]> (aq_iters q)) element_index)
      else Ok q in
    let* w0 := get_c (aq_iters q1) 0 in
    Ok (AQ (<[0 := N.land w0 (shl_w WMAX_w (n mod W))]> (aq_iters q1)) (aq_index q1)).
(** `current` bit_queue.rs:268-271 *)
Definition aq_current_w (q : aq) : res N :=
  let* w0 := get_c (aq_iters q) 0 in
  Ok (N.of_nat (aq_index q) * W + trailing_zeros_w w0)%N.
(** `traverse` bit_queue.rs:274-293 *)
Definition aq_traverse_w {St} (q : aq) (f : St -> N -> St * bool) (s : St) : res (St * bool) :=
  let* w0 := get_c (aq_iters q) 0 in
  let* iters := set_u (aq_iters q) (aq_index q) w0 in
  let slice := drop (aq_index q) iters in
  let start_index := (N.of_nat (aq_index q) * W)%N in
  traverse_array_one_bits_w slice (fun s i => f s (start_index + i)%N) s.
(** `next` bit_queue.rs:310-324 *)
Fixpoint aq_next_loop_w (fuel : nat) (q : aq) : res (aq * option N) :=
  match fuel with
  | O => OutOfFuel
  | S fuel =>
    let* w0 := get_c (aq_iters q) 0 in
    match one_bits_next_w w0 with
    | (w0', Some index) =>
        Ok (AQ (<[0 := w0']> (aq_iters q)) (aq_index q),
            Some (N.of_nat (aq_index q) * W + index)%N)
    | (_, None) =>
        if decide (aq_index q = length (aq_iters q) - 1) then Ok (q, None)
        else
          let* w := get_u (aq_iters q) (S (aq_index q)) in
          aq_next_loop_w fuel (AQ (<[0 := w]> (aq_iters q)) (S (aq_index q)))
    end
  end.
Definition aq_next_w (q : aq) : res (aq * option N) :=
  aq_next_loop_w (S (length (aq_iters q))) q.
(** `for_each` bit_queue.rs:327-335: `traverse` with a callback that never breaks *)
Definition aq_for_each_w {St} (q : aq) (f : St -> N -> St) (s : St) : res St :=
  let* (s, _) := aq_traverse_w q (fun s i => (f s i, false)) s in Ok s.

(** ** Proofs *)
Ltac wl := let E := fresh "EW" in destruct HW as [E|[E|[E|E]]]; rewrite ?E in *; lia.
Lemma testbit_high_w w i : word_ok_w w -> (W <= i)%N -> N.testbit w i = false.
Proof.
  intros Hw Hi. unfold word_ok_w in *. destruct (decide (w = 0%N)) as [->|Hz]; [apply N.bits_0|].
  apply N.bits_above_log2. apply N.lt_le_trans with W%N; [|done].
  apply N.log2_lt_pow2; wl.
Qed.
Lemma word_ext_w w1 w2 : word_ok_w w1 -> word_ok_w w2 ->
  (forall i, (i < W)%N -> N.testbit w1 i = N.testbit w2 i) -> w1 = w2.
Proof.
  intros H1 H2 H. apply N.bits_inj. intros i. destruct (decide (i < W)%N) as [Hi|Hi].
  - by apply H.
  - rewrite !testbit_high_w by (done || wl). done.
Qed.
Lemma word_ok_bits_w w : (forall i, (W <= i)%N -> N.testbit w i = false) -> word_ok_w w.
Proof.
  intros H. unfold word_ok_w. destruct (decide (w = 0%N)) as [->|Hz]; [wl|].
  destruct (decide (w < 2 ^ W)%N) as [|Hge]; [done|exfalso].
  assert (W <= N.log2 w)%N as Hl by (apply N.log2_le_pow2; wl).
  apply H in Hl. rewrite N.bit_log2 in Hl by done. done.
Qed.
Lemma wmax_bit_w i : N.testbit WMAX_w i = (i <? W)%N.
Proof.
  unfold WMAX_w. destruct (N.ltb_spec i W).
  - by apply N.ones_spec_low.
  - by apply N.ones_spec_high.
Qed.
Lemma word_ok_0_w : word_ok_w 0.
Proof. unfold word_ok_w. assert (2 ^ W <> 0)%N by (by apply N.pow_nonzero). wl. Qed.
Lemma word_ok_max_w : word_ok_w WMAX_w.
Proof. unfold word_ok_w, WMAX_w. rewrite N.ones_equiv. assert (2 ^ W <> 0)%N by (by apply N.pow_nonzero). lia. Qed.
Lemma word_ok_land_l_w a b : word_ok_w a -> word_ok_w (N.land a b).
Proof. intros H. apply word_ok_bits_w. intros i Hi. rewrite N.land_spec, (testbit_high_w a) by done. done. Qed.
Lemma word_ok_land_r_w a b : word_ok_w b -> word_ok_w (N.land a b).
Proof. rewrite N.land_comm. apply word_ok_land_l_w. Qed.
Lemma word_ok_lxor_w a b : word_ok_w a -> word_ok_w b -> word_ok_w (N.lxor a b).
Proof. intros Ha Hb. apply word_ok_bits_w. intros i Hi. rewrite N.lxor_spec, !testbit_high_w by done. done. Qed.
Lemma word_ok_shl_w a n : word_ok_w (shl_w a n).
Proof. apply word_ok_land_r_w, word_ok_max_w. Qed.
Lemma shl_bit_w x n i : (n < W)%N -> N.testbit (shl_w x n) i =
  ((i <? W) && (n <=? i) && N.testbit x (i - n))%N.
Proof.
  intros Hn. unfold shl_w. rewrite (N.mod_small n) by done. rewrite N.land_spec, wmax_bit_w. destruct (N.ltb_spec i W); cbn [andb]; [|by rewrite andb_false_r].
  rewrite andb_true_r. destruct (N.leb_spec n i).
  - by rewrite N.shiftl_spec_high'.
  - by rewrite N.shiftl_spec_low.
Qed.
Lemma tz_bit_w w : w <> 0%N -> N.testbit w (trailing_zeros_w w) = true.
Proof.
  destruct w as [|p]; [done|intros _]. cbn [trailing_zeros_w]. destruct (pos_tz_spec p) as [m Hm].
  rewrite Hm. rewrite odd_mul_bit. rewrite N.leb_refl, N.eqb_refl. done.
Qed.
Lemma tz_low_w w i : w <> 0%N -> (i < trailing_zeros_w w)%N -> N.testbit w i = false.
Proof.
  destruct w as [|p]; [done|intros _]. cbn [trailing_zeros_w]. destruct (pos_tz_spec p) as [m Hm].
  intros Hi. rewrite Hm. rewrite odd_mul_bit. destruct (N.leb_spec (pos_tz p) i); [wl|done].
Qed.
Lemma tz_lt_w w : word_ok_w w -> w <> 0%N -> (trailing_zeros_w w < W)%N.
Proof.
  intros Hw Hz. destruct (N.ltb_spec (trailing_zeros_w w) W); [done|].
  pose proof (tz_bit_w w Hz) as H1. rewrite testbit_high_w in H1 by done. done.
Qed.
Lemma wrapping_neg_lnot_w w : word_ok_w w -> w <> 0%N -> wrapping_neg_w w = N.lnot (w - 1) W.
Proof.
  intros Hw Hz. unfold word_ok_w in Hw. unfold wrapping_neg_w. rewrite N.mod_small by wl.
  rewrite N.lnot_sub_low.
  - rewrite N.ones_equiv. wl.
  - destruct (decide (w - 1 = 0)%N) as [->|]; [change (0 < W)%N; wl|]. apply N.log2_lt_pow2; wl.
Qed.
Lemma clear_lowest_bit_w w i : word_ok_w w -> w <> 0%N ->
  N.testbit (clear_lowest_w w) i = (negb (i =? trailing_zeros_w w)%N && N.testbit w i).
Proof.
  intros Hw Hz. unfold clear_lowest_w. rewrite N.lxor_spec, N.land_spec, wrapping_neg_lnot_w by done.
  destruct (N.leb_spec W i) as [Hi|Hi].
  { rewrite (testbit_high_w w) by done. by rewrite andb_false_r. }
  rewrite N.lnot_spec_low by done.
  destruct w as [|p]; [done|]. cbn [trailing_zeros_w]. destruct (pos_tz_spec p) as [m Hm].
  set (k := pos_tz p) in *.
  assert (N.testbit (N.pos p - 1) i = if (i <? k)%N then true else if (i =? k)%N then false else N.testbit (N.pos p) i) as ->.
  { assert (N.pos p - 1 = m * 2 ^ (k + 1) + N.ones k)%N as ->.
    { rewrite Hm, N.ones_equiv, N.pow_add_r, N.pow_1_r.
      assert (2 ^ k <> 0)%N by (apply N.pow_nonzero; done). nia. }
    assert (N.land (m * 2 ^ (k + 1)) (N.ones k) = 0)%N as Hd.
    { apply N.bits_inj_0. intros j. rewrite N.land_spec, <- N.shiftl_mul_pow2.
      destruct (N.ltb_spec j k).
      - rewrite N.shiftl_spec_low by wl. done.
      - rewrite N.ones_spec_high by done. by rewrite andb_false_r. }
    rewrite N.add_nocarry_lxor by done.
    rewrite N.lxor_spec, <- N.shiftl_mul_pow2.
    destruct (N.ltb_spec i k).
    - rewrite N.ones_spec_low, N.shiftl_spec_low by wl. done.
    - rewrite N.ones_spec_high, xorb_false_r by done.
      destruct (N.eqb_spec i k) as [->|].
      + rewrite N.shiftl_spec_low by wl. done.
      + rewrite N.shiftl_spec_high' by wl. rewrite Hm, odd_mul_bit.
        destruct (N.leb_spec k i); [|wl]. destruct (N.eqb_spec i k); [wl|]. cbn.
        f_equal. wl. }
  destruct (N.ltb_spec i k) as [Hik|Hik].
  { assert (N.testbit (N.pos p) i = false) as ->; [|by destruct (i =? k)%N].
    rewrite Hm, odd_mul_bit. destruct (N.leb_spec k i); [wl|done]. }
  destruct (N.eqb_spec i k) as [->|]; cbn [negb andb].
  - rewrite andb_true_r. apply xorb_nilpotent.
  - destruct (N.testbit (N.pos p) i); done.
Qed.
Lemma clear_lowest_ok_w w : word_ok_w w -> word_ok_w (clear_lowest_w w).
Proof. intros H. apply word_ok_lxor_w; [done|by apply word_ok_land_l_w]. Qed.
Definition wbits_w (w : N) : list N := filter (fun i => N.testbit w i = true) (seqN 0 (N.to_nat W)).
Lemma elem_of_wbits_w w i : i ∈ wbits_w w <-> (i < W)%N /\ N.testbit w i = true.
Proof. unfold wbits_w. rewrite elem_of_list_filter, elem_of_seqN. split; [intros [? ?]; split; [lia|done]|intros [? ?]; split; [done|lia]]. Qed.
Lemma wbits_sorted_w w : StronglySorted N.lt (wbits_w w).
Proof. apply ssorted_filter, seqN_sorted. Qed.
Lemma wbits_0_w : wbits_w 0 = [].
Proof. apply ssorted_ext; [apply wbits_sorted_w|constructor|]. intros i. rewrite elem_of_wbits_w, N.bits_0. set_solver. Qed.
Lemma wbits_step_w w : word_ok_w w -> w <> 0%N ->
  wbits_w w = trailing_zeros_w w :: wbits_w (clear_lowest_w w).
Proof.
  intros Hw Hz. apply ssorted_ext; [apply wbits_sorted_w| |].
  - constructor; [apply wbits_sorted_w|]. apply Forall_forall. intros i [Hi Hb]%elem_of_wbits_w.
    rewrite clear_lowest_bit_w in Hb by done. destruct (N.eqb_spec i (trailing_zeros_w w)); [done|].
    cbn in Hb. destruct (N.ltb_spec (trailing_zeros_w w) i); [done|].
    rewrite tz_low_w in Hb; [done|done|wl].
  - intros i. rewrite elem_of_cons, !elem_of_wbits_w, clear_lowest_bit_w by done.
    destruct (N.eqb_spec i (trailing_zeros_w w)) as [->|]; cbn; [|naive_solver].
    rewrite tz_bit_w by done. pose proof (tz_lt_w w Hw Hz). naive_solver.
Qed.
Lemma wbits_length_w w : length (wbits_w w) <= N.to_nat W.
Proof. unfold wbits_w. etrans; [apply filter_length|]. by rewrite seqN_length. Qed.
Lemma one_bits_next_spec_w w : word_ok_w w ->
  word_ok_w (fst (one_bits_next_w w)) /\
  snd (one_bits_next_w w) = head (wbits_w w) /\ wbits_w (fst (one_bits_next_w w)) = tail (wbits_w w).
Proof.
  intros Hw. unfold one_bits_next_w. destruct (N.eqb_spec w 0) as [->|Hz]; cbn [negb fst snd].
  - rewrite wbits_0_w. done.
  - rewrite (wbits_step_w w) by done. cbn. split_and!; [by apply clear_lowest_ok_w|done|done].
Qed.
Lemma traverse_one_bits_loop_ok_w {St} fuel w (f : St -> N -> St * bool) s :
  word_ok_w w -> length (wbits_w w) < fuel ->
  traverse_one_bits_loop_w fuel w f s = Ok (visit (wbits_w w) f s).
Proof.
  revert w s. induction fuel as [|fuel IH]; intros w s Hw Hl; [wl|].
  cbn [traverse_one_bits_loop_w]. destruct (N.eqb_spec w 0) as [->|Hz].
  - by rewrite wbits_0_w.
  - rewrite (wbits_step_w w) in * by done. cbn [visit length] in *.
    destruct (f s (trailing_zeros_w w)) as [s' []]; [done|].
    apply IH; [by apply clear_lowest_ok_w|wl].
Qed.
Lemma traverse_one_bits_ok_w {St} w (f : St -> N -> St * bool) s :
  word_ok_w w -> traverse_one_bits_w w f s = Ok (visit (wbits_w w) f s).
Proof. intros Hw. apply traverse_one_bits_loop_ok_w; [done|]. pose proof (wbits_length_w w). wl. Qed.
Lemma one_bits_fold_loop_ok_w {B} fuel w (f : B -> N -> B) s :
  word_ok_w w -> length (wbits_w w) < fuel ->
  one_bits_fold_loop_w fuel w f s = Ok (fold_left f (wbits_w w) s).
Proof.
  revert w s. induction fuel as [|fuel IH]; intros w s Hw Hl; [wl|].
  cbn [one_bits_fold_loop_w]. destruct (N.eqb_spec w 0) as [->|Hz].
  - by rewrite wbits_0_w.
  - rewrite (wbits_step_w w) in * by done. cbn [fold_left length] in *.
    apply IH; [by apply clear_lowest_ok_w|wl].
Qed.
Lemma one_bits_fold_ok_w {B} w (f : B -> N -> B) s :
  word_ok_w w -> one_bits_fold_w w f s = Ok (fold_left f (wbits_w w) s).
Proof. intros Hw. apply one_bits_fold_loop_ok_w; [done|]. pose proof (wbits_length_w w). wl. Qed.
Definition mask_ok_w (nw : nat) (m : mask) : Prop := length m = nw /\ Forall word_ok_w m.
Definition mbit_w (m : mask) (i : N) : bool :=
  match m !! N.to_nat (i / W) with Some w => N.testbit w (i mod W) | None => false end.
Definition mbits_w (m : mask) : list N :=
  filter (fun i => mbit_w m i = true) (seqN 0 (N.to_nat W * length m)).
Lemma mbit_bound_w m i : mbit_w m i = true -> (i < W * N.of_nat (length m))%N.
Proof.
  unfold mbit_w. destruct (m !! N.to_nat (i / W)) eqn:E; [|done]. intros _.
  apply lookup_lt_Some in E. wl.
Qed.
Lemma elem_of_mbits_w m i : i ∈ mbits_w m <-> mbit_w m i = true.
Proof.
  unfold mbits_w. rewrite elem_of_list_filter, elem_of_seqN. split; [naive_solver|].
  intros H. split; [done|]. apply mbit_bound_w in H. wl.
Qed.
Lemma mbits_sorted_w m : StronglySorted N.lt (mbits_w m).
Proof. apply ssorted_filter, seqN_sorted. Qed.
Lemma mbit_cons_w w m i : mbit_w (w :: m) i = if (i <? W)%N then N.testbit w i else mbit_w m (i - W).
Proof.
  unfold mbit_w. destruct (N.ltb_spec i W).
  - replace (N.to_nat (i / W)) with 0 by wl. cbn. f_equal. wl.
  - replace (N.to_nat (i / W)) with (S (N.to_nat ((i - W) / W))) by wl. cbn.
    replace ((i - W) mod W)%N with (i mod W)%N by wl. done.
Qed.
Lemma mbits_cons_w w m : mbits_w (w :: m) = wbits_w w ++ ((fun i => W + i)%N <$> mbits_w m).
Proof.
  apply ssorted_ext; [apply mbits_sorted_w| |].
  - apply ssorted_app; [apply wbits_sorted_w| |].
    + generalize (mbits_sorted_w m). induction 1 as [|x l Hs IH Hf]; [constructor|]. cbn.
      constructor; [done|]. rewrite Forall_fmap. eapply Forall_impl; [exact Hf|]. cbn. wl.
    + intros i j [Hi _]%elem_of_wbits_w (j' & -> & Hj)%elem_of_list_fmap. wl.
  - intros i. rewrite elem_of_app, elem_of_list_fmap, elem_of_mbits_w, elem_of_wbits_w, mbit_cons_w.
    destruct (N.ltb_spec i W).
    + split; [naive_solver|]. intros [|(j & -> & Hj)]; [naive_solver|wl].
    + split.
      * intros Hb. right. exists (i - W)%N. rewrite elem_of_mbits_w. split; [wl|done].
      * intros [|(j & -> & Hj)]; [naive_solver lia|]. rewrite elem_of_mbits_w in Hj. by replace (W + j - W)%N with j by wl.
Qed.
Lemma mbits_nil_w : mbits_w [] = [].
Proof. unfold mbits_w. cbn [length]. rewrite Nat.mul_0_r. done. Qed.
Lemma mbit_single_w w i : word_ok_w w -> mbit_w [w] i = N.testbit w i.
Proof.
  intros Hw. unfold mbit_w. destruct (decide (i < W)%N) as [Hi|Hi].
  - replace (N.to_nat (i / W)) with 0 by wl. cbn. f_equal. wl.
  - rewrite testbit_high_w by (done || wl). destruct (N.to_nat (i / W)) eqn:E; [wl|done].
Qed.
Lemma mbits_single_w w : word_ok_w w -> mbits_w [w] = wbits_w w.
Proof.
  intros Hw. apply ssorted_ext; [apply mbits_sorted_w|apply wbits_sorted_w|].
  intros i. rewrite elem_of_mbits_w, elem_of_wbits_w, mbit_single_w by done.
  split; [|naive_solver]. intros H. split; [|done].
  destruct (decide (i < W)%N) as [|Hi]; [done|]. rewrite testbit_high_w in H by (done || wl). done.
Qed.
Lemma traverse_array_loop_ok_w {St} m i (f : St -> N -> St * bool) s :
  Forall word_ok_w m ->
  traverse_array_loop_w m i f s = Ok (visit (mbits_w m) (fun s j => f s (i * W + j)%N) s).
Proof.
  revert i s. induction m as [|w m IH]; intros i s Hm; [by rewrite mbits_nil_w|].
  inversion_clear Hm as [|? ? Hw Hm']. cbn [traverse_array_loop_w].
  rewrite traverse_one_bits_ok_w, bind_ok, mbits_cons_w, visit_app by done.
  destruct (visit (wbits_w w) _ s) as [s' []]; [done|].
  rewrite IH by done. rewrite visit_fmap. f_equal.
  assert (forall l s, visit l (fun s j => f s (N.succ i * W + j)%N) s =
                      visit l (fun s j => f s (i * W + (W + j))%N) s) as H; [|apply H].
  intros l. induction l as [|j l IHl]; intros s0; [done|]. cbn [visit].
  replace (N.succ i * W + j)%N with (i * W + (W + j))%N by wl.
  destruct (f s0 _) as [s1 []]; [done|]. apply IHl.
Qed.
Lemma traverse_array_ok_w {St} m (f : St -> N -> St * bool) s :
  Forall word_ok_w m -> traverse_array_one_bits_w m f s = Ok (visit (mbits_w m) f s).
Proof.
  intros Hm. unfold traverse_array_one_bits_w. rewrite traverse_array_loop_ok_w by done. f_equal.
Qed.
Definition aq_ok_w (n : nat) (q : aq) : Prop :=
  length (aq_iters q) = n /\ Forall word_ok_w (aq_iters q) /\ aq_index q < n.
Definition aq_items_w (q : aq) : list N :=
  match aq_iters q !! 0 with
  | Some w0 => (fun i => N.of_nat (aq_index q) * W + i)%N <$> mbits_w (w0 :: drop (S (aq_index q)) (aq_iters q))
  | None => []
  end.
Lemma saturating_shl_bit_w n i : N.testbit (saturating_shl_w WMAX_w n) i = ((i <? W) && (n <=? i))%N.
Proof.
  unfold saturating_shl_w. destruct (N.leb_spec W n).
  - rewrite N.bits_0. destruct (N.ltb_spec i W), (N.leb_spec n i); cbn; wl.
  - rewrite shl_bit_w, wmax_bit_w by done. destruct (N.ltb_spec i W), (N.leb_spec n i), (N.ltb_spec (i - n) W); cbn; wl.
Qed.
Lemma pq_trim_to_ok_w w n : word_ok_w w -> word_ok_w (pq_trim_to_w w n).
Proof. apply word_ok_land_l_w. Qed.
Lemma pq_trim_to_items_w w n : word_ok_w w ->
  wbits_w (pq_trim_to_w w n) = filter (fun i => (n <= i)%N) (wbits_w w).
Proof.
  intros Hw. apply ssorted_ext; [apply wbits_sorted_w|apply ssorted_filter, wbits_sorted_w|].
  intros i. rewrite elem_of_list_filter, !elem_of_wbits_w. unfold pq_trim_to_w.
  rewrite N.land_spec, saturating_shl_bit_w.
  destruct (N.ltb_spec i W), (N.leb_spec n i), (N.testbit w i); cbn; naive_solver lia.
Qed.
Lemma pq_current_ok_w w : word_ok_w w -> pq_current_w w = default W%N (head (wbits_w w)).
Proof.
  intros Hw. unfold pq_current_w. destruct (decide (w = 0%N)) as [->|Hz]; [by rewrite wbits_0_w|].
  by rewrite wbits_step_w.
Qed.
Lemma wbits_max_w : wbits_w WMAX_w = seqN 0 (N.to_nat W).
Proof.
  apply ssorted_ext; [apply wbits_sorted_w|apply seqN_sorted|].
  intros i. rewrite elem_of_wbits_w, elem_of_seqN, wmax_bit_w. destruct (N.ltb_spec i W); naive_solver lia.
Qed.
Lemma aq_items_eq_w q w0 :
  aq_iters q !! 0 = Some w0 ->
  aq_items_w q = (fun i => N.of_nat (aq_index q) * W + i)%N <$> mbits_w (w0 :: drop (S (aq_index q)) (aq_iters q)).
Proof. intros H. unfold aq_items_w. by rewrite H. Qed.
Lemma aq_ok_0_w n q : aq_ok_w n q -> exists w0, aq_iters q !! 0 = Some w0 /\ word_ok_w w0.
Proof.
  intros (Hl & Hw & Hi). destruct (lookup_lt_is_Some_2 (aq_iters q) 0) as [w0 H0]; [wl|].
  exists w0. split; [done|]. rewrite Forall_forall in Hw. apply Hw. by eapply elem_of_list_lookup_2.
Qed.
Lemma elem_of_aq_items_w n q i : aq_ok_w n q ->
  i ∈ aq_items_w q <-> exists w0, aq_iters q !! 0 = Some w0 /\
     (N.of_nat (aq_index q) * W <= i)%N /\
     mbit_w (w0 :: drop (S (aq_index q)) (aq_iters q)) (i - N.of_nat (aq_index q) * W) = true.
Proof.
  intros Hq. destruct (aq_ok_0_w n q Hq) as (w0 & H0 & Hw0). rewrite (aq_items_eq_w q w0 H0).
  rewrite elem_of_list_fmap. split.
  - intros (j & -> & Hj%elem_of_mbits_w). exists w0. split_and!; [done|wl|].
    by replace (N.of_nat (aq_index q) * W + j - N.of_nat (aq_index q) * W)%N with j by wl.
  - intros (w & Hw & Hle & Hb). rewrite H0 in Hw. injection Hw as <-.
    exists (i - N.of_nat (aq_index q) * W)%N. split; [wl|]. by apply elem_of_mbits_w.
Qed.
Lemma aq_items_sorted_w q : StronglySorted N.lt (aq_items_w q).
Proof.
  unfold aq_items_w. destruct (aq_iters q !! 0); [|constructor]. apply ssorted_fmap_add, mbits_sorted_w.
Qed.
Lemma aq_items_bit_w n q i : aq_ok_w n q ->
  i ∈ aq_items_w q <->
   exists w, N.testbit w (i mod W) = true /\ aq_index q <= N.to_nat (i / W) /\
     aq_iters q !! (if decide (N.to_nat (i / W) = aq_index q) then 0 else N.to_nat (i / W)) = Some w.
Proof.
  intros Hq. rewrite (elem_of_aq_items_w n) by done. split.
  - intros (w0 & H0 & Hle & Hb). rewrite mbit_cons_w in Hb.
    destruct (N.ltb_spec (i - N.of_nat (aq_index q) * W) W).
    + exists w0. rewrite decide_True by wl. split_and!; [|wl|done].
      by replace (i mod W)%N with (i - N.of_nat (aq_index q) * W)%N by wl.
    + unfold mbit_w in Hb. rewrite lookup_drop in Hb.
      replace (S (aq_index q) + N.to_nat ((i - N.of_nat (aq_index q) * W - W) / W)) with (N.to_nat (i / W)) in Hb by wl.
      replace ((i - N.of_nat (aq_index q) * W - W) mod W)%N with (i mod W)%N in Hb by wl.
      destruct (aq_iters q !! N.to_nat (i / W)) as [w|] eqn:E; [|done].
      exists w. rewrite decide_False by wl. split_and!; [done|wl|done].
  - intros (w & Hb & Hle & Hl).
    destruct (aq_ok_0_w n q Hq) as (w0 & H0 & Hw0). exists w0. split_and!; [done|wl|].
    rewrite mbit_cons_w. destruct (decide (N.to_nat (i / W) = aq_index q)) as [He|He].
    + rewrite H0 in Hl. injection Hl as <-.
      destruct (N.ltb_spec (i - N.of_nat (aq_index q) * W) W); [|wl].
      by replace (i - N.of_nat (aq_index q) * W)%N with (i mod W)%N by wl.
    + destruct (N.ltb_spec (i - N.of_nat (aq_index q) * W) W); [wl|].
      unfold mbit_w. rewrite lookup_drop.
      replace (S (aq_index q) + N.to_nat ((i - N.of_nat (aq_index q) * W - W) / W)) with (N.to_nat (i / W)) by wl.
      replace ((i - N.of_nat (aq_index q) * W - W) mod W)%N with (i mod W)%N by wl.
      by rewrite Hl.
Qed.
Lemma aq_new_ok_w n m : mask_ok_w n m -> 0 < n -> aq_ok_w n (aq_new_w m).
Proof. intros [Hl Hm] Hn. split_and!; [done|done|cbn; wl]. Qed.
Lemma aq_new_items_w n m : mask_ok_w n m -> 0 < n -> aq_items_w (aq_new_w m) = mbits_w m.
Proof.
  intros [Hl Hm] Hn. destruct m as [|w m]; [cbn in Hl; wl|].
  rewrite (aq_items_eq_w _ w) by done. cbn [aq_index aq_new_w aq_iters drop].
  change (N.of_nat 0) with 0%N. transitivity (id <$> mbits_w (w :: m)); [|apply list_fmap_id].
  apply list_fmap_ext. intros i x _. done.
Qed.
Lemma aq_empty_ok_w n : 0 < n -> aq_ok_w n (aq_empty_w n).
Proof.
  intros Hn. split_and!; cbn; [by rewrite replicate_length| |wl].
  apply Forall_replicate, word_ok_0_w.
Qed.
Lemma aq_empty_items_w n : 0 < n -> aq_items_w (aq_empty_w n) = [].
Proof.
  intros Hn. apply ssorted_ext; [apply aq_items_sorted_w|constructor|]. intros i.
  rewrite (aq_items_bit_w n) by (by apply aq_empty_ok_w). split; [|set_solver].
  intros (w & Hb & _ & Hl). cbn [aq_empty_w aq_iters] in Hl. apply lookup_replicate in Hl as [-> _].
  by rewrite N.bits_0 in Hb.
Qed.
Lemma aq_next_loop_ok_w n fuel q : aq_ok_w n q -> n - aq_index q < fuel ->
  exists q' o, aq_next_loop_w fuel q = Ok (q', o) /\ aq_ok_w n q' /\
    o = head (aq_items_w q) /\ aq_items_w q' = tail (aq_items_w q).
Proof.
  revert q. induction fuel as [|fuel IH]; intros q Hq Hf; [wl|].
  destruct (aq_ok_0_w n q Hq) as (w0 & H0 & Hw0). cbn [aq_next_loop_w].
  unfold get_c. rewrite H0, bind_ok.
  destruct Hq as (Hl & Hw & Hi).
  pose proof (one_bits_next_spec_w w0 Hw0) as (Hn1 & Hn2 & Hn3).
  destruct (one_bits_next_w w0) as [w0' [index|]]; cbn [fst snd] in *.
  - eexists _, _. split; [reflexivity|]. rewrite (aq_items_eq_w q w0 H0).
    rewrite (aq_items_eq_w _ w0') by (cbn; by rewrite list_lookup_insert by wl).
    cbn [aq_iters aq_index]. rewrite !mbits_cons_w.
    destruct (wbits_w w0) as [|x l]; [done|]. cbn in Hn2, Hn3. injection Hn2 as ->. subst l.
    rewrite drop_insert_gt by wl. split_and!.
    + split_and!; cbn; [by rewrite insert_length|by apply Forall_insert|done].
    + done.
    + done.
  - assert (wbits_w w0 = []) as Hz by (destruct (wbits_w w0); done).
    destruct (decide (aq_index q = length (aq_iters q) - 1)) as [He|He].
    + eexists _, _. split; [reflexivity|]. rewrite (aq_items_eq_w q w0 H0), mbits_cons_w, Hz.
      rewrite drop_ge, mbits_nil_w by wl. split_and!; done.
    + destruct (lookup_lt_is_Some_2 (aq_iters q) (S (aq_index q))) as [w1 H1]; [wl|].
      rewrite (get_u_ok _ _ _ H1), bind_ok.
      destruct (IH (AQ (<[0:=w1]> (aq_iters q)) (S (aq_index q)))) as (q' & o & -> & Hq' & Ho & Ht).
      { split_and!; cbn; [by rewrite insert_length| |wl]. apply Forall_insert; [done|].
        rewrite Forall_forall in Hw. apply Hw. by eapply elem_of_list_lookup_2. }
      { cbn. wl. }
      assert (aq_items_w (AQ (<[0:=w1]> (aq_iters q)) (S (aq_index q))) = aq_items_w q) as Heq.
      { rewrite (aq_items_eq_w q w0 H0), (aq_items_eq_w _ w1) by (cbn; by rewrite list_lookup_insert by wl).
        cbn [aq_iters aq_index]. rewrite drop_insert_gt by wl.
        rewrite (mbits_cons_w w0), Hz. cbn [app]. rewrite <- list_fmap_compose.
        rewrite (drop_S _ _ _ H1). apply list_fmap_ext. intros i x _. cbn. wl. }
      rewrite Heq in *. eauto 10.
Qed.
Lemma aq_next_ok_w n q : aq_ok_w n q ->
  exists q' o, aq_next_w q = Ok (q', o) /\ aq_ok_w n q' /\
    o = head (aq_items_w q) /\ aq_items_w q' = tail (aq_items_w q).
Proof. intros Hq. apply aq_next_loop_ok_w; [done|]. destruct Hq as (? & ? & ?). wl. Qed.
Lemma aq_trim_to_ok_w n q k : aq_ok_w n q ->
  exists q', aq_trim_to_w q k = Ok q' /\ aq_ok_w n q' /\
    aq_items_w q' = filter (fun i => (k <= i)%N) (aq_items_w q).
Proof.
  intros Hq. pose proof Hq as (Hl & Hw & Hi). unfold aq_trim_to_w. rewrite Hl.
  assert (forall q', aq_ok_w n q' ->
     (forall i, i ∈ aq_items_w q' <-> (k <= i)%N /\ i ∈ aq_items_w q) ->
     aq_items_w q' = filter (fun i => (k <= i)%N) (aq_items_w q)) as Hext.
  { intros q' Hq' H. apply ssorted_ext; [apply aq_items_sorted_w|apply ssorted_filter, aq_items_sorted_w|].
    intros i. rewrite elem_of_list_filter. apply H. }
  destruct (decide (n <= N.to_nat (k / W))) as [Hge|Hlt].
  { rewrite decide_True by wl. eexists. split; [reflexivity|].
    assert (aq_ok_w n (AQ (<[0:=0%N]> (aq_iters q)) (n - 1))) as Hok.
    { split_and!; cbn; [by rewrite insert_length|by (apply Forall_insert; [done|apply word_ok_0_w])|wl]. }
    split; [done|]. apply Hext; [done|]. intros i. rewrite !(aq_items_bit_w n) by done. cbn [aq_iters aq_index].
    split.
    - intros (w & Hb & Hle & Hlk). exfalso.
      destruct (decide (N.to_nat (i / W) = n - 1)) as [He|He].
      + rewrite list_lookup_insert in Hlk by wl. injection Hlk as <-. by rewrite N.bits_0 in Hb.
      + apply lookup_lt_Some in Hlk. rewrite insert_length in Hlk. wl.
    - intros (Hk & w & Hb & Hle & Hlk). exfalso. apply lookup_lt_Some in Hlk.
      destruct (decide (N.to_nat (i / W) = aq_index q)); wl. }
  destruct (decide (N.to_nat (k / W) < aq_index q)) as [Hlt2|Hge2].
  { eexists. split; [reflexivity|]. split; [done|]. apply Hext; [done|]. intros i.
    rewrite !(aq_items_bit_w n) by done. split; [|naive_solver].
    intros (w & Hb & Hle & Hlk). split; [wl|]. eauto. }
  set (e := N.to_nat (k / W)) in *.
  assert (exists q1, (if decide (e ≠ aq_index q) then
            let* w := get_u (aq_iters q) e in Ok (AQ (<[0:=w]> (aq_iters q)) e) else Ok q) = Ok q1
          /\ aq_ok_w n q1 /\ aq_index q1 = e /\
          forall i, i ∈ aq_items_w q1 <-> e <= N.to_nat (i / W) /\ i ∈ aq_items_w q) as (q1 & -> & Hq1 & He1 & Hit).
  { destruct (decide (e ≠ aq_index q)) as [Hne|Heq].
    - destruct (lookup_lt_is_Some_2 (aq_iters q) e) as [w1 H1]; [wl|].
      rewrite (get_u_ok _ _ _ H1), bind_ok. eexists. split; [reflexivity|].
      assert (aq_ok_w n (AQ (<[0:=w1]> (aq_iters q)) e)) as Hok.
      { split_and!; cbn; [by rewrite insert_length| |wl]. apply Forall_insert; [done|].
        rewrite Forall_forall in Hw. apply Hw. by eapply elem_of_list_lookup_2. }
      split_and!; [done|done|]. intros i. rewrite !(aq_items_bit_w n) by done. cbn [aq_iters aq_index]. split.
      + intros (w & Hb & Hle & Hlk). split; [done|]. exists w. split_and!; [done|wl|].
        rewrite (decide_False (P := N.to_nat (i / W) = aq_index q)) by wl.
        destruct (decide (N.to_nat (i / W) = e)) as [->|].
        * rewrite list_lookup_insert in Hlk by wl. congruence.
        * rewrite list_lookup_insert_ne in Hlk by wl. done.
      + intros (Hle & w & Hb & Hle2 & Hlk). exists w. split_and!; [done|done|].
        rewrite (decide_False (P := N.to_nat (i / W) = aq_index q)) in Hlk by wl.
        destruct (decide (N.to_nat (i / W) = e)) as [Hie|].
        * rewrite list_lookup_insert by wl. congruence.
        * rewrite list_lookup_insert_ne by wl. done.
    - exists q. split_and!; [done|done|wl|]. intros i. split; [|naive_solver]. intros H. split; [|done].
      rewrite (aq_items_bit_w n) in H by done. destruct H as (w & _ & Hle & _). wl. }
  rewrite bind_ok. destruct (aq_ok_0_w n q1 Hq1) as (w0 & H0 & Hw0). unfold get_c. rewrite H0, bind_ok.
  eexists. split; [reflexivity|]. pose proof Hq1 as (Hl1 & Hw1 & Hi1).
  assert (aq_ok_w n (AQ (<[0:=N.land w0 (shl_w WMAX_w (k mod W))]> (aq_iters q1)) (aq_index q1))) as Hok.
  { split_and!; cbn; [by rewrite insert_length| |wl]. apply Forall_insert; [done|]. by apply word_ok_land_l_w. }
  split; [done|]. apply Hext; [done|]. intros i.
  assert (i ∈ aq_items_w (AQ (<[0:=N.land w0 (shl_w WMAX_w (k mod W))]> (aq_iters q1)) (aq_index q1)) <->
          (k <= i)%N /\ i ∈ aq_items_w q1) as ->.
  { rewrite !(aq_items_bit_w n) by done. cbn [aq_iters aq_index]. rewrite He1.
    destruct (decide (N.to_nat (i / W) = e)) as [He|He].
    - rewrite list_lookup_insert by wl. rewrite H0. split.
      + intros (w & Hb & Hle & Hs). injection Hs as <-. rewrite N.land_spec, shl_bit_w, wmax_bit_w in Hb by wl.
        destruct (N.leb_spec (k mod W) (i mod W)); [|by rewrite !andb_false_r in Hb].
        split; [wl|]. exists w0. split_and!; [|wl|done]. by destruct (N.testbit w0 (i mod W)).
      + intros (Hk & w & Hb & Hle & Hs). injection Hs as <-. eexists. split_and!; [|done|reflexivity].
        rewrite N.land_spec, shl_bit_w, wmax_bit_w, Hb by wl.
        destruct (N.ltb_spec (i mod W) W), (N.leb_spec (k mod W) (i mod W)), (N.ltb_spec (i mod W - k mod W) W); cbn; wl.
    - split.
      + intros (w & Hb & Hle & Hs). rewrite list_lookup_insert_ne in Hs by wl. split; [wl|]. eauto.
      + intros (Hk & w & Hb & Hle & Hs). exists w. rewrite list_lookup_insert_ne by wl. eauto. }
  rewrite Hit. split; [naive_solver|]. intros [H1 H2]. split_and!; [done|wl|done].
Qed.
Lemma aq_traverse_ok_w {St} n q (f : St -> N -> St * bool) s : aq_ok_w n q ->
  aq_traverse_w q f s = Ok (visit (aq_items_w q) f s).
Proof.
  intros Hq. destruct (aq_ok_0_w n q Hq) as (w0 & H0 & Hw0). destruct Hq as (Hl & Hw & Hi).
  unfold aq_traverse_w, get_c. rewrite H0, bind_ok, set_u_ok, bind_ok by wl.
  rewrite traverse_array_ok_w by (by apply Forall_drop, Forall_insert).
  rewrite (aq_items_eq_w q w0 H0), visit_fmap. do 2 f_equal.
  erewrite drop_S by (by apply list_lookup_insert; wl).
  by rewrite drop_insert_gt by wl.
Qed.
Lemma aq_current_active_w n q : aq_ok_w n q ->
  (forall w0, aq_iters q !! 0 = Some w0 -> w0 <> 0%N) ->
  exists i, aq_current_w q = Ok i /\ head (aq_items_w q) = Some i.
Proof.
  intros Hq Hz. destruct (aq_ok_0_w n q Hq) as (w0 & H0 & Hw0). unfold aq_current_w, get_c.
  rewrite H0, bind_ok. eexists. split; [reflexivity|].
  rewrite (aq_items_eq_w q w0 H0), mbits_cons_w, (wbits_step_w w0) by eauto. done.
Qed.
Lemma aq_current_last_w n q : aq_ok_w n q -> aq_index q = n - 1 ->
  aq_current_w q = Ok (default (W * N.of_nat n)%N (head (aq_items_w q))).
Proof.
  intros Hq Hi. destruct (aq_ok_0_w n q Hq) as (w0 & H0 & Hw0). destruct Hq as (Hl & Hw & Hlt). unfold aq_current_w, get_c.
  rewrite H0, bind_ok. f_equal. rewrite (aq_items_eq_w q w0 H0), mbits_cons_w.
  destruct (decide (w0 = 0%N)) as [->|Hz].
  - rewrite wbits_0_w, drop_ge, mbits_nil_w by wl. cbn [fmap list_fmap app head default trailing_zeros_w]. cbn. wl.
  - rewrite (wbits_step_w w0) by done. done.
Qed.

Lemma aq_filled_ok_w n : 0 < n -> aq_ok_w n (aq_filled_w n) /\ aq_items_w (aq_filled_w n) = seqN 0 (N.to_nat W * n).
Proof.
  intros Hn. assert (mask_ok_w n (replicate n WMAX_w)) as Hok.
  { split; [apply replicate_length|]. apply Forall_replicate, word_ok_max_w. }
  split; [by apply aq_new_ok_w|]. unfold aq_filled_w. rewrite (aq_new_items_w n) by done.
  apply ssorted_ext; [apply mbits_sorted_w|apply seqN_sorted|]. intros i.
  rewrite elem_of_mbits_w, elem_of_seqN. split.
  - intros H%mbit_bound_w. rewrite replicate_length in H. lia.
  - intros H. unfold mbit_w. rewrite lookup_replicate_2 by wl. rewrite wmax_bit_w.
    destruct (N.ltb_spec (i mod W) W); [done|wl].
Qed.
Lemma aq_for_each_ok_w {St} n q (f : St -> N -> St) s : aq_ok_w n q ->
  aq_for_each_w q f s = Ok (fold_left f (aq_items_w q) s).
Proof.
  intros Hq. unfold aq_for_each_w. rewrite (aq_traverse_ok_w n) by done. rewrite bind_ok.
  assert (forall l s, visit l (fun s i => (f s i, false)) s = (fold_left f l s, false)) as ->; [|done].
  clear. intros l. induction l as [|i l IH]; intros s; [done|]. cbn [visit fold_left]. apply IH.
Qed.
Lemma aq_current_weak_w n q : aq_ok_w n q -> exists c, aq_current_w q = Ok c /\
  (c <= W * N.of_nat n)%N /\ Forall (fun i => (c <= i)%N) (aq_items_w q) /\
  (head (aq_items_w q) = Some c \/ (c mod W = 0)%N).
Proof.
  intros Hq. destruct (aq_ok_0_w n q Hq) as (w0 & H0 & Hw0). pose proof Hq as (Hl & Hw & Hi).
  destruct (decide (w0 = 0%N)) as [->|Hz].
  - unfold aq_current_w, get_c. rewrite H0, bind_ok. cbn [trailing_zeros_w]. eexists. split; [done|].
    split; [wl|]. split; [|right; wl]. apply Forall_forall. intros i.
    rewrite (aq_items_eq_w q _ H0), mbits_cons_w, wbits_0_w. cbn [app].
    rewrite elem_of_list_fmap. intros (j & -> & Hj). apply elem_of_list_fmap in Hj as (k & -> & _). lia.
  - destruct (aq_current_active_w n q Hq) as (c & Hc & Hh).
    { intros w E. rewrite H0 in E. by injection E as <-. }
    exists c. split; [done|]. pose proof (aq_items_sorted_w q) as Hs. destruct (aq_items_w q) as [|x l] eqn:E; [done|].
    cbn in Hh. injection Hh as ->. inversion_clear Hs as [|? ? _ Hf]. split; [|split; [|by left]].
    + assert (c ∈ aq_items_w q) as Hin by (rewrite E; left).
      rewrite (aq_items_eq_w q _ H0), elem_of_list_fmap in Hin. destruct Hin as (j & -> & Hj).
      apply elem_of_mbits_w, mbit_bound_w in Hj. cbn [length] in Hj. rewrite drop_length in Hj. wl.
    + constructor; [lia|]. eapply Forall_impl; [exact Hf|]. cbn. intros. lia.
Qed.
End width.

(** ** A client: any interleaving of `next` and `trim_to` on any public queue *)
(** the public queue types and their constructors: bit_queue.rs:62-92 (`EmptyBitQueue`), 94-165, 167-336 *)
Inductive gqueue := GEmptyQ | GPrim (w : N) | GArr (q : aq).
Inductive gmake := MkEmptyQ | MkPrim (w : N) | MkPrimEmpty | MkPrimFilled | MkArr (a : list N) | MkArrEmpty (n : nat) | MkArrFilled (n : nat).
Section client.
Context (W : N).
Definition gq_make (x : gmake) : gqueue :=
  match x with
  | MkEmptyQ => GEmptyQ                                        (* 76-82 *)
  | MkPrim w => GPrim (pq_new_w w) | MkPrimEmpty => GPrim pq_empty_w | MkPrimFilled => GPrim (pq_filled_w W)
  | MkArr a => GArr (aq_new_w a) | MkArrEmpty n => GArr (aq_empty_w n) | MkArrFilled n => GArr (aq_filled_w W n)
  end.
Definition gq_next (q : gqueue) : res (gqueue * option N) :=
  match q with
  | GEmptyQ => Ok (GEmptyQ, None)                              (* 68-71 *)
  | GPrim w => let '(w, o) := pq_next_w W w in Ok (GPrim w, o)
  | GArr q => let* (q, o) := aq_next_w W q in Ok (GArr q, o)
  end.
Definition gq_trim (q : gqueue) (n : N) : res gqueue :=
  match q with
  | GEmptyQ => Ok GEmptyQ                                      (* 84 *)
  | GPrim w => Ok (GPrim (pq_trim_to_w W w n))
  | GArr q => let* q := aq_trim_to_w W q n in Ok (GArr q)
  end.
Definition gq_current (q : gqueue) : res N :=
  match q with
  | GEmptyQ => Ok 0%N                                          (* 86-88 *)
  | GPrim w => Ok (pq_current_w W w)
  | GArr q => aq_current_w W q
  end.
Definition gq_traverse {St} (q : gqueue) (f : St -> N -> St * bool) (s : St) : res (St * bool) :=
  match q with
  | GEmptyQ => Ok (s, false)                                   (* 90-96 *)
  | GPrim w => pq_traverse_w W w f s
  | GArr q => aq_traverse_w W q f s
  end.
(** `Iterator::fold` / `for_each` as the types provide them: PrimitiveBitQueue has the default
    one (repeated `next`), ArrayBitQueue overrides `for_each` (bit_queue.rs:327-335) *)
Definition gq_for_each {St} (q : aq) (f : St -> N -> St) (s : St) : res St := aq_for_each_w W q f s.
Inductive gop := GNext | GTrim (n : N).
Definition gq_step (q : gqueue) (o : gop) : res (gqueue * list (option N)) :=
  match o with
  | GNext => let* (q, a) := gq_next q in Ok (q, [a])
  | GTrim n => let* q := gq_trim q n in Ok (q, [])
  end.
Fixpoint gq_run (q : gqueue) (os : list gop) : res (gqueue * list (option N)) :=
  match os with
  | [] => Ok (q, [])
  | o :: os => let* (q, a) := gq_step q o in let* (q, b) := gq_run q os in Ok (q, a ++ b)
  end.
(** specification: the ascending list of the indices still in the queue *)
Definition gs_step (l : list N) (o : gop) : list N * list (option N) :=
  match o with
  | GNext => (tail l, [head l])
  | GTrim n => (filter (fun i => (n <= i)%N) l, [])
  end.
Fixpoint gs_run (l : list N) (os : list gop) : list N * list (option N) :=
  match os with
  | [] => (l, [])
  | o :: os => let '(l, a) := gs_step l o in let '(l, b) := gs_run l os in (l, a ++ b)
  end.
(** index [i] is in word [i / W], bit [i mod W] *)
Definition bit_of_words (a : list N) (i : N) : bool :=
  match a !! N.to_nat (i / W) with Some w => N.testbit w (i mod W) | None => false end.
Definition gq_capacity (x : gmake) : N :=
  match x with
  | MkEmptyQ => 0
  | MkPrim _ | MkPrimEmpty | MkPrimFilled => W
  | MkArr a => W * N.of_nat (length a)
  | MkArrEmpty n | MkArrFilled n => W * N.of_nat n
  end%N.
Definition gq_holds (x : gmake) : list N :=
  match x with
  | MkEmptyQ | MkPrimEmpty | MkArrEmpty _ => []
  | MkPrim w => filter (fun i => N.testbit w i = true) (seqN 0 (N.to_nat W))
  | MkArr a => filter (fun i => bit_of_words a i = true) (seqN 0 (N.to_nat W * length a))
  | MkPrimFilled => seqN 0 (N.to_nat W)
  | MkArrFilled n => seqN 0 (N.to_nat W * n)
  end.
(** the arguments are values of the primitive type; arrays are not empty *)
Definition gmake_ok (x : gmake) : Prop :=
  match x with
  | MkPrim w => (w < 2 ^ W)%N
  | MkArr a => 0 < length a /\ Forall (fun w => (w < 2 ^ W)%N) a
  | MkArrEmpty n | MkArrFilled n => 0 < n
  | _ => True
  end.
Definition is_array (x : gmake) : bool := match x with MkArr _ | MkArrEmpty _ | MkArrFilled _ => true | _ => false end.

Hypothesis HW : W = 8%N \/ W = 16%N \/ W = 32%N \/ W = 64%N.
Definition gq_ok (n : nat) (q : gqueue) : Prop :=
  match q with GEmptyQ => True | GPrim w => word_ok_w W w | GArr q => aq_ok_w W n q end.
Definition gq_items (q : gqueue) : list N :=
  match q with GEmptyQ => [] | GPrim w => wbits_w W w | GArr q => aq_items_w W q end.
Definition arr_len (x : gmake) : nat := match x with MkArr a => length a | MkArrEmpty n | MkArrFilled n => n | _ => 0 end.
Lemma gq_make_ok x : gmake_ok x -> gq_ok (arr_len x) (gq_make x) /\ gq_items (gq_make x) = gq_holds x.
Proof.
  destruct x as [|w| | |a|n|n]; cbn [gmake_ok arr_len gq_make gq_ok gq_items gq_holds]; intros Hx.
  - done.
  - done.
  - split; [unfold word_ok_w, pq_empty_w; destruct HW as [E|[E|[E|E]]]; rewrite E; done|eapply wbits_0_w; eauto].
  - split; [|]; [eapply word_ok_max_w; eauto|eapply wbits_max_w; eauto].
  - destruct Hx as [Hn Ha]. split; [by apply aq_new_ok_w|]. by apply (aq_new_items_w W HW (length a)).
  - split; [by apply aq_empty_ok_w|by apply (aq_empty_items_w W HW n)].
  - by apply aq_filled_ok_w.
Qed.
Lemma gq_next_ok n q : gq_ok n q -> exists q' o, gq_next q = Ok (q', o) /\ gq_ok n q' /\
  o = head (gq_items q) /\ gq_items q' = tail (gq_items q).
Proof.
  destruct q as [|w|q]; cbn [gq_ok gq_next]; intros Hq.
  - by eexists _, _.
  - pose proof (one_bits_next_spec_w W HW w Hq) as (H1 & H2 & H3). unfold pq_next_w.
    destruct (one_bits_next_w W w) as [w' o]. cbn [fst snd] in *. exists (GPrim w'), o. done.
  - destruct (aq_next_ok_w W HW n q Hq) as (q' & o & -> & ? & ? & ?). rewrite bind_ok. exists (GArr q'), o. done.
Qed.
Lemma gq_trim_ok n q k : gq_ok n q -> exists q', gq_trim q k = Ok q' /\ gq_ok n q' /\
  gq_items q' = filter (fun i => (k <= i)%N) (gq_items q).
Proof.
  destruct q as [|w|q]; cbn [gq_ok gq_trim]; intros Hq.
  - by eexists.
  - eexists. split; [done|]. split; [by apply pq_trim_to_ok_w|by apply pq_trim_to_items_w].
  - destruct (aq_trim_to_ok_w W HW n q k Hq) as (q' & -> & ? & ?). rewrite bind_ok. exists (GArr q'). done.
Qed.
Lemma gq_run_ok n q os : gq_ok n q -> exists q', gq_run q os = Ok (q', snd (gs_run (gq_items q) os)) /\
  gq_ok n q' /\ gq_items q' = fst (gs_run (gq_items q) os).
Proof.
  revert q. induction os as [|o os IH]; intros q Hq; cbn [gq_run gs_run].
  - eauto.
  - destruct o as [|k]; cbn [gq_step gs_step].
    + destruct (gq_next_ok n q Hq) as (q1 & o & -> & Hq1 & -> & Hi). rewrite !bind_ok.
      destruct (IH q1 Hq1) as (q2 & -> & Hq2 & Hi2). rewrite bind_ok, <- Hi.
      exists q2. destruct (gs_run (gq_items q1) os); done.
    + destruct (gq_trim_ok n q k Hq) as (q1 & -> & Hq1 & Hi). rewrite !bind_ok.
      destruct (IH q1 Hq1) as (q2 & -> & Hq2 & Hi2). rewrite bind_ok, <- Hi.
      exists q2. destruct (gs_run (gq_items q1) os); done.
Qed.
Lemma gq_run_kind q os q' a : gq_run q os = Ok (q', a) ->
  match q, q' with GEmptyQ, GEmptyQ | GPrim _, GPrim _ | GArr _, GArr _ => True | _, _ => False end.
Proof.
  revert q a. induction os as [|o os IH]; intros q a; cbn [gq_run].
  - intros [= <- _]. by destruct q.
  - intros [[q1 a1] [H1 [[q2 a2] [H2 [= <- _]]]%bind_ok_inv]]%bind_ok_inv. apply IH in H2.
    assert (match q, q1 with GEmptyQ, GEmptyQ | GPrim _, GPrim _ | GArr _, GArr _ => True | _, _ => False end) as H.
    { destruct o; cbn [gq_step] in H1.
      - apply bind_ok_inv in H1 as ([q3 o3] & H3 & [= <- _]). destruct q; cbn [gq_next] in H3.
        + by injection H3 as <- _.
        + destruct (pq_next_w W w). by injection H3 as <- _.
        + apply bind_ok_inv in H3 as ([? ?] & _ & [= <- _]). done.
      - apply bind_ok_inv in H1 as (q3 & H3 & [= <- _]). destruct q; cbn [gq_trim] in H3.
        + by injection H3 as <-.
        + by injection H3 as <-.
        + apply bind_ok_inv in H3 as (? & _ & [= <-]). done. }
    destruct q, q1, q2; done.
Qed.
Lemma gqueue_history x os : gmake_ok x ->
  exists q, gq_run (gq_make x) os = Ok (q, snd (gs_run (gq_holds x) os)) /\
    (forall (St : Type) (f : St -> N -> St * bool) s, gq_traverse q f s = Ok (visit (fst (gs_run (gq_holds x) os)) f s)) /\
    (forall a, q = GArr a -> forall (St : Type) (f : St -> N -> St) s, gq_for_each a f s = Ok (fold_left f (fst (gs_run (gq_holds x) os)) s)) /\
    exists c, gq_current q = Ok c /\
      (is_array x = false -> c = default (gq_capacity x) (head (fst (gs_run (gq_holds x) os)))) /\
      (c <= gq_capacity x)%N /\ Forall (fun i => (c <= i)%N) (fst (gs_run (gq_holds x) os)) /\
      (head (fst (gs_run (gq_holds x) os)) = Some c \/ (c mod W = 0)%N).
Proof.
  intros Hx. destruct (gq_make_ok x Hx) as [Hq Hi].
  destruct (gq_run_ok _ _ os Hq) as (q & Hr & Hqo & Hqi). rewrite Hi in *. exists q. split; [done|].
  rewrite <- Hqi. apply gq_run_kind in Hr.
  split; [|split].
  - intros St f s. destruct q as [|w|a]; cbn [gq_ok gq_traverse gq_items] in *; [done|by apply traverse_one_bits_ok_w|by eapply aq_traverse_ok_w].
  - intros a -> St f s. cbn [gq_ok gq_items] in *. by eapply aq_for_each_ok_w.
  - destruct q as [|w|a]; cbn [gq_ok gq_current gq_items] in *.
    + exists 0%N. cbn. split; [done|]. destruct x; try done; cbn. split; [done|]. split; [lia|]. split; [done|]. right.
      apply N.mod_0_l. destruct HW as [->|[->|[->| ->]]]; done.
    + exists (pq_current_w W w). rewrite (pq_current_ok_w W HW) by done. split; [done|].
      assert (gq_capacity x = W) as -> by (destruct x; done). split; [done|].
      destruct (wbits_w W w) as [|i l] eqn:E; cbn [head default].
      * cbn. split; [lia|]. split; [done|]. right. apply N.mod_same. destruct HW as [->|[->|[->| ->]]]; done.
      * assert (i ∈ wbits_w W w) as Hb by (rewrite E; left). apply (elem_of_wbits_w W HW) in Hb as [Hb _].
        cbn. split; [lia|]. split; [|by left]. pose proof (wbits_sorted_w W w) as Hs. rewrite E in Hs.
        apply StronglySorted_inv in Hs as [_ Hf]. constructor; [lia|]. eapply Forall_impl; [exact Hf|]. cbn. intros. lia.
    + destruct (aq_current_weak_w W HW _ a Hqo) as (c & Hc & H1 & H2 & H3). exists c. split; [done|].
      split; [destruct x; done|]. assert (gq_capacity x = W * N.of_nat (arr_len x))%N as -> by (destruct x; done). done.
Qed.
Lemma gqueue_holds x i : gmake_ok x ->
  StronglySorted N.lt (gq_holds x) /\
  (i ∈ gq_holds x <-> match x with
     | MkPrim w => N.testbit w i = true
     | MkArr a => bit_of_words a i = true
     | MkPrimFilled | MkArrFilled _ => (i < gq_capacity x)%N
     | _ => False end).
Proof.
  destruct x as [|w| | |a|n|n]; cbn [gq_holds gmake_ok gq_capacity]; intros Hx.
  - split; [constructor|apply elem_of_nil].
  - split; [apply (wbits_sorted_w W)|]. rewrite (elem_of_wbits_w W HW w i). split; [naive_solver|]. intros H. split; [|done].
    destruct (decide (i < W)%N); [done|]. rewrite (testbit_high_w W HW) in H by (done || lia). done.
  - split; [constructor|apply elem_of_nil].
  - split; [apply seqN_sorted|]. rewrite elem_of_seqN. lia.
  - split; [apply (mbits_sorted_w W)|apply (elem_of_mbits_w W HW)].
  - split; [constructor|apply elem_of_nil].
  - split; [apply seqN_sorted|]. rewrite elem_of_seqN. lia.
Qed.
End client.
