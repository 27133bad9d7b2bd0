(** * Properties of keys, bit blocks, bit queues and compile-time loops
    C07, C08, C20, C21, C30, C31, C40.  Proofs: BitLaws.v, QueueClient.v, GenQueue.v, ConstLoops.v. *)
From Verif Require Import Base BitUtils BitUtilsProofs BitQueue BitQueueProofs QueueClient LevelIndices LevelIndicesProofs
  ConstLoops BitLaws Spec GenQueue QueueCurrent.

(** ** C07 keys and paths are in bijection, in order *)
Theorem C07_split_join nw D k : nw_ok nw -> 1 <= D -> (k < msize nw ^ N.of_nat D)%N ->
  length (level_indices nw D k) = D /\ Forall (fun i => (i < msize nw)%N) (level_indices nw D k) /\
  exists p i, level_indices nw D k = p ++ [i] /\ data_block_index nw D p i = Ok k.
Proof. exact (key_split_join nw D k). Qed.
Theorem C07_path_unique nw D p : nw_ok nw -> 1 <= D -> length p = D -> Forall (fun i => (i < msize nw)%N) p ->
  exists k, ((k < msize nw ^ N.of_nat D)%N /\ level_indices nw D k = p) /\
    forall k', (k' < msize nw ^ N.of_nat D)%N -> level_indices nw D k' = p -> k' = k.
Proof. exact (path_unique_key nw D p). Qed.
Theorem C07_order nw D k1 k2 : nw_ok nw -> 1 <= D ->
  (k1 < msize nw ^ N.of_nat D)%N -> (k2 < msize nw ^ N.of_nat D)%N ->
  ((k1 < k2)%N <-> lex_lt (level_indices nw D k1) (level_indices nw D k2)).
Proof. exact (key_order nw D k1 k2). Qed.
(** every supported configuration (width 64/128/256, depth 1..8; DenseTree depth 9): no shift,
    sum or subtraction of the two functions overflows, for any key and any path *)
Theorem C07_no_overflow nw D k p i : (nw_ok nw /\ 1 <= D <= 8) \/ (nw = 1 /\ D = 9) ->
  level_indices_dbg nw D k = Ok (level_indices nw D k) /\
  (length p = D - 1 -> Forall (fun i => (i < msize nw)%N) p -> (i < msize nw)%N ->
   data_block_index_dbg nw D p i = data_block_index nw D p i).
Proof. exact (key_no_overflow nw D k p i). Qed.
Example C07_example : level_indices 2 3 (5 * 128 * 128 + 127 * 128 + 1) = [5; 127; 1]%N /\
  data_block_index 2 3 [5; 127]%N 1 = Ok (5 * 128 * 128 + 127 * 128 + 1)%N.
Proof. vm_compute. done. Qed.

(** ** C08 index_range, for every configuration except width_256::depth_8 *)
Theorem C08_index_range_partial nw D : (nw_ok nw /\ D <= 8 /\ (nw, D) <> (4, 8)) \/ (nw = 1 /\ D <= 9) ->
  index_range_debug nw D = Ok (msize nw ^ N.of_nat D)%N /\
  index_range_release nw D = (msize nw ^ N.of_nat D)%N /\
  (forall k, (k < 2 ^ 64)%N -> (index_from nw D k = Ok k <-> (k < msize nw ^ N.of_nat D)%N) /\
                               (index_from nw D k = Panic <-> (msize nw ^ N.of_nat D <= k)%N)).
Proof.
  intros [(H1 & H2 & H3)|[-> H]]; apply index_range_ok; [by apply index_range_configs|by apply index_range_dense].
Qed.
Example C08_example : (nw_ok 4 /\ 7 <= 8 /\ (4, 7) <> (4, 8)) /\ index_range_release 4 7 = (2 ^ 56)%N.
Proof. split; [|vm_compute; done]. split; [right; by right|]. split; [lia|done]. Qed.
(** width_256::depth_8: index_range() panics (debug) or is the empty range (release), while
    every usize except usize::MAX is accepted *)
Theorem C08_index_range_refuted :
  index_range_debug 4 8 = Panic /\ index_range_release 4 8 = 0%N /\
  (forall k, (k < 2 ^ 64 - 1)%N -> index_from 4 8 k = Ok k) /\ index_from 4 8 (2 ^ 64 - 1) = Panic.
Proof. exact index_range_wrong. Qed.

(** ** C20 / C21 bit queues.  [q_holds]: the ascending list of the indices the queue starts
    with; [sq_run]: what any sequence of `next` / `trim_to` does to such a list. *)
Theorem C20_queue_content nw x i : qinit_ok nw x ->
  StronglySorted N.lt (q_holds nw x) /\
  (i ∈ q_holds nw x <-> match x with
     | QNew m => mbit m i = true | QEmpty => False | QFilled => (i < 64 * N.of_nat nw)%N end).
Proof. exact (queue_holds_sorted nw x i). Qed.
Theorem C20_primitive_queue x os : qinit_ok 1 x ->
  exists q, q_run (q_make 1 x) os = Ok (q, snd (sq_run (q_holds 1 x) os)) /\
    (forall (St : Type) (f : St -> N -> St * bool) s,
       bq_traverse q f s = Ok (visit (fst (sq_run (q_holds 1 x) os)) f s)) /\
    bq_current q = Ok (default 64%N (head (fst (sq_run (q_holds 1 x) os)))).
Proof.
  intros Hx. destruct (queue_history 1 x os ltac:(lia) Hx) as (q & H1 & H2 & c & H3 & H4 & _).
  exists q. split; [done|]. split; [done|]. by rewrite H3, H4.
Qed.
Example C20_example : qinit_ok 1 (QNew [2 ^ 63 + 2 ^ 40 + 5]%N) /\
  sq_run (q_holds 1 (QNew [2 ^ 63 + 2 ^ 40 + 5]%N)) [QNext; QTrim 2; QTrim 40; QNext; QNext; QNext] =
    ([], [Some 0; Some 40; Some 63; None]%N).
Proof. split; [split; [done|]; repeat constructor|vm_compute; done]. Qed.
Theorem C21_array_queue_partial nw x os : 0 < nw -> qinit_ok nw x ->
  exists q, q_run (q_make nw x) os = Ok (q, snd (sq_run (q_holds nw x) os)) /\
    (forall (St : Type) (f : St -> N -> St * bool) s,
       bq_traverse q f s = Ok (visit (fst (sq_run (q_holds nw x) os)) f s)) /\
    (* `current`: a lower bound of what remains, and the next index or a word boundary *)
    exists c, bq_current q = Ok c /\ (c <= 64 * N.of_nat nw)%N /\
      Forall (fun i => (c <= i)%N) (fst (sq_run (q_holds nw x) os)) /\
      (head (fst (sq_run (q_holds nw x) os)) = Some c \/ (c mod 64 = 0)%N).
Proof.
  intros Hn Hx. destruct (queue_history nw x os Hn Hx) as (q & H1 & H2 & c & H3 & _ & H4).
  exists q. split; [done|]. split; [done|]. by exists c.
Qed.
Example C21_example : qinit_ok 4 (QNew [1; 0; 2 ^ 63; 4]%N) /\
  sq_run (q_holds 4 (QNew [1; 0; 2 ^ 63; 4]%N)) [QNext; QTrim 70; QNext; QTrim 192; QNext; QNext] =
    ([], [Some 0; Some 191; Some 194; None]%N).
Proof. split; [split; [done|]; repeat constructor|vm_compute; done]. Qed.
(** `current` is not the next index: here the queue is exhausted but `current` is 64, not 128 *)
Theorem C21_current_refuted : exists m os q a c,
  mask_ok 2 m /\ q_run (into_bits_iter m) os = Ok (q, a) /\ bq_current q = Ok c /\
  snd (sq_run (mbits m) (os ++ [QNext])) = a ++ [None] /\ c <> 128%N.
Proof. exact aq_current_wrong. Qed.
(** what `current` is instead, exactly: the first remaining index in the word the queue is at, or
    the end of that word.  [gw_run] (QueueCurrent.v) says which word that is: the word of the last
    index returned or trimmed to, the last word once `next` has answered None *)
Theorem C21_current_actual nw x os : 2 <= nw -> qinit_ok nw x ->
  exists q a, q_run (q_make nw x) os = Ok (q, a) /\
    bq_current q = Ok (gw_current 64
      (gw_run 64 nw (match x with QEmpty => nw - 1 | _ => 0 end) (q_holds nw x) (gop_of <$> os))
      (fst (sq_run (q_holds nw x) os))).
Proof. exact (q_current_exact nw x os). Qed.
Example C21_current_example :
  gw_current 64 (gw_run 64 2 0 [5; 70]%N [GNext]) [70]%N = 64%N /\
  gw_current 64 (gw_run 64 2 0 [5; 70]%N [GTrim 6; GTrim 64]) [70]%N = 70%N.
Proof. split; vm_compute; done. Qed.

(** ** C30 a bit block is a set of indices *)
Theorem C30_members m i w : m !! N.to_nat (i / 64) = Some w -> (i ∈ members m <-> N.testbit w (i mod 64) = true).
Proof. exact (members_bit m i w). Qed.
Theorem C30_set_bit nw m flag i : nw_ok nw -> mask_ok nw m -> (i < msize nw)%N ->
  exists m', mask_set_bit flag m i = Ok (m', bool_decide (i ∈ members m)) /\ mask_ok nw m' /\
    members m' = if flag then {[i]} ∪ members m else members m ∖ {[i]}.
Proof. exact (block_set_bit nw m flag i). Qed.
Theorem C30_get_bit nw m i : mask_ok nw m -> (i < msize nw)%N -> mask_get_bit m i = Ok (bool_decide (i ∈ members m)).
Proof. exact (block_get_bit nw m i). Qed.
(** count_ones, is_zero, traverse_bits with any callback (stopping after Break), iteration *)
Theorem C30_observe nw m : 0 < nw -> mask_ok nw m ->
  exists l, StronglySorted N.lt l /\ (forall i, i ∈ l <-> i ∈ members m) /\
    mask_count_ones m = size (members m) /\
    (mask_is_zero m = true <-> members m = ∅) /\
    (forall (St : Type) (f : St -> N -> St * bool) s, mask_traverse_bits m f s = Ok (visit l f s)) /\
    (forall j, exists q, q_run (into_bits_iter m) (replicate (length l + j) QNext) = Ok (q, (Some <$> l) ++ replicate j None)).
Proof. exact (block_observe nw m). Qed.
Theorem C30_and_or nw a b : mask_ok nw a -> mask_ok nw b ->
  mask_ok nw (mask_and a b) /\ mask_ok nw (mask_or a b) /\
  members (mask_and a b) = members a ∩ members b /\ members (mask_or a b) = members a ∪ members b.
Proof. exact (block_and_or nw a b). Qed.
Theorem C30_zero nw : mask_ok nw (mask_zero nw) /\ members (mask_zero nw) = ∅.
Proof. exact (block_zero nw). Qed.
(** `SIZE`: exactly the indices below it can be set *)
Theorem C30_size nw m i : nw_ok nw -> mask_ok nw m -> (i < mask_size m)%N <-> exists m', mask_ok nw m' /\ i ∈ members m'.
Proof.
  intros Hn Hm. assert (mask_size m = msize nw) as -> by (unfold mask_size, msize; by rewrite (proj1 Hm)). split.
  - intros Hi. destruct (C30_set_bit nw m true i Hn Hm Hi) as (m' & _ & H1 & H2). exists m'. split; [done|]. rewrite H2. set_solver.
  - intros (m' & [Hl _] & Hi%elem_of_members). unfold mbit in Hi. destruct (m' !! N.to_nat (i / 64)) as [w|] eqn:E; [|done].
    apply lookup_lt_Some in E. rewrite Hl in E. unfold msize. pose proof (N.div_mod' i 64). pose proof (N.mod_lt i 64 ltac:(lia)). lia.
Qed.
Example C30_example : nw_ok 2 /\ mask_ok 2 [5; 2 ^ 63]%N /\ members [5; 2 ^ 63]%N = {[0; 2; 127]}%N.
Proof. split; [right; by left|]. split; [split; [done|]; repeat constructor|]. apply (bool_decide_eq_true_1 _). vm_compute. done. Qed.

(** ** C31 compile-time loops.  [visit_list l v s]: call [v] on the members of [l] in order
    until it breaks. *)
Theorem C31_const_for_partial {St Out} from to (v : visitor St Out) s : from <= 1 -> from <= to ->
  const_for from to v s = visit_list (seq from (to - from)) v s.
Proof. exact (const_for_partial from to v s). Qed.
Theorem C31_const_for_rev_partial {St Out} to (v : visitor St Out) s :
  const_for_rev 0 to v s = visit_list (rev (seq 0 to)) v s.
Proof. exact (const_for_rev_0 to v s). Qed.
(** what the loops really do for every [from] *)
Theorem C31_const_for_actual {St Out} from to (v : visitor St Out) s :
  const_for from to v s = visit_list (filter (fun i => S i <> from) (seq 0 to)) v s.
Proof. exact (const_for_actual from to v s). Qed.
Theorem C31_const_for_rev_actual {St Out} from to (v : visitor St Out) s : from <= to ->
  const_for_rev from to v s = visit_list (rev (seq (from - 1) (to - (from - 1)))) v s.
Proof. exact (const_for_rev_actual from to v s). Qed.
(** the macro form used by the containers *)
Theorem C31_const_loop {St Out} start end_ (body : visitor St Out) s : start <= end_ -> end_ < 9 ->
  const_loop start end_ body s = visit_list (seq start (end_ - start)) body s.
Proof. exact (const_loop_ok start end_ body s). Qed.
Theorem C31_const_loop_rev {St Out} start end_ (body : visitor St Out) s : start <= end_ -> end_ < 9 ->
  const_loop_rev start end_ body s = visit_list (rev (seq start (end_ - start))) body s.
Proof. exact (const_loop_rev_ok start end_ body s). Qed.
Theorem C31_const_for_refuted : exists from to, from <= to /\
  const_for (Out := unit) from to (fun l i => Ok (l ++ [i], None)) [] <> Ok (seq from (to - from), None).
Proof. exact const_for_wrong. Qed.
Theorem C31_const_for_rev_refuted : exists from to, from <= to /\
  const_for_rev (Out := unit) from to (fun l i => Ok (l ++ [i], None)) [] <> Ok (rev (seq from (to - from)), None).
Proof. exact const_for_rev_wrong. Qed.
Example C31_example : const_loop_rev 2 7 (fun l i => Ok (l ++ [i], if decide (i = 4) then Some 99 else None)) [] = Ok ([6; 5; 4], Some 99).
Proof. vm_compute. done. Qed.

(** ** C40 the public queues over every primitive width (u8, u16, u32, u64), and EmptyBitQueue *)
Definition primitive_width (W : N) : Prop := W = 8%N \/ W = 16%N \/ W = 32%N \/ W = 64%N.
(** what a freshly made queue holds: an ascending list of exactly the set bits *)
Theorem C40_content W x i : primitive_width W -> gmake_ok W x ->
  StronglySorted N.lt (gq_holds W x) /\
  (i ∈ gq_holds W x <-> match x with
     | MkPrim w => N.testbit w i = true
     | MkArr a => exists w, a !! N.to_nat (i / W) = Some w /\ N.testbit w (i mod W) = true
     | MkPrimFilled => (i < W)%N
     | MkArrFilled n => (i < W * N.of_nat n)%N
     | MkEmptyQ | MkPrimEmpty | MkArrEmpty _ => False end).
Proof.
  intros HW Hx. destruct (gqueue_holds W HW x i Hx) as [H1 H2]. split; [done|]. rewrite H2.
  destruct x as [|w| | |a|n|n]; try done. unfold bit_of_words. destruct (a !! N.to_nat (i / W)); [|naive_solver].
  split; [intros H; eauto|intros (w & [= <-] & H); done].
Qed.
(** any interleaving of `next` and `trim_to`, then `traverse` with any callback, `for_each` with
    any callback (ArrayBitQueue's own implementation) and `current` *)
Theorem C40_history_partial W x os : primitive_width W -> gmake_ok W x ->
  exists q, gq_run W (gq_make W x) os = Ok (q, snd (gs_run (gq_holds W x) os)) /\
    (forall (St : Type) (f : St -> N -> St * bool) s,
       gq_traverse W q f s = Ok (visit (fst (gs_run (gq_holds W x) os)) f s)) /\
    (forall a, q = GArr a -> forall (St : Type) (f : St -> N -> St) s,
       gq_for_each W a f s = Ok (fold_left f (fst (gs_run (gq_holds W x) os)) s)) /\
    exists c, gq_current W q = Ok c /\
      (* exact for EmptyBitQueue and PrimitiveBitQueue *)
      (is_array x = false -> c = default (gq_capacity W x) (head (fst (gs_run (gq_holds W x) os)))) /\
      (* for ArrayBitQueue only a lower bound: C21_current_refuted *)
      (c <= gq_capacity W x)%N /\ Forall (fun i => (c <= i)%N) (fst (gs_run (gq_holds W x) os)) /\
      (head (fst (gs_run (gq_holds W x) os)) = Some c \/ (c mod W = 0)%N).
Proof. intros HW. exact (gqueue_history W HW x os). Qed.
Theorem C40_current_actual W x os : primitive_width W -> gmake_ok W x -> is_array x = true ->
  exists q a, gq_run W (gq_make W x) os = Ok (q, a) /\
    gq_current W q = Ok (gw_current W (gw_run W (arr_len x) (gw_start x) (gq_holds W x) os) (fst (gs_run (gq_holds W x) os))).
Proof. intros HW. exact (gq_current_exact W HW x os). Qed.
Example C40_current_example :
  gw_current 8 (gw_run 8 3 0 [0; 23]%N [GNext]) [23]%N = 8%N /\ gw_current 8 (gw_run 8 3 0 [0; 23]%N [GNext; GNext; GNext]) [] = 24%N.
Proof. split; vm_compute; done. Qed.
Example C40_example : gmake_ok 8 (MkArr [1; 0; 128]%N) /\
  gs_run (gq_holds 8 (MkArr [1; 0; 128]%N)) [GNext; GTrim 9; GNext; GNext] = ([], [Some 0; Some 23; None]%N) /\
  gmake_ok 16 (MkPrim 32769) /\ gq_holds 16 (MkPrim 32769) = [0; 15]%N.
Proof. split; [split; [cbn; lia|repeat constructor]|]. split; [vm_compute; done|]. split; [done|vm_compute; done]. Qed.
