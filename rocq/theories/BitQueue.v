(** * Model of src/bit_queue.rs *)
From Verif Require Import Base BitUtils.

(** `saturating_shl` src/bit_queue.rs:10-17 (u64) *)
Definition saturating_shl (p n : N) : N :=
  if (64 <=? n)%N then 0%N else shl64 p n.

(** ** PrimitiveBitQueue<u64> src/bit_queue.rs:98-165: the remaining word *)
Definition pq_new (value : N) : N := value. (* bit_queue.rs:106-110 *)
Definition pq_empty : N := 0%N. (* bit_queue.rs:118-120 *)
Definition pq_filled : N := WMAX. (* bit_queue.rs:123-125 *)
Definition pq_trim_to (block n : N) : N := (* bit_queue.rs:128-134 *)
  N.land block (saturating_shl WMAX n).
Definition pq_current (block : N) : N := trailing_zeros block. (* bit_queue.rs:137-139 *)
(** `traverse` bit_queue.rs:142-147 *)
Definition pq_traverse {St} (block : N) (f : St -> N -> St * bool) (s : St) :=
  traverse_one_bits block f s.                                    (* 142-147 *)
Definition pq_next (block : N) : N * option N := one_bits_next block. (* bit_queue.rs:162-164 *)

(** ** ArrayBitQueue<u64, N> src/bit_queue.rs:167-174 *)
Record aq := AQ { aq_iters : list N; aq_index : nat }.

Definition aq_new (array : list N) : aq := AQ array 0. (* bit_queue.rs:181-190 *)
Definition aq_empty (n : nat) : aq := AQ (replicate n 0%N) (n - 1). (* bit_queue.rs:198-203 *)
Definition aq_filled (n : nat) : aq := aq_new (replicate n WMAX). (* bit_queue.rs:206-208 *)

(** `trim_to` bit_queue.rs:211-265 (only the compiled code; 228-247 is commented out).
    [self.bit_block_iters[0]] is a checked access: panics when N = 0. *)
Definition aq_trim_to (q : aq) (n : N) : res aq :=
  let len := length (aq_iters q) in
  let element_index := N.to_nat (n / 64) in
  if decide (len <= element_index) then
    if decide (0 < len) then Ok (AQ (<[0 := 0%N]> (aq_iters q)) (len - 1)) else Panic
  else if decide (element_index < aq_index q) then Ok q
  else
    let* q1 :=
      if decide (element_index <> aq_index q) then
        let* w := get_u (aq_iters q) element_index in
        Ok (AQ (<[0 := w]> (aq_iters q)) element_index)
      else Ok q in
    let* w0 := get_c (aq_iters q1) 0 in
    Ok (AQ (<[0 := N.land w0 (shl64 WMAX (n mod 64))]> (aq_iters q1)) (aq_index q1)).

(** `current` bit_queue.rs:268-271 *)
Definition aq_current (q : aq) : res N :=
  let* w0 := get_c (aq_iters q) 0 in
  Ok (N.of_nat (aq_index q) * 64 + trailing_zeros w0)%N.

(** `traverse` bit_queue.rs:274-293 *)
Definition aq_traverse {St} (q : aq) (f : St -> N -> St * bool) (s : St) : res (St * bool) :=
  let* w0 := get_c (aq_iters q) 0 in
  let* iters := set_u (aq_iters q) (aq_index q) w0 in
  let slice := drop (aq_index q) iters in
  let start_index := (N.of_nat (aq_index q) * 64)%N in
  traverse_array_one_bits slice (fun s i => f s (start_index + i)%N) s.

(** `next` bit_queue.rs:310-324; [fuel] bounds the `loop` *)
Fixpoint aq_next_loop (fuel : nat) (q : aq) : res (aq * option N) :=
  match fuel with
  | O => OutOfFuel
  | S fuel =>
    let* w0 := get_c (aq_iters q) 0 in
    match one_bits_next w0 with
    | (w0', Some index) =>
        Ok (AQ (<[0 := w0']> (aq_iters q)) (aq_index q),
            Some (N.of_nat (aq_index q) * 64 + index)%N)
    | (_, None) =>
        if decide (aq_index q = length (aq_iters q) - 1) then Ok (q, None)
        else
          let* w := get_u (aq_iters q) (S (aq_index q)) in
          aq_next_loop fuel (AQ (<[0 := w]> (aq_iters q)) (S (aq_index q)))
    end
  end.
(** `next` bit_queue.rs:310-324 with the fuel it needs *)
Definition aq_next (q : aq) : res (aq * option N) :=
  aq_next_loop (S (length (aq_iters q))) q.

(** ** `BitBlock::BitsIter`: u64 uses PrimitiveBitQueue, wider blocks use
    ArrayBitQueue (src/bit_block.rs:91-95, 128-133, 167-172). *)
Inductive bitq := PQ (w : N) | AQq (q : aq).
(** `into_bits_iter` src/bit_block.rs:91-95, 128-133, 167-172 *)
Definition into_bits_iter (m : mask) : bitq :=
  match m with [w] => PQ (pq_new w) | _ => AQq (aq_new m) end.
(** `BitQueue::empty()` for blocks of [n] words *)
Definition bq_empty (n : nat) : bitq :=
  if decide (n = 1) then PQ pq_empty else AQq (aq_empty n).
(** `BitQueue::filled()` bit_queue.rs:123-125, 206-208 *)
Definition bq_filled (n : nat) : bitq :=
  if decide (n = 1) then PQ pq_filled else AQq (aq_filled n).
(** `next` bit_queue.rs:162-164, 310-324 *)
Definition bq_next (q : bitq) : res (bitq * option N) :=
  match q with
  | PQ w => let '(w', o) := pq_next w in Ok (PQ w', o)
  | AQq q => let* (q', o) := aq_next q in Ok (AQq q', o)
  end.
(** `trim_to` bit_queue.rs:128-134, 211-265 *)
Definition bq_trim_to (q : bitq) (n : N) : res bitq :=
  match q with
  | PQ w => Ok (PQ (pq_trim_to w n))
  | AQq q => let* q' := aq_trim_to q n in Ok (AQq q')
  end.
(** `current` bit_queue.rs:137-139, 268-271 *)
Definition bq_current (q : bitq) : res N :=
  match q with PQ w => Ok (pq_current w) | AQq q => aq_current q end.
(** `traverse` bit_queue.rs:142-147, 274-293 *)
Definition bq_traverse {St} (q : bitq) (f : St -> N -> St * bool) (s : St) : res (St * bool) :=
  match q with PQ w => pq_traverse w f s | AQq q => aq_traverse q f s end.
