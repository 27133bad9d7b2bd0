(** * Model of src/bit_utils.rs and src/bit_block.rs

    A 64-bit word is an [N] (below 2^64 when well formed).  A bit block
    (`u64`, `wide::u64x2`, `wide::u64x4`) is the list of its 64-bit words
    (`BitBlock::as_array`), so of length 1, 2 or 4; nothing below depends on the
    length being one of these. *)
From Verif Require Import Base.

(** `Primitive::MAX` for u64: src/utils/primitive.rs (u64::MAX). *)
Definition WMAX : N := N.ones 64.
(** value bound of u64 *)
Definition W64 : N := (2 ^ 64)%N.
(** a value of type u64 (src/utils/primitive.rs:44-88) *)
Definition word_ok (w : N) : Prop := (w < W64)%N.

(** `u64::trailing_zeros` (core intrinsic; 64 on zero), used at
    src/bit_utils.rs:116,157,179 and src/bit_queue.rs:20-25. *)
Fixpoint pos_tz (p : positive) : N :=
  match p with xO p => N.succ (pos_tz p) | _ => 0%N end.
(** `u64::trailing_zeros` (src/utils/primitive.rs:60-63; 64 for zero) *)
Definition trailing_zeros (w : N) : N :=
  match w with N0 => 64%N | Npos p => pos_tz p end.

(** `u64::count_ones` (core intrinsic). *)
Fixpoint pos_pop (p : positive) : nat :=
  match p with xH => 1 | xO p => pos_pop p | xI p => S (pos_pop p) end.
(** `u64::count_ones`, used at node.rs:87-95 *)
Definition popcount (w : N) : nat :=
  match w with N0 => 0 | Npos p => pos_pop p end.

(** `u64::wrapping_neg`. *)
Definition wrapping_neg (w : N) : N := ((W64 - w) mod W64)%N.

(** `x << n` on u64: high bits are dropped and, as in release builds, only the low six bits of
    the shift amount count.  (A debug build panics for n >= 64: the callers that are not
    obviously below 64 test it, and [C07_no_overflow] covers src/lib.rs.) *)
Definition shl64 (x n : N) : N := N.land (N.shiftl x (n mod 64)) WMAX.
(** bitwise not on u64 *)
Definition not64 (x : N) : N := N.lxor x WMAX.

(** `set_bit_unchecked::<FLAG, u64>` src/bit_utils.rs:33-47; returns the new word
    and the previous bit.  `1 << bit_index` with bit_index >= 64 is an overflow:
    panic in debug builds; we report UB ("`bit_index` validity is not checked"). *)
Definition set_bit_unchecked (flag : bool) (block bit_index : N) : res (N * bool) :=
  if (bit_index <? 64)%N then
    let block_mask := shl64 1 bit_index in
    let masked_block := N.land block block_mask in
    let block' := if flag then N.lor block block_mask
                  else N.land block (not64 block_mask) in
    Ok (block', negb (masked_block =? 0)%N)
  else UB.

(** `get_bit_unchecked` src/bit_utils.rs:75-81. The `transmute` of the low bit to
    bool is defined because the value is 0 or 1. *)
Definition get_bit_unchecked (block bit_index : N) : res bool :=
  if (bit_index <? 64)%N then
    Ok (N.land (N.shiftr block bit_index) 1 =? 1)%N
  else UB.

(** `set_array_bit_unchecked` src/bit_utils.rs:12-24 *)
Definition set_array_bit_unchecked (flag : bool) (blocks : list N) (index : N)
  : res (list N * bool) :=
  let block_index := (index / 64)%N in
  let bit_index := N.land index (64 - 1) in
  let* w := get_u blocks (N.to_nat block_index) in
  let* (w', prev) := set_bit_unchecked flag w bit_index in
  let* blocks' := set_u blocks (N.to_nat block_index) w' in
  Ok (blocks', prev).

(** `get_array_bit_unchecked` src/bit_utils.rs:55-67 *)
Definition get_array_bit_unchecked (blocks : list N) (index : N) : res bool :=
  let block_index := (index / 64)%N in
  let bit_index := N.land index (64 - 1) in
  let* w := get_u blocks (N.to_nat block_index) in
  get_bit_unchecked w bit_index.

(** The least significant set bit removed: the body shared by
    src/bit_utils.rs:125-127, 161-162, 185-187. *)
Definition clear_lowest (element : N) : N :=
  let t := N.land element (wrapping_neg element) in N.lxor element t.

(** `OneBitsIter::next` src/bit_utils.rs:153-168: new element, yielded index. *)
Definition one_bits_next (element : N) : N * option N :=
  if negb (element =? 0)%N then (clear_lowest element, Some (trailing_zeros element))
  else (element, None).

(** `traverse_one_bits` src/bit_utils.rs:108-130.  The `FnMut` callback is a state
    transformer [f : S -> N -> S * bool] whose boolean means `ControlFlow::Break`.
    Returned boolean: the traversal was interrupted.  [fuel] bounds the `while`. *)
Fixpoint traverse_one_bits_loop {St} (fuel : nat) (element : N)
    (f : St -> N -> St * bool) (s : St) : res (St * bool) :=
  match fuel with
  | O => OutOfFuel
  | S fuel =>
    if (element =? 0)%N then Ok (s, false) else
    let '(s, brk) := f s (trailing_zeros element) in
    if brk then Ok (s, true)
    else traverse_one_bits_loop fuel (clear_lowest element) f s
  end.
(** a 64-bit word allows at most 64 iterations plus the final test *)
Definition traverse_one_bits {St} (element : N) (f : St -> N -> St * bool) (s : St)
  : res (St * bool) := traverse_one_bits_loop 65 element f s.

(** `traverse_array_one_bits` src/bit_utils.rs:85-105; [i] is the loop counter. *)
Fixpoint traverse_array_loop {St} (array : list N) (i : N)
    (f : St -> N -> St * bool) (s : St) : res (St * bool) :=
  match array with
  | [] => Ok (s, false)
  | element :: rest =>
    let* (s, brk) := traverse_one_bits element (fun (s : St) (r : N) => f s (i * 64 + r)%N) s in
    if brk then Ok (s, true) else traverse_array_loop rest (N.succ i) f s
  end.
(** src/bit_utils.rs:85-105, from word 0 *)
Definition traverse_array_one_bits {St} (array : list N) (f : St -> N -> St * bool) (s : St)
  : res (St * bool) := traverse_array_loop array 0 f s.

(** `OneBitsIter::fold` src/bit_utils.rs:171-190 *)
Fixpoint one_bits_fold_loop {B} (fuel : nat) (element : N) (f : B -> N -> B) (init : B)
  : res B :=
  match fuel with
  | O => OutOfFuel
  | S fuel =>
    if (element =? 0)%N then Ok init else
    one_bits_fold_loop fuel (clear_lowest element) f (f init (trailing_zeros element))
  end.
(** src/bit_utils.rs:171-190 with the fuel a word needs *)
Definition one_bits_fold {B} (element : N) (f : B -> N -> B) (init : B) : res B :=
  one_bits_fold_loop 65 element f init.

(** ** bit_block.rs *)
Notation mask := (list N) (only parsing).

(** `BitBlock::SIZE` src/bit_block.rs:18,87,121,160 *)
Definition mask_size (m : mask) : N := (64 * N.of_nat (length m))%N.
(** `BitBlock::zero` src/bit_block.rs:20,89,124,163, for a block of [n] words *)
Definition mask_zero (n : nat) : mask := replicate n 0%N.
(** `BitBlock::is_zero` src/bit_block.rs:23-25 *)
Definition mask_is_zero (m : mask) : bool := bool_decide (m = mask_zero (length m)).
(** `BitBlock::set_bit` src/bit_block.rs:31-42: single-word blocks use the primitive
    version directly, others the array version. *)
Definition mask_set_bit (flag : bool) (m : mask) (bit_index : N) : res (mask * bool) :=
  if decide (length m = 1) then
    let* w := get_u m 0 in
    let* (w', prev) := set_bit_unchecked flag w bit_index in
    let* m' := set_u m 0 w' in
    Ok (m', prev)
  else set_array_bit_unchecked flag m bit_index.
(** `BitBlock::get_bit` src/bit_block.rs:46-57 *)
Definition mask_get_bit (m : mask) (bit_index : N) : res bool :=
  if decide (length m = 1) then
    let* w := get_u m 0 in get_bit_unchecked w bit_index
  else get_array_bit_unchecked m bit_index.
(** `BitBlock::traverse_bits` src/bit_block.rs:63-74 *)
Definition mask_traverse_bits {St} (m : mask) (f : St -> N -> St * bool) (s : St)
  : res (St * bool) :=
  if decide (length m = 1) then let* w := get_u m 0 in traverse_one_bits w f s
  else traverse_array_one_bits m f s.
(** `BitBlock::count_ones` src/bit_block.rs:112-115, 147-154, 186-196 *)
Definition mask_count_ones (m : mask) : nat := sum_list (popcount <$> m).
(** `BitAnd` / `BitOr` on blocks are word-wise (u64 and wide's SIMD types). *)
Definition mask_and (a b : mask) : mask := zip_with N.land a b.
(** `BitOr` on blocks *)
Definition mask_or (a b : mask) : mask := zip_with N.lor a b.
