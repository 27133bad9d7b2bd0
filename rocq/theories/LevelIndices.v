(** * Model of src/lib.rs (level_indices, data_block_index) and of the key check in
      src/hibit_tree.rs *)
From Verif Require Import Base BitUtils.

(** 64-bit target: usize::MAX *)
Definition USIZE_MAX : N := (2 ^ 64 - 1)%N.

(** `LevelMask::SIZE` for masks of [nw] 64-bit words, src/bit_block.rs:87,121,160 *)
Definition msize (nw : nat) : N := (64 * N.of_nat nw)%N.
(** `LevelMask::SIZE.ilog2()` *)
Definition lsize (nw : nat) : N := N.log2 (msize nw).
(** the three implemented masks: u64, u64x2, u64x4 *)
Definition nw_ok (nw : nat) : Prop := nw = 1 \/ nw = 2 \/ nw = 4.

(** Loop of `level_indices` src/lib.rs:232-246.  [k] = level_count - level - 1 is the
    number of levels still below the current one.  `level_capacity - 1` with
    `level_capacity = 1 << exp`. *)
Fixpoint level_indices_loop (nw : nat) (k : nat) (level_remainder : N) : list N :=
  match k with
  | O => [level_remainder]                                              (* 246 *)
  | S k' =>
    let level_capacity_exp := (lsize nw * N.of_nat k)%N in              (* 234 *)
    let level_capacity := N.shiftl 1 level_capacity_exp in              (* 235 *)
    let level_index := N.shiftr level_remainder level_capacity_exp in   (* 238 *)
    level_index :: level_indices_loop nw k' (N.land level_remainder (level_capacity - 1))
  end.
(** `level_indices` src/lib.rs:221-249 for LevelCount = [D] >= 1.  [D] = 0 would
    underflow `level_count - 1`; the constructors require D >= 1. *)
Definition level_indices (nw D : nat) (index : N) : list N :=
  level_indices_loop nw (D - 1) index.

(** `data_block_index` src/lib.rs:206-216.  [k] = level_count - n - 1.  Indexing is
    checked (panic).  Additions and shifts are on unbounded [N];
    [C07_no_overflow] shows that nothing overflows in any supported configuration. *)
Fixpoint data_block_index_loop (nw : nat) (k : nat) (level_indices : list N) (acc : N) : res N :=
  match k with
  | O => Ok acc
  | S k' =>
    match level_indices with
    | [] => Panic
    | i :: rest => data_block_index_loop nw k' rest (acc + N.shiftl i (lsize nw * N.of_nat k))%N
    end
  end.
(** `data_block_index` src/lib.rs:205-216 *)
Definition data_block_index (nw D : nat) (level_indices : list N) (data_index : N) : res N :=
  data_block_index_loop nw (D - 1) level_indices data_index.

(** The same two functions with the checks of a debug build: a shift by 64 or more, a sum above
    usize::MAX and an underflowing subtraction panic. *)
Definition shl_dbg (x n : N) : res N := if (n <? 64)%N then Ok (shl64 x n) else Panic.
(** `>>`, `+`, `-` on usize in a debug build *)
Definition shr_dbg (x n : N) : res N := if (n <? 64)%N then Ok (N.shiftr x n) else Panic.
Definition add_dbg (x y : N) : res N := if (x + y <=? USIZE_MAX)%N then Ok (x + y)%N else Panic.
Definition sub_dbg (x y : N) : res N := if (y <=? x)%N then Ok (x - y)%N else Panic.
(** src/lib.rs:232-246 *)
Fixpoint level_indices_dbg_loop (nw : nat) (k : nat) (level_remainder : N) : res (list N) :=
  match k with
  | O => Ok [level_remainder]
  | S k' =>
    let level_capacity_exp := (lsize nw * N.of_nat k)%N in
    let* level_capacity := shl_dbg 1 level_capacity_exp in
    let* level_index := shr_dbg level_remainder level_capacity_exp in
    let* m := sub_dbg level_capacity 1 in
    let* rest := level_indices_dbg_loop nw k' (N.land level_remainder m) in
    Ok (level_index :: rest)
  end.
(** `level_indices` src/lib.rs:221-249, debug build *)
Definition level_indices_dbg (nw D : nat) (index : N) : res (list N) :=
  let* k := sub_dbg (N.of_nat D) 1 in level_indices_dbg_loop nw (N.to_nat k) index.
(** src/lib.rs:206-216 *)
Fixpoint data_block_index_dbg_loop (nw : nat) (k : nat) (level_indices : list N) (acc : N) : res N :=
  match k with
  | O => Ok acc
  | S k' =>
    match level_indices with
    | [] => Panic
    | i :: rest =>
      let* x := shl_dbg i (lsize nw * N.of_nat k) in
      let* acc := add_dbg acc x in
      data_block_index_dbg_loop nw k' rest acc
    end
  end.
(** `data_block_index` src/lib.rs:205-216, debug build *)
Definition data_block_index_dbg (nw D : nat) (level_indices : list N) (data_index : N) : res N :=
  let* k := sub_dbg (N.of_nat D) 1 in data_block_index_dbg_loop nw (N.to_nat k) level_indices data_index.

(** `usize::saturating_pow` *)
Definition saturating_pow (b : N) (e : nat) : N := N.min (b ^ N.of_nat e) USIZE_MAX.
(** `Index::from(usize)` src/hibit_tree.rs:74-78 *)
Definition index_from (nw D : nat) (index : N) : res N :=
  if (index <? saturating_pow (msize nw) D)%N then Ok index else Panic.
(** `HibitTree::index_range` src/hibit_tree.rs:215-217: `usize::pow` panics on overflow
    in debug builds and wraps in release builds. *)
Definition index_range_debug (nw D : nat) : res N :=
  if (msize nw ^ N.of_nat D <=? USIZE_MAX)%N then Ok (msize nw ^ N.of_nat D)%N else Panic.
(** `index_range` src/hibit_tree.rs:215-217, release build *)
Definition index_range_release (nw D : nat) : N := (msize nw ^ N.of_nat D mod 2 ^ 64)%N.
