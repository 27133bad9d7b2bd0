(** * Model of the key arithmetic (src/lib.rs, src/hibit_tree.rs) on targets with any word size

    The rest of the model is for 64-bit targets; here `usize` has [W] bits ([W] a power of two).  [dbg] tells a debug build, which panics on
    overflow, from a release build, which wraps sums and takes shift amounts modulo [W]. *)
From Verif Require Import Base BitUtils LevelIndices Hierarchy.

(** `x << n` on usize *)
Definition shl_w (dbg : bool) (W x n : N) : res N :=
  if (n <? W)%N then Ok (N.land (N.shiftl x n) (N.ones W))
  else if dbg then Panic else Ok (N.land (N.shiftl x (n mod W)) (N.ones W)).
(** `x >> n` on usize *)
Definition shr_w (dbg : bool) (W x n : N) : res N :=
  if (n <? W)%N then Ok (N.shiftr x n) else if dbg then Panic else Ok (N.shiftr x (n mod W)).
(** `x + y` on usize *)
Definition add_w (dbg : bool) (W x y : N) : res N :=
  if (x + y <? 2 ^ W)%N then Ok (x + y)%N else if dbg then Panic else Ok ((x + y) mod 2 ^ W)%N.
(** `x - y` on usize *)
Definition sub_w (dbg : bool) (W x y : N) : res N :=
  if (y <=? x)%N then Ok (x - y)%N else if dbg then Panic else Ok (2 ^ W + x - y)%N.
(** src/lib.rs:232-246 *)
Fixpoint level_indices_loop_w (dbg : bool) (W : N) (nw : nat) (k : nat) (level_remainder : N) : res (list N) :=
  match k with
  | O => Ok [level_remainder]
  | S k' =>
    let level_capacity_exp := (lsize nw * N.of_nat k)%N in                   (* 234 *)
    let* level_capacity := shl_w dbg W 1 level_capacity_exp in               (* 235 *)
    let* level_index := shr_w dbg W level_remainder level_capacity_exp in    (* 238 *)
    let* m := sub_w dbg W level_capacity 1 in
    let* rest := level_indices_loop_w dbg W nw k' (N.land level_remainder m) in
    Ok (level_index :: rest)
  end.
(** `level_indices` src/lib.rs:221-249, D >= 1 *)
Definition level_indices_w (dbg : bool) (W : N) (nw D : nat) (index : N) : res (list N) :=
  level_indices_loop_w dbg W nw (D - 1) index.
(** src/lib.rs:206-216 *)
Fixpoint data_block_index_loop_w (dbg : bool) (W : N) (nw : nat) (k : nat) (level_indices : list N) (acc : N) : res N :=
  match k with
  | O => Ok acc
  | S k' =>
    match level_indices with
    | [] => Panic
    | i :: rest =>
      let* x := shl_w dbg W i (lsize nw * N.of_nat k) in
      let* acc := add_w dbg W acc x in
      data_block_index_loop_w dbg W nw k' rest acc
    end
  end.
(** `data_block_index` src/lib.rs:205-216 *)
Definition data_block_index_w (dbg : bool) (W : N) (nw D : nat) (level_indices : list N) (data_index : N) : res N :=
  data_block_index_loop_w dbg W nw (D - 1) level_indices data_index.
(** `Index::from(usize)` src/hibit_tree.rs:74-78; `usize::MAX` is 2^W - 1 *)
Definition index_from_w (W : N) (nw D : nat) (index : N) : res N :=
  if (index <? N.min (msize nw ^ N.of_nat D) (2 ^ W - 1))%N then Ok index else Panic.
(** `HibitTree::index_range` src/hibit_tree.rs:215-217 *)
Definition index_range_w (dbg : bool) (W : N) (nw D : nat) : res N :=
  if (msize nw ^ N.of_nat D <? 2 ^ W)%N then Ok (msize nw ^ N.of_nat D)%N
  else if dbg then Panic else Ok (msize nw ^ N.of_nat D mod 2 ^ W)%N.
(** `HibitTree::get(usize)` src/hibit_tree.rs:190-196 *)
Definition tree_get_w (dbg : bool) (W : N) (t : tree) (s : t_T t) (index : N) : res (option (t_V t)) :=
  let* index := index_from_w W (t_nw t) (t_depth t) index in
  let* indices := level_indices_w dbg W (t_nw t) (t_depth t) index in
  t_data t s index indices.
