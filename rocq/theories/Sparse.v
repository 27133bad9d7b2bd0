(** * Model of src/sparse_tree.rs, src/sparse_tree_levels.rs, src/level/*.rs,
      src/level_block/block.rs, src/config.rs, src/req_default.rs

    `SparseTree<Levels, Data, R>` for every configuration of src/config.rs: masks of [nw]
    words (1: width_64, 2: width_128, 4: width_256), depth [D] in 1..8, and
    `ReqDefault<B>`.  Not modelled: the unused level blocks small_block.rs and
    cluster_block.rs inside a tree (no configuration refers to them; on their own they are in SmallBlock.v), aliasing rules, allocation
    failure. *)
From Verif Require Import Base BitUtils BitQueue LevelIndices ConstLoops Hierarchy Dense.

(** ** config.rs:11-56: index types u8 (root), u16 (level 1), u32 (below) *)
Definition lbits (level : nat) : N :=
  match level with O => 8 | S O => 16 | _ => 32 end.
(** `Primitive::from_usize` (`as` cast) utils/primitive.rs:58-60 *)
Definition trunc (level : nat) (i : N) : N := (i mod 2 ^ lbits level)%N.

(** ** `Block<Mask, BlockIndices>` level_block/block.rs:10-14 *)
Record block := Block { b_mask : mask; b_idx : list N }.
(** `Empty::empty` block.rs:22-28 *)
Definition blk_empty (nw : nat) : block := Block (mask_zero nw) (replicate (N.to_nat (msize nw)) 0%N).
(** `is_empty` block.rs:31-33 *)
Definition blk_is_empty (b : block) : bool := mask_is_zero (b_mask b).
(** `as_u64_mut` block.rs:42-46 (read / write of the first mask word) *)
Definition blk_link (b : block) : res N := get_u (b_mask b) 0.
(** `*as_u64_mut() = ..` block.rs:42-46 *)
Definition blk_set_link (b : block) (x : N) : res block :=
  let* m := set_u (b_mask b) 0 x in Ok (Block m (b_idx b)).
(** `restore_empty` block.rs:49-51 *)
Definition blk_restore_empty (b : block) : res block := blk_set_link b 0.
(** `get_or_zero` block.rs:74-78 *)
Definition blk_get (b : block) (index : N) : res N := get_u (b_idx b) (N.to_nat index).
(** `insert` block.rs:97-105; [item] is already cast to the index type *)
Definition blk_insert (b : block) (index item : N) : res block :=
  let* (m, _) := mask_set_bit true (b_mask b) index in
  let* ix := set_u (b_idx b) (N.to_nat index) item in
  Ok (Block m ix).
(** `remove_unchecked` block.rs:107-111 *)
Definition blk_remove (b : block) (index : N) : res block :=
  let* (m, _) := mask_set_bit false (b_mask b) index in
  let* ix := set_u (b_idx b) (N.to_nat index) 0%N in
  Ok (Block m ix).
(** `set_unchecked` block.rs:113-117 *)
Definition blk_set (b : block) (index item : N) : res block :=
  let* ix := set_u (b_idx b) (N.to_nat index) item in
  Ok (Block (b_mask b) ix).

(** ** Levels.  [LSingle]: SingleBlockLevel level/single_block_level.rs:5-8;
    [LList]: IntrusiveListLevel level/intrusive_list_level.rs:6-13 *)
Inductive level :=
| LSingle (b : block)
| LList (blocks : list block) (root_empty : N).
(** u64::MAX, the list terminator (intrusive_list_level.rs:11-15) *)
Definition U64MAX : N := 2 ^ 64 - 1.
(** `blocks()` / `blocks_mut()` (level/mod.rs:12-24) *)
Definition lv_blocks (l : level) : list block :=
  match l with LSingle b => [b] | LList bs _ => bs end.
(** mutation of the block vector through `blocks_mut()` *)
Definition lv_with_blocks (l : level) (bs : list block) : level :=
  match l with
  | LSingle b => LSingle (default b (head bs))
  | LList _ r => LList bs r
  end.
(** `Default` single_block_level.rs:32-37, intrusive_list_level.rs:15-24 *)
Definition lv_default (nw n : nat) : level :=
  match n with O => LSingle (blk_empty nw) | S _ => LList [blk_empty nw] U64MAX end.
(** `blocks().get_unchecked(i)` (sparse_tree.rs:192-212) *)
Definition lv_get (l : level) (i : N) : res block := get_u (lv_blocks l) (N.to_nat i).
(** writing through `blocks_mut().get_unchecked_mut(i)` (sparse_tree.rs:215-235) *)
Definition lv_set (l : level) (i : N) (b : block) : res level :=
  let* bs := set_u (lv_blocks l) (N.to_nat i) b in Ok (lv_with_blocks l bs).
(** `pop_empty_block` intrusive_list_level.rs:36-53 *)
Definition lv_pop (blocks : list block) (root_empty : N) : res (list block * N * option N) :=
  if (root_empty =? U64MAX)%N then Ok (blocks, root_empty, None)
  else
    let index := root_empty in
    let* b := get_u blocks (N.to_nat index) in
    let* next := blk_link b in
    let* b := blk_restore_empty b in
    let* blocks := set_u blocks (N.to_nat index) b in
    Ok (blocks, next, Some index).
(** `insert_empty_block` intrusive_list_level.rs:82-90; unreachable!() for the single-block level *)
Definition lv_insert_empty (nw : nat) (l : level) : res (level * N) :=
  match l with
  | LSingle _ => Panic
  | LList blocks root =>
    let* (blocks, root, o) := lv_pop blocks root in
    match o with
    | Some index => Ok (LList blocks root, index)
    | None =>
      let index := N.of_nat (length blocks) in
      Ok (LList (blocks ++ [blk_empty nw]) root, index)
    end
  end.
(** `remove_empty_block_unchecked` / `push_empty_block` intrusive_list_level.rs:59-65, 93-95 *)
Definition lv_remove_empty (l : level) (block_index : N) : res level :=
  match l with
  | LSingle _ => Panic
  | LList blocks root =>
    let* b := get_u blocks (N.to_nat block_index) in
    let* b := blk_set_link b root in
    let* blocks := set_u blocks (N.to_nat block_index) b in
    Ok (LList blocks block_index)
  end.

(** ** SparseTree, sparse_tree.rs:47-67.  A [None] value is uninitialised memory. *)
Record sparse (V : Type) := Sparse {
  s_levels : list level;
  s_values : list (option V);
  s_keys : list N;
  s_lbi : list (N * N);            (* last_level_block_indices *)
}.
Arguments Sparse {V}. Arguments s_levels {V}. Arguments s_values {V}. Arguments s_keys {V}. Arguments s_lbi {V}.

(** `Default` sparse_tree.rs:68-94.  [req]: R::REQUIRED; [dflt]: what `Data::default()` yields, [None] if
    it panics.  `values` already has length 1 when `init_default` runs (77-82), so a
    panicking `Default` unwinds through the drop of an uninitialised value. *)
Definition sparse_default (V : Type) (nw D : nat) (req : bool) (dflt : option V) : res (sparse V) :=
  let* first := if req then match dflt with Some v => Ok (Some v) | None => UB end else Ok None in
  Ok (Sparse (lv_default nw <$> seq 0 D) [first] [USIZE_MAX] [(0, 0)%N]).

(** `levels.visit(n)` sparse_tree_levels.rs:113-130: unreachable!() out of range *)
Definition lv_at (ls : list level) (n : nat) : res level := get_c ls n.
(** `get_block(level_n, i)` sparse_tree.rs:192-212 *)
Definition get_block (ls : list level) (n : nat) (i : N) : res block :=
  let* l := lv_at ls n in lv_get l i.
(** write back block [i] of level [n] (mutation through `get_block_mut` sparse_tree.rs:215-235) *)
Definition put_block (ls : list level) (n : nat) (i : N) (b : block) : res (list level) :=
  let* l := lv_at ls n in let* l := lv_set l i b in Ok (<[n := l]> ls).
(** `insert_child` sparse_tree.rs:165-184: casts to the index type of the level *)
Definition insert_child (ls : list level) (n : nat) (blk index item : N) : res (list level) :=
  let* b := get_block ls n blk in
  let* b := blk_insert b index (trunc n item) in
  put_block ls n blk b.

(** `fetch_block_indices` 238-267: `levels.fold` (fold_n over all levels,
    sparse_tree_levels.rs:157-171); [k] levels to go, [n] the level number *)
Fixpoint fetch_loop (ls : list level) (level_indices : list N) (k n : nat) (level_block_index : N)
  : res (list N * N) :=
  match k with
  | O => Ok ([], level_block_index)
  | S k =>
    let* block := get_block ls n level_block_index in                    (* 257 *)
    let* in_block_index := get_u level_indices n in                      (* 258 *)
    let* block_index := blk_get block in_block_index in                  (* 259 *)
    let* (out, last) := fetch_loop ls level_indices k (S n) block_index in
    Ok (block_index :: out, last)
  end.
(** `fetch_block_indices` sparse_tree.rs:238-267 *)
Definition fetch_block_indices {V} (D : nat) (t : sparse V) (level_indices : list N) : res (list N * N) :=
  fetch_loop (s_levels t) level_indices D 0 0%N.
(** `fetch_block_index` sparse_tree.rs:270-272 *)
Definition fetch_block_index {V} (D : nat) (t : sparse V) (level_indices : list N) : res N :=
  let* (_, i) := fetch_block_indices D t level_indices in Ok i.

(** the visitor of `remove`, sparse_tree.rs:295-327 *)
Definition remove_visit (level_indices levels_block_indices : list N) : visitor (list level) unit :=
  fun ls n =>
  let* block_index := if decide (n = 0) then Ok 0%N else get_c levels_block_indices (n - 1) in (* 308-312 *)
  let* b := get_block ls n block_index in                                (* 313 *)
  let* inner_index := get_c level_indices n in                           (* 315 *)
  let* b := blk_remove b inner_index in                                  (* 316 *)
  let* ls := put_block ls n block_index b in
  if blk_is_empty b then                                                 (* 319 *)
    if decide (n <> 0) then                                              (* 320 *)
      let* l := lv_at ls n in
      let* l := lv_remove_empty l block_index in                         (* 321 *)
      Ok (<[n := l]> ls, None)
    else Ok (ls, None)
  else Ok (ls, Some ()).
(** `remove` 275-366 after the index check.  `fold_rev_mut` (sparse_tree_levels.rs:143-153)
    visits the levels D-1, ..., 0 until Break. *)
Definition sparse_remove_impl {V} (nw D : nat) (t : sparse V) (index : N) : res (sparse V * option V) :=
  let level_indices := level_indices nw D index in                       (* 280 *)
  let* (levels_block_indices, data_block_index) := fetch_block_indices D t level_indices in (* 281 *)
  if (data_block_index =? 0)%N then Ok (t, None)                         (* 285-287 *)
  else
    let* (ls, _) := visit_list (rev (seq 0 D)) (remove_visit level_indices levels_block_indices) (s_levels t) in (* 290 *)
    let* (lbi, last) := pop_u (s_lbi t) in                               (* 333 *)
    let* (lbi, ls) :=
      if decide (N.to_nat data_block_index < length lbi) then            (* 334 *)
        let* lbi := set_u lbi (N.to_nat data_block_index) last in        (* 335 *)
        let '(level_block_index, inner_index) := last in                 (* 336 *)
        let* b := get_block ls (D - 1) level_block_index in              (* 338-356 *)
        let* b := blk_set b inner_index (trunc (D - 1) data_block_index) in
        let* ls := put_block ls (D - 1) level_block_index b in
        Ok (lbi, ls)
      else Ok (lbi, ls) in
    let* (keys, _) := swap_remove (s_keys t) (N.to_nat data_block_index) in     (* 362 *)
    let* (values, value) := swap_remove (s_values t) (N.to_nat data_block_index) in (* 363 *)
    let* value := unwrap_unc value in
    Ok (Sparse ls values keys lbi, Some value).
(** `remove` sparse_tree.rs:275-366 *)
Definition sparse_remove {V} (nw D : nat) (t : sparse V) (index : N) : res (sparse V * option V) :=
  let* index := index_from nw D index in                                 (* 278 *)
  sparse_remove_impl nw D t index.

(** loop body of `get_or_insert_impl`, sparse_tree.rs:402-436; state: levels and level_block_index *)
Definition sgoi_body (nw : nat) (level_indices : list N) : visitor (list level * N) unit :=
  fun '(ls, level_block_index) n =>
  let* inner_index := get_c level_indices n in                           (* 404 *)
  let* b := get_block ls n level_block_index in                          (* 406 *)
  let* next := blk_get b inner_index in                                  (* 407 *)
  if (next =? 0)%N then                                                  (* 409 *)
    let* l := lv_at ls (S n) in
    let* (l, new) := lv_insert_empty nw l in                             (* 420 *)
    let ls := <[S n := l]> ls in
    let* ls := insert_child ls n level_block_index inner_index new in    (* 428-429 *)
    Ok ((ls, new), None)                                                 (* 432 *)
  else Ok ((ls, next), None).
(** `get_or_insert_impl` sparse_tree.rs:395-463; [value_fn]: value of the closure, [None] if it panics.
    Result: new tree, position in `values` of the returned reference ([None]: unwound),
    dropped values *)
Definition sgoi_impl {V} (nw D : nat) (t : sparse V) (index : N) (insert : bool) (value_fn : option V)
  : res (sparse V * option N * list V) :=
  let level_indices := level_indices nw D index in                       (* 398 *)
  let* last_inner := get_u level_indices (length level_indices - 1) in   (* 399 *)
  let* ((ls, level_block_index), _) := const_loop 0 (D - 1) (sgoi_body nw level_indices) (s_levels t, 0%N) in
  let* b := get_block ls (D - 1) level_block_index in                    (* 440 *)
  let* data_block_index := blk_get b last_inner in                       (* 441 *)
  if (data_block_index =? 0)%N then
    match value_fn with
    | None => Ok (Sparse ls (s_values t) (s_keys t) (s_lbi t), None, [])
    | Some v =>
      let i := N.of_nat (length (s_values t)) in                         (* 443 *)
      let values := s_values t ++ [Some v] in                            (* 445 *)
      let keys := s_keys t ++ [index] in                                 (* 446 *)
      let lbi := s_lbi t ++ [(level_block_index, last_inner)] in         (* 447-449 *)
      let* ls := insert_child ls (D - 1) level_block_index last_inner i in (* 451 *)
      Ok (Sparse ls values keys lbi, Some i, [])
    end
  else
    if insert then
      match value_fn with
      | None => Ok (Sparse ls (s_values t) (s_keys t) (s_lbi t), None, [])
      | Some v =>
        let* old := data_get (s_values t) (N.to_nat data_block_index) in (* 455: drops the old value *)
        let* values := set_u (s_values t) (N.to_nat data_block_index) (Some v) in
        Ok (Sparse ls values (s_keys t) (s_lbi t), Some data_block_index, [old])
      end
    else
      let* _ := data_get (s_values t) (N.to_nat data_block_index) in     (* 462 *)
      Ok (Sparse ls (s_values t) (s_keys t) (s_lbi t), Some data_block_index, []).
(** `get_or_insert` sparse_tree.rs:370-376 *)
Definition sparse_get_or_insert {V} (nw D : nat) (t : sparse V) (index : N) (dflt : option V)
  : res (sparse V * option N * list V) :=
  let* index := index_from nw D index in sgoi_impl nw D t index false dflt.
(** `insert` sparse_tree.rs:388-391 *)
Definition sparse_insert {V} (nw D : nat) (t : sparse V) (index : N) (value : V) : res (sparse V * list V) :=
  let* index := index_from nw D index in
  let* (t, _, dropped) := sgoi_impl nw D t index true (Some value) in
  Ok (t, dropped).
(** `get_mut` sparse_tree.rs:468-481: the position of the referenced value *)
Definition sparse_get_mut {V} (nw D : nat) (t : sparse V) (index : N) : res (option N) :=
  let* index := index_from nw D index in
  let* i := fetch_block_index D t (level_indices nw D index) in
  if (i =? 0)%N then Ok None
  else let* _ := data_get (s_values t) (N.to_nat i) in Ok (Some i).
(** `get_mut_unchecked` sparse_tree.rs:486-494 *)
Definition sparse_get_mut_unchecked {V} (nw D : nat) (t : sparse V) (index : N) : res N :=
  let* o := sparse_get_mut nw D t index in unwrap_unc o.
(** `key_values` sparse_tree.rs:499-507, `key_values_mut` 511-519 *)
Definition sparse_key_values {V} (t : sparse V) : res (list N * list V) :=
  let* keys := from_1 (s_keys t) in
  let* values := from_1 (s_values t) in
  let* values := all_init values in
  Ok (keys, values).
(** `drop_impl` sparse_tree.rs:522-531: the values dropped (the block vectors are dropped by `Vec`) *)
Definition sparse_drop {V} (req : bool) (t : sparse V) : res (list V) :=
  let skip_first := if req then 0 else 1 in
  let* _ := sub_u (length (s_values t)) skip_first in
  all_init (drop skip_first (s_values t)).
(** `get_or_default` sparse_tree.rs:544-551 (only for `ReqDefault<true>`) *)
Definition sparse_get_or_default {V} (nw D : nat) (t : sparse V) (index : N) : res V :=
  let* index := index_from nw D index in
  let* i := fetch_block_index D t (level_indices nw D index) in
  data_get (s_values t) (N.to_nat i).

(** `HibitTree::data` sparse_tree.rs:615-622 *)
Definition sparse_data {V} (D : nat) (t : sparse V) (index : N) (level_indices : list N) : res (option V) :=
  let* i := fetch_block_index D t level_indices in
  if (i =? 0)%N then Ok None
  else let* v := data_get (s_values t) (N.to_nat i) in Ok (Some v).
(** `data_unchecked` sparse_tree.rs:626-630 *)
Definition sparse_data_unchecked {V} (D : nat) (t : sparse V) (index : N) (level_indices : list N) : res V :=
  let* o := sparse_data D t index level_indices in unwrap_unc o.

(** ** Cursor 633-741.  `level_block_ptrs` are raw pointers into the (shared-borrowed,
    hence unchanged) block vectors; modelled as block indices, null as [None]. *)
Notation scursor := (list (option N)).
(** `new` sparse_tree.rs:664-669 *)
Definition scur_new (D : nat) : scursor := replicate (D - 1) None.
(** `select_level_node` sparse_tree.rs:681-710; `select_level_node_unchecked` 672-676 calls it *)
Definition scur_select {V} (t : sparse V) (c : scursor) (n : nat) (level_index : N) : res (scursor * mask) :=
  if decide (n = 0) then
    if (level_index =? 0)%N then                                         (* 685 *)
      let* b := get_block (s_levels t) 0 0%N in Ok (c, b_mask b)
    else Panic
  else
    let* prev := if decide (n = 1) then Ok 0%N                           (* 696-698 *)
                 else let* o := get_u c (n - 2) in unwrap_unc o in       (* 700-701 *)
    let* b := get_block (s_levels t) (n - 1) prev in
    let* level_block_index := blk_get b level_index in                   (* 703 *)
    let* block := get_block (s_levels t) n level_block_index in          (* 707 *)
    let* c := set_u c (n - 1) (Some level_block_index) in                (* 708 *)
    Ok (c, b_mask block).
(** `Cursor::data` sparse_tree.rs:720-740 *)
Definition scur_data {V} (D : nat) (t : sparse V) (c : scursor) (level_index : N) : res (option V) :=
  let* i := if decide (D = 1) then Ok 0%N
            else let* o := get_u c (length c - 1) in unwrap_unc o in
  let* b := get_block (s_levels t) (D - 1) i in
  let* data_block_index := blk_get b level_index in
  if (data_block_index =? 0)%N then Ok None
  else let* v := data_get (s_values t) (N.to_nat data_block_index) in Ok (Some v).
(** `Cursor::data_unchecked` sparse_tree.rs:713-717 *)
Definition scur_data_u {V} (D : nat) (t : sparse V) (c : scursor) (level_index : N) : res V :=
  let* o := scur_data D t c level_index in unwrap_unc o.

(** `impl HibitTree for SparseTree` sparse_tree.rs:596-631: EXACT_HIERARCHY = true (601) *)
Definition sparse_tree (V : Type) (nw D : nat) : tree := Tree nw D true (sparse V) scursor V
  (sparse_data D) (sparse_data_unchecked D) (fun _ => Ok (scur_new D))
  scur_select scur_select (scur_data D) (scur_data_u D).
