(** * Model of src/dense_tree/node.rs and src/dense_tree.rs

    Memory is explicit: a heap of nodes with unique, never reused addresses.
    `realloc` always moves the node (the adversarial case for stale pointers), so a
    pointer that is kept across a reallocation is a dangling pointer in the model.
    Not modelled: allocation failure, byte layout/padding, aliasing rules. *)
From Verif Require Import Base BitUtils BitQueue LevelIndices ConstLoops Hierarchy.

(** ** node.rs *)

(** `NodePtr` node.rs:106: pointer to one of the static empty nodes (index into
    EMPTY_BRANCH) or to a heap node. *)
Inductive ptr := PStatic (k : nat) | PHeap (a : N).
(** one element of the children array (node.rs:59-66); [SUninit] is uninitialised memory *)
Inductive slot := SPtr (p : ptr) | SIdx (i : N) | SUninit.
(** the two `NodeChild` types, node.rs:17-19 (`NodePtr`, `DataIndex` = u32) *)
Inductive kind := KPtr | KIdx.
Global Instance kind_eq_dec : EqDecision kind.
Proof. solve_decision. Defined.
Global Instance ptr_eq_dec : EqDecision ptr.
Proof. solve_decision. Defined.
(** `NodeHeaderN` node.rs:53-67 followed by its children array.  [n_kind] records the
    element type the memory was allocated for. *)
Record node := Node {
  n_kind : kind;
  n_mask : N;
  n_cap : nat;       (* u8 *)
  n_len : nat;       (* u8 *)
  n_slots : list slot;
}.
(** the allocator's memory (std::alloc, used at node.rs:195-199, 303-317, 352-356); not a crate definition *)
Record heap := Heap { h_nodes : gmap N node; h_next : N }.

(** EMPTY_BRANCH node.rs:21-44: 9 static nodes, each pointing to the next, the last one
    holding zeroed bytes (which read as data index 0; as a NodePtr they would be null). *)
Definition EMPTY_LEN : nat := 9.
(** node [k] of EMPTY_BRANCH, node.rs:21-44 *)
Definition static_node (k : nat) : option node :=
  if decide (k < 8) then Some (Node KPtr 0 1 1 [SPtr (PStatic (S k))])
  else if decide (k = 8) then Some (Node KIdx 0 1 1 [SIdx 0])
  else None.
(** `empty_node` node.rs:46-51; indexing is checked, the subtraction may underflow *)
Definition empty_node (n D : nat) : res ptr :=
  if decide (D <= EMPTY_LEN) then
    if decide (EMPTY_LEN - D + n < EMPTY_LEN) then Ok (PStatic (EMPTY_LEN - D + n)) else Panic
  else Panic.

(** dereference for reading, `header()` node.rs:109-112; dangling pointer: UB *)
Definition hread (h : heap) (p : ptr) : res node :=
  match p with
  | PHeap a => match h_nodes h !! a with Some n => Ok n | None => UB end
  | PStatic k => match static_node k with Some n => Ok n | None => UB end
  end.
(** write through the pointer, `header_mut()` node.rs:114-117 and the children array; the static
    nodes are immutable *)
Definition hwrite (h : heap) (p : ptr) (n : node) : res heap :=
  match p with
  | PHeap a => match h_nodes h !! a with
               | Some _ => Ok (Heap (<[a := n]> (h_nodes h)) (h_next h))
               | None => UB end
  | PStatic _ => UB
  end.
(** `alloc` node.rs:195-199 *)
Definition halloc (h : heap) (n : node) : heap * ptr :=
  (Heap (<[h_next h := n]> (h_nodes h)) (N.succ (h_next h)), PHeap (h_next h)).
(** `dealloc` (node.rs:352-356) with a layout computed for element type [k] and the stored capacity *)
Definition hdealloc (h : heap) (p : ptr) (k : kind) : res heap :=
  match p with
  | PHeap a => match h_nodes h !! a with
               | Some n => if decide (n_kind n = k /\ n_cap n = length (n_slots n))
                           then Ok (Heap (delete a (h_nodes h)) (h_next h)) else UB
               | None => UB end
  | PStatic _ => UB
  end.
(** `realloc` (node.rs:303-317; always moving) with the layout for element type [k], new capacity [cap] *)
Definition hrealloc (h : heap) (p : ptr) (k : kind) (cap : nat) : res (heap * ptr) :=
  let* n := hread h p in
  let* h := hdealloc h p k in
  let slots := take cap (n_slots n ++ replicate (cap - length (n_slots n)) SUninit) in
  Ok (halloc h (Node k (n_mask n) (n_cap n) (n_len n) slots)).

(** `get_dense_index` node.rs:87-95 (portable branch) *)
Definition get_dense_index (mask index : N) : res nat :=
  if (index <? 64)%N then
    Ok (popcount (N.land mask (not64 (shl64 WMAX index))))
  else UB.
(** the `bmi2` branch, node.rs:88-89: `_bzhi_u64` zeroes the bits from position [index] on *)
Definition get_dense_index_bzhi (mask index : N) : nat :=
  popcount (if (index <? 64)%N then N.land mask (N.ones index) else mask).
(** `contains` node.rs:98-100 *)
Definition node_contains (h : heap) (p : ptr) (index : N) : res bool :=
  let* n := hread h p in get_bit_unchecked (n_mask n) index.
(** `header().mask()` node.rs:78-80 and `header().len()` 73-75 *)
Definition node_mask (h : heap) (p : ptr) : res N := let* n := hread h p in Ok (n_mask n).
(** `header().len()` node.rs:73-77 *)
Definition node_len (h : heap) (p : ptr) : res nat := let* n := hread h p in Ok (n_len n).

(** `get_child::<T>` node.rs:148-152: the element type must be the stored one *)
Definition get_child (k : kind) (h : heap) (p : ptr) (index : N) : res slot :=
  let* n := hread h p in
  let* d := get_dense_index (n_mask n) index in
  if decide (n_kind n = k) then get_u (n_slots n) d else UB.
(** node.rs:148-152: `*get_child::<NodePtr>` / `*get_child::<DataIndex>` *)
Definition as_ptr (s : slot) : res ptr := match s with SPtr p => Ok p | _ => UB end.
(** node.rs:148-152 at DataIndex *)
Definition as_idx (s : slot) : res N := match s with SIdx i => Ok i | _ => UB end.
(** `*get_child::<NodePtr>` node.rs:148-152 *)
Definition child_ptr (h : heap) (p : ptr) (index : N) : res ptr :=
  let* s := get_child KPtr h p index in as_ptr s.
(** `*get_child::<DataIndex>` node.rs:148-152 *)
Definition child_idx (h : heap) (p : ptr) (index : N) : res N :=
  let* s := get_child KIdx h p index in as_idx s.
(** write through `get_child_mut::<T>` node.rs:154-158; the static nodes are not writable *)
Definition set_child (k : kind) (h : heap) (p : ptr) (index : N) (s : slot) : res heap :=
  let* n := hread h p in
  let* d := get_dense_index (n_mask n) index in
  if decide (n_kind n = k) then
    let* slots := set_u (n_slots n) d s in
    hwrite h p (Node (n_kind n) (n_mask n) (n_cap n) (n_len n) slots)
  else UB.

(** DEFAULT_CAP node.rs:14 *)
Definition DEFAULT_CAP : nat := 2.
(** `new` node.rs:192-208 *)
Definition node_new (k : kind) (h : heap) (cap : nat) (empty_child : slot) : res (heap * ptr) :=
  let* slots := set_u (replicate cap SUninit) 0 empty_child in
  Ok (halloc h (Node k 0 cap 1 slots)).

(** `ptr::copy(src, dst, count)` (memmove; node.rs:319-330, 338-348) inside one children array *)
Definition slots_copy (l : list slot) (src dst count : nat) : res (list slot) :=
  if decide (src + count <= length l /\ dst + count <= length l) then
    Ok (take dst l ++ take count (drop src l) ++ drop (dst + count) l)
  else UB.
(** u8 arithmetic (fields node.rs:56-57): overflow panics (debug) *)
Definition u8_ok (n : nat) : bool := bool_decide (n < 256).
(** usize subtraction (node.rs:319-348); underflow would be an enormous copy *)
Definition sub_u (a b : nat) : res nat := if decide (b <= a) then Ok (a - b) else UB.

(** the reallocation block of `insert`, node.rs:303-317 *)
Definition node_reserve (k : kind) (h : heap) (p : ptr) : res (heap * ptr) :=
  let* n := hread h p in
  if decide (n_len n = n_cap n) then
    if u8_ok (n_cap n * 2) then
      let new_capacity := n_cap n * 2 in
      let* (h, p) := hrealloc h p k new_capacity in
      let* n := hread h p in
      let* h := hwrite h p (Node (n_kind n) (n_mask n) new_capacity (n_len n) (n_slots n)) in
      Ok (h, p)
    else Panic
  else Ok (h, p).
(** `insert` node.rs:298-335: the new heap, the position of the written element, the new node
    pointer *)
Definition node_insert (k : kind) (h : heap) (p : ptr) (index : N) (value : slot)
  : res (heap * nat * ptr) :=
  let* (h, p) := node_reserve k h p in
  let* n := hread h p in
  let* (mask, _) := set_bit_unchecked true (n_mask n) index in
  let* dense_index := get_dense_index mask index in
  if decide (n_kind n = k) then
    let* count := sub_u (n_len n) dense_index in
    let* slots := slots_copy (n_slots n) dense_index (dense_index + 1) count in
    let* slots := set_u slots dense_index value in
    if u8_ok (n_len n + 1) then
      let* h := hwrite h p (Node (n_kind n) mask (n_cap n) (n_len n + 1) slots) in
      Ok (h, dense_index, p)
    else Panic
  else UB.
(** `remove` node.rs:338-348 *)
Definition node_remove (k : kind) (h : heap) (p : ptr) (index : N) : res heap :=
  let* n := hread h p in
  let* dense_index := get_dense_index (n_mask n) index in
  let* (mask, _) := set_bit_unchecked false (n_mask n) index in
  if decide (n_kind n = k) then
    let* count := sub_u (n_len n) (dense_index + 1) in
    let* slots := slots_copy (n_slots n) (dense_index + 1) dense_index count in
    let* len := sub_u (n_len n) 1 in
    hwrite h p (Node (n_kind n) mask (n_cap n) len slots)
  else UB.
(** `drop_node` node.rs:352-356 *)
Definition drop_node (k : kind) (h : heap) (p : ptr) : res heap := hdealloc h p k.

(** node.rs:362-371, `for_each` over a bit iterator (Iterator::for_each calling `next` until None) *)
Fixpoint bits_for_each {St} (fuel : nat) (q : bitq) (f : St -> N -> res St) (s : St) : res St :=
  match fuel with
  | O => OutOfFuel
  | S fuel =>
    let* (q, o) := bq_next q in
    match o with
    | None => Ok s
    | Some i => let* s := f s i in bits_for_each fuel q f s
    end
  end.
(** `drop_node_with_childs` node.rs:359-373; [k] = LEVELS_COUNT - 1 - N *)
Fixpoint drop_node_with_childs (k : nat) (h : heap) (p : ptr) : res heap :=
  match k with
  | O => drop_node KIdx h p
  | S k =>
    let* mask := node_mask h p in
    let* h := bits_for_each 65 (into_bits_iter [mask]) (fun h i =>
      let* c := child_ptr h p i in
      drop_node_with_childs k h c) h in
    drop_node KPtr h p
  end.

(** ** dense_tree.rs *)

(** `DenseTree<T, DEPTH>` dense_tree.rs:74-91.  A [None] element of [d_data] is uninitialised memory
    (the placeholder element 0). *)
Record dense (V : Type) := Dense {
  d_root : ptr;
  d_heap : heap;
  d_data : list (option V);
  d_keys : list N;
}.
Arguments Dense {V}. Arguments d_root {V}. Arguments d_heap {V}. Arguments d_data {V}.
Arguments d_keys {V}.

(** no allocation yet *)
Definition heap_empty : heap := Heap ∅ 0.
(** `data.get_unchecked(j)` (dense_tree.rs:376, 385): element [j] of `data`, which must be initialised *)
Definition data_get {V} (data : list (option V)) (j : nat) : res V :=
  let* o := get_u data j in match o with Some v => Ok v | None => UB end.

(** `Default::default` dense_tree.rs:92-112 *)
Definition dense_default (V : Type) (D : nat) : res (dense V) :=
  let* (h, root) :=
    if decide (D = 1) then node_new KIdx heap_empty DEFAULT_CAP (SIdx 0)
    else
      let* e := empty_node 1 D in
      node_new KPtr heap_empty DEFAULT_CAP (SPtr e) in
  Ok (Dense root h [None] [USIZE_MAX]).

(** `node: &mut NodePtr` of dense_tree.rs:128: the root field or a children slot of a node *)
Inductive loc := LRoot | LSlot (p : ptr) (idx : nat).
(** `*node` dense_tree.rs:129-157 *)
Definition loc_read (root : ptr) (h : heap) (l : loc) : res ptr :=
  match l with
  | LRoot => Ok root
  | LSlot p i =>
    let* n := hread h p in
    if decide (n_kind n = KPtr) then let* s := get_u (n_slots n) i in as_ptr s else UB
  end.
(** `*node = ..` dense_tree.rs:129-157 *)
Definition loc_write (root : ptr) (h : heap) (l : loc) (v : ptr) : res (ptr * heap) :=
  match l with
  | LRoot => Ok (v, h)
  | LSlot p i =>
    let* n := hread h p in
    if decide (n_kind n = KPtr) then
      let* slots := set_u (n_slots n) i (SPtr v) in
      let* h := hwrite h p (Node (n_kind n) (n_mask n) (n_cap n) (n_len n) slots) in
      Ok (root, h)
    else UB
  end.

(** body of the loop dense_tree.rs:129-157; the state is (root, heap, node) *)
Definition goi_body (D : nat) (indices : list N) : visitor (ptr * heap * loc) unit :=
  fun '(root, h, node) n =>
  let* inner_index := get_c indices n in                                 (* 130 *)
  let* node_ptr := loc_read root h node in                               (* 132 *)
  let* has := node_contains h node_ptr inner_index in                    (* 133 *)
  if has : bool then
    let* nd := hread h node_ptr in                                       (* 134 *)
    let* d := get_dense_index (n_mask nd) inner_index in
    let* _ := child_ptr h node_ptr inner_index in
    Ok ((root, h, LSlot node_ptr d), None)
  else
    let* (h, child) :=
      if decide (n = D - 2) then node_new KIdx h DEFAULT_CAP (SIdx 0)    (* 143-144 *)
      else let* e := empty_node (n + 2) D in                             (* 145-148 *)
           node_new KPtr h DEFAULT_CAP (SPtr e) in
    let* (h, idx, new_node) := node_insert KPtr h node_ptr inner_index (SPtr child) in
    let* (root, h) := loc_write root h node new_node in                  (* 150 *)
    Ok ((root, h, LSlot new_node idx), None).                            (* 151 *)

(** `get_or_insert_impl` dense_tree.rs:119-176.  [value_fn]: the value the closure returns, [None] if it
    panics.  Result: the new tree, the position in `data` of the returned `&mut T`
    ([None]: unwound by the panic of the closure), and the values dropped. *)
Definition get_or_insert_impl {V} (D : nat) (t : dense V) (index : N) (insert : bool)
    (value_fn : option V) : res (dense V * option nat * list V) :=
  let indices := level_indices 1 D index in                              (* 125 *)
  let* ((root, h, node), _) := const_loop 0 (D - 1) (goi_body D indices) (d_root t, d_heap t, LRoot) in
  let* node_ptr := loc_read root h node in                               (* 161 *)
  let* inner_index := get_u indices (length indices - 1) in              (* 162 *)
  let* has := node_contains h node_ptr inner_index in                    (* 164 *)
  if has : bool then
    let* data_index := child_idx h node_ptr inner_index in               (* 165 *)
    let data_index := N.to_nat data_index in
    if insert then
      match value_fn with
      | None => Ok (Dense root h (d_data t) (d_keys t), None, [])
      | Some v =>
        let* old := data_get (d_data t) data_index in                    (* 167: drops the old value *)
        let* data := set_u (d_data t) data_index (Some v) in
        Ok (Dense root h data (d_keys t), Some data_index, [old])
      end
    else
      let* _ := data_get (d_data t) data_index in                        (* 174 *)
      Ok (Dense root h (d_data t) (d_keys t), Some data_index, [])
  else
    match value_fn with
    | None => Ok (Dense root h (d_data t) (d_keys t), None, [])
    | Some v =>
      let i := length (d_data t) in                                      (* 171 *)
      let data := d_data t ++ [Some v] in                                (* 172 *)
      let keys := d_keys t ++ [index] in                                 (* 173 *)
      let* (h, _, new_node) :=
        node_insert KIdx h node_ptr inner_index (SIdx (N.of_nat i mod 2 ^ 32)) in (* 174 *)
      let* (root, h) := loc_write root h node new_node in            (* 175 *)
      Ok (Dense root h data keys, Some i, [])
    end.

(** `get_or_insert` dense_tree.rs:178-184; [dflt] is what `T::default()` yields ([None]: it panics) *)
Definition dense_get_or_insert {V} (D : nat) (t : dense V) (index : N) (dflt : option V)
  : res (dense V * option nat * list V) :=
  let* index := index_from 1 D index in
  get_or_insert_impl D t index false dflt.
(** `insert` dense_tree.rs:186-189 *)
Definition dense_insert {V} (D : nat) (t : dense V) (index : N) (value : V)
  : res (dense V * list V) :=
  let* index := index_from 1 D index in
  let* (t, _, dropped) := get_or_insert_impl D t index true (Some value) in
  Ok (t, dropped).

(** `get_branch` dense_tree.rs:195-212; [k] levels to go, [n] the loop counter *)
Fixpoint get_branch_loop (h : heap) (k n : nat) (level_indices : list N) (node_ptr : ptr)
  : res (list ptr) :=
  match k with
  | O => Ok []
  | S k =>
    let* inner_index := get_c level_indices n in
    let* node_ptr := child_ptr h node_ptr inner_index in
    let* out := get_branch_loop h k (S n) level_indices node_ptr in
    Ok (node_ptr :: out)
  end.
(** `get_branch` dense_tree.rs:195-212, from the root *)
Definition get_branch {V} (D : nat) (t : dense V) (level_indices : list N) : res (list ptr) :=
  get_branch_loop (d_heap t) (D - 1) 0 level_indices (d_root t).
(** `get_terminal_node` dense_tree.rs:215-225 *)
Fixpoint get_terminal_loop (h : heap) (k n : nat) (indices : list N) (node_ptr : ptr) : res ptr :=
  match k with
  | O => Ok node_ptr
  | S k =>
    let* inner_index := get_u indices n in
    let* node_ptr := child_ptr h node_ptr inner_index in
    get_terminal_loop h k (S n) indices node_ptr
  end.
(** `get_terminal_node` dense_tree.rs:215-225, from the root *)
Definition get_terminal_node (D : nat) (root : ptr) (h : heap) (indices : list N) : res (ptr * N) :=
  let* node_ptr := get_terminal_loop h (D - 1) 0 indices root in
  let* terminal_inner_index := get_u indices (length indices - 1) in
  Ok (node_ptr, terminal_inner_index).

(** `Vec::swap_remove` (dense_tree.rs:228-285): panics out of bounds *)
Definition swap_remove {A} (l : list A) (i : nat) : res (list A * A) :=
  let* x := get_c l i in
  let* y := get_c l (length l - 1) in
  Ok (take (length l - 1) (<[i := y]> l), x).
(** `Vec::pop().unwrap_unchecked()` (dense_tree.rs:228-285) *)
Definition pop_u {A} (l : list A) : res (list A * A) :=
  let* y := get_u l (length l - 1) in Ok (take (length l - 1) l, y).

(** the climbing loop dense_tree.rs:245-262 *)
Definition remove_climb_body (root : ptr) (branch : list ptr) (indices : list N)
  : visitor heap unit := fun h n =>
  let* node := if decide (n = 0) then Ok root else get_c branch (n - 1) in   (* 246-250 *)
  let* i := get_c indices n in
  let* h := node_remove KPtr h node i in                                     (* 252 *)
  let* len := node_len h node in
  if decide (len <> 1) then Ok (h, Some ())                                  (* 253-255 *)
  else if decide (n <> 0) then
    let* h := drop_node KPtr h node in Ok (h, None)                          (* 257-259 *)
  else Ok (h, None).
(** `remove` dense_tree.rs:228-285 after the index check *)
Definition dense_remove_impl {V} (D : nat) (t : dense V) (index : N) : res (dense V * option V) :=
  let indices := level_indices 1 D index in                                  (* 233 *)
  let* branch := get_branch D t indices in                                   (* 234 *)
  let* terminal_node := get_u branch (length branch - 1) in                  (* 236 *)
  let* terminal_inner_index := get_u indices (length indices - 1) in         (* 237 *)
  let* data_index := child_idx (d_heap t) terminal_node terminal_inner_index in (* 239 *)
  let* key := get_u (d_keys t) (N.to_nat data_index) in
  if (key =? index)%N then                                                   (* 241 *)
    let* h := node_remove KIdx (d_heap t) terminal_node terminal_inner_index in (* 242 *)
    let* len := node_len h terminal_node in
    let* h :=
      if decide (len = 1) then                                               (* 245 *)
        let* h := drop_node KIdx h terminal_node in                          (* 246 *)
        let* (h, _) := const_loop_rev 0 (D - 1) (remove_climb_body (d_root t) branch indices) h in
        Ok h
      else Ok h in
    let* (keys, last_key) := pop_u (d_keys t) in                             (* 268 *)
    let* (keys, h) :=
      if decide (last_key <> index) then                                     (* 269 *)
        let* keys := set_u keys (N.to_nat data_index) last_key in            (* 270 *)
        let indices := level_indices 1 D last_key in                         (* 272 *)
        let* (node, inner_index) := get_terminal_node D (d_root t) h indices in (* 273 *)
        let* h := set_child KIdx h node inner_index (SIdx (data_index mod 2 ^ 32)) in (* 274 *)
        Ok (keys, h)
      else Ok (keys, h) in
    let* (data, value) := swap_remove (d_data t) (N.to_nat data_index) in    (* 279 *)
    let* value := match value with Some v => Ok v | None => UB end in
    Ok (Dense (d_root t) h data keys, Some value)
  else Ok (t, None).
(** `remove` dense_tree.rs:228-285 *)
Definition dense_remove {V} (D : nat) (t : dense V) (index : N) : res (dense V * option V) :=
  let* index := index_from 1 D index in                                      (* 229 *)
  dense_remove_impl D t index.

(** an initialised slice of values (dense_tree.rs:289-297) *)
Fixpoint all_init {V} (l : list (option V)) : res (list V) :=
  match l with
  | [] => Ok []
  | None :: _ => UB
  | Some v :: l => let* l := all_init l in Ok (v :: l)
  end.
(** `get_unchecked(1..)` (dense_tree.rs:289-297) *)
Definition from_1 {A} (l : list A) : res (list A) := if decide (1 <= length l) then Ok (drop 1 l) else UB.
(** `key_values` dense_tree.rs:289-297 and `key_values_mut` 301-309 (the returned slices) *)
Definition dense_key_values {V} (t : dense V) : res (list N * list V) :=
  let* keys := from_1 (d_keys t) in
  let* data := from_1 (d_data t) in
  let* data := all_init data in
  Ok (keys, data).
(** `drop_impl` dense_tree.rs:312-323: remaining heap and dropped values *)
Definition dense_drop {V} (D : nat) (t : dense V) : res (heap * list V) :=
  let* data := from_1 (d_data t) in
  let* dropped := all_init data in
  let* h := drop_node_with_childs (D - 1) (d_heap t) (d_root t) in
  Ok (h, dropped).

(** `HibitTree::data` dense_tree.rs:365-378 *)
Definition dense_data {V} (D : nat) (t : dense V) (index : N) (level_indices : list N) : res (option V) :=
  let* (node, inner_index) := get_terminal_node D (d_root t) (d_heap t) level_indices in
  let* data_index := child_idx (d_heap t) node inner_index in
  let* key := get_u (d_keys t) (N.to_nat data_index) in
  if (key =? index)%N then
    let* v := data_get (d_data t) (N.to_nat data_index) in Ok (Some v)
  else Ok None.
(** `unwrap_unchecked` (dense_tree.rs:381-385) *)
Definition unwrap_unc {A} (o : option A) : res A := match o with Some a => Ok a | None => UB end.
(** `data_unchecked` dense_tree.rs:380-385 *)
Definition dense_data_unchecked {V} (D : nat) (t : dense V) (index : N) (level_indices : list N) : res V :=
  let* o := dense_data D t index level_indices in unwrap_unc o.

(** ** Cursor 388-521: `level_nodes : [Option<NodePtr>; DEPTH-1]` *)
Notation dcursor := (list (option ptr)).
(** `new` dense_tree.rs:416-421 *)
Definition dcur_new (D : nat) : dcursor := replicate (D - 1) None.
(** `prev_node` dense_tree.rs:437-442, 468-473 *)
Definition dcur_prev {V} (t : dense V) (c : dcursor) (n : nat) : res ptr :=
  if decide (n = 1) then Ok (d_root t)
  else let* o := get_u c (n - 2) in unwrap_unc o.
(** `select_level_node` dense_tree.rs:424-452 *)
Definition dcur_select {V} (D : nat) (t : dense V) (c : dcursor) (n : nat) (level_index : N)
  : res (dcursor * mask) :=
  if decide (n = 0) then let* m := node_mask (d_heap t) (d_root t) in Ok (c, [m])
  else
    let* prev_node := dcur_prev t c n in
    let* has := node_contains (d_heap t) prev_node level_index in
    let* node := child_ptr (d_heap t) prev_node level_index in
    let* e := empty_node n D in
    let node := if has : bool then node else e in
    let* c := set_u c (n - 1) (Some node) in
    let* m := node_mask (d_heap t) node in
    Ok (c, [m]).
(** `select_level_node_unchecked` dense_tree.rs:455-480 *)
Definition dcur_select_u {V} (D : nat) (t : dense V) (c : dcursor) (n : nat) (level_index : N)
  : res (dcursor * mask) :=
  if decide (n = 0) then let* m := node_mask (d_heap t) (d_root t) in Ok (c, [m])
  else
    let* prev_node := dcur_prev t c n in
    let* node := child_ptr (d_heap t) prev_node level_index in
    let* c := set_u c (n - 1) (Some node) in
    let* m := node_mask (d_heap t) node in
    Ok (c, [m]).
(** the terminal node of the cursor, dense_tree.rs:488-493, 511-516 *)
Definition dcur_node {V} (D : nat) (t : dense V) (c : dcursor) : res ptr :=
  if decide (D = 1) then Ok (d_root t)
  else let* o := get_u c (length c - 1) in unwrap_unc o.
(** `Cursor::data` dense_tree.rs:485-505 *)
Definition dcur_data {V} (D : nat) (t : dense V) (c : dcursor) (level_index : N) : res (option V) :=
  let* node := dcur_node D t c in
  let* has := node_contains (d_heap t) node level_index in
  if has : bool then
    let* data_index := child_idx (d_heap t) node level_index in
    let* v := data_get (d_data t) (N.to_nat data_index) in
    Ok (Some v)
  else Ok None.
(** `Cursor::data_unchecked` dense_tree.rs:508-520 *)
Definition dcur_data_u {V} (D : nat) (t : dense V) (c : dcursor) (level_index : N) : res V :=
  let* node := dcur_node D t c in
  let* data_index := child_idx (d_heap t) node level_index in
  data_get (d_data t) (N.to_nat data_index).

(** `impl HibitTree for DenseTree` dense_tree.rs:354-387: EXACT_HIERARCHY = true (358) *)
Definition dense_tree (V : Type) (D : nat) : tree := Tree 1 D true (dense V) dcursor V
  (dense_data D) (dense_data_unchecked D) (fun _ => Ok (dcur_new D))
  (dcur_select D) (dcur_select_u D) (dcur_data D) (dcur_data_u D).
