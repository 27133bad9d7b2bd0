(** * Several DenseTrees in one memory, under an arbitrary allocator

    Dense.v gives every tree a heap of its own whose addresses are never reused and lets
    `realloc` always move.  Here any number of trees live in ONE memory and the allocator is
    arbitrary: it may hand out any address that is not in use, in particular one that was freed
    by another tree, and `realloc` may stay in place.  Only the functions that allocate are
    written again; every other function of Dense.v is used as it is, on the shared memory.

    The record [heap] of Dense.v is reused: [h_nodes] is the whole memory and [h_next] counts the
    allocator calls made so far. *)
From Verif Require Import Base BitUtils BitQueue LevelIndices ConstLoops Hierarchy Ops MultiUnionRef Dense Materialize Spec Client WorldSpec.

(** `std::alloc` (used at node.rs:195-199, 303-317): which address is handed out may depend on
    everything in memory and on time; all it owes is that the address is free.  For `realloc`
    the old block counts as free: answering its address is reallocation in place. *)
Record allocator := Allocator {
  al_addr : gmap N node -> N -> N;
  al_free : forall mem time, mem !! al_addr mem time = None;
}.

Section world.
Context (al : allocator).

(** `alloc` node.rs:195-199 *)
Definition walloc (h : heap) (n : node) : heap * ptr :=
  let a := al_addr al (h_nodes h) (h_next h) in
  (Heap (<[a := n]> (h_nodes h)) (N.succ (h_next h)), PHeap a).
(** `realloc` node.rs:303-317 with the layout for element type [k], new capacity [cap] *)
Definition wrealloc (h : heap) (p : ptr) (k : kind) (cap : nat) : res (heap * ptr) :=
  let* n := hread h p in
  let* h := hdealloc h p k in
  let slots := take cap (n_slots n ++ replicate (cap - length (n_slots n)) SUninit) in
  Ok (walloc h (Node k (n_mask n) (n_cap n) (n_len n) slots)).
(** `new` node.rs:192-208 *)
Definition wnode_new (k : kind) (h : heap) (cap : nat) (empty_child : slot) : res (heap * ptr) :=
  let* slots := set_u (replicate cap SUninit) 0 empty_child in
  Ok (walloc h (Node k 0 cap 1 slots)).
(** the reallocation block of `insert`, node.rs:303-317 *)
Definition wnode_reserve (k : kind) (h : heap) (p : ptr) : res (heap * ptr) :=
  let* n := hread h p in
  if decide (n_len n = n_cap n) then
    if u8_ok (n_cap n * 2) then
      let new_capacity := n_cap n * 2 in
      let* (h, p) := wrealloc h p k new_capacity in
      let* n := hread h p in
      let* h := hwrite h p (Node (n_kind n) (n_mask n) new_capacity (n_len n) (n_slots n)) in
      Ok (h, p)
    else Panic
  else Ok (h, p).
(** `insert` node.rs:298-335 *)
Definition wnode_insert (k : kind) (h : heap) (p : ptr) (index : N) (value : slot)
  : res (heap * nat * ptr) :=
  let* (h, p) := wnode_reserve k h p in
  let* n := hread h p in
  let* (mask, _) := set_bit_unchecked true (n_mask n) index in
  let* dense_index := get_dense_index mask index in
  if decide (n_kind n = k) then
    let* count := sub_u (n_len n) dense_index in
    let* slots := slots_copy (n_slots n) dense_index (dense_index + 1) count in
    let* slots := set_u slots dense_index value in
    if u8_ok (n_len n + 1) then
      let* h := hwrite h p (Node (n_kind n) mask (n_cap n) (n_len n + 1) slots) in
      Ok (h, dense_index, p)
    else Panic
  else UB.

(** `Default::default` dense_tree.rs:92-112, in the memory [h] *)
Definition wdense_default (V : Type) (D : nat) (h : heap) : res (dense V) :=
  let* (h, root) :=
    if decide (D = 1) then wnode_new KIdx h DEFAULT_CAP (SIdx 0)
    else
      let* e := empty_node 1 D in
      wnode_new KPtr h DEFAULT_CAP (SPtr e) in
  Ok (Dense root h [None] [USIZE_MAX]).
(** body of the loop dense_tree.rs:129-157 *)
Definition wgoi_body (D : nat) (indices : list N) : visitor (ptr * heap * loc) unit :=
  fun '(root, h, node) n =>
  let* inner_index := get_c indices n in
  let* node_ptr := loc_read root h node in
  let* has := node_contains h node_ptr inner_index in
  if has : bool then
    let* nd := hread h node_ptr in
    let* d := get_dense_index (n_mask nd) inner_index in
    let* _ := child_ptr h node_ptr inner_index in
    Ok ((root, h, LSlot node_ptr d), None)
  else
    let* (h, child) :=
      if decide (n = D - 2) then wnode_new KIdx h DEFAULT_CAP (SIdx 0)
      else let* e := empty_node (n + 2) D in
           wnode_new KPtr h DEFAULT_CAP (SPtr e) in
    let* (h, idx, new_node) := wnode_insert KPtr h node_ptr inner_index (SPtr child) in
    let* (root, h) := loc_write root h node new_node in
    Ok ((root, h, LSlot new_node idx), None).
(** `get_or_insert_impl` dense_tree.rs:119-176 *)
Definition wget_or_insert_impl {V} (D : nat) (t : dense V) (index : N) (insert : bool)
    (value_fn : option V) : res (dense V * option nat * list V) :=
  let indices := level_indices 1 D index in
  let* ((root, h, node), _) := const_loop 0 (D - 1) (wgoi_body D indices) (d_root t, d_heap t, LRoot) in
  let* node_ptr := loc_read root h node in
  let* inner_index := get_u indices (length indices - 1) in
  let* has := node_contains h node_ptr inner_index in
  if has : bool then
    let* data_index := child_idx h node_ptr inner_index in
    let data_index := N.to_nat data_index in
    if insert then
      match value_fn with
      | None => Ok (Dense root h (d_data t) (d_keys t), None, [])
      | Some v =>
        let* old := data_get (d_data t) data_index in
        let* data := set_u (d_data t) data_index (Some v) in
        Ok (Dense root h data (d_keys t), Some data_index, [old])
      end
    else
      let* _ := data_get (d_data t) data_index in
      Ok (Dense root h (d_data t) (d_keys t), Some data_index, [])
  else
    match value_fn with
    | None => Ok (Dense root h (d_data t) (d_keys t), None, [])
    | Some v =>
      let i := length (d_data t) in
      let data := d_data t ++ [Some v] in
      let keys := d_keys t ++ [index] in
      let* (h, _, new_node) :=
        wnode_insert KIdx h node_ptr inner_index (SIdx (N.of_nat i mod 2 ^ 32)) in
      let* (root, h) := loc_write root h node new_node in
      Ok (Dense root h data keys, Some i, [])
    end.
(** `get_or_insert` dense_tree.rs:178-184 *)
Definition wdense_get_or_insert {V} (D : nat) (t : dense V) (index : N) (dflt : option V)
  : res (dense V * option nat * list V) :=
  let* index := index_from 1 D index in
  wget_or_insert_impl D t index false dflt.
(** `insert` dense_tree.rs:186-189 *)
Definition wdense_insert {V} (D : nat) (t : dense V) (index : N) (value : V)
  : res (dense V * list V) :=
  let* index := index_from 1 D index in
  let* (t, _, dropped) := wget_or_insert_impl D t index true (Some value) in
  Ok (t, dropped).

(** one client call of a DenseTree method, as [dense_call] of Client.v *)
Definition wdense_call {V} (D : nat) (t : dense V) (c : call V) : res (dense V * out V * list V) :=
  match c with
  | CInsert k v =>
    match wdense_insert D t k v with
    | Ok (t, dr) => Ok (t, ODone, dr)
    | Panic => Ok (t, OPanic, [v])
    | UB => UB | OutOfFuel => OutOfFuel end
  | CGetOrInsert k dflt w =>
    match wdense_get_or_insert D t k dflt with
    | Ok (t, Some j, dr) => dense_use_ref t j w dr
    | Ok (t, None, dr) => Ok (t, OPanic, dr)
    | Panic => Ok (t, OPanic, [])
    | UB => UB | OutOfFuel => OutOfFuel end
  | _ => dense_call D t c
  end.

(** ** `materialize` into the shared memory (node.rs, from.rs)
    The source lives in the same memory, so it is given as a function of the memory: every call
    of it reads the memory of that moment, which already holds some nodes of the copy. *)
(** `raw_new` node.rs:239-252 *)
Definition wraw_new (k : kind) (h : heap) (cap : nat) (mask : N) : heap * ptr :=
  walloc h (Node k mask cap 0 (replicate cap SUninit)).
(** `from_parts` node.rs:211-237 *)
Definition wfrom_parts (k : kind) (h : heap) (mask : N) (childs : list slot) (empty_child : slot) : heap * ptr :=
  let len := length childs in
  let cap := len + 1 in
  walloc h (Node k mask cap len (childs ++ [empty_child])).

Section from.
Context (t : tree) (src : heap -> t_T t).
(** `make_terminal_node` from.rs:28-50 *)
Definition wmake_terminal_node (s : mst t) (mask : mask) (cap : nat) (key_acc : N) : res (mst t * ptr) :=
  let* w := get_u mask 0 in
  let '(h, raw) := wraw_new KIdx (m_heap s) cap w in
  let* s := traverse_m mask (fun s index =>
    let* data := t_cdata_u t (src (m_heap s)) (m_cur s) index in
    let key := (key_acc + index)%N in
    let '(s, data_index) := push_fn s key data in
    let* h := raw_push KIdx (m_heap s) raw (SIdx data_index) in
    Ok (with_heap s h)) (with_heap s h) in
  let* (h, p) := raw_finalize KIdx (m_heap s) raw (SIdx 0) in
  Ok (with_heap s h, p).
(** `from_exact_sparse_hierarchy` from.rs:53-94 *)
Fixpoint wfrom_exact (k n : nat) (index key_acc : N) (s : mst t) : res (mst t * ptr) :=
  if t_exact t then
    let* (c, mask) := t_select_u t (src (m_heap s)) (m_cur s) n index in
    let s := with_cur s c in
    let cap := mask_count_ones mask + 1 in
    match k with
    | O => wmake_terminal_node s mask cap key_acc
    | S k =>
      let* w := get_u mask 0 in
      let '(h, raw) := wraw_new KPtr (m_heap s) cap w in
      let* s := traverse_m mask (fun s index =>
        let key_acc := (key_acc + block_start (t_depth t) n index)%N in
        let* (s, child_node) := wfrom_exact k (S n) index key_acc s in
        let* h := raw_push KPtr (m_heap s) raw (SPtr child_node) in
        Ok (with_heap s h)) (with_heap s h) in
      let* empty_child := empty_node (S n) (t_depth t) in
      let* (h, p) := raw_finalize KPtr (m_heap s) raw (SPtr empty_child) in
      Ok (with_heap s h, p)
    end
  else Panic.
(** `from_sparse_hierarchy` from.rs:97-137 *)
Fixpoint wfrom_sparse (k n : nat) (index key_acc : N) (s : mst t) : res (mst t * option ptr) :=
  let* (c, mask) := t_select_u t (src (m_heap s)) (m_cur s) n index in
  let s := with_cur s c in
  match k with
  | O =>
    let cap := mask_count_ones mask + 1 in
    let* (s, p) := wmake_terminal_node s mask cap key_acc in
    Ok (s, Some p)
  | S k =>
    let* (s, node_mask, childs) := traverse_m mask (fun '(s, node_mask, childs) index =>
      let key_acc := (key_acc + block_start (t_depth t) n index)%N in
      let* (s, child_node) := wfrom_sparse k (S n) index key_acc s in
      match child_node with
      | Some child_node =>
        let* (node_mask, _) := mask_set_bit true node_mask index in
        if decide (length childs < 64) then
          Ok (s, node_mask, childs ++ [SPtr child_node])
        else UB
      | None => Ok (s, node_mask, childs)
      end) (s, mask_zero 1, []) in
    if decide (childs = []) then Ok (s, None)
    else
      let* empty_child := empty_node (S n) (t_depth t) in
      let* w := get_u node_mask 0 in
      let '(h, p) := wfrom_parts KPtr (m_heap s) w childs (SPtr empty_child) in
      Ok (with_heap s h, Some p)
  end.
(** `FromHibitTree::from_sparse_hierarchy` from.rs:152-178 *)
Definition wmaterialize (h : heap) : res (dense (t_V t)) :=
  let* c := t_new t (src h) in
  let s := Mst c h [None] [USIZE_MAX] in
  let* (s, root) :=
    if t_exact t then wfrom_exact (t_depth t - 1) 0 0 0 s
    else
      let* (s, o) := wfrom_sparse (t_depth t - 1) 0 0 0 s in
      let* p := unwrap_unc o in Ok (s, p) in
  Ok (Dense root (m_heap s) (m_data s) (m_keys s)).
End from.

(** ** A client with any number of trees (all of element type [V], each of its own depth) *)
(** the fields of a DenseTree (dense_tree.rs:74-91) without the memory they point into *)
Record whandle (V : Type) := WHandle { wh_depth : nat; wh_root : ptr; wh_data : list (option V); wh_keys : list N }.
Global Arguments WHandle {V}. Global Arguments wh_depth {V}. Global Arguments wh_root {V}. Global Arguments wh_data {V}. Global Arguments wh_keys {V}.
(** the tree behind a handle, seen in the memory [h] *)
Definition wtree {V} (h : heap) (t : whandle V) : dense V := Dense (wh_root t) h (wh_data t) (wh_keys t).
(** and back *)
Definition whandle_of {V} (D : nat) (t : dense V) : whandle V := WHandle D (d_root t) (d_data t) (d_keys t).

(** the memory and the trees created so far; a dropped tree leaves [None] *)
Record world (V : Type) := World { w_mem : heap; w_trees : list (option (whandle V)) }.
Global Arguments World {V}. Global Arguments w_mem {V}. Global Arguments w_trees {V}.

(** the tree number [i]; using a dropped or unborn tree does not compile in Rust *)
Definition wlookup {V} (w : world V) (i : nat) : res (whandle V) :=
  match w_trees w !! i with Some (Some t) => Ok t | _ => UB end.
(** a lazy expression: references to the trees it names, read in the memory of the moment.  The
    depth is part of the tree's type; another one does not compile in Rust. *)
Fixpoint wx_src {V t} (e : wexpr V t) (ts : list (option (whandle V))) : res (heap -> t_T t) :=
  match e in wexpr _ t return res (heap -> t_T t) with
  | WLeaf i D =>
    match ts !! i with
    | Some (Some t) => if decide (wh_depth t = D) then Ok (fun h => wtree h t) else UB
    | _ => UB
    end
  | WMap f e => wx_src e ts
  | WUnion e0 e1 | WIntersection e0 e1 =>
    let* s0 := wx_src e0 ts in let* s1 := wx_src e1 ts in Ok (fun h => (s0 h, s1 h))
  | @WMultiUnion _ t es | @WMultiIntersection _ t es =>
    let* ss := (fix all (es : list (wexpr V t)) : res (list (heap -> t_T t)) :=
      match es with
      | [] => Ok []
      | e :: es => let* s := wx_src e ts in let* ss := all es in Ok (s :: ss)
      end) es in
    Ok (fun h => map (fun s => s h) ss)
  | WFold _ _ _ e => wx_src e ts
  end.
(** the operands of `multi_union` and `multi_intersection` *)
Fixpoint wx_srcs {V t} (es : list (wexpr V t)) (ts : list (option (whandle V))) : res (list (heap -> t_T t)) :=
  match es with
  | [] => Ok []
  | e :: es => let* s := wx_src e ts in let* ss := wx_srcs es ts in Ok (s :: ss)
  end.
(** one step: the new world, what the client sees, the values dropped *)
Definition wstep {V} (w : world V) (c : wcall V) : res (world V * out V * list V) :=
  match c with
  | WNew D =>
    let* t := wdense_default V D (w_mem w) in
    Ok (World (d_heap t) (w_trees w ++ [Some (whandle_of D t)]), ODone, [])
  | WCall i c =>
    let* t := wlookup w i in
    let* (t', o, dr) := wdense_call (wh_depth t) (wtree (w_mem w) t) c in
    Ok (World (d_heap t') (<[i := Some (whandle_of (wh_depth t) t')]> (w_trees w)), o, dr)
  | WDrop i =>
    let* t := wlookup w i in
    let* (h, dr) := dense_drop (wh_depth t) (wtree (w_mem w) t) in
    Ok (World h (<[i := None]> (w_trees w)), ODone, dr)
  | @WCollect _ t e f =>
    let* src := wx_src e (w_trees w) in
    let* d := wmaterialize (t_map t f) src (w_mem w) in
    Ok (World (d_heap d) (w_trees w ++ [Some (whandle_of (t_depth t) d)]), ODone, [])
  end.
(** a program *)
Fixpoint wsteps {V} (w : world V) (cs : list (wcall V)) : res (world V * list (out V) * list V) :=
  match cs with
  | [] => Ok (w, [], [])
  | c :: cs =>
    let* (w, o, dr) := wstep w c in
    let* (w, os, drs) := wsteps w cs in
    Ok (w, o :: os, dr ++ drs)
  end.
End world.
