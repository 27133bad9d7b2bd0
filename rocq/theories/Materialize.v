(** * Model of src/dense_tree/from.rs: building a DenseTree from any HibitTree

    `materialize` (src/hibit_tree.rs:227-232) is a call of the `FromHibitTree` impl below.
    The source tree [t] has `LevelMask = u64` (one word) and `LevelCount = DEPTH`; its
    cursor data is the element type of the new tree.  The heap of the new tree starts
    empty: it only holds the nodes of this tree.  Not modelled: a panic of a user closure
    inside the source (e.g. of `map`) while the copy is running. *)
From Verif Require Import Base BitUtils BitQueue LevelIndices ConstLoops Hierarchy Dense.

(** `mask.traverse_bits(|index| { ..; Continue(()) })` (src/bit_block.rs:63-74) with a callback that
    may fail; a failure ends the traversal *)
Definition traverse_m {St} (m : mask) (f : St -> N -> res St) (s : St) : res St :=
  let* (r, _) := mask_traverse_bits m (fun r i =>
    let r' := rbind r (fun s => f s i) in
    (r', match r' with Ok _ => false | _ => true end)) (Ok s) in
  r.

(** ** node.rs: construction in place *)
(** `raw_new` node.rs:239-252 *)
Definition raw_new (k : kind) (h : heap) (cap : nat) (mask : N) : heap * ptr :=
  halloc h (Node k mask cap 0 (replicate cap SUninit)).
(** `raw_push_within_capacity` node.rs:260-273; the `index` argument is not used *)
Definition raw_push (k : kind) (h : heap) (p : ptr) (value : slot) : res heap :=
  let* n := hread h p in
  if decide (n_kind n = k) then
    let* slots := set_u (n_slots n) (n_len n) value in
    if u8_ok (n_len n + 1) then
      hwrite h p (Node (n_kind n) (n_mask n) (n_cap n) (n_len n + 1) slots)
    else Panic
  else UB.
(** `raw_finalize` node.rs:277-290 (with its debug_assert, 287) *)
Definition raw_finalize (k : kind) (h : heap) (p : ptr) (empty_child : slot) : res (heap * ptr) :=
  let* n := hread h p in
  if decide (n_kind n = k) then
    let* slots := set_u (n_slots n) (n_len n) empty_child in
    if u8_ok (n_len n + 1) then
      let* h := hwrite h p (Node (n_kind n) (n_mask n) (n_cap n) (n_len n + 1) slots) in
      if decide (n_len n + 1 <= n_cap n) then Ok (h, p) else Panic
    else Panic
  else UB.
(** `from_parts` node.rs:211-237.  `len` is written as the number of children without the
    default child (221), unlike `new`, `insert` and `raw_finalize`, which count it. *)
Definition from_parts (k : kind) (h : heap) (mask : N) (childs : list slot) (empty_child : slot) : heap * ptr :=
  let len := length childs in
  let cap := len + 1 in
  halloc h (Node k mask cap len (childs ++ [empty_child])).

(** ** from.rs *)
(** `block_start` from.rs:20-25 *)
Definition block_start (D n : nat) (index : N) : N := shl64 index (lsize 1 * N.of_nat (D - n - 1)).

(** what the recursion carries: the source cursor, the memory of the new tree, and the
    vectors captured by `push_fn` *)
Record mat_state (C V : Type) := Mst { m_cur : C; m_heap : heap; m_data : list (option V); m_keys : list N }.
Arguments Mst {C V}. Arguments m_cur {C V}. Arguments m_heap {C V}. Arguments m_data {C V}. Arguments m_keys {C V}.
Notation mst t := (mat_state (t_C t) (t_V t)).

Section from.
Context (t : tree) (src : t_T t).

(** record updates; model infrastructure, no counterpart in the crate *)
Definition with_cur (s : mst t) (c : t_C t) : mst t := Mst c (m_heap s) (m_data s) (m_keys s).
Definition with_heap (s : mst t) (h : heap) : mst t := Mst (m_cur s) h (m_data s) (m_keys s).

(** `push_fn` from.rs:159-164; `i as DataIndex` truncates to u32 *)
Definition push_fn (s : mst t) (key : N) (value : t_V t) : mst t * N :=
  let i := length (m_data s) in
  (Mst (m_cur s) (m_heap s) (m_data s ++ [Some value]) (m_keys s ++ [key]), (N.of_nat i mod 2 ^ 32)%N).

(** `make_terminal_node` from.rs:28-50 *)
Definition make_terminal_node (s : mst t) (mask : mask) (cap : nat) (key_acc : N) : res (mst t * ptr) :=
  let* w := get_u mask 0 in
  let '(h, raw) := raw_new KIdx (m_heap s) cap w in                          (* 40 *)
  let* s := traverse_m mask (fun s index =>                                  (* 41 *)
    let* data := t_cdata_u t src (m_cur s) index in                          (* 42 *)
    let key := (key_acc + index)%N in                                        (* 43 *)
    let '(s, data_index) := push_fn s key data in                            (* 44 *)
    let* h := raw_push KIdx (m_heap s) raw (SIdx data_index) in              (* 45 *)
    Ok (with_heap s h)) (with_heap s h) in
  let* (h, p) := raw_finalize KIdx (m_heap s) raw (SIdx 0) in                (* 49 *)
  Ok (with_heap s h, p).

(** `from_exact_sparse_hierarchy` from.rs:53-94; [k] = LevelCount - 1 - n *)
Fixpoint from_exact (k n : nat) (index key_acc : N) (s : mst t) : res (mst t * ptr) :=
  if t_exact t then                                                          (* 66 *)
    let* (c, mask) := t_select_u t src (m_cur s) n index in                  (* 68 *)
    let s := with_cur s c in
    let cap := mask_count_ones mask + 1 in                                   (* 69-70 *)
    match k with
    | O => make_terminal_node s mask cap key_acc                             (* 72-75 *)
    | S k =>
      let* w := get_u mask 0 in
      let '(h, raw) := raw_new KPtr (m_heap s) cap w in                      (* 77 *)
      let* s := traverse_m mask (fun s index =>                              (* 78 *)
        let key_acc := (key_acc + block_start (t_depth t) n index)%N in      (* 81 *)
        let* (s, child_node) := from_exact k (S n) index key_acc s in        (* 82-84 *)
        let* h := raw_push KPtr (m_heap s) raw (SPtr child_node) in          (* 87 *)
        Ok (with_heap s h)) (with_heap s h) in
      let* empty_child := empty_node (S n) (t_depth t) in                    (* 92 *)
      let* (h, p) := raw_finalize KPtr (m_heap s) raw (SPtr empty_child) in  (* 93 *)
      Ok (with_heap s h, p)
    end
  else Panic.

(** `from_sparse_hierarchy` from.rs:97-137.  The ArrayVec holds 64 entries; more would be
    out of bounds (`push_unchecked`). *)
Fixpoint from_sparse (k n : nat) (index key_acc : N) (s : mst t) : res (mst t * option ptr) :=
  let* (c, mask) := t_select_u t src (m_cur s) n index in                    (* 110 *)
  let s := with_cur s c in
  match k with
  | O =>
    let cap := mask_count_ones mask + 1 in                                   (* 114-115 *)
    let* (s, p) := make_terminal_node s mask cap key_acc in                  (* 116 *)
    Ok (s, Some p)
  | S k =>
    let* (s, node_mask, childs) := traverse_m mask (fun '(s, node_mask, childs) index =>  (* 119-129 *)
      let key_acc := (key_acc + block_start (t_depth t) n index)%N in        (* 123 *)
      let* (s, child_node) := from_sparse k (S n) index key_acc s in         (* 124 *)
      match child_node with
      | Some child_node =>
        let* (node_mask, _) := mask_set_bit true node_mask index in          (* 125 *)
        if decide (length childs < 64) then                                  (* 126 *)
          Ok (s, node_mask, childs ++ [SPtr child_node])
        else UB
      | None => Ok (s, node_mask, childs)
      end) (s, mask_zero 1, []) in
    if decide (childs = []) then Ok (s, None)                                (* 131-132 *)
    else
      let* empty_child := empty_node (S n) (t_depth t) in                    (* 134 *)
      let* w := get_u node_mask 0 in
      let '(h, p) := from_parts KPtr (m_heap s) w childs (SPtr empty_child) in  (* 135 *)
      Ok (with_heap s h, Some p)
  end.

(** `FromHibitTree::from_sparse_hierarchy` from.rs:152-178 *)
Definition materialize : res (dense (t_V t)) :=
  let* c := t_new t src in                                                   (* 153 *)
  let s := Mst c heap_empty [None] [USIZE_MAX] in                            (* 154-157 *)
  let* (s, root) :=
    if t_exact t then from_exact (t_depth t - 1) 0 0 0 s                     (* 167-170 *)
    else
      let* (s, o) := from_sparse (t_depth t - 1) 0 0 0 s in                  (* 172-174 *)
      let* p := unwrap_unc o in Ok (s, p) in
  Ok (Dense root (m_heap s) (m_data s) (m_keys s)).                          (* 177 *)
End from.
Arguments with_cur {t}. Arguments with_heap {t}. Arguments push_fn {t}.
