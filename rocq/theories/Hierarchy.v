(** * Model of the traits of src/hibit_tree.rs and of src/iter.rs

    A Rust type implementing `HibitTree` becomes a record [tree] whose functions take
    the source value explicitly, exactly as the Rust methods do.

    Simplification: the Rust associated types `Data`, `DataUnchecked` and
    `Cursor::Data` of one tree are modelled by one type [t_V].  For the regular trees
    they are equal in Rust too; for `multi_*` trees they are three different iterator
    structs over the same items, and an iterator is modelled by the list of items it
    yields when drained (errors of draining are raised when it is created). *)
From Verif Require Import Base BitUtils BitQueue LevelIndices ConstLoops.

(** trait HibitTree src/hibit_tree.rs:141-218, trait HibitTreeCursor 284-321 *)
Record tree := Tree {
  t_nw : nat;                     (* words of LevelMask *)
  t_depth : nat;                  (* LevelCount *)
  t_exact : bool;                 (* EXACT_HIERARCHY *)
  t_T : Type;                     (* Self *)
  t_C : Type;                     (* Cursor *)
  t_V : Type;                     (* Data, DataUnchecked, Cursor::Data *)
  t_data : t_T -> N -> list N -> res (option t_V);           (* data 166-167 *)
  t_data_u : t_T -> N -> list N -> res t_V;                  (* data_unchecked 180-181 *)
  t_new : t_T -> res t_C;                                    (* Cursor::new 290 *)
  t_select : t_T -> t_C -> nat -> N -> res (t_C * mask);     (* select_level_node 293-298 *)
  t_select_u : t_T -> t_C -> nat -> N -> res (t_C * mask);   (* select_level_node_unchecked 301-306 *)
  t_cdata : t_T -> t_C -> N -> res (option t_V);             (* Cursor::data 309-313 *)
  t_cdata_u : t_T -> t_C -> N -> res t_V;                    (* Cursor::data_unchecked 316-320 *)
}.

(** `HibitTree::get(usize)` src/hibit_tree.rs:190-196 *)
Definition tree_get (t : tree) (s : t_T t) (index : N) : res (option (t_V t)) :=
  let* index := index_from (t_nw t) (t_depth t) index in
  let indices := level_indices (t_nw t) (t_depth t) index in
  t_data t s index indices.
(** `HibitTree::get_unchecked` src/hibit_tree.rs:202-207 *)
Definition tree_get_unchecked (t : tree) (s : t_T t) (index : N) : res (t_V t) :=
  let indices := level_indices (t_nw t) (t_depth t) index in
  t_data_u t s index indices.

(** ** Iter, src/iter.rs:30-43 (the container reference is passed separately) *)
Record iter (C : Type) := Iter {           (* C: the Cursor *)
  it_iters : list bitq;           (* level_iters, length LevelCount *)
  it_indices : list N;            (* level_indices, length LevelCount - 1 *)
  it_cursor : C;
}.
Arguments Iter {C}. Arguments it_iters {C}. Arguments it_indices {C}. Arguments it_cursor {C}.

(** `Iter::new` src/iter.rs:50-73 *)
Definition iter_new (t : tree) (s : t_T t) : res (iter (t_C t)) :=
  let level_iters := replicate (t_depth t) (bq_empty (t_nw t)) in
  let* cursor := t_new t s in
  let* (cursor, root_mask) := t_select_u t s cursor 0 0%N in
  let level0_iter := into_bits_iter root_mask in
  if decide (0 < t_depth t) then
    Ok (Iter (<[0 := level0_iter]> level_iters) (replicate (t_depth t - 1) USIZE_MAX) cursor)
  else Panic.

(** visitor `V` of src/iter.rs:94-133 *)
Definition iter_visit (t : tree) (s : t_T t) : visitor (iter (t_C t)) unit := fun it i =>
  let* q := get_u (it_iters it) i in                          (* 99-103 *)
  let* (q, o) := bq_next q in                                 (* 104 *)
  let* iters := set_u (it_iters it) i q in
  match o with
  | Some index =>
    let* indices := set_u (it_indices it) i index in          (* 106-111 *)
    let* (cursor, level_mask) := t_select_u t s (it_cursor it) (S i) index in  (* 115-121 *)
    let* iters := set_u iters (S i) (into_bits_iter level_mask) in             (* 122-126 *)
    Ok (Iter iters indices cursor, Some ())
  | None => Ok (Iter iters (it_indices it) (it_cursor it), None)
  end.

(** the `loop` of src/iter.rs:87-140; result [None] is `return None` *)
Fixpoint iter_loop (fuel : nat) (t : tree) (s : t_T t) (it : iter (t_C t)) : res (iter (t_C t) * option N) :=
  match fuel with
  | O => OutOfFuel
  | S fuel =>
    let last := length (it_iters it) - 1 in
    let* q := get_c (it_iters it) last in                     (* 89: last_mut().unwrap() *)
    let* (q, o) := bq_next q in                               (* 90 *)
    let it := Iter (<[last := q]> (it_iters it)) (it_indices it) (it_cursor it) in
    match o with
    | Some index => Ok (it, Some index)                       (* 91 *)
    | None =>
      let* (it, ctrl) := const_for_rev 0 (t_depth t - 1) (iter_visit t s) it in  (* 93 *)
      match ctrl with
      | None => Ok (it, None)                                 (* 134-138 *)
      | Some _ => iter_loop fuel t s it
      end
    end
  end.

(** `Iter::next` src/iter.rs:86-147 *)
Definition iter_next (fuel : nat) (t : tree) (s : t_T t) (it : iter (t_C t))
  : res (iter (t_C t) * option (N * t_V t)) :=
  let* (it, o) := iter_loop fuel t s it in
  match o with
  | None => Ok (it, None)
  | Some level_index =>
    let* data_block := t_cdata_u t s (it_cursor it) level_index in             (* 142-144 *)
    let* block_index := data_block_index (t_nw t) (t_depth t) (it_indices it) level_index in (* 145 *)
    Ok (it, Some (block_index, data_block))
  end.

(** A client draining the iterator (`for` loop / `collect`): call `next` until it
    returns [None]. *)
Fixpoint iter_drain (fuel : nat) (t : tree) (s : t_T t) (it : iter (t_C t))
  : res (iter (t_C t) * list (N * t_V t)) :=
  match fuel with
  | O => OutOfFuel
  | S fuel' =>
    let* (it, o) := iter_next fuel t s it in
    match o with
    | None => Ok (it, [])
    | Some x => let* (it, l) := iter_drain fuel' t s it in Ok (it, x :: l)
    end
  end.
(** `tree.iter().collect()` *)
Definition iter_collect (fuel : nat) (t : tree) (s : t_T t) : res (list (N * t_V t)) :=
  let* it := iter_new t s in
  let* (_, l) := iter_drain fuel t s it in
  Ok l.

(** A client calling `next` exactly [m] times (also past the end). *)
Fixpoint iter_poll (fuel m : nat) (t : tree) (s : t_T t) (it : iter (t_C t))
  : res (iter (t_C t) * list (option (N * t_V t))) :=
  match m with
  | O => Ok (it, [])
  | S m =>
    let* (it, o) := iter_next fuel t s it in
    let* (it, l) := iter_poll fuel m t s it in
    Ok (it, o :: l)
  end.
