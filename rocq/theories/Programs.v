(** * The programs of the README and of /repo/examples, for any content

    Each definition is one of the example programs, with its literals made parameters.  `f32` is any
    type [F] with [zero], [add], [mul] (no laws are assumed here). *)
From Verif Require Import Base BitUtils LevelIndices Hierarchy Ops Dense Sparse Client.

(** `let mut t: DenseTree<V, 4> = Default::default(); t.insert(k, v); ...`
    examples/readme_sparse_vec_dot.rs:6-13, readme_multi_type_example.rs:7-15, readme_store_example.rs:9-20 *)
Fixpoint insert_all {V} (D : nat) (t : dense V) (l : list (N * V)) : res (dense V) :=
  match l with
  | [] => Ok t
  | (k, v) :: l => let* (t, _) := dense_insert D t k v in insert_all D t l
  end.
(** the whole construction, same lines *)
Definition build {V} (D : nat) (l : list (N * V)) : res (dense V) :=
  let* t := dense_default V D in insert_all D t l.

(** examples/readme_multi_type_example.rs:5-23; [format] is the closure of line 18 *)
Definition users {A B S} (D : nat) (format : A -> B -> S) (fuel : nat) (ages : list (N * A)) (names : list (N * B))
  : res (list (N * S)) :=
  let* a := build D ages in
  let* n := build D names in
  iter_collect fuel (t_map (t_intersection (dense_tree A D) (dense_tree B D)) (fun p => format p.1 p.2)) (a, n).

(** examples/readme_sparse_vec_dot.rs:3-19; `sum` adds from the left, starting with [zero] *)
Definition readme_dot {F} (zero : F) (add mul : F -> F -> F) (D fuel : nat) (l1 l2 : list (N * F)) : res F :=
  let* p := users D mul fuel l1 l2 in
  Ok (fold_left add p.*2 zero).

(** examples/readme_store_example.rs:26-41: the loop over `LendingIterator::next` with its `continue` and
    `break`; lines 32-35: `zip(goods_amount, min).find(|(amount, min)| min <= amount).is_some()` *)
Definition contains (amounts mins : list N) : bool :=
  match List.find (fun p => (snd p <=? fst p)%N) (zip amounts mins) with Some _ => true | None => false end.
Fixpoint store_loop (fuel : nat) (t : tree) (acc : t_V t -> bool) (s : t_T t) (it : iter (t_C t))
  : res (option (N * t_V t)) :=
  match fuel with
  | O => OutOfFuel
  | S fuel' =>
    let* (it, o) := iter_next fuel t s it in
    match o with
    | None => Ok None
    | Some (store_id, goods_amount) =>
      if acc goods_amount then Ok (Some (store_id, goods_amount)) else store_loop fuel' t acc s it
    end
  end.
(** examples/readme_store_example.rs:5-42 *)
Definition store (D fuel : nat) (goods : list (list (N * N))) (mins : list N) : res (option (N * list N)) :=
  let* ts := rmap (build D) goods in
  let t := t_multi_intersection (dense_tree N D) in
  let* it := iter_new t ts in
  store_loop fuel t (fun amounts => contains amounts mins) ts it.

(** ** examples/sparse_vector.rs *)
Section sparse_vector.
Context {F : Type} (zero : F) (add mul : F -> F -> F).
(** `DataBlock(f32x4)` sparse_vector.rs:7-8: four lanes; lane-wise operations of the `wide` crate *)
Notation lanes := (list F).
Definition lanes_zero : lanes := replicate 4 zero.
Definition lanes_op (f : F -> F -> F) (x y : lanes) : lanes := zip_with f x y.
(** `SparseVector::set` sparse_vector.rs:18-27.  The tree is `config::width_64::depth_2` with ReqDefault *)
Definition sv_set (t : sparse lanes) (index : N) (value : F) : res (sparse lanes) :=
  let block_index := (index / 4)%N in                                               (* 20 *)
  let in_block_index := (index mod 4)%N in                                          (* 21 *)
  let* (t, j, _) := sparse_get_or_insert 1 2 t block_index (Some lanes_zero) in     (* 23 *)
  match j with
  | None => Panic
  | Some j =>
    let* block := data_get (s_values t) (N.to_nat j) in
    let* block := set_u block (N.to_nat in_block_index) value in                    (* 25 *)
    sparse_write_ref t j block
  end.
(** sparse_vector.rs:49-60: the vector after the given `set`s *)
Fixpoint sv_sets (t : sparse lanes) (l : list (N * F)) : res (sparse lanes) :=
  match l with
  | [] => Ok t
  | (i, x) :: l => let* t := sv_set t i x in sv_sets t l
  end.
Definition sv_build (l : list (N * F)) : res (sparse lanes) :=
  let* t := sparse_default lanes 1 2 true (Some lanes_zero) in sv_sets t l.
(** `mul` sparse_vector.rs:31-36 and `dot` 38-46; [reduce_add] is that of f32x4 *)
Definition sv_dot (reduce_add : lanes -> F) (fuel : nat) (l1 l2 : list (N * F)) : res F :=
  let* v1 := sv_build l1 in
  let* v2 := sv_build l2 in
  let* p := iter_collect fuel
    (t_map (t_intersection (sparse_tree lanes 1 2) (sparse_tree lanes 1 2)) (fun p => lanes_op mul p.1 p.2)) (v1, v2) in
  Ok (reduce_add (fold_left (lanes_op add) p.*2 lanes_zero)).
End sparse_vector.
