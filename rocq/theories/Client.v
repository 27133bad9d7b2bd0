(** * A client of the modelled containers: runs public calls and records what it sees

    The functions below only call model functions of Dense.v / Sparse.v (cited there) and
    do what the comment of [call] in Spec.v says.  A panic of a call is caught by the client
    (`catch_unwind`).  The model's [Panic] carries no state; the only panics the theorems
    allow are those of `Index::from` (src/hibit_tree.rs:74-78), which every method evaluates
    before touching `self`, so the client continues with the unchanged container. *)
From Verif Require Import Base LevelIndices Hierarchy Dense Sparse Spec.

Section dense.
Context {V : Type} (D : nat).
(** `*r = v` for the reference at position [j] of `data` *)
Definition dense_write_ref (t : dense V) (j : nat) (v : V) : res (dense V) :=
  let* data := set_u (d_data t) j (Some v) in Ok (Dense (d_root t) (d_heap t) data (d_keys t)).
(** assign through all references of `key_values_mut` (dense_tree.rs:301-309) *)
Definition dense_update_all (f : N -> V -> V) (t : dense V) : res (dense V * list V) :=
  let* (ks, vs) := dense_key_values t in
  Ok (Dense (d_root t) (d_heap t) (take 1 (d_data t) ++ (Some <$> zip_with f ks vs)) (d_keys t), vs).
(** read the reference, then perhaps assign through it *)
Definition dense_use_ref (t : dense V) (j : nat) (w : option V) (dr : list V) : res (dense V * out V * list V) :=
  let* v := data_get (d_data t) j in
  match w with
  | None => Ok (t, OVal (Some v), dr)
  | Some x => let* t := dense_write_ref t j x in Ok (t, OVal (Some v), dr ++ [v])
  end.
(** one client call of a DenseTree method (dense_tree.rs:114-325, src/hibit_tree.rs:170-231) *)
Definition dense_call (t : dense V) (c : call V) : res (dense V * out V * list V) :=
  match c with
  | CInsert k v =>
    match dense_insert D t k v with
    | Ok (t, dr) => Ok (t, ODone, dr)
    | Panic => Ok (t, OPanic, [v])       (* the argument is dropped by unwinding *)
    | UB => UB | OutOfFuel => OutOfFuel end
  | CGetOrInsert k dflt w =>
    match dense_get_or_insert D t k dflt with
    | Ok (t, Some j, dr) => dense_use_ref t j w dr
    | Ok (t, None, dr) => Ok (t, OPanic, dr)
    | Panic => Ok (t, OPanic, [])
    | UB => UB | OutOfFuel => OutOfFuel end
  | CRemove k =>
    match dense_remove D t k with
    | Ok (t, o) => Ok (t, OVal o, [])
    | Panic => Ok (t, OPanic, [])
    | UB => UB | OutOfFuel => OutOfFuel end
  | CGet k =>
    match tree_get (dense_tree V D) t k with
    | Ok o => Ok (t, OVal o, [])
    | Panic => Ok (t, OPanic, [])
    | UB => UB | OutOfFuel => OutOfFuel end
  | CUpdateAll f => let* (t, dr) := dense_update_all f t in Ok (t, ODone, dr)
  | CGetMut _ _ | CGetOrDefault _ => UB   (* not a method of DenseTree *)
  end.
(** a history of calls *)
Fixpoint dense_calls (t : dense V) (cs : list (call V)) : res (dense V * list (out V) * list V) :=
  match cs with
  | [] => Ok (t, [], [])
  | c :: cs =>
    let* (t, o, dr) := dense_call t c in
    let* (t, os, drs) := dense_calls t cs in
    Ok (t, o :: os, dr ++ drs)
  end.
(** `DenseTree::default()` followed by the calls *)
Definition dense_run (cs : list (call V)) : res (dense V * list (out V) * list V) :=
  let* t := dense_default V D in dense_calls t cs.
End dense.

Section sparse.
Context {V : Type} (nw D : nat).
(** `*r = v` for the reference at position [j] of `values` *)
Definition sparse_write_ref (t : sparse V) (j : N) (v : V) : res (sparse V) :=
  let* data := set_u (s_values t) (N.to_nat j) (Some v) in Ok (Sparse (s_levels t) data (s_keys t) (s_lbi t)).
(** assign through all references of `key_values_mut` (sparse_tree.rs:511-519) *)
Definition sparse_update_all (f : N -> V -> V) (t : sparse V) : res (sparse V * list V) :=
  let* (ks, vs) := sparse_key_values t in
  Ok (Sparse (s_levels t) (take 1 (s_values t) ++ (Some <$> zip_with f ks vs)) (s_keys t) (s_lbi t), vs).
(** read the reference, then perhaps assign through it *)
Definition sparse_use_ref (t : sparse V) (j : N) (w : option V) (dr : list V) : res (sparse V * out V * list V) :=
  let* v := data_get (s_values t) (N.to_nat j) in
  match w with
  | None => Ok (t, OVal (Some v), dr)
  | Some x => let* t := sparse_write_ref t j x in Ok (t, OVal (Some v), dr ++ [v])
  end.
(** one client call of a SparseTree method (sparse_tree.rs:274-552, src/hibit_tree.rs:170-231) *)
Definition sparse_call (t : sparse V) (c : call V) : res (sparse V * out V * list V) :=
  match c with
  | CInsert k v =>
    match sparse_insert nw D t k v with
    | Ok (t, dr) => Ok (t, ODone, dr)
    | Panic => Ok (t, OPanic, [v])
    | UB => UB | OutOfFuel => OutOfFuel end
  | CGetOrInsert k dflt w =>
    match sparse_get_or_insert nw D t k dflt with
    | Ok (t, Some j, dr) => sparse_use_ref t j w dr
    | Ok (t, None, dr) => Ok (t, OPanic, dr)
    | Panic => Ok (t, OPanic, [])
    | UB => UB | OutOfFuel => OutOfFuel end
  | CRemove k =>
    match sparse_remove nw D t k with
    | Ok (t, o) => Ok (t, OVal o, [])
    | Panic => Ok (t, OPanic, [])
    | UB => UB | OutOfFuel => OutOfFuel end
  | CGet k =>
    match tree_get (sparse_tree V nw D) t k with
    | Ok o => Ok (t, OVal o, [])
    | Panic => Ok (t, OPanic, [])
    | UB => UB | OutOfFuel => OutOfFuel end
  | CGetMut k w =>
    match sparse_get_mut nw D t k with
    | Ok (Some j) => sparse_use_ref t j w []
    | Ok None => Ok (t, OVal None, [])
    | Panic => Ok (t, OPanic, [])
    | UB => UB | OutOfFuel => OutOfFuel end
  | CGetOrDefault k =>
    match sparse_get_or_default nw D t k with
    | Ok v => Ok (t, OVal (Some v), [])
    | Panic => Ok (t, OPanic, [])
    | UB => UB | OutOfFuel => OutOfFuel end
  | CUpdateAll f => let* (t, dr) := sparse_update_all f t in Ok (t, ODone, dr)
  end.
(** a history of calls *)
Fixpoint sparse_calls (t : sparse V) (cs : list (call V)) : res (sparse V * list (out V) * list V) :=
  match cs with
  | [] => Ok (t, [], [])
  | c :: cs =>
    let* (t, o, dr) := sparse_call t c in
    let* (t, os, drs) := sparse_calls t cs in
    Ok (t, o :: os, dr ++ drs)
  end.
(** `SparseTree::<_, _, ReqDefault<req>>::default()` followed by the calls *)
Definition sparse_run (req : bool) (dflt : option V) (cs : list (call V)) : res (sparse V * list (out V) * list V) :=
  let* t := sparse_default V nw D req dflt in sparse_calls t cs.
End sparse.
