(** * A client driving a cursor through a sequence of selections *)
From Verif Require Import Base BitUtils LevelIndices Hierarchy Spec.

(** run the selections; the result is the cursor and the mask returned by the last one *)
Fixpoint run_selects (t : tree) (s : t_T t) (c : t_C t) (m : option mask) (xs : list sel)
  : res (t_C t * option mask) :=
  match xs with
  | [] => Ok (c, m)
  | x :: xs =>
    let* (c, m) := (if sel_unchecked x then t_select_u t else t_select t) s c (sel_level x) (sel_index x) in
    run_selects t s c (Some m) xs
  end.

(** the map that `get` describes *)
Definition get_is (t : tree) (s : t_T t) (m : gmap N (t_V t)) : Prop :=
  forall k v, m !! k = Some v <-> tree_get t s k = Ok (Some v).
(** fewer than 2^32 elements (the data index of a DenseTree is a u32) *)
Definition few (t : tree) (s : t_T t) : Prop :=
  forall ks : list N, NoDup ks -> (forall k, k ∈ ks -> exists v, tree_get t s k = Ok (Some v)) -> (N.of_nat (length ks) < 2 ^ 32)%N.
