(** * Specification of a level block: a finite map from index to a non-zero value

    What the HiBlock trait (level_block/mod.rs:13-68) asks of get_or_zero, get_or_insert, insert, remove_unchecked
    and set_unchecked, independent of any representation. *)
From Verif Require Import Base SmallBlock.

(** the effect of one call on the map, and what it returns *)
Definition hb_step (m : gmap N N) (c : bcall) : gmap N N * bout :=
  match c with
  | BGet i => (m, BVal (default 0%N (m !! i)))
  | BGetOrInsert i f =>
    match m !! i, f with
    | Some x, _ => (m, BIns x false)
    | None, Some x => (<[i := x]> m, BIns x true)
    | None, None => (m, BPanicked)
    end
  | BInsert i x => (<[i := x]> m, BDone)
  | BRemove i => (delete i m, BDone)
  | BSet i x => (<[i := x]> m, BDone)
  end.
(** the trait's safety requirements: the index lies in the block, the index type's zero stands for "no item", remove
    and set need a present index *)
Definition hb_legal (size : N) (m : gmap N N) (c : bcall) : Prop :=
  match c with
  | BGet i => (i < size)%N
  | BGetOrInsert i f => (i < size)%N /\ f <> Some 0%N
  | BInsert i x => (i < size)%N /\ x <> 0%N
  | BRemove i => is_Some (m !! i)
  | BSet i x => is_Some (m !! i) /\ x <> 0%N
  end.
Fixpoint hb_run (m : gmap N N) (cs : list bcall) : gmap N N * list bout :=
  match cs with
  | [] => (m, [])
  | c :: cs => let '(m, o) := hb_step m c in let '(m, os) := hb_run m cs in (m, o :: os)
  end.
(** every call of the history meets its requirements when its turn comes; [extra] is any further condition *)
Fixpoint hb_legal_run (extra : gmap N N -> bcall -> Prop) (size : N) (m : gmap N N) (cs : list bcall) : Prop :=
  match cs with
  | [] => True
  | c :: cs => hb_legal size m c /\ extra m c /\ hb_legal_run extra size (fst (hb_step m c)) cs
  end.
Definition no_extra (m : gmap N N) (c : bcall) : Prop := True.
(** the closure of get_or_insert does not panic *)
Definition no_panic (m : gmap N N) (c : bcall) : Prop := match c with BGetOrInsert i None => is_Some (m !! i) | _ => True end.

(** ** SmallBlock exactly: what the code really does.  It starts with room for [cap] values and moves to an array
    of full size, for good, when one more is inserted; [insert] is not implemented; removing an index that is not in the
    last 64-bit word of the mask, from a completely filled small array, copies one value from behind the array *)
Definition remove_fits (nw cap : nat) (m : gmap N N) (moved : bool) (i : N) : bool :=
  moved || bool_decide (i / 64 = N.of_nat nw - 1)%N || bool_decide (size m < cap).
Definition sb_spec (nw cap : nat) (s : gmap N N * bool) (c : bcall) : res ((gmap N N * bool) * bout) :=
  let '(m, moved) := s in
  let '(m', o) := hb_step m c in
  match c with
  | BInsert _ _ => Panic
  | BRemove i => if remove_fits nw cap m moved i then Ok ((m', moved), o) else UB
  | _ => Ok ((m', moved || bool_decide (cap < size m')), o)
  end.
Fixpoint sb_spec_run (nw cap : nat) (s : gmap N N * bool) (cs : list bcall) : res ((gmap N N * bool) * list bout) :=
  match cs with
  | [] => Ok (s, [])
  | c :: cs => let* (s, o) := sb_spec nw cap s c in let* (s, os) := sb_spec_run nw cap s cs in Ok (s, o :: os)
  end.
(** both succeed with related results, or both fail in the same way *)
Definition res_rel {A B} (P : A -> B -> Prop) (x : res A) (y : res B) : Prop :=
  match x, y with Ok a, Ok b => P a b | UB, UB | Panic, Panic | OutOfFuel, OutOfFuel => True | _, _ => False end.

(** ** ClusterBlock: the sub-blocks (of 16 indices) in use, and the histories it handles.  Its get_or_insert always
    inserts: [cb_step] overwrites *)
Definition cb_groups (m : gmap N N) : gset N := set_map (fun i => i / 16)%N (dom m).
Definition cb_handles (m : gmap N N) (c : bcall) : Prop :=
  match c with
  | BGet _ => True
  | BGetOrInsert i (Some _) =>
    (is_Some (m !! i) \/ forall j, is_Some (m !! j) -> (j / 16 = i / 16)%N -> (j < i)%N) /\
    size (cb_groups m ∪ {[(i / 16)%N]}) <= 4
  | _ => False
  end.
Definition cb_step (m : gmap N N) (c : bcall) : gmap N N * bout :=
  match c with
  | BGetOrInsert i (Some x) => (<[i := x]> m, BIns x true)
  | _ => hb_step m c
  end.
Fixpoint cb_run (m : gmap N N) (cs : list bcall) : gmap N N * list bout :=
  match cs with
  | [] => (m, [])
  | c :: cs => let '(m, o) := cb_step m c in let '(m, os) := cb_run m cs in (m, o :: os)
  end.
Fixpoint cb_legal_run (size : N) (m : gmap N N) (cs : list bcall) : Prop :=
  match cs with
  | [] => True
  | c :: cs => hb_legal size m c /\ cb_handles m c /\ cb_legal_run size (fst (cb_step m c)) cs
  end.
