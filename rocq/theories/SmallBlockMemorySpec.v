(** * Specification of a program with any number of level blocks: each variable holds its own finite map

    A clone is a copy, independent of its original; the second component tells whether the block has moved its values to the heap. *)
From Verif Require Import Base LevelIndices SmallBlock SmallBlockSpec SmallBlockMemory.

Notation blocks := (gmap N (gmap N N * bool)).
Definition ws_call (nw cap : nat) (s : blocks) (c : wcall) : res (blocks * bout) :=
  match c with
  | WNew id => Ok (<[id := (∅, false)]> s, BDone)
  | WCall id c => match s !! id with Some x => let* (x, o) := sb_spec nw cap x c in Ok (<[id := x]> s, o) | None => Panic end
  | WClone src dst => match s !! src with Some x => Ok (<[dst := x]> s, BDone) | None => Panic end
  | WDrop id => match s !! id with Some _ => Ok (delete id s, BDone) | None => Panic end
  end.
Fixpoint ws_run (nw cap : nat) (s : blocks) (cs : list wcall) : res (blocks * list bout) :=
  match cs with
  | [] => Ok (s, [])
  | c :: cs => let* (s, o) := ws_call nw cap s c in let* (s, os) := ws_run nw cap s cs in Ok (s, o :: os)
  end.
(** every method call meets the trait's requirements when its turn comes *)
Fixpoint ws_legal (nw cap : nat) (s : blocks) (cs : list wcall) : Prop :=
  match cs with
  | [] => True
  | c :: cs =>
    match c with WCall id c => forall x, s !! id = Some x -> hb_legal (msize nw) x.1 c | _ => True end /\
    forall s' o, ws_call nw cap s c = Ok (s', o) -> ws_legal nw cap s' cs
  end.
(** the variable [id] owns the allocation [p] *)
Definition holds (w : world) (id p : N) : Prop := exists m, w_blocks w !! id = Some (MBlock m (MBig p)).
