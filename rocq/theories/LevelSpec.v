(** * What a level is supposed to do: an allocator of blocks

    [al_used]: the blocks in use and their contents; [al_free]: the blocks given back, the last one
    first, with the contents they had; [al_next]: the index after the last one ever handed out. *)
From Verif Require Import Base BitUtils Levels.

Record alloc (B : Type) := Alloc { al_used : gmap N B; al_free : list (N * B); al_next : N }.
Arguments Alloc {B}. Arguments al_used {B}. Arguments al_free {B}. Arguments al_next {B}.
Definition al_init {B} : alloc B := Alloc ∅ [] 1.
Section spec.
Context {B : Type} (empty : B) (is_empty : B -> bool).
(** one call; None: not allowed.  Only an empty block that is in use may be given back; only a block in use
    may be written; also the block 0, which is never in use, may be read: it is the empty block. *)
Definition al_step (a : alloc B) (c : lcall B) : option (alloc B * lout B) :=
  match c with
  | LInsert =>
    match al_free a with
    | (i, b) :: free => Some (Alloc (<[i := b]> (al_used a)) free (al_next a), LIndex i)
    | [] => Some (Alloc (<[al_next a := empty]> (al_used a)) [] (al_next a + 1), LIndex (al_next a))
    end
  | LRemove i =>
    match al_used a !! i with
    | Some b => if is_empty b then Some (Alloc (delete i (al_used a)) ((i, b) :: al_free a) (al_next a), LDone) else None
    | None => None
    end
  | LGet i => if (i =? 0)%N then Some (a, LBlock empty) else match al_used a !! i with Some b => Some (a, LBlock b) | None => None end
  | LSet i b => match al_used a !! i with Some _ => Some (Alloc (<[i := b]> (al_used a)) (al_free a) (al_next a), LDone) | None => None end
  end.
Fixpoint al_run (a : alloc B) (cs : list (lcall B)) : option (alloc B * list (lout B)) :=
  match cs with
  | [] => Some (a, [])
  | c :: cs =>
    match al_step a c with
    | Some (a, x) => match al_run a cs with Some (a, xs) => Some (a, x :: xs) | None => None end
    | None => None
    end
  end.
(** the largest number of blocks in use at any time *)
Fixpoint al_peak (a : alloc B) (cs : list (lcall B)) : nat :=
  match cs with
  | [] => size (al_used a)
  | c :: cs => match al_step a c with Some (a', _) => size (al_used a) `max` al_peak a' cs | None => size (al_used a) end
  end.
End spec.
