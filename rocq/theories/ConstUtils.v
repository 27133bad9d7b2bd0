(** * Model of src/const_utils: ConstInteger, ConstArray::split_last, CondType *)
From Verif Require Import Base LevelIndices.

(** ** const_int.rs.  `ConstUsize<n>` is [n]; the trait is implemented for 0..=9 and for usize::MAX
    ("ConstIntInvalid", 222), see `gen_const_seq!(0,1,2,3,4,5,6,7,8;9)` const_int.rs:208. *)
Definition const_int (n : N) : Prop := (n <= 9)%N \/ n = USIZE_MAX.
Definition Dec (n : N) : N := (* const_int.rs:157, 173, 188, 212 *)
  if (n =? USIZE_MAX)%N then USIZE_MAX else if (n =? 0)%N then USIZE_MAX else (n - 1)%N.
Definition SatDec (n : N) : N := (* const_int.rs:158, 174, 189, 213 *)
  if (n =? USIZE_MAX)%N then USIZE_MAX else if (n =? 0)%N then 0%N else (n - 1)%N.
Definition Inc (n : N) : N := (* const_int.rs:159, 175, 190, 214 *)
  if (n =? USIZE_MAX)%N then USIZE_MAX else if (n =? 9)%N then USIZE_MAX else (n + 1)%N.
(** `ConstUsize::<N>::default()` const_int.rs:119-127 *)
Definition const_default (n : N) : res N := if (n =? USIZE_MAX)%N then Panic else Ok n.
(** `sat_dec` const_int.rs:86-89 (its result type is `Self::Dec`), `dec` 92-95, `inc` 98-101; the value `n` itself is not used *)
Definition sat_dec (n : N) : res N := const_default (Dec n).
(** const_int.rs:92-95 *)
Definition dec (n : N) : res N := const_default (Dec n).
(** const_int.rs:98-101 *)
Definition inc (n : N) : res N := const_default (Inc n).

(** ** const_array.rs.  `[T; N]` is a list of length N. *)
(** `array::from_fn(f)` (src/utils/array.rs:29-34): `f(0)`, `f(1)`, .. *)
Fixpoint from_fn_at {A} (f : nat -> res A) (i n : nat) : res (list A) :=
  match n with
  | O => Ok []
  | S n => let* x := f i in let* l := from_fn_at f (S i) n in Ok (x :: l)
  end.
(** `split_last` const_array.rs:25-36: `DecArray` has the capacity `Dec`; `get_unchecked` and `last().unwrap()`.
    `ptr::read` moves the element out; `this` is never dropped *)
Definition split_last {A} (this : list A) : res (list A * A) :=
  let* lft := from_fn_at (fun i => get_u this i) 0 (N.to_nat (Dec (N.of_nat (length this)))) in
  let* rgt := match List.last (Some <$> this) None with Some x => Ok x | None => Panic end in
  Ok (lft, rgt).

(** ** cond_type.rs.  The memory of a `CondType<B, T, F>` holds a [T] or an [F] (const_bool.rs:24-39);
    reading it as the other type is undefined behaviour. *)
Inductive cond_mem (T F : Type) := MemT (v : T) | MemF (v : F).
Arguments MemT {T F}. Arguments MemF {T F}.
(** `ConstBool::Conditional` const_bool.rs:24-39 *)
Inductive either (T F : Type) := ETrue (v : T) | EFalse (v : F).
Arguments ETrue {T F}. Arguments EFalse {T F}.
(** `CondType::new` cond_type.rs:63-79; the functions run in a state and may panic ([None]) *)
Definition cond_new {St T F} (B : bool) (true_fn : St -> option T * St) (false_fn : St -> option F * St) (st : St) : option (cond_mem T F) * St :=
  if B then let '(o, st) := true_fn st in (match o with Some v => Some (MemT v) | None => None end, st)
  else let '(o, st) := false_fn st in (match o with Some v => Some (MemF v) | None => None end, st).
(** `get` cond_type.rs:82-90, `get_mut` 93-101 *)
Definition cond_get {T F} (B : bool) (m : cond_mem T F) : res (either T F) :=
  if B then match m with MemT v => Ok (ETrue v) | MemF _ => UB end
  else match m with MemF v => Ok (EFalse v) | MemT _ => UB end.
(** writing through `get_mut` *)
Definition cond_set {T F} (B : bool) (m : cond_mem T F) (ft : T -> T) (ff : F -> F) : res (cond_mem T F) :=
  let* e := cond_get B m in Ok (match e with ETrue v => MemT (ft v) | EFalse v => MemF (ff v) end).
(** `Clone::clone` cond_type.rs:46-59: `new` with closures that match on `self.get()`; the other case is `unreachable_unchecked` *)
Definition cond_clone {T F} (B : bool) (m : cond_mem T F) : res (cond_mem T F) :=
  if B then let* e := cond_get B m in match e with ETrue v => Ok (MemT v) | EFalse _ => UB end
  else let* e := cond_get B m in match e with EFalse v => Ok (MemF v) | ETrue _ => UB end.
(** `From<T>` for `CondType<ConstTrue, ..>` cond_type.rs:17-22, `From<F>` for `ConstFalse` 24-29; `Default` 30-39 is `new` of the defaults *)
Definition cond_from {T F} (e : either T F) : bool * cond_mem T F := match e with ETrue v => (true, MemT v) | EFalse v => (false, MemF v) end.
