(** * Specification: a client with any number of maps

    A client creates maps, calls methods on them, builds lazy expressions over them, collects
    such expressions into new maps, and drops maps; the specification keeps one finite map per
    creation.  No memory here; of the trees only their types occur, as the types of lazy
    expressions. *)
From Verif Require Import Base Hierarchy Ops MultiUnionRef Dense Spec.

(** lazy expressions over the containers of element type [V]: container number [i] (of depth
    [D]), `map`, `union`, `intersection`, `multi_union` and `multi_intersection` of any number of
    expressions of one type, `multi_map_fold`; indexed by the Rust type of the expression *)
Inductive wexpr (V : Type) : tree -> Type :=
| WLeaf (i D : nat) : wexpr V (dense_tree V D)
| WMap t U (f : t_V t -> U) (e : wexpr V t) : wexpr V (t_map t f)
| WUnion t0 t1 (e0 : wexpr V t0) (e1 : wexpr V t1) : wexpr V (t_union t0 t1)
| WIntersection t0 t1 (e0 : wexpr V t0) (e1 : wexpr V t1) : wexpr V (t_intersection t0 t1)
| WMultiUnion t (es : list (wexpr V t)) : wexpr V (t_multi_union_ref t)
| WMultiIntersection t (es : list (wexpr V t)) : wexpr V (t_multi_intersection t)
| WFold t X A (items : t_V t -> list X) (init : A) (f : A -> X -> A) (e : wexpr V t) : wexpr V (t_multi_map_fold t items init f).
Arguments WMultiUnion {V t}. Arguments WMultiIntersection {V t}. Arguments WFold {V t X A}.
Arguments WLeaf {V}. Arguments WMap {V t U}. Arguments WUnion {V t0 t1}. Arguments WIntersection {V t0 t1}.

(** create a container of depth [D] (the next free number names it), call a method of container
    number [i], drop container number [i], create a container by
    `expression.map(f).materialize()` *)
Inductive wcall (V : Type) := WNew (D : nat) | WCall (i : nat) (c : call V) | WDrop (i : nat)
| WCollect (t : tree) (e : wexpr V t) (f : t_V t -> V).
Arguments WNew {V}. Arguments WCall {V}. Arguments WDrop {V}. Arguments WCollect {V t}.

Section spec.
Context {V : Type}.
(** the containers created so far: depth, whether elements may be inserted and removed, content;
    [None]: dropped *)
Notation maps := (list (option (nat * bool * gmap N V))).
(** a container of depth [D] accepts the keys below [64 ^ D] *)
Definition keys_of (D : nat) : N := (64 ^ N.of_nat D)%N.
Implicit Types s : maps.
(** what several maps answer together: the answers [h] makes of theirs, for every key of any of them *)
Definition together {A B} (h : list (option A) -> option B) (ms : list (gmap N A)) : gmap N B :=
  map_imap (fun k _ => h (map (lookup k) ms)) (⋃ ms).
(** the elements of an expression *)
Fixpoint wx_map {t} (e : wexpr V t) s : gmap N (t_V t) :=
  match e in wexpr _ t return gmap N (t_V t) with
  | WLeaf i D => match s !! i with Some (Some (_, _, m)) => m | _ => ∅ end
  | WMap f e => f <$> wx_map e s
  | WUnion e0 e1 => merge either (wx_map e0 s) (wx_map e1 s)
  | WIntersection e0 e1 => merge both (wx_map e0 s) (wx_map e1 s)
  | WMultiUnion es => together some_of (map (fun e => wx_map e s) es)
  | WMultiIntersection es => together all_of (map (fun e => wx_map e s) es)
  | WFold items init f e => (fun d => fold_left f (items d) init) <$> wx_map e s
  end.
(** may be an operand of `union` and `multi_union`: not a `multi_union` (finding C15) *)
Fixpoint wx_operand {t} (e : wexpr V t) : bool :=
  match e with
  | WLeaf _ _ | WUnion _ _ | WMultiIntersection _ => true
  | WMap _ e | WFold _ _ _ e => wx_operand e
  | WIntersection e0 e1 => wx_operand e0 && wx_operand e1
  | WMultiUnion _ => false
  end.
(** the expression compiles: its containers are alive and of the depth the type says, the
    operands of `union` and `intersection` have the same depth.  And it avoids what the library
    gets wrong: `multi_union` as an operand of a union (finding C15), `multi_union` at depth 1
    (finding C13), more than 32 operands (a panic), `multi_intersection` of nothing (C12).
    (The mask and depth condition of `multi_union` is met as soon as it has an operand.) *)
Fixpoint wx_ok {t} (e : wexpr V t) s : Prop :=
  match e with
  | WLeaf i D => exists b m, s !! i = Some (Some (D, b, m))
  | WMap f e => wx_ok e s
  | @WIntersection _ t0 t1 e0 e1 => t_depth t1 = t_depth t0 /\ wx_ok e0 s /\ wx_ok e1 s
  | @WUnion _ t0 t1 e0 e1 => t_depth t1 = t_depth t0 /\ (wx_operand e0 = true /\ wx_ok e0 s) /\ (wx_operand e1 = true /\ wx_ok e1 s)
  | @WMultiUnion _ t es => t_nw t = 1 /\ 2 <= t_depth t <= 9 /\ length es <= 32 /\ foldr (fun e P => (wx_operand e = true /\ wx_ok e s) /\ P) True es
  | WMultiIntersection es => es <> [] /\ length es <= 32 /\ foldr (fun e P => wx_ok e s /\ P) True es
  | WFold _ _ _ e => wx_ok e s
  end.
(** the expression declares EXACT_HIERARCHY, or has depth 1: what is collected from it is a
    DenseTree like any other; what is collected from another one may only be read, written through
    references and dropped (finding C18) *)
Definition collects_whole (t : tree) : bool := t_exact t || (t_depth t =? 1).
(** the containers after the step *)
Definition wspec_step s (c : wcall V) : maps :=
  match c with
  | WNew D => s ++ [Some (D, true, ∅)]
  | WCall i c => match s !! i with Some (Some (D, b, m)) => <[i := Some (D, b, spec_map (keys_of D) m c)]> s | _ => s end
  | WDrop i => <[i := None]> s
  | @WCollect _ t e f => s ++ [Some (t_depth t, collects_whole t, f <$> wx_map e s)]
  end.
(** what the client sees *)
Definition wspec_out s (c : wcall V) : out V :=
  match c with
  | WCall i c => match s !! i with Some (Some (D, _, m)) => spec_out (keys_of D) None m c | _ => ODone end
  | _ => ODone
  end.
(** the values dropped *)
Definition wspec_drop s (c : wcall V) : list V :=
  match c with
  | WCall i c => match s !! i with Some (Some (D, _, m)) => spec_drop (keys_of D) m c | _ => [] end
  | WDrop i => match s !! i with Some (Some (_, _, m)) => (map_to_list m).*2 | _ => [] end
  | _ => []
  end.
Fixpoint wspec_run s (cs : list (wcall V)) : maps := match cs with [] => s | c :: cs => wspec_run (wspec_step s c) cs end.
Fixpoint wspec_outs s (cs : list (wcall V)) : list (out V) :=
  match cs with [] => [] | c :: cs => wspec_out s c :: wspec_outs (wspec_step s c) cs end.
Fixpoint wspec_drops s (cs : list (wcall V)) : list V :=
  match cs with [] => [] | c :: cs => wspec_drop s c ++ wspec_drops (wspec_step s c) cs end.
(** the keys for which a value constructor panicked, in any of the containers *)
Definition wspec_panicked s (c : wcall V) : gset N :=
  match c with
  | WCall i c => match s !! i with Some (Some (D, _, m)) => spec_panicked (keys_of D) m c | _ => ∅ end
  | _ => ∅
  end.
Fixpoint wspec_all_panicked s (cs : list (wcall V)) : gset N :=
  match cs with [] => ∅ | c :: cs => wspec_panicked s c ∪ wspec_all_panicked (wspec_step s c) cs end.
(** some expression was collected that does not declare EXACT_HIERARCHY *)
Definition collects_part (c : wcall V) : Prop := match c with @WCollect _ t _ _ => collects_whole t = false | _ => False end.

(** [c] may insert or remove an element *)
Definition edits (c : call V) : Prop := match c with CInsert _ _ | CGetOrInsert _ _ _ | CRemove _ => True | _ => False end.
(** the programs considered: depths that exist, only live containers are used (what Rust's
    ownership enforces), only methods that DenseTree has, no removal at depth 1 (finding C36),
    fewer than 2^32 elements in a container (finding C39), nothing is inserted into or removed from
    what was collected from an expression without exact hierarchy, and no such expression is
    collected while it has no element (finding C18) *)
Definition wlegal_step s (c : wcall V) : Prop :=
  match c with
  | WNew D => 1 <= D <= 9
  | WCall i c => exists D b m, s !! i = Some (Some (D, b, m)) /\ dense_api c /\ (edits c -> b = true) /\ (is_remove c -> 2 <= D) /\
      (N.of_nat (size (spec_map (keys_of D) m c)) < 2 ^ 32)%N
  | WDrop i => exists x, s !! i = Some (Some x)
  | @WCollect _ t e f => wx_ok e s /\ (collects_whole t = false -> wx_map e s <> ∅) /\ (N.of_nat (size (wx_map e s)) < 2 ^ 32)%N
  end.
Fixpoint wlegal s (cs : list (wcall V)) : Prop :=
  match cs with [] => True | c :: cs => wlegal_step s c /\ wlegal (wspec_step s c) cs end.
End spec.
