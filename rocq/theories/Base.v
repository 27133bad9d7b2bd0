(** * Base: outcome monad and small list helpers shared by the whole model.

    Nothing in this file models code of /repo; it fixes the conventions of
    DESIGN.md section 2. *)
From stdpp Require Export prelude list gmap numbers option fin_maps sorting.
From Coq Require Export ZifyBool ZifyNat ZifyN Lia.
Global Open Scope N_scope.
Global Open Scope nat_scope.
Ltac Zify.zify_post_hook ::= Z.div_mod_to_equations.
Global Arguments N.add : simpl never.
Global Arguments N.sub : simpl never.
Global Arguments N.mul : simpl never.
Global Arguments N.pow : simpl never.
Global Arguments N.div : simpl never.
Global Arguments N.modulo : simpl never.
Global Arguments N.testbit : simpl never.
Global Arguments N.of_nat : simpl never.
Global Arguments N.to_nat : simpl never.
Global Arguments N.land : simpl never.
Global Arguments N.lor : simpl never.
Global Arguments N.lxor : simpl never.
Global Arguments N.shiftl : simpl never.
Global Arguments N.shiftr : simpl never.
Global Arguments N.ones : simpl never.
Global Arguments N.eqb : simpl never.
Global Arguments N.ltb : simpl never.
Global Arguments N.leb : simpl never.
Global Unset Program Cases.

(** Outcome of a Rust call.
    - [Ok a]      normal return;
    - [Panic]     an unwinding panic (assert!, todo!, unwrap on None, overflow
                  check, bounds check);
    - [UB]        the precondition of an [unsafe] operation is violated (dangling
                  pointer, out-of-bounds [get_unchecked], uninitialised slot,
                  [unwrap_unchecked] on None, ...);
    - [OutOfFuel] model artefact: the loop bound given to the model was too small.
                  Every theorem excludes it. *)
Inductive res (A : Type) : Type :=
| Ok (a : A)
| Panic
| UB
| OutOfFuel.
Global Arguments Ok {A} a.
Global Arguments Panic {A}.
Global Arguments UB {A}.
Global Arguments OutOfFuel {A}.

(** sequencing of calls: the first one that does not return normally decides; model infrastructure, no counterpart in the crate *)
Definition rbind {A B} (m : res A) (f : A -> res B) : res B :=
  match m with Ok a => f a | Panic => Panic | UB => UB | OutOfFuel => OutOfFuel end.
Notation "'let*' x := m 'in' k" := (rbind m (fun x => k))
  (at level 200, x pattern, m at level 200, k at level 200, right associativity).

Lemma bind_ok {A B} (a : A) (f : A -> res B) : rbind (Ok a) f = f a.
Proof. reflexivity. Qed.
Lemma bind_panic {A B} (f : A -> res B) : rbind Panic f = Panic.
Proof. reflexivity. Qed.
Lemma bind_ub {A B} (f : A -> res B) : rbind UB f = UB.
Proof. reflexivity. Qed.
Lemma bind_ok_inv {A B} (m : res A) (f : A -> res B) b :
  rbind m f = Ok b -> exists a, m = Ok a /\ f a = Ok b.
Proof. destruct m as [a| | |]; cbn; intros H; try discriminate. eauto. Qed.

(** [slice.get_unchecked(i)] and raw pointer reads: out of bounds is UB. *)
Definition get_u {A} (l : list A) (i : nat) : res A :=
  match l !! i with Some a => Ok a | None => UB end.
(** [*slice.get_unchecked_mut(i) = a]. *)
Definition set_u {A} (l : list A) (i : nat) (a : A) : res (list A) :=
  if decide (i < length l) then Ok (<[i := a]> l) else UB.
(** checked indexing [slice[i]] *)
Definition get_c {A} (l : list A) (i : nat) : res A :=
  match l !! i with Some a => Ok a | None => Panic end.

Lemma get_u_ok {A} (l : list A) i a : l !! i = Some a -> get_u l i = Ok a.
Proof. unfold get_u. intros ->. reflexivity. Qed.
Lemma get_u_inv {A} (l : list A) i a : get_u l i = Ok a -> l !! i = Some a.
Proof. unfold get_u. destruct (l !! i); congruence. Qed.
Lemma set_u_ok {A} (l : list A) i a : i < length l -> set_u l i a = Ok (<[i := a]> l).
Proof. unfold set_u. intros H. rewrite decide_True by done. reflexivity. Qed.

(** Consecutive naturals as [N]. *)
Fixpoint seqN (a : N) (n : nat) : list N :=
  match n with O => [] | S n => a :: seqN (N.succ a) n end.
Lemma seqN_length a n : length (seqN a n) = n.
Proof. revert a. induction n as [|n IH]; intros a; cbn; [done|]. by rewrite IH. Qed.
Lemma elem_of_seqN a n i : i ∈ seqN a n <-> (a <= i < a + N.of_nat n)%N.
Proof.
  revert a. induction n as [|n IH]; intros a; cbn [seqN].
  - rewrite elem_of_nil. lia.
  - rewrite elem_of_cons, IH. lia.
Qed.
Lemma seqN_app a n m : seqN a (n + m) = seqN a n ++ seqN (a + N.of_nat n)%N m.
Proof.
  revert a. induction n as [|n IH]; intros a; cbn [seqN plus app].
  - f_equal. lia.
  - rewrite IH. do 3 f_equal. lia.
Qed.
Lemma seqN_sorted a n : StronglySorted N.lt (seqN a n).
Proof.
  revert a. induction n as [|n IH]; intros a; cbn [seqN]; constructor; [apply IH|].
  apply Forall_forall. intros i Hi%elem_of_seqN. lia.
Qed.

(** Two strictly sorted lists with the same elements are equal. *)
Lemma ssorted_ext (l1 l2 : list N) :
  StronglySorted N.lt l1 -> StronglySorted N.lt l2 ->
  (forall i, i ∈ l1 <-> i ∈ l2) -> l1 = l2.
Proof.
  revert l2. induction l1 as [|x l1 IH]; intros [|y l2] H1 H2 He.
  - done.
  - exfalso. specialize (He y). set_solver.
  - exfalso. specialize (He x). set_solver.
  - inversion_clear H1 as [|? ? Hs1 Hf1]. inversion_clear H2 as [|? ? Hs2 Hf2].
    rewrite Forall_forall in Hf1, Hf2.
    assert (x = y) as ->.
    { assert (x ∈ y :: l2) as Hx by (apply He; left).
      assert (y ∈ x :: l1) as Hy by (apply He; left).
      apply elem_of_cons in Hx as [->|Hx]; [done|].
      apply elem_of_cons in Hy as [->|Hy]; [done|].
      apply Hf2 in Hx. apply Hf1 in Hy. lia. }
    f_equal. apply IH; [done|done|]. intros i. split; intros Hi.
    + assert (i ∈ y :: l2) as Hj by (apply He; right; done).
      apply elem_of_cons in Hj as [->|?]; [|done]. apply Hf1 in Hi. lia.
    + assert (i ∈ y :: l1) as Hj by (apply He; right; done).
      apply elem_of_cons in Hj as [->|?]; [|done]. apply Hf2 in Hi. lia.
Qed.
Lemma ssorted_filter (P : N -> Prop) `{!forall x, Decision (P x)} l :
  StronglySorted N.lt l -> StronglySorted N.lt (filter P l).
Proof.
  induction 1 as [|x l Hs IH Hf]; [constructor|].
  rewrite filter_cons. destruct (decide (P x)); [|done].
  constructor; [done|]. rewrite Forall_forall in *. intros y Hy%elem_of_list_filter. naive_solver.
Qed.
Lemma ssorted_nodup l : StronglySorted N.lt l -> NoDup l.
Proof.
  induction 1 as [|x l Hs IH Hf]; constructor; [|done].
  rewrite Forall_forall in Hf. intros Hx%Hf. lia.
Qed.
Lemma ssorted_app l1 l2 :
  StronglySorted N.lt l1 -> StronglySorted N.lt l2 ->
  (forall i j, i ∈ l1 -> j ∈ l2 -> (i < j)%N) -> StronglySorted N.lt (l1 ++ l2).
Proof.
  induction 1 as [|x l Hs IH Hf]; intros H2 Hlt; cbn; [done|].
  constructor.
  - apply IH; [done|]. intros i j Hi Hj. apply Hlt; [by right|done].
  - rewrite Forall_forall in *. intros j [Hj|Hj]%elem_of_app; [by apply Hf|].
    apply Hlt; [by left|done].
Qed.
