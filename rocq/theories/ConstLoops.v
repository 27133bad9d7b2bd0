(** * Model of src/const_utils/const_int.rs (range loops) and const_loop.rs *)
From Verif Require Import Base.

(** A `ConstIntVisitor` (const_int.rs:9-12) is a state transformer; [Some o] is
    `ControlFlow::Break(o)`, [None] is `Continue`.  `ConstUsize<n>` is the natural [n]
    (the trait is implemented for 0..=9 only; the model is defined for every [n]). *)
Definition visitor (St Out : Type) := St -> nat -> res (St * option Out).

(** `iterate_as_range` const_int.rs:33-48; ConstUsize<0> overrides it to `Continue`
    (140-144). *)
Fixpoint iterate_as_range {St Out} (self from : nat) (visit : visitor St Out) (s : St)
  : res (St * option Out) :=
  match self with
  | O => Ok (s, None)
  | S dec =>
    let* (s, ctrl) := iterate_as_range dec from visit s in
    match ctrl with
    | None => if decide (self = from) then Ok (s, None) else visit s dec
    | Some o => Ok (s, Some o)
    end
  end.
(** `iterate_as_range_rev` const_int.rs:52-67; ConstUsize<0> overrides it (147-151). *)
Fixpoint iterate_as_range_rev {St Out} (self from : nat) (visit : visitor St Out) (s : St)
  : res (St * option Out) :=
  match self with
  | O => Ok (s, None)
  | S dec =>
    let* (s, ctrl) := visit s dec in
    match ctrl with
    | None => if decide (self = from) then Ok (s, None)
              else iterate_as_range_rev dec from visit s
    | Some o => Ok (s, Some o)
    end
  end.
(** `const_for` const_int.rs:16-20, `const_for_rev` 24-28 *)
Definition const_for {St Out} (from to : nat) (v : visitor St Out) (s : St) :=
  iterate_as_range to from v s.
(** const_int.rs:24-28 *)
Definition const_for_rev {St Out} (from to : nat) (v : visitor St Out) (s : St) :=
  iterate_as_range_rev to from v s.

(** macro `const_loop!` forward, const_loop.rs:7-16 and 33-41: unrolled over 0..8;
    `break` at [end], body skipped below [start]; `end < 9` and `start <= end` are
    compile-time assertions ([Panic] = does not compile). *)
Fixpoint const_loop_fwd {St Out} (is : list nat) (start end_ : nat) (body : visitor St Out) (s : St)
  : res (St * option Out) :=
  match is with
  | [] => Ok (s, None)
  | i :: is =>
    if decide (end_ = i) then Ok (s, None)
    else if decide (start <= i) then
      let* (s, ctrl) := body s i in
      match ctrl with Some o => Ok (s, Some o) | None => const_loop_fwd is start end_ body s end
    else const_loop_fwd is start end_ body s
  end.
(** `const_loop!` const_loop.rs:7-16 *)
Definition const_loop {St Out} (start end_ : nat) (body : visitor St Out) (s : St) :=
  if decide (start <= end_ /\ end_ < 9) then const_loop_fwd (seq 0 9) start end_ body s else Panic.
(** reverse form, const_loop.rs:19-27 and 47-55 *)
Fixpoint const_loop_rev_body {St Out} (is : list nat) (start end_ : nat) (body : visitor St Out) (s : St)
  : res (St * option Out) :=
  match is with
  | [] => Ok (s, None)
  | i :: is =>
    if decide (start <= i /\ i < end_) then
      let* (s, ctrl) := body s i in
      match ctrl with Some o => Ok (s, Some o) | None => const_loop_rev_body is start end_ body s end
    else const_loop_rev_body is start end_ body s
  end.
(** `const_loop!(.. rev)` const_loop.rs:19-27 *)
Definition const_loop_rev {St Out} (start end_ : nat) (body : visitor St Out) (s : St) :=
  if decide (start <= end_ /\ end_ < 9) then const_loop_rev_body (rev (seq 0 9)) start end_ body s else Panic.

(** ** Specification: visit the listed integers in order until Break *)
Fixpoint visit_list {St Out} (l : list nat) (v : visitor St Out) (s : St) : res (St * option Out) :=
  match l with
  | [] => Ok (s, None)
  | i :: l => let* (s, ctrl) := v s i in
              match ctrl with Some o => Ok (s, Some o) | None => visit_list l v s end
  end.

(** ** Facts *)
Lemma visit_list_app {St Out} l1 l2 (v : visitor St Out) s :
  visit_list (l1 ++ l2) v s =
  let* (s, ctrl) := visit_list l1 v s in
  match ctrl with Some o => Ok (s, Some o) | None => visit_list l2 v s end.
Proof.
  revert s. induction l1 as [|i l1 IH]; intros s; cbn [visit_list app]; [done|].
  destruct (v s i) as [[s1 [o|]]| | |]; cbn [rbind]; [done|apply IH|done..].
Qed.
(** what the forward loop visits for an arbitrary [from]: everything below [to] except
    [from - 1] *)
Lemma const_for_actual {St Out} from to (v : visitor St Out) s :
  const_for from to v s = visit_list (filter (fun i => S i <> from) (seq 0 to)) v s.
Proof.
  unfold const_for. revert s. induction to as [|to IH]; intros s; [done|].
  cbn [iterate_as_range]. rewrite IH. rewrite seq_S, filter_app, visit_list_app. cbn [Nat.add].
  destruct (visit_list _ v s) as [[s1 [o|]]| | |]; cbn [rbind]; try done.
  rewrite filter_cons, filter_nil. destruct (decide (S to = from)) as [He|He].
  - rewrite decide_False by lia. done.
  - rewrite decide_True by lia. cbn [visit_list]. destruct (v s1 to) as [[s2 [o|]]| | |]; done.
Qed.
Lemma const_for_0 {St Out} to (v : visitor St Out) s :
  const_for 0 to v s = visit_list (seq 0 to) v s.
Proof.
  rewrite const_for_actual. f_equal. induction (seq 0 to) as [|i l IH]; [done|].
  rewrite filter_cons, decide_True by lia. by rewrite IH.
Qed.
Lemma const_for_1 {St Out} to (v : visitor St Out) s : 1 <= to ->
  const_for 1 to v s = visit_list (seq 1 (to - 1)) v s.
Proof.
  intros Hto. rewrite const_for_actual. f_equal. destruct to as [|to]; [lia|]. cbn [seq].
  rewrite filter_cons, decide_False by lia. replace (S to - 1) with to by lia.
  assert (forall a n, 0 < a -> filter (fun i => S i <> 1) (seq a n) = seq a n) as H; [|apply H; lia].
  intros a n. revert a. induction n as [|n IH]; intros a Ha; [done|]. cbn [seq].
  rewrite filter_cons, decide_True by lia. by rewrite IH by lia.
Qed.
(** what the reverse loop visits: down to [from - 1] instead of [from] *)
Lemma const_for_rev_actual {St Out} from to (v : visitor St Out) s : from <= to ->
  const_for_rev from to v s = visit_list (rev (seq (from - 1) (to - (from - 1)))) v s.
Proof.
  unfold const_for_rev. revert s. induction to as [|to IH]; intros s Hle.
  - cbn. by replace (0 - (from - 1)) with 0 by lia.
  - cbn [iterate_as_range_rev]. destruct (decide (S to = from)) as [He|He].
    + replace (S to - (from - 1)) with 1 by lia. replace (from - 1) with to by lia. cbn.
      destruct (v s to) as [[s1 [o|]]| | |]; done.
    + replace (S to - (from - 1)) with (S (to - (from - 1))) by lia.
      rewrite seq_S, rev_app_distr. cbn [rev app visit_list].
      replace (from - 1 + (to - (from - 1))) with to by lia.
      destruct (v s to) as [[s1 [o|]]| | |]; cbn [rbind]; try done. apply IH. lia.
Qed.
Lemma const_for_rev_0 {St Out} to (v : visitor St Out) s :
  const_for_rev 0 to v s = visit_list (rev (seq 0 to)) v s.
Proof. rewrite const_for_rev_actual by lia. cbn. by replace (to - 0) with to by lia. Qed.

Lemma const_loop_fwd_ok {St Out} n a start end_ (body : visitor St Out) s :
  a <= end_ -> end_ <= a + n ->
  const_loop_fwd (seq a n) start end_ body s =
  visit_list (filter (fun i => start <= i) (seq a (end_ - a))) body s.
Proof.
  revert a s. induction n as [|n IH]; intros a s H1 H2; cbn [seq const_loop_fwd].
  - replace (end_ - a) with 0 by lia. done.
  - destruct (decide (end_ = a)) as [->|Hne]; [by replace (a - a) with 0 by lia|].
    replace (end_ - a) with (S (end_ - S a)) by lia. cbn [seq]. rewrite filter_cons.
    destruct (decide (start <= a)); [|apply IH; lia]. cbn [visit_list].
    destruct (body s a) as [[s1 [o|]]| | |]; cbn [rbind]; try done. apply IH; lia.
Qed.
Lemma filter_seq_ge start a n : filter (fun i => start <= i) (seq a n) = seq (a `max` start) (a + n - a `max` start).
Proof.
  revert a. induction n as [|n IH]; intros a; cbn [seq].
  - by replace (a + 0 - a `max` start) with 0 by lia.
  - rewrite filter_cons. rewrite IH. destruct (decide (start <= a)).
    + replace (a `max` start) with a by lia. replace (S a `max` start) with (S a) by lia.
      replace (a + S n - a) with (S n) by lia. cbn [seq]. do 2 f_equal. lia.
    + replace (S a `max` start) with (a `max` start) by lia. f_equal. lia.
Qed.
Lemma const_loop_ok {St Out} start end_ (body : visitor St Out) s :
  start <= end_ -> end_ < 9 ->
  const_loop start end_ body s = visit_list (seq start (end_ - start)) body s.
Proof.
  intros H1 H2. unfold const_loop. rewrite decide_True by done.
  rewrite const_loop_fwd_ok by lia. rewrite filter_seq_ge. do 2 f_equal; lia.
Qed.
Lemma const_loop_rev_body_ok {St Out} l start end_ (body : visitor St Out) s :
  const_loop_rev_body l start end_ body s =
  visit_list (filter (fun i => start <= i /\ i < end_) l) body s.
Proof.
  revert s. induction l as [|i l IH]; intros s; [done|]. cbn [const_loop_rev_body]. rewrite filter_cons.
  destruct (decide (start <= i /\ i < end_)); [|apply IH]. cbn [visit_list].
  destruct (body s i) as [[s1 [o|]]| | |]; cbn [rbind]; try done.
Qed.
Lemma const_loop_rev_ok {St Out} start end_ (body : visitor St Out) s :
  start <= end_ -> end_ < 9 ->
  const_loop_rev start end_ body s = visit_list (rev (seq start (end_ - start))) body s.
Proof.
  intros H1 H2. unfold const_loop_rev. rewrite decide_True by done.
  rewrite const_loop_rev_body_ok. f_equal.
  assert (forall l, filter (fun i => start <= i /\ i < end_) (rev l) = rev (filter (fun i => start <= i /\ i < end_) l)) as Hr.
  { induction l as [|i l IH]; [done|]. cbn [rev]. rewrite filter_app, IH, !filter_cons, filter_nil.
    destruct (decide (start <= i /\ i < end_)); cbn [rev]; [done|by rewrite app_nil_r]. }
  rewrite Hr. f_equal. clear Hr.
  replace 9 with (start + ((end_ - start) + (9 - end_))) by lia.
  rewrite !seq_app, !filter_app. cbn [Nat.add].
  assert (forall a n, a + n <= start -> filter (fun i => start <= i /\ i < end_) (seq a n) = []) as E1.
  { intros a n. revert a. induction n as [|n IH]; intros a Ha; [done|]. cbn [seq]. rewrite filter_cons, decide_False by lia. apply IH. lia. }
  assert (forall a n, end_ <= a -> filter (fun i => start <= i /\ i < end_) (seq a n) = []) as E2.
  { intros a n. revert a. induction n as [|n IH]; intros a Ha; [done|]. cbn [seq]. rewrite filter_cons, decide_False by lia. apply IH. lia. }
  assert (forall a n, start <= a -> a + n <= end_ -> filter (fun i => start <= i /\ i < end_) (seq a n) = seq a n) as E3.
  { intros a n. revert a. induction n as [|n IH]; intros a Ha Hb; [done|]. cbn [seq]. rewrite filter_cons, decide_True by lia. f_equal. apply IH; lia. }
  rewrite E1, E3, E2 by lia. by rewrite app_nil_r.
Qed.
