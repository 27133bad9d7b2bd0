(** * Clients of bit queues: any interleaving of the queue operations *)
From Verif Require Import Base BitUtils BitUtilsProofs BitQueue BitQueueProofs.

(** ** Specification: a queue is the ascending list of the indices still in it *)
Inductive qop := QNext | QTrim (n : N).
(** what remains after the operation, and what `next` answered *)
Definition sq_step (l : list N) (o : qop) : list N * list (option N) :=
  match o with
  | QNext => (tail l, [head l])
  | QTrim n => (filter (fun i => (n <= i)%N) l, [])
  end.
Fixpoint sq_run (l : list N) (os : list qop) : list N * list (option N) :=
  match os with
  | [] => (l, [])
  | o :: os => let '(l, a) := sq_step l o in let '(l, b) := sq_run l os in (l, a ++ b)
  end.

(** ** Client of the modelled queues *)
Definition q_step (q : bitq) (o : qop) : res (bitq * list (option N)) :=
  match o with
  | QNext => let* (q, a) := bq_next q in Ok (q, [a])
  | QTrim n => let* q := bq_trim_to q n in Ok (q, [])
  end.
Fixpoint q_run (q : bitq) (os : list qop) : res (bitq * list (option N)) :=
  match os with
  | [] => Ok (q, [])
  | o :: os => let* (q, a) := q_step q o in let* (q, b) := q_run q os in Ok (q, a ++ b)
  end.
(** the three ways to create a queue for blocks of [nw] words, and the indices it holds *)
Inductive qinit := QNew (m : mask) | QEmpty | QFilled.
Definition q_make (nw : nat) (x : qinit) : bitq :=
  match x with QNew m => into_bits_iter m | QEmpty => bq_empty nw | QFilled => bq_filled nw end.
Definition q_holds (nw : nat) (x : qinit) : list N :=
  match x with QNew m => mbits m | QEmpty => [] | QFilled => seqN 0 (64 * nw) end.
Definition qinit_ok (nw : nat) (x : qinit) : Prop :=
  match x with QNew m => mask_ok nw m | _ => True end.

Lemma q_make_ok nw x : 0 < nw -> qinit_ok nw x -> bq_ok nw (q_make nw x) /\ bq_items (q_make nw x) = q_holds nw x.
Proof.
  intros Hn. destruct x as [m| |]; cbn [qinit_ok q_make q_holds]; intros Hx.
  - by apply into_bits_iter_ok.
  - by apply bq_empty_ok.
  - by apply bq_filled_ok.
Qed.
Lemma q_run_ok nw q os : bq_ok nw q -> exists q',
  q_run q os = Ok (q', snd (sq_run (bq_items q) os)) /\ bq_ok nw q' /\ bq_items q' = fst (sq_run (bq_items q) os).
Proof.
  revert q. induction os as [|o os IH]; intros q Hq; cbn [q_run sq_run].
  - eauto.
  - destruct o as [|n]; cbn [q_step sq_step].
    + destruct (bq_next_ok nw q Hq) as (q1 & o & -> & Hq1 & -> & Hi). rewrite !bind_ok.
      destruct (IH q1 Hq1) as (q2 & -> & Hq2 & Hi2). rewrite bind_ok, <- Hi.
      exists q2. destruct (sq_run (bq_items q1) os); done.
    + destruct (bq_trim_to_ok nw q n Hq) as (q1 & -> & Hq1 & Hi). rewrite !bind_ok.
      destruct (IH q1 Hq1) as (q2 & -> & Hq2 & Hi2). rewrite bind_ok, <- Hi.
      exists q2. destruct (sq_run (bq_items q1) os); done.
Qed.

(** `current` of the array queue is the next index, or the end of the active 64-bit word
    when that word is exhausted. *)
Lemma aq_current_weak n q : aq_ok n q -> exists c, aq_current q = Ok c /\
  (c <= 64 * N.of_nat n)%N /\ Forall (fun i => (c <= i)%N) (aq_items q) /\
  (head (aq_items q) = Some c \/ (c mod 64 = 0)%N).
Proof.
  intros Hq. destruct (aq_ok_0 n q Hq) as (w0 & H0 & Hw0). pose proof Hq as (Hl & Hw & Hi).
  destruct (decide (w0 = 0%N)) as [->|Hz].
  - unfold aq_current, get_c. rewrite H0, bind_ok. cbn [trailing_zeros]. eexists. split; [done|].
    split; [lia|]. split; [|right; lia]. apply Forall_forall. intros i.
    rewrite (aq_items_eq q _ H0), mbits_cons, wbits_0. cbn [app].
    rewrite elem_of_list_fmap. intros (j & -> & Hj). apply elem_of_list_fmap in Hj as (k & -> & _). lia.
  - destruct (aq_current_active n q Hq) as (c & Hc & Hh).
    { intros w E. rewrite H0 in E. by injection E as <-. }
    exists c. split; [done|]. pose proof (aq_items_sorted q) as Hs. destruct (aq_items q) as [|x l] eqn:E; [done|].
    cbn in Hh. injection Hh as ->. inversion_clear Hs as [|? ? _ Hf]. split; [|split; [|by left]].
    + assert (c ∈ aq_items q) as Hin by (rewrite E; left).
      rewrite (aq_items_eq q _ H0), elem_of_list_fmap in Hin. destruct Hin as (j & -> & Hj).
      apply elem_of_mbits, mbit_bound in Hj. cbn [length] in Hj. rewrite drop_length in Hj. lia.
    + constructor; [lia|]. eapply Forall_impl; [exact Hf|]. cbn. intros. lia.
Qed.

(** ** the statements used by the property file *)
Lemma queue_history nw x os : 0 < nw -> qinit_ok nw x ->
  exists q, q_run (q_make nw x) os = Ok (q, snd (sq_run (q_holds nw x) os)) /\
    (forall (St : Type) (f : St -> N -> St * bool) s,
       bq_traverse q f s = Ok (visit (fst (sq_run (q_holds nw x) os)) f s)) /\
    exists c, bq_current q = Ok c /\
      (nw = 1 -> c = default 64%N (head (fst (sq_run (q_holds nw x) os)))) /\
      (c <= 64 * N.of_nat nw)%N /\ Forall (fun i => (c <= i)%N) (fst (sq_run (q_holds nw x) os)) /\
      (head (fst (sq_run (q_holds nw x) os)) = Some c \/ (c mod 64 = 0)%N).
Proof.
  intros Hn Hx. destruct (q_make_ok nw x Hn Hx) as [Hq Hi].
  destruct (q_run_ok nw _ os Hq) as (q & Hr & Hqo & Hqi). rewrite Hi in *. exists q. split; [done|].
  rewrite <- Hqi. split; [intros St f s; by apply (bq_traverse_ok nw)|].
  destruct q as [w|q]; cbn [bq_ok bq_current] in *.
  - destruct Hqo as [-> Hw]. exists (pq_current w). rewrite pq_current_ok by done. split; [done|]. split; [done|].
    change (bq_items (PQ w)) with (wbits w). destruct (wbits w) as [|i l] eqn:E; cbn [head default].
    + cbn. split; [lia|]. split; [done|]. by right.
    + assert (i ∈ wbits w) as [Hb _]%elem_of_wbits by (rewrite E; left).
      cbn. split; [lia|]. split; [|by left]. pose proof (wbits_sorted w) as Hs. rewrite E in Hs.
      inversion_clear Hs as [|? ? _ Hf]. constructor; [lia|]. eapply Forall_impl; [exact Hf|]. cbn. intros. lia.
  - destruct (aq_current_weak nw q Hqo) as (c & Hc & H1 & H2 & H3). exists c. split; [done|]. split; [|done].
    intros ->. assert (aq_index q = 1 - 1) as Hix by (destruct Hqo as (_ & _ & ?); lia).
    pose proof (aq_current_last 1 q Hqo Hix) as Hc'. rewrite Hc in Hc'. injection Hc' as ->. done.
Qed.
Lemma queue_holds_sorted nw x i : qinit_ok nw x ->
  StronglySorted N.lt (q_holds nw x) /\
  (i ∈ q_holds nw x <-> match x with
     | QNew m => mbit m i = true | QEmpty => False | QFilled => (i < 64 * N.of_nat nw)%N end).
Proof.
  destruct x as [m| |]; cbn [q_holds]; intros _.
  - split; [apply mbits_sorted|apply elem_of_mbits].
  - split; [constructor|apply elem_of_nil].
  - split; [apply seqN_sorted|]. rewrite elem_of_seqN. lia.
Qed.
(** ArrayBitQueue::current is not always the next index (src/bit_queue.rs:268-271) *)
Lemma aq_current_wrong : exists m os q a c,
  mask_ok 2 m /\ q_run (into_bits_iter m) os = Ok (q, a) /\ bq_current q = Ok c /\
  snd (sq_run (mbits m) (os ++ [QNext])) = a ++ [None] /\ c <> 128%N.
Proof.
  exists [32; 0]%N, [QNext], (AQq (AQ [0; 0]%N 0)), [Some 5%N], 64%N.
  split; [split; [done|]; repeat constructor|]. split_and!; vm_compute; done.
Qed.
