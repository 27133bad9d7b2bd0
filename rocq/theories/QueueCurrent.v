(** * What `ArrayBitQueue::current` really answers

    `current` (src/bit_queue.rs:268-271) looks only at the word the queue is at.  Here is the
    exact answer, for every history of `next` and `trim_to`, in terms of the indices that remain
    and of that word. *)
From Verif Require Import Base BitUtils BitUtilsProofs BitQueue BitQueueProofs QueueClient GenQueue.

(** ** Specification *)
Section spec.
Context (W : N) (n : nat).
(** the word the queue of [n] words is at, after an operation on a queue that is at word [w] and
    still holds [l]: `next` goes to the word of the index it returns (to the last word when there
    is none), `trim_to` never goes back *)
Definition gw_step (w : nat) (l : list N) (o : gop) : nat :=
  match o with
  | GNext => match head l with Some i => N.to_nat (i / W) | None => n - 1 end
  | GTrim k => if decide (n <= N.to_nat (k / W)) then n - 1 else Nat.max w (N.to_nat (k / W))
  end.
Fixpoint gw_run (w : nat) (l : list N) (os : list gop) : nat :=
  match os with
  | [] => w
  | o :: os => gw_run (gw_step w l o) (fst (gs_step l o)) os
  end.
(** the first remaining index inside word [w], the end of the word if there is none *)
Definition gw_current (w : nat) (l : list N) : N :=
  default (W * (N.of_nat w + 1))%N (head (filter (fun i => N.to_nat (i / W) = w) l)).
End spec.
(** the word a fresh array queue is at *)
Definition gw_start (x : gmake) : nat := match x with MkArrEmpty n => n - 1 | _ => 0 end.

Section proofs.
Context (W : N).
Hypothesis HW : W = 8%N \/ W = 16%N \/ W = 32%N \/ W = 64%N.
Local Ltac wl := let E := fresh "EW" in destruct HW as [E|[E|[E|E]]]; rewrite ?E in *; lia.

Lemma aq_next_loop_index n fuel q q' o : aq_ok_w W n q -> n - aq_index q < fuel ->
  aq_next_loop_w W fuel q = Ok (q', o) ->
  aq_index q' = match o with Some i => N.to_nat (i / W) | None => n - 1 end.
Proof.
  revert q. induction fuel as [|fuel IH]; intros q Hq Hf; [lia|].
  destruct (aq_ok_0_w W HW n q Hq) as (w0 & H0 & Hw0). cbn [aq_next_loop_w].
  unfold get_c. rewrite H0, bind_ok. destruct Hq as (Hl & Hw & Hi).
  pose proof (one_bits_next_spec_w W HW w0 Hw0) as (Hn1 & Hn2 & Hn3).
  destruct (one_bits_next_w W w0) as [w0' [index|]]; cbn [fst snd] in *.
  - intros [= <- <-]. cbn [aq_index].
    assert (index ∈ wbits_w W w0) as Hin by (destruct (wbits_w W w0); [done|]; injection Hn2 as ->; left).
    apply (elem_of_wbits_w W HW) in Hin as [Hin _]. wl.
  - destruct (decide (aq_index q = length (aq_iters q) - 1)) as [He|He].
    + intros [= <- <-]. lia.
    + destruct (lookup_lt_is_Some_2 (aq_iters q) (S (aq_index q))) as [w1 H1]; [lia|].
      rewrite (get_u_ok _ _ _ H1), bind_ok. apply IH.
      * split_and!; cbn; [by rewrite insert_length| |lia]. apply Forall_insert; [done|].
        rewrite Forall_forall in Hw. apply Hw. by eapply elem_of_list_lookup_2.
      * cbn. lia.
Qed.
Lemma aq_trim_index n q q' k : aq_ok_w W n q -> aq_trim_to_w W q k = Ok q' ->
  aq_index q' = if decide (n <= N.to_nat (k / W)) then n - 1 else Nat.max (aq_index q) (N.to_nat (k / W)).
Proof.
  intros (Hl & Hw & Hi). unfold aq_trim_to_w. rewrite Hl.
  destruct (decide (n <= N.to_nat (k / W))) as [Hge|Hlt].
  { rewrite decide_True by lia. by intros [= <-]. }
  destruct (decide (N.to_nat (k / W) < aq_index q)) as [Hlt2|Hge2].
  { intros [= <-]. lia. }
  intros (q1 & H1 & (w0 & _ & [= <-])%bind_ok_inv)%bind_ok_inv. cbn [aq_index].
  destruct (decide (N.to_nat (k / W) <> aq_index q)) as [Hne|Heq].
  - apply bind_ok_inv in H1 as (w & _ & [= <-]). cbn. lia.
  - injection H1 as <-. lia.
Qed.
Lemma aq_current_exact n q : aq_ok_w W n q ->
  aq_current_w W q = Ok (gw_current W (aq_index q) (aq_items_w W q)).
Proof.
  intros Hq. destruct (aq_ok_0_w W HW n q Hq) as (w0 & H0 & Hw0). unfold aq_current_w, get_c.
  rewrite H0, bind_ok. f_equal. unfold gw_current. rewrite (aq_items_eq_w W q w0 H0), (mbits_cons_w W HW).
  rewrite fmap_app, filter_app.
  assert (forall l : list N, Forall (fun i => (i < W)%N) l ->
    filter (fun i => N.to_nat (i / W) = aq_index q) ((fun i => N.of_nat (aq_index q) * W + i)%N <$> l) =
    (fun i => N.of_nat (aq_index q) * W + i)%N <$> l) as Hkeep.
  { intros l. induction 1 as [|i l Hil Hfl IH]; [done|]. rewrite fmap_cons, filter_cons_True by wl. by f_equal. }
  assert (filter (fun i => N.to_nat (i / W) = aq_index q) ((fun i => N.of_nat (aq_index q) * W + i)%N <$>
     ((fun i => W + i)%N <$> mbits_w W (drop (S (aq_index q)) (aq_iters q)))) = []) as ->.
  { generalize (mbits_w W (drop (S (aq_index q)) (aq_iters q))). intros l. induction l as [|i l IH]; [done|].
    rewrite !fmap_cons, filter_cons_False by wl. done. }
  rewrite app_nil_r, Hkeep.
  - destruct (decide (w0 = 0%N)) as [->|Hz].
    + rewrite (wbits_0_w W HW). cbn. lia.
    + rewrite (wbits_step_w W HW w0) by done. done.
  - apply Forall_forall. intros i Hin. by apply (elem_of_wbits_w W HW) in Hin as [? _].
Qed.
Lemma aq_run_index n q os q' a : aq_ok_w W n q -> gq_run W (GArr q) os = Ok (GArr q', a) ->
  aq_index q' = gw_run W n (aq_index q) (aq_items_w W q) os.
Proof.
  revert q a. induction os as [|o os IH]; intros q a Hq; cbn [gq_run gw_run].
  - by intros [= -> _].
  - destruct o as [|k]; cbn [gq_step gs_step fst gw_step gq_next gq_trim].
    + destruct (aq_next_ok_w W HW n q Hq) as (q1 & o & Hn & Hq1 & Ho & Hi). rewrite Hn, !bind_ok.
      intros ([q2 a2] & H2 & [= -> _])%bind_ok_inv. apply IH in H2; [|done]. rewrite H2, <- Hi. f_equal.
      pose proof Hq as (Hl & _ & Hx). rewrite <- Ho.
      eapply (aq_next_loop_index n (S (length (aq_iters q))) q q1 o); [done|lia|exact Hn].
    + destruct (aq_trim_to_ok_w W HW n q k Hq) as (q1 & Ht & Hq1 & Hi). rewrite Ht, !bind_ok.
      intros ([q2 a2] & H2 & [= -> _])%bind_ok_inv. apply IH in H2; [|done]. rewrite H2, <- Hi. f_equal.
      by apply aq_trim_index.
Qed.
Lemma gq_current_exact x os : gmake_ok W x -> is_array x = true ->
  exists q a, gq_run W (gq_make W x) os = Ok (q, a) /\
    gq_current W q = Ok (gw_current W (gw_run W (arr_len x) (gw_start x) (gq_holds W x) os) (fst (gs_run (gq_holds W x) os))).
Proof.
  intros Hx Ha. destruct (gq_make_ok W HW x Hx) as [Hq Hi].
  destruct (gq_run_ok W HW _ _ os Hq) as (q & Hr & Hqo & Hqi). eexists q, _. split; [exact Hr|].
  pose proof (gq_run_kind W _ os _ _ Hr) as Hk.
  assert (exists q0, gq_make W x = GArr q0 /\ aq_index q0 = gw_start x) as (q0 & E0 & Ei).
  { destruct x; try done; eexists; (split; [reflexivity|done]). }
  rewrite E0 in *. destruct q as [|w|q]; try done. cbn [gq_current gq_ok gq_items] in *.
  rewrite (aq_current_exact (arr_len x)) by done. do 2 f_equal; [|by rewrite Hqi, Hi].
  rewrite (aq_run_index (arr_len x) q0 os q _ Hq Hr). rewrite Ei, Hi. done.
Qed.
End proofs.

(** ** The u64 queues of the trees (BitQueue.v) are the 64-bit instance *)
Definition gop_of (o : qop) : gop := match o with QNext => GNext | QTrim n => GTrim n end.
Definition bitq_of (q : gqueue) : option bitq :=
  match q with GEmptyQ => None | GPrim w => Some (PQ w) | GArr q => Some (AQq q) end.
Lemma sq_run_gs l os : sq_run l os = gs_run l (gop_of <$> os).
Proof.
  revert l. induction os as [|o os IH]; intros l; [done|]. destruct o; cbn; by rewrite IH.
Qed.
Lemma q_run_gq q os : q_run (AQq q) os =
  let* (q', a) := gq_run 64 (GArr q) (gop_of <$> os) in
  match q' with GArr q' => Ok (AQq q', a) | _ => UB end.
Proof.
  revert q. induction os as [|o os IH]; intros q; [done|].
  destruct o; cbn [q_run q_step fmap list_fmap gop_of gq_run gq_step bq_next bq_trim_to gq_next gq_trim].
  - change (aq_next_w 64 q) with (aq_next q). destruct (aq_next q) as [[q1 o]| | |]; try done.
    rewrite !bind_ok, IH. cbn [fmap list_fmap]. destruct (gq_run 64 (GArr q1) _) as [[[|w|q2] a]| | |]; done.
  - change (aq_trim_to_w 64 q n) with (aq_trim_to q n). destruct (aq_trim_to q n) as [q1| | |]; try done.
    rewrite !bind_ok, IH. cbn [fmap list_fmap]. destruct (gq_run 64 (GArr q1) _) as [[[|w|q2] a]| | |]; done.
Qed.
Definition qinit_gmake (nw : nat) (x : qinit) : gmake :=
  match x with QNew m => MkArr m | QEmpty => MkArrEmpty nw | QFilled => MkArrFilled nw end.
Lemma q_current_exact nw x os : 2 <= nw -> qinit_ok nw x ->
  exists q a, q_run (q_make nw x) os = Ok (q, a) /\
    bq_current q = Ok (gw_current 64
      (gw_run 64 nw (match x with QEmpty => nw - 1 | _ => 0 end) (q_holds nw x) (gop_of <$> os))
      (fst (sq_run (q_holds nw x) os))).
Proof.
  intros Hn Hx.
  assert (gmake_ok 64 (qinit_gmake nw x)) as Hg.
  { destruct x as [m| |]; cbn in *; [|lia|lia]. destruct Hx as [Hl Hm]. split; [lia|exact Hm]. }
  destruct (gq_current_exact 64 ltac:(auto) (qinit_gmake nw x) (gop_of <$> os) Hg) as (q & a & Hr & Hc).
  { by destruct x. }
  assert (exists q0, gq_make 64 (qinit_gmake nw x) = GArr q0 /\ q_make nw x = AQq q0) as (q0 & E1 & E2).
  { destruct x as [m| |]; cbn [qinit_gmake gq_make q_make bq_empty bq_filled].
    - destruct Hx as [Hl _]. destruct m as [|w [|w' m]]; cbn in Hl; [lia|lia|]. by eexists.
    - unfold bq_empty. rewrite decide_False by lia. by eexists.
    - unfold bq_filled. rewrite decide_False by lia. by eexists. }
  rewrite E1 in Hr. rewrite E2, q_run_gq, Hr, bind_ok. pose proof (gq_run_kind _ _ _ _ _ Hr) as Hk.
  destruct q as [|w|q]; try done. exists (AQq q), a. split; [done|]. cbn [bq_current].
  change (aq_current q) with (gq_current 64 (GArr q)). rewrite Hc, sq_run_gs.
  assert (gq_holds 64 (qinit_gmake nw x) = q_holds nw x) as ->.
  { destruct x as [m| |]; cbn [qinit_gmake gq_holds q_holds]; [|done|done]. reflexivity. }
  do 2 f_equal. destruct x as [m| |]; cbn [qinit_gmake arr_len gw_start]; [by destruct Hx as [-> _]|done|done].
Qed.
