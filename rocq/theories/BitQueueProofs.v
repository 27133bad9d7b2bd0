(** * Facts about bit_queue.rs *)
From Verif Require Import Base BitUtils BitUtilsProofs BitQueue.

Definition aq_ok (n : nat) (q : aq) : Prop :=
  length (aq_iters q) = n /\ Forall word_ok (aq_iters q) /\ aq_index q < n.

(** remaining indices, ascending *)
Definition aq_items (q : aq) : list N :=
  match aq_iters q !! 0 with
  | Some w0 => (fun i => N.of_nat (aq_index q) * 64 + i)%N <$> mbits (w0 :: drop (S (aq_index q)) (aq_iters q))
  | None => []
  end.
Definition bq_ok (n : nat) (q : bitq) : Prop :=
  match q with PQ w => n = 1 /\ word_ok w | AQq q => aq_ok n q end.
Definition bq_items (q : bitq) : list N :=
  match q with PQ w => wbits w | AQq q => aq_items q end.
Global Arguments aq_items : simpl never.
Global Arguments bq_items : simpl never.

Lemma saturating_shl_bit n i : N.testbit (saturating_shl WMAX n) i = ((i <? 64) && (n <=? i))%N.
Proof.
  unfold saturating_shl. destruct (N.leb_spec 64 n).
  - rewrite N.bits_0. destruct (N.ltb_spec i 64), (N.leb_spec n i); cbn; lia.
  - rewrite shl64_bit, wmax_bit by done. destruct (N.ltb_spec i 64), (N.leb_spec n i), (N.ltb_spec (i - n) 64); cbn; lia.
Qed.
Lemma pq_trim_to_ok w n : word_ok w -> word_ok (pq_trim_to w n).
Proof. apply word_ok_land_l. Qed.
Lemma pq_trim_to_items w n : word_ok w ->
  wbits (pq_trim_to w n) = filter (fun i => (n <= i)%N) (wbits w).
Proof.
  intros Hw. apply ssorted_ext; [apply wbits_sorted|apply ssorted_filter, wbits_sorted|].
  intros i. rewrite elem_of_list_filter, !elem_of_wbits. unfold pq_trim_to.
  rewrite N.land_spec, saturating_shl_bit.
  destruct (N.ltb_spec i 64), (N.leb_spec n i), (N.testbit w i); cbn; naive_solver lia.
Qed.
Lemma pq_current_ok w : word_ok w -> pq_current w = default 64%N (head (wbits w)).
Proof.
  intros Hw. unfold pq_current. destruct (decide (w = 0%N)) as [->|Hz]; [by rewrite wbits_0|].
  by rewrite wbits_step.
Qed.
Lemma wbits_max : wbits WMAX = seqN 0 64.
Proof.
  apply ssorted_ext; [apply wbits_sorted|apply seqN_sorted|].
  intros i. rewrite elem_of_wbits, elem_of_seqN, wmax_bit. destruct (N.ltb_spec i 64); naive_solver lia.
Qed.

(** ** arrays *)
Lemma aq_items_eq q w0 :
  aq_iters q !! 0 = Some w0 ->
  aq_items q = (fun i => N.of_nat (aq_index q) * 64 + i)%N <$> mbits (w0 :: drop (S (aq_index q)) (aq_iters q)).
Proof. intros H. unfold aq_items. by rewrite H. Qed.
Lemma aq_ok_0 n q : aq_ok n q -> exists w0, aq_iters q !! 0 = Some w0 /\ word_ok w0.
Proof.
  intros (Hl & Hw & Hi). destruct (lookup_lt_is_Some_2 (aq_iters q) 0) as [w0 H0]; [lia|].
  exists w0. split; [done|]. rewrite Forall_forall in Hw. apply Hw. by eapply elem_of_list_lookup_2.
Qed.
Lemma elem_of_aq_items n q i : aq_ok n q ->
  i ∈ aq_items q <-> exists w0, aq_iters q !! 0 = Some w0 /\
     (N.of_nat (aq_index q) * 64 <= i)%N /\
     mbit (w0 :: drop (S (aq_index q)) (aq_iters q)) (i - N.of_nat (aq_index q) * 64) = true.
Proof.
  intros Hq. destruct (aq_ok_0 n q Hq) as (w0 & H0 & Hw0). rewrite (aq_items_eq q w0 H0).
  rewrite elem_of_list_fmap. split.
  - intros (j & -> & Hj%elem_of_mbits). exists w0. split_and!; [done|lia|].
    by replace (N.of_nat (aq_index q) * 64 + j - N.of_nat (aq_index q) * 64)%N with j by lia.
  - intros (w & Hw & Hle & Hb). rewrite H0 in Hw. injection Hw as <-.
    exists (i - N.of_nat (aq_index q) * 64)%N. split; [lia|]. by apply elem_of_mbits.
Qed.
Lemma ssorted_fmap_add k l : StronglySorted N.lt l -> StronglySorted N.lt ((fun i => k + i)%N <$> l).
Proof.
  induction 1 as [|x l Hs IH Hf]; [constructor|]. cbn [fmap list_fmap]. constructor; [done|].
  rewrite Forall_fmap. eapply Forall_impl; [exact Hf|]. cbn. lia.
Qed.
Lemma aq_items_sorted q : StronglySorted N.lt (aq_items q).
Proof.
  unfold aq_items. destruct (aq_iters q !! 0); [|constructor]. apply ssorted_fmap_add, mbits_sorted.
Qed.
(** [aq_items] bit by bit: word [bbi] comes from slot 0, higher words from the array *)
Lemma aq_items_bit n q i : aq_ok n q ->
  i ∈ aq_items q <->
   exists w, N.testbit w (i mod 64) = true /\ aq_index q <= N.to_nat (i / 64) /\
     aq_iters q !! (if decide (N.to_nat (i / 64) = aq_index q) then 0 else N.to_nat (i / 64)) = Some w.
Proof.
  intros Hq. rewrite (elem_of_aq_items n) by done. split.
  - intros (w0 & H0 & Hle & Hb). rewrite mbit_cons in Hb.
    destruct (N.ltb_spec (i - N.of_nat (aq_index q) * 64) 64).
    + exists w0. rewrite decide_True by lia. split_and!; [|lia|done].
      by replace (i mod 64)%N with (i - N.of_nat (aq_index q) * 64)%N by lia.
    + unfold mbit in Hb. rewrite lookup_drop in Hb.
      replace (S (aq_index q) + N.to_nat ((i - N.of_nat (aq_index q) * 64 - 64) / 64)) with (N.to_nat (i / 64)) in Hb by lia.
      replace ((i - N.of_nat (aq_index q) * 64 - 64) mod 64)%N with (i mod 64)%N in Hb by lia.
      destruct (aq_iters q !! N.to_nat (i / 64)) as [w|] eqn:E; [|done].
      exists w. rewrite decide_False by lia. split_and!; [done|lia|done].
  - intros (w & Hb & Hle & Hl).
    destruct (aq_ok_0 n q Hq) as (w0 & H0 & Hw0). exists w0. split_and!; [done|lia|].
    rewrite mbit_cons. destruct (decide (N.to_nat (i / 64) = aq_index q)) as [He|He].
    + rewrite H0 in Hl. injection Hl as <-.
      destruct (N.ltb_spec (i - N.of_nat (aq_index q) * 64) 64); [|lia].
      by replace (i - N.of_nat (aq_index q) * 64)%N with (i mod 64)%N by lia.
    + destruct (N.ltb_spec (i - N.of_nat (aq_index q) * 64) 64); [lia|].
      unfold mbit. rewrite lookup_drop.
      replace (S (aq_index q) + N.to_nat ((i - N.of_nat (aq_index q) * 64 - 64) / 64)) with (N.to_nat (i / 64)) by lia.
      replace ((i - N.of_nat (aq_index q) * 64 - 64) mod 64)%N with (i mod 64)%N by lia.
      by rewrite Hl.
Qed.

Lemma aq_new_ok n m : mask_ok n m -> 0 < n -> aq_ok n (aq_new m).
Proof. intros [Hl Hm] Hn. split_and!; [done|done|cbn; lia]. Qed.
Lemma aq_new_items n m : mask_ok n m -> 0 < n -> aq_items (aq_new m) = mbits m.
Proof.
  intros [Hl Hm] Hn. destruct m as [|w m]; [cbn in Hl; lia|].
  rewrite (aq_items_eq _ w) by done. cbn [aq_index aq_new aq_iters drop].
  change (N.of_nat 0) with 0%N. transitivity (id <$> mbits (w :: m)); [|apply list_fmap_id].
  apply list_fmap_ext. intros i x _. done.
Qed.
Lemma aq_empty_ok n : 0 < n -> aq_ok n (aq_empty n).
Proof.
  intros Hn. split_and!; cbn; [by rewrite replicate_length| |lia].
  by apply Forall_replicate.
Qed.
Lemma aq_empty_items n : 0 < n -> aq_items (aq_empty n) = [].
Proof.
  intros Hn. apply ssorted_ext; [apply aq_items_sorted|constructor|]. intros i.
  rewrite (aq_items_bit n) by (by apply aq_empty_ok). split; [|set_solver].
  intros (w & Hb & _ & Hl). cbn [aq_empty aq_iters] in Hl. apply lookup_replicate in Hl as [-> _].
  by rewrite N.bits_0 in Hb.
Qed.

Lemma aq_next_loop_ok n fuel q : aq_ok n q -> n - aq_index q < fuel ->
  exists q' o, aq_next_loop fuel q = Ok (q', o) /\ aq_ok n q' /\
    o = head (aq_items q) /\ aq_items q' = tail (aq_items q).
Proof.
  revert q. induction fuel as [|fuel IH]; intros q Hq Hf; [lia|].
  destruct (aq_ok_0 n q Hq) as (w0 & H0 & Hw0). cbn [aq_next_loop].
  unfold get_c. rewrite H0, bind_ok.
  destruct Hq as (Hl & Hw & Hi).
  pose proof (one_bits_next_spec w0 Hw0) as (Hn1 & Hn2 & Hn3).
  destruct (one_bits_next w0) as [w0' [index|]]; cbn [fst snd] in *.
  - eexists _, _. split; [reflexivity|]. rewrite (aq_items_eq q w0 H0).
    rewrite (aq_items_eq _ w0') by (cbn; by rewrite list_lookup_insert by lia).
    cbn [aq_iters aq_index]. rewrite !mbits_cons.
    destruct (wbits w0) as [|x l]; [done|]. cbn in Hn2, Hn3. injection Hn2 as ->. subst l.
    rewrite drop_insert_gt by lia. split_and!.
    + split_and!; cbn; [by rewrite insert_length|by apply Forall_insert|done].
    + done.
    + done.
  - assert (wbits w0 = []) as Hz by (destruct (wbits w0); done).
    destruct (decide (aq_index q = length (aq_iters q) - 1)) as [He|He].
    + eexists _, _. split; [reflexivity|]. rewrite (aq_items_eq q w0 H0), mbits_cons, Hz.
      rewrite drop_ge by lia. split_and!; done.
    + destruct (lookup_lt_is_Some_2 (aq_iters q) (S (aq_index q))) as [w1 H1]; [lia|].
      rewrite (get_u_ok _ _ _ H1), bind_ok.
      destruct (IH (AQ (<[0:=w1]> (aq_iters q)) (S (aq_index q)))) as (q' & o & -> & Hq' & Ho & Ht).
      { split_and!; cbn; [by rewrite insert_length| |lia]. apply Forall_insert; [done|].
        rewrite Forall_forall in Hw. apply Hw. by eapply elem_of_list_lookup_2. }
      { cbn. lia. }
      assert (aq_items (AQ (<[0:=w1]> (aq_iters q)) (S (aq_index q))) = aq_items q) as Heq.
      { rewrite (aq_items_eq q w0 H0), (aq_items_eq _ w1) by (cbn; by rewrite list_lookup_insert by lia).
        cbn [aq_iters aq_index]. rewrite drop_insert_gt by lia.
        rewrite (mbits_cons w0), Hz. cbn [app]. rewrite <- list_fmap_compose.
        rewrite (drop_S _ _ _ H1). apply list_fmap_ext. intros i x _. cbn. lia. }
      rewrite Heq in *. eauto 10.
Qed.
Lemma aq_next_ok n q : aq_ok n q ->
  exists q' o, aq_next q = Ok (q', o) /\ aq_ok n q' /\
    o = head (aq_items q) /\ aq_items q' = tail (aq_items q).
Proof. intros Hq. apply aq_next_loop_ok; [done|]. destruct Hq as (? & ? & ?). lia. Qed.

Lemma aq_trim_to_ok n q k : aq_ok n q ->
  exists q', aq_trim_to q k = Ok q' /\ aq_ok n q' /\
    aq_items q' = filter (fun i => (k <= i)%N) (aq_items q).
Proof.
  intros Hq. pose proof Hq as (Hl & Hw & Hi). unfold aq_trim_to. rewrite Hl.
  assert (forall q', aq_ok n q' ->
     (forall i, i ∈ aq_items q' <-> (k <= i)%N /\ i ∈ aq_items q) ->
     aq_items q' = filter (fun i => (k <= i)%N) (aq_items q)) as Hext.
  { intros q' Hq' H. apply ssorted_ext; [apply aq_items_sorted|apply ssorted_filter, aq_items_sorted|].
    intros i. rewrite elem_of_list_filter. apply H. }
  destruct (decide (n <= N.to_nat (k / 64))) as [Hge|Hlt].
  { rewrite decide_True by lia. eexists. split; [reflexivity|].
    assert (aq_ok n (AQ (<[0:=0%N]> (aq_iters q)) (n - 1))) as Hok.
    { split_and!; cbn; [by rewrite insert_length|by apply Forall_insert|lia]. }
    split; [done|]. apply Hext; [done|]. intros i. rewrite !(aq_items_bit n) by done. cbn [aq_iters aq_index].
    split.
    - intros (w & Hb & Hle & Hlk). exfalso.
      destruct (decide (N.to_nat (i / 64) = n - 1)) as [He|He].
      + rewrite list_lookup_insert in Hlk by lia. injection Hlk as <-. by rewrite N.bits_0 in Hb.
      + apply lookup_lt_Some in Hlk. rewrite insert_length in Hlk. lia.
    - intros (Hk & w & Hb & Hle & Hlk). exfalso. apply lookup_lt_Some in Hlk.
      destruct (decide (N.to_nat (i / 64) = aq_index q)); lia. }
  destruct (decide (N.to_nat (k / 64) < aq_index q)) as [Hlt2|Hge2].
  { eexists. split; [reflexivity|]. split; [done|]. apply Hext; [done|]. intros i.
    rewrite !(aq_items_bit n) by done. split; [|naive_solver].
    intros (w & Hb & Hle & Hlk). split; [lia|]. eauto. }
  set (e := N.to_nat (k / 64)) in *.
  assert (exists q1, (if decide (e ≠ aq_index q) then
            let* w := get_u (aq_iters q) e in Ok (AQ (<[0:=w]> (aq_iters q)) e) else Ok q) = Ok q1
          /\ aq_ok n q1 /\ aq_index q1 = e /\
          forall i, i ∈ aq_items q1 <-> e <= N.to_nat (i / 64) /\ i ∈ aq_items q) as (q1 & -> & Hq1 & He1 & Hit).
  { destruct (decide (e ≠ aq_index q)) as [Hne|Heq].
    - destruct (lookup_lt_is_Some_2 (aq_iters q) e) as [w1 H1]; [lia|].
      rewrite (get_u_ok _ _ _ H1), bind_ok. eexists. split; [reflexivity|].
      assert (aq_ok n (AQ (<[0:=w1]> (aq_iters q)) e)) as Hok.
      { split_and!; cbn; [by rewrite insert_length| |lia]. apply Forall_insert; [done|].
        rewrite Forall_forall in Hw. apply Hw. by eapply elem_of_list_lookup_2. }
      split_and!; [done|done|]. intros i. rewrite !(aq_items_bit n) by done. cbn [aq_iters aq_index]. split.
      + intros (w & Hb & Hle & Hlk). split; [done|]. exists w. split_and!; [done|lia|].
        rewrite (decide_False (P := N.to_nat (i / 64) = aq_index q)) by lia.
        destruct (decide (N.to_nat (i / 64) = e)) as [->|].
        * rewrite list_lookup_insert in Hlk by lia. congruence.
        * rewrite list_lookup_insert_ne in Hlk by lia. done.
      + intros (Hle & w & Hb & Hle2 & Hlk). exists w. split_and!; [done|done|].
        rewrite (decide_False (P := N.to_nat (i / 64) = aq_index q)) in Hlk by lia.
        destruct (decide (N.to_nat (i / 64) = e)) as [Hie|].
        * rewrite list_lookup_insert by lia. congruence.
        * rewrite list_lookup_insert_ne by lia. done.
    - exists q. split_and!; [done|done|lia|]. intros i. split; [|naive_solver]. intros H. split; [|done].
      rewrite (aq_items_bit n) in H by done. destruct H as (w & _ & Hle & _). lia. }
  rewrite bind_ok. destruct (aq_ok_0 n q1 Hq1) as (w0 & H0 & Hw0). unfold get_c. rewrite H0, bind_ok.
  eexists. split; [reflexivity|]. pose proof Hq1 as (Hl1 & Hw1 & Hi1).
  assert (aq_ok n (AQ (<[0:=N.land w0 (shl64 WMAX (k mod 64))]> (aq_iters q1)) (aq_index q1))) as Hok.
  { split_and!; cbn; [by rewrite insert_length| |lia]. apply Forall_insert; [done|]. by apply word_ok_land_l. }
  split; [done|]. apply Hext; [done|]. intros i.
  assert (i ∈ aq_items (AQ (<[0:=N.land w0 (shl64 WMAX (k mod 64))]> (aq_iters q1)) (aq_index q1)) <->
          (k <= i)%N /\ i ∈ aq_items q1) as ->.
  { rewrite !(aq_items_bit n) by done. cbn [aq_iters aq_index]. rewrite He1.
    destruct (decide (N.to_nat (i / 64) = e)) as [He|He].
    - rewrite list_lookup_insert by lia. rewrite H0. split.
      + intros (w & Hb & Hle & Hs). injection Hs as <-. rewrite N.land_spec, shl64_bit, wmax_bit in Hb by lia.
        destruct (N.leb_spec (k mod 64) (i mod 64)); [|by rewrite !andb_false_r in Hb].
        split; [lia|]. exists w0. split_and!; [|lia|done]. by destruct (N.testbit w0 (i mod 64)).
      + intros (Hk & w & Hb & Hle & Hs). injection Hs as <-. eexists. split_and!; [|done|reflexivity].
        rewrite N.land_spec, shl64_bit, wmax_bit, Hb by lia.
        destruct (N.ltb_spec (i mod 64) 64), (N.leb_spec (k mod 64) (i mod 64)), (N.ltb_spec (i mod 64 - k mod 64) 64); cbn; lia.
    - split.
      + intros (w & Hb & Hle & Hs). rewrite list_lookup_insert_ne in Hs by lia. split; [lia|]. eauto.
      + intros (Hk & w & Hb & Hle & Hs). exists w. rewrite list_lookup_insert_ne by lia. eauto. }
  rewrite Hit. split; [naive_solver|]. intros [H1 H2]. split_and!; [done|lia|done].
Qed.

Lemma aq_traverse_ok {St} n q (f : St -> N -> St * bool) s : aq_ok n q ->
  aq_traverse q f s = Ok (visit (aq_items q) f s).
Proof.
  intros Hq. destruct (aq_ok_0 n q Hq) as (w0 & H0 & Hw0). destruct Hq as (Hl & Hw & Hi).
  unfold aq_traverse, get_c. rewrite H0, bind_ok, set_u_ok, bind_ok by lia.
  rewrite traverse_array_ok by (by apply Forall_drop, Forall_insert).
  rewrite (aq_items_eq q w0 H0), visit_fmap. do 2 f_equal.
  erewrite drop_S by (by apply list_lookup_insert; lia).
  by rewrite drop_insert_gt by lia.
Qed.

(** The documented meaning of `current` holds while the active word is non-empty. *)
Lemma aq_current_active n q : aq_ok n q ->
  (forall w0, aq_iters q !! 0 = Some w0 -> w0 <> 0%N) ->
  exists i, aq_current q = Ok i /\ head (aq_items q) = Some i.
Proof.
  intros Hq Hz. destruct (aq_ok_0 n q Hq) as (w0 & H0 & Hw0). unfold aq_current, get_c.
  rewrite H0, bind_ok. eexists. split; [reflexivity|].
  rewrite (aq_items_eq q w0 H0), mbits_cons, (wbits_step w0) by eauto. done.
Qed.
Lemma aq_current_last n q : aq_ok n q -> aq_index q = n - 1 ->
  aq_current q = Ok (default (64 * N.of_nat n)%N (head (aq_items q))).
Proof.
  intros Hq Hi. destruct (aq_ok_0 n q Hq) as (w0 & H0 & Hw0). destruct Hq as (Hl & Hw & Hlt). unfold aq_current, get_c.
  rewrite H0, bind_ok. f_equal. rewrite (aq_items_eq q w0 H0), mbits_cons.
  destruct (decide (w0 = 0%N)) as [->|Hz].
  - rewrite wbits_0, drop_ge, mbits_nil by lia. cbn [fmap list_fmap app head default trailing_zeros]. cbn. lia.
  - rewrite (wbits_step w0) by done. done.
Qed.

(** ** the sum type *)
Lemma into_bits_iter_ok n m : mask_ok n m -> 0 < n ->
  bq_ok n (into_bits_iter m) /\ bq_items (into_bits_iter m) = mbits m.
Proof.
  intros Hm Hn. destruct m as [|w [|w' m]].
  - destruct Hm as [Hl _]. cbn in Hl. lia.
  - destruct Hm as [Hl Hw]. inversion_clear Hw. split; [done|]. symmetry. by apply mbits_single.
  - split; [by apply aq_new_ok|]. unfold bq_items. cbn [into_bits_iter]. by apply (aq_new_items n).
Qed.
Lemma bq_empty_ok n : 0 < n -> bq_ok n (bq_empty n) /\ bq_items (bq_empty n) = [].
Proof.
  intros Hn. unfold bq_empty. destruct (decide (n = 1)) as [->|].
  - split; [done|]. apply wbits_0.
  - split; [by apply aq_empty_ok|by apply aq_empty_items].
Qed.
Lemma bq_filled_ok n : 0 < n -> bq_ok n (bq_filled n) /\ bq_items (bq_filled n) = seqN 0 (64 * n).
Proof.
  intros Hn. unfold bq_filled. destruct (decide (n = 1)) as [->|].
  - split; [split; [done|apply word_ok_max]|]. apply wbits_max.
  - assert (mask_ok n (replicate n WMAX)) as Hok.
    { split; [apply replicate_length|]. apply Forall_replicate, word_ok_max. }
    split; [by apply aq_new_ok|]. unfold bq_items, aq_filled. rewrite (aq_new_items n) by done.
    apply ssorted_ext; [apply mbits_sorted|apply seqN_sorted|]. intros i.
    rewrite elem_of_mbits, elem_of_seqN. split.
    + intros H%mbit_bound. rewrite replicate_length in H. lia.
    + intros H. unfold mbit. rewrite lookup_replicate_2 by lia. rewrite wmax_bit.
      destruct (N.ltb_spec (i mod 64) 64); lia.
Qed.
Lemma bq_next_ok n q : bq_ok n q ->
  exists q' o, bq_next q = Ok (q', o) /\ bq_ok n q' /\
    o = head (bq_items q) /\ bq_items q' = tail (bq_items q).
Proof.
  destruct q as [w|q]; cbn [bq_ok bq_next].
  - intros [Hn Hw]. pose proof (one_bits_next_spec w Hw) as (H1 & H2 & H3). unfold pq_next.
    destruct (one_bits_next w) as [w' o]. cbn [fst snd] in *.
    exists (PQ w'), o. split_and!; done.
  - intros Hq. destruct (aq_next_ok n q Hq) as (q' & o & -> & ? & ? & ?). rewrite bind_ok. eauto 10.
Qed.
Lemma bq_trim_to_ok n q k : bq_ok n q ->
  exists q', bq_trim_to q k = Ok q' /\ bq_ok n q' /\
    bq_items q' = filter (fun i => (k <= i)%N) (bq_items q).
Proof.
  destruct q as [w|q]; cbn [bq_ok bq_trim_to].
  - intros [Hn Hw]. eexists. split; [reflexivity|]. split; [split; [done|by apply pq_trim_to_ok]|].
    by apply pq_trim_to_items.
  - intros Hq. destruct (aq_trim_to_ok n q k Hq) as (q' & -> & ? & ?). rewrite bind_ok. eauto 10.
Qed.
Lemma bq_traverse_ok {St} n q (f : St -> N -> St * bool) s : bq_ok n q ->
  bq_traverse q f s = Ok (visit (bq_items q) f s).
Proof.
  destruct q as [w|q]; cbn [bq_ok bq_traverse].
  - intros [Hn Hw]. by apply traverse_one_bits_ok.
  - by apply aq_traverse_ok.
Qed.
