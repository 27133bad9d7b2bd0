(** * C54, C55: the level blocks as maps from index to non-zero value *)
From Verif Require Import Base BitUtils BitUtilsProofs LevelIndices Sparse SmallBlock SmallBlockSpec SmallBlockProofs ClusterBlockProofs.
Local Open Scope nat_scope.

(** ** C54: Block and SmallBlock *)
(** Block: after every history of calls that meets the trait's requirements, every call has returned what the map
    returns, the mask announces exactly the present indices, and `is_empty` tells whether there are none *)
Theorem C54_block : forall (nw : nat) (cs : list bcall),
  hb_legal_run no_panic (msize nw) ∅ cs ->
  exists b, run_calls blk_call (blk_empty nw) cs = Ok (b, snd (hb_run ∅ cs)) /\
    (forall i, mbit (b_mask b) i = true <-> is_Some (fst (hb_run ∅ cs) !! i)) /\
    (blk_is_empty b = true <-> fst (hb_run ∅ cs) = ∅).
Proof.
  intros nw cs Hl. destruct (blk_run_ok nw ∅ _ cs (blk_empty_rep nw) Hl) as (b & Hb & R). exists b. split; [done|].
  destruct R as (Hm & Hbits & _). split; [done|]. unfold blk_is_empty. rewrite (mask_is_zero_ok nw) by done. split.
  - intros H. apply map_empty. intros i. destruct (_ !! i) eqn:E; [|done].
    assert (mbit (b_mask b) i = true) by (apply Hbits; eauto). by rewrite H in *.
  - intros H i. destruct (mbit (b_mask b) i) eqn:E; [|done]. apply Hbits in E as [? E]. by rewrite H, lookup_empty in E.
Qed.
Example C54_block_nontrivial :
  let cs := [BGetOrInsert 3 (Some 7); BInsert 200 9; BSet 3 5; BGetOrInsert 3 None; BRemove 200; BGet 200; BGet 3]%N in
  hb_legal_run no_panic (msize 4) ∅ cs /\ snd (hb_run ∅ cs) = [BIns 7 true; BDone; BDone; BIns 5 false; BDone; BVal 0; BVal 5]%N.
Proof. split; [|vm_compute; done]. cbn. rewrite ?lookup_insert. split_and!; try (vm_compute; done); vm_compute; eauto. Qed.
(** a panic in the closure of `get_or_insert` leaves Block's mask announcing an index without a value *)
Theorem C54_block_panicking_closure_refuted :
  exists b, run_calls blk_call (blk_empty 1) [BGetOrInsert 3 None]%N = Ok (b, [BPanicked]) /\
    mbit (b_mask b) 3 = true /\ blk_get b 3 = Ok 0%N /\ blk_is_empty b = false.
Proof. eexists. split; [vm_compute; reflexivity|]. vm_compute. done. Qed.

(** SmallBlock, exactly: for every number of mask words and every capacity of the small array, every history whose
    calls meet the trait's requirements does what [sb_spec] says - the same results, or the same failure at the same call *)
Theorem C54_small_block_exactly : forall (nw cap : nat) (cs : list bcall), 0 < nw -> cap <= 255 ->
  hb_legal_run no_extra (msize nw) ∅ cs ->
  res_rel (fun '(b, outs) '((m, _), outs') => outs = outs' /\
      (forall i, mbit (sb_mask b) i = true <-> is_Some (m !! i)) /\ (sb_is_empty b = true <-> m = ∅))
    (run_calls (sb_call nw cap) (sb_empty nw cap) cs) (sb_spec_run nw cap (∅, false) cs).
Proof.
  intros nw cap cs Hnw Hcap Hl. pose proof (sb_run_ok nw cap (∅, false) _ cs Hnw Hcap (sb_empty_rep nw cap) Hl) as H.
  destruct (run_calls _ _ cs) as [[b o]| | |], (sb_spec_run _ _ _ cs) as [[[m mv] o']| | |]; cbn [res_rel] in *; try done.
  destruct H as [-> R]. split; [done|]. destruct R as (Hm & Hbits & _). cbn [fst] in *. split; [done|].
  unfold sb_is_empty. rewrite (mask_is_zero_ok nw) by done. split.
  - intros H. apply map_empty. intros i. destruct (_ !! i) eqn:E; [|done].
    assert (mbit (sb_mask b) i = true) by (apply Hbits; eauto). by rewrite H in *.
  - intros H i. destruct (mbit (sb_mask b) i) eqn:E; [|done]. apply Hbits in E as [? E]. by rewrite H, lookup_empty in E.
Qed.
(** SmallBlock is the map on histories without `insert` in which no index outside the last word of the mask is removed
    while exactly [cap] indices are present; closures may panic.  Missing: those calls, see the refutations *)
Definition sb_handles (nw cap : nat) (m : gmap N N) (c : bcall) : Prop :=
  match c with
  | BInsert _ _ => False
  | BRemove i => (i / 64 = N.of_nat nw - 1)%N \/ size m <> cap
  | _ => True
  end.
Lemma sb_spec_handles nw cap m moved cs : (moved = true \/ size m <= cap) ->
  hb_legal_run (sb_handles nw cap) (msize nw) m cs ->
  exists moved', sb_spec_run nw cap (m, moved) cs = Ok ((fst (hb_run m cs), moved'), snd (hb_run m cs)).
Proof.
  revert m moved. induction cs as [|c cs IH]; intros m moved Hmv Hl; cbn [sb_spec_run hb_run]; [eauto|].
  destruct Hl as (Hc & Hh & Hl).
  assert (exists mv, sb_spec nw cap (m, moved) c = Ok ((fst (hb_step m c), mv), snd (hb_step m c)) /\
    (mv = true \/ size (fst (hb_step m c)) <= cap)) as (mv & -> & Hmv').
  { unfold sb_spec. destruct (hb_step m c) as [m' o] eqn:E. cbn [fst snd].
    assert (moved || bool_decide (cap < size m') = true \/ size m' <= cap) as H0.
    { destruct moved; [by left|]. cbn [orb]. destruct (bool_decide _) eqn:Eb; [by left|]. right.
      apply bool_decide_eq_false in Eb. lia. }
    destruct c as [i|i f|i x|i|i x]; cbn [sb_handles] in Hh; [eauto..|].
    all: try done. 2: eauto.
    assert (remove_fits nw cap m moved i = true) as ->.
    { unfold remove_fits. rewrite !orb_true_iff, !bool_decide_eq_true. destruct Hmv as [->|]; [by left; left|].
      destruct Hh; [by left; right|]. right. lia. }
    eexists. split; [done|]. destruct Hmv as [->|Hs]; [by left|]. right. cbn [hb_step] in E. injection E as <- _.
    cbn [hb_legal] in Hc. rewrite map_size_delete. destruct (m !! i); unfold id; lia. }
  rewrite bind_ok. destruct (hb_step m c) as [m' o]. cbn [fst snd] in *.
  destruct (IH m' mv Hmv' Hl) as (mv' & ->). rewrite bind_ok. destruct (hb_run m' cs). eauto.
Qed.
Lemma hb_legal_weaken (P Q : gmap N N -> bcall -> Prop) sz m cs : (forall m c, P m c -> Q m c) ->
  hb_legal_run P sz m cs -> hb_legal_run Q sz m cs.
Proof. intros HPQ. revert m. induction cs as [|c cs IH]; intros m; [done|]. cbn [hb_legal_run]. intros (? & ? & ?). eauto. Qed.
Theorem C54_small_block_partial : forall (nw cap : nat) (cs : list bcall), 0 < nw -> cap <= 255 ->
  hb_legal_run (sb_handles nw cap) (msize nw) ∅ cs ->
  exists b, run_calls (sb_call nw cap) (sb_empty nw cap) cs = Ok (b, snd (hb_run ∅ cs)) /\
    (forall i, mbit (sb_mask b) i = true <-> is_Some (fst (hb_run ∅ cs) !! i)) /\
    (sb_is_empty b = true <-> fst (hb_run ∅ cs) = ∅).
Proof.
  intros nw cap cs Hnw Hcap Hl.
  pose proof (C54_small_block_exactly nw cap cs Hnw Hcap (hb_legal_weaken _ _ _ _ _ (fun _ _ _ => I) Hl)) as H.
  destruct (sb_spec_handles nw cap ∅ false cs) as (mv & Hs); [right; rewrite map_size_empty; lia|done|].
  rewrite Hs in H. destruct (run_calls _ _ cs) as [[b o]| | |]; cbn [res_rel] in H; try done.
  destruct H as (-> & H1 & H2). eauto.
Qed.
(** with one mask word only `insert` is missing: a history of the other calls always does what the map does *)
Theorem C54_small_block_one_word_partial : forall (cap : nat) (cs : list bcall), cap <= 255 ->
  hb_legal_run (fun _ c => match c with BInsert _ _ => False | _ => True end) (msize 1) ∅ cs ->
  exists b, run_calls (sb_call 1 cap) (sb_empty 1 cap) cs = Ok (b, snd (hb_run ∅ cs)) /\
    (forall i, mbit (sb_mask b) i = true <-> is_Some (fst (hb_run ∅ cs) !! i)) /\
    (sb_is_empty b = true <-> fst (hb_run ∅ cs) = ∅).
Proof.
  intros cap cs Hcap Hl. apply C54_small_block_partial; [lia|done|].
  assert (forall m, (forall i, is_Some (m !! i) -> (i < 64)%N) ->
    hb_legal_run (fun _ c => match c with BInsert _ _ => False | _ => True end) (msize 1) m cs ->
    hb_legal_run (sb_handles 1 cap) (msize 1) m cs) as Hw.
  { clear. induction cs as [|c cs IH]; intros m Hm; [done|]. cbn [hb_legal_run]. intros (Hc & Hn & Hl). split; [done|]. split.
    - destruct c as [| | |i|]; try done. cbn [hb_legal sb_handles] in *. left. specialize (Hm i Hc). lia.
    - apply IH; [|done]. assert (forall i x, (i < 64)%N -> forall j, is_Some (<[i := x]> m !! j) -> (j < 64)%N) as Hi.
      { intros i x Hi j. rewrite lookup_insert_is_Some. intros [<-|[_ ?]]; auto. }
      destruct c as [i|i f|i x|i|i x]; cbn [hb_step fst hb_legal] in *; try done.
      + destruct (m !! i); [done|]. destruct f; [|done]. apply Hi. apply Hc.
      + intros j. rewrite lookup_delete_is_Some. intros [_ ?]. auto.
      + apply Hi, Hm, Hc. }
  apply Hw; [|done]. intros i. rewrite lookup_empty. by intros [? ?].
Qed.
(** a history that fills the small array, removes from it, moves to the big array and removes there *)
Example C54_small_block_nontrivial :
  let cs := [BGetOrInsert 3 (Some 7); BGetOrInsert 200 (Some 9); BGetOrInsert 70 (Some 4); BRemove 200; BGet 70; BSet 70 5;
             BGetOrInsert 1 (Some 2); BGetOrInsert 0 (Some 6); BGetOrInsert 9 None; BRemove 3; BGet 3; BGet 70]%N in
  hb_legal_run (sb_handles 4 3) (msize 4) ∅ cs /\
  snd (hb_run ∅ cs) = [BIns 7 true; BIns 9 true; BIns 4 true; BDone; BVal 4; BDone; BIns 2 true; BIns 6 true; BPanicked; BDone; BVal 0; BVal 5]%N.
Proof.
  split; [|vm_compute; done].
  cbn [hb_legal_run]. repeat split; try (vm_compute; done); try (vm_compute; eauto; done); cbn; first [left; vm_compute; done | right; vm_compute; done].
Qed.
(** removing an index of an earlier word while the small array is full copies from behind the array: undefined behaviour *)
Theorem C54_small_block_remove_refuted :
  let cs := [BGetOrInsert 0 (Some 1); BGetOrInsert 64 (Some 2); BRemove 0]%N in
  hb_legal_run no_extra (msize 2) ∅ cs /\ run_calls (sb_call 2 2) (sb_empty 2 2) cs = UB.
Proof.
  split; [|vm_compute; done]. cbn [hb_legal_run]. repeat split; try (vm_compute; done). vm_compute. eauto.
Qed.
(** `insert` is the trait's unimplemented default *)
Theorem C54_small_block_insert_refuted : forall nw cap b i x, sb_call nw cap b (BInsert i x) = Panic.
Proof. done. Qed.
(** a parked block: an empty block whose first word was used as a link to the next one is, after `restore_empty`, the
    block it was *)
Theorem C54_park_and_restore : forall (b : block) (x : N), 0 < length (b_mask b) -> blk_is_empty b = true ->
  exists parked, blk_set_link b x = Ok parked /\ blk_link parked = Ok x /\ blk_restore_empty parked = Ok b.
Proof.
  intros [mk idx] x Hl He. unfold blk_is_empty, mask_is_zero in He. cbn [b_mask b_idx] in *. apply bool_decide_eq_true in He.
  destruct mk as [|w mk]; [cbn in Hl; lia|]. assert (w = 0%N) as -> by (cbn in He; congruence).
  eexists. split; [reflexivity|]. done.
Qed.
Theorem C54_small_park_and_restore : forall (b : sblock) (x : N), 0 < length (sb_mask b) -> sb_is_empty b = true ->
  exists parked, sb_set_link b x = Ok parked /\ sb_restore_empty parked = Ok b.
Proof.
  intros [mk st] x Hl He. unfold sb_is_empty, mask_is_zero in He. cbn [sb_mask sb_store] in *. apply bool_decide_eq_true in He.
  destruct mk as [|w mk]; [cbn in Hl; lia|]. assert (w = 0%N) as -> by (cbn in He; congruence).
  eexists. split; [reflexivity|]. done.
Qed.

(** ** C55: ClusterBlock *)
(** ClusterBlock is the map on histories of `get_or_zero` and of `get_or_insert` of new indices, as long as each is above
    all present indices of its sub-block of 16 and at most four sub-blocks are in use.  Missing: everything else,
    see the refutations *)
Theorem C55_cluster_block_partial : forall (nw : nat) (cs : list bcall),
  hb_legal_run (fun m c => cb_handles m c /\ match c with BGetOrInsert i _ => m !! i = None | _ => True end) (msize nw) ∅ cs ->
  exists b, run_calls cb_call (cb_empty nw) cs = Ok (b, snd (hb_run ∅ cs)) /\
    forall i, mbit (c_mask b) i = true <-> is_Some (fst (hb_run ∅ cs) !! i).
Proof.
  intros nw cs Hl.
  assert (forall m, hb_legal_run (fun m c => cb_handles m c /\ match c with BGetOrInsert i _ => m !! i = None | _ => True end) (msize nw) m cs ->
    cb_legal_run (msize nw) m cs /\ cb_run m cs = hb_run m cs) as Hw.
  { clear. induction cs as [|c cs IH]; intros m; [done|]. cbn [hb_legal_run cb_legal_run cb_run hb_run]. intros (Hc & [Hh Hn] & Hl).
    assert (cb_step m c = hb_step m c) as He.
    { destruct c as [i|i [x|]| | |]; cbn [cb_step hb_step]; try done. by rewrite Hn. }
    rewrite He. destruct (IH _ Hl) as [H1 H2]. split; [done|]. destruct (hb_step m c) as [m' o]. cbn [fst] in H2. by rewrite H2. }
  destruct (Hw ∅ Hl) as [Hl' He]. destruct (cb_run_ok nw ∅ _ cs (cb_empty_rep nw) Hl') as (b & Hb & R).
  rewrite He in Hb, R. exists b. split; [done|]. apply R.
Qed.
Example C55_cluster_block_nontrivial :
  let cs := [BGetOrInsert 3 (Some 7); BGetOrInsert 200 (Some 9); BGetOrInsert 5 (Some 4); BGet 3; BGet 5; BGet 200; BGet 6]%N in
  hb_legal_run (fun m c => cb_handles m c /\ match c with BGetOrInsert i _ => m !! i = None | _ => True end) (msize 4) ∅ cs /\
  snd (hb_run ∅ cs) = [BIns 7 true; BIns 9 true; BIns 4 true; BVal 7; BVal 4; BVal 9; BVal 0]%N.
Proof.
  split; [|vm_compute; done].
  assert (forall (m : gmap N N) i x, bool_decide (map_Forall (fun j _ => (j / 16 = i / 16)%N -> (j < i)%N) m) &&
    bool_decide (size (cb_groups m ∪ {[(i / 16)%N]}) <= 4) = true -> cb_handles m (BGetOrInsert i (Some x))) as Hh.
  { intros m i x [H1%bool_decide_eq_true H2%bool_decide_eq_true]%andb_true_iff. split; [|done]. right. intros j [y Hy]. by apply (H1 j y). }
  cbn [hb_legal_run hb_legal].
  repeat first [exact I | by apply Hh; vm_compute | by vm_compute | split].
Qed.
(** for a present index the closure is called again and its value overwrites the stored one *)
Theorem C55_cluster_block_overwrites : forall (nw : nat) (cs : list bcall), cb_legal_run (msize nw) ∅ cs ->
  exists b, run_calls cb_call (cb_empty nw) cs = Ok (b, snd (cb_run ∅ cs)) /\
     forall i, mbit (c_mask b) i = true <-> is_Some (fst (cb_run ∅ cs) !! i).
Proof.
  intros nw cs Hl. destruct (cb_run_ok nw ∅ _ cs (cb_empty_rep nw) Hl) as (b & Hb & R). exists b. split; [done|]. apply R.
Qed.
Theorem C55_get_or_insert_never_gets_refuted :
  let cs := [BGetOrInsert 3 (Some 7); BGetOrInsert 3 (Some 8); BGet 3]%N in
  hb_legal_run no_extra (msize 1) ∅ cs /\
   snd (hb_run ∅ cs) = [BIns 7 true; BIns 7 false; BVal 7]%N /\
   snd <$> (match run_calls cb_call (cb_empty 1) cs with Ok r => Some r | _ => None end) = Some [BIns 7 true; BIns 8 true; BVal 8]%N.
Proof. split; [|split; vm_compute; done]. cbn [hb_legal_run]. repeat split; vm_compute; done. Qed.
(** inserting below a present index of the same sub-block overwrites that index's value, and the index then reads zero *)
Theorem C55_descending_insert_loses_refuted :
  let cs := [BGetOrInsert 5 (Some 7); BGetOrInsert 3 (Some 8); BGet 5; BGet 3]%N in
  hb_legal_run no_extra (msize 1) ∅ cs /\
   snd (hb_run ∅ cs) = [BIns 7 true; BIns 8 true; BVal 7; BVal 8]%N /\
   snd <$> (match run_calls cb_call (cb_empty 1) cs with Ok r => Some r | _ => None end) = Some [BIns 7 true; BIns 8 true; BVal 0; BVal 8]%N.
Proof. split; [|split; vm_compute; done]. cbn [hb_legal_run]. repeat split; vm_compute; done. Qed.
(** the fifth sub-block does not fit into the storage; remove, set and insert are not implemented *)
Theorem C55_fifth_sub_block_refuted :
  let cs := [BGetOrInsert 0 (Some 1); BGetOrInsert 16 (Some 1); BGetOrInsert 32 (Some 1); BGetOrInsert 48 (Some 1); BGetOrInsert 64 (Some 1)]%N in
  hb_legal_run no_extra (msize 2) ∅ cs /\ run_calls cb_call (cb_empty 2) cs = Panic.
Proof. split; [|vm_compute; done]. cbn [hb_legal_run]. repeat split; vm_compute; done. Qed.
Theorem C55_unimplemented_refuted : forall b i x, cb_call b (BInsert i x) = Panic /\ cb_call b (BRemove i) = Panic /\ cb_call b (BSet i x) = Panic.
Proof. done. Qed.
