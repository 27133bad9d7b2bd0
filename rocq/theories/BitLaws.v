(** * Statements about keys, bit blocks and range loops in the form used by PropertiesBits.v *)
From Verif Require Import Base BitUtils BitUtilsProofs BitQueue BitQueueProofs QueueClient
  LevelIndices LevelIndicesProofs ConstLoops.

(** ** C07 *)
Lemma key_split_join nw D k : nw_ok nw -> 1 <= D -> (k < msize nw ^ N.of_nat D)%N ->
  length (level_indices nw D k) = D /\ Forall (fun i => (i < msize nw)%N) (level_indices nw D k) /\
  exists p i, level_indices nw D k = p ++ [i] /\ data_block_index nw D p i = Ok k.
Proof.
  intros Hw HD Hk. destruct (level_indices_ok nw D k Hw ltac:(lia) Hk) as [[Hl Hf] Hkey]. split; [done|]. split; [done|].
  destruct (level_indices nw D k) as [|a r] eqn:E using rev_ind; [cbn in Hl; lia|].
  exists r, a. split; [done|]. rewrite data_block_index_ok; [by rewrite Hkey|done|].
  rewrite app_length in Hl. cbn in Hl. lia.
Qed.
Lemma path_unique_key nw D p : nw_ok nw -> 1 <= D -> length p = D -> Forall (fun i => (i < msize nw)%N) p ->
  exists k, ((k < msize nw ^ N.of_nat D)%N /\ level_indices nw D k = p) /\
    forall k', (k' < msize nw ^ N.of_nat D)%N -> level_indices nw D k' = p -> k' = k.
Proof.
  intros Hw HD Hl Hf. exists (key_of_path nw p).
  assert (key_of_path nw p < msize nw ^ N.of_nat D)%N as Hb by by apply path_ok_bound.
  split; [split; [done|by apply level_indices_of_path; [|lia|]]|].
  intros k' Hk' Hp. subst p. symmetry. by apply level_indices_ok; [|lia|].
Qed.
Lemma key_order nw D k1 k2 : nw_ok nw -> 1 <= D ->
  (k1 < msize nw ^ N.of_nat D)%N -> (k2 < msize nw ^ N.of_nat D)%N ->
  ((k1 < k2)%N <-> lex_lt (level_indices nw D k1) (level_indices nw D k2)).
Proof.
  intros Hw HD H1 H2. destruct (level_indices_ok nw D k1 Hw ltac:(lia) H1) as [Hp1 E1].
  destruct (level_indices_ok nw D k2 Hw ltac:(lia) H2) as [Hp2 E2].
  rewrite <- (key_of_path_lex nw D) by done. by rewrite E1, E2.
Qed.

(** in every supported configuration no intermediate result overflows *)
Lemma key_no_overflow nw D k p i : (nw_ok nw /\ 1 <= D <= 8) \/ (nw = 1 /\ D = 9) ->
  level_indices_dbg nw D k = Ok (level_indices nw D k) /\
  (length p = D - 1 -> Forall (fun i => (i < msize nw)%N) p -> (i < msize nw)%N ->
   data_block_index_dbg nw D p i = data_block_index nw D p i).
Proof.
  intros H. assert (nw_ok nw /\ 1 <= D /\ (lsize nw * N.of_nat D <= 64)%N) as (Hw & HD & Hb).
  { destruct H as [[Hw HD]|[-> ->]]; [|split; [by left|split; [lia|by vm_compute]]]. split; [done|]. split; [lia|].
    assert (lsize nw <= 8)%N by (destruct Hw as [->|[->| ->]]; by vm_compute). nia. }
  assert (0 < lsize nw)%N as Hls by (destruct Hw as [->|[->| ->]]; by vm_compute).
  unfold level_indices_dbg, level_indices, data_block_index_dbg, data_block_index, sub_dbg.
  rewrite (proj2 (N.leb_le 1 (N.of_nat D)) ltac:(lia)), !bind_ok. replace (N.to_nat (N.of_nat D - 1)) with (D - 1) by lia.
  split; [apply li_dbg_ok; [done|]; nia|]. intros Hl Hf Hi. apply dbi_dbg_ok; [done| |done|].
  - by replace (S (D - 1)) with D by lia.
  - pose proof (key_of_path_bound nw p ltac:(pose proof (msize_pos nw Hw); lia) Hf) as Hk. rewrite Hl in Hk.
    apply (N.lt_le_trans _ (msize nw ^ N.of_nat D)%N).
    + replace (N.of_nat D) with (N.succ (N.of_nat (D - 1))) by lia. rewrite N.pow_succ_r'. nia.
    + rewrite <- pow_lsize by done. by apply N.pow_le_mono_r.
Qed.

(** ** C08 *)
Lemma index_range_ok nw D : (msize nw ^ N.of_nat D < 2 ^ 64)%N ->
  index_range_debug nw D = Ok (msize nw ^ N.of_nat D)%N /\
  index_range_release nw D = (msize nw ^ N.of_nat D)%N /\
  (forall k, (k < 2 ^ 64)%N -> (index_from nw D k = Ok k <-> (k < msize nw ^ N.of_nat D)%N) /\
                               (index_from nw D k = Panic <-> (msize nw ^ N.of_nat D <= k)%N)).
Proof.
  intros H. unfold index_range_debug, index_range_release. split_and!.
  - rewrite (proj2 (N.leb_le _ _)); [done|]. unfold USIZE_MAX. lia.
  - by apply N.mod_small.
  - intros k Hk. unfold index_from, saturating_pow.
    destruct (N.ltb_spec k (N.min (msize nw ^ N.of_nat D) USIZE_MAX)) as [Hl|Hl]; unfold USIZE_MAX in Hl.
    + split; split; try done; intros; lia.
    + split; split; try done; intros; lia.
Qed.
(** all predefined configurations except width_256::depth_8 satisfy the hypothesis *)
Lemma index_range_configs nw D : nw_ok nw -> D <= 8 -> (nw, D) <> (4, 8) -> (msize nw ^ N.of_nat D < 2 ^ 64)%N.
Proof.
  intros Hw HD Hne.
  assert (D = 0 \/ D = 1 \/ D = 2 \/ D = 3 \/ D = 4 \/ D = 5 \/ D = 6 \/ D = 7 \/ D = 8) as Hc by lia.
  destruct Hw as [->|[->| ->]]; destruct Hc as [->|[->|[->|[->|[->|[->|[->|[->| ->]]]]]]]]; try reflexivity. done.
Qed.
Lemma index_range_dense D : D <= 9 -> (msize 1 ^ N.of_nat D < 2 ^ 64)%N.
Proof.
  intros HD. change (msize 1) with (2 ^ 6)%N. rewrite <- N.pow_mul_r. apply N.pow_lt_mono_r; lia.
Qed.
Lemma index_range_wrong :
  index_range_debug 4 8 = Panic /\ index_range_release 4 8 = 0%N /\
  (forall k, (k < 2 ^ 64 - 1)%N -> index_from 4 8 k = Ok k) /\ index_from 4 8 (2 ^ 64 - 1) = Panic.
Proof.
  split_and!; [vm_compute; done..| |vm_compute; done].
  intros k Hk. unfold index_from. change (saturating_pow (msize 4) 8) with (2 ^ 64 - 1)%N. by rewrite (proj2 (N.ltb_lt _ _)).
Qed.

(** ** C30: a bit block as a set of indices *)
(** the members of the set, independent of the code: bit [i mod 64] of word [i / 64] *)
Definition members (m : mask) : gset N := list_to_set (mbits m).
Lemma elem_of_members m i : i ∈ members m <-> mbit m i = true.
Proof. unfold members. by rewrite elem_of_list_to_set, elem_of_mbits. Qed.
Lemma members_bit m i w : m !! N.to_nat (i / 64) = Some w -> (i ∈ members m <-> N.testbit w (i mod 64) = true).
Proof. intros H. rewrite elem_of_members. unfold mbit. by rewrite H. Qed.

Lemma block_set_bit nw m flag i : nw_ok nw -> mask_ok nw m -> (i < msize nw)%N ->
  exists m', mask_set_bit flag m i = Ok (m', bool_decide (i ∈ members m)) /\ mask_ok nw m' /\
    members m' = if flag then {[i]} ∪ members m else members m ∖ {[i]}.
Proof.
  intros Hw Hm Hi. destruct (mask_set_bit_ok flag nw m i Hm Hi) as (m' & -> & Hm' & Hb). exists m'.
  split; [|split; [done|]].
  - do 2 f_equal. destruct (mbit m i) eqn:E.
    + symmetry. apply bool_decide_eq_true. by rewrite elem_of_members.
    + symmetry. apply bool_decide_eq_false. rewrite elem_of_members. congruence.
  - apply set_eq. intros j. rewrite elem_of_members, Hb. destruct flag.
    + rewrite elem_of_union, elem_of_singleton, elem_of_members. destruct (N.eqb_spec j i); naive_solver.
    + rewrite elem_of_difference, elem_of_singleton, elem_of_members. destruct (N.eqb_spec j i); naive_solver.
Qed.
Lemma block_get_bit nw m i : mask_ok nw m -> (i < msize nw)%N -> mask_get_bit m i = Ok (bool_decide (i ∈ members m)).
Proof.
  intros Hm Hi. rewrite (mask_get_bit_ok nw) by done. f_equal. destruct (mbit m i) eqn:E; symmetry.
  - apply bool_decide_eq_true. by rewrite elem_of_members.
  - apply bool_decide_eq_false. rewrite elem_of_members. congruence.
Qed.
Lemma members_size m : size (members m) = length (mbits m).
Proof. unfold members. rewrite size_list_to_set; [done|]. apply ssorted_nodup, mbits_sorted. Qed.
Lemma block_observe nw m : 0 < nw -> mask_ok nw m ->
  exists l, StronglySorted N.lt l /\ (forall i, i ∈ l <-> i ∈ members m) /\
    mask_count_ones m = size (members m) /\
    (mask_is_zero m = true <-> members m = ∅) /\
    (forall (St : Type) (f : St -> N -> St * bool) s, mask_traverse_bits m f s = Ok (visit l f s)) /\
    (forall j, exists q, q_run (into_bits_iter m) (replicate (length l + j) QNext) = Ok (q, (Some <$> l) ++ replicate j None)).
Proof.
  intros Hn Hm. exists (mbits m). split; [apply mbits_sorted|].
  split; [intros i; by rewrite elem_of_members, elem_of_mbits|].
  split; [rewrite members_size; apply mask_count_ones_ok, Hm|]. split.
  { rewrite (mask_is_zero_ok nw) by done. split.
    - intros H. apply set_eq. intros i. rewrite elem_of_members, H. set_solver.
    - intros H i. destruct (mbit m i) eqn:E; [|done]. apply elem_of_members in E. rewrite H in E. set_solver. }
  split; [intros St f s; apply mask_traverse_ok, Hm|].
  destruct (into_bits_iter_ok nw m Hm Hn) as [Hq Hi]. intros j.
  destruct (q_run_ok nw _ (replicate (length (mbits m) + j) QNext) Hq) as (q & Hr & Hqo & Hqi). rewrite Hi in *.
  assert (forall l : list N, sq_run l (replicate (length l + j) QNext) = ([], (Some <$> l) ++ replicate j None)) as Hsq.
  { induction l as [|i l IH]; cbn [length plus].
    - clear. induction j as [|j IH]; [done|]. cbn [replicate sq_run sq_step tail head]. rewrite IH. done.
    - cbn [replicate sq_run sq_step tail head]. by rewrite IH. }
  rewrite Hsq in *. cbn [fst snd] in *. eauto.
Qed.
Lemma block_and_or nw a b : mask_ok nw a -> mask_ok nw b ->
  mask_ok nw (mask_and a b) /\ mask_ok nw (mask_or a b) /\
  members (mask_and a b) = members a ∩ members b /\ members (mask_or a b) = members a ∪ members b.
Proof.
  intros Ha Hb. split; [by apply mask_and_ok|]. split; [by apply mask_or_ok|]. split; apply set_eq; intros i.
  - rewrite elem_of_intersection, !elem_of_members, (mbit_and nw) by done. apply andb_true_iff.
  - rewrite elem_of_union, !elem_of_members, (mbit_or nw) by done. apply orb_true_iff.
Qed.
Lemma block_zero nw : mask_ok nw (mask_zero nw) /\ members (mask_zero nw) = ∅.
Proof.
  split; [apply mask_zero_ok|]. apply set_eq. intros i. rewrite elem_of_members, mbit_zero. set_solver.
Qed.

(** ** C31 *)
Lemma const_for_partial {St Out} from to (v : visitor St Out) s : from <= 1 -> from <= to ->
  const_for from to v s = visit_list (seq from (to - from)) v s.
Proof.
  intros H1 H2. destruct from as [|[|from]]; [|by apply const_for_1|lia].
  rewrite const_for_0. by replace (to - 0) with to by lia.
Qed.
Lemma const_for_wrong : exists from to, from <= to /\
  const_for (Out := unit) from to (fun l i => Ok (l ++ [i], None)) [] <> Ok (seq from (to - from), None).
Proof. exists 2, 3. split; [lia|]. vm_compute. discriminate. Qed.
Lemma const_for_rev_wrong : exists from to, from <= to /\
  const_for_rev (Out := unit) from to (fun l i => Ok (l ++ [i], None)) [] <> Ok (rev (seq from (to - from)), None).
Proof. exists 1, 3. split; [lia|]. vm_compute. discriminate. Qed.
