(** * One DenseTree node: packed children as a partial function of the index *)
From Verif Require Import Base BitUtils BitUtilsProofs BitQueue LevelIndices ConstLoops Hierarchy Dense.

(** number of set bits below [i] *)
Definition rank (m i : N) : nat := cnt (N.testbit m) (N.to_nat i).

(** [node_rep n g e]: [n] stores exactly the children [g], followed by the default
    child [e]. *)
Record node_rep (n : node) (g : N -> option slot) (e : slot) : Prop := NodeRep {
  nr_word : word_ok (n_mask n);
  nr_bits : forall i, N.testbit (n_mask n) i = true <-> is_Some (g i);
  nr_child : forall i s, g i = Some s -> n_slots n !! rank (n_mask n) i = Some s;
  nr_empty : n_slots n !! popcount (n_mask n) = Some e;
  nr_len : n_len n = S (popcount (n_mask n));
  nr_cap : n_cap n = length (n_slots n);
  nr_cap_le : n_cap n <= 128;
}.

Lemma nr_bit_false n g e i : node_rep n g e -> N.testbit (n_mask n) i = false <-> g i = None.
Proof.
  intros H. pose proof (nr_bits _ _ _ H i) as [H1 H2].
  destruct (N.testbit (n_mask n) i), (g i) as [s|]; split; intros; try done.
  - by destruct (H1 eq_refl).
  - by assert (false = true) by (apply H2; eauto).
Qed.
Lemma nr_bound n g e i s : node_rep n g e -> g i = Some s -> (i < 64)%N.
Proof.
  intros H Hs. destruct (decide (i < 64)%N); [done|]. exfalso.
  assert (N.testbit (n_mask n) i = true) as Hb by (apply (nr_bits _ _ _ H); eauto).
  rewrite testbit_high in Hb; [done|apply (nr_word _ _ _ H)|lia].
Qed.
Lemma nr_len_le n g e : node_rep n g e -> n_len n <= n_cap n.
Proof.
  intros H. rewrite (nr_len _ _ _ H), (nr_cap _ _ _ H).
  pose proof (lookup_lt_Some _ _ _ (nr_empty _ _ _ H)). lia.
Qed.
Lemma node_rep_ext n g g' e : (forall i, g i = g' i) -> node_rep n g e -> node_rep n g' e.
Proof.
  intros Hg [H1 H2 H3 H4 H5 H6 H7]. constructor; try done.
  - intros i. rewrite H2, Hg. done.
  - intros i s Hs. apply H3. by rewrite Hg.
Qed.

Lemma rank_le m i : word_ok m -> (i < 64)%N -> rank m i <= popcount m.
Proof. intros Hm Hi. rewrite popcount_word by done. apply cnt_mono. lia. Qed.
Lemma rank_lt m i : word_ok m -> (i < 64)%N -> N.testbit m i = true -> rank m i < popcount m.
Proof. intros Hm Hi Hb. rewrite popcount_word by done. apply cnt_strict; [done|lia]. Qed.

Lemma dense_index_ok m i : word_ok m -> (i < 64)%N -> get_dense_index m i = Ok (rank m i).
Proof.
  intros Hm Hi. unfold get_dense_index. destruct (N.ltb_spec i 64); [|lia]. f_equal.
  rewrite popcount_word by (by apply word_ok_land_l). unfold rank.
  assert (cnt (N.testbit (N.land m (not64 (shl64 WMAX i)))) 64 =
          cnt (fun j => N.testbit m j && (j <? i)%N) 64) as ->.
  { apply cnt_ext. intros j Hj. rewrite N.land_spec, not64_bit, shl64_bit, wmax_bit by (done || apply word_ok_shl64).
    destruct (N.testbit m j); cbn [andb]; [|done]. apply Bool.eq_iff_eq_true.
    repeat first [rewrite andb_true_iff | rewrite negb_true_iff | rewrite andb_false_iff]. lia. }
  assert (forall n, N.to_nat i <= n -> cnt (fun j => N.testbit m j && (j <? i)%N) n = cnt (N.testbit m) (N.to_nat i)) as Hc.
  { induction 1 as [|n Hn IH].
    - apply cnt_ext. intros j Hj. destruct (N.ltb_spec j i); [by rewrite andb_true_r|lia].
    - cbn [cnt]. rewrite IH. destruct (N.ltb_spec (N.of_nat n) i); [lia|]. rewrite andb_false_r. lia. }
  apply Hc. lia.
Qed.
(** the `bmi2` branch computes the same number *)
Lemma dense_index_bzhi m i : word_ok m -> (i < 64)%N -> get_dense_index_bzhi m i = rank m i.
Proof.
  intros Hm Hi. unfold get_dense_index_bzhi. destruct (N.ltb_spec i 64); [|lia].
  pose proof (dense_index_ok m i Hm Hi) as H1. unfold get_dense_index in H1.
  destruct (N.ltb_spec i 64); [|lia]. injection H1 as H1. rewrite <- H1. f_equal.
  apply N.bits_inj. intros j. rewrite !N.land_spec, not64_bit, shl64_bit, wmax_bit by (done || apply word_ok_shl64).
  destruct (N.ltb_spec j 64).
  - cbn [andb]. f_equal. destruct (N.ltb_spec j i).
    + rewrite N.ones_spec_low by lia. symmetry. apply negb_true_iff, andb_false_iff. lia.
    + rewrite N.ones_spec_high by lia. symmetry. apply negb_false_iff, andb_true_iff. lia.
  - rewrite (testbit_high m j) by (done || lia). done.
Qed.

Lemma rank_set m m' i j : N.testbit m i = false ->
  (forall j, N.testbit m' j = if (j =? i)%N then true else N.testbit m j) ->
  rank m' j = rank m j + (if decide (i < j)%N then 1 else 0).
Proof.
  intros Hi Hm'. unfold rank. erewrite (cnt_ext _ (fun k => (k =? i)%N || N.testbit m k)).
  - rewrite cnt_set by done. destruct (decide (N.to_nat i < N.to_nat j)), (decide (i < j)%N); lia.
  - intros k Hk. rewrite Hm'. by destruct (k =? i)%N.
Qed.
Lemma popcount_set m m' i : word_ok m -> word_ok m' -> (i < 64)%N -> N.testbit m i = false ->
  (forall j, N.testbit m' j = if (j =? i)%N then true else N.testbit m j) -> popcount m' = S (popcount m).
Proof.
  intros Hw Hw' Hlt Hi Hm'. pose proof (rank_set m m' i 64 Hi Hm') as H. unfold rank in H.
  rewrite decide_True in H by lia. rewrite !popcount_word by done.
  change (N.to_nat 64) with 64 in H. lia.
Qed.
Lemma rank_clear m m' i j : N.testbit m i = true ->
  (forall j, N.testbit m' j = if (j =? i)%N then false else N.testbit m j) ->
  rank m j = rank m' j + (if decide (i < j)%N then 1 else 0).
Proof.
  intros Hi Hm'. unfold rank. rewrite (cnt_clear _ i) by done.
  erewrite (cnt_ext (N.testbit m') (fun k => negb (k =? i)%N && N.testbit m k)).
  - destruct (decide (N.to_nat i < N.to_nat j)), (decide (i < j)%N); lia.
  - intros k Hk. rewrite Hm'. by destruct (k =? i)%N.
Qed.
Lemma popcount_clear m m' i : word_ok m -> word_ok m' -> (i < 64)%N -> N.testbit m i = true ->
  (forall j, N.testbit m' j = if (j =? i)%N then false else N.testbit m j) -> popcount m = S (popcount m').
Proof.
  intros Hw Hw' Hlt Hi Hm'. pose proof (rank_clear m m' i 64 Hi Hm') as H. unfold rank in H.
  rewrite decide_True in H by lia. rewrite !popcount_word by done.
  change (N.to_nat 64) with 64 in H. lia.
Qed.

(** ** Reading *)
Lemma nr_read_any n g e i : node_rep n g e -> (i < 64)%N ->
  exists s, n_slots n !! rank (n_mask n) i = Some s /\ (s = e \/ exists j, g j = Some s).
Proof.
  intros H Hi. pose proof (nr_word _ _ _ H) as Hw.
  destruct (decide (rank (n_mask n) i < popcount (n_mask n))) as [Hlt|Hge].
  - unfold rank at 1 in Hlt. rewrite popcount_word in Hlt by done.
    destruct (cnt_surj _ _ _ Hlt) as (j & Hj & Hjl & He).
    destruct (proj1 (nr_bits _ _ _ H j) Hj) as [s Hs].
    exists s. split; [|eauto]. unfold rank. rewrite <- He. by apply (nr_child _ _ _ H).
  - exists e. split; [|by left]. replace (rank (n_mask n) i) with (popcount (n_mask n)); [apply (nr_empty _ _ _ H)|].
    pose proof (rank_le (n_mask n) i Hw Hi). lia.
Qed.

(** ** Memory *)
Lemma hread_heap h a n : h_nodes h !! a = Some n -> hread h (PHeap a) = Ok n.
Proof. cbn. by intros ->. Qed.
Lemma hwrite_heap h a n n' : h_nodes h !! a = Some n ->
  hwrite h (PHeap a) n' = Ok (Heap (<[a := n']> (h_nodes h)) (h_next h)).
Proof. cbn. by intros ->. Qed.

Section ops.
Context (h : heap) (a : N) (n : node) (g : N -> option slot) (e : slot).
Hypothesis Hn : h_nodes h !! a = Some n.
Hypothesis Hr : node_rep n g e.

Lemma contains_ok i : (i < 64)%N ->
  node_contains h (PHeap a) i = Ok (bool_decide (is_Some (g i))).
Proof.
  intros Hi. unfold node_contains. rewrite (hread_heap _ _ _ Hn), bind_ok, get_bit_unchecked_ok by done.
  f_equal. apply Bool.eq_iff_eq_true. rewrite bool_decide_eq_true. apply (nr_bits _ _ _ Hr).
Qed.
Lemma get_child_present k i s : n_kind n = k -> g i = Some s ->
  get_child k h (PHeap a) i = Ok s.
Proof.
  intros Hk Hs. unfold get_child. rewrite (hread_heap _ _ _ Hn), bind_ok.
  rewrite dense_index_ok, bind_ok, decide_True by (done || apply (nr_word _ _ _ Hr) || by eapply nr_bound).
  apply get_u_ok. by apply (nr_child _ _ _ Hr).
Qed.
Lemma get_child_any k i : n_kind n = k -> (i < 64)%N ->
  exists s, get_child k h (PHeap a) i = Ok s /\ (s = e \/ exists j, g j = Some s).
Proof.
  intros Hk Hi. destruct (nr_read_any _ _ _ i Hr Hi) as (s & Hs & Hor). exists s. split; [|done].
  unfold get_child. rewrite (hread_heap _ _ _ Hn), bind_ok.
  rewrite dense_index_ok, bind_ok, decide_True by (done || apply (nr_word _ _ _ Hr)).
  by apply get_u_ok.
Qed.
End ops.

(** ** Writing a present child *)
Definition fn_upd {A} (g : N -> option A) (i : N) (s : option A) : N -> option A :=
  fun j => if (j =? i)%N then s else g j.
Lemma nr_write n g e i s s' : node_rep n g e -> g i = Some s ->
  node_rep (Node (n_kind n) (n_mask n) (n_cap n) (n_len n) (<[rank (n_mask n) i := s']> (n_slots n)))
    (fn_upd g i (Some s')) e.
Proof.
  intros H Hs. pose proof (nr_word _ _ _ H) as Hw. pose proof (nr_bound _ _ _ _ _ H Hs) as Hb.
  assert (N.testbit (n_mask n) i = true) as Hbit by (apply (nr_bits _ _ _ H); eauto).
  pose proof (nr_child _ _ _ H i s Hs) as Hsl. pose proof (lookup_lt_Some _ _ _ Hsl) as Hlt.
  destruct H as [H1 H2 H3 H4 H5 H6 H7]. constructor; cbn [n_mask n_cap n_len n_slots n_kind]; try done.
  - intros j. unfold fn_upd. destruct (N.eqb_spec j i) as [->|]; [|apply H2]. split; [by eexists|done].
  - intros j sj. unfold fn_upd. destruct (N.eqb_spec j i) as [->|Hne]; intros Hj.
    + injection Hj as <-. by apply list_lookup_insert.
    + rewrite list_lookup_insert_ne; [by apply H3|]. intros He. apply Hne. symmetry.
      eapply cnt_inj; [exact Hbit| |exact He]. apply H2; eauto.
  - rewrite list_lookup_insert_ne; [done|]. pose proof (rank_lt _ _ Hw Hb Hbit). lia.
  - by rewrite insert_length.
Qed.

(** ** slots_copy *)
Lemma slots_copy_right l d len l' : d <= len -> len < length l -> slots_copy l d (d + 1) (len - d) = Ok l' ->
  length l' = length l /\
  forall k, l' !! k = if decide (k <= d) then l !! k else if decide (k <= len) then l !! (k - 1) else l !! k.
Proof.
  intros Hd Hlen. unfold slots_copy. rewrite decide_True by lia. intros [= <-].
  assert (length (take (d + 1) l) = d + 1) as L1 by (rewrite take_length; lia).
  assert (length (take (len - d) (drop d l)) = len - d) as L2 by (rewrite take_length, drop_length; lia).
  split.
  - rewrite !app_length, L1, L2, drop_length. lia.
  - intros k. destruct (decide (k <= d)).
    + rewrite lookup_app_l by lia. apply lookup_take. lia.
    + rewrite lookup_app_r by lia. rewrite L1. destruct (decide (k <= len)).
      * rewrite lookup_app_l by lia. rewrite lookup_take by lia. rewrite lookup_drop. f_equal. lia.
      * rewrite lookup_app_r by lia. rewrite L2, lookup_drop. f_equal. lia.
Qed.
Lemma slots_copy_left l d len l' : d < len -> len <= length l -> slots_copy l (d + 1) d (len - (d + 1)) = Ok l' ->
  length l' = length l /\
  forall k, l' !! k = if decide (k < d) then l !! k else if decide (S k < len) then l !! (S k) else l !! k.
Proof.
  intros Hd Hlen. unfold slots_copy. rewrite decide_True by lia. intros [= <-].
  assert (length (take d l) = d) as L1 by (rewrite take_length; lia).
  assert (length (take (len - (d + 1)) (drop (d + 1) l)) = len - (d + 1)) as L2 by (rewrite take_length, drop_length; lia).
  split.
  - rewrite !app_length, L1, L2, drop_length. lia.
  - intros k. destruct (decide (k < d)).
    + rewrite lookup_app_l by lia. apply lookup_take. lia.
    + rewrite lookup_app_r by lia. rewrite L1. destruct (decide (S k < len)).
      * rewrite lookup_app_l by lia. rewrite lookup_take by lia. rewrite lookup_drop. f_equal. lia.
      * rewrite lookup_app_r by lia. rewrite L2, lookup_drop. f_equal. lia.
Qed.

(** ** insert of an absent child *)
Lemma nr_insert n g e i s k : node_rep n g e -> n_kind n = k -> (i < 64)%N -> g i = None ->
  n_len n < n_cap n -> exists m slots, 
    set_bit_unchecked true (n_mask n) i = Ok (m, false) /\
    get_dense_index m i = Ok (rank m i) /\
    rank m i = rank (n_mask n) i /\
    sub_u (n_len n) (rank m i) = Ok (n_len n - rank m i) /\
    slots_copy (n_slots n) (rank m i) (rank m i + 1) (n_len n - rank m i) = Ok slots /\
    rank m i < length slots /\
    u8_ok (n_len n + 1) = true /\
    node_rep (Node k m (n_cap n) (n_len n + 1) (<[rank m i := s]> slots)) (fn_upd g i (Some s)) e.
Proof.
  intros H Hk Hi Hg Hlen. pose proof (nr_word _ _ _ H) as Hw.
  pose proof (proj2 (nr_bit_false _ _ _ i H) Hg) as Hb.
  destruct (set_bit_unchecked_ok true (n_mask n) i Hw Hi) as (m & Hset & Hm & Hbits).
  rewrite Hb in Hset. pose proof (rank_set _ _ i i Hb Hbits) as Hri.
  rewrite decide_False in Hri by lia. rewrite Nat.add_0_r in Hri.
  pose proof (popcount_set _ _ i Hw Hm Hi Hb Hbits) as Hpop.
  pose proof (rank_le _ _ Hw Hi) as Hrle.
  pose proof (nr_len _ _ _ H) as Hl. pose proof (nr_cap _ _ _ H) as Hc. pose proof (nr_cap_le _ _ _ H) as Hcl.
  assert (rank m i <= n_len n) as Hd by lia.
  assert (exists slots, slots_copy (n_slots n) (rank m i) (rank m i + 1) (n_len n - rank m i) = Ok slots) as [slots Hs].
  { unfold slots_copy. rewrite decide_True by lia. eauto. }
  assert (n_len n < length (n_slots n)) as Hll by lia.
  destruct (slots_copy_right _ _ _ _ Hd Hll Hs) as [Hlen' Hlook].
  exists m, slots. split; [done|]. split; [by apply dense_index_ok|]. split; [done|].
  split; [unfold sub_u; by rewrite decide_True|]. split; [done|]. split; [lia|].
  split; [apply bool_decide_eq_true; lia|].
  constructor; cbn [n_mask n_cap n_len n_slots n_kind]; try done.
  - intros j. rewrite Hbits. unfold fn_upd. destruct (j =? i)%N; [|apply (nr_bits _ _ _ H)]. split; [by eexists|done].
  - intros j sj. unfold fn_upd. destruct (N.eqb_spec j i) as [->|Hne]; intros Hj.
    + injection Hj as <-. apply list_lookup_insert. lia.
    + pose proof (nr_child _ _ _ H j sj Hj) as Hold.
      assert (N.testbit (n_mask n) j = true) as Hbj by (apply (nr_bits _ _ _ H); eauto).
      pose proof (nr_bound _ _ _ _ _ H Hj) as Hj64. pose proof (rank_lt _ _ Hw Hj64 Hbj).
      rewrite (rank_set _ _ i j Hb Hbits). destruct (decide (i < j)%N) as [Hij|Hij].
      * assert (rank (n_mask n) i <= rank (n_mask n) j) by (apply cnt_mono; lia).
        rewrite list_lookup_insert_ne by lia. rewrite Hlook.
        rewrite decide_False by lia. rewrite decide_True by lia.
        by replace (rank (n_mask n) j + 1 - 1) with (rank (n_mask n) j) by lia.
      * assert (rank (n_mask n) j < rank (n_mask n) i) by (apply cnt_strict; [done|lia]).
        rewrite Nat.add_0_r. rewrite list_lookup_insert_ne by lia. rewrite Hlook.
        by rewrite decide_True by lia.
  - rewrite Hpop. rewrite list_lookup_insert_ne by lia. rewrite Hlook.
    rewrite decide_False by lia. rewrite decide_True by lia.
    replace (S (popcount (n_mask n)) - 1) with (popcount (n_mask n)) by lia. apply (nr_empty _ _ _ H).
  - lia.
  - rewrite insert_length. lia.
Qed.

(** ** remove of a present child *)
Lemma nr_remove n g e i s k : node_rep n g e -> n_kind n = k -> g i = Some s ->
  exists m slots,
    get_dense_index (n_mask n) i = Ok (rank (n_mask n) i) /\
    set_bit_unchecked false (n_mask n) i = Ok (m, true) /\
    sub_u (n_len n) (rank (n_mask n) i + 1) = Ok (n_len n - (rank (n_mask n) i + 1)) /\
    slots_copy (n_slots n) (rank (n_mask n) i + 1) (rank (n_mask n) i) (n_len n - (rank (n_mask n) i + 1)) = Ok slots /\
    sub_u (n_len n) 1 = Ok (n_len n - 1) /\
    node_rep (Node k m (n_cap n) (n_len n - 1) slots) (fn_upd g i None) e.
Proof.
  intros H Hk Hs. pose proof (nr_word _ _ _ H) as Hw. pose proof (nr_bound _ _ _ _ _ H Hs) as Hi.
  assert (N.testbit (n_mask n) i = true) as Hb by (apply (nr_bits _ _ _ H); eauto).
  destruct (set_bit_unchecked_ok false (n_mask n) i Hw Hi) as (m & Hset & Hm & Hbits).
  rewrite Hb in Hset. pose proof (popcount_clear _ _ i Hw Hm Hi Hb Hbits) as Hpop.
  pose proof (rank_lt _ _ Hw Hi Hb) as Hrlt.
  pose proof (nr_len _ _ _ H) as Hl. pose proof (nr_cap _ _ _ H) as Hc. pose proof (nr_len_le _ _ _ H) as Hlc.
  assert (exists slots, slots_copy (n_slots n) (rank (n_mask n) i + 1) (rank (n_mask n) i) (n_len n - (rank (n_mask n) i + 1)) = Ok slots) as [slots Hsl].
  { unfold slots_copy. rewrite decide_True by lia. eauto. }
  assert (rank (n_mask n) i < n_len n) as Hll1 by lia. assert (n_len n <= length (n_slots n)) as Hll2 by lia.
  destruct (slots_copy_left _ _ _ _ Hll1 Hll2 Hsl) as [Hlen' Hlook].
  exists m, slots. split; [by apply dense_index_ok|]. split; [done|].
  split; [unfold sub_u; by rewrite decide_True by lia|]. split; [done|].
  split; [unfold sub_u; by rewrite decide_True by lia|].
  constructor; cbn [n_mask n_cap n_len n_slots n_kind]; try done.
  - intros j. rewrite Hbits. unfold fn_upd. destruct (j =? i)%N; [|apply (nr_bits _ _ _ H)]. split; [done|by intros [? ?]].
  - intros j sj. unfold fn_upd. destruct (N.eqb_spec j i) as [->|Hne]; intros Hj; [done|].
    pose proof (nr_child _ _ _ H j sj Hj) as Hold.
    assert (N.testbit (n_mask n) j = true) as Hbj by (apply (nr_bits _ _ _ H); eauto).
    pose proof (nr_bound _ _ _ _ _ H Hj) as Hj64. pose proof (rank_lt _ _ Hw Hj64 Hbj).
    pose proof (rank_clear _ _ i j Hb Hbits) as Hrj. rewrite Hlook. destruct (decide (i < j)%N) as [Hij|Hij].
    + assert (rank (n_mask n) i < rank (n_mask n) j) by (apply cnt_strict; [done|lia]).
      rewrite decide_False by lia. rewrite decide_True by lia.
      by replace (S (rank m j)) with (rank (n_mask n) j) by lia.
    + assert (rank (n_mask n) j < rank (n_mask n) i) by (apply cnt_strict; [done|lia]).
      rewrite decide_True by lia. by replace (rank m j) with (rank (n_mask n) j) by lia.
  - rewrite Hlook. rewrite decide_False by lia. rewrite decide_True by lia. rewrite <- Hpop. apply (nr_empty _ _ _ H).
  - lia.
  - lia.
  - apply (nr_cap_le _ _ _ H).
Qed.

(** a node with no children left has length 1 and vice versa *)
Lemma nr_len_1 n g e : node_rep n g e -> n_len n = 1 <-> forall i, g i = None.
Proof.
  intros H. rewrite (nr_len _ _ _ H). pose proof (nr_word _ _ _ H) as Hw.
  rewrite popcount_word by done. split.
  - intros Hp i. apply (nr_bit_false _ _ _ _ H). destruct (decide (i < 64)%N).
    + apply (proj1 (cnt_zero (N.testbit (n_mask n)) 64)); [lia|lia].
    + apply testbit_high; [done|lia].
  - intros Hg. f_equal. apply cnt_zero. intros i _. by apply (nr_bit_false _ _ _ _ H).
Qed.
Lemma nr_len_not1 n g e : node_rep n g e -> n_len n <> 1 -> exists i, is_Some (g i).
Proof.
  intros H Hl. rewrite (nr_len _ _ _ H), popcount_word in Hl by apply (nr_word _ _ _ H).
  destruct (cnt_surj (N.testbit (n_mask n)) 64 0) as (i & Hi & _); [lia|]. exists i. by apply (nr_bits _ _ _ H).
Qed.
(** a fresh node *)
Lemma nr_new k e : node_rep (Node k 0 DEFAULT_CAP 1 [e; SUninit]) (fun _ => None) e.
Proof.
  constructor; cbn [n_mask n_cap n_len n_slots n_kind]; try done.
  - intros i. rewrite N.bits_0. split; [done|by intros [? ?]].
  - unfold DEFAULT_CAP. lia.
Qed.
