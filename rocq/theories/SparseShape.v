(** * SparseTree: shape invariant of the level block vectors
    (ghost map from paths to block indices) *)
From Verif Require Import Base BitUtils BitUtilsProofs BitQueue LevelIndices LevelIndicesProofs
  ConstLoops Hierarchy Lawful Dense DenseNode DenseShape Sparse.

(** ** blocks *)
Section blk.
Context (nw : nat).
Hypothesis Hnw : nw_ok nw.
Definition zeros : list N := replicate (N.to_nat (msize nw)) 0%N.
(** block [b] stores the partial function [g] *)
Record blk_rep (b : block) (g : N -> option N) : Prop := BlkRep {
  br_mask : mask_ok nw (b_mask b);
  br_len : length (b_idx b) = N.to_nat (msize nw);
  br_bit : forall i, mbit (b_mask b) i = bool_decide (is_Some (g i));
  br_idx : forall i, (i < msize nw)%N -> b_idx b !! N.to_nat i = Some (default 0%N (g i));
}.
Lemma br_ext b g g' : (forall i, g i = g' i) -> blk_rep b g -> blk_rep b g'.
Proof. intros H [H1 H2 H3 H4]. constructor; try done; intros i; rewrite <- H; auto. Qed.
Lemma mbit_bound m i : mask_ok nw m -> mbit m i = true -> (i < msize nw)%N.
Proof.
  intros [Hl Hm] Hb. unfold mbit in Hb. destruct (m !! N.to_nat (i / 64)) eqn:E; [|done].
  apply lookup_lt_Some in E. unfold msize. lia.
Qed.
Lemma br_bound b g i : blk_rep b g -> is_Some (g i) -> (i < msize nw)%N.
Proof.
  intros Hr Hg. eapply mbit_bound; [apply (br_mask _ _ Hr)|]. rewrite (br_bit _ _ Hr). by apply bool_decide_eq_true.
Qed.
Lemma blk_empty_rep : blk_rep (blk_empty nw) (fun _ => None).
Proof.
  constructor; cbn [blk_empty b_mask b_idx].
  - apply mask_zero_ok.
  - apply replicate_length.
  - intros i. rewrite mbit_zero. by rewrite bool_decide_false by (by intros [? ?]).
  - intros i Hi. cbn [default]. apply lookup_replicate. split; [done|lia].
Qed.
Lemma blk_empty_unique b g : blk_rep b g -> (forall i, g i = None) -> b = blk_empty nw.
Proof.
  intros Hr Hg. destruct b as [m ix]. unfold blk_empty. f_equal.
  - apply (mask_ext nw); [apply (br_mask _ _ Hr)|apply mask_zero_ok|]. intros i _.
    pose proof (br_bit _ _ Hr i) as E. cbn in E. rewrite E, mbit_zero, Hg. by rewrite bool_decide_false by (by intros [? ?]).
  - pose proof (br_len _ _ Hr) as Hl. cbn in Hl. apply list_eq_same_length with (N.to_nat (msize nw)); [apply replicate_length|done|].
    intros i x y Hi Hx Hy. apply lookup_replicate in Hy as [-> _].
    pose proof (br_idx _ _ Hr (N.of_nat i) ltac:(lia)) as E. rewrite Nat2N.id in E. cbn in E. rewrite Hg in E. cbn in E. congruence.
Qed.
Lemma blk_get_ok b g i : blk_rep b g -> (i < msize nw)%N -> blk_get b i = Ok (default 0%N (g i)).
Proof. intros Hr Hi. unfold blk_get. by rewrite (get_u_ok _ _ _ (br_idx _ _ Hr _ Hi)). Qed.

Definition upd (g : N -> option N) (i : N) (o : option N) : N -> option N :=
  fun j => if (j =? i)%N then o else g j.
Lemma br_upd b g i o x m' : blk_rep b g -> (i < msize nw)%N -> x = default 0%N o ->
  mask_ok nw m' -> (forall j, mbit m' j = if (j =? i)%N then bool_decide (is_Some o) else mbit (b_mask b) j) ->
  blk_rep (Block m' (<[N.to_nat i := x]> (b_idx b))) (upd g i o).
Proof.
  intros Hr Hi -> Hm Hb. constructor; cbn [b_mask b_idx].
  - done.
  - rewrite insert_length. apply (br_len _ _ Hr).
  - intros j. rewrite Hb. unfold upd. destruct (N.eqb_spec j i); [done|]. apply (br_bit _ _ Hr).
  - intros j Hj. unfold upd. destruct (N.eqb_spec j i) as [->|Hne].
    + apply list_lookup_insert. rewrite (br_len _ _ Hr). lia.
    + rewrite list_lookup_insert_ne by lia. by apply (br_idx _ _ Hr).
Qed.
Lemma blk_insert_ok b g i x : blk_rep b g -> (i < msize nw)%N ->
  exists b', blk_insert b i x = Ok b' /\ blk_rep b' (upd g i (Some x)).
Proof.
  intros Hr Hi. unfold blk_insert.
  destruct (mask_set_bit_ok true nw (b_mask b) i (br_mask _ _ Hr) Hi) as (m' & -> & Hm & Hb). rewrite bind_ok.
  rewrite set_u_ok by (rewrite (br_len _ _ Hr); lia). rewrite bind_ok. eexists. split; [done|].
  apply br_upd; [done..|]. intros j. rewrite Hb. destruct (j =? i)%N; done.
Qed.
Lemma blk_remove_ok b g i : blk_rep b g -> (i < msize nw)%N ->
  exists b', blk_remove b i = Ok b' /\ blk_rep b' (upd g i None).
Proof.
  intros Hr Hi. unfold blk_remove.
  destruct (mask_set_bit_ok false nw (b_mask b) i (br_mask _ _ Hr) Hi) as (m' & -> & Hm & Hb). rewrite bind_ok.
  rewrite set_u_ok by (rewrite (br_len _ _ Hr); lia). rewrite bind_ok. eexists. split; [done|].
  apply br_upd; [done..|]. intros j. rewrite Hb. destruct (j =? i)%N; done.
Qed.
Lemma blk_set_ok b g i x : blk_rep b g -> (i < msize nw)%N -> is_Some (g i) ->
  exists b', blk_set b i x = Ok b' /\ blk_rep b' (upd g i (Some x)).
Proof.
  intros Hr Hi Hg. unfold blk_set.
  rewrite set_u_ok by (rewrite (br_len _ _ Hr); lia). rewrite bind_ok. eexists. split; [done|].
  apply br_upd; try done; [apply (br_mask _ _ Hr)|]. intros j. destruct (N.eqb_spec j i) as [->|]; [|done].
  rewrite (br_bit _ _ Hr). rewrite !bool_decide_true by eauto. done.
Qed.
Lemma blk_is_empty_ok b g : blk_rep b g -> blk_is_empty b = true <-> forall i, g i = None.
Proof.
  intros Hr. unfold blk_is_empty. rewrite (mask_is_zero_ok nw) by apply (br_mask _ _ Hr). split; intros H i.
  - specialize (H i). rewrite (br_bit _ _ Hr) in H. apply bool_decide_eq_false in H. by apply eq_None_not_Some.
  - rewrite (br_bit _ _ Hr), H. by rewrite bool_decide_false by (by intros [? ?]).
Qed.

(** a block of the free list: empty but for the link in its first mask word *)
Definition free_blk (link : N) : block := Block (link :: replicate (nw - 1) 0%N) zeros.
Lemma mask_zero_cons : mask_zero nw = 0%N :: replicate (nw - 1) 0%N.
Proof. pose proof (nw_ok_pos _ Hnw). unfold mask_zero. by destruct nw as [|n]; [lia|]; cbn; rewrite Nat.sub_0_r. Qed.
Lemma free_set_link link : blk_set_link (blk_empty nw) link = Ok (free_blk link).
Proof. unfold blk_set_link, blk_empty, free_blk, zeros. cbn [b_mask b_idx]. rewrite mask_zero_cons. reflexivity. Qed.
Lemma free_restore link : blk_restore_empty (free_blk link) = Ok (blk_empty nw).
Proof. unfold blk_restore_empty, blk_set_link, blk_empty, free_blk, zeros. cbn [b_mask b_idx]. rewrite mask_zero_cons. reflexivity. Qed.
Lemma free_link link : blk_link (free_blk link) = Ok link.
Proof. reflexivity. Qed.

(** the free list starting at [r] consists of the blocks [fl] *)
Fixpoint chain (bs : list block) (r : N) (fl : list N) : Prop :=
  match fl with
  | [] => r = U64MAX
  | a :: fl => r = a /\ exists link, bs !! N.to_nat a = Some (free_blk link) /\ chain bs link fl
  end.
Lemma chain_ext bs bs' r fl : (forall a, a ∈ fl -> bs' !! N.to_nat a = bs !! N.to_nat a) -> chain bs r fl -> chain bs' r fl.
Proof.
  revert r. induction fl as [|a fl IH]; intros r He; cbn [chain]; [done|].
  intros (-> & link & Hb & Hc). split; [done|]. exists link. rewrite He by left. split; [done|]. apply IH; [|done].
  intros b Hb'. apply He. by right.
Qed.
Lemma chain_lookup bs r fl a : chain bs r fl -> a ∈ fl -> N.to_nat a < length bs.
Proof.
  revert r. induction fl as [|b fl IH]; intros r; cbn [chain]; [by intros _ ?%elem_of_nil|].
  intros (-> & link & Hb & Hc) [->|Hin]%elem_of_cons; [by eapply lookup_lt_Some|by eapply IH].
Qed.
End blk.

(** ** Shape *)
Section sshape.
Context (nw D : nat).
Hypothesis Hnw : nw_ok nw.
Hypothesis HD0 : 1 <= D.
Notation pmap := (gmap (list N) N).
Notation soverride := (option (list N * option N)).

(** child recorded for index [i] of the block at path [p] *)
Definition schilds0 (P J : pmap) (p : list N) (i : N) : option N :=
  if decide (S (length p) < D) then P !! (p ++ [i]) else J !! (p ++ [i]).
(** [X] overrides one child (used only between the steps of an operation) *)
Definition schilds (P J : pmap) (X : soverride) (p : list N) (i : N) : option N :=
  match X with
  | Some (x, o) => if decide (p ++ [i] = x) then o else schilds0 P J p i
  | None => schilds0 P J p i
  end.

Record llist_ok (n : nat) (bs : list block) (r : N) (fl : list N) (P : pmap) (g : list N -> N -> option N) : Prop := LListOk {
  ll_zero : bs !! 0 = Some (blk_empty nw);
  ll_node : forall p a, P !! p = Some a -> length p = n -> exists b, bs !! N.to_nat a = Some b /\ blk_rep nw b (g p);
  ll_chain : chain nw bs r fl;
  ll_nodup : NoDup fl;
  ll_free : forall a, a ∈ fl -> (0 < a)%N /\ forall p, length p = n -> P !! p <> Some a;
  ll_dom : forall a, 0 < a -> a < length bs -> N.of_nat a ∈ fl \/ exists p, length p = n /\ P !! p = Some (N.of_nat a);
  ll_bound : (N.of_nat (length bs) <= 2 ^ lbits (n - 1))%N;
}.
Definition lvl_ok (n : nat) (l : level) (P : pmap) (g : list N -> N -> option N) : Prop :=
  match n with
  | O => exists b, l = LSingle b /\ blk_rep nw b (g [])
  | S _ => exists bs r fl, l = LList bs r /\ llist_ok n bs r fl P g
  end.

Record sshape (ls : list level) (P J : pmap) (X : soverride) : Prop := SShape {
  ss_len : length ls = D;
  ss_lvl : forall n l, ls !! n = Some l -> lvl_ok n l P (schilds P J X);
  ss_root : P !! [] = Some 0%N;
  ss_pos : forall p a, P !! p = Some a -> p <> [] -> (0 < a)%N;
  ss_inj : forall p q a, P !! p = Some a -> P !! q = Some a -> length p = length q -> p = q;
  ss_path : forall p a, P !! p = Some a -> path_ok nw (length p) p /\ length p < D;
  ss_parent : forall p i a, P !! (p ++ [i]) = Some a -> is_Some (P !! p);
  ss_jpath : forall q j, J !! q = Some j -> path_ok nw D q /\ (0 < j)%N /\ exists p i, q = p ++ [i] /\ is_Some (P !! p);
}.

Lemma lbits_le n : (2 ^ lbits n <= 2 ^ 32)%N.
Proof. apply N.pow_le_mono_r; [done|]. destruct n as [|[|n]]; cbn; lia. Qed.

Lemma ss_prefix ls P J X p q a : sshape ls P J X -> P !! (p ++ q) = Some a -> is_Some (P !! p).
Proof.
  intros Sh. revert a. induction q as [|i q IH] using rev_ind; intros a Ha; [rewrite app_nil_r in Ha; eauto|].
  rewrite app_assoc in Ha. destruct (ss_parent _ _ _ _ Sh _ _ _ Ha) as [b Hb]. eauto.
Qed.

(** reading the block of a node *)
Lemma ss_block ls P J X p a : sshape ls P J X -> P !! p = Some a ->
  exists b, get_block ls (length p) a = Ok b /\ blk_rep nw b (schilds P J X p).
Proof.
  intros Sh Ha. destruct (ss_path _ _ _ _ Sh _ _ Ha) as [_ Hlt].
  destruct (lookup_lt_is_Some_2 ls (length p)) as [l Hl]; [by rewrite (ss_len _ _ _ _ Sh)|].
  pose proof (ss_lvl _ _ _ _ Sh _ _ Hl) as Hok. unfold get_block, lv_at, get_c. rewrite Hl, bind_ok. unfold lv_get.
  destruct (length p) as [|n] eqn:En; cbn [lvl_ok] in Hok.
  - destruct Hok as (b & -> & Hr). destruct p; [|done]. rewrite (ss_root _ _ _ _ Sh) in Ha. injection Ha as <-.
    exists b. done.
  - destruct Hok as (bs & r & fl & -> & Hll). destruct (ll_node _ _ _ _ _ _ Hll _ _ Ha En) as (b & Hb & Hr).
    exists b. cbn [lv_blocks]. by rewrite (get_u_ok _ _ _ Hb).
Qed.
(** block 0 of a level below the root is the empty block *)
Lemma ss_zero ls P J X n : sshape ls P J X -> 0 < n -> n < D -> get_block ls n 0%N = Ok (blk_empty nw).
Proof.
  intros Sh Hn Hlt. destruct (lookup_lt_is_Some_2 ls n) as [l Hl]; [by rewrite (ss_len _ _ _ _ Sh)|].
  pose proof (ss_lvl _ _ _ _ Sh _ _ Hl) as Hok. unfold get_block, lv_at, get_c. rewrite Hl, bind_ok. unfold lv_get.
  destruct n as [|n]; [lia|]. cbn [lvl_ok] in Hok. destruct Hok as (bs & r & fl & -> & Hll). cbn [lv_blocks].
  change (N.to_nat 0) with 0. by rewrite (get_u_ok _ _ _ (ll_zero _ _ _ _ _ _ Hll)).
Qed.
Lemma ss_addr ls P J X p a : sshape ls P J X -> P !! p = Some a -> p <> [] ->
  (0 < a)%N /\ (a < 2 ^ lbits (length p - 1))%N.
Proof.
  intros Sh Ha Hne. split; [by eapply ss_pos|]. destruct (ss_path _ _ _ _ Sh _ _ Ha) as [_ Hlt].
  destruct (lookup_lt_is_Some_2 ls (length p)) as [l Hl]; [by rewrite (ss_len _ _ _ _ Sh)|].
  pose proof (ss_lvl _ _ _ _ Sh _ _ Hl) as Hok. destruct (length p) as [|n] eqn:En; [by destruct p|].
  cbn [lvl_ok] in Hok. destruct Hok as (bs & r & fl & -> & Hll).
  destruct (ll_node _ _ _ _ _ _ Hll _ _ Ha En) as (b & Hb & _). apply lookup_lt_Some in Hb.
  pose proof (ll_bound _ _ _ _ _ _ Hll). lia.
Qed.

Lemma llist_ext n bs r fl P P' g g' : (forall p, length p = n -> P' !! p = P !! p) ->
  (forall p i, length p = n -> is_Some (P !! p) -> g' p i = g p i) ->
  llist_ok n bs r fl P g -> llist_ok n bs r fl P' g'.
Proof.
  intros HP Hg [H1 H2 H3 H4 H5 H6 H7]. constructor; try done.
  - intros p a Ha Hl. rewrite HP in Ha by done. destruct (H2 p a Ha Hl) as (b & Hb & Hr). exists b. split; [done|].
    eapply br_ext; [|exact Hr]. intros i. symmetry. apply Hg; eauto.
  - intros a Ha. destruct (H5 a Ha) as [Hp Hn]. split; [done|]. intros p Hl. rewrite HP by done. by apply Hn.
  - intros a Ha1 Ha2. destruct (H6 a Ha1 Ha2) as [?|(p & Hl & Hp)]; [by left|right]. exists p. split; [done|]. by rewrite HP.
Qed.
Lemma lvl_ext n l P P' g g' : (forall p, length p = n -> P' !! p = P !! p) -> is_Some (P !! []) ->
  (forall p i, length p = n -> is_Some (P !! p) -> g' p i = g p i) ->
  lvl_ok n l P g -> lvl_ok n l P' g'.
Proof.
  intros HP Hroot Hg. destruct n as [|n]; cbn [lvl_ok].
  - intros (b & -> & Hr). exists b. split; [done|]. eapply br_ext; [|exact Hr]. intros i. symmetry. by apply Hg.
  - intros (bs & r & fl & -> & Hll). exists bs, r, fl. split; [done|]. by eapply llist_ext.
Qed.
Lemma ss_ext ls P J J' X X' : sshape ls P J X ->
  (forall p i, is_Some (P !! p) -> schilds P J' X' p i = schilds P J X p i) ->
  (forall q j, J' !! q = Some j -> path_ok nw D q /\ (0 < j)%N /\ exists p i, q = p ++ [i] /\ is_Some (P !! p)) ->
  sshape ls P J' X'.
Proof.
  intros Sh Hc HJ. destruct Sh as [H1 H2 H3 H4 H5 H6 H7 H8]. constructor; try done.
  intros n l Hl. eapply lvl_ext; [| | |by apply H2]; [done|eauto|]. intros p i _ Hp. by apply Hc.
Qed.

(** replacing the block of a node *)
Lemma ss_put ls P J X J' X' p a b' : sshape ls P J X -> P !! p = Some a ->
  blk_rep nw b' (schilds P J' X' p) ->
  (forall r i, r <> p -> is_Some (P !! r) -> schilds P J' X' r i = schilds P J X r i) ->
  (forall q j, J' !! q = Some j -> path_ok nw D q /\ (0 < j)%N /\ exists p i, q = p ++ [i] /\ is_Some (P !! p)) ->
  exists ls', put_block ls (length p) a b' = Ok ls' /\ sshape ls' P J' X' /\
    (forall n, n <> length p -> ls' !! n = ls !! n) /\ get_block ls' (length p) a = Ok b'.
Proof.
  intros Sh Ha Hr Hoth HJ. destruct (ss_path _ _ _ _ Sh _ _ Ha) as [_ Hlt].
  destruct (lookup_lt_is_Some_2 ls (length p)) as [l Hl]; [by rewrite (ss_len _ _ _ _ Sh)|].
  pose proof (ss_lvl _ _ _ _ Sh _ _ Hl) as Hok. unfold put_block, lv_at, get_c. rewrite Hl, bind_ok.
  assert (exists l', lv_set l a b' = Ok l' /\ lvl_ok (length p) l' P (schilds P J' X') /\ lv_get l' a = Ok b') as (l' & -> & Hok' & Hg').
  { unfold lv_set. destruct (length p) as [|n] eqn:En; cbn [lvl_ok] in *.
    - destruct Hok as (b & -> & Hr0). destruct p; [|done]. rewrite (ss_root _ _ _ _ Sh) in Ha. injection Ha as <-.
      eexists. split; [reflexivity|]. split; [|reflexivity]. exists b'. done.
    - destruct Hok as (bs & r & fl & -> & Hll). cbn [lv_blocks].
      destruct (ll_node _ _ _ _ _ _ Hll _ _ Ha En) as (b & Hb & _). pose proof (lookup_lt_Some _ _ _ Hb) as Hbl.
      rewrite set_u_ok, bind_ok by done. eexists. split; [reflexivity|]. cbn [lv_with_blocks].
      assert ((0 < a)%N) as Hpos by (eapply (ss_pos _ _ _ _ Sh); [done|by intros ->]).
      split; [|unfold lv_get; cbn [lv_blocks]; rewrite (get_u_ok _ _ b'); [done|by apply list_lookup_insert]].
      exists (<[N.to_nat a := b']> bs), r, fl. split; [done|]. destruct Hll as [L1 L2 L3 L4 L5 L6 L7]. constructor.
      + rewrite list_lookup_insert_ne by lia. done.
      + intros p0 a0 Ha0 Hl0. destruct (decide (p0 = p)) as [->|Hne].
        * assert (a0 = a) as -> by congruence. exists b'. split; [by apply list_lookup_insert|done].
        * destruct (L2 p0 a0 Ha0 Hl0) as (b0 & Hb0 & Hr0). exists b0. rewrite list_lookup_insert_ne.
          -- split; [done|]. eapply br_ext; [|exact Hr0]. intros i. symmetry. apply Hoth; eauto.
          -- intros E. apply N2Nat.inj in E. subst a0. apply Hne. eapply (ss_inj _ _ _ _ Sh); [done|done|congruence].
      + eapply chain_ext; [|exact L3]. intros x Hx. apply list_lookup_insert_ne. intros E. apply N2Nat.inj in E. subst x.
        destruct (L5 _ Hx) as [_ Hn]. by apply (Hn p).
      + done.
      + done.
      + intros x Hx1 Hx2. rewrite insert_length in Hx2. by apply L6.
      + by rewrite insert_length. }
  rewrite bind_ok. assert (length ls = D) as HL by apply (ss_len _ _ _ _ Sh).
  eexists. split; [done|]. split; [|split].
  - destruct Sh as [H1 H2 H3 H4 H5 H6 H7 H8]. constructor; try done.
    + by rewrite insert_length.
    + intros n l0 Hn. destruct (decide (n = length p)) as [->|Hne].
      * rewrite list_lookup_insert in Hn by lia. injection Hn as <-. done.
      * rewrite list_lookup_insert_ne in Hn by done. eapply lvl_ext; [| | |by apply H2]; [done|eauto|].
        intros p0 i Hp0 HP0. apply Hoth; [congruence|done].
  - intros n Hn. by rewrite list_lookup_insert_ne.
  - unfold get_block, lv_at, get_c. by rewrite list_lookup_insert by lia.
Qed.

Lemma schilds_no_node P J p : P !! p = None ->
  (forall r i a, P !! (r ++ [i]) = Some a -> is_Some (P !! r)) ->
  (forall q j, J !! q = Some j -> path_ok nw D q /\ (0 < j)%N /\ exists p i, q = p ++ [i] /\ is_Some (P !! p)) ->
  forall i, schilds0 P J p i = None.
Proof.
  intros Hp Hpar HJ i. unfold schilds0. destruct (decide (S (length p) < D)).
  - destruct (P !! (p ++ [i])) as [a|] eqn:E; [|done]. apply Hpar in E as [? ?]. congruence.
  - destruct (J !! (p ++ [i])) as [a|] eqn:E; [|done]. apply HJ in E as (_ & _ & r & j & E & [? ?]).
    apply app_one_inj in E as [<- _]. congruence.
Qed.

(** counting live blocks: if nothing is free, the block vector is no longer than the
    number of live paths plus one *)
Lemma ll_count n bs r P g (S : gset N) : llist_ok n bs r [] P g ->
  (forall p a, P !! p = Some a -> length p = n -> path_ok nw n p /\ key_of_path nw p ∈ S) ->
  (forall p q a, P !! p = Some a -> P !! q = Some a -> length p = length q -> p = q) ->
  length bs - 1 <= size S.
Proof.
  intros Hll HS Hinj.
  assert (forall l : list nat, NoDup l -> (forall a, a ∈ l -> 0 < a /\ a < length bs) ->
     exists ks : list N, length ks = length l /\ NoDup ks /\
       (forall k, k ∈ ks -> k ∈ S /\ exists a p, a ∈ l /\ length p = n /\ P !! p = Some (N.of_nat a) /\ key_of_path nw p = k)) as Hex.
  { induction l as [|a l IH]; intros Hnd Hb; [exists []; split; [done|]; split; [constructor|]; by intros k ?%elem_of_nil|].
    apply NoDup_cons in Hnd as [Ha Hnd]. destruct IH as (ks & Hl & Hn & Hks); [done|intros x Hx; apply Hb; by right|].
    destruct (Hb a ltac:(left)) as [Ha1 Ha2].
    destruct (ll_dom _ _ _ _ _ _ Hll a Ha1 Ha2) as [?%elem_of_nil|(p & Hpl & Hp)]; [done|].
    destruct (HS _ _ Hp Hpl) as [Hpo Hin]. exists (key_of_path nw p :: ks). split; [cbn; lia|]. split.
    - constructor; [|done]. intros Hk. destruct (Hks _ Hk) as (_ & a' & p' & Ha' & Hpl' & Hp' & E).
      destruct (HS _ _ Hp' Hpl') as [Hpo' _].
      assert (p' = p) as ->.
      { rewrite <- (li_loop_of_path nw (pred n) p'), <- (li_loop_of_path nw (pred n) p).
        - by rewrite E.
        - done.
        - destruct n as [|n']; [|done]. destruct p; [|done]. destruct p'; [|done].
          exfalso. apply Ha. rewrite Hp in Hp'. injection Hp' as E'. by replace a with a' by lia.
        - done.
        - destruct n as [|n']; [|done]. destruct p; [|done]. destruct p'; [|done].
          exfalso. apply Ha. rewrite Hp in Hp'. injection Hp' as E'. by replace a with a' by lia. }
      apply Ha. rewrite Hp in Hp'. injection Hp' as E'. by replace a with a' by lia.
    - intros k [->|Hk]%elem_of_cons.
      + split; [done|]. exists a, p. split; [left|]. done.
      + destruct (Hks _ Hk) as (H1 & a' & p' & Ha' & H2). split; [done|]. exists a', p'. split; [by right|done]. }
  destruct (Hex (seq 1 (length bs - 1))) as (ks & Hl & Hn & Hks).
  { apply NoDup_seq. }
  { intros a Ha%elem_of_seq. lia. }
  rewrite seq_length in Hl. rewrite <- Hl. rewrite <- (size_list_to_set (C := gset N) ks) by done.
  apply subseteq_size. intros k Hk%elem_of_list_to_set. by apply Hks.
Qed.

(** allocating a block for [p ++ [i]] (not yet linked) *)
Lemma ss_alloc ls P J p a i (S : gset N) : sshape ls P J None -> P !! p = Some a -> Datatypes.S (length p) < D -> (i < msize nw)%N ->
  P !! (p ++ [i]) = None ->
  (forall r, is_Some (P !! r) -> length r = Datatypes.S (length p) -> key_of_path nw r ∈ S) ->
  key_of_path nw (p ++ [i]) ∈ S -> (N.of_nat (size S) < 2 ^ lbits (length p))%N ->
  exists l l' new, lv_at ls (Datatypes.S (length p)) = Ok l /\ lv_insert_empty nw l = Ok (l', new) /\
    (0 < new)%N /\ (new < 2 ^ lbits (length p))%N /\
    sshape (<[Datatypes.S (length p) := l']> ls) (<[p ++ [i] := new]> P) J (Some (p ++ [i], None)).
Proof.
  intros Sh Ha Hlt Hi Hnone HS1 HS2 Hsz. set (n := Datatypes.S (length p)) in *.
  assert (length (p ++ [i]) = n) as Hpl by (rewrite app_length; cbn; lia).
  destruct (lookup_lt_is_Some_2 ls n) as [l Hl]; [by rewrite (ss_len _ _ _ _ Sh)|].
  pose proof (ss_lvl _ _ _ _ Sh _ _ Hl) as Hok. unfold n in Hok at 1. cbn [lvl_ok] in Hok. fold n in Hok.
  destruct Hok as (bs & r & fl & -> & Hll). destruct (ss_path _ _ _ _ Sh _ _ Ha) as [Hpo _].
  assert (path_ok nw n (p ++ [i])) as Hpo' by (by apply path_ok_snoc).
  set (P' := fun new => <[p ++ [i] := new]> P).
  assert (forall new bs' r' fl', (0 < new)%N ->
     (forall q, length q = n -> P !! q <> Some new) ->
     llist_ok n bs' r' fl' (P' new) (schilds (P' new) J (Some (p ++ [i], None))) ->
     sshape (<[n := LList bs' r']> ls) (P' new) J (Some (p ++ [i], None))) as Hmain.
  { intros new bs' r' fl' Hpos Hfresh Hll'. assert (length ls = D) as HL by apply (ss_len _ _ _ _ Sh). unfold P' in *.
    constructor.
    - by rewrite insert_length.
    - intros k l0 Hk. destruct (decide (k = n)) as [->|Hne].
      + rewrite list_lookup_insert in Hk by lia. injection Hk as <-. exists bs', r', fl'. done.
      + rewrite list_lookup_insert_ne in Hk by done. eapply lvl_ext; [| | |by eapply (ss_lvl _ _ _ _ Sh)].
        * intros q Hq. apply lookup_insert_ne. congruence.
        * rewrite (ss_root _ _ _ _ Sh). eauto.
        * intros q j Hq HPq. cbn. destruct (decide (q ++ [j] = p ++ [i])) as [E|E].
          -- unfold schilds0. rewrite E, Hnone. apply app_one_inj in E as [-> ->]. by rewrite decide_True by lia.
          -- unfold schilds0. by rewrite lookup_insert_ne.
    - rewrite lookup_insert_ne; [apply (ss_root _ _ _ _ Sh)|]. intros E. by apply app_nil in E as [_ ?].
    - intros q b Hb Hq. apply lookup_insert_Some in Hb as [[_ <-]|[_ Hb]]; [done|by eapply (ss_pos _ _ _ _ Sh)].
    - intros q1 q2 b H1 H2 He. apply lookup_insert_Some in H1 as [[<- <-]|[N1 H1]], H2 as [[<- E2]|[N2 H2]].
      + done.
      + exfalso. by eapply (Hfresh q2); [congruence|].
      + exfalso. subst b. by eapply (Hfresh q1); [congruence|].
      + by eapply (ss_inj _ _ _ _ Sh).
    - intros q b Hb. apply lookup_insert_Some in Hb as [[<- _]|[_ Hb]]; [|by eapply (ss_path _ _ _ _ Sh)].
      rewrite Hpl. split; [done|]. unfold n. lia.
    - intros q j b Hb. apply lookup_insert_is_Some'. right. apply lookup_insert_Some in Hb as [[E _]|[_ Hb]].
      + apply app_one_inj in E as [<- _]. eauto.
      + by eapply (ss_parent _ _ _ _ Sh).
    - intros q j Hj. destruct (ss_jpath _ _ _ _ Sh _ _ Hj) as (Hq & Hj0 & r0 & k & -> & Hr). split; [done|].
      split; [done|]. exists r0, k. split; [done|]. apply lookup_insert_is_Some'. by right. }
  (* children of the other nodes of this level are unchanged *)
  assert (forall new q j, q <> p ++ [i] -> length q = n -> schilds (P' new) J (Some (p ++ [i], None)) q j = schilds P J None q j) as Hsame.
  { intros new q j Hq Hql. cbn. unfold P'. rewrite decide_False.
    - unfold schilds0. rewrite lookup_insert_ne; [done|]. intros E. apply (f_equal length) in E. rewrite !app_length in E. cbn in E. unfold n in Hql. lia.
    - intros E. apply (f_equal length) in E. rewrite !app_length in E. cbn in E. unfold n in Hql. lia. }
  assert (forall new j, schilds (P' new) J (Some (p ++ [i], None)) (p ++ [i]) j = None) as Hnew.
  { intros new j. cbn. rewrite decide_False by apply app_one_ne. unfold schilds0, P'.
    rewrite lookup_insert_ne by (intros E; symmetry in E; by apply app_one_ne in E).
    apply (schilds_no_node P J _ Hnone (ss_parent _ _ _ _ Sh) (ss_jpath _ _ _ _ Sh) j). }
  pose proof Hll as [L1 L2 L3 L4 L5 L6 L7].
  pose proof (lbits_le (n - 1)) as Hlb. replace (n - 1) with (length p) in * by (unfold n; lia).
  pose proof (lookup_lt_Some _ _ _ L1) as Hbs0.
  exists (LList bs r). unfold lv_insert_empty, lv_pop.
  destruct fl as [|f fl]; cbn [chain] in L3.
  - (* the vector grows *)
    subst r. rewrite N.eqb_refl, bind_ok.
    assert (length bs <= size S) as Hcnt.
    { assert (length bs - 1 <= size (S ∖ {[ key_of_path nw (p ++ [i]) ]})) as Hc.
      { eapply ll_count; [exact Hll| |].
        - intros q b Hb Hq. destruct (ss_path _ _ _ _ Sh _ _ Hb) as [Hqo _]. rewrite Hq in Hqo. split; [done|].
          apply elem_of_difference. split; [apply HS1; eauto|]. intros E%elem_of_singleton.
          assert (q = p ++ [i]) as ->; [|congruence].
          rewrite <- (li_loop_of_path nw (length p) q), <- (li_loop_of_path nw (length p) (p ++ [i])) by done. by rewrite E.
        - apply (ss_inj _ _ _ _ Sh). }
      rewrite size_difference in Hc by (intros x ->%elem_of_singleton; done). rewrite size_singleton in Hc.
      assert (size S <> 0). { apply size_non_empty_iff. intros E. rewrite E in HS2. by apply elem_of_empty in HS2. } lia. }
    eexists (LList (bs ++ [blk_empty nw]) U64MAX), _. split; [unfold lv_at, get_c; by rewrite Hl|]. split; [reflexivity|].
    split; [lia|]. split; [lia|]. eapply (Hmain _ _ _ []); [lia| |].
    { intros q Hq Hb. destruct (L2 _ _ Hb Hq) as (b & Hbb & _). apply lookup_lt_Some in Hbb. lia. }
    constructor.
    + by rewrite lookup_app_l.
    + intros q b Hb Hq. unfold P' in Hb. apply lookup_insert_Some in Hb as [[<- <-]|[Hne Hb]].
      * exists (blk_empty nw). rewrite Nat2N.id, lookup_app_r, Nat.sub_diag by lia. split; [done|].
        eapply br_ext; [|by apply blk_empty_rep]. intros j. by rewrite Hnew.
      * destruct (L2 _ _ Hb Hq) as (b0 & Hb0 & Hr0). exists b0. split; [by apply lookup_app_l_Some|].
        eapply br_ext; [|exact Hr0]. intros j. by rewrite Hsame.
    + done.
    + constructor.
    + by intros x ?%elem_of_nil.
    + intros x Hx1 Hx2. rewrite app_length in Hx2. cbn in Hx2. right. destruct (decide (x = length bs)) as [->|Hne].
      * exists (p ++ [i]). split; [done|]. apply lookup_insert.
      * destruct (L6 x Hx1 ltac:(lia)) as [?%elem_of_nil|(q & Hq & Hb)]; [done|]. exists q. split; [done|].
        unfold P'. rewrite lookup_insert_ne; [done|]. intros <-. congruence.
    + replace (n - 1) with (length p) by (unfold n; lia). rewrite app_length. cbn. lia.
  - (* reuse of a free block *)
    destruct L3 as (-> & link & Hf & Hc). pose proof (lookup_lt_Some _ _ _ Hf) as Hfl.
    apply NoDup_cons in L4 as [Hf1 L4]. destruct (L5 f ltac:(left)) as [Hfp Hfn].
    assert ((f =? U64MAX)%N = false) as Hfm.
    { apply N.eqb_neq. unfold U64MAX. change (2 ^ 32)%N with 4294967296%N in Hlb. change (2 ^ 64 - 1)%N with 18446744073709551615%N. lia. }
    rewrite Hfm, (get_u_ok _ _ _ Hf), bind_ok, free_link, bind_ok, free_restore, bind_ok, set_u_ok, bind_ok, bind_ok by done.
    eexists (LList _ link), f. split; [unfold lv_at, get_c; by rewrite Hl|]. split; [reflexivity|].
    split; [done|]. split; [lia|]. eapply (Hmain _ _ _ fl); [done|done|].
    constructor.
    + rewrite list_lookup_insert_ne by lia. done.
    + intros q b Hb Hq. unfold P' in Hb. apply lookup_insert_Some in Hb as [[<- <-]|[Hne Hb]].
      * exists (blk_empty nw). split; [by apply list_lookup_insert|].
        eapply br_ext; [|by apply blk_empty_rep]. intros j. by rewrite Hnew.
      * destruct (L2 _ _ Hb Hq) as (b0 & Hb0 & Hr0). exists b0. rewrite list_lookup_insert_ne.
        -- split; [done|]. eapply br_ext; [|exact Hr0]. intros j. by rewrite Hsame.
        -- intros E. apply N2Nat.inj in E. subst f. by apply (Hfn q).
    + eapply chain_ext; [|exact Hc]. intros x Hx. apply list_lookup_insert_ne. intros E. apply N2Nat.inj in E. by subst x.
    + done.
    + intros x Hx. destruct (L5 x ltac:(by right)) as [Hxp Hxn]. split; [done|]. intros q Hq. unfold P'.
      intros Hb. apply lookup_insert_Some in Hb as [[_ <-]|[_ Hb]]; [done|]. by apply (Hxn q).
    + intros x Hx1 Hx2. rewrite insert_length in Hx2. destruct (L6 x Hx1 Hx2) as [[E|Hx]%elem_of_cons|(q & Hq & Hb)].
      * right. exists (p ++ [i]). split; [done|]. unfold P'. rewrite lookup_insert. by subst f.
      * by left.
      * right. exists q. split; [done|]. unfold P'. rewrite lookup_insert_ne; [done|]. intros <-. congruence.
    + rewrite insert_length. by replace (n - 1) with (length p) by (unfold n; lia).
Qed.

(** giving back the (empty) block of [p] *)
Lemma ss_free ls P J p a : sshape ls P J None -> P !! p = Some a -> p <> [] ->
  (forall i, schilds P J None p i = None) ->
  exists l l', lv_at ls (length p) = Ok l /\ lv_remove_empty l a = Ok l' /\
    sshape (<[length p := l']> ls) (delete p P) J (Some (p, Some a)).
Proof.
  intros Sh Ha Hpne Hnone. destruct (ss_path _ _ _ _ Sh _ _ Ha) as [Hpo Hlt].
  destruct (ss_block _ _ _ _ _ _ Sh Ha) as (b & Hb & Hr). pose proof (blk_empty_unique _ _ _ Hr Hnone) as ->.
  destruct (lookup_lt_is_Some_2 ls (length p)) as [l Hl]; [by rewrite (ss_len _ _ _ _ Sh)|].
  pose proof (ss_lvl _ _ _ _ Sh _ _ Hl) as Hok.
  assert (exists n, length p = S n) as [n En] by (destruct p; [done|eexists; reflexivity]).
  assert (exists bs r fl, l = LList bs r /\ llist_ok (length p) bs r fl P (schilds P J None)) as (bs & r & fl & -> & Hll).
  { rewrite En in *. exact Hok. }
  unfold get_block, lv_at, get_c in Hb. rewrite Hl, bind_ok in Hb. unfold lv_get in Hb. cbn [lv_blocks] in Hb. apply get_u_inv in Hb.
  pose proof (lookup_lt_Some _ _ _ Hb) as Hal. pose proof (ss_pos _ _ _ _ Sh _ _ Ha Hpne) as Hapos.
  assert (length ls = D) as HL by apply (ss_len _ _ _ _ Sh).
  eexists (LList bs r), (LList (<[N.to_nat a := free_blk nw r]> bs) a). split; [unfold lv_at, get_c; by rewrite Hl|]. split.
  { unfold lv_remove_empty. rewrite (get_u_ok _ _ _ Hb), bind_ok, free_set_link, bind_ok, set_u_ok by done. done. }
  assert (forall q, P !! q = Some a -> length q = length p -> q = p) as Hu by (intros q Hq E; by eapply (ss_inj _ _ _ _ Sh)).
  assert (forall q j, q <> p -> schilds (delete p P) J (Some (p, Some a)) q j = schilds P J None q j) as Hsame.
  { intros q j Hq. cbn. destruct (decide (q ++ [j] = p)) as [E|E].
    - unfold schilds0. rewrite E, Ha. rewrite decide_True; [done|]. apply (f_equal length) in E. rewrite app_length in E. cbn in E. lia.
    - unfold schilds0. by rewrite lookup_delete_ne. }
  constructor.
  - by rewrite insert_length.
  - intros k l0 Hk. destruct (decide (k = length p)) as [->|Hne].
    + rewrite list_lookup_insert in Hk by lia. injection Hk as <-. rewrite En. cbn [lvl_ok]. rewrite <- En.
      eexists _, _, (a :: fl). split; [reflexivity|]. destruct Hll as [L1 L2 L3 L4 L5 L6 L7].
      assert (a ∉ fl) as Hafl by (intros Hin; destruct (L5 _ Hin) as [_ Hx]; by apply (Hx p)).
      constructor.
      * rewrite list_lookup_insert_ne by lia. done.
      * intros q b0 Hb0 Hq. apply lookup_delete_Some in Hb0 as [Hqp Hb0]. destruct (L2 _ _ Hb0 Hq) as (c & Hc & Hrc).
        exists c. rewrite list_lookup_insert_ne.
        -- split; [done|]. eapply br_ext; [|exact Hrc]. intros j. by rewrite Hsame.
        -- intros E. apply N2Nat.inj in E. subst b0. apply Hqp. symmetry. by apply Hu.
      * cbn [chain]. split; [done|]. exists r. rewrite list_lookup_insert by done. split; [done|].
        eapply chain_ext; [|exact L3]. intros x Hx. apply list_lookup_insert_ne. intros E. apply N2Nat.inj in E. by subst x.
      * by constructor.
      * intros x [->|Hx]%elem_of_cons.
        -- split; [done|]. intros q Hq [Hqp Hb0]%lookup_delete_Some. apply Hqp. symmetry. by apply Hu.
        -- destruct (L5 x Hx) as [Hxp Hxn]. split; [done|]. intros q Hq [_ Hb0]%lookup_delete_Some. by apply (Hxn q).
      * intros x Hx1 Hx2. rewrite insert_length in Hx2. destruct (decide (N.of_nat x = a)) as [->|Hxa]; [left; left|].
        destruct (L6 x Hx1 Hx2) as [Hx|(q & Hq & Hb0)]; [left; by right|right]. exists q. split; [done|].
        rewrite lookup_delete_ne; [done|]. intros <-. congruence.
      * by rewrite insert_length.
    + rewrite list_lookup_insert_ne in Hk by done. eapply lvl_ext; [| | |by eapply (ss_lvl _ _ _ _ Sh)].
      * intros q Hq. apply lookup_delete_ne. congruence.
      * rewrite (ss_root _ _ _ _ Sh). eauto.
      * intros q j Hq HPq. apply Hsame. congruence.
  - rewrite lookup_delete_ne by done. apply (ss_root _ _ _ _ Sh).
  - intros q b Hb0 Hq. apply lookup_delete_Some in Hb0 as [_ Hb0]. by eapply (ss_pos _ _ _ _ Sh).
  - intros q1 q2 b [_ H1]%lookup_delete_Some [_ H2]%lookup_delete_Some He. by eapply (ss_inj _ _ _ _ Sh).
  - intros q b [_ H1]%lookup_delete_Some. by eapply (ss_path _ _ _ _ Sh).
  - intros q j b [Hne H1]%lookup_delete_Some. apply lookup_delete_is_Some. split; [|by eapply (ss_parent _ _ _ _ Sh)].
    intros <-. specialize (Hnone j). cbn in Hnone. unfold schilds0 in Hnone. 
    destruct (ss_path _ _ _ _ Sh _ _ H1) as [_ Hl1]. rewrite app_length in Hl1. cbn in Hl1.
    rewrite decide_True in Hnone by lia. congruence.
  - intros q j Hj. destruct (ss_jpath _ _ _ _ Sh _ _ Hj) as (Hq & Hj0 & r0 & k & -> & Hr0). split; [done|].
    split; [done|]. exists r0, k. split; [done|]. apply lookup_delete_is_Some. split; [|done]. intros ->.
    specialize (Hnone k). cbn in Hnone. unfold schilds0 in Hnone. destruct Hq as [Hq _]. rewrite app_length in Hq. cbn in Hq.
    rewrite decide_False in Hnone by lia. congruence.
Qed.
End sshape.
