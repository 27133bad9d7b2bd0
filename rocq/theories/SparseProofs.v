(** * SparseTree: every operation refines the finite map [key -> value] *)
From Verif Require Import Base BitUtils BitUtilsProofs BitQueue LevelIndices LevelIndicesProofs
  ConstLoops Hierarchy Lawful Dense DenseNode DenseShape Sparse SparseVec SparseShape.

Section sparse.
Context (nw D : nat).
Hypothesis Hnw : nw_ok nw.
Hypothesis HD0 : 1 <= D.
Hypothesis HD : D <= 9.
Notation pmap := (gmap (list N) N).
Notation sshape := (sshape nw D).
Notation schilds := (schilds D).
Notation schilds0 := (schilds0 D).
Notation SKB := (SKB nw D).
Implicit Types (P J : pmap).

(** ** reading along a path *)
Lemma spath_lookup q n : path_ok nw D q -> n < D -> exists i, q !! n = Some i /\ (i < msize nw)%N.
Proof.
  intros [Hl Hf] Hn. destruct (lookup_lt_is_Some_2 q n ltac:(lia)) as [i Hi]. exists i. split; [done|].
  rewrite Forall_lookup in Hf. by apply (Hf _ _ Hi).
Qed.
Lemma spath_last q : path_ok nw D q -> exists i, q = take (D - 1) q ++ [i] /\ q !! (D - 1) = Some i /\ (i < msize nw)%N /\
  get_u q (length q - 1) = Ok i.
Proof.
  intros Hq. destruct (spath_lookup q (D - 1) Hq ltac:(lia)) as (i & Hi & Hib). destruct Hq as [Hl Hf]. exists i. split_and!.
  - rewrite <- take_snoc by done. replace (S (D - 1)) with (length q) by lia. by rewrite firstn_all.
  - done.
  - done.
  - rewrite Hl. by apply get_u_ok.
Qed.
Lemma spath_take_len q n : path_ok nw D q -> n <= D -> length (take n q) = n.
Proof. intros [Hl _] Hn. rewrite take_length. lia. Qed.
Lemma spath_take_S (q : list N) n i : q !! n = Some i -> take (S n) q = take n q ++ [i].
Proof. apply take_snoc. Qed.

Lemma ss_block_any ls P J q n : sshape ls P J None -> path_ok nw D q -> n < D ->
  exists b, get_block ls n (default 0%N (P !! take n q)) = Ok b /\ blk_rep nw b (schilds P J None (take n q)).
Proof.
  intros Sh Hq Hn. destruct (P !! take n q) as [a|] eqn:E; cbn [from_option id].
  - destruct (ss_block _ _ _ _ _ _ _ _ Sh E) as (b & Hb & Hr). rewrite spath_take_len in Hb by (done || lia). eauto.
  - destruct n as [|n].
    { change (take 0 q) with (@nil N) in E. rewrite (ss_root _ _ _ _ _ _ Sh) in E. done. }
    rewrite (ss_zero nw D HD0 _ _ _ _ _ Sh) by lia. eexists. split; [done|]. eapply br_ext; [|by apply blk_empty_rep].
    intros i. symmetry. cbn. apply (schilds_no_node nw D P J _ E); [apply (ss_parent _ _ _ _ _ _ Sh)|apply (ss_jpath _ _ _ _ _ _ Sh)].
Qed.
Definition next_idx P J (q : list N) (n : nat) : N :=
  default 0%N (if decide (n < D) then P !! take n q else J !! q).
Lemma schilds_next P J q n i : path_ok nw D q -> n < D -> q !! n = Some i ->
  default 0%N (schilds P J None (take n q) i) = next_idx P J q (S n).
Proof.
  intros Hq Hn Hi. cbn. unfold SparseShape.schilds0, next_idx. rewrite spath_take_len by (done || lia).
  rewrite <- spath_take_S by done. destruct (decide (S n < D)); [done|].
  replace (S n) with (length q) by (destruct Hq; lia). by rewrite firstn_all.
Qed.

Lemma fetch_loop_ok ls P J q k n : sshape ls P J None -> path_ok nw D q -> n + k = D ->
  exists out, fetch_loop ls q k n (next_idx P J q n) = Ok (out, next_idx P J q D) /\
    length out = k /\ forall m, m < k -> out !! m = Some (next_idx P J q (S (n + m))).
Proof.
  intros Sh Hq. revert n. induction k as [|k IH]; intros n Hn; cbn [fetch_loop].
  - exists []. replace n with D by lia. split; [done|]. split; [done|]. intros m Hm. lia.
  - destruct (spath_lookup q n Hq ltac:(lia)) as (i & Hi & Hib).
    destruct (ss_block_any _ _ _ _ n Sh Hq ltac:(lia)) as (b & Hb & Hr).
    assert (next_idx P J q n = default 0%N (P !! take n q)) as En by (unfold next_idx; by rewrite decide_True by lia).
    rewrite En, Hb, bind_ok, (get_u_ok _ _ _ Hi), bind_ok, (blk_get_ok _ _ _ _ Hr Hib), bind_ok.
    rewrite schilds_next by (done || lia). destruct (IH (S n) ltac:(lia)) as (out & -> & Hl & Ho). rewrite bind_ok.
    eexists. split; [done|]. split; [cbn; lia|]. intros [|m] Hm.
    + cbn. by rewrite Nat.add_0_r.
    + cbn. rewrite Ho by lia. do 2 f_equal. lia.
Qed.
Lemma next_idx_0 ls P J q X : sshape ls P J X -> next_idx P J q 0 = 0%N.
Proof. intros Sh. unfold next_idx. rewrite decide_True by lia. change (take 0 q) with (@nil N). by rewrite (ss_root _ _ _ _ _ _ Sh). Qed.
Lemma next_idx_D P J q : next_idx P J q D = default 0%N (J !! q).
Proof. unfold next_idx. by rewrite decide_False by lia. Qed.
Lemma fetch_ok V (t : sparse V) P J q : sshape (s_levels t) P J None -> path_ok nw D q ->
  exists out, fetch_block_indices D t q = Ok (out, default 0%N (J !! q)) /\
    length out = D /\ forall m, m < D -> out !! m = Some (next_idx P J q (S m)).
Proof.
  intros Sh Hq. unfold fetch_block_indices. destruct (fetch_loop_ok _ _ _ _ D 0 Sh Hq eq_refl) as (out & Ho & Hl & Hm).
  rewrite (next_idx_0 _ _ _ _ _ Sh), next_idx_D in Ho. exists out. done.
Qed.
Lemma J_pos ls P J X q j : sshape ls P J X -> J !! q = Some j -> (0 < j)%N.
Proof. intros Sh Hj. by destruct (ss_jpath _ _ _ _ _ _ Sh _ _ Hj) as (_ & ? & _). Qed.
Lemma sJ_node ls P J X q j : sshape ls P J X -> J !! q = Some j -> path_ok nw D q /\ is_Some (P !! take (D - 1) q).
Proof.
  intros Sh Hj. destruct (ss_jpath _ _ _ _ _ _ Sh _ _ Hj) as (Hq & _ & p & i & -> & Hp). split; [done|].
  destruct Hq as [Hl _]. rewrite app_length in Hl. cbn in Hl.
  replace (D - 1) with (length p) by lia. by rewrite take_app.
Qed.
Lemma sprefix_take ls P J X q n n' : sshape ls P J X -> is_Some (P !! take n q) -> n' <= n -> is_Some (P !! take n' q).
Proof.
  intros Sh [a Ha] Hle. eapply (ss_prefix _ _ _ _ _ _ (take n' q) (drop n' (take n q)) a Sh).
  rewrite <- (Nat.min_l n' n) at 1 by done. rewrite <- take_take. by rewrite take_drop.
Qed.

(** ** capacity: how many blocks / values the index types of each level can address *)
Definition level_keys (n : nat) (K : gset N) : gset N := set_map (fun k => (k / msize nw ^ N.of_nat (D - n))%N) K.
Definition fits (K : gset N) : Prop := forall n, 1 <= n <= D -> (N.of_nat (size (level_keys n K)) < 2 ^ lbits (n - 1))%N.

Lemma key_prefix k n : (k < SKB)%N -> n <= D ->
  key_of_path nw (take n (level_indices nw D k)) = (k / msize nw ^ N.of_nat (D - n))%N.
Proof.
  intros Hk Hn. destruct (level_indices_ok nw D k Hnw ltac:(lia) Hk) as [[Hl Hf] Hkq].
  set (q := level_indices nw D k) in *. pose proof (msize_pos nw Hnw) as Hm.
  rewrite <- Hkq at 1. rewrite <- (take_drop n q) at 2. rewrite key_of_path_app.
  rewrite drop_length, Hl. rewrite N.div_add_l by (apply N.pow_nonzero; lia).
  rewrite N.div_small; [lia|]. rewrite <- Hl. rewrite <- drop_length.
  apply key_of_path_bound; [lia|]. by apply Forall_drop.
Qed.

(** [p] is a node on the path of key [k] *)
Definition on_path (p : list N) (k : N) : Prop := (k < SKB)%N /\ p = take (length p) (level_indices nw D k).
(** every non-root block has a child, or lies on the path of a key of [E] *)
Definition scover (E : gset N) P J (X : option (list N * option N)) : Prop :=
  forall p, p <> [] -> is_Some (P !! p) -> (exists i, is_Some (schilds P J X p i)) \/ exists k, k ∈ E /\ on_path p k.
Definition covered (K : gset N) P : Prop := forall p, p <> [] -> is_Some (P !! p) -> exists k, k ∈ K /\ on_path p k.

Lemma scover_covered E P J (K : gset N) ls : sshape ls P J None -> scover E P J None -> E ⊆ K ->
  (forall q j, J !! q = Some j -> key_of_path nw q ∈ K) -> covered K P.
Proof.
  intros Sh Hc HE HJ.
  assert (forall d p, D - length p <= d -> p <> [] -> is_Some (P !! p) -> exists k, k ∈ K /\ on_path p k) as H.
  { induction d as [|d IH]; intros p Hd Hp HP.
    - destruct HP as [a Ha]. destruct (ss_path _ _ _ _ _ _ Sh _ _ Ha). lia.
    - destruct (Hc p Hp HP) as [[i [x Hx]]|(k & Hk & Ho)]; [|exists k; split; [by apply HE|done]].
      cbn in Hx. unfold SparseShape.schilds0 in Hx. destruct (decide (S (length p) < D)) as [Hlt|Hge].
      + destruct (IH (p ++ [i])) as (k & Hk & Hkb & Ho).
        * rewrite app_length. cbn. lia.
        * by intros [_ ?]%app_nil.
        * eauto.
        * exists k. split; [done|]. split; [done|]. rewrite app_length in Ho. cbn in Ho.
          apply (f_equal (take (length p))) in Ho. rewrite take_app in Ho. rewrite Ho at 1. rewrite take_take. f_equal. lia.
      + destruct (ss_jpath _ _ _ _ _ _ Sh _ _ Hx) as (Hq & _). exists (key_of_path nw (p ++ [i])). split; [by eapply HJ|].
        split; [by apply path_ok_bound|]. rewrite level_indices_of_path by (done || lia). by rewrite take_app. }
  intros p Hp HP. by apply (H (D - length p)).
Qed.
Lemma covered_level K P ls J X n : sshape ls P J X -> covered K P ->
  forall r, is_Some (P !! r) -> length r = S n -> key_of_path nw r ∈ level_keys (S n) K.
Proof.
  intros Sh Hc r Hr Hl. destruct (Hc r) as (k & Hk & Hkb & Ho); [by intros ->|done|].
  destruct Hr as [a Ha]. destruct (ss_path _ _ _ _ _ _ Sh _ _ Ha) as [_ Hlt].
  apply elem_of_map. exists k. split; [|done]. rewrite Ho, Hl. apply key_prefix; [done|lia].
Qed.

(** ** the descending loop of get_or_insert *)
Definition grown P P' (q : list N) : Prop :=
  (forall p a, P !! p = Some a -> P' !! p = Some a) /\
  (forall p, is_Some (P' !! p) -> is_Some (P !! p) \/ p = take (length p) q).
Lemma trunc_small n x : (x < 2 ^ lbits n)%N -> trunc n x = x.
Proof. intros H. unfold trunc. by rewrite N.mod_small. Qed.

(** allocate and link one block *)
Lemma ss_alloc_link ls P J p a i (S : gset N) : sshape ls P J None -> P !! p = Some a -> Datatypes.S (length p) < D -> (i < msize nw)%N ->
  P !! (p ++ [i]) = None ->
  (forall r, is_Some (P !! r) -> length r = Datatypes.S (length p) -> key_of_path nw r ∈ S) ->
  key_of_path nw (p ++ [i]) ∈ S -> (N.of_nat (size S) < 2 ^ lbits (length p))%N ->
  exists l l' new ls', lv_at ls (Datatypes.S (length p)) = Ok l /\ lv_insert_empty nw l = Ok (l', new) /\
    insert_child (<[Datatypes.S (length p) := l']> ls) (length p) a i new = Ok ls' /\
    sshape ls' (<[p ++ [i] := new]> P) J None.
Proof.
  intros Sh Ha Hlt Hi Hn HS1 HS2 Hsz.
  destruct (ss_alloc nw D Hnw HD0 _ _ _ _ _ _ _ Sh Ha Hlt Hi Hn HS1 HS2 Hsz) as (l & l' & new & Hl & Hins & Hpos & Hb & Sh1).
  assert (<[p ++ [i] := new]> P !! p = Some a) as Ha1.
  { rewrite lookup_insert_ne; [done|]. apply app_one_ne. }
  destruct (ss_block _ _ _ _ _ _ _ _ Sh1 Ha1) as (b & Hbk & Hr).
  destruct (blk_insert_ok nw b _ i new Hr Hi) as (b' & Hbi & Hr').
  destruct (ss_put nw D HD0 _ _ _ _ J None _ _ b' Sh1 Ha1) as (ls' & Hput & Sh2 & _ & _).
  - eapply br_ext; [|exact Hr']. intros j. unfold upd. cbn. destruct (N.eqb_spec j i) as [->|Hne].
    + unfold SparseShape.schilds0. rewrite decide_True by done. by rewrite lookup_insert.
    + rewrite decide_False; [done|]. intros [_ ?]%app_one_inj. done.
  - intros r j Hrp _. cbn. rewrite decide_False; [done|]. intros [? _]%app_one_inj. done.
  - apply (ss_jpath _ _ _ _ _ _ Sh1).
  - exists l, l', new, ls'. split_and!; try done. unfold insert_child. by rewrite Hbk, bind_ok, trunc_small, Hbi, bind_ok.
Qed.

Lemma sgoi_loop k n ls P J q kq a K : sshape ls P J None -> q = level_indices nw D kq -> (kq < SKB)%N ->
  n + k = D - 1 -> P !! take n q = Some a ->
  is_Some (P !! take (D - 1) q) \/ (covered K P /\ kq ∈ K /\ fits K) ->
  exists ls' P' a', visit_list (seq n k) (sgoi_body nw q) (ls, a) = Ok ((ls', a'), None) /\
    sshape ls' P' J None /\ P' !! take (D - 1) q = Some a' /\ grown P P' q.
Proof.
  intros Sh Eq Hkb. destruct (level_indices_ok nw D kq Hnw ltac:(lia) Hkb) as [Hq Hkq]. rewrite <- Eq in Hq, Hkq.
  revert n ls P a Sh. induction k as [|k IH]; intros n ls P a Sh Hn Ha HK; cbn [seq visit_list].
  - exists ls, P, a. replace (D - 1) with n by lia. split_and!; try done. split; [done|]. by left.
  - destruct (spath_lookup q n Hq ltac:(lia)) as (i & Hi & Hib).
    destruct (ss_block_any _ _ _ _ n Sh Hq ltac:(lia)) as (b & Hb & Hr). rewrite Ha in Hb. cbn [from_option id] in Hb.
    unfold sgoi_body at 1. unfold get_c at 1. rewrite Hi, bind_ok, Hb, bind_ok, (blk_get_ok _ _ _ _ Hr Hib), bind_ok.
    rewrite schilds_next by (done || lia). unfold next_idx. rewrite decide_True by lia.
    destruct (P !! take (S n) q) as [a'|] eqn:Ea'; cbn [from_option id].
    + assert ((a' =? 0)%N = false) as ->.
      { apply N.eqb_neq. assert (0 < a')%N; [|lia]. eapply (ss_pos _ _ _ _ _ _ Sh); [exact Ea'|]. intros E.
        apply (f_equal length) in E. rewrite spath_take_len in E by (done || lia). done. }
      rewrite bind_ok. apply IH; [done|lia|done|done].
    + change (0 =? 0)%N with true. cbn [negb]. destruct HK as [HK|(HK1 & HK2 & HK3)].
      { exfalso. pose proof (sprefix_take _ _ _ _ _ _ (S n) Sh HK ltac:(lia)) as [x Hx]. congruence. }
      pose proof (spath_take_len q n Hq ltac:(lia)) as Hln.
      rewrite (spath_take_S _ _ _ Hi) in Ea'.
      destruct (ss_alloc_link ls P J (take n q) a i (level_keys (S n) K) Sh Ha) as (l & l' & new & ls' & Hl & Hins & Hic & Sh').
      * lia.
      * done.
      * done.
      * rewrite Hln. by eapply covered_level.
      * rewrite <- (spath_take_S _ _ _ Hi). apply elem_of_map. exists kq. split; [|done]. rewrite Eq. apply key_prefix; [done|lia].
      * rewrite Hln. specialize (HK3 (S n) ltac:(lia)). by replace (S n - 1) with n in HK3 by lia.
      * rewrite Hln in Hl, Hic. rewrite Hl, bind_ok, Hins, bind_ok, Hic, bind_ok, bind_ok.
        rewrite <- (spath_take_S _ _ _ Hi) in Sh', Ea'.
        destruct (IH (S n) ls' (<[take (S n) q := new]> P) new Sh' ltac:(lia)) as (ls2 & P2 & a2 & -> & Sh2 & Ha2 & [G1 G2]).
        -- apply lookup_insert.
        -- right. split; [|done]. intros p Hp HPp. apply lookup_insert_is_Some' in HPp as [<-|HPp]; [|by apply HK1].
           exists kq. split; [done|]. split; [done|]. rewrite spath_take_len by (done || lia). by rewrite Eq.
        -- exists ls2, P2, a2. split; [done|]. split; [done|]. split; [done|]. split.
           ++ intros p x Hx. apply G1. rewrite lookup_insert_ne; [done|]. intros <-. congruence.
           ++ intros p Hp. destruct (G2 p Hp) as [HP|HP]; [|by right].
              apply lookup_insert_is_Some' in HP as [<-|HP]; [right|by left]. by rewrite spath_take_len by (done || lia).
Qed.

(** ** the climbing loop of remove *)
Lemma seq_rev_S' n : rev (seq 0 (S n)) = n :: rev (seq 0 n).
Proof. rewrite seq_S, rev_app_distr. done. Qed.

Lemma sremove_step E q n ls P J v : path_ok nw D q -> n < D ->
  sshape ls P J (Some (take (S n) q, Some v)) ->
  schilds0 P J (take n q) (default 0%N (q !! n)) = None ->
  is_Some (P !! take n q) -> scover E P J (Some (take (S n) q, Some v)) ->
  exists a i b b' ls1, P !! take n q = Some a /\ q !! n = Some i /\ length (take n q) = n /\
    get_block ls n a = Ok b /\ blk_remove b i = Ok b' /\ blk_rep nw b' (schilds P J None (take n q)) /\
    put_block ls n a b' = Ok ls1 /\ sshape ls1 P J None /\
    (forall r, r <> take n q -> r <> [] -> is_Some (P !! r) ->
      (exists i, is_Some (schilds P J None r i)) \/ exists k, k ∈ E /\ on_path r k).
Proof.
  intros Hq Hn Sh Hnone [a Ha] Hc.
  destruct (spath_lookup q n Hq Hn) as (i & Hi & Hib). rewrite Hi in Hnone. cbn [from_option id] in Hnone.
  pose proof (spath_take_len q n Hq ltac:(lia)) as Hln.
  destruct (ss_block _ _ _ _ _ _ _ _ Sh Ha) as (b & Hb & Hr). rewrite Hln in Hb.
  destruct (blk_remove_ok nw b _ i Hr Hib) as (b' & Hbr & Hr').
  rewrite (spath_take_S _ _ _ Hi) in Sh, Hr', Hc.
  assert (blk_rep nw b' (schilds P J None (take n q))) as Hr2.
  { eapply br_ext; [|exact Hr']. intros j. unfold upd. cbn [SparseShape.schilds]. destruct (N.eqb_spec j i) as [->|Hne]; [done|].
    rewrite decide_False; [done|]. intros [_ ?]%app_one_inj. done. }
  destruct (ss_put nw D HD0 _ _ _ _ J None _ _ b' Sh Ha Hr2) as (ls1 & Hput & Sh1 & _ & _).
  { intros r j Hrp _. cbn [SparseShape.schilds]. rewrite decide_False; [done|]. intros [? _]%app_one_inj. done. }
  { apply (ss_jpath _ _ _ _ _ _ Sh). }
  rewrite Hln in Hput. exists a, i, b, b', ls1. repeat (split; [done|]).
  intros r Hr1 Hr3 HPr. destruct (Hc r Hr3 HPr) as [[j Hj]|?]; [left|by right]. exists j. cbn [SparseShape.schilds] in *.
  rewrite decide_False in Hj; [done|]. intros [? _]%app_one_inj. done.
Qed.

Lemma sremove_loop E q lbis : path_ok nw D q ->
  forall n ls P J v, n < D ->
  sshape ls P J (Some (take (S n) q, Some v)) ->
  schilds0 P J (take n q) (default 0%N (q !! n)) = None ->
  (forall m, m < n -> exists a, lbis !! m = Some a /\ P !! take (S m) q = Some a) -> is_Some (P !! take n q) ->
  scover E P J (Some (take (S n) q, Some v)) ->
  exists ls' o P', visit_list (rev (seq 0 (S n))) (remove_visit q lbis) ls = Ok (ls', o) /\
    sshape ls' P' J None /\ scover E P' J None /\ (forall r, P' !! r = P !! r \/ P' !! r = None).
Proof.
  intros Hq. induction n as [|n IH]; intros ls P J v Hn Sh Hnone Hlb HP Hc; rewrite seq_rev_S'; cbn [visit_list];
  destruct (sremove_step E q _ ls P J v Hq Hn Sh Hnone HP Hc) as (a & i & b & b' & ls1 & Ha & Hi & Hln & Hb & Hbr & Hr2 & Hput & Sh1 & Hc1).
  - (* root *)
    unfold remove_visit. rewrite decide_True by done. rewrite bind_ok.
    change (take 0 q) with (@nil N) in Ha, Hc1. rewrite (ss_root _ _ _ _ _ _ Sh) in Ha. injection Ha as <-.
    rewrite Hb, bind_ok. unfold get_c. rewrite Hi, bind_ok, Hbr, bind_ok, Hput, bind_ok.
    assert (scover E P J None) as Hc2 by (intros r Hr1 HPr; by apply Hc1).
    destruct (blk_is_empty b').
    + rewrite decide_False by (by intros []). rewrite bind_ok. exists ls1, None, P. split_and!; try done. by left.
    + rewrite bind_ok. exists ls1, (Some tt), P. split_and!; try done. by left.
  - set (n0 := S n) in *. unfold remove_visit at 1. rewrite decide_False by done.
    destruct (Hlb n ltac:(lia)) as (a' & Hla & Ha'). fold n0 in Ha'. assert (a' = a) as -> by congruence.
    unfold get_c at 1. replace (n0 - 1) with n by lia. rewrite Hla, bind_ok, Hb, bind_ok. unfold get_c at 1.
    rewrite Hi, bind_ok, Hbr, bind_ok, Hput, bind_ok.
    destruct (blk_is_empty b') eqn:Ee.
    + rewrite decide_True by done. pose proof (proj1 (blk_is_empty_ok _ _ _ Hr2) Ee) as Hall.
      assert (take n0 q <> []) as Hne by (intros E'; rewrite E' in Hln; done).
      destruct (ss_free nw D Hnw HD0 _ _ _ _ _ Sh1 Ha Hne Hall) as (l & l' & Hl & Hre & Sh2). rewrite Hln in Hl, Sh2.
      rewrite Hl, bind_ok, Hre, bind_ok, bind_ok.
      destruct (IH (<[n0 := l']> ls1) (delete (take n0 q) P) J a) as (ls3 & o & P3 & Hv & Sh3 & Hc3 & Hsub).
      * lia.
      * exact Sh2.
      * destruct (spath_lookup q n Hq ltac:(lia)) as (i' & Hi' & _). rewrite Hi'. cbn [from_option id].
        unfold SparseShape.schilds0. rewrite spath_take_len by (done || lia). rewrite decide_True by lia.
        rewrite <- (spath_take_S _ _ _ Hi'). apply lookup_delete.
      * intros m Hm. destruct (Hlb m ltac:(lia)) as (x & Hx1 & Hx2). exists x. split; [done|].
        rewrite lookup_delete_ne; [done|]. intros E'. apply (f_equal length) in E'. rewrite !spath_take_len in E' by (done || lia). lia.
      * apply lookup_delete_is_Some. split; [|by eapply sprefix_take; [exact Sh|eauto|lia]].
        intros E'. apply (f_equal length) in E'. rewrite !spath_take_len in E' by (done || lia). lia.
      * intros r Hr1 [Hr3 HPr]%lookup_delete_is_Some. destruct (Hc1 r ltac:(done) Hr1 HPr) as [[j Hj]|?]; [left|by right].
        exists j. cbn [SparseShape.schilds] in *. fold n0. destruct (decide (r ++ [j] = take n0 q)); [eauto|].
        unfold SparseShape.schilds0 in *. by rewrite lookup_delete_ne.
      * exists ls3, o, P3. split; [done|]. split; [done|]. split; [done|]. intros r. destruct (Hsub r) as [Hs|Hs]; [|by right].
        destruct (decide (take n0 q = r)) as [<-|Hrn]; [right; rewrite Hs; apply lookup_delete|left; rewrite Hs; by apply lookup_delete_ne].
    + rewrite bind_ok. exists ls1, (Some tt), P. split; [done|]. split; [done|]. split; [|by left].
      intros r Hr1 HPr. destruct (decide (r = take n0 q)) as [->|Hne]; [|by apply Hc1]. left.
      destruct (decide (mbits (b_mask b') = [])) as [Eb|Eb].
      * exfalso. assert (blk_is_empty b' = true); [|congruence]. unfold blk_is_empty. apply (mask_is_zero_ok nw); [apply (br_mask _ _ _ Hr2)|].
        intros j. destruct (mbit (b_mask b') j) eqn:Ej; [|done]. assert (j ∈ mbits (b_mask b')) as Hin; [|rewrite Eb in Hin; by apply elem_of_nil in Hin].
        by apply elem_of_mbits.
      * destruct (mbits (b_mask b')) as [|j rest] eqn:Em; [done|]. exists j.
        assert (mbit (b_mask b') j = true) as Hj by (apply elem_of_mbits; rewrite Em; left).
        rewrite (br_bit _ _ _ Hr2) in Hj. by apply bool_decide_eq_true in Hj.
Qed.
End sparse.
