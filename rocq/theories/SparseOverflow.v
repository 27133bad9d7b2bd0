(** * SparseTree: the insertion that exceeds the index type of a level (C28)

    What happens when a link does not fit: the insertion completes, the link is stored as 0, and every lookup answers as before. *)
From Verif Require Import Base BitUtils BitUtilsProofs BitQueue LevelIndices LevelIndicesProofs
  ConstLoops Hierarchy Lawful Dense DenseNode DenseShape Sparse SparseVec SparseShape SparseProofs SparseOps.

Section over.
Context (nw D : nat).
Hypothesis Hnw : nw_ok nw.
Hypothesis HD0 : 1 <= D.
Hypothesis HD : D <= 9.
Notation pmap := (gmap (list N) N).
Notation sshape := (sshape nw D).
Notation schilds := (schilds D).
Notation schilds0 := (schilds0 D).
Notation SKB := (SKB nw D).
Notation level_keys := (level_keys nw D).
Notation covered := (covered nw D).
Notation next_idx := (next_idx D).
Notation empty := (blk_empty nw).
Implicit Types (P J : pmap).

(** ** levels *)
(** where the next block of a level goes, or beyond *)
Definition spare (l : level) (x : N) : Prop :=
  match l with LSingle _ => False | LList bs r => (r <> U64MAX /\ x = r) \/ length bs <= N.to_nat x end.
Definition sane (l : level) : Prop :=
  exists bs r fl, l = LList bs r /\ chain nw bs r fl /\ (forall x, x ∈ fl -> (0 < x)%N) /\ 0 < length bs.
Lemma sane_zero l : sane l -> ~ spare l 0.
Proof.
  intros (bs & r & fl & -> & Hc & Hp & Hl). cbn. intros [[Hr <-]|H]; [|lia].
  destruct fl as [|a fl]; cbn in Hc; [done|]. destruct Hc as [<- _]. specialize (Hp 0%N ltac:(left)). lia.
Qed.
Lemma insert_empty_ok l : sane l -> exists l' new, lv_insert_empty nw l = Ok (l', new) /\ (0 < new)%N /\ spare l new /\
  lv_get l' new = Ok empty /\ forall x, ~ spare l x -> lv_get l' x = lv_get l x.
Proof.
  intros Hs. pose proof (sane_zero _ Hs) as Hz. destruct Hs as (bs & r & fl & -> & Hc & Hp & Hl). cbn [lv_insert_empty]. unfold lv_pop. destruct (N.eqb_spec r U64MAX) as [->|Hr].
  - rewrite bind_ok. eexists _, _. split; [reflexivity|]. split; [lia|]. split; [right; lia|]. unfold lv_get. cbn [lv_blocks]. split.
    + rewrite (get_u_ok _ _ empty); [done|]. rewrite Nat2N.id. by rewrite list_lookup_middle.
    + intros x Hx. unfold get_u. rewrite lookup_app_l; [done|]. cbn in Hx. lia.
  - destruct fl as [|a fl]; cbn in Hc; [done|]. destruct Hc as (<- & link & Hb & Hc). pose proof (lookup_lt_Some _ _ _ Hb) as Hlt.
    rewrite (get_u_ok _ _ _ Hb), bind_ok, (free_link nw), bind_ok, (free_restore nw Hnw), bind_ok, set_u_ok, bind_ok by done. rewrite bind_ok.
    eexists _, _. split; [reflexivity|]. split; [apply Hp; left|]. split; [by left|]. unfold lv_get. cbn [lv_blocks]. split.
    + rewrite (get_u_ok _ _ empty); [done|]. by apply list_lookup_insert.
    + intros x Hx. unfold get_u. rewrite list_lookup_insert_ne; [done|]. intros E. apply N2Nat.inj in E. apply Hx. by left.
Qed.
Lemma level_sane n l P g : lvl_ok nw n l P g -> 0 < n -> sane l.
Proof.
  intros Hok Hn. destruct n as [|n]; [lia|]. cbn in Hok. destruct Hok as (bs & r & fl & -> & Hll). exists bs, r, fl. split; [done|].
  split; [apply (ll_chain _ _ _ _ _ _ _ Hll)|]. split; [intros x Hx; by apply (ll_free _ _ _ _ _ _ _ Hll)|].
  apply (lookup_lt_Some _ _ _ (ll_zero _ _ _ _ _ _ _ Hll)).
Qed.
Lemma level_live n l P g p a : lvl_ok nw n l P g -> P !! p = Some a -> length p = n -> ~ spare l a.
Proof.
  intros Hok Hp Hl. destruct n as [|n]; cbn in Hok.
  - destruct Hok as (b & -> & _). cbn. tauto.
  - destruct Hok as (bs & r & fl & -> & Hll). cbn. intros [[Hr ->]|H].
    + pose proof (ll_chain _ _ _ _ _ _ _ Hll) as Hc. destruct fl as [|x fl]; cbn in Hc; [done|]. destruct Hc as [<- _].
      destruct (ll_free _ _ _ _ _ _ _ Hll r ltac:(left)) as [_ Hn]. by apply (Hn p).
    + destruct (ll_node _ _ _ _ _ _ _ Hll p a Hp Hl) as (b & Hb & _). apply lookup_lt_Some in Hb. lia.
Qed.

(** ** blocks: reading after writing *)
Lemma get_block_at ls n l x : ls !! n = Some l -> get_block ls n x = lv_get l x.
Proof. intros H. unfold get_block, lv_at, get_c. by rewrite H, bind_ok. Qed.
Lemma get_block_eq ls ls' n x : ls' !! n = ls !! n -> get_block ls' n x = get_block ls n x.
Proof. intros H. unfold get_block, lv_at, get_c. by rewrite H. Qed.
Lemma lv_get_set l a b' l' x : lv_set l a b' = Ok l' -> lv_get l' x = if decide (x = a) then Ok b' else lv_get l x.
Proof.
  unfold lv_set, lv_get. intros H. apply bind_ok_inv in H as (bs & Hs & [= <-]). unfold set_u in Hs.
  destruct (decide (N.to_nat a < length (lv_blocks l))) as [Hlt|]; [|done]. injection Hs as <-.
  assert (lv_blocks (lv_with_blocks l (<[N.to_nat a:=b']> (lv_blocks l))) = <[N.to_nat a:=b']> (lv_blocks l)) as E.
  { destruct l as [b|bs r]; [|done]. cbn in *. destruct (N.to_nat a); [done|lia]. }
  rewrite E. destruct (decide (x = a)) as [->|Hne].
  - rewrite (get_u_ok _ _ b'); [done|]. by apply list_lookup_insert.
  - unfold get_u. rewrite list_lookup_insert_ne; [done|]. intros H. by apply N2Nat.inj in H.
Qed.
(** writing a block that can be read *)
Lemma put_ok ls n a b b' : get_block ls n a = Ok b -> exists ls', put_block ls n a b' = Ok ls' /\ length ls' = length ls /\
  (forall j, j <> n -> ls' !! j = ls !! j) /\
  (forall j x, get_block ls' j x = if decide (j = n /\ x = a) then Ok b' else get_block ls j x).
Proof.
  intros H. destruct (ls !! n) as [l|] eqn:El; [|unfold get_block, lv_at, get_c in H; by rewrite El in H].
  rewrite (get_block_at _ _ _ _ El) in H. unfold put_block, lv_at, get_c. rewrite El, bind_ok.
  assert (exists l', lv_set l a b' = Ok l') as [l' Hs].
  { unfold lv_set. unfold lv_get, get_u in H. destruct (lv_blocks l !! N.to_nat a) as [y|] eqn:Ey; [|done].
    apply lookup_lt_Some in Ey. rewrite set_u_ok by done. rewrite bind_ok. eauto. }
  rewrite Hs, bind_ok. eexists. split; [done|]. split; [apply insert_length|]. pose proof (lookup_lt_Some _ _ _ El) as Hlt. split.
  - intros j Hj. by rewrite list_lookup_insert_ne.
  - intros j x. destruct (decide (j = n)) as [->|Hne].
    + rewrite (get_block_at _ n l') by (by apply list_lookup_insert). rewrite (get_block_at ls n l) by done.
      rewrite (lv_get_set _ _ _ _ _ Hs). destruct (decide (x = a)); [by rewrite decide_True|by rewrite decide_False by tauto].
    + rewrite decide_False by tauto. apply get_block_eq. by rewrite list_lookup_insert_ne.
Qed.
(** the link written by [insert_child] *)
Lemma child_ok ls n a b g i x : get_block ls n a = Ok b -> blk_rep nw b g -> (i < msize nw)%N -> exists ls' b',
  insert_child ls n a i x = Ok ls' /\ blk_rep nw b' (upd g i (Some (trunc n x))) /\ length ls' = length ls /\
  (forall j, j <> n -> ls' !! j = ls !! j) /\
  (forall j y, get_block ls' j y = if decide (j = n /\ y = a) then Ok b' else get_block ls j y).
Proof.
  intros Hb Hr Hi. unfold insert_child. rewrite Hb, bind_ok. destruct (blk_insert_ok nw b g i (trunc n x) Hr Hi) as (b' & -> & Hr').
  rewrite bind_ok. destruct (put_ok ls n a b b' Hb) as (ls' & -> & H1 & H2 & H3). exists ls', b'. done.
Qed.

(** ** a descent into a block nobody links to *)
Definition spot (ls : list level) (n : nat) (a : N) (j : nat) (x : N) : Prop :=
  (j = n /\ x = a) \/ (n < j /\ exists l, ls !! j = Some l /\ spare l x).
Lemma junk q k : forall n ls a, path_ok nw D q -> n + k = D - 1 -> length ls = D -> get_block ls n a = Ok empty -> (0 < a)%N ->
  (forall j l, n < j -> ls !! j = Some l -> sane l) ->
  exists ls' a', visit_list (seq n k) (sgoi_body nw q) (ls, a) = Ok ((ls', a'), None) /\ length ls' = D /\
    get_block ls' (D - 1) a' = Ok empty /\ spot ls n a (D - 1) a' /\
    (forall j x, ~ spot ls n a j x -> get_block ls' j x = get_block ls j x).
Proof.
  induction k as [|k IH]; intros n ls a Hq Hn Hl Hb Ha Hs; cbn [seq visit_list].
  - exists ls, a. replace (D - 1) with n by lia. split; [done|]. split; [done|]. split; [done|]. split; [by left|]. done.
  - destruct (spath_lookup nw D HD0 HD q n Hq ltac:(lia)) as (i & Hi & Hib).
    unfold sgoi_body at 1. unfold get_c at 1. rewrite Hi, bind_ok, Hb, bind_ok, (blk_get_ok _ _ _ _ (blk_empty_rep nw) Hib), bind_ok.
    cbn [default from_option]. change (0 =? 0)%N with true. cbn match.
    destruct (lookup_lt_is_Some_2 ls (S n)) as [l Hlk]; [lia|]. unfold lv_at at 1, get_c. rewrite Hlk, bind_ok.
    destruct (insert_empty_ok l (Hs (S n) l ltac:(lia) Hlk)) as (l' & new & -> & Hpos & Hsp & Hnew & Hfr). rewrite bind_ok.
    set (ls1 := <[S n := l']> ls).
    assert (ls1 !! S n = Some l') as Hl1 by (apply list_lookup_insert; lia).
    assert (get_block ls1 n a = Ok empty) as Hb1. { rewrite (get_block_eq ls); [done|]. unfold ls1. rewrite list_lookup_insert_ne; [done|lia]. }
    destruct (child_ok ls1 n a empty _ i new Hb1 (blk_empty_rep nw) Hib) as (ls2 & b' & Hic & _ & Hl2 & Hk2 & Hg2).
    rewrite Hic, bind_ok, bind_ok.
    assert (length ls2 = D) as HL2. { rewrite Hl2. unfold ls1. by rewrite insert_length. }
    assert (forall j, S n < j -> ls2 !! j = ls !! j) as Hdeep.
    { intros j Hj. rewrite Hk2 by lia. unfold ls1. rewrite list_lookup_insert_ne; [done|lia]. }
    destruct (IH (S n) ls2 new Hq ltac:(lia) HL2) as (ls' & a' & Hv & HL & Hbl & Hspot & Hfr2).
    + rewrite Hg2, decide_False by lia. by rewrite (get_block_at _ _ _ _ Hl1).
    + done.
    + intros j lj Hj Hlj. rewrite Hdeep in Hlj by lia. by apply (Hs j); [lia|].
    + exists ls', a'. split; [exact Hv|]. split; [done|]. split; [done|].
      assert (forall j x, spot ls2 (S n) new j x -> spot ls n a j x) as Hmono.
      { intros j x [[-> ->]|(Hj & lj & Hlj & Hsj)]; right.
        - split; [lia|]. by exists l.
        - split; [lia|]. exists lj. by rewrite <- Hdeep by lia. }
      split; [by apply Hmono|]. intros j x Hns. rewrite Hfr2 by (intros H; by apply Hns, Hmono).
      rewrite Hg2. destruct (decide (j = n /\ x = a)) as [[-> ->]|_]; [exfalso; apply Hns; by left|].
      destruct (decide (j = S n)) as [->|Hj].
      * rewrite (get_block_at _ _ _ _ Hl1), (get_block_at _ _ _ _ Hlk). apply Hfr. intros H. apply Hns. right. split; [lia|]. by exists l.
      * apply get_block_eq. unfold ls1. by rewrite list_lookup_insert_ne.
Qed.

(** ** lookups only read the blocks of [P] and the zero blocks *)
Definition reads ls P J : Prop :=
  (forall p a i, P !! p = Some a -> (i < msize nw)%N -> exists b, get_block ls (length p) a = Ok b /\ blk_get b i = Ok (default 0%N (schilds0 P J p i))) /\
  (forall n i, 0 < n -> n < D -> (i < msize nw)%N -> exists b, get_block ls n 0%N = Ok b /\ blk_get b i = Ok 0%N).
Lemma fetch_reads ls ls' P J q k n : sshape ls P J None -> reads ls' P J -> path_ok nw D q -> n + k = D ->
  exists out, fetch_loop ls' q k n (next_idx P J q n) = Ok (out, next_idx P J q D).
Proof.
  intros Sh [R1 R2] Hq. revert n. induction k as [|k IH]; intros n Hn; cbn [fetch_loop].
  - exists []. by replace n with D by lia.
  - destruct (spath_lookup nw D HD0 HD q n Hq ltac:(lia)) as (i & Hi & Hib).
    assert (next_idx P J q n = default 0%N (P !! take n q)) as En by (unfold SparseProofs.next_idx; by rewrite decide_True by lia).
    assert (exists b, get_block ls' n (next_idx P J q n) = Ok b /\ blk_get b i = Ok (default 0%N (schilds P J None (take n q) i))) as (b & Hb & Hg).
    { rewrite En. destruct (P !! take n q) as [a|] eqn:E; cbn [from_option id].
      - destruct (R1 _ _ i E Hib) as (b & Hb & Hg). rewrite (spath_take_len nw D HD0 HD) in Hb by (done || lia). eauto.
      - destruct n as [|n].
        { change (take 0 q) with (@nil N) in E. rewrite (ss_root _ _ _ _ _ _ Sh) in E. done. }
        destruct (R2 (S n) i ltac:(lia) ltac:(lia) Hib) as (b & Hb & Hg). exists b. split; [done|]. rewrite Hg.
        cbn. by rewrite (schilds_no_node nw D P J _ E (ss_parent _ _ _ _ _ _ Sh) (ss_jpath _ _ _ _ _ _ Sh)). }
    rewrite Hb, bind_ok, (get_u_ok _ _ _ Hi), bind_ok, Hg, bind_ok. rewrite (schilds_next nw D HD0 HD) by (done || lia).
    destruct (IH (S n) ltac:(lia)) as (out & ->). rewrite bind_ok. eauto.
Qed.
Lemma sshape_reads ls P J : sshape ls P J None -> reads ls P J.
Proof.
  intros Sh. split.
  - intros p a i Hp Hi. destruct (ss_block _ _ _ _ _ _ _ _ Sh Hp) as (b & Hb & Hr). exists b. split; [done|]. apply (blk_get_ok nw _ _ _ Hr Hi).
  - intros n i H0 Hn Hi. exists empty. split; [by apply (ss_zero nw D HD0 _ _ _ _ _ Sh)|]. apply (blk_get_ok nw _ _ _ (blk_empty_rep nw) Hi).
Qed.

(** ** the part of the descent that fits *)
Definition grown_to P P' (q : list N) (n : nat) : Prop :=
  (forall p a, P !! p = Some a -> P' !! p = Some a) /\
  (forall p, is_Some (P' !! p) -> is_Some (P !! p) \/ (p = take (length p) q /\ length p <= n)).
Lemma sgoi_prefix k n ls P J q kq a K : sshape ls P J None -> q = level_indices nw D kq -> (kq < SKB)%N ->
  n + k <= D - 1 -> P !! take n q = Some a -> covered K P -> kq ∈ K ->
  (forall j, n < j <= n + k -> (N.of_nat (size (level_keys j K)) < 2 ^ lbits (j - 1))%N) ->
  exists ls' P' a', visit_list (seq n k) (sgoi_body nw q) (ls, a) = Ok ((ls', a'), None) /\
    sshape ls' P' J None /\ P' !! take (n + k) q = Some a' /\ covered K P' /\ grown_to P P' q (n + k).
Proof.
  intros Sh Eq Hkb. destruct (level_indices_ok nw D kq Hnw ltac:(lia) Hkb) as [Hq Hkq]. rewrite <- Eq in Hq, Hkq.
  revert n ls P a Sh. induction k as [|k IH]; intros n ls P a Sh Hn Ha HK1 HK2 HK3; cbn [seq visit_list].
  - exists ls, P, a. rewrite Nat.add_0_r. split; [done|]. split; [done|]. split; [done|]. split; [done|]. split; [done|]. by left.
  - destruct (spath_lookup nw D HD0 HD q n Hq ltac:(lia)) as (i & Hi & Hib).
    destruct (ss_block_any nw D HD0 HD _ _ _ _ n Sh Hq ltac:(lia)) as (b & Hb & Hr). rewrite Ha in Hb. cbn [from_option id] in Hb.
    unfold sgoi_body at 1. unfold get_c at 1. rewrite Hi, bind_ok, Hb, bind_ok, (blk_get_ok _ _ _ _ Hr Hib), bind_ok.
    rewrite (schilds_next nw D HD0 HD) by (done || lia). unfold SparseProofs.next_idx. rewrite decide_True by lia.
    replace (n + S k) with (S n + k) by lia.
    destruct (P !! take (S n) q) as [a'|] eqn:Ea'; cbn [from_option id].
    + assert ((a' =? 0)%N = false) as ->.
      { apply N.eqb_neq. assert (0 < a')%N; [|lia]. eapply (ss_pos _ _ _ _ _ _ Sh); [exact Ea'|]. intros E.
        apply (f_equal length) in E. rewrite (spath_take_len nw D HD0 HD) in E by (done || lia). done. }
      rewrite bind_ok. apply IH; [done|lia|done|done|done|]. intros j Hj. apply HK3. lia.
    + change (0 =? 0)%N with true. cbn match.
      pose proof (spath_take_len nw D HD0 HD q n Hq ltac:(lia)) as Hln.
      rewrite (spath_take_S _ _ _ Hi) in Ea'.
      destruct (ss_alloc_link nw D Hnw HD0 ls P J (take n q) a i (level_keys (S n) K) Sh Ha) as (l & l' & new & ls' & Hl & Hins & Hic & Sh').
      * lia.
      * done.
      * done.
      * rewrite Hln. by eapply covered_level.
      * rewrite <- (spath_take_S _ _ _ Hi). apply elem_of_map. exists kq. split; [|done]. rewrite Eq. apply key_prefix; try done; lia.
      * rewrite Hln. specialize (HK3 (S n) ltac:(lia)). by replace (S n - 1) with n in HK3 by lia.
      * rewrite Hln in Hl, Hic. rewrite Hl, bind_ok, Hins, bind_ok, Hic, bind_ok, bind_ok.
        rewrite <- (spath_take_S _ _ _ Hi) in Sh', Ea'.
        destruct (IH (S n) ls' (<[take (S n) q := new]> P) new Sh' ltac:(lia)) as (ls2 & P2 & a2 & -> & Sh2 & Ha2 & HK' & [G1 G2]).
        -- apply lookup_insert.
        -- intros p Hp HPp. apply lookup_insert_is_Some' in HPp as [<-|HPp]; [|by apply HK1].
           exists kq. split; [done|]. split; [done|]. rewrite (spath_take_len nw D HD0 HD) by (done || lia). by rewrite Eq.
        -- done.
        -- intros j Hj. apply HK3. lia.
        -- exists ls2, P2, a2. split; [done|]. split; [done|]. split; [done|]. split; [done|]. split.
           ++ intros p x Hx. apply G1. rewrite lookup_insert_ne; [done|]. intros <-. congruence.
           ++ intros p Hp. destruct (G2 p Hp) as [HP|HP]; [|by right].
              apply lookup_insert_is_Some' in HP as [<-|HP]; [right|by left].
              rewrite (spath_take_len nw D HD0 HD) by (done || lia). split; [done|lia].
Qed.

(** ** counting: a level with as many nodes as its index type can express has no free block *)
Lemma level_full ls P J n (S : gset N) : sshape ls P J None -> 0 < n -> n < D ->
  (forall x, x ∈ S -> exists p, is_Some (P !! p) /\ length p = n /\ key_of_path nw p = x) ->
  (2 ^ lbits (n - 1) <= N.of_nat (size S) + 1)%N ->
  exists bs, ls !! n = Some (LList bs U64MAX) /\ N.of_nat (length bs) = (2 ^ lbits (n - 1))%N.
Proof.
  intros Sh H0 Hn HS Hsz. destruct (lookup_lt_is_Some_2 ls n) as [l Hl]; [by rewrite (ss_len _ _ _ _ _ _ Sh)|].
  pose proof (ss_lvl _ _ _ _ _ _ Sh _ _ Hl) as Hok. destruct n as [|n]; [lia|]. cbn [lvl_ok] in Hok. destruct Hok as (bs & r & fl & -> & Hll).
  assert (forall xs, NoDup xs -> (forall x, x ∈ xs -> x ∈ S) -> exists ys : list N, length ys = length xs /\ NoDup ys /\
    forall y, y ∈ ys -> exists p, P !! p = Some y /\ length p = Datatypes.S n /\ key_of_path nw p ∈ xs) as Hex.
  { induction xs as [|x xs IH]; intros Hnd Hin; [exists []; split; [done|]; split; [constructor|]; by intros ? ?%elem_of_nil|].
    apply NoDup_cons in Hnd as [Hx Hnd]. destruct IH as (ys & Hly & Hny & Hys); [done|intros; apply Hin; by right|].
    destruct (HS x ltac:(apply Hin; left)) as (p & [y Hy] & Hp & Hk). exists (y :: ys). split; [cbn; lia|]. split.
    - constructor; [|done]. intros Hy2. destruct (Hys y Hy2) as (p2 & Hp2 & Hl2 & Hk2).
      assert (p2 = p) as -> by (eapply (ss_inj _ _ _ _ _ _ Sh); [done|done|congruence]). rewrite Hk in Hk2. done.
    - intros z [->|Hz]%elem_of_cons.
      + exists p. split; [done|]. split; [done|]. rewrite Hk. left.
      + destruct (Hys z Hz) as (p2 & ? & ? & ?). exists p2. split; [done|]. split; [done|]. by right. }
  destruct (Hex (elements S)) as (ys & Hly & Hny & Hys); [apply NoDup_elements|by intros x ?%elem_of_elements|].
  change (length (elements S)) with (size S) in Hly.
  assert (length (fl ++ ys) <= length (N.of_nat <$> seq 1 (length bs - 1))) as Hle.
  { apply submseteq_length, NoDup_submseteq.
    - apply NoDup_app. split; [apply (ll_nodup _ _ _ _ _ _ _ Hll)|]. split; [|done]. intros x Hx Hy.
      destruct (Hys x Hy) as (p & Hp & Hlp & _). destruct (ll_free _ _ _ _ _ _ _ Hll x Hx) as [_ Hf]. by apply (Hf p).
    - intros x Hx. apply elem_of_list_fmap. exists (N.to_nat x). split; [lia|]. apply elem_of_seq. apply elem_of_app in Hx as [Hx|Hx].
      + pose proof (chain_lookup nw _ _ _ _ (ll_chain _ _ _ _ _ _ _ Hll) Hx). destruct (ll_free _ _ _ _ _ _ _ Hll x Hx) as [? _]. lia.
      + destruct (Hys x Hx) as (p & Hp & Hlp & _). destruct (ll_node _ _ _ _ _ _ _ Hll _ _ Hp Hlp) as (b & Hb & _).
        apply lookup_lt_Some in Hb. assert (0 < x)%N; [|lia]. eapply (ss_pos _ _ _ _ _ _ Sh); [exact Hp|]. intros ->. done. }
  rewrite app_length, fmap_length, seq_length in Hle. pose proof (ll_bound _ _ _ _ _ _ _ Hll) as Hbd.
  pose proof (lookup_lt_Some _ _ _ (ll_zero _ _ _ _ _ _ _ Hll)) as Hpos. replace (Datatypes.S n - 1) with n in * by lia.
  assert (fl = []) as ->. { destruct fl; [done|]. cbn in Hle. lia. }
  pose proof (ll_chain _ _ _ _ _ _ _ Hll) as Hc. cbn in Hc. subst r. exists bs. split; [done|]. lia.
Qed.
Lemma trunc_cap n : trunc n (2 ^ lbits n) = 0%N.
Proof. unfold trunc. apply N.mod_same. apply N.pow_nonzero. lia. Qed.

(** ** the element whose link does not fit *)
(** a tree whose blocks read as before, but for one child that reads 0 instead of "nothing" *)
Lemma reads_frame ls ls' P J p0 a0 i0 b' : sshape ls P J None -> P !! p0 = Some a0 ->
  schilds0 P J p0 i0 = None -> blk_rep nw b' (upd (schilds0 P J p0) i0 (Some 0%N)) ->
  get_block ls' (length p0) a0 = Ok b' ->
  (forall p a, P !! p = Some a -> p <> p0 -> get_block ls' (length p) a = get_block ls (length p) a) ->
  (forall n, 0 < n -> n < D -> get_block ls' n 0%N = get_block ls n 0%N) -> reads ls' P J.
Proof.
  intros Sh Hp0 Hn Hr Hb Hfr Hz. destruct (sshape_reads _ _ _ Sh) as [R1 R2]. split.
  - intros p a i Hp Hi. destruct (decide (p = p0)) as [->|Hne].
    + rewrite Hp0 in Hp. injection Hp as <-. exists b'. split; [done|]. rewrite (blk_get_ok nw _ _ _ Hr Hi). unfold upd.
      destruct (N.eqb_spec i i0) as [->|]; [|done]. by rewrite Hn.
    + rewrite Hfr by done. by apply R1.
  - intros n i H0 H1 Hi. rewrite Hz by done. by apply R2.
Qed.
Lemma least_level (f : nat -> Prop) `{forall n, Decision (f n)} n : 1 <= n -> f n -> exists n0, 1 <= n0 <= n /\ f n0 /\ forall j, 1 <= j < n0 -> ~ f j.
Proof.
  induction n as [n IH] using lt_wf_ind. intros H1 Hf.
  destruct (decide (Exists f (seq 1 (n - 1)))) as [He|He].
  - apply Exists_exists in He as (j & Hj%elem_of_seq & Hfj). destruct (IH j ltac:(lia) ltac:(lia) Hfj) as (n0 & ? & ? & ?).
    exists n0. split; [lia|done].
  - exists n. split; [lia|]. split; [done|]. intros j Hj Hfj. apply He, Exists_exists. exists j. split; [apply elem_of_seq; lia|done].
Qed.
Lemma not_fits_least K : ~ fits nw D K -> exists n0, 1 <= n0 <= D /\ (2 ^ lbits (n0 - 1) <= N.of_nat (size (level_keys n0 K)))%N /\
  forall j, 1 <= j < n0 -> (N.of_nat (size (level_keys j K)) < 2 ^ lbits (j - 1))%N.
Proof.
  intros Hn. set (f := fun n => (2 ^ lbits (n - 1) <= N.of_nat (size (level_keys n K)))%N).
  destruct (decide (Exists f (seq 1 D))) as [He|He].
  - apply Exists_exists in He as (j & Hj%elem_of_seq & Hfj). destruct (least_level f j ltac:(lia) Hfj) as (n0 & ? & ? & H).
    exists n0. split; [lia|]. split; [done|]. intros i Hi. apply N.nle_gt. by apply H.
  - exfalso. apply Hn. intros n Hn1. apply N.nle_gt. intros Hf. apply He, Exists_exists. exists n. split; [apply elem_of_seq; lia|done].
Qed.

Section lost.
Context {V : Type} (first : option V).
Implicit Types (t : sparse V) (m : gmap N V).
Notation sparse_inv := (sparse_inv nw D first).
Notation VB := (VB D).

Lemma sgoi_lost t m k ins v : sparse_inv ∅ t m -> (k < SKB)%N -> fits nw D (dom m) -> ~ fits nw D (dom m ∪ {[k]}) ->
  exists t' i, m !! k = None /\ sgoi_impl nw D t k ins (Some v) = Ok (t', Some i, []) /\
    s_values t' = s_values t ++ [Some v] /\ s_keys t' = s_keys t ++ [k] /\
    N.to_nat i = length (s_values t) /\
    forall q, path_ok nw D q -> fetch_block_index D t' q = fetch_block_index D t q.
Proof.
  intros (P & J & Sh & Hv & HLl & Hlbi & Hc) Hk Hfit Hnf.
  set (K := dom m ∪ {[k]}) in *.
  destruct (not_fits_least K Hnf) as (n0 & Hn0 & Hcap & Hless).
  destruct (level_indices_ok nw D k Hnw ltac:(lia) Hk) as [Hq Hkq].
  set (S := level_keys n0 (dom m)).
  set (q := level_indices nw D k) in *.
  assert (key_of_path nw (take n0 q) ∉ S /\ (2 ^ lbits (n0 - 1) <= N.of_nat (size S) + 1)%N) as [HxS HS].
  { assert (level_keys n0 K = S ∪ {[key_of_path nw (take n0 q)]}) as E.
    { unfold K, S, SparseProofs.level_keys. rewrite set_map_union_L, set_map_singleton_L. f_equal. f_equal.
      symmetry. apply key_prefix; try done; lia. }
    rewrite E in Hcap. split.
    - intros Hx. replace (S ∪ {[key_of_path nw (take n0 q)]}) with S in Hcap; [|apply set_eq; intros y; rewrite elem_of_union, elem_of_singleton; naive_solver].
      specialize (Hfit n0 Hn0). fold S in Hfit. lia.
    - rewrite size_union_alt in Hcap.
      assert (size ({[key_of_path nw (take n0 q)]} ∖ S) <= size ({[key_of_path nw (take n0 q)]} : gset N)) as Hle.
      { apply subseteq_size. intros y. rewrite elem_of_difference. tauto. }
      rewrite size_singleton in Hle. lia. }
  assert (m !! k = None) as Hmk.
  { apply eq_None_not_Some. intros Hs. apply HxS. apply elem_of_map. exists k. split; [|by apply elem_of_dom].
    apply key_prefix; try done; lia. }
  assert (J !! q = None) as HJq.
  { apply eq_None_not_Some. intros HJ. apply (svec_m_J nw D VB Hnw HD0 first _ _ _ _ Hv k Hk) in HJ. rewrite Hmk in HJ. by destruct HJ. }
  pose proof (sdom_covered nw D Hnw HD0 HD first _ _ _ _ _ Sh Hv Hc) as Hcov. rewrite union_empty_r_L in Hcov.
  assert (covered K P) as HcovK.
  { intros p Hp HP. destruct (Hcov p Hp HP) as (k' & Hk' & Ho). exists k'. split; [unfold K; set_solver|done]. }
  destruct (sgoi_prefix (n0 - 1) 0 (s_levels t) P J q k 0%N K Sh eq_refl Hk) as (ls1 & P1 & a1 & Hloop & Sh1 & Ha1 & _ & [G1 G2]).
  { lia. }
  { apply (ss_root _ _ _ _ _ _ Sh). }
  { done. }
  { unfold K. set_solver. }
  { intros j Hj. apply Hless. lia. }
  cbn [Nat.add] in Ha1, G2.
  pose proof (spath_take_len nw D HD0 HD q (n0 - 1) Hq ltac:(lia)) as Hlen.
  destruct (spath_lookup nw D HD0 HD q (n0 - 1) Hq ltac:(lia)) as (i & Hi & Hib).
  pose proof (spath_take_S _ _ _ Hi) as Htk. replace (Datatypes.S (n0 - 1)) with n0 in Htk by lia.
  assert (schilds0 P1 J (take (n0 - 1) q) i = None) as Hnone.
  { unfold SparseShape.schilds0. rewrite Hlen, <- Htk. destruct (decide (Datatypes.S (n0 - 1) < D)) as [Hlt|Hge].
    - apply eq_None_not_Some. intros HP1. destruct (G2 _ HP1) as [HP|[_ Hl]].
      + apply HxS. unfold S. replace n0 with (Datatypes.S (n0 - 1)) in HP |- * by lia. refine (covered_level nw D Hnw HD0 HD (dom m) P _ J None (n0 - 1) Sh Hcov _ HP _).
        rewrite (spath_take_len nw D HD0 HD) by (done || lia). lia.
      + rewrite (spath_take_len nw D HD0 HD) in Hl by (done || lia). lia.
    - replace n0 with (length q) by (destruct Hq; lia). by rewrite firstn_all. }
  destruct (ss_block _ _ _ _ _ _ _ _ Sh1 Ha1) as (b & Hb & Hr). rewrite Hlen in Hb.
  change (blk_rep nw b (schilds0 P1 J (take (n0 - 1) q))) in Hr.
  assert (forall t', reads (s_levels t') P1 J -> forall q', path_ok nw D q' -> fetch_block_index D t' q' = fetch_block_index D t q') as Hfin.
  { intros t' Hrd q' Hq'. unfold fetch_block_index, fetch_block_indices.
    destruct (fetch_reads _ _ _ _ q' D 0 Sh1 Hrd Hq' eq_refl) as (o1 & H1).
    destruct (fetch_loop_ok nw D HD0 HD _ _ _ q' D 0 Sh Hq' eq_refl) as (o2 & H2 & _).
    rewrite (next_idx_0 nw D HD0 HD _ _ _ _ None Sh) in H2. rewrite (next_idx_0 nw D HD0 HD _ _ _ _ None Sh1) in H1.
    rewrite next_idx_D in H1, H2 by done. by rewrite H1, H2. }
  unfold sgoi_impl. fold q. destruct (spath_last nw D HD0 HD q Hq) as (il & Eql & Hil & Hilb & ->). rewrite bind_ok.
  rewrite const_loop_ok by lia. rewrite Nat.sub_0_r.
  pose proof (svec_size nw D VB Hnw HD0 first _ _ _ _ Hv) as Hsz. pose proof (sv_len _ _ _ _ _ _ _ _ Hv) as HL.
  destruct (decide (n0 = D)) as [->|HnD].
  - (* the position of the value does not fit *)
    rewrite Hloop, bind_ok. cbn beta iota. rewrite Hb, bind_ok.
    rewrite Hi in Hil. injection Hil as <-.
    rewrite (blk_get_ok _ _ _ _ Hr Hib), bind_ok, Hnone. cbn [default from_option]. change (0 =? 0)%N with true. cbn match.
    assert (N.of_nat (length (s_values t)) = 2 ^ lbits (D - 1))%N as Hlv.
    { pose proof (sv_le _ _ _ _ _ _ _ _ Hv) as Hle. unfold SparseOps.VB in Hle. unfold S in HS. rewrite level_keys_D in HS.
      rewrite size_dom in HS. lia. }
    destruct (child_ok ls1 (D - 1) a1 b _ i (N.of_nat (length (s_values t))) Hb Hr Hib) as (ls2 & b' & -> & Hr' & _ & _ & Hg).
    rewrite bind_ok. rewrite Hlv, trunc_cap in Hr'. eexists _, _. split; [done|]. split; [reflexivity|].
    cbn [s_values s_keys]. split; [done|]. split; [done|]. split; [lia|]. apply Hfin. cbn [s_levels].
    apply (reads_frame ls1 ls2 P1 J _ _ _ b' Sh1 Ha1 Hnone Hr').
    + rewrite Hlen, Hg. by rewrite decide_True.
    + intros p a Hp Hne. rewrite Hg, decide_False; [done|]. intros [Hpl ->]. apply Hne.
      eapply (ss_inj _ _ _ _ _ _ Sh1); [done|done|congruence].
    + intros n H0 H1. rewrite Hg, decide_False; [done|]. intros [-> Hz].
      assert (0 < a1)%N; [|lia]. eapply (ss_pos _ _ _ _ _ _ Sh1); [done|]. intros E. apply (f_equal length) in E. cbn in E. lia.
  - (* the number of a block does not fit *)
    replace (seq 0 (D - 1)) with (seq 0 (n0 - 1) ++ (n0 - 1) :: seq n0 (D - 1 - n0)).
    2:{ replace (D - 1) with ((n0 - 1) + Datatypes.S (D - 1 - n0)) at 2 by lia. rewrite seq_app. cbn [seq Nat.add].
        do 2 f_equal. f_equal. lia. }
    rewrite visit_list_app, Hloop, bind_ok. cbn beta iota. cbn [visit_list].
    assert (exists bs, ls1 !! n0 = Some (LList bs U64MAX) /\ N.of_nat (length bs) = (2 ^ lbits (n0 - 1))%N) as (bs & Hbs & Hlbs).
    { apply (level_full ls1 P1 J n0 S Sh1); [lia|lia| |done]. intros x Hx. apply elem_of_map in Hx as (k' & -> & Hk').
      apply elem_of_dom in Hk' as [v' Hv']. pose proof (svec_bound nw D VB first _ _ _ _ Hv _ _ Hv') as Hkb.
      destruct (proj1 (svec_m_J nw D VB Hnw HD0 first _ _ _ _ Hv k' Hkb) ltac:(eauto)) as [j Hj].
      destruct (sJ_node nw D HD0 HD _ _ _ _ _ _ Sh Hj) as [Hq' HP'].
      destruct (sprefix_take nw D _ _ _ _ _ _ n0 Sh HP' ltac:(lia)) as [a' Ha'].
      exists (take n0 (level_indices nw D k')). split; [exists a'; by apply G1|]. split; [apply (spath_take_len nw D HD0 HD); [done|lia]|].
      apply key_prefix; try done; lia. }
    unfold sgoi_body at 1. unfold get_c at 1. rewrite Hi, bind_ok, Hb, bind_ok, (blk_get_ok _ _ _ _ Hr Hib), bind_ok, Hnone.
    cbn [default from_option]. change (0 =? 0)%N with true. cbn match.
    replace (Datatypes.S (n0 - 1)) with n0 by lia. unfold lv_at at 1, get_c. rewrite Hbs, bind_ok.
    cbn [lv_insert_empty]. unfold lv_pop. change (U64MAX =? U64MAX)%N with true. cbn match. rewrite bind_ok, bind_ok, Hlbs.
    set (c := (2 ^ lbits (n0 - 1))%N) in *. assert (0 < c)%N as Hc0 by (unfold c; apply N.neq_0_lt_0, N.pow_nonzero; lia).
    set (l2 := LList (bs ++ [empty]) U64MAX). set (ls2 := <[n0 := l2]> ls1).
    assert (length ls1 = D) as HLs1 by apply (ss_len _ _ _ _ _ _ Sh1).
    assert (ls2 !! n0 = Some l2) as Hl2 by (apply list_lookup_insert; lia).
    assert (forall j, j <> n0 -> ls2 !! j = ls1 !! j) as Hl2' by (intros j Hj; unfold ls2; by rewrite list_lookup_insert_ne).
    assert (get_block ls2 (n0 - 1) a1 = Ok b) as Hb2. { rewrite (get_block_eq ls1); [done|]. apply Hl2'. lia. }
    destruct (child_ok ls2 (n0 - 1) a1 b _ i c Hb2 Hr Hib) as (ls3 & b' & -> & Hr' & HL3 & Hk3 & Hg3).
    rewrite bind_ok, bind_ok. unfold c in Hr'. rewrite trunc_cap in Hr'.
    assert (length ls3 = D) as HL3'. { rewrite HL3. unfold ls2. by rewrite insert_length. }
    assert (forall j, n0 < j -> ls3 !! j = ls1 !! j) as Hdeep by (intros j Hj; rewrite Hk3 by lia; apply Hl2'; lia).
    destruct (junk q (D - 1 - n0) n0 ls3 c Hq ltac:(lia) HL3') as (ls4 & a4 & -> & HL4 & Hb4 & Hspot & Hfr4).
    { rewrite Hg3, decide_False by lia. rewrite (get_block_at _ _ _ _ Hl2). unfold lv_get, l2. cbn [lv_blocks].
      rewrite (get_u_ok _ _ empty); [done|]. replace (N.to_nat c) with (length bs) by lia. by rewrite list_lookup_middle. }
    { done. }
    { intros j l Hj Hl. rewrite Hdeep in Hl by done. eapply level_sane; [by apply (ss_lvl _ _ _ _ _ _ Sh1)|lia]. }
    rewrite bind_ok. cbn beta iota. rewrite Hb4, bind_ok, (blk_get_ok _ _ _ _ (blk_empty_rep nw) Hilb), bind_ok.
    cbn [default from_option]. change (0 =? 0)%N with true. cbn match.
    destruct (child_ok ls4 (D - 1) a4 empty _ il (N.of_nat (length (s_values t))) Hb4 (blk_empty_rep nw) Hilb) as (ls5 & b5 & -> & _ & _ & _ & Hg5).
    rewrite bind_ok. eexists _, _. split; [done|]. split; [reflexivity|].
    cbn [s_values s_keys]. split; [done|]. split; [done|]. split; [lia|]. apply Hfin. cbn [s_levels].
    assert (forall j x, ~ spot ls3 n0 c j x -> (j = n0 -> (x < c)%N) ->
      get_block ls5 j x = if decide (j = n0 - 1 /\ x = a1) then Ok b' else get_block ls1 j x) as Hfr5.
    { intros j x Hns Hx. rewrite Hg5, decide_False by (intros [-> ->]; by apply Hns). rewrite Hfr4 by done. rewrite Hg3.
      destruct (decide (j = n0 - 1 /\ x = a1)); [done|]. destruct (decide (j = n0)) as [->|Hj]; [|by apply get_block_eq, Hl2'].
      rewrite (get_block_at _ _ _ _ Hl2), (get_block_at _ _ _ _ Hbs). unfold lv_get, get_u, l2. cbn [lv_blocks].
      rewrite lookup_app_l; [done|]. specialize (Hx eq_refl). lia. }
    assert (forall j x, j <= D -> (j = n0 -> (x < c)%N) -> (forall l, n0 < j -> ls1 !! j = Some l -> ~ spare l x) -> ~ spot ls3 n0 c j x) as Hnsp.
    { intros j x _ H1 H2 [[-> ->]|(Hj & l & Hl & Hsp)]; [specialize (H1 eq_refl); lia|]. rewrite Hdeep in Hl by done. by apply (H2 l). }
    assert (forall p a, P1 !! p = Some a -> ~ spot ls3 n0 c (length p) a /\ (length p = n0 -> (a < c)%N)) as Hlive.
    { intros p a Hp. destruct (ss_path _ _ _ _ _ _ Sh1 _ _ Hp) as [_ Hpl].
      assert (length p = n0 -> (a < c)%N) as Hac.
      { intros E. destruct (ss_addr nw D HD0 _ _ _ _ _ _ Sh1 Hp) as [_ Hlt]; [intros ->; cbn in E; lia|]. by rewrite E in Hlt. }
      split; [|done]. apply Hnsp; [lia|done|]. intros l Hj Hl. eapply level_live; [by apply (ss_lvl _ _ _ _ _ _ Sh1)|done|done]. }
    apply (reads_frame ls1 ls5 P1 J _ _ _ b' Sh1 Ha1 Hnone Hr').
    + destruct (Hlive _ _ Ha1) as [H1 H2]. rewrite Hfr5 by done. rewrite Hlen. by rewrite decide_True.
    + intros p a Hp Hne. destruct (Hlive _ _ Hp) as [H1 H2]. rewrite Hfr5 by done. rewrite decide_False; [done|]. intros [Hpl ->]. apply Hne.
      eapply (ss_inj _ _ _ _ _ _ Sh1); [done|done|congruence].
    + intros n H0 H1. rewrite Hfr5; [|apply Hnsp; [lia|done|]|done].
      * rewrite decide_False; [done|]. intros [-> Hz].
        assert (0 < a1)%N; [|lia]. eapply (ss_pos _ _ _ _ _ _ Sh1); [done|]. intros E. apply (f_equal length) in E. cbn in E. lia.
      * intros l Hj Hl. apply sane_zero. eapply level_sane; [by apply (ss_lvl _ _ _ _ _ _ Sh1)|lia].
Qed.
End lost.
End over.
