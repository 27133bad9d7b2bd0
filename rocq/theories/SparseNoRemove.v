(** * SparseTree without removals: no call is undefined behaviour, in every configuration and for every number of elements (C64)

    No condition on the links: they may be truncated by the index type of their level and then lead to another subtree or another
    element, but as long as nothing is removed the level vectors and the value vector only grow, so a truncated link still points into them. *)
From Verif Require Import Base BitUtils BitUtilsProofs LevelIndices LevelIndicesProofs ConstLoops Hierarchy Dense Sparse Spec Client SparseVec SparseShape SparseHistory.

Section safe.
Context {V : Type} (nw D : nat).
Hypothesis Hnw : nw_ok nw.
Hypothesis HD0 : 1 <= D.
Hypothesis HD : D <= 9.
Notation B := (key_bound nw D).

Definition good (b : block) : Prop := mask_ok nw (b_mask b) /\ length (b_idx b) = N.to_nat (msize nw).
(** the number of things that a link to level [n] can lead to: the blocks of that level, or the values *)
Definition lim (ls : list level) (nv n : nat) : nat := match ls !! n with Some l => length (lv_blocks l) | None => nv end.
Definition links_below (k : nat) (b : block) : Prop := Forall (fun x => N.to_nat x < k) (b_idx b).
Definition lv_kind (n : nat) (l : level) : Prop := match n with O => exists b, l = LSingle b | S _ => exists bs, l = LList bs U64MAX end.
Definition lv_good (k n : nat) (l : level) : Prop :=
  lv_kind n l /\ 0 < length (lv_blocks l) /\ Forall good (lv_blocks l) /\ Forall (links_below k) (lv_blocks l).
Definition safe (ls : list level) (nv : nat) : Prop :=
  length ls = D /\ 0 < nv /\ forall n l, ls !! n = Some l -> lv_good (lim ls nv (S n)) n l.

Lemma links_below_mono k k' b : k <= k' -> links_below k b -> links_below k' b.
Proof. intros Hk Hb. eapply Forall_impl; [exact Hb|]. intros x Hx. cbv beta in *. lia. Qed.
Lemma lv_good_mono k k' n l : k <= k' -> lv_good k n l -> lv_good k' n l.
Proof. intros Hk (H1 & H2 & H3 & H4). split_and!; try done. eapply Forall_impl; [exact H4|]. intros b. by apply links_below_mono. Qed.
Lemma lim_last ls nv : length ls = D -> lim ls nv D = nv.
Proof. intros H. unfold lim. by rewrite lookup_ge_None_2 by lia. Qed.
Lemma lim_pos ls nv n : safe ls nv -> 0 < lim ls nv n.
Proof. intros (_ & Hn & H). unfold lim. destruct (ls !! n) as [l|] eqn:E; [|done]. apply (H n l E). Qed.
Lemma empty_good k : 0 < k -> good (blk_empty nw) /\ links_below k (blk_empty nw).
Proof.
  intros Hk. split; [split; [apply mask_zero_ok|apply replicate_length]|]. apply Forall_replicate. lia.
Qed.
Lemma safe_get ls nv n i : safe ls nv -> n < D -> N.to_nat i < lim ls nv n -> exists b, get_block ls n i = Ok b /\ good b /\ links_below (lim ls nv (S n)) b.
Proof.
  intros (HL & _ & H) Hn Hi. destruct (lookup_lt_is_Some_2 ls n) as [l El]; [lia|]. unfold lim in Hi. rewrite El in Hi.
  destruct (lookup_lt_is_Some_2 (lv_blocks l) (N.to_nat i) Hi) as [b Eb]. exists b.
  destruct (H n l El) as (_ & _ & Hg & Hk). unfold get_block, lv_at, get_c. rewrite El, bind_ok. unfold lv_get. rewrite (get_u_ok _ _ _ Eb). split; [done|].
  rewrite Forall_lookup in Hg, Hk. eauto.
Qed.
Lemma safe_link b k i : good b -> links_below k b -> (i < msize nw)%N -> exists x, blk_get b i = Ok x /\ N.to_nat x < k.
Proof.
  intros [_ Hl] Hk Hi. destruct (lookup_lt_is_Some_2 (b_idx b) (N.to_nat i)) as [x Ex]; [lia|]. exists x. unfold blk_get. rewrite (get_u_ok _ _ _ Ex). split; [done|].
  unfold links_below in Hk. rewrite Forall_lookup in Hk. eauto.
Qed.
Lemma fetch_safe ls nv q k : safe ls nv -> path_ok nw D q -> forall n i, n + k = D -> N.to_nat i < lim ls nv n ->
  exists out j, fetch_loop ls q k n i = Ok (out, j) /\ N.to_nat j < nv.
Proof.
  intros Hs [Hq Hb]. induction k as [|k IH]; intros n i Hn Hi; cbn [fetch_loop].
  - exists [], i. split; [done|]. rewrite <- (lim_last ls nv); [|apply Hs]. by replace D with n by lia.
  - destruct (safe_get ls nv n i Hs ltac:(lia) Hi) as (b & -> & Hg & Hk). rewrite bind_ok.
    destruct (lookup_lt_is_Some_2 q n ltac:(lia)) as [x Ex]. rewrite (get_u_ok _ _ _ Ex), bind_ok.
    rewrite Forall_lookup in Hb. destruct (safe_link b _ x Hg Hk (Hb _ _ Ex)) as (y & -> & Hy). rewrite bind_ok.
    destruct (IH (S n) y ltac:(lia) Hy) as (out & j & -> & Hj). rewrite bind_ok. eauto.
Qed.
Lemma trunc_le n x : (trunc n x <= x)%N.
Proof. unfold trunc. apply N.mod_le. apply N.pow_nonzero. lia. Qed.
(** storing a link *)
Lemma lim_insert ls nv n l l' m : ls !! n = Some l -> length (lv_blocks l') = length (lv_blocks l) -> lim (<[n := l']> ls) nv m = lim ls nv m.
Proof.
  intros El Hl. unfold lim. destruct (decide (m = n)) as [->|Hne].
  - rewrite list_lookup_insert, El by (apply lookup_lt_Some in El; done). done.
  - by rewrite list_lookup_insert_ne.
Qed.
Lemma insert_child_safe ls nv n i x item : safe ls nv -> n < D -> N.to_nat i < lim ls nv n -> (x < msize nw)%N -> N.to_nat item < lim ls nv (S n) ->
  exists ls', insert_child ls n i x item = Ok ls' /\ safe ls' nv /\ forall m, lim ls' nv m = lim ls nv m.
Proof.
  intros Hs Hn Hi Hx Hit. destruct (safe_get ls nv n i Hs Hn Hi) as (b & Eb & [Hm Hl] & Hk). unfold insert_child. rewrite Eb, bind_ok.
  unfold blk_insert. destruct (mask_set_bit_ok true nw (b_mask b) x Hm) as (m' & -> & Hm' & _); [exact Hx|].
  rewrite bind_ok, set_u_ok, bind_ok, bind_ok by lia. set (b' := Block m' _).
  assert (good b' /\ links_below (lim ls nv (S n)) b') as [Hg' Hk'].
  { split; [split; [done|]; cbn; by rewrite insert_length|]. apply Forall_insert; [exact Hk|]. pose proof (trunc_le n item). lia. }
  destruct Hs as (HL & Hnv & H). destruct (lookup_lt_is_Some_2 ls n ltac:(lia)) as [l El]. destruct (H n l El) as (Hkd & Hp & Hgs & Hks).
  unfold put_block, lv_at, get_c. rewrite El, bind_ok. unfold lv_set. unfold lim in Hi. rewrite El in Hi. rewrite set_u_ok, bind_ok, bind_ok by done.
  set (l' := lv_with_blocks l _).
  assert (lv_blocks l' = <[N.to_nat i := b']> (lv_blocks l)) as El'.
  { destruct l as [b0|bs r]; [|done]. cbn in Hi |- *. destruct (N.to_nat i); [done|lia]. }
  assert (length (lv_blocks l') = length (lv_blocks l)) as Hll by (by rewrite El', insert_length).
  exists (<[n := l']> ls). split; [done|]. split; [|intros m; by eapply lim_insert]. split; [by rewrite insert_length|]. split; [done|].
  intros m lm Em. rewrite (lim_insert ls nv n l l' (S m) El Hll). destruct (decide (m = n)) as [->|Hne].
  - rewrite list_lookup_insert in Em by lia. injection Em as <-. split; [|rewrite El'; split; [by rewrite insert_length|split; by apply Forall_insert]].
    destruct n, l; cbn in Hkd |- *; destruct Hkd as [? [= ]]; subst; eauto.
  - rewrite list_lookup_insert_ne in Em by done. by apply H.
Qed.
(** a new block *)
Lemma insert_empty_safe ls nv n : safe ls nv -> S n < D -> exists l l' new, ls !! S n = Some l /\ lv_insert_empty nw l = Ok (l', new) /\
  safe (<[S n := l']> ls) nv /\ N.to_nat new < lim (<[S n := l']> ls) nv (S n) /\ forall m, lim ls nv m <= lim (<[S n := l']> ls) nv m.
Proof.
  intros Hs Hn. pose proof (lim_pos _ _ (S (S n)) Hs) as Hlp. destruct Hs as (HL & Hnv & H). destruct (lookup_lt_is_Some_2 ls (S n) ltac:(lia)) as [l El]. destruct (H _ _ El) as (Hkd & Hp & Hg & Hk).
  cbn in Hkd. destruct Hkd as [bs ->]. cbn [lv_blocks] in *. eexists _, _, _. split; [done|]. cbn [lv_insert_empty]. unfold lv_pop. rewrite N.eqb_refl, bind_ok. split; [reflexivity|].
  set (l' := LList (bs ++ [blk_empty nw]) U64MAX).
  assert (forall m, lim ls nv m <= lim (<[S n := l']> ls) nv m) as Hmono.
  { intros m. unfold lim. destruct (decide (m = S n)) as [->|Hne]; [|by rewrite list_lookup_insert_ne].
    rewrite list_lookup_insert, El by lia. cbn. rewrite app_length. lia. }
  split; [|split; [|done]].
  - split; [by rewrite insert_length|]. split; [done|]. intros m lm Em. destruct (decide (m = S n)) as [->|Hne].
    + rewrite list_lookup_insert in Em by lia. injection Em as <-. destruct (empty_good (lim (<[S n := l']> ls) nv (S (S n)))) as [He1 He2]; [pose proof (Hmono (S (S n))); lia|].
      split; [by eexists|]. cbn [lv_blocks l']. split; [rewrite app_length; cbn; lia|]. split; [by apply Forall_app_2; [|constructor]|].
      apply Forall_app_2; [|by constructor]. eapply Forall_impl; [exact Hk|]. intros b. apply links_below_mono, Hmono.
    + rewrite list_lookup_insert_ne in Em by done. eapply lv_good_mono; [apply Hmono|]. by apply H.
  - unfold lim. rewrite list_lookup_insert by lia. cbn. rewrite app_length, Nat2N.id. cbn. lia.
Qed.
Lemma loop_safe nv q k : path_ok nw D q -> forall n ls i, n + k = D - 1 -> safe ls nv -> N.to_nat i < lim ls nv n ->
  exists ls' i', visit_list (seq n k) (sgoi_body nw q) (ls, i) = Ok ((ls', i'), None) /\ safe ls' nv /\ N.to_nat i' < lim ls' nv (D - 1).
Proof.
  intros [Hq Hb]. rewrite Forall_lookup in Hb. induction k as [|k IH]; intros n ls i Hn Hs Hi; cbn [seq visit_list].
  - exists ls, i. split; [done|]. split; [done|]. by replace (D - 1) with n by lia.
  - destruct (lookup_lt_is_Some_2 q n ltac:(lia)) as [x Ex]. destruct (safe_get ls nv n i Hs ltac:(lia) Hi) as (b & Eb & Hg & Hk).
    destruct (safe_link b _ x Hg Hk (Hb _ _ Ex)) as (y & Ey & Hy).
    assert (exists ls' i', sgoi_body nw q (ls, i) n = Ok ((ls', i'), None) /\ safe ls' nv /\ N.to_nat i' < lim ls' nv (S n)) as (ls' & i' & E & Hs' & Hi').
    { unfold sgoi_body. unfold get_c at 1. rewrite Ex, bind_ok, Eb, bind_ok, Ey, bind_ok. destruct (N.eqb_spec y 0) as [_|_]; [|by exists ls, y].
      destruct (insert_empty_safe ls nv n Hs ltac:(lia)) as (l & l' & new & El & En & Hs1 & Hnew & Hmono). unfold lv_at, get_c. rewrite El, bind_ok, En, bind_ok. cbn beta iota zeta.
      destruct (insert_child_safe _ nv n i x new Hs1 ltac:(lia) ltac:(specialize (Hmono n); lia) (Hb _ _ Ex) Hnew) as (ls2 & -> & Hs2 & Hl2). rewrite bind_ok.
      exists ls2, new. split; [done|]. split; [done|]. by rewrite Hl2. }
    rewrite E, bind_ok. by apply (IH (S n)); [lia|..].
Qed.

(** ** trees *)
Definition tsafe (d0 : option V) (t : sparse V) : Prop :=
  exists vs ks, s_values t = d0 :: (Some <$> vs) /\ s_keys t = USIZE_MAX :: ks /\ length ks = length vs /\ safe (s_levels t) (S (length vs)).
Lemma safe_more ls nv nv' : nv <= nv' -> safe ls nv -> safe ls nv'.
Proof.
  intros Hle (HL & Hp & H). split; [done|]. split; [lia|]. intros n l El. eapply lv_good_mono; [|by apply H]. unfold lim. by destruct (ls !! S n).
Qed.
Lemma data_in d0 (vs : list V) j : 0 < j -> j < S (length vs) -> exists v, data_get (d0 :: (Some <$> vs)) j = Ok v.
Proof.
  intros H0 H. destruct j as [|j]; [lia|]. destruct (lookup_lt_is_Some_2 vs j ltac:(lia)) as [v Ev]. exists v. unfold data_get.
  rewrite (get_u_ok _ _ (Some v)); [done|]. change ((Some <$> vs) !! j = Some (Some v)). by rewrite list_lookup_fmap, Ev.
Qed.
Lemma tsafe_fetch d0 t k : tsafe d0 t -> (k < B)%N -> exists j, fetch_block_index D t (level_indices nw D k) = Ok j /\ N.to_nat j < length (s_values t).
Proof.
  intros (vs & ks & Hv & Hk & Hl & Hs) Hkb. destruct (skey_path nw D Hnw HD0 k (bound_skb nw D HD0 HD k Hkb)) as [Hp _].
  destruct (fetch_safe _ _ _ D Hs Hp 0 0%N eq_refl) as (out & j & E & Hj); [cbn; by apply lim_pos|].
  exists j. unfold fetch_block_index, fetch_block_indices. rewrite E, bind_ok. split; [done|]. rewrite Hv. cbn. by rewrite fmap_length.
Qed.
Lemma tsafe_sgoi d0 t k ins f : tsafe d0 t -> (k < B)%N -> exists t' oj dr, sgoi_impl nw D t k ins f = Ok (t', oj, dr) /\ tsafe d0 t' /\
  (forall j, oj = Some j -> (0 < j)%N /\ N.to_nat j < length (s_values t')).
Proof.
  intros (vs & ks & Hv & Hk & Hl & Hs) Hkb. destruct (skey_path nw D Hnw HD0 k (bound_skb nw D HD0 HD k Hkb)) as [Hp _].
  unfold sgoi_impl. set (q := level_indices nw D k) in *. destruct (Hp) as [Hq Hb]. rewrite Forall_lookup in Hb.
  destruct (lookup_lt_is_Some_2 q (D - 1) ltac:(lia)) as [x Ex]. rewrite Hq, (get_u_ok _ _ _ Ex), bind_ok.
  rewrite const_loop_ok, Nat.sub_0_r by lia. destruct (loop_safe _ q (D - 1) Hp 0 _ 0%N eq_refl Hs) as (ls & i & -> & Hs1 & Hi); [cbn; by apply lim_pos|].
  rewrite bind_ok. cbn beta iota. destruct (safe_get ls _ (D - 1) i Hs1 ltac:(lia) Hi) as (b & Eb & Hg & Hkk). rewrite Eb, bind_ok.
  replace (S (D - 1)) with D in Hkk by lia. rewrite lim_last in Hkk by apply Hs1.
  destruct (safe_link b _ x Hg Hkk (Hb _ _ Ex)) as (y & -> & Hy). rewrite bind_ok. destruct (N.eqb_spec y 0) as [Hy0|Hy0].
  - destruct f as [v|]; [|eexists _, _, _; split; [reflexivity|]; split; [exists vs, ks; done|done]]. cbn zeta.
    assert (length (s_values t) = S (length vs)) as Hlv by (rewrite Hv; cbn; by rewrite fmap_length).
    destruct (insert_child_safe ls (S (S (length vs))) (D - 1) i x (N.of_nat (length (s_values t)))) as (ls' & -> & Hs2 & _).
    + by eapply safe_more; [|exact Hs1]; lia.
    + lia.
    + eapply Nat.lt_le_trans; [exact Hi|]. unfold lim. by destruct (ls !! (D - 1)); [|lia].
    + by apply (Hb (D - 1)).
    + replace (S (D - 1)) with D by lia. rewrite lim_last by apply Hs1. rewrite Nat2N.id. lia.
    + rewrite bind_ok. eexists _, _, _. split; [reflexivity|]. split.
      * exists (vs ++ [v]), (ks ++ [k]). cbn [s_values s_keys s_levels]. rewrite Hv, Hk, fmap_app, !app_length. cbn. split; [done|]. split; [done|]. split; [lia|].
        by replace (length vs + 1) with (S (length vs)) by lia.
      * intros j [= <-]. cbn [s_values]. rewrite app_length, Nat2N.id. cbn. lia.
  - destruct (data_in d0 vs (N.to_nat y) ltac:(lia) Hy) as (w & Ew). rewrite Hv.
    assert (forall (v : V) , exists vs', <[N.to_nat y := Some v]> (d0 :: (Some <$> vs)) = d0 :: (Some <$> vs') /\ length vs' = length vs) as Hset.
    { intros v. exists (<[N.to_nat y - 1 := v]> vs). split; [|by rewrite insert_length]. destruct (N.to_nat y) as [|y'] eqn:E; [lia|]. cbn.
      rewrite Nat.sub_0_r. by rewrite list_fmap_insert. }
    destruct ins; [destruct f as [v|]|].
    + rewrite Ew, bind_ok, set_u_ok, bind_ok by (cbn; rewrite fmap_length; lia). eexists _, _, _. split; [reflexivity|]. destruct (Hset v) as (vs' & Es & El).
      split; [|intros j [= <-]; cbn [s_values]; rewrite insert_length; cbn; rewrite fmap_length; lia].
      exists vs', ks. cbn [s_values s_keys s_levels]. rewrite Es, El. done.
    + eexists _, _, _. split; [reflexivity|]. split; [|done]. exists vs, ks. done.
    + rewrite Ew, bind_ok. eexists _, _, _. split; [reflexivity|]. split; [exists vs, ks; done|]. intros j [= <-]. cbn [s_values length]. rewrite fmap_length. lia.
Qed.
Lemma tsafe_use_ref d0 t j w dr : tsafe d0 t -> (0 < j)%N -> N.to_nat j < length (s_values t) ->
  exists t' o dr', sparse_use_ref t j w dr = Ok (t', o, dr') /\ tsafe d0 t'.
Proof.
  intros (vs & ks & Hv & Hk & Hl & Hs) H0 Hj. rewrite Hv in Hj. cbn in Hj. rewrite fmap_length in Hj.
  destruct (data_in d0 vs (N.to_nat j) ltac:(lia) Hj) as (v & Ev). unfold sparse_use_ref. rewrite Hv, Ev, bind_ok.
  destruct w as [x|]; [|eexists _, _, _; split; [reflexivity|]; by exists vs, ks]. unfold sparse_write_ref. rewrite Hv, set_u_ok, bind_ok, bind_ok by (cbn; rewrite fmap_length; lia).
  eexists _, _, _. split; [reflexivity|]. exists (<[N.to_nat j - 1 := x]> vs), ks. cbn [s_values s_keys s_levels]. split; [|by rewrite insert_length].
  destruct (N.to_nat j) as [|j'] eqn:E; [lia|]. cbn. rewrite Nat.sub_0_r. by rewrite list_fmap_insert.
Qed.
Lemma all_init_some (vs : list V) : all_init (Some <$> vs) = Ok vs.
Proof. induction vs as [|v vs IH]; cbn [fmap list_fmap all_init]; [done|]. by rewrite IH, bind_ok. Qed.
Lemma tsafe_key_values d0 t : tsafe d0 t -> exists ks vs, sparse_key_values t = Ok (ks, vs) /\ s_values t = d0 :: (Some <$> vs) /\ length ks = length vs /\
  s_keys t = USIZE_MAX :: ks.
Proof.
  intros (vs & ks & Hv & Hk & Hl & Hs). exists ks, vs. unfold sparse_key_values, from_1. rewrite Hv, Hk. cbn [length drop]. rewrite !decide_True by lia. rewrite !bind_ok.
  by rewrite drop_0, drop_0, all_init_some, bind_ok.
Qed.
Lemma tsafe_get d0 t k : tsafe d0 t -> (k < B)%N -> exists o, tree_get (sparse_tree V nw D) t k = Ok o.
Proof.
  intros Hs Hk. unfold tree_get. cbn [t_nw t_depth sparse_tree t_data]. rewrite index_from_sparse, (proj2 (N.ltb_lt _ _) Hk), bind_ok.
  unfold sparse_data. destruct (tsafe_fetch d0 t k Hs Hk) as (j & -> & Hj). rewrite bind_ok. destruct (N.eqb_spec j 0); [eauto|].
  destruct Hs as (vs & ks & Hv & Hs). rewrite Hv in Hj |- *. cbn in Hj. rewrite fmap_length in Hj. destruct (data_in d0 vs (N.to_nat j) ltac:(lia) Hj) as (v & ->). rewrite bind_ok. eauto.
Qed.
Lemma tsafe_call d0 t c : tsafe d0 t -> sparse_api (match d0 with Some _ => true | None => false end) c -> ~ is_remove c ->
  exists t' o dr, sparse_call nw D t c = Ok (t', o, dr) /\ tsafe d0 t'.
Proof.
  intros Hs Ha Hr. destruct c as [k v|k dflt w|k|k|k w|k|f]; cbn [sparse_call]; [..|].
  - unfold sparse_insert. rewrite index_from_sparse. destruct (N.ltb_spec k B) as [Hk|_]; cbn [rbind]; [|eauto 10].
    destruct (tsafe_sgoi d0 t k true (Some v) Hs Hk) as (t' & oj & dr & -> & Hs' & _). rewrite bind_ok. eauto 10.
  - unfold sparse_get_or_insert. rewrite index_from_sparse. destruct (N.ltb_spec k B) as [Hk|_]; cbn [rbind]; [|eauto 10].
    destruct (tsafe_sgoi d0 t k false dflt Hs Hk) as (t' & [j|] & dr & -> & Hs' & Hj); [|eauto 10]. destruct (Hj j eq_refl). by apply tsafe_use_ref.
  - exfalso. by apply Hr.
  - unfold tree_get. cbn [t_nw t_depth sparse_tree t_data]. rewrite index_from_sparse. destruct (N.ltb_spec k B) as [Hk|_]; cbn [rbind]; [|eauto 10].
    unfold sparse_data. destruct (tsafe_fetch d0 t k Hs Hk) as (j & -> & Hj). rewrite bind_ok. destruct (N.eqb_spec j 0); [eauto 10|].
    destruct Hs as (vs & ks & Hv & Hs). rewrite Hv in Hj |- *. cbn in Hj. rewrite fmap_length in Hj. destruct (data_in d0 vs (N.to_nat j) ltac:(lia) Hj) as (v & ->). rewrite bind_ok.
    eexists _, _, _. split; [reflexivity|]. by exists vs, ks.
  - unfold sparse_get_mut. rewrite index_from_sparse. destruct (N.ltb_spec k B) as [Hk|_]; cbn [rbind]; [|eauto 10].
    destruct (tsafe_fetch d0 t k Hs Hk) as (j & -> & Hj). rewrite bind_ok. destruct (N.eqb_spec j 0); [eauto 10|].
    pose proof Hs as (vs & ks & Hv & _). pose proof Hj as Hj'. rewrite Hv in Hj'. cbn in Hj'. rewrite fmap_length in Hj'. rewrite Hv. destruct (data_in d0 vs (N.to_nat j) ltac:(lia) Hj') as (v & ->). rewrite bind_ok.
    apply tsafe_use_ref; [done|lia|done].
  - unfold sparse_get_or_default. rewrite index_from_sparse. destruct (N.ltb_spec k B) as [Hk|_]; cbn [rbind]; [|eauto 10].
    destruct (tsafe_fetch d0 t k Hs Hk) as (j & -> & Hj). rewrite bind_ok. destruct d0 as [v0|]; [|done].
    pose proof Hs as (vs & ks & Hv & _). rewrite Hv in Hj |- *. cbn in Hj. rewrite fmap_length in Hj. destruct (decide (N.to_nat j = 0)) as [->|Hj0].
    + change (data_get (Some v0 :: (Some <$> vs)) 0) with (Ok v0). eauto 10.
    + destruct (data_in (Some v0) vs (N.to_nat j) ltac:(lia) Hj) as (v & ->). eauto 10.
  - unfold sparse_update_all. destruct (tsafe_key_values d0 t Hs) as (ks & vs & -> & Hv & Hl & Hk). rewrite bind_ok. rewrite bind_ok. eexists _, _, _. split; [reflexivity|].
    destruct Hs as (vs0 & ks0 & Hv0 & Hk0 & Hl0 & Hs). rewrite Hv0 in Hv. injection Hv as Hv%(inj (fmap Some)). subst vs0.
    exists (zip_with f ks vs), ks. cbn [s_values s_keys s_levels]. rewrite Hv0. cbn [take]. split; [done|]. split; [done|].
    rewrite zip_with_length, Hl, Nat.min_id. done.
Qed.
Lemma tsafe_calls d0 cs : Forall (sparse_api (match d0 with Some _ => true | None => false end)) cs -> Forall (fun c => ~ is_remove c) cs ->
  forall t, tsafe d0 t -> exists t' os dr, sparse_calls nw D t cs = Ok (t', os, dr) /\ tsafe d0 t'.
Proof.
  induction cs as [|c cs IH]; intros Ha Hr t Hs; cbn [sparse_calls]; [eauto|]. inversion_clear Ha. inversion_clear Hr.
  destruct (tsafe_call d0 t c Hs) as (t1 & o & dr & -> & Hs1); [done..|]. rewrite bind_ok.
  destruct (IH ltac:(done) ltac:(done) t1 Hs1) as (t2 & os & drs & -> & Hs2). rewrite bind_ok. eauto 10.
Qed.
Lemma tsafe_default req dflt : (req = true -> is_Some dflt) -> exists t, sparse_default V nw D req dflt = Ok t /\ tsafe (placeholder req dflt) t.
Proof.
  intros Hr. unfold sparse_default, placeholder.
  assert (forall d : option V, tsafe d (Sparse (lv_default nw <$> seq 0 D) [d] [USIZE_MAX] [(0, 0)%N])) as H.
  { intros d. exists [], []. split; [done|]. split; [done|]. split; [done|]. cbn [s_levels length].
    assert (forall n, 0 < lim (lv_default nw <$> seq 0 D) 1 n) as Hpos.
    { intros n. unfold lim. rewrite list_lookup_fmap. destruct (seq 0 D !! n) as [[|m]|]; cbn; lia. }
    split; [by rewrite fmap_length, seq_length|]. split; [lia|]. intros n l El. specialize (Hpos (S n)). set (k := lim _ _ _) in *.
    rewrite list_lookup_fmap in El. apply fmap_Some in El as (m & Em & ->). apply lookup_seq in Em as [-> _]. cbn [plus]. destruct (empty_good k Hpos) as [E1 E2].
    split; [destruct n; cbn; eauto|]. destruct n; cbn; (split; [lia|]; split; by constructor). }
  destruct req; [|eauto]. destruct (Hr eq_refl) as [v ->]. cbn [rbind]. eauto.
Qed.
End safe.
