(** * Any program over any number of DenseTrees in one memory *)
From Verif Require Import Base BitUtils BitUtilsProofs BitQueue LevelIndices LevelIndicesProofs ConstLoops Hierarchy Lawful Dense DenseNode DenseShape DenseProofs DenseRemove
  DenseDrop DenseHistory DenseTree DenseLaws PanicSafety DenseMemory Spec SpecLaws Client TreeClient Contract Compose ViewLaws Generic MaterializeLaws MaterializeViews TreeTransfer Ops MultiUnionRef Materialize PropertiesUser PropertiesViews WorldSpec DenseWorld DenseWorldSim DenseWorldMat.

Local Ltac inv H := apply bind_ok_inv in H as (? & ? & H); cbn beta iota in H.

(** ** reading: the two trees answer alike *)
Section read.
Context (F : gmap N node) {V : Type} (D : nat) (ren : gmap N N) (t u : dense V) (Hd : drel F ren t u).
Definition crel (c c' : dcursor) : Prop := Forall2 (option_Forall2 (prel ren)) c c'.

Lemma unwrap_sim o o' p : option_Forall2 (prel ren) o o' -> unwrap_unc o = Ok p -> exists q, unwrap_unc o' = Ok q /\ prel ren p q.
Proof. intros H E. destruct H; cbn in *; [injection E as <-; eauto|done]. Qed.
Lemma prev_sim c c' n p : crel c c' -> dcur_prev t c n = Ok p -> exists q, dcur_prev u c' n = Ok q /\ prel ren p q.
Proof.
  destruct Hd as (Hr & Hw & _). intros Hc E. unfold dcur_prev in *. case_decide; [injection E as <-; eauto|]. inv E.
  destruct (F2_get_u _ _ _ _ _ Hc H0) as (o' & -> & Ho). rewrite bind_ok. by eapply unwrap_sim.
Qed.
Lemma select_sim c c' n i c1 m : crel c c' -> dcur_select D t c n i = Ok (c1, m) -> exists c1', dcur_select D u c' n i = Ok (c1', m) /\ crel c1 c1'.
Proof.
  destruct Hd as (Hr & Hw & _). intros Hc E. unfold dcur_select in *. destruct (decide (n = 0)).
  - inv E. rewrite (sim_node_mask _ _ _ _ _ _ _ Hw Hr H), bind_ok. injection E as <- <-. eauto.
  - inv E. destruct (prev_sim _ _ _ _ Hc H) as (q & -> & Hq). rewrite bind_ok. inv E. rewrite (sim_contains _ _ _ _ _ _ _ _ Hw Hq H0), bind_ok.
    inv E. destruct (sim_child_ptr _ _ _ _ _ _ _ _ Hw Hq H1) as (cp & -> & Hcp). rewrite bind_ok. inv E. rewrite H2, bind_ok. inv E.
    assert (prel ren (if x0 then x1 else x2) (if x0 then cp else x2)) as Hn.
    { destruct x0; [done|]. unfold empty_node in H2. repeat (case_decide; [|done]). by injection H2 as <-. }
    destruct (F2_set_u _ _ _ _ _ (Some (if x0 then cp else x2)) _ Hc ltac:(by constructor) H3) as (c2' & -> & Hc2). rewrite bind_ok. inv E.
    rewrite (sim_node_mask _ _ _ _ _ _ _ Hw Hn H4), bind_ok. injection E as <- <-. eauto.
Qed.
Lemma select_u_sim c c' n i c1 m : crel c c' -> dcur_select_u D t c n i = Ok (c1, m) -> exists c1', dcur_select_u D u c' n i = Ok (c1', m) /\ crel c1 c1'.
Proof.
  destruct Hd as (Hr & Hw & _). intros Hc E. unfold dcur_select_u in *. destruct (decide (n = 0)).
  - inv E. rewrite (sim_node_mask _ _ _ _ _ _ _ Hw Hr H), bind_ok. injection E as <- <-. eauto.
  - inv E. destruct (prev_sim _ _ _ _ Hc H) as (q & -> & Hq). rewrite bind_ok.
    inv E. destruct (sim_child_ptr _ _ _ _ _ _ _ _ Hw Hq H0) as (cp & -> & Hcp). rewrite bind_ok. inv E.
    destruct (F2_set_u _ _ _ _ _ (Some cp) _ Hc ltac:(by constructor) H1) as (c2' & -> & Hc2). rewrite bind_ok. inv E.
    rewrite (sim_node_mask _ _ _ _ _ _ _ Hw Hcp H2), bind_ok. injection E as <- <-. eauto.
Qed.
Lemma cnode_sim c c' p : crel c c' -> dcur_node D t c = Ok p -> exists q, dcur_node D u c' = Ok q /\ prel ren p q.
Proof.
  destruct Hd as (Hr & Hw & _). intros Hc E. unfold dcur_node in *. case_decide; [injection E as <-; eauto|]. inv E.
  destruct (F2_get_u _ _ _ _ _ Hc H0) as (o' & Eo & Ho). rewrite <- (Forall2_length _ _ _ Hc), Eo, bind_ok. by eapply unwrap_sim.
Qed.
Lemma dense_tsim : tsim (dense_tree V D) t u crel.
Proof.
  pose proof Hd as (Hr & Hw & Hdt & Hk). constructor; cbn [itself i_data i_data_u i_new i_select i_select_u i_cdata i_cdata_u i_T i_C dense_tree t_data t_data_u t_new t_select t_select_u t_cdata t_cdata_u t_T t_C t_V].
  - intros k q o E. by apply (sim_data F D ren t u).
  - intros k q x E. unfold dense_data_unchecked in *. inv E. by rewrite (sim_data F D ren t u k q x0 Hd H), bind_ok.
  - intros c [= <-]. eexists. split; [done|]. unfold crel, dcur_new. apply Forall2_replicate. constructor.
  - apply select_sim.
  - apply select_u_sim.
  - intros c c' i o Hc E. unfold dcur_data in *. inv E. destruct (cnode_sim _ _ _ Hc H) as (q & -> & Hq). rewrite bind_ok. inv E.
    rewrite (sim_contains _ _ _ _ _ _ _ _ Hw Hq H0), bind_ok. destruct x0; [|done]. inv E. rewrite (sim_child_idx _ _ _ _ _ _ _ _ Hw Hq H1), bind_ok, <- Hdt. done.
  - intros c c' i o Hc E. unfold dcur_data_u in *. inv E. destruct (cnode_sim _ _ _ Hc H) as (q & -> & Hq). rewrite bind_ok. inv E.
    rewrite (sim_child_idx _ _ _ _ _ _ _ _ Hw Hq H0), bind_ok, <- Hdt. done.
Qed.
End read.

(** ** calls *)
Section calls.
Context (F : gmap N node) (al : allocator) {V : Type} (D : nat) (HD0 : 1 <= D) (HD : D <= 9).
Notation KB := (KB D).

Lemma sim_use_ref ren (t u : dense V) j w dr t' o dr' : drel F ren t u -> dense_use_ref t j w dr = Ok (t', o, dr') ->
  exists u', dense_use_ref u j w dr = Ok (u', o, dr') /\ drel F ren t' u'.
Proof.
  intros (Hr & Hw & Hd & Hk) E. unfold dense_use_ref in *. rewrite <- Hd. inv E. rewrite H, bind_ok. destruct w as [v|]; [|injection E as <- <- <-; eexists; split; [done|by split_and!]].
  inv E. unfold dense_write_ref in *. rewrite <- Hd. inv H0. rewrite H1, bind_ok. injection H0 as <-. rewrite bind_ok. injection E as <- <- <-. eexists; split; [done|by split_and!].
Qed.
Lemma sim_call ren ex (t u : dense V) m c t' o dr : drel F ren t u -> dense_inv D ex t m -> dense_api c -> (is_remove c -> 2 <= D) ->
  (N.of_nat (size (spec_map KB m c)) < 2 ^ 32)%N -> dense_call D t c = Ok (t', o, dr) ->
  exists ren' u', wdense_call al D u c = Ok (u', o, dr) /\ ren ⊆ ren' /\ drel F ren' t' u'.
Proof.
  intros Hd Hi Hapi Hrm Hsz E. destruct c as [k v|k dflt w|k|k|k w|k|f]; cbn [dense_call wdense_call spec_map] in *; try done.
  - unfold dense_insert, wdense_insert in *. rewrite index_from_dense in * by lia. destruct (N.ltb_spec k KB) as [Hk|Hk]; cbn [rbind] in *; [|injection E as <- <- <-; eauto 10].
    destruct (get_or_insert_impl_ok D HD0 HD ex t m k true (Some v) Hi Hk) as (t1 & oj & dr1 & E1 & _).
    { intros Hn _. rewrite imap_insert_size in Hsz by done. lia. }
    rewrite E1 in E. rewrite bind_ok in E. injection E as <- <- <-. destruct (sim_goi F al D ren t u k true (Some v) _ _ _ Hd E1) as (ren' & u' & -> & Hs & Hd').
    rewrite bind_ok. eauto 10.
  - unfold dense_get_or_insert, wdense_get_or_insert in *. rewrite index_from_dense in * by lia. destruct (N.ltb_spec k KB) as [Hk|Hk]; cbn [rbind] in *; [|injection E as <- <- <-; eauto 10].
    destruct (get_or_insert_impl_ok D HD0 HD ex t m k false dflt Hi Hk) as (t1 & oj & dr1 & E1 & _).
    { intros Hn [v ->]. rewrite Hn in Hsz. destruct w; cbn [overwrite fst] in Hsz; rewrite ?insert_insert, imap_insert_size in Hsz by done; lia. }
    rewrite E1 in E. destruct (sim_goi F al D ren t u k false dflt _ _ _ Hd E1) as (ren' & u' & -> & Hs & Hd').
    destruct oj as [j|]; [|injection E as <- <- <-; eauto 10]. destruct (sim_use_ref _ _ _ _ _ _ _ _ _ Hd' E) as (u2 & -> & Hd2). eauto 10.
  - destruct (N.ltb_spec k KB) as [Hk|Hk].
    + assert (dense_remove D t k = dense_remove_impl D t k) as Er by (unfold dense_remove; rewrite index_from_dense by lia; apply N.ltb_lt in Hk; by rewrite Hk).
      destruct (dense_remove_impl_ok D (Hrm I) HD ex t m k Hi Hk) as (t1 & E1 & _). rewrite <- Er in E1. rewrite E1 in E. injection E as <- <- <-.
      destruct (sim_remove F D ren t u k _ _ Hd E1) as (u' & -> & Hd'). eauto 10.
    + unfold dense_remove in *. rewrite index_from_dense in * by lia. apply N.ltb_ge in Hk. rewrite Hk in *. cbn [rbind] in *. injection E as <- <- <-. eauto 10.
  - rewrite (dense_get_ok D HD0 HD ex t m k Hi) in E. unfold tree_get. cbn [t_nw t_depth dense_tree]. rewrite index_from_dense by lia.
    destruct (N.ltb_spec k KB) as [Hk|Hk]; cbn [rbind]; [|injection E as <- <- <-; eauto 10]. injection E as <- <- <-.
    pose proof (dense_get_ok D HD0 HD ex t m k Hi) as Hg. unfold tree_get in Hg. cbn [t_nw t_depth dense_tree] in Hg. rewrite index_from_dense in Hg by lia.
    apply N.ltb_lt in Hk. rewrite Hk in Hg. cbn [rbind t_data dense_tree] in *. rewrite (sim_data F D ren t u _ _ _ Hd Hg). eauto 10.
  - destruct Hd as (Hr & Hw & Hdt & Hk). unfold dense_update_all, dense_key_values in *. rewrite <- Hdt, <- Hk. inv E.  destruct x as [t1 dr1]. inv H. rewrite H0, bind_ok. destruct x as [ks vs]. injection H as <- <-. rewrite bind_ok. injection E as <- <- <-. eexists ren, _. split; [done|]. split; [done|]. by split_and!.
Qed.
(** a tree that was collected from an expression without exact hierarchy: its nodes count their
    children differently, reading does not notice *)
Lemma sim_call_read ren (t u : dense V) m c : drel F ren t u -> dense_inv D allp (fixd t) m -> dense_api c -> ~ edits c ->
  exists t' u' dr, wdense_call al D u c = Ok (u', spec_out KB None m c, dr) /\ drel F ren t' u' /\ dr ≡ₚ spec_drop KB m c /\ dense_inv D allp (fixd t') (spec_map KB m c).
Proof.
  intros Hd Hi Hapi He. destruct c as [k v|k dflt w|k|k|k w|k|f]; cbn [wdense_call dense_call edits] in *; try done; try (by exfalso; apply He).
  - cbn [spec_out spec_drop spec_map]. pose proof (dense_get_ok D HD0 HD allp (fixd t) m k Hi) as Hg. exists t, u, []. unfold tree_get in *. cbn [t_nw t_depth dense_tree t_data] in *. rewrite index_from_dense in * by lia.
    destruct (N.ltb_spec k KB) as [Hk|Hk]; cbn [rbind] in *; [|done]. rewrite data_fix in Hg. by rewrite (sim_data F D ren t u _ _ _ Hd Hg).
  - destruct (dense_key_values_ok D HD0 HD allp (fixd t) m Hi) as (ks & vs & Ek & _).
    destruct (update_all_ok D HD0 HD allp (fixd t) m f Hi) as (t1 & dr & Ec & Hdr & Hi1).
    pose proof Hd as (Hr & Hw & Hdt & Hkk). unfold dense_update_all in *. rewrite Ek, !bind_ok in Ec. injection Ec as <- <-.
    assert (dense_key_values u = Ok (ks, vs)) as -> by (unfold dense_key_values in *; by rewrite <- Hdt, <- Hkk).
    rewrite !bind_ok. eexists (Dense (d_root t) (d_heap t) _ _), _, _. split; [done|]. split; [split; [done|]; split; [done|]; split; cbn [d_data d_keys]; by rewrite ?Hdt|].
    split; [done|]. rewrite <- Hdt. exact Hi1.
Qed.
End calls.

(** ** who owns which part of the memory; [F0]: what was there before *)
Record owned (mem F0 : gmap N node) (ms : list (gmap N node)) : Prop := Owned {
  ow_all : forall b n, mem !! b = Some n <-> F0 !! b = Some n \/ exists i m, ms !! i = Some m /\ m !! b = Some n;
  ow_F0 : forall i m, ms !! i = Some m -> m ##ₘ F0;
  ow_disj : forall i j m m', i <> j -> ms !! i = Some m -> ms !! j = Some m' -> m ##ₘ m';
}.
Lemma owned_split mem F0 ms i m : owned mem F0 ms -> ms !! i = Some m -> exists F, mem = m ∪ F /\ m ##ₘ F /\
  forall m', m' ##ₘ F -> owned (m' ∪ F) F0 (<[i := m']> ms).
Proof.
  intros Ho Hi. pose proof (lookup_lt_Some _ _ _ Hi) as Hlt.
  assert (m ⊆ mem) as Hsub. { apply map_subseteq_spec. intros b n Hb. apply (ow_all _ _ _ Ho). right. eauto. }
  exists (mem ∖ m). split; [by rewrite map_difference_union|]. split; [by apply map_disjoint_difference_r|]. intros m' Hd.
  assert (forall b n, (mem ∖ m) !! b = Some n <-> F0 !! b = Some n \/ exists j mj, j <> i /\ ms !! j = Some mj /\ mj !! b = Some n) as HF.
  { intros b n. rewrite lookup_difference_Some, (ow_all _ _ _ Ho b n). split.
    - intros [[H|(j & mj & Hj & Hb)] Hn]; [by left|right]. exists j, mj. split; [|done]. intros ->. rewrite Hi in Hj. injection Hj as <-. congruence.
    - intros [H|(j & mj & Hne & Hj & Hb)]; (split; [eauto|]).
      + eapply map_disjoint_Some_r; [by eapply (ow_F0 _ _ _ Ho)|done].
      + eapply (map_disjoint_Some_r m mj); [by eapply (ow_disj _ _ _ Ho i j)|done]. }
  constructor.
  - intros b n. rewrite lookup_union_Some by done. rewrite HF. split.
    + intros [H|[H|(j & mj & Hne & Hj & Hb)]]; [right; exists i, m'; by rewrite list_lookup_insert|by left|right; exists j, mj; by rewrite list_lookup_insert_ne].
    + intros [H|(j & mj & Hj & Hb)]; [by right; left|]. apply list_lookup_insert_Some in Hj as [(<- & <- & _)|[Hne Hj]]; [by left|right; right; eauto 10].
  - intros j mj Hj. apply list_lookup_insert_Some in Hj as [(<- & <- & _)|[Hne Hj]]; [|by eapply (ow_F0 _ _ _ Ho)].
    apply map_disjoint_spec. intros b x y Hx Hy. apply (proj1 (map_disjoint_spec _ _) Hd b x y Hx). apply HF. by left.
  - assert (forall j mj, j <> i -> ms !! j = Some mj -> m' ##ₘ mj) as Hm'.
    { intros j mj Hne Hj. apply map_disjoint_spec. intros b x y Hx Hy. apply (proj1 (map_disjoint_spec _ _) Hd b x y Hx). apply HF. right. eauto. }
    intros j k mj mk Hne Hj Hk. apply list_lookup_insert_Some in Hj as [(<- & <- & _)|[Hnj Hj]]; apply list_lookup_insert_Some in Hk as [(<- & <- & _)|[Hnk Hk]]; try done.
    + by eapply Hm'.
    + apply map_disjoint_sym. by eapply Hm'.
    + by eapply (ow_disj _ _ _ Ho j k).
Qed.
Lemma owned_new mem F0 ms m' : owned mem F0 ms -> m' ##ₘ mem -> owned (m' ∪ mem) F0 (ms ++ [m']).
Proof.
  intros Ho Hd.
  assert (forall j mj, ms !! j = Some mj -> m' ##ₘ mj) as Hm'.
  { intros j mj Hj. apply map_disjoint_spec. intros b x y Hx Hy. apply (proj1 (map_disjoint_spec _ _) Hd b x y Hx). apply (ow_all _ _ _ Ho). right. eauto. }
  constructor.
  - intros b n. rewrite lookup_union_Some, (ow_all _ _ _ Ho) by done. split.
    + intros [H|[H|(j & mj & Hj & Hb)]]; [right; exists (length ms), m'; by rewrite lookup_app_r, Nat.sub_diag by lia|by left|right; exists j, mj; split; [by apply lookup_app_l_Some|done]].
    + intros [H|(j & mj & Hj & Hb)]; [by right; left|]. apply lookup_app_Some in Hj as [Hj|[_ Hj]]; [right; right; eauto|]. apply list_lookup_singleton_Some in Hj as [_ <-]. by left.
  - intros j mj Hj. apply lookup_app_Some in Hj as [Hj|[_ Hj]]; [by eapply (ow_F0 _ _ _ Ho)|]. apply list_lookup_singleton_Some in Hj as [_ <-].
    apply map_disjoint_spec. intros b x y Hx Hy. apply (proj1 (map_disjoint_spec _ _) Hd b x y Hx). apply (ow_all _ _ _ Ho). by left.
  - intros j k mj mk Hne Hj Hk. apply lookup_app_Some in Hj as [Hj|[Gj Hj]]; apply lookup_app_Some in Hk as [Hk|[Gk Hk]].
    + by eapply (ow_disj _ _ _ Ho j k).
    + apply list_lookup_singleton_Some in Hk as [_ <-]. apply map_disjoint_sym. by eapply Hm'.
    + apply list_lookup_singleton_Some in Hj as [_ <-]. by eapply Hm'.
    + apply list_lookup_singleton_Some in Hj as [? _]. apply list_lookup_singleton_Some in Hk as [? _]. lia.
Qed.

Lemma owned_size mem F0 ms : owned mem F0 ms -> size mem = size F0 + sum_list (size <$> ms).
Proof.
  revert F0. induction ms as [|m ms IH]; intros F0 Ho.
  - cbn. rewrite Nat.add_0_r. f_equal. apply map_eq. intros b. apply option_eq. intros n. rewrite (ow_all _ _ _ Ho). split; [|by left]. intros [H|(i & x & H & _)]; [done|by rewrite lookup_nil in H].
  - assert (m ##ₘ F0) as Hd by (by apply (ow_F0 _ _ _ Ho 0)). rewrite (IH (m ∪ F0)).
    + rewrite map_size_disj_union by done. cbn. lia.
    + constructor.
      * intros b n. rewrite (ow_all _ _ _ Ho), lookup_union_Some by done. split.
        -- intros [H|([|i] & x & Hx & Hb)]; [by left; right|injection Hx as <-; by left; left|right; eauto].
        -- intros [[H|H]|(i & x & Hx & Hb)]; [right; by exists 0, m|by left|right; by exists (S i), x].
      * intros i x Hx. apply map_disjoint_union_r. split; [by apply (ow_disj _ _ _ Ho (S i) 0)|by apply (ow_F0 _ _ _ Ho (S i))].
      * intros i j x y Hij Hx Hy. apply (ow_disj _ _ _ Ho (S i) (S j)); [lia|done|done].
Qed.
Lemma hrel_size ren h m : hrel ren h m -> size m = size (h_nodes h).
Proof.
  intros H. rewrite <- !size_dom. set (f := fun a => default 0%N (ren !! a)).
  assert (forall a, a ∈ (dom (h_nodes h) : gset N) -> ren !! a = Some (f a)) as Hf.
  { intros a [n Ha]%elem_of_dom. destruct (hr_node _ _ _ H a n Ha) as (b & _ & E & _). unfold f. by rewrite E. }
  assert (dom m = (list_to_set (f <$> elements (dom (h_nodes h) : gset N)) : gset N)) as ->.
  { apply set_eq. intros b. rewrite elem_of_list_to_set, elem_of_list_fmap. split.
    - intros Hb%elem_of_dom. destruct (hr_back _ _ _ H b Hb) as (a & Ha & E). exists a. apply elem_of_dom in Ha. split; [|by apply elem_of_elements]. apply Hf in Ha. congruence.
    - intros (a & -> & Ha%elem_of_elements). pose proof (Hf a Ha) as E. apply elem_of_dom in Ha as [n Ha]. destruct (hr_node _ _ _ H a n Ha) as (b & n' & E' & Hb & _). rewrite E in E'. injection E' as ->. apply elem_of_dom. eauto. }
  rewrite size_list_to_set.
  - by rewrite fmap_length.
  - apply NoDup_fmap_2_strong; [|apply NoDup_elements]. intros a1 a2 H1%elem_of_elements H2%elem_of_elements E. pose proof (Hf _ H1) as E1. pose proof (Hf _ H2) as E2. rewrite <- E in E2.
    apply elem_of_dom in H1, H2. by eapply (hr_inj _ _ _ H).
Qed.
(** ** what a live tree, and an expression over live trees, is to its reader *)
Lemma dense_keeps {V} D pk (p : dense V) m : 1 <= D <= 9 -> dense_inv D (above 1 D pk) p m -> keeps_contract true pk (dense_tree V D) p.
Proof.
  intros [H0 H1] Hi. set (L := lawful_dense D H0 H1 allp (V := V)). assert (l_wf L p) as Hw by (exists m; by eapply dense_inv_false). split; [|split].
  - exact (lawful_honest L p Hw).
  - apply (lawful_honest_exact L p Hw). intros _. by eapply dense_hierarchy_exact.
  - apply (lawful_honest_max L p Hw). unfold L. rewrite (content_dense D H0 H1 allp _ _ _ _ Hi). destruct (m !! USIZE_MAX) as [x|] eqn:Hm; [|done].
    destruct Hi as (P & J & _ & Hv & _). apply (vec_bound _ _ _ _ _ Hv) in Hm. pose proof (KB_lt D H0 H1). lia.
Qed.
(** [b]: it may be changed *)
Definition kept {V} (b : bool) (pk : N -> Prop) (D : nat) (p : dense V) (m : gmap N V) : Prop :=
  if b then dense_inv D (above 1 D pk) p m else (forall k, pk k) /\ dense_inv D allp (fixd p) m.
Lemma kept_read {V} b pk D (p : dense V) m : kept b pk D p m -> dense_inv D allp (fixd p) m.
Proof. destruct b; [|by intros [_ ?]]. intros Hi. rewrite (fixd_inv _ _ _ _ Hi). by eapply dense_inv_false. Qed.
Lemma kept_mono {V} b (pk pk' : N -> Prop) D (p : dense V) m : (forall k, pk k -> pk' k) -> kept b pk D p m -> kept b pk' D p m.
Proof.
  intros H. destruct b; cbn; [|intros [H1 H2]; split; [auto|done]]. intros Hi. eapply dense_inv_mono; [|exact Hi]. intros q. by apply above_mono.
Qed.
Lemma kept_drop {V} D (p : dense V) m : 1 <= D <= 9 -> dense_inv D allp (fixd p) m -> exists h dr, dense_drop D p = Ok (h, dr) /\ h_nodes h = ∅ /\ dr ≡ₚ (map_to_list m).*2.
Proof.
  intros [H0 H9] Hi. destruct (dense_drop_ok D H0 H9 allp (fixd p) m Hi) as (h & dr & E & Hh & Hd). rewrite drop_fix in E. unfold rmap in E.
  inv E. destruct x as [h0 dr0]. injection E as <- <-. exists h0, dr0. split; [done|]. split; [|done]. unfold fixh in Hh. cbn [h_nodes] in Hh. by apply fmap_empty_iff in Hh.
Qed.
Lemma kept_keeps {V} b D pk (p : dense V) m : 1 <= D <= 9 -> kept b pk D p m -> keeps_contract true pk (dense_tree V D) p.
Proof.
  intros HD. destruct b; cbn [kept]; [by apply dense_keeps|]. destruct HD as [H0 H1]. intros [Hpk Hi]. set (L := lawful_mat D H0 H1 (V := V)).
  assert (l_wf L p) as Hw by (by exists m). split; [|split].
  - exact (lawful_honest L p Hw).
  - apply (lawful_honest_exact L p Hw). intros _. by apply hierarchy_exact_any.
  - apply (lawful_honest_max L p Hw). unfold L. rewrite (content_mat D H0 H1 _ p m _ Hi). destruct (m !! USIZE_MAX) as [x|] eqn:Hm; [|done].
    destruct Hi as (P & J & _ & Hv & _). apply (vec_bound _ _ _ _ _ Hv) in Hm. pose proof (KB_lt D H0 H1). lia.
Qed.
(** [s] is a supported tree of one-word masks that keeps the contract ([b]: also for a checked `data`) and contains [m] *)
Record shows (b : bool) (pk : N -> Prop) (t : tree) (s : t_T t) (m : gmap N (t_V t)) : Prop := Shows {
  sh_nw : t_nw t = 1;
  sh_sup : supported t;
  sh_keeps : keeps_contract b pk t s;
  sh_get : forall k, tree_get t s k = if (k <? keys_of (t_depth t))%N then Ok (m !! k) else Panic;
  sh_bound : forall k v, m !! k = Some v -> (k < keys_of (t_depth t))%N;
}.
Lemma shows_get_is b pk t s m : shows b pk t s m -> get_is t s m.
Proof.
  intros H k v. rewrite (sh_get _ _ _ _ _ H). destruct (N.ltb_spec k (keys_of (t_depth t))) as [Hk|Hk]; [split; congruence|]. split; [|done].
  intros Hm. apply (sh_bound _ _ _ _ _ H) in Hm. lia.
Qed.
Lemma shows_few b pk t s m : shows b pk t s m -> (N.of_nat (size m) < 2 ^ 32)%N -> few t s.
Proof.
  intros H Hs ks Hnd Hks. assert (length ks <= size m); [|lia]. rewrite <- size_dom. rewrite <- (size_list_to_set (C := gset N) ks) by done.
  apply subseteq_size. intros k Hk%elem_of_list_to_set. destruct (Hks k Hk) as [v Hv]. apply elem_of_dom. exists v. by apply (shows_get_is b pk t s m H).
Qed.
Lemma shows_map b pk t s m {U} (f : t_V t -> U) : shows b pk t s m -> shows b pk (t_map t f) s (f <$> m).
Proof.
  intros [H1 H2 H3 H4 H5]. split; try done.
  - by apply C49_map.
  - intros k. rewrite (C11_map_get (user b H2) pk s f k H3), H4. cbn [t_map t_depth]. destruct (k <? _)%N; [|done]. f_equal. by rewrite lookup_fmap.
  - intros k v. rewrite lookup_fmap. intros (x & Hx & _)%fmap_Some. by eapply H5.
Qed.
Lemma shows_union pk t0 t1 s0 s1 m0 m1 : t_depth t1 = t_depth t0 -> shows true pk t0 s0 m0 -> shows true pk t1 s1 m1 ->
  shows true pk (t_union t0 t1) (s0, s1) (merge either m0 m1).
Proof.
  intros Hd [H1 H2 H3 H4 H5] [G1 G2 G3 G4 G5]. assert (t_nw t1 = t_nw t0) as Hn by congruence. split; try done.
  - by apply C49_union.
  - intros k. pose proof (C10_union_get (user true H2) (user true G2) pk s0 s1 k Hn Hd H3 G3) as Hu. rewrite H4, G4, Hd in Hu. cbn [t_union t_depth t_V].
    destruct (k <? _)%N.
    + destruct Hu as [(o0 & o1 & E0 & E1 & ->)|(E0 & _)]; [|done]. apply ok_inj in E0 as <-. apply ok_inj in E1 as <-. rewrite lookup_merge. f_equal. by destruct (m0 !! k), (m1 !! k).
    + by destruct Hu as [(o0 & o1 & E0 & _)|(_ & _ & ->)].
  - intros k v. rewrite lookup_merge. cbn [t_union t_depth]. destruct (m0 !! k) eqn:E0; [intros _; by eapply H5|]. destruct (m1 !! k) eqn:E1; [|done]. intros _. rewrite <- Hd. by eapply G5.
Qed.
Lemma shows_intersection b0 b1 pk t0 t1 s0 s1 m0 m1 : t_depth t1 = t_depth t0 -> shows b0 pk t0 s0 m0 -> shows b1 pk t1 s1 m1 ->
  shows (b0 && b1) pk (t_intersection t0 t1) (s0, s1) (merge both m0 m1).
Proof.
  intros Hd [H1 H2 H3 H4 H5] [G1 G2 G3 G4 G5]. assert (t_nw t1 = t_nw t0) as Hn by congruence. split; try done.
  - by apply C49_intersection.
  - intros k. pose proof (C09_intersection_get (user b0 H2) (user b1 G2) pk s0 s1 k Hn Hd H3 G3) as Hu. rewrite H4, G4, Hd in Hu. cbn [t_intersection t_depth t_V].
    destruct (k <? _)%N.
    + destruct Hu as [(o0 & o1 & E0 & E1 & ->)|(E0 & _)]; [|done]. apply ok_inj in E0 as <-. apply ok_inj in E1 as <-. rewrite lookup_merge. f_equal. by destruct (m0 !! k), (m1 !! k).
    + by destruct Hu as [(o0 & o1 & E0 & _)|(_ & _ & ->)].
  - intros k v. rewrite lookup_merge. cbn [t_intersection t_depth]. destruct (m0 !! k) eqn:E0; [intros _; by eapply H5|]. by destruct (m1 !! k) eqn:E1.
Qed.
Lemma shows_fold b pk t s m {X A} (items : t_V t -> list X) (init : A) (f : A -> X -> A) : shows b pk t s m ->
  shows b pk (t_multi_map_fold t items init f) s ((fun d => fold_left f (items d) init) <$> m).
Proof.
  intros [H1 H2 H3 H4 H5]. split; try done.
  - by apply C49_multi_map_fold.
  - intros k. rewrite (C14_multi_map_fold_get (user b H2) pk s items init f k H3), H4. cbn [t_multi_map_fold t_depth]. destruct (k <? _)%N; [|done]. f_equal. by rewrite lookup_fmap.
  - intros k v. rewrite lookup_fmap. intros (x & Hx & _)%fmap_Some. by eapply H5.
Qed.
Lemma shows_unchecked b pk t s m : shows b pk t s m -> shows false pk t s m.
Proof.
  intros [H1 H2 (K1 & K2) H4 H5]. split; try done. split; [|done]. destruct K1 as [A1 A2 A3 A4 A5 A6 A7]. constructor; try done.
  intros c0 xs p checked E Hrun. destruct (A4 c0 xs p checked E Hrun) as (c & mk & B1 & B2 & B3 & B4). exists c, mk. split; [done|]. split; [done|]. split; [done|].
  intros Hl i Hi. destruct (B4 Hl i Hi) as [C1 C2]. split; [done|]. intros Hc. destruct (C2 Hc) as (d & D1 & D2 & _). by exists d.
Qed.
(** several maps together *)
Lemma union_none {A} (ms : list (gmap N A)) k : (⋃ ms) !! k = None <-> Forall (fun m => m !! k = None) ms.
Proof.
  induction ms as [|m ms IH]; cbn; [by rewrite lookup_empty|]. rewrite lookup_union_None, IH. split; [by intros []; constructor|by intros H%Forall_cons].
Qed.
Lemma present_none {A} (l : list (option A)) : Forall (.= None) l -> present l = [].
Proof. by induction 1 as [|o l -> _ IH]. Qed.
Lemma together_some {A} (ms : list (gmap N A)) k : together some_of ms !! k = some_of (map (lookup k) ms).
Proof.
  unfold together. rewrite map_lookup_imap. destruct ((⋃ ms) !! k) as [x|] eqn:E; [done|]. cbn. apply union_none in E. unfold some_of. rewrite present_none; [done|].
  induction E as [|m ms Hm _ IH]; by constructor.
Qed.
Lemma together_all {A} (ms : list (gmap N A)) k : ms <> [] -> together all_of ms !! k = all_of (map (lookup k) ms).
Proof.
  intros Hne. unfold together. rewrite map_lookup_imap. destruct ((⋃ ms) !! k) as [x|] eqn:E; [done|]. cbn. apply union_none in E. destruct E as [|m ms Hm _]; [done|]. cbn. by rewrite Hm.
Qed.
Lemma together_bound {A B} (h : list (option A) -> option B) ms K k v : Forall (fun m => forall k v, m !! k = Some v -> (k < K)%N) ms -> together h ms !! k = Some v -> (k < K)%N.
Proof.
  unfold together. rewrite map_lookup_imap. destruct ((⋃ ms) !! k) as [x|] eqn:E; [|done]. intros Hb _. destruct (decide (k < K)%N) as [|Hk]; [done|].
  assert ((⋃ ms) !! k = None) as E'; [|by rewrite E' in E]. apply union_none. eapply Forall_impl; [exact Hb|]. intros m Hm. cbn in *. destruct (m !! k) eqn:Em; [|done]. exfalso. apply Hk. by eapply Hm.
Qed.
Section several.
Context (b : bool) (pk : N -> Prop) (t : tree) (ss : list (t_T t)) (ms : list (gmap N (t_V t))) (Hs : Forall2 (shows b pk t) ss ms) (Hn : t_nw t = 1) (Hsup : supported t).
Lemma shows_reached : Forall (reached pk (user b Hsup)) ss.
Proof using Hs. induction Hs as [|s m ss' ms' H Hr IH]; [constructor|]. constructor; [exact (sh_keeps _ _ _ _ _ H)|by apply IH]. Qed.
Lemma shows_bounds : Forall (fun m => forall k v, m !! k = Some v -> (k < keys_of (t_depth t))%N) ms.
Proof using Hs. clear Hsup Hn. induction Hs as [|s m ss' ms' H Hr IH]; [constructor|]. constructor; [exact (sh_bound _ _ _ _ _ H)|by apply IH]. Qed.
Lemma shows_answers k os : (k < keys_of (t_depth t))%N -> Forall2 (fun a o => tree_get t a k = Ok o) ss os -> os = map (lookup k) ms.
Proof using Hs.
  clear Hsup Hn. intros Hk. revert os. induction Hs as [|s m ss' ms' H Hr IH]; intros os Ho; inversion Ho as [|? o ? os' E1 E2]; subst; [done|]. cbn. f_equal; [|by apply IH].
  rewrite (sh_get _ _ _ _ _ H) in E1. apply N.ltb_lt in Hk. rewrite Hk in E1. by apply ok_inj in E1.
Qed.
Lemma shows_in_range k : (k < keys_of (t_depth t))%N -> Forall2 (fun a o => tree_get t a k = Ok o) ss (map (lookup k) ms).
Proof using Hs.
  clear Hsup Hn. intros Hk. induction Hs as [|s m ss' ms' H Hr IH]; cbn; constructor; [|by apply IH]. rewrite (sh_get _ _ _ _ _ H). apply N.ltb_lt in Hk. by rewrite Hk.
Qed.
Lemma shows_multi_intersection : ss <> [] -> length ss <= 32 -> shows true pk (t_multi_intersection t) ss (together all_of ms).
Proof using Hs Hn Hsup.
  intros Hne Hl. assert (ms <> []) as Hne' by (intros ->; by inversion Hs; subst). split; try done.
  - apply (C49_multi_intersection b); try done. apply shows_reached.
  - intros k. cbn [t_multi_intersection t_V t_depth]. rewrite together_all by done. destruct (C12_multi_intersection_get (user b Hsup) pk ss k Hne Hl shows_reached) as [(os & Ho & E)|(Ho & E)]; rewrite E; cbn [t_multi_intersection t_depth].
    + destruct (N.ltb_spec k (keys_of (t_depth t))) as [Hk|Hk]; [by rewrite (shows_answers k os Hk Ho)|]. exfalso.
      destruct Hs as [|s m ss' ms' H _]; [done|]. inversion Ho as [|? o ? os' E1 E2]; subst. rewrite (sh_get _ _ _ _ _ H) in E1. apply N.ltb_ge in Hk. by rewrite Hk in E1.
    + destruct (N.ltb_spec k (keys_of (t_depth t))) as [Hk|Hk]; [|done]. exfalso.
      destruct Hs as [|s m ss' ms' H _]; [done|]. apply Forall_cons in Ho as [E1 _]. rewrite (sh_get _ _ _ _ _ H) in E1. apply N.ltb_lt in Hk. by rewrite Hk in E1.
  - intros k v. cbn [t_multi_intersection t_depth]. apply together_bound, shows_bounds.
Qed.
End several.
Lemma shows_multi_union pk t ss ms : t_nw t = 1 -> 2 <= t_depth t <= 9 -> length ss <= 32 -> Forall2 (shows true pk t) ss ms -> shows false pk (t_multi_union_ref t) ss (together some_of ms).
Proof.
  intros Hn [HD HD9] Hl Hs.
  assert (supported t) as Hsup.
  { assert (supported (dense_tree N (t_depth t))) as H by exact (C49_view_supported (VDense N (t_depth t) ltac:(lia) ltac:(lia))). unfold supported in *. rewrite Hn. exact H. }
  assert (keeps_contract false pk (t_multi_union t) ss) as (K1 & K2 & K3) by (apply C49_multi_union; try done; exact (shows_reached true pk t ss ms Hs Hsup)).
  pose proof (mu_ref_sim t ss) as Hsim.
  assert (nw_ok (t_nw (t_multi_union t))) as Hnw by apply Hsup. assert (0 < t_depth (t_multi_union t)) as HD0 by (cbn; lia).
  split; try done.
  - split; [exact (honest_sim _ _ _ _ _ Hsim false HD0 K1)|]. split; [by eapply (honest_exact_sim _ _ _ _ _ Hsim false)|by eapply (honest_max_sim _ _ _ _ _ Hsim false)].
  - intros k. cbn [t_multi_union_ref t_V]. rewrite together_some. change (tree_get (t_multi_union_ref t) ss k) with (tree_get (t_multi_union t) ss k). cbn [t_multi_union_ref t_depth].
    destruct ss as [|s0 ss'] eqn:Ess.
    + inversion Hs; subst. unfold tree_get. cbn [t_multi_union t_nw t_depth]. rewrite Hn, index_from_dense by lia. change (KB (t_depth t)) with (keys_of (t_depth t)). by destruct (k <? _)%N.
    + destruct (C13_multi_union_get_partial (user true Hsup) pk (s0 :: ss') k HD Hl (shows_reached true pk t _ ms Hs Hsup)) as [(os & Ho & E)|(Ho & E)]; rewrite E.
      * destruct (N.ltb_spec k (keys_of (t_depth t))) as [Hk|Hk]; [by rewrite (shows_answers true pk t _ ms Hs k os Hk Ho)|]. exfalso.
        inversion Hs as [|? m ? ms' H _]; subst. inversion Ho as [|? o ? os' E1 E2]; subst. rewrite (sh_get _ _ _ _ _ H) in E1. apply N.ltb_ge in Hk. by rewrite Hk in E1.
      * destruct (N.ltb_spec k (keys_of (t_depth t))) as [Hk|Hk]; [|done]. exfalso.
        inversion Hs as [|? m ? ms' H _]; subst. apply Forall_cons in Ho as [E1 _]. rewrite (sh_get _ _ _ _ _ H) in E1. apply N.ltb_lt in Hk. by rewrite Hk in E1.
  - intros k v. cbn [t_multi_union_ref t_depth]. apply together_bound. exact (shows_bounds true pk t ss ms Hs).
Qed.

(** ** programs *)
Section run.
Context (al : allocator) {V : Type} (F0 : gmap N node).

(** a live tree in memory [m] is, up to addresses, a tree with content [mp] in a memory of its own *)
Definition tree_ok (pk : N -> Prop) (D : nat) (b : bool) (mp : gmap N V) (t : whandle V) (m : gmap N node) : Prop :=
  wh_depth t = D /\ 1 <= D <= 9 /\
  exists p ren, kept b pk D p mp /\ hrel ren (d_heap p) m /\ prel ren (d_root p) (wh_root t) /\ d_data p = wh_data t /\ d_keys p = wh_keys t.
Definition slot_ok (pk : N -> Prop) (x : option (nat * bool * gmap N V)) (t : option (whandle V)) (m : gmap N node) : Prop :=
  match x, t with
  | Some (D, b, mp), Some t => tree_ok pk D b mp t m
  | None, None => m = ∅
  | _, _ => False
  end.
(** [s]: the containers by the specification; [pk]: the keys whose constructor panicked *)
Record winv (pk : N -> Prop) (s : list (option (nat * bool * gmap N V))) (w : world V) (ms : list (gmap N node)) : Prop := WInv {
  wi_own : owned (h_nodes (w_mem w)) F0 ms;
  wi_len : length ms = length s;
  wi_slot : forall i m, ms !! i = Some m -> exists x t, s !! i = Some x /\ w_trees w !! i = Some t /\ slot_ok pk x t m;
  wi_tlen : length (w_trees w) = length ms;
}.
Lemma slot_mono (pk pk' : N -> Prop) x t m : (forall k, pk k -> pk' k) -> slot_ok pk x t m -> slot_ok pk' x t m.
Proof.
  intros H. destruct x as [[[D b] mp]|], t as [t|]; cbn; try done. intros (H1 & H2 & p & ren & Hi & H3). split; [done|]. split; [done|].
  exists p, ren. split; [|done]. by eapply kept_mono.
Qed.
Lemma winv_mono (pk pk' : N -> Prop) s w ms : (forall k, pk k -> pk' k) -> winv pk s w ms -> winv pk' s w ms.
Proof.
  intros H [H1 H2 H3 H4]. split; try done. intros i m Hm. destruct (H3 i m Hm) as (x & t & G1 & G2 & G3). exists x, t. split; [done|]. split; [done|]. by eapply slot_mono.
Qed.

Section inv.
Context (pk : N -> Prop) (s : list (option (nat * bool * gmap N V))) (w : world V) (ms : list (gmap N node)) (Hi : winv pk s w ms).
(** the live tree number [i], its private twin and the memory of the others *)
Lemma winv_tree i D b mp : s !! i = Some (Some (D, b, mp)) -> exists t m F p ren, w_trees w !! i = Some (Some t) /\ ms !! i = Some m /\ wh_depth t = D /\ 1 <= D <= 9 /\
  kept b pk D p mp /\ drel F ren p (wtree (w_mem w) t) /\ (forall m', m' ##ₘ F -> owned (m' ∪ F) F0 (<[i := m']> ms)).
Proof using Hi.
  intros Hs. assert (i < length ms) as Hlt by (rewrite (wi_len _ _ _ _ Hi); by eapply lookup_lt_Some).
  destruct (lookup_lt_is_Some_2 ms i Hlt) as [m Hm]. destruct (wi_slot _ _ _ _ Hi i m Hm) as (x & [t|] & G1 & G2 & G3); rewrite Hs in G1; injection G1 as <-; [|done].
  destruct G3 as (Ht & HD & p & ren & Hp & Hh & Hr & Hdt & Hk).
  destruct (owned_split _ _ _ _ _ (wi_own _ _ _ _ Hi) Hm) as (F & EF & HdF & Hown).
  exists t, m, F, p, ren. do 5 (split; [done|]). split; [|exact Hown]. split; [done|]. split; [|done]. by exists m.
Qed.
Lemma winv_shows i D b mp t : s !! i = Some (Some (D, b, mp)) -> w_trees w !! i = Some (Some t) -> shows true pk (dense_tree V D) (wtree (w_mem w) t) mp.
Proof using Hi.
  intros Hs Ht. destruct (winv_tree i D b mp Hs) as (t' & m & F & p & ren & Ht' & Hm & Hd & HD & Hp & Hdr & _). rewrite Ht in Ht'. injection Ht' as <-.
  pose proof (kept_keeps b D pk p mp HD Hp) as (H1 & H2 & H3). pose proof (dense_tsim F D ren p _ Hdr) as Hts.
  assert (supported (dense_tree V D)) as Hsup by exact (C49_view_supported (VDense V D (proj1 HD) (proj2 HD))).
  assert (0 < t_depth (dense_tree V D)) as HD' by (cbn; lia). split; [done|done| | |].
  - split; [exact (honest_sim _ _ _ _ _ Hts true HD' H1)|]. split; [exact (honest_exact_sim _ _ _ _ _ Hts true HD' H1 pk H2)|exact (honest_max_sim _ _ _ _ _ Hts true H1 H3)].
  - intros k. pose proof (dense_get_ok D ltac:(lia) ltac:(lia) _ _ mp k (kept_read _ _ _ _ _ Hp)) as Hg. unfold tree_get in *. cbn [t_nw t_depth dense_tree] in *.
    rewrite index_from_dense in * by lia. change (KB D) with (keys_of D) in *. destruct (k <? keys_of D)%N; [|done]. rewrite bind_ok in *.
    cbn [t_data dense_tree] in *. rewrite data_fix in Hg. by apply (sim_data F D ren p).
  - intros k v Hk. apply kept_read in Hp as (P & J & _ & Hv & _). by apply (vec_bound _ _ _ _ _ Hv) in Hk.
Qed.
Lemma winv_kv i D b mp t : s !! i = Some (Some (D, b, mp)) -> w_trees w !! i = Some (Some t) -> exists ks vs, dense_key_values (wtree (w_mem w) t) = Ok (ks, vs) /\
  length ks = length vs /\ zip ks vs ≡ₚ map_to_list mp.
Proof using Hi.
  intros Hs Ht. destruct (winv_tree i D b mp Hs) as (t' & m & F & p & ren & Ht' & Hm & Hd & HD & Hp & (_ & _ & Hdt & Hk) & _). rewrite Ht in Ht'. injection Ht' as <-.
  destruct (dense_key_values_ok D ltac:(lia) ltac:(lia) _ _ mp (kept_read _ _ _ _ _ Hp)) as (ks & vs & E & H). exists ks, vs. split; [|done]. unfold dense_key_values in *. by rewrite <- Hdt, <- Hk.
Qed.
Lemma winv_exprs {t} (bb : bool) (es : list (wexpr V t)) : Forall (fun e => exists src, wx_src e (w_trees w) = Ok src /\ shows bb pk t (src (w_mem w)) (wx_map e s)) es ->
  exists ss, wx_srcs es (w_trees w) = Ok ss /\ Forall2 (shows bb pk t) (map (fun s => s (w_mem w)) ss) (map (fun e => wx_map e s) es).
Proof using.
  clear Hi. induction 1 as [|e es (src & E & Hsh) _ (ss & Es & IH)]; cbn [wx_srcs map]; [exists []; split; [done|constructor]|]. rewrite E, bind_ok, Es, bind_ok. eexists. split; [done|]. by constructor.
Qed.
Lemma winv_expr {t} (e : wexpr V t) : wx_ok e s -> exists src, wx_src e (w_trees w) = Ok src /\ shows (wx_operand e) pk t (src (w_mem w)) (wx_map e s).
Proof using Hi.
  induction t, e as [i D|t U f e IH|t0 t1 e0 e1 IH0 IH1|t0 t1 e0 e1 IH0 IH1|t es IH|t es IH|t X A items init f e IH] using wexpr_rect'.
  - cbn [wx_ok wx_src wx_map wx_operand]. intros (b & mp & Hs). destruct (winv_tree i D b mp Hs) as (t & m & F & p & ren & Ht & Hm & Hd & HD & Hp & Hdr & _). rewrite Ht, decide_True by done. exists (fun h => wtree h t). split; [done|].
    assert (match s !! i with Some (Some (_, _, m)) => m | _ => ∅ end = mp) as Em by by rewrite Hs.
    match goal with |- shows _ _ _ _ ?x => change x with (match s !! i with Some (Some (_, _, m)) => m | _ => ∅ end) end. rewrite Em.
    by eapply winv_shows.
  - cbn [wx_ok wx_src wx_map wx_operand]. intros He. destruct (IH He) as (src & -> & Hsh). exists src. split; [done|]. by apply shows_map.
  - cbn [wx_ok wx_src wx_map wx_operand]. intros (Hd & (Ho0 & He0) & Ho1 & He1). destruct (IH0 He0) as (src0 & -> & Hs0). destruct (IH1 He1) as (src1 & -> & Hs1). rewrite Ho0 in Hs0. rewrite Ho1 in Hs1.
    rewrite !bind_ok. eexists. split; [done|]. by apply shows_union.
  - cbn [wx_ok wx_src wx_map wx_operand]. intros (Hd & He0 & He1). destruct (IH0 He0) as (src0 & -> & Hs0). destruct (IH1 He1) as (src1 & -> & Hs1). rewrite !bind_ok. eexists. split; [done|]. by apply shows_intersection.
  - rewrite wx_src_union. cbn [wx_ok wx_map wx_operand]. intros (Hn & HD & Hl & Hes). destruct (winv_exprs true es) as (ss & -> & Hss).
    { clear Hl. induction IH as [|e es He _ IH']; [constructor|]. cbn in Hes. destruct Hes as [[Ho He1] Hes]. constructor; [|by apply IH']. destruct (He He1) as (src & E & Hsh). rewrite Ho in Hsh. eauto. }
    rewrite bind_ok. eexists. split; [done|]. apply shows_multi_union; try done. apply Forall2_length in Hss. rewrite Hss. by rewrite map_length.
  - rewrite wx_src_intersection. cbn [wx_ok wx_map wx_operand]. intros (Hne & Hl & Hes). destruct (winv_exprs false es) as (ss & -> & Hss).
    { clear Hl Hne. induction IH as [|e es He _ IH']; [constructor|]. cbn in Hes. destruct Hes as [He1 Hes]. constructor; [|by apply IH']. destruct (He He1) as (src & E & Hsh). apply shows_unchecked in Hsh. eauto. }
    rewrite bind_ok. eexists. split; [done|]. assert (map (fun s => s (w_mem w)) ss <> []) as Hne'.
    { destruct es as [|e es]; [done|]. cbn [map] in Hss. by inversion Hss. }
    pose proof (Forall2_length _ _ _ Hss) as Hlen. rewrite (map_length (fun e => wx_map e s)) in Hlen.
    destruct es as [|e es]; [done|]. cbn [map] in Hss. assert (t_nw t = 1 /\ supported t) as [Hn Hsup] by (inversion Hss as [|? ? ? ? H0 _]; split; apply H0).
    apply (shows_multi_intersection false); [exact Hss|exact Hn|exact Hsup|exact Hne'|]. by rewrite Hlen.
  - cbn [wx_ok wx_src wx_map wx_operand]. intros He. destruct (IH He) as (src & -> & Hsh). exists src. split; [done|]. by apply shows_fold.
Qed.
(** a new tree is added *)
Lemma winv_push D b mp u p ren : 1 <= D <= 9 -> kept b pk D p mp -> drel (h_nodes (w_mem w)) ren p u ->
  exists ms', winv pk (s ++ [Some (D, b, mp)]) (World (d_heap u) (w_trees w ++ [Some (whandle_of D u)])) ms'.
Proof using Hi.
  intros HD Hp (Hr & (m & Em & Hd & Hh) & Hdt & Hk). exists (ms ++ [m]). assert (length s = length ms) as Els by (symmetry; exact (wi_len _ _ _ _ Hi)).
  constructor; cbn [w_mem w_trees].
  - rewrite Em. apply owned_new; [apply Hi|done].
  - by rewrite !app_length, Els.
  - intros j mj Hj. apply lookup_app_Some in Hj as [Hj|[Gj Hj]].
    + destruct (wi_slot _ _ _ _ Hi j mj Hj) as (x & tj & G1 & G2 & G3). exists x, tj. split; [by apply lookup_app_l_Some|]. split; [by apply lookup_app_l_Some|done].
    + apply list_lookup_singleton_Some in Hj as [Gj2 <-]. assert (j = length ms) as -> by lia.
      exists (Some (D, b, mp)), (Some (whandle_of D u)). rewrite lookup_app_r, Els, Nat.sub_diag by (by rewrite Els).
      rewrite lookup_app_r, (wi_tlen _ _ _ _ Hi), Nat.sub_diag by (by rewrite (wi_tlen _ _ _ _ Hi)). split; [done|]. split; [done|]. split; [done|]. split; [done|].
      exists p, ren. by split_and!.
  - by rewrite !app_length, (wi_tlen _ _ _ _ Hi).
Qed.
(** the tree number [i] is replaced *)
Lemma winv_set i x t h m' F : i < length ms -> (forall m', m' ##ₘ F -> owned (m' ∪ F) F0 (<[i := m']> ms)) -> h_nodes h = m' ∪ F -> m' ##ₘ F -> slot_ok pk x t m' ->
  winv pk (<[i := x]> s) (World h (<[i := t]> (w_trees w))) (<[i := m']> ms).
Proof using Hi.
  intros Hlt Hown Eh Hd Hok. assert (length s = length ms) as Els by (symmetry; exact (wi_len _ _ _ _ Hi)). constructor; cbn [w_mem w_trees].
  - rewrite Eh. by apply Hown.
  - by rewrite !insert_length.
  - intros j mj Hj. apply list_lookup_insert_Some in Hj as [(<- & <- & _)|[Hne Hj]].
    + exists x, t. split; [apply list_lookup_insert; by rewrite Els|]. split; [apply list_lookup_insert; by rewrite (wi_tlen _ _ _ _ Hi)|done].
    + destruct (wi_slot _ _ _ _ Hi j mj Hj) as (y & tj & K1 & K2 & K3). exists y, tj. rewrite !list_lookup_insert_ne by done. done.
  - by rewrite !insert_length, (wi_tlen _ _ _ _ Hi).
Qed.
End inv.

Lemma wstep_ok pk s w ms c : winv pk s w ms -> wlegal_step s c -> (forall k, k ∈ wspec_panicked s c -> pk k) -> (collects_part c -> forall k, pk k) -> exists w' dr ms',
  wstep al w c = Ok (w', wspec_out s c, dr) /\ dr ≡ₚ wspec_drop s c /\ winv pk (wspec_step s c) w' ms'.
Proof.
  intros Hi Hl Hpk Hpart. destruct c as [D|i c|i|t e f]; cbn [wstep wlegal_step wspec_out wspec_drop wspec_step wspec_panicked] in *.
  - destruct (dense_default_ok D ltac:(lia) ltac:(lia) V) as (t & Et & Ht).
    assert (wrel ∅ (h_nodes (w_mem w)) heap_empty (w_mem w)) as Hw.
    { exists ∅. split; [by rewrite (left_id_L ∅ (∪))|]. split; [apply map_disjoint_empty_l|]. constructor; cbn.
      - intros a n. by rewrite lookup_empty.
      - intros a1 a2 b [? H]. by rewrite lookup_empty in H.
      - intros b [? H]. by rewrite lookup_empty in H.
      - intros a [? H]. by rewrite lookup_empty in H. }
    destruct (sim_default (h_nodes (w_mem w)) al D _ _ t Hw eq_refl Et) as (ren & u & -> & Hdr). rewrite bind_ok.
    destruct (winv_push pk s w ms Hi D true ∅ u t ren Hl) as (ms' & Hms'); [|done|].
    { eapply dense_inv_mono; [|exact Ht]. by intros p []. }
    by eexists _, _, ms'.
  - destruct Hl as (D & b & mp & Hs & Hapi & Hed & Hrm & Hsz). rewrite Hs in *.
    destruct (winv_tree pk s w ms Hi i D b mp Hs) as (t & m & F & p & ren & Gt & Gm & Hd & HD & Hp & Hdr & Hown). unfold wlookup. rewrite Gt, bind_ok, Hd.
    change (keys_of D) with (KB D) in *.
    assert (exists ren' p' u' dr, wdense_call al D (wtree (w_mem w) t) c = Ok (u', spec_out (KB D) None mp c, dr) /\ drel F ren' p' u' /\ dr ≡ₚ spec_drop (KB D) mp c /\
      kept b pk D p' (spec_map (KB D) mp c)) as (ren' & p' & u' & dr & -> & (Hr' & (m' & Em' & Hd' & Hh') & Hdt' & Hk') & Hdrop & Hp').
    { destruct b; cbn [kept] in *.
      - destruct (dense_call_ok D ltac:(lia) ltac:(lia) _ p mp c Hp Hapi Hrm Hsz) as (p' & dr & ex' & Ec & Hdrop & Hp' & Hex').
        destruct (sim_call F al D ltac:(lia) ltac:(lia) ren _ p _ mp c p' _ dr Hdr Hp Hapi Hrm Hsz Ec) as (ren' & u' & Eu & Hsub & Hdr').
        exists ren', p', u', dr. split; [done|]. split; [done|]. split; [done|].
        eapply dense_inv_mono; [|exact Hp']. intros q Hq%Hex'. destruct Hq as [Hq|Hq]; [done|]. eapply above_mono; [|exact Hq]. exact Hpk.
      - destruct Hp as [Hall Hp]. destruct (sim_call_read F al D ltac:(lia) ltac:(lia) ren p _ mp c Hdr Hp Hapi) as (p' & u' & dr & Eu & Hdr' & Hdrop & Hp'); [by intros ?%Hed|].
        by exists ren, p', u', dr. }
    rewrite bind_ok. eexists _, dr, (<[i := m']> ms). split; [done|]. split; [done|].
    eapply (winv_set pk s w ms Hi); [by eapply lookup_lt_Some|exact Hown|done|done|]. split; [done|]. split; [done|].
    exists p', ren'. done.
  - destruct Hl as ([[D b] mp] & Hs). rewrite Hs in *.
    destruct (winv_tree pk s w ms Hi i D b mp Hs) as (t & m & F & p & ren & Gt & Gm & Hd & HD & Hp & Hdr & Hown). unfold wlookup. rewrite Gt, bind_ok, Hd.
    destruct (kept_drop D p mp HD (kept_read _ _ _ _ _ Hp)) as (h' & dr & Ed & Hempty & Hperm).
    destruct (sim_drop F D ren p _ h' dr Hdr Ed) as (w' & -> & (m' & Em' & Hd' & Hh')). rewrite bind_ok.
    assert (m' = ∅) as ->.
    { apply map_empty. intros q. destruct (m' !! q) as [nb|] eqn:E; [|done]. destruct (hr_back _ _ _ Hh' q ltac:(eauto)) as (a & [na Ha] & _). rewrite Hempty, lookup_empty in Ha. done. }
    eexists _, dr, (<[i := ∅]> ms). split; [done|]. split; [done|].
    by eapply (winv_set pk s w ms Hi); [by eapply lookup_lt_Some|exact Hown|done|done|].
  - destruct Hl as (He & Hex & Hsz). destruct (winv_expr pk s w ms Hi e He) as (src & Esrc & Hsh). rewrite Esrc, bind_ok.
    apply (shows_map _ pk t _ _ f) in Hsh. pose proof (shows_few _ _ _ _ _ Hsh) as Hfew. rewrite map_size_fmap in Hfew. specialize (Hfew Hsz).
    set (T := t_map t f) in *. destruct (sh_sup _ _ _ _ _ Hsh) as (_ & HD & HD9 & _).
    assert (exists d, materialize T (src (w_mem w)) = Ok d /\ kept (collects_whole t) pk (t_depth t) d (f <$> wx_map e s)) as (d & Ed & Hp).
    { assert (forall m, get_is T (src (w_mem w)) m -> m = f <$> wx_map e s) as Huniq.
      { intros m Hm. eapply (get_is_unique (t := T) (src (w_mem w))); [exact Hm|]. by eapply shows_get_is. }
      destruct (collects_whole t) eqn:Ew; unfold kept.
      - destruct (mat_exact (user (wx_operand e) (sh_sup _ _ _ _ _ Hsh)) pk (src (w_mem w)) (sh_keeps _ _ _ _ _ Hsh) (sh_nw _ _ _ _ _ Hsh) Hfew) as (d & m & Ed & Hm & Hp).
        { apply orb_prop in Ew as [?|?%Nat.eqb_eq]; [by left|by right]. }
        apply Huniq in Hm as ->. eauto.
      - apply orb_false_elim in Ew as Ew2. destruct Ew2 as [Hx _].
        destruct (mat_sparse (user (wx_operand e) (sh_sup _ _ _ _ _ Hsh)) pk (src (w_mem w)) (sh_keeps _ _ _ _ _ Hsh) (sh_nw _ _ _ _ _ Hsh) Hfew Hx) as [(d & m & Ed & Hm & Hp)|(_ & _ & Hn)].
        + apply Huniq in Hm as ->. exists d. split; [done|]. split; [by apply Hpart|done].
        + exfalso. destruct (map_choose (wx_map e s) (Hex eq_refl)) as (k & v & Hk). apply (Hn k (f v)). apply (shows_get_is _ _ _ _ _ Hsh). by rewrite lookup_fmap, Hk. }
    assert (stable T src (w_mem w)) as Hst by (intros h' Hh'; apply tsim_map; by apply (wx_stable e _ _ _ Esrc)).
    destruct (sim_materialize al T src (w_mem w) Hst d Ed) as (ren & u & Eu & Hdr). rewrite Eu, bind_ok.
    destruct (winv_push pk s w ms Hi (t_depth t) (collects_whole t) (f <$> wx_map e s) u d ren ltac:(done) Hp Hdr) as (ms' & Hms'). by eexists _, _, ms'.
Qed.
Lemma wsteps_ok pk s w ms cs : winv pk s w ms -> wlegal s cs -> (forall k, k ∈ wspec_all_panicked s cs -> pk k) -> (Exists collects_part cs -> forall k, pk k) -> exists w' dr ms',
  wsteps al w cs = Ok (w', wspec_outs s cs, dr) /\ dr ≡ₚ wspec_drops s cs /\ winv pk (wspec_run s cs) w' ms'.
Proof.
  revert s w ms. induction cs as [|c cs IH]; intros s w ms Hi Hl Hpk Hpart; cbn [wsteps wspec_outs wspec_drops wlegal wspec_run wspec_all_panicked] in *.
  - eauto 10.
  - destruct Hl as [Hc Hl]. destruct (wstep_ok pk s w ms c Hi Hc) as (w1 & dr1 & ms1 & -> & Hd1 & Hi1); [intros k Hk; apply Hpk; set_solver|by intros H; apply Hpart; left|]. rewrite bind_ok.
    destruct (IH _ _ _ Hi1 Hl) as (w2 & dr2 & ms2 & -> & Hd2 & Hi2); [intros k Hk; apply Hpk; set_solver|by intros H; apply Hpart; right|]. rewrite bind_ok.
    eexists _, _, ms2. split; [done|]. split; [by rewrite Hd1, Hd2|]. done.
Qed.
Lemma winv_start pk tick : winv pk [] (World (Heap F0 tick) []) [].
Proof.
  constructor; cbn; try done. constructor.
  - intros b n. split; [by left|]. intros [H|(i & m & H & _)]; [done|by rewrite lookup_nil in H].
  - intros i m H. by rewrite lookup_nil in H.
  - intros i j m m' _ H. by rewrite lookup_nil in H.
Qed.
(** the memory after a program in which no constructor panicked and only exact hierarchies were collected *)
Definition nodes_for (x : option (nat * bool * gmap N V)) : nat := match x with Some (D, _, m) => nodes_needed 64 D (dom m) | None => 0 end.
Lemma winv_size pk s w ms : winv pk s w ms -> (forall k, ~ pk k) -> size (h_nodes (w_mem w)) = size F0 + sum_list (nodes_for <$> s).
Proof.
  intros Hi Hpk. rewrite (owned_size _ _ _ (wi_own _ _ _ _ Hi)). f_equal. f_equal. apply list_eq. intros i. rewrite !list_lookup_fmap.
  destruct (ms !! i) as [m|] eqn:Em.
  - destruct (wi_slot _ _ _ _ Hi i m Em) as (x & t & E & _ & Hok). rewrite E. cbn. f_equal. destruct x as [[[D b] mp]|], t as [t|]; cbn in Hok; try done; [|by subst; rewrite map_size_empty].
    destruct Hok as (_ & HD & p & ren & Hk & Hh & _). rewrite (hrel_size _ _ _ Hh). destruct b; [|by destruct Hk as [Hk _]; destruct (Hpk 0%N)].
    apply (dense_nodes D ltac:(lia) ltac:(lia) p mp). eapply dense_inv_mono; [|exact Hk]. intros q (j & _ & Hj). by apply Hpk in Hj.
  - apply lookup_ge_None in Em. rewrite (wi_len _ _ _ _ Hi) in Em. by rewrite (lookup_ge_None_2 s i Em).
Qed.
End run.
