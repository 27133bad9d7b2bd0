(** * `materialize` into a shared memory, reading trees of the same memory

    Reading is stable while the memory grows, and the copy is, up to addresses, the one made in
    a memory of its own. *)
From Verif Require Import Base BitUtils BitQueue LevelIndices ConstLoops Hierarchy Ops MultiUnionRef Dense DenseTree Materialize MaterializeUnwind Spec Client TreeTransfer
  WorldSpec DenseWorld DenseWorldSim.

Local Ltac inv H := apply bind_ok_inv in H as (? & ? & H); cbn beta iota in H.

(** ** reading in a memory that has grown *)
Section mono.
Context {V : Type} (t : whandle V) (D : nat) (h h' : heap) (Hsub : h_nodes h ⊆ h_nodes h').
Lemma mono_hread p n : hread h p = Ok n -> hread h' p = Ok n.
Proof.
  destruct p as [k|a]; [done|]. cbn. destruct (h_nodes h !! a) as [x|] eqn:E; [|done]. intros [= ->]. by rewrite (lookup_weaken _ _ _ _ E Hsub).
Qed.
Lemma mono_contains p i b : node_contains h p i = Ok b -> node_contains h' p i = Ok b.
Proof. intros E. unfold node_contains in *. inv E. by rewrite (mono_hread _ _ H), bind_ok. Qed.
Lemma mono_mask p b : node_mask h p = Ok b -> node_mask h' p = Ok b.
Proof. intros E. unfold node_mask in *. inv E. by rewrite (mono_hread _ _ H), bind_ok. Qed.
Lemma mono_get_child k p i b : get_child k h p i = Ok b -> get_child k h' p i = Ok b.
Proof. intros E. unfold get_child in *. inv E. by rewrite (mono_hread _ _ H), bind_ok. Qed.
Lemma mono_child_ptr p i b : child_ptr h p i = Ok b -> child_ptr h' p i = Ok b.
Proof. intros E. unfold child_ptr in *. inv E. by rewrite (mono_get_child _ _ _ _ H), bind_ok. Qed.
Lemma mono_child_idx p i b : child_idx h p i = Ok b -> child_idx h' p i = Ok b.
Proof. intros E. unfold child_idx in *. inv E. by rewrite (mono_get_child _ _ _ _ H), bind_ok. Qed.
Lemma mono_terminal_loop k n ix p r : get_terminal_loop h k n ix p = Ok r -> get_terminal_loop h' k n ix p = Ok r.
Proof.
  revert n p. induction k as [|k IH]; intros n p E; cbn [get_terminal_loop] in *; [done|]. inv E. rewrite H, bind_ok. inv E.
  rewrite (mono_child_ptr _ _ _ H0), bind_ok. by apply IH.
Qed.
Lemma mono_data k ix o : dense_data D (wtree h t) k ix = Ok o -> dense_data D (wtree h' t) k ix = Ok o.
Proof.
  intros E. unfold dense_data, get_terminal_node, wtree in *. cbn [d_root d_heap d_keys d_data] in *. inv E. inv H. rewrite (mono_terminal_loop _ _ _ _ _ H0), bind_ok, H, bind_ok.
  destruct x as [nd i]. cbn beta iota in *. inv E. by rewrite (mono_child_idx _ _ _ H1), bind_ok.
Qed.
Lemma mono_dense : tsim (dense_tree V D) (wtree h t) (wtree h' t) eq.
Proof.
  constructor; cbn [itself i_data i_data_u i_new i_select i_select_u i_cdata i_cdata_u i_T i_C dense_tree t_data t_data_u t_new t_select t_select_u t_cdata t_cdata_u t_T t_C t_V].
  - apply mono_data.
  - intros k q x E. unfold dense_data_unchecked in *. inv E. by rewrite (mono_data _ _ _ H), bind_ok.
  - eauto.
  - intros c ? n i c1 m <- E. exists c1. split; [|done]. unfold dcur_select, dcur_prev, wtree in *. cbn [d_root d_heap] in *. destruct (decide (n = 0)).
    + inv E. by rewrite (mono_mask _ _ H), bind_ok.
    + inv E. rewrite H, bind_ok. inv E. rewrite (mono_contains _ _ _ H0), bind_ok. inv E. rewrite (mono_child_ptr _ _ _ H1), bind_ok.
      inv E. rewrite H2, bind_ok. inv E. rewrite H3, bind_ok. inv E. by rewrite (mono_mask _ _ H4), bind_ok.
  - intros c ? n i c1 m <- E. exists c1. split; [|done]. unfold dcur_select_u, dcur_prev, wtree in *. cbn [d_root d_heap] in *. destruct (decide (n = 0)).
    + inv E. by rewrite (mono_mask _ _ H), bind_ok.
    + inv E. rewrite H, bind_ok. inv E. rewrite (mono_child_ptr _ _ _ H0), bind_ok.
      inv E. rewrite H1, bind_ok. inv E. by rewrite (mono_mask _ _ H2), bind_ok.
  - intros c ? i o <- E. unfold dcur_data, dcur_node, wtree in *. cbn [d_root d_heap d_data] in *. inv E. rewrite H, bind_ok. inv E. rewrite (mono_contains _ _ _ H0), bind_ok.
    destruct x0; [|done]. inv E. by rewrite (mono_child_idx _ _ _ H1), bind_ok.
  - intros c ? i x <- E. unfold dcur_data_u, dcur_node, wtree in *. cbn [d_root d_heap d_data] in *. inv E. rewrite H, bind_ok. inv E. by rewrite (mono_child_idx _ _ _ H0), bind_ok.
Qed.
End mono.

(** ** the lazy operations preserve it *)
Section ops.
Lemma tsim_map (t : tree) {U} (f : t_V t -> U) s s' Rc : tsim t s s' Rc -> tsim (t_map t f) s s' Rc.
Proof.
  intros H. constructor; cbn [itself i_data i_data_u i_new i_select i_select_u i_cdata i_cdata_u i_T i_C t_map t_data t_data_u t_new t_select t_select_u t_cdata t_cdata_u t_T t_C t_V].
  - intros k q o E. inv E. by rewrite (tt_data H _ _ _ H0), bind_ok.
  - intros k q o E. inv E. by rewrite (tt_data_u H _ _ _ H0), bind_ok.
  - apply H.
  - apply H.
  - apply H.
  - intros c c' i o Hc E. inv E. by rewrite (tt_cdata H _ _ _ _ Hc H0), bind_ok.
  - intros c c' i o Hc E. inv E. by rewrite (tt_cdata_u H _ _ _ _ Hc H0), bind_ok.
Qed.
Context (t0 t1 : tree) (s0 s0' : t_T t0) (s1 s1' : t_T t1) (H0 : tsim t0 s0 s0' eq) (H1 : tsim t1 s1 s1' eq).
Lemma tsim_union : tsim (t_union t0 t1) (s0, s1) (s0', s1') eq.
Proof using H0 H1.
  assert (forall k q o, un_data t0 t1 (s0, s1) k q = Ok o -> un_data t0 t1 (s0', s1') k q = Ok o) as Hd.
  { intros k q o E. unfold un_data in *. cbn [fst snd] in *. inv E. rewrite (tt_data H0 _ _ _ H), bind_ok. inv E. by rewrite (tt_data H1 _ _ _ H2), bind_ok. }
  assert (forall c n i c1 m, un_select t0 t1 (s0, s1) c n i = Ok (c1, m) -> un_select t0 t1 (s0', s1') c n i = Ok (c1, m)) as Hs.
  { intros c n i c1 m E. unfold un_select in *. cbn [fst snd] in *. inv E. destruct x as [x mx]. cbn beta iota in *. inv E. destruct x0 as [y my]. cbn beta iota in *.
    destruct (tt_select H0 _ _ _ _ _ _ eq_refl H) as (? & -> & <-). rewrite bind_ok. cbn beta iota.
    destruct (tt_select H1 _ _ _ _ _ _ eq_refl H2) as (? & -> & <-). by rewrite bind_ok. }
  assert (forall c i o, un_cdata t0 t1 (s0, s1) c i = Ok o -> un_cdata t0 t1 (s0', s1') c i = Ok o) as Hc.
  { intros c i o E. unfold un_cdata in *. cbn [fst snd] in *. inv E. rewrite (tt_cdata H0 _ _ _ _ eq_refl H), bind_ok. inv E. by rewrite (tt_cdata H1 _ _ _ _ eq_refl H2), bind_ok. }
  constructor; cbn [itself i_data i_data_u i_new i_select i_select_u i_cdata i_cdata_u i_T i_C t_union t_data t_data_u t_new t_select t_select_u t_cdata t_cdata_u t_T t_C t_V].
  - done.
  - intros k q o E. inv E. by rewrite (Hd _ _ _ H), bind_ok.
  - intros c E. exists c. split; [|done]. cbn [fst snd] in *. inv E. destruct (tt_new H0 _ H) as (? & -> & <-). rewrite bind_ok. inv E. destruct (tt_new H1 _ H2) as (? & -> & <-). by rewrite bind_ok.
  - intros c ? n i c1 m <- E. eauto.
  - intros c ? n i c1 m <- E. eauto.
  - intros c ? i o <- E. eauto.
  - intros c ? i o <- E. inv E. by rewrite (Hc _ _ _ H), bind_ok.
Qed.
Lemma tsim_intersection : tsim (t_intersection t0 t1) (s0, s1) (s0', s1') eq.
Proof using H0 H1.
  constructor; cbn [itself i_data i_data_u i_new i_select i_select_u i_cdata i_cdata_u i_T i_C t_intersection t_data t_data_u t_new t_select t_select_u t_cdata t_cdata_u t_T t_C t_V fst snd].
  - intros k q o E. inv E. rewrite (tt_data H0 _ _ _ H), bind_ok. inv E. by rewrite (tt_data H1 _ _ _ H2), bind_ok.
  - intros k q o E. inv E. rewrite (tt_data_u H0 _ _ _ H), bind_ok. inv E. by rewrite (tt_data_u H1 _ _ _ H2), bind_ok.
  - intros c E. exists c. split; [|done]. inv E. destruct (tt_new H0 _ H) as (? & -> & <-). rewrite bind_ok. inv E. destruct (tt_new H1 _ H2) as (? & -> & <-). by rewrite bind_ok.
  - intros c ? n i c1 m <- E. exists c1. split; [|done]. inv E. destruct x as [x mx]. cbn beta iota in *. inv E. destruct x0 as [y my]. cbn beta iota in *.
    destruct (tt_select H0 _ _ _ _ _ _ eq_refl H) as (? & -> & <-). rewrite bind_ok. cbn beta iota.
    destruct (tt_select H1 _ _ _ _ _ _ eq_refl H2) as (? & -> & <-). by rewrite bind_ok.
  - intros c ? n i c1 m <- E. exists c1. split; [|done]. inv E. destruct x as [x mx]. cbn beta iota in *. inv E. destruct x0 as [y my]. cbn beta iota in *.
    destruct (tt_select_u H0 _ _ _ _ _ _ eq_refl H) as (? & -> & <-). rewrite bind_ok. cbn beta iota.
    destruct (tt_select_u H1 _ _ _ _ _ _ eq_refl H2) as (? & -> & <-). by rewrite bind_ok.
  - intros c ? i o <- E. inv E. rewrite (tt_cdata H0 _ _ _ _ eq_refl H), bind_ok. inv E. by rewrite (tt_cdata H1 _ _ _ _ eq_refl H2), bind_ok.
  - intros c ? i o <- E. inv E. rewrite (tt_cdata_u H0 _ _ _ _ eq_refl H), bind_ok. inv E. by rewrite (tt_cdata_u H1 _ _ _ _ eq_refl H2), bind_ok.
Qed.
End ops.
(** the answers of [src] do not change while the memory grows *)
Definition stable (t : tree) (src : heap -> t_T t) (h : heap) : Prop :=
  forall h', h_nodes h ⊆ h_nodes h' -> tsim t (src h) (src h') eq.
(** induction over expressions, through the lists of operands *)
Lemma wexpr_rect' {V} (P : forall t, wexpr V t -> Prop) :
  (forall i D, P _ (WLeaf i D)) -> (forall t U (f : t_V t -> U) e, P t e -> P _ (WMap f e)) ->
  (forall t0 t1 e0 e1, P t0 e0 -> P t1 e1 -> P _ (WUnion e0 e1)) -> (forall t0 t1 e0 e1, P t0 e0 -> P t1 e1 -> P _ (WIntersection e0 e1)) ->
  (forall t es, Forall (P t) es -> P _ (WMultiUnion es)) -> (forall t es, Forall (P t) es -> P _ (WMultiIntersection es)) ->
  (forall t X A (items : t_V t -> list X) init (f : A -> X -> A) e, P t e -> P _ (WFold items init f e)) -> forall t e, P t e.
Proof.
  intros H1 H2 H3 H4 H5 H6 H7. fix go 2. intros t e. destruct e as [i D|t U f e|t0 t1 e0 e1|t0 t1 e0 e1|t es|t es|t X A items init f e].
  - apply H1.
  - by apply H2.
  - by apply H3.
  - by apply H4.
  - apply H5. induction es as [|e es IH]; constructor; [apply go|exact IH].
  - apply H6. induction es as [|e es IH]; constructor; [apply go|exact IH].
  - by apply H7.
Qed.
Lemma wx_src_union {V t} (es : list (wexpr V t)) ts : wx_src (WMultiUnion es) ts = let* ss := wx_srcs es ts in Ok (fun h => map (fun s => s h) ss).
Proof.
  cbn [wx_src]. match goal with |- rbind ?a _ = rbind ?b _ => assert (a = b) as ->; [|done] end.
  induction es as [|e es IH]; [done|]. cbn [wx_srcs]. by rewrite <- IH.
Qed.
Lemma wx_src_intersection {V t} (es : list (wexpr V t)) ts : wx_src (WMultiIntersection es) ts = let* ss := wx_srcs es ts in Ok (fun h => map (fun s => s h) ss).
Proof.
  cbn [wx_src]. match goal with |- rbind ?a _ = rbind ?b _ => assert (a = b) as ->; [|done] end.
  induction es as [|e es IH]; [done|]. cbn [wx_srcs]. by rewrite <- IH.
Qed.
Lemma wx_srcs_stable {V t} (es : list (wexpr V t)) ts ss h : Forall (fun e => forall src, wx_src e ts = Ok src -> stable t src h) es -> wx_srcs es ts = Ok ss -> 
  forall h', h_nodes h ⊆ h_nodes h' -> Forall2 (fun a a' => tsim t a a' eq) (map (fun s => s h) ss) (map (fun s => s h') ss).
Proof.
  intros Hes E h' Hs. revert ss E. induction Hes as [|e es He Hes IH]; intros ss E; cbn [wx_srcs] in E.
  - injection E as <-. constructor.
  - inv E. inv E. injection E as <-. cbn. constructor; [by eapply He|by apply IH].
Qed.
Lemma wx_stable {V t} (e : wexpr V t) ts src h : wx_src e ts = Ok src -> stable t src h.
Proof.
  revert src. induction t, e as [i D|t U f e IH|t0 t1 e0 e1 IH0 IH1|t0 t1 e0 e1 IH0 IH1|t es IH|t es IH|t X A items init f e IH] using wexpr_rect'; intros src E;
    rewrite ?wx_src_union, ?wx_src_intersection in E; cbn [wx_src] in E.
  - destruct (ts !! i) as [[t|]|]; try done. case_decide; [|done]. injection E as <-. intros h' Hs. by apply mono_dense.
  - intros h' Hs. apply tsim_map. by apply IH.
  - inv E. inv E. injection E as <-. intros h' Hs. apply tsim_union; [by apply IH0|by apply IH1].
  - inv E. inv E. injection E as <-. intros h' Hs. apply tsim_intersection; [by apply IH0|by apply IH1].
  - inv E. injection E as <-. intros h' Hs. apply tsim_multi_union. by eapply wx_srcs_stable.
  - inv E. injection E as <-. intros h' Hs. apply tsim_multi_intersection. by eapply wx_srcs_stable.
  - intros h' Hs. apply tsim_fold. by apply IH.
Qed.

(** ** the copy *)
Section copy.
Context (al : allocator) (t : tree) (src : heap -> t_T t) (h0 : heap) (Hst : stable t src h0).
Notation F := (h_nodes h0).
Implicit Types (ren : gmap N N) (s : mst t).

Definition msim ren s (s' : mst t) : Prop := m_cur s = m_cur s' /\ wrel ren F (m_heap s) (m_heap s') /\ m_data s = m_data s' /\ m_keys s = m_keys s'.
Lemma msim_read ren s (s' : mst t) : msim ren s s' -> tsim t (src h0) (src (m_heap s')) eq.
Proof using Hst. intros (_ & (m & Em & Hd & _) & _). apply Hst. rewrite Em. by apply map_union_subseteq_r. Qed.
Lemma msim_heap ren s (s' : mst t) h w : msim ren s s' -> wrel ren F h w -> msim ren (with_heap s h) (with_heap s' w).
Proof. intros (H1 & H2 & H3 & H4) H. by split_and!. Qed.
Lemma msim_heap_mono ren ren' s (s' : mst t) h w : msim ren s s' -> wrel ren' F h w -> msim ren' (with_heap s h) (with_heap s' w).
Proof. intros (H1 & H2 & H3 & H4) H. by split_and!. Qed.

Lemma sim_raw_new k ren h w cap mask h' p : wrel ren F h w -> raw_new k h cap mask = (h', p) ->
  exists ren' w' q, wraw_new al k w cap mask = (w', q) /\ ren ⊆ ren' /\ wrel ren' F h' w' /\ prel ren' p q.
Proof.
  intros Hw E. unfold raw_new, wraw_new in *. eapply sim_halloc; [done| |exact E]. split_and!; try done. by apply Forall2_replicate.
Qed.
Lemma sim_raw_push k ren h w p q v v' h' : wrel ren F h w -> prel ren p q -> srel ren v v' -> raw_push k h p v = Ok h' ->
  exists w', raw_push k w q v' = Ok w' /\ wrel ren F h' w'.
Proof.
  intros Hw Hp Hv E. unfold raw_push in *. inv E. destruct (sim_hread F _ _ _ _ _ _ Hw Hp H) as (n' & -> & (Hk & Hm & Hc & Hl & Hsl)).
  rewrite bind_ok, <- Hk, <- Hm, <- Hc, <- Hl. case_decide; [|done]. inv E. destruct (F2_set_u _ _ _ _ _ _ _ Hsl Hv H1) as (l1' & -> & Hl1). rewrite bind_ok.
  destruct (u8_ok _); [|done]. eapply sim_hwrite; [done..| |exact E]. by split_and!.
Qed.
Lemma sim_raw_finalize k ren h w p q v v' h' p' : wrel ren F h w -> prel ren p q -> srel ren v v' -> raw_finalize k h p v = Ok (h', p') ->
  exists w' q', raw_finalize k w q v' = Ok (w', q') /\ wrel ren F h' w' /\ prel ren p' q'.
Proof.
  intros Hw Hp Hv E. unfold raw_finalize in *. inv E. destruct (sim_hread F _ _ _ _ _ _ Hw Hp H) as (n' & -> & (Hk & Hm & Hc & Hl & Hsl)).
  rewrite bind_ok, <- Hk, <- Hm, <- Hc, <- Hl. case_decide; [|done]. inv E. destruct (F2_set_u _ _ _ _ _ _ _ Hsl Hv H1) as (l1' & -> & Hl1). rewrite bind_ok.
  destruct (u8_ok _); [|done]. inv E. edestruct (sim_hwrite F ren h w p q) as (w2 & -> & Hw2); [done..| |exact H2|]; [by split_and!|]. rewrite bind_ok.
  case_decide; [|done]. injection E as <- <-. eauto.
Qed.
Lemma fold_m_sim {St St'} (Q : St -> St' -> Prop) (f : St -> N -> res St) (f' : St' -> N -> res St') l e (r : St) (s : St) (s' : St') : (forall (s : St) (s' : St') i (r : St), Q s s' -> f s i = Ok r -> exists r', f' s' i = Ok r' /\ Q r r') ->
  Q s s' -> fold_m f l e s = Ok r -> exists r', fold_m f' l e s' = Ok r' /\ Q r r'.
Proof.
  intros Hf. revert s s'. induction l as [|i l IH]; intros s s' Hs E; cbn [fold_m] in *.
  - inv E. injection E as <-. rewrite H, bind_ok. eauto.
  - inv E. destruct (Hf _ _ _ _ Hs H) as (r' & -> & Hr). rewrite bind_ok. eauto.
Qed.
Lemma traverse_sim {St St'} (Q : St -> St' -> Prop) m (f : St -> N -> res St) (f' : St' -> N -> res St') (r : St) (s : St) (s' : St') : (forall (s : St) (s' : St') i (r : St), Q s s' -> f s i = Ok r -> exists r', f' s' i = Ok r' /\ Q r r') ->
  Q s s' -> traverse_m m f s = Ok r -> exists r', traverse_m m f' s' = Ok r' /\ Q r r'.
Proof. intros Hf Hs E. destruct (traverse_list m) as (l & e & H & _). rewrite H in *. by eapply fold_m_sim. Qed.

Lemma sim_make_terminal ren s s' mask cap acc r p : msim ren s s' -> make_terminal_node t (src h0) s mask cap acc = Ok (r, p) ->
  exists ren' r' q, wmake_terminal_node al t src s' mask cap acc = Ok (r', q) /\ ren ⊆ ren' /\ msim ren' r r' /\ prel ren' p q.
Proof using Hst.
  intros Hs E. unfold make_terminal_node, wmake_terminal_node in *. inv E. rewrite H, bind_ok. destruct (raw_new KIdx (m_heap s) cap x) as [h raw] eqn:Eraw.
  pose proof Hs as (Hcur & Hw & Hd & Hk).
  destruct (sim_raw_new _ _ _ _ _ _ _ _ Hw Eraw) as (ren1 & w & raw' & -> & Hsub & Hw1 & Hp1). inv E.
  edestruct (traverse_sim (msim ren1)) as (r1 & -> & Hr1); [| |exact H0|].
  - intros s1 s1' i r1 Hs1 E1. cbn beta. inv E1. rewrite (tt_cdata_u (msim_read _ _ _ Hs1) (m_cur s1) (m_cur s1') i x1 (proj1 Hs1) H1), bind_ok.
    destruct Hs1 as (G1 & G2 & G3 & G4). unfold push_fn in *. cbn [m_heap m_data m_keys m_cur] in *. inv E1. injection E1 as <-.
    destruct (sim_raw_push _ _ _ _ _ _ (SIdx (N.of_nat (length (m_data s1)) mod 2 ^ 32)) (SIdx (N.of_nat (length (m_data s1')) mod 2 ^ 32)) _ G2 Hp1 ltac:(cbn; by rewrite G3) H2) as (w' & -> & Hw'). rewrite bind_ok.
    eexists. split; [done|]. unfold with_heap. cbn [m_heap m_data m_keys m_cur]. split_and!; cbn; [done|done|by rewrite G3|by rewrite G4].
  - by eapply msim_heap_mono.
  - rewrite bind_ok. inv E. destruct x1 as [h3 p3]. injection E as <- <-. destruct (sim_raw_finalize KIdx _ _ _ _ _ (SIdx 0) (SIdx 0) _ _ (proj1 (proj2 Hr1)) Hp1 eq_refl H1) as (w3 & q3 & -> & Hw3 & Hp3).
    rewrite bind_ok. eexists ren1, _, q3. split; [done|]. split; [done|]. split; [by eapply msim_heap|done].
Qed.
Lemma sim_from_exact k n index acc ren s s' r p : msim ren s s' -> from_exact t (src h0) k n index acc s = Ok (r, p) ->
  exists ren' r' q, wfrom_exact al t src k n index acc s' = Ok (r', q) /\ ren ⊆ ren' /\ msim ren' r r' /\ prel ren' p q.
Proof using Hst.
  revert n index acc ren s s' r p. induction k as [|k IH]; intros n index acc ren s s' r p Hs E; cbn [from_exact wfrom_exact] in *; (destruct (t_exact t); [|done]).
  all: inv E; destruct x as [c mask]; cbn beta iota in *.
  all: destruct (tt_select_u (msim_read _ _ _ Hs) _ _ _ _ _ _ (proj1 Hs) H) as (? & -> & <-); rewrite bind_ok; cbn beta iota.
  all: assert (msim ren (with_cur s c) (with_cur s' c)) as Hs1 by (destruct Hs as (G1 & G2 & G3 & G4); by split_and!).
  - by eapply sim_make_terminal.
  - inv E. rewrite H0, bind_ok. cbn [with_cur m_heap] in *. destruct (raw_new KPtr (m_heap s) (mask_count_ones mask + 1) x) as [h raw] eqn:Eraw.
    destruct (sim_raw_new _ _ _ _ _ _ _ _ (proj1 (proj2 Hs)) Eraw) as (ren1 & w & raw' & -> & Hsub & Hw1 & Hp1). inv E.
    edestruct (traverse_sim (fun s s' => exists ren', ren1 ⊆ ren' /\ msim ren' s s')) as (r1 & -> & (ren2 & Hsub2 & Hr1)); [| |exact H1|].
    + intros s1 s1' i r1 (ren' & Hsub' & Hs1') E1. cbn beta in *. inv E1. destruct x1 as [s2 cn]. cbn beta iota in *.
      destruct (IH _ _ _ _ _ _ _ _ Hs1' H2) as (ren2 & s2' & q2 & -> & Hsub2 & Hs2 & Hq2). rewrite bind_ok. cbn beta iota. inv E1. injection E1 as <-.
      assert (ren1 ⊆ ren2) as Hsub12 by (by etrans).
      destruct (sim_raw_push KPtr _ _ _ _ _ (SPtr cn) (SPtr q2) _ (proj1 (proj2 Hs2)) (prel_mono _ _ _ _ Hsub12 Hp1) Hq2 H3) as (w' & -> & Hw'). rewrite bind_ok.
      eexists. split; [done|]. exists ren2. split; [done|]. by eapply msim_heap.
    + exists ren1. split; [done|]. eapply (msim_heap_mono ren ren1 (with_cur s c) (with_cur s' c)); [exact Hs1|done].
    + rewrite bind_ok. inv E. rewrite H2, bind_ok. inv E. destruct x2 as [h3 p3]. injection E as <- <-.
      assert (srel ren2 (SPtr x1) (SPtr x1)) as He by (cbn; unfold empty_node in H2; repeat (case_decide; [|done]); by injection H2 as <-).
      destruct (sim_raw_finalize KPtr _ _ _ _ _ _ _ _ _ (proj1 (proj2 Hr1)) (prel_mono _ _ _ _ Hsub2 Hp1) He H3) as (w3 & q3 & -> & Hw3 & Hp3).
      rewrite bind_ok. eexists ren2, _, q3. split; [done|]. split; [by etrans|]. split; [by eapply msim_heap|done].
Qed.
Lemma sim_from_sparse k n index acc ren s s' r o : msim ren s s' -> from_sparse t (src h0) k n index acc s = Ok (r, o) ->
  exists ren' r' o', wfrom_sparse al t src k n index acc s' = Ok (r', o') /\ ren ⊆ ren' /\ msim ren' r r' /\ option_Forall2 (prel ren') o o'.
Proof using Hst.
  revert n index acc ren s s' r o. induction k as [|k IH]; intros n index acc ren s s' r o Hs E; cbn [from_sparse wfrom_sparse] in *.
  all: inv E; destruct x as [c mask]; cbn beta iota in *.
  all: destruct (tt_select_u (msim_read _ _ _ Hs) _ _ _ _ _ _ (proj1 Hs) H) as (? & -> & <-); rewrite bind_ok; cbn beta iota.
  all: assert (msim ren (with_cur s c) (with_cur s' c)) as Hs1 by (destruct Hs as (G1 & G2 & G3 & G4); by split_and!).
  - inv E. destruct x as [s2 p2]. injection E as <- <-. destruct (sim_make_terminal _ _ _ _ _ _ _ _ Hs1 H0) as (ren' & r' & q & -> & Hsub & Hr & Hq).
    rewrite bind_ok. eexists ren', _, _. split; [done|]. split; [done|]. split; [done|by constructor].
  - inv E. destruct x as [[s2 nm] cs]. cbn beta iota in *.
    edestruct (traverse_sim (fun (s s' : mst t * list N * list slot) => exists ren', ren ⊆ ren' /\ msim ren' s.1.1 s'.1.1 /\ s.1.2 = s'.1.2 /\ Forall2 (srel ren') s.2 s'.2))
      as (r1 & E1 & (ren2 & Hsub2 & Hr1 & Hm1 & Hc1)); [| |exact H0|rewrite E1, bind_ok].
    + intros [[s1 m1] c1] [[s1' m1'] c1'] i [[r1 rm] rc] (ren' & Hsub' & Hs1' & Em & Hcs) E1. cbn [fst snd] in Hs1', Em, Hcs. subst m1'. cbn beta iota in *. inv E1. destruct x as [s3 cn]. cbn beta iota in *.
      destruct (IH _ _ _ _ _ _ _ _ Hs1' H1) as (ren2 & s3' & o' & -> & Hsub2 & Hs3 & Ho). rewrite bind_ok. cbn beta iota.
      assert (Forall2 (srel ren2) c1 c1') as Hcs2 by (eapply Forall2_impl; [exact Hcs|]; intros ??; by apply srel_mono).
      destruct Ho as [cn cn' Hcn|].
      * inv E1. destruct x as [m2 b2]. rewrite H2, bind_ok. cbn beta iota in *. rewrite <- (Forall2_length _ _ _ Hcs). case_decide; [|done]. injection E1 as <- <- <-.
        eexists. split; [done|]. exists ren2. cbn [fst snd]. split; [by etrans|]. split; [done|]. split; [done|]. apply Forall2_app; [done|]. by constructor.
      * injection E1 as <- <- <-. eexists. split; [done|]. exists ren2. cbn [fst snd]. split; [by etrans|]. done.
    + exists ren. cbn [fst snd]. split; [done|]. split; [done|]. split; [done|constructor].
    + destruct r1 as [[s2' nm'] cs']. cbn [fst snd] in Hr1, Hm1, Hc1. subst nm'. cbn beta iota. destruct (decide (cs = [])) as [->|Hne].
      * injection E as <- <-. inversion Hc1; subst. rewrite decide_True by done. eexists ren2, _, _. split; [done|]. split; [done|]. split; [done|constructor].
      * rewrite decide_False by (intros ->; inversion Hc1; by subst). inv E. rewrite H1, bind_ok. inv E. rewrite H2, bind_ok.
        assert (srel ren2 (SPtr x) (SPtr x)) as He by (cbn; unfold empty_node in H1; repeat (case_decide; [|done]); by injection H1 as <-).
        destruct (from_parts KPtr (m_heap s2) x0 cs (SPtr x)) as [h3 p3] eqn:Ep. injection E as <- <-. unfold from_parts, wfrom_parts in *.
        edestruct (sim_halloc F al ren2 (m_heap s2) (m_heap s2') (Node KPtr x0 (length cs + 1) (length cs) (cs ++ [SPtr x])) (Node KPtr x0 (length cs' + 1) (length cs') (cs' ++ [SPtr x])) h3 p3 (proj1 (proj2 Hr1))) as (ren3 & w3 & q3 & -> & Hsub3 & Hw3 & Hp3); [|exact Ep|].
        { rewrite (Forall2_length _ _ _ Hc1). split; [done|]. split; [done|]. split; [done|]. split; [done|]. apply Forall2_app; [done|]. by constructor. }
        eexists ren3, _, _. split; [done|]. split; [by etrans|]. split; [by eapply msim_heap_mono|by constructor].
Qed.
Lemma sim_materialize d : materialize t (src h0) = Ok d ->
  exists ren d', wmaterialize al t src h0 = Ok d' /\ drel F ren d d'.
Proof using Hst.
  intros E. unfold materialize, wmaterialize in *. inv E. rewrite H, bind_ok.
  assert (wrel ∅ F heap_empty h0) as Hw.
  { exists ∅. split; [by rewrite (left_id_L ∅ (∪))|]. split; [apply map_disjoint_empty_l|]. constructor; cbn.
    - intros a n. by rewrite lookup_empty.
    - intros a1 a2 b [? H1]. by rewrite lookup_empty in H1.
    - intros b [? H1]. by rewrite lookup_empty in H1.
    - intros a [? H1]. by rewrite lookup_empty in H1. }
  assert (msim ∅ (Mst x heap_empty [None] [USIZE_MAX]) (Mst x h0 [None] [USIZE_MAX])) as Hs by (by split_and!).
  destruct (t_exact t); inv E; destruct x0 as [s root]; injection E as <-.
  - destruct (sim_from_exact _ _ _ _ ∅ _ _ _ _ Hs H0) as (ren & s' & q & -> & _ & (G1 & G2 & G3 & G4) & Hq).
    rewrite bind_ok. eexists ren, _. split; [done|]. by split_and!.
  - inv H0. destruct x0 as [s1 o]. cbn beta iota in *. inv H0. injection H0 as <- <-.
    destruct (sim_from_sparse _ _ _ _ ∅ _ _ _ _ Hs H1) as (ren & s' & o' & -> & _ & (G1 & G2 & G3 & G4) & Ho).
    rewrite bind_ok. cbn beta iota. destruct Ho as [p q Hq|]; [|done]. cbn [unwrap_unc] in *. injection H2 as <-. rewrite !bind_ok. eexists ren, _. split; [done|]. by split_and!.
Qed.
End copy.
