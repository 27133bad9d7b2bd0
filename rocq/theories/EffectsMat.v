(** * `materialize` evaluates the source once per element, in ascending key order *)
From Verif Require Import Base DenseDrop BitUtils BitUtilsProofs BitQueue LevelIndices LevelIndicesProofs ConstLoops Hierarchy Lawful IterProofs Ops Dense DenseProofs Materialize MaterializeProofs MaterializeLaws
  Spec Client TreeClient Generic Compose ViewLaws MaterializeViews MaterializeOrder Effects EffectsLaws.

(** if the first succeeds, so does the second, with related results *)
Definition simr {A B} (P : A -> B -> Prop) (r : res A) (r' : res B) : Prop := forall a, r = Ok a -> exists b, r' = Ok b /\ P a b.
Lemma simr_ok {A B} (P : A -> B -> Prop) a b : P a b -> simr P (Ok a) (Ok b).
Proof. intros H a' [= <-]. eauto. Qed.
Lemma simr_bind {A B A' B'} (P : A -> B -> Prop) (Q : A' -> B' -> Prop) r r' f f' : simr P r r' -> (forall a b, P a b -> simr Q (f a) (f' b)) ->
  simr Q (rbind r f) (rbind r' f').
Proof. intros H1 H2 a (x & Hx & Ha)%bind_ok_inv. destruct (H1 x Hx) as (y & -> & Hp). rewrite bind_ok. exact (H2 x y Hp a Ha). Qed.
Lemma simr_same {A} (r : res A) : simr eq r r.
Proof. intros a ->. eauto. Qed.
Lemma simr_traverse {S S'} nw m (f : S -> N -> res S) (f' : S' -> N -> res S') (P : S -> S' -> Prop) s s' : mask_ok nw m -> P s s' ->
  (forall s s' i, i ∈ mbits m -> P s s' -> simr P (f s i) (f' s' i)) -> simr P (traverse_m m f s) (traverse_m m f' s').
Proof.
  intros Hm Hs H. rewrite !(traverse_m_ok nw) by done. revert H. generalize (mbits m) as l. intros l H. revert s s' Hs.
  induction l as [|i l IH]; intros s s' Hs; cbn [fold_res]; [by apply simr_ok|].
  eapply simr_bind; [by apply H; [left|]|]. intros a b Hab. apply IH; [|done]. intros; apply H; [by right|done].
Qed.

Section mat.
Context {St : Type} {b : bool} {E : etree St} (x : eview St b E) (src : t_T (e_t E)) (st0 : St) (pk : N -> Prop) (Hr : reached pk (under x) src).
Notation t := (e_t E).
Notation L := (vL (under x)).
Notation D := (t_depth t).
Hypothesis Hnw : t_nw t = 1.
Let Hwf : l_wf L src := caller_wf x pk src Hr.
Let HD : D <= 9 := proj2 (view_depth (under x)).

Definition rel (p : list N) (s : mst t) (s' : est E) : Prop := l_Ru L src (m_cur s) p /\ exists ks r,
  x_cur s' = m_cur s /\ x_heap s' = m_heap s /\ x_keys s' = m_keys s /\
  length (m_data s) = S (length ks) /\ m_keys s = USIZE_MAX :: ks /\
  evs x src ks st0 = (r, x_st s') /\ r.*1 = ks /\ x_data s' = None :: (Some <$> r.*2).
Lemma rel_heap p s s' h : rel p s s' -> rel p (with_heap s h) (x_with_heap s' h).
Proof. intros (Hc & ks & r & H). split; [done|]. exists ks, r. naive_solver. Qed.
Lemma rel_same p s s' : rel p s s' -> x_heap s' = m_heap s /\ x_cur s' = m_cur s.
Proof. intros (Hc & ks & r & H). naive_solver. Qed.
Lemma rel_up p i s s' : rel (p ++ [i]) s s' -> rel p s s'.
Proof. intros (Hc & H). split; [|done]. apply (l_Ru_take L _ _ _ (length p)) in Hc. by rewrite take_app in Hc. Qed.
Lemma rel_push p s s' key v y st : rel p s s' -> ev x src key (x_st s') = (Some y, st) ->
  rel p (fst (push_fn s key v)) (fst (x_push_fn s' key y st)) /\ snd (push_fn s key v) = snd (x_push_fn s' key y st).
Proof.
  intros (Hc & ks & r & H1 & H2 & H3 & H4 & H5 & H6 & H7 & H8) Hy. split.
  - split; [done|]. exists (ks ++ [key]), (r ++ [(key, y)]). unfold push_fn, x_push_fn. cbn [fst x_cur x_heap x_keys x_data x_st m_cur m_heap m_keys m_data].
    split; [done|]. split; [done|]. split; [by rewrite H3|]. split; [rewrite !app_length, H4; cbn; lia|]. split; [by rewrite H5|].
    split; [rewrite evs_app, H6; cbn [evs]; by rewrite Hy|]. split; [by rewrite fmap_app, H7|]. by rewrite H8, !fmap_app.
  - unfold push_fn, x_push_fn. cbn [snd]. rewrite H4, H8. cbn [length]. rewrite !fmap_length, <- H7. by rewrite fmap_length.
Qed.
Definition relp {A} (p : list N) (a : mst t * A) (a' : est E * A) : Prop := rel p (fst a) (fst a') /\ snd a = snd a'.
(** the position before selecting the node [p] *)
Definition at_node (c : t_C t) (n : nat) (index : N) (p : list N) : Prop :=
  exists c' m, t_select_u t src c n index = Ok (c', m) /\ mask_is (t_nw t) m (l_tm L src p) /\ l_Ru L src c' p.
Definition rel0 (s : mst t) (s' : est E) : Prop := exists ks r,
  x_cur s' = m_cur s /\ x_heap s' = m_heap s /\ x_keys s' = m_keys s /\
  length (m_data s) = S (length ks) /\ m_keys s = USIZE_MAX :: ks /\
  evs x src ks st0 = (r, x_st s') /\ r.*1 = ks /\ x_data s' = None :: (Some <$> r.*2).
Lemma rel_cur p s s' c : l_Ru L src c p -> rel0 s s' -> rel p (with_cur s c) (x_with_cur s' c).
Proof. intros Hc (ks & r & H). split; [done|]. exists ks, r. naive_solver. Qed.
Lemma rel0_same s s' : rel0 s s' -> x_cur s' = m_cur s.
Proof. intros (ks & r & H). naive_solver. Qed.
Lemma mbits_tm m p i : path_ok 1 (length p) p -> length p < D -> mask_is (t_nw t) m (l_tm L src p) -> i ∈ mbits m -> l_tm L src p i = true.
Proof.
  intros Hp Hl Hm Hi. apply (elem_of_kids L src Hwf p i); [by rewrite Hnw|done|]. rewrite <- (kids_mask L src Hwf p m); [done|by rewrite Hnw|done|done].
Qed.

Lemma x_terminal_sim p s s' m cap : path_ok 1 (length p) p -> S (length p) = D -> mask_is (t_nw t) m (l_tm L src p) -> rel p s s' ->
  simr (relp p) (make_terminal_node t src s m cap (key_of_path 1 p * 64)) (x_terminal E src s' m cap (key_of_path 1 p * 64)).
Proof.
  intros Hp Hl Hm Hs. unfold make_terminal_node, x_terminal. eapply simr_bind; [apply simr_same|]. intros w ? <-.
  destruct (rel_same _ _ _ Hs) as [-> _].
  destruct (raw_new KIdx (m_heap s) cap w) as [h raw]. eapply (simr_bind (rel p)).
  - apply (simr_traverse (t_nw t)); [apply Hm|by apply rel_heap|]. intros s1 s1' i Hi H1.
    pose proof (mbits_tm m p i Hp ltac:(lia) Hm Hi) as Htm.
    assert (path_ok (t_nw t) (D - 1) p) as Hp' by (rewrite Hnw; replace (D - 1) with (length p) by lia; done).
    assert (i < msize (t_nw t))%N as Hib by (eapply (l_bound L); eauto; [by eapply path_ok_len|lia]).
    assert (key_of_path (t_nw t) (p ++ [i]) = (key_of_path 1 p * 64 + i)%N) as Hk.
    { rewrite Hnw. rewrite key_of_path_app. cbn. unfold msize. lia. }
    assert (is_Some (fst (ev x src (key_of_path 1 p * 64 + i) (x_st s1')))) as [y Hy].
    { rewrite <- Hk. apply (f_has _ _ (caller_follows x pk src Hr)); [by apply (path_full (under x))|]. by apply (l_terminal L). }
    destruct (ev x src (key_of_path 1 p * 64 + i) (x_st s1')) as [o st1] eqn:He. cbn [fst] in Hy. subst o.
    destruct (rel_same _ _ _ H1) as [Eh Ec].
    eapply (simr_bind (fun v q => q = (y, st1))).
    + intros v Hv. eexists. split; [|reflexivity]. rewrite Ec.
      apply (f_cdata_u _ _ (caller_follows x pk src Hr) _ p i); [apply H1|done|done|by rewrite Hk].
    + intros v ? ->. destruct (rel_push p s1 s1' (key_of_path 1 p * 64 + i) v y st1 H1 He) as [Hpu Hi2].
      destruct (push_fn s1 _ v) as [s2 j]. destruct (x_push_fn s1' _ y st1) as [s2' j']. cbn [fst snd] in *. subst j'.
      destruct (rel_same _ _ _ Hpu) as [-> _].
      eapply simr_bind; [apply simr_same|]. intros h2 ? <-. apply simr_ok. by apply rel_heap.
  - intros s2 s2' H2. destruct (rel_same _ _ _ H2) as [-> _].
    eapply simr_bind; [apply simr_same|]. intros [h2 q] ? <-. apply simr_ok. split; [by apply rel_heap|done].
Qed.
Lemma path_child1 p i : path_ok 1 (length p) p -> length p < D -> l_tm L src p i = true -> path_ok 1 (length (p ++ [i])) (p ++ [i]).
Proof. by apply (path_child t L src Hwf Hnw). Qed.
Lemma child_ready p i s s' : path_ok 1 (length p) p -> S (length p) < D -> l_tm L src p i = true -> rel p s s' -> at_node (m_cur s) (S (length p)) i (p ++ [i]).
Proof. intros Hp Hl Hi [Hc _]. apply (l_selectS_u L); [done|done|by rewrite Hnw|done|done]. Qed.
Lemma child_key p i n : length p = n -> S n < D -> path_ok 1 (length p) p -> l_tm L src p i = true ->
  (key_of_path 1 p * 64 ^ N.of_nat (D - n) + block_start D n i)%N = (key_of_path 1 (p ++ [i]) * 64 ^ N.of_nat (D - S n))%N.
Proof. intros Hn Hl Hp Hi. apply (block_start_ok t Hnw HD); try done. eapply (bound1 t L src Hwf Hnw); [done| |done]. lia. Qed.

Lemma x_exact_sim k : forall n p index s s', length p = n -> n + S k = D -> path_ok 1 (length p) p -> at_node (m_cur s) n index p -> rel0 s s' ->
  simr (relp p) (from_exact t src k n index (key_of_path 1 p * 64 ^ N.of_nat (D - n)) s) (x_exact E src k n index (key_of_path 1 p * 64 ^ N.of_nat (D - n)) s').
Proof.
  induction k as [|k IH]; intros n p index s s' Hn HnD Hp (c & m & Hsel & Hm & Hcur) Hs; cbn [from_exact x_exact]; (destruct (t_exact t); [|by intros ?]);
    rewrite (rel0_same _ _ Hs), Hsel, !bind_ok; apply (rel_cur p _ _ c Hcur) in Hs.
  - replace (D - n) with 1 by lia. change (64 ^ N.of_nat 1)%N with 64%N. by apply x_terminal_sim; [|lia|..].
  - eapply simr_bind; [apply simr_same|]. intros w ? <-. destruct (rel_same _ _ _ Hs) as [-> _].
    destruct (raw_new _ _ _ _) as [h raw]. eapply (simr_bind (rel p)).
    + apply (simr_traverse (t_nw t)); [apply Hm|by apply rel_heap|]. intros s1 s1' i Hi H1.
      pose proof (mbits_tm m p i Hp ltac:(lia) Hm Hi) as Htm. rewrite (child_key p i n) by (done || lia).
      eapply simr_bind.
      { apply IH; [rewrite app_length; cbn; lia|lia|apply path_child1; [done|lia|done]| |by destruct H1].
        subst n. eapply child_ready; [done|lia|done|exact H1]. }
      intros [s2 q] [s2' q'] [H2%rel_up Hq]. cbn [fst snd] in *. subst q'. destruct (rel_same _ _ _ H2) as [-> _].
      eapply simr_bind; [apply simr_same|]. intros h2 ? <-. apply simr_ok. by apply rel_heap.
    + intros s2 s2' H2. eapply simr_bind; [apply simr_same|]. intros ec ? <-. destruct (rel_same _ _ _ H2) as [-> _].
      eapply simr_bind; [apply simr_same|]. intros [h2 q] ? <-. apply simr_ok. split; [by apply rel_heap|done].
Qed.
Lemma x_sparse_sim k : forall n p index s s', length p = n -> n + S k = D -> path_ok 1 (length p) p -> at_node (m_cur s) n index p -> rel0 s s' ->
  simr (relp p) (from_sparse t src k n index (key_of_path 1 p * 64 ^ N.of_nat (D - n)) s) (x_sparse E src k n index (key_of_path 1 p * 64 ^ N.of_nat (D - n)) s').
Proof.
  induction k as [|k IH]; intros n p index s s' Hn HnD Hp (c & m & Hsel & Hm & Hcur) Hs; cbn [from_sparse x_sparse];
    rewrite (rel0_same _ _ Hs), Hsel, !bind_ok; apply (rel_cur p _ _ c Hcur) in Hs.
  - replace (D - n) with 1 by lia. change (64 ^ N.of_nat 1)%N with 64%N.
    eapply simr_bind; [by apply x_terminal_sim; [|lia|..]|]. intros [s2 q] [s2' q'] [H2 Hq]. cbn [fst snd] in *. subst q'. by apply simr_ok.
  - eapply (simr_bind (fun a a' => rel p (fst (fst a)) (fst (fst a')) /\ snd (fst a) = snd (fst a') /\ snd a = snd a')).
    + apply (simr_traverse (t_nw t)); [apply Hm|done|]. intros [[s1 nm] ch] [[s1' nm'] ch'] i Hi (H1 & E1 & E2). cbn [fst snd] in *. subst nm' ch'.
      pose proof (mbits_tm m p i Hp ltac:(lia) Hm Hi) as Htm. rewrite (child_key p i n) by (done || lia).
      eapply simr_bind.
      { apply IH; [rewrite app_length; cbn; lia|lia|apply path_child1; [done|lia|done]| |by destruct H1].
        subst n. eapply child_ready; [done|lia|done|exact H1]. }
      intros [s2 q] [s2' q'] [H2%rel_up Hq]. cbn [fst snd] in *. subst q'.
      destruct q as [q|]; [|by apply simr_ok]. eapply simr_bind; [apply simr_same|]. intros [nm2 ?] ? <-. destruct (decide _); [|by intros ?]. by apply simr_ok.
    + intros [[s1 nm] ch] [[s1' nm'] ch'] (H1 & E1 & E2). cbn [fst snd] in *. subst nm' ch'. destruct (decide (ch = [])); [by apply simr_ok|].
      eapply simr_bind; [apply simr_same|]. intros ec ? <-. eapply simr_bind; [apply simr_same|]. intros w ? <-. destruct (rel_same _ _ _ H1) as [-> _].
      destruct (from_parts _ _ _ _ _) as [h q]. apply simr_ok. split; [by apply rel_heap|done].
Qed.
Lemma e_materialize_sim d : materialize t src = Ok d -> exists d' st ks r, e_materialize E src st0 = Ok (d', st) /\
  d_root d' = d_root d /\ d_heap d' = d_heap d /\ d_keys d' = d_keys d /\ d_keys d = USIZE_MAX :: ks /\
  evs x src ks st0 = (r, st) /\ r.*1 = ks /\ d_data d' = None :: (Some <$> r.*2).
Proof.
  unfold materialize, e_materialize. pose proof (l_depth L) as HD0. destruct (l_new L src Hwf) as (c & Hc & Hv). intros H. rewrite Hc, bind_ok in H. rewrite Hc, bind_ok.
  assert (rel0 (Mst c heap_empty [None] [USIZE_MAX]) (Est c heap_empty [None] [USIZE_MAX] st0)) as Hs by (by exists [], []).
  assert (at_node (m_cur (Mst c heap_empty [None] [USIZE_MAX] : mst t)) 0 0 []) as Hat by by apply (l_select0_u L).
  revert H. set (s := @Mst (t_C t) (t_V t) c _ _ _) in *. set (s' := Est c _ _ _ _) in *. intros H.
  apply bind_ok_inv in H as ([s1 root] & H1 & H). injection H as <-.
  assert (simr (relp []) (if t_exact t then from_exact t src (t_depth t - 1) 0 0 0 s else
       let* (s, o) := from_sparse t src (t_depth t - 1) 0 0 0 s in let* p := unwrap_unc o in Ok (s, p))
    (if t_exact t then x_exact E src (t_depth t - 1) 0 0 0 s' else
       let* (s, o) := x_sparse E src (t_depth t - 1) 0 0 0 s' in let* p := unwrap_unc o in Ok (s, p))) as Hsim.
  { destruct (t_exact t); [apply (x_exact_sim (D - 1) 0 [] 0 s s'); [done|lia|apply path_ok_nil|done|done]|].
    eapply simr_bind; [apply (x_sparse_sim (D - 1) 0 [] 0 s s'); [done|lia|apply path_ok_nil|done|done]|].
    intros [s2 o] [s2' o'] [H2 Ho]. cbn [fst snd] in *. subst o'.
    eapply simr_bind; [apply simr_same|]. intros p ? <-. by apply simr_ok. }
  destruct (Hsim _ H1) as ([s1' root'] & -> & (_ & ks & r & R1 & R2 & R3 & R4 & R5 & R6 & R7 & R8) & Hroot). cbn [fst snd] in *. subst root'. rewrite bind_ok.
  exists (Dense root (x_heap s1') (x_data s1') (x_keys s1')), (x_st s1'), ks, r. cbn [d_root d_heap d_keys d_data]. by rewrite R2, R3.
Qed.
Lemma e_materialize_ev d : few t src -> materialize t src = Ok d -> exists n l,
  (forall fuel, n <= fuel -> iter_collect fuel t src = Ok l) /\
  exists r st, evs x src l.*1 st0 = (r, st) /\ r.*1 = l.*1 /\
  e_materialize E src st0 = Ok (Dense (d_root d) (d_heap d) (None :: (Some <$> r.*2)) (d_keys d), st).
Proof.
  intros Hfew Hd. destruct (materialize_order (under x) pk src Hr Hnw Hfew d Hd) as (n & l & Hl & E1 & E2).
  destruct (e_materialize_sim d Hd) as (d' & st & ks & r & E3 & E4 & E5 & E6 & E7 & E8 & E9 & E10).
  exists n, l. split; [done|]. rewrite E2 in E7. injection E7 as <-. exists r, st. split; [done|]. split; [done|]. rewrite E3. do 2 f_equal. destruct d'; cbn in *. by subst.
Qed.
End mat.
