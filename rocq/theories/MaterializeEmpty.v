(** * When exactly materializing a source without EXACT_HIERARCHY fails *)
From Verif Require Import Base BitUtils BitUtilsProofs BitQueue LevelIndices LevelIndicesProofs ConstLoops Hierarchy Lawful IterProofs IterCost
  DenseProofs DenseDrop Dense Materialize MaterializeProofs MaterializeLaws Spec SpecLaws Client TreeClient Generic Compose ViewLaws CostLaws MaterializeViews Ops DenseHistory.

Lemma traverse_inv {St} m (f : St -> N -> res St) s s' (I : list N -> St -> Prop) : mask_ok 1 m -> I [] s ->
  (forall l i s s', i ∈ mbits m -> I l s -> f s i = Ok s' -> I (l ++ [i]) s') -> traverse_m m f s = Ok s' -> I (mbits m) s'.
Proof.
  intros Hm H0 Hstep. rewrite (traverse_m_ok 1) by done.
  assert (forall l2 l1 s, mbits m = l1 ++ l2 -> I l1 s -> fold_res f l2 s = Ok s' -> I (mbits m) s') as H; [|exact (H (mbits m) [] s eq_refl H0)].
  induction l2 as [|i l2 IH]; intros l1 s1 E H1; cbn [fold_res].
  - intros [= <-]. by rewrite E, app_nil_r.
  - intros (s2 & E2 & H2)%bind_ok_inv. apply (IH (l1 ++ [i]) s2); [by rewrite <- app_assoc| |done].
    apply (Hstep l1 i s1); [rewrite E; apply elem_of_app; right; left|done|done].
Qed.

Section empty.
Context (t : tree) (L : lawful t) (src : t_T t) (Hwf : l_wf L src).
Hypothesis Hnw : t_nw t = 1.
Notation D := (t_depth t).
Notation tm := (l_tm L src).

Lemma terminal_cur s m cap ka s' p : mask_ok 1 m -> make_terminal_node t src s m cap ka = Ok (s', p) -> m_cur s' = m_cur s.
Proof.
  intros Hm. unfold make_terminal_node. intros (w & _ & H)%bind_ok_inv. destruct (raw_new _ _ _ _) as [h raw].
  apply bind_ok_inv in H as (s1 & H1 & H). apply bind_ok_inv in H as ([h2 p2] & _ & H). injection H as <- <-.
  assert (m_cur s1 = m_cur s) as E; [|exact E].
  apply (traverse_inv m _ _ _ (fun _ s1 => m_cur s1 = m_cur s)) in H1; [done|done|done|].
  intros l i a a' _ Ha. intros (d & _ & H2)%bind_ok_inv. unfold push_fn in H2. apply bind_ok_inv in H2 as (h3 & _ & [= <-]). done.
Qed.
Lemma from_sparse_empty k : forall n p index ka s s' o,
  length p = n -> n + S k = D -> path_ok 1 n p ->
  (exists c m, t_select_u t src (m_cur s) n index = Ok (c, m) /\ mask_is (t_nw t) m (tm p) /\ l_Ru L src c p) ->
  from_sparse t src k n index ka s = Ok (s', o) -> l_Ru L src (m_cur s') p /\ (o = None <-> leaves L src k p = []).
Proof.
  induction k as [|k IH]; intros n p index ka s s' o Hn HnD Hp (c & m & Hsel & Hm & Hcur); cbn [from_sparse]; rewrite Hsel, bind_ok;
    (assert (mask_ok 1 m) as Hmok by (destruct Hm as [Hm _]; by rewrite Hnw in Hm)).
  - intros ([s1 p1] & E & [= <- <-])%bind_ok_inv. apply terminal_cur in E; [|done]. rewrite E. cbn. done.
  - pose proof (kids_mask L src Hwf p m) as Hk. rewrite Hnw in Hk. subst n. specialize (Hk Hp ltac:(lia)). rewrite Hnw in Hm. specialize (Hk Hm).
    intros ([[s1 nm] ch] & E & H)%bind_ok_inv.
    apply (traverse_inv m _ _ _ (fun l '(s1, nm, ch) => l_Ru L src (m_cur s1) p /\
      (ch = [] <-> Forall (fun i => leaves L src k (p ++ [i]) = []) l))) in E; [|done|split; [done|split; [intros _; constructor|done]]|].
    + destruct E as [Hc1 Hch]. rewrite Hk in Hch.
      assert (leaves L src (S k) p = [] <-> Forall (fun i => leaves L src k (p ++ [i]) = []) (kids L src p)) as Hlv.
      { cbn [leaves]. clear. generalize (kids L src p) as l. induction l as [|i l IHl]; cbn [mbind list_bind]; [split; [intros _; constructor|done]|].
        rewrite Forall_cons, <- IHl. split; [intros E; by apply app_eq_nil in E|intros [-> E]; exact E]. }
      destruct (decide (ch = [])) as [Hd|Hd].
      * injection H as <- <-. split; [done|]. rewrite Hlv, <- Hch. done.
      * apply bind_ok_inv in H as (ec & _ & H). apply bind_ok_inv in H as (w & _ & H). destruct (from_parts _ _ _ _ _) as [h p2]. injection H as <- <-.
        split; [done|]. rewrite Hlv, <- Hch. done.
    + intros l i [[a nma] cha] [[a' nma'] cha'] Hi [Ha Hcha]. rewrite Hk in Hi. apply (elem_of_kids L src Hwf) in Hi; [|by rewrite Hnw|lia].
      intros ([a1 o1] & E1 & H1)%bind_ok_inv.
      assert (i < 64)%N as Hi64 by (pose proof (l_bound L src p i Hwf) as Hb; rewrite Hnw in Hb; apply Hb; [done|lia|done]).
      apply (IH (S (length p)) (p ++ [i])) in E1 as [Hc1 Ho1]; [|rewrite app_length; cbn; lia|lia|by apply path_ok_snoc|
        apply (l_selectS_u L); [done|done|by rewrite Hnw|lia|done]].
      apply (l_Ru_take L _ _ _ (length p)) in Hc1. rewrite take_app in Hc1. rewrite Forall_app, <- Hcha, Forall_singleton, <- Ho1.
      destruct o1 as [q|].
      * apply bind_ok_inv in H1 as ([nm2 bb] & _ & H1). destruct (decide (length cha < 64)); [|done]. injection H1 as <- <- <-. split; [done|].
        split; [intros E0; by apply app_eq_nil in E0 as [_ ?]|intros [_ ?]; done].
      * injection H1 as <- <- <-. split; [done|]. naive_solver.
Qed.
(** the terminal nodes the walk reaches *)
Lemma bottom_walk : 1 <= D -> leaves L src (D - 1) [] = [] <-> (forall p, p ∈ walk L src D [] -> S (length p) <> D).
Proof.
  intros HD. assert (forall k j p, S k <= j -> forall q, q ∈ leaves L src k p -> q ∈ walk L src j p /\ length q = length p + k) as H1.
  { induction k as [|k IH]; intros j p Hj q; (destruct j as [|j]; [lia|]); cbn [leaves walk].
    - intros ->%elem_of_list_singleton. split; [left|lia].
    - intros (i & Hq & Hi)%elem_of_list_bind. destruct (IH j (p ++ [i]) ltac:(lia) q Hq) as [H1 H2]. split.
      + right. apply elem_of_list_bind. eauto.
      + rewrite H2, app_length. cbn. lia. }
  assert (forall k j p q, q ∈ walk L src j p -> length q = length p + k -> q ∈ leaves L src k p) as H2.
  { induction k as [|k IH]; intros j p q; (destruct j as [|j]; cbn [walk leaves]; [by intros ?%elem_of_nil|]); intros [->|Hq]%elem_of_cons Hl.
    - left.
    - exfalso. apply elem_of_list_bind in Hq as (i & Hq & _).
      assert (forall j p q, q ∈ walk L src j p -> length p <= length q) as Hle.
      { clear. induction j as [|j IH]; intros p q; cbn [walk]; [by intros ?%elem_of_nil|]. intros [->|Hq]%elem_of_cons; [done|].
        apply elem_of_list_bind in Hq as (i & Hq & _). apply IH in Hq. rewrite app_length in Hq. cbn in Hq. lia. }
      apply Hle in Hq. rewrite app_length in Hq. cbn in Hq. lia.
    - lia.
    - apply elem_of_list_bind in Hq as (i & Hq & Hi). apply elem_of_list_bind. exists i. split; [|done].
      apply (IH j); [done|]. rewrite Hl, app_length. cbn. lia. }
  split.
  - intros E p Hp Hl. apply (H2 (D - 1)) in Hp; [|cbn; lia]. rewrite E in Hp. by apply elem_of_nil in Hp.
  - intros H. destruct (leaves L src (D - 1) []) as [|q l] eqn:E; [done|exfalso].
    destruct (H1 (D - 1) D [] ltac:(lia) q) as [Hw Hl]; [rewrite E; left|]. apply (H q Hw). cbn in Hl. lia.
Qed.
End empty.

(** a view: the failure is there exactly when the iteration of the source reaches no node of the last level *)
Lemma mat_ub_iff {b t} (v : view b t) pk s ps : reached pk v s -> t_nw t = 1 -> few t s -> t_exact t = false -> iter_visits t s ps ->
  (materialize t s = UB <-> 2 <= t_depth t /\ forall p, p ∈ ps -> S (length p) <> t_depth t).
Proof.
  intros Hr Hnw Hfew Hex Hps. pose proof (reached_good pk v s Hr) as Hg. pose proof (vg_wf _ _ _ Hg) as Hwf. destruct (view_depth v) as [H0 H9].
  rewrite (iter_visits_fun _ _ _ _ Hps (iter_visits_walk (vL v) s Hwf)), <- (bottom_walk t (vL v) s Hnw H0).
  destruct (l_new (vL v) s Hwf) as (c & Hn & Hv).
  assert (forall s' o, from_sparse t s (t_depth t - 1) 0 0 0 (Mst c heap_empty [None] [USIZE_MAX]) = Ok (s', o) ->
    (o = None <-> leaves (vL v) s (t_depth t - 1) [] = [])) as Hkey.
  { intros s' o E. apply (from_sparse_empty t (vL v) s Hwf Hnw (t_depth t - 1) 0 [] 0 0 _ s' o) in E as [_ Ho];
      [done|done|lia|apply path_ok_nil|by apply (sel_root t (vL v) s Hwf)]. }
  destruct (mat_sparse v pk s Hr Hnw Hfew Hex) as [(d & m & E & _)|(E & HD & _)].
  - split; [congruence|]. intros [_ Hl]. exfalso. unfold materialize in E. rewrite Hn, bind_ok, Hex in E.
    apply bind_ok_inv in E as ([s1 p1] & E & _). apply bind_ok_inv in E as ([s2 o2] & E1 & E2).
    rewrite (proj2 (Hkey s2 o2 E1) Hl) in E2. done.
  - split; [|done]. intros _. split; [done|]. unfold materialize in E. rewrite Hn, bind_ok, Hex in E.
    destruct (from_sparse_ok t (vL v) s Hwf Hnw H9 fixlen fixlen_ok fixlen_parts (t_depth t - 1) 0 [] 0 0 (start t c)) as (s' & o & E' & Hb).
    { done. } { lia. } { apply path_ok_nil. } { by apply sel_root. } { done. } { apply start_heap. }
    { replace (S (t_depth t - 1)) with (t_depth t) by lia. apply start_fits; try done. by apply (view_small v pk). }
    unfold start in E'. rewrite E', bind_ok in E. apply (Hkey s' o E'). destruct o; [done|done].
Qed.

(** in terms of keys: nodes of the last level *)
Lemma has_elem_last {b t} (v : view b t) s k x : t_nw t = 1 -> tree_get t s k = Ok (Some x) -> (k < 64 ^ N.of_nat (t_depth t))%N ->
  exists p, S (length p) = t_depth t /\ key_of_path 1 p = (k / 64)%N /\ has_elem t s p.
Proof.
  intros Hnw Hx Hk. destruct (view_depth v) as [H0 H9]. destruct (digits_path 1 (t_depth t) k) as [Hp Hkp]; [by left|done|done|].
  remember (digits (msize 1) (t_depth t) k) as q eqn:Eq. destruct q as [|i p _] using rev_ind; [destruct Hp as [Hp _]; cbn in Hp; lia|].
  exists p. destruct Hp as [Hl Hall]. rewrite app_length in Hl. cbn in Hl. split; [lia|]. split.
  - rewrite <- Hkp, key_of_path_snoc. apply Forall_app in Hall as [_ Hi]. rewrite Forall_singleton in Hi. change (msize 1) with 64%N in *.
    assert (i < 64)%N as Hi64 by exact Hi. rewrite N.div_add_l by done. rewrite (N.div_small i 64 Hi64). lia.
  - exists k, x. split; [|done]. split; [rewrite Hnw; done|]. rewrite Hnw, <- Eq. by exists [i].
Qed.
Lemma has_elem_last_inv {b t} (v : view b t) s p : t_nw t = 1 -> S (length p) = t_depth t -> has_elem t s p ->
  exists k x, tree_get t s k = Ok (Some x) /\ (k / 64)%N = key_of_path 1 p.
Proof.
  intros Hnw Hl (k & x & [Hk [r Hr]] & Hx). exists k, x. split; [done|]. rewrite Hnw in *. destruct (view_depth v) as [H0 H9].
  destruct (digits_path 1 (t_depth t) k) as [Hp Hkp]; [by left|done|done|]. rewrite Hr in *. destruct Hp as [Hl' Hall]. rewrite app_length in Hl'.
  destruct r as [|i [|j r]]; [cbn in Hl'; lia| |cbn in Hl'; lia]. rewrite <- Hkp, key_of_path_snoc.
  apply Forall_app in Hall as [_ Hi]. rewrite Forall_singleton in Hi. change (msize 1) with 64%N in *.
  assert (i < 64)%N as Hi64 by exact Hi. rewrite N.div_add_l by done. rewrite (N.div_small i 64 Hi64). lia.
Qed.
Lemma mat_intersection_ub {b0 b1 t0 t1} (v0 : view b0 t0) (v1 : view b1 t1) s0 s1 {W} (f : t_V t0 * t_V t1 -> W) :
  t_nw t0 = 1 -> t_nw t1 = t_nw t0 -> t_depth t1 = t_depth t0 ->
  reached no_key v0 s0 -> reached no_key v1 s1 -> t_exact t0 = true -> t_exact t1 = true -> few (t_map (t_intersection t0 t1) f) (s0, s1) ->
  (materialize (t_map (t_intersection t0 t1) f) (s0, s1) = UB <->
   2 <= t_depth t0 /\ forall k0 x0 k1 x1, tree_get t0 s0 k0 = Ok (Some x0) -> tree_get t1 s1 k1 = Ok (Some x1) -> (k0 / 64 <> k1 / 64)%N).
Proof.
  intros Hw Hnw HD Hr0 Hr1 Hx0 Hx1 Hfew. pose proof (view_depth v0) as [H0 H9].
  set (v := VIntersection b0 b1 t0 t1 Hnw HD v0 v1).
  set (vm := VMap (b0 && b1) (t_intersection t0 t1) W f v).
  destruct (intersection_visits v0 v1 no_key s0 s1 Hnw HD Hr0 Hr1) as (ps0 & ps1 & ps & V0 & V1 & Vi & Hps).
  assert (reached no_key vm (s0, s1)) as Hr by done.
  pose proof (map_visits v no_key (s0, s1) f ps Hr Vi) as Vm.
  assert (t_nw (t_map (t_intersection t0 t1) f) = 1) as Hw' by exact Hw.
  rewrite (mat_ub_iff vm no_key (s0, s1) ps Hr Hw' Hfew eq_refl Vm).
  change (t_depth (t_map (t_intersection t0 t1) f)) with (t_depth t0).
  destruct (view_visits v0 no_key s0 Hr0) as (ps0' & l0 & V0' & _ & _ & _ & _ & Hin0 & Hex0). rewrite (iter_visits_fun _ _ _ _ V0' V0) in *. clear V0' ps0'.
  destruct (view_visits v1 no_key s1 Hr1) as (ps1' & l1 & V1' & _ & _ & _ & _ & Hin1 & Hex1). rewrite (iter_visits_fun _ _ _ _ V1' V1) in *. clear V1' ps1'.
  destruct (Hex0 Hx0) as [Hout0 _]. destruct (Hex1 Hx1) as [Hout1 _]. clear Hex0 Hex1.
  assert (t_nw t1 = 1) as Hw1 by congruence.
  assert (forall b t (v : view b t) s k x, t_nw t = 1 -> reached no_key v s -> tree_get t s k = Ok (Some x) -> (k < 64 ^ N.of_nat (t_depth t))%N) as Hbd.
  { clear. intros b t v s k x Hn Hr Hx. unfold tree_get in Hx. rewrite Hn in Hx. apply bind_ok_inv in Hx as (i & Hi & _).
    destruct (view_depth v) as [H0 H9]. rewrite (DenseHistory.index_from_dense (t_depth t)) in Hi by done. by destruct (N.ltb_spec k (DenseProofs.KB (t_depth t))). }
  split; intros [H2 H]; (split; [done|]).
  - intros k0 x0 k1 x1 E0 E1 Ek. destruct (has_elem_last v0 s0 k0 x0 Hw E0 ltac:(by eapply (Hbd _ _ v0))) as (p0 & L0 & K0 & P0).
    destruct (has_elem_last v1 s1 k1 x1 Hw1 E1 ltac:(by eapply (Hbd _ _ v1))) as (p1 & L1 & K1 & P1).
    assert (p0 = p1) as <-.
    { pose proof (has_elem_path v0 s0 p0 P0) as [Q0 _]. pose proof (has_elem_path v1 s1 p1 P1) as [Q1 _]. rewrite Hw in Q0. rewrite Hw1 in Q1.
      assert (length p0 = length p1) as El by lia. rewrite <- (level_indices_of_path 1 (length p0) p0), <- (level_indices_of_path 1 (length p1) p1) by (done || lia || by left).
      by rewrite El, K0, K1, Ek. }
    apply (H p0); [|done]. apply Hps. split; [apply Hin0; [lia|done]|apply Hin1; [lia|done]].
  - intros p [Hp0 Hp1]%Hps Hl. destruct (Hout0 p Hp0) as [->|[P0|(? & _ & [])]]; [cbn in Hl; lia|]. destruct (Hout1 p Hp1) as [->|[P1|(? & _ & [])]]; [cbn in Hl; lia|].
    destruct (has_elem_last_inv v0 s0 p Hw Hl P0) as (k0 & x0 & E0 & K0). destruct (has_elem_last_inv v1 s1 p Hw1 ltac:(lia) P1) as (k1 & x1 & E1 & K1).
    by apply (H k0 x0 k1 x1 E0 E1); rewrite K0, K1.
Qed.
