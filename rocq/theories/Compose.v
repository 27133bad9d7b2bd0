(** * Arbitrary nestings of the lazy operations over containers *)
From Verif Require Import Base BitUtils BitUtilsProofs BitQueue LevelIndices LevelIndicesProofs
  ConstLoops Hierarchy Lawful IterProofs Ops OpsProofs MultiProofs
  Dense DenseProofs DenseRemove DenseTree DenseDrop Sparse SparseVec SparseProofs SparseOps SparseTree
  Spec Client DenseHistory SparseHistory TreeClient Generic Contract Materialize MaterializeProofs MaterializeLaws.

(** A view: containers combined by the lazy operations of src/ops.  The boolean says that
    the view's cursor answers [None] for every absent element; it is false exactly for views
    whose outermost non-`map` layers are a `multi_union` (or an intersection with one), see
    the finding [multi_union_cursor_data_refuted].  `union` and `multi_union` ask their
    operands' cursors for possibly absent elements, so they need [true].  [VMat] is the
    DenseTree made by `materialize` from a view, after further calls.  [VUser] is a tree that the client
    implements: any implementation of the public traits that keeps the contract of Contract.v. *)
Inductive view : bool -> tree -> Type :=
| VDense V D : 1 <= D -> D <= 9 -> view true (dense_tree V D)
| VSparse V nw D (first : option V) : nw_ok nw -> 1 <= D -> D <= 8 -> view true (sparse_tree V nw D)
| VMap b t W (f : t_V t -> W) : view b t -> view b (t_map t f)
| VMultiMapFold b t X A (items : t_V t -> list X) (init : A) (f : A -> X -> A) :
    view b t -> view b (t_multi_map_fold t items init f)
| VIntersection b0 b1 t0 t1 : t_nw t1 = t_nw t0 -> t_depth t1 = t_depth t0 ->
    view b0 t0 -> view b1 t1 -> view (b0 && b1) (t_intersection t0 t1)
| VUnion t0 t1 : t_nw t1 = t_nw t0 -> t_depth t1 = t_depth t0 ->
    view true t0 -> view true t1 -> view true (t_union t0 t1)
| VMultiIntersection b t : view b t -> view true (t_multi_intersection t)
| VMultiUnion t : 2 <= t_depth t -> view true t -> view false (t_multi_union t)
| VMat b t : t_nw t = 1 -> 1 <= t_depth t -> t_depth t <= 9 -> view b t -> view true (dense_tree (t_V t) (t_depth t))
| VUser b t : nw_ok (t_nw t) -> 1 <= t_depth t -> t_depth t <= 9 -> (msize (t_nw t) ^ N.of_nat (t_depth t) <= 2 ^ 64)%N -> view b t.

(** a history without panicking constructors satisfies every condition on the panicked keys *)
Lemma none_panicked {V} B (m : gmap N V) cs (pk : N -> Prop) : spec_all_panicked B m cs = ∅ ->
  forall k, k ∈ spec_all_panicked B m cs -> pk k.
Proof. intros ->. set_solver. Qed.

(** calls on a DenseTree that holds [m], under the side conditions of [dense_legal] *)
Definition dense_legal_from {V} (D : nat) (m : gmap N V) (cs : list (call V)) : Prop :=
  Forall dense_api cs /\ (Exists is_remove cs -> 2 <= D) /\ spec_always (64 ^ N.of_nat D) small32 m cs.

(** the values a view can have: every container in it was produced by a legal history of
    public calls, and the operand counts are in the supported range.  Every key for which a
    value constructor panicked in these histories satisfies [pk]; if something was materialized
    from a tree that does not declare EXACT_HIERARCHY then [pk] says nothing.  A tree
    materialized from such a source may only be read (finding C18). *)
Definition no_key (k : N) : Prop := False.
Definition any_key (k : N) : Prop := True.
Fixpoint reached (pk : N -> Prop) {b t} (v : view b t) : t_T t -> Prop :=
  match v in view b t return t_T t -> Prop with
  | VDense V D _ _ => fun s => exists cs, dense_legal D cs /\ dense_reached D cs s /\
      (forall k, k ∈ spec_all_panicked (64 ^ N.of_nat D) ∅ cs -> pk k)
  | VSparse V nw D first _ _ _ => fun s => exists req dflt cs, first = placeholder req dflt /\
      sparse_legal nw D req dflt cs /\ sparse_reached nw D req dflt cs s /\
      (forall k, k ∈ spec_all_panicked (key_bound nw D) ∅ cs -> pk k)
  | VMap b t W f v => reached pk v
  | VMultiMapFold b t X A items init f v => reached pk v
  | VIntersection b0 b1 t0 t1 _ _ v0 v1 => fun s => reached pk v0 (fst s) /\ reached pk v1 (snd s)
  | VUnion t0 t1 _ _ v0 v1 => fun s => reached pk v0 (fst s) /\ reached pk v1 (snd s)
  | VMultiIntersection b t v => fun s => s <> [] /\ length s <= 32 /\ Forall (reached pk v) s
  | VMultiUnion t _ v => fun s => length s <= 32 /\ Forall (reached pk v) s
  | VMat b t _ _ _ v => fun d => exists s d0 m cs os dr, reached pk v s /\ few t s /\ get_is t s m /\
      materialize t s = Ok d0 /\ dense_calls (t_depth t) d0 cs = Ok (d, os, dr) /\ dense_legal_from (t_depth t) m cs /\
      (t_exact t = true \/ t_depth t = 1 \/ cs = []) /\
      (t_exact t = true \/ t_depth t = 1 \/ forall k, pk k) /\
      (forall k, k ∈ spec_all_panicked (64 ^ N.of_nat (t_depth t)) m cs -> pk k)
  | VUser b t _ _ _ _ => fun s => honest b t s /\ honest_exact pk t s /\ honest_max t s
  end.

Definition le9 {D} (H : D <= 8) : D <= 9 := le_S _ _ H.

Fixpoint view_lawful {b t} (v : view b t) : {L : lawful t | l_cdok L = b} :=
  match v in view b t return {L : lawful t | l_cdok L = b} with
  | VDense V D H0 H1 => exist _ (lawful_dense D H0 H1 allp) eq_refl
  | VSparse V nw D first Hnw H0 H1 => exist _ (lawful_sparse nw D Hnw H0 (le9 H1) first) eq_refl
  | VMap b t W f v => let '(exist _ L H) := view_lawful v in exist _ (lawful_map L f) H
  | VMultiMapFold b t X A items init f v => let '(exist _ L H) := view_lawful v in exist _ (lawful_multi_map_fold L items init f) H
  | VIntersection b0 b1 t0 t1 Hn Hd v0 v1 =>
    let '(exist _ L0 H0) := view_lawful v0 in let '(exist _ L1 H1) := view_lawful v1 in
    exist _ (lawful_intersection L0 L1 Hn Hd) (f_equal2 andb H0 H1)
  | VUnion t0 t1 Hn Hd v0 v1 =>
    let '(exist _ L0 H0) := view_lawful v0 in let '(exist _ L1 H1) := view_lawful v1 in
    exist _ (lawful_union L0 L1 Hn Hd H0 H1) eq_refl
  | VMultiIntersection b t v => let '(exist _ L H) := view_lawful v in exist _ (lawful_multi_intersection L) eq_refl
  | VMultiUnion t HD v => let '(exist _ L H) := view_lawful v in exist _ (lawful_multi_union L H HD) eq_refl
  | VMat b t Hnw H0 H1 v => exist _ (lawful_mat (t_depth t) H0 H1) eq_refl
  | VUser b t Hnw H0 _ _ => exist _ (lawful_user b t Hnw H0) eq_refl
  end.
Definition vL {b t} (v : view b t) : lawful t := proj1_sig (view_lawful v).
Lemma vL_cdok {b t} (v : view b t) : l_cdok (vL v) = b.
Proof. unfold vL. by destruct (view_lawful v). Qed.

(** ** content of the operations *)
Lemma content_map {t} (L : lawful t) {W} (f : t_V t -> W) s k : content (lawful_map L f) s k = f <$> content L s k.
Proof. unfold content, l_at. cbn [t_map t_nw t_depth]. by destruct (N.ltb_spec k (msize (t_nw t) ^ N.of_nat (t_depth t))%N). Qed.
Lemma content_mmf {t} (L : lawful t) {X A} (items : t_V t -> list X) (init : A) (f : A -> X -> A) s k :
  content (lawful_multi_map_fold L items init f) s k = (fun d => fold_left f (items d) init) <$> content L s k.
Proof. exact (content_map L _ s k). Qed.
Lemma content_intersection {t0 t1} (L0 : lawful t0) (L1 : lawful t1) Hn Hd s k :
  content (lawful_intersection L0 L1 Hn Hd) s k =
    match content L0 (fst s) k, content L1 (snd s) k with Some x, Some y => Some (x, y) | _, _ => None end.
Proof.
  unfold content, l_at. cbn [t_intersection t_nw t_depth lawful_intersection l_sem]. unfold intersection_sem. rewrite Hn, Hd.
  destruct (N.ltb_spec k (msize (t_nw t0) ^ N.of_nat (t_depth t0))%N); [|done]. reflexivity.
Qed.
Lemma content_union {t0 t1} (L0 : lawful t0) (L1 : lawful t1) Hn Hd H0 H1 s k :
  content (lawful_union L0 L1 Hn Hd H0 H1) s k =
    match content L0 (fst s) k, content L1 (snd s) k with None, None => None | x, y => Some (x, y) end.
Proof.
  unfold content, l_at. cbn [t_union t_nw t_depth lawful_union l_sem]. unfold union_sem. rewrite Hn, Hd.
  destruct (N.ltb_spec k (msize (t_nw t0) ^ N.of_nat (t_depth t0))%N); [|done]. reflexivity.
Qed.
Lemma content_mi {t} (L : lawful t) s k : s <> [] ->
  content (lawful_multi_intersection L) s k = mapM (fun a => content L a k) s.
Proof.
  intros Hne. unfold content, l_at. cbn [t_multi_intersection t_nw t_depth].
  destruct (N.ltb_spec k (msize (t_nw t) ^ N.of_nat (t_depth t))%N); [reflexivity|]. by destruct s.
Qed.
Lemma content_mu {t} (L : lawful t) H HD s k :
  content (lawful_multi_union L H HD) s k =
    match omap (fun a => content L a k) s with [] => None | l => Some l end.
Proof.
  unfold content, l_at. cbn [t_multi_union t_nw t_depth].
  destruct (N.ltb_spec k (msize (t_nw t) ^ N.of_nat (t_depth t))%N); [reflexivity|].
  assert (omap (fun _ : t_T t => None) s = ([] : list (t_V t))) as ->; [|done]. induction s; done.
Qed.
Lemma content_dense {V} D H0 H1 ex ex' (s : dense V) m k : dense_inv D ex' s m -> 
  content (lawful_dense D H0 H1 ex) s k = m !! k.
Proof.
  intros Hi. unfold content. cbn [dense_tree t_nw t_depth]. change (msize 1 ^ N.of_nat D)%N with (KB D).
  destruct (N.ltb_spec k (KB D)) as [Hk|Hk].
  - unfold l_at. cbn [t_nw t_depth dense_tree l_sem lawful_dense].
    destruct (key_path D H0 k Hk) as [Hq E]. rewrite (dsem_ok D H0 H1 ex' s m) by done. by rewrite E.
  - destruct (m !! k) as [v|] eqn:Hm; [|done]. destruct Hi as (P & J & Sh & Hv & _).
    pose proof (vec_bound D _ _ _ _ Hv _ _ Hm). lia.
Qed.
Lemma content_sparse {V} nw D Hnw H0 H1 (first : option V) E (s : sparse V) m k : sparse_inv nw D first E s m ->
  content (lawful_sparse nw D Hnw H0 H1 first) s k = m !! k.
Proof.
  intros Hi. unfold content. cbn [sparse_tree t_nw t_depth]. change (msize nw ^ N.of_nat D)%N with (SKB nw D).
  destruct (N.ltb_spec k (SKB nw D)) as [Hk|Hk].
  - by apply (sparse_at nw D Hnw H0 H1 first E).
  - destruct (m !! k) as [v|] eqn:Hm; [|done]. destruct Hi as (P & J & Sh & Hv & _).
    apply (sv_m _ _ _ _ _ _ _ _ Hv) in Hm as (j & Hj & Hkj & _). pose proof (sv_key _ _ _ _ _ _ _ _ Hv _ _ Hj Hkj). lia.
Qed.

(** ** reached views are well-formed, never contain the key usize::MAX, and are exact when
    they declare it *)
Lemma exact_map {t} pk (L : lawful t) {W} (f : t_V t -> W) s : hierarchy_exact pk L s -> hierarchy_exact pk (lawful_map L f) s.
Proof.
  intros He p i Hp Hl Hb. destruct (He p i Hp Hl Hb) as (r & Hr & [Hs|Hs]); exists r; (split; [done|]); [left|by right].
  cbn [lawful_map l_sem]. by apply fmap_is_Some.
Qed.
Lemma exact_union {t0 t1} pk (L0 : lawful t0) (L1 : lawful t1) Hn Hd H0 H1 s :
  hierarchy_exact pk L0 (fst s) -> hierarchy_exact pk L1 (snd s) -> hierarchy_exact pk (lawful_union L0 L1 Hn Hd H0 H1) s.
Proof.
  intros He0 He1 p i. cbn [t_union t_nw t_depth]. intros Hp Hl Hb. cbn [lawful_union l_tm] in Hb. apply orb_true_iff in Hb as [Hb|Hb].
  - destruct (He0 p i Hp Hl Hb) as (r & Hr & [Hs|Hs]); exists r; (split; [done|]); [left|by right]. apply union_sem_is_Some. by left.
  - destruct (He1 p i) as (r & Hr & Hs); [by rewrite Hn|by rewrite Hd|done|]. exists r.
    rewrite Hn, Hd in Hr. split; [done|]. destruct Hs as [Hs|Hs]; [left|right; by rewrite Hn in Hs]. apply union_sem_is_Some. by right.
Qed.
Lemma exact_mu {t} pk (L : lawful t) H HD s : Forall (hierarchy_exact pk L) s -> hierarchy_exact pk (lawful_multi_union L H HD) s.
Proof.
  intros Hf p i. cbn [t_multi_union t_nw t_depth]. intros Hp Hl Hb. cbn [lawful_multi_union l_tm] in Hb.
  apply existsb_exists in Hb as (a & Ha%elem_of_list_In & Hb). rewrite Forall_forall in Hf.
  destruct (Hf a Ha p i Hp Hl Hb) as (r & Hr & [Hs|Hs]); exists r; (split; [done|]); [left|by right]. apply mu_sem_is_Some. eauto.
Qed.

(** every key of a view fits in a usize *)
Lemma pow_size nw D : nw_ok nw -> D <= 8 -> (msize nw ^ N.of_nat D <= 2 ^ 64)%N.
Proof.
  intros Hnw HD. transitivity (256 ^ N.of_nat D)%N.
  - apply N.pow_le_mono_l. destruct Hnw as [->|[->| ->]]; unfold msize; lia.
  - transitivity (256 ^ 8)%N; [|done]. apply N.pow_le_mono_r; lia.
Qed.
Lemma view_size {b t} (v : view b t) : (msize (t_nw t) ^ N.of_nat (t_depth t) <= 2 ^ 64)%N.
Proof.
  induction v as [V D H0 H1|V nw D first Hnw H0 H1|b t W f v IH|b t X A items init f v IH|b0 b1 t0 t1 Hn Hd v0 IH0 v1 IH1
    |t0 t1 Hn Hd v0 IH0 v1 IH1|b t v IH|t HD v IH|b t Hnw H0 H1 v IH|b t Hnw H0 H1 Hsz]; try done.
  - cbn [dense_tree t_nw t_depth]. pose proof (KB_lt D H0 H1). unfold KB in *. change (msize 1) with 64%N. unfold USIZE_MAX in *. lia.
  - by apply pow_size.
  - cbn [dense_tree t_nw t_depth]. by rewrite Hnw in IH.
Qed.
(** get of a view, for every key *)
Definition view_key_ok (t : tree) (k : N) : Prop := (k < N.min (msize (t_nw t) ^ N.of_nat (t_depth t)) USIZE_MAX)%N.
Global Instance view_key_ok_dec t k : Decision (view_key_ok t k) := N_lt_dec _ _.
Record good (pk : N -> Prop) {t} (L : lawful t) (s : t_T t) : Prop := {
  vg_wf : l_wf L s;
  vg_max : content L s USIZE_MAX = None;
  vg_exact : t_exact t = true -> hierarchy_exact pk L s;
}.
Lemma good_get {t} pk (L : lawful t) s k : good pk L s ->
  (view_key_ok t k -> tree_get t s k = Ok (content L s k)) /\ (~ view_key_ok t k -> tree_get t s k = Panic).
Proof.
  intros [Hw _ _]. rewrite (tree_get_ok L) by done. unfold view_key_ok. split; intros Hk.
  - by rewrite (proj2 (N.ltb_lt _ _)).
  - rewrite (proj2 (N.ltb_ge _ _)); [done|lia].
Qed.
Lemma good_get_Some {t} pk (L : lawful t) s k x : good pk L s -> (msize (t_nw t) ^ N.of_nat (t_depth t) <= 2 ^ 64)%N ->
  tree_get t s k = Ok (Some x) <-> content L s k = Some x.
Proof.
  intros Hg Hsz. destruct (good_get pk L s k Hg) as [H1 H2]. destruct (decide (view_key_ok t k)) as [Hk|Hk].
  - rewrite H1 by done. split; [by intros [= ->]|by intros ->].
  - rewrite H2 by done. split; [done|]. intros Hc. exfalso. apply Hk. unfold view_key_ok.
    pose proof Hc as [Hb _]%content_Some. destruct (decide (k = USIZE_MAX)) as [->|Hne].
    + rewrite (vg_max pk L s Hg) in Hc. done.
    + destruct (N.ltb_spec k USIZE_MAX) as [|Hge]; [lia|]. exfalso. unfold USIZE_MAX in *. lia.
Qed.
Lemma dense_inv_false {V} D ex (d : dense V) m : dense_inv D ex d m -> dense_inv D allp d m.
Proof. by apply dense_inv_mono. Qed.
Lemma content_mat {V} D H0 H1 ex (d : dense V) m k : dense_inv D ex (fixd d) m -> content (lawful_mat D H0 H1) d k = m !! k.
Proof. intros Hi. rewrite <- (content_dense D H0 H1 allp ex (fixd d) m k Hi). done. Qed.

(** what a materialized tree represents *)
Lemma mat_inv pk {t} (L : lawful t) s d0 m cs d os dr : t_nw t = 1 -> t_depth t <= 9 -> good pk L s ->
  few t s -> get_is t s m -> materialize t s = Ok d0 -> dense_calls (t_depth t) d0 cs = Ok (d, os, dr) ->
  dense_legal_from (t_depth t) m cs -> (t_exact t = true \/ t_depth t = 1 \/ cs = []) ->
  dense_inv (t_depth t) allp (fixd d) (spec_run (64 ^ N.of_nat (t_depth t)) m cs) /\
  os = spec_outs (64 ^ N.of_nat (t_depth t)) None m cs /\
  dr ≡ₚ spec_collect (64 ^ N.of_nat (t_depth t)) (spec_drop (64 ^ N.of_nat (t_depth t))) m cs /\
  (t_exact t = true \/ t_depth t = 1 -> dense_inv (t_depth t) allp d (spec_run (64 ^ N.of_nat (t_depth t)) m cs)) /\
  (t_exact t = true \/ t_depth t = 1 -> (forall k, k ∈ spec_all_panicked (64 ^ N.of_nat (t_depth t)) m cs -> pk k) ->
    dense_inv (t_depth t) (above 1 (t_depth t) pk) d (spec_run (64 ^ N.of_nat (t_depth t)) m cs)).
Proof.
  intros Hnw HD Hg Hfew Hm Hmat Hcalls (Ha & Hrm & Hsz) Hcase. pose proof (l_depth L) as HD0.
  assert (msize (t_nw t) ^ N.of_nat (t_depth t) <= 2 ^ 64)%N as Hsize.
  { rewrite Hnw. pose proof (KB_lt (t_depth t) HD0 HD). unfold KB in *. change (msize 1) with 64%N. unfold USIZE_MAX in *. lia. }
  assert (small_content t L s) as Hsm.
  { intros ks Hnd Hks. apply Hfew; [done|]. intros k Hk. destruct (Hks k Hk) as [v Hv]. exists v. by apply (good_get_Some pk L). }
  assert (forall m', (forall k, m' !! k = content L s k) -> m' = m) as Hmm.
  { intros m' Hm'. apply map_eq. intros k. apply option_eq. intros v. rewrite Hm', (Hm k v). symmetry. by apply (good_get_Some pk L). }
  pose proof (vg_wf pk L s Hg) as Hwf.
  assert (t_exact t = true \/ t_depth t = 1 -> dense_inv (t_depth t) (above 1 (t_depth t) pk) d0 m) as Hgood.
  { intros [Hex|H1].
    - destruct (materialize_exact_ok t L s Hwf Hnw HD Hsm Hex) as (d' & m' & E & Hm' & Hi & Hi2).
      rewrite Hmat in E. injection E as <-. rewrite (Hmm _ Hm') in *. by apply Hi2, Hg.
    - destruct (materialize_depth1_ok t L s Hwf Hnw HD Hsm H1) as (d' & m' & E & Hm' & Hi).
      rewrite Hmat in E. injection E as <-. rewrite (Hmm _ Hm') in *. eapply dense_inv_mono; [|exact Hi]. by intros p []. }
  destruct (decide (t_exact t = true \/ t_depth t = 1)) as [Hc|Hc].
  - pose proof (Hgood Hc) as Hi.
    destruct (dense_calls_ok (t_depth t) HD0 HD _ d0 m cs Hi Ha Hrm Hsz) as (d' & dr' & ex' & E & Hdr & Hi' & Hex').
    rewrite Hcalls in E. injection E as <- -> <-. split; [|split; [done|split; [done|split; [intros _; by eapply dense_inv_false|]]]].
    + rewrite (fixd_inv _ _ _ _ Hi'). by eapply dense_inv_false.
    + intros _ Hp. eapply dense_inv_mono; [|exact Hi']. intros p [H|H]%Hex'; [done|]. eapply above_mono; [exact Hp|exact H].
  - destruct Hcase as [?|[?| ->]]; [naive_solver..|]. cbn in Hcalls. injection Hcalls as <- <- <-.
    destruct (materialize_sparse_ok t L s Hwf Hnw HD Hsm) as [(d' & m' & E & Hm' & Hi)|(E & _)].
    { apply not_true_is_false. naive_solver. }
    2:{ by rewrite Hmat in E. }
    rewrite Hmat in E. injection E as <-. rewrite (Hmm _ Hm') in *. cbn [spec_run spec_outs spec_collect]. naive_solver.
Qed.

Lemma reached_good pk {b t} (v : view b t) : forall s, reached pk v s -> good pk (vL v) s.
Proof.
  induction v as [V D H0 H1|V nw D first Hnw H0 H1|b t W f v IH|b t X A items init f v IH|b0 b1 t0 t1 Hn Hd v0 IH0 v1 IH1
    |t0 t1 Hn Hd v0 IH0 v1 IH1|b t v IH|t HD v IH|b t Hnw H0 H1 v IH|b t Hnw H0 H1 Hsz]; intros s; cbn [reached].
  - intros (cs & Hl & Hr & Hpk). destruct (dense_reached_inv D cs s H0 H1 Hl Hr) as (ex & Hi & Hex). split; cbn [vL view_lawful proj1_sig].
    + exists (spec_run (64 ^ N.of_nat D) ∅ cs). by eapply dense_inv_false.
    + rewrite (content_dense D H0 H1 allp ex _ _ _ Hi). destruct (_ !! _) as [v|] eqn:Hm; [|done].
      apply spec_run_bound in Hm; [|done]. pose proof (KB_lt D H0 H1). unfold KB in *. lia.
    + intros _. eapply dense_hierarchy_exact, dense_inv_mono; [|exact Hi]. intros p Hp%Hex. eapply above_mono; [exact Hpk|exact Hp].
  - intros (req & dflt & cs & -> & Hl & Hr & Hpk). pose proof (sparse_reached_inv nw D req dflt cs s Hnw H0 (le9 H1) Hl Hr) as Hi.
    split; cbn [vL view_lawful proj1_sig].
    + eexists _, _. exact Hi.
    + rewrite (content_sparse _ _ _ _ _ _ _ _ _ _ Hi). destruct (_ !! _) as [v|] eqn:Hm; [|done].
      apply spec_run_bound in Hm; [|done]. unfold key_bound in Hm. lia.
    + intros _. eapply hierarchy_exact_mono; [|by eapply sparse_hierarchy_exact]. exact Hpk.
  - intros Hs. destruct (IH s Hs) as [Hw Hm He]. unfold vL in *. cbn [view_lawful]. destruct (view_lawful v) as [L HL]. cbn [proj1_sig] in *.
    split; [done|by rewrite content_map, Hm|]. intros Hx. by apply exact_map, He.
  - intros Hs. destruct (IH s Hs) as [Hw Hm He]. unfold vL in *. cbn [view_lawful]. destruct (view_lawful v) as [L HL]. cbn [proj1_sig] in *.
    split; [done|by rewrite content_mmf, Hm|]. intros Hx. apply (exact_map pk L). by apply He.
  - intros [Hs0 Hs1]. destruct (IH0 _ Hs0) as [Hw0 Hm0 He0]. destruct (IH1 _ Hs1) as [Hw1 Hm1 He1]. unfold vL in *. cbn [view_lawful].
    destruct (view_lawful v0) as [L0 HL0]. destruct (view_lawful v1) as [L1 HL1]. cbn [proj1_sig] in *.
    split; [done|by rewrite content_intersection, Hm0|done].
  - intros [Hs0 Hs1]. destruct (IH0 _ Hs0) as [Hw0 Hm0 He0]. destruct (IH1 _ Hs1) as [Hw1 Hm1 He1]. unfold vL in *. cbn [view_lawful].
    destruct (view_lawful v0) as [L0 HL0]. destruct (view_lawful v1) as [L1 HL1]. cbn [proj1_sig] in *.
    split; [by split|by rewrite content_union, Hm0, Hm1|]. cbn [t_union t_exact]. intros [Hx0 Hx1]%andb_true_iff.
    apply exact_union; auto.
  - intros (Hne & Hl & Hf). unfold vL in *. cbn [view_lawful]. destruct (view_lawful v) as [L HL]. cbn [proj1_sig] in *.
    split; [|rewrite content_mi by done|by cbn [t_multi_intersection t_exact]].
    + split; [done|]. split; [done|]. eapply Forall_impl; [exact Hf|]. intros x Hx. by destruct (IH x Hx).
    + destruct s as [|x s]; [done|]. apply Forall_cons in Hf as [Hx _]. destruct (IH x Hx) as [_ Hm _]. cbn. by rewrite Hm.
  - intros (Hl & Hf). unfold vL in *. cbn [view_lawful]. destruct (view_lawful v) as [L HL]. cbn [proj1_sig] in *.
    split; [|rewrite content_mu|].
    + split; [done|]. eapply Forall_impl; [exact Hf|]. intros x Hx. by destruct (IH x Hx).
    + assert (omap (fun a => content L a USIZE_MAX) s = []) as ->; [|done]. clear Hl. induction s as [|x s IHs]; [done|].
      apply Forall_cons in Hf as [Hx Hf]. destruct (IH x Hx) as [_ Hm _]. cbn. rewrite Hm. by apply IHs.
    + intros Hx. cbn [t_multi_union t_exact] in Hx. apply exact_mu. eapply Forall_impl; [exact Hf|]. intros x Hx'. by destruct (IH x Hx') as [_ _ He]; apply He.
  - intros (s0 & d0 & m & cs & os & dr & Hs & Hfew & Hm & Hmat & Hcalls & Hl & Hcase & Hsx & Hpk).
    destruct (mat_inv pk (vL v) s0 d0 m cs s os dr Hnw H1 (IH _ Hs) Hfew Hm Hmat Hcalls Hl Hcase) as (Hi & _ & _ & _ & Hex).
    cbn [vL view_lawful proj1_sig]. split.
    + by exists (spec_run (64 ^ N.of_nat (t_depth t)) m cs).
    + change (t_V t) with (t_V (dense_tree (t_V t) (t_depth t))). rewrite (content_mat _ H0 H1 _ _ _ _ Hi). destruct (_ !! _) as [x|] eqn:Hx; [|done].
      destruct Hi as (P & J & _ & Hv & _). apply (vec_bound _ _ _ _ _ Hv) in Hx. pose proof (KB_lt _ H0 H1). lia.
    + intros _. assert ((t_exact t = true \/ t_depth t = 1) \/ forall k, pk k) as [Hc|Hall] by tauto.
      * specialize (Hex Hc Hpk).
        pose proof (dense_hierarchy_exact (t_depth t) H0 H1 pk allp _ _ Hex) as H. intros p i. cbn [lawful_mat lawful_via l_tm l_sem].
        rewrite (fixd_inv _ _ _ _ Hex). apply H.
      * apply hierarchy_exact_any; [|done]. by exists (spec_run (64 ^ N.of_nat (t_depth t)) m cs).
  - intros (Hh & He & Hm). cbn [vL view_lawful proj1_sig]. split; [exact Hh| |exact He].
    unfold content. destruct (N.ltb_spec USIZE_MAX (msize (t_nw t) ^ N.of_nat (t_depth t))%N) as [Hlt|]; [|done].
    unfold l_at. destruct (level_indices_ok (t_nw t) (t_depth t) USIZE_MAX Hnw H0 Hlt) as [Hp Hk]. by apply (Hm _ Hp).
Qed.

Lemma view_get {b t} pk (v : view b t) s k : reached pk v s ->
  (view_key_ok t k -> tree_get t s k = Ok (content (vL v) s k)) /\ (~ view_key_ok t k -> tree_get t s k = Panic).
Proof. intros Hr. by apply (good_get pk), reached_good. Qed.
Lemma view_get_Some {b t} pk (v : view b t) s k x : reached pk v s ->
  tree_get t s k = Ok (Some x) <-> content (vL v) s k = Some x.
Proof. intros Hr. apply (good_get_Some pk); [by apply reached_good|apply (view_size v)]. Qed.
