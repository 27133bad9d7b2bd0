(** * Materialized trees: what `DenseTree::from_sparse_hierarchy` returns *)
From Verif Require Import Base BitUtils BitUtilsProofs BitQueue LevelIndices LevelIndicesProofs
  ConstLoops Hierarchy Lawful IterProofs Dense DenseNode DenseShape DenseProofs DenseRemove DenseTree DenseDrop
  Materialize MaterializeProofs Spec TreeClient Generic.

(** ** Correcting the `len` fields of a heap *)
Definition fixlen (n : node) : node := Node (n_kind n) (n_mask n) (n_cap n) (S (popcount (n_mask n))) (n_slots n).
Definition fixh (fx : node -> node) (h : heap) : heap := Heap (fx <$> h_nodes h) (h_next h).
Definition fixd {V} (t : dense V) : dense V := Dense (d_root t) (fixh fixlen (d_heap t)) (d_data t) (d_keys t).

Lemma fixh_id h : fixh (fun n => n) h = h.
Proof. unfold fixh. destruct h as [hn hx]. cbn [h_nodes h_next]. f_equal. apply map_fmap_id. Qed.
Lemma fixlen_rep n g e : node_rep n g e -> fixlen n = n.
Proof. intros Hr. unfold fixlen. rewrite <- (nr_len _ _ _ Hr). by destruct n. Qed.
Lemma fixd_inv {V} D ex (t : dense V) m : dense_inv D ex t m -> fixd t = t.
Proof.
  intros (P & J & Sh & _). unfold fixd, fixh. destruct t as [r h da ke]. cbn [d_root d_heap d_data d_keys] in *. f_equal.
  destruct h as [hn hx]. cbn [h_nodes h_next] in *. f_equal. apply map_eq. intros a. rewrite lookup_fmap.
  destruct (hn !! a) as [n|] eqn:E; [|done]. cbn. f_equal.
  destruct (sh_dom _ _ _ _ _ _ Sh a) as [p Hp]; [cbn [h_nodes]; by rewrite E|].
  destruct (sh_node _ _ _ _ _ _ Sh _ _ Hp) as (n' & Hn' & _ & Hr). cbn [h_nodes] in Hn'. rewrite E in Hn'. injection Hn' as <-.
  by eapply fixlen_rep.
Qed.

(** Reading does not look at `len` *)
Section fixed.
Context (h : heap).
Notation h' := (fixh fixlen h).
Lemma hread_fix p : hread h' p = match hread h p with Ok n => Ok (match p with PHeap _ => fixlen n | _ => n end) | Panic => Panic | UB => UB | OutOfFuel => OutOfFuel end.
Proof. destruct p as [k|a]; unfold fixh; cbn [hread h_nodes]; [by destruct (static_node k)|rewrite lookup_fmap; by destruct (h_nodes h !! a)]. Qed.
Lemma contains_fix p i : node_contains h' p i = node_contains h p i.
Proof. unfold node_contains. rewrite hread_fix. destruct (hread h p) as [n| | |]; try done. by destruct p. Qed.
Lemma mask_fix p : node_mask h' p = node_mask h p.
Proof. unfold node_mask. rewrite hread_fix. destruct (hread h p) as [n| | |]; try done. by destruct p. Qed.
Lemma get_child_fix k p i : get_child k h' p i = get_child k h p i.
Proof. unfold get_child. rewrite hread_fix. destruct (hread h p) as [n| | |]; try done. by destruct p. Qed.
Lemma child_ptr_fix p i : child_ptr h' p i = child_ptr h p i.
Proof. unfold child_ptr. by rewrite get_child_fix. Qed.
Lemma child_idx_fix p i : child_idx h' p i = child_idx h p i.
Proof. unfold child_idx. by rewrite get_child_fix. Qed.
Lemma terminal_loop_fix k n indices p : get_terminal_loop h' k n indices p = get_terminal_loop h k n indices p.
Proof.
  revert n p. induction k as [|k IH]; intros n p; cbn [get_terminal_loop]; [done|].
  destruct (get_u indices n) as [i| | |]; try done. rewrite !bind_ok, child_ptr_fix.
  destruct (child_ptr h p i) as [q| | |]; try done. by rewrite !bind_ok, IH.
Qed.
Lemma terminal_fix D root indices : get_terminal_node D root h' indices = get_terminal_node D root h indices.
Proof. unfold get_terminal_node. by rewrite terminal_loop_fix. Qed.
End fixed.

Section reads.
Context {V : Type} (D : nat) (t : dense V).
Lemma data_fix k q : dense_data D (fixd t) k q = dense_data D t k q.
Proof.
  unfold dense_data. cbn [fixd d_root d_heap d_data d_keys]. rewrite terminal_fix.
  destruct (get_terminal_node D (d_root t) (d_heap t) q) as [[node i]| | |]; try done. rewrite !bind_ok. by rewrite child_idx_fix.
Qed.
Lemma data_u_fix k q : dense_data_unchecked D (fixd t) k q = dense_data_unchecked D t k q.
Proof. unfold dense_data_unchecked. by rewrite data_fix. Qed.
Lemma select_fix c n i : dcur_select D (fixd t) c n i = dcur_select D t c n i.
Proof.
  unfold dcur_select. cbn [fixd d_root d_heap]. rewrite mask_fix. destruct (decide (n = 0)); [done|].
  change (dcur_prev (fixd t) c n) with (dcur_prev t c n). destruct (dcur_prev t c n) as [x| | |]; try done. rewrite !bind_ok.
  rewrite contains_fix. destruct (node_contains (d_heap t) x i) as [b| | |]; try done. rewrite !bind_ok, child_ptr_fix.
  destruct (child_ptr (d_heap t) x i) as [y| | |]; try done. rewrite !bind_ok.
  destruct (empty_node n D) as [e| | |]; try done. rewrite !bind_ok.
  destruct (set_u c (n - 1) _) as [c'| | |]; try done. rewrite !bind_ok. by rewrite mask_fix.
Qed.
Lemma select_u_fix c n i : dcur_select_u D (fixd t) c n i = dcur_select_u D t c n i.
Proof.
  unfold dcur_select_u. cbn [fixd d_root d_heap]. rewrite mask_fix. destruct (decide (n = 0)); [done|].
  change (dcur_prev (fixd t) c n) with (dcur_prev t c n). destruct (dcur_prev t c n) as [x| | |]; try done. rewrite !bind_ok.
  rewrite child_ptr_fix. destruct (child_ptr (d_heap t) x i) as [y| | |]; try done. rewrite !bind_ok.
  destruct (set_u c (n - 1) _) as [c'| | |]; try done. rewrite !bind_ok. by rewrite mask_fix.
Qed.
Lemma cdata_fix c i : dcur_data D (fixd t) c i = dcur_data D t c i.
Proof.
  unfold dcur_data. change (dcur_node D (fixd t) c) with (dcur_node D t c). destruct (dcur_node D t c) as [x| | |]; try done.
  rewrite !bind_ok. cbn [fixd d_heap d_data]. rewrite contains_fix. destruct (node_contains (d_heap t) x i) as [[]| | |]; try done.
  rewrite !bind_ok. by rewrite child_idx_fix.
Qed.
Lemma cdata_u_fix c i : dcur_data_u D (fixd t) c i = dcur_data_u D t c i.
Proof.
  unfold dcur_data_u. change (dcur_node D (fixd t) c) with (dcur_node D t c). destruct (dcur_node D t c) as [x| | |]; try done.
  rewrite !bind_ok. cbn [fixd d_heap d_data]. by rewrite child_idx_fix.
Qed.
End reads.


(** dropping does not look at `len` either *)
Definition rmap {A B} (f : A -> B) (r : res A) : res B := let* a := r in Ok (f a).
Lemma bits_for_each_map {S S'} (phi : S -> S') fuel q f g s : (forall s i, g (phi s) i = rmap phi (f s i)) ->
  bits_for_each fuel q g (phi s) = rmap phi (bits_for_each fuel q f s).
Proof.
  intros H. revert q s. induction fuel as [|fuel IH]; intros q s; cbn [bits_for_each]; [done|].
  destruct (bq_next q) as [[q' [i|]]| | |]; try done. rewrite !bind_ok, H.
  destruct (f s i) as [s'| | |]; try done. unfold rmap at 1. rewrite !bind_ok. apply IH.
Qed.
Lemma drop_node_fix k h p : drop_node k (fixh fixlen h) p = rmap (fixh fixlen) (drop_node k h p).
Proof.
  unfold drop_node. destruct p as [j|a]; cbn [hdealloc]; [done|]; unfold fixh; cbn [h_nodes h_next]. rewrite lookup_fmap.
  destruct (h_nodes h !! a) as [n|]; [|done]. cbn [fmap option_fmap option_map fixlen n_kind n_cap n_slots].
  destruct (decide _); [|done]. unfold rmap, fixh. cbn [rbind h_nodes h_next]. by rewrite fmap_delete.
Qed.
Lemma drop_childs_fix k : forall h p, drop_node_with_childs k (fixh fixlen h) p = rmap (fixh fixlen) (drop_node_with_childs k h p).
Proof.
  induction k as [|k IH]; intros h p; cbn [drop_node_with_childs]; [apply drop_node_fix|].
  rewrite mask_fix. destruct (node_mask h p) as [w| | |]; try done. rewrite !bind_ok.
  rewrite (bits_for_each_map (fixh fixlen) _ _ (fun h i => let* c := child_ptr h p i in drop_node_with_childs k h c)).
  2:{ intros h1 i. rewrite child_ptr_fix. destruct (child_ptr h1 p i) as [c| | |]; try done. rewrite !bind_ok. apply IH. }
  destruct (bits_for_each _ _ _ h) as [h1| | |]; try done. unfold rmap at 1. rewrite !bind_ok. apply drop_node_fix.
Qed.
Lemma drop_fix {V} D (t : dense V) : dense_drop D (fixd t) = rmap (fun '(h, dr) => (fixh fixlen h, dr)) (dense_drop D t).
Proof.
  unfold dense_drop. cbn [fixd d_root d_heap d_data]. destruct (from_1 (d_data t)) as [l| | |]; try done. rewrite !bind_ok.
  destruct (all_init l) as [vs| | |]; try done. rewrite !bind_ok, drop_childs_fix.
  by destruct (drop_node_with_childs (D - 1) (d_heap t) (d_root t)).
Qed.

(** ** Transport of lawfulness along a function that no reading operation can see *)
Definition lawful_via {t : tree} (L : lawful t) (f : t_T t -> t_T t)
  (E1 : forall s k q, t_data t (f s) k q = t_data t s k q)
  (E2 : forall s k q, t_data_u t (f s) k q = t_data_u t s k q)
  (E3 : forall s, t_new t (f s) = t_new t s)
  (E4 : forall s c n i, t_select t (f s) c n i = t_select t s c n i)
  (E5 : forall s c n i, t_select_u t (f s) c n i = t_select_u t s c n i)
  (E6 : forall s c i, t_cdata t (f s) c i = t_cdata t s c i)
  (E7 : forall s c i, t_cdata_u t (f s) c i = t_cdata_u t s c i) : lawful t.
Proof.
  refine (Lawful t (fun s => l_wf L (f s)) (fun s => l_sem L (f s)) (fun s => l_tm L (f s)) (l_cdok L)
    (fun s => l_Rv L (f s)) (fun s => l_Rk L (f s)) (fun s => l_Ru L (f s)) (l_nw L) (l_depth L)
    (fun s => l_complete L (f s)) (fun s => l_terminal L (f s)) (fun s => l_bound L (f s)) (fun s => l_parent L (f s))
    (fun s => l_Rk_Ru L (f s)) (fun s => l_Ru_Rv L (f s)) (fun s => l_Rk_take L (f s)) (fun s => l_Ru_take L (f s)) _ _ _ _ _ _ _ _ _).
  - intros s. rewrite <- E3. apply (l_new L).
  - intros s c. rewrite <- E4. apply (l_select0 L).
  - intros s c. rewrite <- E5. apply (l_select0_u L).
  - intros s c p i. rewrite <- E4. apply (l_selectS L).
  - intros s c p i. rewrite <- E5. apply (l_selectS_u L).
  - intros s q. rewrite <- E1. apply (l_data L).
  - intros s q v. rewrite <- E2. apply (l_data_u L).
  - intros s c p i. rewrite <- E6. apply (l_cdata L).
  - intros s c p i v. rewrite <- E7. apply (l_cdata_u L).
Defined.

Definition lawful_mat {V} (D : nat) (H0 : 1 <= D) (H1 : D <= 9) : lawful (dense_tree V D) :=
  lawful_via (lawful_dense D H0 H1 allp) fixd (fun s => data_fix D s) (fun s => data_u_fix D s) (fun _ => eq_refl)
    (fun s => select_fix D s) (fun s => select_u_fix D s) (fun s => cdata_fix D s) (fun s => cdata_u_fix D s).

Lemma lookup_S {A} (x : A) l i : (x :: l) !! S i = l !! i.
Proof. reflexivity. Qed.

(** ** From the built parts to the representation invariant *)
Section inv.
Context (t : tree) (L : lawful t) (src : t_T t) (Hwf : l_wf L src).
Hypothesis Hnw : t_nw t = 1.
Notation D := (t_depth t).
Hypothesis HD : D <= 9.
Context (fx : node -> node) (Hkind : forall n, n_kind (fx n) = n_kind n).
Local Notation tm := (l_tm L src).
Local Notation sem := (l_sem L src).
Local Notation ls := (leaves L src (t_depth t) []).

Lemma path_nw n p : path_ok (t_nw t) n p <-> path_ok 1 n p.
Proof. by rewrite Hnw. Qed.
Lemma ls_path q : q ∈ ls -> path_ok 1 D q.
Proof.
  intros Hq. apply (elem_of_leaves L src Hwf) in Hq as (r & -> & _ & Hok); [by apply path_nw|done|apply path_ok_nil].
Qed.
Lemma ls_iff q : path_ok 1 D q -> q ∈ ls <-> is_Some (sem q).
Proof.
  intros Hq. pose proof (l_depth L) as HD0. split.
  - intros Hin. by apply (leaves_sound L src Hwf D [] q).
  - intros Hs. apply (leaves_complete L src Hwf D [] q); [done|by apply path_nw|done].
Qed.
Lemma ls_nodup : NoDup ls.
Proof.
  eapply (NoDup_fmap_1 (key_of_path (t_nw t))), ssorted_nodup. by apply leaves_sorted.
Qed.

Lemma part_shape h a P J : heap_ok h -> part D tm fx h 0 (h_next h) (prefix []) ls 1 P J -> P !! [] = Some a ->
  shape D (fixh fx h) (PHeap a) P J None.
Proof.
  intros Hh Pt Ha. pose proof (l_depth L) as HD0. constructor.
  - eauto.
  - intros b. unfold fixh. cbn [h_nodes h_next]. rewrite lookup_fmap, fmap_is_Some. apply Hh.
  - intros p b Hp. destruct (pt_node _ _ _ _ _ _ _ _ _ _ _ Pt _ _ Hp) as (n & Hn & Hk & Hr).
    exists (fx n). unfold fixh. cbn [h_nodes]. rewrite lookup_fmap, Hn, Hkind. done.
  - intros p q b. apply (pt_inj _ _ _ _ _ _ _ _ _ _ _ Pt).
  - intros p b Hp. destruct (pt_path _ _ _ _ _ _ _ _ _ _ _ Pt _ _ Hp) as (_ & ? & ? & _). done.
  - intros p i b Hp. eapply (pt_parent _ _ _ _ _ _ _ _ _ _ _ Pt); [done|by exists p].
  - intros q j Hj. pose proof Hj as (x & Hx & _)%(pt_J _ _ _ _ _ _ _ _ _ _ _ Pt).
    assert (path_ok 1 D q) as Hq by by apply ls_path, (elem_of_list_lookup_2 _ _ _ Hx). split; [done|].
    destruct q as [|i p _] using rev_ind; [destruct Hq as [Hq _]; cbn in Hq; lia|]. exists p, i. split; [done|].
    eapply (pt_jpar _ _ _ _ _ _ _ _ _ _ _ Pt); [done|by exists p].
  - intros b. unfold fixh. cbn [h_nodes]. rewrite lookup_fmap, fmap_is_Some. intros Hs%Hh.
    apply (pt_dom _ _ _ _ _ _ _ _ _ _ _ Pt). lia.
Qed.

Lemma part_vec h P J m : part D tm fx h 0 (h_next h) (prefix []) ls 1 P J -> (N.of_nat (S (length ls)) <= 2 ^ 32)%N ->
  (forall k, m !! k = content L src k) ->
  vec_ok D J (USIZE_MAX :: (key_of_path 1 <$> ls)) (None :: (sem <$> ls)) m.
Proof.
  intros Pt Hlen Hm. pose proof (l_depth L) as HD0. constructor.
  - cbn [length]. by rewrite !fmap_length.
  - cbn [length]. by rewrite fmap_length.
  - done.
  - done.
  - intros [|j] k Hj Hk; [lia|]. rewrite lookup_S in Hk. apply list_lookup_fmap_inv in Hk as (q & -> & Hq).
    rewrite KB_msize. apply path_ok_bound; [by left|]. by apply ls_path, (elem_of_list_lookup_2 _ _ _ Hq).
  - intros q j. rewrite (pt_J _ _ _ _ _ _ _ _ _ _ _ Pt). split.
    + intros (x & Hx & ->). split; [by apply ls_path, (elem_of_list_lookup_2 _ _ _ Hx)|]. split; [lia|].
      rewrite Nat2N.id. change (1 + x) with (S x). by rewrite lookup_S, list_lookup_fmap, Hx.
    + intros (Hq & Hj & Hk). destruct (N.to_nat j) as [|x] eqn:Ej; [lia|]. rewrite lookup_S in Hk.
      apply list_lookup_fmap_inv in Hk as (q' & Hk & Hx). exists x. split; [|lia].
      rewrite Hx. f_equal. symmetry. apply (key_inj D); [lia|done| |done]. by apply ls_path, (elem_of_list_lookup_2 _ _ _ Hx).
  - intros [|j] Hj Hl; [lia|]. cbn [length] in Hl. rewrite fmap_length in Hl. rewrite lookup_S.
    destruct (lookup_lt_is_Some_2 ls j) as [q Hq]; [lia|]. pose proof (elem_of_list_lookup_2 _ _ _ Hq) as Hin.
    destruct (proj1 (ls_iff q (ls_path _ Hin)) Hin) as [v Hv]. exists v.
    change ((sem <$> ls) !! j = Some (Some v)). by rewrite list_lookup_fmap, Hq, <- Hv.
  - intros k v. rewrite Hm, content_Some. rewrite Hnw. unfold l_at. rewrite Hnw. split.
    + intros [Hk Hv]. destruct (level_indices_ok 1 D k) as [Hq E]; [by left|done|done|].
      assert (level_indices 1 D k ∈ ls) as Hin by (apply ls_iff; [done|by rewrite Hv]).
      apply elem_of_list_lookup in Hin as [x Hx]. exists (S x). split; [lia|]. rewrite !lookup_S.
      rewrite !list_lookup_fmap, Hx. cbn. by rewrite E, Hv.
    + intros ([|x] & Hj & Hk & Hd); [lia|]. rewrite lookup_S in Hk. rewrite lookup_S in Hd. apply list_lookup_fmap_inv in Hk as (q & -> & Hq).
      rewrite list_lookup_fmap, Hq in Hd. injection Hd as Hd.
      assert (path_ok 1 D q) as Hp by by apply ls_path, (elem_of_list_lookup_2 _ _ _ Hq).
      split; [by apply path_ok_bound; [left|]|]. rewrite level_indices_of_path; [done|by left|done..].
Qed.

Lemma part_exact bad h P J root : part D tm fx h 0 (h_next h) (prefix []) ls 1 P J -> shape D (fixh fx h) root P J None ->
  hierarchy_exact bad L src -> exact D (above 1 D bad) P J None.
Proof.
  intros Pt Sh Hex p Hne [a Ha]. pose proof (l_depth L) as HD0.
  destruct p as [|i q _] using rev_ind; [done|]. destruct (sh_path _ _ _ _ _ _ Sh _ _ Ha) as [Hp Hl].
  destruct (pt_parent _ _ _ _ _ _ _ _ _ _ _ Pt _ _ _ Ha) as [[b Hb] Htm]; [by exists q|].
  destruct (sh_path _ _ _ _ _ _ Sh _ _ Hb) as [Hq Hlq].
  destruct (Hex q i) as (r & Hr & [Hs|Hs]); [by apply path_nw|done|done| |]; apply path_nw in Hr.
  2:{ left. exists r. rewrite <- app_assoc. split; [done|]. by rewrite Hnw in Hs. }
  right.
  destruct r as [|i' r]. { destruct Hr as [Hr _]. rewrite app_length in *. cbn in *. lia. }
  exists i'. assert (is_Some (J !! (q ++ i :: i' :: r))) as [j Hj].
  { apply ls_iff in Hs; [|done]. apply elem_of_list_lookup in Hs as [x Hx]. exists (N.of_nat (1 + x)).
    apply (pt_J _ _ _ _ _ _ _ _ _ _ _ Pt). eauto. }
  replace (q ++ i :: i' :: r) with (((q ++ [i]) ++ [i']) ++ r) in Hj by (by rewrite <- !app_assoc).
  cbn. unfold childs0. destruct (decide (S (length (q ++ [i])) < D)) as [Hlt|Hge].
  - apply fmap_is_Some. destruct (J_node D HD0 HD _ _ _ _ _ _ _ Sh Hj) as [_ [c Hc]].
    eapply (sh_prefix _ _ _ _ _ _ _ (drop (length (q ++ [i]) + 1) (take (D - 1) (((q ++ [i]) ++ [i']) ++ r))) _ Sh).
    rewrite <- Hc. f_equal. rewrite <- (take_drop (length (q ++ [i]) + 1) (take (D - 1) _)) at 2. f_equal.
    rewrite take_take. rewrite take_app_alt; [done|]. rewrite (app_length _ [i']). cbn. lia.
  - apply fmap_is_Some. assert (r = []) as ->; [|rewrite app_nil_r in Hj; eauto].
    destruct Hr as [Hr _]. rewrite app_length in *. cbn in *. destruct r; [done|cbn in *; lia].
Qed.
End inv.

(** a tree of fewer than 2^32 elements *)
Definition small_content (t : tree) (L : lawful t) (src : t_T t) : Prop :=
  forall ks : list N, NoDup ks -> (forall k, k ∈ ks -> is_Some (content L src k)) -> (N.of_nat (length ks) < 2 ^ 32)%N.

Section main.
Context (t : tree) (L : lawful t) (src : t_T t) (Hwf : l_wf L src).
Hypothesis Hnw : t_nw t = 1.
Notation D := (t_depth t).
Hypothesis HD : D <= 9.
Hypothesis Hsmall : small_content t L src.
Local Notation ls := (leaves L src (t_depth t) []).

Lemma few_leaves : (N.of_nat (length ls) < 2 ^ 32)%N.
Proof.
  rewrite <- (fmap_length (key_of_path (t_nw t))). apply Hsmall.
  - apply ssorted_nodup. by apply leaves_sorted.
  - intros k (q & -> & Hq)%elem_of_list_fmap. pose proof (ls_path t L src Hwf Hnw q Hq) as Hp.
    rewrite content_path by by rewrite Hnw. by apply (ls_iff t L src Hwf Hnw).
Qed.
Lemma content_map_exists : exists m : gmap N (t_V t), forall k, m !! k = content L src k.
Proof.
  destruct (iter_content L src Hwf) as (n & l & _ & Hs & Hl). exists (list_to_map l). intros k.
  apply option_eq. intros v. rewrite <- elem_of_list_to_map by by apply ssorted_nodup. apply Hl.
Qed.
Definition start (c : t_C t) : mst t := Mst c heap_empty [None] [USIZE_MAX].
Lemma start_heap c : heap_ok (m_heap (start c)).
Proof. intros a. cbn. rewrite lookup_empty. by intros [? ?]. Qed.
Lemma start_fits c : fits t (start c) ls.
Proof. unfold fits. cbn [start m_data length]. pose proof few_leaves. lia. Qed.

(** turning a finished build into a tree *)
Lemma built_dense fx c s' a m : (forall n, n_kind (fx n) = n_kind n) -> built t L src fx (start c) [] D s' (Some (PHeap a)) ->
  (forall k, m !! k = content L src k) -> forall bad, hierarchy_exact bad L src ->
  dense_inv D (above 1 D bad) (Dense (PHeap a) (fixh fx (m_heap s')) (m_data s') (m_keys s')) m.
Proof.
  intros Hk (_ & [G1 G2 G3 G4 G5] & P & J & Pt & Ho) Hm bad Hex. destruct (P !! []) as [b|] eqn:Eb; [|done].
  injection Ho as <-. cbn [start m_heap m_data m_keys heap_empty h_next length app] in *.
  pose proof (part_shape t L src Hwf Hnw HD fx Hk _ _ _ _ G1 Pt Eb) as Sh. exists P, J. cbn [d_heap d_root d_data d_keys].
  split; [done|]. split.
  - rewrite G4, G5. eapply (part_vec t L src Hwf Hnw HD); [exact Pt| |done]. pose proof few_leaves. lia.
  - eapply (part_exact t L src Hwf Hnw HD); [exact Pt|exact Sh|done].
Qed.
Lemma sel_root c : l_Rv L src c -> exists c' m, t_select_u t src (m_cur (start c)) 0 0 = Ok (c', m) /\
  mask_is (t_nw t) m (l_tm L src []) /\ l_Ru L src c' [].
Proof. by apply (l_select0_u L). Qed.

(** `EXACT_HIERARCHY` source *)
Lemma materialize_exact_ok : t_exact t = true -> exists d m, materialize t src = Ok d /\
  (forall k, m !! k = content L src k) /\ dense_inv D allp d m /\ forall bad, hierarchy_exact bad L src -> dense_inv D (above 1 D bad) d m.
Proof.
  intros Hex. pose proof (l_depth L) as HD0. destruct content_map_exists as [m Hm].
  destruct (l_new L src Hwf) as (c & Hn & Hv). unfold materialize. rewrite Hn, bind_ok. fold (start c).
  destruct (from_exact_ok t L src Hwf Hnw HD (fun n => n) ltac:(done) (D - 1) Hex 0 [] 0 0 (start c)) as (s' & a & E & Hb).
  { done. } { lia. } { apply path_ok_nil. } { by apply sel_root. } { done. } { apply start_heap. }
  { replace (S (D - 1)) with D by lia. apply start_fits. }
  replace (S (D - 1)) with D in Hb by lia.
  rewrite Hex, E, bind_ok. eexists _, m. split; [reflexivity|]. split; [done|].
  pose proof (built_dense (fun n => n) c s' a m (fun _ => eq_refl) Hb Hm) as H. rewrite fixh_id in H.
  split; [|done]. eapply dense_inv_mono; [|apply (H (fun _ => True)), hierarchy_exact_any; done]. done.
Qed.

(** depth 1: there is nothing but the terminal node, so the two versions coincide *)
Lemma materialize_depth1_ok : D = 1 -> exists d m, materialize t src = Ok d /\
  (forall k, m !! k = content L src k) /\ dense_inv D nonep d m.
Proof.
  intros H1. destruct content_map_exists as [m Hm].
  destruct (l_new L src Hwf) as (c & Hn & Hv). unfold materialize. rewrite Hn, bind_ok. fold (start c).
  assert (hierarchy_exact (fun _ => False) L src) as Hx.
  { intros p i Hp Hl Htm. destruct p; [|cbn in Hl; lia]. exists []. cbn.
    pose proof (l_terminal L src [] i Hwf) as Ht. rewrite H1 in Ht. specialize (Ht (path_ok_nil _) Htm). split; [|by left].
    rewrite H1. apply (path_ok_snoc _ 0 []); [apply path_ok_nil|]. eapply (l_bound L src []); [done|apply path_ok_nil|cbn; lia|done]. }
  destruct (sel_root c Hv) as (c' & mk & Hs & Hmk & HRu).
  destruct (terminal_ok t L src Hwf Hnw HD (fun n => n) ltac:(done) (with_cur (start c) c') mk [] (mask_count_ones mk + 1)) as (s2 & a2 & E2 & Hb2).
  { apply path_ok_nil. } { cbn; lia. } { done. } { done. } { done. } { apply start_heap. }
  { pose proof (start_fits c') as Hf. rewrite H1 in Hf. exact Hf. }
  assert ((if t_exact t then from_exact t src (D - 1) 0 0 0 (start c)
    else let* (s, o) := from_sparse t src (D - 1) 0 0 0 (start c) in let* p := unwrap_unc o in Ok (s, p)) = Ok (s2, PHeap a2)) as E.
  { rewrite H1. change (1 - 1) with 0. destruct (t_exact t) eqn:Hex; cbn [from_exact from_sparse]; rewrite ?Hex, Hs, bind_ok.
    - exact E2.
    - change (key_of_path 1 [] * 64)%N with 0%N in E2. rewrite E2, bind_ok, bind_ok. cbn [unwrap_unc]. by rewrite bind_ok. }
  rewrite E, bind_ok. eexists _, m. split; [reflexivity|]. split; [done|].
  rewrite <- H1 in Hb2.
  pose proof (built_dense (fun n => n) c' s2 a2 m ltac:(done) Hb2 Hm (fun _ => False) Hx) as H. rewrite fixh_id in H.
  eapply dense_inv_mono; [|exact H]. by intros p (q & _ & []).
Qed.

Lemma fixlen_ok n : n_len n = S (popcount (n_mask n)) -> fixlen n = n.
Proof. unfold fixlen. intros <-. by destruct n. Qed.
Lemma fixlen_parts k w cs e : fixlen (Node k w (length cs + 1) (length cs) (cs ++ [e])) =
  Node k w (length cs + 1) (S (popcount w)) (cs ++ [e]).
Proof. done. Qed.
(** other sources *)
Lemma materialize_sparse_ok : t_exact t = false ->
  (exists d m, materialize t src = Ok d /\ (forall k, m !! k = content L src k) /\ dense_inv D allp (fixd d) m) \/
  (materialize t src = UB /\ 2 <= D /\ forall k, content L src k = None).
Proof.
  intros Hex. pose proof (l_depth L) as HD0. destruct content_map_exists as [m Hm].
  destruct (decide (D = 1)) as [H1|H2].
  { left. destruct (materialize_depth1_ok H1) as (d & m' & E & Hm' & Hi). exists d, m'. split; [done|]. split; [done|].
    rewrite (fixd_inv _ _ _ _ Hi). eapply dense_inv_mono; [|exact Hi]. done. }
  destruct (l_new L src Hwf) as (c & Hn & Hv). unfold materialize. rewrite Hn, bind_ok. fold (start c).
  destruct (from_sparse_ok t L src Hwf Hnw HD fixlen fixlen_ok fixlen_parts (D - 1) 0 [] 0 0 (start c)) as (s' & o & E & Hb).
  { done. } { lia. } { apply path_ok_nil. } { by apply sel_root. } { done. } { apply start_heap. }
  { replace (S (D - 1)) with D by lia. apply start_fits. }
  replace (S (D - 1)) with D in Hb by lia. rewrite Hex, E, bind_ok.
  assert (o = None \/ exists a, o = Some (PHeap a)) as [->|[a ->]].
  { destruct Hb as (_ & _ & P & J & _ & ->). destruct (P !! []) as [a|]; [right; by exists a|by left]. }
  - right. split; [done|]. split; [lia|]. intros k. destruct (content L src k) as [v|] eqn:Hk; [exfalso|done].
    apply content_Some in Hk as [Hk Ha]. rewrite Hnw in Hk. unfold l_at in Ha. rewrite Hnw in Ha.
    destruct (level_indices_ok 1 D k) as [Hq _]; [by left|done|done|]. set (q := level_indices 1 D k) in *.
    destruct Hb as (_ & [G1 _ _ _ _] & P & J & Pt & Ho).
    assert (exists j, J !! q = Some j) as [j Hj].
    { assert (q ∈ ls) as Hin by (apply (ls_iff t L src Hwf Hnw); [done|by rewrite Ha]).
      apply elem_of_list_lookup in Hin as [x Hx]. eexists. apply (pt_J _ _ _ _ _ _ _ _ _ _ _ Pt). eauto. }
    clear -Hj Pt Hq HD0 Ho. assert (forall p b, P !! p = Some b -> is_Some (P !! [])) as Hroot.
    { induction p as [|i p IH] using rev_ind; [eauto|]. intros b Hb.
      destruct (pt_parent _ _ _ _ _ _ _ _ _ _ _ Pt _ _ _ Hb) as [[b' Hb'] _]; [by exists p|]. eauto. }
    destruct q as [|i p _] using rev_ind; [destruct Hq as [Hq _]; cbn in Hq; lia|].
    destruct (pt_jpar _ _ _ _ _ _ _ _ _ _ _ Pt _ _ _ Hj) as [b Hb]; [by exists p|].
    destruct (Hroot _ _ Hb) as [a Ha]. by rewrite Ha in Ho.
  - left. cbn [unwrap_unc]. rewrite bind_ok, bind_ok. eexists _, m. split; [reflexivity|]. split; [done|].
    eapply dense_inv_mono; [|eapply (built_dense fixlen c _ _ _ ltac:(done) Hb Hm (fun _ => True)), hierarchy_exact_any; done]. done.
Qed.
End main.
