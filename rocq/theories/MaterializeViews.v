(** * `materialize` of an arbitrary view *)
From Verif Require Import Base BitUtils BitUtilsProofs BitQueue LevelIndices LevelIndicesProofs
  ConstLoops Hierarchy Lawful IterProofs Ops OpsProofs MultiProofs
  Dense DenseProofs DenseRemove DenseTree DenseDrop Sparse SparseVec SparseProofs SparseOps SparseTree
  Spec SpecLaws Client DenseHistory DenseLaws SparseHistory TreeClient Generic Materialize MaterializeProofs MaterializeLaws Compose ViewLaws.

Lemma view_depth {b t} (v : view b t) : 1 <= t_depth t <= 9.
Proof. induction v; cbn [dense_tree sparse_tree t_map t_multi_map_fold t_intersection t_union t_multi_intersection t_multi_union t_depth] in *; lia. Qed.

Section mat.
Context {b : bool} {t : tree} (v : view b t) (pk : N -> Prop) (s : t_T t).
Hypothesis Hr : reached pk v s.
Hypothesis Hnw : t_nw t = 1.
Hypothesis Hfew : few t s.
Notation D := (t_depth t).
Notation B := (64 ^ N.of_nat (t_depth t))%N.
Notation T := (dense_tree (t_V t) (t_depth t)).

Lemma view_size1 : (msize (t_nw t) ^ N.of_nat (t_depth t) <= 2 ^ 64)%N.
Proof. exact (view_size v). Qed.
Lemma view_small : small_content t (vL v) s.
Proof.
  intros ks Hnd Hks. apply Hfew; [done|]. intros k Hk. destruct (Hks k Hk) as [x Hx]. exists x. by apply (view_get_Some pk v).
Qed.
Lemma content_get_is m : (forall k, m !! k = content (vL v) s k) -> get_is t s m.
Proof. intros Hm k x. rewrite Hm. symmetry. by apply (view_get_Some pk v). Qed.
Lemma get_is_unique m m' : get_is t s m -> get_is t s m' -> m = m'.
Proof. intros H1 H2. apply map_eq. intros k. apply option_eq. intros x. by rewrite (H1 k x), (H2 k x). Qed.
Lemma view_key_B k : view_key_ok t k <-> (k < B)%N.
Proof.
  destruct (view_depth v) as [H0 H9]. unfold view_key_ok. rewrite Hnw. change (msize 1) with 64%N. pose proof (KB_lt D H0 H9). unfold KB in *. lia.
Qed.
(** a dense tree that represents [m] is read like [s] *)
Lemma mat_get d m k : dense_inv D allp (fixd d) m -> get_is t s m -> tree_get T d k = tree_get t s k.
Proof.
  intros Hi Hm. destruct (view_depth v) as [H0 H9]. set (L := lawful_mat D H0 H9 (V := t_V t)).
  assert (good any_key L d) as Hg.
  { split; [by exists m| |intros _; apply hierarchy_exact_any; [by exists m|done]]. unfold L. rewrite (content_mat D H0 H9 allp d m USIZE_MAX Hi).
    destruct (m !! USIZE_MAX) as [x|] eqn:Hx; [|done]. destruct Hi as (P & J & _ & Hv & _).
    apply (vec_bound _ _ _ _ _ Hv) in Hx. pose proof (KB_lt _ H0 H9). lia. }
  destruct (good_get any_key L d k Hg) as [H1 H2]. destruct (view_get pk v s k Hr) as [H3 H4].
  assert (view_key_ok T k <-> view_key_ok t k) as Hk by (unfold view_key_ok; rewrite Hnw; done).
  destruct (decide (view_key_ok t k)) as [Hy|Hn].
  - rewrite H1, H3 by naive_solver. f_equal. unfold L. rewrite (content_mat D H0 H9 allp d m k Hi).
    apply option_eq. intros x. rewrite (Hm k x). by apply (view_get_Some pk v).
  - rewrite H2, H4 by naive_solver. done.
Qed.
Lemma mat_iter_inv d m : dense_inv D allp (fixd d) m -> iter_agrees T d.
Proof.
  intros Hi. destruct (view_depth v) as [H0 H9]. set (L := lawful_mat D H0 H9 (V := t_V t)).
  assert (good any_key L d) as Hg.
  { split; [by exists m| |intros _; apply hierarchy_exact_any; [by exists m|done]]. unfold L. rewrite (content_mat D H0 H9 allp d m USIZE_MAX Hi).
    destruct (m !! USIZE_MAX) as [x|] eqn:Hx; [|done]. destruct Hi as (P & J & _ & Hv & _).
    apply (vec_bound _ _ _ _ _ Hv) in Hx. pose proof (KB_lt _ H0 H9). lia. }
  destruct (iter_content L d (vg_wf _ _ _ Hg)) as (n & l & Hl & Hs & He). exists n, l. split; [done|]. split; [done|].
  intros k x. rewrite He. symmetry. apply (good_get_Some any_key L d k x Hg).
  pose proof (KB_lt D H0 H9). cbn [dense_tree t_nw t_depth]. change (msize 1) with 64%N. unfold KB, USIZE_MAX in *. lia.
Qed.
Lemma mat_iter d m : dense_inv D allp (fixd d) m -> get_is t s m ->
  exists n l, forall fuel, n <= fuel -> iter_collect fuel t s = Ok l /\ iter_collect fuel T d = Ok l.
Proof.
  intros Hi Hm. destruct (mat_iter_inv d m Hi) as (n1 & l1 & H1 & S1 & E1). destruct (view_iter v pk s Hr) as (n2 & l2 & H2 & S2 & E2).
  assert (l1 = l2) as ->.
  { eapply (enumerates_unique l1 l2 (fun k => m !! k) (fun k => m !! k)); [| |done].
    - split; [done|]. intros k x. by rewrite E1, (mat_get d m k Hi Hm), (Hm k x).
    - split; [done|]. intros k x. by rewrite E2, (Hm k x). }
  exists (n1 + n2), l2. intros fuel Hf. rewrite H1, H2 by lia. done.
Qed.
Lemma mat_kv d m : dense_inv D allp (fixd d) m -> get_is t s m ->
  exists ks vs, dense_key_values d = Ok (ks, vs) /\ length ks = length vs /\ NoDup ks /\
    forall k x, (k, x) ∈ zip ks vs <-> tree_get t s k = Ok (Some x).
Proof.
  intros Hi Hm. destruct (view_depth v) as [H0 H9].
  destruct (dense_key_values_ok D H0 H9 allp (fixd d) m Hi) as (ks & vs & E & El & Hp). exists ks, vs.
  split; [done|]. split; [done|]. split.
  - rewrite <- (fst_zip ks vs) by lia. rewrite Hp. apply NoDup_fst_map_to_list.
  - intros k x. rewrite Hp, <- (Hm k x). apply elem_of_map_to_list.
Qed.
(** dropping the copy frees all its nodes and drops each element once *)
Lemma mat_drop (d : dense (t_V t)) (m : gmap N (t_V t)) : dense_inv D allp (fixd d) m -> exists h dr, dense_drop D d = Ok (h, dr) /\ h_nodes h = ∅ /\ dr ≡ₚ vals m.
Proof.
  intros Hi. destruct (view_depth v) as [H0 H9].
  destruct (dense_drop_ok D H0 H9 allp (fixd d) m Hi) as (h & dr & E & Hh & Hd). rewrite drop_fix in E. unfold rmap in E.
  destruct (dense_drop D d) as [[h' dr']| | |]; try done. cbn [rbind] in E. injection E as <- <-. exists h', dr'. split; [done|].
  split; [|done]. unfold fixh in Hh. cbn [h_nodes] in Hh. by apply fmap_empty_iff in Hh.
Qed.
(** the answers to further calls, and the life of the copy *)
Lemma mat_calls (d : dense (t_V t)) ex (m : gmap N (t_V t)) cs : dense_inv D ex d m -> dense_legal_from D m cs ->
  exists d' dr h dr2, dense_calls D d cs = Ok (d', spec_outs B None m cs, dr) /\
    (forall k, tree_get T d' k = if (k <? B)%N then Ok (spec_run B m cs !! k) else Panic) /\
    dense_drop D d' = Ok (h, dr2) /\ h_nodes h = ∅ /\
    spec_collect B (spec_in B) m cs ++ vals m ≡ₚ removed_values cs (spec_outs B None m cs) ++ dr ++ dr2.
Proof.
  intros Hi (Ha & Hrm & Hsz). destruct (view_depth v) as [H0 H9].
  destruct (dense_calls_ok D H0 H9 ex d m cs Hi Ha Hrm Hsz) as (d' & dr & ex' & E & Hdr & Hi' & _).
  destruct (dense_drop_ok D H0 H9 ex' d' _ Hi') as (h & dr2 & E2 & Hh & Hd2).
  exists d', dr, h, dr2. split; [done|]. split; [|split; [done|split; [done|]]].
  - intros k. by apply (dense_get_ok D H0 H9 ex').
  - rewrite removed_values_spec, spec_balance_run, Hdr, Hd2. done.
Qed.
Lemma mat_exact : t_exact t = true \/ D = 1 -> exists d m, materialize t s = Ok d /\ get_is t s m /\ dense_inv D (above 1 D pk) d m.
Proof.
  intros Hc. pose proof (reached_good pk v s Hr) as Hg. destruct (view_depth v) as [H0 H9]. destruct Hc as [Hex|H1].
  - destruct (materialize_exact_ok t (vL v) s (vg_wf _ _ _ Hg) Hnw H9 view_small Hex) as (d & m & E & Hm & Hi & Hi2).
    exists d, m. split; [done|]. split; [by apply content_get_is|]. by apply Hi2, Hg.
  - destruct (materialize_depth1_ok t (vL v) s (vg_wf _ _ _ Hg) Hnw H9 view_small H1) as (d & m & E & Hm & Hi).
    exists d, m. split; [done|]. split; [by apply content_get_is|]. eapply dense_inv_mono; [|exact Hi]. by intros p [].
Qed.
Lemma mat_sparse : t_exact t = false ->
  (exists d m, materialize t s = Ok d /\ get_is t s m /\ dense_inv D allp (fixd d) m) \/
  (materialize t s = UB /\ 2 <= D /\ forall k x, tree_get t s k <> Ok (Some x)).
Proof.
  intros Hex. pose proof (reached_good pk v s Hr) as Hg. destruct (view_depth v) as [H0 H9].
  destruct (materialize_sparse_ok t (vL v) s (vg_wf _ _ _ Hg) Hnw H9 view_small Hex) as [(d & m & E & Hm & Hi)|(E & HD & Hc)].
  - left. exists d, m. split; [done|]. split; [by apply content_get_is|done].
  - right. split; [done|]. split; [done|]. intros k x Hx%(view_get_Some pk v); [|done]. by rewrite Hc in Hx.
Qed.
(** the materialized tree is a value of the view [VMat] *)
Lemma mat_reached d m cs d' os dr (H1 : 1 <= D) (H9 : D <= 9) : t_exact t = true -> materialize t s = Ok d -> get_is t s m ->
  dense_legal_from D m cs -> dense_calls D d cs = Ok (d', os, dr) -> (forall k, k ∈ spec_all_panicked B m cs -> pk k) ->
  reached pk (VMat b t Hnw H1 H9 v) d'.
Proof. intros Hex Hmat Hm Hl Hc Hp. exists s, d, m, cs, os, dr. naive_solver. Qed.
End mat.

(** ** up to depth 5 there are fewer than 2^32 keys *)
Section small.
Context {b : bool} {t : tree} (v : view b t) (pk : N -> Prop) (s : t_T t).
Hypothesis Hr : reached pk v s.
Hypothesis Hnw : t_nw t = 1.
Hypothesis H5 : t_depth t <= 5.
Lemma pow_small : (64 ^ N.of_nat (t_depth t) < 2 ^ 32)%N.
Proof. apply N.le_lt_trans with (64 ^ 5)%N; [apply N.pow_le_mono_r; lia|done]. Qed.
Lemma few_small : few t s.
Proof.
  intros ks Hn Hk. eapply N.le_lt_trans; [|exact pow_small].
  set (m := list_to_map (M := gmap N unit) ((fun k => (k, tt)) <$> ks)).
  assert (forall k u, m !! k = Some u -> k ∈ ks) as Hm.
  { intros k u Hl%elem_of_list_to_map_2. apply elem_of_list_fmap in Hl as (? & [= -> _] & H). done. }
  assert (size m = length ks) as <-.
  { unfold m. rewrite <- size_dom, dom_list_to_map_L. replace (((fun k => (k, tt)) <$> ks).*1) with ks.
    - by apply (size_list_to_set (C := gset N)).
    - rewrite <- list_fmap_compose. rewrite <- (list_fmap_id ks) at 1. done. }
  apply bounded_size. intros k u Hl%Hm. destruct (Hk k Hl) as [x Hx].
  destruct (view_get pk v s k Hr) as [_ Hp]. destruct (decide (view_key_ok t k)) as [Hy|Hno].
  - apply (view_key_B v Hnw) in Hy. done.
  - by rewrite Hp in Hx.
Qed.
Lemma legal_from_small m cs : get_is t s m -> Forall dense_api cs -> (Exists is_remove cs -> 2 <= t_depth t) ->
  dense_legal_from (t_depth t) m cs.
Proof.
  intros Hm Ha Hrm. split; [done|]. split; [done|].
  eapply spec_always_weaken; [|apply spec_always_keys].
  - intros m' Hb. cbv beta in Hb. apply bounded_size in Hb. unfold small32. pose proof pow_small. lia.
  - intros k x Hx%Hm. destruct (view_get pk v s k Hr) as [_ Hp]. destruct (decide (view_key_ok t k)) as [Hy|Hno].
    + by apply (view_key_B v Hnw) in Hy.
    + by rewrite Hp in Hx.
Qed.
End small.
