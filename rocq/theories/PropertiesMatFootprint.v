(** * C61: the memory that a copy reads of its source (src/dense_tree/from.rs)
    [expression t], [e_memory], [containers], [within]: as in PropertiesIterFootprint.v.  [few]: fewer than 2^32
    elements (TreeClient.v). *)
From Verif Require Import Base BitUtils LevelIndices Hierarchy Ops Dense Sparse DenseMemory Spec SpecLaws Client TreeClient DenseHistory DenseLaws SparseHistory SparseLaws
  DenseProofs Lawful Generic Compose ViewLaws IterCost CostLaws AllViews Materialize MaterializeLaws MaterializeViews Examples PanicSafety Findings
  Footprint DenseFootprint SparseFootprint ViewFootprint CursorFootprint MatFootprint MatFootprintSparse PropertiesIterFootprint.

(** `materialize` of a nesting that declares EXACT_HIERARCHY looks at 2 cells per container for each node and each value
    of the copy: no more than an iteration does - at most 2(1 + depth * leaves) per container, however much memory the
    containers have (nesting reached by calls none of which a value's constructor made panic) *)
Theorem C61_materialize {t} (e : expression t) (x : xview t) s : xreached (fun _ => False) x s -> t_nw t = 1 -> few t s -> t_exact t = true ->
  exists n l d, (forall fuel, n <= fuel -> iter_collect fuel t s = Ok l) /\ materialize t s = Ok d /\
  within (e_memory e) ((size (h_nodes (d_heap d)) + (length (d_data d) - 1)) * (containers e s * 2)) (materialize t) s d /\
  within (e_memory e) ((1 + t_depth t * length l) * (containers e s * 2)) (materialize t) s d.
Proof.
  intros Hr Hnw Hf Hx. pose proof (sview_reached _ x s Hr) as Hs. pose proof (shown_few x _ s Hr Hf) as Hf'.
  destruct (mat_exact (sview x) _ s Hs Hnw Hf' (or_introl Hx)) as (d & m & E & Hm & Hi).
  destruct (xiter x _ s Hr) as (n & l & Hl & Hsort & Hel). destruct (view_depth (sview x)) as [H0 H9].
  pose proof (expr_materialize e s d Hx E) as W. exists n, l, d. split; [exact Hl|]. split; [exact E|]. split; [exact W|].
  eapply within_le; [|exact W]. apply Nat.mul_le_mono_r.
  assert (size m = length l) as Hsz.
  { rewrite <- (Permutation_length (l := map_to_list m) (l' := l)); [done|]. apply NoDup_Permutation.
    - apply NoDup_map_to_list.
    - apply (NoDup_fmap_1 fst). by apply ssorted_nodup.
    - intros [k y]. rewrite elem_of_map_to_list. etrans; [exact (Hm k y)|]. etrans; [exact (shown_get_Some x _ s Hr k y)|]. symmetry. apply Hel. }
  assert (size (h_nodes (d_heap d)) <= 1 + (t_depth t - 1) * length l) as Hnodes.
  { assert (size (h_nodes (d_heap d)) = nodes_needed 64 (t_depth t) (dom m)) as ->.
    { apply (dense_nodes (t_depth t) H0 H9 d m). eapply dense_inv_mono; [|exact Hi]. intros p (q & _ & []). }
    unfold nodes_needed. apply le_n_S. rewrite <- Hsz, <- (size_dom m).
    assert (forall a b, sum_list ((fun n => size (prefixes 64 (t_depth t) n (dom m))) <$> seq a b) <= b * size (dom m)) as H; [|apply H].
    intros a b. revert a. induction b as [|b IH]; intros a; [exact (le_n 0)|].
    change (size (prefixes 64 (t_depth t) a (dom m)) + sum_list ((fun n => size (prefixes 64 (t_depth t) n (dom m))) <$> seq (S a) b) <= size (dom m) + b * size (dom m)).
    apply Nat.add_le_mono; [apply prefixes_size|apply IH]. }
  assert (length (d_data d) = 1 + length l) as Hdata.
  { rewrite <- Hsz. destruct Hi as (P & J & _ & Hv & _). destruct (vec_entries _ H0 H9 _ _ _ _ Hv) as (ks & vs & Ek & Ed & El & _).
    pose proof (vec_perm _ H0 H9 _ _ _ _ Hv ks vs Ek Ed El) as Hperm. apply Permutation_length in Hperm.
    rewrite zip_with_length_l in Hperm by lia. rewrite Ed. cbn [length]. rewrite fmap_length. unfold size, map_size. lia. }
  assert (forall nd dv D L, nd <= 1 + (D - 1) * L -> dv = 1 + L -> 1 <= D -> nd + (dv - 1) <= 1 + D * L) as H.
  { intros nd dv D L A -> B. destruct D as [|D]; [lia|]. replace (S D - 1) with D in A by lia. cbn [Nat.mul]. lia. }
  exact (H _ _ _ _ Hnodes Hdata H0).
Qed.
Definition ex_union_v : view true ex_union := VUnion (dense_tree N 3) (sparse_tree N 1 3) eq_refl eq_refl (VDense N 3 ltac:(lia) ltac:(lia)) (VSparse N 1 3 None ltac:(by left) ltac:(lia) ltac:(lia)).
(** the union of the two trees above: three leaves, so at most (1 + 3 * 3) * (2 * 2) = 40 cells; its copy has 6 nodes
    and 3 values, which makes 36 *)
Example C61_materialize_case : xreached (fun _ => False) ex_union_view ex_union_state /\ t_nw ex_union = 1 /\ few ex_union ex_union_state /\ t_exact ex_union = true /\
  containers ex_union_expr ex_union_state = 2 /\
  exists d, materialize ex_union ex_union_state = Ok d /\ length (d_data d) = 4 /\ size (h_nodes (d_heap d)) = 6.
Proof.
  destruct C61_exact_iteration_case as (H & Hx & _). split; [exact H|]. split; [done|]. split.
  { apply (few_small ex_union_v (fun _ => False)); [exact H|done|cbn; lia]. }
  split; [exact Hx|]. split; [done|].
  eexists. split; [vm_compute; reflexivity|]. split; vm_compute; reflexivity.
Qed.

(** a nesting that does not declare it: as an iteration, two cells per container for each node that the iteration
    selects ([iter_visits t s ps], C41) and for each element *)
Theorem C61_materialize_sparse {t} (e : expression t) (x : xview t) pk s ps d : xreached pk x s -> t_nw t = 1 -> few t s -> t_exact t = false ->
  iter_visits t s ps -> materialize t s = Ok d ->
  exists n l, (forall fuel, n <= fuel -> iter_collect fuel t s = Ok l) /\ length (d_data d) = 1 + length l /\
  within (e_memory e) ((length ps + length l) * (containers e s * 2)) (materialize t) s d.
Proof.
  intros Hr Hnw Hf Hx Hps E. pose proof (sview_reached _ x s Hr) as Hs. pose proof (shown_few x _ s Hr Hf) as Hf'.
  destruct (xiter x _ s Hr) as (n & l & Hl & Hsort & Hel). destruct (view_depth (sview x)) as [H0 H9].
  pose proof (vg_wf _ _ _ (reached_good _ (sview x) s Hs)) as Hwf.
  destruct (mat_sparse (sview x) _ s Hs Hnw Hf' Hx) as [(d' & m & E' & Hm & Hi)|(E' & _)].
  2:{ assert (materialize t s = UB) as E2 by exact E'. rewrite E2 in E. discriminate E. }
  assert (d' = d) as -> by (assert (Ok d' = Ok d) as Ed by exact (eq_trans (eq_sym E') E); by injection Ed as ->).
  assert (size m = length l) as Hsz.
  { rewrite <- (Permutation_length (l := map_to_list m) (l' := l)); [done|]. apply NoDup_Permutation.
    - apply NoDup_map_to_list.
    - apply (NoDup_fmap_1 fst). by apply ssorted_nodup.
    - intros [k y]. rewrite elem_of_map_to_list. etrans; [exact (Hm k y)|]. etrans; [exact (shown_get_Some x _ s Hr k y)|]. symmetry. apply Hel. }
  assert (length (d_data d) = 1 + length l) as Hdata.
  { rewrite <- Hsz. destruct Hi as (P & J & _ & Hv & _). destruct (vec_entries _ H0 H9 _ _ _ _ Hv) as (ks & vs & Ek & Ed & El & _).
    pose proof (vec_perm _ H0 H9 _ _ _ _ Hv ks vs Ek Ed El) as Hperm. apply Permutation_length in Hperm.
    rewrite zip_with_length_l in Hperm by lia. change (d_data (fixd d)) with (d_data d) in Ed. rewrite Ed. cbn [length]. rewrite fmap_length. unfold size, map_size. lia. }
  exists n, l. split; [exact Hl|]. split; [exact Hdata|].
  pose proof (iter_visits_walk (vL (sview x)) s Hwf) as Hw. apply (iter_visits_data t _ _ s) in Hw.
  rewrite (iter_visits_fun _ _ _ _ Hps Hw).
  pose proof (expr_materialize_sparse e _ _ (vL (sview x)) s d Hwf Hnw H0 Hx E) as W.
  assert (length (d_data d) - 1 = length l) as Hd1 by (exact (eq_trans (f_equal (fun z => z - 1) Hdata) (Nat.sub_0_r _))). rewrite Hd1 in W. exact W.
Qed.
Definition ex_inter : tree := t_intersection (dense_tree N 3) (sparse_tree N 1 3).
Definition ex_inter_view : xview ex_inter :=
  XIntersection (dense_tree N 3) (sparse_tree N 1 3) eq_refl eq_refl
    (XView _ (VDense N 3 ltac:(lia) ltac:(lia))) (XView _ (VSparse N 1 3 None ltac:(by left) ltac:(lia) ltac:(lia))).
Definition ex_inter_v : view true ex_inter := VIntersection true true (dense_tree N 3) (sparse_tree N 1 3) eq_refl eq_refl (VDense N 3 ltac:(lia) ltac:(lia)) (VSparse N 1 3 None ltac:(by left) ltac:(lia) ltac:(lia)).
Example C61_materialize_sparse_case : xreached (fun _ => False) ex_inter_view ex_union_state /\ t_nw ex_inter = 1 /\ few ex_inter ex_union_state /\ t_exact ex_inter = false /\
  (exists ps, iter_visits ex_inter ex_union_state ps) /\
  exists d, materialize ex_inter ex_union_state = Ok d /\ length (d_data d) = 4.
Proof.
  destruct C61_exact_iteration_case as (H & _). assert (xreached (fun _ => False) ex_inter_view ex_union_state) as Hr by exact H.
  split; [exact Hr|]. split; [done|]. split.
  { apply (few_small ex_inter_v (fun _ => False)); [exact H|done|cbn; lia]. }
  split; [done|]. split.
  - destruct (xvisits ex_inter_view _ _ Hr) as (ps & l & Hv & _). by exists ps.
  - eexists. split; [vm_compute; reflexivity|]. vm_compute. reflexivity.
Qed.

(** so the smallest operand bounds a copy as it bounds an iteration ([restricted_by]: PropertiesIterFootprint.v) *)
Theorem C61_materialize_restricted {t} (e : expression t) (x : xview t) s n d : xreached (fun _ => False) x s -> t_nw t = 1 -> few t s ->
  restricted_by x s n -> materialize t s = Ok d ->
  within (e_memory e) ((1 + t_depth t * n) * (containers e s * 2)) (materialize t) s d.
Proof.
  intros Hr Hnw Hf Hn E. destruct (restricted_at_most x s n Hn Hr) as (ps & l & m & V & Hl & Hps & Hll).
  destruct (xvisits x _ s Hr) as (ps' & _ & V' & _ & _ & Hroot & Hdep & _). pose proof (iter_visits_fun _ _ _ _ V V') as <-.
  apply Hdep in Hroot. cbn in Hroot. destruct (t_exact t) eqn:Hx.
  - destruct (C61_materialize e x s Hr Hnw Hf Hx) as (m' & l' & d' & Hl' & E' & _ & W).
    assert (d' = d) as -> by congruence. assert (l' = l) as -> by (pose proof (Hl' (m + m') ltac:(lia)); pose proof (Hl (m + m') ltac:(lia)); congruence).
    eapply within_le; [|exact W]. apply Nat.mul_le_mono_r, le_n_S, Nat.mul_le_mono_l. exact Hll.
  - destruct (C61_materialize_sparse e x _ s ps d Hr Hnw Hf Hx V E) as (m' & l' & Hl' & _ & W).
    assert (l' = l) as -> by (pose proof (Hl' (m + m') ltac:(lia)); pose proof (Hl (m + m') ltac:(lia)); congruence).
    eapply within_le; [|exact W]. apply Nat.mul_le_mono_r. clear -Hroot Hps Hll. destruct (t_depth t) as [|D]; [lia|].
    replace (S D - 1) with D in Hps by lia. cbn [Nat.mul]. etrans; [apply Nat.add_le_mono; [exact Hps|exact Hll]|]. lia.
Qed.
(** the copy of the narrow expression of PropertiesIterFootprint.v, whose smallest operand has one element *)
Definition ex_narrow_v : view true ex_narrow := VMap _ (t_intersection (dense_tree N 3) (t_multi_intersection (sparse_tree N 1 3))) _ (fun p => (p.1, length p.2))
  (VIntersection true true (dense_tree N 3) (t_multi_intersection (sparse_tree N 1 3)) eq_refl eq_refl
    (VDense N 3 ltac:(lia) ltac:(lia)) (VMultiIntersection _ _ (VSparse N 1 3 None ltac:(by left) ltac:(lia) ltac:(lia)))).
Example C61_materialize_restricted_case : xreached (fun _ => False) ex_narrow_view ex_narrow_state /\ restricted_by ex_narrow_view ex_narrow_state 1 /\
  t_nw ex_narrow = 1 /\ few ex_narrow ex_narrow_state /\ exists d, materialize ex_narrow ex_narrow_state = Ok d /\ length (d_data d) = 2.
Proof.
  destruct C61_restricted_iteration_case as [H H']. split; [exact H'|]. split; [exact H|]. split; [done|].
  split; [apply (few_small ex_narrow_v (fun _ => False)); [exact H'|done|cbn; lia]|].
  eexists. split; [vm_compute; reflexivity|]. vm_compute. reflexivity.
Qed.
