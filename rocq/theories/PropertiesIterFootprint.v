(** * C61: the memory a whole iteration looks at
    [expression t], [e_memory], [containers] (CursorFootprint.v): containers and lazy operations over them in any
    nesting, the cells of their containers' memories, and how many containers there are.  [within m n f s a]
    (ViewFootprint.v): the computation [f] returns [a] on [s] and looks at [n] cells of memory at most besides the
    containers' headers: on every other state that agrees on those cells it returns [a] as well.
    [iter_collect]: a client that makes an iterator and calls `next` until it answers None (src/iter.rs:50-147). *)
From Verif Require Import Base BitUtils LevelIndices Hierarchy Ops Dense Sparse Spec SpecLaws Client TreeClient DenseHistory DenseLaws SparseHistory SparseLaws
  Lawful Generic Compose ViewLaws IterCost CostLaws AllViews Examples PanicSafety Findings
  Footprint DenseFootprint SparseFootprint ViewFootprint CursorFootprint IterFootprint.

(** two cells per container for each node that the iteration selects ([iter_visits t s ps]: those with the paths
    [ps], C41) and for each leaf that it returns *)
Theorem C61_iteration {t} (e : expression t) s ps : iter_visits t s ps -> exists n l, forall fuel, n <= fuel ->
  iter_collect fuel t s = Ok l /\
  within (e_memory e) ((length ps + length l) * (containers e s * 2)) (fun s => iter_collect fuel t s) s l.
Proof. apply expr_iter. Qed.
(** so for a nesting that declares EXACT_HIERARCHY, over containers reached by calls none of which a value's
    constructor made panic: depth times the number of leaves returned, plus one, however much memory it has *)
Theorem C61_exact_iteration {t} (e : expression t) (x : xview t) s : xreached (fun _ => False) x s -> t_exact t = true ->
  exists n l, forall fuel, n <= fuel -> iter_collect fuel t s = Ok l /\
  within (e_memory e) ((1 + t_depth t * length l) * (containers e s * 2)) (fun s => iter_collect fuel t s) s l.
Proof.
  intros Hr Hx. destruct (xvisits x (fun _ => False) s Hr) as (ps & l & Hv & (n1 & Hl) & _ & Hn & Hd & _ & Hex).
  destruct (Hex Hx) as [_ Hlen]. specialize (Hlen (fun _ H => H)). apply Hd in Hn. cbn in Hn.
  destruct (expr_iter e s ps Hv) as (n & l' & H). exists (n1 + n), l. intros fuel Hf.
  destruct (H fuel ltac:(lia)) as [H1 H2]. assert (l' = l) as -> by (pose proof (Hl fuel ltac:(lia)); congruence).
  split; [done|]. eapply within_le; [|exact H2]. apply Nat.mul_le_mono_r.
  destruct (t_depth t) as [|D]; [lia|]. replace (S D - 1) with D in Hlen by lia. cbn [Nat.mul]. lia.
Qed.
(** a union of a DenseTree and a SparseTree of depth 3, after the same three insertions: 4 cells per step *)
Definition ex_union : tree := t_union (dense_tree N 3) (sparse_tree N 1 3).
Definition ex_union_expr : expression ex_union := EUnion _ _ (EDense N 3 ltac:(lia)) (ESparse N 1 3).
Definition ex_union_view : xview ex_union :=
  XUnion (dense_tree N 3) (sparse_tree N 1 3) eq_refl eq_refl
    (XView _ (VDense N 3 ltac:(lia) ltac:(lia))) (XView _ (VSparse N 1 3 None ltac:(by left) ltac:(lia) ltac:(lia))).
Definition ex_union_state : t_T ex_union := (ex_b, sparse_after 1 3 (inserts [5; 71; 200000]%N)).
Example C61_exact_iteration_case : xreached (fun _ => False) ex_union_view ex_union_state /\ t_exact ex_union = true /\
  (exists l, iter_collect 50 ex_union ex_union_state = Ok l /\ length l = 3) /\ containers ex_union_expr ex_union_state = 2.
Proof.
  split; [split|split; [|split]].
  - exact (ex_b_ok (fun _ => False)).
  - exists false, None, (inserts [5; 71; 200000]%N). split; [done|].
    assert (sparse_legal 1 3 false None (inserts [5; 71; 200000]%N)) as Hl.
    { apply sparse_small_legal; [by left|lia|lia|left; split; lia|repeat constructor|done]. }
    split; [exact Hl|]. split; [apply sparse_after_reached; [by left|lia|lia|exact Hl]|].
    apply none_panicked. apply (bool_decide_eq_true_1 _). vm_compute. done.
  - done.
  - eexists. split; [vm_compute; reflexivity|]. vm_compute. reflexivity.
  - done.
Qed.

(** ** intersections: the smaller operand decides
    An intersection declares nothing about its hierarchy, and an iteration of it may select nodes that hold no common
    key; but it selects only nodes that each operand's own iteration selects (C41), so an operand of [n0]
    elements that declares EXACT_HIERARCHY bounds the whole iteration, whatever the other operand holds. *)
Lemma intersection_lengths {t0 t1} (x0 : xview t0) (x1 : xview t1) pk s0 s1 : t_nw t1 = t_nw t0 -> t_depth t1 = t_depth t0 ->
  xreached pk x0 s0 -> xreached pk x1 s1 ->
  exists ps0 ps1 ps n l0 l1 l, iter_visits t0 s0 ps0 /\ iter_visits t1 s1 ps1 /\ iter_visits (t_intersection t0 t1) (s0, s1) ps /\
  length ps <= length ps0 /\ length ps <= length ps1 /\ length l <= length l0 /\ length l <= length l1 /\
  forall fuel, n <= fuel -> iter_collect fuel t0 s0 = Ok l0 /\ iter_collect fuel t1 s1 = Ok l1 /\ iter_collect fuel (t_intersection t0 t1) (s0, s1) = Ok l.
Proof.
  intros Hn Hd H0 H1. set (x := XIntersection t0 t1 Hn Hd x0 x1). assert (xreached pk x (s0, s1)) as Hr by done.
  destruct (intersection_visits (sview x0) (sview x1) pk s0 s1 Hn Hd (sview_reached pk x0 s0 H0) (sview_reached pk x1 s1 H1)) as (ps0 & ps1 & ps & V0 & V1 & V & He).
  apply (iter_visits_data t0 _ _ s0 ps0) in V0. apply (iter_visits_data t1 _ _ s1 ps1) in V1.
  pose proof (iter_visits_data (t_intersection t0 t1) (t_data (t_intersection (shown x0) (shown x1))) (t_data_u (t_intersection (shown x0) (shown x1))) (s0, s1) ps V) as V'.
  destruct (xvisits x pk (s0, s1) Hr) as (ps' & _ & V2 & _ & Hnd & _). pose proof (iter_visits_fun _ _ _ _ V' V2) as <-.
  destruct (xiter x0 pk s0 H0) as (n0 & l0 & L0 & S0 & E0). destruct (xiter x1 pk s1 H1) as (n1 & l1 & L1 & S1 & E1).
  destruct (xiter x pk (s0, s1) Hr) as (n & l & L & S & E).
  exists ps0, ps1, ps, (n0 + n1 + n), l0, l1, l. split; [exact V0|]. split; [exact V1|]. split; [exact V'|].
  split; [apply submseteq_length, NoDup_submseteq; [exact Hnd|]; intros p Hp; by apply He|].
  split; [apply submseteq_length, NoDup_submseteq; [exact Hnd|]; intros p Hp; by apply He|].
  assert (forall k, k ∈ l.*1 -> is_Some (gives x0 s0 k) /\ is_Some (gives x1 s1 k)) as Hk.
  { intros k ([k' y] & -> & [[z Hz] _]%E)%elem_of_list_fmap. change (match gives x0 s0 k', gives x1 s1 k' with Some a, Some b => Some (a, b) | _, _ => None end = Some z) in Hz. cbn [fst].
    destruct (gives x0 s0 k'), (gives x1 s1 k'); try discriminate Hz. split; eexists; reflexivity. }
  split; [|split].
  - rewrite <- (fmap_length fst l), <- (fmap_length fst l0). apply submseteq_length, NoDup_submseteq; [by apply ssorted_nodup|].
    intros k [Ha _]%Hk. destruct (sees_some x0 pk s0 H0 k Ha) as [z Hz]. apply elem_of_list_fmap. exists (k, z). split; [done|]. by apply E0.
  - rewrite <- (fmap_length fst l), <- (fmap_length fst l1). apply submseteq_length, NoDup_submseteq; [by apply ssorted_nodup|].
    intros k [_ Ha]%Hk. destruct (sees_some x1 pk s1 H1 k Ha) as [z Hz]. apply elem_of_list_fmap. exists (k, z). split; [done|]. by apply E1.
  - intros fuel Hf. split; [apply L0; lia|]. split; [apply L1; lia|apply L; lia].
Qed.
Theorem C61_intersection_iteration {t0 t1} (e : expression (t_intersection t0 t1)) (x0 : xview t0) (x1 : xview t1) s0 s1 :
  t_nw t1 = t_nw t0 -> t_depth t1 = t_depth t0 -> xreached (fun _ => False) x0 s0 -> xreached (fun _ => False) x1 s1 ->
  exists n l0 l1 l, forall fuel, n <= fuel ->
  iter_collect fuel t0 s0 = Ok l0 /\ iter_collect fuel t1 s1 = Ok l1 /\ iter_collect fuel (t_intersection t0 t1) (s0, s1) = Ok l /\
  (t_exact t0 = true -> within (e_memory e) ((1 + t_depth t0 * length l0) * (containers e (s0, s1) * 2))
    (fun s => iter_collect fuel (t_intersection t0 t1) s) (s0, s1) l) /\
  (t_exact t1 = true -> within (e_memory e) ((1 + t_depth t0 * length l1) * (containers e (s0, s1) * 2))
    (fun s => iter_collect fuel (t_intersection t0 t1) s) (s0, s1) l).
Proof.
  intros Hn Hd H0 H1. destruct (intersection_lengths x0 x1 _ s0 s1 Hn Hd H0 H1) as (ps0 & ps1 & ps & n1 & l0 & l1 & l & V0 & V1 & V & P0 & P1 & Q0 & Q1 & Hl).
  destruct (expr_iter e (s0, s1) ps V) as (n2 & l' & H).
  destruct (xvisits x0 _ s0 H0) as (ps0' & l0' & V0' & (m0 & L0) & _ & Hroot & Hdep & _ & X0).
  destruct (xvisits x1 _ s1 H1) as (ps1' & l1' & V1' & (m1 & L1) & _ & _ & _ & _ & X1).
  pose proof (iter_visits_fun _ _ _ _ V0 V0') as <-. pose proof (iter_visits_fun _ _ _ _ V1 V1') as <-.
  exists (n1 + n2 + m0 + m1), l0, l1, l. intros fuel Hf. destruct (Hl fuel ltac:(lia)) as (E0 & E1 & E). destruct (H fuel ltac:(lia)) as [E' W].
  specialize (L0 fuel ltac:(lia)). specialize (L1 fuel ltac:(lia)).
  assert (l0' = l0) as -> by congruence. assert (l1' = l1) as -> by congruence. assert (l' = l) as -> by congruence.
  apply Hdep in Hroot. cbn in Hroot. split; [exact E0|]. split; [exact E1|]. split; [exact E|].
  assert (forall m, length ps <= 1 + (t_depth t0 - 1) * m -> length l <= m -> length ps + length l <= 1 + t_depth t0 * m) as Hm.
  { intros m. destruct (t_depth t0) as [|D]; [lia|]. replace (Datatypes.S D - 1) with D by lia. cbn [Nat.mul]. lia. }
  split; intros Hx; (eapply within_le; [|exact W]); apply Nat.mul_le_mono_r, Hm.
  - destruct (X0 Hx) as [_ HX]. specialize (HX (fun _ F => F)). exact (Nat.le_trans _ _ _ P0 HX).
  - exact Q0.
  - destruct (X1 Hx) as [_ HX]. specialize (HX (fun _ F => F)). rewrite Hd in HX. exact (Nat.le_trans _ _ _ P1 HX).
  - exact Q1.
Qed.
Example C61_intersection_iteration_case :
  xreached (fun _ => False) (XView _ (VDense N 3 ltac:(lia) ltac:(lia))) ex_b /\
  xreached (fun _ => False) (XView _ (VSparse N 1 3 None ltac:(by left) ltac:(lia) ltac:(lia))) (sparse_after 1 3 (inserts [5; 71; 200000]%N)) /\
  t_exact (dense_tree N 3) = true /\ t_exact (sparse_tree N 1 3) = true /\
  exists l, iter_collect 50 (t_intersection (dense_tree N 3) (sparse_tree N 1 3)) ex_union_state = Ok l /\ length l = 3.
Proof.
  destruct C61_exact_iteration_case as ([H0 H1] & _). split; [exact H0|]. split; [exact H1|]. split; [done|]. split; [done|].
  eexists. split; [vm_compute; reflexivity|]. vm_compute. reflexivity.
Qed.

(** ** .. under any nesting of intersections, maps and multi_intersections
    [restricted_by x s n]: the expression has a part that declares EXACT_HIERARCHY, whose own iteration returns [n]
    leaves, and that every element must be in: the expression itself, what it maps, either side of an intersection, any
    operand of a multi_intersection.  The smallest such part bounds the iteration, whatever the rest holds. *)
Inductive restricted_by : forall {t}, xview t -> t_T t -> nat -> Prop :=
| RExact t (x : xview t) s l m : t_exact t = true -> (forall fuel, m <= fuel -> iter_collect fuel t s = Ok l) -> restricted_by x s (length l)
| RMap t W f (x : xview t) s n : restricted_by x s n -> restricted_by (XMap t W f x) s n
| RFold t X A items init f (x : xview t) s n : restricted_by x s n -> restricted_by (XMultiMapFold t X A items init f x) s n
| RLeft t0 t1 Hn Hd (x0 : xview t0) (x1 : xview t1) s0 s1 n : restricted_by x0 s0 n -> restricted_by (XIntersection t0 t1 Hn Hd x0 x1) (s0, s1) n
| RRight t0 t1 Hn Hd (x0 : xview t0) (x1 : xview t1) s0 s1 n : restricted_by x1 s1 n -> restricted_by (XIntersection t0 t1 Hn Hd x0 x1) (s0, s1) n
| RAny t (x : xview t) s a n : a ∈ s -> restricted_by x a n -> restricted_by (XMultiIntersection t x) s n.
(** nodes and leaves of an iteration *)
Definition at_most (t : tree) (s : t_T t) (n : nat) : Prop := exists ps l m,
  iter_visits t s ps /\ (forall fuel, m <= fuel -> iter_collect fuel t s = Ok l) /\ length ps <= 1 + (t_depth t - 1) * n /\ length l <= n.
Lemma at_most_sub pk {t t'} (x : xview t) (x' : xview t') s s' n : xreached pk x s -> xreached pk x' s' -> t_depth t' = t_depth t ->
  (exists ps ps', iter_visits t s ps /\ iter_visits t' s' ps' /\ forall p, p ∈ ps -> p ∈ ps') ->
  (forall k, is_Some (gives x s k) -> is_Some (gives x' s' k)) -> at_most t' s' n -> at_most t s n.
Proof.
  intros Hr Hr' Hd (ps & ps' & V & V' & Hps) Hk (ps2 & l' & m' & V2 & L' & Hlen & Hl).
  pose proof (iter_visits_fun _ _ _ _ V' V2) as <-. clear V2.
  destruct (xvisits x pk s Hr) as (ps3 & _ & V3 & _ & Hnd & _). pose proof (iter_visits_fun _ _ _ _ V V3) as <-. clear V3.
  destruct (xiter x pk s Hr) as (m & l & L & S & E). destruct (xiter x' pk s' Hr') as (m2 & l2 & L2 & _ & E2).
  assert (l2 = l') as ->. { pose proof (L' (m' + m2) ltac:(lia)). pose proof (L2 (m' + m2) ltac:(lia)). congruence. }
  exists ps, l, m. split; [exact V|]. split; [exact L|]. split.
  - rewrite <- Hd. etrans; [|exact Hlen]. by apply submseteq_length, NoDup_submseteq.
  - etrans; [|exact Hl]. rewrite <- (fmap_length fst l), <- (fmap_length fst l'). apply submseteq_length, NoDup_submseteq; [by apply ssorted_nodup|].
    intros k ([k' y] & -> & [Ha _]%E)%elem_of_list_fmap. cbn [fst]. apply Hk in Ha. destruct (sees_some x' pk s' Hr' k' Ha) as [z Hz].
    apply elem_of_list_fmap. exists (k', z). split; [done|]. by apply E2.
Qed.
Lemma intersection_nodes {t0 t1} (x0 : xview t0) (x1 : xview t1) pk s0 s1 : t_nw t1 = t_nw t0 -> t_depth t1 = t_depth t0 ->
  xreached pk x0 s0 -> xreached pk x1 s1 ->
  exists ps0 ps1 ps, iter_visits t0 s0 ps0 /\ iter_visits t1 s1 ps1 /\ iter_visits (t_intersection t0 t1) (s0, s1) ps /\
  forall p, p ∈ ps -> p ∈ ps0 /\ p ∈ ps1.
Proof.
  intros Hn Hd H0 H1.
  destruct (intersection_visits (sview x0) (sview x1) pk s0 s1 Hn Hd (sview_reached pk x0 s0 H0) (sview_reached pk x1 s1 H1)) as (ps0 & ps1 & ps & V0 & V1 & V & He).
  exists ps0, ps1, ps. split; [exact (iter_visits_data t0 _ _ s0 ps0 V0)|]. split; [exact (iter_visits_data t1 _ _ s1 ps1 V1)|].
  split; [|intros p Hp; by apply He].
  exact (iter_visits_data (t_intersection t0 t1) (t_data (t_intersection (shown x0) (shown x1))) (t_data_u (t_intersection (shown x0) (shown x1))) (s0, s1) ps V).
Qed.
Lemma restricted_at_most {t} (x : xview t) s n : restricted_by x s n -> xreached (fun _ => False) x s -> at_most t s n.
Proof.
  induction 1 as [t x s l m Hx Hl|t W f x s n H IH|t X A items init f x s n H IH|t0 t1 Hn Hd x0 x1 s0 s1 n H IH|t0 t1 Hn Hd x0 x1 s0 s1 n H IH|t x s a n Ha H IH]; intros Hr.
  - destruct (xvisits x _ s Hr) as (ps & l' & V & (m' & L') & _ & _ & _ & _ & HX). destruct (HX Hx) as [_ Hlen].
    assert (l' = l) as ->. { pose proof (L' (m' + m) ltac:(lia)). pose proof (Hl (m' + m) ltac:(lia)). congruence. }
    exists ps, l, m. split; [exact V|]. split; [exact Hl|]. split; [exact (Hlen (fun _ F => F))|done].
  - pose proof Hr as Hr'. cbn [xreached] in Hr'. apply (at_most_sub _ (XMap t W f x) x s s n Hr Hr' eq_refl); [|intros k [y Hy]; cbn [gives] in Hy; by apply fmap_Some in Hy as (z & -> & _)|by apply IH].
    destruct (xvisits x _ s Hr') as (ps & _ & V & _). exists ps, ps. split; [|by split].
    pose proof (map_visits (sview x) _ s f ps (sview_reached _ x s Hr') (iter_visits_data_r t _ _ s ps V)) as M.
    exact (iter_visits_data (t_map t f) (t_data (t_map (shown x) f)) (t_data_u (t_map (shown x) f)) s ps M).
  - pose proof Hr as Hr'. cbn [xreached] in Hr'. apply (at_most_sub _ (XMultiMapFold t X A items init f x) x s s n Hr Hr' eq_refl); [|intros k [y Hy]; cbn [gives] in Hy; by apply fmap_Some in Hy as (z & -> & _)|by apply IH].
    destruct (xvisits x _ s Hr') as (ps & _ & V & _). exists ps, ps. split; [|by split].
    pose proof (mmf_visits (sview x) _ s items init f ps (sview_reached _ x s Hr') (iter_visits_data_r t _ _ s ps V)) as M.
    exact (iter_visits_data (t_multi_map_fold t items init f) (t_data (t_multi_map_fold (shown x) items init f)) (t_data_u (t_multi_map_fold (shown x) items init f)) s ps M).
  - pose proof Hr as [H0 H1]. cbn [fst snd] in H0, H1. apply (at_most_sub _ (XIntersection t0 t1 Hn Hd x0 x1) x0 (s0, s1) s0 n Hr H0 eq_refl); [| |by apply IH].
    + destruct (intersection_nodes x0 x1 _ s0 s1 Hn Hd H0 H1) as (ps0 & ps1 & ps & V0 & V1 & V & HP). exists ps, ps0. split; [exact V|]. split; [exact V0|]. apply HP.
    + intros k [y Hy]. cbn [gives fst snd] in Hy. destruct (gives x0 s0 k); [by eexists|done].
  - pose proof Hr as [H0 H1]. cbn [fst snd] in H0, H1. apply (at_most_sub _ (XIntersection t0 t1 Hn Hd x0 x1) x1 (s0, s1) s1 n Hr H1 Hd); [| |by apply IH].
    + destruct (intersection_nodes x0 x1 _ s0 s1 Hn Hd H0 H1) as (ps0 & ps1 & ps & V0 & V1 & V & HP). exists ps, ps1. split; [exact V|]. split; [exact V1|]. apply HP.
    + intros k [y Hy]. cbn [gives fst snd] in Hy. destruct (gives x0 s0 k), (gives x1 s1 k); try done; by eexists.
  - pose proof Hr as (Hne & Hlen & Hall). pose proof (proj1 (Forall_forall _ _) Hall a Ha) as Hra.
    apply (at_most_sub _ (XMultiIntersection t x) x s a n Hr Hra eq_refl); [| |by apply IH].
    + assert (Forall (reached (fun _ => False) (sview x)) s) as Hall' by (eapply Forall_impl; [exact Hall|]; intros b Hb; by apply sview_reached).
      destruct (mi_visits (sview x) _ s Hne Hlen Hall') as (pss & ps & Vs & V & HP).
      apply elem_of_list_lookup in Ha as [j Hj]. destruct (Forall2_lookup_l _ _ _ _ _ Vs Hj) as (ps' & Hj' & V').
      exists ps, ps'. split; [|split].
      * exact (iter_visits_data (t_multi_intersection t) (t_data (t_multi_intersection (shown x))) (t_data_u (t_multi_intersection (shown x))) s ps V).
      * exact (iter_visits_data t _ _ a ps' V').
      * intros q Hq. apply HP in Hq. exact (proj1 (Forall_lookup _ _) Hq j ps' Hj').
    + intros k [y Hy]. cbn [gives] in Hy. apply mapM_Some in Hy. apply elem_of_list_lookup in Ha as [j Hj].
      destruct (Forall2_lookup_l _ _ _ _ _ Hy Hj) as (z & _ & Hz). by exists z.
Qed.
Theorem C61_restricted_iteration {t} (e : expression t) (x : xview t) s n : xreached (fun _ => False) x s -> restricted_by x s n ->
  exists m l, forall fuel, m <= fuel -> iter_collect fuel t s = Ok l /\ length l <= n /\
  within (e_memory e) ((1 + t_depth t * n) * (containers e s * 2)) (fun s => iter_collect fuel t s) s l.
Proof.
  intros Hr Hn. destruct (restricted_at_most x s n Hn Hr) as (ps & l & m & V & L & Hps & Hl).
  destruct (xvisits x _ s Hr) as (ps' & _ & V' & _ & _ & Hroot & Hdep & _). pose proof (iter_visits_fun _ _ _ _ V V') as <-.
  apply Hdep in Hroot. cbn in Hroot. destruct (expr_iter e s ps V) as (m' & l' & H).
  exists (m + m'), l. intros fuel Hf. specialize (L fuel ltac:(lia)). destruct (H fuel ltac:(lia)) as [L' W].
  assert (l' = l) as -> by congruence. split; [exact L|]. split; [exact Hl|]. eapply within_le; [|exact W]. apply Nat.mul_le_mono_r.
  clear -Hroot Hps Hl. destruct (t_depth t) as [|D]; [lia|]. replace (S D - 1) with D in Hps by lia. cbn [Nat.mul].
  etrans; [apply Nat.add_le_mono; [exact Hps|exact Hl]|]. lia.
Qed.
(** map(dense ∩ multi_intersection[sparse; sparse]): restricted by its smallest operand *)
Definition ex_narrow : tree := t_map (t_intersection (dense_tree N 3) (t_multi_intersection (sparse_tree N 1 3))) (fun p => (p.1, length p.2)).
Definition ex_narrow_expr : expression ex_narrow :=
  EMap _ _ _ (EIntersection _ _ (EDense N 3 ltac:(lia)) (EMultiIntersection _ (ESparse N 1 3))).
Definition ex_narrow_view : xview ex_narrow :=
  XMap _ _ _ (XIntersection (dense_tree N 3) (t_multi_intersection (sparse_tree N 1 3)) eq_refl eq_refl
    (XView _ (VDense N 3 ltac:(lia) ltac:(lia))) (XMultiIntersection _ (XView _ (VSparse N 1 3 None ltac:(by left) ltac:(lia) ltac:(lia))))).
Definition ex_small : sparse N := sparse_after 1 3 (inserts [71]%N).
Definition ex_narrow_state : t_T ex_narrow := (ex_b, [sparse_after 1 3 (inserts [5; 71; 200000]%N); ex_small]).
Lemma iter_loop_fuel f f' t s : f <= f' -> forall it r, iter_loop f t s it = Ok r -> iter_loop f' t s it = Ok r.
Proof.
  revert f'. induction f as [|f IH]; intros f' Hf it r E; [done|]. destruct f' as [|f']; [lia|]. cbn [iter_loop] in E |- *.
  apply bind_ok_inv in E as (q & -> & E). rewrite bind_ok. apply bind_ok_inv in E as ([q2 o] & -> & E). rewrite bind_ok.
  destruct o; [done|]. apply bind_ok_inv in E as ([it1 c] & -> & E). rewrite bind_ok. destruct c; [|done]. apply IH; [lia|done].
Qed.
Lemma iter_next_fuel f f' t s it r : f <= f' -> iter_next f t s it = Ok r -> iter_next f' t s it = Ok r.
Proof. intros Hf E. unfold iter_next in *. apply bind_ok_inv in E as (x & E1 & E). by rewrite (iter_loop_fuel f f' t s Hf _ _ E1), bind_ok. Qed.
Lemma iter_drain_fuel f f' t s : f <= f' -> forall it r, iter_drain f t s it = Ok r -> iter_drain f' t s it = Ok r.
Proof.
  revert f'. induction f as [|f IH]; intros f' Hf it r E; [done|]. destruct f' as [|f']; [lia|]. cbn [iter_drain] in E |- *.
  apply bind_ok_inv in E as ([it1 o] & E1 & E). rewrite (iter_next_fuel _ (S f') _ _ _ _ Hf E1), bind_ok.
  destruct o; [|done]. apply bind_ok_inv in E as (y & E2 & E). rewrite (IH f' ltac:(lia) _ _ E2), bind_ok. done.
Qed.
Lemma iter_collect_fuel f f' t s l : f <= f' -> iter_collect f t s = Ok l -> iter_collect f' t s = Ok l.
Proof.
  intros Hf E. unfold iter_collect in *. apply bind_ok_inv in E as (it & -> & E). rewrite bind_ok.
  apply bind_ok_inv in E as (r & E1 & E). by rewrite (iter_drain_fuel f f' t s Hf _ _ E1), bind_ok.
Qed.
Lemma ex_small_iter fuel : 50 <= fuel -> iter_collect fuel (sparse_tree N 1 3) ex_small = Ok [(71, 71)]%N.
Proof. intros Hf. apply (iter_collect_fuel 50); [exact Hf|]. vm_compute. reflexivity. Qed.
Example C61_restricted_iteration_case : restricted_by ex_narrow_view ex_narrow_state 1 /\ xreached (fun _ => False) ex_narrow_view ex_narrow_state.
Proof.
  split.
  - apply RMap, RRight. apply (RAny (sparse_tree N 1 3) _ _ ex_small); [right; by left|].
    exact (RExact (sparse_tree N 1 3) _ ex_small [(71, 71)]%N 50 eq_refl ex_small_iter).
  - split; [exact (ex_b_ok (fun _ => False))|]. split; [done|]. split; [cbn; lia|].
    constructor; [exact (proj2 (proj1 C61_exact_iteration_case))|]. constructor; [|constructor].
    exists false, None, (inserts [71]%N). split; [done|].
    assert (sparse_legal 1 3 false None (inserts [71]%N)) as Hl.
    { apply sparse_small_legal; [by left|lia|lia|left; split; lia|repeat constructor|done]. }
    split; [exact Hl|]. split; [apply sparse_after_reached; [by left|lia|lia|exact Hl]|].
    apply none_panicked. apply (bool_decide_eq_true_1 _). vm_compute. done.
Qed.
