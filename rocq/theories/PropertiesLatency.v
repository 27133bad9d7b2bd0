(** * C41, C61: single calls of `next` (src/iter.rs:86-147)
    [logged t]: the tree [t], whose cursor also records the nodes that are selected; [selected it]: those that the
    iterator [it] over it has selected so far (IterCost.v).  [iter_poll fuel m]: [m] calls of `next`. *)
From Verif Require Import Base BitUtils LevelIndices Hierarchy Ops Dense Sparse Spec SpecLaws Client TreeClient DenseHistory DenseLaws SparseHistory SparseLaws
  Lawful Generic Compose ViewLaws IterCost CostLaws AllViews IterLatency Examples PanicSafety Findings
  Footprint DenseFootprint SparseFootprint ViewFootprint CursorFootprint IterFootprint PropertiesIterFootprint.

(** in any nesting that declares EXACT_HIERARCHY (and no constructor panicked), after any number of calls of `next`,
    also past the end, the next call selects at most one node for each level below the root: [depth - 1] - no gap
    between two elements, however wide, makes a call slower *)
Theorem C41_next {t} (x : xview t) s : xreached (fun _ => False) x s -> t_exact t = true ->
  exists n, forall fuel m, n <= fuel -> exists it it1 os it2 o, iter_new (logged t) s = Ok it /\
    iter_poll fuel m (logged t) s it = Ok (it1, os) /\ iter_next fuel (logged t) s it1 = Ok (it2, o) /\
    length (selected it2) <= length (selected it1) + (t_depth t - 1).
Proof.
  intros Hr Hx. pose proof (reached_good _ (sview x) s (sview_reached _ x s Hr)) as Hg.
  destruct (logged_latency (vL (sview x)) s (vg_wf _ _ _ Hg) (vg_exact _ _ _ Hg Hx)) as (n & H).
  exists n. intros fuel m Hf. destruct (H fuel m Hf) as (it & it1 & os & it2 & o & E1 & E2 & E3 & E4).
  exists it, it1, os, it2, o. split; [exact E1|]. split; [exact (eq_trans (eq_sym (iter_poll_data (logged t) (t_data (shown x)) (t_data_u (shown x)) s fuel m it)) E2)|].
  split; [exact (eq_trans (eq_sym (iter_next_data (logged t) (t_data (shown x)) (t_data_u (shown x)) s fuel it1)) E3)|exact E4].
Qed.
(** the union of a DenseTree and a SparseTree of depth 3: two selections per call.  The hypothesis EXACT_HIERARCHY is
    needed: one call on the intersection of two trees whose keys share the first level only selects all those nodes *)
Example C41_next_case : xreached (fun _ => False) ex_union_view ex_union_state /\ t_exact ex_union = true /\
  exists it it1 os it2 o, iter_new (logged ex_union) ex_union_state = Ok it /\
    iter_poll 50 1 (logged ex_union) ex_union_state it = Ok (it1, os) /\ iter_next 50 (logged ex_union) ex_union_state it1 = Ok (it2, o) /\
    length (selected it1) = 3 /\ length (selected it2) = 4.
Proof.
  destruct C61_exact_iteration_case as (H & Hx & _). split; [exact H|]. split; [exact Hx|].
  do 5 eexists. split; [vm_compute; reflexivity|]. split; [vm_compute; reflexivity|]. split; [vm_compute; reflexivity|]. split; vm_compute; reflexivity.
Qed.
Definition ex_gap_a : dense N := dense_after 3 (inserts [0; 4096; 8192; 12288]%N).
Definition ex_gap_b : dense N := dense_after 3 (inserts [64; 4160; 8256; 12352]%N).
Example C41_next_needs_exact : exists it it1, iter_new (logged (t_intersection (dense_tree N 3) (dense_tree N 3))) (ex_gap_a, ex_gap_b) = Ok it /\
  iter_next 50 (logged (t_intersection (dense_tree N 3) (dense_tree N 3))) (ex_gap_a, ex_gap_b) it = Ok (it1, None) /\
  length (selected it) = 1 /\ length (selected it1) = 5.
Proof. do 2 eexists. split; [vm_compute; reflexivity|]. split; [vm_compute; reflexivity|]. split; vm_compute; reflexivity. Qed.

(** ** C61: the first elements are cheap
    [within], [containers], [e_memory]: as in PropertiesIterFootprint.v.  A client that makes an iterator and calls
    `next` [m] times (a `for` loop with a `break`, `iter().take(m)`) gets the first [m] answers of the whole iteration
    and looks at [(1 + m * depth) * 2] cells for each container of the expression at most - whatever is left *)
Theorem C61_first_elements {t} (e : expression t) (x : xview t) s : xreached (fun _ => False) x s -> t_exact t = true ->
  exists n l, forall fuel m, n <= fuel -> iter_collect fuel t s = Ok l /\
  within (e_memory e) ((1 + m * t_depth t) * (containers e s * 2))
    (fun s => let* it := iter_new t s in let* (_, os) := iter_poll fuel m t s it in Ok os) s (take m ((Some <$> l) ++ replicate m None)).
Proof.
  intros Hr Hx. pose proof (reached_good _ (sview x) s (sview_reached _ x s Hr)) as Hg.
  destruct (logged_count (vL (sview x)) s (vg_wf _ _ _ Hg) (vg_exact _ _ _ Hg Hx)) as (n & H).
  destruct (xpoll x _ s Hr) as (n' & l & Hl & Hp).
  destruct (xvisits x (fun _ => False) s Hr) as (ps & l' & Hv & _ & _ & Hroot & Hdep & _).
  apply Hdep in Hroot. cbn in Hroot.
  exists (n + n'), l. intros fuel m Hf. split; [apply Hl; lia|].
  destruct (H fuel m ltac:(lia)) as (it & it1 & os & E1 & E2 & E3).
  assert (iter_new (logged t) s = Ok it) as E1' by exact E1.
  assert (iter_poll fuel m (logged t) s it = Ok (it1, os)) as E2'
    by exact (eq_trans (eq_sym (iter_poll_data (logged t) (t_data (shown x)) (t_data_u (shown x)) s fuel m it)) E2).
  pose proof (expr_first e s fuel m it it1 os E1' E2') as W.
  destruct (Hp m fuel ltac:(lia)) as (it0 & it2 & F1 & F2).
  assert (os = take m ((Some <$> l) ++ replicate m None)) as Hos.
  { destruct W as (F & _ & R). specialize (R s (agree_refl _ _ _ _)). cbn beta in R. rewrite F1 in R. cbn [rbind] in R. rewrite F2 in R. cbn [rbind] in R.
    by injection R as <-. }
  eapply within_le; [|refine (eq_rect os (fun z : list (option (N * t_V t)) => within _ _ _ _ z) W _ Hos)]. apply Nat.mul_le_mono_r.
  assert (length (selected it1) <= 1 + m * (t_depth t - 1)) as E4 by exact E3.
  destruct (t_depth t) as [|D]; [lia|]. replace (S D - 1) with D in E4 by lia.
  assert (m * S D = m * D + m) as -> by lia. exact (Nat.le_trans _ _ _ (proj1 (Nat.add_le_mono_r _ _ m) E4) (Nat.eq_le_incl _ _ (eq_sym (Nat.add_assoc 1 _ _)))).
Qed.
(** the first element of the union above: at most (1 + 1 * 3) * (2 * 2) = 16 cells *)
Example C61_first_elements_case : xreached (fun _ => False) ex_union_view ex_union_state /\ t_exact ex_union = true /\ containers ex_union_expr ex_union_state = 2 /\ exists os, (let* it := iter_new ex_union ex_union_state in let* (_, os) := iter_poll 50 1 ex_union ex_union_state it in Ok os) = Ok os /\ length os = 1 /\ (fst <$> (os ≫= fun o => match o with Some a => [a] | None => [] end)) = [5%N].
Proof.
  destruct C61_exact_iteration_case as (H & Hx & _). split; [exact H|]. split; [exact Hx|]. split; [done|].
  eexists. split; [vm_compute; reflexivity|]. split; vm_compute; reflexivity.
Qed.
