(** * Properties of whole lazy expressions: C42, C43

    [denotes pk v s m] (Denote.v): every container in the expression [s] was produced by a
    legal history of public calls, and [m] is the finite map obtained by evaluating the same
    expression on the maps of these histories (Spec.v) with ordinary map operations. *)
From Verif Require Import Base BitUtils Hierarchy Ops Dense Sparse Spec SpecLaws Client TreeClient DenseHistory SparseHistory
  DenseLaws SparseLaws Generic Materialize MaterializeLaws Compose ViewLaws Denote Algebra Findings Examples.

(** C42: every legally built expression denotes exactly one map ... *)
Theorem C42_denotation pk {b t} (v : view b t) s : reached pk v s ->
  exists m, denotes pk v s m /\ forall m', denotes pk v s m' -> m' = m.
Proof. intros Hr. destruct (denotes_exists pk v s Hr) as [m Hm]. exists m. split; [done|]. intros m' Hm'. by eapply denotes_fun. Qed.
(** ... `get` answers from that map, and iteration yields it in ascending key order *)
Theorem C42_expression pk {b t} (v : view b t) s m : denotes pk v s m ->
  (forall k, tree_get t s k = if decide (view_key_ok t k) then Ok (m !! k) else Panic) /\
  exists n l, (forall fuel, n <= fuel -> iter_collect fuel t s = Ok l) /\ StronglySorted N.lt l.*1 /\ l ≡ₚ map_to_list m.
Proof. apply denotes_ok. Qed.
(** the sparse dot product of the README *)
Theorem C42_dot_product pk {b0 b1 t0 t1} (v0 : view b0 t0) (v1 : view b1 t1) (h0 : t_V t0 -> N) (h1 : t_V t1 -> N) s0 s1 m0 m1 :
  t_nw t1 = t_nw t0 -> t_depth t1 = t_depth t0 -> denotes pk v0 s0 m0 -> denotes pk v1 s1 m1 ->
  exists n, forall fuel, n <= fuel ->
    dot t0 t1 h0 h1 s0 s1 fuel = Ok (map_fold (fun _ p acc => h0 p.1 * h1 p.2 + acc)%N 0%N (map_zip m0 m1)).
Proof. apply dot_ok. Qed.

(** C43: set algebra, observed by iteration.  [iter_as s s' g]: both iterations end and the
    second yields the first's pairs with [g] applied to the values; [iter_same_keys]: both end
    and yield the same keys. *)
Theorem C43_intersection_comm pk {b0 b1 t0 t1} (v0 : view b0 t0) (v1 : view b1 t1) s0 s1 : t_nw t1 = t_nw t0 -> t_depth t1 = t_depth t0 ->
  reached pk v0 s0 -> reached pk v1 s1 ->
  iter_as (t := t_intersection t0 t1) (t' := t_intersection t1 t0) (s0, s1) (s1, s0) (fun p => (p.2, p.1)).
Proof. intros Hn Hd H0 H1. exact (intersection_comm pk v0 v1 s0 s1 Hn Hd H0 H1). Qed.
Theorem C43_union_comm pk {t0 t1} (v0 : view true t0) (v1 : view true t1) s0 s1 : t_nw t1 = t_nw t0 -> t_depth t1 = t_depth t0 ->
  reached pk v0 s0 -> reached pk v1 s1 ->
  iter_as (t := t_union t0 t1) (t' := t_union t1 t0) (s0, s1) (s1, s0) (fun p => (p.2, p.1)).
Proof. intros Hn Hd H0 H1. exact (union_comm pk v0 v1 s0 s1 Hn Hd H0 H1). Qed.
Theorem C43_map_map pk {b t} (v : view b t) s {A B} (f : t_V t -> A) (g : A -> B) : reached pk v s ->
  iter_as (t := t_map (t_map t f) g) (t' := t_map t (fun x => g (f x))) s s id.
Proof. intros H. exact (map_map pk v s H f g). Qed.
Theorem C43_intersection_map pk {b0 b1 t0 t1} (v0 : view b0 t0) (v1 : view b1 t1) s0 s1 {A B} (f : t_V t0 -> A) (g : t_V t1 -> B) :
  t_nw t1 = t_nw t0 -> t_depth t1 = t_depth t0 -> reached pk v0 s0 -> reached pk v1 s1 ->
  iter_as (t := t_intersection t0 t1) (t' := t_intersection (t_map t0 f) (t_map t1 g)) (s0, s1) (s0, s1) (fun p => (f p.1, g p.2)).
Proof. intros Hn Hd H0 H1. exact (intersection_map pk v0 v1 s0 s1 Hn Hd H0 H1 f g). Qed.
Theorem C43_intersection_assoc pk {t0 t1 t2} (v0 : view true t0) (v1 : view true t1) (v2 : view true t2) s0 s1 s2 :
  t_nw t1 = t_nw t0 -> t_depth t1 = t_depth t0 -> t_nw t2 = t_nw t0 -> t_depth t2 = t_depth t0 ->
  reached pk v0 s0 -> reached pk v1 s1 -> reached pk v2 s2 ->
  iter_as (t := t_intersection (t_intersection t0 t1) t2) (t' := t_intersection t0 (t_intersection t1 t2))
    ((s0, s1), s2) (s0, (s1, s2)) (fun p => (p.1.1, (p.1.2, p.2))).
Proof. intros Hn Hd Hn2 Hd2 H0 H1 H2. exact (intersection_assoc pk v0 v1 s0 s1 Hn Hd H0 H1 v2 s2 Hn2 Hd2 H2). Qed.
Theorem C43_absorb_union pk {t0 t1} (v0 : view true t0) (v1 : view true t1) s0 s1 : t_nw t1 = t_nw t0 -> t_depth t1 = t_depth t0 ->
  reached pk v0 s0 -> reached pk v1 s1 ->
  iter_same_keys (t := t_union t0 (t_intersection t0 t1)) (t' := t0) (s0, (s0, s1)) s0.
Proof. intros Hn Hd H0 H1. exact (absorb_union pk v0 v1 s0 s1 Hn Hd H0 H1). Qed.
Theorem C43_absorb_intersection pk {t0 t1} (v0 : view true t0) (v1 : view true t1) s0 s1 : t_nw t1 = t_nw t0 -> t_depth t1 = t_depth t0 ->
  reached pk v0 s0 -> reached pk v1 s1 ->
  iter_same_keys (t := t_intersection t0 (t_union t0 t1)) (t' := t0) (s0, (s0, s1)) s0.
Proof. intros Hn Hd H0 H1. exact (absorb_intersection pk v0 v1 s0 s1 Hn Hd H0 H1). Qed.
Theorem C43_distribute pk {t0 t1 t2} (v0 : view true t0) (v1 : view true t1) (v2 : view true t2) s0 s1 s2 :
  t_nw t1 = t_nw t0 -> t_depth t1 = t_depth t0 -> t_nw t2 = t_nw t0 -> t_depth t2 = t_depth t0 ->
  reached pk v0 s0 -> reached pk v1 s1 -> reached pk v2 s2 ->
  iter_same_keys (t := t_intersection (t_union t0 t1) t2) (t' := t_union (t_intersection t0 t2) (t_intersection t1 t2))
    ((s0, s1), s2) ((s0, s2), (s1, s2)).
Proof. intros Hn Hd Hn2 Hd2 H0 H1 H2. exact (distribute pk v0 v1 s0 s1 Hn Hd H0 H1 v2 s2 Hn2 Hd2 H2). Qed.
(** the multi operations on two trees are the binary ones *)
Theorem C43_multi_intersection_two pk {t} (v : view true t) a b : reached pk v a -> reached pk v b ->
  iter_as (t := t_intersection t t) (t' := t_multi_intersection t) (a, b) [a; b] (fun p => [p.1; p.2]).
Proof. intros Ha Hb. exact (mi_is_intersection pk v a b Ha Hb). Qed.
Theorem C43_multi_union_two pk {t} (v : view true t) a b : 2 <= t_depth t -> reached pk v a -> reached pk v b ->
  iter_as (t := t_union t t) (t' := t_multi_union t) (a, b) [a; b] (fun p => present [p.1; p.2]).
Proof. intros HD Ha Hb. exact (mu_is_union pk v a b Ha Hb HD). Qed.
(** the order of the operands does not matter *)
Theorem C43_multi_intersection_perm pk {b t} (v : view b t) s s' : s <> [] -> length s <= 32 -> Forall (reached pk v) s -> s ≡ₚ s' ->
  iter_same_keys (t := t_multi_intersection t) (t' := t_multi_intersection t) s s'.
Proof. apply mi_perm. Qed.
Theorem C43_multi_union_perm pk {t} (v : view true t) s s' : 2 <= t_depth t -> length s <= 32 -> Forall (reached pk v) s -> s ≡ₚ s' ->
  iter_same_keys (t := t_multi_union t) (t' := t_multi_union t) s s'.
Proof. apply mu_perm. Qed.

(** ** the hypotheses are met: [ex_a] has the keys 5, 70, 200000 and [ex_b] 5, 71, 200000 *)
Example denotes_example : denotes any_key ex_leaf ex_a ex_map /\ denotes any_key ex_leaf ex_b {[5 := 5; 71 := 71; 200000 := 200000]}%N.
Proof.
  split.
  - exists ex_cs. split; [exact ex_dense_legal|]. split; [exact ex_dense_reached|]. split; [done|]. symmetry. exact ex_dense_map.
  - exists (inserts [5; 71; 200000]%N). split; [exact ex_b_legal|]. split; [exact ex_b_reached|]. split; [done|].
    apply (bool_decide_eq_true_1 _). vm_compute. done.
Qed.
(** 56 * 5 + 200009 * 200000 *)
Example dot_example : dot (dense_tree N 3) (dense_tree N 3) id id ex_a ex_b 100 = Ok 40001800280%N.
Proof. vm_compute. done. Qed.
Example algebra_example : reached any_key ex_view ex_s.
Proof. exact ex_view_reached. Qed.
