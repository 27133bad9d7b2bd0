(** * Properties of trees implemented by the client: C49

    [honest b t s] (Contract.v) is the contract of an implementation [t] of the public traits
    HibitTree and HibitTreeCursor for its value [s], stated by calls of the trait's methods
    only; [honest_exact] is the further promise of a type that declares EXACT_HIERARCHY. *)
From Verif Require Import Base BitUtils BitUtilsProofs LevelIndices LevelIndicesProofs Hierarchy Lawful IterProofs Ops Dense Sparse Spec SpecLaws Client TreeClient
  DenseHistory SparseHistory Generic Contract DenseLaws SparseLaws Materialize MaterializeProofs MaterializeLaws Compose ViewLaws
  MaterializeViews Denote Findings Examples UserTree PropertiesMaterialize.

(** the sizes the library supports: masks of 64, 128 or 256 bits, depth 1 to 9, keys in 64 bits *)
Definition supported (t : tree) : Prop :=
  nw_ok (t_nw t) /\ 1 <= t_depth t /\ t_depth t <= 9 /\ (msize (t_nw t) ^ N.of_nat (t_depth t) <= 2 ^ 64)%N.
Definition keeps_contract (b : bool) (pk : N -> Prop) (t : tree) (s : t_T t) : Prop :=
  honest b t s /\ honest_exact pk t s /\ honest_max t s.
Definition user {t} (b : bool) (H : supported t) : view b t :=
  VUser b t (proj1 H) (proj1 (proj2 H)) (proj1 (proj2 (proj2 H))) (proj2 (proj2 (proj2 H))).

(** ** C49: the library keeps the contract
    The containers after any legal history, and every lazy expression over containers and
    client trees that keep the contract, keep it too *)
Theorem C49_expressions_keep_contract pk {b t} (v : view b t) s : reached pk v s -> keeps_contract b pk t s.
Proof.
  intros Hr. pose proof (reached_good pk v s Hr) as [Hw Hm He]. split; [|split].
  - pose proof (lawful_honest (vL v) s Hw) as H. by rewrite vL_cdok in H.
  - by apply (lawful_honest_exact (vL v)).
  - by apply (lawful_honest_max (vL v)).
Qed.
Theorem C49_view_supported {b t} (v : view b t) : supported t.
Proof. pose proof (view_depth v) as [H1 H9]. split; [apply (l_nw (vL v))|]. split; [done|]. split; [done|]. apply (view_size v). Qed.
(** conversely, whatever keeps the contract may be used like a container *)
Theorem C49_contract_is_enough pk b t s (H : supported t) : keeps_contract b pk t s -> reached pk (user b H) s.
Proof. done. Qed.
Theorem C49_dense D {V} cs (s : dense V) : 1 <= D <= 9 -> dense_legal D cs -> dense_reached D cs s ->
  keeps_contract true (.∈ spec_all_panicked (64 ^ N.of_nat D) ∅ cs) (dense_tree V D) s.
Proof.
  intros [H1 H9] Hl Hr. apply (C49_expressions_keep_contract _ (VDense V D H1 H9)). by exists cs.
Qed.
Theorem C49_sparse nw D {V} req (dflt : option V) cs (s : sparse V) : nw_ok nw -> 1 <= D <= 8 ->
  sparse_legal nw D req dflt cs -> sparse_reached nw D req dflt cs s ->
  keeps_contract true (.∈ spec_all_panicked (key_bound nw D) ∅ cs) (sparse_tree V nw D) s.
Proof.
  intros Hnw [H1 H9] Hl Hr. apply (C49_expressions_keep_contract _ (VSparse V nw D (placeholder req dflt) Hnw H1 H9)). by exists req, dflt, cs.
Qed.
Theorem C49_map b pk t s {X} (f : t_V t -> X) : supported t -> keeps_contract b pk t s -> keeps_contract b pk (t_map t f) s.
Proof. intros H Hs. by apply (C49_expressions_keep_contract _ (VMap b t X f (user b H))). Qed.
Theorem C49_multi_map_fold b pk t s {X A} (items : t_V t -> list X) (init : A) (f : A -> X -> A) : supported t ->
  keeps_contract b pk t s -> keeps_contract b pk (t_multi_map_fold t items init f) s.
Proof. intros H Hs. by apply (C49_expressions_keep_contract _ (VMultiMapFold b t X A items init f (user b H))). Qed.
Theorem C49_intersection b0 b1 pk t0 t1 s0 s1 : t_nw t1 = t_nw t0 -> t_depth t1 = t_depth t0 -> supported t0 ->
  keeps_contract b0 pk t0 s0 -> keeps_contract b1 pk t1 s1 -> keeps_contract (b0 && b1) pk (t_intersection t0 t1) (s0, s1).
Proof.
  intros Hn Hd H0 Hs0 Hs1. assert (supported t1) as H1 by (unfold supported; by rewrite Hn, Hd).
  by apply (C49_expressions_keep_contract _ (VIntersection b0 b1 t0 t1 Hn Hd (user b0 H0) (user b1 H1))).
Qed.
Theorem C49_union pk t0 t1 s0 s1 : t_nw t1 = t_nw t0 -> t_depth t1 = t_depth t0 -> supported t0 ->
  keeps_contract true pk t0 s0 -> keeps_contract true pk t1 s1 -> keeps_contract true pk (t_union t0 t1) (s0, s1).
Proof.
  intros Hn Hd H0 Hs0 Hs1. assert (supported t1) as H1 by (unfold supported; by rewrite Hn, Hd).
  by apply (C49_expressions_keep_contract _ (VUnion t0 t1 Hn Hd (user true H0) (user true H1))).
Qed.
Theorem C49_multi_intersection b pk t ss : supported t -> ss <> [] -> length ss <= 32 -> Forall (keeps_contract b pk t) ss ->
  keeps_contract true pk (t_multi_intersection t) ss.
Proof. intros H Hne Hl Hf. by apply (C49_expressions_keep_contract _ (VMultiIntersection b t (user b H))). Qed.
Theorem C49_multi_union pk t ss : supported t -> 2 <= t_depth t -> length ss <= 32 -> Forall (keeps_contract true pk t) ss ->
  keeps_contract false pk (t_multi_union t) ss.
Proof. intros H Hd Hl Hf. by apply (C49_expressions_keep_contract _ (VMultiUnion t Hd (user true H))). Qed.

(** ** C49: what the library guarantees for a client tree that keeps the contract *)
Section client.
Context {t : tree} (b : bool) (pk : N -> Prop) (s : t_T t) (H : supported t) (Hs : keeps_contract b pk t s).

(** `get` answers every key in range and panics on the others; draining the iterator yields
    exactly the elements `get` reports, in ascending order; `get_unchecked` agrees *)
Theorem C49_get k : (view_key_ok t k -> exists o, tree_get t s k = Ok o) /\ (~ view_key_ok t k -> tree_get t s k = Panic).
Proof. exact (view_get_total (user b H) pk s Hs k). Qed.
Theorem C49_get_data q : length q = t_depth t -> Forall (fun i => i < msize (t_nw t))%N q -> undigits (msize (t_nw t)) q <> USIZE_MAX ->
  tree_get t s (undigits (msize (t_nw t)) q) = t_data t s (undigits (msize (t_nw t)) q) q.
Proof.
  intros Hl Hf Hu. assert (path_ok (t_nw t) (t_depth t) q) as Hq by by split.
  rewrite undigits_key in *. destruct (path_digits (t_nw t) (t_depth t) q (proj1 H) (proj1 (proj2 H)) Hq) as [Hk _].
  destruct (view_get pk (user b H) s (key_of_path (t_nw t) q) Hs) as [Hg _].
  rewrite Hg by (pose proof (proj2 (proj2 (proj2 H))) as H64; unfold view_key_ok, USIZE_MAX in *; lia).
  rewrite (content_path (vL (user b H)) s q Hq). cbn. unfold elem_at. rewrite undigits_key.
  destruct (h_data b t s (proj1 Hs) q Hq) as [o Ho]. rewrite undigits_key in Ho. by rewrite Ho.
Qed.
Theorem C49_iter : iter_agrees t s.
Proof. exact (view_iter (user b H) pk s Hs). Qed.
Theorem C49_get_unchecked k x : tree_get t s k = Ok (Some x) -> tree_get_unchecked t s k = Ok x.
Proof. exact (view_unchecked (user b H) pk s Hs k x). Qed.
(** and if it declares EXACT_HIERARCHY and its masks have 64 bits, `materialize` copies it *)
Theorem C49_materialize : t_exact t = true -> t_nw t = 1 -> few t s ->
  exists d m, materialize t s = Ok d /\ get_is t s m /\ reads_like s d /\ behaves_like d m.
Proof. intros He Hn Hf. exact (C17_materialize (user b H) pk s Hs Hn Hf He). Qed.
End client.

(** ** the hypotheses are met: a tree of depth 3 without storage that contains the keys whose
    last six bits are 5 or 11, and its intersection with a DenseTree *)
Definition ex_m0 : N := (2 ^ 5 + 2 ^ 11)%N.
Lemma ex_periodic_supported : supported (periodic 3 ex_m0).
Proof. split; [by left|]. cbn. split; [lia|]. split; [lia|]. vm_compute. done. Qed.
Lemma ex_periodic_keeps pk : keeps_contract true pk (periodic 3 ex_m0) tt.
Proof.
  split; [|split].
  - apply periodic_honest; [lia|vm_compute; done|vm_compute; done].
  - apply periodic_exact; [lia|vm_compute; done|vm_compute; done].
  - intros q Hq Hu. destruct (path_digits 1 3 q (or_introl eq_refl) ltac:(lia) Hq) as [Hk _].
    rewrite undigits_key in Hu. cbn [periodic t_nw] in Hu. rewrite Hu in Hk. done.
Qed.
Example periodic_get : tree_get (periodic 3 ex_m0) tt 71 = Ok None /\ tree_get (periodic 3 ex_m0) tt 69 = Ok (Some 69%N) /\
  tree_get (periodic 3 ex_m0) tt 262144 = Panic.
Proof. vm_compute. done. Qed.
Example periodic_intersection : reached any_key
    (VIntersection true true (dense_tree N 3) (periodic 3 ex_m0) eq_refl eq_refl ex_leaf (user true ex_periodic_supported)) (ex_b, tt) /\
  iter_collect 100 (t_intersection (dense_tree N 3) (periodic 3 ex_m0)) (ex_b, tt) = Ok [(5, (5, 5))]%N.
Proof. split; [split; [exact (ex_b_ok any_key)|exact (ex_periodic_keeps any_key)]|]. vm_compute. done. Qed.
(** depth 2 and one key per node: materialized, 64 elements *)
Example periodic_materialize :
  (let* d := materialize (periodic 2 32) tt in let* x := tree_get (dense_tree N 2) d (64 * 63 + 5) in
   let* y := tree_get (dense_tree N 2) d 6 in Ok (x, y)) = Ok (Some (64 * 63 + 5)%N, None).
Proof. vm_compute. done. Qed.

(** the contract is needed: the same tree with a cursor whose last mask announces an absent
    element (bit 6 too) is iterated with an element that `get` does not have *)
Definition liar : tree := 
  let t := periodic 2 32 in {|
  t_nw := 1; t_depth := 2; t_exact := true; t_T := unit; t_C := list N; t_V := N;
  t_data := t_data t; t_data_u := t_data_u t; t_new := t_new t;
  t_select := fun s c n i => let* (c, m) := t_select t s c n i in Ok (c, if (n =? 1)%nat then [96%N] else m);
  t_select_u := fun s c n i => let* (c, m) := t_select t s c n i in Ok (c, if (n =? 1)%nat then [96%N] else m);
  t_cdata := t_cdata t; t_cdata_u := t_cdata_u t |}.
Example liar_breaks : tree_get liar tt 6 = Ok None /\ exists l, iter_collect 300 liar tt = Ok ((5, 5) :: (6, 6) :: l)%N.
Proof. split; [vm_compute; done|]. eexists. vm_compute. reflexivity. Qed.
