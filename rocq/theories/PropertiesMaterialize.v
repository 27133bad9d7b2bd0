(** * Properties of `materialize`: C17, C18 (and more of C16)

    [materialize t s] (Materialize.v): `s.materialize::<DenseTree<_, D>>()` for a view [s]
    of one-word masks.  [few t s]: fewer than 2^32 elements (data indices are u32).
    [get_is t s m]: the finite map [m] is what `get` of [s] describes.  [dense_legal_from D m
    cs]: the calls [cs] exist on DenseTree, depth-1 trees are not asked to remove, and the
    map, starting from [m], never has 2^32 elements or more. *)
From Verif Require Import Base BitUtils BitUtilsProofs LevelIndices Hierarchy Ops Dense Spec SpecLaws Client TreeClient DenseHistory DenseLaws
  DenseProofs Materialize MaterializeLaws Compose ViewLaws IterCost MaterializeViews MaterializeEmpty Findings Examples.

Section mat.
Context {b : bool} {t : tree} (v : view b t) (pk : N -> Prop) (s : t_T t).
Hypothesis Hr : reached pk v s.
Hypothesis Hnw : t_nw t = 1.
Hypothesis Hfew : few t s.
Notation D := (t_depth t).
Notation B := (64 ^ N.of_nat (t_depth t))%N.
Notation T := (dense_tree (t_V t) (t_depth t)).

(** the copy is read like the source: `get` of every key, iteration, `key_values` *)
Definition reads_like (d : dense (t_V t)) : Prop :=
  (forall k, tree_get T d k = tree_get t s k) /\
  (exists n l, forall fuel, n <= fuel -> iter_collect fuel t s = Ok l /\ iter_collect fuel T d = Ok l) /\
  (exists ks vs, dense_key_values d = Ok (ks, vs) /\ length ks = length vs /\ NoDup ks /\
    forall k x, (k, x) ∈ zip ks vs <-> tree_get t s k = Ok (Some x)).
(** every further history of calls on the copy behaves like the map [m] it was made with;
    dropping the copy afterwards frees every node, and each value, copied or inserted later,
    is returned by `remove`, or dropped on replacement or with the tree, exactly once *)
Definition behaves_like (d : dense (t_V t)) (m : gmap N (t_V t)) : Prop :=
  forall cs, dense_legal_from D m cs ->
  exists d' dr h dr2, dense_calls D d cs = Ok (d', spec_outs B None m cs, dr) /\
    (forall k, tree_get T d' k = if (k <? B)%N then Ok (spec_run B m cs !! k) else Panic) /\
    dense_drop D d' = Ok (h, dr2) /\ h_nodes h = ∅ /\
    spec_collect B (spec_in B) m cs ++ vals m ≡ₚ removed_values cs (spec_outs B None m cs) ++ dr ++ dr2.

(** C17: a source that declares EXACT_HIERARCHY *)
Theorem C17_materialize : t_exact t = true ->
  exists d m, materialize t s = Ok d /\ get_is t s m /\ reads_like d /\ behaves_like d m.
Proof.
  intros Hex. destruct (mat_exact v pk s Hr Hnw Hfew (or_introl Hex)) as (d & m & E & Hm & Hi).
  assert (dense_inv D allp (fixd d) m) as Hf by (rewrite (fixd_inv _ _ _ _ Hi); by eapply dense_inv_false).
  exists d, m. split; [done|]. split; [done|]. split; [split; [|split]|].
  - intros k. by eapply (mat_get v pk s).
  - by eapply (mat_iter v pk s).
  - by eapply (mat_kv v).
  - intros cs Hl. by eapply (mat_calls v).
Qed.
(** C17: if the source's masks are exact, so are the copy's: its root and inner masks announce a
    child iff an element lies below it, also after further calls, except above the keys whose
    value constructor panicked, in the source's or the copy's history *)
Theorem C17_materialize_exact d m cs d' os dr xs p checked : t_exact t = true ->
  materialize t s = Ok d -> get_is t s m -> dense_legal_from D m cs -> (forall k, k ∈ spec_all_panicked B m cs -> pk k) ->
  dense_calls D d cs = Ok (d', os, dr) ->
  sel_run 64 D (has_elem T d') None xs (Some (p, checked)) ->
  exists c0 c mk, t_new T d' = Ok c0 /\ run_selects T d' c0 None xs = Ok (c, Some mk) /\
    forall i, (has_elem T d' (p ++ [i]) -> mbit mk i = true) /\
      (mbit mk i = true -> has_elem T d' (p ++ [i]) \/ key_below T pk (p ++ [i])).
Proof.
  intros Hex Hmat Hm Hl Hp Hc Hs. destruct (view_depth v) as [H1 H9].
  pose proof (mat_reached v pk s Hr Hnw Hfew d m cs d' os dr H1 H9 Hex Hmat Hm Hl Hc Hp) as Hr'.
  destruct (view_cursor (VMat b t Hnw H1 H9 v) pk d' Hr' xs p checked Hs) as (c0 & c & mk & E1 & E2 & _ & E4 & _ & E6 & _).
  exists c0, c, mk. split; [done|]. split; [done|]. intros i. split; auto.
Qed.

(** C17: up to depth 5 (64^5 < 2^32) [few] always holds *)
Theorem C17_few_small : D <= 5 -> few t s.
Proof. intros H5. exact (few_small v pk s Hr Hnw H5). Qed.

(** C18: a source that does not declare it (intersections), with at least one element (or
    of depth 1): the copy is read like the source, and dropping it frees every node.
    Missing for the full claim: an empty source (undefined behaviour for some:
    [C18_empty_refuted]) and calls that change the copy (depth at least 2: undefined
    behaviour, [C18_insert_refuted], [C18_remove_refuted]) *)
Theorem C18_materialize_partial : t_exact t = false -> (D = 1 \/ exists k x, tree_get t s k = Ok (Some x)) ->
  exists d m h dr, materialize t s = Ok d /\ get_is t s m /\ reads_like d /\
    dense_drop D d = Ok (h, dr) /\ h_nodes h = ∅ /\ dr ≡ₚ vals m.
Proof.
  intros Hex Hc. destruct (mat_sparse v pk s Hr Hnw Hfew Hex) as [(d & m & E & Hm & Hi)|(E & HD & Hn)].
  2:{ exfalso. destruct Hc as [?|(k & x & Hx)]; [lia|]. by eapply Hn. }
  destruct (mat_drop v d m Hi) as (h & dr & Ed & Hh & Hd).
  exists d, m, h, dr. split; [done|]. split; [done|]. split; [split; [|split]|done].
  - intros k. by eapply (mat_get v pk s).
  - by eapply (mat_iter v pk s).
  - by eapply (mat_kv v).
Qed.
(** depth 1: everything, whatever the source declares *)
Theorem C18_materialize_depth1 : D = 1 ->
  exists d m, materialize t s = Ok d /\ get_is t s m /\ reads_like d /\ behaves_like d m.
Proof.
  intros H1. destruct (mat_exact v pk s Hr Hnw Hfew (or_intror H1)) as (d & m & E & Hm & Hi).
  assert (dense_inv D allp (fixd d) m) as Hf by (rewrite (fixd_inv _ _ _ _ Hi); by eapply dense_inv_false).
  exists d, m. split; [done|]. split; [done|]. split; [split; [|split]|].
  - intros k. by eapply (mat_get v pk s).
  - by eapply (mat_iter v pk s).
  - by eapply (mat_kv v).
  - intros cs Hl. by eapply (mat_calls v).
Qed.
(** if it fails, the source has no element and depth at least 2 *)
Theorem C18_failure : t_exact t = false -> (exists d, materialize t s = Ok d) \/
  (materialize t s = UB /\ 2 <= D /\ forall k x, tree_get t s k <> Ok (Some x)).
Proof. intros Hex. destruct (mat_sparse v pk s Hr Hnw Hfew Hex) as [(d & m & E & _)|H]; eauto. Qed.
(** it fails exactly when the depth is at least 2 and iterating the source selects no node of
    the last level ([iter_visits t s ps]: the paths of the nodes an iteration selects, C39) *)
Theorem C18_failure_exactly ps : t_exact t = false -> iter_visits t s ps ->
  (materialize t s = UB <-> 2 <= D /\ forall p, p ∈ ps -> S (length p) <> D).
Proof. exact (mat_ub_iff v pk s ps Hr Hnw Hfew). Qed.
End mat.
(** in terms of keys, for `map(intersection(a, b), f)` where a and b declare EXACT_HIERARCHY
    (DenseTree, SparseTree, unions, mapped ones) and no constructor given to them panicked:
    undefined behaviour exactly if the depth is at least 2 and no key of a lies in the same
    64-key node as a key of b *)
Theorem C18_intersection_failure_exactly {b0 b1 t0 t1} (v0 : view b0 t0) (v1 : view b1 t1) s0 s1 {W} (f : t_V t0 * t_V t1 -> W) :
  t_nw t0 = 1 -> t_nw t1 = t_nw t0 -> t_depth t1 = t_depth t0 ->
  reached no_key v0 s0 -> reached no_key v1 s1 -> t_exact t0 = true -> t_exact t1 = true -> few (t_map (t_intersection t0 t1) f) (s0, s1) ->
  (materialize (t_map (t_intersection t0 t1) f) (s0, s1) = UB <->
   2 <= t_depth t0 /\ forall k0 x0 k1 x1, tree_get t0 s0 k0 = Ok (Some x0) -> tree_get t1 s1 k1 = Ok (Some x1) -> (k0 / 64 <> k1 / 64)%N).
Proof. exact (mat_intersection_ub v0 v1 s0 s1 f). Qed.

(** ** findings: map(intersection(a, b), first), depth 2 *)
(** roots without a common child: `None.unwrap_unchecked()` (from.rs:172-174) *)
Theorem C18_empty_refuted : materialize ex_first (dense_after 2 (inserts [5%N]), dense_after 2 (inserts [70%N])) = UB.
Proof. exact mat_empty_ub. Qed.
(** the copy of {5, 70} or {5}: the calls below are undefined behaviour at the last one
    ([from_parts] stores a `len` without the default child, so the next insertion or removal
    of a child of the root misplaces it) *)
Theorem C18_insert_refuted : mat_calls_outs [5%N] [CInsert 200 1]%N = Ok [ODone] /\
  mat_calls_outs [5%N] [CInsert 200 1; CGet 300]%N = UB.
Proof. exact mat_insert_ub. Qed.
Theorem C18_remove_refuted : mat_calls_outs [5; 70]%N [CRemove 70; CGet 5]%N = Ok [OVal (Some 70%N); OVal (Some 5%N)] /\
  mat_calls_outs [5; 70]%N [CRemove 70; CGet 5; CGet 70]%N = UB.
Proof. exact mat_remove_ub. Qed.
(** C16: the copy of {5,6} ∩ {7,8} is empty, claims EXACT_HIERARCHY, and announces a child *)
Theorem C16_materialize_refuted : exists d,
  materialize ex_first (dense_after 2 (inserts [5; 6]%N), dense_after 2 (inserts [7; 8]%N)) = Ok d /\
  (forall k, (k < 4096)%N -> tree_get (dense_tree N 2) d k = Ok None) /\
  probe_mask (dense_tree N 2) d [Sel 0 0 false] = Ok (Some [1%N]).
Proof. exact mat_not_exact. Qed.

(** ** the hypotheses are met *)
(** C17: b ∪ map(c), depth 3, with elements in several subtrees, is copied; then a history
    of insertions, a replacement, removals, reads and a rejected key; then iteration *)
Example C17_example : reached no_key ex_uv (ex_b, ex_c) /\ t_nw ex_ut = 1 /\ t_exact ex_ut = true /\ few ex_ut (ex_b, ex_c) /\
  (forall m, get_is ex_ut (ex_b, ex_c) m -> dense_legal_from 3 m ex_ucs /\ spec_all_panicked (64 ^ 3) m ex_ucs = ∅) /\
  ex_mat_run = Ok ([ODone; OVal (Some (Some 5, Some 6)); ODone; OVal (Some (Some 71, None)); OVal (Some (None, Some 9001)); OVal None; OPanic],
    [(71, (Some 71, None)); (72, (Some 1, Some 2)); (9001, (None, None)); (200000, (Some 200000, None))])%N.
Proof. exact ex_mat. Qed.
(** C18 *)
Example C18_example : reached no_key ex_fv (dense_after 2 (inserts [5; 70; 71]%N), dense_after 2 (inserts [5; 71; 300]%N)) /\
  t_nw ex_first = 1 /\ t_exact ex_first = false /\
  few ex_first (dense_after 2 (inserts [5; 70; 71]%N), dense_after 2 (inserts [5; 71; 300]%N)) /\
  tree_get ex_first (dense_after 2 (inserts [5; 70; 71]%N), dense_after 2 (inserts [5; 71; 300]%N)) 71 = Ok (Some 71%N).
Proof. exact ex_mat_sparse. Qed.
(** both sides of [C18_intersection_failure_exactly] occur: {5} ∩ {70} (different nodes) is
    undefined behaviour, {5,6} ∩ {7,8} (same node, also empty) is copied *)
Example C18_exactly_example :
  let s := (dense_after 2 (inserts [5]%N), dense_after 2 (inserts [70]%N)) in
  let s' := (dense_after 2 (inserts [5; 6]%N), dense_after 2 (inserts [7; 8]%N)) in
  reached no_key ex_fv s /\ few ex_first s /\ materialize ex_first s = UB /\
  reached no_key ex_fv s' /\ few ex_first s' /\ exists d, materialize ex_first s' = Ok d.
Proof.
  intros s s'. assert (reached no_key ex_fv s) as Hr.
  { split; eexists; (split; [|split; [apply after_reached; [lia|lia|]|apply none_panicked]]); cbn [fst snd s];
      try (apply dense_small_legal; [lia|lia|lia|repeat constructor|lia]); apply (bool_decide_eq_true_1 _); vm_compute; done. }
  assert (reached no_key ex_fv s') as Hr'.
  { split; eexists; (split; [|split; [apply after_reached; [lia|lia|]|apply none_panicked]]); cbn [fst snd s'];
      try (apply dense_small_legal; [lia|lia|lia|repeat constructor|lia]); apply (bool_decide_eq_true_1 _); vm_compute; done. }
  split; [exact Hr|]. split; [exact (few_small ex_fv no_key _ Hr eq_refl ltac:(cbn; lia))|]. split; [exact mat_empty_ub|].
  split; [exact Hr'|]. split; [exact (few_small ex_fv no_key _ Hr' eq_refl ltac:(cbn; lia))|].
  destruct mat_not_exact as (d & E & _). by exists d.
Qed.
