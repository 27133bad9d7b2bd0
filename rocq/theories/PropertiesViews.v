(** * Properties of lazy views: C09-C16, C23, C24, C29

    [view b t] (Compose.v): the tree type [t] is a nesting of `map`, `multi_map_fold`,
    `union`, `intersection`, `multi_union`, `multi_intersection` over DenseTree and
    SparseTree; a container alone is a view too.  [reached pk v s]: the value [s] of that
    type is built from containers that were produced by legal histories of public calls
    (with [pk]: in which no value constructor panicked), with 1..32 operands of
    multi_intersection and 0..32 of multi_union.
    [b = true]: the view's cursor answers None for every absent element; this fails for
    multi_union (finding, see [C24_multi_union_data_refuted]), and `union` and `multi_union`
    rely on it: [C15_union_of_multi_union_refuted]. *)
From Verif Require Import Base BitUtils BitUtilsProofs LevelIndices Hierarchy Ops Dense Sparse Spec SpecLaws Client TreeClient
  DenseHistory SparseHistory DenseLaws SparseLaws Generic Compose ViewLaws CostLaws IterCost MultiIters Findings Examples.

Section ops.
Implicit Types (k : N).

(** C09: key by key, `get` of the intersection is [both] of the operands' `get`s (or the key
    is rejected by all three); iteration agrees with `get`, in ascending order *)
Theorem C09_intersection_get {b0 b1 t0 t1} (v0 : view b0 t0) (v1 : view b1 t1) pk s0 s1 k : t_nw t1 = t_nw t0 -> t_depth t1 = t_depth t0 ->
  reached pk v0 s0 -> reached pk v1 s1 ->
  (exists o0 o1, tree_get t0 s0 k = Ok o0 /\ tree_get t1 s1 k = Ok o1 /\ tree_get (t_intersection t0 t1) (s0, s1) k = Ok (both o0 o1)) \/
  (tree_get t0 s0 k = Panic /\ tree_get t1 s1 k = Panic /\ tree_get (t_intersection t0 t1) (s0, s1) k = Panic).
Proof. apply intersection_law. Qed.
Theorem C09_intersection_iter {b0 b1 t0 t1} (v0 : view b0 t0) (v1 : view b1 t1) pk s0 s1 : t_nw t1 = t_nw t0 -> t_depth t1 = t_depth t0 ->
  reached pk v0 s0 -> reached pk v1 s1 -> iter_agrees (t_intersection t0 t1) (s0, s1).
Proof. intros Hn Hd H0 H1. by apply (view_iter (VIntersection b0 b1 t0 t1 Hn Hd v0 v1) pk (s0, s1)). Qed.

(** C10 *)
Theorem C10_union_get {t0 t1} (v0 : view true t0) (v1 : view true t1) pk s0 s1 k : t_nw t1 = t_nw t0 -> t_depth t1 = t_depth t0 ->
  reached pk v0 s0 -> reached pk v1 s1 ->
  (exists o0 o1, tree_get t0 s0 k = Ok o0 /\ tree_get t1 s1 k = Ok o1 /\ tree_get (t_union t0 t1) (s0, s1) k = Ok (either o0 o1)) \/
  (tree_get t0 s0 k = Panic /\ tree_get t1 s1 k = Panic /\ tree_get (t_union t0 t1) (s0, s1) k = Panic).
Proof. apply union_law. Qed.
Theorem C10_union_iter {t0 t1} (v0 : view true t0) (v1 : view true t1) pk s0 s1 : t_nw t1 = t_nw t0 -> t_depth t1 = t_depth t0 ->
  reached pk v0 s0 -> reached pk v1 s1 -> iter_agrees (t_union t0 t1) (s0, s1).
Proof. intros Hn Hd H0 H1. by apply (view_iter (VUnion t0 t1 Hn Hd v0 v1) pk (s0, s1)). Qed.

(** C11 *)
Theorem C11_map_get {b t} (v : view b t) pk s {W} (f : t_V t -> W) k : reached pk v s ->
  tree_get (t_map t f) s k = match tree_get t s k with Ok o => Ok (f <$> o) | Panic => Panic | UB => UB | OutOfFuel => OutOfFuel end.
Proof. apply map_law. Qed.
(** the same keys, in the same order, with the function applied *)
Theorem C11_map_iter {b t} (v : view b t) pk s {W} (f : t_V t -> W) : reached pk v s ->
  exists n l, forall fuel, n <= fuel -> iter_collect fuel t s = Ok l /\
    iter_collect fuel (t_map t f) s = Ok ((fun kv => (kv.1, f kv.2)) <$> l).
Proof.
  intros Hr. destruct (view_iter v pk s Hr) as (n & l & Hl & Hs & He).
  destruct (view_iter (VMap b t W f v) pk s Hr) as (n' & l' & Hl' & Hs' & He').
  exists (n + n'), l. intros fuel Hf. split; [apply Hl; lia|]. rewrite Hl' by lia. f_equal.
  set (g := fun k => match tree_get (t_map t f) s k with Ok o => o | _ => None end).
  apply (enumerates_unique _ _ g g); [| |done]; unfold g.
  - split; [done|]. intros k x. rewrite He'. destruct (tree_get (t_map t f) s k); naive_solver.
  - split.
    + assert (((fun kv : N * t_V t => (kv.1, f kv.2)) <$> l).*1 = l.*1) as Hk.
      { rewrite <- list_fmap_compose. apply list_fmap_ext. by intros ? []. }
      refine (eq_ind_r (StronglySorted N.lt) Hs Hk).
    + intros k x. rewrite elem_of_list_fmap. rewrite (map_law v pk s f k Hr). split.
      * intros ([k' y] & [= -> ->] & H%He). rewrite H. done.
      * intros H. destruct (tree_get t s k) as [[y|]| | |] eqn:Hg; try done. cbn in H. simplify_eq. exists (k, y). split; [done|]. by apply He.
Qed.

(** C12: for 1..32 trees *)
Theorem C12_multi_intersection_get {b t} (v : view b t) pk s k : s <> [] -> length s <= 32 -> Forall (reached pk v) s ->
  (exists os, Forall2 (fun a o => tree_get t a k = Ok o) s os /\ tree_get (t_multi_intersection t) s k = Ok (all_of os)) \/
  (Forall (fun a => tree_get t a k = Panic) s /\ tree_get (t_multi_intersection t) s k = Panic).
Proof. apply mi_law. Qed.
Theorem C12_multi_intersection_iter {b t} (v : view b t) pk s : s <> [] -> length s <= 32 -> Forall (reached pk v) s ->
  iter_agrees (t_multi_intersection t) s.
Proof. intros Hne Hl Hf. by apply (view_iter (VMultiIntersection b t v) pk s). Qed.
(** zero trees: `get` answers Some(no values) for every key, iteration is empty;
    more than 32: no cursor can be made (panic), and `get` panics *)
Theorem C12_zero_trees_refuted : tree_get (t_multi_intersection (dense_tree N 2)) [] 7 = Ok (Some []) /\
  iter_collect 10 (t_multi_intersection (dense_tree N 2)) [] = Ok [].
Proof. exact mi_empty_iter. Qed.
Theorem C12_too_many_panic t s : 32 < length s -> (forall a, a ∈ s -> exists c, t_new t a = Ok c) ->
  iter_new (t_multi_intersection t) s = Panic.
Proof. intros Hl Hn. unfold iter_new. by rewrite (mi_too_many t s Hl Hn). Qed.

(** `get` for any number of trees: a key that is absent from one of the first 33 is absent;
    otherwise more than 32 trees panic.  `get_unchecked` has no such limit *)
Theorem C12_multi_intersection_get_any_count t s k os : s <> [] -> Forall2 (fun a o => tree_get t a k = Ok o) s os ->
  tree_get (t_multi_intersection t) s k =
    match all_of (take 33 os) with
    | None => Ok None
    | Some _ => if decide (length s <= 32) then Ok (all_of os) else Panic
    end.
Proof. apply mi_get_any. Qed.
Theorem C12_multi_intersection_get_unchecked_any_count t s k vs : Forall2 (fun a v => tree_get_unchecked t a k = Ok v) s vs ->
  tree_get_unchecked (t_multi_intersection t) s k = Ok vs.
Proof. apply mi_get_unchecked_any. Qed.

(** C13: for at most 32 trees, depth at least 2.  Missing for the full claim: depth 1, where
    iteration panics ([C13_depth1_refuted]); more than 32 trees panic *)
Theorem C13_multi_union_get_partial {t} (v : view true t) pk s k : 2 <= t_depth t -> length s <= 32 -> Forall (reached pk v) s ->
  (exists os, Forall2 (fun a o => tree_get t a k = Ok o) s os /\ tree_get (t_multi_union t) s k = Ok (some_of os)) \/
  (Forall (fun a => tree_get t a k = Panic) s /\ tree_get (t_multi_union t) s k = Panic).
Proof. apply mu_law. Qed.
Theorem C13_multi_union_iter_partial {t} (v : view true t) pk s : 2 <= t_depth t -> length s <= 32 -> Forall (reached pk v) s ->
  iter_agrees (t_multi_union t) s.
Proof. intros HD Hl Hf. by apply (view_iter (VMultiUnion t HD v) pk s). Qed.
Theorem C13_depth1_refuted : let s := [dense_after 1 (inserts [5%N])] in
  tree_get (t_multi_union (dense_tree N 1)) s 5 = Ok (Some [5%N]) /\
  iter_collect 10 (t_multi_union (dense_tree N 1)) s = Panic.
Proof. exact mu_depth1. Qed.
Theorem C13_too_many_panic t s : 32 < length s -> (forall a, a ∈ s -> exists c, t_new t a = Ok c) ->
  iter_new (t_multi_union t) s = Panic.
Proof. intros Hl Hn. unfold iter_new. by rewrite (mu_too_many t s Hl Hn). Qed.

(** `get` alone works for every depth (depth 1 too) and any number of trees, as long as at most
    32 of them have the key; `get_unchecked` has no limit *)
Theorem C13_multi_union_get_any_count t s k os : s <> [] -> Forall2 (fun a o => tree_get t a k = Ok o) s os ->
  tree_get (t_multi_union t) s k = if decide (length (present os) <= 32) then Ok (some_of os) else Panic.
Proof. apply mu_get_any. Qed.
Theorem C13_multi_union_get_unchecked_any_count t s k os : Forall2 (fun a o => tree_get t a k = Ok o) s os ->
  tree_get_unchecked (t_multi_union t) s k = Ok (present os).
Proof. apply mu_get_unchecked_any. Qed.

(** C37: the item iterators of `multi_*` ([items_iter], MultiIters.v): calls of `next` return
    the items in operand order, then None for ever; stopping anywhere and `fold`ing yields the
    remaining items; `size_hint` brackets their number (and states it for multi_intersection).
    First the iterators of `get_unchecked`, for any number of trees *)
Theorem C37_multi_intersection_unchecked_items t s k vs : Forall2 (fun a v => tree_get_unchecked t a k = Ok v) s vs ->
  let li := level_indices (t_nw t) (t_depth t) k in
  items_iter (mi_du_next t k li) (fun B f b => mi_du_fold t k li f b) (mi_du_hint t) true s vs.
Proof. intros H. apply mi_du_items. exact (mi_get_unchecked_any t k s vs H). Qed.
Theorem C37_multi_union_unchecked_items t s k os : Forall2 (fun a o => tree_get t a k = Ok o) s os ->
  let li := level_indices (t_nw t) (t_depth t) k in
  items_iter (mu_du_next t k li) (fun B f b => mu_du_fold t k li f b) (mu_du_hint t) false s (present os).
Proof. intros H. apply mu_du_items. exact (mu_get_unchecked_any t k s os H). Qed.
(** then the iterators handed out by a cursor at the element at path [p], index [i] *)
Theorem C37_multi_intersection_cursor_items {b t} (v : view b t) pk s xs p checked : s <> [] -> length s <= 32 -> Forall (reached pk v) s ->
  let t' := t_multi_intersection t in
  sel_run (msize (t_nw t)) (t_depth t) (has_elem t' s) None xs (Some (p, checked)) -> length p = t_depth t - 1 ->
  exists c0 c mk, t_new t' s = Ok c0 /\ run_selects t' s c0 None xs = Ok (c, Some mk) /\
    forall i l, (i < msize (t_nw t))%N -> tree_get t' s (undigits (msize (t_nw t)) (p ++ [i])) = Ok (Some l) ->
      items_iter (mi_cd_next t i) (fun B f b => mi_cd_fold t i f b) (mi_cd_hint t) true (s, mi_cursors c) l.
Proof.
  intros Hne Hl Hf t' Hx Hp.
  destruct (view_cursor (VMultiIntersection b t v) pk s (conj Hne (conj Hl Hf)) xs p checked Hx)
    as (c0 & c & mk & H1 & H2 & _ & _ & _ & _ & H7).
  exists c0, c, mk. split; [done|]. split; [done|]. intros i l Hi Hg. apply mi_cd_items.
  by apply (H7 Hp i Hi).
Qed.
Theorem C37_multi_union_cursor_items {t} (v : view true t) pk s xs p checked : 2 <= t_depth t -> length s <= 32 -> Forall (reached pk v) s ->
  let t' := t_multi_union t in
  sel_run (msize (t_nw t)) (t_depth t) (has_elem t' s) None xs (Some (p, checked)) -> length p = t_depth t - 1 ->
  exists c0 c mk, t_new t' s = Ok c0 /\ run_selects t' s c0 None xs = Ok (c, Some mk) /\
    forall i l, (i < msize (t_nw t))%N -> tree_get t' s (undigits (msize (t_nw t)) (p ++ [i])) = Ok (Some l) ->
      items_iter (mu_cd_next t (mu_cursors c) i) (fun B f b => mu_cd_fold t (mu_cursors c) i f b) mu_cd_hint false (mu_cd_start c) l.
Proof.
  intros HD Hl Hf t' Hx Hp.
  destruct (view_cursor (VMultiUnion t HD v) pk s (conj Hl Hf) xs p checked Hx)
    as (c0 & c & mk & H1 & H2 & _ & _ & _ & _ & H7).
  exists c0, c, mk. split; [done|]. split; [done|]. intros i l Hi Hg. apply (mu_cd_start_items t s).
  by apply (H7 Hp i Hi).
Qed.

(** C14 *)
Theorem C14_multi_map_fold_get {b t} (v : view b t) pk s {X A} (items : t_V t -> list X) (init : A) (f : A -> X -> A) k : reached pk v s ->
  tree_get (t_multi_map_fold t items init f) s k =
    match tree_get t s k with Ok o => Ok ((fun d => fold_left f (items d) init) <$> o) | Panic => Panic | UB => UB | OutOfFuel => OutOfFuel end.
Proof. apply mmf_law. Qed.
Theorem C14_multi_map_fold_iter {b t} (v : view b t) pk s {X A} (items : t_V t -> list X) (init : A) (f : A -> X -> A) : reached pk v s ->
  iter_agrees (t_multi_map_fold t items init f) s.
Proof. intros Hr. by apply (view_iter (VMultiMapFold b t X A items init f v) pk s). Qed.
End ops.

Section views.
Context {b : bool} {t : tree} (v : view b t) (pk : N -> Prop) (s : t_T t).
Hypothesis Hr : reached pk v s.

(** C15: any nesting: draining the iterator yields exactly what `get` reports, sorted.
    Missing for the full claim: nestings of `union`/`multi_union` directly over
    `multi_union` (false: [C15_union_of_multi_union_refuted]) *)
Theorem C15_views_iter_partial : iter_agrees t s.
Proof. exact (view_iter v pk s Hr). Qed.
(** `get` of a view never fails on a key in range and rejects all others *)
Theorem C15_views_get_total k :
  ((k < N.min (msize (t_nw t) ^ N.of_nat (t_depth t)) USIZE_MAX)%N -> exists o, tree_get t s k = Ok o) /\
  ((N.min (msize (t_nw t) ^ N.of_nat (t_depth t)) USIZE_MAX <= k)%N -> tree_get t s k = Panic).
Proof.
  destruct (view_get_total v pk s Hr k) as [H1 H2]. split; intros Hk; [apply H1|apply H2]; unfold view_key_ok; lia.
Qed.

(** C29: polling [m] times: first the items, then None forever *)
Theorem C29_iter_finishes : exists n l,
  (forall fuel, n <= fuel -> iter_collect fuel t s = Ok l) /\
  (forall m fuel, n <= fuel -> exists it it', iter_new t s = Ok it /\
      iter_poll fuel m t s it = Ok (it', take m ((Some <$> l) ++ replicate m None))).
Proof. exact (view_poll v pk s Hr). Qed.

(** C23 *)
Theorem C23_get_unchecked k x : tree_get t s k = Ok (Some x) -> tree_get_unchecked t s k = Ok x.
Proof. exact (view_unchecked v pk s Hr k x). Qed.

(** C24: any sequence of selections that the protocol allows ([sel_run], Spec.v), ending with
    the path [p] selected: the mask returned last announces every child that contains an
    element; at the bottom level exactly those, and `data_unchecked` / `data` return the
    element at path [p] and index [i] whatever was selected before.  Missing for the full
    claim: `data` after unchecked selections (false for multi_intersection:
    [C24_unchecked_then_data_refuted]) and absence for multi_union (false:
    [C24_multi_union_data_refuted]) *)
Theorem C24_cursor_partial xs p checked :
  sel_run (msize (t_nw t)) (t_depth t) (has_elem t s) None xs (Some (p, checked)) ->
  exists c0 c mk, t_new t s = Ok c0 /\ run_selects t s c0 None xs = Ok (c, Some mk) /\
    length mk = t_nw t /\
    (forall i, has_elem t s (p ++ [i]) -> mbit mk i = true) /\
    (length p = t_depth t - 1 -> forall i, mbit mk i = true -> has_elem t s (p ++ [i])) /\
    (length p = t_depth t - 1 -> forall i, (i < msize (t_nw t))%N ->
      (forall x, tree_get t s (undigits (msize (t_nw t)) (p ++ [i])) = Ok (Some x) -> t_cdata_u t s c i = Ok x) /\
      (checked = true -> exists d, t_cdata t s c i = Ok d /\
        (forall x, tree_get t s (undigits (msize (t_nw t)) (p ++ [i])) = Ok (Some x) -> d = Some x) /\
        (b = true -> forall x, d = Some x -> tree_get t s (undigits (msize (t_nw t)) (p ++ [i])) = Ok (Some x)))).
Proof.
  intros H. destruct (view_cursor v pk s Hr xs p checked H) as (c0 & c & mk & H1 & H2 & H3 & H4 & H5 & _ & H7).
  exists c0, c, mk. done.
Qed.
(** selecting a child that its parent's mask does not announce gives an empty mask *)
Theorem C24_absent_child xs p i : S (length p) < t_depth t -> (i < msize (t_nw t))%N ->
  sel_run (msize (t_nw t)) (t_depth t) (has_elem t s) None xs (Some (p, true)) ->
  exists c0 c1 c2 m1 m2, t_new t s = Ok c0 /\ run_selects t s c0 None xs = Ok (c1, Some m1) /\
    t_select t s c1 (S (length p)) i = Ok (c2, m2) /\ (mbit m1 i = false -> mask_is_zero m2 = true).
Proof. intros H1 H2 H3. by apply (view_absent v pk s Hr xs p true). Qed.

(** C16: in a view that declares EXACT_HIERARCHY: a child without elements is announced only if
    it contains a key for which a value constructor panicked ([pk] holds of all such keys) *)
Theorem C16_exact_upto_panics xs p checked : t_exact t = true ->
  sel_run (msize (t_nw t)) (t_depth t) (has_elem t s) None xs (Some (p, checked)) ->
  exists c0 c mk, t_new t s = Ok c0 /\ run_selects t s c0 None xs = Ok (c, Some mk) /\
    forall i, (has_elem t s (p ++ [i]) -> mbit mk i = true) /\
      (mbit mk i = true -> has_elem t s (p ++ [i]) \/ key_below t pk (p ++ [i])).
Proof.
  intros Hx H. destruct (view_cursor v pk s Hr xs p checked H) as (c0 & c & mk & H1 & H2 & H3 & H4 & _ & H6 & _).
  exists c0, c, mk. split; [done|]. split; [done|]. intros i. split; auto.
Qed.
(** so if its containers saw no panicking constructor (or: none below this node), a mask bit is
    set iff an element lies below that child.  Missing for the full claim: panicking
    constructors (false: [C16_dense_panic_refuted], [C16_sparse_panic_refuted]) *)
Theorem C16_exact_partial xs p checked : ~ key_below t pk p -> t_exact t = true ->
  sel_run (msize (t_nw t)) (t_depth t) (has_elem t s) None xs (Some (p, checked)) ->
  exists c0 c mk, t_new t s = Ok c0 /\ run_selects t s c0 None xs = Ok (c, Some mk) /\
    forall i, mbit mk i = true <-> has_elem t s (p ++ [i]).
Proof.
  intros Hpk Hx H. destruct (C16_exact_upto_panics xs p checked Hx H) as (c0 & c & mk & H1 & H2 & Hm).
  exists c0, c, mk. split; [done|]. split; [done|]. intros i. split; [|apply Hm]. intros Hb.
  destruct (Hm i) as [_ H3]. destruct (H3 Hb) as [|(k & Hk & Hp)]; [done|]. destruct Hpk. exists k. split; [|done].
  destruct Hk as [Hk Hpre]. split; [done|]. etrans; [|exact Hpre]. by exists [i].
Qed.
End views.

(** ** findings *)
Theorem C24_unchecked_then_data_refuted :
  let t := t_multi_intersection (dense_tree N 2) in
  let s := [dense_after 2 (inserts [5%N]); dense_after 2 (inserts [5; 6]%N)] in
  tree_get t s 5 = Ok (Some [5%N; 5%N]) /\
  probe t s [Sel 0 0 true; Sel 1 0 true] 5 = Ok None /\ probe_u t s [Sel 0 0 true; Sel 1 0 true] 5 = Ok [5%N; 5%N].
Proof. exact mi_cursor_unchecked_data. Qed.
Theorem C24_multi_union_data_refuted : let t := t_multi_union (dense_tree N 2) in let s := [dense_after 2 (inserts [5%N])] in
  tree_get t s 6 = Ok None /\ probe t s [Sel 0 0 false; Sel 1 0 false] 6 = Ok (Some []).
Proof. exact mu_cursor_data. Qed.
Theorem C15_union_of_multi_union_refuted :
  let t := t_union (t_multi_union (dense_tree N 2)) (dense_tree N 2) in
  let s := ([dense_after 2 (inserts [5%N])], dense_after 2 (inserts [6%N])) in
  tree_get t s 6 = Ok (Some (None, Some 6%N)) /\
  iter_collect 10 t s = Ok [(5%N, (Some [5%N], None)); (6%N, (Some [], Some 6%N))].
Proof. exact union_of_mu_iter. Qed.

(** ** C41: what an iteration selects
    [iter_visits t s ps]: draining the iterator selects exactly the nodes with the paths [ps],
    in this order; it is observed by running the same generic iterator code on a tree whose
    cursor records every selection ([logged], IterCost.v). *)
(** every node at most once, every node that contains an element, and - for a tree that
    declares EXACT_HIERARCHY - no node besides the root that contains none (nor a key whose value
    constructor panicked); so an iteration that yields [length l] elements selects at most
    1 + (depth - 1) * length l nodes if no constructor panicked *)
Theorem C41_visits {b t} (v : view b t) pk s : reached pk v s ->
  exists ps l, iter_visits t s ps /\ (exists n, forall fuel, n <= fuel -> iter_collect fuel t s = Ok l) /\
    NoDup ps /\ [] ∈ ps /\ (forall p, p ∈ ps -> length p < t_depth t) /\
    (forall p, length p < t_depth t -> has_elem t s p -> p ∈ ps) /\
    (t_exact t = true -> (forall p, p ∈ ps -> p = [] \/ has_elem t s p \/ key_below t pk p) /\
       ((forall k, ~ pk k) -> length ps <= 1 + (t_depth t - 1) * length l)).
Proof. apply view_visits. Qed.
(** the intersection selects exactly the nodes that both operands' own iterations select *)
Theorem C41_intersection {b0 b1 t0 t1} (v0 : view b0 t0) (v1 : view b1 t1) pk s0 s1 : t_nw t1 = t_nw t0 -> t_depth t1 = t_depth t0 ->
  reached pk v0 s0 -> reached pk v1 s1 ->
  exists ps0 ps1 ps, iter_visits t0 s0 ps0 /\ iter_visits t1 s1 ps1 /\ iter_visits (t_intersection t0 t1) (s0, s1) ps /\
    forall p, p ∈ ps <-> p ∈ ps0 /\ p ∈ ps1.
Proof. apply intersection_visits. Qed.
Theorem C41_union {t0 t1} (v0 : view true t0) (v1 : view true t1) pk s0 s1 : t_nw t1 = t_nw t0 -> t_depth t1 = t_depth t0 ->
  reached pk v0 s0 -> reached pk v1 s1 ->
  exists ps0 ps1 ps, iter_visits t0 s0 ps0 /\ iter_visits t1 s1 ps1 /\ iter_visits (t_union t0 t1) (s0, s1) ps /\
    forall p, p ∈ ps <-> p ∈ ps0 \/ p ∈ ps1.
Proof. apply union_visits. Qed.
Theorem C41_map {b t} (v : view b t) pk s {X} (f : t_V t -> X) ps : reached pk v s ->
  iter_visits t s ps -> iter_visits (t_map t f) s ps.
Proof. apply map_visits. Qed.
Theorem C41_multi_map_fold {b t} (v : view b t) pk s {X A} (items : t_V t -> list X) (init : A) (f : A -> X -> A) ps : reached pk v s ->
  iter_visits t s ps -> iter_visits (t_multi_map_fold t items init f) s ps.
Proof. apply mmf_visits. Qed.
Theorem C41_multi_intersection {b t} (v : view b t) pk s : s <> [] -> length s <= 32 -> Forall (reached pk v) s ->
  exists pss ps, Forall2 (iter_visits t) s pss /\ iter_visits (t_multi_intersection t) s ps /\
    forall p, p ∈ ps <-> Forall (fun l => p ∈ l) pss.
Proof. apply mi_visits. Qed.
Theorem C41_multi_union {t} (v : view true t) pk s : 2 <= t_depth t -> length s <= 32 -> Forall (reached pk v) s ->
  exists pss ps, Forall2 (iter_visits t) s pss /\ iter_visits (t_multi_union t) s ps /\
    forall p, p ∈ ps <-> p = [] \/ Exists (fun l => p ∈ l) pss.
Proof. apply mu_visits. Qed.
(** the two iterations and that of their intersection *)
Example visits_example :
  (let* it := iter_new (logged (dense_tree N 3)) ex_b in let* (it, _) := iter_drain 100 (logged (dense_tree N 3)) ex_b it in Ok (selected it))
    = Ok [[]; [0]; [0; 0]; [0; 1]; [48]; [48; 53]]%N /\
  (let* it := iter_new (logged (dense_tree N 3)) ex_c in let* (it, _) := iter_drain 100 (logged (dense_tree N 3)) ex_c it in Ok (selected it))
    = Ok [[]; [0]; [0; 0]; [0; 1]; [2]; [2; 12]]%N /\
  (let t := t_intersection (dense_tree N 3) (dense_tree N 3) in
   let* it := iter_new (logged t) (ex_b, ex_c) in let* (it, l) := iter_drain 100 (logged t) (ex_b, ex_c) it in Ok (selected it, l))
    = Ok ([[]; [0]; [0; 0]; [0; 1]], [(5, (5, 5))])%N.
Proof. vm_compute. done. Qed.

(** ** the hypotheses are met *)
(** (a ∪ map(b)) ∩ multi_intersection[a; b; a], its iteration, and its exactness *)
Example view_example : reached any_key ex_view ex_s.
Proof. exact ex_view_reached. Qed.
Example view_iter_example : iter_collect 100 (t_intersection (t_union (dense_tree N 3) (t_map (dense_tree N 3) (fun x : N => x + 1)%N))
    (t_multi_intersection (dense_tree N 3))) ex_s =
  Ok [(5, ((Some 56, Some 6), [56; 5; 56])); (200000, ((Some 200009, Some 200001), [200009; 200000; 200009]))]%N.
Proof. exact ex_view_iter. Qed.
(** a multi_union of three trees inside a multi_map_fold that sums: [C13], [C14] *)
Example mu_example : reached any_key (VMultiUnion (dense_tree N 3) ltac:(cbn; lia) ex_leaf) [ex_a; ex_b; ex_a] /\
  iter_collect 100 (t_multi_map_fold (t_multi_union (dense_tree N 3)) id 0%N N.add) [ex_a; ex_b; ex_a] =
    Ok [(5, 117); (70, 156); (71, 71); (200000, 600018)]%N.
Proof. split; [split; [cbn; lia|repeat constructor; (exact ex_a_ok || exact (ex_b_ok any_key))]|]. vm_compute. done. Qed.
(** a cursor session that goes down, sideways, back up, and down with unchecked selections *)
Example cursor_example : reached any_key ex_leaf ex_a /\
  sel_run 64 3 (has_elem (dense_tree N 3) ex_a) None ex_sels (Some ([48; 53]%N, false)).
Proof. split; [exact ex_a_ok|exact ex_sel_run]. Qed.
(** C16 *)
Example exact_example : reached no_key (VUnion (dense_tree N 3) (dense_tree N 3) eq_refl eq_refl ex_leaf ex_leaf) (ex_b, ex_b) /\
  t_exact (t_union (dense_tree N 3) (dense_tree N 3)) = true.
Proof. split; [split; exact (ex_b_ok no_key)|done]. Qed.
(** C16 with a panic: keys 5 and 200 inserted, the constructor given for key 70 panicked; the root announces
    the children 0, 3 (elements) and 1 (the panic) and no other *)
Definition ex_panic_cs : list (call N) := [CInsert 5 5; CGetOrInsert 70 None None; CInsert 200 1]%N.
Example exact_upto_example : reached (fun k => k = 70%N) (VDense N 2 ltac:(lia) ltac:(lia)) (dense_after 2 ex_panic_cs) /\
  spec_all_panicked (64 ^ 2) ∅ ex_panic_cs = {[70%N]} /\ t_exact (dense_tree N 2) = true /\
  sel_run 64 2 (has_elem (dense_tree N 2) (dense_after 2 ex_panic_cs)) None [Sel 0 0 false] (Some ([], true)) /\
  probe_mask (dense_tree N 2) (dense_after 2 ex_panic_cs) [Sel 0 0 false] = Ok (Some [11%N]) /\
  tree_get (dense_tree N 2) (dense_after 2 ex_panic_cs) 70 = Ok None.
Proof.
  assert (spec_all_panicked (64 ^ 2) ∅ ex_panic_cs = {[70%N]}) as Hp by (apply (bool_decide_eq_true_1 _); vm_compute; done).
  split.
  { exists ex_panic_cs. split; [apply dense_small_legal; [lia|lia|lia|repeat constructor|lia]|].
    split; [apply after_reached; [lia|lia|apply dense_small_legal; [lia|lia|lia|repeat constructor|lia]]|].
    intros k. change (64 ^ N.of_nat 2)%N with (64 ^ 2)%N. rewrite Hp. set_solver. }
  split; [done|]. split; [done|]. split; [|vm_compute; done].
  eapply sel_cons; [cbn; split; [lia|]; split; [done|]; reflexivity|constructor].
Qed.
