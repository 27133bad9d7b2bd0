(** * Properties of every nesting of the lazy operations: more of C10, C13, C15, C16, C17, C18,
    C23, C24, C29, C41, C42, C43

    The other Properties files exclude `union` and `multi_union` over a `multi_union`.  Here
    nothing is excluded ([xview], AllViews.v).  [gives x s k] is the value that the expression
    [s] has for the key [k] by the documentation; `get` answers it.  [sees x s k] is what the
    expression's cursor, and so its iterator, reports: it differs where a `multi_union` is asked for
    a key that all of its trees lack although one of them has a key in the same node of 64 (128,
    256) keys: the cursor then answers an empty iterator instead of `None`. *)
From Verif Require Import Base BitUtils BitUtilsProofs LevelIndices Hierarchy Ops Dense Spec SpecLaws Client TreeClient DenseHistory DenseLaws
  DenseProofs Lawful Generic Materialize MaterializeLaws Compose ViewLaws IterCost CostLaws MaterializeViews MaterializeEmpty EffectsLaws AllViews Algebra AllAlgebra Findings Examples.

Section every.
Context {t : tree} (x : xview t) (pk : N -> Prop) (s : t_T t).
Hypothesis Hr : xreached pk x s.

(** C42: `get` answers the documented value of the expression, for every key *)
Theorem C42_all_nestings_get k : tree_get t s k = if decide (view_key_ok t k) then Ok (gives x s k) else Panic.
Proof. exact (xget x pk s Hr k). Qed.
(** C23 *)
Theorem C23_all_nestings_get_unchecked k y : tree_get t s k = Ok (Some y) -> tree_get_unchecked t s k = Ok y.
Proof. intros H%(xget_Some x pk s Hr). exact (xunchecked x pk s Hr k y H). Qed.
(** C15: an iteration ends, its keys are exactly those that `get` finds, in ascending order, and
    the value under the key [k] is the one [sees] tells *)
Theorem C15_all_nestings_iter : exists n l, (forall fuel, n <= fuel -> iter_collect fuel t s = Ok l) /\
  StronglySorted N.lt l.*1 /\ (forall k, k ∈ l.*1 <-> exists y, tree_get t s k = Ok (Some y)) /\
  forall k y, (k, y) ∈ l -> sees x s k = Some y.
Proof.
  destruct (xiter x pk s Hr) as (n & l & Hl & Hs & He). exists n, l. split; [done|]. split; [done|]. split.
  - intros k. rewrite elem_of_list_fmap. split.
    + intros ([k' y] & -> & [[z H] _]%He). exists z. by apply (xget_Some x pk s Hr).
    + intros (y & H%(xget_Some x pk s Hr)). destruct (sees_some x pk s Hr k) as [z Hz]; [by eexists|]. exists (k, z). split; [done|]. apply He. split; [by eexists|done].
  - intros k y [_ H]%He. done.
Qed.
(** C15: so the iteration yields what `get` reports iff [sees] and [gives] agree on the keys present *)
Theorem C15_all_nestings_agree : iter_agrees t s <-> forall k, is_Some (gives x s k) -> sees x s k = gives x s k.
Proof.
  destruct (xiter x pk s Hr) as (n & l & Hl & Hs & He). split.
  - intros (n' & l' & Hl' & _ & He') k [y Hy]. rewrite Hy. specialize (Hl (n + n') ltac:(lia)). rewrite (Hl' (n + n') ltac:(lia)) in Hl. injection Hl as <-.
    apply He, He', (xget_Some x pk s Hr), Hy.
  - intros H. exists n, l. split; [done|]. split; [done|]. intros k y. rewrite He, (xget_Some x pk s Hr). split.
    + intros [Hg Hy]. rewrite <- (H k Hg). exact Hy.
    + intros Hg. split; [by eexists|]. rewrite (H k); [done|by eexists].
Qed.
(** C29: polling [m] times: first the items, then None forever *)
Theorem C29_all_nestings_iter_finishes : exists n l,
  (forall fuel, n <= fuel -> iter_collect fuel t s = Ok l) /\
  (forall m fuel, n <= fuel -> exists it it', iter_new t s = Ok it /\
      iter_poll fuel m t s it = Ok (it', take m ((Some <$> l) ++ replicate m None))).
Proof. exact (xpoll x pk s Hr). Qed.
(** C24: the masks announce every child that contains an element, at the bottom level exactly those;
    `data_unchecked` and `data` report what [sees] tells: the former for every element of the node, the
    latter (after checked selections) for every index, present or not *)
Theorem C24_all_nestings_cursor xs p checked :
  sel_run (msize (t_nw t)) (t_depth t) (has_elem t s) None xs (Some (p, checked)) ->
  exists c0 c mk, t_new t s = Ok c0 /\ run_selects t s c0 None xs = Ok (c, Some mk) /\ length mk = t_nw t /\
    (forall i, has_elem t s (p ++ [i]) -> mbit mk i = true) /\
    (length p = t_depth t - 1 -> forall i, mbit mk i = true -> has_elem t s (p ++ [i])) /\
    (length p = t_depth t - 1 -> forall i, (i < msize (t_nw t))%N -> let k := undigits (msize (t_nw t)) (p ++ [i]) in
      ((exists y, tree_get t s k = Ok (Some y)) -> exists y, sees x s k = Some y /\ t_cdata_u t s c i = Ok y) /\
      (checked = true -> t_cdata t s c i = Ok (sees x s k))).
Proof.
  intros H. destruct (xcursor x pk s Hr xs p checked H) as (c0 & c & mk & H1 & H2 & H3 & H4 & H5 & _ & H7).
  exists c0, c, mk. do 5 (split; [done|]). intros Hl i Hi k. destruct (H7 Hl i Hi) as [Ha Hb]. split; [|exact Hb].
  intros (y & Hy%(xget_Some x pk s Hr)). destruct (sees_some x pk s Hr k) as [z Hz]; [by eexists|]. exists z. split; [done|]. apply Ha; [by eexists|done].
Qed.
(** C16: in a nesting that declares EXACT_HIERARCHY, above no key whose value constructor panicked, a
    mask bit is set iff an element lies below that child *)
Theorem C16_all_nestings_exact xs p checked : ~ key_below t pk p -> t_exact t = true ->
  sel_run (msize (t_nw t)) (t_depth t) (has_elem t s) None xs (Some (p, checked)) ->
  exists c0 c mk, t_new t s = Ok c0 /\ run_selects t s c0 None xs = Ok (c, Some mk) /\
    forall i, mbit mk i = true <-> has_elem t s (p ++ [i]).
Proof.
  intros Hpk Hx H. destruct (xcursor x pk s Hr xs p checked H) as (c0 & c & mk & H1 & H2 & H3 & H4 & _ & H6 & _).
  exists c0, c, mk. split; [done|]. split; [done|]. intros i. split; [|apply H4]. intros Hb.
  destruct (H6 Hx i Hb) as [|(k & Hk & Hp)]; [done|]. destruct Hpk. exists k. split; [|done].
  destruct Hk as [Hk Hpre]. split; [done|]. etrans; [|exact Hpre]. by exists [i].
Qed.
(** C41: what an iteration selects *)
Theorem C41_all_nestings_visits : exists ps l, iter_visits t s ps /\
  (exists n, forall fuel, n <= fuel -> iter_collect fuel t s = Ok l) /\
  NoDup ps /\ [] ∈ ps /\ (forall p, p ∈ ps -> length p < t_depth t) /\
  (forall p, length p < t_depth t -> has_elem t s p -> p ∈ ps) /\
  (t_exact t = true -> (forall p, p ∈ ps -> p = [] \/ has_elem t s p \/ key_below t pk p) /\
     ((forall k, ~ pk k) -> length ps <= 1 + (t_depth t - 1) * length l)).
Proof. exact (xvisits x pk s Hr). Qed.

(** ** `materialize` *)
(** the copy [d] reads like the iteration of the source *)
Definition reads_like_iteration (d : dense (t_V t)) : Prop :=
  (forall k, tree_get (dense_tree (t_V t) (t_depth t)) d k =
     if decide (view_key_ok t k) then Ok (match gives x s k with Some _ => sees x s k | None => None end) else Panic) /\
  (exists n l, forall fuel, n <= fuel -> iter_collect fuel t s = Ok l /\ iter_collect fuel (dense_tree (t_V t) (t_depth t)) d = Ok l).
Lemma reads_like_iteration_intro d m : t_nw t = 1 -> dense_inv (t_depth t) allp (fixd d) m -> get_is (shown x) s m -> few t s -> reads_like_iteration d.
Proof.
  intros Hnw Hi Hm Hf. pose proof (sview_reached pk x s Hr) as Hs. split.
  - intros k. etrans; [exact (mat_get (sview x) pk s Hs Hnw d m k Hi Hm)|]. destruct (decide (view_key_ok t k)) as [Hk|Hk].
    + rewrite shown_get by done. rewrite (has_gives x pk s Hr). by destruct (gives x s k).
    + exact (proj2 (view_get_total (sview x) pk s Hs k) Hk).
  - destruct (mat_iter (sview x) pk s Hs Hnw d m Hi Hm) as (n & l & H). exists n, l. intros fuel Hf'. destruct (H fuel Hf') as [H1 H2]. split; [|exact H2].
    exact (eq_trans (eq_sym (iter_collect_data t _ _ s fuel)) H1).
Qed.
(** C17: source that declares EXACT_HIERARCHY: the copy exists, reads like the iteration, and every
    further history of calls on it behaves like the finite map [m] that it was made with *)
Theorem C17_all_nestings_materialize : t_nw t = 1 -> few t s -> t_exact t = true \/ t_depth t = 1 ->
  exists d m, materialize t s = Ok d /\
    (forall k y, m !! k = Some y <-> is_Some (gives x s k) /\ sees x s k = Some y) /\
    reads_like_iteration d /\
    forall cs, dense_legal_from (t_depth t) m cs ->
    exists d' dr h dr2, dense_calls (t_depth t) d cs = Ok (d', spec_outs (64 ^ N.of_nat (t_depth t)) None m cs, dr) /\
      (forall k, tree_get (dense_tree (t_V t) (t_depth t)) d' k =
         if (k <? 64 ^ N.of_nat (t_depth t))%N then Ok (spec_run (64 ^ N.of_nat (t_depth t)) m cs !! k) else Panic) /\
      dense_drop (t_depth t) d' = Ok (h, dr2) /\ h_nodes h = ∅ /\
      spec_collect (64 ^ N.of_nat (t_depth t)) (spec_in (64 ^ N.of_nat (t_depth t))) m cs ++ vals m ≡ₚ
        removed_values cs (spec_outs (64 ^ N.of_nat (t_depth t)) None m cs) ++ dr ++ dr2.
Proof.
  intros Hnw Hf Hex. pose proof (sview_reached pk x s Hr) as Hs. pose proof (shown_few x pk s Hr Hf) as Hf'.
  destruct (mat_exact (sview x) pk s Hs Hnw Hf' Hex) as (d & m & E & Hm & Hi).
  assert (dense_inv (t_depth t) allp (fixd d) m) as Hfx by (pose proof (fixd_inv _ _ _ _ Hi) as H; unfold shown in *; cbn [with_data t_V t_depth] in *; rewrite H; by eapply dense_inv_false).
  exists d, m. split; [exact E|]. split; [|split].
  - intros k y. etrans; [exact (Hm k y)|]. apply (shown_get_Some x pk s Hr).
  - by eapply reads_like_iteration_intro.
  - intros cs Hl. exact (mat_calls (sview x) d _ m cs Hi Hl).
Qed.
(** C18: a source that does not declare it *)
Theorem C18_all_nestings_materialize_partial : t_nw t = 1 -> few t s -> t_exact t = false ->
  (t_depth t = 1 \/ exists k y, tree_get t s k = Ok (Some y)) ->
  exists d m h dr, materialize t s = Ok d /\
    (forall k y, m !! k = Some y <-> is_Some (gives x s k) /\ sees x s k = Some y) /\
    reads_like_iteration d /\ dense_drop (t_depth t) d = Ok (h, dr) /\ h_nodes h = ∅ /\ dr ≡ₚ vals m.
Proof.
  intros Hnw Hf Hex Hc. pose proof (sview_reached pk x s Hr) as Hs. pose proof (shown_few x pk s Hr Hf) as Hf'.
  destruct (mat_sparse (sview x) pk s Hs Hnw Hf' Hex) as [(d & m & E & Hm & Hi)|(E & HD & Hn)].
  2:{ exfalso. destruct Hc as [H1|H1]; [change (2 <= t_depth t) in HD; lia|]. destruct H1 as (k & y & Hy).
      destruct (proj2 (shown_has x pk s Hr k)) as [z Hz]; [by eexists|]. by eapply Hn. }
  destruct (mat_drop (sview x) d m Hi) as (h & dr & Ed & Hh & Hd).
  exists d, m, h, dr. split; [exact E|]. split; [|split; [by eapply reads_like_iteration_intro|exact (conj Ed (conj Hh Hd))]].
  intros k y. etrans; [exact (Hm k y)|]. apply (shown_get_Some x pk s Hr).
Qed.
(** C18: it fails exactly when the depth is at least 2 and an iteration of the source selects no node of
    the last level *)
Theorem C18_all_nestings_failure_exactly ps : t_nw t = 1 -> few t s -> t_exact t = false -> iter_visits t s ps ->
  (materialize t s = UB <-> 2 <= t_depth t /\ forall p, p ∈ ps -> S (length p) <> t_depth t).
Proof.
  intros Hnw Hf Hex Hv. refine (mat_ub_iff (sview x) pk s ps (sview_reached pk x s Hr) Hnw (shown_few x pk s Hr Hf) Hex _).
  exact (iter_visits_data_r t _ _ s ps Hv).
Qed.
End every.

Lemma omap_gives {A B} (f : A -> option B) (l : list A) : omap f l = omap id (f <$> l).
Proof. induction l as [|a l IH]; [done|]. cbn. destruct (f a); cbn; by rewrite IH. Qed.
(** C10, C13: the documented value of a union of any two nestings, and of a multi_union of any nestings *)
Theorem C10_all_nestings_union {t0 t1} (x0 : xview t0) (x1 : xview t1) pk s0 s1 k : t_nw t1 = t_nw t0 -> t_depth t1 = t_depth t0 ->
  xreached pk x0 s0 -> xreached pk x1 s1 -> view_key_ok t0 k ->
  exists o0 o1, tree_get t0 s0 k = Ok o0 /\ tree_get t1 s1 k = Ok o1 /\
    tree_get (t_union t0 t1) (s0, s1) k = Ok (match o0, o1 with None, None => None | _, _ => Some (o0, o1) end).
Proof.
  intros Hn Hd H0 H1 Hk. assert (view_key_ok t1 k) as Hk1 by (unfold view_key_ok in *; by rewrite Hn, Hd).
  exists (gives x0 s0 k), (gives x1 s1 k). rewrite (C42_all_nestings_get x0 pk s0 H0), (C42_all_nestings_get x1 pk s1 H1).
  rewrite (C42_all_nestings_get (XUnion t0 t1 Hn Hd x0 x1) pk (s0, s1)) by done. rewrite !decide_True by done. split; [done|]. split; [done|]. cbn [gives fst snd].
  by destruct (gives x0 s0 k), (gives x1 s1 k).
Qed.
Theorem C13_all_nestings_multi_union {t} (x : xview t) pk ss k : 2 <= t_depth t -> length ss <= 32 -> Forall (xreached pk x) ss -> view_key_ok t k ->
  exists os, Forall2 (fun a o => tree_get t a k = Ok o) ss os /\
    tree_get (t_multi_union t) ss k = Ok (match omap id os with [] => None | l => Some l end).
Proof.
  intros HD Hl Hf Hk. exists ((fun a => gives x a k) <$> ss). split.
  - apply Forall2_fmap_r, Forall_Forall2_diag. eapply Forall_impl; [exact Hf|]. intros a Ha. cbn beta. by rewrite (C42_all_nestings_get x pk a Ha), decide_True.
  - rewrite (C42_all_nestings_get (XMultiUnion t HD x) pk ss) by done. rewrite decide_True by done. cbn [gives]. f_equal.
    rewrite <- omap_gives. by destruct (omap (fun a => gives x a k) ss).
Qed.

(** C15: union(multi_union ss, b): the iteration agrees with `get` iff no key of b that every tree of ss
    lacks lies in the same node of 64 (128, 256) keys as a key of one of them *)
Theorem C15_union_of_multi_union_exactly {t t1} (v : view true t) (v1 : view true t1) pk ss s1 : 2 <= t_depth t -> t_nw t1 = t_nw t -> t_depth t1 = t_depth t ->
  length ss <= 32 -> Forall (reached pk v) ss -> reached pk v1 s1 ->
  (iter_agrees (t_union (t_multi_union t) t1) (ss, s1) <->
   forall k y, tree_get t1 s1 k = Ok (Some y) -> (forall a, a ∈ ss -> tree_get t a k = Ok None) ->
     forall a k' y', a ∈ ss -> tree_get t a k' = Ok (Some y') -> (k' / msize (t_nw t) <> k / msize (t_nw t))%N).
Proof.
  intros HD Hn Hd Hl Hf H1. set (x := XUnion (t_multi_union t) t1 Hn Hd (XMultiUnion t HD (XView t v)) (XView t1 v1)).
  assert (xreached pk x (ss, s1)) as Hr by done. rewrite (C15_all_nestings_agree x pk (ss, s1) Hr).
  assert (forall a k, a ∈ ss -> hasb t a k = true <-> exists y, tree_get t a k = Ok (Some y)) as Hhas.
  { intros a k Ha. unfold hasb, got. destruct (tree_get t a k) as [[y|]| | |]; (split; [try done; eauto|by intros [? ?]]). }
  assert (0 < msize (t_nw t))%N as Hw. { destruct (xsupported (XView t v)) as [E|[E|E]]; rewrite E; reflexivity. }
  assert (forall a k, a ∈ ss -> nearb t k a = true <-> exists k' y', tree_get t a k' = Ok (Some y') /\ (k' / msize (t_nw t) = k / msize (t_nw t))%N) as Hnear.
  { intros a k Ha. unfold nearb. rewrite existsb_exists. split.
    - intros (j & Hj%elem_of_list_In%elem_of_seqN & H%Hhas); [|done]. destruct H as [y Hy]. eexists _, y. split; [exact Hy|].
      rewrite N.div_add_l by lia. rewrite (N.div_small j) by lia. lia.
    - intros (k' & y & Hy & E). exists (k' mod msize (t_nw t))%N. split.
      + apply elem_of_list_In, elem_of_seqN. pose proof (N.mod_lt k' (msize (t_nw t)) ltac:(lia)). lia.
      + apply Hhas; [done|]. exists y. rewrite <- E. replace (_ + _)%N with k'; [done|]. rewrite N.mul_comm. apply N.div_mod. lia. }
  assert (forall k, (forall a, a ∈ ss -> got t a k = None) <-> omap (fun a => got t a k) ss = []) as Hom.
  { intros k. clear. induction ss as [|a ss IH]; [split; [done|intros _ a Ha; by apply elem_of_nil in Ha]|]. split.
    - intros H. cbn. rewrite (H a) by left. apply IH. intros b Hb. apply H. by right.
    - cbn. destruct (got t a k) eqn:E; [done|]. intros H b [->|Hb]%elem_of_cons; [done|]. exact (proj2 IH H b Hb). }
  assert (forall a k, a ∈ ss -> view_key_ok t k -> tree_get t a k = Ok (got t a k)) as Hgot.
  { intros a k Ha Hk. unfold got. rewrite Forall_forall in Hf. destruct (proj1 (view_get_total v pk a (Hf a Ha) k) Hk) as [o ->]. done. }
  assert (forall k y, tree_get t1 s1 k = Ok (Some y) -> view_key_ok t k) as Hok.
  { intros k y Hy. destruct (decide (view_key_ok t1 k)) as [Hk|Hk]; [unfold view_key_ok in *; by rewrite <- Hn, <- Hd|]. by rewrite (proj2 (view_get_total v1 pk s1 H1 k) Hk) in Hy. }
  split.
  - intros H k y Hy Hno a k' y' Ha Hy' E.
    assert (omap (fun a => got t a k) ss = []) as Eo by (apply Hom; intros b Hb; unfold got; by rewrite (Hno b Hb)).
    assert (got t1 s1 k = Some y) as Eg by (unfold got; by rewrite Hy).
    specialize (H k). cbn [x gives sees fst snd] in H. rewrite Eo, Eg in H. specialize (H ltac:(by eexists)).
    destruct (List.filter (nearb t k) ss) as [|b l] eqn:El; [|done].
    assert (a ∈ List.filter (nearb t k) ss) as Hin. { apply elem_of_list_In, filter_In. split; [by apply elem_of_list_In|]. apply Hnear; [done|]. by exists k', y'. }
    rewrite El in Hin. by apply elem_of_nil in Hin.
  - intros H k Hg. cbn [x gives sees fst snd] in *.
    assert (omap (fun a => got t a k) (List.filter (nearb t k) ss) = omap (fun a => got t a k) ss) as Eo.
    { clear Hom Hg H Hgot Hf Hr Hl. assert (forall a, a ∈ ss -> is_Some (got t a k) -> nearb t k a = true) as Hn'.
      { intros a Ha [y Hy]. apply Hnear; [done|]. exists k, y. split; [|done]. unfold got in Hy. destruct (tree_get t a k) as [o| | |]; try done. by subst. }
      clear -Hn'. induction ss as [|a ss IH]; [done|]. cbn. destruct (nearb t k a) eqn:E; cbn; rewrite (IH ltac:(intros b Hb; apply Hn'; by right)); [done|].
      destruct (got t a k) eqn:Eg; [|done]. rewrite Hn' in E; [done|left|by eexists]. }
    destruct (List.filter (nearb t k) ss) as [|b l] eqn:El.
    + cbn in Eo. rewrite <- Eo. done.
    + rewrite Eo. destruct (omap (fun a => got t a k) ss) as [|z zs] eqn:Ez; [|done]. exfalso.
      destruct (got t1 s1 k) as [y|] eqn:Ey; [|by destruct Hg].
      assert (tree_get t1 s1 k = Ok (Some y)) as Hy by (unfold got in Ey; destruct (tree_get t1 s1 k) as [o| | |]; try done; by subst).
      assert (b ∈ List.filter (nearb t k) ss) as Hb by (rewrite El; left). apply elem_of_list_In, filter_In in Hb. destruct Hb as [Hb%elem_of_list_In Hnb].
      apply Hnear in Hnb; [|done]. destruct Hnb as (k' & y' & Hy' & E). refine (H k y Hy _ b k' y' Hb Hy' E).
      intros a Ha. rewrite (Hgot a k Ha) by eauto. f_equal. by apply Hom.
Qed.

(** ** C43: laws, for every nesting *)
Section algebra.
Context {t0 t1 t2 : tree} (x0 : xview t0) (x1 : xview t1) (x2 : xview t2) (pk : N -> Prop) (s0 : t_T t0) (s1 : t_T t1) (s2 : t_T t2)
  (Hn : t_nw t1 = t_nw t0) (Hd : t_depth t1 = t_depth t0) (Hn2 : t_nw t2 = t_nw t0) (Hd2 : t_depth t2 = t_depth t0).
Hypothesis Hr0 : xreached pk x0 s0.
Hypothesis Hr1 : xreached pk x1 s1.
Hypothesis Hr2 : xreached pk x2 s2.
Theorem C43_all_intersection_comm : iter_as (t := t_intersection t0 t1) (t' := t_intersection t1 t0) (s0, s1) (s1, s0) (fun p => (p.2, p.1)).
Proof. exact (xintersection_comm pk x0 x1 s0 s1 Hn Hd Hr0 Hr1). Qed.
Theorem C43_all_union_comm : iter_as (t := t_union t0 t1) (t' := t_union t1 t0) (s0, s1) (s1, s0) (fun p => (p.2, p.1)).
Proof. exact (xunion_comm pk x0 x1 s0 s1 Hn Hd Hr0 Hr1). Qed.
Theorem C43_all_intersection_assoc : iter_as (t := t_intersection (t_intersection t0 t1) t2) (t' := t_intersection t0 (t_intersection t1 t2))
  ((s0, s1), s2) (s0, (s1, s2)) (fun p => (p.1.1, (p.1.2, p.2))).
Proof. exact (xintersection_assoc pk x0 x1 x2 s0 s1 s2 Hn Hd Hn2 Hd2 Hr0 Hr1 Hr2). Qed.
Theorem C43_all_union_assoc : iter_as (t := t_union (t_union t0 t1) t2) (t' := t_union t0 (t_union t1 t2))
  ((s0, s1), s2) (s0, (s1, s2)) (fun p => (p.1 ≫= fst, match p.1 ≫= snd, p.2 with None, None => None | o1, o2 => Some (o1, o2) end)).
Proof. exact (xunion_assoc pk x0 x1 x2 s0 s1 s2 Hn Hd Hn2 Hd2 Hr0 Hr1 Hr2). Qed.
Theorem C43_all_map_map {A B} (f : t_V t0 -> A) (g : A -> B) :
  iter_as (t := t_map (t_map t0 f) g) (t' := t_map t0 (fun y => g (f y))) s0 s0 id.
Proof. exact (xmap_map pk x0 s0 Hr0 f g). Qed.
Theorem C43_all_intersection_map {A B} (f : t_V t0 -> A) (g : t_V t1 -> B) :
  iter_as (t := t_intersection t0 t1) (t' := t_intersection (t_map t0 f) (t_map t1 g)) (s0, s1) (s0, s1) (fun p => (f p.1, g p.2)).
Proof. exact (xintersection_map pk x0 x1 s0 s1 Hn Hd Hr0 Hr1 f g). Qed.
Theorem C43_all_union_map {A B} (f : t_V t0 -> A) (g : t_V t1 -> B) :
  iter_as (t := t_union t0 t1) (t' := t_union (t_map t0 f) (t_map t1 g)) (s0, s1) (s0, s1) (fun p => (f <$> p.1, g <$> p.2)).
Proof. exact (xunion_map pk x0 x1 s0 s1 Hn Hd Hr0 Hr1 f g). Qed.
Theorem C43_all_absorb_union : iter_same_keys (t := t_union t0 (t_intersection t0 t1)) (t' := t0) (s0, (s0, s1)) s0.
Proof. exact (xabsorb_union pk x0 x1 s0 s1 Hn Hd Hr0 Hr1). Qed.
Theorem C43_all_absorb_intersection : iter_same_keys (t := t_intersection t0 (t_union t0 t1)) (t' := t0) (s0, (s0, s1)) s0.
Proof. exact (xabsorb_intersection pk x0 x1 s0 s1 Hn Hd Hr0 Hr1). Qed.
Theorem C43_all_distribute : iter_same_keys (t := t_intersection (t_union t0 t1) t2) (t' := t_union (t_intersection t0 t2) (t_intersection t1 t2))
  ((s0, s1), s2) ((s0, s2), (s1, s2)).
Proof. exact (xdistribute pk x0 x1 x2 s0 s1 s2 Hn Hd Hn2 Hd2 Hr0 Hr1 Hr2). Qed.
Theorem C43_all_distribute_union : iter_same_keys (t := t_union (t_intersection t0 t1) t2) (t' := t_intersection (t_union t0 t2) (t_union t1 t2))
  ((s0, s1), s2) ((s0, s2), (s1, s2)).
Proof. exact (xdistribute' pk x0 x1 x2 s0 s1 s2 Hn Hd Hn2 Hd2 Hr0 Hr1 Hr2). Qed.
End algebra.
Theorem C43_all_multi_intersection_two {t} (x : xview t) pk a b : xreached pk x a -> xreached pk x b ->
  iter_as (t := t_intersection t t) (t' := t_multi_intersection t) (a, b) [a; b] (fun p => [p.1; p.2]).
Proof. exact (xmulti_intersection_two pk x a b). Qed.
Theorem C43_all_multi_union_two {t} (x : xview t) pk a b : 2 <= t_depth t -> xreached pk x a -> xreached pk x b ->
  iter_same_keys (t := t_union t t) (t' := t_multi_union t) (a, b) [a; b].
Proof. exact (xmulti_union_two pk x a b). Qed.
Theorem C43_all_multi_intersection_perm {t} (x : xview t) pk s s' : s <> [] -> length s <= 32 -> Forall (xreached pk x) s -> s ≡ₚ s' ->
  iter_same_keys (t := t_multi_intersection t) (t' := t_multi_intersection t) s s'.
Proof. exact (xmulti_intersection_perm pk x s s'). Qed.
Theorem C43_all_multi_union_perm {t} (x : xview t) pk s s' : 2 <= t_depth t -> length s <= 32 -> Forall (xreached pk x) s -> s ≡ₚ s' ->
  iter_same_keys (t := t_multi_union t) (t' := t_multi_union t) s s'.
Proof. exact (xmulti_union_perm pk x s s'). Qed.
(** with a multi_union below, the values of a `multi_union` of two trees are not those of their `union`:
    a = {5} ∩ {6} (each a multi_union) is empty, yet `union` reports a value of a for the key 5 *)
Theorem C43_multi_union_two_values_refuted :
  let m := t_multi_union (dense_tree N 2) in let t := t_intersection m m in
  let d := fun ks => dense_after 2 (inserts ks) in
  let a := ([d [5%N]], [d [6%N]]) in let b := ([d [5%N]], [d [5%N]]) in
  iter_collect 10 t a = Ok [] /\
  iter_collect 10 (t_union t t) (a, b) = Ok [(5, (Some ([5], []), Some ([5], [5])))]%N /\
  iter_collect 10 (t_multi_union t) [a; b] = Ok [(5, [([5], [5])])]%N.
Proof. by vm_compute. Qed.

(** ** the hypotheses are met *)
(** union(multi_union[multi_union[b], multi_union[b, b]], c): it declares EXACT_HIERARCHY, so
    [C17_all_nestings_materialize] applies.  72 (in c only, in the node of 71) and 9000 (in c only, in a node of its own): `get`
    answers (None, Some) for both, the iteration and the copy an iterator of empty iterators for the former *)
Definition ex_xt : tree := t_union (t_multi_union (t_multi_union (dense_tree N 3))) (dense_tree N 3).
Definition ex_x : xview ex_xt := XUnion (t_multi_union (t_multi_union (dense_tree N 3))) (dense_tree N 3) eq_refl eq_refl
  (XMultiUnion (t_multi_union (dense_tree N 3)) ltac:(cbn; lia) (XMultiUnion (dense_tree N 3) ltac:(cbn; lia) (XView _ ex_leaf))) (XView _ ex_leaf).
Definition ex_xs : t_T ex_xt := ([[ex_b]; [ex_b; ex_b]], ex_c).
Example all_nestings_example : xreached no_key ex_x ex_xs /\ t_nw ex_xt = 1 /\ t_exact ex_xt = true /\ few ex_xt ex_xs /\
  tree_get ex_xt ex_xs 72 = Ok (Some (None, Some 72))%N /\ tree_get ex_xt ex_xs 9000 = Ok (Some (None, Some 9000))%N /\
  iter_collect 100 ex_xt ex_xs = Ok [(5, (Some [[5]; [5; 5]], Some 5)); (71, (Some [[71]; [71; 71]], None));
    (72, (Some [[]; []], Some 72)); (9000, (None, Some 9000)); (200000, (Some [[200000]; [200000; 200000]], None))]%N /\
  (let* d := materialize ex_xt ex_xs in tree_get (dense_tree _ 3) d 72) = Ok (Some (Some [[]; []], Some 72))%N.
Proof.
  assert (xreached no_key ex_x ex_xs) as Hr.
  { split; [|exact (ex_c_ok no_key)]. split; [cbn; lia|]. repeat constructor; try (cbn; lia); exact (ex_b_ok no_key). }
  split; [exact Hr|]. split; [done|]. split; [done|]. split; [|by vm_compute].
  exact (few_small (gview ex_x) no_key ex_xs (gview_reached no_key ex_x ex_xs Hr) eq_refl ltac:(cbn; lia)).
Qed.
(** a cursor session on it: the key 73 is absent, but its cursor reports a value *)
Example all_nestings_cursor_example :
  sel_run 64 3 (has_elem ex_xt ex_xs) None [Sel 0 0 false; Sel 1 0 false; Sel 2 1 false]%N (Some ([0; 1]%N, true)) /\
  tree_get ex_xt ex_xs (undigits 64 [0; 1; 9]%N) = Ok None /\
  probe ex_xt ex_xs [Sel 0 0 false; Sel 1 0 false; Sel 2 1 false]%N 9 = Ok (Some (Some [[]; []], None))%N.
Proof.
  split; [|by vm_compute].
  eapply sel_cons. { cbn. split; [lia|]. split; [done|]. reflexivity. }
  eapply sel_cons. { cbn. eexists _, _. split; [done|]. split; [lia|]. split; [lia|]. split; [lia|]. split; reflexivity. }
  eapply sel_cons. { cbn. eexists _, _. split; [done|]. split; [cbn; lia|]. split; [lia|]. split; [lia|]. split; reflexivity. }
  apply sel_nil.
Qed.
(** both sides of [C15_union_of_multi_union_exactly] occur: b = {6} shares the node of {5}; b = {70} does not *)
Example C15_exactly_example :
  let t := t_union (t_multi_union (dense_tree N 2)) (dense_tree N 2) in
  iter_collect 10 t ([dense_after 2 (inserts [5%N])], dense_after 2 (inserts [6%N])) = Ok [(5%N, (Some [5%N], None)); (6%N, (Some [], Some 6%N))] /\
  iter_collect 10 t ([dense_after 2 (inserts [5%N])], dense_after 2 (inserts [70%N])) = Ok [(5%N, (Some [5%N], None)); (70%N, (None, Some 70%N))].
Proof. by vm_compute. Qed.
