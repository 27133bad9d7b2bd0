(** * Algebra of lazy expressions, observed by iteration *)
From Verif Require Import Base Hierarchy Ops Dense Sparse Spec SpecLaws Client DenseHistory SparseHistory TreeClient Generic
  Materialize Compose ViewLaws MaterializeViews Denote.

(** both iterations end; the second yields the first's pairs with [g] applied to the values *)
Definition iter_as {t t'} (s : t_T t) (s' : t_T t') (g : t_V t -> t_V t') : Prop :=
  exists n l, forall fuel, n <= fuel -> iter_collect fuel t s = Ok l /\
    iter_collect fuel t' s' = Ok ((fun kv => (kv.1, g kv.2)) <$> l).
(** both iterations end and yield the same keys in the same order *)
Definition iter_same_keys {t t'} (s : t_T t) (s' : t_T t') : Prop :=
  exists n l l', forall fuel, n <= fuel -> iter_collect fuel t s = Ok l /\ iter_collect fuel t' s' = Ok l' /\ l.*1 = l'.*1.

Section laws.
Context (pk : N -> Prop).
Lemma denotes_iter_as {b t b' t'} (v : view b t) (v' : view b' t') s s' m (g : t_V t -> t_V t') :
  denotes pk v s m -> denotes pk v' s' (g <$> m) -> iter_as s s' g.
Proof.
  intros Hd Hd'. destruct (denotes_ok pk v s m Hd) as [_ (n & l & Hl & Hs & Hp)].
  destruct (denotes_ok pk v' s' _ Hd') as [_ (n' & l' & Hl' & Hs' & Hp')].
  exists (n + n'), l. intros fuel Hf. split; [apply Hl; lia|]. rewrite Hl' by lia. f_equal.
  assert (((fun kv : N * t_V t => (kv.1, g kv.2)) <$> l).*1 = l.*1) as Hk.
  { rewrite <- list_fmap_compose. apply list_fmap_ext. by intros ? []. }
  apply (enumerates_unique _ _ (fun k => (g <$> m) !! k) (fun k => (g <$> m) !! k)); [| |done].
  - split; [done|]. intros k x. by rewrite Hp', elem_of_map_to_list.
  - split; [refine (eq_ind_r (StronglySorted N.lt) Hs Hk)|]. intros k x. rewrite elem_of_list_fmap, lookup_fmap_Some. split.
    + intros ([k' y] & [= -> ->] & H). exists y. split; [done|]. apply elem_of_map_to_list. by rewrite <- Hp.
    + intros (y & <- & Hy). exists (k, y). split; [done|]. by rewrite Hp, elem_of_map_to_list.
Qed.
Lemma ssorted_perm_eq (l l' : list N) : StronglySorted N.lt l -> StronglySorted N.lt l' -> (forall k, k ∈ l <-> k ∈ l') -> l = l'.
Proof. apply ssorted_ext. Qed.
Lemma denotes_same_keys {b t b' t'} (v : view b t) (v' : view b' t') s s' m m' :
  denotes pk v s m -> denotes pk v' s' m' -> (dom m : gset N) = dom m' -> iter_same_keys s s'.
Proof.
  intros Hd Hd' Hdom. destruct (denotes_ok pk v s m Hd) as [_ (n & l & Hl & Hs & Hp)].
  destruct (denotes_ok pk v' s' _ Hd') as [_ (n' & l' & Hl' & Hs' & Hp')].
  exists (n + n'), l, l'. intros fuel Hf. split; [apply Hl; lia|]. split; [apply Hl'; lia|].
  assert (forall k, k ∈ l.*1 <-> k ∈ (dom m : gset N)) as H1.
  { intros k. rewrite elem_of_list_fmap, elem_of_dom. split.
    - intros ([k' x] & -> & H). exists x. apply elem_of_map_to_list. by rewrite <- Hp.
    - intros [x Hx]. exists (k, x). split; [done|]. by rewrite Hp, elem_of_map_to_list. }
  assert (forall k, k ∈ l'.*1 <-> k ∈ (dom m' : gset N)) as H2.
  { intros k. rewrite elem_of_list_fmap, elem_of_dom. split.
    - intros ([k' x] & -> & H). exists x. apply elem_of_map_to_list. by rewrite <- Hp'.
    - intros [x Hx]. exists (k, x). split; [done|]. by rewrite Hp', elem_of_map_to_list. }
  apply ssorted_perm_eq; [done|done|]. intros k. by rewrite H1, H2, Hdom.
Qed.

Context {b0 b1 : bool} {t0 t1 : tree} (v0 : view b0 t0) (v1 : view b1 t1) (s0 : t_T t0) (s1 : t_T t1)
  (Hn : t_nw t1 = t_nw t0) (Hd : t_depth t1 = t_depth t0).
Hypothesis Hr0 : reached pk v0 s0.
Hypothesis Hr1 : reached pk v1 s1.

Lemma intersection_comm : iter_as (t := t_intersection t0 t1) (t' := t_intersection t1 t0) (s0, s1) (s1, s0) (fun p => (p.2, p.1)).
Proof.
  destruct (denotes_exists pk v0 s0 Hr0) as [m0 H0]. destruct (denotes_exists pk v1 s1 Hr1) as [m1 H1].
  apply (denotes_iter_as (VIntersection b0 b1 t0 t1 Hn Hd v0 v1) (VIntersection b1 b0 t1 t0 (eq_sym Hn) (eq_sym Hd) v1 v0) _ _ (map_zip m0 m1)).
  - by exists m0, m1.
  - exists m1, m0. split; [done|]. split; [done|]. apply map_eq. intros k. rewrite lookup_fmap, !map_lookup_zip_with.
    by destruct (m0 !! k), (m1 !! k).
Qed.
Lemma map_map {A B} (f : t_V t0 -> A) (g : A -> B) :
  iter_as (t := t_map (t_map t0 f) g) (t' := t_map t0 (fun x => g (f x))) s0 s0 id.
Proof.
  destruct (denotes_exists pk v0 s0 Hr0) as [m0 H0].
  apply (denotes_iter_as (VMap b0 (t_map t0 f) B g (VMap b0 t0 A f v0)) (VMap b0 t0 B (fun x => g (f x)) v0) _ _ (g <$> (f <$> m0))).
  - exists (f <$> m0). split; [|done]. by exists m0.
  - exists m0. split; [done|]. rewrite map_fmap_id. apply map_eq. intros k. rewrite !lookup_fmap. by destruct (m0 !! k).
Qed.
(** intersecting distributes `map` over the operands *)
Lemma intersection_map {A B} (f : t_V t0 -> A) (g : t_V t1 -> B) :
  iter_as (t := t_intersection t0 t1) (t' := t_intersection (t_map t0 f) (t_map t1 g)) (s0, s1) (s0, s1) (fun p => (f p.1, g p.2)).
Proof.
  destruct (denotes_exists pk v0 s0 Hr0) as [m0 H0]. destruct (denotes_exists pk v1 s1 Hr1) as [m1 H1].
  apply (denotes_iter_as (VIntersection b0 b1 t0 t1 Hn Hd v0 v1)
    (VIntersection b0 b1 (t_map t0 f) (t_map t1 g) Hn Hd (VMap b0 t0 A f v0) (VMap b1 t1 B g v1)) _ _ (map_zip m0 m1)).
  - by exists m0, m1.
  - exists (f <$> m0), (g <$> m1). split; [by exists m0|]. split; [by exists m1|]. apply map_eq. intros k.
    rewrite lookup_fmap, !map_lookup_zip_with, !lookup_fmap. by destruct (m0 !! k), (m1 !! k).
Qed.
End laws.

Section union.
Context (pk : N -> Prop) {t0 t1 : tree} (v0 : view true t0) (v1 : view true t1) (s0 : t_T t0) (s1 : t_T t1)
  (Hn : t_nw t1 = t_nw t0) (Hd : t_depth t1 = t_depth t0).
Hypothesis Hr0 : reached pk v0 s0.
Hypothesis Hr1 : reached pk v1 s1.
Lemma union_comm : iter_as (t := t_union t0 t1) (t' := t_union t1 t0) (s0, s1) (s1, s0) (fun p => (p.2, p.1)).
Proof.
  destruct (denotes_exists pk v0 s0 Hr0) as [m0 H0]. destruct (denotes_exists pk v1 s1 Hr1) as [m1 H1].
  apply (denotes_iter_as pk (VUnion t0 t1 Hn Hd v0 v1) (VUnion t1 t0 (eq_sym Hn) (eq_sym Hd) v1 v0) _ _ (merge either m0 m1)).
  - by exists m0, m1.
  - exists m1, m0. split; [done|]. split; [done|]. apply map_eq. intros k. rewrite lookup_fmap, !lookup_merge.
    by destruct (m0 !! k), (m1 !! k).
Qed.
Lemma dom_merge_either {A B} (m : gmap N A) (m' : gmap N B) : (dom (merge either m m') : gset N) = dom m ∪ dom m'.
Proof.
  apply set_eq. intros k. rewrite elem_of_union, !elem_of_dom, lookup_merge. unfold is_Some.
  destruct (m !! k), (m' !! k); cbn; naive_solver.
Qed.
Lemma dom_zip {A B} (m : gmap N A) (m' : gmap N B) : (dom (map_zip m m') : gset N) = dom m ∩ dom m'.
Proof.
  apply set_eq. intros k. rewrite elem_of_intersection, !elem_of_dom, map_lookup_zip_with. unfold is_Some.
  destruct (m !! k), (m' !! k); cbn; naive_solver.
Qed.
(** keys: a ∪ (a ∩ b) = a,  a ∩ (a ∪ b) = a *)
Lemma absorb_union : iter_same_keys (t := t_union t0 (t_intersection t0 t1)) (t' := t0) (s0, (s0, s1)) s0.
Proof.
  destruct (denotes_exists pk v0 s0 Hr0) as [m0 H0]. destruct (denotes_exists pk v1 s1 Hr1) as [m1 H1].
  apply (denotes_same_keys pk (VUnion t0 (t_intersection t0 t1) eq_refl eq_refl v0 (VIntersection true true t0 t1 Hn Hd v0 v1)) v0 _ _
    (merge either m0 (map_zip m0 m1)) m0); [|done|].
  - exists m0, (map_zip m0 m1). split; [done|]. split; [|done]. by exists m0, m1.
  - etrans; [apply (dom_merge_either m0 (map_zip m0 m1))|]. rewrite dom_zip. set_solver.
Qed.
Lemma absorb_intersection : iter_same_keys (t := t_intersection t0 (t_union t0 t1)) (t' := t0) (s0, (s0, s1)) s0.
Proof.
  destruct (denotes_exists pk v0 s0 Hr0) as [m0 H0]. destruct (denotes_exists pk v1 s1 Hr1) as [m1 H1].
  apply (denotes_same_keys pk (VIntersection true true t0 (t_union t0 t1) eq_refl eq_refl v0 (VUnion t0 t1 Hn Hd v0 v1)) v0 _ _
    (map_zip m0 (merge either m0 m1)) m0); [|done|].
  - exists m0, (merge either m0 m1). split; [done|]. split; [|done]. by exists m0, m1.
  - etrans; [apply (dom_zip m0 (merge either m0 m1))|]. rewrite dom_merge_either. set_solver.
Qed.
Context {t2 : tree} (v2 : view true t2) (s2 : t_T t2) (Hn2 : t_nw t2 = t_nw t0) (Hd2 : t_depth t2 = t_depth t0).
Hypothesis Hr2 : reached pk v2 s2.
(** keys: (a ∪ b) ∩ c = (a ∩ c) ∪ (b ∩ c) *)
Lemma distribute : iter_same_keys (t := t_intersection (t_union t0 t1) t2) (t' := t_union (t_intersection t0 t2) (t_intersection t1 t2))
  ((s0, s1), s2) ((s0, s2), (s1, s2)).
Proof.
  destruct (denotes_exists pk v0 s0 Hr0) as [m0 H0]. destruct (denotes_exists pk v1 s1 Hr1) as [m1 H1]. destruct (denotes_exists pk v2 s2 Hr2) as [m2 H2].
  apply (denotes_same_keys pk (VIntersection true true (t_union t0 t1) t2 Hn2 Hd2 (VUnion t0 t1 Hn Hd v0 v1) v2)
    (VUnion (t_intersection t0 t2) (t_intersection t1 t2) Hn Hd
      (VIntersection true true t0 t2 Hn2 Hd2 v0 v2) (VIntersection true true t1 t2 (eq_trans Hn2 (eq_sym Hn)) (eq_trans Hd2 (eq_sym Hd)) v1 v2)) _ _
    (map_zip (merge either m0 m1) m2) (merge either (map_zip m0 m2) (map_zip m1 m2))).
  - exists (merge either m0 m1), m2. split; [by exists m0, m1|done].
  - exists (map_zip m0 m2), (map_zip m1 m2). split; [by exists m0, m2|]. split; [by exists m1, m2|done].
  - etrans; [apply (dom_zip (merge either m0 m1) m2)|]. etrans; [|symmetry; apply (dom_merge_either (map_zip m0 m2) (map_zip m1 m2))].
    rewrite dom_merge_either, !dom_zip. set_solver.
Qed.
(** (a ∩ b) ∩ c and a ∩ (b ∩ c), also the values *)
Lemma intersection_assoc : iter_as (t := t_intersection (t_intersection t0 t1) t2) (t' := t_intersection t0 (t_intersection t1 t2))
  ((s0, s1), s2) (s0, (s1, s2)) (fun p => (p.1.1, (p.1.2, p.2))).
Proof.
  destruct (denotes_exists pk v0 s0 Hr0) as [m0 H0]. destruct (denotes_exists pk v1 s1 Hr1) as [m1 H1]. destruct (denotes_exists pk v2 s2 Hr2) as [m2 H2].
  apply (denotes_iter_as pk (VIntersection true true (t_intersection t0 t1) t2 Hn2 Hd2 (VIntersection true true t0 t1 Hn Hd v0 v1) v2)
    (VIntersection true true t0 (t_intersection t1 t2) Hn Hd v0 (VIntersection true true t1 t2 (eq_trans Hn2 (eq_sym Hn)) (eq_trans Hd2 (eq_sym Hd)) v1 v2)) _ _
    (map_zip (map_zip m0 m1) m2)).
  - exists (map_zip m0 m1), m2. split; [by exists m0, m1|done].
  - exists m0, (map_zip m1 m2). split; [done|]. split; [by exists m1, m2|]. apply map_eq. intros k.
    rewrite lookup_fmap, !map_lookup_zip_with. by destruct (m0 !! k), (m1 !! k), (m2 !! k).
Qed.
End union.

Section multi.
Context (pk : N -> Prop) {t : tree} (v : view true t) (a b : t_T t).
Hypothesis Ha : reached pk v a.
Hypothesis Hb : reached pk v b.
(** two-operand multi operations are the binary ones *)
Lemma mi_is_intersection : iter_as (t := t_intersection t t) (t' := t_multi_intersection t) (a, b) [a; b] (fun p => [p.1; p.2]).
Proof.
  destruct (denotes_exists pk v a Ha) as [m0 H0]. destruct (denotes_exists pk v b Hb) as [m1 H1].
  apply (denotes_iter_as pk (VIntersection true true t t eq_refl eq_refl v v) (VMultiIntersection true t v) _ _ (map_zip m0 m1)).
  - by exists m0, m1.
  - split; [done|]. split; [cbn; lia|]. exists [m0; m1]. split; [by repeat constructor|]. intros k.
    rewrite lookup_fmap, map_lookup_zip_with. cbn. by destruct (m0 !! k), (m1 !! k).
Qed.
Lemma mu_is_union : 2 <= t_depth t ->
  iter_as (t := t_union t t) (t' := t_multi_union t) (a, b) [a; b] (fun p => present [p.1; p.2]).
Proof.
  intros HD. destruct (denotes_exists pk v a Ha) as [m0 H0]. destruct (denotes_exists pk v b Hb) as [m1 H1].
  apply (denotes_iter_as pk (VUnion t t eq_refl eq_refl v v) (VMultiUnion t HD v) _ _ (merge either m0 m1)).
  - by exists m0, m1.
  - split; [cbn; lia|]. exists [m0; m1]. split; [by repeat constructor|]. intros k.
    rewrite lookup_fmap, lookup_merge. cbn. by destruct (m0 !! k), (m1 !! k).
Qed.
End multi.

Section perm.
Context (pk : N -> Prop) {b : bool} {t : tree}.
Lemma denotes_list (v : view b t) s : Forall (reached pk v) s -> exists ms, Forall2 (denotes pk v) s ms.
Proof.
  induction 1 as [|a s Ha Hf [ms IH]]; [exists []; constructor|]. destruct (denotes_exists pk v a Ha) as [m ?]. exists (m :: ms). by constructor.
Qed.
Lemma all_of_is_Some {A} (l : list (option A)) : is_Some (all_of l) <-> Forall is_Some l.
Proof.
  induction l as [|[x|] l IH]; cbn [all_of].
  - split; [by constructor|by eexists].
  - rewrite Forall_cons, <- IH. split.
    + intros [y Hy]. split; [by eexists|]. destruct (all_of l); [by eexists|done].
    + intros [_ [y ->]]. by eexists.
  - rewrite Forall_cons. split; [by intros [? ?]|by intros [[? ?] _]].
Qed.
Lemma some_of_is_Some {A} (l : list (option A)) : is_Some (some_of l) <-> Exists is_Some l.
Proof.
  unfold some_of. induction l as [|[x|] l IH]; cbn [present].
  - split; [by intros [? ?]|by intros ?%Exists_nil].
  - rewrite Exists_cons. split; [intros _; left; by eexists|intros _; by eexists].
  - rewrite Exists_cons, <- IH. split; [by right|]. by intros [[? ?]|?].
Qed.
Definition has_key (a : t_T t) (k : N) : Prop := exists x, tree_get t a k = Ok (Some x).
Lemma denotes_has_key (v : view b t) a m k : denotes pk v a m -> is_Some (m !! k) <-> has_key a k.
Proof. intros [_ H]%denotes_reached. split; intros [x Hx]; exists x; by apply H. Qed.
Lemma mi_keys (v : view b t) s m k : denotes pk (VMultiIntersection b t v) s m -> k ∈ (dom m : gset N) <-> Forall (fun a => has_key a k) s.
Proof.
  intros (_ & _ & ms & Hms & Hm). rewrite elem_of_dom, Hm. etrans; [apply (all_of_is_Some ((.!! k) <$> ms))|]. rewrite Forall_fmap. clear Hm.
  induction Hms as [|a m0 s ms Ha _ IH]; [done|]. rewrite !Forall_cons, IH. cbn. by rewrite (denotes_has_key v a m0 k Ha).
Qed.
(** the order of the operands does not change the keys *)
Lemma mi_perm (v : view b t) s s' : s <> [] -> length s <= 32 -> Forall (reached pk v) s -> s ≡ₚ s' ->
  iter_same_keys (t := t_multi_intersection t) (t' := t_multi_intersection t) s s'.
Proof.
  intros Hne Hl Hf Hp. set (v' := VMultiIntersection b t v). assert (reached pk v' s) as Hr by done.
  assert (reached pk v' s') as Hr'.
  { split; [intros ->; by apply Permutation_nil_r in Hp|]. split; [by rewrite <- Hp|by rewrite <- Hp]. }
  destruct (denotes_exists pk v' s Hr) as [m Hm]. destruct (denotes_exists pk v' s' Hr') as [m' Hm'].
  apply (denotes_same_keys pk v' v' s s' m m' Hm Hm').
  apply set_eq. intros k. etrans; [by apply (mi_keys v)|]. etrans; [|symmetry; by apply (mi_keys v)]. by rewrite Hp.
Qed.
End perm.
Section perm_union.
Context (pk : N -> Prop) {t : tree}.
Lemma mu_keys (v : view true t) HD s m k : denotes pk (VMultiUnion t HD v) s m -> k ∈ (dom m : gset N) <-> Exists (fun a => has_key a k) s.
Proof.
  intros (_ & ms & Hms & Hm). rewrite elem_of_dom, Hm. etrans; [apply (some_of_is_Some ((.!! k) <$> ms))|]. rewrite Exists_fmap. clear Hm.
  induction Hms as [|a m0 s ms Ha _ IH]; [by rewrite !Exists_nil|]. rewrite !Exists_cons, IH. cbn. by rewrite (denotes_has_key pk v a m0 k Ha).
Qed.
Lemma mu_perm (v : view true t) s s' : 2 <= t_depth t -> length s <= 32 -> Forall (reached pk v) s -> s ≡ₚ s' ->
  iter_same_keys (t := t_multi_union t) (t' := t_multi_union t) s s'.
Proof.
  intros HD Hl Hf Hp. set (v' := VMultiUnion t HD v). assert (reached pk v' s) as Hr by done.
  assert (reached pk v' s') as Hr' by (split; [by rewrite <- Hp|by rewrite <- Hp]).
  destruct (denotes_exists pk v' s Hr) as [m Hm]. destruct (denotes_exists pk v' s' Hr') as [m' Hm'].
  apply (denotes_same_keys pk v' v' s s' m m' Hm Hm').
  apply set_eq. intros k. etrans; [by apply (mu_keys v HD)|]. etrans; [|symmetry; by apply (mu_keys v HD)]. rewrite !Exists_exists. by setoid_rewrite Hp.
Qed.
End perm_union.

(** examples/readme_sparse_vec_dot.rs: `intersection(&v1, &v2).map(mul).iter().map(value).sum()` *)
Definition dot (t0 t1 : tree) (h0 : t_V t0 -> N) (h1 : t_V t1 -> N) (s0 : t_T t0) (s1 : t_T t1) (fuel : nat) : res N :=
  let* l := iter_collect fuel (t_map (t_intersection t0 t1) (fun '(x, y) => h0 x * h1 y)%N) (s0, s1) in
  Ok (fold_left N.add l.*2 0%N).
Lemma dot_ok pk {b0 b1 t0 t1} (v0 : view b0 t0) (v1 : view b1 t1) (h0 : t_V t0 -> N) (h1 : t_V t1 -> N) s0 s1 m0 m1 :
  t_nw t1 = t_nw t0 -> t_depth t1 = t_depth t0 -> denotes pk v0 s0 m0 -> denotes pk v1 s1 m1 ->
  exists n, forall fuel, n <= fuel ->
    dot t0 t1 h0 h1 s0 s1 fuel = Ok (map_fold (fun _ p acc => h0 p.1 * h1 p.2 + acc)%N 0%N (map_zip m0 m1)).
Proof.
  intros Hn Hd H0 H1. set (f := fun '(x, y) => (h0 x * h1 y)%N).
  set (v := VMap (b0 && b1) (t_intersection t0 t1) N f (VIntersection b0 b1 t0 t1 Hn Hd v0 v1)).
  assert (denotes pk v (s0, s1) (f <$> map_zip m0 m1)) as Hv.
  { exists (map_zip m0 m1). split; [|done]. by exists m0, m1. }
  destruct (denotes_ok pk v _ _ Hv) as [_ (n & l & Hl & Hs & Hp)]. exists n. intros fuel Hf. unfold dot.
  transitivity (let* l := Ok l in Ok (fold_left N.add l.*2 0%N)).
  { apply (f_equal (fun r => let* l := r in Ok (fold_left N.add l.*2 0%N))). exact (Hl fuel Hf). }
  rewrite bind_ok. f_equal.
  assert (forall (l : list N) a, fold_left N.add l a = foldr N.add 0 l + a)%N as Hfold.
  { clear. induction l as [|x l IH]; intros a; [done|]. cbn [fold_left foldr]. rewrite IH. lia. }
  assert (forall l l' : list N, l ≡ₚ l' -> foldr N.add 0%N l = foldr N.add 0%N l') as Hperm.
  { clear. induction 1; cbn in *; lia. }
  rewrite Hfold, N.add_0_r.
  assert (l.*2 ≡ₚ (f <$> (map_to_list (map_zip m0 m1)).*2 : list N)) as Hpl.
  { transitivity ((map_to_list (f <$> map_zip m0 m1)).*2 : list N); [exact (fmap_Permutation snd _ _ Hp)|].
    etrans; [exact (fmap_Permutation snd _ _ (map_to_list_fmap f (map_zip m0 m1)))|]. rewrite <- !list_fmap_compose. done. }
  rewrite (Hperm _ _ Hpl). unfold map_fold. change (compose ?g ?h) with (fun x => g (h x)). cbv beta.
  clear. induction (map_to_list (map_zip m0 m1)) as [|[k [x y]] l IH]; [done|]. cbn in *. by rewrite IH.
Qed.
