(** * Laws of the lazy operations, over every nesting (C43) *)
From Verif Require Import Base BitUtils LevelIndices Hierarchy Ops Dense Spec SpecLaws Client DenseLaws Lawful Generic Compose ViewLaws Algebra AllViews.

Section two.
Context (pk : N -> Prop) {t t' : tree} (x : xview t) (x' : xview t') (s : t_T t) (s' : t_T t').
Hypothesis (Hr : xreached pk x s) (Hr' : xreached pk x' s').
Lemma xiter_as (g : t_V t -> t_V t') : (forall k, is_Some (gives x s k) <-> is_Some (gives x' s' k)) ->
  (forall k, is_Some (gives x s k) -> sees x' s' k = g <$> sees x s k) -> iter_as s s' g.
Proof.
  intros Hk Hv. destruct (xiter x pk s Hr) as (n & l & Hl & Hs & He), (xiter x' pk s' Hr') as (n' & l' & Hl' & Hs' & He').
  exists (n + n'), l. intros fuel Hf. split; [apply Hl; lia|]. rewrite Hl' by lia. f_equal.
  assert (((fun kv : N * t_V t => (kv.1, g kv.2)) <$> l).*1 = l.*1) as Hkk.
  { rewrite <- list_fmap_compose. apply list_fmap_ext. by intros ? []. }
  set (f := fun k => if decide (is_Some (gives x' s' k)) then sees x' s' k else None).
  assert (forall k w, f k = Some w <-> is_Some (gives x' s' k) /\ sees x' s' k = Some w) as Hff.
  { intros k w. unfold f. destruct (decide _); naive_solver. }
  apply (enumerates_unique _ _ f f); [| |done].
  - split; [done|]. intros k w. by rewrite He', Hff.
  - split; [refine (eq_ind_r (StronglySorted N.lt) Hs Hkk)|]. intros k w. rewrite elem_of_list_fmap, Hff. split.
    + intros ([k' y] & [= -> ->] & [Hg Hy]%He). split; [by apply Hk|]. by rewrite (Hv k' Hg), Hy.
    + intros [Hg Hw]. apply Hk in Hg. rewrite (Hv k Hg) in Hw. destruct (sees x s k) as [y|] eqn:E; [|done]. injection Hw as <-.
      exists (k, y). split; [done|]. by apply He.
Qed.
Lemma xiter_same_keys : (forall k, is_Some (gives x s k) <-> is_Some (gives x' s' k)) -> iter_same_keys s s'.
Proof.
  intros Hk. destruct (xiter x pk s Hr) as (n & l & Hl & Hs & He), (xiter x' pk s' Hr') as (n' & l' & Hl' & Hs' & He').
  exists (n + n'), l, l'. intros fuel Hf. split; [apply Hl; lia|]. split; [apply Hl'; lia|].
  assert (forall k, k ∈ l.*1 <-> is_Some (gives x s k)) as H1.
  { intros k. rewrite elem_of_list_fmap. split; [by intros ([k0 y] & -> & [? _]%He)|]. intros Hg.
    destruct (sees_some x pk s Hr k Hg) as [y Hy]. exists (k, y). split; [done|]. by apply He. }
  assert (forall k, k ∈ l'.*1 <-> is_Some (gives x' s' k)) as H2.
  { intros k. rewrite elem_of_list_fmap. split; [by intros ([k0 y] & -> & [? _]%He')|]. intros Hg.
    destruct (sees_some x' pk s' Hr' k Hg) as [y Hy]. exists (k, y). split; [done|]. by apply He'. }
  apply ssorted_perm_eq; [done|done|]. intros k. by rewrite H1, H2, Hk.
Qed.
End two.

Ltac some_solve := repeat match goal with |- context [gives ?x ?s ?k] => destruct (gives x s k) end;
  cbn; split; intros [? ?]; first [done|by eexists].

Section laws.
Context (pk : N -> Prop) {t0 t1 t2 : tree} (x0 : xview t0) (x1 : xview t1) (x2 : xview t2) (s0 : t_T t0) (s1 : t_T t1) (s2 : t_T t2)
  (Hn : t_nw t1 = t_nw t0) (Hd : t_depth t1 = t_depth t0) (Hn2 : t_nw t2 = t_nw t0) (Hd2 : t_depth t2 = t_depth t0).
Hypothesis Hr0 : xreached pk x0 s0.
Hypothesis Hr1 : xreached pk x1 s1.
Hypothesis Hr2 : xreached pk x2 s2.
Let Hn12 : t_nw t2 = t_nw t1 := eq_trans Hn2 (eq_sym Hn).
Let Hd12 : t_depth t2 = t_depth t1 := eq_trans Hd2 (eq_sym Hd).

Lemma xintersection_comm : iter_as (t := t_intersection t0 t1) (t' := t_intersection t1 t0) (s0, s1) (s1, s0) (fun p => (p.2, p.1)).
Proof.
  apply (xiter_as pk (XIntersection t0 t1 Hn Hd x0 x1) (XIntersection t1 t0 (eq_sym Hn) (eq_sym Hd) x1 x0)); [by split|by split| |];
    intros k; cbn [gives sees fst snd].
  - some_solve.
  - intros _. by destruct (sees x0 s0 k), (sees x1 s1 k).
Qed.
Lemma xunion_comm : iter_as (t := t_union t0 t1) (t' := t_union t1 t0) (s0, s1) (s1, s0) (fun p => (p.2, p.1)).
Proof.
  apply (xiter_as pk (XUnion t0 t1 Hn Hd x0 x1) (XUnion t1 t0 (eq_sym Hn) (eq_sym Hd) x1 x0)); [by split|by split| |];
    intros k; cbn [gives sees fst snd].
  - some_solve.
  - intros _. by destruct (sees x0 s0 k), (sees x1 s1 k).
Qed.
Lemma xintersection_assoc : iter_as (t := t_intersection (t_intersection t0 t1) t2) (t' := t_intersection t0 (t_intersection t1 t2))
  ((s0, s1), s2) (s0, (s1, s2)) (fun p => (p.1.1, (p.1.2, p.2))).
Proof.
  apply (xiter_as pk (XIntersection (t_intersection t0 t1) t2 Hn2 Hd2 (XIntersection t0 t1 Hn Hd x0 x1) x2)
    (XIntersection t0 (t_intersection t1 t2) Hn Hd x0 (XIntersection t1 t2 Hn12 Hd12 x1 x2))); [by split|by split| |];
    intros k; cbn [gives sees fst snd].
  - some_solve.
  - intros _. by destruct (sees x0 s0 k), (sees x1 s1 k), (sees x2 s2 k).
Qed.
Lemma xunion_assoc : iter_as (t := t_union (t_union t0 t1) t2) (t' := t_union t0 (t_union t1 t2))
  ((s0, s1), s2) (s0, (s1, s2)) (fun p => (p.1 ≫= fst, match p.1 ≫= snd, p.2 with None, None => None | o1, o2 => Some (o1, o2) end)).
Proof.
  apply (xiter_as pk (XUnion (t_union t0 t1) t2 Hn2 Hd2 (XUnion t0 t1 Hn Hd x0 x1) x2)
    (XUnion t0 (t_union t1 t2) Hn Hd x0 (XUnion t1 t2 Hn12 Hd12 x1 x2))); [by split|by split| |];
    intros k; cbn [gives sees fst snd].
  - some_solve.
  - intros _. by destruct (sees x0 s0 k), (sees x1 s1 k), (sees x2 s2 k).
Qed.
Lemma xmap_map {A B} (f : t_V t0 -> A) (g : A -> B) : iter_as (t := t_map (t_map t0 f) g) (t' := t_map t0 (fun y => g (f y))) s0 s0 id.
Proof.
  apply (xiter_as pk (XMap (t_map t0 f) B g (XMap t0 A f x0)) (XMap t0 B (fun y => g (f y)) x0)); [done|done| |];
    intros k; cbn [gives sees].
  - by rewrite !fmap_is_Some.
  - intros _. by destruct (sees x0 s0 k).
Qed.
Lemma xintersection_map {A B} (f : t_V t0 -> A) (g : t_V t1 -> B) :
  iter_as (t := t_intersection t0 t1) (t' := t_intersection (t_map t0 f) (t_map t1 g)) (s0, s1) (s0, s1) (fun p => (f p.1, g p.2)).
Proof.
  apply (xiter_as pk (XIntersection t0 t1 Hn Hd x0 x1) (XIntersection (t_map t0 f) (t_map t1 g) Hn Hd (XMap t0 A f x0) (XMap t1 B g x1))); [by split|by split| |];
    intros k; cbn [gives sees fst snd].
  - destruct (gives x0 s0 k), (gives x1 s1 k); cbn; some_solve.
  - intros _. by destruct (sees x0 s0 k), (sees x1 s1 k).
Qed.
Lemma xunion_map {A B} (f : t_V t0 -> A) (g : t_V t1 -> B) :
  iter_as (t := t_union t0 t1) (t' := t_union (t_map t0 f) (t_map t1 g)) (s0, s1) (s0, s1) (fun p => (f <$> p.1, g <$> p.2)).
Proof.
  apply (xiter_as pk (XUnion t0 t1 Hn Hd x0 x1) (XUnion (t_map t0 f) (t_map t1 g) Hn Hd (XMap t0 A f x0) (XMap t1 B g x1))); [by split|by split| |];
    intros k; cbn [gives sees fst snd].
  - destruct (gives x0 s0 k), (gives x1 s1 k); cbn; some_solve.
  - intros _. by destruct (sees x0 s0 k), (sees x1 s1 k).
Qed.
Lemma xabsorb_union : iter_same_keys (t := t_union t0 (t_intersection t0 t1)) (t' := t0) (s0, (s0, s1)) s0.
Proof.
  apply (xiter_same_keys pk (XUnion t0 (t_intersection t0 t1) eq_refl eq_refl x0 (XIntersection t0 t1 Hn Hd x0 x1)) x0); [by repeat split|done|].
  intros k; cbn [gives fst snd]. destruct (gives x0 s0 k), (gives x1 s1 k); some_solve.
Qed.
Lemma xabsorb_intersection : iter_same_keys (t := t_intersection t0 (t_union t0 t1)) (t' := t0) (s0, (s0, s1)) s0.
Proof.
  apply (xiter_same_keys pk (XIntersection t0 (t_union t0 t1) eq_refl eq_refl x0 (XUnion t0 t1 Hn Hd x0 x1)) x0); [by repeat split|done|].
  intros k; cbn [gives fst snd]. destruct (gives x0 s0 k), (gives x1 s1 k); some_solve.
Qed.
Lemma xdistribute : iter_same_keys (t := t_intersection (t_union t0 t1) t2) (t' := t_union (t_intersection t0 t2) (t_intersection t1 t2))
  ((s0, s1), s2) ((s0, s2), (s1, s2)).
Proof.
  apply (xiter_same_keys pk (XIntersection (t_union t0 t1) t2 Hn2 Hd2 (XUnion t0 t1 Hn Hd x0 x1) x2)
    (XUnion (t_intersection t0 t2) (t_intersection t1 t2) Hn Hd (XIntersection t0 t2 Hn2 Hd2 x0 x2) (XIntersection t1 t2 Hn12 Hd12 x1 x2))); [by repeat split|by repeat split|].
  intros k; cbn [gives fst snd]. destruct (gives x0 s0 k), (gives x1 s1 k), (gives x2 s2 k); some_solve.
Qed.
Lemma xdistribute' : iter_same_keys (t := t_union (t_intersection t0 t1) t2) (t' := t_intersection (t_union t0 t2) (t_union t1 t2))
  ((s0, s1), s2) ((s0, s2), (s1, s2)).
Proof.
  apply (xiter_same_keys pk (XUnion (t_intersection t0 t1) t2 Hn2 Hd2 (XIntersection t0 t1 Hn Hd x0 x1) x2)
    (XIntersection (t_union t0 t2) (t_union t1 t2) Hn Hd (XUnion t0 t2 Hn2 Hd2 x0 x2) (XUnion t1 t2 Hn12 Hd12 x1 x2))); [by repeat split|by repeat split|].
  intros k; cbn [gives fst snd]. destruct (gives x0 s0 k), (gives x1 s1 k), (gives x2 s2 k); some_solve.
Qed.
End laws.

Section multi.
Context (pk : N -> Prop) {t : tree} (x : xview t).
Lemma mapM_some (s : list (t_T t)) k : is_Some (mapM (fun a => gives x a k) s) <-> Forall (fun a => is_Some (gives x a k)) s.
Proof. apply mapM_is_Some. Qed.
Lemma omap_some (s : list (t_T t)) k : is_Some (match omap (fun a => gives x a k) s with [] => None | l => Some l end) <-> Exists (fun a => is_Some (gives x a k)) s.
Proof.
  induction s as [|a s IH]; cbn; [split; [intros [? [=]]|intros H; inversion H]|]. rewrite Exists_cons, <- IH.
  destruct (gives x a k) as [y|] eqn:E; cbn.
  - split; [intros _; left; by eexists|intros _; by eexists].
  - split; [by right|]. intros [[? [=]]|]; done.
Qed.
Lemma xmulti_intersection_perm s s' : s <> [] -> length s <= 32 -> Forall (xreached pk x) s -> s ≡ₚ s' ->
  iter_same_keys (t := t_multi_intersection t) (t' := t_multi_intersection t) s s'.
Proof.
  intros Hne Hl Hf Hp. apply (xiter_same_keys pk (XMultiIntersection t x) (XMultiIntersection t x)).
  - by split.
  - split; [intros ->; by apply Permutation_nil_r in Hp|]. split; [by rewrite <- Hp|]. by rewrite <- Hp.
  - intros k. cbn [gives]. by rewrite !mapM_some, Hp.
Qed.
Lemma xmulti_union_perm s s' : 2 <= t_depth t -> length s <= 32 -> Forall (xreached pk x) s -> s ≡ₚ s' ->
  iter_same_keys (t := t_multi_union t) (t' := t_multi_union t) s s'.
Proof.
  intros H2 Hl Hf Hp. apply (xiter_same_keys pk (XMultiUnion t H2 x) (XMultiUnion t H2 x)).
  - by split.
  - split; by rewrite <- Hp.
  - intros k. cbn [gives]. by rewrite !omap_some, Hp.
Qed.
Lemma xmulti_intersection_two a b : xreached pk x a -> xreached pk x b ->
  iter_as (t := t_intersection t t) (t' := t_multi_intersection t) (a, b) [a; b] (fun p => [p.1; p.2]).
Proof.
  intros Ha Hb. apply (xiter_as pk (XIntersection t t eq_refl eq_refl x x) (XMultiIntersection t x)).
  - by split.
  - split; [done|]. split; [cbn; lia|]. by repeat constructor.
  - intros k. cbn [gives fst snd mapM]. destruct (gives x a k), (gives x b k); cbn; some_solve.
  - intros k. cbn [gives sees fst snd]. cbn [forallb mapM]. rewrite (has_gives x pk a Ha k), (has_gives x pk b Hb k). intros Hg.
    destruct (gives x a k) as [ya|] eqn:Ea; [|by destruct Hg]. destruct (gives x b k) as [yb|] eqn:Eb; [|by destruct Hg].
    cbn. by destruct (sees x a k), (sees x b k).
Qed.
Lemma xmulti_union_two a b : 2 <= t_depth t -> xreached pk x a -> xreached pk x b ->
  iter_same_keys (t := t_union t t) (t' := t_multi_union t) (a, b) [a; b].
Proof.
  intros H2 Ha Hb. apply (xiter_same_keys pk (XUnion t t eq_refl eq_refl x x) (XMultiUnion t H2 x)).
  - by split.
  - split; [cbn; lia|]. by repeat constructor.
  - intros k. cbn [gives fst snd omap list_omap]. destruct (gives x a k), (gives x b k); cbn; some_solve.
Qed.
End multi.
