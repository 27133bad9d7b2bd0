(** * Properties of the client's operand iterator of multi_intersection / multi_union: C57, C58

    [ops : operands t]: the trees that each clone of the iterator yields, call by call
    (MultiOperands.v); [ops 0 None] is the first clone of the call in question.  [t_mi_any t],
    [t_mu_any t]: the two trees over such an iterator; [t_multi_intersection t],
    [t_multi_union t]: the same over a list of trees (an iterator that always yields this list). *)
From Verif Require Import Base BitUtils LevelIndices Hierarchy Ops Dense Spec SpecLaws Client TreeClient Compose ViewLaws Materialize
  MultiProofs MultiIters MultiOperands MaterializeViews Sparse Findings.

(** [m] calls of `next` on a new iterator: what they return *)
Definition iter_session (t : tree) (s : t_T t) (fuel m : nat) : res (list (option (N * t_V t))) :=
  let* it := iter_new t s in let* (_, l) := iter_poll fuel m t s it in Ok l.
(** a new cursor, any selections, then reading the data at [i]: the last mask and the data *)
Definition cursor_session (t : tree) (s : t_T t) (xs : list sel) (i : N) : res (option mask * option (t_V t)) :=
  let* c := t_new t s in let* (c, m) := run_selects t s c None xs in let* d := t_cdata t s c i in Ok (m, d).
Definition cursor_session_u (t : tree) (s : t_T t) (xs : list sel) (i : N) : res (option mask * t_V t) :=
  let* c := t_new t s in let* (c, m) := run_selects t s c None xs in let* d := t_cdata_u t s c i in Ok (m, d).

(** C57, multi_union: whatever the later clones yield, every operation answers as if the operands
    were those of its first clone *)
Theorem C57_multi_union t (ops : operands t) : let s := ops 0 None in
  (forall k, tree_get (t_mu_any t) ops k = tree_get (t_multi_union t) s k) /\
  (forall k, tree_get_unchecked (t_mu_any t) ops k = tree_get_unchecked (t_multi_union t) s k) /\
  (forall fuel, iter_collect fuel (t_mu_any t) ops = iter_collect fuel (t_multi_union t) s) /\
  (forall fuel m, iter_session (t_mu_any t) ops fuel m = iter_session (t_multi_union t) s fuel m) /\
  (forall xs i, cursor_session (t_mu_any t) ops xs i = cursor_session (t_multi_union t) s xs i) /\
  (forall xs i, cursor_session_u (t_mu_any t) ops xs i = cursor_session_u (t_multi_union t) s xs i) /\
  materialize (t_mu_any t) ops = materialize (t_multi_union t) s.
Proof.
  intros s. split; [done|]. split; [done|]. split; [intros fuel; apply mu_any_collect|]. split; [|split; [|split; [|apply mu_any_materialize]]].
  - intros fuel m. apply rrel_eq. unfold iter_session. eapply rrel_bind; [apply (mu_any_iter_new t ops)|]. intros a b H.
    eapply rrel_bind; [by apply (mu_any_poll t ops)|]. intros [a1 l] [b1 l'] [_ Hl]. by symmetry.
  - intros xs i. apply rrel_eq. unfold cursor_session. eapply rrel_bind; [apply (mu_any_new t ops)|]. intros a b H.
    eapply rrel_bind; [by apply (mu_any_selects t ops)|]. intros [a1 m] [b1 m'] [H1 H2]. cbn [fst snd] in *. subst m'. unfold mu_R in H1. subst b1.
    rewrite (mu_any_cd t ops). apply (rrel_same eq). done.
  - intros xs i. apply rrel_eq. unfold cursor_session_u. eapply rrel_bind; [apply (mu_any_new t ops)|]. intros a b H.
    eapply rrel_bind; [by apply (mu_any_selects t ops)|]. intros [a1 m] [b1 m'] [H1 H2]. cbn [fst snd] in *. subst m'. unfold mu_R in H1. subst b1.
    rewrite (mu_any_cdu t ops). apply (rrel_same eq). done.
Qed.
(** so it iterates over exactly the keys that `get` of those trees reports *)
Theorem C57_multi_union_iterates {t} (v : view true t) pk (ops : operands t) : 2 <= t_depth t ->
  length (ops 0 None) <= 32 -> Forall (reached pk v) (ops 0 None) ->
  exists n l, (forall fuel, n <= fuel -> iter_collect fuel (t_mu_any t) ops = Ok l) /\
    StronglySorted N.lt l.*1 /\ forall k x, (k, x) ∈ l <-> tree_get (t_multi_union t) (ops 0 None) k = Ok (Some x).
Proof.
  intros HD Hl Hf. destruct (view_iter (VMultiUnion t HD v) pk (ops 0 None) (conj Hl Hf)) as (n & l & H1 & H2 & H3).
  exists n, l. split; [|done]. intros fuel Hn. rewrite mu_any_collect. by apply H1.
Qed.

(** C57, multi_intersection: the same if no later clone yields other trees, or fewer; more do no harm *)
Theorem C57_multi_intersection_partial t (ops : operands t) : let s := ops 0 None in
  (forall n o, s `prefix_of` ops n o) ->
  (forall k, tree_get (t_mi_any t) ops k = tree_get (t_multi_intersection t) s k) /\
  (forall k, tree_get_unchecked (t_mi_any t) ops k = tree_get_unchecked (t_multi_intersection t) s k) /\
  (forall fuel, iter_collect fuel (t_mi_any t) ops = iter_collect fuel (t_multi_intersection t) s) /\
  (forall fuel m, iter_session (t_mi_any t) ops fuel m = iter_session (t_multi_intersection t) s fuel m) /\
  (forall xs i, cursor_session (t_mi_any t) ops xs i = cursor_session (t_multi_intersection t) s xs i) /\
  (forall xs i, cursor_session_u (t_mi_any t) ops xs i = cursor_session_u (t_multi_intersection t) s xs i) /\
  materialize (t_mi_any t) ops = materialize (t_multi_intersection t) s.
Proof.
  intros s Hp. split; [done|]. split; [done|]. split; [intros fuel; by apply mi_any_collect|]. split; [|split; [|split; [|by apply mi_any_materialize]]].
  - intros fuel m. apply rrel_eq. unfold iter_session. eapply rrel_bind; [by apply (mi_any_iter_new t ops)|]. intros a b H.
    eapply rrel_bind; [by apply (mi_any_poll t ops)|]. intros [a1 l] [b1 l'] [_ Hl]. by symmetry.
  - intros xs i. apply rrel_eq. unfold cursor_session. eapply rrel_bind; [apply (mi_any_new t ops)|]. intros a b H.
    eapply rrel_bind; [by apply (mi_any_selects t ops)|]. intros [a1 m] [b1 m'] [H1 H2]. cbn [fst snd] in *. subst m'.
    rewrite (mi_any_cd t ops Hp a1 b1 i H1). apply (rrel_same eq). done.
  - intros xs i. apply rrel_eq. unfold cursor_session_u. eapply rrel_bind; [apply (mi_any_new t ops)|]. intros a b H.
    eapply rrel_bind; [by apply (mi_any_selects t ops)|]. intros [a1 m] [b1 m'] [H1 H2]. cbn [fst snd] in *. subst m'.
    rewrite (mi_any_cdu t ops Hp a1 b1 i H1). apply (rrel_same eq). done.
Qed.
(** but if the second clone ends before the first one did, creating the iterator is undefined
    behaviour (an `unwrap_unchecked` of None), whatever the trees contain *)
Theorem C57_shrinking_refuted {b t} (v : view b t) pk (ops : operands t) : length (ops 0 None) <= 32 ->
  Forall (reached pk v) (ops 0 None) -> ops 1 None `prefix_of` ops 0 None -> length (ops 1 None) < length (ops 0 None) ->
  iter_new (t_mi_any t) ops = UB /\ (forall fuel, iter_collect fuel (t_mi_any t) ops = UB) /\ materialize (t_mi_any t) ops = UB.
Proof.
  intros Hl Hf Hp Hs.
  destruct (arrayvec_collect_ok (t_new t) (fun a c => exists x, t_select_u t a c 0 0%N = Ok x) MULTI_N (ops 0 None) Hl) as (cs & E & Hcs).
  { intros a Ha. rewrite Forall_forall in Hf.
    destruct (view_cursor v pk a (Hf a Ha) [Sel 0 0 true] [] false) as (c0 & c & mk & E0 & E1 & _).
    - econstructor; [|constructor]. cbn. destruct (view_depth v). split; [lia|done].
    - exists c0. split; [done|]. cbn [run_selects sel_unchecked sel_level sel_index] in E1. apply bind_ok_inv in E1 as (x & E1 & _). by exists x. }
  assert (t_new (t_mi_any t) ops = Ok (1, MICursor cs USIZE_MAX (mask_zero (t_nw t)))) as En.
  { cbn [t_mi_any t_multi_intersection t_new]. by rewrite E. }
  assert (forall n, t_select_u (t_mi_any t) ops (n, MICursor cs USIZE_MAX (mask_zero (t_nw t))) 0 0%N = UB \/ n <> 1) as Hsel.
  { intros n. destruct (decide (n = 1)) as [->|]; [left|by right]. cbn [t_mi_any t_select_u fst snd]. unfold mi_select_u.
    cbn [mi_cursors]. by rewrite (mi_all_short t 0 0%N (ops 0 None) cs (ops 1 None) Hcs Hp Hs). }
  destruct (Hsel 1) as [Hu|]; [|done].
  assert (iter_new (t_mi_any t) ops = UB) as Hi.
  { unfold iter_new. rewrite En. cbn [rbind]. by rewrite Hu. }
  split; [done|]. split.
  - intros fuel. unfold iter_collect. by rewrite Hi.
  - unfold materialize. rewrite En. cbn [rbind]. change (t_exact (t_mi_any t)) with false. cbn [negb].
    destruct (t_depth (t_mi_any t) - 1) as [|k]; cbn [from_sparse m_cur]; by rewrite Hu.
Qed.
(** two trees in the first clone, one in every clone that reads data: the iterator is created, the
    first item is undefined behaviour; two trees in the first clone, none afterwards: not even created *)
Theorem C57_shrinking_example_refuted : let d := dense_after 1 (inserts [5%N]) in
  iter_collect 10 (t_multi_intersection (dense_tree N 1)) [d; d] = Ok [(5%N, [5%N; 5%N])] /\
  iter_collect 10 (t_mi_any (dense_tree N 1)) (fun _ _ => [d; d]) = Ok [(5%N, [5%N; 5%N])] /\
  iter_collect 10 (t_mi_any (dense_tree N 1)) (fun n _ => if decide (n = 0) then [d; d] else [d; d; d]) = Ok [(5%N, [5%N; 5%N])] /\
  iter_collect 10 (t_mi_any (dense_tree N 1)) (fun _ o => match o with None => [d; d] | Some _ => [d] end) = UB /\
  iter_collect 10 (t_mi_any (dense_tree N 1)) (fun n _ => if decide (n = 0) then [d; d] else []) = UB.
Proof. vm_compute. done. Qed.
(** clones that yield other trees in place of the first (trees of depth 1, whose cursors hold no pointer into a tree):
    the masks come from [d], the data from [e], which lacks the key: undefined behaviour; [f] has the key, with another value *)
Theorem C57_other_trees_refuted : let d := sparse_after 1 1 (inserts [5%N]) in let e := sparse_after 1 1 (inserts [6%N]) in
  let f := sparse_after 1 1 [CInsert 5%N 77%N] in let clones x := fun (_ : nat) (o : option N) => match o with None => [d] | Some _ => [x] end in
  iter_collect 10 (t_mi_any (sparse_tree N 1 1)) (clones d) = Ok [(5%N, [5%N])] /\
  iter_collect 10 (t_mi_any (sparse_tree N 1 1)) (clones f) = Ok [(5%N, [77%N])] /\
  iter_collect 10 (t_mi_any (sparse_tree N 1 1)) (clones e) = UB.
Proof. vm_compute. done. Qed.
Theorem C57_multi_union_example : let d := dense_after 2 (inserts [5%N]) in let e := dense_after 2 (inserts [5%N; 70%N]) in
  iter_collect 10 (t_mu_any (dense_tree N 2)) (fun n _ => if decide (n = 0) then [d; e] else []) = Ok [(5%N, [5%N; 5%N]); (70%N, [70%N])].
Proof. vm_compute. done. Qed.

(** C58: [h] is `size_hint` of the client's iterator ([honest]: it brackets the number of trees left).
    After [m] calls of `next` on the unchecked item iterator the bounds bracket the number of
    remaining items, for every honest iterator *)
Definition brackets (hint : nat * option nat) (n : nat) : Prop := fst hint <= n /\ forall hi, snd hint = Some hi -> n <= hi.
Theorem C58_multi_intersection_bounds t s k vs (h : hint_fn t) m : honest t h ->
  Forall2 (fun a v => tree_get_unchecked t a k = Ok v) s vs ->
  let li := level_indices (t_nw t) (t_depth t) k in
  exists s', polls (mi_du_next t k li) m s = Ok (s', (Some <$> take m vs) ++ replicate (m - length vs) None) /\
    brackets (mi_du_hint_any t h s') (length (drop m vs)).
Proof.
  intros Hh Hg li. pose proof (mi_du_items t k li s vs (mi_get_unchecked_any t k s vs Hg)) as Hi.
  destruct (Hi m) as (s' & E & _ & _ & _ & He). exists s'. split; [done|]. specialize (He eq_refl). injection He as He _. rewrite <- He. apply Hh.
Qed.
Theorem C58_multi_union_bounds t s k os (h : hint_fn t) m : honest t h ->
  Forall2 (fun a o => tree_get t a k = Ok o) s os ->
  let li := level_indices (t_nw t) (t_depth t) k in let vs := present os in
  exists s', polls (mu_du_next t k li) m s = Ok (s', (Some <$> take m vs) ++ replicate (m - length vs) None) /\
    brackets (mu_du_hint_any t h s') (length (drop m vs)).
Proof.
  intros Hh Hg li vs. pose proof (mu_du_items t k li s vs (mu_get_unchecked_any t k s os Hg)) as Hi.
  destruct (Hi m) as (s' & E & _ & _ & (hi & Hhi & Hle) & _). exists s'. split; [done|]. cbn in Hhi. injection Hhi as <-.
  split; [cbn; lia|]. cbn. intros hi Hx. destruct (Hh s') as [_ Hh2]. specialize (Hh2 hi Hx). lia.
Qed.
(** `len()`: the number of remaining items, if the client's `size_hint` is exact *)
Theorem C58_len_partial t s k vs (h : hint_fn t) m : (forall l, h l = (length l, Some (length l))) ->
  Forall2 (fun a v => tree_get_unchecked t a k = Ok v) s vs ->
  let li := level_indices (t_nw t) (t_depth t) k in
  exists s', polls (mi_du_next t k li) m s = Ok (s', (Some <$> take m vs) ++ replicate (m - length vs) None) /\
    exact_len (mi_du_hint_any t h s') = Ok (length (drop m vs)).
Proof.
  intros Hh Hg li. pose proof (mi_du_items t k li s vs (mi_get_unchecked_any t k s vs Hg)) as Hi.
  destruct (Hi m) as (s' & E & _ & _ & _ & He). exists s'. split; [done|]. specialize (He eq_refl). injection He as He _.
  unfold mi_du_hint_any, exact_len. rewrite Hh. cbn. rewrite He. by destruct (decide _).
Qed.
(** the item iterators of a cursor and of `get` do not ask the client's iterator *)
Theorem C58_cursor_len {b t} (v : view b t) pk s xs p checked : s <> [] -> length s <= 32 -> Forall (reached pk v) s ->
  let t' := t_multi_intersection t in
  sel_run (msize (t_nw t)) (t_depth t) (has_elem t' s) None xs (Some (p, checked)) -> length p = t_depth t - 1 ->
  exists c0 c mk, t_new t' s = Ok c0 /\ run_selects t' s c0 None xs = Ok (c, Some mk) /\
    forall i l m, (i < msize (t_nw t))%N -> tree_get t' s (undigits (msize (t_nw t)) (p ++ [i])) = Ok (Some l) ->
      exists st', polls (mi_cd_next t i) m (s, mi_cursors c) = Ok (st', (Some <$> take m l) ++ replicate (m - length l) None) /\
        exact_len (mi_cd_hint t st') = Ok (length (drop m l)).
Proof.
  intros Hne Hl Hf t' Hx Hp.
  destruct (view_cursor (VMultiIntersection b t v) pk s (conj Hne (conj Hl Hf)) xs p checked Hx)
    as (c0 & c & mk & H1 & H2 & _ & _ & _ & _ & H7).
  exists c0, c, mk. split; [done|]. split; [done|]. intros i l m Hi Hg.
  destruct (mi_cd_items t s c i l (proj1 (H7 Hp i Hi) l Hg) m) as (st' & E & _ & _ & _ & He). exists st'. split; [done|].
  unfold exact_len. rewrite (He eq_refl). cbn. by destruct (decide _).
Qed.
Theorem C58_get_len {A} (l : list A) m : exists st', polls av_next m l = Ok (st', (Some <$> take m l) ++ replicate (m - length l) None) /\
  exact_len (av_hint st') = Ok (length (drop m l)).
Proof.
  destruct (av_items l m) as (st' & E & _ & _ & _ & He). exists st'. split; [done|]. unfold exact_len. rewrite (He eq_refl). cbn. by destruct (decide _).
Qed.
(** but an honest, inexact `size_hint` (a `Filter`: at least 0, at most the trees left) makes `len()`
    of the unchecked item iterator panic, although it implements ExactSizeIterator and has an item left *)
Theorem C58_len_refuted t (h : hint_fn t) : (forall l, h l = (0, Some (length l))) ->
  honest t h /\ forall a s, exact_len (mi_du_hint_any t h (a :: s)) = Panic.
Proof.
  intros Hh. split; [intros l; rewrite Hh; cbn; split; [lia|]; intros hi [= <-]; lia|].
  intros a s. unfold exact_len, mi_du_hint_any. rewrite Hh. cbn. by destruct (decide _).
Qed.
