(** * Cursors under any mix of checked and unchecked selections: more of C24 and C16

    [mix_run] (UncheckedCursor.v) is the protocol of the documentation alone: level n+1 after
    levels 0..n, the unchecked method only for a child that contains an element, nothing else.
    It holds for every expression whose cursor is the library's own ([own]; a user-written tree may
    occur below `union` and `multi_union`, which use it through the checked methods only). *)
From Verif Require Import Base BitUtils BitUtilsProofs LevelIndices Hierarchy Ops Dense Sparse Spec SpecLaws Client TreeClient
  Lawful Generic Compose ViewLaws AllViews DenseHistory SparseHistory DenseLaws SparseLaws Findings Examples MaterializeViews EffectsLaws PEffectsLaws UncheckedCursor PropertiesAllViews.

Section every.
Context {t : tree} (x : xview t) (pk : N -> Prop) (s : t_T t).
Hypothesis Hr : xreached pk x s.
Hypothesis Hown : own x = true.

(** C24: the mask returned last announces every child that contains an element, at the bottom level
    exactly those; `data_unchecked` returns every element of the node; `data` is right for every index,
    present or not, if the last selection was a checked one, and without any condition if no
    `multi_intersection` is asked for it ([plain]) *)
Theorem C24_mixed_selections xs p checked :
  mix_run (msize (t_nw t)) (t_depth t) (has_elem t s) None xs (Some (p, checked)) ->
  exists c0 c mk, t_new t s = Ok c0 /\ run_selects t s c0 None xs = Ok (c, Some mk) /\ length mk = t_nw t /\
    (forall i, has_elem t s (p ++ [i]) -> mbit mk i = true) /\
    (length p = t_depth t - 1 -> forall i, mbit mk i = true -> has_elem t s (p ++ [i])) /\
    (length p = t_depth t - 1 -> forall i, (i < msize (t_nw t))%N -> let k := undigits (msize (t_nw t)) (p ++ [i]) in
      ((exists y, tree_get t s k = Ok (Some y)) -> exists y, sees x s k = Some y /\ t_cdata_u t s c i = Ok y) /\
      (checked = true \/ plain x = true -> t_cdata t s c i = Ok (sees x s k))).
Proof.
  intros H. destruct (xmix x pk s Hr Hown xs p checked H) as (c0 & c & mk & H1 & H2 & H3 & H4 & H5 & _ & H7).
  exists c0, c, mk. done.
Qed.
(** C16 for the same sessions *)
Theorem C16_mixed_selections_exact xs p checked : ~ key_below t pk p -> t_exact t = true ->
  mix_run (msize (t_nw t)) (t_depth t) (has_elem t s) None xs (Some (p, checked)) ->
  exists c0 c mk, t_new t s = Ok c0 /\ run_selects t s c0 None xs = Ok (c, Some mk) /\
    forall i, mbit mk i = true <-> has_elem t s (p ++ [i]).
Proof.
  intros Hpk Hx H. destruct (xmix x pk s Hr Hown xs p checked H) as (c0 & c & mk & H1 & H2 & H3 & H4 & _ & H6 & _).
  exists c0, c, mk. split; [done|]. split; [done|]. intros i. split; [|apply H4]. intros Hb.
  destruct (H6 Hx i Hb) as [|(k & Hk & Hp)]; [done|]. destruct Hpk. exists k. split; [|done].
  destruct Hk as [Hk Hpre]. split; [done|]. etrans; [|exact Hpre]. by exists [i].
Qed.
(** C24: two sessions that end at the same path cannot be told apart: same masks at the last level, same data *)
Theorem C24_mixed_sessions_agree xs1 xs2 p b1 b2 : length p = t_depth t - 1 ->
  mix_run (msize (t_nw t)) (t_depth t) (has_elem t s) None xs1 (Some (p, b1)) ->
  mix_run (msize (t_nw t)) (t_depth t) (has_elem t s) None xs2 (Some (p, b2)) ->
  b1 = true /\ b2 = true \/ plain x = true ->
  exists c0 c1 c2 m1 m2, t_new t s = Ok c0 /\ run_selects t s c0 None xs1 = Ok (c1, Some m1) /\ run_selects t s c0 None xs2 = Ok (c2, Some m2) /\
    (forall i, mbit m1 i = mbit m2 i) /\
    forall i, (i < msize (t_nw t))%N -> t_cdata t s c1 i = t_cdata t s c2 i.
Proof.
  intros Hl H1 H2 Hb.
  destruct (xmix x pk s Hr Hown xs1 p b1 H1) as (c0 & c1 & m1 & En & E1 & _ & Ha1 & Hb1 & _ & Hd1).
  destruct (xmix x pk s Hr Hown xs2 p b2 H2) as (c0' & c2 & m2 & En' & E2 & _ & Ha2 & Hb2 & _ & Hd2).
  rewrite En in En'. injection En' as <-. exists c0, c1, c2, m1, m2. split; [done|]. split; [done|]. split; [done|]. split.
  - intros i. apply eq_true_iff_eq. split; intros Hi; [apply Ha2, Hb1; done|apply Ha1, Hb2; done].
  - intros i Hi. destruct (Hd1 Hl i Hi) as [_ Hc1]. destruct (Hd2 Hl i Hi) as [_ Hc2].
    rewrite Hc1, Hc2 by tauto. done.
Qed.
End every.

(** C24 for the containers and for the expressions without `union`/`multi_union` over a `multi_union` and without a
    bare `multi_union`: `data` answers what `get` answers *)
Theorem C24_mixed_data_is_get {t} (v : view true t) pk s xs p checked : reached pk v s -> vown v = true ->
  checked = true \/ vplain v = true -> length p = t_depth t - 1 ->
  mix_run (msize (t_nw t)) (t_depth t) (has_elem t s) None xs (Some (p, checked)) ->
  exists c0 c mk, t_new t s = Ok c0 /\ run_selects t s c0 None xs = Ok (c, Some mk) /\
    forall i d, (i < msize (t_nw t))%N -> tree_get t s (undigits (msize (t_nw t)) (p ++ [i])) = Ok d -> t_cdata t s c i = Ok d.
Proof.
  intros Hr Ho Hc Hl H. destruct (C24_mixed_selections (XView t v) pk s Hr Ho xs p checked H) as (c0 & c & mk & H1 & H2 & _ & _ & _ & H3).
  exists c0, c, mk. split; [done|]. split; [done|]. intros i d Hi Hd. destruct (H3 Hl i Hi) as [_ H4]. rewrite H4 by done.
  cbn [sees]. unfold got. by rewrite Hd.
Qed.
(** a DenseTree and a SparseTree in particular, after any legal history *)
Theorem C24_dense_mixed {V} D cs s xs p checked i d : 1 <= D -> D <= 9 -> dense_legal D cs -> dense_reached D cs s ->
  length p = D - 1 -> (i < 64)%N ->
  mix_run 64 D (has_elem (dense_tree V D) s) None xs (Some (p, checked)) ->
  tree_get (dense_tree V D) s (undigits 64 (p ++ [i])) = Ok d ->
  exists c0 c mk, t_new (dense_tree V D) s = Ok c0 /\ run_selects (dense_tree V D) s c0 None xs = Ok (c, Some mk) /\
    t_cdata (dense_tree V D) s c i = Ok d.
Proof.
  intros HD1 HD9 Hl Hr Hp Hi Hm Hd.
  destruct (C24_mixed_data_is_get (VDense V D HD1 HD9) any_key s xs p checked) as (c0 & c & mk & H1 & H2 & H3); try done.
  - exists cs. done.
  - by right.
  - exists c0, c, mk. split; [done|]. split; [done|]. by apply H3.
Qed.
Theorem C24_sparse_mixed {V} nw D req (dflt : option V) cs s xs p checked i d : nw_ok nw -> 1 <= D -> D <= 8 ->
  sparse_legal nw D req dflt cs -> sparse_reached nw D req dflt cs s ->
  length p = D - 1 -> (i < msize nw)%N ->
  mix_run (msize nw) D (has_elem (sparse_tree V nw D) s) None xs (Some (p, checked)) ->
  tree_get (sparse_tree V nw D) s (undigits (msize nw) (p ++ [i])) = Ok d ->
  exists c0 c mk, t_new (sparse_tree V nw D) s = Ok c0 /\ run_selects (sparse_tree V nw D) s c0 None xs = Ok (c, Some mk) /\
    t_cdata (sparse_tree V nw D) s c i = Ok d.
Proof.
  intros Hnw HD1 HD8 Hl Hr Hp Hi Hm Hd.
  destruct (C24_mixed_data_is_get (VSparse V nw D (placeholder req dflt) Hnw HD1 HD8) any_key s xs p checked) as (c0 & c & mk & H1 & H2 & H3); try done.
  - exists req, dflt, cs. done.
  - by right.
  - exists c0, c, mk. split; [done|]. split; [done|]. by apply H3.
Qed.

(** ** finding: the condition on `data` of a `multi_intersection` is needed
    After an unchecked selection its cursor still holds the mask of the last checked one: `data` then
    answers an element stored elsewhere, or reads out of bounds. *)
Theorem C24_stale_mask_wrong_element_refuted :
  let t := t_multi_intersection (dense_tree N 2) in let d := dense_after 2 (inserts [5; 6; 70]%N) in let s := [d; d] in
  let xs := [Sel 0 0 false; Sel 1 0 false; Sel 1 1 true]%N in
  mix_run 64 2 (has_elem t s) None xs (Some ([1%N], false)) /\
  tree_get t s (undigits 64 [1; 5]%N) = Ok None /\ probe t s xs 5 = Ok (Some [70%N; 70%N]).
Proof.
  split; [|by vm_compute].
  eapply mix_cons. { cbn. split; [lia|]. split; [done|]. reflexivity. }
  eapply mix_cons. { cbn. eexists _, _. split; [done|]. split; [lia|]. split; [lia|]. split; [lia|]. split; [done|reflexivity]. }
  eapply mix_cons; [|apply mix_nil]. cbn. eexists _, _. split; [done|]. split; [cbn; lia|]. split; [lia|]. split; [lia|]. split; [|reflexivity].
  intros _. exists 70%N, [70; 70]%N. split; [|by vm_compute]. split; [by vm_compute|]. by exists [6%N].
Qed.
Theorem C24_stale_mask_refuted :
  let t := t_multi_intersection (dense_tree N 2) in let d := dense_after 2 (inserts [63; 70]%N) in let s := [d; d] in
  let xs := [Sel 0 0 false; Sel 1 0 false; Sel 1 1 true]%N in
  mix_run 64 2 (has_elem t s) None xs (Some ([1%N], false)) /\ probe t s xs 63 = UB.
Proof.
  split; [|by vm_compute].
  eapply mix_cons. { cbn. split; [lia|]. split; [done|]. reflexivity. }
  eapply mix_cons. { cbn. eexists _, _. split; [done|]. split; [lia|]. split; [lia|]. split; [lia|]. split; [done|reflexivity]. }
  eapply mix_cons; [|apply mix_nil]. cbn. eexists _, _. split; [done|]. split; [cbn; lia|]. split; [lia|]. split; [lia|]. split; [|reflexivity].
  intros _. exists 70%N, [70; 70]%N. split; [|by vm_compute]. split; [by vm_compute|]. by exists [6%N].
Qed.

(** ** the hypotheses are met: intersection(map(b), union(multi_intersection[b, b], c)), which is [plain]; a session that mixes
    the methods, moves back up, and reads the present key 71 and the absent 72 after unchecked selections *)
Definition ex_mt : tree := t_intersection (t_map (dense_tree N 3) (N.add 1)) (t_union (t_multi_intersection (dense_tree N 3)) (dense_tree N 3)).
Definition ex_mx : xview ex_mt := XIntersection (t_map (dense_tree N 3) (N.add 1)) (t_union (t_multi_intersection (dense_tree N 3)) (dense_tree N 3)) eq_refl eq_refl
  (XMap (dense_tree N 3) N (N.add 1) (XView _ ex_leaf))
  (XUnion (t_multi_intersection (dense_tree N 3)) (dense_tree N 3) eq_refl eq_refl (XMultiIntersection (dense_tree N 3) (XView _ ex_leaf)) (XView _ ex_leaf)).
Definition ex_ms : t_T ex_mt := (ex_b, ([ex_b; ex_b], ex_c)).
Definition ex_msel : list sel := [Sel 0 0 true; Sel 1 0 false; Sel 2 0 true; Sel 1 0 true; Sel 2 5 false; Sel 2 1 true]%N.
Example C24_mixed_example : xreached no_key ex_mx ex_ms /\ own ex_mx = true /\ plain ex_mx = true /\
  mix_run 64 3 (has_elem ex_mt ex_ms) None ex_msel (Some ([0; 1]%N, false)) /\
  probe ex_mt ex_ms ex_msel 7 = Ok (Some (72, (Some [71; 71], None)))%N /\ probe ex_mt ex_ms ex_msel 8 = Ok None.
Proof.
  split.
  { split; [exact (ex_b_ok no_key)|]. split; [|exact (ex_c_ok no_key)]. split; [done|]. split; [cbn; lia|]. repeat constructor; exact (ex_b_ok no_key). }
  split; [done|]. split; [done|]. split; [|by vm_compute].
  assert (tree_get ex_mt ex_ms 5 = Ok (Some (6, (Some [5; 5], Some 5))))%N as H5 by (by vm_compute).
  assert (tree_get ex_mt ex_ms 71 = Ok (Some (72, (Some [71; 71], None))))%N as H71 by (by vm_compute).
  eapply mix_cons. { cbn. split; [lia|]. split; [done|]. reflexivity. }
  eapply mix_cons. { cbn. eexists _, _. split; [done|]. split; [lia|]. split; [lia|]. split; [lia|]. split; [done|reflexivity]. }
  eapply mix_cons. { cbn. eexists _, _. split; [done|]. split; [cbn; lia|]. split; [lia|]. split; [lia|]. split; [|reflexivity].
    intros _. eexists 5%N, _. split; [|exact H5]. split; [by vm_compute|]. by exists [5%N]. }
  eapply mix_cons. { cbn. eexists _, _. split; [done|]. split; [cbn; lia|]. split; [lia|]. split; [lia|]. split; [|reflexivity].
    intros _. eexists 5%N, _. split; [|exact H5]. split; [by vm_compute|]. by exists [0; 5]%N. }
  eapply mix_cons. { cbn. eexists _, _. split; [done|]. split; [cbn; lia|]. split; [lia|]. split; [lia|]. split; [done|reflexivity]. }
  eapply mix_cons. { cbn. eexists _, _. split; [done|]. split; [cbn; lia|]. split; [lia|]. split; [lia|]. split; [|reflexivity].
    intros _. eexists 71%N, _. split; [|exact H71]. split; [by vm_compute|]. by exists [7%N]. }
  apply mix_nil.
Qed.
