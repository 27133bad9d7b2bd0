(** * Laws of arbitrary views, in terms of `get` *)
From Verif Require Import Base BitUtils BitUtilsProofs BitQueue LevelIndices LevelIndicesProofs
  ConstLoops Hierarchy Lawful IterProofs Ops OpsProofs MultiProofs
  Dense DenseProofs DenseRemove DenseTree DenseDrop Sparse SparseVec SparseProofs SparseOps SparseTree
  Spec SpecLaws Client DenseHistory SparseHistory TreeClient Generic Compose.

(** some element of [s], as told by `get`, lies below the path [p] *)
Definition has_elem (t : tree) (s : t_T t) (p : list N) : Prop :=
  exists k v, below (msize (t_nw t)) (t_depth t) p k /\ tree_get t s k = Ok (Some v).
(** some key satisfying [pk] lies below the path [p] *)
Definition key_below (t : tree) (pk : N -> Prop) (p : list N) : Prop :=
  exists k, below (msize (t_nw t)) (t_depth t) p k /\ pk k.
(** draining the iterator succeeds and yields exactly the pairs that `get` reports, in
    ascending key order *)
Definition iter_agrees (t : tree) (s : t_T t) : Prop :=
  exists n l, (forall fuel, n <= fuel -> iter_collect fuel t s = Ok l) /\
    StronglySorted N.lt l.*1 /\ forall k v, (k, v) ∈ l <-> tree_get t s k = Ok (Some v).
(** for every key: `get` of the view is [f] of the `get`s of its operands, or both panic *)
Definition gets (t : tree) (s : t_T t) (k : N) (o : option (t_V t)) : Prop := tree_get t s k = Ok o.

Section view.
Context {b : bool} {t : tree} (v : view b t) (pk : N -> Prop) (s : t_T t).
Hypothesis Hr : reached pk v s.

Lemma view_iter : iter_agrees t s.
Proof.
  destruct (iter_content (vL v) s (vg_wf pk _ _ (reached_good pk v s Hr))) as (n & l & Hl & Hs & He).
  exists n, l. split; [done|]. split; [done|]. intros k x. rewrite He. symmetry. by apply (view_get_Some pk).
Qed.
Lemma view_poll : exists n l,
  (forall fuel, n <= fuel -> iter_collect fuel t s = Ok l) /\
  (forall m fuel, n <= fuel -> exists it it', iter_new t s = Ok it /\
      iter_poll fuel m t s it = Ok (it', take m ((Some <$> l) ++ replicate m None))).
Proof. apply (iter_poll_ok (vL v)), (vg_wf pk), reached_good, Hr. Qed.
Lemma view_unchecked k x : tree_get t s k = Ok (Some x) -> tree_get_unchecked t s k = Ok x.
Proof.
  intros Hg%(view_get_Some pk v s k x Hr). eapply (tree_get_unchecked_ok (vL v)); [|done]. by apply (vg_wf pk), reached_good.
Qed.
Lemma view_get_total k : (view_key_ok t k -> exists o, tree_get t s k = Ok o) /\ (~ view_key_ok t k -> tree_get t s k = Panic).
Proof. destruct (view_get pk v s k Hr) as [H1 H2]. split; [|done]. intros Hk. rewrite H1 by done. eauto. Qed.

Lemma has_elem_below p : has_elem t s p <-> has_below (vL v) s p.
Proof.
  unfold has_elem, has_below. split; intros (k & x & Hb & Hg); exists k, x; (split; [done|]); by apply (view_get_Some pk v s k x Hr).
Qed.
Lemma sel_run_iff cur xs cur' : sel_run (msize (t_nw t)) (t_depth t) (has_elem t s) cur xs cur' ->
  sel_run (msize (t_nw t)) (t_depth t) (has_below (vL v) s) cur xs cur'.
Proof.
  induction 1 as [|cur x cur1 xs cur2 Hs Hr' IH]; [constructor|]. econstructor; [|exact IH].
  unfold sel_step in *. destruct (sel_level x) as [|n]; [done|]. destruct Hs as (p & b' & H1 & H2 & H3 & H4 & H5 & H6).
  exists p, b'. repeat (split; [done|]). split; [|done]. destruct (sel_unchecked x); [by apply has_elem_below|done].
Qed.

(** C24 and C16: what the last returned mask and the data accessors say *)
Lemma view_cursor xs p checked :
  sel_run (msize (t_nw t)) (t_depth t) (has_elem t s) None xs (Some (p, checked)) ->
  exists c0 c mk, t_new t s = Ok c0 /\ run_selects t s c0 None xs = Ok (c, Some mk) /\
    length mk = t_nw t /\
    (forall i, has_elem t s (p ++ [i]) -> mbit mk i = true) /\
    (length p = t_depth t - 1 -> forall i, mbit mk i = true -> has_elem t s (p ++ [i])) /\
    (t_exact t = true -> forall i, mbit mk i = true -> has_elem t s (p ++ [i]) \/ key_below t pk (p ++ [i])) /\
    (length p = t_depth t - 1 -> forall i, (i < msize (t_nw t))%N ->
      (forall x, tree_get t s (undigits (msize (t_nw t)) (p ++ [i])) = Ok (Some x) -> t_cdata_u t s c i = Ok x) /\
      (checked = true -> exists d, t_cdata t s c i = Ok d /\
        (forall x, tree_get t s (undigits (msize (t_nw t)) (p ++ [i])) = Ok (Some x) -> d = Some x) /\
        (b = true -> forall x, d = Some x -> tree_get t s (undigits (msize (t_nw t)) (p ++ [i])) = Ok (Some x)))).
Proof.
  intros Hrun%sel_run_iff. destruct (reached_good pk v s Hr) as [Hw _ He].
  destruct (cursor_protocol (vL v) s (t_exact t = true) pk xs p checked Hw He Hrun) as (c0 & c & mk & E0 & E1 & (Hm1 & Hm2 & Hm3 & Hm4) & Hd).
  exists c0, c, mk. split; [done|]. split; [done|]. split; [apply Hm1|]. split; [|split; [|split]].
  - intros i Hi. by apply Hm2, has_elem_below.
  - intros Hl i Hi. by apply has_elem_below, Hm4.
  - intros Hx i Hi. destruct (Hm3 Hx i Hi) as [H|H]; [left; by apply has_elem_below|right; exact H].
  - intros Hl i Hi. destruct (Hd Hl i Hi) as [H1 H2]. split.
    + intros x Hx%(view_get_Some pk v s _ x Hr). by apply H1.
    + intros Hc. destruct (H2 Hc) as (d & E & H3 & H4). exists d. split; [done|]. split.
      * intros x Hx%(view_get_Some pk v s _ x Hr). by apply H3.
      * intros Hb x ->. apply (view_get_Some pk v s _ x Hr). symmetry. apply H4. by rewrite vL_cdok.
Qed.

(** a child that its parent does not announce has an empty mask *)
Lemma view_absent xs p checked i : S (length p) < t_depth t -> (i < msize (t_nw t))%N ->
  sel_run (msize (t_nw t)) (t_depth t) (has_elem t s) None xs (Some (p, checked)) -> checked = true ->
  exists c0 c1 c2 m1 m2, t_new t s = Ok c0 /\ run_selects t s c0 None xs = Ok (c1, Some m1) /\
    t_select t s c1 (S (length p)) i = Ok (c2, m2) /\
    (mbit m1 i = false -> mask_is_zero m2 = true).
Proof.
  intros Hl Hi Hrun%sel_run_iff ->. destruct (reached_good pk v s Hr) as [Hw _ _]. set (L := vL v) in *.
  destruct (l_new L s Hw) as (c0 & Hn & Hv).
  destruct (run_selects_ok L s c0 None None xs _ Hw Hv Hrun) as (c & m & E & Hp & Hlp & HR & mk & -> & Hm).
  destruct (l_selectS L s c p i Hw HR Hp Hl Hi) as (c2 & m2 & E2 & Hm2 & _).
  exists c0, c, c2, mk, m2. split; [done|]. split; [done|]. split; [done|]. intros Hb.
  destruct Hm2 as [Hok Hbits]. destruct Hm as [_ Hmb].
  apply (mask_is_zero_ok (t_nw t)); [done|]. intros j. rewrite Hbits. destruct (l_tm L s (p ++ [i]) j) eqn:Hj; [|done].
  apply (l_parent L) in Hj; [|done..]. rewrite <- Hmb in Hj. congruence.
Qed.
End view.

(** ** the operations, key by key *)
Section ops.
Implicit Types (k : N).
Lemma map_law {b t} (v : view b t) pk s {W} (f : t_V t -> W) k : reached pk v s ->
  tree_get (t_map t f) s k = match tree_get t s k with Ok o => Ok (f <$> o) | Panic => Panic | UB => UB | OutOfFuel => OutOfFuel end.
Proof.
  intros Hr. destruct (view_get pk v s k Hr) as [H1 H2].
  destruct (view_get pk (VMap b t W f v) s k Hr) as [H3 H4]. destruct (decide (view_key_ok t k)) as [Hk|Hk].
  - rewrite H3, H1 by done. f_equal. unfold vL. cbn [view_lawful]. destruct (view_lawful v). cbn [proj1_sig]. apply content_map.
  - by rewrite H4, H2.
Qed.
Lemma mmf_law {b t} (v : view b t) pk s {X A} (items : t_V t -> list X) (init : A) (f : A -> X -> A) k : reached pk v s ->
  tree_get (t_multi_map_fold t items init f) s k =
    match tree_get t s k with Ok o => Ok ((fun d => fold_left f (items d) init) <$> o) | Panic => Panic | UB => UB | OutOfFuel => OutOfFuel end.
Proof.
  intros Hr. destruct (view_get pk v s k Hr) as [H1 H2].
  destruct (view_get pk (VMultiMapFold b t X A items init f v) s k Hr) as [H3 H4]. destruct (decide (view_key_ok t k)) as [Hk|Hk].
  - rewrite H3, H1 by done. f_equal. unfold vL. cbn [view_lawful]. destruct (view_lawful v). cbn [proj1_sig]. apply content_mmf.
  - by rewrite H4, H2.
Qed.
Lemma intersection_law {b0 b1 t0 t1} (v0 : view b0 t0) (v1 : view b1 t1) pk s0 s1 k : t_nw t1 = t_nw t0 -> t_depth t1 = t_depth t0 ->
  reached pk v0 s0 -> reached pk v1 s1 ->
  (exists o0 o1, tree_get t0 s0 k = Ok o0 /\ tree_get t1 s1 k = Ok o1 /\ tree_get (t_intersection t0 t1) (s0, s1) k = Ok (both o0 o1)) \/
  (tree_get t0 s0 k = Panic /\ tree_get t1 s1 k = Panic /\ tree_get (t_intersection t0 t1) (s0, s1) k = Panic).
Proof.
  intros Hn Hd Hr0 Hr1. destruct (view_get pk v0 s0 k Hr0) as [H1 H2]. destruct (view_get pk v1 s1 k Hr1) as [H3 H4].
  destruct (view_get pk (VIntersection b0 b1 t0 t1 Hn Hd v0 v1) (s0, s1) k (conj Hr0 Hr1)) as [H5 H6].
  assert (view_key_ok t1 k <-> view_key_ok t0 k) as Hk1 by (unfold view_key_ok; by rewrite Hn, Hd).
  destruct (decide (view_key_ok t0 k)) as [Hk|Hk]; [left|right].
  - eexists _, _. split; [by apply H1|]. split; [by apply H3, Hk1|]. rewrite H5 by done. f_equal.
    unfold vL. cbn [view_lawful]. destruct (view_lawful v0), (view_lawful v1). cbn [proj1_sig]. apply content_intersection.
  - rewrite H2, H4, H6; [done|done|by rewrite Hk1|done].
Qed.
Lemma union_law {t0 t1} (v0 : view true t0) (v1 : view true t1) pk s0 s1 k : t_nw t1 = t_nw t0 -> t_depth t1 = t_depth t0 ->
  reached pk v0 s0 -> reached pk v1 s1 ->
  (exists o0 o1, tree_get t0 s0 k = Ok o0 /\ tree_get t1 s1 k = Ok o1 /\ tree_get (t_union t0 t1) (s0, s1) k = Ok (either o0 o1)) \/
  (tree_get t0 s0 k = Panic /\ tree_get t1 s1 k = Panic /\ tree_get (t_union t0 t1) (s0, s1) k = Panic).
Proof.
  intros Hn Hd Hr0 Hr1. destruct (view_get pk v0 s0 k Hr0) as [H1 H2]. destruct (view_get pk v1 s1 k Hr1) as [H3 H4].
  destruct (view_get pk (VUnion t0 t1 Hn Hd v0 v1) (s0, s1) k (conj Hr0 Hr1)) as [H5 H6].
  assert (view_key_ok t1 k <-> view_key_ok t0 k) as Hk1 by (unfold view_key_ok; by rewrite Hn, Hd).
  destruct (decide (view_key_ok t0 k)) as [Hk|Hk]; [left|right].
  - eexists _, _. split; [by apply H1|]. split; [by apply H3, Hk1|]. rewrite H5 by done. f_equal.
    unfold vL. cbn [view_lawful]. destruct (view_lawful v0) as [L0 ?], (view_lawful v1) as [L1 ?]. cbn [proj1_sig]. rewrite content_union. cbn [fst snd].
    generalize (content L0 s0 k), (content L1 s1 k). by intros [] [].
  - rewrite H2, H4, H6; [done|done|by rewrite Hk1|done].
Qed.
Lemma mapM_all_of {A B} (f : A -> option B) l : mapM f l = all_of (f <$> l).
Proof. induction l as [|x l IH]; [done|]. cbn. destruct (f x); [|done]. cbn. rewrite IH. by destruct (all_of (f <$> l)). Qed.
Lemma omap_present {A B} (f : A -> option B) (l : list A) : omap f l = present (f <$> l).
Proof. induction l as [|x l IH]; [done|]. cbn. destruct (f x); [by rewrite IH|done]. Qed.
Lemma gets_all {b t} (v : view b t) pk s k : Forall (reached pk v) s -> view_key_ok t k ->
  Forall2 (fun a o => tree_get t a k = Ok o) s ((fun a => content (vL v) a k) <$> s).
Proof.
  intros Hf Hk. induction Hf as [|a s Ha Hf IH]; cbn [fmap list_fmap]; constructor; [|done].
  by destruct (view_get pk v a k Ha) as [H _]; apply H.
Qed.
Lemma mi_law {b t} (v : view b t) pk s k : s <> [] -> length s <= 32 -> Forall (reached pk v) s ->
  (exists os, Forall2 (fun a o => tree_get t a k = Ok o) s os /\ tree_get (t_multi_intersection t) s k = Ok (all_of os)) \/
  (Forall (fun a => tree_get t a k = Panic) s /\ tree_get (t_multi_intersection t) s k = Panic).
Proof.
  intros Hne Hl Hf. destruct (view_get pk (VMultiIntersection b t v) s k (conj Hne (conj Hl Hf))) as [H1 H2].
  destruct (decide (view_key_ok t k)) as [Hk|Hk]; [left|right].
  - eexists. split; [by eapply gets_all|]. rewrite H1 by done. f_equal.
    unfold vL. cbn [view_lawful]. destruct (view_lawful v) as [L HL]. cbn [proj1_sig]. rewrite content_mi by done. apply mapM_all_of.
  - rewrite H2 by done. split; [|done]. eapply Forall_impl; [exact Hf|]. intros a Ha. by destruct (view_get pk v a k Ha) as [_ H]; apply H.
Qed.
Lemma mu_law {t} (v : view true t) pk s k : 2 <= t_depth t -> length s <= 32 -> Forall (reached pk v) s ->
  (exists os, Forall2 (fun a o => tree_get t a k = Ok o) s os /\ tree_get (t_multi_union t) s k = Ok (some_of os)) \/
  (Forall (fun a => tree_get t a k = Panic) s /\ tree_get (t_multi_union t) s k = Panic).
Proof.
  intros HD Hl Hf. destruct (view_get pk (VMultiUnion t HD v) s k (conj Hl Hf)) as [H1 H2].
  destruct (decide (view_key_ok t k)) as [Hk|Hk]; [left|right].
  - eexists. split; [by eapply gets_all|]. rewrite H1 by done. f_equal.
    unfold vL. cbn [view_lawful]. destruct (view_lawful v) as [L HL]. cbn [proj1_sig]. rewrite content_mu. unfold some_of. by rewrite <- omap_present.
  - rewrite H2 by done. split; [|done]. eapply Forall_impl; [exact Hf|]. intros a Ha. by destruct (view_get pk v a k Ha) as [_ H]; apply H.
Qed.
End ops.
