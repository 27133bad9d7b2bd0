(** * Cursors after unchecked selections

    Spec.v [sel_step] allows a checked selection only below checked ones, because a user-written
    tree need not support more.  For cursors of the library's own containers and operations any mix
    of checked and unchecked selections is fine, and `data` can be trusted more often. *)
From Verif Require Import Base BitUtils BitUtilsProofs BitQueue LevelIndices LevelIndicesProofs
  Hierarchy Lawful IterProofs Ops OpsProofs MultiProofs Spec Client TreeClient Generic Contract Materialize MaterializeProofs MaterializeLaws Compose ViewLaws AllViews
  Dense Sparse DenseTree SparseTree.

(** ** the protocol
    As [sel_step], but the checked variant may follow unchecked selections.  The state is the
    selected path and whether the last selection was a checked one. *)
Definition mix_step (W : N) (D : nat) (has : list N -> Prop) (cur : option (list N * bool)) (x : sel)
    (cur' : option (list N * bool)) : Prop :=
  match sel_level x with
  | O => 0 < D /\ sel_index x = 0%N /\ cur' = Some ([], negb (sel_unchecked x))
  | S n => exists p b, cur = Some (p, b) /\ n <= length p /\ S n < D /\ (sel_index x < W)%N /\
      (sel_unchecked x = true -> has (take n p ++ [sel_index x])) /\
      cur' = Some (take n p ++ [sel_index x], negb (sel_unchecked x))
  end.
Inductive mix_run (W : N) (D : nat) (has : list N -> Prop)
  : option (list N * bool) -> list sel -> option (list N * bool) -> Prop :=
| mix_nil cur : mix_run W D has cur [] cur
| mix_cons cur x cur1 xs cur2 : mix_step W D has cur x cur1 -> mix_run W D has cur1 xs cur2 ->
    mix_run W D has cur (x :: xs) cur2.
Lemma mix_run_impl W D (P Q : list N -> Prop) cur xs cur' : (forall p, P p -> Q p) -> mix_run W D P cur xs cur' -> mix_run W D Q cur xs cur'.
Proof.
  intros H. induction 1 as [|cur x cur1 xs cur2 Hs Hr IH]; [constructor|]. econstructor; [|exact IH].
  unfold mix_step in *. destruct (sel_level x) as [|n]; [done|]. destruct Hs as (p & b & H1 & H2 & H3 & H4 & H5 & H6).
  exists p, b. repeat (split; [done|]). split; [|done]. intros Hu. by apply H, H5.
Qed.
(** every run that [sel_run] allows *)
Lemma sel_mix W D has cur xs cur' : sel_run W D has cur xs cur' -> mix_run W D has cur xs cur'.
Proof.
  induction 1 as [|cur x cur1 xs cur2 Hs Hr IH]; [constructor|]. econstructor; [|exact IH].
  unfold sel_step, mix_step in *. destruct (sel_level x) as [|n]; [done|]. destruct Hs as (p & b & H1 & H2 & H3 & H4 & H5 & H6).
  exists p, b. repeat (split; [done|]). split; [|done]. intros Hu. by rewrite Hu in H5.
Qed.

(** ** which expressions *)
(** the cursor is the library's own: what it does not hand over to a user-written tree *)
Fixpoint vown {b t} (v : view b t) : bool :=
  match v with
  | VMap _ _ _ _ v | VMultiMapFold _ _ _ _ _ _ _ v => vown v
  | VIntersection _ _ _ _ _ _ v0 v1 => vown v0 && vown v1
  | VMultiIntersection _ _ v => vown v
  | VUser _ _ _ _ _ _ => false
  | _ => true
  end.
Fixpoint own {t} (x : xview t) : bool :=
  match x with
  | XView _ v => vown v
  | XMap _ _ _ x | XMultiMapFold _ _ _ _ _ _ x => own x
  | XIntersection _ _ _ _ x0 x1 => own x0 && own x1
  | XMultiIntersection _ x => own x
  | XUnion _ _ _ _ _ _ | XMultiUnion _ _ _ => true
  end.
(** .. and no `multi_intersection` is asked for data directly (below `union` and `multi_union` it may occur) *)
Fixpoint vplain {b t} (v : view b t) : bool :=
  match v with
  | VMap _ _ _ _ v | VMultiMapFold _ _ _ _ _ _ _ v => vplain v
  | VIntersection _ _ _ _ _ _ v0 v1 => vplain v0 && vplain v1
  | VMultiIntersection _ _ v => false
  | VUser _ _ _ _ _ _ => false
  | _ => true
  end.
Fixpoint plain {t} (x : xview t) : bool :=
  match x with
  | XView _ v => vplain v
  | XMap _ _ _ x | XMultiMapFold _ _ _ _ _ _ x => plain x
  | XIntersection _ _ _ _ x0 x1 => plain x0 && plain x1
  | XMultiIntersection _ x => false
  | XUnion _ _ _ _ _ _ | XMultiUnion _ _ _ => true
  end.

(** an unchecked path above the last level is as good as a checked one *)
Lemma vown_short {b t} (v : view b t) : vown v = true -> forall s c p, length p < t_depth t - 1 -> l_Ru (vL v) s c p -> l_Rk (vL v) s c p.
Proof.
  induction v as [V D H0 H1|V nw D first H0 H1 H2|b t W f v IH|b t X A items init f v IH|b0 b1 t0 t1 Hn Hd v0 IH0 v1 IH1|t0 t1 Hn Hd v0 IH0 v1 IH1|b t v IH|t HD v IH|b t H0 H1 H2 v IH|b t H0 H1 H2 H3];
    cbn [vown]; intros Ho s c p Hl.
  - done.
  - done.
  - unfold vL in *. cbn [view_lawful]. destruct (view_lawful v) as [L HL]. cbn [proj1_sig] in *. by apply IH.
  - unfold vL in *. cbn [view_lawful]. destruct (view_lawful v) as [L HL]. cbn [proj1_sig] in *. by apply IH.
  - apply andb_true_iff in Ho as [Ho0 Ho1]. unfold vL in *. cbn [view_lawful].
    destruct (view_lawful v0) as [L0 HL0]. destruct (view_lawful v1) as [L1 HL1]. cbn [proj1_sig t_intersection t_depth] in *.
    intros [Hr0 Hr1]. split; [by apply IH0|apply IH1; [done|lia|done]].
  - unfold vL in *. cbn [view_lawful]. destruct (view_lawful v0) as [L0 HL0]. destruct (view_lawful v1) as [L1 HL1]. done.
  - unfold vL in *. cbn [view_lawful]. destruct (view_lawful v) as [L HL]. cbn [proj1_sig t_multi_intersection t_depth] in *.
    intros Hr. split; [|intros Hx; lia]. eapply mi_R_impl; [|exact Hr]. intros a ch. by apply IH.
  - unfold vL in *. cbn [view_lawful]. destruct (view_lawful v) as [L HL]. done.
  - done.
  - done.
Qed.
Lemma vplain_all {b t} (v : view b t) : vplain v = true -> forall s c p, l_Ru (vL v) s c p -> l_Rk (vL v) s c p.
Proof.
  induction v as [V D H0 H1|V nw D first H0 H1 H2|b t W f v IH|b t X A items init f v IH|b0 b1 t0 t1 Hn Hd v0 IH0 v1 IH1|t0 t1 Hn Hd v0 IH0 v1 IH1|b t v IH|t HD v IH|b t H0 H1 H2 v IH|b t H0 H1 H2 H3];
    cbn [vplain]; intros Ho s c p.
  - done.
  - done.
  - unfold vL in *. cbn [view_lawful]. destruct (view_lawful v) as [L HL]. cbn [proj1_sig] in *. by apply IH.
  - unfold vL in *. cbn [view_lawful]. destruct (view_lawful v) as [L HL]. cbn [proj1_sig] in *. by apply IH.
  - apply andb_true_iff in Ho as [Ho0 Ho1]. unfold vL in *. cbn [view_lawful].
    destruct (view_lawful v0) as [L0 HL0]. destruct (view_lawful v1) as [L1 HL1]. cbn [proj1_sig t_intersection t_depth] in *.
    intros [Hr0 Hr1]. split; [by apply IH0|by apply IH1].
  - unfold vL in *. cbn [view_lawful]. destruct (view_lawful v0) as [L0 HL0]. destruct (view_lawful v1) as [L1 HL1]. done.
  - done.
  - unfold vL in *. cbn [view_lawful]. destruct (view_lawful v) as [L HL]. done.
  - done.
  - done.
Qed.
Lemma own_short {t} (x : xview t) : own x = true -> forall s c p, length p < t_depth t - 1 -> l_Ru (tr_L (xtr x)) s c p -> l_Rk (tr_L (xtr x)) s c p.
Proof.
  induction x as [t v|t W f x IH|t X A items init f x IH|t0 t1 Hn Hd x0 IH0 x1 IH1|t0 t1 Hn Hd x0 IH0 x1 IH1|t x IH|t HD x IH]; cbn [own xtr]; intros Ho s c p Hl.
  - exact (vown_short v Ho s c p Hl).
  - exact (IH Ho s c p Hl).
  - exact (IH Ho s c p Hl).
  - apply andb_true_iff in Ho as [Ho0 Ho1]. cbn [t_intersection t_depth] in Hl. intros [Hr0 Hr1]. split; [by apply (IH0 Ho0)|apply (IH1 Ho1); [lia|done]].
  - done.
  - cbn [t_multi_intersection t_depth] in Hl. intros Hr. split; [|intros Hx; cbn [with_cdata t_multi_intersection t_depth] in *; lia].
    eapply mi_R_impl; [|exact Hr]. intros a ch. by apply (IH Ho).
  - done.
Qed.
Lemma plain_all {t} (x : xview t) : plain x = true -> forall s c p, l_Ru (tr_L (xtr x)) s c p -> l_Rk (tr_L (xtr x)) s c p.
Proof.
  induction x as [t v|t W f x IH|t X A items init f x IH|t0 t1 Hn Hd x0 IH0 x1 IH1|t0 t1 Hn Hd x0 IH0 x1 IH1|t x IH|t HD x IH]; cbn [plain xtr]; intros Ho s c p.
  - exact (vplain_all v Ho s c p).
  - exact (IH Ho s c p).
  - exact (IH Ho s c p).
  - apply andb_true_iff in Ho as [Ho0 Ho1]. intros [Hr0 Hr1]. split; [by apply (IH0 Ho0)|by apply (IH1 Ho1)].
  - done.
  - done.
  - done.
Qed.
Lemma vplain_own {b t} (v : view b t) : vplain v = true -> vown v = true.
Proof.
  induction v as [V D H0 H1|V nw D first H0 H1 H2|b t W f v IH|b t X A items init f v IH|b0 b1 t0 t1 Hn Hd v0 IH0 v1 IH1|t0 t1 Hn Hd v0 IH0 v1 IH1|b t v IH|t HD v IH|b t H0 H1 H2 v IH|b t H0 H1 H2 H3];
    cbn [vown vplain]; try done. rewrite !andb_true_iff. intros []. auto.
Qed.
Lemma plain_own {t} (x : xview t) : plain x = true -> own x = true.
Proof.
  induction x as [t v|t W f x IH|t X A items init f x IH|t0 t1 Hn Hd x0 IH0 x1 IH1|t0 t1 Hn Hd x0 IH0 x1 IH1|t x IH|t HD x IH]; cbn [own plain]; try done.
  - apply vplain_own.
  - rewrite !andb_true_iff. intros []. auto.
Qed.

(** ** running the selections *)
Section run.
Context {t : tree} (L : lawful t).
Hypothesis Hshort : forall s c p, length p < t_depth t - 1 -> l_Ru L s c p -> l_Rk L s c p.
Definition mix_ok s (c : t_C t) (m : option mask) (cur : option (list N * bool)) : Prop :=
  match cur with
  | None => l_Rv L s c
  | Some (p, b) => path_ok (t_nw t) (length p) p /\ length p < t_depth t /\ l_Ru L s c p /\
      (b = true -> l_Rk L s c p) /\ exists mk, m = Some mk /\ mask_is (t_nw t) mk (l_tm L s p)
  end.
Lemma mix_ok_Rv s c m cur : mix_ok s c m cur -> l_Rv L s c.
Proof. destruct cur as [[p b]|]; [|done]. intros (_ & _ & H & _). by eapply (l_Ru_Rv L s c p). Qed.
Lemma run_mix s c m cur xs cur' : l_wf L s -> mix_ok s c m cur ->
  mix_run (msize (t_nw t)) (t_depth t) (has_below L s) cur xs cur' ->
  exists c' m', run_selects t s c m xs = Ok (c', m') /\ mix_ok s c' m' cur'.
Proof.
  intros Hwf Hc Hr. revert c m Hc. induction Hr as [cur|cur [n i u] cur1 xs cur2 Hs Hr IH]; intros c m Hc; cbn [run_selects].
  - eauto.
  - unfold mix_step in Hs. cbn [sel_level sel_index sel_unchecked] in *. destruct n as [|n].
    + destruct Hs as (HD & -> & ->). pose proof (mix_ok_Rv _ _ _ _ Hc) as Hv. destruct u.
      * destruct (l_select0_u L s c Hwf Hv) as (c' & mk & -> & Hm & Hu). rewrite bind_ok. apply IH.
        split; [apply path_ok_nil|]. split; [done|]. split; [done|]. split; [done|]. eauto.
      * destruct (l_select0 L s c Hwf Hv) as (c' & mk & -> & Hm & Hu). rewrite bind_ok. apply IH.
        split; [apply path_ok_nil|]. split; [done|]. split; [by apply (l_Rk_Ru L)|]. split; [done|]. eauto.
    + destruct Hs as (p & b & -> & Hn & HSn & Hi & Hsel & ->). destruct Hc as (Hp & Hlp & HU & _ & _).
      assert (length (take n p) = n) as Htl by (rewrite take_length; lia).
      assert (path_ok (t_nw t) (length (take n p)) (take n p)) as Htp by (eapply path_ok_len, path_ok_take, Hp).
      assert (path_ok (t_nw t) (length (take n p ++ [i])) (take n p ++ [i])) as Htq.
      { eapply path_ok_len, path_ok_snoc; [exact Htp|done]. }
      assert (l_Ru L s c (take n p)) as HU' by (by apply (l_Ru_take L)).
      assert (l_Rk L s c (take n p)) as HK' by (apply Hshort; [lia|done]).
      destruct u.
      * destruct (l_selectS_u L s c (take n p) i Hwf HU' Htp) as (c' & mk & E & Hm & Hu); [lia| |].
        { apply (has_below_tm L); [done|lia|]. by apply Hsel. }
        rewrite Htl in E. rewrite E, bind_ok. apply IH. split; [done|]. split; [rewrite app_length; cbn; lia|]. split; [done|]. split; [done|]. eauto.
      * destruct (l_selectS L s c (take n p) i Hwf HK' Htp) as (c' & mk & E & Hm & Hu); [lia|done|].
        rewrite Htl in E. rewrite E, bind_ok. apply IH. split; [done|]. split; [rewrite app_length; cbn; lia|]. split; [by apply (l_Rk_Ru L)|]. split; [done|]. eauto.
Qed.
End run.

Section all.
Context {t : tree} (x : xview t) (pk : N -> Prop) (s : t_T t).
Hypothesis Hr : xreached pk x s.
Hypothesis Hown : own x = true.
Lemma xmix xs p checked :
  mix_run (msize (t_nw t)) (t_depth t) (has_elem t s) None xs (Some (p, checked)) ->
  exists c0 c mk, t_new t s = Ok c0 /\ run_selects t s c0 None xs = Ok (c, Some mk) /\
    length mk = t_nw t /\
    (forall i, has_elem t s (p ++ [i]) -> mbit mk i = true) /\
    (length p = t_depth t - 1 -> forall i, mbit mk i = true -> has_elem t s (p ++ [i])) /\
    (t_exact t = true -> forall i, mbit mk i = true -> has_elem t s (p ++ [i]) \/ key_below t pk (p ++ [i])) /\
    (length p = t_depth t - 1 -> forall i, (i < msize (t_nw t))%N -> let k := undigits (msize (t_nw t)) (p ++ [i]) in
      ((exists y, tree_get t s k = Ok (Some y)) -> exists y, sees x s k = Some y /\ t_cdata_u t s c i = Ok y) /\
      (checked = true \/ plain x = true -> t_cdata t s c i = Ok (sees x s k))).
Proof.
  intros Hrun. set (L := tr_L (xtr x)). pose proof (xreached_good pk x s Hr) as [Hw _ He]. change (l_wf L s) in Hw.
  assert (forall p', has_elem t s p' <-> has_below L s p') as Hhas.
  { intros p'. unfold has_elem, has_below. split; intros (k' & y & Hb & Hg); exists k', y; (split; [exact Hb|]);
      apply (good_get_Some pk L s k' y (xreached_good pk x s Hr) (xview_size x)); exact Hg. }
  apply (mix_run_impl _ _ _ _ _ _ _ (fun p' => proj1 (Hhas p'))) in Hrun.
  destruct (l_new L s Hw) as (c0 & Hn & Hv).
  destruct (run_mix L (own_short x Hown) s c0 None None xs _ Hw Hv Hrun) as (c & m & E & Hp & Hlp & HU & HK & mk & -> & Hm).
  exists c0, c, mk. split; [exact Hn|]. split; [exact (eq_trans (eq_sym (run_selects_cdata t _ _ s c0 None xs)) E)|].
  destruct (mask_reads_ok L s (t_exact t = true) pk p mk Hw He Hp Hlp Hm) as (H1 & H2 & H3 & H4).
  split; [apply H1|]. split; [intros i Hi; by apply H2, Hhas|]. split; [intros Hl i Hi; by apply Hhas, H4|].
  split. { intros Hx i Hi. destruct (H3 Hx i Hi) as [H|H]; [left; by apply Hhas|right; exact H]. }
  intros Hl i Hi k.
  assert (path_ok (t_nw t) (t_depth t - 1) p) as Hp' by (split; [done|apply Hp]).
  pose proof (lawful_path_full L p i Hp' Hi) as Hq. assert (k = key_of_path (t_nw t) (p ++ [i])) as Hk by (unfold k; apply undigits_key).
  split.
  - intros (y & Hy%(xget_Some x pk s Hr)). destruct (sees_some x pk s Hr k) as [z Hz]; [by eexists|]. exists z. split; [done|].
    rewrite Hk in Hz, Hy. rewrite (sees_csem pk x) in Hz by done.
    apply (tr_cdata_u (xtr x) s c p i z); try done.
    rewrite <- (xgot_sem x pk) by done. rewrite (xgot_content x pk) by done. rewrite (gives_content pk) by done. by eexists.
  - intros Hc. rewrite Hk. rewrite (sees_csem pk x) by done. apply (tr_cdata (xtr x)); try done.
    destruct Hc as [->|Hc]; [by apply HK|by apply (plain_all x Hc)].
Qed.
End all.
