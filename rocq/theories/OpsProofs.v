(** * The set operations preserve lawfulness *)
From Verif Require Import Base BitUtils BitUtilsProofs BitQueue LevelIndices LevelIndicesProofs
  ConstLoops Hierarchy Lawful Ops.

(** ** map *)
Definition lawful_map {t} (L : lawful t) {W} (f : t_V t -> W) : lawful (t_map t f).
Proof.
  refine (Lawful (t_map t f) (l_wf L) (fun s p => f <$> l_sem L s p) (l_tm L) (l_cdok L)
    (l_Rv L) (l_Rk L) (l_Ru L) _ _ _ _ _ _ _ _ _ _ _ _ _ _ _ _ _ _ _);
    cbn [t_map t_nw t_depth t_T t_C t_V t_data t_data_u t_new t_select t_select_u t_cdata t_cdata_u].
  - apply L.
  - apply L.
  - intros s q v n i Hwf Hq Hs. destruct (l_sem L s q) eqn:E; [|done]. by eapply l_complete.
  - intros s p i Hwf Hp Hi. apply fmap_is_Some. by eapply l_terminal.
  - apply L.
  - apply L.
  - apply L.
  - apply L.
  - apply L.
  - apply L.
  - apply L.
  - apply L.
  - apply L.
  - apply L.
  - apply L.
  - intros s q Hwf Hq. rewrite (l_data L) by done. cbn. by destruct (l_sem L s q).
  - intros s q v Hwf Hq Hs. destruct (l_sem L s q) as [v'|] eqn:E; [|done]. rewrite (l_data_u L s q v') by done.
    cbn in *. by injection Hs as <-.
  - intros s c p i Hwf Hr Hp Hi. destruct (l_cdata L s c p i Hwf Hr Hp Hi) as (d & -> & Hd1 & Hd2). rewrite bind_ok.
    destruct (l_sem L s (p ++ [i])) as [v|] eqn:E.
    + rewrite (Hd1 v) by done. eexists. split; [done|]. split; [|done]. by intros ? [= <-].
    + destruct d as [d|]; (eexists; split; [done|]); (split; [done|]); intros Hok _; [|done].
      by specialize (Hd2 Hok eq_refl).
  - intros s c p i v Hwf Hr Hp Hi Hs. destruct (l_sem L s (p ++ [i])) as [v'|] eqn:E; [|done].
    rewrite (l_cdata_u L s c p i v') by done. cbn in *. by injection Hs as <-.
Defined.

(** ** multi_map_fold *)
Definition lawful_multi_map_fold {t} (L : lawful t) {X A} (items : t_V t -> list X) (init : A) (f : A -> X -> A)
  : lawful (t_multi_map_fold t items init f) :=
  lawful_map L (fun d => fold_left f (items d) init).

(** ** union *)
Section union.
Context {t0 t1 : tree} (L0 : lawful t0) (L1 : lawful t1).
Context (Hnw : t_nw t1 = t_nw t0) (HD : t_depth t1 = t_depth t0).

Definition union_sem (s : t_T t0 * t_T t1) (p : list N) : option (option (t_V t0) * option (t_V t1)) :=
  match l_sem L0 (fst s) p, l_sem L1 (snd s) p with
  | None, None => None
  | d0, d1 => Some (d0, d1)
  end.
Lemma union_sem_is_Some s p :
  is_Some (union_sem s p) <-> is_Some (l_sem L0 (fst s) p) \/ is_Some (l_sem L1 (snd s) p).
Proof.
  unfold union_sem. destruct (l_sem L0 (fst s) p), (l_sem L1 (snd s) p); split; intros H; eauto;
    destruct H as [[? H]|[? H]] || destruct H as [? H]; done.
Qed.
Lemma union_sem_Some s p v : union_sem s p = Some v ->
  v = (l_sem L0 (fst s) p, l_sem L1 (snd s) p).
Proof. unfold union_sem. destruct (l_sem L0 (fst s) p), (l_sem L1 (snd s) p); intros [= <-]; done. Qed.

Definition lawful_union (Hok0 : l_cdok L0 = true) (Hok1 : l_cdok L1 = true) : lawful (t_union t0 t1).
Proof.
  refine (Lawful (t_union t0 t1)
    (fun s => l_wf L0 (fst s) /\ l_wf L1 (snd s)) union_sem
    (fun s p i => l_tm L0 (fst s) p i || l_tm L1 (snd s) p i) true
    (fun s c => l_Rv L0 (fst s) (fst c) /\ l_Rv L1 (snd s) (snd c))
    (fun s c p => l_Rk L0 (fst s) (fst c) p /\ l_Rk L1 (snd s) (snd c) p)
    (fun s c p => l_Rk L0 (fst s) (fst c) p /\ l_Rk L1 (snd s) (snd c) p)
    _ _ _ _ _ _ _ _ _ _ _ _ _ _ _ _ _ _ _);
    cbn [t_union t_nw t_depth t_T t_C t_V t_data t_data_u t_new t_select t_select_u t_cdata t_cdata_u].
  - apply L0.
  - apply L0.
  - intros s q v n i [Hw0 Hw1] Hq Hs Hn. apply orb_true_iff.
    destruct (proj1 (union_sem_is_Some s q)) as [[v0 H0]|[v1 H1]]; [by eexists| |].
    + left. by eapply l_complete.
    + right. eapply (l_complete L1); eauto. by rewrite Hnw, HD.
  - intros s p i [Hw0 Hw1] Hp Hi. apply union_sem_is_Some. apply orb_true_iff in Hi as [Hi|Hi].
    + left. by eapply l_terminal.
    + right. eapply (l_terminal L1); eauto. by rewrite Hnw, HD.
  - intros s p i [Hw0 Hw1] Hp Hl Hi. apply orb_true_iff in Hi as [Hi|Hi].
    + by eapply (l_bound L0).
    + rewrite <- Hnw. eapply (l_bound L1); eauto; [by rewrite Hnw|by rewrite HD].
  - intros s p i j [Hw0 Hw1] Hp Hl Hi Hj. apply orb_true_iff. apply orb_true_iff in Hj as [Hj|Hj].
    + left. by eapply (l_parent L0).
    + right. eapply (l_parent L1); eauto; [by rewrite Hnw|by rewrite HD|by rewrite Hnw].
  - done.
  - intros s c p [H0 H1]. split; by eapply l_Ru_Rv, l_Rk_Ru.
  - intros s c p n [H0 H1]. split; by apply l_Rk_take.
  - intros s c p n [H0 H1]. split; by apply l_Rk_take.
  - intros s [Hw0 Hw1]. destruct (l_new L0 _ Hw0) as (c0 & -> & ?). destruct (l_new L1 _ Hw1) as (c1 & -> & ?).
    cbn. eauto.
  - intros s c [Hw0 Hw1] [H0 H1]. unfold un_select.
    destruct (l_select0 L0 _ _ Hw0 H0) as (c0 & m0 & -> & [Hm0 Hb0] & Hr0).
    destruct (l_select0 L1 _ _ Hw1 H1) as (c1 & m1 & -> & [Hm1 Hb1] & Hr1). rewrite Hnw in Hm1.
    cbn. eexists (_, _), _. split_and!; [done| |done|done]. split; [by apply mask_or_ok|].
    intros i. by erewrite mbit_or, Hb0, Hb1.
  - intros s c [Hw0 Hw1] [H0 H1]. unfold un_select.
    destruct (l_select0 L0 _ _ Hw0 H0) as (c0 & m0 & -> & [Hm0 Hb0] & Hr0).
    destruct (l_select0 L1 _ _ Hw1 H1) as (c1 & m1 & -> & [Hm1 Hb1] & Hr1). rewrite Hnw in Hm1.
    cbn. eexists (_, _), _. split_and!; [done| |done|done]. split; [by apply mask_or_ok|].
    intros i. by erewrite mbit_or, Hb0, Hb1.
  - intros s c p i [Hw0 Hw1] [H0 H1] Hp Hl Hi. unfold un_select.
    destruct (l_selectS L0 _ _ p i Hw0 H0) as (c0 & m0 & -> & [Hm0 Hb0] & Hr0); [done..|].
    destruct (l_selectS L1 _ _ p i Hw1 H1) as (c1 & m1 & -> & [Hm1 Hb1] & Hr1); [by rewrite ?Hnw, ?HD..|]. rewrite Hnw in Hm1.
    cbn. eexists (_, _), _. split_and!; [done| |done|done]. split; [by apply mask_or_ok|].
    intros j. by erewrite mbit_or, Hb0, Hb1.
  - intros s c p i [Hw0 Hw1] [H0 H1] Hp Hl Hi. unfold un_select.
    assert (i < msize (t_nw t0))%N as Hib.
    { apply orb_true_iff in Hi as [Hi|Hi]; [eapply (l_bound L0); eauto; lia|].
      rewrite <- Hnw. eapply (l_bound L1); eauto; [by rewrite Hnw|rewrite HD; lia]. }
    destruct (l_selectS L0 _ _ p i Hw0 H0) as (c0 & m0 & -> & [Hm0 Hb0] & Hr0); [done..|].
    destruct (l_selectS L1 _ _ p i Hw1 H1) as (c1 & m1 & -> & [Hm1 Hb1] & Hr1); [by rewrite ?Hnw, ?HD..|]. rewrite Hnw in Hm1.
    cbn. eexists (_, _), _. split_and!; [done| |done|done]. split; [by apply mask_or_ok|].
    intros j. by erewrite mbit_or, Hb0, Hb1.
  - intros s q [Hw0 Hw1] Hq. unfold un_data. rewrite (l_data L0) by done. rewrite <- Hnw, (l_data L1) by (rewrite ?Hnw, ?HD; done).
    cbn. unfold union_sem. by destruct (l_sem L0 (fst s) q), (l_sem L1 (snd s) q).
  - intros s q v [Hw0 Hw1] Hq Hs. unfold un_data. rewrite (l_data L0) by done. rewrite <- Hnw, (l_data L1) by (rewrite ?Hnw, ?HD; done).
    cbn. unfold union_sem in Hs. destruct (l_sem L0 (fst s) q), (l_sem L1 (snd s) q); cbn; congruence.
  - intros s c p i [Hw0 Hw1] [H0 H1] Hp Hi. unfold un_cdata.
    destruct (l_cdata L0 _ _ p i Hw0 H0) as (d0 & -> & Ha0 & Hb0); [done..|].
    destruct (l_cdata L1 _ _ p i Hw1 H1) as (d1 & -> & Ha1 & Hb1); [by rewrite ?Hnw, ?HD..|].
    assert (d0 = l_sem L0 (fst s) (p ++ [i])) as -> by (destruct (l_sem L0 (fst s) (p ++ [i])); [by apply Ha0|by apply Hb0]).
    assert (d1 = l_sem L1 (snd s) (p ++ [i])) as -> by (destruct (l_sem L1 (snd s) (p ++ [i])); [by apply Ha1|by apply Hb1]).
    cbn. exists (union_sem s (p ++ [i])). split_and!.
    + unfold union_sem. by destruct (l_sem L0 (fst s) (p ++ [i])), (l_sem L1 (snd s) (p ++ [i])).
    + done.
    + done.
  - intros s c p i v [Hw0 Hw1] [H0 H1] Hp Hi Hs. unfold un_cdata.
    destruct (l_cdata L0 _ _ p i Hw0 H0) as (d0 & -> & Ha0 & Hb0); [done..|].
    destruct (l_cdata L1 _ _ p i Hw1 H1) as (d1 & -> & Ha1 & Hb1); [by rewrite ?Hnw, ?HD..|].
    assert (d0 = l_sem L0 (fst s) (p ++ [i])) as -> by (destruct (l_sem L0 (fst s) (p ++ [i])); [by apply Ha0|by apply Hb0]).
    assert (d1 = l_sem L1 (snd s) (p ++ [i])) as -> by (destruct (l_sem L1 (snd s) (p ++ [i])); [by apply Ha1|by apply Hb1]).
    cbn. unfold union_sem in Hs. destruct (l_sem L0 (fst s) (p ++ [i])), (l_sem L1 (snd s) (p ++ [i])); cbn; congruence.
Defined.
End union.

(** ** intersection *)
Section intersection.
Context {t0 t1 : tree} (L0 : lawful t0) (L1 : lawful t1).
Context (Hnw : t_nw t1 = t_nw t0) (HD : t_depth t1 = t_depth t0).

Definition intersection_sem (s : t_T t0 * t_T t1) (p : list N) : option (t_V t0 * t_V t1) :=
  match l_sem L0 (fst s) p, l_sem L1 (snd s) p with
  | Some d0, Some d1 => Some (d0, d1)
  | _, _ => None
  end.
Lemma intersection_sem_Some s p v : intersection_sem s p = Some v <->
  l_sem L0 (fst s) p = Some (fst v) /\ l_sem L1 (snd s) p = Some (snd v).
Proof.
  unfold intersection_sem. destruct v as [v0 v1]. cbn.
  destruct (l_sem L0 (fst s) p), (l_sem L1 (snd s) p); naive_solver.
Qed.

Definition lawful_intersection : lawful (t_intersection t0 t1).
Proof.
  refine (Lawful (t_intersection t0 t1)
    (fun s => l_wf L0 (fst s) /\ l_wf L1 (snd s)) intersection_sem
    (fun s p i => l_tm L0 (fst s) p i && l_tm L1 (snd s) p i) (l_cdok L0 && l_cdok L1)
    (fun s c => l_Rv L0 (fst s) (fst c) /\ l_Rv L1 (snd s) (snd c))
    (fun s c p => l_Rk L0 (fst s) (fst c) p /\ l_Rk L1 (snd s) (snd c) p)
    (fun s c p => l_Ru L0 (fst s) (fst c) p /\ l_Ru L1 (snd s) (snd c) p)
    _ _ _ _ _ _ _ _ _ _ _ _ _ _ _ _ _ _ _);
    cbn [t_intersection t_nw t_depth t_T t_C t_V t_data t_data_u t_new t_select t_select_u t_cdata t_cdata_u].
  - apply L0.
  - apply L0.
  - intros s q v n i [Hw0 Hw1] Hq [Hs0 Hs1]%intersection_sem_Some Hn. apply andb_true_iff. split.
    + by eapply (l_complete L0).
    + eapply (l_complete L1); eauto. by rewrite Hnw, HD.
  - intros s p i [Hw0 Hw1] Hp [Hi0 Hi1]%andb_true_iff.
    destruct (l_terminal L0 (fst s) p i) as [v0 H0]; [done..|].
    destruct (l_terminal L1 (snd s) p i) as [v1 H1]; [by rewrite ?Hnw, ?HD..|].
    exists (v0, v1). by apply intersection_sem_Some.
  - intros s p i [Hw0 Hw1] Hp Hl [Hi0 Hi1]%andb_true_iff. by eapply (l_bound L0).
  - intros s p i j [Hw0 Hw1] Hp Hl Hi [Hj0 Hj1]%andb_true_iff. apply andb_true_iff. split.
    + by eapply (l_parent L0).
    + eapply (l_parent L1); eauto; [by rewrite Hnw|by rewrite HD|by rewrite Hnw].
  - intros s c p [H0 H1]. split; by apply l_Rk_Ru.
  - intros s c p [H0 H1]. split; by eapply l_Ru_Rv.
  - intros s c p n [H0 H1]. split; by apply l_Rk_take.
  - intros s c p n [H0 H1]. split; by apply l_Ru_take.
  - intros s [Hw0 Hw1]. destruct (l_new L0 _ Hw0) as (c0 & -> & ?). destruct (l_new L1 _ Hw1) as (c1 & -> & ?).
    cbn. eauto.
  - intros s c [Hw0 Hw1] [H0 H1].
    destruct (l_select0 L0 _ _ Hw0 H0) as (c0 & m0 & -> & [Hm0 Hb0] & Hr0).
    destruct (l_select0 L1 _ _ Hw1 H1) as (c1 & m1 & -> & [Hm1 Hb1] & Hr1). rewrite Hnw in Hm1.
    cbn. eexists (_, _), _. split_and!; [done| |done|done]. split; [by apply mask_and_ok|].
    intros i. by erewrite mbit_and, Hb0, Hb1.
  - intros s c [Hw0 Hw1] [H0 H1].
    destruct (l_select0_u L0 _ _ Hw0 H0) as (c0 & m0 & -> & [Hm0 Hb0] & Hr0).
    destruct (l_select0_u L1 _ _ Hw1 H1) as (c1 & m1 & -> & [Hm1 Hb1] & Hr1). rewrite Hnw in Hm1.
    cbn. eexists (_, _), _. split_and!; [done| |done|done]. split; [by apply mask_and_ok|].
    intros i. by erewrite mbit_and, Hb0, Hb1.
  - intros s c p i [Hw0 Hw1] [H0 H1] Hp Hl Hi.
    destruct (l_selectS L0 _ _ p i Hw0 H0) as (c0 & m0 & -> & [Hm0 Hb0] & Hr0); [done..|].
    destruct (l_selectS L1 _ _ p i Hw1 H1) as (c1 & m1 & -> & [Hm1 Hb1] & Hr1); [by rewrite ?Hnw, ?HD..|]. rewrite Hnw in Hm1.
    cbn. eexists (_, _), _. split_and!; [done| |done|done]. split; [by apply mask_and_ok|].
    intros j. by erewrite mbit_and, Hb0, Hb1.
  - intros s c p i [Hw0 Hw1] [H0 H1] Hp Hl [Hi0 Hi1]%andb_true_iff.
    destruct (l_selectS_u L0 _ _ p i Hw0 H0) as (c0 & m0 & -> & [Hm0 Hb0] & Hr0); [done..|].
    destruct (l_selectS_u L1 _ _ p i Hw1 H1) as (c1 & m1 & -> & [Hm1 Hb1] & Hr1); [by rewrite ?Hnw, ?HD..|]. rewrite Hnw in Hm1.
    cbn. eexists (_, _), _. split_and!; [done| |done|done]. split; [by apply mask_and_ok|].
    intros j. by erewrite mbit_and, Hb0, Hb1.
  - intros s q [Hw0 Hw1] Hq. rewrite (l_data L0) by done. rewrite <- Hnw, (l_data L1) by (rewrite ?Hnw, ?HD; done).
    cbn. unfold intersection_sem. by destruct (l_sem L0 (fst s) q), (l_sem L1 (snd s) q).
  - intros s q [v0 v1] [Hw0 Hw1] Hq [Hs0 Hs1]%intersection_sem_Some.
    rewrite (l_data_u L0 _ _ v0) by done. rewrite <- Hnw, (l_data_u L1 _ _ v1) by (rewrite ?Hnw, ?HD; done). done.
  - intros s c p i [Hw0 Hw1] [H0 H1] Hp Hi.
    destruct (l_cdata L0 _ _ p i Hw0 H0) as (d0 & -> & Ha0 & Hb0); [done..|].
    destruct (l_cdata L1 _ _ p i Hw1 H1) as (d1 & -> & Ha1 & Hb1); [by rewrite ?Hnw, ?HD..|].
    cbn. eexists (match d0, d1 with Some d0, Some d1 => Some (d0, d1) | _, _ => None end). split_and!.
    + by destruct d0, d1.
    + intros [v0 v1] [Hs0 Hs1]%intersection_sem_Some. by rewrite (Ha0 v0), (Ha1 v1).
    + intros [Ho0 Ho1]%andb_true_iff. unfold intersection_sem.
      destruct (l_sem L0 (fst s) (p ++ [i])), (l_sem L1 (snd s) (p ++ [i])); intros Hn; try done.
      * rewrite Hb1 by done. by destruct d0.
      * rewrite Hb0 by done. done.
      * rewrite Hb0 by done. done.
  - intros s c p i [v0 v1] [Hw0 Hw1] [H0 H1] Hp Hi [Hs0 Hs1]%intersection_sem_Some.
    rewrite (l_cdata_u L0 _ _ p i v0) by done. rewrite (l_cdata_u L1 _ _ p i v1) by (rewrite ?Hnw, ?HD; done). done.
Defined.
End intersection.
