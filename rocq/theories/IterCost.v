(** * Which nodes an iteration selects (src/iter.rs:50-147)

    An observer tree [logged t]: the same tree, whose cursor also records the path of every
    selected node.  The iterator code is generic, so it runs on it unchanged. *)
From Verif Require Import Base BitUtils BitUtilsProofs BitQueue BitQueueProofs LevelIndices
  LevelIndicesProofs ConstLoops Hierarchy Lawful IterProofs.

(** cursor of the observer: the tree's own cursor, the selected path, the paths selected so far *)
Definition logged (t : tree) : tree := {|
  t_nw := t_nw t; t_depth := t_depth t; t_exact := t_exact t;
  t_T := t_T t; t_C := t_C t * (list N * list (list N)); t_V := t_V t;
  t_data := t_data t; t_data_u := t_data_u t;
  t_new := fun s => let* c := t_new t s in Ok (c, ([], []));
  t_select := fun s '(c, (p, log)) n i => let* (c, m) := t_select t s c n i in
    let p := match n with O => [] | S n => take n p ++ [i] end in Ok ((c, (p, log ++ [p])), m);
  t_select_u := fun s '(c, (p, log)) n i => let* (c, m) := t_select_u t s c n i in
    let p := match n with O => [] | S n => take n p ++ [i] end in Ok ((c, (p, log ++ [p])), m);
  t_cdata := fun s c i => t_cdata t s (fst c) i;
  t_cdata_u := fun s c i => t_cdata_u t s (fst c) i |}.
(** paths of the nodes selected so far by an iterator over [logged t] *)
Definition selected {t} (it : iter (t_C (logged t))) : list (list N) := snd (snd (it_cursor it)).

Section cost.
Context {t : tree} (L : lawful t) (s : t_T t) (Hwf : l_wf L s).
Notation nw := (t_nw t).
Notation D := (t_depth t).
Local Notation tm := (l_tm L s).
Local Notation kids := (kids L s).

(** the nodes below (and including) [p], in pre-order; [k] = D - length p *)
Fixpoint walk (k : nat) (p : list N) : list (list N) :=
  match k with O => [] | S k => p :: (kids p ≫= (fun i => walk k (p ++ [i]))) end.
Fixpoint walk_upto (iters : list bitq) (p : list N) (l : nat) : list (list N) :=
  match l with
  | O => []
  | S l => (lvl_items iters l ≫= (fun i => walk (D - S l) (take l p ++ [i]))) ++ walk_upto iters p l
  end.
Lemma walk_upto_ext iters iters' p p' l :
  (forall k, k < l -> lvl_items iters k = lvl_items iters' k) -> take l p = take l p' ->
  walk_upto iters p l = walk_upto iters' p' l.
Proof.
  revert p p'. induction l as [|l IH]; intros p p' Hi Hp; cbn [walk_upto]; [done|].
  assert (take l p = take l p') as Hp'.
  { transitivity (take l (take (S l) p)); [rewrite take_take; f_equal; lia|].
    rewrite Hp, take_take. f_equal. lia. }
  rewrite (IH p p'); [|intros; apply Hi; lia|done]. rewrite (Hi l) by lia. by rewrite Hp'.
Qed.
Lemma walk_upto_empty iters p l m : l <= m -> (forall k, l <= k -> k < m -> lvl_items iters k = []) ->
  walk_upto iters p m = walk_upto iters p l.
Proof.
  induction 1 as [|m Hle IH]; intros H; [done|]. cbn [walk_upto].
  rewrite (H m) by lia. cbn. apply IH. intros; apply H; lia.
Qed.

Context (lg : t_C t -> list (list N)).
Hypothesis Hlg : forall c p i c' m, l_Ru L s c p -> S (length p) < D ->
  t_select_u t s c (S (length p)) i = Ok (c', m) -> lg c' = lg c ++ [p ++ [i]].
Definition tot (it : iter (t_C t)) (p : list N) : list (list N) := lg (it_cursor it) ++ walk_upto (it_iters it) p D.

Lemma iter_visit_cost it p l : iinv L s it p -> S l < D ->
  (forall k, l < k -> lvl_items (it_iters it) k = []) ->
  (exists it', iter_visit t s it l = Ok (it', None) /\ iinv L s it' p /\
     (forall k, l <= k -> lvl_items (it_iters it') k = []) /\ tot it' p = tot it p /\
     meas_upto L s (it_iters it') p D <= meas_upto L s (it_iters it) p D)
  \/ (exists it' p', iter_visit t s it l = Ok (it', Some ()) /\ iinv L s it' p' /\ tot it' p' = tot it p /\
     meas_upto L s (it_iters it') p' D < meas_upto L s (it_iters it) p D).
Proof.
  intros Hi Hl Hdeep. destruct Hi as [Hlen Hidx Hpl Hpok Hpre Hcur Hq Hd Htm].
  destruct (lookup_lt_is_Some_2 (it_iters it) l) as [q Hql]; [lia|].
  unfold iter_visit. rewrite (get_u_ok _ _ _ Hql), bind_ok.
  destruct (bq_next_ok nw q (Hq _ _ Hql)) as (q' & o & -> & Hq' & Ho & Ht). rewrite bind_ok.
  rewrite set_u_ok, bind_ok by lia.
  assert (lvl_items (it_iters it) l = bq_items q) as Hlv by (unfold lvl_items; by rewrite Hql).
  destruct o as [index|].
  - right. destruct (bq_items q) as [|x rest] eqn:Hitems; [done|]. cbn in Ho, Ht. injection Ho as <-.
    assert (l <= length p) as Hlp.
    { destruct (decide (l <= length p)) as [|Hn]; [done|]. rewrite Hd in Hlv by lia. done. }
    assert (tm (take l p) index = true) as Htmi by (apply Htm; [done|rewrite Hlv; left]).
    assert (length (take l p) = l) as Hltk by (rewrite take_length; lia).
    assert (path_ok nw l (take l p)) as Htok.
    { pose proof (path_ok_take nw _ p l Hpok) as H. by replace (l `min` length p) with l in H by lia. }
    rewrite set_u_ok, bind_ok by lia.
    destruct (l_selectS_u L s (it_cursor it) (take l p) index) as (c' & m & Hsel & Hmask & Hru).
    { done. } { by apply l_Ru_take. } { by rewrite Hltk. } { rewrite Hltk. lia. } { done. }
    pose proof (Hlg _ _ _ _ _ (l_Ru_take L _ _ _ l Hcur) ltac:(rewrite Hltk; lia) Hsel) as Hlog.
    rewrite Hltk in Hsel. rewrite Hsel, bind_ok.
    rewrite set_u_ok, bind_ok by (rewrite insert_length; lia).
    assert (index < msize nw)%N as Hindex by (apply (l_bound L s (take l p)); [done|by rewrite Hltk|rewrite Hltk; lia|done]).
    set (p' := take l p ++ [index]) in *.
    assert (length p' = S l) as Hlp' by (unfold p'; rewrite app_length, Hltk; cbn; lia).
    assert (path_ok nw (length p') p') as Hpok' by (rewrite Hlp'; by apply path_ok_snoc).
    destruct (into_bits_iter_ok nw m) as [Hmq Hmi]; [apply Hmask|apply nw_ok_pos, L|].
    assert (mbits m = kids p') as Hk by (apply (kids_mask L s Hwf); [done|lia|done]).
    set (iters' := <[S l:=into_bits_iter m]> (<[l:=q']> (it_iters it))).
    assert (forall k, lvl_items iters' k = if decide (k = S l) then kids p' else if decide (k = l) then rest else lvl_items (it_iters it) k) as Hlv'.
    { intros k. unfold lvl_items, iters'. destruct (decide (k = S l)) as [->|].
      - rewrite list_lookup_insert by (rewrite insert_length; lia). by rewrite Hmi.
      - rewrite list_lookup_insert_ne by done. destruct (decide (k = l)) as [->|].
        + rewrite list_lookup_insert by lia. done.
        + by rewrite list_lookup_insert_ne by done. }
    eexists _, p'. split; [reflexivity|]. split; [|cbn [it_iters]; fold iters'].
    + constructor; cbn [it_iters it_indices it_cursor]; fold iters'.
      * unfold iters'. by rewrite !insert_length.
      * by rewrite insert_length.
      * lia.
      * done.
      * rewrite Hlp'. unfold p'.
        rewrite (take_S_r _ _ index) by (apply list_lookup_insert; lia).
        rewrite take_insert by lia. f_equal.
        transitivity (take l (take (length p) (it_indices it))); [rewrite take_take; f_equal; lia|by rewrite Hpre].
      * done.
      * intros k q0 Hk0. unfold iters' in Hk0. destruct (decide (k = S l)) as [->|].
        { rewrite list_lookup_insert in Hk0 by (rewrite insert_length; lia). by injection Hk0 as <-. }
        rewrite list_lookup_insert_ne in Hk0 by done. destruct (decide (k = l)) as [->|].
        { rewrite list_lookup_insert in Hk0 by lia. by injection Hk0 as <-. }
        rewrite list_lookup_insert_ne in Hk0 by done. by eapply Hq.
      * intros k Hkl. rewrite Hlv'. rewrite !decide_False by lia. apply Hdeep. lia.
      * intros k i Hkl Hin. rewrite Hlv' in Hin. destruct (decide (k = S l)) as [->|].
        { rewrite take_ge by lia. apply (elem_of_kids L s Hwf) in Hin; [done|done|lia]. }
        unfold p'. rewrite take_app_le, take_take by (rewrite Hltk; lia).
        replace (k `min` l) with k by lia.
        destruct (decide (k = l)) as [->|]; [|apply Htm; [lia|done]].
        apply Htm; [done|]. rewrite Hlv. by right.
    + unfold tot. cbn [it_iters it_cursor]. fold iters'.
      destruct (todo_upto_empty L s iters' p' (S (S l)) D) as [_ ->].
      { lia. } { intros k H1 H2. rewrite Hlv', !decide_False by lia. apply Hdeep. lia. }
      rewrite (walk_upto_empty iters' p' (S (S l)) D).
      2:{ lia. } 2:{ intros k H1 H2. rewrite Hlv', !decide_False by lia. apply Hdeep. lia. }
      destruct (todo_upto_empty L s (it_iters it) p (S l) D) as [_ ->].
      { lia. } { intros k H1 H2. apply Hdeep. lia. }
      rewrite (walk_upto_empty (it_iters it) p (S l) D).
      2:{ lia. } 2:{ intros k H1 H2. apply Hdeep. lia. }
      cbn [walk_upto meas_upto]. rewrite !Hlv', Hlv. rewrite decide_True by done.
      rewrite (decide_False (P := l = S l)) by lia. rewrite decide_True by done.
      destruct (todo_upto_ext L s iters' (it_iters it) p' p l) as [_ ->].
      { intros k Hk'. rewrite Hlv', !decide_False by lia. done. }
      { unfold p'. rewrite take_app_le by lia. rewrite take_take. f_equal. lia. }
      rewrite (walk_upto_ext iters' (it_iters it) p' p l).
      2:{ intros k Hk'. rewrite Hlv', !decide_False by lia. done. }
      2:{ unfold p'. rewrite take_app_le by lia. rewrite take_take. f_equal. lia. }
      replace (take (S l) p') with p' by (symmetry; apply take_ge; lia).
      replace (take l p') with (take l p) by (unfold p'; rewrite take_app_le, take_take by lia; f_equal; lia).
      assert (D - S l = S (D - S (S l))) as HDl by lia.
      split.
      * rewrite bind_cons, HDl, Hlog. cbn [walk]. fold p'. rewrite <- !app_assoc. cbn [app]. done.
      * cbn [fmap list_fmap sum_list]. rewrite HDl. cbn [weight]. fold p'. unfold id. lia.
  - left. assert (bq_items q = []) as Hnil by (destruct (bq_items q); done).
    rewrite Hnil in *. cbn in Ht.
    assert (forall k, lvl_items (<[l:=q']> (it_iters it)) k = lvl_items (it_iters it) k) as Hlv'.
    { intros k. unfold lvl_items. destruct (decide (k = l)) as [->|].
      - rewrite list_lookup_insert by lia. rewrite Hql. by rewrite Ht.
      - by rewrite list_lookup_insert_ne. }
    eexists. split; [reflexivity|]. cbn [it_iters]. split_and!.
    + constructor; cbn [it_iters it_indices it_cursor]; try done.
      * by rewrite insert_length.
      * intros k q0 Hk0. destruct (decide (k = l)) as [->|].
        { rewrite list_lookup_insert in Hk0 by lia. by injection Hk0 as <-. }
        rewrite list_lookup_insert_ne in Hk0 by done. by eapply Hq.
      * intros k Hk. rewrite Hlv'. by apply Hd.
      * intros k i Hk Hin. rewrite Hlv' in Hin. by apply Htm.
    + intros k Hk. rewrite Hlv'. destruct (decide (k = l)) as [->|]; [by rewrite Hlv|apply Hdeep; lia].
    + unfold tot. cbn [it_iters it_cursor]. f_equal. apply walk_upto_ext; [intros; apply Hlv'|done].
    + destruct (todo_upto_ext L s (<[l:=q']> (it_iters it)) (it_iters it) p p D) as [_ ->]; [intros; apply Hlv'|done|done].
Qed.

Lemma iter_rev_cost m it p : iinv L s it p -> m < D ->
  (forall k, m <= k -> lvl_items (it_iters it) k = []) ->
  (exists it', visit_list (rev (seq 0 m)) (iter_visit t s) it = Ok (it', None) /\ iinv L s it' p /\
     (forall k, lvl_items (it_iters it') k = []) /\ tot it' p = tot it p)
  \/ (exists it' p', visit_list (rev (seq 0 m)) (iter_visit t s) it = Ok (it', Some ()) /\ iinv L s it' p' /\
     tot it' p' = tot it p /\
     meas_upto L s (it_iters it') p' D < meas_upto L s (it_iters it) p D).
Proof.
  revert it. induction m as [|m IH]; intros it Hi Hm Hdeep.
  - left. exists it. split_and!; [done|done|intros; apply Hdeep; lia|done].
  - rewrite seq_S, rev_app_distr. cbn [rev app Nat.add visit_list].
    destruct (iter_visit_cost it p m Hi) as [(it' & -> & Hi' & Hd' & Ht & Hw)|(it' & p' & -> & Hi' & Ht & Hw)]; [lia|intros; apply Hdeep; lia| |].
    + rewrite bind_ok. destruct (IH it' Hi') as [(it2 & -> & Hi2 & Hd2 & Ht2)|(it2 & p2 & -> & Hi2 & Ht2 & Hw2)]; [lia|done| |].
      * left. exists it2. rewrite <- Ht. done.
      * right. exists it2, p2. rewrite Ht2. split_and!; [done|done|done|lia].
    + rewrite bind_ok. right. exists it', p'. done.
Qed.

Lemma iter_loop_cost fuel it p : iinv L s it p -> meas_upto L s (it_iters it) p D < fuel ->
  exists it' p' o, iter_loop fuel t s it = Ok (it', o) /\ iinv L s it' p' /\ tot it' p' = tot it p /\
    (o = None -> forall k, lvl_items (it_iters it') k = []) /\
    meas_upto L s (it_iters it') p' D + (if o then 1 else 0) <= meas_upto L s (it_iters it) p D.
Proof.
  revert it p. induction fuel as [|fuel IH]; intros it p Hi Hf; [lia|].
  pose proof Hi as [Hlen Hidx Hpl Hpok Hpre Hcur Hq Hd Htm]. cbn [iter_loop]. rewrite Hlen.
  destruct (lookup_lt_is_Some_2 (it_iters it) (D - 1)) as [q Hql]; [lia|].
  unfold get_c. rewrite Hql, bind_ok.
  destruct (bq_next_ok nw q (Hq _ _ Hql)) as (q' & o & -> & Hq' & Ho & Ht). rewrite bind_ok.
  assert (lvl_items (it_iters it) (D - 1) = bq_items q) as Hlv by (unfold lvl_items; by rewrite Hql).
  assert (forall k, lvl_items (<[D - 1:=q']> (it_iters it)) k = if decide (k = D - 1) then tail (bq_items q) else lvl_items (it_iters it) k) as Hlv'.
  { intros k. unfold lvl_items. destruct (decide (k = D - 1)) as [->|].
    - rewrite list_lookup_insert by lia. done.
    - by rewrite list_lookup_insert_ne. }
  assert (iinv L s (Iter (<[D - 1:=q']> (it_iters it)) (it_indices it) (it_cursor it)) p) as Hi'.
  { constructor; cbn [it_iters it_indices it_cursor]; try done.
    - by rewrite insert_length.
    - intros k q0 Hk0. destruct (decide (k = D - 1)) as [->|].
      { rewrite list_lookup_insert in Hk0 by lia. by injection Hk0 as <-. }
      rewrite list_lookup_insert_ne in Hk0 by done. by eapply Hq.
    - intros k Hk. rewrite Hlv'. destruct (decide (k = D - 1)) as [->|]; [|by apply Hd].
      rewrite <- Hlv, Hd by done. done.
    - intros k i Hk Hin. rewrite Hlv' in Hin. destruct (decide (k = D - 1)) as [->|]; [|by apply Htm].
      apply Htm; [done|]. rewrite Hlv. destruct (bq_items q); [done|by right]. }
  assert (forall iters pp, walk_upto iters pp D = walk_upto iters pp (D - 1)
     /\ meas_upto L s iters pp D = sum_list ((fun i => weight L s 0 (take (D - 1) pp ++ [i])) <$> lvl_items iters (D - 1)) + meas_upto L s iters pp (D - 1)) as HD.
  { intros iters pp. pose proof (l_depth L).
    replace (walk_upto iters pp D) with (walk_upto iters pp (S (D - 1))) by (f_equal; lia).
    replace (meas_upto L s iters pp D) with (meas_upto L s iters pp (S (D - 1))) by (f_equal; lia). cbn [walk_upto meas_upto].
    replace (D - S (D - 1)) with 0 by lia. cbn [walk]. split; [|done].
    assert (forall l : list N, (l ≫= (fun _ => [] : list (list N))) = []) as -> by (intros l; induction l; done). done. }
  destruct o as [index|].
  - destruct (bq_items q) as [|x rest] eqn:Hitems; [done|]. cbn in Ho. injection Ho as <-.
    eexists _, p, (Some index). split; [reflexivity|]. split; [done|]. unfold tot. cbn [it_iters it_cursor].
    destruct (HD (it_iters it) p) as [-> ->]. destruct (HD (<[D - 1:=q']> (it_iters it)) p) as [-> ->].
    rewrite (walk_upto_ext (<[D - 1:=q']> (it_iters it)) (it_iters it) p p (D - 1)).
    2:{ intros k Hk. rewrite Hlv', decide_False by lia. done. } 2:{ done. }
    split; [done|]. split; [done|].
    rewrite Hlv', Hlv. rewrite decide_True by done. cbn [tail].
    destruct (todo_upto_ext L s (<[D - 1:=q']> (it_iters it)) (it_iters it) p p (D - 1)) as [_ ->].
    { intros k Hk. rewrite Hlv', decide_False by lia. done. } { done. }
    cbn [fmap list_fmap sum_list weight]. unfold id. lia.
  - assert (bq_items q = []) as Hnil by (destruct (bq_items q); done).
    rewrite Hnil in *. cbn [tail] in Hlv'.
    set (it1 := Iter (<[D - 1:=q']> (it_iters it)) (it_indices it) (it_cursor it)) in *.
    rewrite const_for_rev_0.
    assert (forall k, lvl_items (it_iters it1) k = lvl_items (it_iters it) k) as Hk1.
    { intros k. cbn [it_iters it1]. rewrite Hlv'. destruct (decide (k = D - 1)) as [->|]; [by rewrite Hlv|done]. }
    destruct (todo_upto_ext L s (it_iters it1) (it_iters it) p p D) as [_ Hm1]; [intros; apply Hk1|done|].
    assert (tot it1 p = tot it p) as Ht1 by (unfold tot; f_equal; apply walk_upto_ext; [intros; apply Hk1|done]).
    destruct (iter_rev_cost (D - 1) it1 p Hi') as [(it2 & -> & Hi2 & Hd2 & Ht2)|(it2 & p2 & -> & Hi2 & Ht2 & Hw2)].
    + lia.
    + intros k Hk. cbn [it_iters it1]. rewrite Hlv'. destruct (decide (k = D - 1)) as [->|]; [done|]. apply Hd. lia.
    + rewrite bind_ok. eexists it2, p, None. split; [done|]. split; [done|]. split; [by rewrite Ht2|]. split; [done|].
      destruct (todo_upto_empty L s (it_iters it2) p 0 D) as [_ ->]; [lia|intros; apply Hd2|]. cbn [meas_upto]. lia.
    + rewrite bind_ok. destruct (IH it2 p2 Hi2) as (it3 & p3 & o3 & -> & Hi3 & Ht3 & Ho3 & Hw3); [lia|].
      exists it3, p3, o3. split_and!; [done|done|by rewrite Ht3, Ht2|done|]. destruct o3; lia.
Qed.
Lemma iter_next_cost fuel it p : iinv L s it p -> meas_upto L s (it_iters it) p D < fuel ->
  exists it' p' o, iter_next fuel t s it = Ok (it', o) /\ iinv L s it' p' /\ tot it' p' = tot it p /\
    (o = None -> forall k, lvl_items (it_iters it') k = []) /\
    meas_upto L s (it_iters it') p' D + (if o then 1 else 0) <= meas_upto L s (it_iters it) p D.
Proof.
  intros Hi Hf. destruct (iter_next_ok L s Hwf fuel it p Hi Hf) as (it1 & p1 & o1 & E1 & _).
  destruct (iter_loop_cost fuel it p Hi Hf) as (it' & p' & o & Hloop & Hi' & Ht & Ho & Hm).
  unfold iter_next in *. rewrite Hloop, bind_ok in *. destruct o as [i|].
  - apply bind_ok_inv in E1 as (d & -> & (k & -> & _)%bind_ok_inv). rewrite !bind_ok.
    eexists it', p', _. split; [reflexivity|]. done.
  - exists it', p', None. split; [done|]. split; [done|]. split; [done|]. split; [by intros _; apply Ho|done].
Qed.
Lemma iter_drain_cost fuel it p it' l : iinv L s it p ->
  meas_upto L s (it_iters it) p D < fuel -> iter_drain fuel t s it = Ok (it', l) -> lg (it_cursor it') = tot it p.
Proof.
  revert it p it' l. induction fuel as [|fuel IH]; intros it p it' l Hi Hf Hdr; [lia|]. cbn [iter_drain] in Hdr.
  destruct (iter_next_cost (S fuel) it p Hi) as (it1 & p1 & o & E1 & Hi1 & Ht1 & Ho1 & Hm1); [lia|].
  rewrite E1, bind_ok in Hdr.
  destruct o as [x|].
  - apply bind_ok_inv in Hdr as ([it3 l3] & Hdr & [= <- <-]).
    rewrite <- Ht1. eapply IH; [done| |done]. lia.
  - injection Hdr as <- <-. rewrite <- Ht1. unfold tot.
    rewrite (walk_upto_empty (it_iters it1) p1 0 D) by (lia || (intros; by apply Ho1)). cbn [walk_upto]. by rewrite app_nil_r.
Qed.
End cost.

(** ** the observer is a tree like the one it observes *)
Program Definition lawful_logged {t} (L : lawful t) : lawful (logged t) := {|
  l_wf := l_wf L : t_T (logged t) -> Prop;
  l_sem := l_sem L : t_T (logged t) -> _; l_tm := l_tm L : t_T (logged t) -> _; l_cdok := l_cdok L;
  l_Rv := fun s (c : t_C (logged t)) => l_Rv L s (fst c);
  l_Rk := fun s (c : t_C (logged t)) p => l_Rk L s (fst c) p /\ p `prefix_of` fst (snd c);
  l_Ru := fun s (c : t_C (logged t)) p => l_Ru L s (fst c) p /\ p `prefix_of` fst (snd c) |}.
Next Obligation. intros t L. exact (l_nw L). Qed.
Next Obligation. intros t L. exact (l_depth L). Qed.
Next Obligation. intros t L. exact (l_complete L). Qed.
Next Obligation. intros t L. exact (l_terminal L). Qed.
Next Obligation. intros t L. exact (l_bound L). Qed.
Next Obligation. intros t L. exact (l_parent L). Qed.
Next Obligation. intros t L s c p [H ?]. split; [by apply l_Rk_Ru|done]. Qed.
Next Obligation. intros t L s c p [H ?]. by apply l_Ru_Rv in H. Qed.
Next Obligation. intros t L s c p n [H ?]. split; [by apply l_Rk_take|]. etrans; [exists (drop n p); by rewrite take_drop|done]. Qed.
Next Obligation. intros t L s c p n [H ?]. split; [by apply l_Ru_take|]. etrans; [exists (drop n p); by rewrite take_drop|done]. Qed.
Next Obligation.
  intros t L s Hw. destruct (l_new L s Hw) as (c & E & H). exists (c, ([], [])). cbn. rewrite E. done.
Qed.
Next Obligation.
  intros t L s [c [p log]] Hw Hv. destruct (l_select0 L s c Hw Hv) as (c' & m & E & Hm & Hr).
  eexists (c', ([], _)), m. cbn. rewrite E. split; [reflexivity|]. split; [done|]. split; [done|apply prefix_nil].
Qed.
Next Obligation.
  intros t L s [c [p log]] Hw Hv. destruct (l_select0_u L s c Hw Hv) as (c' & m & E & Hm & Hr).
  eexists (c', ([], _)), m. cbn. rewrite E. split; [reflexivity|]. split; [done|]. split; [done|apply prefix_nil].
Qed.
Next Obligation.
  intros t L s [c [p' log]] p i Hw [Hk Hpre] Hp Hl Hi. cbn in Hpre.
  destruct (l_selectS L s c p i Hw Hk Hp Hl Hi) as (c' & m & E & Hm & Hr).
  eexists (c', (p ++ [i], _)), m. cbn. rewrite E. destruct Hpre as [r ->]. cbn. rewrite take_app.
  split; [reflexivity|]. done.
Qed.
Next Obligation.
  intros t L s [c [p' log]] p i Hw [Hk Hpre] Hp Hl Hi. cbn in Hpre.
  destruct (l_selectS_u L s c p i Hw Hk Hp Hl Hi) as (c' & m & E & Hm & Hr).
  eexists (c', (p ++ [i], _)), m. cbn. rewrite E. destruct Hpre as [r ->]. cbn. rewrite take_app.
  split; [reflexivity|]. done.
Qed.
Next Obligation. intros t L. exact (l_data L). Qed.
Next Obligation. intros t L. exact (l_data_u L). Qed.
Next Obligation. intros t L s c p i Hw [H _]. by apply (l_cdata L). Qed.
Next Obligation. intros t L s c p i v Hw [H _]. by apply (l_cdata_u L). Qed.

(** iterating over [s] to the end selects exactly the nodes [ps], in this order *)
Definition iter_visits (t : tree) (s : t_T t) (ps : list (list N)) : Prop :=
  exists n l, forall fuel, n <= fuel -> iter_collect fuel t s = Ok l /\
    exists it it', iter_new (logged t) s = Ok it /\ iter_drain fuel (logged t) s it = Ok (it', l) /\ selected it' = ps.

Lemma NoDup_list_bind {A B} (f : A -> list B) (l : list A) :
  (forall x y z, z ∈ f x -> z ∈ f y -> x = y) -> (forall x, x ∈ l -> NoDup (f x)) -> NoDup l -> NoDup (l ≫= f).
Proof.
  intros Hf. induction l as [|x l IH]; intros Hn Hl; [constructor|]. apply NoDup_cons in Hl as [Hx Hl].
  rewrite bind_cons. apply NoDup_app. split; [apply Hn; left|]. split; [|apply IH; [|done]; intros; apply Hn; by right].
  intros z Hz (y & Hy & Hin)%elem_of_list_bind. by rewrite (Hf x y z Hz Hy) in Hx.
Qed.

Section visits.
Context {t : tree} (L : lawful t) (s : t_T t) (Hwf : l_wf L s).
Notation nw := (t_nw t).
Notation D := (t_depth t).

Lemma walk_logged k p : walk (lawful_logged L) s k p = walk L s k p.
Proof. revert p. induction k as [|k IH]; intros p; [done|]. cbn [walk].
  apply (f_equal (cons p)). apply list_bind_ext; [|done]. intros i. apply IH. Qed.

Theorem iter_visits_walk : iter_visits t s (walk L s D []).
Proof.
  destruct (iter_collect_ok L s Hwf) as (n0 & l & Hl & _).
  set (L' := lawful_logged L).
  destruct (iter_new_ok L' s Hwf) as (it & Hnew & Hi & Htodo).
  set (bound := meas_upto L' s (it_iters it) [] D + length (todo_upto L' s (it_iters it) [] D)).
  destruct (iter_collect_ok L' s Hwf) as (n1 & l1 & Hl1 & Hs1 & He1).
  exists (n0 + n1 + S bound), l. intros fuel Hf. split; [apply Hl; lia|]. exists it.
  destruct (iter_drain_ok L' s Hwf fuel it [] Hi) as (it' & p' & l' & Hdr & _ & _ & Hl'); [unfold bound in Hf; cbn in *; lia|].
  exists it'. split; [done|].
  assert (l' = l) as ->.
  { destruct (iter_new_ok L s Hwf) as (it0 & Hnew0 & Hi0 & Htodo0).
    assert (iter_collect (S (fuel + meas_upto L s (it_iters it0) [] D + length (todo_upto L s (it_iters it0) [] D))) t s = Ok l) as Hc by (apply Hl; lia).
    unfold iter_collect in Hc. rewrite Hnew0, bind_ok in Hc.
    edestruct (iter_drain_ok L s Hwf) as (it0' & p0' & l0 & Hdr0 & _ & _ & Hl0); [exact Hi0| |].
    2:{ rewrite Hdr0, bind_ok in Hc. injection Hc as <-.
        rewrite Htodo in Hl'. rewrite Htodo0 in Hl0.
        assert (leaves L' s D [] = leaves L s D []) as Hlv.
        { clear. generalize (@nil N). induction D as [|k IH]; intros p; [done|]. cbn [leaves]. apply list_bind_ext; [|done]. intros i. apply IH. }
        assert (Some <$> l' = (Some <$> l0 : list (option (N * t_V t)))) as Hx.
        { rewrite Hl0, <- Hlv. exact Hl'. }
        apply (fmap_inj Some) in Hx; [done|]. intros ? ?. by injection 1. }
    lia. }
  split; [done|].
  set (lg := fun c : t_C (logged t) => snd (snd c)).
  assert (lg (it_cursor it') = tot L' s lg it []) as Hlog.
  { refine (iter_drain_cost L' s Hwf lg _ fuel it [] it' l Hi _ Hdr); [|unfold bound in Hf; cbn in *; lia].
    intros [c [p log]] q i c' m [_ [r Hpre]] Hq Hsel. cbn in Hpre. subst p. cbn in Hsel.
    apply bind_ok_inv in Hsel as ([c1 m1] & _ & [= <- <-]). unfold lg. cbn. by rewrite take_app. }
  unfold selected. fold (lg (it_cursor it')). rewrite Hlog. rewrite <- walk_logged. fold L'. unfold tot.
  unfold iter_new in Hnew. cbn in Hnew. apply bind_ok_inv in Hnew as ([c1 [p1 log1]] & Hn & Hnew).
  apply bind_ok_inv in Hn as (c0 & Hc0 & [= <- <- <-]).
  apply bind_ok_inv in Hnew as ([c2 m2] & Hn2 & Hnew).
  apply bind_ok_inv in Hn2 as ([c3 m3] & Hs0 & [= <- <-]). rewrite decide_True in Hnew by apply (l_depth L).
  injection Hnew as <-. cbn [it_cursor it_iters]. unfold lg. cbn [snd app].
  pose proof (l_depth L) as HD0. destruct (l_new L s Hwf) as (c0' & Hc0' & Hv). rewrite Hc0 in Hc0'. injection Hc0' as <-.
  destruct (l_select0_u L s c0 Hwf Hv) as (c4 & m4 & Hs0' & Hmask & _). rewrite Hs0 in Hs0'. injection Hs0' as <- <-.
  destruct (into_bits_iter_ok nw m3) as [Hmq Hmi]; [apply Hmask|apply nw_ok_pos, (l_nw L)|].
  destruct (bq_empty_ok nw) as [He2 He3]; [apply nw_ok_pos, (l_nw L)|].
  assert (mbits m3 = kids L' s []) as Hk by (apply (kids_mask L s Hwf); [apply path_ok_nil|done|done]).
  assert (forall k, lvl_items (<[0:=into_bits_iter m3]> (replicate D (bq_empty nw))) k = if decide (k = 0) then kids L' s [] else []) as Hlv.
  { intros k. unfold lvl_items. destruct (decide (k = 0)) as [->|].
    - rewrite list_lookup_insert by (by rewrite replicate_length). by rewrite Hmi.
    - rewrite list_lookup_insert_ne by done. destruct (replicate _ _ !! k) eqn:E; [|done].
      by apply lookup_replicate in E as [-> _]. }
  change (t_depth (logged t)) with D.
  rewrite (walk_upto_empty L' s (<[0:=into_bits_iter m3]> (replicate D (bq_empty nw))) [] 1 D); [|lia|intros k H1 H2; rewrite Hlv, decide_False by lia; done].
  cbn [walk_upto]. rewrite Hlv. rewrite decide_True by done. rewrite app_nil_r. cbn [take app].
  destruct D as [|d] eqn:HDe; [lia|]. cbn [walk]. f_equal. replace (S d - 1) with d by lia.
  change (t_depth (logged t)) with D. rewrite HDe. replace (S d - 1) with d by lia. done.
Qed.

Lemma walk_prefix k p q : q ∈ walk L s k p -> p `prefix_of` q /\ length q < length p + k.
Proof.
  revert p. induction k as [|k IH]; intros p Hq; [by apply elem_of_nil in Hq|]. cbn [walk] in Hq.
  apply elem_of_cons in Hq as [->|(i & Hq & Hi)%elem_of_list_bind]; [split; [done|lia]|].
  apply IH in Hq as [Hp Hl]. rewrite app_length in Hl. cbn in Hl. split; [|lia].
  etrans; [|exact Hp]. by apply prefix_app_r.
Qed.
Lemma walk_NoDup k p : length p + k = D -> path_ok nw (length p) p -> NoDup (walk L s k p).
Proof.
  revert p. induction k as [|k IH]; intros p Hl Hp; [constructor|]. cbn [walk]. constructor.
  - intros (i & Hq & _)%elem_of_list_bind. apply walk_prefix in Hq as [Hq%prefix_length _]. rewrite app_length in Hq. cbn in Hq. lia.
  - apply NoDup_list_bind.
    + intros i j q Hi Hj. apply walk_prefix in Hi as [[r ->] _], Hj as [[r' Hj] _].
      rewrite <- !app_assoc in Hj. apply app_inv_head in Hj. by injection Hj.
    + intros i Hi. apply (elem_of_kids L s Hwf) in Hi; [|done|lia].
      apply IH; [rewrite app_length; cbn; lia|]. rewrite app_length. cbn. rewrite Nat.add_1_r. apply path_ok_snoc; [done|].
      eapply l_bound; eauto. lia.
    + apply ssorted_nodup, ssorted_filter, seqN_sorted.
Qed.
Lemma elem_of_walk k p r : length p + k = D -> path_ok nw (length p) p ->
  p ++ r ∈ walk L s k p <-> length r < k /\ (forall n i, r !! n = Some i -> l_tm L s (p ++ take n r) i = true).
Proof.
  revert p r. induction k as [|k IH]; intros p r Hl Hp.
  { split; [intros H; by apply elem_of_nil in H|lia]. }
  cbn [walk]. rewrite elem_of_cons, elem_of_list_bind. destruct r as [|i r].
  - rewrite app_nil_r. split; [intros _; split; [cbn; lia|done]|by left].
  - replace (p ++ i :: r) with ((p ++ [i]) ++ r) by (by rewrite <- app_assoc).
    assert (l_tm L s p i = true -> path_ok nw (length (p ++ [i])) (p ++ [i])) as Hpi.
    { intros Hi. rewrite app_length. cbn. rewrite Nat.add_1_r. apply path_ok_snoc; [done|]. eapply l_bound; eauto. lia. }
    assert (length (p ++ [i]) + k = D) as Hl' by (rewrite app_length; cbn; lia).
    split.
    + intros [H|(j & Hj & Hk)].
      { apply (f_equal length) in H. rewrite !app_length in H. cbn in H. lia. }
      pose proof (walk_prefix _ _ _ Hj) as [[r' Hr'] _]. rewrite <- !app_assoc in Hr'. apply app_inv_head in Hr'. injection Hr' as <- _.
      apply (elem_of_kids L s Hwf) in Hk; [|done|lia].
      apply IH in Hj as [Hlr Ht]; [|done|by apply Hpi]. split; [cbn; lia|].
      intros [|n] x Hx; cbn in Hx |- *; [injection Hx as <-; by rewrite app_nil_r|].
      specialize (Ht n x Hx). by rewrite <- app_assoc in Ht.
    + intros [Hlr Ht]. right. exists i. pose proof (Ht 0 i eq_refl) as Hi. cbn in Hi. rewrite app_nil_r in Hi.
      split; [|apply (elem_of_kids L s Hwf); [done|lia|done]].
      apply IH; [done|by apply Hpi|]. split; [cbn in Hlr; lia|].
      intros n x Hx. specialize (Ht (S n) x Hx). by rewrite <- app_assoc.
Qed.
(** in terms of the last link only: masks of unannounced nodes are empty *)
Lemma elem_of_walk_root p : p ∈ walk L s D [] <->
  length p < D /\ path_ok nw (length p) p /\ (forall q i, p = q ++ [i] -> l_tm L s q i = true).
Proof.
  pose proof (elem_of_walk D [] p eq_refl (path_ok_nil _)) as H. cbn [app] in H. rewrite H. clear H. split.
  - intros [Hl Ht]. split; [done|].
    assert (forall n, n <= length p -> path_ok nw n (take n p)) as Hpok.
    { induction n as [|n IH]; intros Hn; [rewrite take_0; apply path_ok_nil|].
      destruct (lookup_lt_is_Some_2 p n) as [i Hi]; [lia|]. rewrite (take_S_r _ _ i) by done.
      apply path_ok_snoc; [apply IH; lia|]. apply (l_bound L s (take n p)); [done| |rewrite take_length; lia|by apply Ht].
      rewrite take_length. replace (n `min` length p) with n by lia. apply IH. lia. }
    split; [specialize (Hpok _ (Nat.le_refl _)); by rewrite take_ge in Hpok|].
    intros q i ->. specialize (Ht (length q) i). rewrite take_app in Ht. apply Ht.
    rewrite lookup_app_r by lia. by rewrite Nat.sub_diag.
  - intros (Hl & Hp & Ht). split; [done|].
    induction p as [|i p IH] using rev_ind; [by intros ? ? ?|].
    pose proof (path_ok_app_inv _ _ _ _ Hp) as [Hp1 Hp2]. rewrite app_length in Hl. cbn in Hl.
    specialize (Ht p i eq_refl) as Hti.
    intros n x Hx. destruct (decide (n < length p)) as [Hn|Hn].
    + rewrite lookup_app_l in Hx by done. rewrite take_app_le by lia. apply IH; [lia|done| |done].
      intros q j ->. rewrite app_length in Hl. cbn in Hl. eapply (l_parent L s q j i Hwf); [by apply path_ok_app_inv in Hp1 as [? _]|lia| |done].
      apply path_ok_app_inv in Hp1 as [_ [_ Hj]]. by inversion_clear Hj.
    + apply lookup_lt_Some in Hx as Hx'. rewrite app_length in Hx'. cbn in Hx'. replace n with (length p) in * by lia.
      rewrite lookup_app_r, Nat.sub_diag in Hx by lia. injection Hx as <-. by rewrite take_app.
Qed.
End visits.
