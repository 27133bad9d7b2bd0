(** * The iterator enumerates exactly the content, in ascending key order *)
From Verif Require Import Base BitUtils BitUtilsProofs BitQueue BitQueueProofs LevelIndices
  LevelIndicesProofs ConstLoops Hierarchy Lawful.

Section iter.
Context {t : tree} (L : lawful t) (s : t_T t) (Hwf : l_wf L s).
Notation nw := (t_nw t).
Notation D := (t_depth t).
Local Notation tm := (l_tm L s).
Local Notation sem := (l_sem L s).

Definition kids (p : list N) : list N := filter (fun i => tm p i = true) (seqN 0 (64 * nw)).
Fixpoint leaves (k : nat) (p : list N) : list (list N) :=
  match k with O => [p] | S k => kids p ≫= (fun i => leaves k (p ++ [i])) end.
Fixpoint weight (k : nat) (p : list N) : nat :=
  match k with O => 1 | S k => S (sum_list ((fun i => weight k (p ++ [i])) <$> kids p)) end.

Lemma msize_nat : msize nw = N.of_nat (64 * nw).
Proof. unfold msize. lia. Qed.
Lemma elem_of_kids p i : path_ok nw (length p) p -> length p < D -> i ∈ kids p <-> tm p i = true.
Proof.
  intros Hp Hl. unfold kids. rewrite elem_of_list_filter, elem_of_seqN. split; [naive_solver|].
  intros H. split; [done|]. pose proof (l_bound L s p i Hwf Hp Hl H) as Hb. rewrite msize_nat in Hb. lia.
Qed.
Lemma kids_mask p m : path_ok nw (length p) p -> length p < D -> mask_is nw m (tm p) -> mbits m = kids p.
Proof.
  intros Hp Hl [Hm Hb]. apply ssorted_ext; [apply mbits_sorted|apply ssorted_filter, seqN_sorted|].
  intros i. rewrite elem_of_mbits, Hb, elem_of_kids by done. done.
Qed.

Lemma elem_of_leaves k p q : length p + k = D -> path_ok nw (length p) p ->
  q ∈ leaves k p -> exists r, q = p ++ r /\ length r = k /\ path_ok nw D q.
Proof.
  revert p. induction k as [|k IH]; intros p Hl Hp Hq; cbn [leaves] in Hq.
  - apply elem_of_list_singleton in Hq as ->. exists []. rewrite app_nil_r. split_and!; [done|done|].
    replace D with (length p) by lia. done.
  - apply elem_of_list_bind in Hq as (i & Hq & Hi). apply elem_of_kids in Hi; [|done|lia].
    assert (i < msize nw)%N by (eapply l_bound; eauto; lia).
    apply IH in Hq as (r & -> & Hr & Hq); [|rewrite app_length; cbn; lia|].
    + exists (i :: r). rewrite <- app_assoc in *. split_and!; [done|cbn; lia|done].
    + rewrite app_length. replace (length p + length [i]) with (S (length p)) by (cbn; lia). by apply path_ok_snoc.
Qed.
Lemma leaves_complete k p r : length p + k = D -> path_ok nw D (p ++ r) ->
  is_Some (sem (p ++ r)) -> (p ++ r) ∈ leaves k p.
Proof.
  revert p r. induction k as [|k IH]; intros p r Hl Hp [v Hv]; cbn [leaves].
  - assert (r = []) as ->. { destruct Hp as [Hp _]. rewrite app_length in Hp. destruct r; [done|cbn in Hp; lia]. }
    rewrite app_nil_r. by apply elem_of_list_singleton.
  - destruct r as [|i r]. { destruct Hp as [Hp _]. rewrite app_length in Hp. cbn in Hp. lia. }
    apply elem_of_list_bind. exists i. split.
    + replace (p ++ i :: r) with ((p ++ [i]) ++ r) in * by (by rewrite <- app_assoc).
      apply IH; [rewrite app_length; cbn; lia|done|by eexists].
    + apply elem_of_kids; [by apply path_ok_app_inv in Hp as [? _]|lia|].
      assert (tm (take (length p) (p ++ i :: r)) i = true) as H.
      { eapply l_complete; eauto. rewrite lookup_app_r by lia. by rewrite Nat.sub_diag. }
      by rewrite take_app in H.
Qed.
Lemma leaves_sound k p q : length p + k = D -> 0 < k -> path_ok nw (length p) p ->
  q ∈ leaves k p -> is_Some (sem q).
Proof.
  revert p. induction k as [|k IH]; intros p Hl Hk Hp Hq; [lia|]. cbn [leaves] in Hq.
  apply elem_of_list_bind in Hq as (i & Hq & Hi). apply elem_of_kids in Hi; [|done|lia].
  assert (i < msize nw)%N by (eapply l_bound; eauto; lia).
  destruct k as [|k].
  - cbn in Hq. apply elem_of_list_singleton in Hq as ->. eapply l_terminal; eauto.
    replace (D - 1) with (length p) by lia. done.
  - apply IH in Hq; [done|rewrite app_length; cbn; lia|lia|].
    rewrite app_length. replace (length p + length [i]) with (S (length p)) by (cbn; lia). by apply path_ok_snoc.
Qed.

Lemma leaves_sorted k p : length p + k = D -> path_ok nw (length p) p ->
  StronglySorted N.lt (key_of_path nw <$> leaves k p).
Proof.
  pose proof (msize_pos nw (l_nw L)) as Hms.
  revert p. induction k as [|k IH]; intros p Hl Hp; cbn [leaves].
  - cbn. by repeat constructor.
  - assert (forall l, StronglySorted N.lt l -> Forall (fun i => tm p i = true) l ->
      StronglySorted N.lt (key_of_path nw <$> (l ≫= (fun i => leaves k (p ++ [i]))))) as H.
    { induction l as [|i l IHl]; intros Hs Hf; [constructor|].
      inversion_clear Hs as [|? ? Hs' Hlt]. inversion_clear Hf as [|? ? Hi Hf'].
      rewrite bind_cons, fmap_app. apply ssorted_app; [|by apply IHl|].
      - apply IH; [rewrite app_length; cbn; lia|].
        rewrite app_length. replace (length p + length [i]) with (S (length p)) by (cbn; lia).
        apply path_ok_snoc; [done|]. eapply l_bound; eauto; lia.
      - intros a b (q1 & -> & Hq1)%elem_of_list_fmap (q2 & -> & Hq2)%elem_of_list_fmap.
        apply elem_of_list_bind in Hq2 as (j & Hq2 & Hj).
        assert (forall i q, tm p i = true -> q ∈ leaves k (p ++ [i]) -> exists r, q = p ++ i :: r /\ length r = k /\ path_ok nw D q) as Hq.
        { intros i' q Hi' Hin. apply elem_of_leaves in Hin as (r & -> & Hr & Hok).
          - exists r. rewrite <- app_assoc in *. done.
          - rewrite app_length; cbn; lia.
          - rewrite app_length. replace (length p + length [i']) with (S (length p)) by (cbn; lia).
            apply path_ok_snoc; [done|]. eapply l_bound; eauto; lia. }
        rewrite Forall_forall in Hf', Hlt.
        apply Hq in Hq1 as (r1 & -> & Hr1 & Hok1); [|done].
        apply Hq in Hq2 as (r2 & -> & Hr2 & Hok2); [|by apply Hf'].
        apply (key_of_path_lex nw D); [apply L|done|done|].
        clear -Hlt Hj. induction p as [|x p IHp]; cbn; [left; by apply Hlt|by right]. }
    apply H; [apply ssorted_filter, seqN_sorted|].
    apply Forall_forall. intros i Hi. by apply elem_of_list_filter in Hi as [? _].
Qed.

(** ** iterator states *)
Definition lvl_items (iters : list bitq) (l : nat) : list N :=
  match iters !! l with Some q => bq_items q | None => [] end.
Fixpoint todo_upto (iters : list bitq) (p : list N) (l : nat) : list (list N) :=
  match l with
  | O => []
  | S l => (lvl_items iters l ≫= (fun i => leaves (D - S l) (take l p ++ [i]))) ++ todo_upto iters p l
  end.
Fixpoint meas_upto (iters : list bitq) (p : list N) (l : nat) : nat :=
  match l with
  | O => 0
  | S l => sum_list ((fun i => weight (D - S l) (take l p ++ [i])) <$> lvl_items iters l) + meas_upto iters p l
  end.

Record iinv (it : iter (t_C t)) (p : list N) : Prop := {
  ii_len : length (it_iters it) = D;
  ii_idx : length (it_indices it) = D - 1;
  ii_p : length p < D;
  ii_pok : path_ok nw (length p) p;
  ii_pre : take (length p) (it_indices it) = p;
  ii_cur : l_Ru L s (it_cursor it) p;
  ii_q : forall l q, it_iters it !! l = Some q -> bq_ok nw q;
  ii_deep : forall l, length p < l -> lvl_items (it_iters it) l = [];
  ii_tm : forall l i, l <= length p -> i ∈ lvl_items (it_iters it) l -> tm (take l p) i = true;
}.

Lemma todo_upto_ext iters iters' p p' l :
  (forall k, k < l -> lvl_items iters k = lvl_items iters' k) -> take l p = take l p' ->
  todo_upto iters p l = todo_upto iters' p' l /\ meas_upto iters p l = meas_upto iters' p' l.
Proof.
  revert p p'. induction l as [|l IH]; intros p p' Hi Hp; cbn [todo_upto meas_upto]; [done|].
  assert (take l p = take l p') as Hp'.
  { rewrite <- (take_take p l (S l)), <- (take_take p' l (S l)) in * || idtac.
    transitivity (take l (take (S l) p)); [rewrite take_take; f_equal; lia|].
    rewrite Hp, take_take. f_equal. lia. }
  destruct (IH p p') as [-> ->]; [intros; apply Hi; lia|done|]. rewrite (Hi l) by lia. by rewrite Hp'.
Qed.
Lemma todo_upto_empty iters p l m : l <= m -> (forall k, l <= k -> k < m -> lvl_items iters k = []) ->
  todo_upto iters p m = todo_upto iters p l /\ meas_upto iters p m = meas_upto iters p l.
Proof.
  induction 1 as [|m Hle IH]; intros H; [done|]. cbn [todo_upto meas_upto].
  rewrite (H m) by lia. cbn. apply IH. intros; apply H; lia.
Qed.

(** one visit at level [l], all deeper levels exhausted *)
Lemma iter_visit_ok it p l : iinv it p -> S l < D ->
  (forall k, l < k -> lvl_items (it_iters it) k = []) ->
  (exists it', iter_visit t s it l = Ok (it', None) /\ iinv it' p /\
     (forall k, l <= k -> lvl_items (it_iters it') k = []) /\
     todo_upto (it_iters it') p D = todo_upto (it_iters it) p D /\
     meas_upto (it_iters it') p D <= meas_upto (it_iters it) p D)
  \/ (exists it' p', iter_visit t s it l = Ok (it', Some ()) /\ iinv it' p' /\
     todo_upto (it_iters it') p' D = todo_upto (it_iters it) p D /\
     meas_upto (it_iters it') p' D < meas_upto (it_iters it) p D).
Proof.
  intros Hi Hl Hdeep. destruct Hi as [Hlen Hidx Hpl Hpok Hpre Hcur Hq Hd Htm].
  destruct (lookup_lt_is_Some_2 (it_iters it) l) as [q Hql]; [lia|].
  unfold iter_visit. rewrite (get_u_ok _ _ _ Hql), bind_ok.
  destruct (bq_next_ok nw q (Hq _ _ Hql)) as (q' & o & -> & Hq' & Ho & Ht). rewrite bind_ok.
  rewrite set_u_ok, bind_ok by lia.
  assert (lvl_items (it_iters it) l = bq_items q) as Hlv by (unfold lvl_items; by rewrite Hql).
  destruct o as [index|].
  - right. destruct (bq_items q) as [|x rest] eqn:Hitems; [done|]. cbn in Ho, Ht. injection Ho as <-.
    assert (l <= length p) as Hlp.
    { destruct (decide (l <= length p)) as [|Hn]; [done|]. rewrite Hd in Hlv by lia. done. }
    assert (tm (take l p) index = true) as Htmi by (apply Htm; [done|rewrite Hlv; left]).
    assert (length (take l p) = l) as Hltk by (rewrite take_length; lia).
    assert (path_ok nw l (take l p)) as Htok.
    { pose proof (path_ok_take nw _ p l Hpok) as H. by replace (l `min` length p) with l in H by lia. }
    rewrite set_u_ok, bind_ok by lia.
    destruct (l_selectS_u L s (it_cursor it) (take l p) index) as (c' & m & Hsel & Hmask & Hru).
    { done. } { by apply l_Ru_take. } { by rewrite Hltk. } { rewrite Hltk. lia. } { done. }
    rewrite Hltk in Hsel. rewrite Hsel, bind_ok.
    rewrite set_u_ok, bind_ok by (rewrite insert_length; lia).
    assert (index < msize nw)%N as Hindex by (apply (l_bound L s (take l p)); [done|by rewrite Hltk|rewrite Hltk; lia|done]).
    set (p' := take l p ++ [index]) in *.
    assert (length p' = S l) as Hlp' by (unfold p'; rewrite app_length, Hltk; cbn; lia).
    assert (path_ok nw (length p') p') as Hpok' by (rewrite Hlp'; by apply path_ok_snoc).
    destruct (into_bits_iter_ok nw m) as [Hmq Hmi]; [apply Hmask|apply nw_ok_pos, L|].
    assert (mbits m = kids p') as Hk by (apply kids_mask; [done|lia|done]).
    set (iters' := <[S l:=into_bits_iter m]> (<[l:=q']> (it_iters it))).
    assert (forall k, lvl_items iters' k = if decide (k = S l) then kids p' else if decide (k = l) then rest else lvl_items (it_iters it) k) as Hlv'.
    { intros k. unfold lvl_items, iters'. destruct (decide (k = S l)) as [->|].
      - rewrite list_lookup_insert by (rewrite insert_length; lia). by rewrite Hmi.
      - rewrite list_lookup_insert_ne by done. destruct (decide (k = l)) as [->|].
        + rewrite list_lookup_insert by lia. done.
        + by rewrite list_lookup_insert_ne by done. }
    eexists _, p'. split; [reflexivity|]. split; [|cbn [it_iters]; fold iters'].
    + constructor; cbn [it_iters it_indices it_cursor]; fold iters'.
      * unfold iters'. by rewrite !insert_length.
      * by rewrite insert_length.
      * lia.
      * done.
      * rewrite Hlp'. unfold p'.
        rewrite (take_S_r _ _ index) by (apply list_lookup_insert; lia).
        rewrite take_insert by lia. f_equal.
        transitivity (take l (take (length p) (it_indices it))); [rewrite take_take; f_equal; lia|by rewrite Hpre].
      * done.
      * intros k q0 Hk0. unfold iters' in Hk0. destruct (decide (k = S l)) as [->|].
        { rewrite list_lookup_insert in Hk0 by (rewrite insert_length; lia). by injection Hk0 as <-. }
        rewrite list_lookup_insert_ne in Hk0 by done. destruct (decide (k = l)) as [->|].
        { rewrite list_lookup_insert in Hk0 by lia. by injection Hk0 as <-. }
        rewrite list_lookup_insert_ne in Hk0 by done. by eapply Hq.
      * intros k Hkl. rewrite Hlv'. rewrite !decide_False by lia. apply Hdeep. lia.
      * intros k i Hkl Hin. rewrite Hlv' in Hin. destruct (decide (k = S l)) as [->|].
        { rewrite take_ge by lia. apply elem_of_kids in Hin; [done|done|lia]. }
        unfold p'. rewrite take_app_le, take_take by (rewrite Hltk; lia).
        replace (k `min` l) with k by lia.
        destruct (decide (k = l)) as [->|]; [|apply Htm; [lia|done]].
        apply Htm; [done|]. rewrite Hlv. by right.
    + assert (todo_upto iters' p' D = todo_upto iters' p' (S (S l)) /\
              meas_upto iters' p' D = meas_upto iters' p' (S (S l))) as [-> ->].
      { apply todo_upto_empty; [lia|]. intros k H1 H2. rewrite Hlv', !decide_False by lia. apply Hdeep. lia. }
      assert (todo_upto (it_iters it) p D = todo_upto (it_iters it) p (S l) /\
              meas_upto (it_iters it) p D = meas_upto (it_iters it) p (S l)) as [-> ->].
      { apply todo_upto_empty; [lia|]. intros k H1 H2. apply Hdeep. lia. }
      cbn [todo_upto meas_upto]. rewrite !Hlv', Hlv. rewrite decide_True by done.
      rewrite (decide_False (P := l = S l)) by lia. rewrite decide_True by done.
      destruct (todo_upto_ext iters' (it_iters it) p' p l) as [-> ->].
      { intros k Hk'. rewrite Hlv', !decide_False by lia. done. }
      { unfold p'. rewrite take_app_le by lia. rewrite take_take. f_equal. lia. }
      replace (take (S l) p') with p' by (symmetry; apply take_ge; lia).
      replace (take l p') with (take l p) by (unfold p'; rewrite take_app_le, take_take by lia; f_equal; lia).
      assert (D - S l = S (D - S (S l))) as HDl by lia.
      split.
      * rewrite bind_cons, HDl. cbn [leaves]. fold p'. by rewrite <- app_assoc.
      * cbn [fmap list_fmap sum_list]. rewrite HDl. cbn [weight]. fold p'. unfold id. lia.
  - left. assert (bq_items q = []) as Hnil by (destruct (bq_items q); done).
    rewrite Hnil in *. cbn in Ht.
    assert (forall k, lvl_items (<[l:=q']> (it_iters it)) k = lvl_items (it_iters it) k) as Hlv'.
    { intros k. unfold lvl_items. destruct (decide (k = l)) as [->|].
      - rewrite list_lookup_insert by lia. rewrite Hql. by rewrite Ht.
      - by rewrite list_lookup_insert_ne. }
    eexists. split; [reflexivity|]. cbn [it_iters]. split_and!.
    + constructor; cbn [it_iters it_indices it_cursor]; try done.
      * by rewrite insert_length.
      * intros k q0 Hk0. destruct (decide (k = l)) as [->|].
        { rewrite list_lookup_insert in Hk0 by lia. by injection Hk0 as <-. }
        rewrite list_lookup_insert_ne in Hk0 by done. by eapply Hq.
      * intros k Hk. rewrite Hlv'. by apply Hd.
      * intros k i Hk Hin. rewrite Hlv' in Hin. by apply Htm.
    + intros k Hk. rewrite Hlv'. destruct (decide (k = l)) as [->|]; [by rewrite Hlv|apply Hdeep; lia].
    + apply todo_upto_ext; [intros; apply Hlv'|done].
    + destruct (todo_upto_ext (<[l:=q']> (it_iters it)) (it_iters it) p p D) as [_ ->]; [intros; apply Hlv'|done|done].
Qed.

(** the reverse loop over levels *)
Lemma iter_rev_ok m it p : iinv it p -> m < D ->
  (forall k, m <= k -> lvl_items (it_iters it) k = []) ->
  (exists it', visit_list (rev (seq 0 m)) (iter_visit t s) it = Ok (it', None) /\ iinv it' p /\
     (forall k, lvl_items (it_iters it') k = []) /\ todo_upto (it_iters it) p D = [])
  \/ (exists it' p', visit_list (rev (seq 0 m)) (iter_visit t s) it = Ok (it', Some ()) /\ iinv it' p' /\
     todo_upto (it_iters it') p' D = todo_upto (it_iters it) p D /\
     meas_upto (it_iters it') p' D < meas_upto (it_iters it) p D).
Proof.
  revert it. induction m as [|m IH]; intros it Hi Hm Hdeep.
  - left. exists it. split_and!; [done|done|intros; apply Hdeep; lia|].
    destruct (todo_upto_empty (it_iters it) p 0 D) as [-> _]; [lia|intros; apply Hdeep; lia|done].
  - rewrite seq_S, rev_app_distr. cbn [rev app Nat.add visit_list].
    destruct (iter_visit_ok it p m Hi) as [(it' & -> & Hi' & Hd' & Ht & Hw)|(it' & p' & -> & Hi' & Ht & Hw)]; [lia|intros; apply Hdeep; lia| |].
    + rewrite bind_ok. destruct (IH it' Hi') as [(it2 & -> & Hi2 & Hd2 & Ht2)|(it2 & p2 & -> & Hi2 & Ht2 & Hw2)]; [lia|done| |].
      * left. exists it2. rewrite <- Ht. done.
      * right. exists it2, p2. rewrite Ht2. split_and!; [done|done|done|lia].
    + rewrite bind_ok. right. exists it', p'. done.
Qed.

Lemma iter_loop_ok fuel it p : iinv it p -> meas_upto (it_iters it) p D < fuel ->
  exists it' p' o, iter_loop fuel t s it = Ok (it', o) /\ iinv it' p' /\
    (match o with
     | None => todo_upto (it_iters it) p D = [] /\ (forall k, lvl_items (it_iters it') k = [])
     | Some i => length p' = D - 1 /\ tm p' i = true /\
        todo_upto (it_iters it) p D = (p' ++ [i]) :: todo_upto (it_iters it') p' D
     end) /\ meas_upto (it_iters it') p' D <= meas_upto (it_iters it) p D.
Proof.
  revert it p. induction fuel as [|fuel IH]; intros it p Hi Hf; [lia|].
  pose proof Hi as [Hlen Hidx Hpl Hpok Hpre Hcur Hq Hd Htm]. cbn [iter_loop]. rewrite Hlen.
  destruct (lookup_lt_is_Some_2 (it_iters it) (D - 1)) as [q Hql]; [lia|].
  unfold get_c. rewrite Hql, bind_ok.
  destruct (bq_next_ok nw q (Hq _ _ Hql)) as (q' & o & -> & Hq' & Ho & Ht). rewrite bind_ok.
  assert (lvl_items (it_iters it) (D - 1) = bq_items q) as Hlv by (unfold lvl_items; by rewrite Hql).
  assert (forall k, lvl_items (<[D - 1:=q']> (it_iters it)) k = if decide (k = D - 1) then tail (bq_items q) else lvl_items (it_iters it) k) as Hlv'.
  { intros k. unfold lvl_items. destruct (decide (k = D - 1)) as [->|].
    - rewrite list_lookup_insert by lia. done.
    - by rewrite list_lookup_insert_ne. }
  assert (iinv (Iter (<[D - 1:=q']> (it_iters it)) (it_indices it) (it_cursor it)) p) as Hi'.
  { constructor; cbn [it_iters it_indices it_cursor]; try done.
    - by rewrite insert_length.
    - intros k q0 Hk0. destruct (decide (k = D - 1)) as [->|].
      { rewrite list_lookup_insert in Hk0 by lia. by injection Hk0 as <-. }
      rewrite list_lookup_insert_ne in Hk0 by done. by eapply Hq.
    - intros k Hk. rewrite Hlv'. destruct (decide (k = D - 1)) as [->|]; [|by apply Hd].
      rewrite <- Hlv, Hd by done. done.
    - intros k i Hk Hin. rewrite Hlv' in Hin. destruct (decide (k = D - 1)) as [->|]; [|by apply Htm].
      apply Htm; [done|]. rewrite Hlv. destruct (bq_items q); [done|by right]. }
  assert (forall iters pp, todo_upto iters pp D = (lvl_items iters (D - 1) ≫= (fun i => leaves 0 (take (D - 1) pp ++ [i]))) ++ todo_upto iters pp (D - 1)
     /\ meas_upto iters pp D = sum_list ((fun i => weight 0 (take (D - 1) pp ++ [i])) <$> lvl_items iters (D - 1)) + meas_upto iters pp (D - 1)) as HD.
  { intros iters pp. pose proof (l_depth L). 
    replace (todo_upto iters pp D) with (todo_upto iters pp (S (D - 1))) by (f_equal; lia).
    replace (meas_upto iters pp D) with (meas_upto iters pp (S (D - 1))) by (f_equal; lia). cbn [todo_upto meas_upto].
    by replace (D - S (D - 1)) with 0 by lia. }
  destruct o as [index|].
  - destruct (bq_items q) as [|x rest] eqn:Hitems; [done|]. cbn in Ho. injection Ho as <-.
    assert (length p = D - 1) as Hlp.
    { destruct (decide (length p < D - 1)) as [Hc|]; [|lia]. rewrite Hd in Hlv by done. done. }
    eexists _, p, (Some index). split; [reflexivity|]. split; [done|]. cbn [it_iters].
    destruct (HD (it_iters it) p) as [-> ->]. destruct (HD (<[D - 1:=q']> (it_iters it)) p) as [-> ->].
    rewrite Hlv', Hlv. rewrite decide_True by done. cbn [tail].
    destruct (todo_upto_ext (<[D - 1:=q']> (it_iters it)) (it_iters it) p p (D - 1)) as [-> ->].
    { intros k Hk. rewrite Hlv', decide_False by lia. done. } { done. }
    split; [split_and!|].
    + done.
    + rewrite <- (take_ge p (D - 1)) by lia. apply Htm; [lia|]. rewrite Hlv. left.
    + rewrite bind_cons. cbn [leaves app]. rewrite (take_ge p) by lia. done.
    + cbn [fmap list_fmap sum_list weight]. unfold id. lia.
  - assert (bq_items q = []) as Hnil by (destruct (bq_items q); done).
    rewrite Hnil in *. cbn [tail] in Hlv'.
    set (it1 := Iter (<[D - 1:=q']> (it_iters it)) (it_indices it) (it_cursor it)) in *.
    rewrite const_for_rev_0.
    destruct (todo_upto_ext (it_iters it1) (it_iters it) p p D) as [Ht1 Hm1]; [|done|].
    { intros k Hk. cbn [it_iters it1]. rewrite Hlv'. destruct (decide (k = D - 1)) as [->|]; [by rewrite Hlv|done]. }
    destruct (iter_rev_ok (D - 1) it1 p Hi') as [(it2 & -> & Hi2 & Hd2 & Ht2)|(it2 & p2 & -> & Hi2 & Ht2 & Hw2)].
    + lia.
    + intros k Hk. cbn [it_iters it1]. rewrite Hlv'. destruct (decide (k = D - 1)) as [->|]; [done|]. apply Hd. lia.
    + rewrite bind_ok. eexists it2, p, None. split; [done|]. split; [done|]. split.
      * rewrite <- Ht1. done.
      * destruct (todo_upto_empty (it_iters it2) p 0 D) as [_ ->]; [lia|intros; apply Hd2|]. cbn [meas_upto]. lia.
    + rewrite bind_ok. rewrite Ht1 in Ht2. destruct (IH it2 p2 Hi2) as (it3 & p3 & o3 & -> & Hi3 & Ho3 & Hw3); [lia|].
      exists it3, p3, o3. rewrite <- Ht2. split_and!; [done|done|done|lia].
Qed.

(** ** next and drain *)
Definition entry (q : list N) : option (N * t_V t) := v ← sem q; Some (key_of_path nw q, v).

Lemma iter_next_ok fuel it p : iinv it p -> meas_upto (it_iters it) p D < fuel ->
  exists it' p' o, iter_next fuel t s it = Ok (it', o) /\ iinv it' p' /\
    (match o with
     | None => todo_upto (it_iters it) p D = [] /\ (forall k, lvl_items (it_iters it') k = [])
     | Some (k, v) => exists q, path_ok nw D q /\ k = key_of_path nw q /\ sem q = Some v /\
         todo_upto (it_iters it) p D = q :: todo_upto (it_iters it') p' D
     end) /\ meas_upto (it_iters it') p' D <= meas_upto (it_iters it) p D.
Proof.
  intros Hi Hf. destruct (iter_loop_ok fuel it p Hi Hf) as (it' & p' & o & Hloop & Hi' & Ho & Hm).
  unfold iter_next. rewrite Hloop, bind_ok. destruct o as [i|].
  - destruct Ho as (Hl & Htm & Htodo). pose proof (l_depth L) as HD0.
    assert (path_ok nw (D - 1) p') as Hpok by (rewrite <- Hl; apply Hi').
    assert (i < msize nw)%N as Hib by (eapply l_bound; eauto; [apply Hi'|lia]).
    destruct (l_terminal L s p' i Hwf Hpok Htm) as [v Hv].
    rewrite (l_cdata_u L s (it_cursor it') p' i v) by (done || apply Hi').
    rewrite bind_ok.
    assert (it_indices it' = p') as Hidx.
    { rewrite <- (ii_pre it' p' Hi'). symmetry. apply take_ge. rewrite (ii_idx it' p' Hi'). lia. }
    rewrite Hidx, data_block_index_ok, bind_ok by (done || apply L).
    eexists it', p', _. split; [reflexivity|]. split; [done|]. split; [|done].
    exists (p' ++ [i]). split_and!; [|done|done|done].
    replace D with (S (D - 1)) by lia. by apply path_ok_snoc.
  - exists it', p', None. done.
Qed.

Lemma iter_drain_ok fuel it p : iinv it p ->
  meas_upto (it_iters it) p D + length (todo_upto (it_iters it) p D) < fuel ->
  exists it' p' l, iter_drain fuel t s it = Ok (it', l) /\ iinv it' p' /\
    (forall k, lvl_items (it_iters it') k = []) /\
    Some <$> l = entry <$> todo_upto (it_iters it) p D.
Proof.
  revert it p. induction fuel as [|fuel IH]; intros it p Hi Hf; [lia|]. cbn [iter_drain].
  destruct (iter_next_ok (S fuel) it p Hi) as (it' & p' & o & -> & Hi' & Ho & Hm); [lia|]. rewrite bind_ok.
  destruct o as [[k v]|].
  - destruct Ho as (q & Hq & -> & Hv & Htodo). rewrite Htodo in Hf. cbn [length] in Hf.
    destruct (IH it' p' Hi') as (it2 & p2 & l & -> & Hi2 & Hd2 & Hl); [lia|].
    rewrite bind_ok. eexists it2, p2, _. split; [reflexivity|]. split_and!; [done|done|].
    rewrite Htodo. cbn [fmap list_fmap]. rewrite <- Hl. f_equal. unfold entry. by rewrite Hv.
  - destruct Ho as [-> Hd]. exists it', p', []. done.
Qed.

Lemma iter_new_ok : exists it, iter_new t s = Ok it /\ iinv it [] /\
  todo_upto (it_iters it) [] D = leaves D [].
Proof.
  pose proof (l_depth L) as HD0. pose proof (l_nw L) as Hnw.
  unfold iter_new. destruct (l_new L s Hwf) as (c & -> & Hc). rewrite bind_ok.
  destruct (l_select0_u L s c Hwf Hc) as (c' & m & -> & Hmask & Hru). rewrite bind_ok.
  rewrite decide_True by done. eexists. split; [reflexivity|].
  destruct (into_bits_iter_ok nw m) as [Hmq Hmi]; [apply Hmask|by apply nw_ok_pos|].
  destruct (bq_empty_ok nw) as [He1 He2]; [by apply nw_ok_pos|].
  assert (mbits m = kids []) as Hk by (apply kids_mask; [apply path_ok_nil|done|done]).
  assert (forall k, lvl_items (<[0:=into_bits_iter m]> (replicate D (bq_empty nw))) k = if decide (k = 0) then kids [] else []) as Hlv.
  { intros k. unfold lvl_items. destruct (decide (k = 0)) as [->|].
    - rewrite list_lookup_insert by (by rewrite replicate_length). by rewrite Hmi.
    - rewrite list_lookup_insert_ne by done. destruct (replicate _ _ !! k) eqn:E; [|done].
      by apply lookup_replicate in E as [-> _]. }
  split.
  - constructor; cbn [it_iters it_indices it_cursor length].
    + by rewrite insert_length, replicate_length.
    + by rewrite replicate_length.
    + done.
    + apply path_ok_nil.
    + by rewrite take_0.
    + done.
    + intros l q Hl. destruct (decide (l = 0)) as [->|].
      * rewrite list_lookup_insert in Hl by (by rewrite replicate_length). by injection Hl as <-.
      * rewrite list_lookup_insert_ne in Hl by done. by apply lookup_replicate in Hl as [-> _].
    + intros l Hl. rewrite Hlv, decide_False by lia. done.
    + intros l i Hl Hin. replace l with 0 in * by lia. rewrite Hlv in Hin. cbn in Hin.
      apply elem_of_kids in Hin; [done|apply path_ok_nil|done].
  - cbn [it_iters]. destruct (todo_upto_empty (<[0:=into_bits_iter m]> (replicate D (bq_empty nw))) [] 1 D) as [-> _].
    { lia. } { intros k H1 H2. rewrite Hlv, decide_False by lia. done. }
    cbn [todo_upto]. rewrite Hlv, app_nil_r. cbn [take app decide].
    destruct D as [|d]; [lia|]. cbn [leaves]. by replace (S d - 1) with d by lia.
Qed.
End iter.

(** ** Main theorem *)
Theorem iter_collect_ok {t} (L : lawful t) s : l_wf L s ->
  exists n l, (forall fuel, n <= fuel -> iter_collect fuel t s = Ok l) /\
    StronglySorted N.lt (fst <$> l) /\
    (forall k v, (k, v) ∈ l <->
      (k < msize (t_nw t) ^ N.of_nat (t_depth t))%N /\ l_at L s k = Some v).
Proof.
  intros Hwf. pose proof (l_depth L) as HD0. pose proof (l_nw L) as Hnw.
  destruct (iter_new_ok L s Hwf) as (it & Hnew & Hi & Htodo).
  set (bound := meas_upto L s (it_iters it) [] (t_depth t) + length (todo_upto L s (it_iters it) [] (t_depth t))).
  assert (exists l, Some <$> l = entry L s <$> leaves L s (t_depth t) []) as [l Hl].
  { destruct (iter_drain_ok L s Hwf (S bound) it [] Hi) as (it' & p' & l & _ & _ & _ & Hl); [unfold bound; lia|].
    exists l. by rewrite Htodo in Hl. }
  exists (S bound), l. split_and!.
  - intros fuel Hf. unfold iter_collect. rewrite Hnew, bind_ok.
    destruct (iter_drain_ok L s Hwf fuel it [] Hi) as (it' & p' & l' & -> & _ & _ & Hl'); [unfold bound in Hf; lia|].
    rewrite bind_ok. f_equal. rewrite Htodo, <- Hl in Hl'.
    apply (fmap_inj Some) in Hl'; [done|]. intros ? ?. by injection 1.
  - assert (fst <$> l = key_of_path (t_nw t) <$> leaves L s (t_depth t) []) as ->.
    { clear -Hl. revert l Hl. generalize (leaves L s (t_depth t) []). intros qs. induction qs as [|q qs IH]; intros [|[k v] l] Hl; try done.
      rewrite !fmap_cons in *. injection Hl as Hq Hl. f_equal; [|by apply IH].
      unfold entry in Hq. destruct (l_sem L s q); [|done]. cbn in Hq. by injection Hq. }
    apply leaves_sorted; [done|done|apply path_ok_nil].
  - intros k v.
    assert ((k, v) ∈ l <-> exists q, q ∈ leaves L s (t_depth t) [] /\ entry L s q = Some (k, v)) as ->.
    { transitivity (Some (k, v) ∈ Some <$> l).
      - rewrite elem_of_list_fmap. split; [eauto|]. intros (y & Hy & ?). by injection Hy as <-.
      - rewrite Hl, elem_of_list_fmap. split; intros (q & ? & ?); eauto. }
    split.
    + intros (q & Hin & He). apply elem_of_leaves in Hin as (r & -> & _ & Hok); [|done|done|apply path_ok_nil].
      cbn [app] in *. unfold entry in He. destruct (l_sem L s r) as [v'|] eqn:Hv; [|done]. cbn in He.
      injection He as <- <-. split; [by apply path_ok_bound|]. unfold l_at. by rewrite level_indices_of_path.
    + intros [Hk Hv]. destruct (level_indices_ok (t_nw t) (t_depth t) k) as [Hok Hkey]; [done..|].
      exists (level_indices (t_nw t) (t_depth t) k). split.
      * apply (leaves_complete L s Hwf _ []); [done|done|]. cbn [app]. by eexists.
      * unfold entry. unfold l_at in Hv. rewrite Hv. cbn. by rewrite Hkey.
Qed.

(** ** Any number of calls of `next`, also past the end *)
Lemma iter_poll_ok_aux {t} (L : lawful t) s (Hwf : l_wf L s) fuel m it p qs l :
  iinv L s it p -> todo_upto L s (it_iters it) p (t_depth t) = qs ->
  meas_upto L s (it_iters it) p (t_depth t) < fuel -> Some <$> l = entry L s <$> qs ->
  exists it', iter_poll fuel m t s it = Ok (it', take m ((Some <$> l) ++ replicate m None)).
Proof.
  revert it p qs l. induction m as [|m IH]; intros it p qs l Hi Hqs Hf Hl; cbn [iter_poll].
  { eexists. done. }
  destruct (iter_next_ok L s Hwf fuel it p Hi Hf) as (it' & p' & o & -> & Hi' & Ho & Hm). rewrite bind_ok.
  destruct o as [[k v]|].
  - destruct Ho as (q & Hq & -> & Hv & Htodo). rewrite Hqs in Htodo. subst qs. rewrite Htodo in Hl.
    rewrite fmap_cons in Hl. destruct l as [|x l]; [done|]. rewrite fmap_cons in Hl. injection Hl as Hx Hl.
    destruct (IH it' p' _ l Hi' eq_refl) as [it2 ->]; [lia|done|]. rewrite bind_ok.
    eexists. do 2 f_equal. rewrite fmap_cons, <- app_comm_cons. cbn [take]. f_equal.
    + unfold entry in Hx. rewrite Hv in Hx. cbn in Hx. by injection Hx as ->.
    + rewrite (replicate_S_end m), app_assoc.
      rewrite (take_app_le (_ ++ _)); [done|]. rewrite app_length, replicate_length. lia.
  - destruct Ho as [Hnil Hd]. rewrite Hnil in Hqs. subst qs. rewrite fmap_nil in Hl. destruct l; [|done].
    destruct (todo_upto_empty L s (it_iters it') p' 0 (t_depth t)) as [Ht Hms]; [lia|intros; apply Hd|].
    destruct (IH it' p' [] [] Hi') as [it2 ->]; [done|lia|done|]. rewrite bind_ok. eexists. done.
Qed.

(** The first [m] calls of `next` return the content in order and then only [None]. *)
Theorem iter_poll_ok {t} (L : lawful t) s : l_wf L s ->
  exists n l, (forall fuel, n <= fuel -> iter_collect fuel t s = Ok l) /\
    forall m fuel, n <= fuel -> exists it it', iter_new t s = Ok it /\
      iter_poll fuel m t s it = Ok (it', take m ((Some <$> l) ++ replicate m None)).
Proof.
  intros Hwf. destruct (iter_new_ok L s Hwf) as (it & Hnew & Hi & Htodo).
  set (bound := meas_upto L s (it_iters it) [] (t_depth t) + length (todo_upto L s (it_iters it) [] (t_depth t))).
  destruct (iter_drain_ok L s Hwf (S bound) it [] Hi) as (it1 & p1 & l & _ & _ & _ & Hl); [unfold bound; lia|].
  exists (S bound), l. split.
  - intros fuel Hf. unfold iter_collect. rewrite Hnew, bind_ok.
    destruct (iter_drain_ok L s Hwf fuel it [] Hi) as (it' & p' & l' & -> & _ & _ & Hl'); [unfold bound in Hf; lia|].
    rewrite bind_ok. f_equal. rewrite <- Hl in Hl'. apply (fmap_inj Some) in Hl'; [done|]. intros ? ?. by injection 1.
  - intros m fuel Hf. exists it.
    destruct (iter_poll_ok_aux L s Hwf fuel m it [] _ l Hi eq_refl) as [it' Hp]; [unfold bound in Hf; lia|done|].
    exists it'. done.
Qed.
