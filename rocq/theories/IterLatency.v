(** * How many nodes one call of `next` selects (src/iter.rs:86-147)
    In a hierarchy without dead ends - every selected node but the root has a child - a call of `next` climbs up once
    and then goes straight down: it selects at most one node of each level below the root. *)
From Verif Require Import Base BitUtils BitUtilsProofs BitQueue BitQueueProofs LevelIndices LevelIndicesProofs ConstLoops
  Hierarchy Lawful IterProofs IterCost Generic.

Section latency.
Context {t : tree} (L : lawful t) (s : t_T t) (Hwf : l_wf L s).
Notation nw := (t_nw t).
Notation D := (t_depth t).
Local Notation tm := (l_tm L s).
Local Notation kids := (kids L s).
Context (cnt : t_C t -> nat).
Hypothesis Hcnt : forall c p i c' m, l_Ru L s c p -> S (length p) < D -> t_select_u t s c (S (length p)) i = Ok (c', m) -> cnt c' = S (cnt c).
Hypothesis Hlive : forall p i, path_ok nw (length p) p -> S (length p) < D -> tm p i = true -> kids (p ++ [i]) <> [].
Notation lc it := (cnt (it_cursor it)).

Lemma visit_latency it p l : iinv L s it p -> S l < D -> (forall k, l < k -> lvl_items (it_iters it) k = []) ->
  (lvl_items (it_iters it) l = [] /\ exists it', iter_visit t s it l = Ok (it', None) /\ iinv L s it' p /\
     (forall k, lvl_items (it_iters it') k = lvl_items (it_iters it) k) /\ lc it' = lc it)
  \/ (lvl_items (it_iters it) l <> [] /\ exists it' p', iter_visit t s it l = Ok (it', Some ()) /\ iinv L s it' p' /\
     lvl_items (it_iters it') (S l) <> [] /\ (forall k, S l < k -> lvl_items (it_iters it') k = []) /\ lc it' = S (lc it)).
Proof using Hcnt Hlive Hwf.
  intros Hi Hl Hdeep. destruct Hi as [Hlen Hidx Hpl Hpok Hpre Hcur Hq Hd Htm].
  destruct (lookup_lt_is_Some_2 (it_iters it) l) as [q Hql]; [lia|].
  unfold iter_visit. rewrite (get_u_ok _ _ _ Hql), bind_ok.
  destruct (bq_next_ok nw q (Hq _ _ Hql)) as (q' & o & -> & Hq' & Ho & Ht). rewrite bind_ok.
  rewrite set_u_ok, bind_ok by lia.
  assert (lvl_items (it_iters it) l = bq_items q) as Hlv by (unfold lvl_items; by rewrite Hql).
  destruct o as [index|].
  - right. destruct (bq_items q) as [|x rest] eqn:Hitems; [done|]. cbn in Ho, Ht. injection Ho as <-.
    split; [by rewrite Hlv|].
    assert (l <= length p) as Hlp.
    { destruct (decide (l <= length p)) as [|Hn]; [done|]. rewrite Hd in Hlv by lia. done. }
    assert (tm (take l p) index = true) as Htmi by (apply Htm; [done|rewrite Hlv; left]).
    assert (length (take l p) = l) as Hltk by (rewrite take_length; lia).
    assert (path_ok nw l (take l p)) as Htok.
    { pose proof (path_ok_take nw _ p l Hpok) as H. by replace (l `min` length p) with l in H by lia. }
    rewrite set_u_ok, bind_ok by lia.
    destruct (l_selectS_u L s (it_cursor it) (take l p) index) as (c' & m & Hsel & Hmask & Hru).
    { done. } { by apply l_Ru_take. } { by rewrite Hltk. } { rewrite Hltk. lia. } { done. }
    pose proof (Hcnt _ _ _ _ _ (l_Ru_take L _ _ _ l Hcur) ltac:(rewrite Hltk; lia) Hsel) as Hlog.
    rewrite Hltk in Hsel. rewrite Hsel, bind_ok.
    rewrite set_u_ok, bind_ok by (rewrite insert_length; lia).
    assert (index < msize nw)%N as Hindex by (apply (l_bound L s (take l p)); [done|by rewrite Hltk|rewrite Hltk; lia|done]).
    assert (kids (take l p ++ [index]) <> []) as Hne by (apply Hlive; [by rewrite Hltk|rewrite Hltk; lia|done]).
    set (p' := take l p ++ [index]) in *.
    assert (length p' = S l) as Hlp' by (unfold p'; rewrite app_length, Hltk; cbn; lia).
    assert (path_ok nw (length p') p') as Hpok' by (rewrite Hlp'; by apply path_ok_snoc).
    destruct (into_bits_iter_ok nw m) as [Hmq Hmi]; [apply Hmask|apply nw_ok_pos, L|].
    assert (mbits m = kids p') as Hk by (apply (kids_mask L s Hwf); [done|lia|done]).
    set (iters' := <[S l:=into_bits_iter m]> (<[l:=q']> (it_iters it))).
    assert (forall k, lvl_items iters' k = if decide (k = S l) then kids p' else if decide (k = l) then rest else lvl_items (it_iters it) k) as Hlv'.
    { intros k. unfold lvl_items, iters'. destruct (decide (k = S l)) as [->|].
      - rewrite list_lookup_insert by (rewrite insert_length; lia). by rewrite Hmi.
      - rewrite list_lookup_insert_ne by done. destruct (decide (k = l)) as [->|].
        + rewrite list_lookup_insert by lia. done.
        + by rewrite list_lookup_insert_ne by done. }
    eexists _, p'. split; [reflexivity|]. split; [|cbn [it_iters it_cursor]; fold iters'; split; [|split]].
    + constructor; cbn [it_iters it_indices it_cursor]; fold iters'.
      * unfold iters'. by rewrite !insert_length.
      * by rewrite insert_length.
      * lia.
      * done.
      * rewrite Hlp'. unfold p'.
        rewrite (take_S_r _ _ index) by (apply list_lookup_insert; lia).
        rewrite take_insert by lia. f_equal.
        transitivity (take l (take (length p) (it_indices it))); [rewrite take_take; f_equal; lia|by rewrite Hpre].
      * done.
      * intros k q0 Hk0. unfold iters' in Hk0. destruct (decide (k = S l)) as [->|].
        { rewrite list_lookup_insert in Hk0 by (rewrite insert_length; lia). by injection Hk0 as <-. }
        rewrite list_lookup_insert_ne in Hk0 by done. destruct (decide (k = l)) as [->|].
        { rewrite list_lookup_insert in Hk0 by lia. by injection Hk0 as <-. }
        rewrite list_lookup_insert_ne in Hk0 by done. by eapply Hq.
      * intros k Hkl. rewrite Hlv'. rewrite !decide_False by lia. apply Hdeep. lia.
      * intros k i Hkl Hin. rewrite Hlv' in Hin. destruct (decide (k = S l)) as [->|].
        { rewrite take_ge by lia. apply (elem_of_kids L s Hwf) in Hin; [done|done|lia]. }
        unfold p'. rewrite take_app_le, take_take by (rewrite Hltk; lia).
        replace (k `min` l) with k by lia.
        destruct (decide (k = l)) as [->|]; [|apply Htm; [lia|done]].
        apply Htm; [done|]. rewrite Hlv. by right.
    + rewrite Hlv', decide_True by done. exact Hne.
    + intros k Hk'. rewrite Hlv', !decide_False by lia. apply Hdeep. lia.
    + exact Hlog.
  - left. assert (bq_items q = []) as Hnil by (destruct (bq_items q); done).
    rewrite Hnil in *. cbn in Ht. split; [done|].
    assert (forall k, lvl_items (<[l:=q']> (it_iters it)) k = lvl_items (it_iters it) k) as Hlv'.
    { intros k. unfold lvl_items. destruct (decide (k = l)) as [->|].
      - rewrite list_lookup_insert by lia. rewrite Hql. by rewrite Ht.
      - by rewrite list_lookup_insert_ne. }
    eexists. split; [reflexivity|]. cbn [it_iters it_cursor]. split; [|split; [exact Hlv'|done]].
    constructor; cbn [it_iters it_indices it_cursor]; try done.
    + by rewrite insert_length.
    + intros k q0 Hk0. destruct (decide (k = l)) as [->|].
      { rewrite list_lookup_insert in Hk0 by lia. by injection Hk0 as <-. }
      rewrite list_lookup_insert_ne in Hk0 by done. by eapply Hq.
    + intros k Hk. rewrite Hlv'. by apply Hd.
    + intros k i Hk Hin. rewrite Hlv' in Hin. by apply Htm.
Qed.

(** the climb: to the deepest level below [m] that is not exhausted *)
Lemma rev_latency m it p : iinv L s it p -> m < D -> (forall k, m <= k -> lvl_items (it_iters it) k = []) ->
  (exists it', visit_list (rev (seq 0 m)) (iter_visit t s) it = Ok (it', None) /\ iinv L s it' p /\
     (forall k, lvl_items (it_iters it) k = []) /\ (forall k, lvl_items (it_iters it') k = []) /\ lc it' = lc it)
  \/ (exists l it' p', visit_list (rev (seq 0 m)) (iter_visit t s) it = Ok (it', Some ()) /\ l < m /\ (lvl_items (it_iters it) l <> [] /\ forall k, l < k -> lvl_items (it_iters it) k = []) /\ iinv L s it' p' /\
     lvl_items (it_iters it') (S l) <> [] /\ (forall k, S l < k -> lvl_items (it_iters it') k = []) /\ lc it' = S (lc it)).
Proof using Hcnt Hlive Hwf.
  revert it. induction m as [|m IH]; intros it Hi Hm Hdeep.
  - left. exists it. split; [done|]. split; [done|]. split; [intros; apply Hdeep; lia|]. split; [intros; apply Hdeep; lia|done].
  - rewrite seq_S, rev_app_distr. cbn [rev app Nat.add visit_list].
    destruct (visit_latency it p m Hi) as [(Hnil & it' & -> & Hi' & Hsame & Hc)|(Hne & it' & p' & -> & Hi' & Hn' & Hd' & Hc)]; [lia|intros; apply Hdeep; lia| |].
    + rewrite bind_ok. destruct (IH it' Hi') as [(it2 & -> & Hi2 & Hd1 & Hd2 & Hc2)|(l & it2 & p2 & -> & Hl & Hne & Hi2 & Hn2 & Hd2 & Hc2)]; [lia| | |].
      * intros k Hk. rewrite Hsame. destruct (decide (k = m)) as [->|]; [done|apply Hdeep; lia].
      * left. exists it2. split; [done|]. split; [done|]. split; [intros k; rewrite <- Hsame; apply Hd1|]. split; [done|]. by rewrite Hc2.
      * right. exists l, it2, p2. split; [done|]. split; [lia|]. split; [destruct Hne as [Hne Hg]; split; [by rewrite <- Hsame|intros k Hk; rewrite <- Hsame; by apply Hg]|]. split; [done|]. split; [done|]. split; [done|]. by rewrite Hc2, Hc.
    + rewrite bind_ok. right. exists m, it', p'. split; [done|]. split; [lia|]. split; [split; [done|intros; apply Hdeep; lia]|done].
Qed.

(** the descent: from a state whose deepest level that is not exhausted is [l], one selection per level below [l] *)
Lemma loop_latency fuel : forall it p it' o, iinv L s it p -> iter_loop fuel t s it = Ok (it', o) ->
  lc it' <= lc it + (D - 1) /\ forall l, l < D -> lvl_items (it_iters it) l <> [] -> (forall k, l < k -> lvl_items (it_iters it) k = []) -> lc it' = lc it + (D - 1 - l).
Proof using Hcnt Hlive Hwf.
  induction fuel as [|fuel IH]; intros it p it' o Hi E; [done|].
  pose proof Hi as [Hlen Hidx Hpl Hpok Hpre Hcur Hq Hd Htm]. cbn [iter_loop] in E. rewrite Hlen in E. pose proof (l_depth L) as HD0.
  destruct (lookup_lt_is_Some_2 (it_iters it) (D - 1)) as [q Hql]; [lia|].
  unfold get_c in E. rewrite Hql, bind_ok in E.
  destruct (bq_next_ok nw q (Hq _ _ Hql)) as (q' & o' & Hnext & Hq' & Ho & Ht). rewrite Hnext, bind_ok in E.
  assert (lvl_items (it_iters it) (D - 1) = bq_items q) as Hlv by (unfold lvl_items; by rewrite Hql).
  destruct o' as [index|].
  - injection E as <- <-. cbn [it_cursor]. split; [lia|]. intros l Hl Hne Hdeep.
    assert (l = D - 1) as ->; [|lia]. destruct (decide (l < D - 1)) as [Hlt|]; [|lia]. rewrite (Hdeep (D - 1) Hlt) in Hlv. rewrite <- Hlv in Ho. done.
  - assert (bq_items q = []) as Hnil by (destruct (bq_items q); done). rewrite Hnil in *. cbn [tail] in Ht.
    set (it1 := Iter (<[D - 1:=q']> (it_iters it)) (it_indices it) (it_cursor it)) in *.
    assert (forall k, lvl_items (it_iters it1) k = lvl_items (it_iters it) k) as Hk1.
    { intros k. unfold lvl_items, it1. cbn [it_iters]. destruct (decide (k = D - 1)) as [->|].
      - rewrite list_lookup_insert by lia. rewrite Hql. by rewrite Ht.
      - by rewrite list_lookup_insert_ne. }
    assert (iinv L s it1 p) as Hi1.
    { constructor; cbn [it1 it_iters it_indices it_cursor]; try done.
      - by rewrite insert_length.
      - intros k q0 Hk0. destruct (decide (k = D - 1)) as [->|].
        { rewrite list_lookup_insert in Hk0 by lia. by injection Hk0 as <-. }
        rewrite list_lookup_insert_ne in Hk0 by done. by eapply Hq.
      - intros k Hk. change (lvl_items (it_iters it1) k = []). rewrite Hk1. by apply Hd.
      - intros k i Hk Hin. change (i ∈ lvl_items (it_iters it1) k) in Hin. rewrite Hk1 in Hin. by apply Htm. }
    rewrite const_for_rev_0 in E.
    destruct (rev_latency (D - 1) it1 p Hi1) as [(it2 & Hv & Hi2 & Hd1 & Hd2 & Hc2)|(l & it2 & p2 & Hv & Hl & [Hne Hg] & Hi2 & Hn2 & Hd2 & Hc2)].
    + lia.
    + intros k Hk. rewrite Hk1. destruct (decide (k = D - 1)) as [->|]; [done|]. apply Hd. lia.
    + rewrite Hv, bind_ok in E. injection E as <- <-. rewrite Hc2. cbn [it1 it_cursor]. split; [lia|].
      intros l _ Hne _. destruct Hne. rewrite <- Hk1. apply Hd1.
    + rewrite Hv, bind_ok in E. destruct (IH it2 p2 it' o Hi2 E) as [_ IH2]. specialize (IH2 (S l) ltac:(lia) Hn2 Hd2).
      rewrite Hc2 in IH2. cbn [it1 it_cursor] in IH2. split; [lia|]. intros l' Hl' Hne' Hdeep'.
      assert (l' = l) as ->; [|lia]. rewrite Hk1 in Hne.
      destruct (decide (l' < l)) as [Hlt|]; [by rewrite (Hdeep' l Hlt) in Hne|].
      destruct (decide (l < l')) as [Hlt|]; [|lia]. destruct Hne'. rewrite <- Hk1. by apply Hg.
Qed.
Lemma next_latency fuel it p it' o : iinv L s it p -> iter_next fuel t s it = Ok (it', o) -> lc it' <= lc it + (D - 1).
Proof using Hcnt Hlive Hwf.
  intros Hi E. unfold iter_next in E. apply bind_ok_inv in E as ([it1 o1] & E1 & E). destruct (loop_latency _ _ _ _ _ Hi E1) as [H _].
  destruct o1 as [li|].
  - apply bind_ok_inv in E as (v & _ & E). apply bind_ok_inv in E as (bi & _ & E). by injection E as <- <-.
  - by injection E as <- <-.
Qed.
(** .. after any number of calls *)
Lemma poll_latency fuel m it p it' os : iinv L s it p -> meas_upto L s (it_iters it) p D < fuel ->
  iter_poll fuel m t s it = Ok (it', os) -> exists it2 o, iter_next fuel t s it' = Ok (it2, o) /\ lc it2 <= lc it' + (D - 1).
Proof using Hcnt Hlive Hwf.
  revert it p os. induction m as [|m IH]; intros it p os Hi Hf E; cbn [iter_poll] in E.
  - injection E as <- <-. destruct (iter_next_ok L s Hwf fuel it p Hi Hf) as (it2 & p2 & o & E2 & _).
    exists it2, o. split; [exact E2|]. by eapply next_latency.
  - apply bind_ok_inv in E as ([it1 o1] & E1 & E). apply bind_ok_inv in E as ([it2 l2] & E2 & E). injection E as <- <-.
    destruct (iter_next_ok L s Hwf fuel it p Hi Hf) as (it1' & p1 & o1' & E1' & Hi1 & _ & Hm).
    rewrite E1 in E1'. injection E1' as <- <-. eapply IH; [exact Hi1| |exact E2]. lia.
Qed.
Lemma poll_count fuel m it p it' os : iinv L s it p -> meas_upto L s (it_iters it) p D < fuel ->
  iter_poll fuel m t s it = Ok (it', os) -> lc it' <= lc it + m * (D - 1).
Proof using Hcnt Hlive Hwf.
  revert it p os. induction m as [|m IH]; intros it p os Hi Hf E; cbn [iter_poll] in E.
  - injection E as <- <-. lia.
  - apply bind_ok_inv in E as ([it1 o1] & E1 & E). apply bind_ok_inv in E as ([it2 l2] & E2 & E). injection E as <- <-.
    destruct (iter_next_ok L s Hwf fuel it p Hi Hf) as (it1' & p1 & o1' & E1' & Hi1 & _ & Hm).
    pose proof (next_latency _ _ _ _ _ Hi E1) as H1. rewrite E1 in E1'. injection E1' as <- <-.
    pose proof (IH it1 p1 l2 Hi1 ltac:(lia) E2) as H2. cbn [Nat.mul]. lia.
Qed.
End latency.

(** no dead ends in an exact hierarchy *)
Lemma exact_live {t} (L : lawful t) s : l_wf L s -> hierarchy_exact (fun _ => False) L s ->
  forall p i, path_ok (t_nw t) (length p) p -> S (length p) < t_depth t -> l_tm L s p i = true -> kids L s (p ++ [i]) <> [].
Proof.
  intros Hwf Hex p i Hp Hl Ht E. destruct (Hex p i Hp ltac:(lia) Ht) as (r & Hr & [[v Hv]|[]]).
  destruct r as [|j r]; [pose proof (proj1 Hr) as Hlen; rewrite app_length in Hlen; cbn in Hlen; lia|].
  assert (i < msize (t_nw t))%N as Hi by (apply (l_bound L s p); [done|done|lia|done]).
  assert (j ∈ kids L s (p ++ [i])) as Hj; [|rewrite E in Hj; by apply elem_of_nil in Hj].
  apply (elem_of_kids L s Hwf); [rewrite app_length; cbn; rewrite Nat.add_1_r; by apply path_ok_snoc|rewrite app_length; cbn; lia|].
  assert (p ++ i :: j :: r = (p ++ [i]) ++ j :: r) as Hq by (by rewrite <- app_assoc).
  pose proof (l_complete L s (p ++ i :: j :: r) v (length (p ++ [i])) j Hwf Hr Hv) as H.
  rewrite Hq in H. rewrite take_app in H. apply H. by rewrite list_lookup_middle.
Qed.
Lemma logged_latency {t} (L : lawful t) s : l_wf L s -> hierarchy_exact (fun _ => False) L s ->
  exists n, forall fuel m, n <= fuel -> exists it it1 os it2 o, iter_new (logged t) s = Ok it /\
    iter_poll fuel m (logged t) s it = Ok (it1, os) /\ iter_next fuel (logged t) s it1 = Ok (it2, o) /\
    length (selected it2) <= length (selected it1) + (t_depth t - 1).
Proof.
  intros Hwf Hex. set (L' := lawful_logged L).
  destruct (iter_new_ok L' s Hwf) as (it & Hnew & Hi & _).
  destruct (iter_poll_ok L' s Hwf) as (n & l & _ & Hpoll).
  exists (n + S (meas_upto L' s (it_iters it) [] (t_depth t))). intros fuel m Hf.
  destruct (Hpoll m fuel ltac:(lia)) as (it' & it1 & E1 & E2). rewrite Hnew in E1. injection E1 as <-.
  assert (forall p i, path_ok (t_nw (logged t)) (length p) p -> S (length p) < t_depth (logged t) -> l_tm L' s p i = true -> kids L' s (p ++ [i]) <> []) as Hlive.
  { intros p i Hp Hl Ht. exact (exact_live L s Hwf Hex p i Hp Hl Ht). }
  assert (forall (c : t_C (logged t)) p i c' mk, l_Ru L' s c p -> S (length p) < t_depth (logged t) ->
    t_select_u (logged t) s c (S (length p)) i = Ok (c', mk) -> length (snd (snd c')) = S (length (snd (snd c)))) as Hcnt.
  { intros [c [q log]] p i c' mk _ _ Hs. cbn in Hs. apply bind_ok_inv in Hs as ([c1 m1] & _ & Hs). injection Hs as <- <-. cbn. rewrite app_length. cbn. lia. }
  destruct (poll_latency L' s Hwf (fun c : t_C (logged t) => length (snd (snd c))) Hcnt Hlive fuel m it [] it1 _ Hi ltac:(cbn [t_depth logged] in *; lia) E2) as (it2 & o & E3 & H).
  exists it, it1, (take m ((Some <$> l) ++ replicate m None)), it2, o. split; [exact Hnew|]. split; [exact E2|]. split; [exact E3|]. exact H.
Qed.
Lemma logged_count {t} (L : lawful t) s : l_wf L s -> hierarchy_exact (fun _ => False) L s ->
  exists n, forall fuel m, n <= fuel -> exists it it1 os, iter_new (logged t) s = Ok it /\
    iter_poll fuel m (logged t) s it = Ok (it1, os) /\ length (selected it1) <= 1 + m * (t_depth t - 1).
Proof.
  intros Hwf Hex. set (L' := lawful_logged L).
  destruct (iter_new_ok L' s Hwf) as (it & Hnew & Hi & _).
  destruct (iter_poll_ok L' s Hwf) as (n & l & _ & Hpoll).
  exists (n + S (meas_upto L' s (it_iters it) [] (t_depth t))). intros fuel m Hf.
  destruct (Hpoll m fuel ltac:(lia)) as (it' & it1 & E1 & E2). rewrite Hnew in E1. injection E1 as <-.
  assert (forall p i, path_ok (t_nw (logged t)) (length p) p -> S (length p) < t_depth (logged t) -> l_tm L' s p i = true -> kids L' s (p ++ [i]) <> []) as Hlive.
  { intros p i Hp Hl Ht. exact (exact_live L s Hwf Hex p i Hp Hl Ht). }
  assert (forall (c : t_C (logged t)) p i c' mk, l_Ru L' s c p -> S (length p) < t_depth (logged t) ->
    t_select_u (logged t) s c (S (length p)) i = Ok (c', mk) -> length (snd (snd c')) = S (length (snd (snd c)))) as Hcnt.
  { intros [c [q log]] p i c' mk _ _ Hs. cbn in Hs. apply bind_ok_inv in Hs as ([c1 m1] & _ & Hs). injection Hs as <- <-. cbn. rewrite app_length. cbn. lia. }
  pose proof (poll_count L' s Hwf (fun c : t_C (logged t) => length (snd (snd c))) Hcnt Hlive fuel m it [] it1 _ Hi ltac:(cbn [t_depth logged] in *; lia) E2) as H.
  assert (length (selected it) = 1) as H1.
  { unfold iter_new in Hnew. apply bind_ok_inv in Hnew as ([c [p log]] & E0 & Hnew). apply bind_ok_inv in Hnew as ([[c2 [p2 log2]] mk] & E3 & Hnew).
    cbn in E0. apply bind_ok_inv in E0 as (c0 & _ & E0). injection E0 as <- <- <-. cbn in E3. apply bind_ok_inv in E3 as ([c1 m1] & _ & E3). injection E3 as <- <- <- <-.
    destruct (decide (0 < t_depth (logged t))); [|done]. injection Hnew as <-. done. }
  exists it, it1, (take m ((Some <$> l) ++ replicate m None)). split; [exact Hnew|]. split; [exact E2|].
  change (length (selected it1) <= length (selected it) + m * (t_depth t - 1)) in H. rewrite H1 in H. exact H.
Qed.
