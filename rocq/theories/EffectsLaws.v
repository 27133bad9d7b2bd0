(** * When the closures of an expression are called *)
From Verif Require Import Base BitUtils BitUtilsProofs BitQueue LevelIndices LevelIndicesProofs ConstLoops Hierarchy Lawful IterProofs Ops OpsProofs Spec Dense
  Client TreeClient Generic Compose ViewLaws Effects.

Section laws.
Context {St : Type}.

(** ** specification
    [eview b E]: the expression [E] is built by `map` and `multi_map_fold` with stateful functions,
    `intersection` and `union` from views (Compose.v: containers and any closure-free nesting) *)
Inductive eview : bool -> etree St -> Type :=
| EView b t : view b t -> eview b (e_pure t)
| EMap b E W (f : e_V E -> St -> W * St) : eview b E -> eview b (e_map E f)
| EFold b t X A (items : t_V t -> list X) (init : St -> A * St) f : view b t -> eview b (e_fold t items init f)
| EIntersection b0 b1 E0 E1 : t_nw (e_t E1) = t_nw (e_t E0) -> t_depth (e_t E1) = t_depth (e_t E0) ->
    eview b0 E0 -> eview b1 E1 -> eview (b0 && b1) (e_intersection E0 E1)
| EUnion E0 E1 : t_nw (e_t E1) = t_nw (e_t E0) -> t_depth (e_t E1) = t_depth (e_t E0) ->
    eview true E0 -> eview true E1 -> eview true (e_union E0 E1).
(** the element of a closure-free tree for a key *)
Definition got (t : tree) (s : t_T t) (k : N) : option (t_V t) := match tree_get t s k with Ok o => o | _ => None end.
(** evaluating an expression for one key: a `map` evaluates its source and calls the function iff
    that has an element; a fold calls `init` and then the function once per item; the operands of an
    intersection and of a union are both evaluated, the left one first *)
Fixpoint ev {b E} (x : eview b E) : t_T (e_t E) -> N -> St -> option (e_V E) * St :=
  match x in eview b E return t_T (e_t E) -> N -> St -> option (e_V E) * St with
  | EView b t v => fun s k st => (got t s k, st)
  | EMap b E W f x => fun s k st =>
    let '(o, st) := ev x s k st in match o with Some y => let '(w, st) := f y st in (Some w, st) | None => (None, st) end
  | EFold b t X A items init f v => fun s k st =>
    match got t s k with Some d => let '(a, st) := fold_left (fun '(a, st) y => f a y st) (items d) (init st) in (Some a, st) | None => (None, st) end
  | EIntersection b0 b1 E0 E1 _ _ x0 x1 => fun s k st =>
    let '(o0, st) := ev x0 (fst s) k st in let '(o1, st) := ev x1 (snd s) k st in
    (match o0, o1 with Some y0, Some y1 => Some (y0, y1) | _, _ => None end, st)
  | EUnion E0 E1 _ _ x0 x1 => fun s k st =>
    let '(o0, st) := ev x0 (fst s) k st in let '(o1, st) := ev x1 (snd s) k st in
    (match o0, o1 with None, None => None | _, _ => Some (o0, o1) end, st)
  end.
(** evaluating it for several keys, in order *)
Fixpoint evs {b E} (x : eview b E) (s : t_T (e_t E)) (ks : list N) (st : St) : list (N * e_V E) * St :=
  match ks with
  | [] => ([], st)
  | k :: ks => let '(o, st) := ev x s k st in let '(r, st) := evs x s ks st in
    (match o with Some y => (k, y) :: r | None => r end, st)
  end.
Fixpoint no_intersection {b E} (x : eview b E) : bool :=
  match x with
  | EView _ _ _ => true
  | EMap _ _ _ _ x => no_intersection x
  | EFold _ _ _ _ _ _ _ _ => true
  | EIntersection _ _ _ _ _ _ _ _ => false
  | EUnion _ _ _ _ x0 x1 => no_intersection x0 && no_intersection x1
  end.
Lemma fold_st_left {X A : Type} (f : A -> X -> St -> A * St) (l : list X) a st : fold_st f l a st = fold_left (fun '(a, st) y => f a y st) l (a, st).
Proof. revert a st. induction l as [|x l IH]; intros a st; [done|]. cbn [fold_st fold_left]. destruct (f a x st) as [a' st']. apply IH. Qed.
(** the closure-free view underneath *)
Fixpoint under {b E} (x : eview b E) : view b (e_t E) :=
  match x in eview b E return view b (e_t E) with
  | EView b t v => v
  | EMap b E W f x => under x
  | EFold b t X A items init f v => v
  | EIntersection b0 b1 E0 E1 Hn Hd x0 x1 => VIntersection b0 b1 (e_t E0) (e_t E1) Hn Hd (under x0) (under x1)
  | EUnion E0 E1 Hn Hd x0 x1 => VUnion (e_t E0) (e_t E1) Hn Hd (under x0) (under x1)
  end.

(** ** one access *)
Lemma got_content {b t} (v : view b t) pk s k : reached pk v s -> got t s k = content (vL v) s k.
Proof.
  intros Hr. apply option_eq. intros y. rewrite <- (view_get_Some pk v s k y Hr). unfold got. by destruct (tree_get t s k) as [o| | |]; naive_solver.
Qed.
Lemma got_sem {b t} (v : view b t) pk s q : reached pk v s -> path_ok (t_nw t) (t_depth t) q -> got t s (key_of_path (t_nw t) q) = l_sem (vL v) s q.
Proof. intros Hr Hq. rewrite (got_content v pk) by done. by apply content_path. Qed.
Lemma vL_intersection b0 b1 t0 t1 Hn Hd v0 v1 : vL (VIntersection b0 b1 t0 t1 Hn Hd v0 v1) = lawful_intersection (vL v0) (vL v1) Hn Hd.
Proof. unfold vL. cbn [view_lawful]. destruct (view_lawful v0), (view_lawful v1). done. Qed.
Lemma vL_union t0 t1 Hn Hd v0 v1 : exists H0 H1, vL (VUnion t0 t1 Hn Hd v0 v1) = lawful_union (vL v0) (vL v1) Hn Hd H0 H1.
Proof. unfold vL. cbn [view_lawful]. destruct (view_lawful v0) as [L0 H0], (view_lawful v1) as [L1 H1]. by exists H0, H1. Qed.

Lemma int_has b0 b1 t0 t1 Hn Hd v0 v1 s q : is_Some (l_sem (vL (VIntersection b0 b1 t0 t1 Hn Hd v0 v1)) s q) <->
  is_Some (l_sem (vL v0) (fst s) q) /\ is_Some (l_sem (vL v1) (snd s) q).
Proof.
  rewrite vL_intersection. cbn [lawful_intersection l_sem]. split.
  - intros [y Hy]. apply intersection_sem_Some in Hy as [H0 H1]. by split; eexists.
  - intros [[y0 H0] [y1 H1]]. exists (y0, y1). by apply intersection_sem_Some.
Qed.
Lemma int_Rk b0 b1 t0 t1 Hn Hd v0 v1 s c p : l_Rk (vL (VIntersection b0 b1 t0 t1 Hn Hd v0 v1)) s c p ->
  l_Rk (vL v0) (fst s) (fst c) p /\ l_Rk (vL v1) (snd s) (snd c) p.
Proof. by rewrite vL_intersection. Qed.
Lemma int_Ru b0 b1 t0 t1 Hn Hd v0 v1 s c p : l_Ru (vL (VIntersection b0 b1 t0 t1 Hn Hd v0 v1)) s c p ->
  l_Ru (vL v0) (fst s) (fst c) p /\ l_Ru (vL v1) (snd s) (snd c) p.
Proof. by rewrite vL_intersection. Qed.
Lemma un_has t0 t1 Hn Hd v0 v1 s q : is_Some (l_sem (vL (VUnion t0 t1 Hn Hd v0 v1)) s q) <->
  is_Some (l_sem (vL v0) (fst s) q) \/ is_Some (l_sem (vL v1) (snd s) q).
Proof. destruct (vL_union t0 t1 Hn Hd v0 v1) as (H0 & H1 & ->). apply union_sem_is_Some. Qed.
Lemma un_Rk t0 t1 Hn Hd v0 v1 s c p : l_Rk (vL (VUnion t0 t1 Hn Hd v0 v1)) s c p ->
  l_Rk (vL v0) (fst s) (fst c) p /\ l_Rk (vL v1) (snd s) (snd c) p.
Proof. by destruct (vL_union t0 t1 Hn Hd v0 v1) as (H0 & H1 & ->). Qed.
Lemma un_Ru t0 t1 Hn Hd v0 v1 s c p : l_Ru (vL (VUnion t0 t1 Hn Hd v0 v1)) s c p ->
  l_Rk (vL v0) (fst s) (fst c) p /\ l_Rk (vL v1) (snd s) (snd c) p.
Proof. by destruct (vL_union t0 t1 Hn Hd v0 v1) as (H0 & H1 & ->). Qed.

Definition has {b E} (x : eview b E) (s : t_T (e_t E)) (q : list N) : Prop := is_Some (l_sem (vL (under x)) s q).
Record follows {b E} (x : eview b E) (s : t_T (e_t E)) : Prop := Follows {
  f_has : forall q st, path_ok (t_nw (e_t E)) (t_depth (e_t E)) q -> is_Some (fst (ev x s (key_of_path (t_nw (e_t E)) q) st)) <-> has x s q;
  f_data : forall q st, path_ok (t_nw (e_t E)) (t_depth (e_t E)) q -> e_data E s (key_of_path (t_nw (e_t E)) q) q st = Ok (ev x s (key_of_path (t_nw (e_t E)) q) st);
  f_data_u : forall q st y st', path_ok (t_nw (e_t E)) (t_depth (e_t E)) q -> ev x s (key_of_path (t_nw (e_t E)) q) st = (Some y, st') ->
    e_data_u E s (key_of_path (t_nw (e_t E)) q) q st = Ok (y, st');
  f_cdata : forall c p i st, l_Rk (vL (under x)) s c p -> path_ok (t_nw (e_t E)) (t_depth (e_t E) - 1) p -> (i < msize (t_nw (e_t E)))%N ->
    b = true \/ has x s (p ++ [i]) -> e_cdata E s c i st = Ok (ev x s (key_of_path (t_nw (e_t E)) (p ++ [i])) st);
  f_cdata_u : forall c p i st y st', l_Ru (vL (under x)) s c p -> path_ok (t_nw (e_t E)) (t_depth (e_t E) - 1) p -> (i < msize (t_nw (e_t E)))%N ->
    ev x s (key_of_path (t_nw (e_t E)) (p ++ [i])) st = (Some y, st') -> e_cdata_u E s c i st = Ok (y, st');
}.
Lemma path_full {b t} (v : view b t) p i : path_ok (t_nw t) (t_depth t - 1) p -> (i < msize (t_nw t))%N -> path_ok (t_nw t) (t_depth t) (p ++ [i]).
Proof. intros Hp Hi. pose proof (l_depth (vL v)). replace (t_depth t) with (S (t_depth t - 1)) by lia. by apply path_ok_snoc. Qed.

(** a closure-free tree *)
Lemma leaf_cdata {b t} (v : view b t) pk s c p i : reached pk v s -> l_Rk (vL v) s c p -> path_ok (t_nw t) (t_depth t - 1) p -> (i < msize (t_nw t))%N ->
  b = true \/ is_Some (l_sem (vL v) s (p ++ [i])) -> t_cdata t s c i = Ok (got t s (key_of_path (t_nw t) (p ++ [i]))).
Proof.
  intros Hr Hc Hp Hi Hb. rewrite (got_sem v pk) by (done || by apply (path_full v)).
  destruct (l_cdata (vL v) s c p i (vg_wf pk _ _ (reached_good pk v s Hr)) Hc Hp Hi) as (d & -> & H1 & H2). f_equal.
  destruct (l_sem (vL v) s (p ++ [i])) as [y|]; [by apply H1|]. destruct Hb as [Hb|[? ?]]; [|done]. apply H2; [by rewrite vL_cdok|done].
Qed.
Lemma leaf_data {b t} (v : view b t) pk s q : reached pk v s -> path_ok (t_nw t) (t_depth t) q ->
  t_data t s (key_of_path (t_nw t) q) q = Ok (got t s (key_of_path (t_nw t) q)).
Proof. intros Hr Hq. rewrite (got_sem v pk) by done. apply (l_data (vL v)); [|done]. exact (vg_wf pk _ _ (reached_good pk v s Hr)). Qed.
Lemma leaf_data_u {b t} (v : view b t) pk s q y : reached pk v s -> path_ok (t_nw t) (t_depth t) q -> got t s (key_of_path (t_nw t) q) = Some y ->
  t_data_u t s (key_of_path (t_nw t) q) q = Ok y.
Proof. intros Hr Hq. rewrite (got_sem v pk) by done. apply (l_data_u (vL v)); [|done]. exact (vg_wf pk _ _ (reached_good pk v s Hr)). Qed.
Lemma leaf_cdata_u {b t} (v : view b t) pk s c p i y : reached pk v s -> l_Ru (vL v) s c p -> path_ok (t_nw t) (t_depth t - 1) p -> (i < msize (t_nw t))%N ->
  got t s (key_of_path (t_nw t) (p ++ [i])) = Some y -> t_cdata_u t s c i = Ok y.
Proof.
  intros Hr Hc Hp Hi. rewrite (got_sem v pk) by (done || by apply (path_full v)).
  apply (l_cdata_u (vL v)); try done. exact (vg_wf pk _ _ (reached_good pk v s Hr)).
Qed.

Lemma eview_follows pk {b E} (x : eview b E) : forall s, reached pk (under x) s -> follows x s.
Proof.
  induction x as [b t v|b E W f x IH|b t X A items init f v|b0 b1 E0 E1 Hn Hd x0 IH0 x1 IH1|E0 E1 Hn Hd x0 IH0 x1 IH1]; intros s Hr.
  - split; cbn [e_pure e_t e_data e_data_u e_cdata e_cdata_u ev under fst]; unfold has; cbn [under].
    + intros q st Hq. by rewrite (got_sem v pk).
    + intros q st Hq. by rewrite (leaf_data v pk).
    + intros q st y st' Hq [= Hy ->]. by rewrite (leaf_data_u v pk _ _ y).
    + intros c p i st Hc Hp Hi Hb. by rewrite (leaf_cdata v pk s c p i).
    + intros c p i st y st' Hc Hp Hi [= Hy ->]. by rewrite (leaf_cdata_u v pk s c p i y).
  - destruct (IH s Hr) as [H1 H2 H3 H4 H5]. split; cbn [e_map e_t e_data e_data_u e_cdata e_cdata_u ev under]; unfold has in *; cbn [under].
    + intros q st Hq. rewrite <- (H1 q st Hq). destruct (ev x s _ st) as [[y|] st']; [destruct (f y st') as [w st2]|]; cbn; split; intros [? ?]; (done || by eexists).
    + intros q st Hq. rewrite (H2 q st Hq), bind_ok. destruct (ev x s _ st) as [[y|] st']; [|done]. by destruct (f y st').
    + intros q st y st' Hq He. destruct (ev x s _ st) as [[z|] st2] eqn:Ez; [|done]. rewrite (H3 q st z st2 Hq Ez), bind_ok.
      destruct (f z st2). by injection He as <- <-.
    + intros c p i st Hc Hp Hi Hb. rewrite (H4 c p i st Hc Hp Hi Hb), bind_ok. destruct (ev x s _ st) as [[y|] st']; [|done]. by destruct (f y st').
    + intros c p i st y st' Hc Hp Hi He. destruct (ev x s _ st) as [[z|] st2] eqn:Ez; [|done]. rewrite (H5 c p i st z st2 Hc Hp Hi Ez), bind_ok.
      destruct (f z st2). by injection He as <- <-.
  - split; cbn [e_fold e_t e_data e_data_u e_cdata e_cdata_u ev under]; unfold has; cbn [under].
    + intros q st Hq. rewrite <- (got_sem v pk) by done. destruct (got _ _ _) as [d|]; [destruct (init st) as [a st']; rewrite <- ?fold_st_left; destruct (fold_st f (items d) a st')|]; cbn; split; intros [? ?]; (done || by eexists).
    + intros q st Hq. rewrite (leaf_data v pk) by done. rewrite bind_ok. destruct (got _ _ _) as [d|]; [|done]. destruct (init st) as [a st']. rewrite <- ?fold_st_left. by destruct (fold_st f (items d) a st').
    + intros q st y st' Hq He. destruct (got _ _ _) as [d|] eqn:Eg; [|done]. rewrite (leaf_data_u v pk _ _ d) by done. rewrite bind_ok.
      destruct (init st) as [a st2]. rewrite <- ?fold_st_left in He. destruct (fold_st f (items d) a st2). by injection He as <- <-.
    + intros c p i st Hc Hp Hi Hb. rewrite (leaf_cdata v pk s c p i) by done. rewrite bind_ok. destruct (got _ _ _) as [d|]; [|done]. destruct (init st) as [a st']. rewrite <- ?fold_st_left. by destruct (fold_st f (items d) a st').
    + intros c p i st y st' Hc Hp Hi He. destruct (got _ _ _) as [d|] eqn:Eg; [|done]. rewrite (leaf_cdata_u v pk s c p i d) by done. rewrite bind_ok.
      destruct (init st) as [a st2]. rewrite <- ?fold_st_left in He. destruct (fold_st f (items d) a st2). by injection He as <- <-.
  - destruct s as [s0 s1]. destruct Hr as [Hr0 Hr1]. cbn [fst snd] in Hr0, Hr1. destruct (IH0 s0 Hr0) as [A1 A2 A3 A4 A5]. destruct (IH1 s1 Hr1) as [B1 B2 B3 B4 B5].
    assert (forall q, has (EIntersection b0 b1 E0 E1 Hn Hd x0 x1) (s0, s1) q <-> has x0 s0 q /\ has x1 s1 q) as Hhas.
    { intros q. apply int_has. }
    rewrite Hn, Hd in *.
    split; cbn [e_intersection e_t t_intersection t_nw t_depth e_data e_data_u e_cdata e_cdata_u ev fst snd].
    + intros q st Hq. rewrite Hhas. rewrite <- (A1 q st Hq). destruct (ev x0 s0 _ st) as [o0 st0]. rewrite <- (B1 q st0 Hq). destruct (ev x1 s1 _ st0) as [o1 st1]. cbn [fst].
      destruct o0, o1; cbn; (split; [intros [? ?]|intros [[? ?] [? ?]]]); try done; by eauto.
    + intros q st Hq. rewrite (A2 q st Hq), bind_ok. destruct (ev x0 s0 _ st) as [o0 st0]. rewrite (B2 q st0 Hq), bind_ok. destruct (ev x1 s1 _ st0) as [o1 st1].
      by destruct o0, o1.
    + intros q st y st' Hq He. destruct (ev x0 s0 _ st) as [o0 st0] eqn:Ea. destruct (ev x1 s1 _ st0) as [o1 st1] eqn:Eb. destruct o0 as [y0|], o1 as [y1|]; try done.
      injection He as <- <-. by rewrite (A3 q st y0 st0 Hq Ea), bind_ok, (B3 q st0 y1 st1 Hq Eb), bind_ok.
    + intros [c0 c1] p i st Hc Hp Hi Hb. apply int_Rk in Hc as [Hc0 Hc1]. cbn [fst snd] in Hc0, Hc1.
      assert ((b0 = true \/ has x0 s0 (p ++ [i])) /\ (b1 = true \/ has x1 s1 (p ++ [i]))) as [Hb0 Hb1].
      { destruct Hb as [Hb|Hb]; [apply andb_true_iff in Hb as [-> ->]; by auto|]. apply Hhas in Hb as [? ?]. by auto. }
      cbn [fst snd]. rewrite (A4 c0 p i st Hc0 Hp Hi Hb0), bind_ok. destruct (ev x0 s0 _ st) as [o0 st0]. rewrite (B4 c1 p i st0 Hc1 Hp Hi Hb1), bind_ok.
      destruct (ev x1 s1 _ st0) as [o1 st1]. by destruct o0, o1.
    + intros [c0 c1] p i st y st' Hc Hp Hi He. apply int_Ru in Hc as [Hc0 Hc1]. cbn [fst snd] in Hc0, Hc1.
      destruct (ev x0 s0 _ st) as [o0 st0] eqn:Ea. destruct (ev x1 s1 _ st0) as [o1 st1] eqn:Eb. destruct o0 as [y0|], o1 as [y1|]; try done.
      injection He as <- <-. cbn [fst snd]. by rewrite (A5 c0 p i st y0 st0 Hc0 Hp Hi Ea), bind_ok, (B5 c1 p i st0 y1 st1 Hc1 Hp Hi Eb), bind_ok.
  - destruct s as [s0 s1]. destruct Hr as [Hr0 Hr1]. cbn [fst snd] in Hr0, Hr1. destruct (IH0 s0 Hr0) as [A1 A2 A3 A4 A5]. destruct (IH1 s1 Hr1) as [B1 B2 B3 B4 B5].
    assert (forall q, has (EUnion E0 E1 Hn Hd x0 x1) (s0, s1) q <-> has x0 s0 q \/ has x1 s1 q) as Hhas.
    { intros q. apply un_has. }
    rewrite Hn, Hd in *.
    assert (forall q st, path_ok (t_nw (e_t E0)) (t_depth (e_t E0)) q -> e_data (e_union E0 E1) (s0, s1) (key_of_path (t_nw (e_t E0)) q) q st =
      Ok (ev (EUnion E0 E1 Hn Hd x0 x1) (s0, s1) (key_of_path (t_nw (e_t E0)) q) st)) as HD.
    { intros q st Hq. cbn [e_union e_data ev fst snd]. rewrite (A2 q st Hq), bind_ok. destruct (ev x0 s0 _ st) as [o0 st0]. rewrite (B2 q st0 Hq), bind_ok. destruct (ev x1 s1 _ st0) as [o1 st1].
      by destruct o0, o1. }
    assert (forall c p i st, l_Rk (vL (under x0)) s0 (fst c) p /\ l_Rk (vL (under x1)) s1 (snd c) p -> path_ok (t_nw (e_t E0)) (t_depth (e_t E0) - 1) p -> (i < msize (t_nw (e_t E0)))%N ->
      e_cdata (e_union E0 E1) (s0, s1) c i st = Ok (ev (EUnion E0 E1 Hn Hd x0 x1) (s0, s1) (key_of_path (t_nw (e_t E0)) (p ++ [i])) st)) as HC.
    { intros [c0 c1] p i st [Hc0 Hc1] Hp Hi. cbn [e_union e_cdata ev fst snd] in *. rewrite (A4 c0 p i st Hc0 Hp Hi (or_introl eq_refl)), bind_ok. destruct (ev x0 s0 _ st) as [o0 st0].
      rewrite (B4 c1 p i st0 Hc1 Hp Hi (or_introl eq_refl)), bind_ok. destruct (ev x1 s1 _ st0) as [o1 st1]. by destruct o0, o1. }
    split.
    + intros q st Hq. change (t_nw (e_t (e_union E0 E1))) with (t_nw (e_t E0)) in *. change (t_depth (e_t (e_union E0 E1))) with (t_depth (e_t E0)) in *.
      rewrite Hhas. cbn [ev fst snd]. rewrite <- (A1 q st Hq). destruct (ev x0 s0 _ st) as [o0 st0]. rewrite <- (B1 q st0 Hq). destruct (ev x1 s1 _ st0) as [o1 st1]. cbn [fst].
      destruct o0, o1; cbn; (split; [intros [? ?]|intros [[? ?]|[? ?]]]); try done; by eauto.
    + exact HD.
    + intros q st y st' Hq He. change (e_data_u (e_union E0 E1) (s0, s1) (key_of_path (t_nw (e_t (e_union E0 E1))) q) q st) with
        (let* (d, st) := e_data (e_union E0 E1) (s0, s1) (key_of_path (t_nw (e_t E0)) q) q st in let* x := unwrap_u d in Ok (x, st)).
      rewrite (HD q st Hq), bind_ok. change (t_nw (e_t (e_union E0 E1))) with (t_nw (e_t E0)) in He. rewrite He. done.
    + intros c p i st Hc%un_Rk Hp Hi _. exact (HC c p i st Hc Hp Hi).
    + intros c p i st y st' Hc%un_Ru Hp Hi He.
      change (e_cdata_u (e_union E0 E1) (s0, s1) c i st) with (let* (d, st) := e_cdata (e_union E0 E1) (s0, s1) c i st in let* x := unwrap_u d in Ok (x, st)).
      rewrite (HC c p i st Hc Hp Hi), bind_ok. change (t_nw (e_t (e_union E0 E1))) with (t_nw (e_t E0)) in He. rewrite He. done.
Qed.

(** ** the callers *)
Lemma int_content b0 b1 t0 t1 Hn Hd v0 v1 s k : is_Some (content (vL (VIntersection b0 b1 t0 t1 Hn Hd v0 v1)) s k) <->
  is_Some (content (vL v0) (fst s) k) /\ is_Some (content (vL v1) (snd s) k).
Proof.
  rewrite vL_intersection, content_intersection. destruct (content (vL v0) (fst s) k), (content (vL v1) (snd s) k);
    (split; [intros [? ?]|intros [[? ?] [? ?]]]); try done; by eauto.
Qed.
Lemma un_content t0 t1 Hn Hd v0 v1 s k : is_Some (content (vL (VUnion t0 t1 Hn Hd v0 v1)) s k) <->
  is_Some (content (vL v0) (fst s) k) \/ is_Some (content (vL v1) (snd s) k).
Proof.
  destruct (vL_union t0 t1 Hn Hd v0 v1) as (H0 & H1 & ->). rewrite content_union. destruct (content (vL v0) (fst s) k), (content (vL v1) (snd s) k);
    (split; [intros [? ?]|intros [[? ?]|[? ?]]]); try done; by eauto.
Qed.
Lemma ev_content pk {b E} (x : eview b E) : forall s k st, reached pk (under x) s -> is_Some (fst (ev x s k st)) <-> is_Some (content (vL (under x)) s k).
Proof.
  induction x as [b t v|b E W f x IH|b t X A items init f v|b0 b1 E0 E1 Hn Hd x0 IH0 x1 IH1|E0 E1 Hn Hd x0 IH0 x1 IH1]; intros s k st Hr; cbn [ev under].
  - cbn [fst]. by rewrite (got_content v pk).
  - change (content (vL (under x)) s k) with (content (t := e_t E) (vL (under x)) s k). rewrite <- (IH s k st Hr).
    destruct (ev x s k st) as [[y|] st']; [destruct (f y st')|]; cbn [fst]; split; intros [? ?]; (done || by eexists).
  - change (e_t (e_fold t items init f)) with t. rewrite <- (got_content v pk s k Hr). destruct (got t s k) as [d|]; [destruct (init st) as [a st']; rewrite <- ?fold_st_left; destruct (fold_st f (items d) a st')|];
      cbn [fst]; split; intros [? ?]; (done || by eexists).
  - destruct s as [s0 s1]. destruct Hr as [Hr0 Hr1]. cbn [fst snd] in *. etrans; [|symmetry; apply int_content]. cbn [fst snd]. rewrite <- (IH0 s0 k st Hr0).
    destruct (ev x0 s0 k st) as [o0 st0]. rewrite <- (IH1 s1 k st0 Hr1). destruct (ev x1 s1 k st0) as [o1 st1]. cbn [fst].
    destruct o0, o1; (split; [intros [? ?]|intros [[? ?] [? ?]]]); try done; by eauto.
  - destruct s as [s0 s1]. destruct Hr as [Hr0 Hr1]. cbn [fst snd] in *. etrans; [|symmetry; apply un_content]. cbn [fst snd]. rewrite <- (IH0 s0 k st Hr0).
    destruct (ev x0 s0 k st) as [o0 st0]. rewrite <- (IH1 s1 k st0 Hr1). destruct (ev x1 s1 k st0) as [o1 st1]. cbn [fst].
    destruct o0, o1; (split; [intros [? ?]|intros [[? ?]|[? ?]]]); try done; by eauto.
Qed.
(** without an intersection an absent key changes nothing *)
Lemma ev_absent pk {b E} (x : eview b E) : no_intersection x = true -> forall s k st, reached pk (under x) s -> fst (ev x s k st) = None -> snd (ev x s k st) = st.
Proof.
  induction x as [b t v|b E W f x IH|b t X A items init f v|b0 b1 E0 E1 Hn Hd x0 IH0 x1 IH1|E0 E1 Hn Hd x0 IH0 x1 IH1]; intros Hx s k st Hr; cbn [ev under no_intersection] in *; try done.
  - specialize (IH Hx s k st Hr). destruct (ev x s k st) as [[y|] st']; [by destruct (f y st')|]. by cbn in *; auto.
  - destruct (got t s k) as [d|]; [|done]. destruct (init st) as [a st']. rewrite <- ?fold_st_left. by destruct (fold_st f (items d) a st').
  - destruct s as [s0 s1]. destruct Hr as [Hr0 Hr1]. cbn [fst snd] in *. apply andb_true_iff in Hx as [Hx0 Hx1].
    specialize (IH0 Hx0 s0 k st Hr0). destruct (ev x0 s0 k st) as [o0 st0]. specialize (IH1 Hx1 s1 k st0 Hr1). destruct (ev x1 s1 k st0) as [o1 st1].
    cbn in *. destruct o0, o1; try done. intros _. by rewrite IH1, IH0.
Qed.

Section callers.
Context {b : bool} {E : etree St} (x : eview b E) (pk : N -> Prop) (s : t_T (e_t E)).
Hypothesis Hr : reached pk (under x) s.
Notation L := (vL (under x)).
Notation t := (e_t E).
Lemma caller_wf : l_wf L s.
Proof. exact (vg_wf pk _ _ (reached_good pk (under x) s Hr)). Qed.
Lemma caller_follows : follows x s.
Proof. exact (eview_follows pk x s Hr). Qed.

(** an element is evaluated to a value exactly if it is present *)
Lemma ev_present k st : is_Some (fst (ev x s k st)) <-> exists v, tree_get t s k = Ok (Some v).
Proof.
  rewrite (ev_content pk x s k st Hr). split.
  - intros [v Hv]. exists v. by apply (view_get_Some pk (under x)).
  - intros [v Hv]. exists v. by apply (view_get_Some pk (under x)) in Hv.
Qed.
Lemma e_get_ev k st : view_key_ok t k -> e_get E s k st = Ok (ev x s k st).
Proof.
  intros Hk. unfold e_get. destruct (index_from_spec (t_nw t) (t_depth t) k) as [[-> Hlt]|[_ Hge]]; [|unfold view_key_ok in Hk; lia].
  rewrite bind_ok. destruct (level_indices_ok (t_nw t) (t_depth t) k) as [Hp Hkp]; [apply L|apply L|lia|].
  pose proof (f_data _ _ caller_follows _ st Hp) as Hd. by rewrite Hkp in Hd.
Qed.
Lemma e_get_u_ev k st v : tree_get t s k = Ok (Some v) -> exists y st', ev x s k st = (Some y, st') /\ e_get_unchecked E s k st = Ok (y, st').
Proof.
  intros Hg. destruct (proj2 (ev_present k st)) as [y Hy]; [by eauto|]. destruct (ev x s k st) as [o st'] eqn:He. cbn [fst] in Hy. subst o. exists y, st'. split; [done|].
  apply (view_get_Some pk (under x) s k v Hr) in Hg. apply content_Some in Hg as [Hk _].
  destruct (level_indices_ok (t_nw t) (t_depth t) k) as [Hp Hkp]; [apply L|apply L|done|].
  pose proof (f_data_u _ _ caller_follows _ st y st' Hp) as Hd. rewrite Hkp in Hd. by apply Hd.
Qed.

Lemma evs_app ks1 ks2 st : evs x s (ks1 ++ ks2) st = let '(r1, st) := evs x s ks1 st in let '(r2, st) := evs x s ks2 st in (r1 ++ r2, st).
Proof.
  revert st. induction ks1 as [|k ks1 IH]; intros st; cbn [evs app]; [by destruct (evs x s ks2 st)|].
  destruct (ev x s k st) as [o st1]. rewrite IH. destruct (evs x s ks1 st1) as [r1 st2]. destruct (evs x s ks2 st2) as [r2 st3]. by destruct o.
Qed.
(** [m] calls of `next` *)
Lemma e_poll_ev fuel m it p qs st : iinv L s it p -> todo_upto L s (it_iters it) p (t_depth t) = qs ->
  meas_upto L s (it_iters it) p (t_depth t) < fuel ->
  e_poll fuel m E s it st = Ok (let '(r, st) := evs x s (key_of_path (t_nw t) <$> take m qs) st in ((Some <$> r) ++ replicate (m - length qs) None, st)).
Proof.
  pose proof caller_wf as Hwf. revert it p qs st. induction m as [|m IH]; intros it p qs st Hi Hqs Hf; [done|]. cbn [e_poll]. unfold e_next.
  destruct (iter_loop_ok L s Hwf fuel it p Hi Hf) as (it' & p' & o & Hloop & Hi' & Ho & Hm). rewrite Hloop, bind_ok. destruct o as [i|].
  - destruct Ho as (Hl & Htm & Htodo). rewrite Hqs in Htodo. subst qs. pose proof (l_depth L) as HD0.
    assert (path_ok (t_nw t) (t_depth t - 1) p') as Hpok by (rewrite <- Hl; apply Hi').
    assert (i < msize (t_nw t))%N as Hib by (eapply l_bound; eauto; [apply Hi'|lia]).
    assert (is_Some (fst (ev x s (key_of_path (t_nw t) (p' ++ [i])) st))) as [y Hy].
    { apply (f_has _ _ caller_follows); [by apply (path_full (under x))|]. by apply (l_terminal L). }
    rewrite Htodo. cbn [take]. rewrite fmap_cons. cbn [evs].
    destruct (ev x s (key_of_path (t_nw t) (p' ++ [i])) st) as [o st1] eqn:He. cbn [fst] in Hy. subst o.
    rewrite (f_cdata_u _ _ caller_follows _ _ _ _ _ _ (ii_cur _ _ _ _ Hi') Hpok Hib He), bind_ok.
    assert (it_indices it' = p') as Hidx.
    { rewrite <- (ii_pre L s it' p' Hi'). symmetry. apply take_ge. rewrite (ii_idx L s it' p' Hi'). lia. }
    rewrite Hidx, data_block_index_ok, !bind_ok by (done || apply L).
    rewrite (IH it' p' _ st1 Hi' eq_refl) by lia. rewrite bind_ok.
    destruct (evs x s _ st1) as [r st2]. by rewrite fmap_cons.
  - destruct Ho as [Ho Hd]. rewrite Hqs in Ho. subst qs. rewrite Ho. rewrite bind_ok. cbn [take].
    destruct (todo_upto_empty L s (it_iters it') p' 0 (t_depth t)) as [E1 E2]; [lia|by intros k _ _; apply Hd|].
    rewrite (IH it' p' [] st Hi'); [|by rewrite E1|rewrite E2; cbn; lia].
    rewrite bind_ok. rewrite take_nil. cbn [evs length fmap list_fmap app]. by rewrite !Nat.sub_0_r.
Qed.
Lemma e_iter_ev : exists n l, (forall fuel, n <= fuel -> iter_collect fuel t s = Ok l) /\
  forall m fuel st, n <= fuel -> e_iter fuel m E s st =
    Ok (let '(r, st) := evs x s (take m l.*1) st in ((Some <$> r) ++ replicate (m - length l) None, st)).
Proof.
  pose proof caller_wf as Hwf. destruct (iter_new_ok L s Hwf) as (it & Hnew & Hi & Htodo).
  set (bound := meas_upto L s (it_iters it) [] (t_depth t) + length (todo_upto L s (it_iters it) [] (t_depth t))).
  destruct (iter_drain_ok L s Hwf (S bound) it [] Hi) as (it1 & p1 & l & _ & _ & _ & Hl); [unfold bound; lia|].
  exists (S bound), l. split.
  - intros fuel Hf. unfold iter_collect. rewrite Hnew, bind_ok.
    destruct (iter_drain_ok L s Hwf fuel it [] Hi) as (it' & p' & l' & -> & _ & _ & Hl'); [unfold bound in Hf; lia|].
    rewrite bind_ok. f_equal. rewrite <- Hl in Hl'. apply (fmap_inj Some) in Hl'; [done|]. intros ? ?. by injection 1.
  - intros m fuel st Hf. unfold e_iter. rewrite Hnew, bind_ok. rewrite (e_poll_ev fuel m it [] _ st Hi eq_refl) by (unfold bound in Hf; lia).
    revert Hl. generalize (todo_upto L s (it_iters it) [] (t_depth t)) as qs. intros qs Hl.
    assert (key_of_path (t_nw t) <$> qs = l.*1) as Hq.
    { clear -Hl. revert l Hl. induction qs as [|q qs IH]; intros [|[k v] l] Hl; try done. rewrite !fmap_cons in *. injection Hl as Hq Hl. f_equal; [|by apply IH].
      unfold entry in Hq. destruct (l_sem L s q); [|done]. cbn in Hq. by injection Hq. }
    rewrite fmap_take, Hq. replace (length qs) with (length l); [done|]. by rewrite <- (fmap_length (key_of_path (t_nw t)) qs), Hq, fmap_length.
Qed.
End callers.
End laws.
Arguments eview : clear implicits.
