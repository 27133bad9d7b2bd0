(** * Every nesting of the lazy operations, also unions over multi_unions

    Compose.v excludes `union` and `multi_union` over a `multi_union` (or over an intersection with
    one), because the cursor of a `multi_union` answers `Some(empty iterator)` instead of `None` for
    some absent elements.  Here nothing is excluded: [xview] is any nesting, and [sees x s k] says
    what a cursor (and so an iterator) of it reports under the key [k]. *)
From Verif Require Import Base BitUtils BitUtilsProofs BitQueue LevelIndices LevelIndicesProofs
  ConstLoops Hierarchy Lawful IterProofs Ops OpsProofs MultiProofs Spec Client TreeClient Generic Contract Materialize MaterializeProofs MaterializeLaws Compose ViewLaws MaterializeViews EffectsLaws PEffectsLaws IterCost CostLaws.

(** ** any nesting *)
Inductive xview : tree -> Type :=
| XView t : view true t -> xview t
| XMap t W (f : t_V t -> W) : xview t -> xview (t_map t f)
| XMultiMapFold t X A (items : t_V t -> list X) (init : A) (f : A -> X -> A) : xview t -> xview (t_multi_map_fold t items init f)
| XIntersection t0 t1 : t_nw t1 = t_nw t0 -> t_depth t1 = t_depth t0 -> xview t0 -> xview t1 -> xview (t_intersection t0 t1)
| XUnion t0 t1 : t_nw t1 = t_nw t0 -> t_depth t1 = t_depth t0 -> xview t0 -> xview t1 -> xview (t_union t0 t1)
| XMultiIntersection t : xview t -> xview (t_multi_intersection t)
| XMultiUnion t : 2 <= t_depth t -> xview t -> xview (t_multi_union t).
Fixpoint xreached (pk : N -> Prop) {t} (x : xview t) : t_T t -> Prop :=
  match x in xview t return t_T t -> Prop with
  | XView t v => reached pk v
  | XMap t W f x => xreached pk x
  | XMultiMapFold t X A items init f x => xreached pk x
  | XIntersection t0 t1 _ _ x0 x1 => fun s => xreached pk x0 (fst s) /\ xreached pk x1 (snd s)
  | XUnion t0 t1 _ _ x0 x1 => fun s => xreached pk x0 (fst s) /\ xreached pk x1 (snd s)
  | XMultiIntersection t x => fun s => s <> [] /\ length s <= 32 /\ Forall (xreached pk x) s
  | XMultiUnion t _ x => fun s => length s <= 32 /\ Forall (xreached pk x) s
  end.

(** ** what a cursor sees under a key *)
(** does `get` find the key? *)
Definition hasb (t : tree) (s : t_T t) (k : N) : bool := match got t s k with Some _ => true | None => false end.
(** .. or one of the 64 (128, 256) keys of its last node? *)
Definition nearb (t : tree) (k : N) (s : t_T t) : bool :=
  let w := msize (t_nw t) in existsb (fun j => hasb t s (k / w * w + j)) (seqN 0 (N.to_nat w)).
Fixpoint sees {t} (x : xview t) : t_T t -> N -> option (t_V t) :=
  match x in xview t return t_T t -> N -> option (t_V t) with
  | XView t v => got t
  | XMap t W f x => fun s k => f <$> sees x s k
  | XMultiMapFold t X A items init f x => fun s k => (fun d => fold_left f (items d) init) <$> sees x s k
  | XIntersection t0 t1 _ _ x0 x1 => fun s k =>
    match sees x0 (fst s) k, sees x1 (snd s) k with Some y0, Some y1 => Some (y0, y1) | _, _ => None end
  | XUnion t0 t1 _ _ x0 x1 => fun s k =>
    match sees x0 (fst s) k, sees x1 (snd s) k with None, None => None | o0, o1 => Some (o0, o1) end
  | XMultiIntersection t x => fun s k => if forallb (fun a => hasb t a k) s then mapM (fun a => sees x a k) s else None
  | XMultiUnion t _ x => fun s k =>
    match List.filter (nearb t k) s with [] => None | l => Some (omap (fun a => sees x a k) l) end
  end.

(** ** trees that differ in their data methods only *)
Definition with_cdata (t : tree) (cd : t_T t -> t_C t -> N -> res (option (t_V t))) (cdu : t_T t -> t_C t -> N -> res (t_V t)) : tree := {|
  t_nw := t_nw t; t_depth := t_depth t; t_exact := t_exact t; t_T := t_T t; t_C := t_C t; t_V := t_V t;
  t_data := t_data t; t_data_u := t_data_u t; t_new := t_new t; t_select := t_select t; t_select_u := t_select_u t;
  t_cdata := cd; t_cdata_u := cdu;
|}.
Definition with_data (t : tree) (d : t_T t -> N -> list N -> res (option (t_V t))) (du : t_T t -> N -> list N -> res (t_V t)) : tree := {|
  t_nw := t_nw t; t_depth := t_depth t; t_exact := t_exact t; t_T := t_T t; t_C := t_C t; t_V := t_V t;
  t_data := d; t_data_u := du; t_new := t_new t; t_select := t_select t; t_select_u := t_select_u t;
  t_cdata := t_cdata t; t_cdata_u := t_cdata_u t;
|}.
Definition lawful_with_cdata {t} (L : lawful t) (ok : bool) cd cdu
  (H : forall s c p i, l_wf L s -> l_Rk L s c p -> path_ok (t_nw t) (t_depth t - 1) p ->
    (i < msize (t_nw t))%N -> exists d, cd s c i = Ok d /\
      (forall v, l_sem L s (p ++ [i]) = Some v -> d = Some v) /\ (ok = true -> l_sem L s (p ++ [i]) = None -> d = None))
  (Hu : forall s c p i v, l_wf L s -> l_Ru L s c p -> path_ok (t_nw t) (t_depth t - 1) p ->
    (i < msize (t_nw t))%N -> l_sem L s (p ++ [i]) = Some v -> cdu s c i = Ok v) : lawful (with_cdata t cd cdu) :=
  Lawful (with_cdata t cd cdu) (l_wf L) (l_sem L) (l_tm L) ok (l_Rv L) (l_Rk L) (l_Ru L) (l_nw L) (l_depth L) (l_complete L) (l_terminal L) (l_bound L) (l_parent L)
    (l_Rk_Ru L) (l_Ru_Rv L) (l_Rk_take L) (l_Ru_take L) (l_new L) (l_select0 L) (l_select0_u L) (l_selectS L) (l_selectS_u L) (l_data L) (l_data_u L) H Hu.

Lemma match_idx {X Y} (P : N -> X -> Prop) idx (l : list X) (r : res Y) (h : list X -> Y) : Forall2 P idx l -> r = Ok (h l) ->
  match idx with [] => Ok None | _ => let* d := r in Ok (Some d) end = Ok (match l with [] => None | x :: l => Some (h (x :: l)) end).
Proof. intros H ->. by destruct H. Qed.
(** data of the cursor of a multi_union, whatever the operands' cursors report *)
Lemma mu_cdata_gen {t : tree} cd cdu (L : lawful (with_cdata t cd cdu)) (g : t_T t -> option (t_V t)) (s : list (t_T t)) (c : mu_cursor (t_T t) (t_C t)) p i :
  2 <= t_depth t -> mu_wf L s -> mu_Rk L s c p -> path_ok (t_nw t) (t_depth t - 1) p ->
  (forall a ch, a ∈ s -> alive L a p = true -> l_Rk L a ch p -> t_cdata t a ch i = Ok (g a)) ->
  mu_cdata t s c i = Ok (match List.filter (fun a => alive L a p) s with [] => None | l => Some (omap g l) end).
Proof.
  intros HD Hwf Hc Hp Hg. pose proof Hc as [Hb Hr Hlv]. pose proof Hb as [Hs Hll]. pose proof Hp as [Hpl _].
  assert (length (mu_cursors c) = length s) as Hlen by (rewrite <- Hs, fmap_length; done).
  unfold mu_cdata. rewrite decide_False by lia.
  specialize (Hlv (t_depth t - 1)). cbn [with_cdata t_depth] in Hlv. specialize (Hlv ltac:(lia) ltac:(lia)). rewrite take_ge in Hlv by lia.
  pose proof (live_indices (fun a => alive L a p) s) as Hidx.
  unfold alive_at in Hlv. cbn [with_cdata t_T] in Hlv. set (idx := filter _ _) in *.
  assert (mu_lvls c !! (length (mu_lvls c) - 1) = Some idx) as Hlv'. { change (length (mu_lvls c) = t_depth t - 1) in Hll. rewrite Hll. exact Hlv. }
  rewrite (get_u_ok _ _ _ Hlv'), bind_ok. clear Hlv'.
  assert (mu_cursor_data t idx (mu_cursors c) i = Ok (omap (fun j => s !! N.to_nat j ≫= g) idx)) as Hcd.
  { apply mu_cursor_data_ok; [done| |].
    - intros j [_ Hj]%elem_of_list_filter. apply elem_of_seqN in Hj. lia.
    - intros j a ch [Hj1 _]%elem_of_list_filter Hcj.
      destruct (mu_Rk_wf_in L _ _ _ _ _ Hwf Hb Hcj) as [Hwa Hsa]. change (s !! N.to_nat j = Some a) in Hsa. rewrite Hsa in Hj1.
      apply Hg; [by eapply elem_of_list_lookup_2|done|]. exact (mu_live L s c p _ a ch Hwf Hc Hp Hcj Hj1). }
  assert (omap (fun j => s !! N.to_nat j ≫= g) idx = omap g (List.filter (fun a => alive L a p) s)) as Ho.
  { assert (forall idx l, Forall2 (fun (j : N) (a : t_T t) => s !! N.to_nat j = Some a /\ alive L a p = true) idx l -> omap (fun j => s !! N.to_nat j ≫= g) idx = omap g l) as Hgen.
    { intros idx' l. induction 1 as [|j a idx' l [H1 H2] H IH]; [done|]. rewrite (omap_step (fun j => s !! N.to_nat j ≫= g)), (omap_step g). rewrite H1. cbn [mbind option_bind]. rewrite IH. done. }
    exact (Hgen _ _ Hidx). }
  rewrite Hcd, Ho. exact (match_idx _ idx _ _ (omap g) Hidx eq_refl).
Qed.

(** ** the same expression with an honest cursor
    [tr_L] is about a tree that differs from [t] only in the data methods of its cursor, which are honest;
    [tr_csem s q] is what the cursor of [t] itself reports at the path [q]. *)
Record track (t : tree) := Track {
  tr_cd : t_T t -> t_C t -> N -> res (option (t_V t));
  tr_cdu : t_T t -> t_C t -> N -> res (t_V t);
  tr_L : lawful (with_cdata t tr_cd tr_cdu);
  tr_ok : l_cdok tr_L = true;
  tr_csem : t_T t -> list N -> option (t_V t);
  tr_present : forall s q, l_wf tr_L s -> path_ok (t_nw t) (t_depth t) q -> is_Some (l_sem tr_L s q) -> is_Some (tr_csem s q);
  tr_cdata : forall s c p i, l_wf tr_L s -> l_Rk tr_L s c p -> path_ok (t_nw t) (t_depth t - 1) p -> (i < msize (t_nw t))%N ->
    t_cdata t s c i = Ok (tr_csem s (p ++ [i]));
  tr_cdata_u : forall s c p i v, l_wf tr_L s -> l_Ru tr_L s c p -> path_ok (t_nw t) (t_depth t - 1) p -> (i < msize (t_nw t))%N ->
    is_Some (l_sem tr_L s (p ++ [i])) -> tr_csem s (p ++ [i]) = Some v -> t_cdata_u t s c i = Ok v;
}.
Arguments tr_cd {t}. Arguments tr_cdu {t}. Arguments tr_L {t}. Arguments tr_ok {t}. Arguments tr_csem {t}. Arguments tr_present {t}. Arguments tr_cdata {t}. Arguments tr_cdata_u {t}.

Lemma lawful_path_full {t} (L : lawful t) p i : path_ok (t_nw t) (t_depth t - 1) p -> (i < msize (t_nw t))%N -> path_ok (t_nw t) (t_depth t) (p ++ [i]).
Proof. intros Hp Hi. pose proof (l_depth L). replace (t_depth t) with (S (t_depth t - 1)) by lia. by apply path_ok_snoc. Qed.
Lemma lawful_last_tm {t} (L : lawful t) s p i : l_wf L s -> path_ok (t_nw t) (t_depth t - 1) p -> (i < msize (t_nw t))%N ->
  l_tm L s p i = true <-> is_Some (l_sem L s (p ++ [i])).
Proof.
  intros Hwf Hp Hi. split; [by apply l_terminal|]. intros [y Hy].
  assert (l_tm L s (take (length p) (p ++ [i])) i = true) as Hx; [|by rewrite take_app in Hx].
  eapply l_complete; eauto; [by apply (lawful_path_full L)|]. rewrite lookup_app_r by done. by rewrite Nat.sub_diag.
Qed.

Definition track_leaf {t} (L : lawful t) (Hok : l_cdok L = true) : track t.
Proof.
  refine (Track t (t_cdata t) (t_cdata_u t) (lawful_with_cdata L true (t_cdata t) (t_cdata_u t) _ _) eq_refl (l_sem L) _ _ _).
  - done.
  - intros s c p i Hwf Hr Hp Hi. destruct (l_cdata L s c p i Hwf Hr Hp Hi) as (d & -> & Hd1 & Hd2). f_equal. destruct (l_sem L s (p ++ [i])) as [v|]; [by apply Hd1|by apply Hd2].
  - intros s c p i v Hwf Hr Hp Hi _ Hv. by apply (l_cdata_u L s c p).
  Unshelve.
  + intros s c p i Hwf Hr Hp Hi. destruct (l_cdata L s c p i Hwf Hr Hp Hi) as (d & Hd & Hd1 & Hd2). exists d. auto.
  + intros s c p i v. apply l_cdata_u.
Defined.
Definition track_map {t} (R : track t) {W} (f : t_V t -> W) : track (t_map t f).
Proof.
  set (t' := t_map (with_cdata t (tr_cd R) (tr_cdu R)) f).
  refine (Track (t_map t f) (t_cdata t') (t_cdata_u t') (lawful_map (tr_L R) f : lawful t') (tr_ok R) (fun s q => f <$> tr_csem R s q) _ _ _);
    cbn [t_map t_nw t_depth t_T t_C t_V t_cdata t_cdata_u lawful_map l_wf l_sem l_Rk l_Ru].
  - intros s q Hwf Hq Hs%fmap_is_Some. apply fmap_is_Some. by apply (tr_present R).
  - intros s c p i Hwf Hr Hp Hi. rewrite (tr_cdata R s c p i) by done. cbn. by destruct (tr_csem R s (p ++ [i])).
  - intros s c p i v Hwf Hr Hp Hi Hs%fmap_is_Some Hv. apply fmap_Some in Hv as (y & Hy & ->). by rewrite (tr_cdata_u R s c p i y).
Defined.
Definition track_intersection {t0 t1} (R0 : track t0) (R1 : track t1) (Hn : t_nw t1 = t_nw t0) (Hd : t_depth t1 = t_depth t0) : track (t_intersection t0 t1).
Proof.
  set (t' := t_intersection (with_cdata t0 (tr_cd R0) (tr_cdu R0)) (with_cdata t1 (tr_cd R1) (tr_cdu R1))).
  refine (Track (t_intersection t0 t1) (t_cdata t') (t_cdata_u t') (lawful_intersection (tr_L R0) (tr_L R1) Hn Hd : lawful t') (f_equal2 andb (tr_ok R0) (tr_ok R1))
    (fun s q => match tr_csem R0 (fst s) q, tr_csem R1 (snd s) q with Some y0, Some y1 => Some (y0, y1) | _, _ => None end) _ _ _);
    cbn [t_intersection t_nw t_depth t_T t_C t_V t_cdata t_cdata_u lawful_intersection l_wf l_sem l_Rk l_Ru].
  - intros s q [Hw0 Hw1] Hq [[v0 v1] Hs]. destruct (proj1 (intersection_sem_Some (tr_L R0) (tr_L R1) s q (v0, v1)) Hs) as [Hs0 Hs1]. cbn [fst snd] in *.
    destruct (tr_present R0 (fst s) q) as [y0 ->]; [done|done|by eexists|].
    destruct (tr_present R1 (snd s) q) as [y1 ->]; [done|by rewrite Hn, Hd|by eexists|]. by eexists.
  - intros s c p i [Hw0 Hw1] [Hr0 Hr1] Hp Hi. rewrite (tr_cdata R0 _ _ p i) by done. rewrite bind_ok. rewrite (tr_cdata R1 _ _ p i) by (rewrite ?Hn, ?Hd; done).
    rewrite bind_ok. by destruct (tr_csem R0 _ _), (tr_csem R1 _ _).
  - intros s c p i v [Hw0 Hw1] [Hr0 Hr1] Hp Hi [[v0 v1] Hs] Hv. destruct (proj1 (intersection_sem_Some (tr_L R0) (tr_L R1) s (p ++ [i]) (v0, v1)) Hs) as [Hs0 Hs1]. cbn [fst snd] in *.
    destruct (tr_csem R0 _ _) as [y0|] eqn:E0; [|done]. destruct (tr_csem R1 _ _) as [y1|] eqn:E1; [|done]. injection Hv as <-.
    rewrite (tr_cdata_u R0 _ _ p i y0) by (done || by eexists). rewrite bind_ok. by rewrite (tr_cdata_u R1 _ _ p i y1) by (rewrite ?Hn, ?Hd; done || by eexists).
Defined.
Definition track_union {t0 t1} (R0 : track t0) (R1 : track t1) (Hn : t_nw t1 = t_nw t0) (Hd : t_depth t1 = t_depth t0) : track (t_union t0 t1).
Proof.
  set (t' := t_union (with_cdata t0 (tr_cd R0) (tr_cdu R0)) (with_cdata t1 (tr_cd R1) (tr_cdu R1))).
  assert (forall s c p i, l_wf (tr_L R0) (fst s) /\ l_wf (tr_L R1) (snd s) -> l_Rk (tr_L R0) (fst s) (fst c) p /\ l_Rk (tr_L R1) (snd s) (snd c) p ->
    path_ok (t_nw t0) (t_depth t0 - 1) p -> (i < msize (t_nw t0))%N -> un_cdata t0 t1 s c i =
      Ok (match tr_csem R0 (fst s) (p ++ [i]), tr_csem R1 (snd s) (p ++ [i]) with None, None => None | o0, o1 => Some (o0, o1) end)) as HC.
  { intros s c p i [Hw0 Hw1] [Hr0 Hr1] Hp Hi. unfold un_cdata. rewrite (tr_cdata R0 _ _ p i) by done. rewrite bind_ok.
    rewrite (tr_cdata R1 _ _ p i) by (rewrite ?Hn, ?Hd; done). rewrite bind_ok. by destruct (tr_csem R0 _ _), (tr_csem R1 _ _). }
  refine (Track (t_union t0 t1) (t_cdata t') (t_cdata_u t') (lawful_union (tr_L R0) (tr_L R1) Hn Hd (tr_ok R0) (tr_ok R1) : lawful t') eq_refl
    (fun s q => match tr_csem R0 (fst s) q, tr_csem R1 (snd s) q with None, None => None | o0, o1 => Some (o0, o1) end) _ _ _);
    cbn [t_union t_nw t_depth t_T t_C t_V t_cdata t_cdata_u lawful_union l_wf l_sem l_Rk l_Ru].
  - intros s q [Hw0 Hw1] Hq Hs. destruct (proj1 (union_sem_is_Some (tr_L R0) (tr_L R1) s q) Hs) as [H|H].
    + destruct (tr_present R0 (fst s) q) as [y0 ->]; [done..|]. by eexists.
    + destruct (tr_present R1 (snd s) q) as [y1 ->]; [done|by rewrite Hn, Hd|done|]. destruct (tr_csem R0 _ _); by eexists.
  - exact HC.
  - intros s c p i v Hw Hr Hp Hi _ Hv. rewrite (HC s c p i) by done. rewrite bind_ok. exact (f_equal unwrap_u Hv).
Defined.
Definition somb {X} (o : option X) : bool := match o with Some _ => true | None => false end.
Lemma somb_true {X} (o : option X) : somb o = true <-> is_Some o.
Proof. destruct o; cbn; split; try done; by intros [? ?]. Qed.
Lemma forallb_Forall {X} (P : X -> bool) (Q : X -> Prop) (l : list X) : (forall a, a ∈ l -> P a = true <-> Q a) -> forallb P l = true <-> Forall Q l.
Proof.
  intros H. rewrite forallb_forall, Forall_forall. split; intros HP a Ha.
  - apply H; [done|]. apply HP. by apply elem_of_list_In.
  - apply elem_of_list_In in Ha. apply H; [done|]. by apply HP.
Qed.
Section mi.
Context {t : tree} (R : track t).
Definition has_all (s : list (t_T t)) (q : list N) : bool := forallb (fun a : t_T t => somb (l_sem (tr_L R) a q)) s.
Lemma has_all_true s q : has_all s q = true <-> Forall (fun a => is_Some (l_sem (tr_L R) a q)) s.
Proof. apply forallb_Forall. intros a _. apply somb_true. Qed.
Definition mi_csem (s : list (t_T t)) (q : list N) : option (list (t_V t)) :=
  if has_all s q then mapM (fun a => tr_csem R a q) s else None.
Lemma mi_csem_data (s : list (t_T t)) (cs : list (t_C t)) p i v : Forall (l_wf (tr_L R)) s -> Forall2 (fun a c => l_Ru (tr_L R) a c p) s cs ->
  path_ok (t_nw t) (t_depth t - 1) p -> (i < msize (t_nw t))%N ->
  Forall (fun a => is_Some (l_sem (tr_L R) a (p ++ [i]))) s -> mapM (fun a => tr_csem R a (p ++ [i])) s = Some v -> mi_cursor_data t s cs i = Ok v.
Proof.
  intros Hwf Hr Hp Hi Hs. revert v. induction Hr as [|a c s cs Hc H IH]; intros v; cbn [mapM mi_cursor_data]; [by intros [= <-]|].
  inversion_clear Hwf. inversion_clear Hs. destruct (tr_csem R a (p ++ [i])) as [y|] eqn:E; [|done]. cbn [mbind option_bind].
  destruct (mapM _ s) as [l|] eqn:El; [|done]. intros [= <-]. rewrite (tr_cdata_u R a c p i y) by done. rewrite bind_ok. by rewrite (IH ltac:(done) ltac:(done) l).
Qed.
Lemma mi_csem_present (s : list (t_T t)) q : mi_wf (tr_L R) s -> path_ok (t_nw t) (t_depth t) q -> is_Some (mi_sem (tr_L R) s q) -> is_Some (mi_csem s q).
Proof.
  intros (Hne & Hl & Hwf) Hq Hs. apply mapM_is_Some in Hs. unfold mi_csem.
  rewrite (proj2 (has_all_true s q) Hs).
  apply mapM_is_Some. rewrite Forall_forall in *. intros a Ha. apply (tr_present R); [by apply Hwf|done|by apply Hs].
Qed.
Lemma mi_csem_cdata (s : list (t_T t)) (c : mi_cursor (t_C t)) p i : mi_wf (tr_L R) s -> mi_Rk (tr_L R) s c p ->
  path_ok (t_nw t) (t_depth t - 1) p -> (i < msize (t_nw t))%N -> t_cdata (t_multi_intersection t) s c i = Ok (mi_csem s (p ++ [i])).
Proof.
  intros (Hne & Hl & Hwf) [[Hc He Ht] Htm] Hp Hi. pose proof Hp as [Hpl _]. cbn [with_cdata t_depth] in Htm. specialize (Htm ltac:(lia)). rewrite take_ge in Htm by lia.
  destruct Htm as [Hm Hb]. cbn [t_multi_intersection t_cdata]. rewrite (mask_get_bit_ok (t_nw t)) by done. rewrite bind_ok. rewrite Hb. unfold mi_csem.
  assert (mi_tm (tr_L R) s p i = has_all s (p ++ [i])) as ->.
  { apply eq_true_iff_eq. rewrite has_all_true. apply forallb_Forall.
    intros a Ha. rewrite Forall_forall in Hwf. apply (lawful_last_tm (tr_L R)); [by apply Hwf|done|done]. }
  destruct (has_all s (p ++ [i])) eqn:Ef; [|done]. apply has_all_true in Ef.
  assert (is_Some (mapM (fun a => tr_csem R a (p ++ [i])) s)) as [v Hv].
  { apply mapM_is_Some. rewrite Forall_forall in *. intros a Ha. apply (tr_present R); [by apply Hwf|by apply (lawful_path_full (tr_L R))|by apply Ef]. }
  rewrite Hv. rewrite (mi_csem_data s (mi_cursors c) p i v); try done. eapply Forall2_impl; [exact Hc|]. intros a ch. apply l_Rk_Ru.
Qed.
Lemma mi_csem_cdata_u (s : list (t_T t)) (c : mi_cursor (t_C t)) p i v : mi_wf (tr_L R) s -> mi_R (fun a c => l_Ru (tr_L R) a c p) s c ->
  path_ok (t_nw t) (t_depth t - 1) p -> (i < msize (t_nw t))%N -> is_Some (mi_sem (tr_L R) s (p ++ [i])) -> mi_csem s (p ++ [i]) = Some v ->
  mi_cursor_data t s (mi_cursors c) i = Ok v.
Proof.
  intros (Hne & Hl & Hwf) [Hc He Ht] Hp Hi Hs Hv. apply mapM_is_Some in Hs. unfold mi_csem in Hv. destruct (has_all s (p ++ [i])); [|done]. by apply (mi_csem_data s _ p).
Qed.
Definition track_mi : track (t_multi_intersection t) :=
  let t' := t_multi_intersection (with_cdata t (tr_cd R) (tr_cdu R)) in
  Track (t_multi_intersection t) (t_cdata t') (t_cdata_u t') (lawful_multi_intersection (tr_L R) : lawful t') eq_refl mi_csem mi_csem_present mi_csem_cdata mi_csem_cdata_u.
End mi.
Definition mu_honest {Y} (o : option (list Y)) : option (list Y) := match o with Some (x :: l) => Some (x :: l) | _ => None end.
Lemma mu_match {X Y} (g : X -> option Y) (l s : list X) : omap g l = omap g s ->
  mu_honest (match l with [] => None | x :: l => Some (omap g (x :: l)) end) = match omap g s with [] => None | l => Some l end /\
  (forall v, match omap g s with [] => None | l => Some l end = Some v -> match l with [] => None | x :: l => Some (omap g (x :: l)) end = Some v).
Proof. intros <-. destruct l as [|x l]; [done|]. destruct (omap g (x :: l)); done. Qed.
Section mu.
Context {t : tree} (R : track t) (HD : 2 <= t_depth t).
Definition mu_csem (s : list (t_T t)) (q : list N) : option (list (t_V t)) :=
  match List.filter (fun a => alive (tr_L R) a (take (t_depth t - 1) q)) s with [] => None | l => Some (omap (fun a => tr_csem R a q) l) end.
Let cd (s : list (t_T t)) (c : mu_cursor (t_T t) (t_C t)) (i : N) : res (option (list (t_V t))) :=
  let* d := mu_cdata (with_cdata t (tr_cd R) (tr_cdu R)) s c i in Ok (mu_honest d).
Let cdu (s : list (t_T t)) (c : mu_cursor (t_T t) (t_C t)) (i : N) : res (list (t_V t)) :=
  let* d := mu_cdata (with_cdata t (tr_cd R) (tr_cdu R)) s c i in unwrap_u d.
Lemma alive_has (s : t_T t) p i : l_wf (tr_L R) s -> path_ok (t_nw t) (t_depth t - 1) p -> (i < msize (t_nw t))%N -> is_Some (l_sem (tr_L R) s (p ++ [i])) -> alive (tr_L R) s p = true.
Proof.
  intros Hwf Hp Hi Hs. pose proof (proj1 Hp) as Hpl. pose proof (l_depth (tr_L R)) as H0. cbn [with_cdata t_depth] in H0.
  apply alive_true; [done|rewrite Hpl; exact Hp|rewrite Hpl; cbn [with_cdata t_depth]; lia|]. exists i. by apply (lawful_last_tm (tr_L R)).
Qed.
Lemma omap_filter_alive (h : t_T t -> option (t_V t)) (P : t_T t -> bool) (s : list (t_T t)) : (forall a, a ∈ s -> is_Some (h a) -> P a = true) ->
  omap h (List.filter P s) = omap h s.
Proof.
  induction s as [|a s IH]; intros H; [done|]. rewrite (omap_step h a s). cbn [List.filter].
  specialize (IH (fun b Hb => H b (elem_of_list_further _ _ _ Hb))). destruct (P a) eqn:E; [by rewrite omap_step, IH|].
  destruct (h a) eqn:Eh; [|done]. assert (P a = true); [|congruence]. apply H; [left|by eexists].
Qed.
Lemma mu_shadow_cdata (s : list (t_T t)) (c : mu_cursor (t_T t) (t_C t)) p i : mu_wf (tr_L R) s -> mu_Rk (tr_L R) s c p ->
  path_ok (t_nw t) (t_depth t - 1) p -> (i < msize (t_nw t))%N -> exists d, mu_cdata (with_cdata t (tr_cd R) (tr_cdu R)) s c i = Ok d /\
    mu_honest d = mu_sem (tr_L R) s (p ++ [i]) /\ (forall v, mu_sem (tr_L R) s (p ++ [i]) = Some v -> d = Some v).
Proof.
  intros Hwf Hc Hp Hi. eexists. split.
  - apply (mu_cdata_gen (t := with_cdata t (tr_cd R) (tr_cdu R)) (tr_cd R) (tr_cdu R) (tr_L R) (fun a => l_sem (tr_L R) a (p ++ [i])) s c p i); [done|done|done|done|].
    intros a ch Ha _ Hr. destruct Hwf as [_ Hwf]. rewrite Forall_forall in Hwf. specialize (Hwf a Ha).
    destruct (l_cdata (tr_L R) a ch p i Hwf Hr Hp Hi) as (d & Hd & Hd1 & Hd2). etrans; [exact Hd|]. f_equal. destruct (l_sem (tr_L R) a (p ++ [i])) as [v|]; [by apply Hd1|].
    apply Hd2; [apply tr_ok|done].
  - cbn beta. assert (omap (fun a => l_sem (tr_L R) a (p ++ [i])) (List.filter (fun a => alive (tr_L R) a p) s) = omap (fun a => l_sem (tr_L R) a (p ++ [i])) s) as Hf.
    { apply omap_filter_alive. intros a Ha Hs. destruct Hwf as [_ Hwf]. rewrite Forall_forall in Hwf. apply (alive_has a p i); auto. }
    exact (mu_match _ _ _ Hf).
Qed.
Lemma mu_csem_cdata (s : list (t_T t)) (c : mu_cursor (t_T t) (t_C t)) p i : mu_wf (tr_L R) s -> mu_Rk (tr_L R) s c p ->
  path_ok (t_nw t) (t_depth t - 1) p -> (i < msize (t_nw t))%N -> mu_cdata t s c i = Ok (mu_csem s (p ++ [i])).
Proof.
  intros Hwf Hc Hp Hi. unfold mu_csem. replace (take (t_depth t - 1) (p ++ [i])) with p by (destruct Hp as [Hpl _]; rewrite <- Hpl; symmetry; apply take_app).
  apply (mu_cdata_gen (tr_cd R) (tr_cdu R) (tr_L R) (fun a => tr_csem R a (p ++ [i])) s c p i); [done|done|done|done|].
  intros a ch Ha _ Hr. destruct Hwf as [_ Hwf]. rewrite Forall_forall in Hwf. apply (tr_cdata R); try done. by apply Hwf.
Qed.
Lemma mu_csem_present (s : list (t_T t)) q : mu_wf (tr_L R) s -> path_ok (t_nw t) (t_depth t) q -> is_Some (mu_sem (tr_L R) s q) -> is_Some (mu_csem s q).
Proof.
  intros [_ Hwf] Hq Hs. destruct (proj1 (mu_sem_is_Some (tr_L R) s q) Hs) as (a & Ha & Hv). rewrite Forall_forall in Hwf. unfold mu_csem.
  assert (alive (tr_L R) a (take (t_depth t - 1) q) = true) as Hl.
  { destruct (exists_last (l := q)) as (p & i & ->). { intros ->. destruct Hq as [Hq _]. cbn in Hq. lia. }
    pose proof Hq as [Hq1 Hq2]. rewrite app_length in Hq1. cbn [length] in Hq1. apply Forall_app in Hq2 as [Hq2 Hq3]. inversion_clear Hq3.
    rewrite take_app_alt by lia. apply (alive_has a p i); [by apply Hwf|split; [lia|done]|done|done]. }
  match goal with |- is_Some (match ?l with [] => _ | _ => _ end) => assert (In a l) as Hin by (apply filter_In; split; [by apply elem_of_list_In|done]); destruct l; [done|by eexists] end.
Qed.
Definition lawful_mu_shadow : lawful (with_cdata (t_multi_union t) cd cdu).
Proof.
  refine (lawful_with_cdata (lawful_multi_union (tr_L R) (tr_ok R) HD) true cd cdu _ _);
    cbn [t_multi_union with_cdata t_nw t_depth t_T t_C t_V lawful_multi_union l_wf l_sem l_Rk l_Ru].
  - intros s c p i Hwf Hc Hp Hi. destruct (mu_shadow_cdata s c p i Hwf Hc Hp Hi) as (d & Hd & Hh & _). exists (mu_honest d). split; [unfold cd; by rewrite Hd|].
    rewrite Hh. split; [done|]. done.
  - intros s c p i v Hwf Hc Hp Hi Hv. destruct (mu_shadow_cdata s c p i Hwf Hc Hp Hi) as (d & Hd & _ & Hs). unfold cdu. rewrite Hd, bind_ok. by rewrite (Hs v Hv).
Defined.
Lemma mu_csem_cdata_u (s : list (t_T t)) (c : mu_cursor (t_T t) (t_C t)) p i v : mu_wf (tr_L R) s -> mu_Rk (tr_L R) s c p ->
  path_ok (t_nw t) (t_depth t - 1) p -> (i < msize (t_nw t))%N -> is_Some (mu_sem (tr_L R) s (p ++ [i])) -> mu_csem s (p ++ [i]) = Some v ->
  t_cdata_u (t_multi_union t) s c i = Ok v.
Proof. intros Hwf Hc Hp Hi _ Hv. cbn [t_multi_union t_cdata_u]. rewrite (mu_csem_cdata s c p i) by done. rewrite bind_ok. by rewrite Hv. Qed.
Definition track_mu : track (t_multi_union t) :=
  Track (t_multi_union t) cd cdu lawful_mu_shadow eq_refl mu_csem mu_csem_present mu_csem_cdata mu_csem_cdata_u.
End mu.

Fixpoint xtr {t} (x : xview t) : track t :=
  match x in xview t return track t with
  | XView t v => track_leaf (vL v) (vL_cdok v)
  | XMap t W f x => track_map (xtr x) f
  | XMultiMapFold t X A items init f x => track_map (xtr x) (fun d => fold_left f (items d) init)
  | XIntersection t0 t1 Hn Hd x0 x1 => track_intersection (xtr x0) (xtr x1) Hn Hd
  | XUnion t0 t1 Hn Hd x0 x1 => track_union (xtr x0) (xtr x1) Hn Hd
  | XMultiIntersection t x => track_mi (xtr x)
  | XMultiUnion t HD x => track_mu (xtr x) HD
  end.

(** ** reachable values *)
Lemma xreached_good pk {t} (x : xview t) : forall s, xreached pk x s -> good pk (tr_L (xtr x)) s.
Proof.
  induction x as [t v|t W f x IH|t X A items init f x IH|t0 t1 Hn Hd x0 IH0 x1 IH1|t0 t1 Hn Hd x0 IH0 x1 IH1|t x IH|t HD x IH]; intros s; cbn [xreached xtr].
  - intros Hs. destruct (reached_good pk v s Hs) as [Hw Hm He]. split; [exact Hw|exact Hm|exact He].
  - intros Hs. destruct (IH s Hs) as [Hw Hm He]. split; [exact Hw| |].
    + change (content (lawful_map (tr_L (xtr x)) f) s USIZE_MAX = None). by rewrite content_map, Hm.
    + intros Hx. exact (exact_map pk (tr_L (xtr x)) f s (He Hx)).
  - intros Hs. destruct (IH s Hs) as [Hw Hm He]. split; [exact Hw| |].
    + change (content (lawful_map (tr_L (xtr x)) (fun d => fold_left f (items d) init)) s USIZE_MAX = None). by rewrite content_map, Hm.
    + intros Hx. exact (exact_map pk (tr_L (xtr x)) (fun d => fold_left f (items d) init) s (He Hx)).
  - intros [Hs0 Hs1]. destruct (IH0 _ Hs0) as [Hw0 Hm0 He0]. destruct (IH1 _ Hs1) as [Hw1 Hm1 He1]. split; [done| |done].
    etrans; [exact (content_intersection (tr_L (xtr x0)) (tr_L (xtr x1)) Hn Hd s USIZE_MAX)|].
    exact (f_equal2 (fun o0 o1 => match o0, o1 with Some x, Some y => Some (x, y) | _, _ => None end) Hm0 Hm1).
  - intros [Hs0 Hs1]. destruct (IH0 _ Hs0) as [Hw0 Hm0 He0]. destruct (IH1 _ Hs1) as [Hw1 Hm1 He1]. split; [done| |].
    + etrans; [exact (content_union (tr_L (xtr x0)) (tr_L (xtr x1)) Hn Hd (tr_ok _) (tr_ok _) s USIZE_MAX)|].
      exact (f_equal2 (fun o0 o1 => match o0 with Some a => Some (Some a, o1) | None => match o1 with Some b => Some (None, Some b) | None => None end end) Hm0 Hm1).
    + cbn [with_cdata t_union t_exact]. intros [Hx0 Hx1]%andb_true_iff.
      exact (exact_union pk (tr_L (xtr x0)) (tr_L (xtr x1)) Hn Hd (tr_ok _) (tr_ok _) s (He0 Hx0) (He1 Hx1)).
  - intros (Hne & Hl & Hf). split; [|etrans; [exact (content_mi (tr_L (xtr x)) s USIZE_MAX Hne)|]|done].
    + split; [done|]. split; [done|]. eapply Forall_impl; [exact Hf|]. intros a Ha. by destruct (IH a Ha).
    + destruct s as [|a s]; [done|]. apply Forall_cons in Hf as [Ha _]. destruct (IH a Ha) as [_ Hm _]. cbn [mapM]. by rewrite Hm.
  - intros (Hl & Hf). split; [|etrans; [exact (content_mu (tr_L (xtr x)) (tr_ok _) HD s USIZE_MAX)|]|].
    + split; [done|]. eapply Forall_impl; [exact Hf|]. intros a Ha. by destruct (IH a Ha).
    + assert (omap (fun a => content (tr_L (xtr x)) a USIZE_MAX) s = []) as ->; [|done]. clear Hl. induction s as [|a s IHs]; [done|].
      apply Forall_cons in Hf as [Ha Hf]. destruct (IH a Ha) as [_ Hm _]. rewrite omap_step, Hm. by apply IHs.
    + cbn [with_cdata t_multi_union t_exact]. intros Hx. apply (exact_mu pk (tr_L (xtr x)) (tr_ok _) HD). eapply Forall_impl; [exact Hf|].
      intros a Ha. destruct (IH a Ha) as [_ _ He]. exact (He Hx).
Qed.
Lemma xview_depth {t} (x : xview t) : 1 <= t_depth t <= 9.
Proof. induction x; try done. by apply (view_depth v). Qed.
Lemma xview_size {t} (x : xview t) : (msize (t_nw t) ^ N.of_nat (t_depth t) <= 2 ^ 64)%N.
Proof. induction x; try done. by apply (view_size v). Qed.
Lemma xgot_content {t} (x : xview t) pk s k : xreached pk x s -> got t s k = content (tr_L (xtr x)) s k.
Proof.
  intros Hr. apply option_eq. intros y. etrans; [|exact (good_get_Some pk (tr_L (xtr x)) s k y (xreached_good pk x s Hr) (xview_size x))].
  change (tree_get (with_cdata t (tr_cd (xtr x)) (tr_cdu (xtr x))) s k) with (tree_get t s k). unfold got. by destruct (tree_get t s k) as [o| | |]; naive_solver.
Qed.
Lemma xgot_sem {t} (x : xview t) pk s q : xreached pk x s -> path_ok (t_nw t) (t_depth t) q -> got t s (key_of_path (t_nw t) q) = l_sem (tr_L (xtr x)) s q.
Proof. intros Hr Hq. rewrite (xgot_content x pk) by done. exact (content_path (tr_L (xtr x)) s q Hq). Qed.
Lemma hasb_somb t s k : hasb t s k = somb (got t s k).
Proof. done. Qed.
Lemma nearb_alive pk {t} (x : xview t) s p i : xreached pk x s -> path_ok (t_nw t) (t_depth t - 1) p -> (i < msize (t_nw t))%N ->
  nearb t (key_of_path (t_nw t) (p ++ [i])) s = alive (tr_L (xtr x)) s p.
Proof.
  intros Hr Hp Hi. pose proof (vg_wf pk _ _ (xreached_good pk x s Hr)) as Hwf. pose proof (xview_depth x) as HD. pose proof (proj1 Hp) as Hpl.
  apply eq_true_iff_eq. rewrite (alive_true (tr_L (xtr x)) s p) by (done || (rewrite Hpl; done) || (cbn [with_cdata t_depth]; lia)). unfold nearb. rewrite existsb_exists.
  assert (key_of_path (t_nw t) (p ++ [i]) / msize (t_nw t) = key_of_path (t_nw t) p)%N as ->.
  { rewrite key_of_path_snoc. rewrite N.add_comm, N.div_add by lia. rewrite N.div_small by done. lia. }
  split.
  - intros (j & Hj%elem_of_list_In%elem_of_seqN & Hh). exists j. rewrite <- key_of_path_snoc in Hh. assert (j < msize (t_nw t))%N as Hjb by lia.
    apply (lawful_last_tm (tr_L (xtr x))); [done|done|done|]. rewrite <- (xgot_sem x pk) by (done || by apply (lawful_path_full (tr_L (xtr x)))).
    apply somb_true. exact Hh.
  - intros (j & Hj). assert (j < msize (t_nw t))%N as Hjb.
    { apply (l_bound (tr_L (xtr x)) s p j); [done|by rewrite Hpl|cbn [with_cdata t_depth]; lia|done]. }
    exists j. split; [apply elem_of_list_In, elem_of_seqN; lia|]. rewrite <- key_of_path_snoc, hasb_somb, somb_true.
    rewrite (xgot_sem x pk) by (done || by apply (lawful_path_full (tr_L (xtr x)))). by apply (lawful_last_tm (tr_L (xtr x))).
Qed.
Lemma path_split {nw D} q : 1 <= D -> path_ok nw D q -> exists p i, q = p ++ [i] /\ path_ok nw (D - 1) p /\ (i < msize nw)%N.
Proof.
  intros HD [Hl Hf]. destruct (exists_last (l := q)) as (p & i & ->). { intros ->. cbn in Hl. lia. }
  rewrite app_length in Hl. cbn [length] in Hl. apply Forall_app in Hf as [Hf1 Hf2]. inversion_clear Hf2. exists p, i. split; [done|]. split; [split; [lia|done]|done].
Qed.
Lemma filter_ext_on {X} (P Q : X -> bool) (l : list X) : (forall a, a ∈ l -> P a = Q a) -> List.filter P l = List.filter Q l.
Proof.
  induction l as [|a l IH]; intros H; [done|]. cbn [List.filter]. rewrite (H a) by left. rewrite IH; [done|]. intros b Hb. apply H. by right.
Qed.
Lemma mapM_ext_on {X Y} (f g : X -> option Y) (l : list X) : (forall a, a ∈ l -> f a = g a) -> mapM f l = mapM g l.
Proof. induction l as [|a l IH]; intros H; [done|]. cbn [mapM]. rewrite (H a) by left. rewrite IH; [done|]. intros b Hb. apply H. by right. Qed.
Lemma omap_ext_on {X Y} (f g : X -> option Y) (l : list X) : (forall a, a ∈ l -> f a = g a) -> omap f l = omap g l.
Proof. induction l as [|a l IH]; intros H; [done|]. rewrite !omap_step. rewrite (H a) by left. rewrite IH; [done|]. intros b Hb. apply H. by right. Qed.
Lemma match_list_eq {X Y} (l l' : list X) (h h' : X -> option Y) : l = l' -> (forall a, a ∈ l' -> h a = h' a) ->
  match l with [] => None | b :: m => Some (omap h (b :: m)) end = match l' with [] => None | b :: m => Some (omap h' (b :: m)) end.
Proof. intros -> H. destruct l' as [|a l']; [done|]. f_equal. by apply omap_ext_on. Qed.
Lemma sees_csem pk {t} (x : xview t) : forall s q, xreached pk x s -> path_ok (t_nw t) (t_depth t) q -> sees x s (key_of_path (t_nw t) q) = tr_csem (xtr x) s q.
Proof.
  induction x as [t v|t W f x IH|t X A items init f x IH|t0 t1 Hn Hd x0 IH0 x1 IH1|t0 t1 Hn Hd x0 IH0 x1 IH1|t x IH|t HD x IH]; intros s q Hr Hq.
  - cbn [sees xtr track_leaf tr_csem]. by apply (got_sem v pk).
  - cbn [sees xtr track_map tr_csem t_map t_nw]. by rewrite IH.
  - cbn [sees xtr track_map tr_csem t_multi_map_fold t_map t_nw]. by rewrite IH.
  - destruct Hr as [Hr0 Hr1]. cbn [sees xtr track_intersection tr_csem t_intersection t_nw t_depth] in *. rewrite IH0 by done. rewrite <- Hn. by rewrite IH1 by (rewrite ?Hn, ?Hd; done).
  - destruct Hr as [Hr0 Hr1]. cbn [sees xtr track_union tr_csem t_union t_nw t_depth] in *. rewrite IH0 by done. rewrite <- Hn. by rewrite IH1 by (rewrite ?Hn, ?Hd; done).
  - destruct Hr as (Hne & Hl & Hf). cbn [sees xtr track_mi tr_csem t_multi_intersection t_nw t_depth] in *. unfold mi_csem. rewrite Forall_forall in Hf.
    assert (forallb (fun a => hasb t a (key_of_path (t_nw t) q)) s = has_all (xtr x) s q) as ->.
    { apply eq_true_iff_eq. rewrite has_all_true. apply forallb_Forall. intros a Ha. rewrite hasb_somb, somb_true. rewrite (xgot_sem x pk); [done|by apply Hf|done]. }
    destruct (has_all _ _ _); [|done]. apply mapM_ext_on. intros a Ha. apply IH; [by apply Hf|done].
  - destruct Hr as (Hl & Hf). cbn [sees xtr track_mu tr_csem t_multi_union t_nw t_depth] in *. unfold mu_csem. rewrite Forall_forall in Hf. apply match_list_eq.
    + apply filter_ext_on. intros a Ha. destruct (path_split q (proj1 (xview_depth x)) Hq) as (p & i & -> & Hp & Hi).
      rewrite (nearb_alive pk x a p i); [|by apply Hf|done|done]. by rewrite take_app_alt by (destruct Hp; lia).
    + intros a [Ha _]%elem_of_list_In%filter_In. apply elem_of_list_In in Ha. apply IH; [by apply Hf|done].
Qed.

(** ** the tree that a reader of the cursor sees
    Everything but `data` is the code of [t]: iterators, cursors, `materialize` and whatever else
    reads it through a cursor runs the same code on [t] and on [shown x]. *)
Definition shown {t} (x : xview t) : tree := with_data t
  (fun s k _ => Ok (if hasb t s k then sees x s k else None))
  (fun s k _ => unwrap_u (sees x s k)).
Definition lawful_shown (pk : N -> Prop) {t} (x : xview t) : lawful (shown x).
Proof.
  set (L := tr_L (xtr x)).
  assert (forall s, xreached pk x s -> l_wf L s) as Hwf by (intros s H; exact (vg_wf pk _ _ (xreached_good pk x s H))).
  refine (Lawful (shown x) (xreached pk x) (fun s q => if somb (l_sem L s q) then tr_csem (xtr x) s q else None) (l_tm L) false (l_Rv L) (l_Rk L) (l_Ru L)
    (l_nw L) (l_depth L) _ _ (fun s p i H => l_bound L s p i (Hwf s H)) (fun s p i j H => l_parent L s p i j (Hwf s H)) (l_Rk_Ru L) (l_Ru_Rv L) (l_Rk_take L) (l_Ru_take L)
    (fun s H => l_new L s (Hwf s H)) (fun s c H => l_select0 L s c (Hwf s H)) (fun s c H => l_select0_u L s c (Hwf s H)) (fun s c p i H => l_selectS L s c p i (Hwf s H))
    (fun s c p i H => l_selectS_u L s c p i (Hwf s H)) _ _ _ _); cbn [shown with_data t_nw t_depth t_T t_C t_V t_data t_data_u t_cdata t_cdata_u].
  - intros s q v n i Hr Hq Hs Hi. destruct (l_sem L s q) as [y|] eqn:E; [|done]. eapply (l_complete L); eauto.
  - intros s p i Hr Hp Ht. pose proof (l_terminal L s p i (Hwf s Hr) Hp Ht) as Hs. rewrite (proj2 (somb_true _) Hs).
    apply (tr_present (xtr x)); [by apply Hwf| |done]. apply (lawful_path_full L); [done|]. eapply (l_bound L s p i); [by apply Hwf| | |done].
    + by eapply path_ok_len.
    + destruct Hp as [Hpl _]. pose proof (xview_depth x). cbn [with_cdata t_depth]. lia.
  - intros s q Hr Hq. rewrite hasb_somb, (xgot_sem x pk), (sees_csem pk x) by done. done.
  - intros s q v Hr Hq Hs. rewrite (sees_csem pk x) by done. destruct (somb _); [|done]. by rewrite Hs.
  - intros s c p i Hr Hc Hp Hi. rewrite (tr_cdata (xtr x) s c p i (Hwf s Hr) Hc Hp Hi). eexists. split; [done|]. split; [|done]. by destruct (somb _).
  - intros s c p i v Hr Hc Hp Hi Hs. destruct (somb (l_sem L s (p ++ [i]))) eqn:E; [|done]. apply somb_true in E.
    exact (tr_cdata_u (xtr x) s c p i v (Hwf s Hr) Hc Hp Hi E Hs).
Defined.
Lemma shown_good pk {t} (x : xview t) s : xreached pk x s -> good pk (lawful_shown pk x) s.
Proof.
  intros Hr. destruct (xreached_good pk x s Hr) as [Hw Hm He]. split; [done| |].
  - unfold content in *. destruct (USIZE_MAX <? _)%N; [|done]. unfold l_at in *. cbn [lawful_shown l_sem shown with_data t_nw t_depth]. cbn [with_cdata t_nw t_depth] in Hm. by rewrite Hm.
  - intros Hx p i Hp Hl Ht. destruct (He Hx p i Hp Hl Ht) as (r & Hr1 & [Hs|Hs]); exists r; (split; [exact Hr1|]); [left|by right].
    cbn [lawful_shown l_sem]. rewrite (proj2 (somb_true _) Hs). apply (tr_present (xtr x)); [exact Hw|exact Hr1|exact Hs].
Qed.
(** both are trees of a client that keep the contract, so they are views *)
Definition xsupported {t} (x : xview t) : nw_ok (t_nw t) := l_nw (tr_L (xtr x)).
Definition gview {t} (x : xview t) : view true (with_cdata t (tr_cd (xtr x)) (tr_cdu (xtr x))) :=
  VUser true (with_cdata t (tr_cd (xtr x)) (tr_cdu (xtr x))) (xsupported x) (proj1 (xview_depth x)) (proj2 (xview_depth x)) (xview_size x).
Definition sview {t} (x : xview t) : view false (shown x) :=
  VUser false (shown x) (xsupported x) (proj1 (xview_depth x)) (proj2 (xview_depth x)) (xview_size x).
Lemma gview_reached pk {t} (x : xview t) s : xreached pk x s -> reached pk (gview x) s.
Proof.
  intros Hr. destruct (xreached_good pk x s Hr) as [Hw Hm He]. cbn [gview reached]. split; [|split].
  - pose proof (lawful_honest (tr_L (xtr x)) s Hw) as H. by rewrite tr_ok in H.
  - by apply (lawful_honest_exact (tr_L (xtr x))).
  - by apply (lawful_honest_max (tr_L (xtr x))).
Qed.
Lemma sview_reached pk {t} (x : xview t) s : xreached pk x s -> reached pk (sview x) s.
Proof.
  intros Hr. destruct (shown_good pk x s Hr) as [Hw Hm He]. cbn [sview reached]. split; [|split].
  - exact (lawful_honest (lawful_shown pk x) s Hw).
  - by apply (lawful_honest_exact (lawful_shown pk x)).
  - by apply (lawful_honest_max (lawful_shown pk x)).
Qed.

(** ** what `get` answers *)
Fixpoint gives {t} (x : xview t) : t_T t -> N -> option (t_V t) :=
  match x in xview t return t_T t -> N -> option (t_V t) with
  | XView t v => got t
  | XMap t W f x => fun s k => f <$> gives x s k
  | XMultiMapFold t X A items init f x => fun s k => (fun d => fold_left f (items d) init) <$> gives x s k
  | XIntersection t0 t1 _ _ x0 x1 => fun s k =>
    match gives x0 (fst s) k, gives x1 (snd s) k with Some y0, Some y1 => Some (y0, y1) | _, _ => None end
  | XUnion t0 t1 _ _ x0 x1 => fun s k =>
    match gives x0 (fst s) k, gives x1 (snd s) k with None, None => None | o0, o1 => Some (o0, o1) end
  | XMultiIntersection t x => fun s k => mapM (fun a => gives x a k) s
  | XMultiUnion t _ x => fun s k => match omap (fun a => gives x a k) s with [] => None | l => Some l end
  end.
Lemma mi_content_eq {X Y} (h h' : X -> option Y) (s : list X) o : o = mapM h s -> (forall a, a ∈ s -> h a = h' a) -> o = mapM h' s.
Proof. intros -> H. by apply mapM_ext_on. Qed.
Lemma mu_content_eq {X Y} (h h' : X -> option Y) (s : list X) o : o = match omap h s with [] => None | l => Some l end -> (forall a, a ∈ s -> h a = h' a) ->
  o = match omap h' s with [] => None | l => Some l end.
Proof. intros -> H. by rewrite (omap_ext_on h h' s H). Qed.
Lemma int_content_eq {X Y} (a a' : option X) (b b' : option Y) o : o = match a, b with Some y0, Some y1 => Some (y0, y1) | _, _ => None end -> a = a' -> b = b' ->
  o = match a', b' with Some y0, Some y1 => Some (y0, y1) | _, _ => None end.
Proof. by intros -> -> ->. Qed.
Lemma un_content_eq {X Y} (a a' : option X) (b b' : option Y) o :
  o = match a with Some y => Some (Some y, b) | None => match b with Some z => Some (None, Some z) | None => None end end -> a = a' -> b = b' ->
  o = match a' with Some y => Some (Some y, b') | None => match b' with Some z => Some (None, Some z) | None => None end end.
Proof. by intros -> -> ->. Qed.
Lemma gives_content pk {t} (x : xview t) : forall s k, xreached pk x s -> content (tr_L (xtr x)) s k = gives x s k.
Proof.
  induction x as [t v|t W f x IH|t X A items init f x IH|t0 t1 Hn Hd x0 IH0 x1 IH1|t0 t1 Hn Hd x0 IH0 x1 IH1|t x IH|t HD x IH]; intros s k Hr.
  - cbn [gives]. symmetry. exact (got_content v pk s k Hr).
  - cbn [gives]. rewrite <- IH by done. exact (content_map (tr_L (xtr x)) f s k).
  - cbn [gives]. rewrite <- IH by done. exact (content_map (tr_L (xtr x)) (fun d => fold_left f (items d) init) s k).
  - destruct Hr as [Hr0 Hr1]. exact (int_content_eq _ _ _ _ _ (content_intersection (tr_L (xtr x0)) (tr_L (xtr x1)) Hn Hd s k) (IH0 _ k Hr0) (IH1 _ k Hr1)).
  - destruct Hr as [Hr0 Hr1]. exact (un_content_eq _ _ _ _ _ (content_union (tr_L (xtr x0)) (tr_L (xtr x1)) Hn Hd (tr_ok _) (tr_ok _) s k) (IH0 _ k Hr0) (IH1 _ k Hr1)).
  - destruct Hr as (Hne & Hl & Hf). rewrite Forall_forall in Hf. exact (mi_content_eq _ _ _ _ (content_mi (tr_L (xtr x)) s k Hne) (fun a Ha => IH a k (Hf a Ha))).
  - destruct Hr as (Hl & Hf). rewrite Forall_forall in Hf. exact (mu_content_eq _ _ _ _ (content_mu (tr_L (xtr x)) (tr_ok _) HD s k) (fun a Ha => IH a k (Hf a Ha))).
Qed.

Lemma sel_run_impl W D (P Q : list N -> Prop) cur xs cur' : (forall p, P p -> Q p) -> sel_run W D P cur xs cur' -> sel_run W D Q cur xs cur'.
Proof.
  intros H. induction 1 as [|cur z cur1 xs cur2 Hs Hr' IH]; [constructor|]. econstructor; [|exact IH].
  unfold sel_step in *. destruct (sel_level z) as [|n]; [done|]. destruct Hs as (p' & b' & H1 & H2 & H3 & H4 & H5 & H6).
  exists p', b'. repeat (split; [done|]). split; [|done]. destruct (sel_unchecked z); [by apply H|done].
Qed.
Lemma run_selects_cdata t cd cdu s (c : t_C t) m xs : run_selects (with_cdata t cd cdu) s c m xs = run_selects t s c m xs.
Proof.
  revert c m. induction xs as [|z xs IH]; intros c m; [done|]. cbn [run_selects with_cdata t_select t_select_u].
  destruct (sel_unchecked z).
  - destruct (t_select_u t s c (sel_level z) (sel_index z)) as [[c' m']| | |]; try done. apply IH.
  - destruct (t_select t s c (sel_level z) (sel_index z)) as [[c' m']| | |]; try done. apply IH.
Qed.
(** the iterator never calls `data` *)
Lemma iter_loop_data t d du s fuel (it : iter (t_C t)) : iter_loop fuel (with_data t d du) s it = iter_loop fuel t s it.
Proof.
  revert it. induction fuel as [|fuel IH]; intros it; [done|]. cbn [iter_loop]. change (t_C (with_data t d du)) with (t_C t).
  destruct (get_c (it_iters it) (length (it_iters it) - 1)) as [q| | |]; [|done..]. cbn [rbind].
  destruct (bq_next q) as [[q' [i|]]| | |]; [done| |done..]. cbn [rbind].
  change (const_for_rev 0 (t_depth (with_data t d du) - 1) (iter_visit (with_data t d du) s)) with (const_for_rev 0 (t_depth t - 1) (iter_visit t s)).
  destruct (const_for_rev 0 (t_depth t - 1) (iter_visit t s) _) as [[it' [u|]]| | |]; [|done..]. cbn [rbind]. apply IH.
Qed.
Lemma iter_next_data t d du s fuel (it : iter (t_C t)) : iter_next fuel (with_data t d du) s it = iter_next fuel t s it.
Proof. unfold iter_next. pose proof (iter_loop_data t d du s fuel it) as H. change (t_C (with_data t d du)) with (t_C t). by rewrite H. Qed.
Lemma iter_drain_data t d du s fuel (it : iter (t_C t)) : iter_drain fuel (with_data t d du) s it = iter_drain fuel t s it.
Proof.
  revert it. induction fuel as [|fuel IH]; intros it; [done|]. cbn [iter_drain]. pose proof (iter_next_data t d du s (S fuel) it) as H.
  change (t_C (with_data t d du)) with (t_C t). change (t_V (with_data t d du)) with (t_V t). rewrite H.
  destruct (iter_next (S fuel) t s it) as [[it' [y|]]| | |]; [|done..]. cbn [rbind]. pose proof (IH it') as H'.
  change (t_C (with_data t d du)) with (t_C t) in H'. change (t_V (with_data t d du)) with (t_V t) in H'. by rewrite H'.
Qed.
Lemma iter_poll_data t d du s fuel m (it : iter (t_C t)) : iter_poll fuel m (with_data t d du) s it = iter_poll fuel m t s it.
Proof.
  revert it. induction m as [|m IH]; intros it; [done|]. cbn [iter_poll]. pose proof (iter_next_data t d du s fuel it) as H.
  change (t_C (with_data t d du)) with (t_C t). change (t_V (with_data t d du)) with (t_V t). rewrite H.
  destruct (iter_next fuel t s it) as [[it' o]| | |]; [|done..]. cbn [rbind]. pose proof (IH it') as H'.
  change (t_C (with_data t d du)) with (t_C t) in H'. change (t_V (with_data t d du)) with (t_V t) in H'. by rewrite H'.
Qed.
Lemma iter_collect_data t d du s fuel : iter_collect fuel (with_data t d du) s = iter_collect fuel t s.
Proof.
  unfold iter_collect. change (iter_new (with_data t d du) s) with (iter_new t s). destruct (iter_new t s) as [it| | |]; [|done..]. cbn [rbind].
  pose proof (iter_drain_data t d du s fuel it) as H'.
  change (t_C (with_data t d du)) with (t_C t) in H'. change (t_V (with_data t d du)) with (t_V t) in H'.
  change (t_C (with_data t d du)) with (t_C t). change (t_V (with_data t d du)) with (t_V t). by rewrite H'.
Qed.
Lemma iter_visits_data t d du s ps : iter_visits (with_data t d du) s ps -> iter_visits t s ps.
Proof.
  intros (n & l & H). exists n, l. intros fuel Hf. destruct (H fuel Hf) as (E & it & it' & E1 & E2 & E3).
  split; [exact (eq_trans (eq_sym (iter_collect_data t d du s fuel)) E)|]. exists it, it'. split; [exact E1|]. split; [|exact E3].
  exact (eq_trans (eq_sym (iter_drain_data (logged t) d du s fuel it)) E2).
Qed.
Lemma iter_visits_data_r t d du s ps : iter_visits t s ps -> iter_visits (with_data t d du) s ps.
Proof.
  intros (n & l & H). exists n, l. intros fuel Hf. destruct (H fuel Hf) as (E & it & it' & E1 & E2 & E3).
  split; [exact (eq_trans (iter_collect_data t d du s fuel) E)|]. exists it, it'. split; [exact E1|]. split; [|exact E3].
  exact (eq_trans (iter_drain_data (logged t) d du s fuel it) E2).
Qed.
Section all.
Context {t : tree} (x : xview t) (pk : N -> Prop) (s : t_T t).
Hypothesis Hr : xreached pk x s.
Lemma xget k : tree_get t s k = if decide (view_key_ok t k) then Ok (gives x s k) else Panic.
Proof.
  destruct (good_get pk (tr_L (xtr x)) s k (xreached_good pk x s Hr)) as [H1 H2]. destruct (decide (view_key_ok t k)) as [Hk|Hk].
  - etrans; [exact (H1 Hk)|]. f_equal. by apply (gives_content pk).
  - exact (H2 Hk).
Qed.
Lemma xget_Some k y : tree_get t s k = Ok (Some y) <-> gives x s k = Some y.
Proof.
  etrans; [exact (good_get_Some pk (tr_L (xtr x)) s k y (xreached_good pk x s Hr) (xview_size x))|].
  pose proof (gives_content pk x s k Hr) as H. split; intros H'; [by rewrite <- H|]. by etrans.
Qed.
Lemma has_gives k : hasb t s k = somb (gives x s k).
Proof. rewrite hasb_somb. f_equal. rewrite (xgot_content x pk) by done. by apply (gives_content pk). Qed.
Lemma shown_get k : view_key_ok t k -> tree_get (shown x) s k = Ok (if hasb t s k then sees x s k else None).
Proof. intros Hk. unfold tree_get. cbn [shown with_data t_nw t_depth]. destruct (index_from_spec (t_nw t) (t_depth t) k) as [[-> _]|[_ H]]; [done|]. unfold view_key_ok in Hk. lia. Qed.
Lemma has_key_ok k : hasb t s k = true -> view_key_ok t k.
Proof. unfold hasb, got. rewrite xget. destruct (decide (view_key_ok t k)); done. Qed.
(** a key is reported to a reader of the cursor iff `get` finds it *)
Lemma shown_get_Some k y : tree_get (shown x) s k = Ok (Some y) <-> is_Some (gives x s k) /\ sees x s k = Some y.
Proof.
  rewrite <- somb_true, <- has_gives. split.
  - intros H. destruct (view_get_total (sview x) pk s (sview_reached pk x s Hr) k) as [_ H2].
    destruct (decide (view_key_ok t k)) as [Hk|Hk]; [|by rewrite (H2 Hk) in H]. rewrite shown_get in H by done. destruct (hasb t s k); [|done]. split; [done|]. by injection H.
  - intros [H1 H2]. rewrite shown_get by (by apply has_key_ok). by rewrite H1, H2.
Qed.
Lemma sees_some k : is_Some (gives x s k) -> is_Some (sees x s k).
Proof.
  intros H. assert (view_key_ok t k) as Hk by (apply has_key_ok; by rewrite has_gives, somb_true).
  assert (k < msize (t_nw t) ^ N.of_nat (t_depth t))%N as Hlt by (unfold view_key_ok in Hk; lia).
  destruct (level_indices_ok (t_nw t) (t_depth t) k (xsupported x) (proj1 (xview_depth x)) Hlt) as [Hq Hkq].
  rewrite <- Hkq. rewrite (sees_csem pk x) by done. apply (tr_present (xtr x)); [exact (vg_wf pk _ _ (xreached_good pk x s Hr))|done|].
  rewrite <- (xgot_sem x pk) by done. rewrite (xgot_content x pk) by done. rewrite (gives_content pk) by done. by rewrite Hkq.
Qed.
Lemma shown_has k : (exists y, tree_get (shown x) s k = Ok (Some y)) <-> exists y, tree_get t s k = Ok (Some y).
Proof.
  split.
  - intros (y & [[z H] _]%shown_get_Some). exists z. by apply xget_Some.
  - intros (y & H%xget_Some). destruct (sees_some k) as [z Hz]; [by eexists|]. exists z. apply shown_get_Some. split; [by eexists|done].
Qed.
Lemma shown_few : few t s -> few (shown x) s.
Proof. intros H ks Hn Hk. apply H; [done|]. intros k Hk'. by apply shown_has, Hk. Qed.
Lemma shown_has_elem p : has_elem (shown x) s p <-> has_elem t s p.
Proof.
  unfold has_elem. split; intros (k & y & Hb & Hg).
  - destruct (proj1 (shown_has k)) as [z Hz]; [by eexists|]. by exists k, z.
  - destruct (proj2 (shown_has k)) as [z Hz]; [by eexists|]. by exists k, z.
Qed.
Lemma xcursor xs p checked :
  sel_run (msize (t_nw t)) (t_depth t) (has_elem t s) None xs (Some (p, checked)) ->
  exists c0 c mk, t_new t s = Ok c0 /\ run_selects t s c0 None xs = Ok (c, Some mk) /\
    length mk = t_nw t /\
    (forall i, has_elem t s (p ++ [i]) -> mbit mk i = true) /\
    (length p = t_depth t - 1 -> forall i, mbit mk i = true -> has_elem t s (p ++ [i])) /\
    (t_exact t = true -> forall i, mbit mk i = true -> has_elem t s (p ++ [i]) \/ key_below t pk (p ++ [i])) /\
    (length p = t_depth t - 1 -> forall i, (i < msize (t_nw t))%N -> let k := undigits (msize (t_nw t)) (p ++ [i]) in
      (forall y, is_Some (gives x s k) -> sees x s k = Some y -> t_cdata_u t s c i = Ok y) /\
      (checked = true -> t_cdata t s c i = Ok (sees x s k))).
Proof.
  intros Hrun. destruct (view_cursor (gview x) pk s (gview_reached pk x s Hr) xs p checked Hrun) as (c0 & c & mk & E0 & E1 & Hlen & Hm1 & Hm2 & Hm3 & _).
  set (L := tr_L (xtr x)). assert (l_wf L s) as Hw by exact (vg_wf pk _ _ (xreached_good pk x s Hr)).
  exists c0, c, mk. split; [exact E0|]. split; [exact (eq_trans (eq_sym (run_selects_cdata t _ _ s c0 None xs)) E1)|]. split; [exact Hlen|]. split; [exact Hm1|]. split; [exact Hm2|]. split; [exact Hm3|]. intros Hl i Hi k.
  assert (sel_run (msize (t_nw t)) (t_depth t) (has_below L s) None xs (Some (p, checked))) as Hrun'.
  { eapply sel_run_impl; [|exact Hrun]. intros p' (k' & y & Hb & Hg). exists k', y. split; [exact Hb|].
    exact (proj1 (good_get_Some pk L s k' y (xreached_good pk x s Hr) (xview_size x)) Hg). }
  destruct (l_new L s Hw) as (c0' & Hn & Hv). change (t_new t s = Ok c0') in Hn. change (t_new t s = Ok c0) in E0. rewrite E0 in Hn. injection Hn as <-.
  destruct (run_selects_ok L s c0 None None xs _ Hw Hv Hrun') as (c' & m' & E & Hp & Hlp & HR & mk' & Hmk & Hm).
  pose proof (eq_trans (eq_sym (run_selects_cdata t _ _ s c0 None xs)) E) as E2; pose proof (eq_trans (eq_sym (run_selects_cdata t _ _ s c0 None xs)) E1) as E3; rewrite E3 in E2; clear E; rename E2 into E. injection E as <- <-.
  assert (path_ok (t_nw t) (t_depth t - 1) p) as Hp' by (split; [done|apply Hp]).
  pose proof (lawful_path_full L p i Hp' Hi) as Hq. assert (k = key_of_path (t_nw t) (p ++ [i])) as Hk by (unfold k; apply undigits_key). rewrite Hk.
  rewrite (sees_csem pk x) by done. split.
  - intros y Hg Hy. apply (tr_cdata_u (xtr x) s c p i y); try done; [destruct checked; [by apply (l_Rk_Ru L)|done]|].
    rewrite <- (xgot_sem x pk) by done. rewrite (xgot_content x pk) by done. by rewrite (gives_content pk).
  - intros ->. by apply (tr_cdata (xtr x)).
Qed.
Lemma xiter : exists n l, (forall fuel, n <= fuel -> iter_collect fuel t s = Ok l) /\
  StronglySorted N.lt l.*1 /\ forall k y, (k, y) ∈ l <-> is_Some (gives x s k) /\ sees x s k = Some y.
Proof.
  destruct (view_iter (sview x) pk s (sview_reached pk x s Hr)) as (n & l & Hl & Hs & He). exists n, l.
  split; [intros fuel Hf; exact (eq_trans (eq_sym (iter_collect_data t _ _ s fuel)) (Hl fuel Hf))|]. split; [exact Hs|].
  intros k y. rewrite <- shown_get_Some. apply He.
Qed.
Lemma xpoll : exists n l, (forall fuel, n <= fuel -> iter_collect fuel t s = Ok l) /\
  (forall m fuel, n <= fuel -> exists it it', iter_new t s = Ok it /\
      iter_poll fuel m t s it = Ok (it', take m ((Some <$> l) ++ replicate m None))).
Proof.
  destruct (view_poll (sview x) pk s (sview_reached pk x s Hr)) as (n & l & Hl & Hp). exists n, l.
  split; [intros fuel Hf; exact (eq_trans (eq_sym (iter_collect_data t _ _ s fuel)) (Hl fuel Hf))|].
  intros m fuel Hf. destruct (Hp m fuel Hf) as (it & it' & E1 & E2). exists it, it'. split; [exact E1|].
  exact (eq_trans (eq_sym (iter_poll_data t _ _ s fuel m it)) E2).
Qed.
Lemma xvisits : exists ps l, iter_visits t s ps /\
  (exists n, forall fuel, n <= fuel -> iter_collect fuel t s = Ok l) /\
  NoDup ps /\ [] ∈ ps /\
  (forall p, p ∈ ps -> length p < t_depth t) /\
  (forall p, length p < t_depth t -> has_elem t s p -> p ∈ ps) /\
  (t_exact t = true -> (forall p, p ∈ ps -> p = [] \/ has_elem t s p \/ key_below t pk p) /\
     ((forall k, ~ pk k) -> length ps <= 1 + (t_depth t - 1) * length l)).
Proof.
  destruct (view_visits (sview x) pk s (sview_reached pk x s Hr)) as (ps & l & Hv & [n Hl] & Hn & H0 & Hd & Hh & Hx). exists ps, l.
  split; [exact (iter_visits_data t _ _ s ps Hv)|]. split; [exists n; intros fuel Hf; exact (eq_trans (eq_sym (iter_collect_data t _ _ s fuel)) (Hl fuel Hf))|].
  split; [exact Hn|]. split; [exact H0|]. split; [exact Hd|]. split; [intros p Hp Hq; apply Hh; [exact Hp|by apply shown_has_elem]|].
  intros He. destruct (Hx He) as [H1 H2]. split; [|exact H2]. intros p Hp. destruct (H1 p Hp) as [?|[?|?]]; [by left| |by right; right].
  right; left. by apply shown_has_elem.
Qed.
Lemma xunchecked k y : gives x s k = Some y -> tree_get_unchecked t s k = Ok y.
Proof. intros H%xget_Some. exact (view_unchecked (gview x) pk s (gview_reached pk x s Hr) k y H). Qed.
End all.
