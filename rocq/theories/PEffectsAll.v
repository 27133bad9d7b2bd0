(** * Closures with side effects and panics in every nesting of the operations, also unions over multi_unions

    PEffectsLaws.v follows Compose.v: there the operands of `union` and `multi_union` are not
    `multi_union`s.  Here nothing is excluded, as in AllViews.v.  What a union over folded
    `multi_union`s evaluates for an iterator then also depends on the other keys of the last node:
    see [It] under [PXMultiUnion]. *)
From Verif Require Import Base BitUtils BitUtilsProofs BitQueue LevelIndices LevelIndicesProofs ConstLoops Hierarchy Lawful IterProofs Ops OpsProofs MultiProofs Spec Dense
  Client TreeClient Generic Contract Materialize MaterializeProofs MaterializeLaws Compose ViewLaws MaterializeViews EffectsLaws PEffects PEffectsLaws IterCost CostLaws AllViews.

Section all.
Context {St : Type}.
Notation ans := (ans (St := St)).

(** [pxview E]: the expression [E] is built by `map` with such functions, `intersection`, `union`, and
    `multi_intersection` and `multi_union` whose data iterators are consumed by such a function
    (`multi_map_fold`, `map`), in any nesting, from closure-free expressions in any nesting *)
Inductive pxview : ptree St -> Type :=
| PXView t : xview t -> pxview (p_pure t)
| PXMap E W : pxview E -> pxview (p_map E W)
| PXIntersection E0 E1 : t_nw (p_t E1) = t_nw (p_t E0) -> t_depth (p_t E1) = t_depth (p_t E0) ->
    pxview E0 -> pxview E1 -> pxview (p_intersection E0 E1)
| PXUnion E0 E1 : t_nw (p_t E1) = t_nw (p_t E0) -> t_depth (p_t E1) = t_depth (p_t E0) ->
    pxview E0 -> pxview E1 -> pxview (p_union E0 E1)
| PXMultiIntersection E A W : pxview E -> pxview (p_multi_intersection E A W)
| PXMultiUnion E A W : 2 <= t_depth (p_t E) -> pxview E -> pxview (p_multi_union E A W).
(** the closure-free expression underneath *)
Fixpoint pxunder {E} (x : pxview E) : xview (p_t E) :=
  match x in pxview E return xview (p_t E) with
  | PXView t v => v
  | PXMap E W x => pxunder x
  | PXIntersection E0 E1 Hn Hd x0 x1 => XIntersection (p_t E0) (p_t E1) Hn Hd (pxunder x0) (pxunder x1)
  | PXUnion E0 E1 Hn Hd x0 x1 => XUnion (p_t E0) (p_t E1) Hn Hd (pxunder x0) (pxunder x1)
  | PXMultiIntersection E A W x => XMultiIntersection (p_t E) (pxunder x)
  | PXMultiUnion E A W HD x => XMultiUnion (p_t E) HD (pxunder x)
  end.

(** evaluating an expression for one key.  The cursor of a `multi_union` evaluates the operands that
    have an element in the last node of the key, and answers even if none of them has one for the
    key: then only the consumer's start and end are called *)
Fixpoint pxev {E} (x : pxview E) : mode -> p_S E -> N -> ans (option (p_V E)) :=
  match x in pxview E return mode -> p_S E -> N -> ans (option (p_V E)) with
  | PXView t v => fun m s k => aret (match m with It => sees v s k | _ => got t s k end)
  | PXMap E W x => fun m s k =>
    abind (pxev x m (fst s) k) (fun o => match o with Some y => abind (snd s y) (fun w => aret (Some w)) | None => aret None end)
  | PXIntersection E0 E1 _ _ x0 x1 => fun m s k =>
    abind (pxev x0 m (fst s) k) (fun o0 => abind (pxev x1 m (snd s) k) (fun o1 =>
    aret (match o0, o1 with Some y0, Some y1 => Some (y0, y1) | _, _ => None end)))
  | PXUnion E0 E1 _ _ x0 x1 => fun m s k =>
    abind (pxev x0 (checked m) (fst s) k) (fun o0 => abind (pxev x1 (checked m) (snd s) k) (fun o1 =>
    aret (match o0, o1 with None, None => None | _, _ => Some (o0, o1) end)))
  | PXMultiIntersection E A W x => fun m s k =>
    match m with
    | Get => abind (all_of ((fun a => pxev x Get a k) <$> fst s)) (fun r => match r with
             | Some xs => abind (consume (snd s) ((fun y => aret (Some y)) <$> xs)) (fun w => aret (Some w))
             | None => aret None
             end)
    | GetU => abind (consume (snd s) ((fun a => pxev x GetU a k) <$> fst s)) (fun w => aret (Some w))
    | It => if forallb (fun a => phas E a k) (fst s)
            then abind (consume (snd s) ((fun a => pxev x It a k) <$> fst s)) (fun w => aret (Some w)) else aret None
    end
  | PXMultiUnion E A W _ x => fun m s k =>
    match m with
    | Get => abind (some_of ((fun a => pxev x Get a k) <$> fst s)) (fun xs => match xs with
             | [] => aret None
             | _ => abind (consume (snd s) ((fun y => aret (Some y)) <$> xs)) (fun w => aret (Some w))
             end)
    | GetU => abind (consume (snd s) ((fun a => pxev x Get a k) <$> fst s)) (fun w => aret (Some w))
    | It => match List.filter (near E k) (fst s) with
            | [] => aret None
            | l => abind (consume (snd s) ((fun a => pxev x It a k) <$> l)) (fun w => aret (Some w))
            end
    end
  end.

(** ** one access *)
Notation XL x := (tr_L (xtr (pxunder x))).
Definition pxhas {E} (x : pxview E) (s : p_S E) (q : list N) : Prop := is_Some (l_sem (XL x) (p_src E s) q).
Record pxfollows {E} (x : pxview E) (s : p_S E) : Prop := PXFollows {
  xf_has : forall m q, path_ok (t_nw (p_t E)) (t_depth (p_t E)) q -> pxhas x s q -> never_none (pxev x m s (key_of_path (t_nw (p_t E)) q));
  xf_hasnt : forall q, path_ok (t_nw (p_t E)) (t_depth (p_t E)) q -> ~ pxhas x s q -> never_some (pxev x Get s (key_of_path (t_nw (p_t E)) q));
  xf_data : forall q, path_ok (t_nw (p_t E)) (t_depth (p_t E)) q -> does (p_data E s (key_of_path (t_nw (p_t E)) q) q) (pxev x Get s (key_of_path (t_nw (p_t E)) q));
  xf_data_u : forall q, path_ok (t_nw (p_t E)) (t_depth (p_t E)) q -> pxhas x s q ->
    does (p_data_u E s (key_of_path (t_nw (p_t E)) q) q) (unsome (pxev x GetU s (key_of_path (t_nw (p_t E)) q)));
  xf_cdata : forall c p i, l_Rk (XL x) (p_src E s) c p -> path_ok (t_nw (p_t E)) (t_depth (p_t E) - 1) p -> (i < msize (t_nw (p_t E)))%N ->
    does (p_cdata E s c i) (pxev x It s (key_of_path (t_nw (p_t E)) (p ++ [i])));
  xf_cdata_u : forall c p i, l_Ru (XL x) (p_src E s) c p -> path_ok (t_nw (p_t E)) (t_depth (p_t E) - 1) p -> (i < msize (t_nw (p_t E)))%N ->
    pxhas x s (p ++ [i]) -> does (p_cdata_u E s c i) (unsome (pxev x It s (key_of_path (t_nw (p_t E)) (p ++ [i]))));
}.
Lemma px_full {E} (x : pxview E) p i : path_ok (t_nw (p_t E)) (t_depth (p_t E) - 1) p -> (i < msize (t_nw (p_t E)))%N -> path_ok (t_nw (p_t E)) (t_depth (p_t E)) (p ++ [i]).
Proof. exact (lawful_path_full (XL x) p i). Qed.
Lemma px_wf pk {E} (x : pxview E) s : xreached pk (pxunder x) (p_src E s) -> l_wf (XL x) (p_src E s).
Proof. intros Hr. exact (vg_wf pk _ _ (xreached_good pk _ _ Hr)). Qed.
Lemma pxhas_dec {E} (x : pxview E) s q : {pxhas x s q} + {~ pxhas x s q}.
Proof. unfold pxhas. destruct (l_sem _ _ _); [left; by eexists|right; by intros [? ?]]. Qed.
Lemma phas_px pk {E} (x : pxview E) s q : xreached pk (pxunder x) (p_src E s) -> path_ok (t_nw (p_t E)) (t_depth (p_t E)) q ->
  phas E s (key_of_path (t_nw (p_t E)) q) = true <-> pxhas x s q.
Proof.
  intros Hr Hq. unfold phas, pxhas. rewrite (xgot_sem (pxunder x) pk) by done. destruct (l_sem _ _ _); (split; [|intros [? ?]]); try done; intros _; by eexists.
Qed.
Lemma px_last pk {E} (x : pxview E) s p i : xreached pk (pxunder x) (p_src E s) -> path_ok (t_nw (p_t E)) (t_depth (p_t E) - 1) p -> (i < msize (t_nw (p_t E)))%N ->
  l_tm (XL x) (p_src E s) p i = true <-> pxhas x s (p ++ [i]).
Proof. intros Hr Hp Hi. exact (lawful_last_tm (XL x) (p_src E s) p i (px_wf pk x s Hr) Hp Hi). Qed.
Lemma near_px pk {E} (x : pxview E) s p i : xreached pk (pxunder x) (p_src E s) -> path_ok (t_nw (p_t E)) (t_depth (p_t E) - 1) p -> (i < msize (t_nw (p_t E)))%N ->
  near E (key_of_path (t_nw (p_t E)) (p ++ [i])) s = alive (XL x) (p_src E s) p.
Proof. exact (nearb_alive pk (pxunder x) (p_src E s) p i). Qed.

(** a union over such operands, in the reading that is made of it *)
Lemma px_union_has {t0 t1} (L0 : lawful t0) (L1 : lawful t1) Hn Hd H0 H1 s q :
  is_Some (l_sem (lawful_union L0 L1 Hn Hd H0 H1) s q) <-> is_Some (l_sem L0 (fst s) q) \/ is_Some (l_sem L1 (snd s) q).
Proof. exact (union_sem_is_Some L0 L1 s q). Qed.
Lemma px_int_has {t0 t1} (L0 : lawful t0) (L1 : lawful t1) Hn Hd s q :
  is_Some (l_sem (lawful_intersection L0 L1 Hn Hd) s q) <-> is_Some (l_sem L0 (fst s) q) /\ is_Some (l_sem L1 (snd s) q).
Proof.
  split.
  - intros [[v0 v1] H]. apply (intersection_sem_Some L0 L1) in H as [H0 H1]. split; by eexists.
  - intros [[v0 H0] [v1 H1]]. exists (v0, v1). by apply (intersection_sem_Some L0 L1).
Qed.
Lemma px_mi_has {t} (L : lawful t) s q : is_Some (l_sem (lawful_multi_intersection L) s q) <-> Forall (fun a => is_Some (l_sem L a q)) s.
Proof. cbn [lawful_multi_intersection l_sem]. unfold mi_sem. apply mapM_is_Some. Qed.
Lemma px_mu_has {t} (L : lawful t) H HD s q : is_Some (l_sem (lawful_multi_union L H HD) s q) <-> Exists (fun a => is_Some (l_sem L a q)) s.
Proof. cbn [lawful_multi_union l_sem]. etrans; [apply mu_sem_is_Some|]. symmetry. apply Exists_exists. Qed.
Lemma px_mi_bit {t} (L : lawful t) s c p i : mi_Rk L s c p -> path_ok (t_nw t) (t_depth t - 1) p -> (i < msize (t_nw t))%N ->
  mask_get_bit (mi_terminal c) i = Ok (mi_tm L s p i).
Proof.
  intros [_ Ht] [Hl Hf] Hi. pose proof (l_depth L). specialize (Ht ltac:(lia)). rewrite take_ge in Ht by lia.
  destruct Ht as [Hm Hb]. rewrite (mask_get_bit_ok (t_nw t)) by done. f_equal. apply Hb.
Qed.

Lemma pxview_follows pk {E} (x : pxview E) : forall s, xreached pk (pxunder x) (p_src E s) -> pxfollows x s.
Proof.
  induction x as [t v|E W x IH|E0 E1 Hn Hd x0 IH0 x1 IH1|E0 E1 Hn Hd x0 IH0 x1 IH1|E A W x IH|E A W HD x IH]; intros s Hr.
  - cbn [pxunder p_pure p_src p_S p_t] in Hr. pose proof (vg_wf pk _ _ (xreached_good pk v s Hr)) as Hwf.
    split; cbn [p_pure p_t p_src p_data p_data_u p_cdata p_cdata_u pxev pxunder]; unfold pxhas; cbn [pxunder p_pure p_src p_t].
    + intros m q Hq Hh st. assert (never_none (St := St) (aret (sees v s (key_of_path (t_nw t) q)))) as H1.
      { intros st'. rewrite (sees_csem pk v) by done. destruct (tr_present (xtr v) s q Hwf Hq Hh) as [y ->]. done. }
      assert (never_none (St := St) (aret (got t s (key_of_path (t_nw t) q)))) as H2.
      { intros st'. rewrite (xgot_sem v pk) by done. destruct Hh as [y ->]. done. }
      destruct m; [apply H2|apply H2|apply H1].
    + intros q Hq Hh st y. rewrite (xgot_sem v pk) by done. unfold aret. cbn [fst]. intros [= Hy]. apply Hh. by rewrite Hy.
    + intros q Hq. apply does_lift. rewrite (xgot_sem v pk) by done. exact (l_data (tr_L (xtr v)) s q Hwf Hq).
    + intros q Hq [y Hy] st. assert (got t s (key_of_path (t_nw t) q) = Some y) as Hg by (by rewrite (xgot_sem v pk)).
      unfold plift, unsome, aret. rewrite Hg. pose proof (l_data_u (tr_L (xtr v)) s q y Hwf Hq Hy) as Hd. cbn [with_cdata t_data_u t_nw] in Hd. by rewrite Hd.
    + intros c p i Hc Hp Hi. apply does_lift. rewrite (tr_cdata (xtr v) s c p i Hwf Hc Hp Hi). f_equal. symmetry.
      apply (sees_csem pk v); [done|]. by apply (lawful_path_full (tr_L (xtr v))).
    + intros c p i Hc Hp Hi Hh st. unfold plift, unsome, aret. pose proof (lawful_path_full (tr_L (xtr v)) p i Hp Hi) as Hq.
      rewrite (sees_csem pk v) by done. destruct (tr_present (xtr v) s (p ++ [i]) Hwf Hq Hh) as [y Hy]. rewrite Hy.
      by rewrite (tr_cdata_u (xtr v) s c p i y Hwf Hc Hp Hi Hh Hy).
  - destruct s as [s f]. destruct (IH s Hr) as [H1 H2 H3 H4 H5 H6].
    split; cbn [p_map p_t p_src p_data p_data_u p_cdata p_cdata_u pxev fst snd]; unfold pxhas in *; cbn [pxunder p_map p_src p_t fst] in *.
    + intros m q Hq Hh. apply map_has. by apply H1.
    + intros q Hq Hh. apply map_hasnt. by apply H2.
    + intros q Hq. apply does_map. by apply H3.
    + intros q Hq Hh. apply does_map_u; [by apply H1|by apply H4].
    + intros c p i Hc Hp Hi. apply does_map. by apply H5.
    + intros c p i Hc Hp Hi Hh. apply does_map_u; [apply H1; [by apply (px_full x)|done]|by apply H6].
  - destruct s as [s0 s1]. destruct Hr as [Hr0 Hr1]. cbn [p_intersection p_src fst snd] in Hr0, Hr1.
    destruct (IH0 s0 Hr0) as [A1 A2 A3 A4 A5 A6]. destruct (IH1 s1 Hr1) as [B1 B2 B3 B4 B5 B6].
    assert (forall q, pxhas (PXIntersection E0 E1 Hn Hd x0 x1) (s0, s1) q <-> pxhas x0 s0 q /\ pxhas x1 s1 q) as Hhas.
    { intros q. exact (px_int_has (XL x0) (XL x1) Hn Hd (p_src E0 s0, p_src E1 s1) q). }
    rewrite Hn, Hd in *.
    split; cbn [p_intersection p_t t_intersection t_nw t_depth p_data p_data_u p_cdata p_cdata_u pxev fst snd].
    + intros m q Hq [Hh0 Hh1]%Hhas. apply both_has; [by apply A1|by apply B1].
    + intros q Hq Hh. apply both_hasnt. destruct (pxhas_dec x0 s0 q) as [H0|H0]; [right; apply B2|left; apply A2]; try done. intros H. by apply Hh, Hhas.
    + intros q Hq. apply does_both; [by apply A3|by apply B3].
    + intros q Hq [Hh0 Hh1]%Hhas. apply does_both_u; [by apply A1|by apply B1|by apply A4|by apply B4].
    + intros [c0 c1] p i [Hc0 Hc1] Hp Hi. cbn [p_intersection p_src fst snd] in Hc0, Hc1 |- *. apply does_both; [by apply A5|by apply B5].
    + intros [c0 c1] p i [Hc0 Hc1] Hp Hi [Hh0 Hh1]%Hhas. cbn [p_intersection p_src fst snd] in Hc0, Hc1 |- *.
      pose proof (px_full x0 p i Hp Hi). apply does_both_u; [by apply A1|by apply B1|by apply A6|by apply B6].
  - destruct s as [s0 s1]. destruct Hr as [Hr0 Hr1]. cbn [p_union p_src fst snd] in Hr0, Hr1.
    destruct (IH0 s0 Hr0) as [A1 A2 A3 A4 A5 A6]. destruct (IH1 s1 Hr1) as [B1 B2 B3 B4 B5 B6].
    assert (forall q, pxhas (PXUnion E0 E1 Hn Hd x0 x1) (s0, s1) q <-> pxhas x0 s0 q \/ pxhas x1 s1 q) as Hhas.
    { intros q. exact (px_union_has (XL x0) (XL x1) Hn Hd (tr_ok _) (tr_ok _) (p_src E0 s0, p_src E1 s1) q). }
    rewrite Hn, Hd in *.
    assert (forall m q, path_ok (t_nw (p_t E0)) (t_depth (p_t E0)) q -> pxhas (PXUnion E0 E1 Hn Hd x0 x1) (s0, s1) q ->
      never_none (pxev (PXUnion E0 E1 Hn Hd x0 x1) m (s0, s1) (key_of_path (t_nw (p_t E0)) q))) as HA.
    { intros m q Hq Hh%Hhas. apply either_has. destruct Hh; [left; by apply A1|right; by apply B1]. }
    assert (forall q, path_ok (t_nw (p_t E0)) (t_depth (p_t E0)) q ->
      does (p_data (p_union E0 E1) (s0, s1) (key_of_path (t_nw (p_t E0)) q) q) (pxev (PXUnion E0 E1 Hn Hd x0 x1) Get (s0, s1) (key_of_path (t_nw (p_t E0)) q))) as HC.
    { intros q Hq. apply does_either; [by apply A3|by apply B3]. }
    assert (forall c p i, l_Rk (XL x0) (p_src E0 s0) (fst c) p /\ l_Rk (XL x1) (p_src E1 s1) (snd c) p ->
      path_ok (t_nw (p_t E0)) (t_depth (p_t E0) - 1) p -> (i < msize (t_nw (p_t E0)))%N ->
      does (p_cdata (p_union E0 E1) (s0, s1) c i) (pxev (PXUnion E0 E1 Hn Hd x0 x1) It (s0, s1) (key_of_path (t_nw (p_t E0)) (p ++ [i])))) as HE.
    { intros [c0 c1] p i [Hc0 Hc1] Hp Hi. cbn [fst snd] in *. apply does_either; [by apply A5|by apply B5]. }
    split.
    + exact HA.
    + intros q Hq Hh. apply either_hasnt; [apply A2|apply B2]; try done; intros H; apply Hh, Hhas; auto.
    + exact HC.
    + intros q Hq Hh. apply (does_unwrap (p_data (p_union E0 E1) (s0, s1) _ q)).
      * exact (HA GetU q Hq Hh).
      * exact (HC q Hq).
    + intros c p i Hc Hp Hi. exact (HE c p i Hc Hp Hi).
    + intros c p i Hc Hp Hi Hh. apply (does_unwrap (p_cdata (p_union E0 E1) (s0, s1) c i)).
      * apply HA; [by apply (px_full x0)|done].
      * exact (HE c p i Hc Hp Hi).
  - destruct s as [srcs cn]. destruct Hr as (Hne & Hlen & Hall). cbn [p_multi_intersection p_src fst] in Hne, Hlen, Hall.
    rewrite fmap_length in Hlen. rewrite Forall_fmap in Hall.
    assert (Forall (pxfollows x) srcs) as HF by (eapply Forall_impl; [exact Hall|]; intros a Ha; by apply IH).
    assert (forall q, pxhas (PXMultiIntersection E A W x) (srcs, cn) q <-> Forall (fun a => pxhas x a q) srcs) as Hhas.
    { intros q. etrans; [exact (px_mi_has (XL x) (p_src E <$> srcs) q)|]. by rewrite Forall_fmap. }
    assert (forall q, path_ok (t_nw (p_t E)) (t_depth (p_t E)) q -> forallb (fun a => phas E a (key_of_path (t_nw (p_t E)) q)) srcs = true <-> Forall (fun a => pxhas x a q) srcs) as Hfb.
    { intros q Hq. rewrite forallb_forall, Forall_forall. split; intros H a Ha.
      - apply (phas_px pk x); [|done|apply H; by apply elem_of_list_In]. rewrite Forall_forall in Hall. by apply Hall.
      - apply elem_of_list_In in Ha. apply (phas_px pk x); [|done|by apply H]. rewrite Forall_forall in Hall. by apply Hall. }
    assert (forall (c : mi_cursor (t_C (p_t E))) p i, Forall2 (fun a c => l_Ru (XL x) a c p) (p_src E <$> srcs) (mi_cursors c) -> path_ok (t_nw (p_t E)) (t_depth (p_t E) - 1) p -> (i < msize (t_nw (p_t E)))%N ->
      Forall (fun a => pxhas x a (p ++ [i])) srcs ->
      does (consume_lazy cn (p_mi_items_c E srcs (mi_cursors c) i)) (consume cn ((fun a => pxev x It a (key_of_path (t_nw (p_t E)) (p ++ [i]))) <$> srcs))) as HCU.
    { intros c p i Hc Hp Hi Hh. apply does_consume. generalize dependent (mi_cursors c). clear Hne Hlen Hhas Hfb Hall. induction srcs as [|a srcs IHs]; intros cs Hc.
      - inversion_clear Hc. constructor.
      - rewrite fmap_cons in Hc. inversion_clear Hc as [|? c0 ? cs' H1 H2]. inversion_clear HF as [|? ? F1 F2]. inversion_clear Hh as [|? ? G1 G2].
        cbn [p_mi_items_c]. rewrite fmap_cons. constructor; [|by apply IHs]. apply does_unsome.
        + apply (xf_has _ _ F1); [by apply (px_full x)|done].
        + by apply (xf_cdata_u _ _ F1). }
    split; cbn [p_multi_intersection p_t t_multi_intersection t_nw t_depth p_data p_data_u p_cdata p_cdata_u pxev fst snd].
    + intros m q Hq Hh. destruct m.
      * apply Hhas in Hh. intros st. unfold abind at 1.
        assert (never_none (all_of ((fun a => pxev x Get a (key_of_path (t_nw (p_t E)) q)) <$> srcs))) as Hn.
        { apply all_of_has. rewrite Forall_fmap. rewrite Forall_forall in *. intros a Ha. apply (xf_has _ _ (HF a Ha)); [done|]. by apply Hh. }
        specialize (Hn st). destruct (all_of _ st) as [[[xs|]|] st']; try done. apply never_none_bind_some.
      * apply never_none_bind_some.
      * rewrite (proj2 (Hfb q Hq)) by (by apply Hhas). apply never_none_bind_some.
    + intros q Hq Hh st y. unfold abind at 1.
      assert (never_some (all_of ((fun a => pxev x Get a (key_of_path (t_nw (p_t E)) q)) <$> srcs))) as Hn.
      { apply all_of_hasnt. rewrite Exists_fmap. assert (Exists (fun a => ~ pxhas x a q) srcs) as Hex.
        { apply not_Forall_Exists; [|intros H; by apply Hh, Hhas]. intros a. exact (pxhas_dec x a q). }
        rewrite Exists_exists in *. destruct Hex as (a & Ha & Hna). exists a. split; [done|]. rewrite Forall_forall in HF. by apply (xf_hasnt _ _ (HF a Ha)). }
      specialize (Hn st). destruct (all_of _ st) as [[[xs|]|] st']; try done. exfalso. by apply (Hn xs).
    + intros q Hq. eapply does_eq; [|apply (does_bind _ _ (abind (all_of ((fun a => pxev x Get a (key_of_path (t_nw (p_t E)) q)) <$> srcs)) (fun r => aret (match r with Some xs => Some ([] ++ xs) | None => None end)))
        (fun r => match r with Some xs => abind (consume cn ((fun y => aret (Some y)) <$> xs)) (fun w => aret (Some w)) | None => aret None end))].
      * intros st. etrans; [apply abind_assoc|]. apply abind_ext. intros [xs|] st'; done.
      * apply does_mi_loop; [|cbn [length]; unfold MULTI_N; lia]. eapply Forall_impl; [exact HF|]. intros a Ha. by apply (xf_data _ _ Ha).
      * intros [xs|]; [|apply does_ret]. cbn [psome]. apply does_bind; [apply does_consume_items|]. intros w. apply does_ret.
    + intros q Hq Hh%Hhas. eapply does_eq; [intros st; symmetry; apply unsome_some|]. apply does_consume. unfold p_mi_items_u.
      apply Forall2_fmap, Forall_Forall2_diag. rewrite Forall_forall in *. intros a Ha. apply does_unsome; [by apply (xf_has _ _ (HF a Ha)); [|apply Hh]|].
      by apply (xf_data_u _ _ (HF a Ha)); [|apply Hh].
    + intros c p i Hc Hp Hi. pose proof (px_mi_bit (XL x) _ c p i Hc Hp Hi) as Hbit.
      assert (mi_tm (XL x) (p_src E <$> srcs) p i = forallb (fun a => phas E a (key_of_path (t_nw (p_t E)) (p ++ [i]))) srcs) as Htm.
      { apply eq_true_iff_eq. rewrite Hfb by (by apply (px_full x)). unfold mi_tm. rewrite forallb_forall, Forall_forall. split.
        - intros H a Ha. rewrite Forall_forall in Hall. apply (px_last pk x); [by apply Hall|done|done|]. apply H, elem_of_list_In. by apply (elem_of_list_fmap_1 (p_src E)).
        - intros H a' Ha'. apply elem_of_list_In, (elem_of_list_fmap (p_src E)) in Ha' as (a & -> & Ha). rewrite Forall_forall in Hall.
          apply (px_last pk x); [by apply Hall|done|done|]. by apply H. }
      apply (does_lift_bind _ (forallb (fun a => phas E a (key_of_path (t_nw (p_t E)) (p ++ [i]))) srcs)); [etrans; [exact Hbit|]; f_equal; exact Htm|]. destruct (forallb _ srcs) eqn:Ef; [|apply does_ret].
      apply does_bind; [|intros w; apply does_ret]. apply HCU; try done; [|by apply (Hfb _ (px_full x p i Hp Hi))].
      destruct Hc as [[Hc _ _] _]. eapply Forall2_impl; [exact Hc|]. intros a ch. apply l_Rk_Ru.
    + intros c p i Hc Hp Hi Hh%Hhas. rewrite (proj2 (Hfb _ (px_full x p i Hp Hi)) Hh).
      eapply does_eq; [intros st; symmetry; apply unsome_some|]. apply HCU; try done. destruct Hc as [Hc _ _]. exact Hc.
  - destruct s as [srcs cn]. destruct Hr as (Hlen & Hall). cbn [p_multi_union p_src fst] in Hlen, Hall.
    rewrite fmap_length in Hlen. rewrite Forall_fmap in Hall.
    assert (Forall (pxfollows x) srcs) as HF by (eapply Forall_impl; [exact Hall|]; intros a Ha; by apply IH).
    assert (forall q, pxhas (PXMultiUnion E A W HD x) (srcs, cn) q <-> Exists (fun a => pxhas x a q) srcs) as Hhas.
    { intros q. etrans; [exact (px_mu_has (XL x) (tr_ok _) HD (p_src E <$> srcs) q)|]. by rewrite Exists_fmap. }
    assert (forall p i, path_ok (t_nw (p_t E)) (t_depth (p_t E) - 1) p -> (i < msize (t_nw (p_t E)))%N -> pxhas (PXMultiUnion E A W HD x) (srcs, cn) (p ++ [i]) ->
      List.filter (near E (key_of_path (t_nw (p_t E)) (p ++ [i]))) srcs <> []) as Hnear.
    { intros p i Hp Hi (a & Ha & Hh)%Hhas%Exists_exists Hn. assert (In a []) as []. rewrite <- Hn. apply filter_In. split; [by apply elem_of_list_In|].
      rewrite Forall_forall in Hall. rewrite (near_px pk x) by (done || by apply Hall).
      apply (alive_has (xtr (pxunder x)) HD _ p i); [by apply (px_wf pk), Hall|done|done|exact Hh]. }
    assert (forall (c : mu_cursor (t_T (p_t E)) (t_C (p_t E))) p i, mu_Rk (XL x) (p_src E <$> srcs) c p -> path_ok (t_nw (p_t E)) (t_depth (p_t E) - 1) p -> (i < msize (t_nw (p_t E)))%N ->
      does (p_mu_cdata E (srcs, cn) c i) (pxev (PXMultiUnion E A W HD x) It (srcs, cn) (key_of_path (t_nw (p_t E)) (p ++ [i])))) as HE.
    { intros c p i Hc Hp Hi. pose proof (px_full x p i Hp Hi) as Hq. pose proof (proj1 Hp) as Hpl.
      cbn [pxev fst snd].
      unfold p_mu_cdata. rewrite decide_False by lia. cbn [fst snd]. pose proof Hc as [[Hs Hll] _ Hlv].
      change (length (mu_lvls c) = t_depth (p_t E) - 1) in Hll. change ((mu_cursors c).*1 = p_src E <$> srcs) in Hs.
      specialize (Hlv (t_depth (p_t E) - 1)). cbn [with_cdata t_depth] in Hlv. specialize (Hlv ltac:(lia) ltac:(lia)). rewrite take_ge in Hlv by lia. rewrite fmap_length in Hlv.
      eapply does_lift_bind; [rewrite Hll; apply get_u_ok; exact Hlv|].
      pose proof (live_indices (near E (key_of_path (t_nw (p_t E)) (p ++ [i]))) srcs) as Hidx.
      assert (filter (fun j => alive_at (XL x) (p_src E <$> srcs) p j = true) (seqN 0 (length srcs)) =
        filter (fun j => match srcs !! N.to_nat j with Some a => near E (key_of_path (t_nw (p_t E)) (p ++ [i])) a | None => false end = true) (seqN 0 (length srcs))) as ->.
      { apply list_filter_iff. intros j. unfold alive_at. pose proof (list_lookup_fmap (p_src E) srcs (N.to_nat j)) as Hl. cbn [with_cdata t_T]. rewrite Hl. clear Hl.
        destruct (srcs !! N.to_nat j) as [a|] eqn:Ej; [|done]. cbn [fmap option_fmap option_map].
        rewrite (near_px pk x a p i); [done| |done|done]. rewrite Forall_forall in Hall. apply Hall. by eapply elem_of_list_lookup_2. }
      match goal with |- context [match ?l with [] => pret _ | _ => _ end] => set (idx := l) in * end.
      assert (does (consume_lazy cn (p_mu_items_c E srcs idx (mu_cursors c) i)) (consume cn ((fun a => pxev x It a (key_of_path (t_nw (p_t E)) (p ++ [i]))) <$> List.filter (near E (key_of_path (t_nw (p_t E)) (p ++ [i]))) srcs))) as Hcons.
      { apply does_consume. unfold p_mu_items_c. apply Forall2_fmap. eapply Forall2_impl; [exact Hidx|]. intros j a [Hj Hna].
        assert (a ∈ srcs) as Ha by (by eapply elem_of_list_lookup_2). rewrite Forall_forall in Hall, HF.
        assert (is_Some (mu_cursors c !! N.to_nat j)) as [[a' ch] Hcj].
        { apply lookup_lt_is_Some. apply (f_equal length) in Hs. rewrite !fmap_length in Hs. rewrite Hs. by eapply lookup_lt_Some. }
        assert (a' = p_src E a) as ->.
        { assert ((mu_cursors c).*1 !! N.to_nat j = Some a') as H1 by (by rewrite list_lookup_fmap, Hcj). rewrite Hs, list_lookup_fmap, Hj in H1. by injection H1. }
        eapply does_lift_bind; [exact (get_u_ok _ _ _ Hcj)|]. eapply does_lift_bind; [exact (get_u_ok _ _ _ Hj)|].
        apply (xf_cdata _ _ (HF a Ha)); [|done|done]. refine (mu_live (XL x) _ c p _ _ ch _ Hc Hp Hcj _).
        - split; [rewrite fmap_length; unfold MULTI_N; lia|]. rewrite Forall_fmap, Forall_forall. intros z Hz. exact (px_wf pk x z (Hall z Hz)).
        - rewrite <- (near_px pk x a p i); [done|by apply Hall|done|done]. }
      clearbody idx. destruct idx as [|j idx].
      - inversion Hidx as [He|]. apply does_ret.
      - inversion Hidx as [|? a ? l Hja Hl He1 He2]. rewrite <- He2 in Hcons. apply does_bind; [exact Hcons|]. intros w. apply does_ret. }
    split; cbn [p_multi_union p_t t_multi_union t_nw t_depth p_data p_data_u p_cdata p_cdata_u].
    + intros m q Hq Hh. cbn [pxev fst snd]. destruct m.
      * intros st. unfold abind at 1.
        assert (forall st, fst (some_of ((fun a => pxev x Get a (key_of_path (t_nw (p_t E)) q)) <$> srcs) st) <> Some []) as Hn.
        { apply some_of_has. rewrite Exists_fmap. apply Hhas in Hh. rewrite Exists_exists in *. destruct Hh as (a & Ha & Hh). exists a. split; [done|].
          rewrite Forall_forall in HF. by apply (xf_has _ _ (HF a Ha)). }
        specialize (Hn st). destruct (some_of _ st) as [[[|y xs]|] st']; try done. apply never_none_bind_some.
      * apply never_none_bind_some.
      * destruct (path_split (nw := t_nw (p_t E)) (D := t_depth (p_t E)) q ltac:(lia) Hq) as (p & i & -> & Hp & Hi). pose proof (Hnear p i Hp Hi Hh) as Hn.
        destruct (List.filter _ srcs) as [|a l]; [done|]. apply never_none_bind_some.
    + intros q Hq Hh. cbn [pxev fst snd]. intros st y. unfold abind at 1.
      assert (forall st y xs, fst (some_of ((fun a => pxev x Get a (key_of_path (t_nw (p_t E)) q)) <$> srcs) st) <> Some (y :: xs)) as Hn.
      { apply some_of_hasnt. rewrite Forall_fmap. rewrite Forall_forall in *. intros a Ha. apply (xf_hasnt _ _ (HF a Ha)); [done|]. intros H. apply Hh, Hhas, Exists_exists. eauto. }
      specialize (Hn st). destruct (some_of _ st) as [[[|z xs]|] st']; try done. exfalso. by apply (Hn z xs).
    + intros q Hq. cbn [pxev fst snd]. eapply does_eq; [|apply (does_bind _ _ (abind (some_of ((fun a => pxev x Get a (key_of_path (t_nw (p_t E)) q)) <$> srcs)) (fun xs => aret ([] ++ xs)))
        (fun xs => match xs with [] => aret None | _ => abind (consume cn ((fun y => aret (Some y)) <$> xs)) (fun w => aret (Some w)) end))].
      * intros st. etrans; [apply abind_assoc|]. apply abind_ext. intros xs st'. done.
      * apply does_mu_loop; [|cbn [length]; unfold MULTI_N; lia]. eapply Forall_impl; [exact HF|]. intros a Ha. by apply (xf_data _ _ Ha).
      * intros [|y xs]; [apply does_ret|]. cbn [psome]. apply does_bind; [apply does_consume_items|]. intros w. apply does_ret.
    + intros q Hq Hh%Hhas. cbn [pxev fst snd]. eapply does_eq; [intros st; symmetry; apply unsome_some|]. apply does_consume. unfold p_mu_items_u.
      apply Forall2_fmap, Forall_Forall2_diag. rewrite Forall_forall in *. intros a Ha. by apply (xf_data _ _ (HF a Ha)).
    + intros c p i Hc Hp Hi. exact (HE c p i Hc Hp Hi).
    + intros c p i Hc Hp Hi Hh. apply (does_unwrap (p_mu_cdata E (srcs, cn) c i)).
      * cbn [pxev fst snd]. pose proof (Hnear p i Hp Hi Hh) as Hn. cbn [p_multi_union p_t t_multi_union t_nw] in Hn |- *.
        destruct (List.filter _ srcs) as [|a l]; [done|]. apply never_none_bind_some.
      * exact (HE c p i Hc Hp Hi).
Qed.

(** ** the callers *)
(** evaluating several keys for an iterator, in order; for each the element with its key, or [None]: panicked *)
Fixpoint pxevs {E} (x : pxview E) (s : p_S E) (ks : list N) (st : St) : list (option (option (N * p_V E))) * St :=
  match ks with
  | [] => ([], st)
  | k :: ks =>
    let '(o, st) := pxev x It s k st in
    let '(r, st) := pxevs x s ks st in
    (match o with Some (Some y) => Some (Some (k, y)) | Some None => Some None | None => None end :: r, st)
  end.
Section callers.
Context {E : ptree St} (x : pxview E) (pk : N -> Prop) (s : p_S E).
Hypothesis Hr : xreached pk (pxunder x) (p_src E s).
Notation L := (lawful_shown pk (pxunder x)).
Notation t := (p_t E).
Lemma pxcaller_follows : pxfollows x s.
Proof. exact (pxview_follows pk x s Hr). Qed.
Lemma pxpresent_path k v : tree_get t (p_src E s) k = Ok (Some v) -> path_ok (t_nw t) (t_depth t) (level_indices (t_nw t) (t_depth t) k) /\
  key_of_path (t_nw t) (level_indices (t_nw t) (t_depth t) k) = k /\ pxhas x s (level_indices (t_nw t) (t_depth t) k).
Proof.
  intros Hg. pose proof (xgot_content (pxunder x) pk (p_src E s) k Hr) as Hc. unfold got in Hc at 1. rewrite Hg in Hc. symmetry in Hc. pose proof Hc as Hc'.
  pose proof (proj1 (proj1 (content_Some (XL x) (p_src E s) k v) Hc)) as Hk.
  destruct (level_indices_ok (t_nw t) (t_depth t) k) as [Hp Hkp]; [exact (xsupported (pxunder x))|apply (xview_depth (pxunder x))|exact Hk|]. split; [done|]. split; [done|].
  unfold pxhas. pose proof (content_path (XL x) (p_src E s) _ Hp) as Hcp. cbn [with_cdata t_nw t_depth] in Hcp. rewrite Hkp in Hcp. rewrite <- Hcp. by exists v.
Qed.
Lemma pxev_present m k st v : tree_get t (p_src E s) k = Ok (Some v) -> fst (pxev x m s k st) <> Some None.
Proof. intros (Hp & Hk & Hh)%pxpresent_path. pose proof (xf_has _ _ pxcaller_follows m _ Hp Hh st) as H. by rewrite Hk in H. Qed.
Lemma pxev_absent k st y : view_key_ok t k -> tree_get t (p_src E s) k = Ok None -> fst (pxev x Get s k st) <> Some (Some y).
Proof.
  intros Hk Hg. destruct (level_indices_ok (t_nw t) (t_depth t) k) as [Hp Hkp]; [exact (xsupported (pxunder x))|apply (xview_depth (pxunder x))|unfold view_key_ok in Hk; lia|].
  assert (~ pxhas x s (level_indices (t_nw t) (t_depth t) k)) as Hh.
  { intros Hh. apply (phas_px pk x s _ Hr Hp) in Hh. rewrite Hkp in Hh. unfold phas, got in Hh. by rewrite Hg in Hh. }
  pose proof (xf_hasnt _ _ pxcaller_follows _ Hp Hh st y) as H. by rewrite Hkp in H.
Qed.
Lemma px_get_ev k st : view_key_ok t k -> p_get E s k st = Ok (pxev x Get s k st).
Proof.
  intros Hk. unfold p_get. destruct (index_from_spec (t_nw t) (t_depth t) k) as [[-> Hlt]|[_ Hge]]; [|unfold view_key_ok in Hk; lia].
  destruct (level_indices_ok (t_nw t) (t_depth t) k) as [Hp Hkp]; [exact (xsupported (pxunder x))|apply (xview_depth (pxunder x))|lia|].
  pose proof (xf_data _ _ pxcaller_follows _ Hp st) as Hd. rewrite Hkp in Hd. exact Hd.
Qed.
Lemma px_get_u_ev k st v : tree_get t (p_src E s) k = Ok (Some v) -> p_get_unchecked E s k st = Ok (unsome (pxev x GetU s k) st).
Proof.
  intros (Hp & Hk & Hh)%pxpresent_path. pose proof (xf_data_u _ _ pxcaller_follows _ Hp Hh st) as Hd. rewrite Hk in Hd. exact Hd.
Qed.
Lemma px_poll_ev fuel m (it : iter (t_C t)) p qs st : iinv L (p_src E s) it p -> todo_upto L (p_src E s) (it_iters it) p (t_depth t) = qs ->
  meas_upto L (p_src E s) (it_iters it) p (t_depth t) < fuel ->
  p_poll fuel m E s it st = Ok (let '(r, st) := pxevs x s (key_of_path (t_nw t) <$> take m qs) st in (r ++ replicate (m - length qs) (Some None), st)).
Proof.
  pose proof Hr as Hwf. change (l_wf L (p_src E s)) in Hwf. revert it p qs st. induction m as [|m IH]; intros it p qs st Hi Hqs Hf; [done|]. cbn [p_poll]. unfold p_next.
  destruct (iter_loop_ok L (p_src E s) Hwf fuel it p Hi Hf) as (it' & p' & o & Hloop & Hi' & Ho & Hm).
  pose proof (eq_trans (eq_sym (iter_loop_data t _ _ (p_src E s) fuel it)) Hloop) as Hloop'. rewrite Hloop', bind_ok. clear Hloop Hloop'.
  assert (meas_upto L (p_src E s) (it_iters (C := t_C t) it') p' (t_depth t) < fuel) as Hf' by (exact (Nat.le_lt_trans _ _ _ Hm Hf)). destruct o as [i|].
  - destruct Ho as (Hl & Htm & Htodo). cbn [shown with_data t_depth] in Hl. pose proof (eq_trans (eq_sym Hqs) Htodo) as Hqt. subst qs. clear Hqt. pose proof (xview_depth (pxunder x)) as HD0.
    assert (path_ok (t_nw t) (t_depth t - 1) p') as Hpok by (rewrite <- Hl; exact (ii_pok L _ it' p' Hi')).
    assert (i < msize (t_nw t))%N as Hib.
    { refine (l_bound L (p_src E s) p' i Hwf _ _ Htm); [exact (ii_pok L _ it' p' Hi')|cbn [shown with_data t_depth]; lia]. }
    assert (pxhas x s (p' ++ [i])) as Hh by (by apply (px_last pk x)).
    pose proof (xf_has _ _ pxcaller_follows It _ (px_full x p' i Hpok Hib) Hh st) as Hnn.
    change (todo_upto L (p_src E s) (it_iters it) p (t_depth t) = (p' ++ [i]) :: todo_upto L (p_src E s) (it_iters it') p' (t_depth t)) in Htodo.
    rewrite Htodo. cbn [take]. rewrite fmap_cons. cbn [pxevs].
    pose proof (xf_cdata_u _ _ pxcaller_follows _ _ _ (ii_cur _ _ _ _ Hi') Hpok Hib Hh st) as Hcd. cbn [shown with_data t_C] in Hcd. rewrite Hcd, bind_ok. clear Hcd. unfold unsome.
    destruct (pxev x It s (key_of_path (t_nw t) (p' ++ [i])) st) as [[[y|]|] st1]; [|done|].
    + assert (it_indices (C := t_C t) it' = p') as Hidx.
      { etrans; [|exact (ii_pre L _ it' p' Hi')]. symmetry. change (take (length p') (it_indices (C := t_C t) it') = it_indices (C := t_C t) it').
        assert (length (it_indices (C := t_C t) it') = t_depth t - 1) as Hii by exact (ii_idx L _ it' p' Hi'). apply take_ge. lia. }
      cbn [shown with_data t_C]. rewrite Hidx, data_block_index_ok, !bind_ok by (done || exact (xsupported (pxunder x))).
      rewrite (IH it' p' _ st1 Hi' eq_refl Hf'). rewrite bind_ok. by destruct (pxevs x s _ st1) as [r st2].
    + rewrite bind_ok. rewrite (IH it' p' _ st1 Hi' eq_refl Hf'). rewrite bind_ok. by destruct (pxevs x s _ st1) as [r st2].
  - destruct Ho as [Ho Hd]. change (todo_upto L (p_src E s) (it_iters it) p (t_depth t) = []) in Ho. subst qs. rewrite Ho. rewrite bind_ok. cbn [take].
    destruct (todo_upto_empty L (p_src E s) (it_iters it') p' 0 (t_depth t)) as [E1 E2]; [lia|by intros k _ _; apply Hd|].
    rewrite (IH it' p' [] st Hi' E1 Hf').
    rewrite bind_ok. rewrite take_nil. cbn [pxevs length fmap list_fmap app]. by rewrite !Nat.sub_0_r.
Qed.
Lemma px_entry_keys qs (l : list (N * t_V (shown (pxunder x)))) : Some <$> l = entry L (p_src E s) <$> qs -> key_of_path (t_nw t) <$> qs = l.*1.
Proof.
  clear Hr. revert l. induction qs as [|q qs IH]; intros [|[k v] l] Hl; try done. rewrite !fmap_cons in *. injection Hl as Hq Hl. f_equal; [|by apply IH].
  unfold entry in Hq. destruct (l_sem L _ q); [|done]. cbn in Hq. by injection Hq.
Qed.
Lemma px_iter_ev : exists n l, (forall fuel, n <= fuel -> iter_collect fuel t (p_src E s) = Ok l) /\
  forall m fuel st, n <= fuel -> p_iter fuel m E s st =
    Ok (let '(r, st) := pxevs x s (take m l.*1) st in (r ++ replicate (m - length l) (Some None), st)).
Proof.
  pose proof Hr as Hwf. change (l_wf L (p_src E s)) in Hwf. destruct (iter_new_ok L (p_src E s) Hwf) as (it & Hnew & Hi & Htodo).
  set (bound := meas_upto L (p_src E s) (it_iters it) [] (t_depth t) + length (todo_upto L (p_src E s) (it_iters it) [] (t_depth t))).
  destruct (iter_drain_ok L (p_src E s) Hwf (S bound) it [] Hi) as (it1 & p1 & l & _ & _ & _ & Hl); [exact (Nat.lt_succ_diag_r bound)|].
  change (iter_new (shown (pxunder x)) (p_src E s)) with (iter_new t (p_src E s)) in Hnew.
  exists (S bound), l. split.
  - intros fuel Hf.
    destruct (iter_drain_ok L (p_src E s) Hwf fuel it [] Hi) as (it' & p' & l' & Hdr & _ & _ & Hl'); [exact Hf|].
    rewrite <- Hl in Hl'. apply (fmap_inj Some) in Hl'; [subst l'|intros ? ?; by injection 1].
    unfold iter_collect. rewrite Hnew, bind_ok. pose proof (eq_trans (eq_sym (iter_drain_data t _ _ (p_src E s) fuel it)) Hdr) as Hdr'. by rewrite Hdr'.
  - intros m fuel st Hf. unfold p_iter. rewrite Hnew, bind_ok. rewrite (px_poll_ev fuel m it [] _ st Hi eq_refl (Nat.le_lt_trans _ _ _ (Nat.le_add_r _ _) Hf)).
    assert (key_of_path (t_nw t) <$> todo_upto L (p_src E s) (it_iters (C := t_C t) it) [] (t_depth t) = l.*1) as Hq by exact (px_entry_keys _ l Hl).
    rewrite fmap_take, Hq. replace (length (todo_upto L (p_src E s) (it_iters (C := t_C t) it) [] (t_depth t))) with (length l); [done|].
    by rewrite <- (fmap_length (key_of_path (t_nw t)) (todo_upto _ _ _ _ _)), Hq, fmap_length.
Qed.
End callers.
End all.
