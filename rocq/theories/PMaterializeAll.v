(** * `materialize` over closures with side effects and panics in every nesting of the operations *)
From Verif Require Import Base DenseDrop BitUtils BitUtilsProofs BitQueue LevelIndices LevelIndicesProofs ConstLoops Hierarchy Lawful IterProofs Ops Dense DenseProofs Materialize MaterializeProofs MaterializeLaws
  Spec Client TreeClient Generic Contract Compose ViewLaws MaterializeViews MaterializeOrder PanicSafety MaterializeUnwind EffectsLaws SpecLaws DenseHistory DenseLaws PEffects PEffectsLaws PMaterialize PMaterializeLaws
  IterCost CostLaws AllViews PEffectsAll.

(** the keys are evaluated as by an iterator, one after the other, up to the first panic: the elements
    so far, did it get through, the state *)
Fixpoint until_panic_x {St} {E : ptree St} (x : pxview E) (s : p_S E) (ks : list N) (st : St) : list (p_V E) * bool * St :=
  match ks with
  | [] => ([], true, st)
  | k :: ks =>
    match pxev x It s k st with
    | (Some (Some y), st) => let '(r, ok, st) := until_panic_x x s ks st in (y :: r, ok, st)
    | (_, st) => ([], false, st)
    end
  end.
Lemma until_panic_x_stop {St} {E : ptree St} (x : pxview E) (s : p_S E) ks st : until_panic_x x s ks st = until_stop (pxev x It s) ks st.
Proof. revert st. induction ks as [|k ks IH]; intros st; [done|]. cbn [until_panic_x until_stop]. destruct (pxev x It s k st) as [[[y|]|] st1]; [|done..]. by rewrite IH. Qed.

(** the same expression over the tree that a reader of the cursor sees: `materialize` runs the same code on it *)
Definition p_shown {St} (E : ptree St) (x : pxview E) : ptree St := {|
  p_t := shown (pxunder x); p_S := p_S E; p_src := p_src E; p_V := p_V E;
  p_data := p_data E; p_data_u := p_data_u E; p_cdata := p_cdata E; p_cdata_u := p_cdata_u E;
|}.

Section call.
Context {St : Type} {E : ptree St} (x : pxview E) (pk : N -> Prop) (s : p_S E).
Notation t := (p_t E).
Notation src := (p_src E s).
Notation D := (t_depth t).
Hypothesis Hr : xreached pk (pxunder x) src.
Hypothesis Hnw : t_nw t = 1.
Hypothesis Hfew : few t src.
Hypothesis Hsome : t_exact t = true \/ D = 1 \/ exists k v, tree_get t src k = Ok (Some v).
Let sh : tree := shown (pxunder x).
Lemma px_copy : exists (d0 : dense (t_V t)) m0, materialize sh src = Ok d0 /\ dense_inv D allp (fixd d0) m0 /\
  (t_exact t = true \/ D = 1 -> fixd d0 = d0).
Proof.
  pose proof (sview_reached pk (pxunder x) src Hr) as Hr'. pose proof (shown_few (pxunder x) pk src Hr Hfew) as Hfew'.
  assert (t_exact t = true \/ D = 1 -> exists (d : dense (t_V t)) m, materialize sh src = Ok d /\ dense_inv D allp (fixd d) m /\ (t_exact t = true \/ D = 1 -> fixd d = d)) as He.
  { intros Hc. destruct (mat_exact (sview (pxunder x)) pk src Hr' Hnw Hfew' Hc) as (d & m & E1 & Hm & Hi). exists d, m. split; [exact E1|].
    pose proof (fixd_inv _ _ _ _ Hi) as Hf. cbn [shown with_data t_V] in Hf. rewrite Hf. split; [by eapply dense_inv_false|done]. }
  destruct (t_exact t) eqn:Hex; [auto|]. destruct (decide (D = 1)) as [H1|H1]; [auto|].
  destruct (mat_sparse (sview (pxunder x)) pk src Hr' Hnw Hfew' Hex) as [(d & m & E1 & Hm & Hi)|(E1 & HD & Hn)].
  - exists d, m. split; [exact E1|]. split; [exact Hi|]. intros [?|?]; done.
  - exfalso. destruct Hsome as [?|[?|Hv]]; [done|done|]. destruct Hv as (k & v & Hv).
    destruct (proj2 (shown_has (pxunder x) pk src Hr k)) as [y Hy]; [by exists v|]. by eapply Hn.
Qed.
Lemma px_materialize_ev nd st : exists n l (d0 : dense (t_V t)),
  (forall fuel, n <= fuel -> iter_collect fuel t src = Ok l) /\ StronglySorted N.lt l.*1 /\ d_keys d0 = USIZE_MAX :: l.*1 /\
  (exists m0, dense_inv D allp (fixd d0) m0) /\ (t_exact t = true \/ D = 1 -> fixd d0 = d0) /\
  p_materialize E s nd st = match until_panic_x x s l.*1 st with
    | (r, true, st) => Ok (Some (re_data d0 r), st)
    | (r, false, st) => if nd then UB else Ok (None, st)
    end.
Proof.
  destruct px_copy as (d0 & m0 & E0 & Hi0 & Hfix).
  pose proof (sview_reached pk (pxunder x) src Hr) as Hr'. pose proof (shown_few (pxunder x) pk src Hr Hfew) as Hfew'.
  destruct (materialize_order (sview (pxunder x)) pk src Hr' Hnw Hfew' d0 E0) as (n & l & Hl & _ & Hk).
  destruct (view_iter (sview (pxunder x)) pk src Hr') as (n' & l' & Hl' & Hs & _).
  assert (l' = l) as -> by (specialize (Hl (n + n') ltac:(lia)); rewrite (Hl' (n + n') ltac:(lia)) in Hl; congruence).
  exists n, l, d0. split; [intros fuel Hf; exact (eq_trans (eq_sym (iter_collect_data t _ _ src fuel)) (Hl fuel Hf))|]. split; [exact Hs|]. split; [exact Hk|]. split; [eauto|]. split; [done|].
  destruct (p_materialize_sim (E := p_shown E x) s st (lawful_shown pk (pxunder x)) (pxev x It s) Hnw Hr (proj2 (xview_depth (pxunder x)))) with (nd := nd) (d := d0) as (ks & Hk' & Hp).
  - intros c p i Hc Hp Hi Htm. assert (pxhas x s (p ++ [i])) as Hh by (by apply (px_last pk x)). split.
    + exact (xf_has _ _ (pxcaller_follows x pk s Hr) It _ (px_full x p i Hp Hi) Hh).
    + exact (xf_cdata_u _ _ (pxcaller_follows x pk s Hr) c p i Hc Hp Hi Hh).
  - exact E0.
  - assert (ks = l.*1) as -> by (pose proof (eq_trans (eq_sym Hk) Hk') as He; injection He; intros He'; symmetry; exact He').
    change (p_materialize E s nd st = match until_stop (pxev x It s) l.*1 st with
      | (r, true, st) => Ok (Some (Dense (d_root d0) (d_heap d0) (None :: (Some <$> r)) (d_keys d0)), st)
      | (r, false, st) => if nd then UB else Ok (None, st)
      end) in Hp.
    rewrite until_panic_x_stop. etrans; [exact Hp|]. unfold re_data. reflexivity.
Qed.
End call.
