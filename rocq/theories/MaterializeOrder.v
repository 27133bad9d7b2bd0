(** * The vectors of a materialized tree are in the order of iteration *)
From Verif Require Import Base BitUtils BitUtilsProofs BitQueue LevelIndices LevelIndicesProofs
  ConstLoops Hierarchy Lawful IterProofs Dense DenseProofs DenseTree Materialize MaterializeProofs Spec TreeClient Generic MaterializeLaws
  Compose ViewLaws MaterializeViews.

Section order.
Context (t : tree) (L : lawful t) (src : t_T t) (Hwf : l_wf L src).
Hypothesis Hnw : t_nw t = 1.
Notation D := (t_depth t).
Hypothesis HD : D <= 9.
Hypothesis Hsmall : small_content t L src.
Local Notation ls := (leaves L src (t_depth t) []).

Lemma materialize_leaves d : materialize t src = Ok d ->
  d_data d = None :: (l_sem L src <$> ls) /\ d_keys d = USIZE_MAX :: (key_of_path 1 <$> ls).
Proof.
  pose proof (l_depth L) as HD0. destruct (l_new L src Hwf) as (c & Hn & Hv). unfold materialize. rewrite Hn, bind_ok. fold (start t c).
  destruct (t_exact t) eqn:Hex.
  - destruct (from_exact_ok t L src Hwf Hnw HD (fun n => n) ltac:(done) (D - 1) Hex 0 [] 0 0 (start t c)) as (s' & a & E & Hb).
    { done. } { lia. } { apply path_ok_nil. } { by apply sel_root. } { done. } { apply start_heap. }
    { replace (S (D - 1)) with D by lia. by apply start_fits. }
    replace (S (D - 1)) with D in Hb by lia. destruct Hb as (_ & [_ _ _ G4 G5] & _).
    rewrite E, bind_ok. intros [= <-]. cbn [d_data d_keys]. by rewrite G4, G5.
  - destruct (from_sparse_ok t L src Hwf Hnw HD fixlen ltac:(by intros [] ?; cbn in *; subst) ltac:(done) (D - 1) 0 [] 0 0 (start t c)) as (s' & o & E & Hb).
    { done. } { lia. } { apply path_ok_nil. } { by apply sel_root. } { done. } { apply start_heap. }
    { replace (S (D - 1)) with D by lia. by apply start_fits. }
    replace (S (D - 1)) with D in Hb by lia. destruct Hb as (_ & [_ _ _ G4 G5] & _).
    rewrite E, bind_ok. destruct o as [p|]; [|done]. cbn [unwrap_unc rbind]. intros [= <-]. cbn [d_data d_keys]. by rewrite G4, G5.
Qed.
Lemma iter_leaves : exists n l, (forall fuel, n <= fuel -> iter_collect fuel t src = Ok l) /\ Some <$> l = entry L src <$> ls.
Proof.
  destruct (iter_new_ok L src Hwf) as (it & Hnew & Hi & Htodo).
  exists (S (meas_upto L src (it_iters it) [] D + length (todo_upto L src (it_iters it) [] D))).
  destruct (iter_drain_ok L src Hwf (S (meas_upto L src (it_iters it) [] D + length (todo_upto L src (it_iters it) [] D))) it [] Hi) as (it' & p' & l & E & _ & _ & Hl); [lia|].
  exists l. split; [|by rewrite Hl, Htodo].
  intros fuel Hf. destruct (iter_drain_ok L src Hwf fuel it [] Hi) as (it2 & p2 & l2 & E2 & _ & _ & Hl2); [lia|].
  unfold iter_collect. rewrite Hnew, bind_ok, E2, bind_ok. f_equal.
  rewrite <- Hl in Hl2. clear -Hl2. revert l Hl2. induction l2 as [|x l2 IH]; intros [|y l] H; try done. injection H as <- H. f_equal. by apply IH.
Qed.
End order.

Section view.
Context {b : bool} {t : tree} (v : view b t) (pk : N -> Prop) (s : t_T t).
Hypothesis Hr : reached pk v s.
Hypothesis Hnw : t_nw t = 1.
Hypothesis Hfew : few t s.
(** data and keys of the copy are the pairs the iterator of the source yields, in that order,
    after the unused slot 0 *)
Lemma materialize_order d : materialize t s = Ok d -> exists n l, (forall fuel, n <= fuel -> iter_collect fuel t s = Ok l) /\
  d_data d = None :: (Some <$> l.*2) /\ d_keys d = USIZE_MAX :: l.*1.
Proof.
  intros Hm. pose proof (vg_wf pk _ _ (reached_good pk v s Hr)) as Hwf.
  destruct (materialize_leaves t (vL v) s Hwf Hnw (proj2 (view_depth v)) (view_small v pk s Hr Hfew) d Hm) as [Hd Hk].
  destruct (iter_leaves t (vL v) s Hwf Hnw (proj2 (view_depth v))) as (n & l & Hl & El). exists n, l. split; [exact Hl|]. clear n Hl. rewrite Hd, Hk.
  revert El. generalize (leaves (vL v) s (t_depth t) []) as ls. clear -Hnw. intros ls. revert l. induction ls as [|q ls IH]; intros [|[k x] l] H; try done.
  rewrite !fmap_cons in H. injection H as Hq H. destruct (IH l H) as [E1 E2]. injection E1 as E1. injection E2 as E2.
  unfold entry in Hq. destruct (l_sem (vL v) s q) as [y|] eqn:Ey; [|done]. cbn in Hq. injection Hq as -> ->.
  rewrite !fmap_cons. cbn [fst snd]. by rewrite Ey, E1, E2, Hnw.
Qed.
End view.
