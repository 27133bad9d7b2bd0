(** * multi_intersection and multi_union preserve lawfulness *)
From Verif Require Import Base BitUtils BitUtilsProofs BitQueue LevelIndices LevelIndicesProofs
  ConstLoops Hierarchy Lawful Ops OpsProofs.

Lemma rmap_ok {A B} (f : A -> res B) l k :
  Forall2 (fun x y => f x = Ok y) l k -> rmap f l = Ok k.
Proof. induction 1 as [|x y l k Hx H IH]; [done|]. cbn. by rewrite Hx, bind_ok, IH, bind_ok. Qed.
Lemma arrayvec_collect_ok {A B} (f : A -> res B) (R : A -> B -> Prop) cap l : length l <= cap ->
  (forall x, x ∈ l -> exists y, f x = Ok y /\ R x y) ->
  exists k, arrayvec_collect f cap l = Ok k /\ Forall2 R l k.
Proof.
  revert cap. induction l as [|x l IH]; intros cap Hl Hf; cbn [arrayvec_collect].
  { exists []. split; [done|constructor]. }
  destruct (Hf x) as (y & -> & Hy); [left|]. rewrite bind_ok. cbn in Hl. destruct cap as [|cap]; [lia|].
  destruct (IH cap) as (k & -> & Hk); [lia|intros z Hz; apply Hf; by right|]. rewrite bind_ok.
  eexists. split; [done|]. by constructor.
Qed.
Lemma Forall2_lookup_both {A B} (R : A -> B -> Prop) l k i x y :
  Forall2 R l k -> l !! i = Some x -> k !! i = Some y -> R x y.
Proof. intros H H1 H2. by eapply (Forall2_lookup_lr R). Qed.

Lemma multi_n_max : (N.of_nat MULTI_N <= USIZE_MAX)%N.
Proof. vm_compute. discriminate. Qed.

(** ** multi_intersection *)
Section mi.
Context {t : tree} (L : lawful t).
Notation nw := (t_nw t).
Notation D := (t_depth t).

Definition mi_sem (s : list (t_T t)) (q : list N) : option (list (t_V t)) :=
  mapM (fun a => l_sem L a q) s.
Definition mi_tm (s : list (t_T t)) (p : list N) (i : N) : bool :=
  forallb (fun a => l_tm L a p i) s.
Definition mi_wf (s : list (t_T t)) : Prop :=
  s <> [] /\ length s <= MULTI_N /\ Forall (l_wf L) s.
Record mi_R (R : t_T t -> t_C t -> Prop) (s : list (t_T t)) (c : mi_cursor (t_C t)) : Prop := {
  mir_c : Forall2 R s (mi_cursors c);
  mir_e : (N.of_nat MULTI_N <= mi_empty_below_n c)%N;
  mir_t : mask_ok nw (mi_terminal c);
}.
Lemma mi_R_impl (R R' : t_T t -> t_C t -> Prop) s c :
  (forall a c, R a c -> R' a c) -> mi_R R s c -> mi_R R' s c.
Proof. intros H [H1 H2 H3]. constructor; try done. by eapply Forall2_impl. Qed.
Definition mi_Rk (s : list (t_T t)) (c : mi_cursor (t_C t)) (p : list N) : Prop :=
  mi_R (fun a c => l_Rk L a c p) s c /\
  (D - 1 <= length p -> mask_is nw (mi_terminal c) (mi_tm s (take (D - 1) p))).

Lemma mi_select_rest_ok (sel : t_T t -> t_C t -> res (t_C t * mask)) f (R : t_T t -> t_C t -> Prop) srcs cs acc g :
  Forall2 (fun a c => exists c' m, sel a c = Ok (c', m) /\ mask_is nw m (f a) /\ R a c') srcs cs ->
  mask_is nw acc g ->
  exists cs' m', mi_select_rest t sel srcs cs acc = Ok (cs', m') /\
    mask_is nw m' (fun i => g i && forallb (fun a => f a i) srcs) /\ Forall2 R srcs cs'.
Proof.
  intros H. revert acc g. induction H as [|a c srcs cs (c' & m & Hsel & Hm & HR) H IH]; intros acc g Hacc; cbn [mi_select_rest].
  - eexists _, _. split; [done|]. split; [|constructor]. eapply mask_is_ext; [|done]. intros i. cbn. by rewrite andb_true_r.
  - rewrite Hsel, bind_ok. destruct Hm as [Hm1 Hm2], Hacc as [Ha1 Ha2].
    destruct (IH (mask_and acc m) (fun i => g i && f a i)) as (cs' & m' & -> & Hm' & HR').
    { split; [by apply mask_and_ok|]. intros i. by erewrite mbit_and, Ha2, Hm2. }
    rewrite bind_ok. eexists _, _. split; [done|]. split; [|by constructor].
    eapply mask_is_ext; [|done]. intros i. cbn. by rewrite andb_assoc.
Qed.
Lemma mi_select_all_ok (sel : t_T t -> t_C t -> res (t_C t * mask)) f (R : t_T t -> t_C t -> Prop) srcs cs :
  srcs <> [] ->
  Forall2 (fun a c => exists c' m, sel a c = Ok (c', m) /\ mask_is nw m (f a) /\ R a c') srcs cs ->
  exists cs' m', mi_select_all t sel srcs cs = Ok (Some (cs', m')) /\
    mask_is nw m' (fun i => forallb (fun a => f a i) srcs) /\ Forall2 R srcs cs'.
Proof.
  intros Hne H. destruct H as [|a c srcs cs (c' & m & Hsel & Hm & HR) H]; [done|]. cbn [mi_select_all].
  rewrite Hsel, bind_ok. destruct (mi_select_rest_ok sel f R srcs cs m (f a)) as (cs' & m' & -> & Hm' & HR'); [done|done|].
  rewrite bind_ok. eexists _, _. split; [done|]. split; [done|by constructor].
Qed.
Lemma mi_cursor_data_ok srcs cs ds i :
  Forall2 (fun a c => True) srcs cs ->
  (forall k a c d, srcs !! k = Some a -> cs !! k = Some c -> ds !! k = Some d -> t_cdata_u t a c i = Ok d) ->
  length ds = length srcs ->
  mi_cursor_data t srcs cs i = Ok ds.
Proof.
  intros H. revert ds. induction H as [|a c srcs cs _ H IH]; intros [|d ds] Hf Hl; try done. cbn [mi_cursor_data].
  rewrite (Hf 0 a c d), bind_ok by done. rewrite (IH ds), bind_ok; [done| |by injection Hl].
  intros k. apply (Hf (S k)).
Qed.
Lemma mi_data_loop_ok srcs q acc : Forall (l_wf L) srcs -> path_ok nw D q ->
  length acc + length srcs <= MULTI_N ->
  mi_data_loop t srcs (key_of_path nw q) q acc = Ok ((acc ++.) <$> mi_sem srcs q).
Proof.
  intros Hwf Hq. revert acc. induction Hwf as [|a srcs Ha Hwf IH]; intros acc Hl; cbn [mi_data_loop].
  - cbn. by rewrite app_nil_r.
  - rewrite (l_data L) by done. rewrite bind_ok. unfold mi_sem. cbn [mapM]. cbn in Hl.
    destruct (l_sem L a q) as [v|]; cbn [mbind option_bind]; [|done].
    rewrite decide_True by lia. rewrite IH by (rewrite app_length; cbn; lia). unfold mi_sem.
    destruct (mapM _ srcs); cbn; [|done]. by rewrite <- app_assoc.
Qed.

Definition lawful_multi_intersection : lawful (t_multi_intersection t).
Proof.
  refine (Lawful (t_multi_intersection t) mi_wf mi_sem mi_tm true
    (mi_R (l_Rv L)) mi_Rk (fun s c p => mi_R (fun a c => l_Ru L a c p) s c)
    _ _ _ _ _ _ _ _ _ _ _ _ _ _ _ _ _ _ _);
    cbn [t_multi_intersection t_nw t_depth t_T t_C t_V t_data t_data_u t_new t_select t_select_u t_cdata t_cdata_u].
  - apply L.
  - apply L.
  - intros s q v n i (Hne & Hl & Hwf) Hq Hs Hn. apply mapM_Some in Hs. apply forallb_forall. intros a Ha%elem_of_list_In.
    apply elem_of_list_lookup in Ha as [k Hk].
    destruct (Forall2_lookup_l _ _ _ _ _ Hs Hk) as (y & _ & Hy). eapply l_complete; eauto.
    rewrite Forall_forall in Hwf. apply Hwf. by eapply elem_of_list_lookup_2.
  - intros s p i (Hne & Hl & Hwf) Hp Hi. apply mapM_is_Some_2. apply Forall_forall. intros a Ha.
    rewrite Forall_forall in Hwf. eapply l_terminal; eauto. unfold mi_tm in Hi. rewrite forallb_forall in Hi.
    apply Hi. by apply elem_of_list_In.
  - intros s p i (Hne & Hl & Hwf) Hp Hlen Hi. destruct s as [|a s]; [done|].
    cbn in Hi. apply andb_true_iff in Hi as [Hi _]. inversion_clear Hwf. by eapply l_bound.
  - intros s p i j (Hne & Hl & Hwf) Hp Hlen Hi Hj. unfold mi_tm in *. rewrite forallb_forall in *.
    intros a Ha. eapply l_parent; eauto. rewrite Forall_forall in Hwf. apply Hwf. by apply elem_of_list_In.
  - intros s c p [H _]. eapply mi_R_impl; [|done]. intros. by apply l_Rk_Ru.
  - intros s c p H. eapply mi_R_impl; [|done]. intros ? ? Hx. exact (l_Ru_Rv L _ _ _ Hx).
  - intros s c p n [H Ht]. split.
    + eapply mi_R_impl; [|done]. intros ? ? Hx. exact (l_Rk_take L _ _ _ n Hx).
    + rewrite take_length. intros Hn. rewrite take_take. replace ((D - 1) `min` n) with (D - 1) by lia. apply Ht. lia.
  - intros s c p n H. eapply mi_R_impl; [|done]. intros ? ? Hx. exact (l_Ru_take L _ _ _ n Hx).
  - intros s (Hne & Hl & Hwf). rewrite Forall_forall in Hwf.
    destruct (arrayvec_collect_ok (t_new t) (l_Rv L) MULTI_N s Hl) as (k & -> & Hk); [intros x Hx; apply l_new; by apply Hwf|].
    rewrite bind_ok. eexists. split; [done|]. constructor; cbn; [done|apply multi_n_max|apply mask_zero_ok].
  - intros s c (Hne & Hl & Hwf) [Hc He Ht]. unfold mi_select. destruct (N.ltb_spec (mi_empty_below_n c) (N.of_nat MULTI_N)); [lia|].
    destruct (mi_select_all_ok (fun a c => t_select t a c 0 0%N) (fun a => l_tm L a []) (fun a c => l_Rk L a c []) s (mi_cursors c)) as (cs & m & -> & Hm & HR); [done| |].
    { rewrite Forall_forall in Hwf. apply Forall2_same_length_lookup. split; [by eapply Forall2_length|].
      intros k a ch Ha Hch. apply l_select0; [apply Hwf; by eapply elem_of_list_lookup_2|by eapply Forall2_lookup_both]. }
    rewrite bind_ok. eexists _, _. split; [done|]. split; [done|]. split.
    + constructor; cbn; [done|destruct (mask_is_zero m); [done|apply multi_n_max]|]. case_decide; [apply Hm|done].
    + cbn [length]. intros H0. cbn [mi_terminal]. rewrite decide_True by lia. by rewrite take_nil.
  - intros s c (Hne & Hl & Hwf) [Hc He Ht]. unfold mi_select_u.
    destruct (mi_select_all_ok (fun a c => t_select_u t a c 0 0%N) (fun a => l_tm L a []) (fun a c => l_Ru L a c []) s (mi_cursors c)) as (cs & m & -> & Hm & HR); [done| |].
    { rewrite Forall_forall in Hwf. apply Forall2_same_length_lookup. split; [by eapply Forall2_length|].
      intros k a ch Ha Hch. apply l_select0_u; [apply Hwf; by eapply elem_of_list_lookup_2|by eapply Forall2_lookup_both]. }
    rewrite bind_ok. eexists _, _. split; [done|]. split; [done|]. by constructor.
  - intros s c p i (Hne & Hl & Hwf) [[Hc He Ht] _] Hp Hlen Hi. unfold mi_select.
    destruct (N.ltb_spec (mi_empty_below_n c) (N.of_nat MULTI_N)); [lia|].
    destruct (mi_select_all_ok (fun a c => t_select t a c (S (length p)) i) (fun a => l_tm L a (p ++ [i])) (fun a c => l_Rk L a c (p ++ [i])) s (mi_cursors c)) as (cs & m & -> & Hm & HR); [done| |].
    { rewrite Forall_forall in Hwf. apply Forall2_same_length_lookup. split; [by eapply Forall2_length|].
      intros k a ch Ha Hch. apply l_selectS; [apply Hwf; by eapply elem_of_list_lookup_2|by eapply (Forall2_lookup_both _ _ _ _ _ _ Hc)|done..]. }
    rewrite bind_ok. eexists _, _. split; [done|]. split; [done|]. split.
    + constructor; cbn; [done|destruct (mask_is_zero m); [done|apply multi_n_max]|]. case_decide; [apply Hm|done].
    + rewrite app_length. cbn [length]. intros H0. cbn [mi_terminal]. rewrite decide_True by lia.
      rewrite take_ge by (rewrite app_length; cbn; lia). done.
  - intros s c p i (Hne & Hl & Hwf) [Hc He Ht] Hp Hlen Hi. unfold mi_select_u. unfold mi_tm in Hi. rewrite forallb_forall in Hi.
    destruct (mi_select_all_ok (fun a c => t_select_u t a c (S (length p)) i) (fun a => l_tm L a (p ++ [i])) (fun a c => l_Ru L a c (p ++ [i])) s (mi_cursors c)) as (cs & m & -> & Hm & HR); [done| |].
    { rewrite Forall_forall in Hwf. apply Forall2_same_length_lookup. split; [by eapply Forall2_length|].
      intros k a ch Ha Hch. apply l_selectS_u; [apply Hwf; by eapply elem_of_list_lookup_2|by eapply (Forall2_lookup_both _ _ _ _ _ _ Hc)|done..|].
      apply Hi, elem_of_list_In. by eapply elem_of_list_lookup_2. }
    rewrite bind_ok. eexists _, _. split; [done|]. split; [done|]. by constructor.
  - intros s q (Hne & Hl & Hwf) Hq. rewrite mi_data_loop_ok by (done || cbn; lia). f_equal.
    destruct (mi_sem s q); done.
  - intros s q v (Hne & Hl & Hwf) Hq Hs. apply mapM_Some in Hs. apply rmap_ok.
    apply Forall2_same_length_lookup. split; [by eapply Forall2_length|]. intros k a y Ha Hy.
    rewrite Forall_forall in Hwf. apply (l_data_u L); [apply Hwf; by eapply elem_of_list_lookup_2|done|].
    by eapply (Forall2_lookup_both _ _ _ _ _ _ Hs).
  - intros s c p i (Hne & Hl & Hwf) [[Hc He Ht] Htm] Hp Hi.
    destruct Hp as [Hpl Hp'] eqn:Ep. specialize (Htm ltac:(lia)). rewrite take_ge in Htm by lia.
    destruct Htm as [Hm Hb]. rewrite (mask_get_bit_ok nw) by done. rewrite bind_ok, Hb. clear Ep.
    destruct (mi_tm s p i) eqn:Etm.
    + assert (is_Some (mi_sem s (p ++ [i]))) as [v Hv].
      { apply mapM_is_Some_2. apply Forall_forall. intros a Ha. rewrite Forall_forall in Hwf. eapply l_terminal; eauto.
        unfold mi_tm in Etm. rewrite forallb_forall in Etm. apply Etm. by apply elem_of_list_In. }
      assert (mi_cursor_data t s (mi_cursors c) i = Ok v) as ->.
      { pose proof Hv as Hv'. apply mapM_Some in Hv'. apply mi_cursor_data_ok.
        - by eapply Forall2_impl.
        - intros k a ch d Ha Hch Hd. rewrite Forall_forall in Hwf. apply (l_cdata_u L a ch p); [apply Hwf; by eapply elem_of_list_lookup_2| |done|done|].
          + eapply l_Rk_Ru. by eapply (Forall2_lookup_both _ _ _ _ _ _ Hc).
          + by eapply (Forall2_lookup_both _ _ _ _ _ _ Hv').
        - symmetry. by eapply Forall2_length. }
      rewrite bind_ok. rewrite Hv. eexists. split; [done|]. split; [|done]. by intros ? [= <-].
    + eexists. split; [done|]. split; [|done]. intros v Hs. exfalso.
      enough (mi_tm s p i = true) by congruence. unfold mi_tm. apply forallb_forall. intros a Ha%elem_of_list_In.
      apply mapM_Some in Hs. apply elem_of_list_lookup in Ha as [k Hk].
      destruct (Forall2_lookup_l _ _ _ _ _ Hs Hk) as (y & _ & Hy).
      assert (l_tm L a (take (length p) (p ++ [i])) i = true) as Hx; [|by rewrite take_app in Hx].
      eapply l_complete; eauto.
      * rewrite Forall_forall in Hwf. apply Hwf. by eapply elem_of_list_lookup_2.
      * pose proof (l_depth L). replace D with (S (D - 1)) by lia. by apply path_ok_snoc.
      * rewrite lookup_app_r by done. by rewrite Nat.sub_diag.
  - intros s c p i v (Hne & Hl & Hwf) [Hc He Ht] Hp Hi Hv. apply mapM_Some in Hv. apply mi_cursor_data_ok.
    + by eapply Forall2_impl.
    + intros k a ch d Ha Hch Hd. rewrite Forall_forall in Hwf. apply (l_cdata_u L a ch p); [apply Hwf; by eapply elem_of_list_lookup_2| |done|done|].
      * by eapply (Forall2_lookup_both _ _ _ _ _ _ Hc).
      * by eapply (Forall2_lookup_both _ _ _ _ _ _ Hv).
    + symmetry. by eapply Forall2_length.
Defined.
End mi.

(** ** multi_union *)
Section mu.
Context {t : tree} (L : lawful t).
Notation nw := (t_nw t).
Notation D := (t_depth t).

Definition nonempty_f (f : N -> bool) : bool := existsb f (seqN 0 (64 * nw)).
Lemma nonempty_mask m f : mask_is nw m f -> mask_is_zero m = negb (nonempty_f f).
Proof.
  intros [Hm Hb]. unfold nonempty_f. destruct (existsb f _) eqn:E; cbn.
  - apply existsb_exists in E as (i & _ & Hi). apply not_true_iff_false. rewrite (mask_is_zero_ok nw) by done.
    intros H. specialize (H i). congruence.
  - apply (mask_is_zero_ok nw); [done|]. intros i. destruct (mbit m i) eqn:Ei; [|done].
    assert (existsb f (seqN 0 (64 * nw)) = true); [|congruence]. apply existsb_exists. exists i.
    split; [|by rewrite <- Hb]. apply elem_of_list_In, elem_of_seqN. apply mbit_bound in Ei.
    destruct Hm as [Hm _]. rewrite Hm in Ei. lia.
Qed.

Definition mu_sem (s : list (t_T t)) (q : list N) : option (list (t_V t)) :=
  match omap (fun a => l_sem L a q) s with [] => None | l => Some l end.
Definition mu_tm (s : list (t_T t)) (p : list N) (i : N) : bool :=
  existsb (fun a => l_tm L a p i) s.
Definition mu_wf (s : list (t_T t)) : Prop := length s <= MULTI_N /\ Forall (l_wf L) s.

Lemma mu_sem_Some s q v : mu_sem s q = Some v <-> v = omap (fun a => l_sem L a q) s /\ v <> [].
Proof. unfold mu_sem. destruct (omap _ s); naive_solver. Qed.
Lemma mu_sem_is_Some s q : is_Some (mu_sem s q) <-> exists a, a ∈ s /\ is_Some (l_sem L a q).
Proof.
  unfold mu_sem. split.
  - destruct (omap _ s) as [|v l] eqn:E; [intros [? ?]; done|]. intros _.
    assert (v ∈ omap (fun a => l_sem L a q) s) as Hv by (rewrite E; left).
    apply elem_of_list_omap in Hv as (a & Ha & Hv). eauto.
  - intros (a & Ha & [v Hv]). assert (v ∈ omap (fun a => l_sem L a q) s) as Hin by (apply elem_of_list_omap; eauto).
    destruct (omap _ s); [by apply elem_of_nil in Hin|eauto].
Qed.

Definition alive (a : t_T t) (p : list N) : bool := nonempty_f (l_tm L a p).
Definition alive_at (s : list (t_T t)) (p : list N) (j : N) : bool :=
  match s !! N.to_nat j with Some a => alive a p | None => false end.
Lemma alive_true a p : l_wf L a -> path_ok nw (length p) p -> length p < D ->
  alive a p = true <-> exists i, l_tm L a p i = true.
Proof.
  intros Hwf Hp Hl. unfold alive, nonempty_f. rewrite existsb_exists. split; [naive_solver|].
  intros [i Hi]. exists i. split; [|done]. apply elem_of_list_In, elem_of_seqN.
  pose proof (l_bound L a p i Hwf Hp Hl Hi) as H. unfold msize in H. lia.
Qed.
Lemma alive_parent a p i : l_wf L a -> path_ok nw (length p) p -> S (length p) < D -> (i < msize nw)%N ->
  alive a (p ++ [i]) = true -> l_tm L a p i = true.
Proof.
  intros Hwf Hp Hl Hi H. unfold alive, nonempty_f in H. apply existsb_exists in H as (j & _ & Hj). by eapply l_parent.
Qed.

Record mu_base (s : list (t_T t)) (c : mu_cursor (t_T t) (t_C t)) : Prop := {
  mub_s : fst <$> mu_cursors c = s;
  mub_l : length (mu_lvls c) = D - 1;
}.
Definition mu_Rv (s : list (t_T t)) (c : mu_cursor (t_T t) (t_C t)) : Prop :=
  mu_base s c /\ forall k a ch, mu_cursors c !! k = Some (a, ch) -> l_Rv L a ch.
Record mu_Rk (s : list (t_T t)) (c : mu_cursor (t_T t) (t_C t)) (p : list N) : Prop := {
  muk_b : mu_base s c;
  muk_r : forall m k a ch, m <= length p -> mu_cursors c !! k = Some (a, ch) ->
    (m <= 1 \/ alive a (take (m - 1) p) = true) -> l_Rk L a ch (take m p);
  muk_l : forall m, 1 <= m -> m <= length p ->
    mu_lvls c !! (m - 1) = Some (filter (fun j => alive_at s (take m p) j = true) (seqN 0 (length s)));
}.

Lemma mu_select_root_ok n i f (R : t_T t -> t_C t -> Prop) cs acc g :
  (forall k a ch, cs !! k = Some (a, ch) -> exists c' m, t_select t a ch n i = Ok (c', m) /\ mask_is nw m (f a) /\ R a c') ->
  mask_is nw acc g ->
  exists cs' m', mu_select_root t n i cs acc = Ok (cs', m') /\ fst <$> cs' = fst <$> cs /\
    mask_is nw m' (fun i => g i || existsb (fun a => f a i) (fst <$> cs)) /\
    (forall k a ch, cs' !! k = Some (a, ch) -> R a ch).
Proof.
  revert acc g. induction cs as [|[a ch] cs IH]; intros acc g Hs Hacc; cbn [mu_select_root].
  - eexists _, _. split; [done|]. split; [done|]. split; [|done]. eapply mask_is_ext; [|done]. intros. cbn. by rewrite orb_false_r.
  - destruct (Hs 0 a ch eq_refl) as (c' & m & -> & Hm & HR). rewrite bind_ok. destruct Hm as [Hm1 Hm2], Hacc as [Ha1 Ha2].
    destruct (IH (mask_or acc m) (fun i => g i || f a i)) as (cs' & m' & -> & Hf & Hm' & HR').
    { intros k. apply (Hs (S k)). }
    { split; [by apply mask_or_ok|]. intros j. by erewrite mbit_or, Ha2, Hm2. }
    rewrite bind_ok. eexists _, _. split; [done|]. split; [cbn; by f_equal|]. split.
    + eapply mask_is_ext; [|done]. intros j. cbn. by rewrite orb_assoc.
    + intros [|k] a' ch' Hk; [by injection Hk as <- <-|by eapply HR'].
Qed.

Lemma mu_foreach_ok n i f (R : t_T t -> t_C t -> Prop) idx s cs pushed acc g :
  fst <$> cs = s -> NoDup idx -> mask_is nw acc g ->
  (forall j, j ∈ idx -> N.to_nat j < length cs) ->
  (forall j a ch, j ∈ idx -> cs !! N.to_nat j = Some (a, ch) ->
     exists c' m, t_select t a ch n i = Ok (c', m) /\ mask_is nw m (f a) /\ R a c') ->
  exists cs' m', mu_foreach t n i idx cs pushed acc =
      Ok (cs', pushed ++ filter (fun j => match s !! N.to_nat j with Some a => nonempty_f (f a) | None => false end = true) idx, m') /\
    fst <$> cs' = s /\
    mask_is nw m' (fun x => g x || existsb (fun j => match s !! N.to_nat j with Some a => f a x | None => false end) idx) /\
    (forall k, N.of_nat k ∉ idx -> cs' !! k = cs !! k) /\
    (forall k a ch, N.of_nat k ∈ idx -> cs' !! k = Some (a, ch) -> R a ch).
Proof.
  revert cs pushed acc g. induction idx as [|j idx IH]; intros cs pushed acc g Hs Hnd Hacc Hlt Hsel; cbn [mu_foreach].
  - eexists _, _. split; [by rewrite filter_nil, app_nil_r|]. split; [done|]. split.
    + eapply mask_is_ext; [|done]. intros. cbn. by rewrite orb_false_r.
    + split; [done|]. intros k a ch Hk. by apply elem_of_nil in Hk.
  - inversion_clear Hnd as [|? ? Hnin Hnd'].
    destruct (lookup_lt_is_Some_2 cs (N.to_nat j)) as [[a ch] Hj]; [apply Hlt; left|].
    rewrite (get_u_ok _ _ _ Hj), bind_ok.
    destruct (Hsel j a ch) as (c' & m & -> & Hm & HR); [left|done|]. rewrite bind_ok.
    rewrite set_u_ok, bind_ok by (by eapply lookup_lt_Some).
    assert (s !! N.to_nat j = Some a) as Hsj by (rewrite <- Hs, list_lookup_fmap, Hj; done).
    pose proof (nonempty_mask _ _ Hm) as Hz. rewrite Hz.
    destruct Hm as [Hm1 Hm2], Hacc as [Ha1 Ha2].
    destruct (IH (<[N.to_nat j:=(a, c')]> cs) (if negb (nonempty_f (f a)) then pushed else pushed ++ [j])
      (mask_or acc m) (fun x => g x || f a x)) as (cs' & m' & -> & Hfst & Hm' & Hout & Hin).
    { rewrite list_fmap_insert. cbn. rewrite Hs. by apply list_insert_id. }
    { done. }
    { split; [by apply mask_or_ok|]. intros x. by erewrite mbit_or, Ha2, Hm2. }
    { intros k Hk. rewrite insert_length. apply Hlt. by right. }
    { intros k a' ch' Hk Hlk. rewrite list_lookup_insert_ne in Hlk; [|intros Heq; apply N2Nat.inj in Heq; by subst].
      apply (Hsel k); [by right|done]. }
    eexists _, _. split; [|split; [done|split; [|split]]].
    + f_equal. f_equal. f_equal. rewrite filter_cons, Hsj.
      destruct (nonempty_f (f a)); cbn [negb].
      * rewrite decide_True by done. by rewrite <- app_assoc.
      * rewrite decide_False by done. done.
    + eapply mask_is_ext; [|done]. intros x. cbn. rewrite Hsj. by rewrite orb_assoc.
    + intros k Hk. apply not_elem_of_cons in Hk as [Hk1 Hk2]. rewrite Hout by done.
      apply list_lookup_insert_ne. lia.
    + intros k a' ch' Hk Hlk. apply elem_of_cons in Hk as [Hk|Hk]; [|by eapply Hin].
      destruct (decide (N.of_nat k ∈ idx)) as [|Hn]; [by eapply Hin|].
      rewrite Hout in Hlk by done. replace k with (N.to_nat j) in Hlk by lia.
      rewrite list_lookup_insert in Hlk by (by eapply lookup_lt_Some). by injection Hlk as <- <-.
Qed.

Lemma mu_cursor_data_ok g idx s cs i :
  fst <$> cs = s -> (forall j, j ∈ idx -> N.to_nat j < length cs) ->
  (forall j a ch, j ∈ idx -> cs !! N.to_nat j = Some (a, ch) -> t_cdata t a ch i = Ok (g a)) ->
  mu_cursor_data t idx cs i = Ok (omap (fun j => s !! N.to_nat j ≫= g) idx).
Proof.
  intros Hs. induction idx as [|j idx IH]; intros Hlt Hf; cbn [mu_cursor_data]; [done|].
  destruct (lookup_lt_is_Some_2 cs (N.to_nat j)) as [[a ch] Hj]; [apply Hlt; left|].
  rewrite (get_u_ok _ _ _ Hj), bind_ok. rewrite (Hf j a ch) by (done || left). rewrite bind_ok.
  rewrite IH, bind_ok; [|intros k Hk; apply Hlt; by right|intros k a' ch' Hk; apply Hf; by right].
  assert (s !! N.to_nat j = Some a) as Hsj by (rewrite <- Hs, list_lookup_fmap, Hj; done).
  cbn [omap list_omap]. rewrite Hsj. cbn. by destruct (g a).
Qed.
Lemma omap_step {A B} (h : A -> option B) x l :
  omap h (x :: l) = match h x with Some y => y :: omap h l | None => omap h l end.
Proof. done. Qed.
Lemma omap_filter_N (P : N -> Prop) `{!forall x, Decision (P x)} {B} (h : N -> option B) (l : list N) :
  (forall x, x ∈ l -> is_Some (h x) -> P x) -> omap h (filter P l) = omap h l.
Proof.
  induction l as [|x l IH]; intros HH; [done|]. rewrite filter_cons, (omap_step h x l).
  assert (omap h (filter P l) = omap h l) as IH' by (apply IH; intros y Hy; apply HH; by right).
  destruct (decide (P x)) as [HP|HP].
  - by rewrite omap_step, IH'.
  - destruct (h x) eqn:E; [|done]. exfalso. apply HP, HH; [left|by eexists].
Qed.
Lemma omap_seqN_gen {A B} (g : A -> option B) (pre s : list A) :
  omap (fun j => (pre ++ s) !! N.to_nat j ≫= g) (seqN (N.of_nat (length pre)) (length s)) = omap g s.
Proof.
  revert pre. induction s as [|a s IH]; intros pre; [done|]. cbn [length seqN]. rewrite !omap_step.
  rewrite lookup_app_r by lia. replace (N.to_nat (N.of_nat (length pre)) - length pre) with 0 by lia. cbn [lookup list_lookup mbind option_bind].
  specialize (IH (pre ++ [a])). rewrite <- app_assoc in IH. cbn [app] in IH. rewrite app_length in IH. cbn [length] in IH.
  replace (N.of_nat (length pre + 1)) with (N.succ (N.of_nat (length pre))) in IH by lia.
  rewrite IH. done.
Qed.
Lemma omap_seqN {A B} (g : A -> option B) (s : list A) :
  omap (fun j => s !! N.to_nat j ≫= g) (seqN 0 (length s)) = omap g s.
Proof. apply (omap_seqN_gen g []). Qed.

Lemma mu_data_loop_ok srcs q acc : Forall (l_wf L) srcs -> path_ok nw D q ->
  length acc + length srcs <= MULTI_N ->
  mu_data_loop t srcs (key_of_path nw q) q acc = Ok (acc ++ omap (fun a => l_sem L a q) srcs).
Proof.
  intros Hwf Hq. revert acc. induction Hwf as [|a srcs Ha Hwf IH]; intros acc Hl; cbn [mu_data_loop].
  - by rewrite app_nil_r.
  - rewrite (l_data L) by done. rewrite bind_ok. cbn [omap list_omap]. cbn in Hl.
    destruct (l_sem L a q) as [v|].
    + rewrite decide_True by lia. rewrite IH by (rewrite app_length; cbn; lia). by rewrite <- app_assoc.
    + apply IH. lia.
Qed.
Lemma mu_data_u_loop_ok srcs q : Forall (l_wf L) srcs -> path_ok nw D q ->
  mu_data_u_loop t srcs (key_of_path nw q) q = Ok (omap (fun a => l_sem L a q) srcs).
Proof.
  intros Hwf Hq. induction Hwf as [|a srcs Ha Hwf IH]; cbn [mu_data_u_loop]; [done|].
  rewrite (l_data L) by done. rewrite bind_ok, IH, bind_ok. cbn [omap list_omap]. by destruct (l_sem L a q).
Qed.

Lemma mu_Rk_wf_in s c a ch k : mu_wf s -> mu_base s c -> mu_cursors c !! k = Some (a, ch) -> l_wf L a /\ s !! k = Some a.
Proof.
  intros [_ Hwf] [Hs _] Hk. assert (s !! k = Some a) as H by (rewrite <- Hs, list_lookup_fmap, Hk; done).
  split; [|done]. rewrite Forall_forall in Hwf. apply Hwf. by eapply elem_of_list_lookup_2.
Qed.

Lemma mu_selectS_ok s c p i : mu_wf s -> mu_Rk s c p -> path_ok nw (length p) p ->
  S (length p) < D -> (i < msize nw)%N -> exists c' m,
  mu_select t s c (S (length p)) i = Ok (c', m) /\ mask_is nw m (mu_tm s (p ++ [i])) /\ mu_Rk s c' (p ++ [i]).
Proof.
  intros Hwf [Hb Hr Hlv] Hp Hl Hi. pose proof Hb as [Hs Hll].
  assert (length (mu_cursors c) = length s) as Hlen by (rewrite <- Hs, fmap_length; done).
  unfold mu_select. rewrite decide_False by done. cbn [Nat.sub]. rewrite Nat.sub_0_r.
  rewrite set_u_ok, bind_ok by lia.
  set (n := length p) in *.
  set (vis := fun j => n = 0 \/ alive_at s p j = true).
  (* the visited children *)
  assert (exists idx, (if decide (S n = 1) then Ok (seqN 0 (length (mu_cursors c)))
      else get_u (<[n:=[]]> (mu_lvls c)) (n - 1)) = Ok idx /\ NoDup idx /\
      (forall j, j ∈ idx <-> N.to_nat j < length s /\ vis j) /\
      (forall (P : N -> Prop) (HPd : forall x, Decision (P x)),
        (forall j, P j -> vis j) -> filter P idx = filter P (seqN 0 (length s)))) as (idx & Hidx & Hnd & Hin & Hfil).
  { case_decide as E.
    - exists (seqN 0 (length s)). rewrite Hlen. split_and!; [done|apply ssorted_nodup, seqN_sorted| |done].
      intros j. rewrite elem_of_seqN. unfold vis. split; [|lia]. intros; split; [lia|left; lia].
    - assert (1 <= n) by lia.
      exists (filter (fun j => alive_at s p j = true) (seqN 0 (length s))). split_and!.
      + apply get_u_ok. rewrite list_lookup_insert_ne by lia. specialize (Hlv n). rewrite take_ge in Hlv by done. by apply Hlv.
      + apply NoDup_filter, ssorted_nodup, seqN_sorted.
      + intros j. rewrite elem_of_list_filter, elem_of_seqN. unfold vis. split.
        * intros [? ?]. split; [lia|by right].
        * intros [? [?|?]]; [lia|]. split; [done|lia].
      + intros P ? HP. rewrite list_filter_filter. apply list_filter_iff. intros x. unfold vis in HP. split; [naive_solver|].
        intros Hx. split; [done|]. destruct (HP x Hx); [lia|done]. }
  rewrite Hidx, bind_ok.
  assert (forall k a ch, N.of_nat k ∈ idx -> mu_cursors c !! k = Some (a, ch) -> l_Rk L a ch p) as Hrk.
  { intros k a ch Hk Hc. destruct (mu_Rk_wf_in _ _ _ _ _ Hwf Hb Hc) as [Hwa Hsa].
    rewrite <- (take_ge p n) by done. eapply Hr; [done|done|]. apply Hin in Hk as [_ [Hk|Hk]]; [left; lia|].
    unfold alive_at in Hk. rewrite Nat2N.id, Hsa in Hk.
    destruct (decide (n <= 1)) as [|Hn]; [by left|]. right.
    assert (p = take (n - 1) p ++ [List.nth (n - 1) p 0%N]) as Hpe.
    { rewrite <- (firstn_skipn (n - 1) p) at 1. f_equal.
      destruct (skipn (n - 1) p) as [|x [|y r]] eqn:Es.
      - apply (f_equal length) in Es. rewrite skipn_length in Es. cbn in Es. lia.
      - rewrite <- (firstn_skipn (n - 1) p), Es. rewrite app_nth2; rewrite firstn_length; [|lia]. replace (n - 1 - (n - 1) `min` length p) with 0 by lia. done.
      - apply (f_equal length) in Es. rewrite skipn_length in Es. cbn in Es. lia. }
    assert (length (take (n - 1) p) = n - 1) as Hlt by (rewrite take_length; lia).
    rewrite Hpe in Hk. apply alive_parent in Hk.
    - apply (alive_true a (take (n - 1) p)); [done| |lia|by eexists].
      rewrite Hlt. pose proof (path_ok_take nw _ p (n - 1) Hp) as Hx. by replace ((n - 1) `min` n) with (n - 1) in Hx by lia.
    - done.
    - rewrite Hlt. pose proof (path_ok_take nw _ p (n - 1) Hp) as Hx. by replace ((n - 1) `min` n) with (n - 1) in Hx by lia.
    - lia.
    - destruct Hp as [_ Hp]. rewrite Forall_forall in Hp. apply Hp. rewrite Hpe at 2. apply elem_of_app. right. left. }
  destruct (mu_foreach_ok (S n) i (fun a => l_tm L a (p ++ [i])) (fun a ch => l_Rk L a ch (p ++ [i])) idx s (mu_cursors c) []
    (mask_zero nw) (fun _ => false)) as (cs' & m' & -> & Hfst & Hm' & Hout & HinR).
  { done. } { done. }
  { split; [apply mask_zero_ok|]. intros; apply mbit_zero. }
  { intros j Hj%Hin. lia. }
  { intros j a ch Hj Hc. destruct (mu_Rk_wf_in _ _ _ _ _ Hwf Hb Hc) as [Hwa Hsa].
    apply l_selectS; try done. apply (Hrk (N.to_nat j)); [by rewrite N2Nat.id|done]. }
  rewrite bind_ok. cbn [app]. rewrite set_u_ok, bind_ok by (rewrite insert_length; lia). rewrite list_insert_insert.
  eexists _, _. split; [reflexivity|].
  (* a child that was not visited has an empty node here *)
  assert (forall j a, s !! N.to_nat j = Some a -> alive a (p ++ [i]) = true -> vis j) as Hvis.
  { intros j a Hj Ha. right. unfold alive_at. rewrite Hj.
    assert (l_wf L a) as Hwa. { destruct Hwf as [_ Hwf]. rewrite Forall_forall in Hwf. apply Hwf. by eapply elem_of_list_lookup_2. }
    apply (alive_true a p); [done|done|lia|]. exists i. by apply alive_parent. }
  split.
  - eapply mask_is_ext; [|exact Hm']. intros x. cbn [orb]. unfold mu_tm.
    apply eq_true_iff_eq. rewrite !existsb_exists. split.
    + intros (j & _ & Hx). destruct (s !! N.to_nat j) as [a|] eqn:Ej; [|done]. exists a. split; [|done].
      apply elem_of_list_In. by eapply elem_of_list_lookup_2.
    + intros (a & Ha & Hx). apply elem_of_list_In, elem_of_list_lookup in Ha as [k Hk]. exists (N.of_nat k).
      rewrite Nat2N.id, Hk. split; [|done]. apply elem_of_list_In, Hin. rewrite Nat2N.id.
      split; [by eapply lookup_lt_Some|]. eapply Hvis; [by rewrite Nat2N.id|].
      assert (l_wf L a) as Hwa. { destruct Hwf as [_ Hwf]. rewrite Forall_forall in Hwf. apply Hwf. by eapply elem_of_list_lookup_2. }
      apply alive_true; [done| |rewrite app_length; cbn; lia|by eexists].
      rewrite app_length. replace (length p + length [i]) with (S (length p)) by (cbn; lia). by apply path_ok_snoc.
  - constructor; cbn [mu_cursors mu_lvls].
    + constructor; cbn [mu_cursors mu_lvls]; [done|by rewrite insert_length].
    + intros m k a ch Hm Hc Hcond. rewrite app_length in Hm. cbn in Hm.
      destruct (decide (N.of_nat k ∈ idx)) as [Hk|Hk].
      { apply l_Rk_take. by eapply HinR. }
      rewrite Hout in Hc by done. destruct (mu_Rk_wf_in _ _ _ _ _ Hwf Hb Hc) as [Hwa Hsa].
      destruct (decide (m = S n)) as [->|].
      { exfalso. apply Hk, Hin. rewrite Nat2N.id. split; [by eapply lookup_lt_Some|].
        destruct Hcond as [Hcond|Hcond]; [left; lia|right]. unfold alive_at. rewrite Nat2N.id, Hsa.
        rewrite take_app_le in Hcond by lia. rewrite take_ge in Hcond by lia. done. }
      rewrite take_app_le by lia. eapply Hr; [lia|done|]. destruct Hcond as [|Hcond]; [by left|right].
      by rewrite take_app_le in Hcond by lia.
    + intros m Hm1 Hm2. rewrite app_length in Hm2. cbn in Hm2. destruct (decide (m = S n)) as [->|].
      * cbn [Nat.sub]. rewrite Nat.sub_0_r, list_lookup_insert by lia. f_equal.
        rewrite (take_ge (p ++ [i])) by (rewrite app_length; cbn; lia).
        unfold alive_at, alive.
        apply (Hfil (fun j => match s !! N.to_nat j with Some a => nonempty_f (l_tm L a (p ++ [i])) | None => false end = true)).
        intros j Hj. destruct (s !! N.to_nat j) as [a|] eqn:Ej; [|done]. by eapply Hvis.
      * rewrite list_lookup_insert_ne by lia. rewrite take_app_le by lia. apply Hlv; lia.
Qed.

Lemma mu_cdata_ok s c p i : l_cdok L = true -> 2 <= D -> mu_wf s -> mu_Rk s c p -> path_ok nw (D - 1) p ->
  (i < msize nw)%N -> exists d, mu_cdata t s c i = Ok d /\ (forall v, mu_sem s (p ++ [i]) = Some v -> d = Some v).
Proof.
  intros Hok HD Hwf [Hb Hr Hlv] Hp Hi. pose proof Hb as [Hs Hll]. pose proof Hp as [Hpl _].
  assert (length (mu_cursors c) = length s) as Hlen by (rewrite <- Hs, fmap_length; done).
  unfold mu_cdata. rewrite decide_False by lia. rewrite Hll.
  specialize (Hlv (D - 1) ltac:(lia) ltac:(lia)). rewrite take_ge in Hlv by lia.
  rewrite (get_u_ok _ _ _ Hlv), bind_ok.
  set (lvl := filter _ (seqN 0 (length s))).
  assert (mu_cursor_data t lvl (mu_cursors c) i = Ok (omap (fun a => l_sem L a (p ++ [i])) s)) as Hcd.
  { rewrite (mu_cursor_data_ok (fun a => l_sem L a (p ++ [i])) lvl s); [|done| |].
    - f_equal. unfold lvl. rewrite omap_filter_N; [apply omap_seqN|]. intros j Hj [v Hv]. unfold alive_at.
      destruct (s !! N.to_nat j) as [a|] eqn:Ej; [|done]. cbn in Hv.
      assert (l_wf L a) as Hwa. { destruct Hwf as [_ Hwf]. rewrite Forall_forall in Hwf. apply Hwf. by eapply elem_of_list_lookup_2. }
      apply (alive_true a p); [done|by rewrite Hpl|lia|]. exists i.
      assert (l_tm L a (take (length p) (p ++ [i])) i = true) as Hx; [|by rewrite take_app in Hx].
      eapply l_complete; eauto; [|rewrite lookup_app_r by done; by rewrite Nat.sub_diag].
      replace D with (S (D - 1)) by lia. by apply path_ok_snoc.
    - intros j [_ Hj]%elem_of_list_filter. apply elem_of_seqN in Hj. lia.
    - intros j a ch [Hj1 Hj2]%elem_of_list_filter Hc. destruct (mu_Rk_wf_in _ _ _ _ _ Hwf Hb Hc) as [Hwa Hsa].
      assert (l_Rk L a ch p) as Hrk.
      { rewrite <- (take_ge p (D - 1)) by lia. eapply Hr; [lia|done|].
        unfold alive_at in Hj1. rewrite Hsa in Hj1.
        destruct (decide (D - 1 <= 1)) as [|Hn]; [by left|]. right.
        destruct (exists_last (l := p)) as (p' & x & Hpe). { intros ->. cbn in Hpl. lia. }
        rewrite Hpe in Hj1 |- *. rewrite Hpe, app_length in Hpl. cbn in Hpl.
        rewrite Hpe in Hp. apply path_ok_app_inv in Hp as [Hp1 [_ Hp2]]. inversion_clear Hp2.
        apply alive_parent in Hj1; [|done..|lia|done].
        rewrite take_app_alt by lia. apply alive_true; [done|done|lia|by eexists]. }
      destruct (l_cdata L a ch p i Hwa Hrk Hp Hi) as (d & -> & Hd1 & Hd2). f_equal.
      destruct (l_sem L a (p ++ [i])); [by apply Hd1|by apply Hd2]. }
  destruct lvl as [|j l] eqn:El.
  - eexists. split; [done|]. cbn in Hcd. injection Hcd as Hcd. intros v [-> Hv]%mu_sem_Some. by rewrite <- Hcd in Hv.
  - rewrite Hcd, bind_ok. eexists. split; [done|]. by intros v [-> Hv]%mu_sem_Some.
Qed.

Definition lawful_multi_union (Hok : l_cdok L = true) (HD : 2 <= D) : lawful (t_multi_union t).
Proof.
  refine (Lawful (t_multi_union t) mu_wf mu_sem mu_tm false mu_Rv mu_Rk mu_Rk
    _ _ _ _ _ _ _ _ _ _ _ _ _ _ _ _ _ _ _);
    cbn [t_multi_union t_nw t_depth t_T t_C t_V t_data t_data_u t_new t_select t_select_u t_cdata t_cdata_u].
  - apply L.
  - apply L.
  - intros s q v n i (Hl & Hwf) Hq Hs Hn. destruct (proj1 (mu_sem_is_Some s q)) as (a & Ha & [w Hw]); [by eexists|].
    apply existsb_exists. exists a. split; [by apply elem_of_list_In|]. eapply l_complete; eauto.
    rewrite Forall_forall in Hwf. by apply Hwf.
  - intros s p i (Hl & Hwf) Hp Hi. apply existsb_exists in Hi as (a & Ha%elem_of_list_In & Hi).
    apply mu_sem_is_Some. exists a. split; [done|]. eapply l_terminal; eauto. rewrite Forall_forall in Hwf. by apply Hwf.
  - intros s p i (Hl & Hwf) Hp Hlen Hi. apply existsb_exists in Hi as (a & Ha%elem_of_list_In & Hi).
    eapply (l_bound L a); eauto. rewrite Forall_forall in Hwf. by apply Hwf.
  - intros s p i j (Hl & Hwf) Hp Hlen Hi Hj. apply existsb_exists in Hj as (a & Ha & Hj). apply existsb_exists. exists a.
    split; [done|]. eapply l_parent; eauto. rewrite Forall_forall in Hwf. apply Hwf. by apply elem_of_list_In.
  - done.
  - intros s c p [Hb Hr Hlv]. split; [done|]. intros k a ch Hk. eapply l_Ru_Rv, l_Rk_Ru, (Hr 0); [lia|done|left; lia].
  - intros s c p n [Hb Hr Hlv]. constructor; [done| |].
    + intros m k a ch Hm Hc. rewrite take_length in Hm. rewrite !take_take. replace ((m - 1) `min` n) with (m - 1) by lia.
      replace (m `min` n) with m by lia. apply (Hr m k); [lia|done].
    + intros m Hm1 Hm2. rewrite take_length in Hm2. rewrite !take_take. replace (m `min` n) with m by lia. apply Hlv; lia.
  - intros s c p n [Hb Hr Hlv]. constructor; [done| |].
    + intros m k a ch Hm Hc. rewrite take_length in Hm. rewrite !take_take. replace ((m - 1) `min` n) with (m - 1) by lia.
      replace (m `min` n) with m by lia. apply (Hr m k); [lia|done].
    + intros m Hm1 Hm2. rewrite take_length in Hm2. rewrite !take_take. replace (m `min` n) with m by lia. apply Hlv; lia.
  - intros s (Hl & Hwf). rewrite Forall_forall in Hwf.
    destruct (arrayvec_collect_ok (fun a => let* c := t_new t a in Ok (a, c)) (fun a ac => fst ac = a /\ l_Rv L a (snd ac)) MULTI_N s Hl) as (k & -> & Hk).
    { intros a Ha. destruct (l_new L a (Hwf a Ha)) as (c & -> & Hc). cbn. eexists. split; [done|]. done. }
    rewrite bind_ok. eexists. split; [done|]. split; [constructor; cbn [mu_cursors mu_lvls]|].
    + clear -Hk. induction Hk as [|a [a' c] s k [Ha _] H IH]; [done|]. cbn in *. by subst; f_equal.
    + apply replicate_length.
    + cbn [mu_cursors]. intros j a ch Hj. destruct (Forall2_lookup_r _ _ _ _ _ Hk Hj) as (a' & _ & [Ha Hc]). cbn in *. by subst.
  - intros s c Hwf [Hb Hr]. unfold mu_select. rewrite decide_True by done.
    destruct (mu_select_root_ok 0 0%N (fun a => l_tm L a []) (fun a ch => l_Rk L a ch []) (mu_cursors c) (mask_zero nw) (fun _ => false))
      as (cs & m & -> & Hf & Hm & HR).
    { intros k a ch Hk. destruct (mu_Rk_wf_in _ _ _ _ _ Hwf Hb Hk) as [Hwa _]. apply l_select0; [done|by eapply Hr]. }
    { split; [apply mask_zero_ok|]. intros; apply mbit_zero. }
    destruct Hb as [Hs Hll]. rewrite bind_ok. eexists _, _. split; [done|]. split; [by rewrite Hs in Hm|].
    constructor; [constructor; cbn [mu_cursors mu_lvls]; [by rewrite Hf|done]| |].
    + cbn. intros n k a ch Hn Hk _. rewrite take_nil. by eapply HR.
    + cbn. intros; lia.
  - intros s c Hwf [Hb Hr]. unfold mu_select. rewrite decide_True by done.
    destruct (mu_select_root_ok 0 0%N (fun a => l_tm L a []) (fun a ch => l_Rk L a ch []) (mu_cursors c) (mask_zero nw) (fun _ => false))
      as (cs & m & -> & Hf & Hm & HR).
    { intros k a ch Hk. destruct (mu_Rk_wf_in _ _ _ _ _ Hwf Hb Hk) as [Hwa _]. apply l_select0; [done|by eapply Hr]. }
    { split; [apply mask_zero_ok|]. intros; apply mbit_zero. }
    destruct Hb as [Hs Hll]. rewrite bind_ok. eexists _, _. split; [done|]. split; [by rewrite Hs in Hm|].
    constructor; [constructor; cbn [mu_cursors mu_lvls]; [by rewrite Hf|done]| |].
    + cbn. intros n k a ch Hn Hk _. rewrite take_nil. by eapply HR.
    + cbn. intros; lia.
  - intros. by apply mu_selectS_ok.
  - intros s c p i Hwf Hr Hp Hl Hi. apply mu_selectS_ok; try done.
    apply existsb_exists in Hi as (a & Ha%elem_of_list_In & Hi). eapply (l_bound L a); eauto; [|lia].
    destruct Hwf as [_ Hwf]. rewrite Forall_forall in Hwf. by apply Hwf.
  - intros s q (Hl & Hwf) Hq. rewrite mu_data_loop_ok by (done || cbn; lia). rewrite bind_ok. cbn [app]. unfold mu_sem. by destruct (omap _ s).
  - intros s q v (Hl & Hwf) Hq [-> Hs]%mu_sem_Some. by apply mu_data_u_loop_ok.
  - intros s c p i Hwf Hr Hp Hi. destruct (mu_cdata_ok s c p i Hok HD Hwf Hr Hp Hi) as (d & -> & Hd). eexists. split; [done|]. split; [done|]. done.
  - intros s c p i v Hwf Hr Hp Hi Hs. destruct (mu_cdata_ok s c p i Hok HD Hwf Hr Hp Hi) as (d & -> & Hd). rewrite bind_ok.
    rewrite (Hd v) by done. done.
Defined.
End mu.
