(** * Lazy expressions over containers are expressions over finite maps *)
From Verif Require Import Base BitUtils BitUtilsProofs BitQueue LevelIndices LevelIndicesProofs
  ConstLoops Hierarchy Lawful IterProofs Ops OpsProofs MultiProofs
  Dense DenseProofs DenseRemove DenseTree DenseDrop Sparse SparseVec SparseProofs SparseOps SparseTree
  Spec SpecLaws Client DenseHistory DenseLaws SparseHistory TreeClient Generic Materialize MaterializeProofs MaterializeLaws
  Contract Compose ViewLaws MaterializeViews.

(** [denotes pk v s m]: every container in the expression [s] is the result of a legal
    history of calls, and computing with the histories' finite maps - instead of the
    containers - gives [m].  The cases say what each operation is on maps. *)
Fixpoint denotes (pk : N -> Prop) {b t} (v : view b t) : t_T t -> gmap N (t_V t) -> Prop :=
  match v in view b t return t_T t -> gmap N (t_V t) -> Prop with
  | VDense V D _ _ => fun s m => exists cs, dense_legal D cs /\ dense_reached D cs s /\
      (forall k, k ∈ spec_all_panicked (64 ^ N.of_nat D) ∅ cs -> pk k) /\ m = spec_run (64 ^ N.of_nat D) ∅ cs
  | VSparse V nw D first _ _ _ => fun s m => exists req dflt cs, first = placeholder req dflt /\
      sparse_legal nw D req dflt cs /\ sparse_reached nw D req dflt cs s /\
      (forall k, k ∈ spec_all_panicked (key_bound nw D) ∅ cs -> pk k) /\ m = spec_run (key_bound nw D) ∅ cs
  | VMap b t W f v => fun s m => exists m0, denotes pk v s m0 /\ m = f <$> m0
  | VMultiMapFold b t X A items init f v => fun s m => exists m0, denotes pk v s m0 /\
      m = (fun d => fold_left f (items d) init) <$> m0
  | VIntersection b0 b1 t0 t1 _ _ v0 v1 => fun s m => exists m0 m1, denotes pk v0 (fst s) m0 /\ denotes pk v1 (snd s) m1 /\
      m = map_zip m0 m1
  | VUnion t0 t1 _ _ v0 v1 => fun s m => exists m0 m1, denotes pk v0 (fst s) m0 /\ denotes pk v1 (snd s) m1 /\
      m = merge either m0 m1
  | VMultiIntersection b t v => fun s m => s <> [] /\ length s <= 32 /\ exists ms, Forall2 (denotes pk v) s ms /\
      forall k, m !! k = all_of ((.!! k) <$> ms)
  | VMultiUnion t _ v => fun s m => length s <= 32 /\ exists ms, Forall2 (denotes pk v) s ms /\
      forall k, m !! k = some_of ((.!! k) <$> ms)
  | VMat b t _ _ _ v => fun d m => exists s d0 m0 cs os dr, denotes pk v s m0 /\ few t s /\
      materialize t s = Ok d0 /\ dense_calls (t_depth t) d0 cs = Ok (d, os, dr) /\ dense_legal_from (t_depth t) m0 cs /\
      (t_exact t = true \/ t_depth t = 1 \/ cs = []) /\
      (t_exact t = true \/ t_depth t = 1 \/ forall k, pk k) /\
      (forall k, k ∈ spec_all_panicked (64 ^ N.of_nat (t_depth t)) m0 cs -> pk k) /\
      m = spec_run (64 ^ N.of_nat (t_depth t)) m0 cs
  | VUser b t _ _ _ _ => fun s m => (honest b t s /\ honest_exact pk t s /\ honest_max t s) /\ get_is t s m
  end.

Lemma view_has_map {b t} (v : view b t) pk s : reached pk v s -> exists m, get_is t s m.
Proof.
  intros Hr. destruct (view_iter v pk s Hr) as (n & l & _ & Hs & He). exists (list_to_map l).
  intros k x. rewrite <- He. split.
  - intros H. by apply elem_of_list_to_map_2.
  - intros H. apply elem_of_list_to_map_1; [|done]. by apply ssorted_nodup.
Qed.
Lemma get_is_content {b t} (v : view b t) pk s m : reached pk v s -> get_is t s m <-> forall k, m !! k = content (vL v) s k.
Proof.
  intros Hr. split.
  - intros H k. apply option_eq. intros x. rewrite (H k x). by apply (view_get_Some pk v).
  - by apply (content_get_is v pk s Hr).
Qed.

Lemma denotes_reached pk {b t} (v : view b t) : forall s m, denotes pk v s m -> reached pk v s /\ get_is t s m.
Proof.
  induction v as [V D H0 H1|V nw D first Hnw H0 H1|b t W f v IH|b t X A items init f v IH|b0 b1 t0 t1 Hn Hd v0 IH0 v1 IH1
    |t0 t1 Hn Hd v0 IH0 v1 IH1|b t v IH|t HD v IH|b t Hnw H0 H1 v IH|b t Hnw H0 H1 Hsz]; intros s m; cbn [denotes].
  - intros (cs & Hl & Hr & Hp & ->). set (v := VDense V D H0 H1). assert (reached pk v s) as Hr' by (by exists cs). split; [done|].
    apply (get_is_content v pk s _ Hr'). intros k. destruct (dense_reached_inv D cs s H0 H1 Hl Hr) as (ex & Hi & _). symmetry.
    by apply (content_dense D H0 H1 allp ex).
  - intros (req & dflt & cs & -> & Hl & Hr & Hp & ->). set (v := VSparse V nw D (placeholder req dflt) Hnw H0 H1).
    assert (reached pk v s) as Hr' by (by exists req, dflt, cs). split; [done|].
    apply (get_is_content v pk s _ Hr'). intros k. pose proof (sparse_reached_inv nw D req dflt cs s Hnw H0 (le9 H1) Hl Hr) as Hi. symmetry.
    by eapply content_sparse.
  - intros (m0 & [Hr Hm]%IH & ->). split; [done|]. intros k x. rewrite (map_law v pk s f k Hr). rewrite lookup_fmap_Some. split.
    + intros (y & <- & Hy%Hm). by rewrite Hy.
    + intros H. destruct (tree_get t s k) as [[y|]| | |] eqn:Hg; try done. cbn in H. injection H as <-. exists y. split; [done|]. by apply Hm.
  - intros (m0 & [Hr Hm]%IH & ->). split; [done|]. intros k x. rewrite (mmf_law v pk s items init f k Hr). rewrite lookup_fmap_Some. split.
    + intros (y & <- & Hy%Hm). by rewrite Hy.
    + intros H. destruct (tree_get t s k) as [[y|]| | |] eqn:Hg; try done. cbn in H. injection H as <-. exists y. split; [done|]. by apply Hm.
  - intros (m0 & m1 & [Hr0 Hm0]%IH0 & [Hr1 Hm1]%IH1 & ->). destruct s as [s0 s1]. cbn [fst snd] in *. split; [done|].
    intros k [x y]. rewrite map_lookup_zip_with_Some.
    destruct (intersection_law v0 v1 pk s0 s1 k Hn Hd Hr0 Hr1) as [(o0 & o1 & E0 & E1 & E)|(E0 & E1 & E)]; rewrite E.
    + split.
      * intros (a & b & [= -> ->] & Ha%Hm0 & Hb%Hm1). rewrite E0 in Ha. rewrite E1 in Hb. injection Ha as ->. injection Hb as ->. done.
      * intros H. destruct o0 as [a|], o1 as [b|]; try done. cbn in H. injection H as <- <-. exists a, b. split; [done|]. split; [by apply Hm0|by apply Hm1].
    + split; [|done]. intros (a & b & _ & Ha%Hm0 & _). congruence.
  - intros (m0 & m1 & [Hr0 Hm0]%IH0 & [Hr1 Hm1]%IH1 & ->). destruct s as [s0 s1]. cbn [fst snd] in *. split; [done|].
    intros k x. rewrite lookup_merge.
    destruct (union_law v0 v1 pk s0 s1 k Hn Hd Hr0 Hr1) as [(o0 & o1 & E0 & E1 & E)|(E0 & E1 & E)]; rewrite E.
    + assert (m0 !! k = o0) as -> by (apply option_eq; intros y; rewrite (Hm0 k y), E0; naive_solver).
      assert (m1 !! k = o1) as -> by (apply option_eq; intros y; rewrite (Hm1 k y), E1; naive_solver).
      destruct o0, o1; cbn; naive_solver.
    + assert (m0 !! k = None) as -> by (apply option_eq; intros y; rewrite (Hm0 k y), E0; naive_solver).
      assert (m1 !! k = None) as -> by (apply option_eq; intros y; rewrite (Hm1 k y), E1; naive_solver). done.
  - intros (Hne & Hl & ms & Hms & Hm).
    assert (Forall (reached pk v) s) as Hf by (clear -Hms IH; induction Hms as [|s m ss ms [? ?]%IH _ ?]; by constructor).
    split; [done|]. intros k x. rewrite Hm.
    destruct (mi_law v pk s k Hne Hl Hf) as [(os & Hos & E)|(Hp & E)]; rewrite E.
    + assert ((.!! k) <$> ms = os) as ->; [|split; [by intros ->|by intros [= ->]]]. clear -Hms IH Hos. revert os Hos.
      induction Hms as [|a m ss ms [_ Hm]%IH _ IH']; intros os Hos; inversion_clear Hos; [done|]. cbn. f_equal; [|by apply IH'].
      apply option_eq. intros z. rewrite (Hm k z). match goal with H : tree_get _ _ _ = Ok _ |- _ => rewrite H end. split; [by intros [= ->]|by intros ->].
    + split; [|done]. intros H. destruct Hms as [|a m0 ss ms [_ Hm0]%IH _]; [done|]. apply Forall_cons in Hp as [Hp _]. cbn in H.
      destruct (m0 !! k) as [y|] eqn:Hy; [|done]. apply Hm0 in Hy. congruence.
  - intros (Hl & ms & Hms & Hm).
    assert (Forall (reached pk v) s) as Hf by (clear -Hms IH; induction Hms as [|s m ss ms [? ?]%IH _ ?]; by constructor).
    split; [done|]. intros k x. rewrite Hm.
    destruct (mu_law v pk s k HD Hl Hf) as [(os & Hos & E)|(Hp & E)]; rewrite E.
    + assert ((.!! k) <$> ms = os) as ->; [|split; [by intros ->|by intros [= ->]]]. clear -Hms IH Hos. revert os Hos.
      induction Hms as [|a m ss ms [_ Hm]%IH _ IH']; intros os Hos; inversion_clear Hos; [done|]. cbn. f_equal; [|by apply IH'].
      apply option_eq. intros z. rewrite (Hm k z). match goal with H : tree_get _ _ _ = Ok _ |- _ => rewrite H end. split; [by intros [= ->]|by intros ->].
    + split; [|done]. intros H. exfalso. assert (present ((.!! k) <$> ms) = []) as Hno.
      { clear -Hms IH Hp. induction Hms as [|a m0 ss ms [_ Hm0]%IH _ IH']; [done|]. apply Forall_cons in Hp as [Hp Hps]. cbn.
        destruct (m0 !! k) as [y|] eqn:Hy; [apply Hm0 in Hy; congruence|]. by apply IH'. }
      unfold some_of in H. by rewrite Hno in H.
  - intros (s0 & d0 & m0 & cs & os & dr & [Hs Hm]%IH & Hfew & Hmat & Hcalls & Hl & Hcase & Hsx & Hpk & ->).
    set (v' := VMat b t Hnw H0 H1 v). assert (reached pk v' s) as Hr by (by exists s0, d0, m0, cs, os, dr). split; [done|].
    apply (get_is_content v' pk s _ Hr). intros k.
    destruct (mat_inv pk (vL v) s0 d0 m0 cs s os dr Hnw H1 (reached_good pk v s0 Hs) Hfew Hm Hmat Hcalls Hl Hcase) as (Hi & _).
    symmetry. by apply (content_mat _ H0 H1 allp).
  - intros [Hr Hm]. split; [exact Hr|exact Hm].
Qed.
Lemma denotes_exists pk {b t} (v : view b t) : forall s, reached pk v s -> exists m, denotes pk v s m.
Proof.
  induction v as [V D H0 H1|V nw D first Hnw H0 H1|b t W f v IH|b t X A items init f v IH|b0 b1 t0 t1 Hn Hd v0 IH0 v1 IH1
    |t0 t1 Hn Hd v0 IH0 v1 IH1|b t v IH|t HD v IH|b t Hnw H0 H1 v IH|b t Hnw H0 H1 Hsz]; intros s Hr; pose proof Hr as Hr'; cbn [reached] in Hr'; cbn [denotes].
  - destruct Hr' as (cs & ? & ? & ?). eexists _, cs. naive_solver.
  - destruct Hr' as (req & dflt & cs & ? & ? & ? & ?). eexists _, req, dflt, cs. naive_solver.
  - destruct (IH s Hr') as [m0 ?]. eexists _, m0. naive_solver.
  - destruct (IH s Hr') as [m0 ?]. eexists _, m0. naive_solver.
  - destruct Hr' as [Ha Hb]. destruct (IH0 _ Ha) as [m0 ?]. destruct (IH1 _ Hb) as [m1 ?]. eexists _, m0, m1. naive_solver.
  - destruct Hr' as [Ha Hb]. destruct (IH0 _ Ha) as [m0 ?]. destruct (IH1 _ Hb) as [m1 ?]. eexists _, m0, m1. naive_solver.
  - destruct Hr' as (Hne & Hl & Hf).
    assert (exists ms, Forall2 (denotes pk v) s ms) as [ms Hms].
    { clear -Hf IH. induction Hf as [|a s Ha Hf [ms IH']]; [exists []; constructor|]. destruct (IH a Ha) as [m ?]. exists (m :: ms). by constructor. }
    destruct (view_has_map (VMultiIntersection b t v) pk s Hr) as [m Hm]. exists m. split; [done|]. split; [done|]. exists ms. split; [done|].
    intros k. apply option_eq. intros x. rewrite (Hm k x).
    destruct (mi_law v pk s k Hne Hl Hf) as [(os & Hos & E)|(Hp & E)]; rewrite E.
    + assert ((.!! k) <$> ms = os) as ->; [|split; [by intros [= ->]|by intros ->]]. clear -Hms Hos. revert os Hos.
      induction Hms as [|a m ss ms Ha _ IH']; intros os Hos; inversion_clear Hos; [done|]. cbn. f_equal; [|by apply IH'].
      apply denotes_reached in Ha as [_ Ha]. apply option_eq. intros z. rewrite (Ha k z). match goal with H : tree_get _ _ _ = Ok _ |- _ => rewrite H end. split; [by intros [= ->]|by intros ->].
    + split; [done|]. intros H. destruct Hms as [|a m0 ss ms Ha _]; [done|]. apply Forall_cons in Hp as [Hp _]. cbn in H.
      apply denotes_reached in Ha as [_ Ha]. destruct (m0 !! k) as [y|] eqn:Hy; [|done]. apply Ha in Hy. congruence.
  - destruct Hr' as (Hl & Hf).
    assert (exists ms, Forall2 (denotes pk v) s ms) as [ms Hms].
    { clear -Hf IH. induction Hf as [|a s Ha Hf [ms IH']]; [exists []; constructor|]. destruct (IH a Ha) as [m ?]. exists (m :: ms). by constructor. }
    destruct (view_has_map (VMultiUnion t HD v) pk s Hr) as [m Hm]. exists m. split; [done|]. exists ms. split; [done|].
    intros k. apply option_eq. intros x. rewrite (Hm k x).
    destruct (mu_law v pk s k HD Hl Hf) as [(os & Hos & E)|(Hp & E)]; rewrite E.
    + assert ((.!! k) <$> ms = os) as ->; [|split; [by intros [= ->]|by intros ->]]. clear -Hms Hos. revert os Hos.
      induction Hms as [|a m ss ms Ha _ IH']; intros os Hos; inversion_clear Hos; [done|]. cbn. f_equal; [|by apply IH'].
      apply denotes_reached in Ha as [_ Ha]. apply option_eq. intros z. rewrite (Ha k z). match goal with H : tree_get _ _ _ = Ok _ |- _ => rewrite H end. split; [by intros [= ->]|by intros ->].
    + split; [done|]. intros H. exfalso. assert (present ((.!! k) <$> ms) = []) as Hno.
      { clear -Hms Hp. induction Hms as [|a m0 ss ms Ha _ IH']; [done|]. apply Forall_cons in Hp as [Hp Hps]. cbn.
        apply denotes_reached in Ha as [_ Ha]. destruct (m0 !! k) as [y|] eqn:Hy; [apply Ha in Hy; congruence|]. by apply IH'. }
      unfold some_of in H. by rewrite Hno in H.
  - destruct Hr' as (s0 & d0 & m & cs & os & dr & Hs & Hfew & Hm & Hmat & Hcalls & Hl & Hcase & Hsx & Hpk).
    destruct (IH s0 Hs) as [m0 Hm0]. pose proof (denotes_reached pk v s0 m0 Hm0) as [_ Hm0'].
    assert (m0 = m) as -> by (apply map_eq; intros k; apply option_eq; intros x; by rewrite (Hm0' k x), (Hm k x)).
    eexists _, s0, d0, m, cs, os, dr. repeat (split; [done|]). done.
  - destruct (view_has_map (VUser b t Hnw H0 H1 Hsz) pk s Hr) as [m Hm]. by exists m.
Qed.

(** `get` and iteration of an expression, from the map it denotes *)
Lemma denotes_ok pk {b t} (v : view b t) s m : denotes pk v s m ->
  (forall k, tree_get t s k = if decide (view_key_ok t k) then Ok (m !! k) else Panic) /\
  exists n l, (forall fuel, n <= fuel -> iter_collect fuel t s = Ok l) /\ StronglySorted N.lt l.*1 /\ l ≡ₚ map_to_list m.
Proof.
  intros Hd. destruct (denotes_reached pk v s m Hd) as [Hr Hm]. split.
  - intros k. destruct (view_get pk v s k Hr) as [H1 H2]. destruct (decide (view_key_ok t k)) as [Hk|Hk]; [|by apply H2].
    rewrite H1 by done. f_equal. symmetry. by apply (get_is_content v pk s m Hr).
  - destruct (view_iter v pk s Hr) as (n & l & Hl & Hs & He). exists n, l. split; [done|]. split; [done|].
    apply NoDup_Permutation; [|apply NoDup_map_to_list|].
    + apply (NoDup_fmap_1 fst). by apply ssorted_nodup.
    + intros [k x]. rewrite He, elem_of_map_to_list. symmetry. apply Hm.
Qed.
Lemma denotes_fun pk {b t} (v : view b t) s m m' : denotes pk v s m -> denotes pk v s m' -> m = m'.
Proof.
  intros [_ H1]%denotes_reached [_ H2]%denotes_reached. apply map_eq. intros k. apply option_eq. intros x. by rewrite (H1 k x), (H2 k x).
Qed.
