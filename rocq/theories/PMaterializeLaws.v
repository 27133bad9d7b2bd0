(** * `materialize` evaluates the source once per element, in iteration order, up to the first panic *)
From Verif Require Import Base DenseDrop BitUtils BitUtilsProofs BitQueue LevelIndices LevelIndicesProofs ConstLoops Hierarchy Lawful IterProofs Ops Dense DenseProofs Materialize MaterializeProofs MaterializeLaws
  Spec Client TreeClient Generic Compose ViewLaws MaterializeViews MaterializeOrder PanicSafety MaterializeUnwind EffectsLaws SpecLaws DenseHistory DenseLaws PEffects PEffectsLaws PMaterialize.

(** ** specification: the keys are evaluated as by an iterator, one after the other, up to the first
    panic: the elements so far, did it get through, the state *)
Fixpoint until_panic {St b} {E : ptree St} (x : pview St b E) (s : p_S E) (ks : list N) (st : St) : list (p_V E) * bool * St :=
  match ks with
  | [] => ([], true, st)
  | k :: ks =>
    match pev x It s k st with
    | (Some (Some y), st) => let '(r, ok, st) := until_panic x s ks st in (y :: r, ok, st)
    | (_, st) => ([], false, st)
    end
  end.

(** the same for any way to evaluate a key *)
Fixpoint until_stop {St V} (ev : N -> St -> option (option V) * St) (ks : list N) (st : St) : list V * bool * St :=
  match ks with
  | [] => ([], true, st)
  | k :: ks =>
    match ev k st with
    | (Some (Some y), st) => let '(r, ok, st) := until_stop ev ks st in (y :: r, ok, st)
    | (_, st) => ([], false, st)
    end
  end.
Lemma until_panic_stop {St b} {E : ptree St} (x : pview St b E) (s : p_S E) ks st : until_panic x s ks st = until_stop (pev x It s) ks st.
Proof. revert st. induction ks as [|k ks IH]; intros st; [done|]. cbn [until_panic until_stop]. destruct (pev x It s k st) as [[[y|]|] st1]; [|done..]. by rewrite IH. Qed.

(** ** the closure-free copy only appends keys *)
Section grow.
Context (t : tree) (src : t_T t) (l : list N).
Definition begins (s : mst t) : Prop := l `prefix_of` m_keys s.
Lemma begins_push s key v : begins s -> begins (fst (push_fn s key v)).
Proof. unfold begins. cbn. apply prefix_app_r. Qed.
Lemma begins_terminal s mask cap ka : begins s -> okp (make_terminal_node t src s mask cap ka) (fun r => begins (fst r)).
Proof.
  intros Hs. unfold make_terminal_node. eapply okp_bind; [apply okp_true|]. intros w _. destruct (raw_new _ _ _ _) as [h raw].
  eapply (okp_bind _ _ begins).
  - apply okp_traverse; [done|]. intros s' i Hs'. eapply okp_bind; [apply okp_true|]. intros d _.
    unfold push_fn. eapply okp_bind; [apply okp_true|]. intros h' _. unfold begins in *. cbn. by apply prefix_app_r.
  - intros s' Hs'. eapply okp_bind; [apply okp_true|]. by intros [h' p] _.
Qed.
Lemma begins_exact k : forall n index ka s, begins s -> okp (from_exact t src k n index ka s) (fun r => begins (fst r)).
Proof.
  induction k as [|k IH]; intros n index ka s Hs; cbn [from_exact]; (destruct (t_exact t); [|done]);
    (eapply okp_bind; [apply okp_true|]; intros [c mask] _).
  - by apply begins_terminal.
  - eapply okp_bind; [apply okp_true|]. intros w _. destruct (raw_new _ _ _ _) as [h raw].
    eapply (okp_bind _ _ begins).
    + apply okp_traverse; [done|]. intros s' i Hs'. eapply okp_bind; [by apply IH|]. intros [s'' p] Hs''. cbn [fst] in Hs''.
      eapply okp_bind; [apply okp_true|]. done.
    + intros s' Hs'. eapply okp_bind; [apply okp_true|]. intros ec _. eapply okp_bind; [apply okp_true|]. by intros [h' p] _.
Qed.
Lemma begins_sparse k : forall n index ka s, begins s -> okp (from_sparse t src k n index ka s) (fun r => begins (fst r)).
Proof.
  induction k as [|k IH]; intros n index ka s Hs; cbn [from_sparse]; (eapply okp_bind; [apply okp_true|]; intros [c mask] _).
  - eapply okp_bind; [by apply begins_terminal|]. by intros [s' p] Hs'.
  - eapply (okp_bind _ _ (fun x => begins (fst (fst x)))).
    + apply okp_traverse; [done|]. intros [[s' nm] ch] i Hs'. cbn [fst] in Hs'. eapply okp_bind; [by apply IH|].
      intros [s'' [p|]] Hs''; [|done]. cbn [fst] in Hs''. eapply okp_bind; [apply okp_true|]. intros [nm' b] _. by destruct (decide _).
    + intros [[s' nm] ch] Hs'. cbn [fst] in Hs'. destruct (decide _); [done|]. eapply okp_bind; [apply okp_true|]. intros ec _.
      eapply okp_bind; [apply okp_true|]. intros w _. by destruct (from_parts _ _ _ _ _).
Qed.
End grow.

Section mat.
Context {St : Type} {E : ptree St} (s0 : p_S E) (st0 : St) (L : lawful (p_t E)) (ev : N -> ans (St := St) (option (p_V E))).
Notation t := (p_t E).
Notation src := (p_src E s0).
Notation D := (t_depth t).
Notation yst := (pst (t_C (p_t E)) (p_V E) St).
Hypothesis Hnw : t_nw t = 1.
Hypothesis Hwf : l_wf L src.
Hypothesis HD : D <= 9.
(** the cursor evaluates the keys that are there by [ev] *)
Hypothesis Hev : forall c p i, l_Ru L src c p -> path_ok (t_nw t) (D - 1) p -> (i < msize (t_nw t))%N -> l_tm L src p i = true ->
  never_none (ev (key_of_path (t_nw t) (p ++ [i]))) /\ does (p_cdata_u E s0 c i) (unsome (ev (key_of_path (t_nw t) (p ++ [i])))).

(** if the first succeeds, so does the second, with related results - or it unwinds, with a related state *)
Definition simy {A B} (P : A -> B -> Prop) (Bd : A -> yst -> Prop) (r : res A) (r' : res (B + yst)) : Prop := forall a, r = Ok a ->
  (exists b, r' = Ok (inl b) /\ P a b) \/ exists s, r' = Ok (inr s) /\ Bd a s.
Lemma simy_ok {A B} (P : A -> B -> Prop) Bd a a1 : P a a1 -> simy P Bd (Ok a) (Ok (inl a1)).
Proof. intros H a' [= <-]. eauto. Qed.
Lemma simy_no {A B} (P : A -> B -> Prop) Bd r r' : (forall a, r <> Ok a) -> simy P Bd r r'.
Proof. intros H a E1. by destruct (H a). Qed.
Lemma simy_bind {A B A' B'} (P : A -> B -> Prop) Bd (Q : A' -> B' -> Prop) Bd' r r' f f' : simy P Bd r r' ->
  (forall a b, P a b -> simy Q Bd' (f a) (f' b)) -> (forall a s, Bd a s -> okp (f a) (fun a' => Bd' a' s)) ->
  simy Q Bd' (rbind r f) (ybind r' f').
Proof.
  intros H1 H2 H3 a (y & Hy & Ha)%bind_ok_inv. destruct (H1 y Hy) as [(z & -> & Hp)|(s & -> & Hb)].
  - exact (H2 y z Hp a Ha).
  - right. exists s. split; [done|]. specialize (H3 y s Hb). by rewrite Ha in H3.
Qed.
Lemma simy_same {A A' B'} (Q : A' -> B' -> Prop) Bd' (r : res A) f f' : (forall a, simy Q Bd' (f a) (f' a)) -> simy Q Bd' (rbind r f) (ybind (ylift r) f').
Proof. intros H. destruct r as [a| | |]; try by apply simy_no. exact (H a). Qed.
Lemma traverse_y_ok {T} nw m (f : T -> N -> res (T + yst)) s : mask_ok nw m ->
  traverse_y m f s = (fix go l s := match l with [] => Ok (inl s) | i :: l => ybind (f s i) (go l) end) (mbits m) s.
Proof.
  intros Hm. destruct (mask_traverse_list m) as (l & e & He & Hl).
  assert (traverse_m m (fun (a : list N) i => Ok (a ++ [i])) [] = Ok (mbits m)) as Hb.
  { rewrite (traverse_m_ok nw) by done. generalize (mbits m). intros ms.
    assert (forall a, fold_res (fun (a : list N) i => Ok (a ++ [i])) ms a = Ok (a ++ ms)) as Ha; [|apply Ha].
    induction ms as [|i ms IH]; intros a; cbn [fold_res]; [by rewrite app_nil_r|]. rewrite bind_ok, IH. by rewrite <- app_assoc. }
  unfold traverse_m in Hb. rewrite Hl in Hb.
  assert (e = Ok tt /\ l = mbits m) as [-> ->].
  { assert (forall a, (let* (r, _) := run_list (fun (r : res (list N)) i => let r' := rbind r (fun s => Ok (s ++ [i])) in
      (r', match r' with Ok _ => false | _ => true end)) l e (Ok a) in r) = let* _ := e in Ok (a ++ l)) as Hrun.
    { clear. induction l as [|i l IH]; intros a; cbn [run_list].
      - destruct e; [|done..]. cbn. by rewrite app_nil_r.
      - cbn [rbind]. rewrite IH. destruct e; [|done..]. cbn. by rewrite <- app_assoc. }
    rewrite Hrun in Hb. destruct e as [[]| | |]; try done. cbn in Hb. injection Hb as ->. done. }
  unfold traverse_y. rewrite Hl. clear Hl Hb He. revert s. induction (mbits m) as [|i l IH]; intros s; cbn [run_list].
  - done.
  - cbn [ybind rbind]. destruct (f s i) as [[s'|s']| | |]; try done. cbn [ybind rbind]. apply IH.
Qed.
Lemma simy_traverse {S S'} nw m (f : S -> N -> res S) (f' : S' -> N -> res (S' + yst)) (P : S -> S' -> Prop) (Bd : S -> yst -> Prop) s s' : mask_ok nw m -> P s s' ->
  (forall s s' i, i ∈ mbits m -> P s s' -> simy P Bd (f s i) (f' s' i)) -> (forall s y i, Bd s y -> okp (f s i) (fun s => Bd s y)) ->
  simy P Bd (traverse_m m f s) (traverse_y m f' s').
Proof.
  intros Hm Hs H HB. rewrite (traverse_m_ok nw), (traverse_y_ok nw) by done. revert H. generalize (mbits m) as l. intros l H. revert s s' Hs.
  induction l as [|i l IH]; intros s s' Hs; cbn [fold_res]; [by apply simy_ok|].
  eapply simy_bind; [by apply H; [left|]|intros a c Hac; apply IH; [|done]; intros; apply H; [by right|done]|].
  clear -HB. intros a y Hb. revert a Hb. induction l as [|j l IH]; intros a Hb; cbn [fold_res]; [done|]. eapply okp_bind; [by apply HB|]. intros a' Ha'. by apply IH.
Qed.

(** the elements so far *)
Definition upto (ks : list N) (r : list (p_V E)) (st : St) : Prop := until_stop ev ks st0 = (r, true, st).
Lemma until_app ks r st ks' : upto ks r st -> until_stop ev (ks ++ ks') st0 = let '(r', ok, st) := until_stop ev ks' st in (r ++ r', ok, st).
Proof.
  unfold upto. generalize st0. revert r. induction ks as [|k ks IH]; intros r st1; cbn [until_stop app].
  - intros [= <- <-]. by destruct (until_stop ev ks' st1) as [[??]?].
  - destruct (ev k st1) as [[[y|]|] st2]; try done. destruct (until_stop ev ks st2) as [[r2 ok2] st3] eqn:E2. intros [= <- -> ->].
    rewrite (IH r2 st2 E2). by destruct (until_stop ev ks' st) as [[??]?].
Qed.
Lemma until_length ks r st : upto ks r st -> length r = length ks.
Proof.
  unfold upto. generalize st0. revert r. induction ks as [|k ks IH]; intros r st1; cbn [until_stop]; [by intros [= <- <-]|].
  destruct (ev k st1) as [[[y|]|] st2]; try done. destruct (until_stop ev ks st2) as [[r2 ok2] st3] eqn:E2. intros [= <- -> ->].
  cbn. f_equal. by eapply IH.
Qed.
Definition rel0 (s : mst t) (s' : yst) : Prop := exists ks r,
  y_cur s' = m_cur s /\ y_heap s' = m_heap s /\ y_keys s' = m_keys s /\
  length (m_data s) = S (length ks) /\ m_keys s = USIZE_MAX :: ks /\
  upto ks r (y_st s') /\ y_data s' = None :: (Some <$> r).
Definition rel (p : list N) (s : mst t) (s' : yst) : Prop := l_Ru L src (m_cur s) p /\ rel0 s s'.
(** the unwinding state [y]: the next key, which the closure-free copy has stored, panicked *)
Definition bad (s : mst t) (y : yst) : Prop := exists ks r st k, upto ks r st /\ ev k st = (None, y_st y) /\
  y_data y = None :: (Some <$> r) /\ y_keys y = USIZE_MAX :: ks /\ (USIZE_MAX :: ks ++ [k]) `prefix_of` m_keys s.
Lemma bad_okp {A} (f : res A) (g : A -> mst t) s y : (forall l, l `prefix_of` m_keys s -> okp f (fun a => l `prefix_of` m_keys (g a))) -> bad s y -> okp f (fun a => bad (g a) y).
Proof.
  intros H (ks & r & st & k & H1 & H2 & H3 & H4 & H5). specialize (H _ H5). destruct f as [a| | |]; try done. cbn in *. exists ks, r, st, k. done.
Qed.
Lemma rel_heap p s s' h : rel p s s' -> rel p (with_heap s h) (y_with_heap s' h).
Proof. intros (Hc & ks & r & H). split; [done|]. exists ks, r. naive_solver. Qed.
Lemma rel_same p s s' : rel p s s' -> y_heap s' = m_heap s /\ y_cur s' = m_cur s.
Proof. intros (Hc & ks & r & H). naive_solver. Qed.
Lemma rel_up p i s s' : rel (p ++ [i]) s s' -> rel p s s'.
Proof. intros (Hc & H). split; [|done]. apply (l_Ru_take L _ _ _ (length p)) in Hc. by rewrite take_app in Hc. Qed.
Lemma rel_push p s s' key v y st : rel p s s' -> ev key (y_st s') = (Some (Some y), st) ->
  rel p (fst (push_fn s key v)) (fst (y_push_fn (y_with_st s' st) key y)) /\ snd (push_fn s key v) = snd (y_push_fn (y_with_st s' st) key y).
Proof.
  intros (Hc & ks & r & H1 & H2 & H3 & H4 & H5 & H6 & H7) Hy. split.
  - split; [done|]. exists (ks ++ [key]), (r ++ [y]). unfold push_fn, y_push_fn. cbn [fst y_with_st y_cur y_heap y_keys y_data y_st m_cur m_heap m_keys m_data].
    split; [done|]. split; [done|]. split; [by rewrite H3|]. split; [rewrite !app_length, H4; cbn; lia|]. split; [by rewrite H5|].
    split; [unfold upto; rewrite (until_app _ _ _ _ H6); cbn [until_stop]; by rewrite Hy|]. by rewrite H7, fmap_app.
  - unfold push_fn, y_push_fn. cbn [snd y_with_st y_data]. rewrite H4, H7. cbn [length]. by rewrite fmap_length, (until_length _ _ _ H6).
Qed.
Lemma rel_bad p s s' key v st : rel p s s' -> ev key (y_st s') = (None, st) -> bad (fst (push_fn s key v)) (y_with_st s' st).
Proof.
  intros (Hc & ks & r & H1 & H2 & H3 & H4 & H5 & H6 & H7) Hy. exists ks, r, (y_st s'), key. split; [done|]. split; [done|]. split; [done|].
  cbn [y_with_st y_keys push_fn fst m_keys]. split; [congruence|]. by rewrite H5.
Qed.
Definition relp {A} (p : list N) (a : mst t * A) (a' : yst * A) : Prop := rel p (fst a) (fst a') /\ snd a = snd a'.
Definition badp {A} (a : mst t * A) (y : yst) : Prop := bad (fst a) y.
Definition at_node (c : t_C t) (n : nat) (index : N) (p : list N) : Prop :=
  exists c' m, t_select_u t src c n index = Ok (c', m) /\ mask_is (t_nw t) m (l_tm L src p) /\ l_Ru L src c' p.
Lemma rel_cur p s s' c : l_Ru L src c p -> rel0 s s' -> rel p (with_cur s c) (y_with_cur s' c).
Proof. intros Hc (ks & r & H). split; [done|]. exists ks, r. naive_solver. Qed.
Lemma rel0_same s s' : rel0 s s' -> y_cur s' = m_cur s.
Proof. intros (ks & r & H). naive_solver. Qed.
Lemma mbits_tm m p i : path_ok 1 (length p) p -> length p < D -> mask_is (t_nw t) m (l_tm L src p) -> i ∈ mbits m -> l_tm L src p i = true.
Proof.
  intros Hp Hl Hm Hi. apply (elem_of_kids L src Hwf p i); [by rewrite Hnw|done|]. rewrite <- (kids_mask L src Hwf p m); [done|by rewrite Hnw|done|done].
Qed.
Lemma y_terminal_sim p s s' m cap : path_ok 1 (length p) p -> S (length p) = D -> mask_is (t_nw t) m (l_tm L src p) -> rel p s s' ->
  simy (relp p) badp (make_terminal_node t src s m cap (key_of_path 1 p * 64)) (y_terminal E s0 s' m cap (key_of_path 1 p * 64)).
Proof.
  intros Hp Hl Hm Hs. unfold make_terminal_node, y_terminal. apply simy_same. intros w.
  destruct (rel_same _ _ _ Hs) as [-> _].
  destruct (raw_new KIdx (m_heap s) cap w) as [h raw]. eapply (simy_bind (rel p) bad).
  - apply (simy_traverse (t_nw t)); [apply Hm|by apply rel_heap| |].
    + intros s1 s1' i Hi H1.
      pose proof (mbits_tm m p i Hp ltac:(lia) Hm Hi) as Htm.
      assert (path_ok (t_nw t) (D - 1) p) as Hp' by (rewrite Hnw; replace (D - 1) with (length p) by lia; done).
      assert (i < msize (t_nw t))%N as Hib by (eapply (l_bound L); eauto; [by eapply path_ok_len|lia]).
      assert (key_of_path (t_nw t) (p ++ [i]) = (key_of_path 1 p * 64 + i)%N) as Hk.
      { rewrite Hnw. rewrite key_of_path_app. cbn. unfold msize. lia. }
      destruct (Hev _ p i (proj1 H1) Hp' Hib Htm) as [Hnn Hcd]. specialize (Hnn (y_st s1')).
      destruct (rel_same _ _ _ H1) as [Eh Ec]. unfold y_data_unchecked. rewrite Ec.
      rewrite (Hcd (y_st s1')), bind_ok. unfold unsome.
      rewrite Hk in *. destruct (t_cdata_u t src (m_cur s1) i) as [v| | |]; try by apply simy_no. rewrite bind_ok.
      destruct (ev (key_of_path 1 p * 64 + i) (y_st s1')) as [[[y|]|] st1] eqn:He; [|done|]; cbn [ybind rbind].
      * destruct (rel_push p s1 s1' (key_of_path 1 p * 64 + i) v y st1 H1 He) as [Hpu Hi2].
        destruct (push_fn s1 _ v) as [s2 j]. destruct (y_push_fn _ _ y) as [s2' j']. cbn [fst snd] in *. subst j'.
        destruct (rel_same _ _ _ Hpu) as [-> _].
        apply simy_same. intros h2. apply simy_ok. by apply rel_heap.
      * pose proof (rel_bad p s1 s1' _ v st1 H1 He) as Hbad. destruct (push_fn s1 _ v) as [s2 j]. cbn [fst] in Hbad.
        intros a (h2 & _ & [= <-])%bind_ok_inv. right. eauto.
    + intros s1 y i. apply (bad_okp _ (fun a => a)). intros l Hl1. eapply okp_bind; [apply okp_true|]. intros v _.
      pose proof (begins_push t l s1 (key_of_path 1 p * 64 + i) v Hl1) as Hb. destruct (push_fn s1 _ v) as [s2 j]. eapply okp_bind; [apply okp_true|]. by intros h2 _.
  - intros s2 s2' H2. destruct (rel_same _ _ _ H2) as [-> _].
    apply simy_same. intros [h2 q]. apply simy_ok. split; [by apply rel_heap|done].
  - intros s2 y. apply (bad_okp _ fst). intros l Hl2. eapply okp_bind; [apply okp_true|]. by intros [h' q] _.
Qed.
Lemma path_child1 p i : path_ok 1 (length p) p -> length p < D -> l_tm L src p i = true -> path_ok 1 (length (p ++ [i])) (p ++ [i]).
Proof. by apply (path_child t L src Hwf Hnw). Qed.
Lemma child_ready p i s s' : path_ok 1 (length p) p -> S (length p) < D -> l_tm L src p i = true -> rel p s s' -> at_node (m_cur s) (S (length p)) i (p ++ [i]).
Proof. intros Hp Hl Hi [Hc _]. apply (l_selectS_u L); [done|done|by rewrite Hnw|done|done]. Qed.
Lemma child_key p i n : length p = n -> S n < D -> path_ok 1 (length p) p -> l_tm L src p i = true ->
  (key_of_path 1 p * 64 ^ N.of_nat (D - n) + block_start D n i)%N = (key_of_path 1 (p ++ [i]) * 64 ^ N.of_nat (D - S n))%N.
Proof. intros Hn Hl Hp Hi. apply (block_start_ok t Hnw HD); try done. eapply (bound1 t L src Hwf Hnw); [done| |done]. lia. Qed.

Lemma y_exact_sim k : forall n p index s s', length p = n -> n + S k = D -> path_ok 1 (length p) p -> at_node (m_cur s) n index p -> rel0 s s' ->
  simy (relp p) badp (from_exact t src k n index (key_of_path 1 p * 64 ^ N.of_nat (D - n)) s) (y_exact E s0 k n index (key_of_path 1 p * 64 ^ N.of_nat (D - n)) s').
Proof.
  induction k as [|k IH]; intros n p index s s' Hn HnD Hp (c & m & Hsel & Hm & Hcur) Hs; cbn [from_exact y_exact]; (destruct (t_exact t); [|by apply simy_no]);
    rewrite (rel0_same _ _ Hs), Hsel, bind_ok; cbn [ylift ybind rbind]; apply (rel_cur p _ _ c Hcur) in Hs.
  - replace (D - n) with 1 by lia. change (64 ^ N.of_nat 1)%N with 64%N. by apply y_terminal_sim; [|lia|..].
  - apply simy_same. intros w. destruct (rel_same _ _ _ Hs) as [-> _].
    destruct (raw_new _ _ _ _) as [h raw]. eapply (simy_bind (rel p) bad).
    + apply (simy_traverse (t_nw t)); [apply Hm|by apply rel_heap| |].
      * intros s1 s1' i Hi H1.
        pose proof (mbits_tm m p i Hp ltac:(lia) Hm Hi) as Htm. rewrite (child_key p i n) by (done || lia).
        eapply simy_bind.
        { apply IH; [rewrite app_length; cbn; lia|lia|apply path_child1; [done|lia|done]| |by destruct H1].
          subst n. eapply child_ready; [done|lia|done|exact H1]. }
        -- intros [s2 q] [s2' q'] [H2%rel_up Hq]. cbn [fst snd] in *. subst q'. destruct (rel_same _ _ _ H2) as [-> _].
           apply simy_same. intros h2. apply simy_ok. by apply rel_heap.
        -- intros [s2 q] y Hb. cbn [badp fst] in Hb. revert Hb. apply (bad_okp _ (fun a => a)). intros l Hl2. eapply okp_bind; [apply okp_true|]. done.
      * intros s1 y i. apply (bad_okp _ (fun a => a)). intros l Hl1. eapply okp_bind; [by apply (begins_exact t src l)|].
        intros [s2 q] Hs2. eapply okp_bind; [apply okp_true|]. done.
    + intros s2 s2' H2. apply simy_same. intros ec. destruct (rel_same _ _ _ H2) as [-> _].
      apply simy_same. intros [h2 q]. apply simy_ok. split; [by apply rel_heap|done].
    + intros s2 y. apply (bad_okp _ fst). intros l Hl2. eapply okp_bind; [apply okp_true|]. intros ec _. eapply okp_bind; [apply okp_true|]. by intros [h' q] _.
Qed.
Lemma y_sparse_sim k : forall n p index s s', length p = n -> n + S k = D -> path_ok 1 (length p) p -> at_node (m_cur s) n index p -> rel0 s s' ->
  simy (relp p) badp (from_sparse t src k n index (key_of_path 1 p * 64 ^ N.of_nat (D - n)) s) (y_sparse E s0 k n index (key_of_path 1 p * 64 ^ N.of_nat (D - n)) s').
Proof.
  induction k as [|k IH]; intros n p index s s' Hn HnD Hp (c & m & Hsel & Hm & Hcur) Hs; cbn [from_sparse y_sparse];
    rewrite (rel0_same _ _ Hs), Hsel, bind_ok; cbn [ylift ybind rbind]; apply (rel_cur p _ _ c Hcur) in Hs.
  - replace (D - n) with 1 by lia. change (64 ^ N.of_nat 1)%N with 64%N.
    eapply simy_bind; [by apply y_terminal_sim; [|lia|..]| |].
    + intros [s2 q] [s2' q'] [H2 Hq]. cbn [fst snd] in *. subst q'. by apply simy_ok.
    + by intros [s2 q] y Hb.
  - eapply (simy_bind (fun a a' => rel p (fst (fst a)) (fst (fst a')) /\ snd (fst a) = snd (fst a') /\ snd a = snd a') (fun a y => bad (fst (fst a)) y)).
    + apply (simy_traverse (t_nw t)); [apply Hm|done| |].
      * intros [[s1 nm] ch] [[s1' nm'] ch'] i Hi (H1 & E1 & E2). cbn [fst snd] in *. subst nm' ch'.
        pose proof (mbits_tm m p i Hp ltac:(lia) Hm Hi) as Htm. rewrite (child_key p i n) by (done || lia).
        eapply simy_bind.
        { apply IH; [rewrite app_length; cbn; lia|lia|apply path_child1; [done|lia|done]| |by destruct H1].
          subst n. eapply child_ready; [done|lia|done|exact H1]. }
        -- intros [s2 q] [s2' q'] [H2%rel_up Hq]. cbn [fst snd] in *. subst q'.
           destruct q as [q|]; [|by apply simy_ok]. apply simy_same. intros [nm2 ?]. destruct (decide _); [|by apply simy_no]. by apply simy_ok.
        -- intros [s2 q] y Hb. cbn [badp fst] in Hb. revert Hb. apply (bad_okp _ (fun a => fst (fst a))). intros l Hl2.
           destruct q as [q|]; [|done]. eapply okp_bind; [apply okp_true|]. intros [nm2 ?] _. by destruct (decide _).
      * intros [[s1 nm] ch] y i. cbn [fst]. apply (bad_okp _ (fun a => fst (fst a))). intros l Hl1. eapply okp_bind; [by apply (begins_sparse t src l)|].
        intros [s2 [q|]] Hs2; [|done]. cbn [fst] in Hs2. eapply okp_bind; [apply okp_true|]. intros [nm2 ?] _. by destruct (decide _).
    + intros [[s1 nm] ch] [[s1' nm'] ch'] (H1 & E1 & E2). cbn [fst snd] in *. subst nm' ch'. destruct (decide (ch = [])); [by apply simy_ok|].
      apply simy_same. intros ec. apply simy_same. intros w. destruct (rel_same _ _ _ H1) as [-> _].
      destruct (from_parts _ _ _ _ _) as [h q]. apply simy_ok. split; [by apply rel_heap|done].
    + intros [[s1 nm] ch] y. cbn [fst]. apply (bad_okp _ fst). intros l Hl1. destruct (decide _); [done|].
      eapply okp_bind; [apply okp_true|]. intros ec _. eapply okp_bind; [apply okp_true|]. intros w _. by destruct (from_parts _ _ _ _ _).
Qed.
(** what the call does, given the closure-free copy *)
Lemma p_materialize_sim nd d : materialize t src = Ok d -> exists ks, d_keys d = USIZE_MAX :: ks /\
  p_materialize E s0 nd st0 = match until_stop ev ks st0 with
    | (r, true, st) => Ok (Some (Dense (d_root d) (d_heap d) (None :: (Some <$> r)) (d_keys d)), st)
    | (r, false, st) => if nd then UB else Ok (None, st)
    end.
Proof.
  unfold materialize, p_materialize. pose proof (l_depth L) as HD0. destruct (l_new L src Hwf) as (c & Hc & Hv). intros H. rewrite Hc, bind_ok in H. rewrite Hc, bind_ok.
  assert (rel0 (Mst c heap_empty [None] [USIZE_MAX]) (Yst c heap_empty [None] [USIZE_MAX] st0)) as Hs by (by exists [], []).
  assert (at_node (m_cur (Mst c heap_empty [None] [USIZE_MAX] : mst t)) 0 0 []) as Hat by by apply (l_select0_u L).
  revert H. set (s := @Mst (t_C t) (t_V t) c _ _ _) in *. set (s' := Yst c _ _ _ _) in *. intros H.
  apply bind_ok_inv in H as ([s1 root] & H1 & H). injection H as <-.
  assert (simy (relp []) badp (if t_exact t then from_exact t src (t_depth t - 1) 0 0 0 s else
       let* (s, o) := from_sparse t src (t_depth t - 1) 0 0 0 s in let* p := unwrap_unc o in Ok (s, p))
    (if t_exact t then y_exact E s0 (t_depth t - 1) 0 0 0 s' else
       ybind (y_sparse E s0 (t_depth t - 1) 0 0 0 s') (fun '(s, o) => ybind (ylift (unwrap_unc o)) (fun p => Ok (inl (s, p)))))) as Hsim.
  { destruct (t_exact t); [apply (y_exact_sim (D - 1) 0 [] 0 s s'); [done|lia|apply path_ok_nil|done|done]|].
    eapply simy_bind; [apply (y_sparse_sim (D - 1) 0 [] 0 s s'); [done|lia|apply path_ok_nil|done|done]| |].
    - intros [s2 o] [s2' o'] [H2 Ho]. cbn [fst snd] in *. subst o'.
      apply simy_same. intros p. by apply simy_ok.
    - intros [s2 o] y Hb. cbn [badp fst] in Hb. revert Hb. apply (bad_okp _ fst). intros l Hl. eapply okp_bind; [apply okp_true|]. done. }
  destruct (Hsim _ H1) as [([s1' root'] & -> & (_ & ks & r & R1 & R2 & R3 & R4 & R5 & R6 & R7) & Hroot)|(y & -> & ks & r & st & k & B1 & B2 & B3 & B4 & B5)].
  - cbn [fst snd] in *. subst root'. exists ks. split; [done|]. rewrite R6. cbn [ybind rbind d_root d_heap d_keys]. by rewrite R2, R3, R7.
  - cbn [badp fst] in B5. destruct B5 as [rest Hrest]. cbn [app] in Hrest. exists ((ks ++ [k]) ++ rest). split; [cbn [d_keys]; by rewrite Hrest|].
    rewrite <- app_assoc, (until_app _ _ _ _ B1). cbn [app until_stop]. rewrite B2. cbn [ybind rbind]. by rewrite B3.
Qed.
End mat.

(** ** a tree with other elements under the same keys *)
Definition re_data {V W} (d : dense V) (r : list W) : dense W := Dense (d_root d) (d_heap d) (None :: (Some <$> r)) (d_keys d).
Lemma re_inv {V W} D ex (d : dense V) m ks (r : list W) : dense_inv D ex (fixd d) m -> d_keys d = USIZE_MAX :: ks -> NoDup ks -> length r = length ks ->
  dense_inv D ex (fixd (re_data d r)) (list_to_map (zip ks r)).
Proof.
  intros (P & J & Sh & Hv & He) Hk Hnd Hl. exists P, J. split; [done|]. split; [|done].
  destruct Hv as [V1 V2 V3 V4 V5 V6 V7 V8]. cbn [fixd re_data d_keys d_data] in *.
  split; try done.
  - rewrite Hk. cbn [length]. by rewrite fmap_length, Hl.
  - intros [|j] Hj; [lia|]. cbn [length]. rewrite fmap_length. intros Hlt. rewrite lookup_S, list_lookup_fmap.
    destruct (lookup_lt_is_Some_2 r j) as [w ->]; [lia|]. by exists w.
  - intros k w. rewrite <- elem_of_list_to_map by (by rewrite fst_zip by lia). rewrite Hk. split.
    + intros (j & Hj)%elem_of_list_lookup. apply lookup_zip_with_Some in Hj as (k' & w' & [= -> ->] & H1 & H2). exists (S j). split; [lia|].
      rewrite !lookup_S, list_lookup_fmap, H2. done.
    + intros ([|j] & Hj & H1 & H2); [lia|]. rewrite lookup_S in H1. rewrite lookup_S, list_lookup_fmap in H2. destruct (r !! j) as [w'|] eqn:Ew; [|done]. injection H2 as ->.
      apply elem_of_list_lookup. exists j. apply lookup_zip_with_Some. eauto.
Qed.
Section reads.
Context {W : Type} (D : nat) (H0 : 1 <= D) (H9 : D <= 9) (d : dense W) (m : gmap N W) (Hi : dense_inv D allp (fixd d) m).
Lemma re_get k : tree_get (dense_tree W D) d k = if (k <? KB D)%N then Ok (m !! k) else Panic.
Proof.
  rewrite <- (dense_get_ok D H0 H9 allp (fixd d) m k Hi). unfold tree_get. cbn [dense_tree t_nw t_depth t_data].
  destruct (index_from 1 D k) as [i| | |]; try done. rewrite !bind_ok. symmetry. apply (data_fix D d).
Qed.
Lemma re_iter (l : list (N * W)) : StronglySorted N.lt l.*1 -> (forall k w, (k, w) ∈ l <-> m !! k = Some w) -> exists n, forall fuel, n <= fuel -> iter_collect fuel (dense_tree W D) d = Ok l.
Proof.
  intros Hs Hl. set (L := lawful_mat D H0 H9 (V := W)).
  assert (good any_key L d) as Hg.
  { split; [by exists m| |intros _; apply hierarchy_exact_any; [by exists m|done]]. unfold L. rewrite (content_mat D H0 H9 allp d m USIZE_MAX Hi).
    destruct (m !! USIZE_MAX) as [x|] eqn:Hx; [|done]. destruct Hi as (P & J & _ & Hv & _).
    apply (vec_bound _ _ _ _ _ Hv) in Hx. pose proof (KB_lt _ H0 H9). lia. }
  destruct (iter_content L d (vg_wf _ _ _ Hg)) as (n & l' & Hl' & Hs' & He). exists n. intros fuel Hf. rewrite (Hl' fuel Hf). f_equal.
  eapply (enumerates_unique l' l (fun k => m !! k) (fun k => m !! k)); [split; [done|]|split; [done|]; intros k w; by rewrite Hl|done].
  intros k w. rewrite He. unfold L. by rewrite (content_mat D H0 H9 allp d m k Hi).
Qed.
Lemma re_drop : exists h dr, dense_drop D d = Ok (h, dr) /\ h_nodes h = ∅ /\ dr ≡ₚ vals m.
Proof.
  destruct (dense_drop_ok D H0 H9 allp (fixd d) m Hi) as (h & dr & E & Hh & Hd). rewrite drop_fix in E. unfold rmap in E.
  destruct (dense_drop D d) as [[h' dr']| | |]; try done. cbn [rbind] in E. injection E as <- <-. exists h', dr'. split; [done|].
  split; [|done]. unfold fixh in Hh. cbn [h_nodes] in Hh. by apply fmap_empty_iff in Hh.
Qed.
End reads.

(** ** the call *)
Section call.
Context {St : Type} {b : bool} {E : ptree St} (x : pview St b E) (pk : N -> Prop) (s : p_S E).
Notation t := (p_t E).
Notation src := (p_src E s).
Notation D := (t_depth t).
Hypothesis Hr : reached pk (punder x) src.
Hypothesis Hnw : t_nw t = 1.
Hypothesis Hfew : few t src.
Hypothesis Hsome : t_exact t = true \/ D = 1 \/ exists k v, tree_get t src k = Ok (Some v).
Lemma p_copy : exists d0 m0, materialize t src = Ok d0 /\ dense_inv D allp (fixd d0) m0 /\
  (t_exact t = true \/ D = 1 -> fixd d0 = d0).
Proof.
  assert (t_exact t = true \/ D = 1 -> exists d m, materialize t src = Ok d /\ dense_inv D allp (fixd d) m /\ (t_exact t = true \/ D = 1 -> fixd d = d)) as He.
  { intros Hc. destruct (mat_exact (punder x) pk src Hr Hnw Hfew Hc) as (d & m & E1 & Hm & Hi). exists d, m. split; [done|].
    rewrite (fixd_inv _ _ _ _ Hi). split; [by eapply dense_inv_false|done]. }
  destruct (t_exact t) eqn:Hex; [auto|]. destruct (decide (D = 1)) as [H1|H1]; [auto|].
  destruct (mat_sparse (punder x) pk src Hr Hnw Hfew Hex) as [(d & m & E1 & Hm & Hi)|(E1 & HD & Hn)].
  - exists d, m. split; [done|]. split; [done|]. intros [?|?]; done.
  - exfalso. destruct Hsome as [?|[?|(k & v & Hv)]]; [done|done|]. by eapply Hn.
Qed.
Lemma p_materialize_ev nd st : exists n l (d0 : dense (t_V t)),
  (forall fuel, n <= fuel -> iter_collect fuel t src = Ok l) /\ StronglySorted N.lt l.*1 /\ d_keys d0 = USIZE_MAX :: l.*1 /\
  (exists m0, dense_inv D allp (fixd d0) m0) /\ (t_exact t = true \/ D = 1 -> fixd d0 = d0) /\
  p_materialize E s nd st = match until_panic x s l.*1 st with
    | (r, true, st) => Ok (Some (re_data d0 r), st)
    | (r, false, st) => if nd then UB else Ok (None, st)
    end.
Proof.
  destruct p_copy as (d0 & m0 & E0 & Hi0 & Hfix).
  destruct (materialize_order (punder x) pk src Hr Hnw Hfew d0 E0) as (n & l & Hl & _ & Hk).
  destruct (view_iter (punder x) pk src Hr) as (n' & l' & Hl' & Hs & _).
  assert (l' = l) as -> by (specialize (Hl (n + n') ltac:(lia)); rewrite (Hl' (n + n') ltac:(lia)) in Hl; congruence).
  exists n, l, d0. split; [done|]. split; [done|]. split; [done|]. split; [eauto|]. split; [done|].
  destruct (p_materialize_sim s st (vL (punder x)) (pev x It s) Hnw (pcaller_wf x pk s Hr) (proj2 (view_depth (punder x)))) with (nd := nd) (d := d0) as (ks & Hk' & ->).
  - intros c p i Hc Hp Hi Htm. assert (phasq x s (p ++ [i])) as Hh by (by apply (l_terminal (vL (punder x)) _ _ _ (pcaller_wf x pk s Hr))). split.
    + exact (pf_has _ _ (pcaller_follows x pk s Hr) It _ (path_full (punder x) p i Hp Hi) Hh).
    + exact (pf_cdata_u _ _ (pcaller_follows x pk s Hr) c p i Hc Hp Hi Hh).
  - done.
  - rewrite Hk in Hk'. injection Hk' as <-. rewrite until_panic_stop. by destruct (until_stop _ l.*1 st) as [[r []] st'].
Qed.
End call.
