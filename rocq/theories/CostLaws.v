(** * Cost of iterating views: which nodes are selected *)
From Verif Require Import Base BitUtils BitUtilsProofs BitQueue LevelIndices LevelIndicesProofs
  ConstLoops Hierarchy Lawful IterProofs IterCost Ops OpsProofs MultiProofs
  Dense DenseProofs DenseRemove DenseTree DenseDrop Sparse SparseVec SparseProofs SparseOps SparseTree
  Spec SpecLaws Client DenseHistory SparseHistory TreeClient Generic Compose ViewLaws.

Lemma iter_visits_fun t s ps ps' : iter_visits t s ps -> iter_visits t s ps' -> ps = ps'.
Proof.
  intros (n & l & H) (n' & l' & H'). destruct (H (n + n')) as (_ & it & it1 & E1 & E2 & <-); [lia|].
  destruct (H' (n + n')) as (_ & it' & it1' & E1' & E2' & <-); [lia|]. congruence.
Qed.


Section view.
Context {b : bool} {t : tree} (v : view b t) (pk : N -> Prop) (s : t_T t).
Hypothesis Hr : reached pk v s.
Let Hw : l_wf (vL v) s := vg_wf pk _ _ (reached_good pk v s Hr).
Notation W := (msize (t_nw t)).
Notation D := (t_depth t).

Lemma has_elem_path p : has_elem t s p -> path_ok (t_nw t) (length p) p /\ length p <= D.
Proof.
  intros (k & x & [Hk [r Hp]] & _). destruct (digits_path (t_nw t) D k (l_nw (vL v)) (l_depth (vL v)) Hk) as [[Hl Hq] _]. rewrite Hp in *.
  rewrite app_length in Hl. apply Forall_app in Hq as [Hq _]. split; [by split|lia].
Qed.
Lemma visited_iff p : p ∈ walk (vL v) s D [] <->
  length p < D /\ path_ok (t_nw t) (length p) p /\ (forall q i, p = q ++ [i] -> l_tm (vL v) s q i = true).
Proof. apply elem_of_walk_root. exact Hw. Qed.

Lemma view_visits : exists ps l, iter_visits t s ps /\
  (exists n, forall fuel, n <= fuel -> iter_collect fuel t s = Ok l) /\
  NoDup ps /\ [] ∈ ps /\
  (forall p, p ∈ ps -> length p < D) /\
  (forall p, length p < D -> has_elem t s p -> p ∈ ps) /\
  (t_exact t = true -> (forall p, p ∈ ps -> p = [] \/ has_elem t s p \/ key_below t pk p) /\
     ((forall k, ~ pk k) -> length ps <= 1 + (D - 1) * length l)).
Proof.
  destruct (view_iter v pk s Hr) as (n & l & Hl & Hs & He).
  exists (walk (vL v) s D []), l. pose proof (l_depth (vL v)) as HD.
  assert (NoDup (walk (vL v) s D [])) as Hnd by (apply walk_NoDup; [exact Hw|done|apply path_ok_nil]).
  split; [apply iter_visits_walk, Hw|]. split; [by exists n|]. split; [done|].
  split; [|split; [|split]].
  - apply visited_iff. split; [done|]. split; [apply path_ok_nil|]. intros q i H. by destruct q.
  - intros p Hp%visited_iff. apply Hp.
  - intros p Hlp Hp. apply visited_iff. split; [done|]. split; [by apply has_elem_path in Hp as [? _]|].
    intros q i ->. rewrite app_length in Hlp. cbn in Hlp. apply has_below_tm; [done|lia|].
    by apply (has_elem_below v pk s Hr).
  - intros Hex.
    assert (forall p, p ∈ walk (vL v) s D [] -> p = [] \/ has_elem t s p \/ key_below t pk p) as Hsub0.
    { intros p (Hlp & Hpok & Ht)%visited_iff. destruct p as [|i p _] using rev_ind; [by left|right].
      rewrite app_length in Hlp. cbn in Hlp.
      destruct (tm_has_below (vL v) pk s p i) as [H|H]; [done|by apply (vg_exact pk _ _ (reached_good pk v s Hr))|by apply path_ok_app_inv in Hpok as [? _]|lia|by apply Ht| |].
      - left. by apply (has_elem_below v pk s Hr).
      - by right. }
    split; [done|]. intros Hno.
    assert (forall p, p ∈ walk (vL v) s D [] -> p = [] \/ has_elem t s p) as Hsub.
    { intros p Hp. destruct (Hsub0 p Hp) as [?|[?|(k & _ & Hk)]]; [by left|by right|]. by destruct (Hno k). }
    set (cand := [] :: (l.*1 ≫= fun k => (fun n => take (S n) (digits W D k)) <$> seq 0 (D - 1))).
    assert (length cand = 1 + (D - 1) * length l) as <-.
    { unfold cand. cbn [length]. f_equal. clear. induction l as [|x l IH]; cbn [fmap list_fmap]; [cbn; lia|].
      rewrite bind_cons, app_length, IH, fmap_length, seq_length. cbn. lia. }
    apply submseteq_length, NoDup_submseteq; [done|]. intros p Hp. destruct (Hsub p Hp) as [->|(k & x & [Hk [r Hpre]] & Hg)]; [left|].
    destruct p as [|i p]; [left|right]. apply elem_of_list_bind. exists k. split.
    + apply elem_of_list_fmap. exists (length p). split; [rewrite Hpre; symmetry; apply (take_app (i :: p) r)|].
      apply visited_iff in Hp as [Hlp _]. apply elem_of_seq. cbn in Hlp. lia.
    + apply elem_of_list_fmap. exists (k, x). split; [done|]. by apply He.
Qed.
End view.

Section ops.
Lemma map_visits {b t} (v : view b t) pk s {X} (f : t_V t -> X) ps : reached pk v s ->
  iter_visits t s ps -> iter_visits (t_map t f) s ps.
Proof.
  intros Hr Hps. pose proof (vg_wf pk _ _ (reached_good pk v s Hr)) as Hw.
  rewrite (iter_visits_fun _ _ _ _ Hps (iter_visits_walk (vL v) s Hw)).
  pose proof (iter_visits_walk (lawful_map (vL v) f) s Hw) as H.
  assert (forall k p, walk (lawful_map (vL v) f) s k p = walk (vL v) s k p) as E.
  { induction k as [|k IH]; intros p; [done|]. cbn [walk]. apply (f_equal (cons p)). apply list_bind_ext; [|done]. intros i. apply IH. }
  rewrite E in H. exact H.
Qed.
Lemma mmf_visits {b t} (v : view b t) pk s {X A} (items : t_V t -> list X) (init : A) (f : A -> X -> A) ps : reached pk v s ->
  iter_visits t s ps -> iter_visits (t_multi_map_fold t items init f) s ps.
Proof. intros Hr. apply (map_visits v pk s (fun d => fold_left f (items d) init) ps Hr). Qed.

Lemma visits_ok {b t} (v : view b t) pk s ps p : reached pk v s -> iter_visits t s ps ->
  p ∈ ps <-> length p < t_depth t /\ path_ok (t_nw t) (length p) p /\ (forall q i, p = q ++ [i] -> l_tm (vL v) s q i = true).
Proof.
  intros Hr Hps. pose proof (vg_wf pk _ _ (reached_good pk v s Hr)) as Hw.
  rewrite (iter_visits_fun _ _ _ _ Hps (iter_visits_walk (vL v) s Hw)). by apply visited_iff with pk.
Qed.
Lemma visits_ex {b t} (v : view b t) pk s : reached pk v s -> exists ps, iter_visits t s ps.
Proof. intros Hr. eexists. apply (iter_visits_walk (vL v)). by apply (vg_wf pk), reached_good. Qed.

Lemma intersection_visits {b0 b1 t0 t1} (v0 : view b0 t0) (v1 : view b1 t1) pk s0 s1 : t_nw t1 = t_nw t0 -> t_depth t1 = t_depth t0 ->
  reached pk v0 s0 -> reached pk v1 s1 ->
  exists ps0 ps1 ps, iter_visits t0 s0 ps0 /\ iter_visits t1 s1 ps1 /\ iter_visits (t_intersection t0 t1) (s0, s1) ps /\
    forall p, p ∈ ps <-> p ∈ ps0 /\ p ∈ ps1.
Proof.
  intros Hn Hd Hr0 Hr1. set (v := VIntersection b0 b1 t0 t1 Hn Hd v0 v1).
  assert (reached pk v (s0, s1)) as Hr by done.
  destruct (visits_ex v0 pk s0 Hr0) as [ps0 H0]. destruct (visits_ex v1 pk s1 Hr1) as [ps1 H1]. destruct (visits_ex v pk (s0, s1) Hr) as [ps H].
  exists ps0, ps1, ps. split; [done|]. split; [done|]. split; [done|]. intros p.
  rewrite (visits_ok v pk _ _ p Hr H), (visits_ok v0 pk _ _ p Hr0 H0), (visits_ok v1 pk _ _ p Hr1 H1).
  assert (forall q i, l_tm (vL v) (s0, s1) q i = l_tm (vL v0) s0 q i && l_tm (vL v1) s1 q i) as Htm.
  { intros q i. unfold vL, v. cbn [view_lawful]. by destruct (view_lawful v0), (view_lawful v1). }
  cbn [t_intersection t_nw t_depth]. rewrite Hn, Hd. split.
  - intros (Hl & Hp & Ht). split_and!; try done; intros q i E; specialize (Ht q i E); rewrite Htm in Ht; apply andb_true_iff in Ht as [? ?]; done.
  - intros ((Hl & Hp & Ht0) & (_ & _ & Ht1)). split_and!; try done. intros q i E. rewrite Htm, Ht0, Ht1; done.
Qed.
Lemma union_visits {t0 t1} (v0 : view true t0) (v1 : view true t1) pk s0 s1 : t_nw t1 = t_nw t0 -> t_depth t1 = t_depth t0 ->
  reached pk v0 s0 -> reached pk v1 s1 ->
  exists ps0 ps1 ps, iter_visits t0 s0 ps0 /\ iter_visits t1 s1 ps1 /\ iter_visits (t_union t0 t1) (s0, s1) ps /\
    forall p, p ∈ ps <-> p ∈ ps0 \/ p ∈ ps1.
Proof.
  intros Hn Hd Hr0 Hr1. set (v := VUnion t0 t1 Hn Hd v0 v1).
  assert (reached pk v (s0, s1)) as Hr by done.
  destruct (visits_ex v0 pk s0 Hr0) as [ps0 H0]. destruct (visits_ex v1 pk s1 Hr1) as [ps1 H1]. destruct (visits_ex v pk (s0, s1) Hr) as [ps H].
  exists ps0, ps1, ps. split; [done|]. split; [done|]. split; [done|]. intros p.
  rewrite (visits_ok v pk _ _ p Hr H), (visits_ok v0 pk _ _ p Hr0 H0), (visits_ok v1 pk _ _ p Hr1 H1).
  assert (forall q i, l_tm (vL v) (s0, s1) q i = l_tm (vL v0) s0 q i || l_tm (vL v1) s1 q i) as Htm.
  { intros q i. unfold vL, v. cbn [view_lawful]. by destruct (view_lawful v0), (view_lawful v1). }
  cbn [t_union t_nw t_depth]. rewrite Hn, Hd. split.
  - intros (Hl & Hp & Ht). destruct p as [|i p _] using rev_ind.
    { left. split_and!; try done. intros q i E. by destruct q. }
    specialize (Ht p i eq_refl). rewrite Htm in Ht.
    apply orb_true_iff in Ht as [Ht|Ht]; [left|right]; (split_and!; try done); intros q j [-> [= ->]]%app_inj_tail; done.
  - intros [(Hl & Hp & Ht)|(Hl & Hp & Ht)]; (split_and!; try done); intros q i E; rewrite Htm, (Ht q i E); [done|by rewrite orb_true_r].
Qed.
Lemma visits_all {b t} (v : view b t) pk s : Forall (reached pk v) s -> exists pss, Forall2 (iter_visits t) s pss.
Proof.
  induction 1 as [|a s Ha Hf [pss IH]]; [exists []; constructor|]. destruct (visits_ex v pk a Ha) as [ps H]. exists (ps :: pss). by constructor.
Qed.
Lemma mi_visits {b t} (v : view b t) pk s : s <> [] -> length s <= 32 -> Forall (reached pk v) s ->
  exists pss ps, Forall2 (iter_visits t) s pss /\ iter_visits (t_multi_intersection t) s ps /\
    forall p, p ∈ ps <-> Forall (fun l => p ∈ l) pss.
Proof.
  intros Hne Hlen Hf. set (v' := VMultiIntersection b t v). assert (reached pk v' s) as Hr by done.
  destruct (visits_all v pk s Hf) as [pss Hpss]. destruct (visits_ex v' pk s Hr) as [ps H]. exists pss, ps. split; [done|]. split; [done|].
  intros p. rewrite (visits_ok v' pk _ _ p Hr H).
  assert (forall q i, l_tm (vL v') s q i = forallb (fun a => l_tm (vL v) a q i) s) as Htm.
  { intros q i. unfold vL, v'. cbn [view_lawful]. by destruct (view_lawful v). }
  cbn [t_multi_intersection t_nw t_depth].
  assert (Forall (fun l => p ∈ l) pss <-> Forall (fun a => length p < t_depth t /\ path_ok (t_nw t) (length p) p /\ (forall q i, p = q ++ [i] -> l_tm (vL v) a q i = true)) s) as ->.
  { clear -Hf Hpss. revert Hf. induction Hpss as [|a ps s pss Ha Hpss IH]; intros Hf; [done|]. apply Forall_cons in Hf as [Hra Hf].
    rewrite !Forall_cons, IH by done. by rewrite (visits_ok v pk _ _ p Hra Ha). }
  rewrite Forall_forall. split.
  - intros (Hl & Hp & Ht) a Ha. split; [done|]. split; [done|]. intros q i E. specialize (Ht q i E). rewrite Htm, forallb_forall in Ht.
    by apply Ht, elem_of_list_In.
  - intros HF. destruct s as [|a0 s]; [done|]. destruct (HF a0) as (Hl & Hp & _); [left|]. split; [done|]. split; [done|].
    intros q i E. rewrite Htm, forallb_forall. intros a Ha%elem_of_list_In. by apply (HF a Ha).
Qed.
Lemma mu_visits {t} (v : view true t) pk s : 2 <= t_depth t -> length s <= 32 -> Forall (reached pk v) s ->
  exists pss ps, Forall2 (iter_visits t) s pss /\ iter_visits (t_multi_union t) s ps /\
    forall p, p ∈ ps <-> p = [] \/ Exists (fun l => p ∈ l) pss.
Proof.
  intros HD Hlen Hf. set (v' := VMultiUnion t HD v). assert (reached pk v' s) as Hr by done.
  destruct (visits_all v pk s Hf) as [pss Hpss]. destruct (visits_ex v' pk s Hr) as [ps H]. exists pss, ps. split; [done|]. split; [done|].
  intros p. rewrite (visits_ok v' pk _ _ p Hr H).
  assert (forall q i, l_tm (vL v') s q i = existsb (fun a => l_tm (vL v) a q i) s) as Htm.
  { intros q i. unfold vL, v'. cbn [view_lawful]. by destruct (view_lawful v). }
  cbn [t_multi_union t_nw t_depth].
  assert (Exists (fun l => p ∈ l) pss <-> Exists (fun a => length p < t_depth t /\ path_ok (t_nw t) (length p) p /\ (forall q i, p = q ++ [i] -> l_tm (vL v) a q i = true)) s) as ->.
  { clear -Hf Hpss. revert Hf. induction Hpss as [|a ps s pss Ha Hpss IH]; intros Hf; [by rewrite !Exists_nil|]. apply Forall_cons in Hf as [Hra Hf].
    rewrite !Exists_cons, IH by done. by rewrite (visits_ok v pk _ _ p Hra Ha). }
  rewrite Exists_exists. split.
  - intros (Hl & Hp & Ht). destruct p as [|i p _] using rev_ind; [by left|right]. specialize (Ht p i eq_refl).
    rewrite Htm in Ht. apply existsb_exists in Ht as (a & Ha & Ht). exists a. split; [by apply elem_of_list_In|]. split; [done|]. split; [done|].
    intros q j [-> [= ->]]%app_inj_tail. done.
  - intros [->|(a & Ha & Hl & Hp & Ht)].
    + split; [cbn; lia|]. split; [apply path_ok_nil|]. intros q i E. by destruct q.
    + split; [done|]. split; [done|]. intros q i E. rewrite Htm. apply existsb_exists. exists a. split; [by apply elem_of_list_In|by apply Ht].
Qed.
End ops.
