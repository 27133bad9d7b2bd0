(** * Consequences of the SparseTree invariant, in terms of public calls *)
From Verif Require Import Base BitUtils BitUtilsProofs LevelIndices LevelIndicesProofs Hierarchy Lawful IterProofs
  Dense Sparse SparseVec SparseShape SparseProofs SparseOps SparseTree Spec SpecLaws Client DenseHistory SparseHistory TreeClient Generic.
From Verif Require Import Ops OpsProofs MultiProofs DenseTree DenseLaws Compose.

Section spec.
Context {V : Type} (B : N).
Implicit Types (m : gmap N V) (c : call V) (E : gset N).
Lemma spec_always_e_app P E m cs1 cs2 : spec_always_e B P E m (cs1 ++ cs2) <->
  spec_always_e B P E m cs1 /\ spec_always_e B P (E ∪ spec_all_panicked B m cs1) (spec_run B m cs1) cs2.
Proof.
  revert E m. induction cs1 as [|c cs1 IH]; intros E m; cbn [app spec_always_e spec_run spec_all_panicked].
  - rewrite union_empty_r_L. split; [|by intros [_ H]]. intros H. split; [|done]. split; [|done]. by destruct cs2; destruct H.
  - rewrite IH. rewrite union_assoc_L. naive_solver.
Qed.
Lemma spec_always_e_weaken (P Q : gmap N V -> gset N -> Prop) E m cs : (forall m E, P m E -> Q m E) ->
  spec_always_e B P E m cs -> spec_always_e B Q E m cs.
Proof. intros HPQ. revert E m. induction cs as [|c cs IH]; intros E m [H1 H2]; (split; [auto|]); [done|]. by apply IH. Qed.
Lemma spec_panicked_bound m c k : k ∈ spec_panicked B m c -> (k < B)%N.
Proof.
  destruct c as [k' v'|k' [d|] w|k'|k'|k' w|k'|f]; cbn [spec_panicked]; try set_solver.
  destruct (N.ltb_spec k' B); [|set_solver]. destruct (m !! k'); set_solver.
Qed.
Lemma spec_always_e_keys E m cs : (forall k v, m !! k = Some v -> (k < B)%N) -> (forall k, k ∈ E -> (k < B)%N) ->
  spec_always_e B (fun m E => forall k, k ∈ dom m ∪ E -> (k < B)%N) E m cs.
Proof.
  revert E m. induction cs as [|c cs IH]; intros E m Hm HE; (split; [|try done]).
  1, 2: intros k [[v Hk]%elem_of_dom|Hk]%elem_of_union; eauto.
  apply IH; [by apply spec_map_keys|]. intros k [Hk|Hk]%elem_of_union; [auto|]. by eapply spec_panicked_bound.
Qed.
Lemma spec_always_e_nopanic (P : gmap N V -> gset N -> Prop) E m cs : spec_all_panicked B m cs = ∅ ->
  spec_always B (fun m => P m E) m cs -> spec_always_e B P E m cs.
Proof.
  revert m. induction cs as [|c cs IH]; intros m Hp [H1 H2]; (split; [done|]); [done|].
  cbn [spec_all_panicked] in Hp. apply empty_union_L in Hp as [-> Hp]. rewrite union_empty_r_L. by apply IH.
Qed.
Lemma spec_always_and (P Q : gmap N V -> Prop) m cs : spec_always B P m cs -> spec_always B Q m cs ->
  spec_always B (fun m => P m /\ Q m) m cs.
Proof. revert m. induction cs as [|c cs IH]; intros m [H1 H2] [H3 H4]; (split; [done|]); [done|]. by apply IH. Qed.
Lemma spec_collect_app f m cs cs' : spec_collect B f m (cs ++ cs') = spec_collect B f m cs ++ spec_collect B f (spec_run B m cs) cs'.
Proof. revert m. induction cs as [|c cs IH]; intros m; [done|]. cbn [app spec_collect spec_run]. by rewrite IH, app_assoc. Qed.
End spec.

Lemma Nat_to_N_le a b : a <= b -> (N.of_nat a <= N.of_nat b)%N.
Proof. lia. Qed.

Section laws.
Context {V : Type} (nw D : nat).
Hypothesis Hnw : nw_ok nw.
Hypothesis HD0 : 1 <= D.
Hypothesis HD : D <= 8.
Context (req : bool) (dflt : option V).
Notation B := (key_bound nw D).
Notation T := (sparse_tree V nw D).
Notation legal := (sparse_legal nw D req dflt).
Notation reached := (sparse_reached nw D req dflt).
Notation d0 := (placeholder req dflt).
Implicit Types (t : sparse V) (cs : list (call V)).
Let HD9 : D <= 9 := le9 HD.

(** ** when the side condition holds *)
Lemma key_bound_le k : (k < B)%N -> (k < msize nw ^ N.of_nat D)%N.
Proof. unfold key_bound. lia. Qed.
Lemma sparse_small_legal cs : (nw = 1 /\ D <= 5) \/ (nw = 2 /\ D <= 4) -> Forall (sparse_api req) cs -> (req = true -> is_Some dflt) -> legal cs.
Proof.
  intros Hs Ha Hd. split; [done|]. split; [done|].
  eapply spec_always_e_weaken; [|apply (spec_always_e_keys B ∅ ∅ cs); [by intros ? ?; rewrite lookup_empty|set_solver]]. intros m E Hk n Hn. cbv beta in Hk.
  pose proof (msize_pos nw Hnw) as Hm.
  eapply N.le_lt_trans; [apply prefixes_bound; [lia|lia|]; intros k Hkk; by apply key_bound_le, Hk|].
  destruct Hs as [[-> HD5]|[-> HD4]].
  - destruct n as [|[|[|[|[|[|n]]]]]]; try lia; reflexivity.
  - destruct n as [|[|[|[|[|n]]]]]; try lia; reflexivity.
Qed.
Lemma sparse_narrow_legal cs : nw = 1 \/ nw = 2 -> Forall (sparse_api req) cs -> (req = true -> is_Some dflt) ->
  spec_all_panicked B ∅ cs = ∅ -> spec_always B small32 ∅ cs -> legal cs.
Proof.
  intros Hn Ha Hd Hp Hs. split; [done|]. split; [done|]. apply spec_always_e_nopanic; [done|].
  eapply spec_always_weaken; [|apply spec_always_and; [exact Hs|apply spec_always_keys; done]].
  intros m [Hm1 Hm2]. apply links_fit_narrow; [done| |].
  - intros k. rewrite union_empty_r_L. intros [v Hv]%elem_of_dom. eapply key_bound_le, Hm2, Hv.
  - rewrite union_empty_r_L, size_dom. exact Hm1.
Qed.

Lemma sparse_iter_inv first E t m : sparse_inv nw D first E t m -> exists n l,
  (forall fuel, n <= fuel -> iter_collect fuel T t = Ok l) /\ enumerates l (fun k => m !! k).
Proof.
  intros Hi. set (L := lawful_sparse nw D Hnw HD0 HD9 first).
  assert (l_wf L t) as Hw by (eexists _, _; exact Hi).
  destruct (iter_content L t Hw) as (n & l & Hl & Hs & He). exists n, l. split; [done|]. split; [done|].
  intros k v. rewrite He. unfold L. by rewrite (content_sparse nw D Hnw HD0 HD9 first E t m k Hi).
Qed.
Lemma sparse_iter_law cs t : legal cs -> reached cs t -> exists n l,
  (forall fuel, n <= fuel -> iter_collect fuel T t = Ok l) /\ enumerates l (fun k => spec_run B ∅ cs !! k).
Proof. intros Hl Hr. eapply sparse_iter_inv. by eapply sparse_reached_inv. Qed.
Lemma sparse_get_law cs t k : legal cs -> reached cs t ->
  tree_get T t k = if (k <? B)%N then Ok (spec_run B ∅ cs !! k) else Panic.
Proof. intros Hl Hr. eapply sparse_get_ok; [done..|]. by eapply sparse_reached_inv. Qed.
Lemma sparse_kv_law cs t : legal cs -> reached cs t ->
  exists ks vs, sparse_key_values t = Ok (ks, vs) /\ length ks = length vs /\ NoDup ks /\
    forall k v, (k, v) ∈ zip ks vs <-> spec_run B ∅ cs !! k = Some v.
Proof.
  intros Hl Hr. pose proof (sparse_reached_inv nw D req dflt cs t Hnw HD0 HD9 Hl Hr) as Hi.
  destruct (sparse_key_values_ok nw D Hnw HD0 HD9 _ _ _ _ Hi) as (ks & vs & E & El & Hp). exists ks, vs. split; [done|]. split; [done|]. split.
  - rewrite <- (fst_zip ks vs) by lia. rewrite Hp. apply NoDup_fst_map_to_list.
  - intros k v. rewrite Hp. apply elem_of_map_to_list.
Qed.

(** C06 *)
Lemma sparse_rejects t k v d : (B <= k)%N ->
  sparse_insert nw D t k v = Panic /\ sparse_get_or_insert nw D t k d = Panic /\ sparse_remove nw D t k = Panic /\
  tree_get T t k = Panic /\ sparse_get_mut nw D t k = Panic /\ sparse_get_or_default nw D t k = Panic.
Proof.
  intros Hk. unfold sparse_insert, sparse_get_or_insert, sparse_remove, sparse_get_mut, sparse_get_or_default, tree_get. cbn [t_nw t_depth sparse_tree].
  rewrite !index_from_sparse. rewrite (proj2 (N.ltb_ge _ _)) by done. done.
Qed.
Lemma sparse_accepts cs t k v d : legal cs -> reached cs t -> (k < B)%N -> legal (cs ++ [CInsert k v]) ->
  completes (sparse_insert nw D t k v) /\ completes (sparse_get_or_insert nw D t k d) /\
  completes (sparse_remove nw D t k) /\ completes (tree_get T t k) /\ completes (sparse_get_mut nw D t k) /\
  (req = true -> completes (sparse_get_or_default nw D t k)).
Proof.
  intros Hl Hr Hk Hl2. pose proof (sparse_reached_inv nw D req dflt cs t Hnw HD0 HD9 Hl Hr) as Hi.
  pose proof Hk as Hk'%key_bound_le. change (k < SKB nw D)%N in Hk'.
  assert (index_from nw D k = Ok k) as Hix by (rewrite index_from_sparse, (proj2 (N.ltb_lt _ _)) by done; done).
  set (m := spec_run B ∅ cs) in *.
  assert (fits nw D (dom m ∪ spec_all_panicked B ∅ cs ∪ {[k]})) as Hf.
  { destruct Hl2 as (_ & _ & Hs). apply spec_always_e_app in Hs as [_ [_ Hs]]. apply spec_always_e_head in Hs.
    apply links_fit_fits. cbn [spec_map] in Hs. fold m in Hs. rewrite (proj2 (N.ltb_lt _ _)) in Hs by done.
    cbn [spec_panicked] in Hs. rewrite dom_insert_L, union_empty_r_L, union_empty_l_L in Hs.
    replace (dom m ∪ spec_all_panicked B ∅ cs ∪ {[k]}) with ({[k]} ∪ dom m ∪ spec_all_panicked B ∅ cs) by set_solver. exact Hs. }
  split; [|split; [|split; [|split; [|split]]]].
  - destruct (sgoi_impl_ok nw D Hnw HD0 HD9 _ _ t m k true (Some v) Hi Hk' ltac:(done)) as (t' & oj & dr & E & _).
    unfold sparse_insert. rewrite Hix, bind_ok, E, bind_ok. by eexists.
  - destruct (sgoi_impl_ok nw D Hnw HD0 HD9 _ _ t m k false d Hi Hk' ltac:(done)) as (t' & oj & dr & E & _).
    unfold sparse_get_or_insert. rewrite Hix, bind_ok, E. by eexists.
  - destruct (sparse_call_ok nw D Hnw HD0 HD9 _ _ t m (CRemove k) Hi I) as (t' & dr & E & _).
    { apply links_fit_fits in Hf. cbn [spec_map spec_panicked]. rewrite (proj2 (N.ltb_lt _ _)) by done. intros n Hn.
      eapply N.le_lt_trans; [|apply (Hf n Hn)]. apply Nat_to_N_le, subseteq_size. unfold prefixes. apply set_map_mono; [done|].
      rewrite dom_delete_L. set_solver. }
    cbn [sparse_call spec_out] in E. rewrite (proj2 (N.ltb_lt _ _)) in E by done.
    unfold completes. destruct (sparse_remove nw D t k) as [[? ?]| | |]; try done; eauto.
  - rewrite (sparse_get_ok nw D Hnw HD0 HD9 _ _ t m k Hi), (proj2 (N.ltb_lt _ _)) by done. by eexists.
  - pose proof (sparse_get_mut_ok nw D Hnw HD0 HD9 _ _ t m k Hi Hk' Hix) as H. destruct (m !! k); [destruct H as (j & -> & _)|rewrite H]; by eexists.
  - intros Hreq. destruct Hl as (_ & Hd & _). destruct (Hd Hreq) as [d' Hd'].
    rewrite (sparse_get_or_default_ok nw D Hnw HD0 HD9 _ _ t m k d' Hi Hk' Hix); [by eexists|]. unfold placeholder. by rewrite Hreq.
Qed.

(** C22 *)
Lemma sparse_default_law cs t k d : legal cs -> reached cs t -> req = true -> dflt = Some d -> (k < B)%N ->
  exists o, tree_get T t k = Ok o /\ sparse_get_or_default nw D t k = Ok (default d o).
Proof.
  intros Hl Hr Hreq Hd Hk. pose proof (sparse_reached_inv nw D req dflt cs t Hnw HD0 HD9 Hl Hr) as Hi.
  pose proof Hk as Hk'%key_bound_le. change (k < SKB nw D)%N in Hk'.
  assert (index_from nw D k = Ok k) as Hix by (rewrite index_from_sparse, (proj2 (N.ltb_lt _ _)) by done; done).
  exists (spec_run B ∅ cs !! k). rewrite (sparse_get_law cs t k Hl Hr), (proj2 (N.ltb_lt _ _)) by done. split; [done|].
  apply (sparse_get_or_default_ok nw D Hnw HD0 HD9 _ _ t _ k d Hi Hk' Hix). unfold placeholder. by rewrite Hreq.
Qed.

(** C32 *)
Lemma sparse_life cs : legal cs -> exists t os dr dr2,
  sparse_run nw D req dflt cs = Ok (t, os, dr) /\ sparse_drop req t = Ok dr2 /\
  (if req then ol dflt else []) ++ spec_collect B (spec_in B) ∅ cs ≡ₚ removed_values cs os ++ dr ++ dr2.
Proof.
  intros Hl. destruct (sparse_run_ok nw D req dflt cs Hnw HD0 HD9 Hl) as (t & dr & E & Hd & Hi).
  destruct (sparse_drop_ok nw D Hnw HD0 HD9 _ _ t _ req Hi) as (dr2 & E2 & Hd2).
  { intros Hreq. destruct Hl as (_ & H & _). unfold placeholder. rewrite Hreq. by apply H. }
  eexists _, _, _, _. split; [done|]. split; [done|].
  rewrite removed_values_spec. pose proof (spec_balance_run B ∅ cs) as Hb. unfold vals at 1 in Hb.
  rewrite map_to_list_empty, app_nil_r in Hb. rewrite Hb, Hd, Hd2. clear.
  assert ((if req then ol dflt else []) = (if req then from_option (fun v => [v]) [] d0 else [])) as -> by (unfold placeholder; destruct req; [by destruct dflt|done]).
  unfold vals. generalize ((map_to_list (spec_run B ∅ cs)).*2) as x. generalize (spec_collect B (spec_removed B) ∅ cs) as a.
  generalize (spec_collect B (spec_drop B) ∅ cs) as b. generalize (if req then from_option (fun v => [v]) [] d0 else []) as y. intros y b a x.
  rewrite (Permutation_app_comm y). rewrite <- !app_assoc. apply Permutation_app_head, Permutation_app_head, Permutation_app_comm.
Qed.

(** C27 *)
Lemma sparse_panic_law cs1 cs2 k w : legal (cs1 ++ cs2) -> legal (cs1 ++ CGetOrInsert k None w :: cs2) -> (k < B)%N -> spec_run B ∅ cs1 !! k = None ->
  exists t1 t2 dr1 dr2 os1 os2, length os1 = length cs1 /\
    sparse_run nw D req dflt (cs1 ++ cs2) = Ok (t1, os1 ++ os2, dr1) /\
    sparse_run nw D req dflt (cs1 ++ CGetOrInsert k None w :: cs2) = Ok (t2, os1 ++ OPanic :: os2, dr2) /\ dr1 ≡ₚ dr2 /\
    forall k', tree_get T t2 k' = tree_get T t1 k'.
Proof.
  intros Hl Hl2 Hk Hn.
  destruct (sparse_run_ok nw D req dflt _ Hnw HD0 HD9 Hl) as (t1 & dr1 & E1 & Hd1 & Hi1).
  destruct (sparse_run_ok nw D req dflt _ Hnw HD0 HD9 Hl2) as (t2 & dr2 & E2 & Hd2 & Hi2).
  assert (spec_map B (spec_run B ∅ cs1) (CGetOrInsert k None w) = spec_run B ∅ cs1) as Hm.
  { cbn [spec_map]. rewrite (proj2 (N.ltb_lt _ _)) by done. by rewrite Hn. }
  assert (spec_out B d0 (spec_run B ∅ cs1) (CGetOrInsert k None w) = OPanic) as Ho.
  { cbn [spec_out]. rewrite (proj2 (N.ltb_lt _ _)) by done. by rewrite Hn. }
  assert (spec_drop B (spec_run B ∅ cs1) (CGetOrInsert k None w) = []) as Hdr.
  { cbn [spec_drop]. rewrite (proj2 (N.ltb_lt _ _)) by done. by rewrite Hn. }
  rewrite spec_outs_app in E1, E2. cbn [spec_outs] in E2. rewrite Ho, Hm in E2.
  assert (spec_run B ∅ (cs1 ++ CGetOrInsert k None w :: cs2) = spec_run B ∅ (cs1 ++ cs2)) as Hrun.
  { rewrite !spec_run_app. cbn [spec_run]. by rewrite Hm. }
  rewrite Hrun in Hi2.
  exists t1, t2, dr1, dr2, (spec_outs B d0 ∅ cs1), (spec_outs B d0 (spec_run B ∅ cs1) cs2).
  split; [apply spec_outs_length|]. split; [done|]. split; [done|]. split.
  - rewrite Hd1, Hd2. rewrite !spec_collect_app. cbn [spec_collect]. by rewrite Hdr, Hm.
  - intros k'. by rewrite (sparse_get_ok nw D Hnw HD0 HD9 _ _ _ _ _ Hi1), (sparse_get_ok nw D Hnw HD0 HD9 _ _ _ _ _ Hi2).
Qed.

(** C23, C33 *)
Lemma sparse_get_mut_law cs t k : legal cs -> reached cs t -> (k < B)%N ->
  match spec_run B ∅ cs !! k with
  | None => sparse_get_mut nw D t k = Ok None /\ tree_get T t k = Ok None
  | Some v => exists j, sparse_get_mut nw D t k = Ok (Some j) /\ sparse_get_mut_unchecked nw D t k = Ok j /\
      data_get (s_values t) (N.to_nat j) = Ok v /\ tree_get T t k = Ok (Some v) /\
      forall x, exists t', sparse_write_ref t j x = Ok t' /\
        forall k', tree_get T t' k' = if decide (k' = k) then Ok (Some x) else tree_get T t k'
  end.
Proof.
  intros Hl Hr Hk. pose proof (sparse_reached_inv nw D req dflt cs t Hnw HD0 HD9 Hl Hr) as Hi.
  pose proof Hk as Hk'%key_bound_le. change (k < SKB nw D)%N in Hk'.
  assert (index_from nw D k = Ok k) as Hix by (rewrite index_from_sparse, (proj2 (N.ltb_lt _ _)) by done; done).
  pose proof (sparse_get_mut_ok nw D Hnw HD0 HD9 _ _ t _ k Hi Hk' Hix) as H.
  pose proof (sparse_get_law cs t k Hl Hr) as Hg. rewrite (proj2 (N.ltb_lt k B) Hk) in Hg.
  destruct (spec_run B ∅ cs !! k) as [v|] eqn:Em.
  - destruct H as (j & H & Hp). exists j. split; [done|]. unfold sparse_get_mut_unchecked. rewrite H, bind_ok. split; [done|].
    destruct (splace_read nw D HD0 HD9 _ _ _ _ _ _ Hi Hp) as (v' & Hm & Hd). rewrite Em in Hm. injection Hm as <-.
    split; [done|]. split; [done|]. intros x.
    destruct (swrite_place_ok nw D Hnw HD0 HD9 _ _ _ _ _ _ x Hi Hp) as (t2 & Hw & Hi2). exists t2. split; [exact Hw|]. intros k'.
    rewrite (sparse_get_ok nw D Hnw HD0 HD9 _ _ _ _ _ Hi2), (sparse_get_ok nw D Hnw HD0 HD9 _ _ _ _ _ Hi).
    destruct (decide (k' = k)) as [->|Hne].
    + rewrite lookup_insert. by rewrite (proj2 (N.ltb_lt k B) Hk).
    + by rewrite lookup_insert_ne by done.
  - by rewrite H, Hg.
Qed.
Lemma sparse_ref_law cs t k d x : legal cs -> reached cs t -> (k < B)%N -> legal (cs ++ [CInsert k d]) ->
  exists t1 j dr t2, sparse_get_or_insert nw D t k (Some d) = Ok (t1, Some j, dr) /\
    (exists v, data_get (s_values t1) (N.to_nat j) = Ok v /\ tree_get T t1 k = Ok (Some v) /\
       v = default d (spec_run B ∅ cs !! k)) /\
    sparse_write_ref t1 j x = Ok t2 /\
    (forall k', tree_get T t2 k' = if decide (k' = k) then Ok (Some x) else tree_get T t k').
Proof.
  intros Hl Hr Hk Hl2. pose proof (sparse_reached_inv nw D req dflt cs t Hnw HD0 HD9 Hl Hr) as Hi.
  pose proof Hk as Hk'%key_bound_le. change (k < SKB nw D)%N in Hk'.
  assert (index_from nw D k = Ok k) as Hix by (rewrite index_from_sparse, (proj2 (N.ltb_lt _ _)) by done; done).
  set (m := spec_run B ∅ cs) in *.
  assert (fits nw D (dom m ∪ spec_all_panicked B ∅ cs ∪ {[k]})) as Hf.
  { destruct Hl2 as (_ & _ & Hs). apply spec_always_e_app in Hs as [_ [_ Hs]]. apply spec_always_e_head in Hs.
    apply links_fit_fits. cbn [spec_map] in Hs. fold m in Hs. rewrite (proj2 (N.ltb_lt _ _)) in Hs by done.
    cbn [spec_panicked] in Hs. rewrite dom_insert_L, union_empty_r_L, union_empty_l_L in Hs.
    replace (dom m ∪ spec_all_panicked B ∅ cs ∪ {[k]}) with ({[k]} ∪ dom m ∪ spec_all_panicked B ∅ cs) by set_solver. exact Hs. }
  destruct (sgoi_impl_ok nw D Hnw HD0 HD9 _ _ t m k false (Some d) Hi Hk' ltac:(done)) as (t1 & oj & dr & E & H).
  unfold sparse_get_or_insert. rewrite Hix, bind_ok, E.
  set (m1 := match m !! k with Some _ => m | None => <[k := d]> m end) in *.
  assert (exists E' j, oj = Some j /\ sparse_inv nw D d0 E' t1 m1 /\ splace_of t1 j k) as (E' & j & -> & Hi1 & Hp).
  { unfold m1. destruct (m !! k) as [v|] eqn:Em; naive_solver. }
  assert (m1 !! k = Some (default d (m !! k)) /\ forall k', k' <> k -> m1 !! k' = m !! k') as [Hm1 Hm1'].
  { unfold m1. destruct (m !! k) as [v'|] eqn:Em; [done|]. split; [apply lookup_insert|]. intros; by apply lookup_insert_ne. }
  clearbody m1.
  destruct (splace_read nw D HD0 HD9 _ _ _ _ _ _ Hi1 Hp) as (v & Hm & Hd).
  destruct (swrite_place_ok nw D Hnw HD0 HD9 _ _ _ _ _ _ x Hi1 Hp) as (t2 & Hw & Hi2).
  exists t1, j, dr, t2. split; [done|]. split.
  - exists v. split; [done|]. rewrite (sparse_get_ok nw D Hnw HD0 HD9 _ _ _ _ _ Hi1). rewrite (proj2 (N.ltb_lt k B) Hk). split; [by f_equal|].
    rewrite Hm1 in Hm. by injection Hm as <-.
  - split; [exact Hw|]. intros k'. rewrite (sparse_get_ok nw D Hnw HD0 HD9 _ _ _ _ _ Hi2), (sparse_get_ok nw D Hnw HD0 HD9 _ _ _ _ _ Hi).
    destruct (decide (k' = k)) as [->|Hne].
    + rewrite lookup_insert. by rewrite (proj2 (N.ltb_lt k B) Hk).
    + rewrite lookup_insert_ne by done. by rewrite Hm1' by done.
Qed.
Lemma sparse_update_law cs t f : legal cs -> reached cs t ->
  exists t' dr, sparse_update_all f t = Ok (t', dr) /\
    forall k, tree_get T t' k = match tree_get T t k with Ok o => Ok (f k <$> o) | r => r end.
Proof.
  intros Hl Hr. pose proof (sparse_reached_inv nw D req dflt cs t Hnw HD0 HD9 Hl Hr) as Hi.
  destruct (supdate_all_ok nw D Hnw HD0 HD9 _ _ t _ f Hi) as (t' & dr & E & _ & Hi'). exists t', dr. split; [done|]. intros k.
  rewrite (sparse_get_ok nw D Hnw HD0 HD9 _ _ _ _ _ Hi'), (sparse_get_ok nw D Hnw HD0 HD9 _ _ _ _ _ Hi). destruct (_ <? _)%N; [|done].
  rewrite map_lookup_imap. by destruct (_ !! k).
Qed.

(** C34 *)
Lemma sparse_same_law cs1 cs2 t1 t2 : legal cs1 -> legal cs2 -> reached cs1 t1 -> reached cs2 t2 ->
  (forall k, tree_get T t1 k = tree_get T t2 k) -> spec_run B ∅ cs1 = spec_run B ∅ cs2.
Proof.
  intros Hl1 Hl2 Hr1 Hr2 Hg. apply map_eq. intros k. specialize (Hg k).
  rewrite (sparse_get_law cs1 t1 k Hl1 Hr1), (sparse_get_law cs2 t2 k Hl2 Hr2) in Hg. destruct (N.ltb_spec k B) as [Hk|Hk]; [by simplify_eq|].
  destruct (spec_run B ∅ cs1 !! k) eqn:E1; [apply spec_run_bound in E1; [lia|done]|].
  destruct (spec_run B ∅ cs2 !! k) eqn:E2; [apply spec_run_bound in E2; [lia|done]|]. done.
Qed.
Lemma sparse_history_indep cs1 cs2 t1 t2 : legal cs1 -> legal cs2 -> reached cs1 t1 -> reached cs2 t2 ->
  (forall k, tree_get T t1 k = tree_get T t2 k) ->
  (exists n l, forall fuel, n <= fuel -> iter_collect fuel T t1 = Ok l /\ iter_collect fuel T t2 = Ok l) /\
  (exists ks1 vs1 ks2 vs2, sparse_key_values t1 = Ok (ks1, vs1) /\ sparse_key_values t2 = Ok (ks2, vs2) /\ zip ks1 vs1 ≡ₚ zip ks2 vs2) /\
  (forall cs, legal (cs1 ++ cs) -> legal (cs2 ++ cs) -> exists t1' t2' os dr1 dr2,
     sparse_calls nw D t1 cs = Ok (t1', os, dr1) /\ sparse_calls nw D t2 cs = Ok (t2', os, dr2) /\ dr1 ≡ₚ dr2).
Proof.
  intros Hl1 Hl2 Hr1 Hr2 Hg. pose proof (sparse_same_law _ _ _ _ Hl1 Hl2 Hr1 Hr2 Hg) as Hm.
  pose proof (sparse_reached_inv nw D req dflt cs1 t1 Hnw HD0 HD9 Hl1 Hr1) as Hi1.
  pose proof (sparse_reached_inv nw D req dflt cs2 t2 Hnw HD0 HD9 Hl2 Hr2) as Hi2.
  split; [|split].
  - destruct (sparse_iter_inv _ _ _ _ Hi1) as (n1 & l1 & H1 & He1). destruct (sparse_iter_inv _ _ _ _ Hi2) as (n2 & l2 & H2 & He2).
    assert (l1 = l2) as <- by (eapply enumerates_unique; [exact He1|exact He2|by rewrite Hm]).
    exists (n1 + n2), l1. intros fuel Hf. rewrite H1, H2 by lia. done.
  - destruct (sparse_key_values_ok nw D Hnw HD0 HD9 _ _ _ _ Hi1) as (ks1 & vs1 & E1 & _ & Hp1).
    destruct (sparse_key_values_ok nw D Hnw HD0 HD9 _ _ _ _ Hi2) as (ks2 & vs2 & E2 & _ & Hp2).
    exists ks1, vs1, ks2, vs2. split; [done|]. split; [done|]. by rewrite Hp1, Hp2, Hm.
  - intros cs (Ha & Hrq & Hs1) (_ & _ & Hs2). apply Forall_app in Ha as [_ Ha]. apply spec_always_e_app in Hs1 as [_ Hs1], Hs2 as [_ Hs2].
    rewrite union_empty_l_L in Hs1, Hs2.
    assert (Forall (sparse_api (match d0 with Some _ => true | None => false end)) cs) as Ha'.
    { eapply Forall_impl; [exact Ha|]. intros c. unfold placeholder. destruct req; [|done]. destruct (Hrq eq_refl) as [d ->]. done. }
    destruct (sparse_calls_ok nw D Hnw HD0 HD9 _ _ t1 _ cs Hi1 Ha' Hs1) as (t1' & dr1 & E1 & Hd1 & _).
    destruct (sparse_calls_ok nw D Hnw HD0 HD9 _ _ t2 _ cs Hi2 Ha' Hs2) as (t2' & dr2 & E2 & Hd2 & _).
    rewrite <- Hm in E2, Hd2. exists t1', t2', (spec_outs B d0 (spec_run B ∅ cs1) cs), dr1, dr2.
    split; [done|]. split; [done|]. by rewrite Hd1, Hd2.
Qed.
End laws.

(** C35 *)
Lemma key_bound_64 D : 1 <= D -> D <= 8 -> key_bound 1 D = (64 ^ N.of_nat D)%N.
Proof.
  intros H0 H8. unfold key_bound. change (msize 1) with 64%N. apply N.min_l.
  transitivity (64 ^ 8)%N; [apply N.pow_le_mono_r; lia|]. discriminate.
Qed.
Lemma dense_sparse_law {V} D (cs : list (call V)) : 1 <= D -> D <= 8 -> dense_legal D cs -> sparse_legal 1 D false None cs ->
  exists td ts os drd drs, dense_run D cs = Ok (td, os, drd) /\ sparse_run 1 D false None cs = Ok (ts, os, drs) /\ drd ≡ₚ drs /\
    (forall k, tree_get (dense_tree V D) td k = tree_get (sparse_tree V 1 D) ts k) /\
    exists n l, forall fuel, n <= fuel -> iter_collect fuel (dense_tree V D) td = Ok l /\ iter_collect fuel (sparse_tree V 1 D) ts = Ok l.
Proof.
  intros H0 H8 Hd Hs. pose proof (le9 H8) as H9.
  assert (nw_ok 1) as Hnw by by left.
  destruct (dense_run_ok D cs H0 H9 Hd) as (td & drd & ex & Ed & Hdd & Hid & _).
  destruct (sparse_run_ok 1 D false None cs Hnw H0 H9 Hs) as (ts & drs & Es & Hds & His).
  rewrite !(key_bound_64 D H0 H8) in *. cbn [placeholder] in *.
  exists td, ts, (spec_outs (64 ^ N.of_nat D) None ∅ cs), drd, drs. split; [done|]. split; [done|]. split; [by rewrite Hdd, Hds|]. split.
  - intros k. rewrite (dense_get_ok D H0 H9 _ _ _ _ Hid), (sparse_get_ok 1 D Hnw H0 H9 _ _ _ _ _ His), (key_bound_64 D H0 H8). done.
  - destruct (dense_iter_inv D H0 H9 _ _ _ Hid) as (n1 & l1 & H1 & He1). destruct (sparse_iter_inv 1 D Hnw H0 H8 _ _ _ _ His) as (n2 & l2 & H2 & He2).
    assert (l1 = l2) as <- by (eapply enumerates_unique; [exact He1|exact He2|done]).
    exists (n1 + n2), l1. intros fuel Hf. rewrite H1, H2 by lia. done.
Qed.
