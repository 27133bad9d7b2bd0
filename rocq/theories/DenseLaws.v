(** * Consequences of the DenseTree invariant, in terms of public calls *)
From Verif Require Import Base BitUtils BitUtilsProofs LevelIndices LevelIndicesProofs Hierarchy Lawful IterProofs
  Dense DenseNode DenseShape DenseProofs DenseRemove DenseTree DenseDrop Spec SpecLaws Client DenseHistory TreeClient Generic.
From Verif Require Import Ops OpsProofs MultiProofs Sparse SparseHistory Compose.

Section laws.
Context {V : Type} (D : nat).
Hypothesis HD0 : 1 <= D.
Hypothesis HD : D <= 9.
Notation B := (64 ^ N.of_nat D)%N.
Implicit Types (t : dense V) (cs : list (call V)).

Lemma dense_small_legal cs : D <= 5 -> Forall dense_api cs -> (Exists is_remove cs -> 2 <= D) -> dense_legal D cs.
Proof.
  intros H5 Ha Hr. split; [done|]. split; [done|].
  eapply spec_always_weaken; [|by apply spec_always_keys]. intros m Hb. cbv beta in Hb. apply bounded_size in Hb.
  unfold small32. eapply N.le_lt_trans; [exact Hb|]. eapply N.le_lt_trans; [apply (N.pow_le_mono_r 64 _ 5)|]; [lia|lia|reflexivity].
Qed.

Lemma dense_iter_inv ex t m : dense_inv D ex t m -> exists n l,
  (forall fuel, n <= fuel -> iter_collect fuel (dense_tree V D) t = Ok l) /\ enumerates l (fun k => m !! k).
Proof.
  intros Hi. set (L := lawful_dense D HD0 HD (V := V) allp).
  assert (l_wf L t) as Hw. { exists m. by eapply dense_inv_false. }
  destruct (iter_content L t Hw) as (n & l & Hl & Hs & He). exists n, l. split; [done|]. split; [done|].
  intros k v. rewrite He. unfold L. by rewrite (content_dense D HD0 HD allp ex t m k Hi).
Qed.
Lemma dense_iter_law cs t : dense_legal D cs -> dense_reached D cs t -> exists n l,
  (forall fuel, n <= fuel -> iter_collect fuel (dense_tree V D) t = Ok l) /\ enumerates l (fun k => spec_run B ∅ cs !! k).
Proof. intros Hl Hr. destruct (dense_reached_inv D cs t HD0 HD Hl Hr) as (ex & Hi & _). by eapply dense_iter_inv. Qed.
Lemma dense_get_law cs t k : dense_legal D cs -> dense_reached D cs t ->
  tree_get (dense_tree V D) t k = if (k <? B)%N then Ok (spec_run B ∅ cs !! k) else Panic.
Proof. intros Hl Hr. destruct (dense_reached_inv D cs t HD0 HD Hl Hr) as (ex & Hi & _). by eapply dense_get_ok. Qed.
Lemma dense_kv_law cs t : dense_legal D cs -> dense_reached D cs t ->
  exists ks vs, dense_key_values t = Ok (ks, vs) /\ length ks = length vs /\ NoDup ks /\
    forall k v, (k, v) ∈ zip ks vs <-> spec_run B ∅ cs !! k = Some v.
Proof.
  intros Hl Hr. destruct (dense_reached_inv D cs t HD0 HD Hl Hr) as (ex & Hi & _).
  destruct (dense_key_values_ok D HD0 HD ex t _ Hi) as (ks & vs & E & El & Hp). exists ks, vs. split; [done|]. split; [done|]. split.
  - rewrite <- (fst_zip ks vs) by lia. rewrite Hp. apply NoDup_fst_map_to_list.
  - intros k v. rewrite Hp. apply elem_of_map_to_list.
Qed.

(** C06 *)
Lemma dense_rejects t k v d : (B <= k)%N ->
  dense_insert D t k v = Panic /\ dense_get_or_insert D t k d = Panic /\ dense_remove D t k = Panic /\
  tree_get (dense_tree V D) t k = Panic.
Proof.
  intros Hk. unfold dense_insert, dense_get_or_insert, dense_remove, tree_get. cbn [t_nw t_depth dense_tree].
  rewrite !(index_from_dense D HD0 HD). rewrite (proj2 (N.ltb_ge _ _)) by done. done.
Qed.
(** [r] is neither a panic nor undefined *)
Definition completes {A} (r : res A) : Prop := exists a, r = Ok a.
Lemma dense_accepts cs t k v d : dense_legal D cs -> dense_reached D cs t -> (k < B)%N ->
  (N.of_nat (size (spec_run B ∅ cs)) < 2 ^ 32 - 1)%N ->
  completes (dense_insert D t k v) /\ completes (dense_get_or_insert D t k d) /\
  (2 <= D -> completes (dense_remove D t k)) /\ completes (tree_get (dense_tree V D) t k).
Proof.
  intros Hl Hr Hk Hsz. destruct (dense_reached_inv D cs t HD0 HD Hl Hr) as (ex & Hi & _).
  set (m := spec_run B ∅ cs) in *.
  assert (forall c, N.of_nat (size (spec_map (KB D) m c)) < 2 ^ 32)%N as Hc.
  { intros c. assert (size (spec_map (KB D) m c) <= S (size m)); [|lia].
    assert (forall k x, size (<[k := x]> m) <= S (size m)) as Hins.
    { intros k0 x0. rewrite map_size_insert. destruct (m !! k0); cbn; lia. }
    assert (forall g : N -> V -> option V, size (map_imap g m) <= size m) as Him.
    { intros g. rewrite <- !size_dom. apply subseteq_size. intros x. rewrite !elem_of_dom. intros [y Hy].
      rewrite map_lookup_imap in Hy. destruct (m !! x); [eauto|done]. }
    assert (forall k, size (delete k m) <= S (size m)) as Hdel.
    { intros k0. rewrite map_size_delete. destruct (m !! k0); cbn; lia. }
    assert (size m <= S (size m)) by lia.
    destruct c as [k' v'|k' dflt w|k'|k'|k' w|k'|f]; cbn [spec_map]; auto.
    1, 3: destruct (k' <? KB D)%N; auto.
    - destruct (k' <? KB D)%N; auto. destruct (m !! k'); [destruct w; cbn [overwrite fst]; auto|].
      destruct dflt; auto. destruct w; cbn [overwrite fst]; rewrite ?insert_insert; auto.
    - destruct (k' <? KB D)%N; auto. destruct (m !! k'); [destruct w; cbn [overwrite fst]; auto|auto]. }
  split; [|split; [|split]].
  - destruct (dense_call_ok D HD0 HD ex t m (CInsert k v) Hi I ltac:(done) (Hc _)) as (t' & dr & ex' & E & _).
    cbn [dense_call spec_out] in E. unfold completes. destruct (dense_insert D t k v) as [[? ?]| | |]; try done; eauto.
    rewrite (proj2 (N.ltb_lt _ _)) in E by done. done.
  - destruct (get_or_insert_impl_ok D HD0 HD ex t m k false d Hi Hk) as (t' & oj & dr & E & H).
    { intros _ _. lia. }
    unfold dense_get_or_insert. rewrite (index_from_dense D HD0 HD), (proj2 (N.ltb_lt _ _)) by done. rewrite bind_ok, E. by eexists.
  - intros H2. destruct (dense_call_ok D HD0 HD ex t m (CRemove k) Hi I ltac:(done) (Hc _)) as (t' & dr & ex' & E & _).
    cbn [dense_call spec_out] in E. unfold completes. destruct (dense_remove D t k) as [[? ?]| | |]; try done; eauto.
    rewrite (proj2 (N.ltb_lt _ _)) in E by done. done.
  - rewrite (dense_get_ok D HD0 HD ex t m k Hi), (proj2 (N.ltb_lt _ _)) by done. by eexists.
Qed.

(** C19, C32 *)
Lemma dense_life cs : dense_legal D cs -> exists t os dr h dr2,
  dense_run D cs = Ok (t, os, dr) /\ dense_drop D t = Ok (h, dr2) /\ h_nodes h = ∅ /\
  spec_collect B (spec_in B) ∅ cs ≡ₚ removed_values cs os ++ dr ++ dr2.
Proof.
  intros Hl. destruct (dense_run_ok D cs HD0 HD Hl) as (t & dr & ex & E & Hd & Hi & _).
  destruct (dense_drop_ok D HD0 HD ex t _ Hi) as (h & dr2 & E2 & Hh & Hd2).
  eexists _, _, _, _, _. split; [done|]. split; [done|]. split; [done|].
  rewrite removed_values_spec. pose proof (spec_balance_run B ∅ cs) as Hb. unfold vals at 1 in Hb.
  rewrite map_to_list_empty, app_nil_r in Hb. rewrite Hb, Hd, Hd2. done.
Qed.

(** C26 *)
Lemma dense_node_law cs t a n : dense_legal D cs -> dense_reached D cs t -> h_nodes (d_heap t) !! a = Some n ->
  n_len n = S (popcount (n_mask n)) /\ n_len n <= 65 /\ n_len n <= n_cap n /\ n_cap n <= 128 /\ n_cap n = length (n_slots n).
Proof.
  intros Hl Hr Ha. destruct (dense_reached_inv D cs t HD0 HD Hl Hr) as (ex & Hi & _). by eapply dense_node_bounds.
Qed.

(** C27 *)
Lemma dense_panic_law cs1 cs2 k w : dense_legal D (cs1 ++ cs2) -> (k < B)%N -> spec_run B ∅ cs1 !! k = None ->
  exists t1 t2 dr1 dr2 os1 os2, length os1 = length cs1 /\
    dense_run D (cs1 ++ cs2) = Ok (t1, os1 ++ os2, dr1) /\
    dense_run D (cs1 ++ CGetOrInsert k None w :: cs2) = Ok (t2, os1 ++ OPanic :: os2, dr2) /\ dr1 ≡ₚ dr2 /\
    forall k', tree_get (dense_tree V D) t2 k' = tree_get (dense_tree V D) t1 k'.
Proof.
  intros Hl Hk Hn. assert (dense_legal D (cs1 ++ CGetOrInsert k None w :: cs2)) as Hl2.
  { destruct Hl as (Ha & Hr & Hs). apply Forall_app in Ha as [Ha1 Ha2]. split; [|split].
    - apply Forall_app. split; [done|]. by constructor.
    - intros He. apply Hr. rewrite Exists_app in *. destruct He as [He|He]; [by left|]. apply Exists_cons in He as [He|He]; [done|by right].
    - apply spec_always_app in Hs as [Hs1 Hs2]. apply spec_always_app. split; [done|]. split; [by apply spec_always_head in Hs2|].
      cbn [spec_map]. rewrite (proj2 (N.ltb_lt _ _)) by done. by rewrite Hn. }
  destruct (dense_run_ok D _ HD0 HD Hl) as (t1 & dr1 & ex1 & E1 & Hd1 & Hi1 & _).
  destruct (dense_run_ok D _ HD0 HD Hl2) as (t2 & dr2 & ex2 & E2 & Hd2 & Hi2 & _).
  assert (spec_map B (spec_run B ∅ cs1) (CGetOrInsert k None w) = spec_run B ∅ cs1) as Hm.
  { cbn [spec_map]. rewrite (proj2 (N.ltb_lt _ _)) by done. by rewrite Hn. }
  assert (spec_out B None (spec_run B ∅ cs1) (CGetOrInsert k None w) = OPanic) as Ho.
  { cbn [spec_out]. rewrite (proj2 (N.ltb_lt _ _)) by done. by rewrite Hn. }
  assert (spec_drop B (spec_run B ∅ cs1) (CGetOrInsert k None w) = []) as Hdr.
  { cbn [spec_drop]. rewrite (proj2 (N.ltb_lt _ _)) by done. by rewrite Hn. }
  rewrite spec_outs_app in E1, E2. cbn [spec_outs] in E2. rewrite Ho, Hm in E2.
  rewrite spec_run_app in Hi1, Hi2. cbn [spec_run] in Hi2. rewrite Hm in Hi2.
  exists t1, t2, dr1, dr2, (spec_outs B None ∅ cs1), (spec_outs B None (spec_run B ∅ cs1) cs2).
  split; [apply spec_outs_length|]. split; [done|]. split; [done|]. split.
  - rewrite Hd1, Hd2. assert (forall f m cs cs', spec_collect B f m (cs ++ cs') = spec_collect B f m cs ++ spec_collect B f (spec_run B m cs) cs') as Hca.
    { intros f m cs cs'. revert m. induction cs as [|c cs IH]; intros m; [done|]. cbn [app spec_collect spec_run]. by rewrite IH, app_assoc. }
    rewrite !Hca. cbn [spec_collect]. by rewrite Hdr, Hm.
  - intros k'. by rewrite (dense_get_ok D HD0 HD _ _ _ _ Hi1), (dense_get_ok D HD0 HD _ _ _ _ Hi2).
Qed.

(** C33 *)
Lemma dense_ref_law cs t k d x : dense_legal D cs -> dense_reached D cs t -> (k < B)%N ->
  (N.of_nat (size (spec_run B ∅ cs)) < 2 ^ 32 - 1)%N ->
  exists t1 j dr t2, dense_get_or_insert D t k (Some d) = Ok (t1, Some j, dr) /\
    (exists v, data_get (d_data t1) j = Ok v /\ tree_get (dense_tree V D) t1 k = Ok (Some v) /\
       v = default d (spec_run B ∅ cs !! k)) /\
    dense_write_ref t1 j x = Ok t2 /\
    (forall k', tree_get (dense_tree V D) t2 k' =
       if decide (k' = k) then Ok (Some x) else tree_get (dense_tree V D) t k').
Proof.
  intros Hl Hr Hk Hsz. destruct (dense_reached_inv D cs t HD0 HD Hl Hr) as (ex & Hi & _). set (m := spec_run B ∅ cs) in *.
  destruct (get_or_insert_impl_ok D HD0 HD ex t m k false (Some d) Hi Hk) as (t1 & oj & dr & E & H).
  { intros _ _. lia. }
  unfold dense_get_or_insert. rewrite (index_from_dense D HD0 HD), (proj2 (N.ltb_lt _ _)) by done. rewrite bind_ok, E.
  assert (exists ex' j, oj = Some j /\ dense_inv D ex' t1 (match m !! k with Some _ => m | None => <[k := d]> m end) /\ place_of t1 j k) as (ex' & j & -> & Hi1 & Hp).
  { destruct (m !! k) as [v|] eqn:Em; naive_solver. }
  set (m1 := match m !! k with Some _ => m | None => <[k := d]> m end) in *.
  assert (m1 !! k = Some (default d (m !! k)) /\ forall k', k' <> k -> m1 !! k' = m !! k') as [Hm1 Hm1'].
  { unfold m1. destruct (m !! k) as [v'|] eqn:Em; [done|]. split; [apply lookup_insert|]. intros; by apply lookup_insert_ne. }
  clearbody m1.
  destruct (place_read D _ _ _ _ _ Hi1 Hp) as (v & Hm & Hd).
  destruct (write_place_ok D HD0 HD _ _ _ _ _ x Hi1 Hp) as (t2 & Hw & Hi2).
  exists t1, j, dr, t2. split; [done|]. split.
  - exists v. split; [done|]. rewrite (dense_get_ok D HD0 HD _ _ _ _ Hi1). rewrite (proj2 (N.ltb_lt k (KB D)) Hk). split; [by f_equal|].
    rewrite Hm1 in Hm. by injection Hm as <-.
  - split; [exact Hw|]. intros k'. rewrite (dense_get_ok D HD0 HD _ _ _ _ Hi2), (dense_get_ok D HD0 HD _ _ _ _ Hi).
    destruct (decide (k' = k)) as [->|Hne].
    + rewrite lookup_insert, (proj2 (N.ltb_lt _ _)) by done. done.
    + rewrite lookup_insert_ne by done. by rewrite Hm1' by done.
Qed.
Lemma dense_update_law cs t f : dense_legal D cs -> dense_reached D cs t ->
  exists t' dr, dense_update_all f t = Ok (t', dr) /\
    forall k, tree_get (dense_tree V D) t' k =
      match tree_get (dense_tree V D) t k with Ok o => Ok (f k <$> o) | r => r end.
Proof.
  intros Hl Hr. destruct (dense_reached_inv D cs t HD0 HD Hl Hr) as (ex & Hi & _).
  destruct (update_all_ok D HD0 HD ex t _ f Hi) as (t' & dr & E & _ & Hi'). exists t', dr. split; [done|]. intros k.
  rewrite (dense_get_ok D HD0 HD _ _ _ _ Hi'), (dense_get_ok D HD0 HD _ _ _ _ Hi). destruct (_ <? _)%N; [|done].
  rewrite map_lookup_imap. by destruct (_ !! k).
Qed.

(** C34 *)
Lemma dense_same_law cs1 cs2 t1 t2 : dense_legal D cs1 -> dense_legal D cs2 -> dense_reached D cs1 t1 -> dense_reached D cs2 t2 ->
  (forall k, tree_get (dense_tree V D) t1 k = tree_get (dense_tree V D) t2 k) -> spec_run B ∅ cs1 = spec_run B ∅ cs2.
Proof.
  intros Hl1 Hl2 Hr1 Hr2 Hg. apply map_eq. intros k. specialize (Hg k).
  rewrite (dense_get_law cs1 t1 k Hl1 Hr1), (dense_get_law cs2 t2 k Hl2 Hr2) in Hg. destruct (N.ltb_spec k B) as [Hk|Hk]; [by simplify_eq|].
  destruct (spec_run B ∅ cs1 !! k) eqn:E1; [apply spec_run_bound in E1; [lia|done]|].
  destruct (spec_run B ∅ cs2 !! k) eqn:E2; [apply spec_run_bound in E2; [lia|done]|]. done.
Qed.
Lemma dense_history_indep cs1 cs2 t1 t2 : dense_legal D cs1 -> dense_legal D cs2 -> dense_reached D cs1 t1 -> dense_reached D cs2 t2 ->
  (forall k, tree_get (dense_tree V D) t1 k = tree_get (dense_tree V D) t2 k) ->
  (exists n l, forall fuel, n <= fuel -> iter_collect fuel (dense_tree V D) t1 = Ok l /\ iter_collect fuel (dense_tree V D) t2 = Ok l) /\
  (exists ks1 vs1 ks2 vs2, dense_key_values t1 = Ok (ks1, vs1) /\ dense_key_values t2 = Ok (ks2, vs2) /\ zip ks1 vs1 ≡ₚ zip ks2 vs2) /\
  (forall cs, dense_legal D (cs1 ++ cs) -> exists t1' t2' os dr1 dr2,
     dense_calls D t1 cs = Ok (t1', os, dr1) /\ dense_calls D t2 cs = Ok (t2', os, dr2) /\ dr1 ≡ₚ dr2).
Proof.
  intros Hl1 Hl2 Hr1 Hr2 Hg. pose proof (dense_same_law _ _ _ _ Hl1 Hl2 Hr1 Hr2 Hg) as Hm.
  destruct (dense_reached_inv D cs1 t1 HD0 HD Hl1 Hr1) as (ex1 & Hi1 & _). destruct (dense_reached_inv D cs2 t2 HD0 HD Hl2 Hr2) as (ex2 & Hi2 & _).
  split; [|split].
  - destruct (dense_iter_inv _ _ _ Hi1) as (n1 & l1 & H1 & He1). destruct (dense_iter_inv _ _ _ Hi2) as (n2 & l2 & H2 & He2).
    assert (l1 = l2) as <- by (eapply enumerates_unique; [exact He1|exact He2|by rewrite Hm]).
    exists (n1 + n2), l1. intros fuel Hf. rewrite H1, H2 by lia. done.
  - destruct (dense_key_values_ok D HD0 HD _ _ _ Hi1) as (ks1 & vs1 & E1 & _ & Hp1).
    destruct (dense_key_values_ok D HD0 HD _ _ _ Hi2) as (ks2 & vs2 & E2 & _ & Hp2).
    exists ks1, vs1, ks2, vs2. split; [done|]. split; [done|]. by rewrite Hp1, Hp2, Hm.
  - intros cs (Ha & Hrm & Hs). apply Forall_app in Ha as [_ Ha]. apply spec_always_app in Hs as [_ Hs].
    destruct (dense_calls_ok D HD0 HD ex1 t1 _ cs Hi1 Ha) as (t1' & dr1 & ex1' & E1 & Hd1 & _); [intros He; apply Hrm, Exists_app; by right|done|].
    destruct (dense_calls_ok D HD0 HD ex2 t2 _ cs Hi2 Ha) as (t2' & dr2 & ex2' & E2 & Hd2 & _);
      [intros He; apply Hrm, Exists_app; by right|by rewrite <- Hm|].
    rewrite <- Hm in E2, Hd2. exists t1', t2', (spec_outs B None (spec_run B ∅ cs1) cs), dr1, dr2.
    split; [done|]. split; [done|]. by rewrite Hd1, Hd2.
Qed.
End laws.
