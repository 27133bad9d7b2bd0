(** * DenseTree: how many nodes are allocated *)
From Verif Require Import Base BitUtils BitUtilsProofs BitQueue LevelIndices LevelIndicesProofs
  ConstLoops Hierarchy Lawful Dense DenseNode DenseShape DenseProofs Spec SpecLaws Client DenseHistory DenseLaws.

(** the nodes a tree of depth [D] needs for the keys [K]: the root and one node for every
    non-empty subtree, i.e. for every distinct proper prefix of the keys *)
Definition nodes_needed (W : N) (D : nat) (K : gset N) : nat :=
  1 + sum_list ((fun n => size (prefixes W D n K)) <$> seq 1 (D - 1)).

Section mem.
Context (D : nat).
Hypothesis HD0 : 1 <= D.
Hypothesis HD : D <= 9.
Notation W := (msize 1).

Lemma key_prefix p q : Forall (fun i => (i < W)%N) q -> (key_of_path 1 (p ++ q) / W ^ N.of_nat (length q) = key_of_path 1 p)%N.
Proof.
  intros Hq. rewrite key_of_path_app. pose proof (key_of_path_bound 1 q eq_refl Hq) as Hb.
  assert (W ^ N.of_nat (length q) <> 0)%N by (apply N.pow_nonzero; done).
  rewrite N.div_add_l by done. rewrite N.div_small by done. lia.
Qed.
(** every node lies above an element or above a key of [E] *)
Lemma exact_below bad h root P J p : shape D h root P J None -> exact D (above 1 D bad) P J None ->
  p <> [] -> is_Some (P !! p) -> exists q, path_ok 1 D (p ++ q) /\ (is_Some (J !! (p ++ q)) \/ bad (key_of_path 1 (p ++ q))).
Proof.
  intros Sh Hex. remember (D - length p) as d eqn:Hd. revert p Hd. induction d as [d IH] using (well_founded_induction lt_wf). intros p -> Hne Hp.
  pose proof Hp as [a Ha]. destruct (sh_path _ _ _ _ _ _ Sh _ _ Ha) as [_ Hlt].
  destruct (Hex p Hne Hp) as [(q & Hq & Hb)|(i & [s Hs])]; [exists q; by auto|]. cbn [childs] in Hs. unfold childs0 in Hs. destruct (decide (S (length p) < D)).
  - destruct (P !! (p ++ [i])) as [b|] eqn:Hb; [|done].
    destruct (IH (D - length (p ++ [i]))) with (p := p ++ [i]) as (q & Hq1 & Hq2); [rewrite app_length; cbn; lia|done|by destruct p|eauto|].
    exists (i :: q). change (i :: q) with ([i] ++ q). by rewrite app_assoc.
  - destruct (J !! (p ++ [i])) as [j|] eqn:Hj; [|done]. exists [i]. destruct (sh_jpath _ _ _ _ _ _ Sh _ _ Hj) as [Hpath _]. eauto.
Qed.
Lemma elem_above h root P J q : shape D h root P J None -> is_Some (J !! q) ->
  forall n, n < D -> is_Some (P !! (take n q)).
Proof.
  intros Sh [j Hj] n Hn. destruct (sh_jpath _ _ _ _ _ _ Sh _ _ Hj) as ([Hl _] & p & i & -> & [a Ha]).
  rewrite app_length in Hl. cbn in Hl. rewrite take_app_le by lia.
  apply (sh_prefix _ _ _ _ _ _ (take n p) (drop n p) a Sh). by rewrite take_drop.
Qed.
Lemma J_m {V} J keys data (m : gmap N V) q : vec_ok D J keys data m -> path_ok 1 D q ->
  is_Some (J !! q) <-> key_of_path 1 q ∈ (dom m : gset N).
Proof.
  intros Hv Hq. rewrite elem_of_dom. split.
  - intros [j Hj]. apply (v_J _ _ _ _ _ Hv) in Hj as (_ & H1 & Hk). pose proof (lookup_lt_Some _ _ _ Hk) as Hlt. rewrite <- (v_len _ _ _ _ _ Hv) in Hlt.
    destruct (v_data _ _ _ _ _ Hv (N.to_nat j)) as [v Hd]; [lia|done|]. exists v. apply (v_m _ _ _ _ _ Hv). exists (N.to_nat j). split; [lia|done].
  - intros [v Hm]. apply (v_m _ _ _ _ _ Hv) in Hm as (j & H1 & Hk & _). exists (N.of_nat j). apply (v_J _ _ _ _ _ Hv). split; [done|]. split; [lia|]. by rewrite Nat2N.id.
Qed.
(** the paths of the nodes *)
Definition node_paths (K : gset N) : list (list N) :=
  [] :: (seq 1 (D - 1) ≫= fun n => level_indices 1 n <$> elements (prefixes W D n K)).
Lemma prefix_bound K n x : (forall k, k ∈ K -> (k < W ^ N.of_nat D)%N) -> n <= D -> x ∈ prefixes W D n K -> (x < W ^ N.of_nat n)%N.
Proof.
  intros HK Hn. unfold prefixes. rewrite elem_of_map. intros (k & -> & Hk). apply N.div_lt_upper_bound; [by apply N.pow_nonzero|].
  rewrite <- N.pow_add_r. replace (N.of_nat (D - n) + N.of_nat n)%N with (N.of_nat D) by lia. by apply HK.
Qed.
Lemma NoDup_node_paths K : (forall k, k ∈ K -> (k < W ^ N.of_nat D)%N) -> NoDup (node_paths K).
Proof.
  intros HK. unfold node_paths. constructor.
  - rewrite elem_of_list_bind. intros (n & Hin & Hn%elem_of_seq). apply elem_of_list_fmap in Hin as (x & E & _).
    apply (f_equal length) in E. rewrite level_indices_length in E by lia. cbn in E. lia.
  - assert (forall l, NoDup l -> (forall n, n ∈ l -> 1 <= n < D) ->
      NoDup (l ≫= fun n => level_indices 1 n <$> elements (prefixes W D n K))) as H; [|apply H; [apply NoDup_seq|intros n Hn%elem_of_seq; lia]].
    induction l as [|n l IH]; intros Hnd Hl; cbn [mbind list_bind]; [constructor|]. apply NoDup_cons in Hnd as [Hnl Hnd].
    pose proof (Hl n ltac:(by left)) as Hn. apply NoDup_app. split; [|split; [|apply IH; [done|intros; apply Hl; by right]]].
    + apply (NoDup_fmap_2_strong (level_indices 1 n)); [|apply NoDup_elements]. intros x y Hx%elem_of_elements Hy%elem_of_elements E.
      apply (level_indices_inj 1 n x y); [by left|lia| | |done]; by apply (prefix_bound K); try lia.
    + intros p (x & -> & _)%elem_of_list_fmap. rewrite elem_of_list_bind. intros (n' & Hin & Hn'). apply elem_of_list_fmap in Hin as (y & E & _).
      pose proof (Hl n' ltac:(by right)). apply (f_equal length) in E. rewrite !level_indices_length in E by lia. subst. done.
Qed.
Lemma node_paths_length K : length (node_paths K) = nodes_needed W D K.
Proof.
  unfold node_paths, nodes_needed. cbn [length]. f_equal. generalize (seq 1 (D - 1)) as l. induction l as [|n l IH]; [done|].
  rewrite fmap_cons. cbn [mbind list_bind sum_list sum_list_with]. rewrite app_length, fmap_length. rewrite <- IH. done.
Qed.
Lemma node_paths_spec {V} (E : gset N) h root P J keys data (m : gmap N V) : shape D h root P J None ->
  exact D (above 1 D (fun k => k ∈ E)) P J None -> vec_ok D J keys data m ->
  (forall p, p ∈ node_paths (dom m) -> is_Some (P !! p)) /\ (forall p, is_Some (P !! p) -> p ∈ node_paths (dom m ∪ E)).
Proof.
  intros Sh Hex Hv. unfold node_paths. split; intros p; rewrite elem_of_cons, elem_of_list_bind.
  - intros [->|(n & Hin & Hn%elem_of_seq)]; [destruct (sh_root _ _ _ _ _ _ Sh) as (a & _ & Ha); eauto|].
    apply elem_of_list_fmap in Hin as (x & -> & Hx%elem_of_elements). unfold prefixes in Hx. apply elem_of_map in Hx as (k & -> & Hk).
    assert (k < KB D)%N as Hkb.
    { apply elem_of_dom in Hk as [v Hm]. apply (v_m _ _ _ _ _ Hv) in Hm as (j & H1 & Hkk & _). by eapply v_key. }
    destruct (key_path D HD0 k Hkb) as [Hp Hkp]. set (q := level_indices 1 D k) in *.
    pose proof Hp as [Hlen Hall].
    assert (is_Some (J !! q)) as HJ by (apply (J_m J keys data m q Hv Hp); by rewrite Hkp).
    assert (level_indices 1 n (k / W ^ N.of_nat (D - n)) = take n q) as ->; [|apply (elem_above _ _ _ _ _ Sh HJ); lia].
    rewrite <- Hkp, <- (take_drop n q) at 1. replace (D - n) with (length (drop n q)) by (rewrite drop_length; lia).
    rewrite key_prefix by by apply Forall_drop.
    apply level_indices_of_path; [by left|lia|]. split; [rewrite take_length; lia|by apply Forall_take].
  - intros Hp. destruct (decide (p = [])) as [->|Hne]; [by left|right]. pose proof Hp as [a Ha].
    destruct (sh_path _ _ _ _ _ _ Sh _ _ Ha) as [Hpath Hlt]. destruct (exact_below _ h root P J p Sh Hex Hne Hp) as (q & Hq & HJ).
    exists (length p). split; [|apply elem_of_seq; destruct p; [done|cbn in *; lia]].
    apply elem_of_list_fmap. exists (key_of_path 1 p). split; [symmetry; apply level_indices_of_path; [by left|destruct p; [done|cbn; lia]|done]|].
    apply elem_of_elements. unfold prefixes. apply elem_of_map. exists (key_of_path 1 (p ++ q)). pose proof Hq as [Hlen Hall]. rewrite app_length in Hlen. split.
    + replace (D - length p) with (length q) by lia. rewrite key_prefix; [done|]. apply Forall_app in Hall. apply Hall.
    + apply elem_of_union. destruct HJ as [HJ|HJ]; [left|by right]. by apply (J_m J keys data m _ Hv Hq).
Qed.
(** addresses and paths correspond *)
Lemma heap_size h root P J : shape D h root P J None -> size (h_nodes h) = size P.
Proof.
  intros Sh. assert ((map_to_list P).*2 ≡ₚ elements (dom (h_nodes h) : gset N)) as Hp.
  { apply NoDup_Permutation.
    - assert (forall l : list (list N * N), NoDup l.*1 -> (forall p a, (p, a) ∈ l -> P !! p = Some a) -> NoDup l.*2) as H;
        [|apply H; [apply NoDup_fst_map_to_list|intros p a; apply elem_of_map_to_list]].
      induction l as [|[p a] l IH]; intros Hn Hl; [constructor|]. apply NoDup_cons in Hn as [Hni Hn]. constructor; [|apply IH; [done|intros; apply Hl; by right]].
      intros Hin. apply elem_of_list_fmap in Hin as ([q b] & Eb & Hq). cbn in Eb. subst b.
      assert (p = q) as -> by (eapply (sh_inj _ _ _ _ _ _ Sh); [apply Hl; by left|apply Hl; by right]).
      apply Hni. apply elem_of_list_fmap. by exists (q, a).
    - apply NoDup_elements.
    - intros a. rewrite elem_of_elements, elem_of_dom. split.
      + intros ([p b] & -> & Hp%elem_of_map_to_list)%elem_of_list_fmap. destruct (sh_node _ _ _ _ _ _ Sh _ _ Hp) as (n & Hn & _). eauto.
      + intros Ha. destruct (sh_dom _ _ _ _ _ _ Sh a Ha) as (p & Hp). apply elem_of_list_fmap. exists (p, a). split; [done|]. by apply elem_of_map_to_list. }
  apply Permutation_length in Hp. rewrite fmap_length in Hp. rewrite <- size_dom. unfold size at 1, set_size. cbn. rewrite <- Hp. done.
Qed.
Lemma dense_nodes_between {V} (E : gset N) (t : dense V) m : (forall k, k ∈ E -> (k < KB D)%N) ->
  dense_inv D (above 1 D (fun k => k ∈ E)) t m ->
  nodes_needed W D (dom m) <= size (h_nodes (d_heap t)) <= nodes_needed W D (dom m ∪ E).
Proof.
  intros HE (P & J & Sh & Hv & Hex). rewrite (heap_size _ _ _ _ Sh), <- !node_paths_length, <- (size_dom (D := gset (list N))).
  assert (forall k, k ∈ (dom m : gset N) -> (k < KB D)%N) as Hb.
  { intros k [v Hm]%elem_of_dom. apply (v_m _ _ _ _ _ Hv) in Hm as (j & H1 & Hkk & _). by eapply (v_key D). }
  assert (NoDup (node_paths (dom m))) as Hnd by by apply NoDup_node_paths.
  assert (NoDup (node_paths (dom m ∪ E))) as Hnd2. { apply NoDup_node_paths. intros k [Hk|Hk]%elem_of_union; [by apply Hb|by apply HE]. }
  destruct (node_paths_spec E _ _ _ _ _ _ m Sh Hex Hv) as [H1 H2].
  rewrite <- (size_list_to_set (node_paths (dom m)) Hnd : size (list_to_set (node_paths (dom m)) : gset (list N)) = _).
  rewrite <- (size_list_to_set (node_paths (dom m ∪ E)) Hnd2 : size (list_to_set (node_paths (dom m ∪ E)) : gset (list N)) = _).
  split; apply subseteq_size; intros p; rewrite elem_of_dom, elem_of_list_to_set; auto.
Qed.
Lemma dense_nodes {V} (t : dense V) m : dense_inv D nonep t m -> size (h_nodes (d_heap t)) = nodes_needed W D (dom m).
Proof.
  intros Hi. assert (dense_inv D (above 1 D (fun k => k ∈ (∅ : gset N))) t m) as Hi' by (eapply dense_inv_mono; [|exact Hi]; by intros p []).
  apply dense_nodes_between in Hi'; [|set_solver]. rewrite union_empty_r_L in Hi'. lia.
Qed.
End mem.
