(** * C28, exactly: an inserted element can be found again if and only if the links fit; C64: memory safety of SparseTree

    [links_fit W D K] (Spec.v): at every level the number of subtrees that hold keys of [K] is below the number of values of the index type of the links to that level. *)
From Verif Require Import Base BitUtils BitUtilsProofs LevelIndices LevelIndicesProofs Hierarchy Lawful IterProofs Sparse SparseVec SparseShape SparseProofs SparseOps SparseTree Spec SpecLaws Client DenseHistory SparseHistory
  Dense SparseLaws SparseOverflow SparseNoRemove PanicSafety Findings Examples PropertiesSparse.

Section over.
Context {V : Type} (nw D : nat).
Hypothesis Hnw : nw_ok nw.
Hypothesis HD0 : 1 <= D.
Hypothesis HD : D <= 8.
Context (req : bool) (dflt : option V).
Notation B := (key_bound nw D).
Notation T := (sparse_tree V nw D).
Notation legal := (sparse_legal nw D req dflt).
Notation reached := (sparse_reached nw D req dflt).
Notation run := (sparse_run nw D req dflt).
Notation d0 := (placeholder req dflt).
Implicit Types (t : sparse V) (cs : list (call V)).
Let HD9 : D <= 9 := ltac:(lia).

(** appending a value leaves the answer of every lookup alone, as long as the lookups find the same positions *)
Lemma get_appended E t t' m v k' : sparse_inv nw D d0 E t m -> s_values t' = s_values t ++ [Some v] ->
  (forall q, path_ok nw D q -> fetch_block_index D t' q = fetch_block_index D t q) ->
  tree_get T t' k' = tree_get T t k'.
Proof.
  intros Hi Hv Hf. unfold tree_get. cbn [t_nw t_depth sparse_tree t_data]. rewrite (index_from_sparse nw D).
  destruct (N.ltb_spec k' B) as [Hk|_]; [|done]. apply (bound_skb nw D HD0 HD9) in Hk. rewrite !bind_ok.
  destruct (skey_path nw D Hnw HD0 k' Hk) as [Hp _]. unfold sparse_data. rewrite Hf by done.
  destruct (sparse_fetch nw D Hnw HD0 HD9 d0 E t m _ Hi Hp) as (j & -> & Hm). rewrite !bind_ok.
  destruct (N.eqb_spec j 0) as [->|Hj]; [done|]. destruct (m !! _) as [w|]; [|by subst j]. destruct Hm as (_ & Hd & _).
  rewrite Hv. unfold data_get in *. unfold get_u in *. destruct (s_values t !! N.to_nat j) as [x|] eqn:E1; [|done].
  by rewrite (lookup_app_l_Some _ _ _ _ E1).
Qed.
Lemma links_fit_dec W d (K : gset N) : links_fit W d K \/ ~ links_fit W d K.
Proof.
  destruct (decide (Forall (fun n => (N.of_nat (size (prefixes W d n K)) < link_capacity n)%N) (seq 1 d))) as [H|H]; [left|right].
  - intros n Hn. rewrite Forall_forall in H. apply H, elem_of_seq. lia.
  - intros Hf. apply H, Forall_forall. intros n Hn%elem_of_seq. apply Hf. lia.
Qed.
Lemma all_init_snoc (l : list (option V)) vs v : all_init l = Ok vs -> all_init (l ++ [Some v]) = Ok (vs ++ [v]).
Proof.
  revert vs. induction l as [|[x|] l IH]; intros vs H; cbn [all_init app] in *; [by injection H as <-| |done].
  apply bind_ok_inv in H as (vs' & H & [= <-]). by rewrite (IH _ H), bind_ok.
Qed.
Lemma kv_appended E t t' m k v : sparse_inv nw D d0 E t m -> s_values t' = s_values t ++ [Some v] -> s_keys t' = s_keys t ++ [k] ->
  exists ks vs, sparse_key_values t = Ok (ks, vs) /\ sparse_key_values t' = Ok (ks ++ [k], vs ++ [v]).
Proof.
  intros (P & J & Sh & Hv & _) Ev Ek. destruct (svec_entries nw D (VB D) HD0 d0 _ _ _ _ Hv) as (ks & vs & Hk & Hd & El & Ha).
  exists ks, vs. unfold sparse_key_values, from_1. rewrite Ev, Ek, Hk, Hd. cbn [length app drop]. rewrite !decide_True by lia.
  rewrite Hd in Ha. change (all_init (Some <$> vs) = Ok vs) in Ha. change (drop 0 (Some <$> vs)) with (Some <$> vs). change (drop 0 ((Some <$> vs) ++ [Some v])) with ((Some <$> vs) ++ [Some v]). rewrite !bind_ok. rewrite (all_init_snoc _ _ _ Ha), Ha. done.
Qed.

(** C28, for every width: after a legal history in which no constructor panicked, `insert(k, v)` completes; if the links fit,
    every lookup answers as in the map with [k -> v]; if they do not, every lookup answers as if nothing
    had been inserted, although `key_values()` lists the element *)
Theorem C28_insert_exact cs k v : legal cs -> spec_all_panicked B ∅ cs = ∅ -> (k < B)%N ->
  let m := spec_run B ∅ cs in
  exists t os dr, run (cs ++ [CInsert k v]) = Ok (t, os ++ [ODone], dr) /\
    (links_fit (msize nw) D (dom m ∪ {[k]}) -> forall k', (k' < B)%N -> tree_get T t k' = Ok (<[k := v]> m !! k')) /\
    (~ links_fit (msize nw) D (dom m ∪ {[k]}) -> m !! k = None /\ (forall k', (k' < B)%N -> tree_get T t k' = Ok (m !! k')) /\
       exists ks vs, sparse_key_values t = Ok (ks ++ [k], vs ++ [v]) /\ zip ks vs ≡ₚ map_to_list m).
Proof.
  intros Hl Hnp Hk m. destruct (sparse_run_ok nw D req dflt cs Hnw HD0 HD9 Hl) as (t0 & dr0 & E0 & _ & Hi).
  rewrite Hnp in Hi. fold m in Hi. unfold sparse_run in E0 |- *. apply bind_ok_inv in E0 as (tt & -> & E0). rewrite bind_ok.
  rewrite sparse_calls_snoc, E0, bind_ok. cbn beta iota.
  assert (links_fit (msize nw) D (dom m)) as Hfit.
  { destruct Hl as (_ & _ & Hs). rewrite <- (app_nil_r cs) in Hs. apply spec_always_e_app in Hs as [_ [Hs _]].
    rewrite Hnp in Hs. by rewrite !union_empty_r_L in Hs. }
  cbn [sparse_call]. unfold sparse_insert. rewrite (index_from_sparse nw D), (proj2 (N.ltb_lt _ _) Hk), bind_ok.
  destruct (links_fit_dec (msize nw) D (dom m ∪ {[k]})) as [Hf|Hnf].
  - destruct (sgoi_impl_ok nw D Hnw HD0 HD9 d0 ∅ t0 m k true (Some v) Hi (bound_skb nw D HD0 HD9 k Hk)) as (t' & oj & dr & -> & H).
    { intros _. apply links_fit_fits. by rewrite union_empty_r_L. }
    rewrite bind_ok, bind_ok. eexists _, _, _. split; [reflexivity|]. split; [|done]. intros _ k' Hk'.
    assert (sparse_inv nw D d0 ∅ t' (<[k:=v]> m)) as Hi' by (destruct (m !! k); by destruct H).
    rewrite (sparse_get_ok nw D Hnw HD0 HD9 d0 _ _ _ k' Hi'). by rewrite (proj2 (N.ltb_lt _ _) Hk').
  - destruct (sgoi_lost nw D Hnw HD0 HD9 d0 t0 m k true v Hi (bound_skb nw D HD0 HD9 k Hk)) as (t' & i & Hm & -> & Hv & Hks & _ & Hfe).
    { by apply links_fit_fits. }
    { by rewrite <- links_fit_fits. }
    rewrite bind_ok, bind_ok. eexists _, _, _. split; [reflexivity|]. split; [done|]. intros _. split; [done|]. split.
    + intros k' Hk'. rewrite (get_appended ∅ t0 t' m v k' Hi Hv Hfe), (sparse_get_ok nw D Hnw HD0 HD9 d0 _ _ _ k' Hi).
      by rewrite (proj2 (N.ltb_lt _ _) Hk').
    + destruct (kv_appended ∅ t0 t' m k v Hi Hv Hks) as (ks & vs & H1 & H2). exists ks, vs. split; [done|].
      destruct (sparse_key_values_ok nw D Hnw HD0 HD9 d0 ∅ t0 m Hi) as (ks' & vs' & H3 & _ & H4). rewrite H1 in H3. injection H3 as <- <-. exact H4.
Qed.

(** the same for `get_or_insert`: the returned reference is valid and reads [v], and nothing else can reach the element *)
Theorem C28_get_or_insert_exact cs k v : legal cs -> spec_all_panicked B ∅ cs = ∅ -> (k < B)%N ->
  let m := spec_run B ∅ cs in
  exists t os dr, run (cs ++ [CGetOrInsert k (Some v) None]) = Ok (t, os ++ [OVal (Some (default v (m !! k)))], dr) /\
    (links_fit (msize nw) D (dom m ∪ {[k]}) -> forall k', (k' < B)%N -> tree_get T t k' = Ok (<[k := default v (m !! k)]> m !! k')) /\
    (~ links_fit (msize nw) D (dom m ∪ {[k]}) -> m !! k = None /\ forall k', (k' < B)%N -> tree_get T t k' = Ok (m !! k')).
Proof.
  intros Hl Hnp Hk m. destruct (sparse_run_ok nw D req dflt cs Hnw HD0 HD9 Hl) as (t0 & dr0 & E0 & _ & Hi).
  rewrite Hnp in Hi. fold m in Hi. unfold sparse_run in E0 |- *. apply bind_ok_inv in E0 as (tt & -> & E0). rewrite bind_ok.
  rewrite sparse_calls_snoc, E0, bind_ok. cbn beta iota.
  assert (links_fit (msize nw) D (dom m)) as Hfit.
  { destruct Hl as (_ & _ & Hs). rewrite <- (app_nil_r cs) in Hs. apply spec_always_e_app in Hs as [_ [Hs _]].
    rewrite Hnp in Hs. by rewrite !union_empty_r_L in Hs. }
  destruct (links_fit_dec (msize nw) D (dom m ∪ {[k]})) as [Hf|Hnf].
  - destruct (sparse_call_ok nw D Hnw HD0 HD9 d0 ∅ t0 m (CGetOrInsert k (Some v) None) Hi) as (t' & dr & -> & _ & Hi').
    { done. }
    { cbn [spec_map spec_panicked]. rewrite (proj2 (N.ltb_lt _ _) Hk). rewrite !union_empty_r_L.
      destruct (m !! k) as [w|] eqn:Hm; cbn [overwrite fst]; [done|]. rewrite dom_insert_L. by rewrite (comm_L (∪)). }
    rewrite bind_ok. cbn [spec_out spec_map spec_panicked] in *. rewrite (proj2 (N.ltb_lt _ _) Hk) in *.
    exists t', (spec_outs B d0 ∅ cs), (dr0 ++ dr). split; [by destruct (m !! k)|]. split; [|done]. intros _ k' Hk'.
    rewrite (sparse_get_ok nw D Hnw HD0 HD9 d0 _ _ _ k' Hi'), (proj2 (N.ltb_lt _ _) Hk').
    destruct (m !! k) as [w|] eqn:Hm; cbn [overwrite fst default from_option]; [|done]. by rewrite insert_id.
  - cbn [sparse_call]. unfold sparse_get_or_insert. rewrite (index_from_sparse nw D), (proj2 (N.ltb_lt _ _) Hk), bind_ok.
    destruct (sgoi_lost nw D Hnw HD0 HD9 d0 t0 m k false v Hi (bound_skb nw D HD0 HD9 k Hk)) as (t' & i & Hm & -> & Hv & Hks & Hil & Hfe).
    { by apply links_fit_fits. }
    { by rewrite <- links_fit_fits. }
    assert (data_get (s_values t') (N.to_nat i) = Ok v) as Hd.
    { unfold data_get. rewrite Hv, Hil. rewrite (get_u_ok _ _ (Some v)); [done|]. by rewrite list_lookup_middle. }
    unfold sparse_use_ref. rewrite Hd, !bind_ok, Hm. eexists _, _, _. split; [reflexivity|]. split; [done|]. intros _. split; [done|].
    intros k' Hk'. rewrite (get_appended ∅ t0 t' m v k' Hi Hv Hfe), (sparse_get_ok nw D Hnw HD0 HD9 d0 _ _ _ k' Hi).
    by rewrite (proj2 (N.ltb_lt _ _) Hk').
Qed.

(** C64, the part that holds: no safe call on a SparseTree is undefined behaviour while the links fit *)
Theorem C64_sparse_memory_safe_partial cs : legal cs -> exists t os dr,
  run cs = Ok (t, os, dr) /\
  (forall k, tree_get T t k = if (k <? B)%N then Ok (spec_run B ∅ cs !! k) else Panic) /\
  (exists n l, forall fuel, n <= fuel -> iter_collect fuel T t = Ok l) /\
  (exists ks vs, sparse_key_values t = Ok (ks, vs)) /\ (exists dr2, sparse_drop req t = Ok dr2).
Proof.
  intros Hl. destruct (C32_sparse_drops nw D Hnw HD0 HD req dflt cs Hl) as (t & os & dr & dr2 & E & Hd & _).
  assert (reached cs t) as Hr by (eexists _, _; exact E).
  exists t, os, dr. split; [done|]. split; [intros k; by apply (C02_sparse_get nw D Hnw HD0 HD req dflt cs)|]. split.
  - destruct (C04_sparse_iter nw D Hnw HD0 HD req dflt cs t Hl Hr) as (n & l & H & _). eauto.
  - split; [|eauto]. destruct (C05_sparse_key_values nw D Hnw HD0 HD req dflt cs t Hl Hr) as (ks & vs & H & _). eauto.
Qed.
(** in the small configurations there is no condition *)
Theorem C64_sparse_memory_safe_small_partial cs : (nw = 1 /\ D <= 5) \/ (nw = 2 /\ D <= 4) -> Forall (sparse_api req) cs ->
  (req = true -> is_Some dflt) -> exists t os dr,
  run cs = Ok (t, os, dr) /\
  (forall k, tree_get T t k = if (k <? B)%N then Ok (spec_run B ∅ cs !! k) else Panic) /\
  (exists n l, forall fuel, n <= fuel -> iter_collect fuel T t = Ok l) /\
  (exists ks vs, sparse_key_values t = Ok (ks, vs)) /\ (exists dr2, sparse_drop req t = Ok dr2).
Proof. intros Hs Ha Hd. apply C64_sparse_memory_safe_partial. by apply sparse_small_legal. Qed.
(** without removals there is no condition either, in any configuration: insertions beyond the capacity of the links lose or mix up
    elements (C28), but every lookup, insertion, mutation, `key_values` and the drop stay within initialised memory; only iteration does not
    ([C64_refuted_iter]) *)
Theorem C64_no_remove_memory_safe_partial cs : Forall (sparse_api req) cs -> Forall (fun c => ~ is_remove c) cs -> (req = true -> is_Some dflt) ->
  exists t os dr, run cs = Ok (t, os, dr) /\
    (forall k, if (k <? B)%N then exists o, tree_get T t k = Ok o else tree_get T t k = Panic) /\
    (exists ks vs, sparse_key_values t = Ok (ks, vs) /\ length ks = length vs) /\ (exists dr2, sparse_drop req t = Ok dr2).
Proof.
  intros Ha Hr Hd. destruct (tsafe_default nw D HD0 HD9 req dflt Hd) as (t0 & E0 & Hs0).
  assert (Forall (sparse_api (match d0 with Some _ => true | None => false end)) cs) as Ha'.
  { unfold placeholder. destruct req; [|exact Ha]. by destruct (Hd eq_refl) as [v ->]. }
  destruct (tsafe_calls nw D Hnw HD0 HD9 d0 cs Ha' Hr t0 Hs0) as (t & os & dr & E & Hs).
  exists t, os, dr. split; [unfold sparse_run; by rewrite E0, bind_ok|]. split; [|split].
  - intros k. destruct (N.ltb_spec k B) as [Hk|Hk]; [by apply (tsafe_get nw D Hnw HD0 HD9 d0)|].
    unfold tree_get. cbn [t_nw t_depth sparse_tree]. by rewrite (index_from_sparse nw D), (proj2 (N.ltb_ge _ _) Hk).
  - destruct (tsafe_key_values nw D HD0 HD9 d0 t Hs) as (ks & vs & H1 & _ & H2 & _). eauto.
  - destruct (tsafe_key_values nw D HD0 HD9 d0 t Hs) as (ks & vs & _ & Hv & _ & _). unfold sparse_drop. rewrite Hv. cbn [length]. unfold placeholder. unfold sub_u.
    destruct req; cbn [drop]; rewrite decide_True by lia; rewrite bind_ok.
    + destruct (Hd eq_refl) as [v ->]. cbn [all_init]. rewrite all_init_some, bind_ok. eauto.
    + exists vs. rewrite drop_0. apply all_init_some.
Qed.
End over.

(** up to 255 insertions are legal at width 256, depth 1 *)
Lemma spec_always_inserts_size B (n : nat) (m : gmap N N) ks : size m + length ks <= n ->
  spec_always B (fun m => size m <= n) m (inserts ks).
Proof.
  revert m. induction ks as [|k ks IH]; intros m Hs; cbn [inserts fmap list_fmap spec_always length] in *; (split; [lia|]); [done|].
  apply IH. cbn [spec_map]. destruct (k <? B)%N; [|lia]. rewrite map_size_insert. destruct (m !! k); unfold id; lia.
Qed.
Lemma no_panicked_inserts B (m : gmap N N) ks : spec_all_panicked B m (inserts ks) = ∅.
Proof. revert m. induction ks as [|k ks IH]; intros m; [done|]. cbn [inserts fmap list_fmap spec_all_panicked spec_panicked]. rewrite union_empty_l_L. apply IH. Qed.
Lemma inserts_legal_256 ks : length ks <= 255 -> sparse_legal 4 1 false None (inserts ks).
Proof.
  intros Hl. split; [apply Forall_fmap, Forall_forall; done|]. split; [done|]. apply spec_always_e_nopanic; [apply no_panicked_inserts|].
  eapply spec_always_weaken; [|apply (spec_always_inserts_size _ 255); by rewrite map_size_empty]. cbv beta. intros m Hm n Hn.
  rewrite union_empty_r_L. assert (n = 1) as -> by lia. pose proof (prefixes_size (msize 4) 1 1 (dom m)) as Hp. rewrite size_dom in Hp.
  change (link_capacity 1) with 256%N. lia.
Qed.
(** the hypotheses of the theorems above are met, in both cases *)
Example C28_exact_example : sparse_legal 4 1 false None (inserts (seqN 0 255)) /\ spec_all_panicked (key_bound 4 1) ∅ (inserts (seqN 0 255)) = ∅ /\
  ~ links_fit (msize 4) 1 (dom (spec_run (key_bound 4 1) ∅ (inserts (seqN 0 255))) ∪ {[255%N]}) /\
  links_fit (msize 4) 1 (dom (spec_run (key_bound 4 1) ∅ (inserts (seqN 0 254))) ∪ {[255%N]}) /\
  sparse_legal 4 1 false None (inserts (seqN 0 254)).
Proof.
  split; [apply inserts_legal_256, Nat.leb_le; vm_compute; reflexivity|]. split; [apply no_panicked_inserts|]. split; [|split; [|apply inserts_legal_256, Nat.leb_le; vm_compute; reflexivity]].
  - intros H. specialize (H 1 ltac:(lia)). revert H. vm_compute. done.
  - intros n Hn. assert (n = 1) as -> by lia. vm_compute. done.
Qed.

(** C28 is false for width 256 in a second way: the 257th link is not lost but leads to somebody else's element *)
Theorem C28_refuted_wrong_value :
  let t := sparse_after 4 1 (inserts (seqN 0 256) ++ [CInsert 255 777]%N) in tree_get (sparse_tree N 4 1) t 255 = Ok (Some 0%N).
Proof. vm_compute. done. Qed.
(** a lost element comes back when another key is removed: `get(255)` is [None] after its insertion, and [Some(255)] after `remove(0)` *)
Theorem C28_refuted_reappears : let cs := inserts (seqN 0 256) in
  tree_get (sparse_tree N 4 1) (sparse_after 4 1 cs) 255 = Ok None /\
  tree_get (sparse_tree N 4 1) (sparse_after 4 1 (cs ++ [CRemove 0%N])) 255 = Ok (Some 255%N).
Proof. split; vm_compute; done. Qed.
Lemma after_run nw D cs : match sparse_run nw D false (@None N) cs with Ok _ => true | _ => false end = true ->
  sparse_reached nw D false None cs (sparse_after nw D cs).
Proof. unfold sparse_reached, sparse_after. destruct (sparse_run nw D false None cs) as [[[t os] dr]| | |]; [eauto|done..]. Qed.
(** C64 is false for width 256: after 256 insertions into a tree of depth 1 `iter()` is undefined behaviour: the mask announces
    an element whose link is 0, and `data_unchecked` unwraps [None] *)
Theorem C64_refuted_iter : let t := sparse_after 4 1 (inserts (seqN 0 256)) in
  sparse_reached 4 1 false None (inserts (seqN 0 256)) t /\ exists fuel, iter_collect fuel (sparse_tree N 4 1) t = UB.
Proof. split; [apply after_run; vm_compute; done|]. exists 300. vm_compute. done. Qed.
(** and of depth 2: removing the alias frees a block that another subtree still uses; iteration then reads the free list as a mask *)
Theorem C64_refuted_alias :
  let cs := inserts ((fun i => 256 * i)%N <$> seqN 0 256) ++ [CInsert (256 * 255) 777; CRemove (256 * 255)]%N in
  sparse_reached 4 2 false None cs (sparse_after 4 2 cs) /\ exists fuel, iter_collect fuel (sparse_tree N 4 2) (sparse_after 4 2 cs) = UB.
Proof. split; [apply after_run; vm_compute; done|]. exists 300. vm_compute. done. Qed.
(** and after removals even `get` is: two keys lead to the same element; removing it through one of them leaves the other pointing past the end
    of the value vector.  The key [0] that is looked up was inserted and never removed *)
Theorem C64_refuted_get :
  let cs := inserts (seqN 0 256) ++ [CInsert 255 777; CRemove 255; CRemove 255; CRemove 255]%N ++ (CRemove <$> seqN 1 254) in
  sparse_reached 4 1 false None cs (sparse_after 4 1 cs) /\ tree_get (sparse_tree N 4 1) (sparse_after 4 1 cs) 0 = UB.
Proof. split; [apply after_run; vm_compute; done|]. vm_compute. done. Qed.
