(** * SparseTree: every public call, and every history, refines the map specification *)
From Verif Require Import Base BitUtils BitUtilsProofs LevelIndices LevelIndicesProofs Hierarchy Lawful IterProofs
  Dense Sparse SparseVec SparseShape SparseProofs SparseOps SparseTree Spec Client DenseHistory.

(** number of accepted keys: `W^D`, but never the key usize::MAX *)
Definition key_bound (nw D : nat) : N := N.min (msize nw ^ N.of_nat D) USIZE_MAX.

Lemma links_fit_fits nw D K : links_fit (msize nw) D K <-> fits nw D K.
Proof.
  unfold links_fit, fits. split; intros H n Hn; specialize (H n Hn).
  - destruct n as [|[|[|n]]]; [lia|exact H..].
  - destruct n as [|[|[|n]]]; [lia|exact H..].
Qed.

Section step.
Context (nw D : nat).
Hypothesis Hnw : nw_ok nw.
Hypothesis HD0 : 1 <= D.
Hypothesis HD : D <= 9.
Context {V : Type} (first : option V).
Implicit Types (t : sparse V) (m : gmap N V) (E : gset N).
Notation B := (key_bound nw D).
Notation sparse_inv := (sparse_inv nw D first).

Lemma index_from_sparse k : index_from nw D k = if (k <? B)%N then Ok k else Panic.
Proof.
  destruct (index_from_spec nw D k) as [[-> H]|[-> H]].
  - by rewrite (proj2 (N.ltb_lt _ _)).
  - by rewrite (proj2 (N.ltb_ge _ _)).
Qed.
Lemma bound_skb k : (k < B)%N -> (k < SKB nw D)%N.
Proof. unfold key_bound, SKB. lia. Qed.

Lemma supdate_all_ok E t m f : sparse_inv E t m ->
  exists t' dr, sparse_update_all f t = Ok (t', dr) /\ dr ≡ₚ (map_to_list m).*2 /\
    sparse_inv E t' (map_imap (fun k v => Some (f k v)) m).
Proof.
  intros Hi. destruct (sparse_key_values_ok nw D Hnw HD0 HD first E t m Hi) as (ks & vs & Ekv & El & Hp).
  unfold sparse_update_all. rewrite Ekv, bind_ok. eexists _, _. split; [done|].
  split; [by eapply zip_with_perm_values|].
  destruct Hi as (P & J & Sh & Hv & Hex). exists P, J. cbn [s_levels s_values s_keys s_lbi].
  split; [done|]. split; [|done].
  destruct (svec_entries nw D (VB D) HD0 first _ _ _ _ Hv) as (ks' & vs' & Ek & Ed & El' & Hai).
  assert (ks' = ks /\ vs' = vs) as [-> ->].
  { unfold sparse_key_values, from_1 in Ekv. rewrite Ek, Ed in *. cbn [length] in Ekv.
    rewrite !decide_True in Ekv by lia. rewrite !bind_ok in Ekv. rewrite Hai, bind_ok in Ekv. by simplify_eq. }
  rewrite Ek, Ed in Hv |- *. cbn [take app].
  assert (forall j k w, ks !! j = Some k -> (Some <$> zip_with f ks vs) !! j = Some (Some w) <-> exists v, vs !! j = Some v /\ w = f k v) as Hz.
  { intros j k w Hk. rewrite list_lookup_fmap, lookup_zip_with, Hk. cbn [mbind option_bind].
    destruct (vs !! j) as [v|] eqn:Hvj; cbn; split; try (intros; naive_solver). }
  split.
  - simpl length. rewrite fmap_length, zip_with_length. lia.
  - apply (sv_le _ _ _ _ _ _ _ _ Hv).
  - done.
  - done.
  - apply (sv_key _ _ _ _ _ _ _ _ Hv).
  - apply (sv_J _ _ _ _ _ _ _ _ Hv).
  - intros [|j] H1 H2; [lia|]. simpl length in H2. rewrite fmap_length, zip_with_length in H2.
    destruct (lookup_lt_is_Some_2 ks j) as [k Hk]; [lia|]. destruct (lookup_lt_is_Some_2 vs j) as [v Hvj]; [lia|].
    exists (f k v). change ((Some <$> zip_with f ks vs) !! j = Some (Some (f k v))). apply (Hz j k); eauto.
  - intros k w. rewrite map_lookup_imap. split.
    + destruct (m !! k) as [v|] eqn:Hm; [|done]. cbn. intros [= <-].
      apply (sv_m _ _ _ _ _ _ _ _ Hv) in Hm as ([|j] & Hj & Hk & Hd); [lia|]. cbn [lookup list_lookup] in Hk, Hd.
      exists (S j). split; [lia|]. split; [done|]. cbn [lookup list_lookup]. apply (Hz j k); [done|].
      exists v. split; [|done]. apply list_lookup_fmap_Some in Hd as (x & Hx & [= <-]). done.
    + intros ([|j] & Hj & Hk & Hd); [lia|]. cbn [lookup list_lookup] in Hk, Hd.
      apply (Hz j k) in Hd as (v & Hvj & ->); [|done].
      assert (m !! k = Some v) as ->; [|done]. apply (sv_m _ _ _ _ _ _ _ _ Hv). exists (S j). split; [lia|].
      split; [done|]. change ((Some <$> vs) !! j = Some (Some v)). by rewrite list_lookup_fmap, Hvj.
Qed.

Lemma sparse_get_ok E t m k : sparse_inv E t m ->
  tree_get (sparse_tree V nw D) t k = if (k <? B)%N then Ok (m !! k) else Panic.
Proof.
  intros Hi. unfold tree_get. cbn [t_nw t_depth sparse_tree]. rewrite index_from_sparse.
  destruct (N.ltb_spec k B) as [Hk%bound_skb|Hk]; [|done]. rewrite bind_ok.
  destruct (skey_path nw D Hnw HD0 k Hk) as [Hp Hkp].
  cbn [t_data sparse_tree]. rewrite <- Hkp at 1. rewrite (sparse_data_ok nw D Hnw HD0 HD first E t m _ Hi Hp), Hkp. done.
Qed.

Lemma suse_ref_ok E t m j k w dr : sparse_inv E t m -> splace_of t j k ->
  exists v t', m !! k = Some v /\
    sparse_use_ref t j w dr = Ok (t', OVal (Some v), dr ++ snd (overwrite m k v w)) /\
    sparse_inv E t' (fst (overwrite m k v w)).
Proof.
  intros Hi Hp. destruct (splace_read nw D HD0 HD first E t m j k Hi Hp) as (v & Hm & Hd).
  exists v. unfold sparse_use_ref. rewrite Hd, bind_ok. destruct w as [x|]; cbn [overwrite fst snd].
  - destruct (swrite_place_ok nw D Hnw HD0 HD first E t m j k x Hi Hp) as (t' & Hw & Hi').
    change (sparse_write_ref t j x) with (swrite_place t j x). rewrite Hw, bind_ok. eauto.
  - exists t. rewrite app_nil_r. eauto.
Qed.

(** [d0]: the default value, if the tree holds one *)
Lemma sparse_call_ok E t m c : sparse_inv E t m -> sparse_api (match first with Some _ => true | None => false end) c ->
  links_fit (msize nw) D (dom (spec_map B m c) ∪ (E ∪ spec_panicked B m c)) ->
  exists t' dr, sparse_call nw D t c = Ok (t', spec_out B first m c, dr) /\ dr ≡ₚ spec_drop B m c /\
    sparse_inv (E ∪ spec_panicked B m c) t' (spec_map B m c).
Proof.
  intros Hi Hapi Hfit%links_fit_fits.
  assert (sparse_inv (E ∪ ∅) t m) as Hi0 by (rewrite union_empty_r_L; done).
  destruct c as [k v|k dflt w|k|k|k w|k|f]; cbn [sparse_call spec_map spec_out spec_drop spec_panicked] in *; try done.
  - unfold sparse_insert. rewrite index_from_sparse. destruct (N.ltb_spec k B) as [Hk|Hk]; cbn [rbind]; [|eauto 10].
    destruct (sgoi_impl_ok nw D Hnw HD0 HD first E t m k true (Some v) Hi (bound_skb k Hk)) as (t' & oj & dr & -> & H).
    { intros Hn. rewrite dom_insert_L in Hfit. replace (dom m ∪ E ∪ {[k]}) with ({[k]} ∪ dom m ∪ (E ∪ ∅)) by set_solver. done. }
    rewrite bind_ok, union_empty_r_L. destruct (m !! k) as [old|]; destruct H as (H1 & -> & _); cbn [ol]; eauto 10.
  - unfold sparse_get_or_insert. rewrite index_from_sparse. destruct (N.ltb_spec k B) as [Hk|Hk]; cbn [rbind];
      [|destruct dflt; eauto 10].
    destruct (sgoi_impl_ok nw D Hnw HD0 HD first E t m k false dflt Hi (bound_skb k Hk)) as (t' & oj & dr & -> & H).
    { intros Hn. rewrite Hn in Hfit. destruct dflt as [v|].
      - replace (dom m ∪ E ∪ {[k]}) with (dom (overwrite (<[k:=v]> m) k v w).1 ∪ (E ∪ ∅)); [done|].
        destruct w; cbn [overwrite fst]; rewrite ?insert_insert, dom_insert_L; set_solver.
      - replace (dom m ∪ E ∪ {[k]}) with (dom m ∪ (E ∪ {[k]})) by set_solver. done. }
    destruct (m !! k) as [old|] eqn:Hm.
    + assert (sparse_inv E t' m /\ dr = [] /\ exists j, oj = Some j /\ splace_of t' j k) as (H1 & -> & j & -> & Hj).
      { destruct dflt; exact H. }
      destruct (suse_ref_ok E t' m j k w [] H1 Hj) as (v & t'' & Hv & -> & H2). simplify_eq. cbn [app].
      replace (E ∪ match dflt with Some _ => ∅ | None => ∅ end) with E by (destruct dflt; set_solver).
      destruct dflt; eauto 10.
    + destruct dflt as [v|].
      * destruct H as (H1 & -> & j & -> & Hj).
        destruct (suse_ref_ok E t' _ j k w [] H1 Hj) as (v' & t'' & Hv & -> & H2). rewrite lookup_insert in Hv. simplify_eq. cbn [app].
        rewrite union_empty_r_L.
        exists t'', (snd (overwrite (<[k:=v']> m) k v' w)). split; [done|]. split; [destruct w; done|]. done.
      * destruct H as (H1 & -> & ->). eauto 10.
  - unfold sparse_remove. rewrite index_from_sparse. destruct (N.ltb_spec k B) as [Hk|Hk]; cbn [rbind]; [|eauto 10].
    destruct (sparse_remove_impl_ok nw D Hnw HD0 HD first E t m k Hi (bound_skb k Hk)) as (t' & -> & H).
    rewrite union_empty_r_L. eauto 10.
  - rewrite (sparse_get_ok E t m k Hi). destruct (N.ltb_spec k B) as [Hk|Hk]; eauto 10.
  - destruct (N.ltb_spec k B) as [Hk|Hk].
    + pose proof (sparse_get_mut_ok nw D Hnw HD0 HD first E t m k Hi (bound_skb k Hk)) as H.
      rewrite index_from_sparse, (proj2 (N.ltb_lt _ _) Hk) in H. specialize (H eq_refl).
      destruct (m !! k) as [v|] eqn:Hm.
      * destruct H as (j & -> & Hj). destruct (suse_ref_ok E t m j k w [] Hi Hj) as (v' & t'' & Hv & -> & H2). simplify_eq.
        rewrite union_empty_r_L. eauto 10.
      * rewrite H. eauto 10.
    + unfold sparse_get_mut. rewrite index_from_sparse, (proj2 (N.ltb_ge _ _) Hk). cbn [rbind]. eauto 10.
  - destruct first as [d|] eqn:Ef; [|done]. destruct (N.ltb_spec k B) as [Hk|Hk].
    + rewrite (sparse_get_or_default_ok nw D Hnw HD0 HD (Some d) E t m k d Hi (bound_skb k Hk)); [|by rewrite index_from_sparse, (proj2 (N.ltb_lt _ _) Hk)|done].
      destruct (m !! k); eauto 10.
    + unfold sparse_get_or_default. rewrite index_from_sparse, (proj2 (N.ltb_ge _ _) Hk). cbn [rbind]. eauto 10.
  - destruct (supdate_all_ok E t m f Hi) as (t' & dr & -> & Hd & H). rewrite bind_ok, union_empty_r_L. eauto 10.
Qed.

Lemma spec_always_e_head (P : gmap N V -> gset N -> Prop) B E m cs : spec_always_e B P E m cs -> P m E.
Proof. by destruct cs; intros [? ?]. Qed.

Lemma sparse_calls_ok E t m cs : sparse_inv E t m ->
  Forall (sparse_api (match first with Some _ => true | None => false end)) cs ->
  spec_always_e B (fun m E => links_fit (msize nw) D (dom m ∪ E)) E m cs ->
  exists t' dr, sparse_calls nw D t cs = Ok (t', spec_outs B first m cs, dr) /\
    dr ≡ₚ spec_collect B (spec_drop B) m cs /\ sparse_inv (E ∪ spec_all_panicked B m cs) t' (spec_run B m cs).
Proof.
  revert E t m. induction cs as [|c cs IH]; intros E t m Hi Hapi Hsz; cbn [sparse_calls spec_outs spec_collect spec_run spec_all_panicked].
  - rewrite union_empty_r_L. eauto 10.
  - inversion_clear Hapi as [|? ? Hc Hcs]. cbn [spec_always_e] in Hsz. destruct Hsz as [_ Hsz].
    destruct (sparse_call_ok E t m c Hi Hc) as (t1 & dr1 & -> & Hd1 & Hi1).
    { by apply spec_always_e_head in Hsz. }
    rewrite bind_ok.
    destruct (IH _ t1 _ Hi1 Hcs Hsz) as (t2 & dr2 & -> & Hd2 & Hi2).
    rewrite bind_ok. exists t2, (dr1 ++ dr2). split; [done|]. split; [by rewrite Hd1, Hd2|]. by rewrite assoc_L by apply _.
Qed.
End step.

(** what "this SparseTree was produced by the history [cs]" means *)
Definition sparse_reached {V} (nw D : nat) (req : bool) (dflt : option V) (cs : list (call V)) (t : sparse V) : Prop :=
  exists os dr, sparse_run nw D req dflt cs = Ok (t, os, dr).
(** side conditions: the calls exist; with ReqDefault<true> the default constructor does not
    panic (finding); the links can address the subtrees that are needed at any time *)
Definition sparse_legal {V} (nw D : nat) (req : bool) (dflt : option V) (cs : list (call V)) : Prop :=
  Forall (sparse_api req) cs /\ (req = true -> is_Some dflt) /\
  spec_always_e (key_bound nw D) (fun m E => links_fit (msize nw) D (dom m ∪ E)) ∅ ∅ cs.
(** the placeholder value held by the tree *)
Definition placeholder {V} (req : bool) (dflt : option V) : option V := if req then dflt else None.

Lemma sparse_run_ok {V} nw D req (dflt : option V) cs : nw_ok nw -> 1 <= D -> D <= 9 -> sparse_legal nw D req dflt cs ->
  let B := key_bound nw D in
  exists t dr, sparse_run nw D req dflt cs = Ok (t, spec_outs B (placeholder req dflt) ∅ cs, dr) /\
    dr ≡ₚ spec_collect B (spec_drop B) ∅ cs /\
    sparse_inv nw D (placeholder req dflt) (spec_all_panicked B ∅ cs) t (spec_run B ∅ cs).
Proof.
  intros Hnw HD0 HD (Hapi & Hrq & Hsz) B. unfold sparse_run.
  destruct (sparse_default_ok nw D HD0 HD (placeholder req dflt) req dflt Hrq eq_refl) as (t & -> & Hi). rewrite bind_ok. cbn beta iota.
  destruct (sparse_calls_ok nw D Hnw HD0 HD (placeholder req dflt) ∅ t ∅ cs Hi) as (t' & dr & H1 & H2 & H3).
  - unfold placeholder. destruct req; [|done]. destruct (Hrq eq_refl) as [d ->]. done.
  - done.
  - exists t', dr. rewrite union_empty_l_L in H3. done.
Qed.
Lemma sparse_reached_inv {V} nw D req (dflt : option V) cs t : nw_ok nw -> 1 <= D -> D <= 9 -> sparse_legal nw D req dflt cs ->
  sparse_reached nw D req dflt cs t ->
  sparse_inv nw D (placeholder req dflt) (spec_all_panicked (key_bound nw D) ∅ cs) t (spec_run (key_bound nw D) ∅ cs).
Proof.
  intros Hnw HD0 HD Hl (os & dr & Hr). destruct (sparse_run_ok nw D req dflt cs Hnw HD0 HD Hl) as (t' & dr' & Hr' & _ & Hi).
  rewrite Hr in Hr'. simplify_eq. eauto.
Qed.

(** ** the capacity condition for the predefined configurations *)
Lemma prefixes_bound W D n (K : gset N) : (0 < W)%N -> n <= D -> (forall k, k ∈ K -> (k < W ^ N.of_nat D)%N) ->
  (N.of_nat (size (prefixes W D n K)) <= W ^ N.of_nat n)%N.
Proof.
  intros HW Hn HK.
  set (Z := (W ^ N.of_nat n)%N) in *.
  assert (size (prefixes W D n K) <= N.to_nat Z); [|lia].
  transitivity (length (seqN 0 (N.to_nat Z))); [|by rewrite seqN_length].
  rewrite <- (size_list_to_set (C := gset N)) by apply ssorted_nodup, seqN_sorted.
  apply subseteq_size. intros x. unfold prefixes. rewrite elem_of_map, elem_of_list_to_set, elem_of_seqN.
  intros (k & -> & Hk%HK). split; [apply N.le_0_l|]. rewrite N2Nat.id, N.add_0_l. apply N.div_lt_upper_bound.
  - apply N.pow_nonzero. lia.
  - unfold Z. rewrite <- N.pow_add_r. replace (N.of_nat (D - n) + N.of_nat n)%N with (N.of_nat D) by lia. done.
Qed.
Lemma prefixes_size W D n (K : gset N) : size (prefixes W D n K) <= size K.
Proof.
  unfold prefixes. revert K. apply set_ind_L.
  - rewrite set_map_empty, size_empty. done.
  - intros x X Hx IH. rewrite set_map_union_L, set_map_singleton_L.
    rewrite (size_union {[x]} X), size_singleton by set_solver.
    rewrite size_union_alt, size_singleton. apply le_n_S.
    etrans; [apply subseteq_size, subseteq_difference_l, reflexivity|exact IH].
Qed.

(** widths 64 and 128: fewer than 2^32 keys are always fine *)
Lemma links_fit_narrow nw D (K : gset N) : nw = 1 \/ nw = 2 -> (forall k, k ∈ K -> (k < msize nw ^ N.of_nat D)%N) ->
  (N.of_nat (size K) < 2 ^ 32)%N -> links_fit (msize nw) D K.
Proof.
  intros Hnw HK Hsz n Hn. pose proof (prefixes_size (msize nw) D n K) as Hs.
  pose proof (prefixes_bound (msize nw) D n K) as Hb.
  destruct n as [|[|[|n]]]; cbn [link_capacity]; [lia| | |lia].
  - eapply N.le_lt_trans; [apply Hb; [destruct Hnw as [-> | ->]; done|lia|done]|]. destruct Hnw as [-> | ->]; reflexivity.
  - eapply N.le_lt_trans; [apply Hb; [destruct Hnw as [-> | ->]; done|lia|done]|]. destruct Hnw as [-> | ->]; reflexivity.
Qed.
