(** * DenseTree: every public call, and every history, refines the map specification *)
From Verif Require Import Base BitUtils BitUtilsProofs LevelIndices LevelIndicesProofs Hierarchy Lawful IterProofs
  Dense DenseNode DenseShape DenseProofs DenseRemove DenseTree DenseDrop Sparse Spec Client.

Lemma imap_insert_size {V} (m : gmap N V) k v : m !! k = None -> size (<[k := v]> m) = S (size m).
Proof. apply map_size_insert_None. Qed.

Lemma zip_with_perm_values {V} (f : N -> V -> V) (ks : list N) (vs : list V) (m : gmap N V) :
  length ks = length vs -> zip ks vs ≡ₚ map_to_list m -> vs ≡ₚ (map_to_list m).*2.
Proof.
  intros Hl Hp. rewrite <- Hp. rewrite snd_zip by lia. done.
Qed.

Section step.
Context (D : nat).
Hypothesis HD0 : 1 <= D.
Hypothesis HD : D <= 9.
Context {V : Type}.
Implicit Types (t : dense V) (m : gmap N V).
Notation KB := (KB D).

Lemma index_from_dense k : index_from 1 D k = if (k <? KB)%N then Ok k else Panic.
Proof.
  pose proof (KB_lt D HD0 HD) as HK.
  destruct (index_from_spec 1 D k) as [[-> H]|[-> H]].
  - rewrite (proj2 (N.ltb_lt _ _)); [done|]. unfold DenseProofs.KB in *. change (msize 1) with 64%N in H. lia.
  - rewrite (proj2 (N.ltb_ge _ _)); [done|]. unfold DenseProofs.KB in *. change (msize 1) with 64%N in H. lia.
Qed.

Lemma update_all_ok ex t m f : dense_inv D ex t m ->
  exists t' dr, dense_update_all f t = Ok (t', dr) /\ dr ≡ₚ (map_to_list m).*2 /\
    dense_inv D ex t' (map_imap (fun k v => Some (f k v)) m).
Proof.
  intros Hi. destruct (dense_key_values_ok D HD0 HD ex t m Hi) as (ks & vs & Ekv & El & Hp).
  unfold dense_update_all. rewrite Ekv, bind_ok. eexists _, _. split; [done|].
  split; [by eapply zip_with_perm_values|].
  destruct Hi as (P & J & Sh & Hv & Hex). exists P, J. cbn [d_root d_heap d_data d_keys].
  split; [done|]. split; [|done].
  destruct (vec_entries D HD0 HD _ _ _ _ Hv) as (ks' & vs' & Ek & Ed & El' & Hai).
  assert (ks' = ks /\ vs' = vs) as [-> ->].
  { unfold dense_key_values, from_1 in Ekv. rewrite Ek, Ed in *. cbn [length] in Ekv.
    rewrite !decide_True in Ekv by lia. rewrite !bind_ok in Ekv. rewrite Hai, bind_ok in Ekv. by simplify_eq. }
  rewrite Ek, Ed in Hv |- *. cbn [take app].
  assert (forall j v, vs !! j = Some v -> exists k, ks !! j = Some k) as Hjk.
  { intros j v Hj%lookup_lt_Some. rewrite <- El' in Hj. by apply lookup_lt_is_Some in Hj as [??]; eauto. }
  assert (forall j k w, ks !! j = Some k -> (Some <$> zip_with f ks vs) !! j = Some (Some w) <-> exists v, vs !! j = Some v /\ w = f k v) as Hz.
  { intros j k w Hk. rewrite list_lookup_fmap, lookup_zip_with, Hk. cbn [mbind option_bind].
    destruct (vs !! j) as [v|] eqn:Hvj; cbn; split; try (intros; naive_solver). }
  split.
  - simpl length. rewrite fmap_length, zip_with_length. lia.
  - apply (v_le _ _ _ _ _ Hv).
  - done.
  - done.
  - apply (v_key _ _ _ _ _ Hv).
  - apply (v_J _ _ _ _ _ Hv).
  - intros [|j] H1 H2; [lia|]. simpl length in H2. rewrite fmap_length, zip_with_length in H2.
    destruct (lookup_lt_is_Some_2 ks j) as [k Hk]; [lia|]. destruct (lookup_lt_is_Some_2 vs j) as [v Hvj]; [lia|].
    exists (f k v). cbn [lookup list_lookup]. apply (Hz j k); eauto.
  - intros k w. rewrite map_lookup_imap. split.
    + destruct (m !! k) as [v|] eqn:Hm; [|done]. cbn. intros [= <-].
      apply (v_m _ _ _ _ _ Hv) in Hm as ([|j] & Hj & Hk & Hd); [lia|]. cbn [lookup list_lookup] in Hk, Hd.
      exists (S j). split; [lia|]. split; [done|]. cbn [lookup list_lookup]. apply (Hz j k); [done|].
      exists v. split; [|done]. apply list_lookup_fmap_Some in Hd as (x & Hx & [= <-]). done.
    + intros ([|j] & Hj & Hk & Hd); [lia|]. cbn [lookup list_lookup] in Hk, Hd.
      apply (Hz j k) in Hd as (v & Hvj & ->); [|done].
      assert (m !! k = Some v) as ->; [|done]. apply (v_m _ _ _ _ _ Hv). exists (S j). split; [lia|].
      split; [done|]. change ((Some <$> vs) !! j = Some (Some v)). by rewrite list_lookup_fmap, Hvj.
Qed.

Lemma dense_get_ok ex t m k : dense_inv D ex t m ->
  tree_get (dense_tree V D) t k = if (k <? KB)%N then Ok (m !! k) else Panic.
Proof.
  intros Hi. unfold tree_get. cbn [t_nw t_depth dense_tree]. rewrite index_from_dense.
  destruct (N.ltb_spec k KB) as [Hk|Hk]; [|done]. rewrite bind_ok.
  destruct (key_path D HD0 k Hk) as [Hp Hkp].
  cbn [t_data dense_tree]. rewrite <- Hkp at 1. rewrite (dense_data_ok D HD0 HD ex t m _ Hi Hp), Hkp. done.
Qed.

Lemma use_ref_ok ex t m j k w dr : dense_inv D ex t m -> place_of t j k ->
  exists v t', m !! k = Some v /\
    dense_use_ref t j w dr = Ok (t', OVal (Some v), dr ++ snd (overwrite m k v w)) /\
    dense_inv D ex t' (fst (overwrite m k v w)).
Proof.
  intros Hi Hp. destruct (place_read D ex t m j k Hi Hp) as (v & Hm & Hd).
  exists v. unfold dense_use_ref. rewrite Hd, bind_ok. destruct w as [x|]; cbn [overwrite fst snd].
  - destruct (write_place_ok D HD0 HD ex t m j k x Hi Hp) as (t' & Hw & Hi').
    change (dense_write_ref t j x) with (write_place t j x). rewrite Hw, bind_ok. eauto.
  - exists t. rewrite app_nil_r. eauto.
Qed.

Lemma dense_call_ok ex t m c : dense_inv D ex t m -> dense_api c -> (is_remove c -> 2 <= D) ->
  (N.of_nat (size (spec_map KB m c)) < 2 ^ 32)%N ->
  exists t' dr ex', dense_call D t c = Ok (t', spec_out KB None m c, dr) /\ dr ≡ₚ spec_drop KB m c /\
    dense_inv D ex' t' (spec_map KB m c) /\
    (forall p, ex' p -> ex p \/ above 1 D (fun k => k ∈ spec_panicked KB m c) p).
Proof.
  intros Hi Hapi Hrm Hsz.
  destruct c as [k v|k dflt w|k|k|k w|k|f]; cbn [dense_call spec_map spec_out spec_drop spec_panicked] in *; try done.
  - unfold dense_insert. rewrite index_from_dense. destruct (N.ltb_spec k KB) as [Hk|Hk]; cbn [rbind].
    + destruct (get_or_insert_impl_ok D HD0 HD ex t m k true (Some v) Hi Hk) as (t' & oj & dr & -> & H).
      { intros Hn _. rewrite imap_insert_size in Hsz by done. lia. }
      rewrite bind_ok. destruct (m !! k) as [old|]; destruct H as (H1 & -> & _); cbn [ol]; eauto 10.
    + eauto 10.
  - unfold dense_get_or_insert. rewrite index_from_dense. destruct (N.ltb_spec k KB) as [Hk|Hk]; cbn [rbind]; [|eauto 10].
    destruct (get_or_insert_impl_ok D HD0 HD ex t m k false dflt Hi Hk) as (t' & oj & dr & -> & H).
    { intros Hn [v ->]. rewrite Hn in Hsz. destruct w; cbn [overwrite fst] in Hsz; rewrite ?insert_insert, imap_insert_size in Hsz by done; lia. }
    destruct (m !! k) as [old|] eqn:Hm.
    + assert (dense_inv D ex t' m /\ dr = [] /\ exists j, oj = Some j /\ place_of t' j k) as (H1 & -> & j & -> & Hj).
      { destruct dflt; exact H. }
      destruct (use_ref_ok ex t' m j k w [] H1 Hj) as (v & t'' & Hv & -> & H2). simplify_eq. cbn [app].
      destruct dflt; eauto 10.
    + destruct dflt as [v|].
      * destruct H as (H1 & -> & j & -> & Hj).
        destruct (use_ref_ok ex t' _ j k w [] H1 Hj) as (v' & t'' & Hv & -> & H2). rewrite lookup_insert in Hv. simplify_eq. cbn [app].
        exists t'', (snd (overwrite (<[k:=v']> m) k v' w)), ex. split; [done|]. split; [destruct w; done|]. split; [done|]. by left.
      * destruct H as (H1 & -> & ->). eexists t', [], _. split; [done|]. split; [done|]. split; [exact H1|].
        intros p [Hp|[r Hr]]; [by left|right]. destruct (key_path D HD0 k Hk) as [Hq Hkq]. exists r. rewrite <- Hr, Hkq. split; [done|set_solver].
  - unfold dense_remove. rewrite index_from_dense. destruct (N.ltb_spec k KB) as [Hk|Hk]; cbn [rbind]; [|eauto 10].
    destruct (dense_remove_impl_ok D (Hrm I) HD ex t m k Hi Hk) as (t' & -> & H). eauto 10.
  - rewrite (dense_get_ok ex t m k Hi). destruct (N.ltb_spec k KB) as [Hk|Hk]; eauto 10.
  - destruct (update_all_ok ex t m f Hi) as (t' & dr & -> & Hd & H). rewrite bind_ok. eauto 10.
Qed.

(** the guard of the refinement: fewer than 2^32 elements at any time *)
Definition small32 (m : gmap N V) : Prop := (N.of_nat (size m) < 2 ^ 32)%N.

Lemma spec_always_head (P : gmap N V -> Prop) B m cs : spec_always B P m cs -> P m.
Proof. by destruct cs; intros [? ?]. Qed.

Lemma dense_calls_ok ex t m cs : dense_inv D ex t m -> Forall dense_api cs ->
  (Exists is_remove cs -> 2 <= D) -> spec_always KB small32 m cs ->
  exists t' dr ex', dense_calls D t cs = Ok (t', spec_outs KB None m cs, dr) /\
    dr ≡ₚ spec_collect KB (spec_drop KB) m cs /\ dense_inv D ex' t' (spec_run KB m cs) /\
    (forall p, ex' p -> ex p \/ above 1 D (fun k => k ∈ spec_all_panicked KB m cs) p).
Proof.
  revert ex t m. induction cs as [|c cs IH]; intros ex t m Hi Hapi Hrm Hsz; cbn [dense_calls spec_outs spec_collect spec_run spec_all_panicked].
  - eauto 10.
  - inversion_clear Hapi as [|? ? Hc Hcs]. cbn [spec_always] in Hsz. destruct Hsz as [_ Hsz].
    destruct (dense_call_ok ex t m c Hi Hc) as (t1 & dr1 & ex1 & -> & Hd1 & Hi1 & Hq1).
    { intros Hr. apply Hrm. by left. }
    { by apply spec_always_head in Hsz. }
    rewrite bind_ok.
    destruct (IH ex1 t1 _ Hi1 Hcs) as (t2 & dr2 & ex2 & -> & Hd2 & Hi2 & Hq2); [|done|].
    { intros Hr. apply Hrm. by right. }
    rewrite bind_ok. exists t2, (dr1 ++ dr2), ex2. split; [done|]. split; [by rewrite Hd1, Hd2|]. split; [done|].
    intros p [Hp|Hp]%Hq2; [apply Hq1 in Hp as [Hp|Hp]; [by left|]|]; right; (eapply above_mono; [|exact Hp]); set_solver.
Qed.
End step.

(** every key of the specification map is in range *)
Lemma spec_map_bound {V} B (m : gmap N V) c : (forall k v, m !! k = Some v -> (k < B)%N) ->
  forall k v, spec_map B m c !! k = Some v -> (k < B)%N.
Proof.
  intros Hb k v. destruct c as [k' v'|k' dflt w|k'|k'|k' w|k'|f]; cbn [spec_map]; eauto.
  - destruct (N.ltb_spec k' B); eauto. rewrite lookup_insert_Some. naive_solver.
  - destruct (N.ltb_spec k' B); eauto. destruct (m !! k') eqn:?; [destruct w; cbn; eauto; rewrite lookup_insert_Some; naive_solver|].
    destruct dflt; eauto. destruct w; cbn [overwrite fst]; rewrite ?lookup_insert_Some; naive_solver.
  - destruct (N.ltb_spec k' B); eauto. rewrite lookup_delete_Some. naive_solver.
  - destruct (N.ltb_spec k' B); eauto. destruct (m !! k') eqn:?; [|eauto]. destruct w; cbn; eauto; rewrite lookup_insert_Some; naive_solver.
  - rewrite map_lookup_imap. destruct (m !! k) eqn:?; [eauto|done].
Qed.
Lemma spec_run_bound {V} B (m : gmap N V) cs : (forall k v, m !! k = Some v -> (k < B)%N) ->
  forall k v, spec_run B m cs !! k = Some v -> (k < B)%N.
Proof.
  revert m. induction cs as [|c cs IH]; intros m Hb; cbn [spec_run]; [done|]. apply IH. by apply spec_map_bound.
Qed.

(** what "this DenseTree was produced by the history [cs] of public calls" means *)
Definition dense_reached {V} (D : nat) (cs : list (call V)) (t : dense V) : Prop :=
  exists os dr, dense_run D cs = Ok (t, os, dr).
(** the side conditions of the theorems: the calls exist on DenseTree, the depth-1 tree is
    not asked to remove (finding C36), fewer than 2^32 elements at any time *)
Definition dense_legal {V} (D : nat) (cs : list (call V)) : Prop :=
  Forall dense_api cs /\ (Exists is_remove cs -> 2 <= D) /\
  spec_always (64 ^ N.of_nat D) small32 ∅ cs.

Lemma dense_run_ok {V} D (cs : list (call V)) : 1 <= D -> D <= 9 -> dense_legal D cs ->
  exists t dr ex, dense_run D cs = Ok (t, spec_outs (64 ^ N.of_nat D) None ∅ cs, dr) /\
    dr ≡ₚ spec_collect (64 ^ N.of_nat D) (spec_drop (64 ^ N.of_nat D)) ∅ cs /\
    dense_inv D ex t (spec_run (64 ^ N.of_nat D) ∅ cs) /\
    (forall p, ex p -> above 1 D (fun k => k ∈ spec_all_panicked (64 ^ N.of_nat D) ∅ cs) p).
Proof.
  intros HD0 HD (Hapi & Hrm & Hsz). unfold dense_run.
  destruct (dense_default_ok D HD0 HD V) as (t & -> & Hi). rewrite bind_ok. cbn beta iota.
  destruct (dense_calls_ok D HD0 HD nonep t ∅ cs Hi Hapi Hrm Hsz) as (t' & dr & ex & E & H1 & H2 & H3).
  exists t', dr, ex. split; [done|]. split; [done|]. split; [done|]. by intros p [[]|Hp]%H3.
Qed.
Lemma dense_reached_inv {V} D (cs : list (call V)) t : 1 <= D -> D <= 9 -> dense_legal D cs -> dense_reached D cs t ->
  exists ex, dense_inv D ex t (spec_run (64 ^ N.of_nat D) ∅ cs) /\
    (forall p, ex p -> above 1 D (fun k => k ∈ spec_all_panicked (64 ^ N.of_nat D) ∅ cs) p).
Proof.
  intros HD0 HD Hl (os & dr & Hr). destruct (dense_run_ok D cs HD0 HD Hl) as (t' & dr' & ex & Hr' & _ & Hi & Hex).
  rewrite Hr in Hr'. simplify_eq. eauto.
Qed.
