(** * The parallel `keys` / `values` vectors of SparseTree refine a finite map
    (generalises the corresponding part of DenseProofs to any width) *)
From Verif Require Import Base BitUtils BitUtilsProofs BitQueue LevelIndices LevelIndicesProofs
  ConstLoops Hierarchy Lawful Dense Sparse.

Section svec.
Context (nw D : nat) (B : N).
Hypothesis Hnw : nw_ok nw.
Hypothesis HD0 : 1 <= D.

(** number of keys *)
Definition SKB : N := (msize nw ^ N.of_nat D)%N.

Section svec1.
Context {V : Type} (first : option V).
(** ** the `keys` / `data` vectors *)
Record svec_ok (J : gmap (list N) N) (keys : list N) (data : list (option V)) (m : gmap N V) : Prop := SVecOk {
  sv_len : length data = length keys;
  sv_le : (N.of_nat (length keys) <= B)%N;
  sv_k0 : keys !! 0 = Some USIZE_MAX;
  sv_d0 : data !! 0 = Some first;
  sv_key : forall j k, 1 <= j -> keys !! j = Some k -> (k < SKB)%N;
  sv_J : forall q j, J !! q = Some j <-> path_ok nw D q /\ (1 <= j)%N /\ keys !! N.to_nat j = Some (key_of_path nw q);
  sv_data : forall j, 1 <= j -> j < length data -> exists v, data !! j = Some (Some v);
  sv_m : forall k v, m !! k = Some v <-> exists j, 1 <= j /\ keys !! j = Some k /\ data !! j = Some (Some v);
}.


Lemma skey_path k : (k < SKB)%N -> path_ok nw D (level_indices nw D k) /\ key_of_path nw (level_indices nw D k) = k.
Proof. intros Hk. by apply level_indices_ok. Qed.
Lemma skey_inj q1 q2 : path_ok nw D q1 -> path_ok nw D q2 -> key_of_path nw q1 = key_of_path nw q2 -> q1 = q2.
Proof.
  intros H1 H2 He. rewrite <- (level_indices_of_path nw D q1), <- (level_indices_of_path nw D q2) by (done || lia).
  by rewrite He.
Qed.

Section vec.
Context (J : gmap (list N) N) (keys : list N) (data : list (option V)) (m : gmap N V).
Hypothesis Hv : svec_ok J keys data m.

Lemma svec_pos : 0 < length keys.
Proof. eapply lookup_lt_Some, (sv_k0 _ _ _ _ Hv). Qed.
Lemma svec_J_data q j : J !! q = Some j -> exists v, data !! N.to_nat j = Some (Some v) /\ m !! key_of_path nw q = Some v.
Proof.
  intros Hj. apply (sv_J _ _ _ _ Hv) in Hj as (Hq & H1 & Hk).
  destruct (sv_data _ _ _ _ Hv (N.to_nat j)) as [v Hd]; [lia| |].
  - rewrite (sv_len _ _ _ _ Hv). by eapply lookup_lt_Some.
  - exists v. split; [done|]. apply (sv_m _ _ _ _ Hv). exists (N.to_nat j). split; [lia|done].
Qed.
Lemma svec_keys_inj j1 j2 k : 1 <= j1 -> 1 <= j2 -> keys !! j1 = Some k -> keys !! j2 = Some k -> j1 = j2.
Proof.
  intros H1 H2 K1 K2. pose proof (sv_key _ _ _ _ Hv _ _ H1 K1) as Hk. destruct (skey_path k Hk) as [Hp Hkp].
  assert (J !! level_indices nw D k = Some (N.of_nat j1)) as J1.
  { apply (sv_J _ _ _ _ Hv). rewrite Nat2N.id, Hkp. split_and!; [done|lia|done]. }
  assert (J !! level_indices nw D k = Some (N.of_nat j2)) as J2.
  { apply (sv_J _ _ _ _ Hv). rewrite Nat2N.id, Hkp. split_and!; [done|lia|done]. }
  rewrite J1 in J2. injection J2. lia.
Qed.
Lemma svec_m_J k : (k < SKB)%N -> is_Some (m !! k) <-> is_Some (J !! level_indices nw D k).
Proof.
  intros Hk. destruct (skey_path k Hk) as [Hp Hkp]. split.
  - intros [v Hm]. apply (sv_m _ _ _ _ Hv) in Hm as (j & Hj & Hkj & Hd). exists (N.of_nat j).
    apply (sv_J _ _ _ _ Hv). rewrite Nat2N.id, Hkp. split_and!; [done|lia|done].
  - intros [j Hj]. destruct (svec_J_data _ _ Hj) as (v & _ & Hm). rewrite Hkp in Hm. eauto.
Qed.
Lemma svec_bound k v : m !! k = Some v -> (k < SKB)%N.
Proof. intros Hm. apply (sv_m _ _ _ _ Hv) in Hm as (j & Hj & Hk & _). by eapply (sv_key _ _ _ _ Hv). Qed.

(** the vectors are the placeholder followed by the entries *)
Lemma sall_init_ok (l : list (option V)) : (forall j, j < length l -> exists v, l !! j = Some (Some v)) ->
  exists vs, all_init l = Ok vs /\ l = Some <$> vs.
Proof.
  induction l as [|o l IH]; intros H; [by exists []|]. destruct (H 0) as [v Ho]; [cbn; lia|]. cbn in Ho. injection Ho as ->.
  destruct IH as (vs & E & ->). { intros j Hj. apply (H (S j)). cbn. lia. }
  exists (v :: vs). cbn. by rewrite E.
Qed.
Lemma svec_entries : exists ks vs, keys = USIZE_MAX :: ks /\ data = first :: (Some <$> vs) /\ length ks = length vs /\
  all_init (drop 1 data) = Ok vs.
Proof.
  pose proof (sv_k0 _ _ _ _ Hv) as K0. pose proof (sv_d0 _ _ _ _ Hv) as D0. pose proof (sv_len _ _ _ _ Hv) as HL.
  pose proof (sv_data _ _ _ _ Hv) as Hd. clear Hv.
  destruct keys as [|k0 ks]; [done|]. destruct data as [|d0 ds]; [done|]. cbn in K0, D0, HL.
  injection K0 as ->. injection D0 as ->. destruct (sall_init_ok ds) as (vs & E & ->).
  { intros j Hj. destruct (Hd (S j)) as [v Hx]; [lia|cbn; lia|]. eauto. }
  exists ks, vs. split_and!; try done. rewrite fmap_length in HL. lia.
Qed.
Lemma svec_perm ks vs : keys = USIZE_MAX :: ks -> data = first :: (Some <$> vs) -> length ks = length vs ->
  map_to_list m ≡ₚ zip ks vs.
Proof.
  intros Ek Ed El. apply NoDup_Permutation.
  - apply NoDup_map_to_list.
  - apply NoDup_fmap_1 with fst. rewrite fst_zip by lia. apply NoDup_alt. intros i j k Hi Hj.
    assert (S i = S j) as E; [|lia]. eapply svec_keys_inj; [lia|lia| |]; rewrite Ek; [exact Hi|exact Hj].
  - intros [k v]. rewrite elem_of_map_to_list, (sv_m _ _ _ _ Hv), elem_of_list_lookup. rewrite Ek, Ed. split.
    + intros ([|j] & Hj & Hk & Hd); [lia|]. change (ks !! j = Some k) in Hk. change ((Some <$> vs) !! j = Some (Some v)) in Hd. exists j. apply lookup_zip_with_Some.
      rewrite list_lookup_fmap in Hd. destruct (vs !! j) as [v'|] eqn:E; [|done]. cbn in Hd. injection Hd as ->.
      eexists _, _. split_and!; [reflexivity|done|done].
    + intros (j & Hz). apply lookup_zip_with_Some in Hz as (k' & v' & [= <- <-] & Hk & Hd).
      exists (S j). split; [lia|]. change (ks !! j = Some k /\ (Some <$> vs) !! j = Some (Some v)).
      split; [done|]. by rewrite list_lookup_fmap, Hd.
Qed.
Lemma svec_size : length keys = S (size m).
Proof.
  destruct svec_entries as (ks & vs & Ek & Ed & El & _). pose proof (svec_perm _ _ Ek Ed El) as Hp.
  apply Permutation_length in Hp. rewrite zip_with_length_l in Hp by lia.
  unfold size, map_size. rewrite Hp, Ek. done.
Qed.

(** overwriting a value *)
Lemma svec_set j k v : 1 <= j -> keys !! j = Some k -> svec_ok J keys (<[j := Some v]> data) (<[k := v]> m).
Proof.
  intros Hj Hk. pose proof (lookup_lt_Some _ _ _ Hk) as Hlt.
  pose proof (sv_len _ _ _ _ Hv) as HL. pose proof svec_keys_inj as Hinj. destruct Hv as [H1 H2 H3 H4 H5 H6 H7 H8]. constructor; try done.
  - by rewrite insert_length.
  - by rewrite list_lookup_insert_ne by lia.
  - intros i Hi1 Hi2. rewrite insert_length in Hi2. destruct (decide (i = j)) as [->|Hne].
    + rewrite list_lookup_insert by lia. eauto.
    + rewrite list_lookup_insert_ne by done. by apply H7.
  - intros k' v'. destruct (decide (k' = k)) as [->|Hne].
    + rewrite lookup_insert. split.
      * intros [= <-]. exists j. rewrite list_lookup_insert by lia. done.
      * intros (i & Hi & Hki & Hdi). assert (i = j) as -> by (by eapply Hinj).
        rewrite list_lookup_insert in Hdi by lia. congruence.
    + rewrite lookup_insert_ne by done. rewrite H8. split; intros (i & Hi & Hki & Hdi); exists i;
        (split_and!; [done..|]).
      * rewrite list_lookup_insert_ne; [done|]. congruence.
      * rewrite list_lookup_insert_ne in Hdi; [done|]. congruence.
Qed.
(** adding an entry *)
Lemma svec_add k v : (k < SKB)%N -> m !! k = None -> (N.of_nat (length keys) < B)%N ->
  svec_ok (<[level_indices nw D k := N.of_nat (length data)]> J) (keys ++ [k]) (data ++ [Some v]) (<[k := v]> m).
Proof.
  intros Hk Hm Hlt. destruct (skey_path k Hk) as [Hq Hkq]. pose proof svec_pos as Hpos.
  assert (forall i x, (keys ++ [k]) !! i = Some x <-> keys !! i = Some x \/ i = length keys /\ x = k) as Hkeys.
  { intros i x. destruct (decide (i < length keys)).
    - rewrite lookup_app_l by done. split; [by left|]. intros [?|[-> _]]; [done|lia].
    - rewrite lookup_app_r by lia. destruct (decide (i = length keys)) as [->|].
      + rewrite Nat.sub_diag. cbn. split; [intros [= ->]; by right|]. intros [Hx|[_ ->]]; [|done].
        apply lookup_lt_Some in Hx. lia.
      + rewrite (lookup_ge_None_2 [k]) by (cbn; lia). split; [done|]. intros [Hx|[? _]]; [|lia].
        apply lookup_lt_Some in Hx. lia. }
  assert (m !! k = None -> forall i, 1 <= i -> keys !! i <> Some k) as Habs.
  { intros Hn i Hi Hki. destruct (sv_data _ _ _ _ Hv i Hi) as [w Hw].
    - rewrite (sv_len _ _ _ _ Hv). by eapply lookup_lt_Some.
    - assert (m !! k = Some w) by (apply (sv_m _ _ _ _ Hv); eauto). congruence. }
  specialize (Habs Hm). pose proof (sv_len _ _ _ _ Hv) as HL.
  constructor.
  - rewrite !app_length. cbn. lia.
  - rewrite app_length. cbn. lia.
  - rewrite lookup_app_l by lia. apply (sv_k0 _ _ _ _ Hv).
  - rewrite lookup_app_l by lia. apply (sv_d0 _ _ _ _ Hv).
  - intros j x Hj [Hx|[-> ->]]%Hkeys; [by eapply (sv_key _ _ _ _ Hv)|done].
  - intros q j. destruct (decide (q = level_indices nw D k)) as [->|Hne].
    + rewrite lookup_insert. rewrite Hkq. split.
      * intros [= <-]. split; [done|]. split; [lia|]. apply Hkeys. right. split; [lia|done].
      * intros (_ & H1 & [Hx|[Hx _]]%Hkeys); [by apply Habs in Hx; [|lia]|]. f_equal. lia.
    + rewrite lookup_insert_ne by done. rewrite (sv_J _ _ _ _ Hv). split; intros (A & Bz & C); (split; [done|]; split; [done|]).
      * apply Hkeys. by left.
      * apply Hkeys in C as [C|[_ C]]; [done|]. exfalso. apply Hne. apply skey_inj; [done..|]. by rewrite C.
  - intros j H1 H2. rewrite app_length in H2. cbn in H2. destruct (decide (j < length data)).
    + rewrite lookup_app_l by done. by apply (sv_data _ _ _ _ Hv).
    + rewrite lookup_app_r by lia. replace (j - length data) with 0 by lia. cbn. eauto.
  - intros k' v'. destruct (decide (k' = k)) as [->|Hne].
    + rewrite lookup_insert. split.
      * intros [= <-]. exists (length keys). split; [lia|]. split; [apply Hkeys; by right|].
        rewrite lookup_app_r by lia. by replace (length keys - length data) with 0 by lia.
      * intros (j & H1 & [Hx|[-> _]]%Hkeys & Hd); [by apply Habs in Hx|].
        rewrite lookup_app_r in Hd by lia. replace (length keys - length data) with 0 in Hd by lia. cbn in Hd. congruence.
    + rewrite lookup_insert_ne by done. rewrite (sv_m _ _ _ _ Hv). split.
      * intros (j & H1 & Hx & Hd). exists j. split; [done|]. split; [apply Hkeys; by left|].
        rewrite lookup_app_l; [done|]. by eapply lookup_lt_Some.
      * intros (j & H1 & [Hx|[_ ?]]%Hkeys & Hd); [|done]. exists j. split_and!; [done..|].
        rewrite lookup_app_l in Hd; [done|]. rewrite HL. by eapply lookup_lt_Some.
Qed.
(** swap-removing an entry *)
Lemma svec_remove q j keys' data' J' k lastk :
  J !! q = Some j -> k = key_of_path nw q -> keys !! (length keys - 1) = Some lastk ->
  length keys' = length keys - 1 -> length data' = length data - 1 ->
  (forall x, x < length keys - 1 -> keys' !! x = if decide (x = N.to_nat j) then Some lastk else keys !! x) ->
  (forall x, x < length keys - 1 -> data' !! x = if decide (x = N.to_nat j) then data !! (length data - 1) else data !! x) ->
  (forall r, J' !! r = if decide (r = q) then None else if decide (key_of_path nw r = lastk /\ path_ok nw D r) then Some j else J !! r) ->
  svec_ok J' keys' data' (delete k m).
Proof.
  intros Hj -> Hlast Lk Ld Hk' Hd' HJ'. pose proof svec_pos as Hpos. pose proof (sv_len _ _ _ _ Hv) as HL.
  pose proof svec_keys_inj as Hinj.
  pose proof Hj as Hj0. apply (sv_J _ _ _ _ Hv) in Hj as (Hq & Hj1 & Hkj). pose proof (lookup_lt_Some _ _ _ Hkj) as Hjlt.
  assert (1 <= length keys - 1) as Hge by lia.
  (* position correspondence *)
  assert (forall x y, 1 <= x -> (keys' !! x = Some y <-> 
     (exists z, 1 <= z /\ z <> N.to_nat j /\ keys !! z = Some y /\ x = if decide (z = length keys - 1) then N.to_nat j else z))) as Hcorr.
  { intros x y Hx. split.
    - intros Hy. pose proof (lookup_lt_Some _ _ _ Hy) as Hxl. rewrite Lk in Hxl. rewrite Hk' in Hy by lia.
      destruct (decide (x = N.to_nat j)) as [->|Hne].
      + injection Hy as <-. exists (length keys - 1). rewrite decide_True by done. split_and!; [lia|lia|done|done].
      + exists x. rewrite decide_False by lia. split_and!; done.
    - intros (z & Hz1 & Hz2 & Hz3 & ->). pose proof (lookup_lt_Some _ _ _ Hz3). destruct (decide (z = length keys - 1)) as [->|Hne].
      + rewrite Hk' by lia. rewrite decide_True by done. congruence.
      + rewrite Hk' by lia. rewrite decide_False by done. done. }
  assert (forall z, 1 <= z -> z <> N.to_nat j -> z < length keys ->
     data' !! (if decide (z = length keys - 1) then N.to_nat j else z) = data !! z) as Hdcorr.
  { intros z Hz1 Hz2 Hz3. destruct (decide (z = length keys - 1)) as [->|Hne].
    - rewrite Hd' by lia. rewrite decide_True by done. f_equal. lia.
    - rewrite Hd' by lia. by rewrite decide_False. }
  constructor.
  - lia.
  - rewrite Lk. pose proof (sv_le _ _ _ _ Hv). lia.
  - rewrite Hk' by lia. rewrite decide_False by lia. apply (sv_k0 _ _ _ _ Hv).
  - rewrite Hd' by lia. rewrite decide_False by lia. apply (sv_d0 _ _ _ _ Hv).
  - intros x y Hx Hy. apply Hcorr in Hy as (z & Hz1 & _ & Hz3 & _); [|done]. by eapply (sv_key _ _ _ _ Hv).
  - intros r x. rewrite HJ'. destruct (decide (r = q)) as [->|Hrq].
    { split; [done|]. intros (_ & Hx & Hy). apply Hcorr in Hy as (z & Hz1 & Hz2 & Hz3 & _); [|lia].
      exfalso. apply Hz2. eapply Hinj; [lia|lia|exact Hz3|exact Hkj]. }
    destruct (decide (key_of_path nw r = lastk /\ path_ok nw D r)) as [[Hrl Hrp]|Hrl].
    + split.
      * intros [= <-]. split; [done|]. split; [done|]. apply Hcorr; [lia|].
        exists (length keys - 1). rewrite decide_True by done. split_and!; [lia| |by rewrite Hrl|done].
        intros E. rewrite E, Hkj in Hlast. injection Hlast as E'. apply Hrq. apply skey_inj; [done..|]. congruence.
      * intros (_ & Hx & Hy). apply Hcorr in Hy as (z & Hz1 & Hz2 & Hz3 & E); [|lia].
        assert (z = length keys - 1) as -> by (eapply Hinj; [lia|lia|exact Hz3|]; by rewrite Hrl).
        rewrite decide_True in E by done. f_equal. lia.
    + rewrite (sv_J _ _ _ _ Hv). split.
      * intros (Hp & Hx & Hy). split; [done|]. split; [done|]. apply Hcorr; [lia|]. exists (N.to_nat x).
        rewrite decide_False; [|intros E; rewrite E, Hlast in Hy; injection Hy as Hy; by apply Hrl].
        split_and!; [lia| |done|done]. intros E. rewrite E, Hkj in Hy. injection Hy as Hy. apply Hrq. by apply skey_inj.
      * intros (Hp & Hx & Hy). split; [done|]. split; [done|]. apply Hcorr in Hy as (z & Hz1 & Hz2 & Hz3 & E); [|lia].
        destruct (decide (z = length keys - 1)) as [->|]; [|by rewrite E].
        exfalso. apply Hrl. split; [congruence|done].
  - intros x Hx1 Hx2. assert (exists y, keys' !! x = Some y) as [y Hy] by (apply lookup_lt_is_Some_2; lia).
    apply Hcorr in Hy as (z & Hz1 & Hz2 & Hz3 & ->); [|done]. pose proof (lookup_lt_Some _ _ _ Hz3).
    rewrite Hdcorr by done. apply (sv_data _ _ _ _ Hv); lia.
  - intros k v. rewrite lookup_delete_Some, (sv_m _ _ _ _ Hv). split.
    + intros (Hne & z & Hz1 & Hzk & Hzd). pose proof (lookup_lt_Some _ _ _ Hzk) as Hzl.
      assert (z <> N.to_nat j) as Hzj by (intros ->; congruence).
      exists (if decide (z = length keys - 1) then N.to_nat j else z).
      assert (1 <= if decide (z = length keys - 1) then N.to_nat j else z) by (destruct (decide _); lia).
      split; [done|]. split; [apply Hcorr; [done|]; exists z; done|]. by rewrite Hdcorr.
    + intros (x & Hx & Hk & Hd). apply Hcorr in Hk as (z & Hz1 & Hz2 & Hz3 & ->); [|done].
      pose proof (lookup_lt_Some _ _ _ Hz3) as Hzl. rewrite Hdcorr in Hd by done.
      split; [|by exists z]. intros <-. apply Hz2. eapply Hinj; [lia|lia|exact Hz3|exact Hkj].
Qed.
End vec.
End svec1.
End svec.
