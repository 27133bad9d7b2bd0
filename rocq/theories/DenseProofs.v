(** * DenseTree refines a finite map *)
From Verif Require Import Base BitUtils BitUtilsProofs BitQueue LevelIndices LevelIndicesProofs
  ConstLoops Hierarchy Lawful Dense DenseNode DenseShape.

(** the two extreme choices of "the paths at which there may be empty nodes" *)
Definition allp (p : list N) : Prop := True.
Definition nonep (p : list N) : Prop := False.

Section inv.
Context (D : nat).
Hypothesis HD0 : 1 <= D.
Hypothesis HD : D <= 9.

Lemma nw1 : nw_ok 1.
Proof. by left. Qed.
Hint Resolve nw1 : core.

Definition KB : N := (64 ^ N.of_nat D)%N.
Lemma KB_msize : KB = (msize 1 ^ N.of_nat D)%N.
Proof. reflexivity. Qed.
Lemma KB_lt : (KB < USIZE_MAX)%N.
Proof.
  unfold KB. apply (N.le_lt_trans _ (64 ^ 9)%N); [|reflexivity]. apply N.pow_le_mono_r; lia.
Qed.

(** ** the `keys` / `data` vectors *)
Record vec_ok {V : Type} (J : gmap (list N) N) (keys : list N) (data : list (option V)) (m : gmap N V) : Prop := VecOk {
  v_len : length data = length keys;
  v_le : (N.of_nat (length keys) <= 2 ^ 32)%N;
  v_k0 : keys !! 0 = Some USIZE_MAX;
  v_d0 : data !! 0 = Some None;
  v_key : forall j k, 1 <= j -> keys !! j = Some k -> (k < KB)%N;
  v_J : forall q j, J !! q = Some j <-> path_ok 1 D q /\ (1 <= j)%N /\ keys !! N.to_nat j = Some (key_of_path 1 q);
  v_data : forall j, 1 <= j -> j < length data -> exists v, data !! j = Some (Some v);
  v_m : forall k v, m !! k = Some v <-> exists j, 1 <= j /\ keys !! j = Some k /\ data !! j = Some (Some v);
}.

(** the representation invariant; [ex]: the paths at which there may be empty nodes *)
Definition dense_inv {V : Type} (ex : list N -> Prop) (t : dense V) (m : gmap N V) : Prop :=
  exists P J, shape D (d_heap t) (d_root t) P J None /\ vec_ok J (d_keys t) (d_data t) m /\
    exact D ex P J None.
Lemma dense_inv_mono {V} (ex ex' : list N -> Prop) (t : dense V) m : (forall p, ex p -> ex' p) ->
  dense_inv ex t m -> dense_inv ex' t m.
Proof. intros H (P & J & Sh & Hv & He). exists P, J. split; [done|]. split; [done|]. intros p Hp HP. destruct (He p Hp HP); auto. Qed.

Lemma key_path k : (k < KB)%N -> path_ok 1 D (level_indices 1 D k) /\ key_of_path 1 (level_indices 1 D k) = k.
Proof. intros Hk. by apply level_indices_ok. Qed.
Lemma key_inj q1 q2 : path_ok 1 D q1 -> path_ok 1 D q2 -> key_of_path 1 q1 = key_of_path 1 q2 -> q1 = q2.
Proof.
  intros H1 H2 He. rewrite <- (level_indices_of_path 1 D q1), <- (level_indices_of_path 1 D q2) by (done || lia).
  by rewrite He.
Qed.

Section vec.
Context {V : Type} (J : gmap (list N) N) (keys : list N) (data : list (option V)) (m : gmap N V).
Hypothesis Hv : vec_ok J keys data m.

Lemma vec_pos : 0 < length keys.
Proof. eapply lookup_lt_Some, (v_k0 _ _ _ _ Hv). Qed.
Lemma vec_J_data q j : J !! q = Some j -> exists v, data !! N.to_nat j = Some (Some v) /\ m !! key_of_path 1 q = Some v.
Proof.
  intros Hj. apply (v_J _ _ _ _ Hv) in Hj as (Hq & H1 & Hk).
  destruct (v_data _ _ _ _ Hv (N.to_nat j)) as [v Hd]; [lia| |].
  - rewrite (v_len _ _ _ _ Hv). by eapply lookup_lt_Some.
  - exists v. split; [done|]. apply (v_m _ _ _ _ Hv). exists (N.to_nat j). split; [lia|done].
Qed.
Lemma vec_keys_inj j1 j2 k : 1 <= j1 -> 1 <= j2 -> keys !! j1 = Some k -> keys !! j2 = Some k -> j1 = j2.
Proof.
  intros H1 H2 K1 K2. pose proof (v_key _ _ _ _ Hv _ _ H1 K1) as Hk. destruct (key_path k Hk) as [Hp Hkp].
  assert (J !! level_indices 1 D k = Some (N.of_nat j1)) as J1.
  { apply (v_J _ _ _ _ Hv). rewrite Nat2N.id, Hkp. split_and!; [done|lia|done]. }
  assert (J !! level_indices 1 D k = Some (N.of_nat j2)) as J2.
  { apply (v_J _ _ _ _ Hv). rewrite Nat2N.id, Hkp. split_and!; [done|lia|done]. }
  rewrite J1 in J2. injection J2. lia.
Qed.
Lemma vec_m_J k : (k < KB)%N -> is_Some (m !! k) <-> is_Some (J !! level_indices 1 D k).
Proof.
  intros Hk. destruct (key_path k Hk) as [Hp Hkp]. split.
  - intros [v Hm]. apply (v_m _ _ _ _ Hv) in Hm as (j & Hj & Hkj & Hd). exists (N.of_nat j).
    apply (v_J _ _ _ _ Hv). rewrite Nat2N.id, Hkp. split_and!; [done|lia|done].
  - intros [j Hj]. destruct (vec_J_data _ _ Hj) as (v & _ & Hm). rewrite Hkp in Hm. eauto.
Qed.
Lemma vec_bound k v : m !! k = Some v -> (k < KB)%N.
Proof. intros Hm. apply (v_m _ _ _ _ Hv) in Hm as (j & Hj & Hk & _). by eapply (v_key _ _ _ _ Hv). Qed.

(** the vectors are the placeholder followed by the entries *)
Lemma all_init_ok (l : list (option V)) : (forall j, j < length l -> exists v, l !! j = Some (Some v)) ->
  exists vs, all_init l = Ok vs /\ l = Some <$> vs.
Proof.
  induction l as [|o l IH]; intros H; [by exists []|]. destruct (H 0) as [v Ho]; [cbn; lia|]. cbn in Ho. injection Ho as ->.
  destruct IH as (vs & E & ->). { intros j Hj. apply (H (S j)). cbn. lia. }
  exists (v :: vs). cbn. by rewrite E.
Qed.
Lemma vec_entries : exists ks vs, keys = USIZE_MAX :: ks /\ data = None :: (Some <$> vs) /\ length ks = length vs /\
  all_init (drop 1 data) = Ok vs.
Proof.
  pose proof (v_k0 _ _ _ _ Hv) as K0. pose proof (v_d0 _ _ _ _ Hv) as D0. pose proof (v_len _ _ _ _ Hv) as HL.
  pose proof (v_data _ _ _ _ Hv) as Hd. clear Hv.
  destruct keys as [|k0 ks]; [done|]. destruct data as [|d0 ds]; [done|]. cbn in K0, D0, HL.
  injection K0 as ->. injection D0 as ->. destruct (all_init_ok ds) as (vs & E & ->).
  { intros j Hj. destruct (Hd (S j)) as [v Hx]; [lia|cbn; lia|]. eauto. }
  exists ks, vs. split_and!; try done. rewrite fmap_length in HL. lia.
Qed.
Lemma vec_perm ks vs : keys = USIZE_MAX :: ks -> data = None :: (Some <$> vs) -> length ks = length vs ->
  map_to_list m ≡ₚ zip ks vs.
Proof.
  intros Ek Ed El. apply NoDup_Permutation.
  - apply NoDup_map_to_list.
  - apply NoDup_fmap_1 with fst. rewrite fst_zip by lia. apply NoDup_alt. intros i j k Hi Hj.
    assert (S i = S j) as E; [|lia]. eapply vec_keys_inj; [lia|lia| |]; rewrite Ek; [exact Hi|exact Hj].
  - intros [k v]. rewrite elem_of_map_to_list, (v_m _ _ _ _ Hv), elem_of_list_lookup. rewrite Ek, Ed. split.
    + intros ([|j] & Hj & Hk & Hd); [lia|]. change (ks !! j = Some k) in Hk. change ((Some <$> vs) !! j = Some (Some v)) in Hd. exists j. apply lookup_zip_with_Some.
      rewrite list_lookup_fmap in Hd. destruct (vs !! j) as [v'|] eqn:E; [|done]. cbn in Hd. injection Hd as ->.
      eexists _, _. split_and!; [reflexivity|done|done].
    + intros (j & Hz). apply lookup_zip_with_Some in Hz as (k' & v' & [= <- <-] & Hk & Hd).
      exists (S j). split; [lia|]. change (ks !! j = Some k /\ (Some <$> vs) !! j = Some (Some v)).
      split; [done|]. by rewrite list_lookup_fmap, Hd.
Qed.
Lemma vec_size : length keys = S (size m).
Proof.
  destruct vec_entries as (ks & vs & Ek & Ed & El & _). pose proof (vec_perm _ _ Ek Ed El) as Hp.
  apply Permutation_length in Hp. rewrite zip_with_length_l in Hp by lia.
  unfold size, map_size. rewrite Hp, Ek. done.
Qed.

(** a data index found by walking to an absent key belongs to another key *)
Lemma vec_any_absent q j : path_ok 1 D q -> J !! q = None -> (j = 0%N \/ exists q', J !! q' = Some j) ->
  exists k, keys !! N.to_nat j = Some k /\ k <> key_of_path 1 q.
Proof.
  intros Hq Hnone [->|[q' Hj]].
  - exists USIZE_MAX. split; [exact (v_k0 _ _ _ _ Hv)|]. pose proof KB_lt.
    pose proof (path_ok_bound 1 D q nw1 Hq) as Hb. rewrite <- KB_msize in Hb. lia.
  - pose proof Hj as Hj0. apply (v_J _ _ _ _ Hv) in Hj as (Hq' & _ & Hk). eexists. split; [exact Hk|]. intros E.
    apply key_inj in E; [|done..]. congruence.
Qed.

(** overwriting a value *)
Lemma vec_set j k v : 1 <= j -> keys !! j = Some k -> vec_ok J keys (<[j := Some v]> data) (<[k := v]> m).
Proof.
  intros Hj Hk. pose proof (lookup_lt_Some _ _ _ Hk) as Hlt.
  pose proof (v_len _ _ _ _ Hv) as HL. pose proof vec_keys_inj as Hinj. destruct Hv as [H1 H2 H3 H4 H5 H6 H7 H8]. constructor; try done.
  - by rewrite insert_length.
  - by rewrite list_lookup_insert_ne by lia.
  - intros i Hi1 Hi2. rewrite insert_length in Hi2. destruct (decide (i = j)) as [->|Hne].
    + rewrite list_lookup_insert by lia. eauto.
    + rewrite list_lookup_insert_ne by done. by apply H7.
  - intros k' v'. destruct (decide (k' = k)) as [->|Hne].
    + rewrite lookup_insert. split.
      * intros [= <-]. exists j. rewrite list_lookup_insert by lia. done.
      * intros (i & Hi & Hki & Hdi). assert (i = j) as -> by (by eapply Hinj).
        rewrite list_lookup_insert in Hdi by lia. congruence.
    + rewrite lookup_insert_ne by done. rewrite H8. split; intros (i & Hi & Hki & Hdi); exists i;
        (split_and!; [done..|]).
      * rewrite list_lookup_insert_ne; [done|]. congruence.
      * rewrite list_lookup_insert_ne in Hdi; [done|]. congruence.
Qed.
(** adding an entry *)
Lemma vec_add k v : (k < KB)%N -> m !! k = None -> (N.of_nat (length keys) < 2 ^ 32)%N ->
  vec_ok (<[level_indices 1 D k := N.of_nat (length data)]> J) (keys ++ [k]) (data ++ [Some v]) (<[k := v]> m).
Proof.
  intros Hk Hm Hlt. destruct (key_path k Hk) as [Hq Hkq]. pose proof vec_pos as Hpos.
  assert (forall i x, (keys ++ [k]) !! i = Some x <-> keys !! i = Some x \/ i = length keys /\ x = k) as Hkeys.
  { intros i x. destruct (decide (i < length keys)).
    - rewrite lookup_app_l by done. split; [by left|]. intros [?|[-> _]]; [done|lia].
    - rewrite lookup_app_r by lia. destruct (decide (i = length keys)) as [->|].
      + rewrite Nat.sub_diag. cbn. split; [intros [= ->]; by right|]. intros [Hx|[_ ->]]; [|done].
        apply lookup_lt_Some in Hx. lia.
      + rewrite (lookup_ge_None_2 [k]) by (cbn; lia). split; [done|]. intros [Hx|[? _]]; [|lia].
        apply lookup_lt_Some in Hx. lia. }
  assert (m !! k = None -> forall i, 1 <= i -> keys !! i <> Some k) as Habs.
  { intros Hn i Hi Hki. destruct (v_data _ _ _ _ Hv i Hi) as [w Hw].
    - rewrite (v_len _ _ _ _ Hv). by eapply lookup_lt_Some.
    - assert (m !! k = Some w) by (apply (v_m _ _ _ _ Hv); eauto). congruence. }
  specialize (Habs Hm). pose proof (v_len _ _ _ _ Hv) as HL.
  constructor.
  - rewrite !app_length. cbn. lia.
  - rewrite app_length. cbn. lia.
  - rewrite lookup_app_l by lia. apply (v_k0 _ _ _ _ Hv).
  - rewrite lookup_app_l by lia. apply (v_d0 _ _ _ _ Hv).
  - intros j x Hj [Hx|[-> ->]]%Hkeys; [by eapply (v_key _ _ _ _ Hv)|done].
  - intros q j. destruct (decide (q = level_indices 1 D k)) as [->|Hne].
    + rewrite lookup_insert. rewrite Hkq. split.
      * intros [= <-]. split; [done|]. split; [lia|]. apply Hkeys. right. split; [lia|done].
      * intros (_ & H1 & [Hx|[Hx _]]%Hkeys); [by apply Habs in Hx; [|lia]|]. f_equal. lia.
    + rewrite lookup_insert_ne by done. rewrite (v_J _ _ _ _ Hv). split; intros (A & B & C); (split; [done|]; split; [done|]).
      * apply Hkeys. by left.
      * apply Hkeys in C as [C|[_ C]]; [done|]. exfalso. apply Hne. apply key_inj; [done..|]. by rewrite C.
  - intros j H1 H2. rewrite app_length in H2. cbn in H2. destruct (decide (j < length data)).
    + rewrite lookup_app_l by done. by apply (v_data _ _ _ _ Hv).
    + rewrite lookup_app_r by lia. replace (j - length data) with 0 by lia. cbn. eauto.
  - intros k' v'. destruct (decide (k' = k)) as [->|Hne].
    + rewrite lookup_insert. split.
      * intros [= <-]. exists (length keys). split; [lia|]. split; [apply Hkeys; by right|].
        rewrite lookup_app_r by lia. by replace (length keys - length data) with 0 by lia.
      * intros (j & H1 & [Hx|[-> _]]%Hkeys & Hd); [by apply Habs in Hx|].
        rewrite lookup_app_r in Hd by lia. replace (length keys - length data) with 0 in Hd by lia. cbn in Hd. congruence.
    + rewrite lookup_insert_ne by done. rewrite (v_m _ _ _ _ Hv). split.
      * intros (j & H1 & Hx & Hd). exists j. split; [done|]. split; [apply Hkeys; by left|].
        rewrite lookup_app_l; [done|]. by eapply lookup_lt_Some.
      * intros (j & H1 & [Hx|[_ ?]]%Hkeys & Hd); [|done]. exists j. split_and!; [done..|].
        rewrite lookup_app_l in Hd; [done|]. rewrite HL. by eapply lookup_lt_Some.
Qed.
(** swap-removing an entry *)
Lemma vec_remove q j keys' data' J' k lastk :
  J !! q = Some j -> k = key_of_path 1 q -> keys !! (length keys - 1) = Some lastk ->
  length keys' = length keys - 1 -> length data' = length data - 1 ->
  (forall x, x < length keys - 1 -> keys' !! x = if decide (x = N.to_nat j) then Some lastk else keys !! x) ->
  (forall x, x < length keys - 1 -> data' !! x = if decide (x = N.to_nat j) then data !! (length data - 1) else data !! x) ->
  (forall r, J' !! r = if decide (r = q) then None else if decide (key_of_path 1 r = lastk /\ path_ok 1 D r) then Some j else J !! r) ->
  vec_ok J' keys' data' (delete k m).
Proof.
  intros Hj -> Hlast Lk Ld Hk' Hd' HJ'. pose proof vec_pos as Hpos. pose proof (v_len _ _ _ _ Hv) as HL.
  pose proof vec_keys_inj as Hinj.
  pose proof Hj as Hj0. apply (v_J _ _ _ _ Hv) in Hj as (Hq & Hj1 & Hkj). pose proof (lookup_lt_Some _ _ _ Hkj) as Hjlt.
  assert (1 <= length keys - 1) as Hge by lia.
  (* position correspondence *)
  assert (forall x y, 1 <= x -> (keys' !! x = Some y <-> 
     (exists z, 1 <= z /\ z <> N.to_nat j /\ keys !! z = Some y /\ x = if decide (z = length keys - 1) then N.to_nat j else z))) as Hcorr.
  { intros x y Hx. split.
    - intros Hy. pose proof (lookup_lt_Some _ _ _ Hy) as Hxl. rewrite Lk in Hxl. rewrite Hk' in Hy by lia.
      destruct (decide (x = N.to_nat j)) as [->|Hne].
      + injection Hy as <-. exists (length keys - 1). rewrite decide_True by done. split_and!; [lia|lia|done|done].
      + exists x. rewrite decide_False by lia. split_and!; done.
    - intros (z & Hz1 & Hz2 & Hz3 & ->). pose proof (lookup_lt_Some _ _ _ Hz3). destruct (decide (z = length keys - 1)) as [->|Hne].
      + rewrite Hk' by lia. rewrite decide_True by done. congruence.
      + rewrite Hk' by lia. rewrite decide_False by done. done. }
  assert (forall z, 1 <= z -> z <> N.to_nat j -> z < length keys ->
     data' !! (if decide (z = length keys - 1) then N.to_nat j else z) = data !! z) as Hdcorr.
  { intros z Hz1 Hz2 Hz3. destruct (decide (z = length keys - 1)) as [->|Hne].
    - rewrite Hd' by lia. rewrite decide_True by done. f_equal. lia.
    - rewrite Hd' by lia. by rewrite decide_False. }
  constructor.
  - lia.
  - rewrite Lk. pose proof (v_le _ _ _ _ Hv). lia.
  - rewrite Hk' by lia. rewrite decide_False by lia. apply (v_k0 _ _ _ _ Hv).
  - rewrite Hd' by lia. rewrite decide_False by lia. apply (v_d0 _ _ _ _ Hv).
  - intros x y Hx Hy. apply Hcorr in Hy as (z & Hz1 & _ & Hz3 & _); [|done]. by eapply (v_key _ _ _ _ Hv).
  - intros r x. rewrite HJ'. destruct (decide (r = q)) as [->|Hrq].
    { split; [done|]. intros (_ & Hx & Hy). apply Hcorr in Hy as (z & Hz1 & Hz2 & Hz3 & _); [|lia].
      exfalso. apply Hz2. eapply Hinj; [lia|lia|exact Hz3|exact Hkj]. }
    destruct (decide (key_of_path 1 r = lastk /\ path_ok 1 D r)) as [[Hrl Hrp]|Hrl].
    + split.
      * intros [= <-]. split; [done|]. split; [done|]. apply Hcorr; [lia|].
        exists (length keys - 1). rewrite decide_True by done. split_and!; [lia| |by rewrite Hrl|done].
        intros E. rewrite E, Hkj in Hlast. injection Hlast as E'. apply Hrq. apply key_inj; [done..|]. congruence.
      * intros (_ & Hx & Hy). apply Hcorr in Hy as (z & Hz1 & Hz2 & Hz3 & E); [|lia].
        assert (z = length keys - 1) as -> by (eapply Hinj; [lia|lia|exact Hz3|]; by rewrite Hrl).
        rewrite decide_True in E by done. f_equal. lia.
    + rewrite (v_J _ _ _ _ Hv). split.
      * intros (Hp & Hx & Hy). split; [done|]. split; [done|]. apply Hcorr; [lia|]. exists (N.to_nat x).
        rewrite decide_False; [|intros E; rewrite E, Hlast in Hy; injection Hy as Hy; by apply Hrl].
        split_and!; [lia| |done|done]. intros E. rewrite E, Hkj in Hy. injection Hy as Hy. apply Hrq. by apply key_inj.
      * intros (Hp & Hx & Hy). split; [done|]. split; [done|]. apply Hcorr in Hy as (z & Hz1 & Hz2 & Hz3 & E); [|lia].
        destruct (decide (z = length keys - 1)) as [->|]; [|by rewrite E].
        exfalso. apply Hrl. split; [congruence|done].
  - intros x Hx1 Hx2. assert (exists y, keys' !! x = Some y) as [y Hy] by (apply lookup_lt_is_Some_2; lia).
    apply Hcorr in Hy as (z & Hz1 & Hz2 & Hz3 & ->); [|done]. pose proof (lookup_lt_Some _ _ _ Hz3).
    rewrite Hdcorr by done. apply (v_data _ _ _ _ Hv); lia.
  - intros k v. rewrite lookup_delete_Some, (v_m _ _ _ _ Hv). split.
    + intros (Hne & z & Hz1 & Hzk & Hzd). pose proof (lookup_lt_Some _ _ _ Hzk) as Hzl.
      assert (z <> N.to_nat j) as Hzj by (intros ->; congruence).
      exists (if decide (z = length keys - 1) then N.to_nat j else z).
      assert (1 <= if decide (z = length keys - 1) then N.to_nat j else z) by (destruct (decide _); lia).
      split; [done|]. split; [apply Hcorr; [done|]; exists z; done|]. by rewrite Hdcorr.
    + intros (x & Hx & Hk & Hd). apply Hcorr in Hk as (z & Hz1 & Hz2 & Hz3 & ->); [|done].
      pose proof (lookup_lt_Some _ _ _ Hz3) as Hzl. rewrite Hdcorr in Hd by done.
      split; [|by exists z]. intros <-. apply Hz2. eapply Hinj; [lia|lia|exact Hz3|exact Hkj].
Qed.
End vec.

(** ** Structural steps of remove *)
Lemma shape_inplace h root P J X J' X' p a n' : shape D h root P J X -> P !! p = Some a ->
  n_kind n' = kind_at D (length p) -> node_rep n' (childs D P J' X' p) (empty_at D (length p)) ->
  (forall r j, r <> p -> childs D P J X r j = childs D P J' X' r j) ->
  (forall q j, J' !! q = Some j -> path_ok 1 D q /\ exists p i, q = p ++ [i] /\ is_Some (P !! p)) ->
  shape D (Heap (<[a := n']> (h_nodes h)) (h_next h)) root P J' X'.
Proof.
  intros Sh Ha Hk Hr Hother HJ. destruct (sh_node _ _ _ _ _ _ Sh _ _ Ha) as (n0 & Hn0 & _).
  constructor; cbn [h_nodes h_next].
  - exact (sh_root _ _ _ _ _ _ Sh).
  - intros b. cbn [h_nodes h_next]. rewrite lookup_insert_is_Some. intros [<-|[_ Hb]]; apply (sh_heap _ _ _ _ _ _ Sh); eauto.
  - intros r b Hb. destruct (decide (r = p)) as [->|Hne].
    + rewrite Ha in Hb. injection Hb as <-. rewrite lookup_insert. eauto.
    + destruct (sh_node _ _ _ _ _ _ Sh _ _ Hb) as (n & Hn & Hk' & Hr').
      rewrite lookup_insert_ne by (intros <-; apply Hne; by eapply (sh_inj _ _ _ _ _ _ Sh)).
      exists n. split_and!; [done..|]. eapply node_rep_ext; [|exact Hr']. intros j. by apply Hother.
  - exact (sh_inj _ _ _ _ _ _ Sh).
  - exact (sh_path _ _ _ _ _ _ Sh).
  - exact (sh_parent _ _ _ _ _ _ Sh).
  - exact HJ.
  - intros b. rewrite lookup_insert_is_Some. intros [<-|[_ Hb]]; [eauto|]. by apply (sh_dom _ _ _ _ _ _ Sh).
Qed.

(** freeing a node without children leaves a stale pointer in its parent *)
Lemma shape_free h root P J p i a : shape D h root P J None -> P !! (p ++ [i]) = Some a ->
  (forall j, childs D P J None (p ++ [i]) j = None) ->
  shape D (Heap (delete a (h_nodes h)) (h_next h)) root (delete (p ++ [i]) P) J
    (Some (p ++ [i], Some (SPtr (PHeap a)))).
Proof.
  intros Sh Ha Hc. destruct (sh_path _ _ _ _ _ _ Sh _ _ Ha) as [Hpath Hlen].
  constructor; cbn [h_nodes h_next].
  - destruct (sh_root _ _ _ _ _ _ Sh) as (ar & -> & Har). exists ar. split; [done|].
    rewrite lookup_delete_ne; [done|]. intros E. by apply app_nil in E as [_ ?].
  - intros b. cbn [h_nodes h_next]. rewrite lookup_delete_is_Some. intros [_ Hb]. by apply (sh_heap _ _ _ _ _ _ Sh).
  - intros r b [Hne Hb]%lookup_delete_Some. destruct (sh_node _ _ _ _ _ _ Sh _ _ Hb) as (n & Hn & Hk & Hr).
    exists n. rewrite lookup_delete_ne by (intros <-; apply Hne; by eapply (sh_inj _ _ _ _ _ _ Sh)).
    split_and!; [done..|]. eapply node_rep_ext; [|exact Hr]. intros j. cbn.
    destruct (decide (r ++ [j] = p ++ [i])) as [E|E].
    + unfold childs0. rewrite app_length in Hlen. cbn in Hlen. pose proof (app_one_inj _ _ _ _ E) as [-> ->].
      rewrite decide_True by lia. by rewrite Ha.
    + unfold childs0. by rewrite lookup_delete_ne.
  - intros r s b [_ H1]%lookup_delete_Some [_ H2]%lookup_delete_Some. by eapply (sh_inj _ _ _ _ _ _ Sh).
  - intros r b [_ H1]%lookup_delete_Some. by eapply (sh_path _ _ _ _ _ _ Sh).
  - intros r j b [_ Hb]%lookup_delete_Some. apply lookup_delete_is_Some. split; [|by eapply (sh_parent _ _ _ _ _ _ Sh)].
    intros <-. specialize (Hc j). cbn in Hc. unfold childs0 in Hc. rewrite Hb in Hc. rewrite decide_True in Hc; [done|].
    destruct (sh_path _ _ _ _ _ _ Sh _ _ Hb) as [_ Hl]. rewrite app_length in Hl. cbn in Hl. lia.
  - intros q j Hj. destruct (sh_jpath _ _ _ _ _ _ Sh _ _ Hj) as (Hq & r & k & -> & Hr). split; [done|].
    exists r, k. split; [done|]. apply lookup_delete_is_Some. split; [|done].
    intros <-. specialize (Hc k). cbn in Hc. unfold childs0 in Hc. rewrite Hj in Hc. rewrite decide_False in Hc; [done|].
    destruct Hq as [Hq _]. rewrite app_length in Hq. cbn in Hq. lia.
  - intros b [Hne Hb]%lookup_delete_is_Some. destruct (sh_dom _ _ _ _ _ _ Sh _ Hb) as [r Hr]. exists r.
    rewrite lookup_delete_ne; [done|]. intros <-. congruence.
Qed.

(** removing the pointer/index [i] from node [p] *)
Lemma shape_unlink h root P J X J' X' p a i s : shape D h root P J X -> P !! p = Some a ->
  childs D P J X p i = Some s ->
  (forall r j, childs D P J' X' r j = if decide (r = p /\ j = i) then None else childs D P J X r j) ->
  (forall q j, J' !! q = Some j -> path_ok 1 D q /\ exists p i, q = p ++ [i] /\ is_Some (P !! p)) ->
  exists h' n', node_remove (kind_at D (length p)) h (PHeap a) i = Ok h' /\ shape D h' root P J' X' /\
    h_nodes h' !! a = Some n' /\ node_rep n' (childs D P J' X' p) (empty_at D (length p)) /\
    n_kind n' = kind_at D (length p).
Proof.
  intros Sh Ha Hc Hchilds HJ. destruct (sh_node _ _ _ _ _ _ Sh _ _ Ha) as (n & Hn & Hk & Hr).
  destruct (node_remove_ok _ _ _ _ _ _ _ _ Hn Hr Hk Hc) as (n' & -> & Hr' & Hk').
  assert (node_rep n' (childs D P J' X' p) (empty_at D (length p))) as Hrep.
  { eapply node_rep_ext; [|exact Hr']. intros j. rewrite Hchilds. unfold fn_upd. destruct (N.eqb_spec j i) as [->|Hne].
    - by rewrite decide_True.
    - rewrite decide_False; [done|]. by intros [_ ?]. }
  eexists _, n'. split; [done|]. split; [|split; [|split]].
  - eapply shape_inplace; [exact Sh|exact Ha|done|done| |done]. intros r j Hne. rewrite Hchilds.
    rewrite decide_False; [done|]. by intros [? _].
  - cbn [h_nodes]. by rewrite lookup_insert.
  - done.
  - done.
Qed.

Lemma node_len_ok h a n : h_nodes h !! a = Some n -> node_len h (PHeap a) = Ok (n_len n).
Proof. intros Hn. unfold node_len. by rewrite (hread_heap _ _ _ Hn). Qed.

Lemma seq_rev_S n : rev (seq 0 (S n)) = n :: rev (seq 0 n).
Proof. rewrite seq_S, rev_app_distr. done. Qed.

(** the climbing loop *)
Lemma climb_ok q branch N0 h root P J s : path_ok 1 D q -> S N0 < D ->
  shape D h root P J (Some (take (S N0) q, Some s)) -> P !! take (S N0) q = None ->
  (forall m, m < N0 -> exists b, branch !! m = Some (PHeap b) /\ P !! take (S m) q = Some b) ->
  is_Some (P !! take N0 q) ->
  exists h' o P', visit_list (rev (seq 0 (S N0))) (remove_climb_body root branch q) h = Ok (h', o) /\
    shape D h' root P' J None /\
    (forall r a, P' !! r = Some a -> P !! r = Some a) /\
    (forall R, exact D R P J (Some (take (S N0) q, Some s)) -> exact D R P' J None).
Proof.
  intros Hq. revert h P s. induction N0 as [|N0 IH]; intros h P s HN Sh HP Hbr [a Ha].
  all: destruct Hq as [Hqlen Hqf].
  all: rewrite seq_rev_S; cbn [visit_list].
  - (* root *)
    destruct (lookup_lt_is_Some_2 q 0 ltac:(lia)) as [i Hi].
    unfold remove_climb_body at 1. rewrite decide_True by done. rewrite bind_ok. unfold get_c. rewrite Hi, bind_ok.
    destruct (sh_root _ _ _ _ _ _ Sh) as (ar & -> & Har). change (take 0 q) with (@nil N) in Ha. rewrite Har in Ha. injection Ha as <-.
    rewrite (take_snoc q 0 i Hi) in *. change (take 0 q ++ [i]) with [i] in *.
    destruct (shape_unlink _ _ _ _ _ J None [] ar i s Sh Har) as (h' & n' & Hrem & Sh' & Hn' & Hr' & Hk').
    + cbn. by rewrite decide_True.
    + intros r j. cbn. destruct (decide (r = [] /\ j = i)) as [[-> ->]|Hne].
      * unfold childs0. cbn [length app]. rewrite decide_True by lia. by rewrite HP.
      * rewrite decide_False; [done|]. intros E. apply Hne. destruct r; [by injection E as ->|].
        injection E as -> E. by apply app_nil in E as [_ ?].
    + exact (sh_jpath _ _ _ _ _ _ Sh).
    + unfold kind_at in Hrem. rewrite decide_True in Hrem by (cbn; lia). rewrite Hrem, bind_ok.
      rewrite (node_len_ok _ _ _ Hn'), bind_ok.
      assert (forall R, exact D R P J (Some ([i], Some s)) -> exact D R P J None) as Hex.
      { intros R He p Hp HPp. destruct (He p Hp HPp) as [HR|[j Hj]]; [by left|right]. exists j. cbn in *.
        rewrite decide_False in Hj; [done|]. intros E. apply Hp. destruct p as [|x p]; [done|]. injection E as _ E.
        by apply app_nil in E as [_ ?]. }
      destruct (decide (n_len n' <> 1)).
      * rewrite bind_ok. eexists _, _, P. split; [reflexivity|]. split_and!; done.
      * rewrite decide_False by (intros ?; done). rewrite bind_ok. cbn [visit_list].
        eexists _, _, P. split; [reflexivity|]. split_and!; done.
  - destruct (lookup_lt_is_Some_2 q (S N0) ltac:(lia)) as [i Hi].
    destruct (lookup_lt_is_Some_2 q N0 ltac:(lia)) as [i0 Hi0].
    destruct (Hbr N0 ltac:(lia)) as (b & Hb & HPb). rewrite Ha in HPb. injection HPb as <-.
    unfold remove_climb_body at 1. rewrite decide_False by lia. unfold get_c at 1.
    replace (S N0 - 1) with N0 by lia. rewrite Hb, bind_ok. unfold get_c. rewrite Hi, bind_ok.
    assert (length (take (S N0) q) = S N0) as Hl1 by (rewrite take_length; lia).
    rewrite (take_snoc q (S N0) i Hi) in *. set (p := take (S N0) q) in *.
    destruct (shape_unlink _ _ _ _ _ J None p a i s Sh Ha) as (h' & n' & Hrem & Sh' & Hn' & Hr' & Hk').
    + cbn. by rewrite decide_True.
    + intros r j. cbn. destruct (decide (r = p /\ j = i)) as [[-> ->]|Hne].
      * unfold childs0. rewrite decide_True by lia. by rewrite HP.
      * rewrite decide_False; [done|]. intros E. by apply app_one_inj in E.
    + exact (sh_jpath _ _ _ _ _ _ Sh).
    + assert (kind_at D (length p) = KPtr) as Hkp by (unfold kind_at; by rewrite decide_True by lia).
      rewrite Hkp in Hrem, Hk'. rewrite Hrem, bind_ok. rewrite (node_len_ok _ _ _ Hn'), bind_ok.
      assert (forall R r, r <> p -> exact D R P J (Some (p ++ [i], Some s)) -> r <> [] -> is_Some (P !! r) -> R r \/ exists j, is_Some (childs D P J None r j)) as Hex.
      { intros R r Hrp He Hr HPr. destruct (He r Hr HPr) as [HR|[j Hj]]; [by left|right]. exists j. cbn in *.
        rewrite decide_False in Hj; [done|]. intros E. by apply app_one_inj in E as [? _]. }
      destruct (decide (n_len n' <> 1)) as [Hl|Hl].
      * rewrite bind_ok. eexists _, _, P. split; [reflexivity|]. split_and!; [done..|].
        intros R He r Hr HPr. destruct (decide (r = p)) as [->|Hrp]; [|by eapply Hex].
        right. by apply (nr_len_not1 _ _ _ Hr').
      * assert (n_len n' = 1) as Hl' by lia. rewrite decide_True by done.
        rewrite (drop_node_ok _ _ _ _ _ _ Hn' Hr' Hk'), bind_ok, bind_ok.
        pose proof (proj1 (nr_len_1 _ _ _ Hr') Hl') as Hnone.
        assert (p = take N0 q ++ [i0]) as Hp by (unfold p; by apply take_snoc).
        assert (p = take (S N0) q) as Hp2 by done. clearbody p.
        rewrite Hp in Ha, Hnone.
        pose proof (shape_free _ _ _ _ _ _ _ Sh' Ha Hnone) as Sh2. rewrite <- Hp in Sh2, Ha, Hnone.
        destruct (IH (Heap (delete a (h_nodes h')) (h_next h')) (delete p P) (SPtr (PHeap a))) as (h3 & o & P3 & Hv & Sh3 & Hsub & Hex3).
        -- lia.
        -- exact Sh2.
        -- apply lookup_delete.
        -- intros m Hm. destruct (Hbr m ltac:(lia)) as (c & Hc & HPc). exists c. split; [done|].
           rewrite lookup_delete_ne; [done|]. intros E. apply (f_equal length) in E. rewrite Hp2 in E.
           rewrite !take_length in E. lia.
        -- apply lookup_delete_is_Some. split.
           ++ intros E. apply (f_equal length) in E. rewrite Hp2 in E. rewrite !take_length in E. lia.
           ++ eapply (sh_parent _ _ _ _ _ _ Sh' _ i0 a). by rewrite <- Hp.
        -- eexists _, _, P3. split; [exact Hv|]. split; [done|]. split.
           ++ intros r c Hc. apply Hsub in Hc. by apply lookup_delete_Some in Hc as [_ ?].
           ++ intros R He. apply Hex3. intros r Hr [Hrp HPr]%lookup_delete_is_Some.
              destruct (Hex R r ltac:(done) He Hr HPr) as [HR|[j Hj]]; [by left|right]. exists j. cbn in *.
              destruct (decide (r ++ [j] = p)); [eauto|]. unfold childs0 in *. by rewrite lookup_delete_ne.
Qed.

(** ** default *)
Lemma childs_empty P p i X : (forall r j, P !! (r ++ [j]) = None) -> (X : override) = None ->
  childs D P ∅ X p i = None.
Proof.
  intros HP ->. cbn. unfold childs0. destruct (decide _); [by rewrite HP|by rewrite lookup_empty].
Qed.
Lemma dense_default_ok V : exists t, dense_default V D = Ok t /\ dense_inv nonep t ∅.
Proof.
  assert (exists h, (if decide (D = 1) then node_new KIdx heap_empty DEFAULT_CAP (SIdx 0)
    else let* e := empty_node 1 D in node_new KPtr heap_empty DEFAULT_CAP (SPtr e)) = Ok (h, PHeap 0) /\
    h = Heap (<[0%N := Node (kind_at D 0) 0 DEFAULT_CAP 1 [empty_at D 0; SUninit]]> ∅) 1) as (h & Hh & ->).
  { eexists. split; [|reflexivity]. unfold kind_at, empty_at. destruct (decide (D = 1)) as [->|Hne].
    - rewrite !decide_False by lia. reflexivity.
    - rewrite !decide_True by lia. unfold empty_node, EMPTY_LEN. rewrite !decide_True by lia. rewrite bind_ok. reflexivity. }
  unfold dense_default. rewrite Hh, bind_ok. eexists. split; [reflexivity|].
  exists {[ [] := 0%N ]}, ∅. cbn [d_root d_heap d_data d_keys].
  assert (forall r (j : N), ({[ [] := 0%N ]} : gmap (list N) N) !! (r ++ [j]) = None) as Hnone.
  { intros r j. apply lookup_singleton_ne. intros E. symmetry in E. by apply app_nil in E as [_ ?]. }
  split; [|split].
  - constructor; cbn [h_nodes h_next].
    + exists 0%N. by rewrite lookup_singleton.
    + intros b. cbn [h_nodes h_next]. rewrite lookup_insert_is_Some, lookup_empty. intros [<-|[_ [? ?]]]; [lia|done].
    + intros p a [<- <-]%lookup_singleton_Some. rewrite lookup_insert. eexists. split; [done|]. split; [done|].
      eapply node_rep_ext; [|apply nr_new]. intros i. symmetry. by apply childs_empty.
    + intros p q a [<- _]%lookup_singleton_Some [<- _]%lookup_singleton_Some. done.
    + intros p a [<- _]%lookup_singleton_Some. split; [apply path_ok_nil|cbn; lia].
    + intros p i a Hpi. by rewrite Hnone in Hpi.
    + intros q j Hj. by rewrite lookup_empty in Hj.
    + intros a. rewrite lookup_insert_is_Some, lookup_empty. intros [<-|[_ [? ?]]]; [|done]. exists []. by rewrite lookup_singleton.
  - constructor; try done.
    + intros [|j] k Hj; [lia|done].
    + intros q j. rewrite lookup_empty. split; [done|]. intros (_ & Hj & Hk).
      destruct (N.to_nat j) eqn:E; [lia|done].
    + intros [|j] Hj Hl; cbn in Hl; lia.
    + intros k v. rewrite lookup_empty. split; [done|]. intros ([|j] & Hj & Hk & _); [lia|done].
  - intros p Hp [a Ha]. apply lookup_singleton_Some in Ha as [<- _]. done.
Qed.

(** ** lookup *)
Lemma dpath_last q : path_ok 1 D q -> exists i, q = take (D - 1) q ++ [i] /\ q !! (D - 1) = Some i /\ (i < 64)%N /\
  get_u q (length q - 1) = Ok i.
Proof.
  intros [Hl Hf]. destruct (lookup_lt_is_Some_2 q (D - 1) ltac:(lia)) as [i Hi]. exists i. split_and!.
  - rewrite <- take_snoc by done. replace (S (D - 1)) with (length q) by lia. by rewrite firstn_all.
  - done.
  - rewrite Forall_lookup in Hf. apply (Hf _ _ Hi).
  - rewrite Hl. by apply get_u_ok.
Qed.
Lemma dpath_take q : path_ok 1 D q -> length (take (D - 1) q) = D - 1.
Proof. intros [Hl _]. rewrite take_length. lia. Qed.

Lemma J_node h root P J X q j : shape D h root P J X -> J !! q = Some j ->
  path_ok 1 D q /\ is_Some (P !! take (D - 1) q).
Proof.
  intros Sh Hj. destruct (sh_jpath _ _ _ _ _ _ Sh _ _ Hj) as (Hq & p & i & -> & Hp). split; [done|].
  destruct Hq as [Hl _]. rewrite app_length in Hl. cbn in Hl.
  replace (D - 1) with (length p) by lia. by rewrite take_app.
Qed.

Lemma terminal_idx h root P J q : shape D h root P J None -> path_ok 1 D q ->
  exists x i j, get_terminal_node D root h q = Ok (x, i) /\ child_idx h x i = Ok j /\
   match J !! q with Some j' => j = j' | None => j = 0%N \/ exists q', J !! q' = Some j end.
Proof.
  intros Sh Hq. destruct (sh_root _ _ _ _ _ _ Sh) as (ar & Er & Har).
  destruct (dpath_last q Hq) as (i & Eq & Hi & Hi64 & Hgu). unfold get_terminal_node.
  destruct (J !! q) as [j|] eqn:Ej.
  - destruct (J_node _ _ _ _ _ _ _ Sh Ej) as [_ [t Ht]].
    rewrite Er, (terminal_loop_present D HD _ _ _ _ Sh q (D - 1) 0 ar t); try done; [|lia].
    rewrite bind_ok, Hgu, bind_ok. eexists _, _, j. split; [done|]. split; [|done].
    eapply (child_idx_present D HD); [exact Sh|exact Ht| |by rewrite <- Eq]. rewrite dpath_take by done. lia.
  - destruct (terminal_loop_any D HD _ _ _ _ Sh q (D - 1) 0 root Hq) as (y & -> & Hy); [lia| |].
    { left. exists [], ar. by rewrite Er. }
    rewrite bind_ok, Hgu, bind_ok.
    destruct (child_idx_any D HD _ _ _ _ Sh y i Hy ltac:(lia) Hi64) as (j & Hj & Hor).
    eexists _, _, j. split; [done|]. split; [exact Hj|exact Hor].
Qed.

Section ops.
Context {V : Type}.
Implicit Types (t : dense V) (m : gmap N V).

Lemma dense_data_ok ex t m q : dense_inv ex t m -> path_ok 1 D q ->
  dense_data D t (key_of_path 1 q) q = Ok (m !! key_of_path 1 q).
Proof.
  intros (P & J & Sh & Hv & _) Hq. unfold dense_data.
  destruct (terminal_idx _ _ _ _ _ Sh Hq) as (x & i & j & -> & Hci & Hm). rewrite bind_ok, Hci, bind_ok.
  pose proof (path_ok_bound 1 D q nw1 Hq) as Hb. rewrite <- KB_msize in Hb.
  destruct (J !! q) as [j'|] eqn:Ej.
  - subst j'. pose proof (vec_J_data _ _ _ _ Hv _ _ Ej) as (v & Hd & Hmv).
    apply (v_J _ _ _ _ Hv) in Ej as (_ & _ & Hk). rewrite (get_u_ok _ _ _ Hk), bind_ok, N.eqb_refl.
    unfold data_get. rewrite (get_u_ok _ _ _ Hd). cbn [rbind]. by rewrite Hmv.
  - destruct (vec_any_absent _ _ _ _ Hv q j Hq Ej Hm) as (k & Hk & Hne). rewrite (get_u_ok _ _ _ Hk), bind_ok.
    apply N.eqb_neq in Hne as ->. f_equal. symmetry. apply eq_None_not_Some. intros Hs.
    apply (vec_m_J _ _ _ _ Hv) in Hs; [|done]. rewrite level_indices_of_path, Ej in Hs by (done || lia). by destruct Hs.
Qed.

(** the reference to the value of key [k] *)
Definition place_of t (j : nat) (k : N) : Prop := 1 <= j /\ d_keys t !! j = Some k.

(** writing through a reference *)
Definition write_place t (j : nat) (v : V) : res (dense V) :=
  let* data := set_u (d_data t) j (Some v) in Ok (Dense (d_root t) (d_heap t) data (d_keys t)).
Lemma write_place_ok ex t m j k v : dense_inv ex t m -> place_of t j k ->
  exists t', write_place t j v = Ok t' /\ dense_inv ex t' (<[k := v]> m).
Proof.
  intros (P & J & Sh & Hv & Hex) [Hj Hk]. unfold write_place. rewrite set_u_ok.
  - rewrite bind_ok. eexists. split; [done|]. exists P, J. cbn [d_root d_heap d_data d_keys].
    split; [done|]. split; [|done]. by eapply vec_set.
  - rewrite (v_len _ _ _ _ Hv). by eapply lookup_lt_Some.
Qed.
Lemma place_read ex t m j k : dense_inv ex t m -> place_of t j k -> exists v, m !! k = Some v /\ data_get (d_data t) j = Ok v.
Proof.
  intros (P & J & Sh & Hv & Hex) [Hj Hk].
  destruct (v_data _ _ _ _ Hv j Hj) as [v Hd]; [rewrite (v_len _ _ _ _ Hv); by eapply lookup_lt_Some|].
  exists v. split; [apply (v_m _ _ _ _ Hv); eauto|]. unfold data_get. by rewrite (get_u_ok _ _ _ Hd).
Qed.

Lemma get_or_insert_impl_ok ex t m k ins vf : dense_inv ex t m -> (k < KB)%N ->
  (m !! k = None -> is_Some vf -> (N.of_nat (size m) < 2 ^ 32 - 1)%N) ->
  exists t' oj dr, get_or_insert_impl D t k ins vf = Ok (t', oj, dr) /\
  match m !! k, vf with
  | Some old, Some v =>
      if ins then dense_inv ex t' (<[k := v]> m) /\ dr = [old] /\ exists j, oj = Some j /\ place_of t' j k
      else dense_inv ex t' m /\ dr = [] /\ exists j, oj = Some j /\ place_of t' j k
  | Some old, None =>
      dense_inv ex t' m /\ dr = [] /\
      if ins then oj = None else exists j, oj = Some j /\ place_of t' j k
  | None, Some v => dense_inv ex t' (<[k := v]> m) /\ dr = [] /\ exists j, oj = Some j /\ place_of t' j k
  | None, None => dense_inv (fun p => ex p \/ p `prefix_of` level_indices 1 D k) t' m /\ dr = [] /\ oj = None
  end.
Proof.
  intros (P & J & Sh & Hv & Hex) Hk Hguard. destruct (key_path k Hk) as [Hq Hkq].
  unfold get_or_insert_impl. set (q := level_indices 1 D k) in *.
  destruct (sh_root _ _ _ _ _ _ Sh) as (ar & Er & Har).
  rewrite const_loop_ok by lia. rewrite Nat.sub_0_r.
  destruct (goi_loop D HD (D - 1) 0 (d_heap t) (d_root t) P J q ar LRoot Sh Hq) as (root1 & h1 & l1 & P1 & a1 & -> & Sh1 & Hl1 & Ha1 & Hg1);
    [lia|by left|done|]. cbn [Nat.add] in Hl1, Ha1. rewrite bind_ok.
  rewrite (loc_read_ok _ _ _ _ _ _ _ _ _ Sh1 Hl1 Ha1) by done. rewrite bind_ok.
  destruct (dpath_last q Hq) as (i & Eq & Hi & Hi64 & ->). rewrite bind_ok.
  pose proof (dpath_take q Hq) as Hlen.
  destruct (sh_node _ _ _ _ _ _ Sh1 _ _ Ha1) as (nd & Hnd & Hkd & Hr).
  assert (kind_at D (length (take (D - 1) q)) = KIdx) as Hki by (unfold kind_at; rewrite decide_False by lia; done).
  rewrite Hki in Hkd.
  assert (childs D P1 J None (take (D - 1) q) i = SIdx <$> J !! q) as Hc.
  { cbn. unfold childs0. rewrite decide_False by lia. by rewrite <- Eq. }
  rewrite (contains_ok _ _ _ _ _ Hnd Hr) by done. rewrite bind_ok, Hc.
  (* exactness of the grown hierarchy when q is (going to be) stored *)
  assert (forall J', (forall r, is_Some (J !! r) -> is_Some (J' !! r)) -> is_Some (J' !! q) ->
           exact D ex P1 J' None) as Hex1.
  { intros J' Hsub HJq p Hp HP1. destruct Hg1 as [G1 G2]. destruct (G2 p HP1) as [HP|[z Hz]].
    - destruct (Hex p Hp HP) as [Hext|[j Hj]]; [by left|right]. exists j. cbn in *. unfold childs0 in *. destruct (decide (S (length p) < D)).
      + rewrite fmap_is_Some in *. by apply G1.
      + rewrite fmap_is_Some in *. by apply Hsub.
    - right. destruct HP1 as [ap Hap]. destruct (sh_path _ _ _ _ _ _ Sh1 _ _ Hap) as [_ Hpl].
      assert (length q = D) as HqD by apply Hq.
      destruct z as [|x z]; [rewrite app_nil_r in Hz; subst p; lia|].
      exists x. cbn. unfold childs0. destruct (decide (S (length p) < D)) as [HpD|HpD]; rewrite fmap_is_Some.
      + eapply (sh_prefix _ _ _ _ _ _ (p ++ [x]) (drop (S (length p)) (take (D - 1) q)) _ Sh1).
        assert (p ++ [x] = take (S (length p)) (take (D - 1) q)) as E.
        { rewrite take_take, Nat.min_l by lia. rewrite Hz. rewrite (cons_middle x p z), app_assoc.
          rewrite take_app_alt; [done|]. rewrite app_length. cbn. lia. }
        rewrite E at 1. rewrite take_drop. exact Ha1.
      + assert (z = []) as -> by (apply (f_equal length) in Hz; rewrite app_length in Hz; cbn in Hz; destruct z; [done|cbn in Hz; lia]).
        by rewrite <- Hz. }
  destruct (J !! q) as [j|] eqn:Ej; cbn [fmap option_fmap option_map].
  - (* present *)
    rewrite bool_decide_true by eauto.
    destruct (vec_J_data _ _ _ _ Hv _ _ Ej) as (old & Hd & Hmv). rewrite Hkq in Hmv. rewrite Hmv.
    unfold child_idx. rewrite (get_child_present _ _ _ _ _ Hnd Hr KIdx i (SIdx j) Hkd Hc). cbn [rbind as_idx].
    pose proof Ej as Hjk. apply (v_J _ _ _ _ Hv) in Hjk as (_ & Hj1 & Hkj). rewrite Hkq in Hkj.
    assert (data_get (d_data t) (N.to_nat j) = Ok old) as Hdg by (unfold data_get; by rewrite (get_u_ok _ _ _ Hd)).
    assert (exact D ex P1 J None) as Hex2 by (exact (Hex1 J (fun _ H => H) (mk_is_Some _ _ Ej))).
    assert (place_of (Dense root1 h1 (d_data t) (d_keys t)) (N.to_nat j) k) as Hpl by (split; cbn [d_keys]; [lia|done]).
    assert (dense_inv ex (Dense root1 h1 (d_data t) (d_keys t)) m) as Hinv1 by (exists P1, J; done).
    destruct ins, vf as [v|]; rewrite ?Hdg, ?bind_ok.
    + rewrite set_u_ok by (by eapply lookup_lt_Some). rewrite bind_ok. eexists _, _, _. split; [reflexivity|].
      split; [|split; [done|]].
      * exists P1, J. cbn [d_root d_heap d_data d_keys]. split; [done|]. split; [|done]. eapply vec_set; [exact Hv|lia|done].
      * eexists. split; [done|]. exact Hpl.
    + eexists _, _, _. split; [reflexivity|]. done.
    + eexists _, _, _. split; [reflexivity|]. split; [done|]. split; [done|]. eauto.
    + eexists _, _, _. split; [reflexivity|]. split; [done|]. split; [done|]. eauto.
  - (* absent *)
    rewrite bool_decide_false by (by intros [? ?]).
    assert (m !! k = None) as Hmk.
    { apply eq_None_not_Some. intros Hs. apply (vec_m_J _ _ _ _ Hv) in Hs; [|done]. fold q in Hs. rewrite Ej in Hs. by destruct Hs. }
    rewrite Hmk. destruct vf as [v|].
    + specialize (Hguard Hmk ltac:(eauto)). pose proof (vec_size _ _ _ _ Hv) as Hsz. pose proof (v_len _ _ _ _ Hv) as HL.
      assert (N.of_nat (length (d_data t)) mod 2 ^ 32 = N.of_nat (length (d_data t)))%N as -> by (apply N.mod_small; lia).
      assert (childs D P1 J None (take (D - 1) q) i = None) as Hc'.
      { rewrite Hc. done. }
      destruct (node_insert_ok KIdx _ _ _ _ _ i (SIdx (N.of_nat (length (d_data t)))) (sh_heap _ _ _ _ _ _ Sh1) Hnd Hr Hkd Hi64 Hc')
        as (a' & nx & n' & -> & Hr' & Hk' & Hor). rewrite bind_ok.
      set (J' := <[q := N.of_nat (length (d_data t))]> J).
      assert (forall q0 j, J' !! q0 = Some j -> path_ok 1 D q0 /\ exists p i, q0 = p ++ [i] /\ is_Some (P1 !! p)) as HJ'.
      { intros q0 j. unfold J'. destruct (decide (q0 = q)) as [->|Hne].
        - intros _. split; [done|]. eexists _, _. split; [exact Eq|]. eauto.
        - rewrite lookup_insert_ne by done. apply (sh_jpath _ _ _ _ _ _ Sh1). }
      destruct (relocate D _ _ _ _ _ J' _ _ _ n' a' nx Sh1 Ha1 Hl1) as (root2 & h2 & -> & Sh2 & _ & _).
      * done.
      * exact Hor.
      * by rewrite Hki.
      * eapply node_rep_ext; [|exact Hr']. intros x. unfold fn_upd. destruct (N.eqb_spec x i) as [->|Hne].
        -- cbn. unfold childs0. rewrite decide_False by lia. rewrite <- Eq. unfold J'. by rewrite lookup_insert.
        -- cbn. unfold childs0. rewrite decide_False by lia. unfold J'. rewrite lookup_insert_ne; [by rewrite decide_False by lia|].
           intros E. rewrite Eq in E at 1. by apply app_one_inj in E as [_ ?].
      * intros r x Hne. cbn. unfold childs0. destruct (decide (S (length r) < D)); [done|]. unfold J'.
        rewrite lookup_insert_ne; [done|]. intros E. rewrite Eq in E at 1. by apply app_one_inj in E as [? _].
      * exact HJ'.
      * rewrite bind_ok. eexists _, _, _. split; [reflexivity|]. split; [|split; [done|]].
        -- exists (<[take (D - 1) q := a']> P1), J'. cbn [d_root d_heap d_data d_keys]. split; [done|]. split.
           ++ apply vec_add; [exact Hv|done|done|lia].
           ++ intros p Hp HPp.
              assert (is_Some (P1 !! p)) as HP1p by (apply lookup_insert_is_Some' in HPp as [<-|?]; eauto).
              destruct (Hex1 J') with (p := p) as [Hxp|[x Hx]]; try done.
              ** intros r Hrs. unfold J'. apply lookup_insert_is_Some'. by right.
              ** unfold J'. rewrite lookup_insert. eauto.
              ** by left.
              ** right. exists x. cbn in *. unfold childs0 in *. destruct (decide (S (length p) < D)); [|done].
                 rewrite fmap_is_Some in *. apply lookup_insert_is_Some'. by right.
        -- eexists. split; [done|]. split; cbn [d_keys].
           ++ pose proof (vec_pos _ _ _ _ Hv). lia.
           ++ rewrite lookup_app_r by lia. by replace (length (d_data t) - length (d_keys t)) with 0 by lia.
    + eexists _, _, _. split; [reflexivity|]. split; [|done]. exists P1, J. split; [done|]. split; [done|].
      intros p Hp HP1. destruct Hg1 as [G1 G2]. destruct (G2 p HP1) as [HP|[z Hz]]; [|left; right; by exists z].
      destruct (Hex p Hp HP) as [Hep|[j Hj]]; [by left; left|right]. exists j. cbn in *. unfold childs0 in *.
      destruct (decide (S (length p) < D)); [|done]. rewrite fmap_is_Some in *. by apply G1.
Qed.
End ops.
End inv.
