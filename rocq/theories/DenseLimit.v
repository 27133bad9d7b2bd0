(** * What happens at the 2^32-th element of a DenseTree

    The theorems about DenseTree require fewer than 2^32 elements (`DataIndex` = u32,
    dense_tree.rs:28).  Here: the requirement is needed.  `i as DataIndex` (dense_tree.rs:170)
    truncates 2^32 to 0, the index of the placeholder. *)
From Verif Require Import Base BitUtils BitUtilsProofs LevelIndices LevelIndicesProofs ConstLoops Hierarchy Lawful Dense DenseNode
  DenseShape DenseProofs Spec Client DenseHistory.

Section limit.
Context (D : nat).
Hypothesis HD0 : 1 <= D.
Hypothesis HD : D <= 9.
Notation KB := (KB D).
Context {V : Type}.
Implicit Types (t : dense V) (m : gmap N V).

(** inserting an absent key, without the size condition: the terminal node stores the
    truncated position *)
Lemma insert_absent_raw ex t m k v : dense_inv D ex t m -> (k < KB)%N -> m !! k = None ->
  exists t' P J, dense_insert D t k v = Ok (t', []) /\
    d_data t' = d_data t ++ [Some v] /\ d_keys t' = d_keys t ++ [k] /\
    vec_ok D J (d_keys t) (d_data t) m /\
    shape D (d_heap t') (d_root t') P
      (<[level_indices 1 D k := (N.of_nat (length (d_data t)) mod 2 ^ 32)%N]> J) None.
Proof.
  intros (P & J & Sh & Hv & Hex) Hk Hmk. destruct (key_path D HD0 k Hk) as [Hq Hkq].
  unfold dense_insert. rewrite (index_from_dense D HD0 HD), (proj2 (N.ltb_lt k KB) Hk), bind_ok.
  unfold get_or_insert_impl. set (q := level_indices 1 D k) in *.
  destruct (sh_root _ _ _ _ _ _ Sh) as (ar & Er & Har).
  rewrite const_loop_ok by lia. rewrite Nat.sub_0_r.
  destruct (goi_loop D HD (D - 1) 0 (d_heap t) (d_root t) P J q ar LRoot Sh Hq) as (root1 & h1 & l1 & P1 & a1 & -> & Sh1 & Hl1 & Ha1 & Hg1);
    [lia|by left|done|]. cbn [Nat.add] in Hl1, Ha1. rewrite bind_ok.
  rewrite (loc_read_ok _ _ _ _ _ _ _ _ _ Sh1 Hl1 Ha1) by done. rewrite bind_ok.
  destruct (dpath_last D HD0 HD q Hq) as (i & Eq & Hi & Hi64 & ->). rewrite bind_ok.
  pose proof (dpath_take D HD0 HD q Hq) as Hlen.
  destruct (sh_node _ _ _ _ _ _ Sh1 _ _ Ha1) as (nd & Hnd & Hkd & Hr).
  assert (kind_at D (length (take (D - 1) q)) = KIdx) as Hki by (unfold kind_at; rewrite decide_False by lia; done).
  rewrite Hki in Hkd.
  assert (J !! q = None) as Ej.
  { apply eq_None_not_Some. intros Hs. apply (vec_m_J D HD0 HD _ _ _ _ Hv) in Hs; [|done]. rewrite Hmk in Hs. by destruct Hs. }
  assert (childs D P1 J None (take (D - 1) q) i = None) as Hc.
  { cbn. unfold childs0. rewrite decide_False by lia. rewrite <- Eq. by rewrite Ej. }
  rewrite (contains_ok _ _ _ _ _ Hnd Hr) by done. rewrite bind_ok, Hc.
  rewrite bool_decide_false by (by intros [? ?]).
  set (x := (N.of_nat (length (d_data t)) mod 2 ^ 32)%N).
  destruct (node_insert_ok KIdx _ _ _ _ _ i (SIdx x) (sh_heap _ _ _ _ _ _ Sh1) Hnd Hr Hkd Hi64 Hc)
    as (a' & nx & n' & -> & Hr' & Hk' & Hor). rewrite bind_ok.
  set (J' := <[q := x]> J).
  assert (forall q0 j, J' !! q0 = Some j -> path_ok 1 D q0 /\ exists p i, q0 = p ++ [i] /\ is_Some (P1 !! p)) as HJ'.
  { intros q0 j. unfold J'. destruct (decide (q0 = q)) as [->|Hne].
    - intros _. split; [done|]. eexists _, _. split; [exact Eq|]. eauto.
    - rewrite lookup_insert_ne by done. apply (sh_jpath _ _ _ _ _ _ Sh1). }
  destruct (relocate D _ _ _ _ _ J' _ _ _ n' a' nx Sh1 Ha1 Hl1) as (root2 & h2 & -> & Sh2 & _ & _).
  - done.
  - exact Hor.
  - by rewrite Hki.
  - eapply node_rep_ext; [|exact Hr']. intros y. unfold fn_upd. destruct (N.eqb_spec y i) as [->|Hne].
    + cbn. unfold childs0. rewrite decide_False by lia. rewrite <- Eq. unfold J'. by rewrite lookup_insert.
    + cbn. unfold childs0. rewrite decide_False by lia. unfold J'. rewrite lookup_insert_ne; [by rewrite decide_False by lia|].
      intros E. rewrite Eq in E at 1. by apply app_one_inj in E as [_ ?].
  - intros r y Hne. cbn. unfold childs0. destruct (decide (S (length r) < D)); [done|]. unfold J'.
    rewrite lookup_insert_ne; [done|]. intros E. rewrite Eq in E at 1. by apply app_one_inj in E as [? _].
  - exact HJ'.
  - rewrite !bind_ok. eexists _, _, J. split; [reflexivity|]. cbn [d_data d_keys d_heap d_root].
    split; [done|]. split; [done|]. split; [exact Hv|]. exact Sh2.
Qed.

Lemma insert_full ex t m k v : dense_inv D ex t m -> (k < KB)%N -> m !! k = None ->
  N.of_nat (size m) = (2 ^ 32 - 1)%N ->
  exists t', dense_insert D t k v = Ok (t', []) /\ tree_get (dense_tree V D) t' k = Ok None /\
    tree_get_unchecked (dense_tree V D) t' k = UB.
Proof.
  intros Hi Hk Hmk Hsz. destruct (insert_absent_raw ex t m k v Hi Hk Hmk) as (t' & P & J & E & Hd & Hks & Hv & Sh).
  exists t'. split; [exact E|].
  pose proof (vec_size D HD0 HD _ _ _ _ Hv) as Hl. pose proof (v_len _ _ _ _ _ Hv) as Hl'.
  assert (N.of_nat (length (d_data t)) mod 2 ^ 32 = 0)%N as Hx.
  { rewrite Hl', Hl. rewrite Nat2N.inj_succ, Hsz. done. }
  rewrite Hx in Sh. destruct (key_path D HD0 k Hk) as [Hq Hkq].
  assert (dense_data D t' k (level_indices 1 D k) = Ok None) as Hdd.
  { unfold dense_data. destruct (terminal_idx D HD0 HD _ _ _ _ _ Sh Hq) as (y & i & j & -> & Hci & Hm).
    rewrite bind_ok, Hci, bind_ok. rewrite lookup_insert in Hm. subst j. rewrite Hks.
    rewrite (get_u_ok _ 0 USIZE_MAX).
    - rewrite bind_ok. pose proof (KB_lt D HD0 HD). destruct (N.eqb_spec USIZE_MAX k); [lia|done].
    - rewrite lookup_app_l; [exact (v_k0 _ _ _ _ _ Hv)|]. lia. }
  split.
  - unfold tree_get. cbn [dense_tree t_nw t_depth t_data].
    rewrite (index_from_dense D HD0 HD), (proj2 (N.ltb_lt k KB) Hk), bind_ok. exact Hdd.
  - unfold tree_get_unchecked. cbn [dense_tree t_nw t_depth t_data_u]. unfold dense_data_unchecked. by rewrite Hdd.
Qed.
Lemma dense_insert_get (cs : list (call V)) t k v : dense_legal D cs -> dense_reached D cs t ->
  (k < 64 ^ N.of_nat D)%N -> (N.of_nat (size (spec_run (64 ^ N.of_nat D) ∅ cs)) < 2 ^ 32 - 1)%N ->
  exists t' dr, dense_insert D t k v = Ok (t', dr) /\ tree_get (dense_tree V D) t' k = Ok (Some v) /\
    tree_get_unchecked (dense_tree V D) t' k = Ok v.
Proof.
  intros Hl Hr Hk Hs. destruct (dense_reached_inv D cs t HD0 HD Hl Hr) as (ex & Hi & _).
  destruct (get_or_insert_impl_ok D HD0 HD ex t _ k true (Some v) Hi Hk ltac:(done)) as (t' & oj & dr & E & Hm).
  unfold dense_insert. rewrite (index_from_dense D HD0 HD), (proj2 (N.ltb_lt k KB) Hk), bind_ok, E, bind_ok.
  eexists t', dr. split; [done|].
  assert (dense_inv D ex t' (<[k:=v]> (spec_run (64 ^ N.of_nat D) ∅ cs))) as Hi'.
  { destruct (spec_run _ _ cs !! k); apply Hm. }
  destruct (key_path D HD0 k Hk) as [Hq Hkq]. pose proof (dense_data_ok D HD0 HD ex t' _ _ Hi' Hq) as Hd.
  rewrite Hkq, lookup_insert in Hd. split.
  - unfold tree_get. cbn [dense_tree t_nw t_depth t_data].
    rewrite (index_from_dense D HD0 HD), (proj2 (N.ltb_lt k KB) Hk), bind_ok. exact Hd.
  - unfold tree_get_unchecked. cbn [dense_tree t_nw t_depth t_data_u]. unfold dense_data_unchecked. by rewrite Hd.
Qed.
End limit.

(** inserting [l], distinct keys in range, one after another *)
Definition insert_all {V} (v : V) (l : list N) : list (call V) := (fun k => CInsert k v) <$> l.
Lemma insert_all_run {V} (v : V) B (P : gmap N V -> Prop) (m : gmap N V) (l : list N) : NoDup l -> (forall k, k ∈ l -> (k < B)%N /\ m !! k = None) ->
  (forall m', size m' <= size m + length l -> P m') ->
  spec_always B P m (insert_all v l) /\ size (spec_run B m (insert_all v l)) = size m + length l /\
  forall k, is_Some (spec_run B m (insert_all v l) !! k) -> is_Some (m !! k) \/ k ∈ l.
Proof.
  intros Hnd. revert m. induction Hnd as [|k l Hk Hnd IH]; intros m Hl HP; cbn [insert_all fmap list_fmap spec_always spec_run length].
  - split; [split; [apply HP; cbn; lia|done]|]. split; [lia|]. by left.
  - destruct (Hl k) as [Hkb Hm]; [by left|]. cbn [spec_map]. rewrite (proj2 (N.ltb_lt k B) Hkb).
    assert (size (<[k:=v]> m) = S (size m)) as Hs by (by apply map_size_insert_None).
    destruct (IH (<[k:=v]> m)) as (H1 & H2 & H3).
    + intros k' Hk'. destruct (Hl k'); [by right|]. split; [done|]. rewrite lookup_insert_ne; [done|]. by intros ->.
    + intros m' Hm'. apply HP. cbn. lia.
    + split; [split; [apply HP; cbn; lia|exact H1]|]. split; [etrans; [exact H2|]; lia|].
      intros k' Hk'. destruct (H3 k' Hk') as [Hin|Hin]; [|right; by right].
      apply lookup_insert_is_Some' in Hin as [<-|?]; [right; by left|by left].
Qed.
(** a legal history that leaves exactly 2^32 - 1 elements and the key 2^32 free: it exists
    from depth 6 on (64^6 = 2^36 keys) *)
Lemma full_history {V} D (v : V) : 6 <= D -> D <= 9 ->
  exists cs : list (call V), dense_legal D cs /\
    N.of_nat (size (spec_run (64 ^ N.of_nat D) ∅ cs)) = (2 ^ 32 - 1)%N /\
    spec_run (64 ^ N.of_nat D) ∅ cs !! (2 ^ 32)%N = None /\ (2 ^ 32 < 64 ^ N.of_nat D)%N.
Proof.
  intros H6 H9. assert (2 ^ 32 < 64 ^ N.of_nat D)%N as HB.
  { apply N.lt_le_trans with (64 ^ 6)%N; [done|]. apply N.pow_le_mono_r; [done|lia]. }
  assert (exists n, N.of_nat n = (2 ^ 32 - 1)%N) as [n Hn] by (exists (N.to_nat (2 ^ 32 - 1)); apply N2Nat.id).
  remember (64 ^ N.of_nat D)%N as B eqn:EB.
  destruct (insert_all_run v B small32 ∅ (N.of_nat <$> seq 0 n)) as (H1 & H2 & H3).
  - apply NoDup_fmap; [apply _|]. apply NoDup_seq.
  - intros k (x & -> & Hx%elem_of_seq)%elem_of_list_fmap. split; [lia|]. apply lookup_empty.
  - intros m'. rewrite fmap_length, seq_length. unfold small32. rewrite map_size_empty. lia.
  - exists (insert_all v (N.of_nat <$> seq 0 n)). split; [|split; [|split; [|exact HB]]].
    + split; [|split; [|rewrite <- EB; exact H1]].
      * unfold insert_all. apply Forall_fmap, Forall_true. done.
      * unfold insert_all. intros (c & Hc & Hr)%Exists_exists. apply elem_of_list_fmap in Hc as (? & -> & _). done.
    + rewrite H2, fmap_length, seq_length, map_size_empty. exact Hn.
    + apply eq_None_not_Some. intros Hs. destruct (H3 _ Hs) as [Hin|Hin].
      * rewrite lookup_empty in Hin. by destruct Hin.
      * apply elem_of_list_fmap in Hin as (x & Hx & Hs'%elem_of_seq). lia.
Qed.
