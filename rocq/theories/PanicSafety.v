(** * Unwinding: destructors of elements that panic

    Rust semantics used here (not code of /repo):
    - `ptr::drop_in_place` of a slice, and the destructor of a `Vec`, run the destructors of
      the elements in order; if one panics the remaining ones are still run and the panic goes
      on; a second panic while the first one is unwinding aborts the process;
    - if `Drop::drop` of a struct unwinds, its fields are still dropped;
    - an assignment `*p = v` drops the old value first; if that panics the new value is
      nevertheless written and the panic goes on;
    - running the destructor of a slot that holds no live value (uninitialised, or already
      dropped) is undefined behaviour. *)
From Verif Require Import Base BitUtils BitQueue LevelIndices ConstLoops Hierarchy Dense Sparse Spec SpecLaws Client
  DenseProofs DenseDrop DenseHistory DenseLaws SparseVec SparseProofs SparseOps SparseHistory SparseLaws.

(** how a run of destructors ends: all done; unwinding (with the values whose destructors ran);
    process aborted; undefined behaviour *)
Inductive dropres (V : Type) := Finished (dropped : list V) | Unwinding (dropped : list V) | Aborted | Undefined.
Arguments Finished {V}. Arguments Unwinding {V}. Arguments Aborted {V}. Arguments Undefined {V}.

Section drops.
Context {V : Type}.
(** [bomb v]: the destructor of [v] panics *)
Context (bomb : V -> bool).

(** drop glue goes on with the next field: a second panic aborts the process *)
Definition also (v : V) (r : dropres V) : dropres V :=
  match r with Finished l => Finished (v :: l) | Unwinding l => Unwinding (v :: l) | Aborted => Aborted | Undefined => Undefined end.
(** destructors of a slice of slots *)
Fixpoint drop_slice (unwinding : bool) (l : list (option V)) : dropres V :=
  match l with
  | [] => if unwinding then Unwinding [] else Finished []
  | None :: _ => Undefined
  | Some v :: l => if bomb v && unwinding then Aborted else also v (drop_slice (unwinding || bomb v) l)
  end.

(** dropping a DenseTree: `drop_impl` dense_tree.rs:312-323, then, whether or not it unwinds, the
    fields of the struct; `data` is a `Vec<T>` whose length is only set to 0 after all destructors
    have returned (319).  Nodes are not tracked here (C19). *)
Definition dense_drop_b (t : dense V) : dropres V :=
  match from_1 (d_data t) with
  | Ok slice =>
    match drop_slice false slice with                                        (* 314-318 *)
    | Unwinding _ => drop_slice true (replicate (length (d_data t)) None)   (* field `data`, its slots now dead *)
    | r => r                                              (* 319: `data` has length 0 *)
    end
  | _ => Undefined
  end.
(** dropping a SparseTree: `drop_impl` sparse_tree.rs:522-531, then the fields *)
Definition sparse_drop_b (req : bool) (t : sparse V) : dropres V :=
  let skip_first := if req then 0 else 1 in
  match sub_u (length (s_values t)) skip_first with
  | Ok _ =>
    match drop_slice false (drop skip_first (s_values t)) with               (* 525-529 *)
    | Unwinding _ => drop_slice true (replicate (length (s_values t)) None)
    | r => r                                                                 (* 530 *)
    end
  | _ => Undefined
  end.

(** the assignments dense_tree.rs:167 and sparse_tree.rs:455: the old value is dropped; [true]:
    its destructor panicked, the call unwinds from here *)
Definition assign_b (l : list (option V)) (i : nat) (v : V) : res (list (option V) * V * bool) :=
  let* old := data_get l i in
  let* l := set_u l i (Some v) in
  Ok (l, old, bomb old).
(** `DenseTree::insert` dense_tree.rs:186-189 with `get_or_insert_impl` 119-176 specialised to
    `insert = ConstTrue`; result: the tree, the values dropped, did it unwind *)
Definition dense_insert_b (D : nat) (t : dense V) (index : N) (v : V) : res (dense V * list V * bool) :=
  let* index := index_from 1 D index in
  let indices := level_indices 1 D index in
  let* ((root, h, node), _) := const_loop 0 (D - 1) (goi_body D indices) (d_root t, d_heap t, LRoot) in
  let* node_ptr := loc_read root h node in
  let* inner_index := get_u indices (length indices - 1) in
  let* has := node_contains h node_ptr inner_index in
  if has : bool then
    let* data_index := child_idx h node_ptr inner_index in
    let* (data, old, unwinds) := assign_b (d_data t) (N.to_nat data_index) v in          (* 167 *)
    Ok (Dense root h data (d_keys t), [old], unwinds)
  else
    let i := length (d_data t) in
    let* (h, _, new_node) := node_insert KIdx h node_ptr inner_index (SIdx (N.of_nat i mod 2 ^ 32)) in
    let* (root, h) := loc_write root h node new_node in
    Ok (Dense root h (d_data t ++ [Some v]) (d_keys t ++ [index]), [], false).
(** `SparseTree::insert` sparse_tree.rs:388-391 with `get_or_insert_impl` 395-463 *)
Definition sparse_insert_b (nw D : nat) (t : sparse V) (index : N) (v : V) : res (sparse V * list V * bool) :=
  let* index := index_from nw D index in
  let level_indices := level_indices nw D index in
  let* last_inner := get_u level_indices (length level_indices - 1) in
  let* ((ls, level_block_index), _) := const_loop 0 (D - 1) (sgoi_body nw level_indices) (s_levels t, 0%N) in
  let* b := get_block ls (D - 1) level_block_index in
  let* data_block_index := blk_get b last_inner in
  if (data_block_index =? 0)%N then
    let i := N.of_nat (length (s_values t)) in
    let* ls := insert_child ls (D - 1) level_block_index last_inner i in
    Ok (Sparse ls (s_values t ++ [Some v]) (s_keys t ++ [index]) (s_lbi t ++ [(level_block_index, last_inner)]), [], false)
  else
    let* (values, old, unwinds) := assign_b (s_values t) (N.to_nat data_block_index) v in (* 455 *)
    Ok (Sparse ls values (s_keys t) (s_lbi t), [old], unwinds).

(** ** proofs *)
Definition bombs (l : list V) : nat := length (List.filter bomb l).
Lemma drop_slice_true vs : drop_slice true (Some <$> vs) = if decide (bombs vs = 0) then Unwinding vs else Aborted.
Proof.
  unfold bombs. induction vs as [|v vs IH]; [done|]. rewrite fmap_cons. cbn [drop_slice List.filter].
  destruct (bomb v); cbn [andb orb]; [by rewrite decide_False by (cbn; lia)|]. rewrite IH.
  by destruct (decide (length (List.filter bomb vs) = 0)).
Qed.
Lemma drop_slice_false vs : drop_slice false (Some <$> vs) =
  match bombs vs with 0 => Finished vs | 1 => Unwinding vs | _ => Aborted end.
Proof.
  unfold bombs. induction vs as [|v vs IH]; [done|]. rewrite fmap_cons. cbn [drop_slice List.filter]. rewrite andb_false_r. cbn [orb].
  destruct (bomb v); cbn [length].
  - rewrite drop_slice_true. unfold bombs. destruct (length (List.filter bomb vs)); reflexivity.
  - rewrite IH. destruct (length (List.filter bomb vs)) as [|[|n]]; reflexivity.
Qed.
Lemma bombs_perm l1 l2 : l1 ≡ₚ l2 -> bombs l1 = bombs l2.
Proof.
  unfold bombs. induction 1 as [|x l1 l2 _ IH|x y l|l1 l2 l3 _ IH1 _ IH2]; cbn [List.filter]; [done| | |congruence].
  - destruct (bomb x); cbn [length]; congruence.
  - by destruct (bomb x), (bomb y).
Qed.
Lemma all_init_inv (l : list (option V)) vs : all_init l = Ok vs -> l = Some <$> vs.
Proof.
  revert vs. induction l as [|[v|] l IH]; intros vs; cbn [all_init]; [by intros [= <-]| |done].
  intros (r & E & [= <-])%bind_ok_inv. by rewrite fmap_cons, <- (IH r).
Qed.

(** what dropping does, for any number of panicking destructors among the values [m] holds *)
Definition drop_law (r : dropres V) (held : list V) : Prop :=
  match bombs held with
  | 0 => exists l, r = Finished l /\ l ≡ₚ held
  | 1 => r = Undefined
  | _ => r = Aborted
  end.

Lemma dense_drop_b_ok D cs t : 1 <= D -> D <= 9 -> dense_legal D cs -> dense_reached D cs t ->
  drop_law (dense_drop_b t) (vals (spec_run (64 ^ N.of_nat D) ∅ cs)).
Proof.
  intros HD0 HD Hl Hr. destruct (dense_reached_inv D cs t HD0 HD Hl Hr) as (ex & Hi & _).
  destruct (dense_drop_ok D HD0 HD ex t _ Hi) as (h & dr & E & _ & Hp). change (dr ≡ₚ vals (spec_run (64 ^ N.of_nat D) ∅ cs)) in Hp. unfold dense_drop in E. unfold drop_law, dense_drop_b.
  apply bind_ok_inv in E as (sl & E1 & E). apply bind_ok_inv in E as (dr' & E2 & E). apply bind_ok_inv in E as (h' & _ & [= <- <-]).
  rewrite E1. rewrite (all_init_inv _ _ E2), drop_slice_false, <- (bombs_perm _ _ Hp).
  destruct (bombs dr') as [|[|n]]; [eauto| |done].
  unfold from_1 in E1. destruct (d_data t); [cbn in E1; done|]. done.
Qed.
Lemma sparse_drop_b_ok nw D req dflt cs t : nw_ok nw -> 1 <= D -> D <= 8 -> sparse_legal nw D req dflt cs ->
  sparse_reached nw D req dflt cs t ->
  drop_law (sparse_drop_b req t) ((if req then ol dflt else []) ++ vals (spec_run (key_bound nw D) ∅ cs)).
Proof.
  intros Hnw HD0 HD Hl Hr. assert (D <= 9) as HD9 by lia.
  pose proof (sparse_reached_inv nw D req dflt cs t Hnw HD0 HD9 Hl Hr) as Hi.
  destruct (sparse_drop_ok nw D Hnw HD0 HD9 _ _ t _ req Hi) as (dr & E & Hp).
  { intros Hreq. destruct Hl as (_ & H & _). unfold placeholder. rewrite Hreq. by apply H. }
  assert (dr ≡ₚ (if req then ol dflt else []) ++ vals (spec_run (key_bound nw D) ∅ cs)) as Hp'.
  { rewrite Hp. unfold vals, placeholder. destruct req; [by destruct dflt|done]. }
  unfold sparse_drop in E. unfold drop_law, sparse_drop_b. apply bind_ok_inv in E as (x & E1 & E).
  rewrite E1, (all_init_inv _ _ E), drop_slice_false, <- (bombs_perm _ _ Hp').
  destruct (bombs dr) as [|[|n]] eqn:Eb; [eauto| |done].
  destruct (s_values t); [|done]. exfalso. rewrite drop_nil in E. cbn in E. injection E as <-. done.
Qed.

Lemma dense_insert_b_eq D t k v : dense_insert_b D t k v =
  let* (t, dr) := dense_insert D t k v in Ok (t, dr, existsb bomb dr).
Proof.
  unfold dense_insert_b, dense_insert, get_or_insert_impl. destruct (index_from 1 D k) as [i| | |]; try done. rewrite !bind_ok. cbn beta zeta.
  destruct (const_loop 0 (D - 1) _ _) as [[[[root h] node] u]| | |]; try done. rewrite !bind_ok.
  destruct (loc_read root h node) as [p| | |]; try done. rewrite !bind_ok.
  destruct (get_u _ _) as [ii| | |]; try done. rewrite !bind_ok.
  destruct (node_contains h p ii) as [[]| | |]; try done; rewrite !bind_ok; cbn beta iota.
  - destruct (child_idx h p ii) as [di| | |]; try done. rewrite !bind_ok. unfold assign_b. cbn beta zeta.
    destruct (data_get _ _) as [old| | |]; try done. rewrite !bind_ok.
    destruct (set_u _ _ _) as [l| | |]; try done. rewrite !bind_ok. cbn. by rewrite orb_false_r.
  - destruct (node_insert _ _ _ _ _) as [[[h' x] nn]| | |]; try done. rewrite !bind_ok. cbn beta iota.
    destruct (loc_write _ _ _ _) as [[r' h'']| | |]; done.
Qed.
Lemma sparse_insert_b_eq nw D t k v : sparse_insert_b nw D t k v =
  let* (t, dr) := sparse_insert nw D t k v in Ok (t, dr, existsb bomb dr).
Proof.
  unfold sparse_insert_b, sparse_insert, sgoi_impl. destruct (index_from nw D k) as [i| | |]; try done. rewrite !bind_ok. cbn beta zeta.
  destruct (get_u _ _) as [ii| | |]; try done. rewrite !bind_ok.
  destruct (const_loop 0 (D - 1) _ _) as [[[ls lb] u]| | |]; try done. rewrite !bind_ok. cbn beta iota.
  destruct (get_block _ _ _) as [b| | |]; try done. rewrite !bind_ok.
  destruct (blk_get b ii) as [di| | |]; try done. rewrite !bind_ok.
  destruct (di =? 0)%N.
  - destruct (insert_child _ _ _ _ _) as [ls'| | |]; done.
  - unfold assign_b. destruct (data_get _ _) as [old| | |]; try done. rewrite !bind_ok.
    destruct (set_u _ _ _) as [l| | |]; try done. rewrite !bind_ok. cbn. by rewrite orb_false_r.
Qed.
(** histories that end with a drop *)
Definition bombed (o : option V) : bool := match o with Some v => bomb v | None => false end.

Lemma dense_calls_snoc D (t0 : dense V) cs c : dense_calls D t0 (cs ++ [c]) =
  let* (t, os, dr) := dense_calls D t0 cs in let* (t', o, d) := dense_call D t c in Ok (t', os ++ [o], dr ++ d).
Proof.
  revert t0. induction cs as [|c' cs IH]; intros t0; cbn [app dense_calls rbind].
  - destruct (dense_call D t0 c) as [[[t' o] d]| | |]; try done. cbn [rbind]. by rewrite app_nil_r.
  - destruct (dense_call D t0 c') as [[[t1 o1] d1]| | |]; try done. cbn [rbind]. rewrite IH.
    destruct (dense_calls D t1 cs) as [[[t2 os] dr]| | |]; try done. cbn [rbind].
    destruct (dense_call D t2 c) as [[[t' o] d]| | |]; try done. cbn [rbind app]. by rewrite app_assoc.
Qed.
Lemma sparse_calls_snoc nw D (t0 : sparse V) cs c : sparse_calls nw D t0 (cs ++ [c]) =
  let* (t, os, dr) := sparse_calls nw D t0 cs in let* (t', o, d) := sparse_call nw D t c in Ok (t', os ++ [o], dr ++ d).
Proof.
  revert t0. induction cs as [|c' cs IH]; intros t0; cbn [app sparse_calls rbind].
  - destruct (sparse_call nw D t0 c) as [[[t' o] d]| | |]; try done. cbn [rbind]. by rewrite app_nil_r.
  - destruct (sparse_call nw D t0 c') as [[[t1 o1] d1]| | |]; try done. cbn [rbind]. rewrite IH.
    destruct (sparse_calls nw D t1 cs) as [[[t2 os] dr]| | |]; try done. cbn [rbind].
    destruct (sparse_call nw D t2 c) as [[[t' o] d]| | |]; try done. cbn [rbind app]. by rewrite app_assoc.
Qed.
Lemma ol_perm (l : list V) o : l ≡ₚ ol o -> l = ol o.
Proof. destruct o; cbn [ol]; [apply Permutation_singleton_r|apply Permutation_nil_r]. Qed.
Lemma existsb_ol o : existsb bomb (ol o) = bombed o.
Proof. destruct o; cbn; [apply orb_false_r|done]. Qed.

Lemma dense_insert_b_ok D cs t k v : 1 <= D -> D <= 9 -> dense_legal D (cs ++ [CInsert k v]) -> dense_reached D cs t ->
  (k < 64 ^ N.of_nat D)%N -> let old := spec_run (64 ^ N.of_nat D) ∅ cs !! k in
  exists t', dense_insert_b D t k v = Ok (t', ol old, bombed old) /\ dense_reached D (cs ++ [CInsert k v]) t'.
Proof.
  intros HD0 HD Hl (os & dr & Hr) Hk old.
  assert (dense_legal D cs) as Hl1.
  { destruct Hl as (Ha & Hrm & Hs). apply Forall_app in Ha as [Ha _]. apply spec_always_app in Hs as [Hs _].
    split; [done|]. split; [|done]. intros He. apply Hrm, Exists_app. by left. }
  destruct (dense_run_ok D cs HD0 HD Hl1) as (t1 & dr1 & _ & E1 & Hd1 & _). rewrite Hr in E1. injection E1 as <- -> <-.
  destruct (dense_run_ok D _ HD0 HD Hl) as (t2 & dr2 & _ & E2 & Hd2 & _).
  assert (exists d, dense_call D t (CInsert k v) = Ok (t2, ODone, d) /\ dr2 = dr ++ d) as (d & Ec & ->).
  { unfold dense_run in Hr, E2. destruct (dense_default V D) as [t0| | |]; try done. rewrite !bind_ok in *.
    rewrite dense_calls_snoc, Hr, bind_ok in E2. cbn beta iota in E2. apply bind_ok_inv in E2 as ([[t3 o] d] & Ec & E2).
    injection E2 as -> Eo <-. rewrite spec_outs_app in Eo. apply app_inj_2 in Eo as [_ [= ->]]; [|done].
    exists d. cbn [spec_out] in Ec. rewrite (proj2 (N.ltb_lt _ _) Hk) in Ec. done. }
  exists t2. split; [|by eexists _, _]. cbn [dense_call] in Ec.
  destruct (dense_insert D t k v) as [[t3 d3]| | |] eqn:Ei; try done. injection Ec as -> ->.
  rewrite dense_insert_b_eq, Ei. cbn [rbind].
  rewrite (spec_collect_app _ (spec_drop (64 ^ N.of_nat D)) ∅ cs), <- Hd1 in Hd2. apply Permutation_app_inv_l in Hd2.
  cbn [spec_collect spec_drop] in Hd2. rewrite (proj2 (N.ltb_lt _ _) Hk), app_nil_r in Hd2. apply ol_perm in Hd2 as ->.
  by rewrite existsb_ol.
Qed.
Lemma sparse_insert_b_ok nw D req dflt cs t k v : nw_ok nw -> 1 <= D -> D <= 8 -> sparse_legal nw D req dflt (cs ++ [CInsert k v]) ->
  sparse_reached nw D req dflt cs t -> (k < key_bound nw D)%N -> let old := spec_run (key_bound nw D) ∅ cs !! k in
  exists t', sparse_insert_b nw D t k v = Ok (t', ol old, bombed old) /\ sparse_reached nw D req dflt (cs ++ [CInsert k v]) t'.
Proof.
  intros Hnw HD0 HD Hl (os & dr & Hr) Hk old. assert (D <= 9) as HD9 by lia.
  assert (sparse_legal nw D req dflt cs) as Hl1.
  { destruct Hl as (Ha & Hrm & Hs). apply Forall_app in Ha as [Ha _]. apply spec_always_e_app in Hs as [Hs _]. done. }
  destruct (sparse_run_ok nw D req dflt cs Hnw HD0 HD9 Hl1) as (t1 & dr1 & E1 & Hd1 & _). rewrite Hr in E1. injection E1 as <- -> <-.
  destruct (sparse_run_ok nw D req dflt _ Hnw HD0 HD9 Hl) as (t2 & dr2 & E2 & Hd2 & _).
  assert (exists d, sparse_call nw D t (CInsert k v) = Ok (t2, ODone, d) /\ dr2 = dr ++ d) as (d & Ec & ->).
  { unfold sparse_run in Hr, E2. destruct (sparse_default V nw D req dflt) as [t0| | |]; try done. rewrite !bind_ok in *.
    rewrite sparse_calls_snoc, Hr, bind_ok in E2. cbn beta iota in E2. apply bind_ok_inv in E2 as ([[t3 o] d] & Ec & E2).
    injection E2 as -> Eo <-. rewrite spec_outs_app in Eo. apply app_inj_2 in Eo as [_ [= ->]]; [|done].
    exists d. cbn [spec_out] in Ec. rewrite (proj2 (N.ltb_lt _ _) Hk) in Ec. done. }
  exists t2. split; [|by eexists _, _]. cbn [sparse_call] in Ec.
  destruct (sparse_insert nw D t k v) as [[t3 d3]| | |] eqn:Ei; try done. injection Ec as -> ->.
  rewrite sparse_insert_b_eq, Ei. cbn [rbind].
  rewrite (spec_collect_app _ (spec_drop (key_bound nw D)) ∅ cs), <- Hd1 in Hd2. apply Permutation_app_inv_l in Hd2.
  cbn [spec_collect spec_drop] in Hd2. rewrite (proj2 (N.ltb_lt _ _) Hk), app_nil_r in Hd2. apply ol_perm in Hd2 as ->.
  by rewrite existsb_ol.
Qed.
End drops.
