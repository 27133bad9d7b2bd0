(** * Defects of the modelled code: statements that are false, with concrete witnesses

    Each theorem evaluates the model on a concrete public-API history (by computation inside
    the kernel) or, where possible, shows the failure for all inputs. *)
From Verif Require Import Base BitUtils BitQueue LevelIndices ConstLoops Hierarchy Ops Dense Sparse Materialize Spec Client TreeClient LevelIndicesProofs BitUtilsProofs.

Definition inserts (ks : list N) : list (call N) := (fun k => CInsert k k) <$> ks.
(** the container after a history (a junk value if it does not complete) *)
Definition dense_after (D : nat) (cs : list (call N)) : dense N :=
  match dense_run D cs with Ok (t, _, _) => t | _ => Dense (PStatic 0) heap_empty [] [] end.
Definition sparse_after (nw D : nat) (cs : list (call N)) : sparse N :=
  match sparse_run nw D false None cs with Ok (t, _, _) => t | _ => Sparse [] [] [] [] end.

(** C36: `DenseTree<T, 1>::remove` is undefined behaviour for every tree and every key in
    range: `get_branch().last().unwrap_unchecked()` on an empty array *)
Lemma dense_remove_depth1 {V} (t : dense V) k : (k < 64)%N -> dense_remove 1 t k = UB.
Proof.
  intros Hk. unfold dense_remove. destruct (index_from_spec 1 1 k) as [[-> H]|[_ H]]; [reflexivity|].
  exfalso. change (N.min 64 USIZE_MAX <= k)%N in H. change (N.min 64 USIZE_MAX) with 64%N in H. lia.
Qed.

(** C28: width_256, depth_1: the 256th element is stored under data index 256 as u8 = 0 *)
Lemma sparse_256_loses_depth1 :
  let t := sparse_after 4 1 (inserts (seqN 0 256)) in
  tree_get (sparse_tree N 4 1) t 254 = Ok (Some 254%N) /\ tree_get (sparse_tree N 4 1) t 255 = Ok None.
Proof. vm_compute. done. Qed.
(** C28: width_256, depth_2: the 256th child of the root gets block index 256 as u8 = 0 *)
Lemma sparse_256_loses_depth2 :
  let t := sparse_after 4 2 (inserts ((fun i => 256 * i)%N <$> seqN 0 256)) in
  tree_get (sparse_tree N 4 2) t (256 * 254) = Ok (Some (256 * 254)%N) /\ tree_get (sparse_tree N 4 2) t (256 * 255) = Ok None.
Proof. vm_compute. done. Qed.

(** multi_intersection of no trees: `get` answers, iteration yields nothing *)
Lemma mi_empty_get t k : tree_get (t_multi_intersection t) [] k = Ok (Some []) \/ tree_get (t_multi_intersection t) [] k = Panic.
Proof. unfold tree_get. cbn. destruct (index_from _ _ k) eqn:E; [by left|by right|..]; unfold index_from in E; repeat case_match; done. Qed.
Lemma mi_empty_iter : tree_get (t_multi_intersection (dense_tree N 2)) [] 7 = Ok (Some []) /\
  iter_collect 10 (t_multi_intersection (dense_tree N 2)) [] = Ok [].
Proof. vm_compute. done. Qed.

(** multi_union of depth-1 trees: iteration panics (`todo!()`) although `get` answers *)
Lemma mu_depth1 : let s := [dense_after 1 (inserts [5%N])] in
  tree_get (t_multi_union (dense_tree N 1)) s 5 = Ok (Some [5%N]) /\
  iter_collect 10 (t_multi_union (dense_tree N 1)) s = Panic.
Proof. vm_compute. done. Qed.

(** more than 32 operands: `get` and iteration panic *)
Lemma mu_33 : let s := replicate 33 (dense_after 2 (inserts [5%N])) in
  tree_get (t_multi_union (dense_tree N 2)) s 5 = Panic /\ iter_collect 10 (t_multi_union (dense_tree N 2)) s = Panic.
Proof. vm_compute. done. Qed.
Lemma mi_33 : let s := replicate 33 (dense_after 2 (inserts [5%N])) in
  tree_get (t_multi_intersection (dense_tree N 2)) s 5 = Panic /\ iter_collect 10 (t_multi_intersection (dense_tree N 2)) s = Panic.
Proof. vm_compute. done. Qed.
(** in general: no cursor can be created for more than 32 trees *)
Lemma arrayvec_overflow {A B} (f : A -> res B) cap l : cap < length l -> (forall x, x ∈ l -> exists y, f x = Ok y) ->
  arrayvec_collect f cap l = Panic.
Proof.
  revert cap. induction l as [|x l IH]; intros cap Hl Hf; cbn in *; [lia|]. destruct (Hf x ltac:(left)) as [y ->]. cbn.
  destruct cap as [|cap]; [done|]. rewrite IH; [done|lia|]. intros z Hz. apply Hf. by right.
Qed.
Lemma mi_too_many t s : 32 < length s -> (forall a, a ∈ s -> exists c, t_new t a = Ok c) -> t_new (t_multi_intersection t) s = Panic.
Proof. intros Hl Hn. cbn. by rewrite arrayvec_overflow. Qed.
Lemma mu_too_many t s : 32 < length s -> (forall a, a ∈ s -> exists c, t_new t a = Ok c) -> t_new (t_multi_union t) s = Panic.
Proof.
  intros Hl Hn. cbn. rewrite arrayvec_overflow; [done|done|]. intros a Ha. destruct (Hn a Ha) as [c ->]. cbn. eauto.
Qed.

(** new cursor, the given selections, then `data(i)` / `data_unchecked(i)` *)
Definition probe (t : tree) (s : t_T t) (xs : list sel) (i : N) : res (option (t_V t)) :=
  let* c := t_new t s in let* (c, _) := run_selects t s c None xs in t_cdata t s c i.
Definition probe_u (t : tree) (s : t_T t) (xs : list sel) (i : N) : res (t_V t) :=
  let* c := t_new t s in let* (c, _) := run_selects t s c None xs in t_cdata_u t s c i.
(** the mask returned by the last selection *)
Definition probe_mask (t : tree) (s : t_T t) (xs : list sel) : res (option mask) :=
  let* c := t_new t s in let* (_, m) := run_selects t s c None xs in Ok m.

(** multi_intersection cursor: after unchecked selections, `data` misses a present element
    while `data_unchecked` finds it *)
Lemma mi_cursor_unchecked_data :
  let t := t_multi_intersection (dense_tree N 2) in
  let s := [dense_after 2 (inserts [5%N]); dense_after 2 (inserts [5; 6]%N)] in
  tree_get t s 5 = Ok (Some [5%N; 5%N]) /\
  probe t s [Sel 0 0 true; Sel 1 0 true] 5 = Ok None /\ probe_u t s [Sel 0 0 true; Sel 1 0 true] 5 = Ok [5%N; 5%N].
Proof. vm_compute. done. Qed.

(** multi_union cursor: `data` answers Some(nothing) for an absent element; a `union` above
    it therefore reports wrong data during iteration *)
Lemma mu_cursor_data : let t := t_multi_union (dense_tree N 2) in let s := [dense_after 2 (inserts [5%N])] in
  tree_get t s 6 = Ok None /\ probe t s [Sel 0 0 false; Sel 1 0 false] 6 = Ok (Some []).
Proof. vm_compute. done. Qed.
Lemma union_of_mu_iter :
  let t := t_union (t_multi_union (dense_tree N 2)) (dense_tree N 2) in
  let s := ([dense_after 2 (inserts [5%N])], dense_after 2 (inserts [6%N])) in
  tree_get t s 6 = Ok (Some (None, Some 6%N)) /\
  iter_collect 10 t s = Ok [(5%N, (Some [5%N], None)); (6%N, (Some [], Some 6%N))].
Proof. vm_compute. done. Qed.

(** a panicking value constructor leaves an empty node behind: the tree claims
    EXACT_HIERARCHY but the root announces a child without elements *)
Lemma dense_panic_not_exact :
  let t := dense_after 2 [CGetOrInsert 5%N None None] in
  (forall k, (k < 4096)%N -> tree_get (dense_tree N 2) t k = Ok None) /\
  probe_mask (dense_tree N 2) t [Sel 0 0 false] = Ok (Some [1%N]).
Proof.
  intros t. split.
  - assert (forallb (fun k => match tree_get (dense_tree N 2) (dense_after 2 [CGetOrInsert 5%N None None]) k with Ok None => true | _ => false end)
      (seqN 0 4096) = true) as H by (vm_compute; done).
    intros k Hk. rewrite forallb_forall in H. specialize (H k).
    assert (In k (seqN 0 4096)) as Hin. { apply elem_of_list_In. apply elem_of_seqN. lia. }
    specialize (H Hin). fold t in H. destruct (tree_get (dense_tree N 2) t k) as [[?|]| | |]; done.
  - by vm_compute.
Qed.
Lemma sparse_panic_not_exact :
  let t := sparse_after 1 2 [CGetOrInsert 5%N None None] in
  (forall k, (k < 4096)%N -> tree_get (sparse_tree N 1 2) t k = Ok None) /\
  probe_mask (sparse_tree N 1 2) t [Sel 0 0 false] = Ok (Some [1%N]).
Proof.
  intros t. split.
  - assert (forallb (fun k => match tree_get (sparse_tree N 1 2) (sparse_after 1 2 [CGetOrInsert 5%N None None]) k with Ok None => true | _ => false end)
      (seqN 0 4096) = true) as H by (vm_compute; done).
    intros k Hk. rewrite forallb_forall in H. specialize (H k).
    assert (In k (seqN 0 4096)) as Hin. { apply elem_of_list_In. apply elem_of_seqN. lia. }
    specialize (H Hin). fold t in H. destruct (tree_get (sparse_tree N 1 2) t k) as [[?|]| | |]; done.
  - by vm_compute.
Qed.

(** `SparseTree::default()` with a panicking `Default` of the value type drops an
    uninitialised value *)
Lemma sparse_default_panic V nw D : sparse_default V nw D true None = UB.
Proof. done. Qed.

(** ** materialize of a tree that does not declare EXACT_HIERARCHY *)
(** `map(intersection(a, b), |(x, _)| x)` over DenseTree of depth 2 *)
Definition ex_first : tree := t_map (t_intersection (dense_tree N 2) (dense_tree N 2)) (fun '(x, _) => x).
Definition ex_mat_of (a b : list N) : res (dense N) := materialize ex_first (dense_after 2 (inserts a), dense_after 2 (inserts b)).
(** materialize the intersection of a tree holding [ks] with itself, then run calls *)
Definition mat_calls_outs (ks : list N) (cs : list (call N)) : res (list (out N)) :=
  let* d := ex_mat_of ks ks in let* (_, os, _) := dense_calls 2 d cs in Ok os.
Lemma mat_empty_ub : materialize ex_first (dense_after 2 (inserts [5%N]), dense_after 2 (inserts [70%N])) = UB.
Proof. vm_compute. done. Qed.
Lemma mat_insert_ub : mat_calls_outs [5%N] [CInsert 200 1]%N = Ok [ODone] /\
  mat_calls_outs [5%N] [CInsert 200 1; CGet 300]%N = UB.
Proof. vm_compute. done. Qed.
Lemma mat_remove_ub : mat_calls_outs [5; 70]%N [CRemove 70; CGet 5]%N = Ok [OVal (Some 70%N); OVal (Some 5%N)] /\
  mat_calls_outs [5; 70]%N [CRemove 70; CGet 5; CGet 70]%N = UB.
Proof. vm_compute. done. Qed.
Definition mat_empty : dense N := match ex_mat_of [5; 6]%N [7; 8]%N with Ok d => d | _ => dense_after 2 [] end.
Lemma mat_not_exact : exists d,
  materialize ex_first (dense_after 2 (inserts [5; 6]%N), dense_after 2 (inserts [7; 8]%N)) = Ok d /\
  (forall k, (k < 4096)%N -> tree_get (dense_tree N 2) d k = Ok None) /\
  probe_mask (dense_tree N 2) d [Sel 0 0 false] = Ok (Some [1%N]).
Proof.
  exists mat_empty. split.
  { assert (match ex_mat_of [5; 6]%N [7; 8]%N with Ok _ => true | _ => false end = true) as H by (vm_compute; done).
    unfold mat_empty. unfold ex_mat_of in *. destruct (materialize ex_first _); done. }
  split; [|by vm_compute].
  assert (forallb (fun k => match tree_get (dense_tree N 2) mat_empty k with Ok None => true | _ => false end)
    (seqN 0 4096) = true) as H by (vm_compute; done).
  intros k Hk. rewrite forallb_forall in H. specialize (H k).
  assert (In k (seqN 0 4096)) as Hin. { apply elem_of_list_In. apply elem_of_seqN. lia. }
  specialize (H Hin). destruct (tree_get (dense_tree N 2) mat_empty k) as [[?|]| | |]; done.
Qed.
