(** * Properties of DenseTree: C01, C03, C05, C06, C19, C26, C27, C32, C33, C34, C36

    [dense_run D cs]: `DenseTree::<_, D>::default()` followed by the public calls [cs]
    (Client.v); [spec_outs]/[spec_run]: the same calls on a finite map (Spec.v);
    [dense_legal D cs]: the calls exist on DenseTree, depth-1 trees are not asked to remove
    (C36), and the map never has 2^32 elements or more (the index type is u32). *)
From Verif Require Import Base BitUtils LevelIndices Hierarchy Dense Spec SpecLaws Client DenseHistory DenseLaws DenseLimit Findings Examples.

Section dense.
Context {V : Type} (D : nat).
Hypothesis HD0 : 1 <= D.
Hypothesis HD : D <= 9.
Notation B := (64 ^ N.of_nat D)%N.
Notation T := (dense_tree V D).
Implicit Types (t : dense V) (cs : list (call V)).

(** C01: every call answers what it answers on a map; no undefined behaviour *)
Theorem C01_dense_map cs : dense_legal D cs ->
  exists t dr, dense_run D cs = Ok (t, spec_outs B None ∅ cs, dr).
Proof. intros Hl. destruct (dense_run_ok D cs HD0 HD Hl) as (t & dr & ex & E & _). eauto. Qed.
(** up to depth 5 (64^5 < 2^32) the size condition is void *)
Theorem C01_dense_map_small cs : D <= 5 -> Forall dense_api cs -> (Exists is_remove cs -> 2 <= D) ->
  exists t dr, dense_run D cs = Ok (t, spec_outs B None ∅ cs, dr).
Proof. intros H5 Ha Hr. apply C01_dense_map. exact (dense_small_legal D HD0 HD cs H5 Ha Hr). Qed.
(** `get` on the tree that a history leaves behind *)
Theorem C01_dense_get cs t k : dense_legal D cs -> dense_reached D cs t ->
  tree_get T t k = if (k <? B)%N then Ok (spec_run B ∅ cs !! k) else Panic.
Proof. exact (dense_get_law D HD0 HD cs t k). Qed.

(** C03: draining `iter()` yields exactly the map's pairs in ascending key order *)
Theorem C03_dense_iter cs t : dense_legal D cs -> dense_reached D cs t -> exists n l,
  (forall fuel, n <= fuel -> iter_collect fuel T t = Ok l) /\ enumerates l (fun k => spec_run B ∅ cs !! k).
Proof. exact (dense_iter_law D HD0 HD cs t). Qed.

(** C05: `key_values()` *)
Theorem C05_dense_key_values cs t : dense_legal D cs -> dense_reached D cs t ->
  exists ks vs, dense_key_values t = Ok (ks, vs) /\ length ks = length vs /\ NoDup ks /\
    forall k v, (k, v) ∈ zip ks vs <-> spec_run B ∅ cs !! k = Some v.
Proof. exact (dense_kv_law D HD0 HD cs t). Qed.

(** C06: keys out of range panic, whatever the tree is; keys in range never do.  That a
    rejected call inside a history changes nothing is part of C01 ([spec_map]). *)
Theorem C06_dense_rejects t k v d : (B <= k)%N ->
  dense_insert D t k v = Panic /\ dense_get_or_insert D t k d = Panic /\ dense_remove D t k = Panic /\
  tree_get T t k = Panic.
Proof. exact (dense_rejects D HD0 HD t k v d). Qed.
Theorem C06_dense_accepts cs t k v d : dense_legal D cs -> dense_reached D cs t -> (k < B)%N ->
  (N.of_nat (size (spec_run B ∅ cs)) < 2 ^ 32 - 1)%N ->
  completes (dense_insert D t k v) /\ completes (dense_get_or_insert D t k d) /\
  (2 <= D -> completes (dense_remove D t k)) /\ completes (tree_get T t k).
Proof. exact (dense_accepts D HD0 HD cs t k v d). Qed.

(** C19 and C32: a whole life.  No access to freed/uninitialised/out-of-bounds/static memory
    (that would be [UB]); after `drop` the heap is empty; and every value that was moved in
    or constructed is accounted for exactly once: returned by `remove`, dropped on
    replacement ([dr]) or dropped with the tree ([dr2]) *)
Theorem C19_dense_memory cs : dense_legal D cs ->
  exists t os dr h dr2, dense_run D cs = Ok (t, os, dr) /\ dense_drop D t = Ok (h, dr2) /\ h_nodes h = ∅.
Proof. intros Hl. destruct (dense_life D HD0 HD cs Hl) as (t & os & dr & h & dr2 & H1 & H2 & H3 & _). eauto 10. Qed.
Theorem C32_dense_drops cs : dense_legal D cs ->
  exists t os dr h dr2, dense_run D cs = Ok (t, os, dr) /\ dense_drop D t = Ok (h, dr2) /\
    spec_collect B (spec_in B) ∅ cs ≡ₚ removed_values cs os ++ dr ++ dr2.
Proof. intros Hl. destruct (dense_life D HD0 HD cs Hl) as (t & os & dr & h & dr2 & H1 & H2 & _ & H4). eauto 10. Qed.

(** C26: len/cap counters of every node *)
Theorem C26_dense_capacity cs t a n : dense_legal D cs -> dense_reached D cs t -> h_nodes (d_heap t) !! a = Some n ->
  n_len n = S (popcount (n_mask n)) /\ n_len n <= 65 /\ n_len n <= n_cap n /\ n_cap n <= 128 /\ n_cap n = length (n_slots n).
Proof. exact (dense_node_law D HD0 HD cs t a n). Qed.

(** C27: inserting a `get_or_insert` with a panicking constructor into a history changes no
    other answer *)
Theorem C27_dense_panic cs1 cs2 k w : dense_legal D (cs1 ++ cs2) -> (k < B)%N -> spec_run B ∅ cs1 !! k = None ->
  exists t1 t2 dr1 dr2 os1 os2, length os1 = length cs1 /\
    dense_run D (cs1 ++ cs2) = Ok (t1, os1 ++ os2, dr1) /\
    dense_run D (cs1 ++ CGetOrInsert k None w :: cs2) = Ok (t2, os1 ++ OPanic :: os2, dr2) /\ dr1 ≡ₚ dr2 /\
    forall k', tree_get T t2 k' = tree_get T t1 k'.
Proof. exact (dense_panic_law D HD0 HD cs1 cs2 k w). Qed.

(** C33: the reference handed out by `get_or_insert` *)
Theorem C33_dense_get_or_insert cs t k d x : dense_legal D cs -> dense_reached D cs t -> (k < B)%N ->
  (N.of_nat (size (spec_run B ∅ cs)) < 2 ^ 32 - 1)%N ->
  exists t1 j dr t2, dense_get_or_insert D t k (Some d) = Ok (t1, Some j, dr) /\
    (exists v, data_get (d_data t1) j = Ok v /\ tree_get T t1 k = Ok (Some v) /\ v = default d (spec_run B ∅ cs !! k)) /\
    dense_write_ref t1 j x = Ok t2 /\
    (forall k', tree_get T t2 k' = if decide (k' = k) then Ok (Some x) else tree_get T t k').
Proof. exact (dense_ref_law D HD0 HD cs t k d x). Qed.
(** C33: assigning through every reference of `key_values_mut` *)
Theorem C33_dense_key_values_mut cs t f : dense_legal D cs -> dense_reached D cs t ->
  exists t' dr, dense_update_all f t = Ok (t', dr) /\
    forall k, tree_get T t' k = match tree_get T t k with Ok o => Ok (f k <$> o) | r => r end.
Proof. exact (dense_update_law D HD0 HD cs t f). Qed.

(** C34: trees with equal `get` are indistinguishable: same iteration, same key/value pairs,
    same answers to every further history *)
Theorem C34_dense_history cs1 cs2 t1 t2 : dense_legal D cs1 -> dense_legal D cs2 -> dense_reached D cs1 t1 -> dense_reached D cs2 t2 ->
  (forall k, tree_get T t1 k = tree_get T t2 k) ->
  (exists n l, forall fuel, n <= fuel -> iter_collect fuel T t1 = Ok l /\ iter_collect fuel T t2 = Ok l) /\
  (exists ks1 vs1 ks2 vs2, dense_key_values t1 = Ok (ks1, vs1) /\ dense_key_values t2 = Ok (ks2, vs2) /\ zip ks1 vs1 ≡ₚ zip ks2 vs2) /\
  (forall cs, dense_legal D (cs1 ++ cs) -> exists t1' t2' os dr1 dr2,
     dense_calls D t1 cs = Ok (t1', os, dr1) /\ dense_calls D t2 cs = Ok (t2', os, dr2) /\ dr1 ≡ₚ dr2).
Proof. exact (dense_history_indep D HD0 HD cs1 cs2 t1 t2). Qed.
End dense.

(** C36: refuted: at depth 1, `remove` of any key in range is undefined behaviour, for every tree *)
Theorem C36_dense_remove_depth1_refuted {V} (t : dense V) k : (k < 64)%N -> dense_remove 1 t k = UB.
Proof. exact (dense_remove_depth1 t k). Qed.

(** a panicking constructor leaves an empty node: the tree is no longer exact although it
    still behaves as a map (C16) *)
Theorem C16_dense_panic_refuted :
  let t := dense_after 2 [CGetOrInsert 5%N None None] in
  (forall k, (k < 4096)%N -> tree_get (dense_tree N 2) t k = Ok None) /\
  probe_mask (dense_tree N 2) t [Sel 0 0 false] = Ok (Some [1%N]).
Proof. exact dense_panic_not_exact. Qed.

(** the hypotheses are met by a non-trivial history (see Examples.v: 13 calls on depth 3,
    with replacement, removal that frees nodes, a rejected key and a panicking constructor) *)
Example dense_example : dense_legal 3 ex_cs /\ dense_reached 3 ex_cs (dense_after 3 ex_cs) /\
  spec_run (64 ^ 3) ∅ ex_cs = ex_map /\
  spec_outs (64 ^ 3) None ∅ ex_cs =
    [ODone; ODone; ODone; OVal (Some 7); ODone; OVal (Some 41); OVal None; OPanic; ODone; OVal None;
     OPanic; OVal (Some 78); OVal (Some 56)]%N.
Proof.
  split; [exact ex_dense_legal|]. split; [exact ex_dense_reached|]. split; [exact ex_dense_map|]. vm_compute. done.
Qed.
Example C27_example : dense_legal 3 (ex_cs ++ [CInsert 9000 1; CRemove 5]%N) /\ (9000 < 64 ^ 3)%N /\ spec_run (64 ^ 3) ∅ ex_cs !! 9000%N = None.
Proof. split; [|vm_compute; done]. apply dense_small_legal; [lia|lia|lia|repeat constructor|lia]. Qed.
(** two different histories with equal content *)
Example C34_example : dense_legal 3 (inserts [5; 71]%N) /\ dense_legal 3 (inserts [71; 99; 5]%N ++ [CRemove 99%N]) /\
  spec_run (64 ^ 3) ∅ (inserts [5; 71]%N) = spec_run (64 ^ 3) ∅ (inserts [71; 99; 5]%N ++ [CRemove 99%N]).
Proof.
  split; [apply dense_small_legal; [lia|lia|lia|repeat constructor|lia]|].
  split; [apply dense_small_legal; [lia|lia|lia|repeat constructor|lia]|].
  apply (bool_decide_eq_true_1 _). vm_compute. done.
Qed.

(** C39: for every legal history, `insert` then `get`; below 2^32 - 1 elements the value is there *)
Theorem C39_dense_insert_get_partial {V} D (cs : list (call V)) t k v : 1 <= D -> D <= 9 -> dense_legal D cs -> dense_reached D cs t ->
  (k < 64 ^ N.of_nat D)%N -> (N.of_nat (size (spec_run (64 ^ N.of_nat D) ∅ cs)) < 2 ^ 32 - 1)%N ->
  exists t' dr, dense_insert D t k v = Ok (t', dr) /\ tree_get (dense_tree V D) t' k = Ok (Some v) /\
    tree_get_unchecked (dense_tree V D) t' k = Ok v.
Proof. intros H1 H9. exact (dense_insert_get D H1 H9 cs t k v). Qed.
(** with 2^32 - 1 elements, inserting one more key loses it, whatever the history was; such
    histories exist from depth 6 on *)
Theorem C39_dense_full_refuted {V} D (cs : list (call V)) t k v : 1 <= D -> D <= 9 -> dense_legal D cs -> dense_reached D cs t ->
  (k < 64 ^ N.of_nat D)%N -> spec_run (64 ^ N.of_nat D) ∅ cs !! k = None ->
  N.of_nat (size (spec_run (64 ^ N.of_nat D) ∅ cs)) = (2 ^ 32 - 1)%N ->
  exists t', dense_insert D t k v = Ok (t', []) /\ tree_get (dense_tree V D) t' k = Ok None /\
    tree_get_unchecked (dense_tree V D) t' k = UB.
Proof.
  intros H1 H9 Hl Hr Hk Hm Hs. destruct (dense_reached_inv D cs t H1 H9 Hl Hr) as (ex & Hi & _).
  exact (insert_full D H1 H9 ex t _ k v Hi Hk Hm Hs).
Qed.
Theorem C39_dense_full_exists {V} D (v : V) : 6 <= D -> D <= 9 ->
  exists (cs : list (call V)) t t', dense_legal D cs /\ dense_reached D cs t /\
    dense_insert D t (2 ^ 32) v = Ok (t', []) /\ tree_get (dense_tree V D) t' (2 ^ 32) = Ok None.
Proof.
  intros H6 H9. destruct (full_history D v H6 H9) as (cs & Hl & Hs & Hm & Hk).
  assert (1 <= D) as H1 by lia. destruct (dense_run_ok D cs H1 H9 Hl) as (t & dr & ex & E & _).
  assert (dense_reached D cs t) as Hr by (eexists _, _; exact E).
  destruct (C39_dense_full_refuted D cs t (2 ^ 32)%N v H1 H9 Hl Hr Hk Hm Hs) as (t' & H2 & H3 & _).
  exists cs, t, t'. done.
Qed.
