(** * Properties of SparseTree: C02, C04-C06, C22, C23, C25, C27, C28, C32-C35

    [sparse_run nw D req dflt cs]: `SparseTree::<_, ReqDefault<req>>::default()` of width
    64*nw and depth D followed by the public calls [cs] (Client.v); [dflt]: what
    `Default::default()` of the value type returns ([None]: it panics).
    [sparse_legal]: the calls exist, `Default` does not panic when it is required, and
    [links_fit] (Spec.v) holds throughout: at every level the number of subtrees needed at
    the same time, for the stored keys and those whose constructor panicked, can be expressed
    by that level's index type. *)
From Verif Require Import Base BitUtils LevelIndices Hierarchy Sparse Spec SpecLaws Client DenseHistory SparseHistory
  Dense DenseLaws SparseLaws SparseBlocks SparseReuse Findings Examples.

Section sparse.
Context {V : Type} (nw D : nat).
Hypothesis Hnw : nw_ok nw.
Hypothesis HD0 : 1 <= D.
Hypothesis HD : D <= 8.
Context (req : bool) (dflt : option V).
Notation B := (key_bound nw D).
Notation T := (sparse_tree V nw D).
Notation legal := (sparse_legal nw D req dflt).
Notation reached := (sparse_reached nw D req dflt).
Notation run := (sparse_run nw D req dflt).
Notation d0 := (placeholder req dflt).
Implicit Types (t : sparse V) (cs : list (call V)).
Let HD9 : D <= 9 := ltac:(lia).

(** C02: every call answers what it answers on a map; no undefined behaviour *)
Theorem C02_sparse_map cs : legal cs -> exists t dr, run cs = Ok (t, spec_outs B d0 ∅ cs, dr).
Proof. intros Hl. destruct (sparse_run_ok nw D req dflt cs Hnw HD0 HD9 Hl) as (t & dr & E & _). eauto. Qed.
(** widths 64 and 128: the condition on links is void as long as no constructor panics and
    there are fewer than 2^32 elements *)
Theorem C02_sparse_map_narrow cs : nw = 1 \/ nw = 2 -> Forall (sparse_api req) cs -> (req = true -> is_Some dflt) ->
  spec_all_panicked B ∅ cs = ∅ -> spec_always B small32 ∅ cs ->
  exists t dr, run cs = Ok (t, spec_outs B d0 ∅ cs, dr).
Proof. intros Hn Ha Hd Hp Hs. apply C02_sparse_map. by apply sparse_narrow_legal. Qed.
(** and void altogether for width 64 up to depth 5 and width 128 up to depth 4 *)
Theorem C02_sparse_map_small cs : (nw = 1 /\ D <= 5) \/ (nw = 2 /\ D <= 4) -> Forall (sparse_api req) cs ->
  (req = true -> is_Some dflt) -> exists t dr, run cs = Ok (t, spec_outs B d0 ∅ cs, dr).
Proof. intros Hs Ha Hd. apply C02_sparse_map. by apply sparse_small_legal. Qed.
Theorem C02_sparse_get cs t k : legal cs -> reached cs t ->
  tree_get T t k = if (k <? B)%N then Ok (spec_run B ∅ cs !! k) else Panic.
Proof. by apply sparse_get_law. Qed.

(** C04: draining `iter()` yields exactly the map's pairs in ascending key order *)
Theorem C04_sparse_iter cs t : legal cs -> reached cs t -> exists n l,
  (forall fuel, n <= fuel -> iter_collect fuel T t = Ok l) /\ enumerates l (fun k => spec_run B ∅ cs !! k).
Proof. by apply sparse_iter_law. Qed.

(** C05: `key_values()` *)
Theorem C05_sparse_key_values cs t : legal cs -> reached cs t ->
  exists ks vs, sparse_key_values t = Ok (ks, vs) /\ length ks = length vs /\ NoDup ks /\
    forall k v, (k, v) ∈ zip ks vs <-> spec_run B ∅ cs !! k = Some v.
Proof. by apply sparse_kv_law. Qed.

(** C06: keys out of range panic, whatever the tree is; keys in range never do *)
Theorem C06_sparse_rejects t k v d : (B <= k)%N ->
  sparse_insert nw D t k v = Panic /\ sparse_get_or_insert nw D t k d = Panic /\ sparse_remove nw D t k = Panic /\
  tree_get T t k = Panic /\ sparse_get_mut nw D t k = Panic /\ sparse_get_or_default nw D t k = Panic.
Proof. by apply sparse_rejects. Qed.
Theorem C06_sparse_accepts cs t k v d : legal cs -> reached cs t -> (k < B)%N -> legal (cs ++ [CInsert k v]) ->
  completes (sparse_insert nw D t k v) /\ completes (sparse_get_or_insert nw D t k d) /\
  completes (sparse_remove nw D t k) /\ completes (tree_get T t k) /\ completes (sparse_get_mut nw D t k) /\
  (req = true -> completes (sparse_get_or_default nw D t k)).
Proof. by apply sparse_accepts. Qed.

(** C22 *)
Theorem C22_get_or_default cs t k d : legal cs -> reached cs t -> req = true -> dflt = Some d -> (k < B)%N ->
  exists o, tree_get T t k = Ok o /\ sparse_get_or_default nw D t k = Ok (default d o).
Proof. by apply sparse_default_law. Qed.

(** C25: at every level below the root the tree holds at most one block more than the number
    of subtrees ([prefixes], Spec.v) that were needed at some single moment [cs1] of its
    history (keys whose constructor panicked count as needed); and the value vector has no
    holes *)
Theorem C25_block_reuse cs t n : legal cs -> reached cs t -> 1 <= n -> n < D ->
  exists cs1, cs1 `prefix_of` cs /\
    blocks_held t n <= 1 + size (prefixes (msize nw) D n (dom (spec_run B ∅ cs1) ∪ spec_all_panicked B ∅ cs1)).
Proof. by apply sparse_held. Qed.
Theorem C25_no_value_holes cs t : legal cs -> reached cs t -> length (s_values t) = 1 + size (spec_run B ∅ cs).
Proof.
  intros Hl Hr. eapply (inv_values nw D Hnw HD0 HD9 d0). by apply sparse_reached_inv.
Qed.

(** C25: the block handed out next at a level below the root is empty and unused (no walk from
    the root comes by it, [block_used], SparseReuse.v), handing it out changes no other block,
    and as long as some block is unused the level does not grow *)
Theorem C25_reused_blocks_empty cs t n l : legal cs -> reached cs t -> 1 <= n -> n < D -> s_levels t !! n = Some l ->
  exists l' i, lv_insert_empty nw l = Ok (l', i) /\ lv_get l' i = Ok (blk_empty nw) /\ (0 < i)%N /\ ~ block_used nw D t n i /\
    (forall j, j <> i -> (N.to_nat j < length (lv_blocks l)) -> lv_get l' j = lv_get l j) /\
    (forall j, (0 < j)%N -> (N.to_nat j < length (lv_blocks l)) -> ~ block_used nw D t n j -> length (lv_blocks l') = length (lv_blocks l)).
Proof. intros Hl Hr. eapply (reuse_inv nw D Hnw HD0 HD9 d0). by apply sparse_reached_inv. Qed.

(** C27 *)
Theorem C27_sparse_panic cs1 cs2 k w : legal (cs1 ++ cs2) -> legal (cs1 ++ CGetOrInsert k None w :: cs2) -> (k < B)%N ->
  spec_run B ∅ cs1 !! k = None ->
  exists t1 t2 dr1 dr2 os1 os2, length os1 = length cs1 /\
    run (cs1 ++ cs2) = Ok (t1, os1 ++ os2, dr1) /\
    run (cs1 ++ CGetOrInsert k None w :: cs2) = Ok (t2, os1 ++ OPanic :: os2, dr2) /\ dr1 ≡ₚ dr2 /\
    forall k', tree_get T t2 k' = tree_get T t1 k'.
Proof. by apply sparse_panic_law. Qed.

(** C28: an inserted element is never lost: (a) whatever the width, when the links fit;
    (b) widths 64 and 128 always, below 2^32 elements.  Missing for the full claim:
    width 256, where it is false, see [C28_refuted_*] *)
Theorem C28_insert_get_partial cs k v : legal (cs ++ [CInsert k v]) -> (k < B)%N ->
  exists t os dr, run (cs ++ [CInsert k v]) = Ok (t, os, dr) /\ tree_get T t k = Ok (Some v).
Proof.
  intros Hl Hk. destruct (C02_sparse_map _ Hl) as (t & dr & E). eexists _, _, _. split; [exact E|].
  rewrite (C02_sparse_get (cs ++ [CInsert k v]) t k Hl) by (eexists _, _; exact E).
  rewrite (proj2 (N.ltb_lt k B) Hk), spec_run_app. cbn [spec_run spec_map]. rewrite (proj2 (N.ltb_lt k B) Hk). by rewrite lookup_insert.
Qed.
Theorem C28_insert_get_narrow_partial cs k v : nw = 1 \/ nw = 2 -> Forall (sparse_api req) cs -> (req = true -> is_Some dflt) ->
  spec_all_panicked B ∅ cs = ∅ -> spec_always B small32 ∅ (cs ++ [CInsert k v]) -> (k < B)%N ->
  exists t os dr, run (cs ++ [CInsert k v]) = Ok (t, os, dr) /\ tree_get T t k = Ok (Some v).
Proof.
  intros Hn Ha Hd Hp Hs Hk. apply C28_insert_get_partial; [|done]. apply sparse_narrow_legal; try done.
  - apply Forall_app. split; [done|]. by repeat constructor.
  - clear -Hp. revert Hp. generalize (∅ : gmap N V). induction cs as [|c cs IH]; intros m Hp; cbn [app spec_all_panicked] in *.
    + cbn. set_solver.
    + apply empty_union_L in Hp as [-> Hp]. rewrite IH by done. set_solver.
Qed.

(** C32: a whole life; the placeholder at position 0 exists only with [req] *)
Theorem C32_sparse_drops cs : legal cs -> exists t os dr dr2,
  run cs = Ok (t, os, dr) /\ sparse_drop req t = Ok dr2 /\
  (if req then ol dflt else []) ++ spec_collect B (spec_in B) ∅ cs ≡ₚ removed_values cs os ++ dr ++ dr2.
Proof. by apply sparse_life. Qed.

(** C33 and C23: `get_mut` / `get_mut_unchecked` *)
Theorem C33_sparse_get_mut cs t k : legal cs -> reached cs t -> (k < B)%N ->
  match spec_run B ∅ cs !! k with
  | None => sparse_get_mut nw D t k = Ok None /\ tree_get T t k = Ok None
  | Some v => exists j, sparse_get_mut nw D t k = Ok (Some j) /\ sparse_get_mut_unchecked nw D t k = Ok j /\
      data_get (s_values t) (N.to_nat j) = Ok v /\ tree_get T t k = Ok (Some v) /\
      forall x, exists t', sparse_write_ref t j x = Ok t' /\
        forall k', tree_get T t' k' = if decide (k' = k) then Ok (Some x) else tree_get T t k'
  end.
Proof. by apply sparse_get_mut_law. Qed.
Theorem C23_sparse_get_mut_unchecked cs t k v : legal cs -> reached cs t -> tree_get T t k = Ok (Some v) ->
  exists j, sparse_get_mut nw D t k = Ok (Some j) /\ sparse_get_mut_unchecked nw D t k = Ok j.
Proof.
  intros Hl Hr Hg. rewrite (C02_sparse_get cs t k Hl Hr) in Hg. destruct (N.ltb_spec k B) as [Hk|]; [|done].
  pose proof (C33_sparse_get_mut cs t k Hl Hr Hk) as H. injection Hg as Hg. rewrite Hg in H. destruct H as (j & H1 & H2 & _). eauto.
Qed.
Theorem C33_sparse_get_or_insert cs t k d x : legal cs -> reached cs t -> (k < B)%N -> legal (cs ++ [CInsert k d]) ->
  exists t1 j dr t2, sparse_get_or_insert nw D t k (Some d) = Ok (t1, Some j, dr) /\
    (exists v, data_get (s_values t1) (N.to_nat j) = Ok v /\ tree_get T t1 k = Ok (Some v) /\
       v = default d (spec_run B ∅ cs !! k)) /\
    sparse_write_ref t1 j x = Ok t2 /\
    (forall k', tree_get T t2 k' = if decide (k' = k) then Ok (Some x) else tree_get T t k').
Proof. by apply sparse_ref_law. Qed.
Theorem C33_sparse_key_values_mut cs t f : legal cs -> reached cs t ->
  exists t' dr, sparse_update_all f t = Ok (t', dr) /\
    forall k, tree_get T t' k = match tree_get T t k with Ok o => Ok (f k <$> o) | r => r end.
Proof. by apply sparse_update_law. Qed.

(** C34 *)
Theorem C34_sparse_history cs1 cs2 t1 t2 : legal cs1 -> legal cs2 -> reached cs1 t1 -> reached cs2 t2 ->
  (forall k, tree_get T t1 k = tree_get T t2 k) ->
  (exists n l, forall fuel, n <= fuel -> iter_collect fuel T t1 = Ok l /\ iter_collect fuel T t2 = Ok l) /\
  (exists ks1 vs1 ks2 vs2, sparse_key_values t1 = Ok (ks1, vs1) /\ sparse_key_values t2 = Ok (ks2, vs2) /\ zip ks1 vs1 ≡ₚ zip ks2 vs2) /\
  (forall cs, legal (cs1 ++ cs) -> legal (cs2 ++ cs) -> exists t1' t2' os dr1 dr2,
     sparse_calls nw D t1 cs = Ok (t1', os, dr1) /\ sparse_calls nw D t2 cs = Ok (t2', os, dr2) /\ dr1 ≡ₚ dr2).
Proof. by apply sparse_history_indep. Qed.
End sparse.

(** C35: the same history on a DenseTree and on a 64-wide SparseTree *)
Theorem C35_dense_sparse {V} D (cs : list (call V)) : 1 <= D -> D <= 8 -> dense_legal D cs -> sparse_legal 1 D false None cs ->
  exists td ts os drd drs, dense_run D cs = Ok (td, os, drd) /\ sparse_run 1 D false None cs = Ok (ts, os, drs) /\ drd ≡ₚ drs /\
    (forall k, tree_get (dense_tree V D) td k = tree_get (sparse_tree V 1 D) ts k) /\
    exists n l, forall fuel, n <= fuel -> iter_collect fuel (dense_tree V D) td = Ok l /\ iter_collect fuel (sparse_tree V 1 D) ts = Ok l.
Proof. apply dense_sparse_law. Qed.

(** C28 is false for width 256: the 256th element / the 256th child of the root is lost *)
Theorem C28_refuted_depth1 :
  let t := sparse_after 4 1 (inserts (seqN 0 256)) in
  tree_get (sparse_tree N 4 1) t 254 = Ok (Some 254%N) /\ tree_get (sparse_tree N 4 1) t 255 = Ok None.
Proof. exact sparse_256_loses_depth1. Qed.
Theorem C28_refuted_depth2 :
  let t := sparse_after 4 2 (inserts ((fun i => 256 * i)%N <$> seqN 0 256)) in
  tree_get (sparse_tree N 4 2) t (256 * 254) = Ok (Some (256 * 254)%N) /\ tree_get (sparse_tree N 4 2) t (256 * 255) = Ok None.
Proof. exact sparse_256_loses_depth2. Qed.
(** C16 is false after a panicking constructor *)
Theorem C16_sparse_panic_refuted :
  let t := sparse_after 1 2 [CGetOrInsert 5%N None None] in
  (forall k, (k < 4096)%N -> tree_get (sparse_tree N 1 2) t k = Ok None) /\
  probe_mask (sparse_tree N 1 2) t [Sel 0 0 false] = Ok (Some [1%N]).
Proof. exact sparse_panic_not_exact. Qed.
(** C32 is false when `Default` panics inside `SparseTree::default()`: an uninitialised value
    is dropped during unwinding *)
Theorem C38_default_panic_refuted V nw D : sparse_default V nw D true None = UB.
Proof. exact (sparse_default_panic V nw D). Qed.

(** the hypotheses are met *)
Example sparse_example : sparse_legal 1 3 false None ex_cs /\ sparse_reached 1 3 false None ex_cs (sparse_after 1 3 ex_cs) /\
  spec_run (key_bound 1 3) ∅ ex_cs = ex_map.
Proof.
  split; [apply ex_sparse_legal; by left|]. split; [exact ex_sparse_reached|]. exact ex_dense_map.
Qed.
Example sparse256_example : sparse_legal 4 2 true (Some 0%N) ex_keys256 /\
  spec_outs (key_bound 4 2) (Some 0%N) ∅ ex_keys256 = [ODone; ODone; ODone; OVal (Some 50); OVal (Some 0); OVal (Some 51)]%N.
Proof. split; [exact ex_sparse256_legal|]. vm_compute. done. Qed.
Example C27_sparse_example : sparse_legal 1 3 false None (ex_cs ++ [CInsert 9000 1; CRemove 5]%N) /\
  sparse_legal 1 3 false None (ex_cs ++ CGetOrInsert 9000%N None None :: [CInsert 9000 1; CRemove 5]%N) /\
  (9000 < key_bound 1 3)%N /\ spec_run (key_bound 1 3) ∅ ex_cs !! 9000%N = None.
Proof. split; [|split; [|vm_compute; done]]; (apply sparse_small_legal; [by left|lia|lia|left; lia|repeat constructor|done]). Qed.
Example C28_example : sparse_legal 1 3 false None (ex_cs ++ [CInsert 9000 1]%N) /\
  spec_all_panicked (key_bound 1 3) ∅ (inserts [5; 71]%N) = ∅ /\ spec_always (key_bound 1 3) small32 ∅ (inserts [5; 71]%N ++ [CInsert 9 1]%N).
Proof.
  split; [apply sparse_small_legal; [by left|lia|lia|left; lia|repeat constructor|done]|].
  split; [apply (bool_decide_eq_true_1 _); vm_compute; done|].
  cbn [inserts fmap list_fmap app spec_always]. repeat (split; [vm_compute; done|]). vm_compute. done.
Qed.
Example C34_sparse_example : sparse_legal 1 3 false None (inserts [5; 71]%N) /\
  sparse_legal 1 3 false None (inserts [71; 99; 5]%N ++ [CRemove 99%N]) /\
  spec_run (key_bound 1 3) ∅ (inserts [5; 71]%N) = spec_run (key_bound 1 3) ∅ (inserts [71; 99; 5]%N ++ [CRemove 99%N]).
Proof.
  split; [|split; [|apply (bool_decide_eq_true_1 _); vm_compute; done]];
    (apply sparse_small_legal; [by left|lia|lia|left; lia|repeat constructor|done]).
Qed.
(** keys in three different subtrees, one at a time: two blocks suffice at level 1 *)
Definition ex_reuse : list (call N) := inserts [5]%N ++ [CRemove 5%N] ++ inserts [4096 * 3]%N ++ [CRemove (4096 * 3)%N] ++ inserts [4096 * 7]%N.
Example C25_example : sparse_legal 1 3 false None ex_reuse /\
  sparse_reached 1 3 false None ex_reuse (sparse_after 1 3 ex_reuse) /\ blocks_held (sparse_after 1 3 ex_reuse) 1 = 2.
Proof.
  assert (sparse_legal 1 3 false None ex_reuse) as Hl by (apply sparse_small_legal; [by left|lia|lia|left; lia|repeat constructor|done]).
  split; [done|]. split; [apply sparse_after_reached; [by left|lia|lia|done]|]. vm_compute. done.
Qed.
(** removals free two blocks at level 1; the next insert takes one of them and nothing grows *)
Definition reuse_cs : list (call N) := (ex_cs ++ [CRemove 200000; CRemove 5; CRemove 70])%N.
Example C25_reuse_example : sparse_legal 1 3 false None reuse_cs /\ sparse_reached 1 3 false None reuse_cs (sparse_after 1 3 reuse_cs) /\
  exists l l' i, s_levels (sparse_after 1 3 reuse_cs) !! 1 = Some l /\ lv_insert_empty 1 l = Ok (l', i) /\
    length (lv_blocks l) = 4 /\ length (lv_blocks l') = 4 /\ i = 1%N.
Proof.
  assert (sparse_legal 1 3 false None reuse_cs) as Hl.
  { apply sparse_small_legal; [by left|lia|lia|left; split; lia|repeat constructor|done]. }
  split; [done|]. split; [apply sparse_after_reached; [by left|lia|lia|done]|].
  eexists _, _, _. split; [vm_compute; reflexivity|]. split; [vm_compute; reflexivity|]. split_and!; reflexivity.
Qed.
