(** * Properties of DenseTree's memory: C46 (footprint), C47 (node layout) *)
From Verif Require Import Base BitUtils BitUtilsProofs LevelIndices Hierarchy Ops Dense DenseMemory NodeLayout Spec SpecLaws Client TreeClient DenseHistory DenseLaws
  DenseProofs Materialize MaterializeLaws Compose ViewLaws MaterializeViews PropertiesDense Findings Examples.

(** C46: after any history (in which no value constructor panicked) the number of allocated
    nodes depends only on the keys: the root and one node per non-empty subtree
    ([prefixes W D n K]: the distinct [n]-digit prefixes of the keys) *)
Theorem C46_dense_nodes {V} D (cs : list (call V)) t : 1 <= D -> D <= 9 -> dense_legal D cs -> dense_reached D cs t ->
  spec_all_panicked (64 ^ N.of_nat D) ∅ cs = ∅ ->
  size (h_nodes (d_heap t)) = 1 + sum_list ((fun n => size (prefixes 64 D n (dom (spec_run (64 ^ N.of_nat D) ∅ cs)))) <$> seq 1 (D - 1)).
Proof.
  intros H0 H9 Hl Hr Hp. destruct (dense_reached_inv D cs t H0 H9 Hl Hr) as (ex & Hi & He).
  apply (dense_nodes D H0 H9 t). eapply dense_inv_mono; [|exact Hi]. intros p (q & _ & Hk)%He. rewrite Hp in Hk. set_solver.
Qed.
(** with panicking constructors: at least the nodes that the present keys need, and at most
    those that the present keys and the keys of the panicking calls would need together *)
Theorem C46_dense_nodes_panics {V} D (cs : list (call V)) t : 1 <= D -> D <= 9 -> dense_legal D cs -> dense_reached D cs t ->
  let K := dom (spec_run (64 ^ N.of_nat D) ∅ cs) in let E := spec_all_panicked (64 ^ N.of_nat D) ∅ cs in
  1 + sum_list ((fun n => size (prefixes 64 D n K)) <$> seq 1 (D - 1)) <= size (h_nodes (d_heap t)) <=
  1 + sum_list ((fun n => size (prefixes 64 D n (K ∪ E))) <$> seq 1 (D - 1)).
Proof.
  intros H0 H9 Hl Hr K E. destruct (dense_reached_inv D cs t H0 H9 Hl Hr) as (ex & Hi & He).
  refine (dense_nodes_between D H0 H9 E t _ _ (dense_inv_mono D _ _ t _ He Hi)).
  unfold E. generalize (∅ : gmap N V). clear. induction cs as [|c cs IH]; intros m k; cbn [spec_all_panicked]; [set_solver|].
  intros [Hk|Hk]%elem_of_union; [|by eapply IH].
  destruct c as [|k' [?|] ?| | | | |]; cbn [spec_panicked] in Hk; try set_solver.
  destruct (N.ltb_spec k' (64 ^ N.of_nat D)); [|set_solver]. destruct (m !! k'); set_solver.
Qed.
(** the two vectors hold the elements and one placeholder, whatever the history *)
Theorem C46_dense_vectors {V} D (cs : list (call V)) t : 1 <= D -> D <= 9 -> dense_legal D cs -> dense_reached D cs t ->
  length (d_keys t) = 1 + size (spec_run (64 ^ N.of_nat D) ∅ cs) /\ length (d_data t) = length (d_keys t).
Proof.
  intros H0 H9 Hl Hr. destruct (dense_reached_inv D cs t H0 H9 Hl Hr) as (ex & (P & J & _ & Hv & _) & _).
  destruct (vec_entries D H0 H9 _ _ _ _ Hv) as (ks & vs & Ek & Ed & El & Hp).
  pose proof (vec_perm D H0 H9 _ _ _ _ Hv ks vs Ek Ed El) as Hperm. apply Permutation_length in Hperm.
  rewrite zip_with_length_l in Hperm by lia. rewrite Ek, Ed. cbn [length]. rewrite fmap_length. unfold size, map_size. lia.
Qed.
(** no allocation is larger than 1040 bytes: the allocated bytes are at most 1040 per node *)
Definition node_bytes {V} (t : dense V) : N := foldr (fun an r => fst (layout (n_kind (snd an)) (n_cap (snd an))) + r)%N 0%N (map_to_list (h_nodes (d_heap t))).
Theorem C46_dense_bytes {V} D (cs : list (call V)) t : 1 <= D -> D <= 9 -> dense_legal D cs -> dense_reached D cs t ->
  (node_bytes t <= 1040 * N.of_nat (size (h_nodes (d_heap t))))%N.
Proof.
  intros H0 H9 Hl Hr. unfold node_bytes, size, map_size.
  assert (forall an, an ∈ map_to_list (h_nodes (d_heap t)) -> (fst (layout (n_kind (snd an)) (n_cap (snd an))) <= 1040)%N) as Hn.
  { intros [a n] Ha%elem_of_map_to_list. destruct (C26_dense_capacity D H0 H9 cs t a n Hl Hr Ha) as (_ & _ & _ & Hc & _). cbn [snd].
    unfold layout. cbn [fst]. pose proof (align_up_lt (children_addr_offset + child_size (n_kind n) * N.of_nat (n_cap n)) header_align eq_refl) as Hlt.
    pose proof (align_up_mult (children_addr_offset + child_size (n_kind n) * N.of_nat (n_cap n)) header_align eq_refl) as Hm.
    set (x := align_up _ _) in *. change children_addr_offset with 16%N in *. change header_align with 8%N in *.
    assert (child_size (n_kind n) <= 8)%N as Hcs by (destruct (n_kind n); done). assert (child_size (n_kind n) * N.of_nat (n_cap n) <= 8 * 128)%N by nia.
    assert (x < 1048)%N by lia. pose proof (N.div_mod' x 8). lia. }
  induction (map_to_list (h_nodes (d_heap t))) as [|an l IH]; [done|]. cbn [foldr length]. pose proof (Hn an ltac:(by left)).
  assert (forall an, an ∈ l -> (fst (layout (n_kind (snd an)) (n_cap (snd an))) <= 1040)%N) as Hn' by (intros; apply Hn; by right).
  specialize (IH Hn'). lia.
Qed.
(** a materialized copy (of a source with exact masks) needs the same nodes *)
Theorem C46_materialize_nodes {b t} (v : view b t) s : reached no_key v s -> t_nw t = 1 -> few t s -> t_exact t = true ->
  exists d m, materialize t s = Ok d /\ get_is t s m /\
    size (h_nodes (d_heap d)) = 1 + sum_list ((fun n => size (prefixes 64 (t_depth t) n (dom m))) <$> seq 1 (t_depth t - 1)).
Proof.
  intros Hr Hnw Hfew Hex. destruct (mat_exact v no_key s Hr Hnw Hfew (or_introl Hex)) as (d & m & E & Hm & Hi).
  exists d, m. split; [done|]. split; [done|]. destruct (view_depth v) as [H0 H9]. apply (dense_nodes (t_depth t) H0 H9 d m).
  eapply dense_inv_mono; [|exact Hi]. intros p (q & _ & []).
Qed.
(** five keys in four terminal nodes below three inner nodes of a depth-3 tree: 1 + 3 + 4 nodes; the
    nodes of the sixth key went with it *)
Definition ex_mem : list (call N) := inserts [5; 6; 70; 4100; 200000; 12288]%N ++ [CRemove 12288%N].
Example C46_example : dense_legal 3 ex_mem /\ dense_reached 3 ex_mem (dense_after 3 ex_mem) /\
  spec_all_panicked (64 ^ 3) ∅ ex_mem = ∅ /\ size (h_nodes (d_heap (dense_after 3 ex_mem))) = 8.
Proof.
  assert (dense_legal 3 ex_mem) as Hl by (apply dense_small_legal; [lia|lia|lia|repeat constructor|lia]).
  split; [done|]. split; [apply after_reached; [lia|lia|done]|]. split; [apply (bool_decide_eq_true_1 _); vm_compute; done|vm_compute; done].
Qed.

(** with a panic: the keys 5 and 70 need the root, one inner and two terminal nodes; together with 4100, whose
    constructor panicked, six nodes; six are allocated.  After inserting and removing 4100 there are four again *)
Definition ex_mem_panic : list (call N) := inserts [5; 70]%N ++ [CGetOrInsert 4100 None None]%N.
Example C46_panics_example : dense_legal 3 ex_mem_panic /\ dense_reached 3 ex_mem_panic (dense_after 3 ex_mem_panic) /\
  spec_all_panicked (64 ^ 3) ∅ ex_mem_panic = {[4100%N]} /\ size (h_nodes (d_heap (dense_after 3 ex_mem_panic))) = 6 /\
  size (h_nodes (d_heap (dense_after 3 (ex_mem_panic ++ [CInsert 4100 1; CRemove 4100]%N)))) = 4.
Proof.
  assert (dense_legal 3 ex_mem_panic) as Hl by (apply dense_small_legal; [lia|lia|lia|repeat constructor|lia]).
  split; [done|]. split; [apply after_reached; [lia|lia|done]|].
  split; [apply (bool_decide_eq_true_1 _); vm_compute; done|]. split; vm_compute; done.
Qed.

(** C47: in every node layout, of either child type and any capacity: the header's fields and the
    child slots below the capacity lie inside the allocation, do not overlap, and are aligned
    for their type when the allocation is aligned as requested.  (The model's accesses check that the slot is below the
    capacity, that the type matches and that a node is freed or moved with the layout it was allocated with; C19
    shows that these checks never fail.) *)
Theorem C47_slots k cap base i : (base mod snd (layout k cap) = 0)%N -> i < cap ->
  (base + fst (f_mask) = base /\ snd f_mask <= fst f_capacity /\ snd f_capacity <= fst f_len /\ base + snd f_len <= slot_addr k base 0)%N /\
  (slot_addr k base i + child_size k <= base + fst (layout k cap))%N /\
  (slot_addr k base i mod child_size k = 0)%N /\
  (forall j, (i < j)%nat -> slot_addr k base i + child_size k <= slot_addr k base j)%N.
Proof.
  intros Hb Hi. change (snd (layout k cap)) with 8%N in Hb. unfold slot_addr. change children_addr_offset with 16%N.
  split; [|split; [|split]].
  - change (fst f_mask) with 0%N. change (snd f_mask) with 8%N. change (fst f_capacity) with 8%N. change (snd f_capacity) with 9%N.
    change (fst f_len) with 9%N. change (snd f_len) with 10%N. lia.
  - unfold layout. cbn [fst]. pose proof (align_up_ge (children_addr_offset + child_size k * N.of_nat cap) header_align eq_refl) as H.
    set (x := align_up _ _) in *. change children_addr_offset with 16%N in H. nia.
  - pose proof (N.div_mod' base 8). destruct k; cbn [child_size].
    + replace (base + 16 + N.of_nat i * 8)%N with ((base / 8 + 2 + N.of_nat i) * 8)%N by lia. by apply N.mod_mul.
    + replace (base + 16 + N.of_nat i * 4)%N with ((base / 8 * 2 + 4 + N.of_nat i) * 4)%N by lia. by apply N.mod_mul.
  - intros j Hj. nia.
Qed.
(** the static empty nodes (`EmptyNode` = NodeHeaderN<1>): one slot of either type *)
Theorem C47_empty_node k base : (slot_addr k base 0 + child_size k <= base + sizeof_header 1)%N.
Proof. unfold slot_addr. change children_addr_offset with 16%N. change (sizeof_header 1) with 24%N. destruct k; cbn [child_size]; lia. Qed.
(** sizes never overflow: even for the largest capacity *)
Theorem C47_size k cap : cap < 256 -> (fst (layout k cap) <= 2064)%N /\ (fst (layout k cap) mod 8 = 0)%N.
Proof.
  intros Hc. unfold layout. cbn [fst]. split; [|by apply align_up_mult].
  pose proof (align_up_lt (children_addr_offset + child_size k * N.of_nat cap) header_align eq_refl) as H. set (x := align_up _ _) in *.
  change children_addr_offset with 16%N in H. change header_align with 8%N in H. assert (child_size k <= 8)%N by (destruct k; done). nia.
Qed.
Example C47_example : (4096 mod snd (layout KIdx 3) = 0)%N /\ layout KIdx 3 = (32, 8)%N /\ slot_addr KIdx 4096 2 = 4120%N.
Proof. vm_compute. done. Qed.
