(** * C61: access, insertion and removal touch a number of memory cells that depends on the depth alone
    A DenseTree's memory (DenseFootprint.v): [DNode a] - the node at address a; [DData j], [DKey j] - element j of
    the two vectors; [dheader] - the struct: root pointer, vector lengths.  A SparseTree's (SparseFootprint.v):
    [SBlock n i] - block i of level n; [SValue j], [SKey j], [SPos j] - element j of the three vectors;
    [sheader] - per level the block count and the root of the free list, and the vector lengths.
    [agree F t u] (Footprint.v): the same header and the same content of the cells [F];
    [patched F u t' u']: [u'] has the header and the cells [F] of [t'], and all other cells of [u].
    So each theorem says: the call reads and writes at most that many cells, whatever else the tree holds - any
    other tree that agrees on them gets the same answer and the same changes, and nothing else changes. *)
From Verif Require Import Base BitUtils LevelIndices Hierarchy Dense Sparse Spec SpecLaws Client DenseHistory DenseLaws SparseHistory SparseLaws
  Examples PanicSafety Findings Ops Footprint DenseFootprint SparseFootprint ViewFootprint CursorFootprint.

(** ** DenseTree *)
Theorem C61_dense_get {V} (D : nat) (t : dense V) (k : N) (o : option V) : 1 <= D ->
  tree_get (dense_tree V D) t k = Ok o ->
  exists F, length F <= D + 2 /\ forall u, agree dpeek dheader F t u -> tree_get (dense_tree V D) u k = Ok o.
Proof. apply get_footprint. Qed.
Theorem C61_dense_insert {V} (D : nat) (t t' : dense V) (k : N) (v : V) (dropped : list V) :
  dense_insert D t k v = Ok (t', dropped) ->
  exists F, length F <= 4 * D + 5 /\ forall u, agree dpeek dheader F t u ->
    exists u', dense_insert D u k v = Ok (u', dropped) /\ patched dpeek dheader F u t' u'.
Proof.
  intros E. unfold dense_insert in *. apply bind_ok_inv in E as (i & Ei & E). apply bind_ok_inv in E as ([[t1 j] dr] & E1 & E). cbn beta iota in E. injection E as <- <-.
  destruct (goi_footprint D t i true (Some v) t1 j dr E1) as (F & HF & Hf). exists F. split; [done|]. intros u Hu. destruct (Hf u Hu) as (u1 & Eu & Pu).
  exists u1. by rewrite Ei, bind_ok, Eu, bind_ok.
Qed.
(** [dflt = None]: the default value's constructor panics; the call unwinds *)
Theorem C61_dense_get_or_insert {V} (D : nat) (t t' : dense V) (k : N) (dflt : option V) (j : option nat) (dropped : list V) :
  dense_get_or_insert D t k dflt = Ok (t', j, dropped) ->
  exists F, length F <= 4 * D + 5 /\ forall u, agree dpeek dheader F t u ->
    exists u', dense_get_or_insert D u k dflt = Ok (u', j, dropped) /\ patched dpeek dheader F u t' u'.
Proof.
  intros E. unfold dense_get_or_insert in *. apply bind_ok_inv in E as (i & Ei & E).
  destruct (goi_footprint D t i false dflt t' j dropped E) as (F & HF & Hf). exists F. split; [done|]. intros u Hu. destruct (Hf u Hu) as (u1 & Eu & Pu).
  exists u1. by rewrite Ei, bind_ok, Eu.
Qed.
Theorem C61_dense_remove {V} (D : nat) (t t' : dense V) (k : N) (o : option V) : 1 <= D ->
  dense_remove D t k = Ok (t', o) ->
  exists F, length F <= 3 * D + 4 /\ forall u, agree dpeek dheader F t u ->
    exists u', dense_remove D u k = Ok (u', o) /\ patched dpeek dheader F u t' u'.
Proof.
  intros HD E. unfold dense_remove in *. apply bind_ok_inv in E as (i & Ei & E).
  destruct (remove_footprint D t i t' o HD E) as (F & HF & Hf). exists F. split; [done|]. intros u Hu. destruct (Hf u Hu) as (u1 & Eu & Pu).
  exists u1. by rewrite Ei, bind_ok, Eu.
Qed.

(** ** SparseTree *)
Theorem C61_sparse_get {V} (nw D : nat) (t : sparse V) (k : N) (o : option V) :
  tree_get (sparse_tree V nw D) t k = Ok o ->
  exists F, length F <= D + 1 /\ forall u, agree speek sheader F t u -> tree_get (sparse_tree V nw D) u k = Ok o.
Proof. apply sget_footprint. Qed.
Theorem C61_sparse_insert {V} (nw D : nat) (t t' : sparse V) (k : N) (v : V) (dropped : list V) : 1 <= D ->
  sparse_insert nw D t k v = Ok (t', dropped) ->
  exists F, length F <= 2 * D + 2 /\ forall u, agree speek sheader F t u ->
    exists u', sparse_insert nw D u k v = Ok (u', dropped) /\ patched speek sheader F u t' u'.
Proof.
  intros HD E. unfold sparse_insert in *. apply bind_ok_inv in E as (i & Ei & E). apply bind_ok_inv in E as ([[t1 j] dr] & E1 & E). cbn beta iota in E. injection E as <- <-.
  destruct (sgoi_footprint nw D t i true (Some v) t1 j dr HD E1) as (F & HF & Hf). exists F. split; [done|]. intros u Hu. destruct (Hf u Hu) as (u1 & Eu & Pu).
  exists u1. by rewrite Ei, bind_ok, Eu, bind_ok.
Qed.
Theorem C61_sparse_get_or_insert {V} (nw D : nat) (t t' : sparse V) (k : N) (dflt : option V) (j : option N) (dropped : list V) : 1 <= D ->
  sparse_get_or_insert nw D t k dflt = Ok (t', j, dropped) ->
  exists F, length F <= 2 * D + 2 /\ forall u, agree speek sheader F t u ->
    exists u', sparse_get_or_insert nw D u k dflt = Ok (u', j, dropped) /\ patched speek sheader F u t' u'.
Proof.
  intros HD E. unfold sparse_get_or_insert in *. apply bind_ok_inv in E as (i & Ei & E).
  destruct (sgoi_footprint nw D t i false dflt t' j dropped HD E) as (F & HF & Hf). exists F. split; [done|]. intros u Hu. destruct (Hf u Hu) as (u1 & Eu & Pu).
  exists u1. by rewrite Ei, bind_ok, Eu.
Qed.
Theorem C61_sparse_remove {V} (nw D : nat) (t t' : sparse V) (k : N) (o : option V) : 1 <= D ->
  sparse_remove nw D t k = Ok (t', o) ->
  exists F, length F <= 2 * D + 8 /\ forall u, agree speek sheader F t u ->
    exists u', sparse_remove nw D u k = Ok (u', o) /\ patched speek sheader F u t' u'.
Proof.
  intros HD E. unfold sparse_remove in *. apply bind_ok_inv in E as (i & Ei & E).
  destruct (sremove_footprint nw D t i t' o HD E) as (F & HF & Hf). exists F. split; [done|]. intros u Hu. destruct (Hf u Hu) as (u1 & Eu & Pu).
  exists u1. by rewrite Ei, bind_ok, Eu.
Qed.

(** ** the hypotheses are met: on the tree that any legal history leaves behind these calls return, for every key in range *)
Lemma dense_call_ok {V} D (cs : list (call V)) t c : 1 <= D -> D <= 9 -> dense_legal D (cs ++ [c]) -> dense_reached D cs t ->
  exists t' d, dense_call D t c = Ok (t', spec_out (64 ^ N.of_nat D) None (spec_run (64 ^ N.of_nat D) ∅ cs) c, d).
Proof.
  intros HD0 HD Hl (os & dr & Hr).
  assert (dense_legal D cs) as Hl1.
  { destruct Hl as (Ha & Hrm & Hs). apply Forall_app in Ha as [Ha _]. apply spec_always_app in Hs as [Hs _].
    split; [done|]. split; [|done]. intros He. apply Hrm, Exists_app. by left. }
  destruct (dense_run_ok D cs HD0 HD Hl1) as (t1 & dr1 & _ & E1 & Hd1 & _). rewrite Hr in E1. injection E1 as <- -> <-.
  destruct (dense_run_ok D _ HD0 HD Hl) as (t2 & dr2 & _ & E2 & Hd2 & _).
  unfold dense_run in Hr, E2. destruct (dense_default V D) as [t0| | |]; try done. rewrite !bind_ok in *.
  rewrite dense_calls_snoc, Hr, bind_ok in E2. cbn beta iota in E2. apply bind_ok_inv in E2 as ([[t3 o] d] & Ec & E2).
  injection E2 as -> Eo <-. rewrite spec_outs_app in Eo. apply app_inj_2 in Eo as [_ [= ->]]; [|done]. by eexists _, _.
Qed.
Lemma sparse_call_ok {V} nw D req (dflt : option V) cs t c : nw_ok nw -> 1 <= D -> D <= 8 -> sparse_legal nw D req dflt (cs ++ [c]) ->
  sparse_reached nw D req dflt cs t ->
  exists t' d, sparse_call nw D t c = Ok (t', spec_out (key_bound nw D) (placeholder req dflt) (spec_run (key_bound nw D) ∅ cs) c, d).
Proof.
  intros Hnw HD0 HD Hl (os & dr & Hr). assert (D <= 9) as HD9 by lia.
  assert (sparse_legal nw D req dflt cs) as Hl1.
  { destruct Hl as (Ha & Hrm & Hs). apply Forall_app in Ha as [Ha _]. apply spec_always_e_app in Hs as [Hs _]. done. }
  destruct (sparse_run_ok nw D req dflt cs Hnw HD0 HD9 Hl1) as (t1 & dr1 & E1 & Hd1 & _). rewrite Hr in E1. injection E1 as <- -> <-.
  destruct (sparse_run_ok nw D req dflt _ Hnw HD0 HD9 Hl) as (t2 & dr2 & E2 & Hd2 & _).
  unfold sparse_run in Hr, E2. destruct (sparse_default V nw D req dflt) as [t0| | |]; try done. rewrite !bind_ok in *.
  rewrite sparse_calls_snoc, Hr, bind_ok in E2. cbn beta iota in E2. apply bind_ok_inv in E2 as ([[t3 o] d] & Ec & E2).
  injection E2 as -> Eo <-. rewrite spec_outs_app in Eo. apply app_inj_2 in Eo as [_ [= ->]]; [|done]. by eexists _, _.
Qed.

(** so along every legal history every call that does not panic costs at most that many cells; for `insert` and `remove`: *)
Theorem C61_dense_every_insert {V} (D : nat) (cs : list (call V)) (t : dense V) (k : N) (v : V) : 1 <= D -> D <= 9 ->
  dense_legal D (cs ++ [CInsert k v]) -> dense_reached D cs t -> (k < 64 ^ N.of_nat D)%N ->
  exists t' dropped F, dense_insert D t k v = Ok (t', dropped) /\ length F <= 4 * D + 5 /\
    (forall c, dpeek t' c <> dpeek t c -> c ∈ F) /\
    forall u, agree dpeek dheader F t u -> exists u', dense_insert D u k v = Ok (u', dropped) /\ patched dpeek dheader F u t' u'.
Proof.
  intros HD0 HD Hl Hr Hk. destruct (dense_call_ok D cs t _ HD0 HD Hl Hr) as (t' & d & E). cbn [dense_call spec_out] in E.
  rewrite (proj2 (N.ltb_lt _ _) Hk) in E. destruct (dense_insert D t k v) as [[t1 d1]| | |] eqn:Ei; try done. injection E as <- <-.
  destruct (C61_dense_insert D t t1 k v d1 Ei) as (F & HF & Hf). exists t1, d1, F. split_and!; [done|done| |done].
  intros c Hc. destruct (decide (c ∈ F)) as [|Hn]; [done|]. destruct (Hf t (agree_refl _ _ _ _)) as (u' & Eu & _ & Hp).
  assert (u' = t1) as -> by congruence. destruct Hc. rewrite Hp. by rewrite decide_False.
Qed.
Theorem C61_dense_every_remove {V} (D : nat) (cs : list (call V)) (t : dense V) (k : N) : 1 <= D -> D <= 9 ->
  dense_legal D (cs ++ [CRemove k]) -> dense_reached D cs t -> (k < 64 ^ N.of_nat D)%N ->
  exists t' o F, dense_remove D t k = Ok (t', o) /\ length F <= 3 * D + 4 /\
    (forall c, dpeek t' c <> dpeek t c -> c ∈ F) /\
    forall u, agree dpeek dheader F t u -> exists u', dense_remove D u k = Ok (u', o) /\ patched dpeek dheader F u t' u'.
Proof.
  intros HD0 HD Hl Hr Hk. destruct (dense_call_ok D cs t _ HD0 HD Hl Hr) as (t' & d & E). cbn [dense_call spec_out] in E.
  rewrite (proj2 (N.ltb_lt _ _) Hk) in E. destruct (dense_remove D t k) as [[t1 o1]| | |] eqn:Ei; try done. injection E as <- _ _.
  destruct (C61_dense_remove D t t1 k o1 HD0 Ei) as (F & HF & Hf). exists t1, o1, F. split_and!; [done|done| |done].
  intros c Hc. destruct (decide (c ∈ F)) as [|Hn]; [done|]. destruct (Hf t (agree_refl _ _ _ _)) as (u' & Eu & _ & Hp).
  assert (u' = t1) as -> by congruence. destruct Hc. rewrite Hp. by rewrite decide_False.
Qed.
Theorem C61_sparse_every_insert {V} (nw D : nat) (req : bool) (dflt : option V) (cs : list (call V)) (t : sparse V) (k : N) (v : V) :
  nw_ok nw -> 1 <= D -> D <= 8 -> sparse_legal nw D req dflt (cs ++ [CInsert k v]) -> sparse_reached nw D req dflt cs t -> (k < key_bound nw D)%N ->
  exists t' dropped F, sparse_insert nw D t k v = Ok (t', dropped) /\ length F <= 2 * D + 2 /\
    (forall c, speek t' c <> speek t c -> c ∈ F) /\
    forall u, agree speek sheader F t u -> exists u', sparse_insert nw D u k v = Ok (u', dropped) /\ patched speek sheader F u t' u'.
Proof.
  intros Hnw HD0 HD Hl Hr Hk. destruct (sparse_call_ok nw D req dflt cs t _ Hnw HD0 HD Hl Hr) as (t' & d & E). cbn [sparse_call spec_out] in E.
  rewrite (proj2 (N.ltb_lt _ _) Hk) in E. destruct (sparse_insert nw D t k v) as [[t1 d1]| | |] eqn:Ei; try done. injection E as <- <-.
  destruct (C61_sparse_insert nw D t t1 k v d1 HD0 Ei) as (F & HF & Hf). exists t1, d1, F. split_and!; [done|done| |done].
  intros c Hc. destruct (decide (c ∈ F)) as [|Hn]; [done|]. destruct (Hf t (agree_refl _ _ _ _)) as (u' & Eu & _ & Hp).
  assert (u' = t1) as -> by congruence. destruct Hc. rewrite Hp. by rewrite decide_False.
Qed.
Theorem C61_sparse_every_remove {V} (nw D : nat) (req : bool) (dflt : option V) (cs : list (call V)) (t : sparse V) (k : N) :
  nw_ok nw -> 1 <= D -> D <= 8 -> sparse_legal nw D req dflt (cs ++ [CRemove k]) -> sparse_reached nw D req dflt cs t -> (k < key_bound nw D)%N ->
  exists t' o F, sparse_remove nw D t k = Ok (t', o) /\ length F <= 2 * D + 8 /\
    (forall c, speek t' c <> speek t c -> c ∈ F) /\
    forall u, agree speek sheader F t u -> exists u', sparse_remove nw D u k = Ok (u', o) /\ patched speek sheader F u t' u'.
Proof.
  intros Hnw HD0 HD Hl Hr Hk. destruct (sparse_call_ok nw D req dflt cs t _ Hnw HD0 HD Hl Hr) as (t' & d & E). cbn [sparse_call spec_out] in E.
  rewrite (proj2 (N.ltb_lt _ _) Hk) in E. destruct (sparse_remove nw D t k) as [[t1 o1]| | |] eqn:Ei; try done. injection E as <- _ _.
  destruct (C61_sparse_remove nw D t t1 k o1 HD0 Ei) as (F & HF & Hf). exists t1, o1, F. split_and!; [done|done| |done].
  intros c Hc. destruct (decide (c ∈ F)) as [|Hn]; [done|]. destruct (Hf t (agree_refl _ _ _ _)) as (u' & Eu & _ & Hp).
  assert (u' = t1) as -> by congruence. destruct Hc. rewrite Hp. by rewrite decide_False.
Qed.
(** a mixed history of depth 3, then the removal of its key 200000, which empties two nodes *)
Lemma ex_dense_then : dense_legal 3 (ex_cs ++ [CRemove 200000%N]).
Proof. apply dense_small_legal; [lia|lia|lia| |lia]. apply Forall_app. split; repeat constructor. Qed.
Lemma ex_sparse_then : sparse_legal 1 3 false None (ex_cs ++ [CRemove 200000%N]).
Proof. apply sparse_small_legal; [by left|lia|lia| |apply Forall_app; split; repeat constructor|done]. left. split; lia. Qed.
Lemma ex_key_fits : (200000 < 64 ^ N.of_nat 3)%N. Proof. vm_compute. done. Qed.
Lemma ex_key_fits' : (200000 < key_bound 1 3)%N. Proof. vm_compute. done. Qed.
Example C61_dense_case : forall t, dense_reached 3 ex_cs t -> exists t' o F, dense_remove 3 t 200000 = Ok (t', o) /\ length F <= 13 /\
  (forall c, dpeek t' c <> dpeek t c -> c ∈ F).
Proof.
  intros t Ht. destruct (C61_dense_every_remove 3 ex_cs t 200000 ltac:(lia) ltac:(lia) ex_dense_then Ht ex_key_fits) as (t' & o & F & E & HF & Hc & _).
  exists t', o, F. split_and!; [exact E|exact HF|exact Hc].
Qed.
Example C61_dense_case_reached : dense_reached 3 ex_cs (dense_after 3 ex_cs). Proof. exact ex_dense_reached. Qed.
Example C61_sparse_case : forall t, sparse_reached 1 3 false None ex_cs t -> exists t' o F, sparse_remove 1 3 t 200000 = Ok (t', o) /\ length F <= 14 /\
  (forall c, speek t' c <> speek t c -> c ∈ F).
Proof.
  intros t Ht. destruct (C61_sparse_every_remove 1 3 false None ex_cs t 200000 ltac:(by left) ltac:(lia) ltac:(lia) ex_sparse_then Ht ex_key_fits') as (t' & o & F & E & HF & Hc & _).
  exists t', o, F. split_and!; [exact E|exact HF|exact Hc].
Qed.
Example C61_sparse_case_reached : sparse_reached 1 3 false None ex_cs (sparse_after 1 3 ex_cs). Proof. exact ex_sparse_reached. Qed.

(** ** lazy operations: `get`, `get_unchecked` and each cursor step cost the sum of the operands' costs
    [within m n f s a]: on [s] the step [f] returns [a] and looks at no more than [n] cells of the memory [m] besides
    the header; [get_cost t m n]: so do `get`/`get_unchecked` of [t]; [cursor_cost t m a b]: making a cursor looks at
    nothing, a (checked or unchecked) selection at [a] cells, `data`/`data_unchecked` at [b] (ViewFootprint.v).
    The cells of a pair or a list of operands are those of each operand. *)
Theorem C61_get {t m n} : get_cost t m n -> forall s k o, tree_get t s k = Ok o -> within m (n s) (fun s => tree_get t s k) s o.
Proof.
  intros [H _] s k o E. unfold tree_get in *. apply bind_ok_inv in E as (i & E1 & E2). eapply within_pure; [exact E1|]. by apply H.
Qed.
Theorem C61_get_unchecked {t m n} : get_cost t m n -> forall s k o, tree_get_unchecked t s k = Ok o ->
  within m (n s) (fun s => tree_get_unchecked t s k) s o.
Proof. intros [_ H] s k o E. by apply H. Qed.
Theorem C61_dense_costs {V} D : 1 <= D -> get_cost (dense_tree V D) (dense_memory V) (fun _ => D + 2) /\
  cursor_cost (dense_tree V D) (dense_memory V) (fun _ => 2) (fun _ => 2).
Proof. intros H. split; [by apply dense_get_cost|apply dense_cursor_cost]. Qed.
Theorem C61_sparse_costs {V} nw D : get_cost (sparse_tree V nw D) (sparse_memory V) (fun _ => D + 1) /\
  cursor_cost (sparse_tree V nw D) (sparse_memory V) (fun _ => 2) (fun _ => 2).
Proof. split; [apply sparse_get_cost|apply sparse_cursor_cost]. Qed.
Theorem C61_map_costs {t m n a b X} (f : t_V t -> X) : get_cost t m n -> cursor_cost t m a b ->
  get_cost (t_map t f) m n /\ cursor_cost (t_map t f) m a b.
Proof. intros. split; [by apply map_get_cost|by apply map_cursor_cost]. Qed.
Theorem C61_multi_map_fold_costs {t m n a b X A} (items : t_V t -> list X) (init : A) f : get_cost t m n -> cursor_cost t m a b ->
  get_cost (t_multi_map_fold t items init f) m n /\ cursor_cost (t_multi_map_fold t items init f) m a b.
Proof. intros. split; [by apply mmf_get_cost|by apply mmf_cursor_cost]. Qed.
Theorem C61_intersection_costs {t0 t1 m0 m1 n0 n1 a0 a1 b0 b1} :
  get_cost t0 m0 n0 -> get_cost t1 m1 n1 -> cursor_cost t0 m0 a0 b0 -> cursor_cost t1 m1 a1 b1 ->
  get_cost (t_intersection t0 t1) (pair_memory m0 m1) (fun s => n0 s.1 + n1 s.2) /\
  cursor_cost (t_intersection t0 t1) (pair_memory m0 m1) (fun s => a0 s.1 + a1 s.2) (fun s => b0 s.1 + b1 s.2).
Proof. intros. split; [by apply intersection_get_cost|by apply intersection_cursor_cost]. Qed.
Theorem C61_union_costs {t0 t1 m0 m1 n0 n1 a0 a1 b0 b1} :
  get_cost t0 m0 n0 -> get_cost t1 m1 n1 -> cursor_cost t0 m0 a0 b0 -> cursor_cost t1 m1 a1 b1 ->
  get_cost (t_union t0 t1) (pair_memory m0 m1) (fun s => n0 s.1 + n1 s.2) /\
  cursor_cost (t_union t0 t1) (pair_memory m0 m1) (fun s => a0 s.1 + a1 s.2) (fun s => b0 s.1 + b1 s.2).
Proof. intros. split; [by apply union_get_cost|by apply union_cursor_cost]. Qed.
Theorem C61_multi_intersection_costs {t m n a b} : get_cost t m n -> cursor_cost t m a b ->
  get_cost (t_multi_intersection t) (list_memory m) (sum_list_with n) /\
  cursor_cost (t_multi_intersection t) (list_memory m) (sum_list_with a) (sum_list_with b).
Proof. intros. split; [by apply mi_get_cost|by apply mi_cursor_cost]. Qed.
(** (the cursor of a multi_union carries references to its operands, so its steps are stated with its session below) *)
Theorem C61_multi_union_costs {t m n} : get_cost t m n -> get_cost (t_multi_union t) (list_memory m) (sum_list_with n).
Proof. intros. by apply mu_get_cost. Qed.
(** an expression over a DenseTree and a SparseTree of depth 3: at most (3 + 2) + (3 + 1) cells per `get`, whatever they hold *)
Example C61_expression_case : forall (s : dense N * sparse N) k o,
  let t := t_map (t_intersection (dense_tree N 3) (sparse_tree N 1 3)) (fun p => (p.1 + p.2)%N) in
  tree_get t s k = Ok o -> within (pair_memory (dense_memory N) (sparse_memory N)) 9 (fun s => tree_get t s k) s o.
Proof.
  intros s k o t. destruct (C61_dense_costs (V := N) 3 ltac:(lia)) as [G0 K0]. destruct (C61_sparse_costs (V := N) 1 3) as [G1 K1].
  destruct (C61_intersection_costs G0 G1 K0 K1) as [G K]. destruct (C61_map_costs (t := t_intersection (dense_tree N 3) (sparse_tree N 1 3)) (fun p => (p.1 + p.2)%N) G K) as [G' _].
  exact (C61_get G' s k o).
Qed.

(** ** every expression: containers and lazy operations over them in any nesting, with any number of operands
    ([expression], [e_memory], [containers] = how many containers occur in it, [deepest] = their largest depth:
    CursorFootprint.v). `get` and `get_unchecked` look at [D + 2] cells per container at most, [D] the depth. *)
Theorem C61_expression_get {t} (x : expression t) D s k o : deepest x <= D -> tree_get t s k = Ok o ->
  within (e_memory x) (containers x s * (D + 2)) (fun s => tree_get t s k) s o.
Proof. intros H. exact (C61_get (expr_get x D H) s k o). Qed.
Theorem C61_expression_get_unchecked {t} (x : expression t) D s k o : deepest x <= D -> tree_get_unchecked t s k = Ok o ->
  within (e_memory x) (containers x s * (D + 2)) (fun s => tree_get_unchecked t s k) s o.
Proof. intros H. exact (C61_get_unchecked (expr_get x D H) s k o). Qed.
(** a new cursor (free) and any sequence of selections and data accesses on it, checked or unchecked: two cells per
    container and step at most, whatever the containers hold; [r] lists the masks and values the steps return *)
Theorem C61_expression_cursor {t} (x : expression t) s xs r : (let* c := t_new t s in cursor_session t s c xs) = Ok r ->
  within (e_memory x) (length xs * (containers x s * 2)) (fun s => let* c := t_new t s in cursor_session t s c xs) s r.
Proof. apply expr_session. Qed.
(** an intersection of a DenseTree with a multi_union of SparseTrees; with two of those, a session of four steps costs
    at most 4 * 6 cells, and on empty trees there is such a session *)
Definition ex_expr_tree : tree := t_intersection (dense_tree N 3) (t_multi_union (sparse_tree N 1 3)).
Definition ex_expr : expression ex_expr_tree :=
  EIntersection _ _ (EDense N 3 ltac:(lia)) (EMultiUnion _ (ESparse N 1 3)).
Definition ex_calls : list cursor_call := [CSelect (Sel 0 0 false); CSelect (Sel 1 48 false); CSelect (Sel 2 53 true); CData 0].
Example C61_expression_cursor_case : forall s, length s.2 = 2 -> forall r,
  (let* c := t_new ex_expr_tree s in cursor_session ex_expr_tree s c ex_calls) = Ok r ->
  within (e_memory ex_expr) 24 (fun s => let* c := t_new ex_expr_tree s in cursor_session ex_expr_tree s c ex_calls) s r.
Proof.
  intros s Hs r E. pose proof (C61_expression_cursor ex_expr s ex_calls r E) as H.
  destruct s as [s l]. cbn in Hs. destruct l as [|a [|b [|]]]; try discriminate Hs. exact H.
Qed.
Definition ex_expr_state : t_T ex_expr_tree := (dense_after 3 ex_cs, [sparse_after 1 3 ex_cs; sparse_after 1 3 ex_cs]).
Example C61_expression_cursor_case_runs :
  exists r, (let* c := t_new ex_expr_tree ex_expr_state in cursor_session ex_expr_tree ex_expr_state c ex_calls) = Ok r.
Proof. eexists. vm_compute. reflexivity. Qed.
