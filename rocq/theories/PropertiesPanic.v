(** * Properties about user code that panics: C44 (destructors of elements), C45 (views while
    they are materialized)

    [bomb v]: the destructor of the value [v] panics.  [bombs bomb l]: how many values of [l]
    have such a destructor.  PanicSafety.v states the rules of Rust's unwinding. *)
From Verif Require Import Base BitUtils BitQueue LevelIndices Hierarchy Ops Dense Sparse Spec SpecLaws Client TreeClient
  DenseHistory DenseLaws SparseHistory SparseLaws Materialize MaterializeLaws Compose ViewLaws MaterializeViews
  Findings Examples PanicSafety MaterializeUnwind IterPanic.

(** C44, replacement: `insert` over an element whose destructor panics unwinds out of the call,
    with the old element dropped once and the new one stored: the tree is then what the
    history with that insert describes (so C01/C02 etc. speak about everything that follows) *)
Theorem C44_dense_insert_partial {V} (bomb : V -> bool) D cs t k v : 1 <= D -> D <= 9 -> dense_legal D (cs ++ [CInsert k v]) ->
  dense_reached D cs t -> (k < 64 ^ N.of_nat D)%N ->
  let old := spec_run (64 ^ N.of_nat D) ∅ cs !! k in
  exists t', dense_insert_b bomb D t k v = Ok (t', ol old, match old with Some o => bomb o | None => false end) /\
    dense_reached D (cs ++ [CInsert k v]) t'.
Proof. intros. by apply dense_insert_b_ok. Qed.
Theorem C44_sparse_insert_partial {V} (bomb : V -> bool) nw D req dflt cs t k v : nw_ok nw -> 1 <= D -> D <= 8 ->
  sparse_legal nw D req dflt (cs ++ [CInsert k v]) -> sparse_reached nw D req dflt cs t -> (k < key_bound nw D)%N ->
  let old := spec_run (key_bound nw D) ∅ cs !! k in
  exists t', sparse_insert_b bomb nw D t k v = Ok (t', ol old, match old with Some o => bomb o | None => false end) /\
    sparse_reached nw D req dflt (cs ++ [CInsert k v]) t'.
Proof. intros. by apply sparse_insert_b_ok. Qed.

(** C44, dropping the tree: what really happens, for every history and every set of panicking
    destructors.  None among the elements: every element is dropped exactly once.  Exactly one:
    the vector is dropped a second time (undefined behaviour) — the claim wants an unwinding
    that dropped every element once.  Two or more: the process aborts (as Rust prescribes). *)
Theorem C44_dense_drop_actual {V} (bomb : V -> bool) D cs t : 1 <= D -> D <= 9 -> dense_legal D cs -> dense_reached D cs t ->
  let held := vals (spec_run (64 ^ N.of_nat D) ∅ cs) in
  (bombs bomb held = 0 -> exists l, dense_drop_b bomb t = Finished l /\ l ≡ₚ held) /\
  (bombs bomb held = 1 -> dense_drop_b bomb t = Undefined) /\
  (2 <= bombs bomb held -> dense_drop_b bomb t = Aborted).
Proof.
  intros H1 H9 Hl Hr held. pose proof (dense_drop_b_ok bomb D cs t H1 H9 Hl Hr) as H. unfold drop_law in H. fold held in H.
  destruct (bombs bomb held) as [|[|n]]; split; [auto|split; intros; lia|intros; lia|split; [auto|intros; lia]|intros; lia|split; [intros; lia|auto]].
Qed.
Theorem C44_sparse_drop_actual {V} (bomb : V -> bool) nw D req dflt cs t : nw_ok nw -> 1 <= D -> D <= 8 ->
  sparse_legal nw D req dflt cs -> sparse_reached nw D req dflt cs t ->
  let held := (if req then ol dflt else []) ++ vals (spec_run (key_bound nw D) ∅ cs) in
  (bombs bomb held = 0 -> exists l, sparse_drop_b bomb req t = Finished l /\ l ≡ₚ held) /\
  (bombs bomb held = 1 -> sparse_drop_b bomb req t = Undefined) /\
  (2 <= bombs bomb held -> sparse_drop_b bomb req t = Aborted).
Proof.
  intros Hnw H1 H9 Hl Hr held. pose proof (sparse_drop_b_ok bomb nw D req dflt cs t Hnw H1 H9 Hl Hr) as H. unfold drop_law in H. fold held in H.
  destruct (bombs bomb held) as [|[|n]]; split; [auto|split; intros; lia|intros; lia|split; [auto|intros; lia]|intros; lia|split; [intros; lia|auto]].
Qed.
Theorem C44_dense_drop_refuted : exists (bomb : N -> bool) t, dense_reached 3 ex_cs t /\ dense_drop_b bomb t = Undefined.
Proof.
  exists (N.eqb 78), (dense_after 3 ex_cs). split; [exact ex_dense_reached|].
  apply (C44_dense_drop_actual _ 3 ex_cs); [lia|lia|exact ex_dense_legal|exact ex_dense_reached|].
  change (64 ^ N.of_nat 3)%N with (64 ^ 3)%N. rewrite ex_dense_map. vm_compute. done.
Qed.
Theorem C44_sparse_drop_refuted : exists (bomb : N -> bool) t, sparse_reached 1 3 false None ex_cs t /\ sparse_drop_b bomb false t = Undefined.
Proof.
  exists (N.eqb 78), (sparse_after 1 3 ex_cs). split; [exact ex_sparse_reached|].
  apply (C44_sparse_drop_actual _ 1 3 false None ex_cs); [by left|lia|lia|apply ex_sparse_legal; by left|exact ex_sparse_reached|].
  change (key_bound 1 3)%N with (64 ^ 3)%N. rewrite ex_dense_map. vm_compute. done.
Qed.
(** the hypotheses of the first two are met, with a destructor that panics *)
Example C44_example : dense_legal 3 (ex_cs ++ [CInsert 70 1]%N) /\ dense_reached 3 ex_cs (dense_after 3 ex_cs) /\
  (70 < 64 ^ 3)%N /\ spec_run (64 ^ 3) ∅ ex_cs !! 70%N = Some 78%N /\
  match dense_insert_b (N.eqb 78) 3 (dense_after 3 ex_cs) 70 1%N with Ok (_, dr, unwinds) => dr = [78]%N /\ unwinds = true | _ => False end.
Proof.
  split; [apply dense_small_legal; [lia|lia|lia|repeat constructor|lia]|]. split; [exact ex_dense_reached|].
  split; [done|]. split; [by rewrite ex_dense_map|]. vm_compute. done.
Qed.

(** C45: [t_pmap t f] is `source.map(f)` where [f x = None] means that [f] panics on [x];
    [materialize_b _ s needs_drop] is `materialize` followed through its unwinding, for an element
    type with ([true]) or without a destructor. *)
Section c45.
Context {b : bool} {t : tree} (v : view b t) (pk : N -> Prop) (s : t_T t) {W : Type} (f : t_V t -> option W).
Hypothesis Hr : reached pk v s.
Hypothesis Hnw : t_nw t = 1.
Hypothesis Hfew : few t s.
(** the function panics on no element: the copy is made and holds the results *)
Theorem C45_no_panic_partial needs_drop :
  (forall k x, tree_get t s k = Ok (Some x) -> is_Some (f x)) ->
  (t_exact t = true \/ t_depth t = 1 \/ exists k x, tree_get t s k = Ok (Some x)) ->
  exists d, materialize_b (t_pmap t f) s needs_drop = Ok d /\
    forall k, tree_get (dense_tree W (t_depth t)) d k =
      match tree_get t s k with Ok o => Ok (o ≫= f) | Panic => Panic | UB => UB | OutOfFuel => OutOfFuel end.
Proof. apply (pmap_copies v pk s f Hr Hnw Hfew). Qed.
(** it panics on some element and the results have no destructor: the panic reaches the caller *)
Theorem C45_panic_plain_partial k x : tree_get t s k = Ok (Some x) -> f x = None ->
  materialize_b (t_pmap t f) s false = Panic.
Proof. intros Hx Hf. apply (pmap_panics v pk s f Hr Hnw Hfew k x Hx Hf). Qed.
(** it panics on some element and they have one: undefined behaviour, always *)
Theorem C45_panic_actual k x : tree_get t s k = Ok (Some x) -> f x = None ->
  materialize_b (t_pmap t f) s true = UB.
Proof. intros Hx Hf. apply (pmap_panics v pk s f Hr Hnw Hfew k x Hx Hf). Qed.
End c45.
(** the same for any implementor of the interface and any panic of it after its cursor was made *)
Theorem C45_any_source_actual t src c : t_new t src = Ok c -> materialize t src = Panic ->
  materialize_b t src true = UB /\ materialize_b t src false = Panic.
Proof. intros Ec Ep. rewrite !materialize_b_ok, Ec, Ep. done. Qed.
Theorem C45_refuted : exists (s : dense N) (f : N -> option N),
  dense_reached 3 ex_cs s /\ materialize_b (t_pmap (dense_tree N 3) f) s true = UB.
Proof.
  exists ex_a, (fun x => if (x =? 78)%N then None else Some x). split; [exact ex_dense_reached|].
  refine (C45_panic_actual ex_leaf any_key ex_a _ ex_a_ok eq_refl _ 70%N 78%N _ _); [|vm_compute; done|done].
  exact (few_small ex_leaf any_key _ ex_a_ok eq_refl ltac:(cbn; lia)).
Qed.
(** the hypotheses are met *)
Example C45_example : reached any_key ex_leaf ex_a /\ (t_nw (dense_tree N 3) = 1) /\ few (dense_tree N 3) ex_a /\
  tree_get (dense_tree N 3) ex_a 70 = Ok (Some 78%N) /\
  match materialize_b (t_pmap (dense_tree N 3) (fun x : N => if (x =? 79)%N then None else Some (x + 1)%N)) ex_a true with
  | Ok d => tree_get (dense_tree N 3) d 70 = Ok (Some 79%N) | _ => False end.
Proof.
  split; [exact ex_a_ok|]. split; [done|]. split; [exact (few_small ex_leaf any_key _ ex_a_ok eq_refl ltac:(cbn; lia))|].
  split; vm_compute; done.
Qed.

(** C48: [t_pmap t f] as above; [t_pfold t items init f] is `multi_map_fold(source, init, f)`
    whose `init` or `f` may panic: the fold stops at the first panic; [iter_poll_b]
    calls `next` [m] times on one iterator and catches every panic. *)
Section c48.
Context {b : bool} {t : tree} (v : view b t) (pk : N -> Prop) (s : t_T t).
Hypothesis Hr : reached pk v s.
(** exactly the elements the function panics on are lost, one call each; the other calls give
    the other elements, in the same order, and then None forever *)
Theorem C48_map_iter {W} (f : t_V t -> option W) : exists n l,
  (forall fuel, n <= fuel -> iter_collect fuel t s = Ok l) /\
  (forall m fuel, n <= fuel -> exists it it', iter_new (t_pmap t f) s = Ok it /\
     iter_poll_b fuel m (t_pmap t f) s it =
       Ok (it', take m (((fun '(k, x) => match f x with Some w => CVal (Some (k, w)) | None => CPanic end) <$> l) ++ replicate m (CVal None)))).
Proof.
  destruct (pmap_poll v pk s f Hr) as (n & l & Hc & Hp). exists n, l. split; [done|]. intros m fuel Hf.
  destruct (Hp m fuel Hf) as (it & it' & Hn & E). exists it, it'. split; [done|]. rewrite E. do 4 f_equal.
  rewrite <- list_fmap_compose. apply list_fmap_ext. by intros _ [k x] _.
Qed.
Theorem C48_map_get {W} (f : t_V t -> option W) k : tree_get (t_pmap t f) s k =
  match tree_get t s k with
  | Ok (Some x) => match f x with Some w => Ok (Some w) | None => Panic end
  | Ok None => Ok None
  | _ => Panic
  end.
Proof.
  rewrite get_pc. destruct (view_get_total v pk s Hr k) as [H1 H2]. destruct (decide (view_key_ok t k)) as [Hk|Hk].
  - destruct (H1 Hk) as [[x|] ->]; [|done]. cbn [rbind]. by destruct (f x).
  - by rewrite (H2 Hk).
Qed.
(** a fold whose functions may panic *)
Theorem C48_fold_iter {X A} (items : t_V t -> list X) (init : option A) f : exists n l,
  (forall fuel, n <= fuel -> iter_collect fuel t s = Ok l) /\
  (forall m fuel, n <= fuel -> exists it it', iter_new (t_pfold t items init f) s = Ok it /\
     iter_poll_b fuel m (t_pfold t items init f) s it =
       Ok (it', take m (((fun '(k, x) => match fold_left (fun o y => match o with Some a => f a y | None => None end) (items x) init with Some w => CVal (Some (k, w)) | None => CPanic end) <$> l) ++ replicate m (CVal None)))).
Proof.
  destruct (C48_map_iter (fun d => fold_until f init (items d))) as (n & l & Hc & Hp). exists n, l. split; [done|]. intros m fuel Hf.
  destruct (Hp m fuel Hf) as (it & it' & Hn & E). exists it, it'. split; [done|]. etrans; [exact E|]. do 4 f_equal. apply list_fmap_ext.
  intros _ [k x] _. by rewrite fold_until_left.
Qed.
Theorem C48_fold_get {X A} (items : t_V t -> list X) (init : option A) f k : tree_get (t_pfold t items init f) s k =
  match tree_get t s k with
  | Ok (Some x) => match fold_left (fun o y => match o with Some a => f a y | None => None end) (items x) init with Some w => Ok (Some w) | None => Panic end
  | Ok None => Ok None
  | _ => Panic
  end.
Proof.
  unfold t_pfold. rewrite C48_map_get. destruct (tree_get t s k) as [[x|]| | |]; try done. by rewrite fold_until_left.
Qed.
End c48.
(** the hypothesis is met: a depth-3 tree with several elements, the function panics on one *)
Example C48_example : reached any_key ex_leaf ex_a /\
  (let f := fun x : N => if (x =? 78)%N then None else Some (x + 1)%N in
   match iter_new (t_pmap (dense_tree N 3) f) ex_a with
   | Ok it => match iter_poll_b 100 5 (t_pmap (dense_tree N 3) f) ex_a it with
     | Ok (_, l) => l = [CVal (Some (5, 57)); CPanic; CVal (Some (200000, 200010)); CVal None; CVal None]%N | _ => False end | _ => False end).
Proof. split; [exact ex_a_ok|]. vm_compute. done. Qed.
