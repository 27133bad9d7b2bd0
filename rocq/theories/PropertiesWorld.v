(** * Properties of several DenseTrees in one memory: C65

    [wsteps al (World (Heap mem0 time) []) cs] (DenseWorld.v) runs the program [cs] with the
    allocator [al] in a memory that already holds the blocks [mem0]; [wspec_*] (WorldSpec.v) is
    the same program over independent finite maps.  The allocator is arbitrary: it may reuse
    freed addresses at once, also across trees, and `realloc` may move or not. *)
From Verif Require Import Base BitUtils BitUtilsProofs LevelIndices LevelIndicesProofs Hierarchy Lawful Ops MultiUnionRef Dense DenseProofs DenseHistory DenseLaws Spec SpecLaws Client TreeClient Contract TreeTransfer
  Compose ViewLaws PropertiesUser PropertiesViews WorldSpec DenseWorld DenseWorldSim DenseWorldLaws.

(** "the world [w] was produced by the program [cs]" *)
Definition world_reached {V} (al : allocator) (mem0 : gmap N node) (time : N) (cs : list (wcall V)) (w : world V) : Prop :=
  exists os dr, wsteps al (World (Heap mem0 time) []) cs = Ok (w, os, dr).
(** the keys for which a block may have an empty child: those whose value constructor panicked, and
    all of them as soon as an expression without exact hierarchy was collected (finding C18) *)
Definition loose {V} (cs : list (wcall V)) (k : N) : Prop := k ∈ wspec_all_panicked [] cs \/ Exists collects_part cs.
(** container number [i] is alive: its depth and content by the specification, its fields *)
Definition live {V} (cs : list (wcall V)) (w : world V) (i D : nat) (m : gmap N V) (t : whandle V) : Prop :=
  (exists b, wspec_run [] cs !! i = Some (Some (D, b, m))) /\ w_trees w !! i = Some (Some t).

Section world.
Context {V : Type} (al : allocator) (mem0 : gmap N node) (time : N) (cs : list (wcall V)).
Hypothesis (Hl : wlegal [] cs).
Notation pk := (loose cs) (only parsing).

(** every program completes without undefined behaviour; what the client sees, and which values
    are dropped, is what independent maps would give *)
Theorem C65_many_trees : exists w dr, wsteps al (World (Heap mem0 time) []) cs = Ok (w, wspec_outs [] cs, dr) /\
  dr ≡ₚ wspec_drops [] cs.
Proof using Hl. destruct (wsteps_ok al mem0 pk [] _ _ cs (winv_start mem0 _ time) Hl (fun _ H => or_introl H) (fun H _ => or_intror H)) as (w & dr & ms & E & Hd & _). eauto. Qed.

Context (w : world V) (Hw : world_reached al mem0 time cs w).
Local Lemma reached_inv : exists ms, winv mem0 pk (wspec_run [] cs) w ms.
Proof using Hl Hw.
  destruct (wsteps_ok al mem0 pk [] _ _ cs (winv_start mem0 _ time) Hl (fun _ H => or_introl H) (fun H _ => or_intror H)) as (w' & dr & ms & E & _ & Hi).
  destruct Hw as (os' & dr' & E'). rewrite E in E'. injection E' as -> _ _. eauto.
Qed.
Local Lemma live_shows i D m t : live cs w i D m t -> shows true pk (dense_tree V D) (wtree (w_mem w) t) m.
Proof using Hl Hw. intros [[b H1] H2]. destruct reached_inv as (ms & Hi). by eapply winv_shows. Qed.
Local Lemma shows_iter b t s m : shows b pk t s m -> exists n l, (forall fuel, n <= fuel -> iter_collect fuel t s = Ok l) /\ enumerates l (fun k => m !! k).
Proof.
  intros Hs. destruct (C49_iter b _ _ (sh_sup _ _ _ _ _ Hs) (sh_keeps _ _ _ _ _ Hs)) as (n & l & E & Hsort & Hin). exists n, l. split; [done|]. split; [done|].
  intros k v. rewrite Hin. exact (iff_sym (shows_get_is _ _ _ _ _ Hs k v)).
Qed.

(** a container the specification knows exists *)
Theorem C65_alive i D b m : wspec_run [] cs !! i = Some (Some (D, b, m)) -> exists t, live cs w i D m t /\ wh_depth t = D.
Proof using Hl Hw.
  intros H. destruct reached_inv as (ms & Hi). destruct (winv_tree _ _ _ _ _ Hi i D b m H) as (t & mm & _ & _ & _ & Ht & _ & Hd & _). exists t. split; [split; [by exists b|done]|done].
Qed.
(** it keeps the contract of Contract.v, so everything proved about trees that keep it (C49, and
    through it every lazy expression, also one over several trees of the same memory) applies *)
Theorem C65_contract i D m t : live cs w i D m t ->
  supported (dense_tree V D) /\ keeps_contract true pk (dense_tree V D) (wtree (w_mem w) t).
Proof using Hl Hw. intros Ht%live_shows. by split; apply Ht. Qed.
(** `get` and iteration report exactly the content of its own map *)
Theorem C65_get i D m t k : live cs w i D m t -> tree_get (dense_tree V D) (wtree (w_mem w) t) k = if (k <? keys_of D)%N then Ok (m !! k) else Panic.
Proof using Hl Hw. intros Ht%live_shows. apply Ht. Qed.
Theorem C65_iter i D m t : live cs w i D m t -> exists n l,
  (forall fuel, n <= fuel -> iter_collect fuel (dense_tree V D) (wtree (w_mem w) t) = Ok l) /\ enumerates l (fun k => m !! k).
Proof using Hl Hw. intros Ht%live_shows. by eapply shows_iter. Qed.
(** `key_values` *)
Theorem C65_key_values i D m t : live cs w i D m t -> exists ks vs, dense_key_values (wtree (w_mem w) t) = Ok (ks, vs) /\ length ks = length vs /\
  zip ks vs ≡ₚ map_to_list m.
Proof using Hl Hw. intros [[b H1] H2]. destruct reached_inv as (ms & Hi). by apply (winv_kv _ _ _ _ _ Hi i D b m t). Qed.
(** a lazy expression over any live trees of the memory: it can be built, keeps the contract, and
    `get` and iteration report exactly its elements *)
Theorem C65_expression t (e : wexpr V t) : wx_ok e (wspec_run [] cs) -> exists src, wx_src e (w_trees w) = Ok src /\
  supported t /\ keeps_contract (wx_operand e) pk t (src (w_mem w)) /\
  (forall k, tree_get t (src (w_mem w)) k = if (k <? keys_of (t_depth t))%N then Ok (wx_map e (wspec_run [] cs) !! k) else Panic) /\
  exists n l, (forall fuel, n <= fuel -> iter_collect fuel t (src (w_mem w)) = Ok l) /\ enumerates l (fun k => wx_map e (wspec_run [] cs) !! k).
Proof using Hl Hw.
  intros He. destruct reached_inv as (ms & Hi). destruct (winv_expr _ _ _ _ _ Hi e He) as (src & E & Hs). exists src. split; [done|].
  split; [apply Hs|]. split; [apply Hs|]. split; [apply Hs|]. by eapply shows_iter.
Qed.
(** memory that is not the trees' is left alone, and a program that has dropped all its trees has
    returned every block *)
Theorem C65_foreign_memory : mem0 ⊆ h_nodes (w_mem w).
Proof using Hl Hw.
  destruct reached_inv as (ms & Hi). apply map_subseteq_spec. intros b n Hb. apply (ow_all _ _ _ (wi_own _ _ _ _ _ Hi)). by left.
Qed.
Theorem C65_no_leak : (forall i x, wspec_run [] cs !! i <> Some (Some x)) -> h_nodes (w_mem w) = mem0.
Proof using Hl Hw.
  intros Hd. destruct reached_inv as (ms & Hi). apply map_eq. intros b. apply option_eq. intros n. rewrite (ow_all _ _ _ (wi_own _ _ _ _ _ Hi)). split; [|by left].
  intros [H|(i & m & Hm & Hb)]; [done|]. exfalso. destruct (wi_slot _ _ _ _ _ Hi i m Hm) as (x & t & G1 & G2 & G3).
  destruct x as [x|]; [by eapply Hd|]. destruct t; [done|]. cbn in G3. subst. by rewrite lookup_empty in Hb.
Qed.
(** the trees own exactly the nodes their keys need (the root and one node per non-empty subtree, as
    in C46), in a program in which no constructor panicked and no expression without exact hierarchy
    was collected *)
Theorem C65_memory : wspec_all_panicked [] cs = ∅ -> ~ Exists collects_part cs ->
  size (h_nodes (w_mem w)) = size mem0 + sum_list ((fun x => match x with
    | Some (D, _, m) => 1 + sum_list ((fun n => size (prefixes 64 D n (dom m))) <$> seq 1 (D - 1))
    | None => 0 end) <$> wspec_run [] cs).
Proof using Hl Hw.
  intros Hp Hc. destruct reached_inv as (ms & Hi). refine (winv_size _ _ _ _ _ Hi _). intros k [Hk|Hk]; [|done]. rewrite Hp in Hk. set_solver.
Qed.
End world.

(** ** the hypotheses are met: a first-fit allocator that hands out the lowest free address (so freed
    addresses come back at once), and a program with trees of two depths whose blocks
    interleave; the last one is collected from an intersection *)
Definition first_fit (mem : gmap N node) : N :=
  default (fresh (dom mem : gset N)) (head (filter (fun a => mem !! a = None) (map N.of_nat (seq 0 (S (size mem)))))).
Lemma first_fit_free (mem : gmap N node) (time : N) : mem !! first_fit mem = None.
Proof.
  unfold first_fit. destruct (filter _ _) as [|a l] eqn:E; cbn.
  - apply (not_elem_of_dom (D := gset N)). apply is_fresh.
  - assert (a ∈ a :: l) as H by set_solver. rewrite <- E in H. by apply elem_of_list_filter in H as [H _].
Qed.
Definition ex_alloc : allocator := Allocator (fun mem _ => first_fit mem) first_fit_free.
(** the union of containers 1 and 2, doubled *)
Definition ex_union : wexpr N (t_map (t_union (dense_tree N 3) (dense_tree N 3)) (fun '(a, b) => (default 0 a + default 0 b)%N)) :=
  WMap _ (WUnion (WLeaf 1 3) (WLeaf 2 3)).
(** the common keys of containers 1 and 3 *)
Definition ex_common : wexpr N (t_intersection (dense_tree N 3) (dense_tree N 3)) := WIntersection (WLeaf 1 3) (WLeaf 3 3).
(** how many of containers 2, 3 and 4 have a key, and the sum of their elements: `multi_map_fold` of a `multi_union` *)
Definition ex_count : wexpr N (t_multi_map_fold (t_multi_union_ref (dense_tree N 3)) (fun l : list N => l) (0, 0)%N (fun '(n, sum) x => (n + 1, sum + x)%N)) :=
  WFold (t := t_multi_union_ref (dense_tree N 3)) (fun l : list N => l) (0, 0)%N (fun '(n, sum) x => (n + 1, sum + x)%N) (WMultiUnion [WLeaf 2 3; WLeaf 3 3; WLeaf 4 3]).
(** the keys that containers 3, 4 and 5 share *)
Definition ex_shared : wexpr N (t_multi_intersection (dense_tree N 3)) := WMultiIntersection [WLeaf 3 3; WLeaf 4 3; WLeaf 5 3].
Definition ex_prog : list (wcall N) :=
  [WNew 2; WNew 3; WCall 0 (CInsert 5 50); WCall 1 (CInsert 5 51); WCall 0 (CInsert 6 60); WCall 1 (CInsert 70 71); WCall 0 (CRemove 5);
   WCall 0 (CInsert 7 70); WDrop 0; WNew 3; WCall 2 (CInsert 5 52); WCall 2 (CInsert 6 62); WCall 2 (CInsert 70 72); WCall 1 (CGet 5); WCall 1 (CInsert 300000 1); WCall 2 (CGetOrInsert 4 None None);
   WCollect ex_union (fun x => 2 * x); WCall 2 (CRemove 5); WCall 3 (CGet 5); WCall 3 (CRemove 70); WCall 1 (CGet 70); WCall 3 (CInsert 300 1);
   WCollect ex_common (fun '(a, b) => (a + b)%N); WDrop 1; WCall 3 (CInsert 1 1); WCall 4 (CUpdateAll (fun k v => (k + v)%N)); WCall 4 (CGet 5); WCall 4 (CGet 70);
   WCollect ex_count (fun '(n, sum) => (1000 * n + sum)%N); WCall 5 (CGet 5); WCall 5 (CGet 6); WCall 5 (CGet 7);
   WCollect ex_shared (fun l => foldr N.add 0%N l); WCall 6 (CGet 5); WCall 6 (CGet 6)]%N.
Lemma ex_prog_legal : wlegal [] ex_prog.
Proof.
  unfold ex_prog. cbn [wlegal]. repeat match goal with
  | |- _ /\ _ => split
  | |- True => exact I
  | |- wlegal_step _ (WNew _) => cbn; lia
  | |- wlegal_step _ (WDrop _) => eexists; vm_compute; reflexivity
  | |- wlegal_step _ (WCall _ _) => eexists _, _, _; split; [vm_compute; reflexivity|split; [exact I|split; [intros H; first [reflexivity|destruct H]|split; [intros; lia|vm_compute; reflexivity]]]]
  | |- wlegal_step _ (WCollect ex_union _) => split; [split; [reflexivity|split; (split; [reflexivity|eexists _, _; vm_compute; reflexivity])]|split; [intros H; discriminate H|vm_compute; reflexivity]]
  | |- wlegal_step _ (WCollect ex_count _) => split; [split; [reflexivity|split; [cbn; lia|split; [cbn; lia|]]]; cbn [foldr]; repeat split; eexists _, _; vm_compute; reflexivity|split;
      [intros _ H; apply (f_equal (fun m => bool_decide (is_Some (m !! 5%N)))) in H; vm_compute in H; discriminate H|vm_compute; reflexivity]]
  | |- wlegal_step _ (WCollect ex_shared _) => split; [split; [discriminate|split; [cbn; lia|]]; cbn [foldr]; repeat split; eexists _, _; vm_compute; reflexivity|split;
      [intros _ H; apply (f_equal (fun m => bool_decide (is_Some (m !! 5%N)))) in H; vm_compute in H; discriminate H|vm_compute; reflexivity]]
  | |- wlegal_step _ (WCollect ex_common _) => split; [split; [reflexivity|split; eexists _, _; vm_compute; reflexivity]|split;
      [intros _ H; apply (f_equal (fun m => m !! 5%N)) in H; vm_compute in H; discriminate H|vm_compute; reflexivity]]
  end.
Qed.
Example C65_example : exists w dr, wsteps ex_alloc (World (Heap ∅ 0) []) ex_prog = Ok (w, wspec_outs [] ex_prog, dr) /\
  wspec_outs [] ex_prog = [ODone; ODone; ODone; ODone; ODone; ODone; OVal (Some 50%N); ODone; ODone; ODone; ODone; ODone; ODone; OVal (Some 51%N); OPanic; OPanic;
    ODone; OVal (Some 52%N); OVal (Some 206%N); OVal (Some 286%N); OVal (Some 71%N); ODone; ODone; ODone; ODone; ODone; OVal (Some 262%N); OVal None;
    ODone; OVal (Some 2468%N); OVal (Some 2186%N); OVal None; ODone; OVal (Some 2936%N); OVal None] /\
  wspec_run [] ex_prog !! 0 = Some None /\ (exists m, wspec_run [] ex_prog !! 3 = Some (Some (3, true, m)) /\ m !! 5%N = Some 206%N /\ m !! 70%N = None) /\
  (exists m, wspec_run [] ex_prog !! 4 = Some (Some (3, false, m)) /\ m !! 5%N = Some 262%N).
Proof.
  destruct (C65_many_trees ex_alloc ∅ 0 ex_prog ex_prog_legal) as (w & dr & E & _). exists w, dr. split; [exact E|].
  split; [vm_compute; reflexivity|]. split; [vm_compute; reflexivity|]. split.
  - eexists. split; [vm_compute; reflexivity|]. split; vm_compute; reflexivity.
  - eexists. split; vm_compute; reflexivity.
Qed.
(** in this run tree 2 uses addresses that tree 0 gave back *)
Example C65_example_reuse :
  (let* (w, _, _) := wsteps ex_alloc (World (Heap ∅ 0) []) (take 8 ex_prog) in
   Ok (size (h_nodes (w_mem w)), map (fun t => wh_root <$> t) (w_trees w))) = Ok (6, [Some (PHeap 0); Some (PHeap 1)]) /\
  (let* (w, _, _) := wsteps ex_alloc (World (Heap ∅ 0) []) (take 16 ex_prog) in
   Ok (size (h_nodes (w_mem w)), map (fun t => wh_root <$> t) (w_trees w))) = Ok (8, [None; Some (PHeap 1); Some (PHeap 0)]) /\
  (let* (w, _, _) := wsteps ex_alloc (World (Heap ∅ 0) []) (take 28 ex_prog) in
   Ok (size (h_nodes (w_mem w)), map (fun t => wh_keys <$> t) (w_trees w))) = Ok (11, [None; None; Some [USIZE_MAX; 70%N; 6%N]; Some [USIZE_MAX; 5%N; 6%N; 300%N; 1%N]; Some [USIZE_MAX; 5%N]]) /\
  (let* (w, _, _) := wsteps ex_alloc (World (Heap ∅ 0) []) (ex_prog ++ [WDrop 2; WDrop 3; WDrop 4; WDrop 5; WDrop 6]) in Ok (size (h_nodes (w_mem w)))) = Ok 0.
Proof. vm_compute. done. Qed.
(** the memory bound on the calls before the panicking constructor: trees of 3 and 5 nodes *)
Example C65_memory_example : let cs := take 15 ex_prog in wlegal [] cs /\ wspec_all_panicked [] cs = ∅ /\ ~ Exists collects_part cs /\
  sum_list ((fun x => match x with Some (D, _, m) => 1 + sum_list ((fun n => size (prefixes 64 D n (dom m))) <$> seq 1 (D - 1)) | None => 0 end) <$> wspec_run [] cs) = 8 /\
  (let* (w, _, _) := wsteps ex_alloc (World (Heap ∅ 0) []) cs in Ok (size (h_nodes (w_mem w)))) = Ok 8.
Proof.
  cbn zeta. split.
  { pose proof ex_prog_legal as H. unfold ex_prog in *. cbn [take wlegal] in *. tauto. }
  split; [apply (bool_decide_eq_true_1 _); vm_compute; done|]. split.
  - unfold ex_prog. cbn [take]. rewrite !Exists_cons, Exists_nil. cbn [collects_part]. tauto.
  - split; vm_compute; done.
Qed.
