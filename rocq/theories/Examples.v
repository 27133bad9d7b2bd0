(** * Concrete, non-trivial instances used beside the theorems *)
From Verif Require Import Base BitUtils BitQueue LevelIndices ConstLoops Hierarchy Lawful Ops Dense Sparse Spec SpecLaws Client
  TreeClient DenseHistory SparseHistory DenseLaws SparseLaws Materialize Generic Compose ViewLaws MaterializeViews Findings.

(** a history with inserts in several subtrees, a replaced value, a removal that empties a
    node, a rejected key, a panicking constructor, a bulk update and reads *)
Definition ex_cs : list (call N) :=
  [CInsert 5 50; CInsert 4096 41; CInsert 5 51; CGetOrInsert 70 (Some 7) (Some 8); CInsert 200000 9;
   CRemove 4096; CGet 4096; CInsert 262144 1; CUpdateAll (fun k v => k + v); CRemove 12345;
   CGetOrInsert 9000 None None; CGet 70; CGetOrInsert 5 None None]%N.
Definition ex_map : gmap N N := {[ 5 := 56; 70 := 78; 200000 := 200009 ]}%N.

Lemma ex_dense_legal : dense_legal 3 ex_cs.
Proof. apply dense_small_legal; [lia|lia|lia|repeat constructor|lia]. Qed.
Lemma after_reached D cs : 1 <= D -> D <= 9 -> dense_legal D cs -> dense_reached D cs (dense_after D cs).
Proof.
  intros H0 H9 Hl. destruct (dense_run_ok D cs H0 H9 Hl) as (t & dr & ex & E & _). unfold dense_reached, dense_after. rewrite E. eauto.
Qed.
Lemma sparse_after_reached nw D cs : nw_ok nw -> 1 <= D -> D <= 9 -> sparse_legal nw D false None cs ->
  sparse_reached nw D false None cs (sparse_after nw D cs).
Proof.
  intros Hnw H0 H9 Hl. destruct (sparse_run_ok nw D false None cs Hnw H0 H9 Hl) as (t & dr & E & _). unfold sparse_reached, sparse_after. rewrite E. eauto.
Qed.
Lemma ex_dense_reached : dense_reached 3 ex_cs (dense_after 3 ex_cs).
Proof. apply after_reached; [lia|lia|exact ex_dense_legal]. Qed.
Lemma ex_dense_map : spec_run (64 ^ 3) ∅ ex_cs = ex_map.
Proof. apply (bool_decide_eq_true_1 _). vm_compute. done. Qed.
Lemma ex_sparse_legal nw : nw = 1 \/ nw = 2 -> sparse_legal nw 3 false None ex_cs.
Proof.
  intros H. apply sparse_small_legal; [destruct H as [-> | ->]; [by left|right; by left]|lia|lia| |repeat constructor|done].
  destruct H as [-> | ->]; [left|right]; split; lia.
Qed.
Lemma ex_sparse_reached : sparse_reached 1 3 false None ex_cs (sparse_after 1 3 ex_cs).
Proof. apply sparse_after_reached; [by left|lia|lia|apply ex_sparse_legal; by left]. Qed.
(** width 256 *)
Definition ex_keys256 : list (call N) := [CInsert 5 50; CInsert 65535 41; CInsert 300 51; CRemove 5; CGetOrDefault 5; CGetMut 300 (Some 52)]%N.
Lemma ex_sparse256_legal : sparse_legal 4 2 true (Some 0%N) ex_keys256.
Proof.
  split; [repeat constructor|]. split; [intros _; by eexists|]. cbn [ex_keys256 spec_always_e].
  assert (forall K : gset N, size K <= 3 -> links_fit (msize 4) 2 K) as HK.
  { intros K Hs n Hn. pose proof (prefixes_size (msize 4) 2 n K) as Hp. destruct n as [|[|[|n]]]; [lia| | |lia]; cbn [link_capacity]; lia. }
  repeat (split; [apply HK; vm_compute; lia|]). done.
Qed.

(** a nested view: (a ∪ map(b)) ∩ multi_intersection[a; b; a] over DenseTree, depth 3 *)
Definition ex_a : dense N := dense_after 3 ex_cs.
Definition ex_b : dense N := dense_after 3 (inserts [5; 71; 200000]%N).
Lemma ex_b_legal : dense_legal 3 (inserts [5; 71; 200000]%N).
Proof. apply dense_small_legal; [lia|lia|lia|repeat constructor|lia]. Qed.
Lemma ex_b_reached : dense_reached 3 (inserts [5; 71; 200000]%N) ex_b.
Proof. apply after_reached; [lia|lia|exact ex_b_legal]. Qed.
Definition ex_leaf : view true (dense_tree N 3) := VDense N 3 ltac:(lia) ltac:(lia).
Definition ex_map_tree : tree := t_map (dense_tree N 3) (fun x : N => x + 1)%N.
Definition ex_view : view true (t_intersection (t_union (dense_tree N 3) ex_map_tree) (t_multi_intersection (dense_tree N 3))) :=
  VIntersection true true (t_union (dense_tree N 3) ex_map_tree) (t_multi_intersection (dense_tree N 3)) eq_refl eq_refl
  (VUnion (dense_tree N 3) ex_map_tree eq_refl eq_refl ex_leaf (VMap true (dense_tree N 3) N (fun x : N => x + 1)%N ex_leaf))
  (VMultiIntersection true (dense_tree N 3) ex_leaf).
Definition ex_s := ((ex_a, ex_b), [ex_a; ex_b; ex_a]).
Lemma ex_a_ok : reached any_key ex_leaf ex_a.
Proof. exists ex_cs. split; [exact ex_dense_legal|]. split; [exact ex_dense_reached|done]. Qed.
Lemma ex_b_ok pk : reached pk ex_leaf ex_b.
Proof. exists (inserts [5; 71; 200000]%N). split; [exact ex_b_legal|]. split; [exact ex_b_reached|].
  apply none_panicked. apply (bool_decide_eq_true_1 _). vm_compute. done. Qed.
Lemma ex_view_reached : reached any_key ex_view ex_s.
Proof.
  split; [split; [exact ex_a_ok|exact (ex_b_ok any_key)]|]. split; [done|]. split; [cbn; lia|].
  repeat constructor; try exact ex_a_ok. exact (ex_b_ok any_key).
Qed.
Lemma ex_view_iter : iter_collect 100 (t_intersection (t_union (dense_tree N 3) (t_map (dense_tree N 3) (fun x : N => x + 1)%N))
    (t_multi_intersection (dense_tree N 3))) ex_s =
  Ok [(5, ((Some 56, Some 6), [56; 5; 56])); (200000, ((Some 200009, Some 200001), [200009; 200000; 200009]))]%N.
Proof. vm_compute. done. Qed.
(** a cursor session: down to a leaf, sideways, back up, unchecked to another leaf *)
Definition ex_sels : list sel := [Sel 0 0 false; Sel 1 0 false; Sel 2 9 false; Sel 2 1 false; Sel 1 48 true; Sel 2 53 true]%N.
Lemma ex_sel_run : sel_run 64 3 (has_elem (dense_tree N 3) ex_a) None ex_sels (Some ([48; 53]%N, false)).
Proof.
  assert (forall p, p = [48%N] \/ p = [48; 53]%N -> has_elem (dense_tree N 3) ex_a p) as Hh.
  { intros p Hp. exists 200000%N, 200009%N. split; [|vm_compute; done]. split; [done|].
    destruct Hp as [-> | ->]; [exists [53; 0]%N|exists [0]%N]; vm_compute; done. }
  unfold ex_sels.
  eapply sel_cons. { cbn. split; [lia|]. split; [done|]. reflexivity. }
  eapply sel_cons. { cbn. eexists _, _. split; [done|]. split; [lia|]. split; [lia|]. split; [lia|]. split; reflexivity. }
  eapply sel_cons. { cbn. eexists _, _. split; [done|]. split; [cbn; lia|]. split; [lia|]. split; [lia|]. split; reflexivity. }
  eapply sel_cons. { cbn. eexists _, _. split; [done|]. split; [cbn; lia|]. split; [lia|]. split; [lia|]. split; reflexivity. }
  eapply sel_cons. { cbn. eexists _, _. split; [done|]. split; [cbn; lia|]. split; [lia|]. split; [lia|]. split; [apply Hh; auto|reflexivity]. }
  eapply sel_cons. { cbn. eexists _, _. split; [done|]. split; [cbn; lia|]. split; [lia|]. split; [lia|]. split; [apply Hh; auto|reflexivity]. }
  apply sel_nil.
Qed.

(** ** materialized trees *)
Definition ex_ut : tree := t_union (dense_tree N 3) ex_map_tree.
Definition ex_uv : view true ex_ut :=
  VUnion (dense_tree N 3) ex_map_tree eq_refl eq_refl ex_leaf (VMap true (dense_tree N 3) N (fun x : N => x + 1)%N ex_leaf).
Definition ex_c : dense N := dense_after 3 (inserts [72; 5; 9000]%N).
Lemma ex_c_ok pk : reached pk ex_leaf ex_c.
Proof.
  assert (dense_legal 3 (inserts [72; 5; 9000]%N)) as Hl by (apply dense_small_legal; [lia|lia|lia|repeat constructor|lia]).
  exists (inserts [72; 5; 9000]%N). split; [exact Hl|]. split; [apply after_reached; [lia|lia|exact Hl]|].
  apply none_panicked. apply (bool_decide_eq_true_1 _). vm_compute. done. Qed.
Definition ex_ucs : list (call (option N * option N)) :=
  [CInsert 9001 (None, None); CRemove 5; CInsert 72 (Some 1, Some 2); CGet 71; CRemove 9000; CGet 9000; CInsert 262144 (None, None)]%N.
Definition ex_mat_run : res (list (out (option N * option N)) * list (N * (option N * option N))) :=
  let* d := materialize ex_ut (ex_b, ex_c) in
  let* (d, os, _) := dense_calls 3 d ex_ucs in
  let* l := iter_collect 100 (dense_tree (option N * option N) 3) d in Ok (os, l).
Lemma ex_mat : reached no_key ex_uv (ex_b, ex_c) /\ t_nw ex_ut = 1 /\ t_exact ex_ut = true /\ few ex_ut (ex_b, ex_c) /\
  (forall m, get_is ex_ut (ex_b, ex_c) m -> dense_legal_from 3 m ex_ucs /\ spec_all_panicked (64 ^ 3) m ex_ucs = ∅) /\
  ex_mat_run = Ok ([ODone; OVal (Some (Some 5, Some 6)); ODone; OVal (Some (Some 71, None)); OVal (Some (None, Some 9001)); OVal None; OPanic],
    [(71, (Some 71, None)); (72, (Some 1, Some 2)); (9001, (None, None)); (200000, (Some 200000, None))])%N.
Proof.
  assert (reached no_key ex_uv (ex_b, ex_c)) as Hr by (split; [exact (ex_b_ok no_key)|exact (ex_c_ok no_key)]).
  split; [exact Hr|]. split; [done|]. split; [done|]. split; [exact (few_small ex_uv no_key _ Hr eq_refl ltac:(cbn; lia))|]. split; [|vm_compute; done].
  intros m Hm. split; [|unfold ex_ucs; cbn [spec_all_panicked spec_panicked]; by rewrite !(left_id_L ∅ (∪))]. apply (legal_from_small ex_uv no_key (ex_b, ex_c)); [done|done|cbn; lia|done|repeat constructor|cbn; lia].
Qed.
Definition ex_fv : view true ex_first := VMap true (t_intersection (dense_tree N 2) (dense_tree N 2)) N (fun '(x, _) => x)
  (VIntersection true true (dense_tree N 2) (dense_tree N 2) eq_refl eq_refl (VDense N 2 ltac:(lia) ltac:(lia)) (VDense N 2 ltac:(lia) ltac:(lia))).
Lemma ex_mat_sparse : let s := (dense_after 2 (inserts [5; 70; 71]%N), dense_after 2 (inserts [5; 71; 300]%N)) in
  reached no_key ex_fv s /\ t_nw ex_first = 1 /\ t_exact ex_first = false /\ few ex_first s /\ tree_get ex_first s 71 = Ok (Some 71%N).
Proof.
  intros s. assert (reached no_key ex_fv s) as Hr.
  { split; eexists; (split; [|split; [apply after_reached; [lia|lia|]|apply none_panicked]]); cbn [fst snd s];
      try (apply dense_small_legal; [lia|lia|lia|repeat constructor|lia]); apply (bool_decide_eq_true_1 _); vm_compute; done. }
  split; [exact Hr|]. split; [done|]. split; [done|]. split; [exact (few_small ex_fv no_key _ Hr eq_refl ltac:(cbn; lia))|]. vm_compute. done.
Qed.
