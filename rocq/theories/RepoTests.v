(** * The repository's own unit tests, run on the model

    These are tests, not proofs of any property: they validate the model against the
    expectations the authors wrote down.  Each test body is transcribed call by call and the
    asserted value is the one in the Rust source.  The loops over 0..200_000 use the count the
    tests themselves use under miri (200 and 2000).  Not transcribed: tests that only print or
    only typecheck, and the seeded random ones (tests/fuzzy.rs, tests/from.rs:19-82,
    sparse_tree.rs:40-52), whose keys come out of the crate `rand`; the shape of the last two is
    run on keys from a linear congruential generator instead. *)
From Verif Require Import Base BitUtils LevelIndices ConstLoops ConstUtils Hierarchy Ops Dense Sparse Spec Client Materialize Findings.
Open Scope N_scope.

(** `assert_eq!` over the observations of a history *)
Definition dense_outs (D : nat) (cs : list (call N)) : res (list (out N)) :=
  let* (_, os, _) := dense_run D cs in Ok os.
(** `*a.get_or_insert(k) = v`, `usize: Default` *)
Definition put (k v : N) : call N := CGetOrInsert k (Some 0) (Some v).
Definition up_to (n : nat) : list N := N.of_nat <$> seq 0 n.

(** src/lib.rs:251-277 *)
Example test_level_indices_new :
  level_indices 1 2 65 = [1; 1] /\
  level_indices 1 3 (4096 * 2 + 64 * 3 + 4) = [2; 3; 4] /\
  level_indices 1 3 32 = [0; 0; 32] /\ level_indices 1 2 32 = [0; 32] /\ level_indices 1 1 32 = [32].
Proof. vm_compute. done. Qed.

(** src/dense_tree/tests.rs:6-20 *)
Example dense_test : dense_outs 3
  [CGet 15; put 15 89; CGet 15; put 16 90; CGet 20;
   CGetOrInsert 15 (Some 0) None; CGetOrInsert 0 (Some 0) None; CGetOrInsert 100 (Some 0) None]
  = Ok [OVal None; OVal (Some 0); OVal (Some 89); OVal (Some 0); OVal None;
        OVal (Some 89); OVal (Some 0); OVal (Some 0)].
Proof. vm_compute. done. Qed.

(** src/dense_tree/tests.rs:22-48 *)
Example dense_test2 : let ks := up_to 200 in dense_outs 3
  (((fun i => put i i) <$> ks) ++ (CGet <$> ks) ++ (CRemove <$> ks) ++ (CGet <$> ks))
  = Ok (((fun _ => OVal (Some 0)) <$> ks) ++ ((fun i => OVal (Some i)) <$> ks) ++
        ((fun i => OVal (Some i)) <$> ks) ++ ((fun _ => OVal None) <$> ks)).
Proof. vm_compute. done. Qed.

(** src/dense_tree/tests.rs:50-59 *)
Example dense_test_remove : dense_outs 2 [put 10 10; put 11 11; CRemove 11; CRemove 10]
  = Ok [OVal (Some 0); OVal (Some 0); OVal (Some 11); OVal (Some 10)].
Proof. vm_compute. done. Qed.

(** src/dense_tree/tests.rs:61-71 *)
Example dense_test_remove2 :
  match dense_outs 2 (((fun i => put i i) <$> up_to 2000) ++ [CRemove 0; CRemove 1]) with
  | Ok os => drop 2000 os = [OVal (Some 0); OVal (Some 1)]
  | _ => False
  end.
Proof. vm_compute. done. Qed.

(** the arrays of the smoke tests of src/ops *)
Definition a1 : dense N := dense_after 3 [put 10 10; put 15 15; put 200 200].
Definition a2 : dense N := dense_after 3 [put 100 100; put 15 15; put 200 200].
Definition a3 : dense N := dense_after 3 [put 300 300; put 15 15].
Notation A3 := (dense_tree N 3).

(** src/ops/union.rs:192-217 *)
Definition union_sum : tree := t_map (t_union A3 A3) (fun p : option N * option N => default 0 p.1 + default 0 p.2).
Example union_smoke_test :
  tree_get_unchecked union_sum (a1, a2) 200 = Ok 400 /\
  tree_get union_sum (a1, a2) 15 = Ok (Some 30) /\
  tree_get union_sum (a1, a2) 10 = Ok (Some 10) /\
  tree_get union_sum (a1, a2) 20 = Ok None /\
  iter_collect 100 union_sum (a1, a2) = Ok [(10, 10); (15, 30); (100, 100); (200, 400)].
Proof. vm_compute. done. Qed.

(** src/ops/intersection.rs:201-224, and the part commented out at 226-234 through `map` *)
Definition intersection_sum : tree := t_map (t_intersection A3 A3) (fun p : N * N => p.1 + p.2).
Example intersection_smoke_test :
  iter_collect 100 (t_intersection A3 A3) (a1, a2) = Ok [(15, (15, 15)); (200, (200, 200))] /\
  tree_get_unchecked intersection_sum (a1, a2) 200 = Ok 400 /\
  tree_get intersection_sum (a1, a2) 15 = Ok (Some 30) /\
  tree_get intersection_sum (a1, a2) 10 = Ok None /\
  tree_get intersection_sum (a1, a2) 20 = Ok None /\
  iter_collect 100 intersection_sum (a1, a2) = Ok [(15, 30); (200, 400)].
Proof. vm_compute. done. Qed.

(** src/ops/_multi_union.rs:347-406 *)
Example multi_union_smoke_test : let u := t_multi_union A3 in let arrays := [a1; a2; a3] in
  (let* l := iter_collect 100 u arrays in Ok (snd <$> l)) = Ok [[10]; [15; 15; 15]; [100]; [200; 200]; [300]] /\
  tree_get u arrays 10 = Ok (Some [10]) /\
  tree_get u arrays 15 = Ok (Some [15; 15; 15]) /\
  tree_get u arrays 25 = Ok None /\
  tree_get_unchecked u arrays 10 = Ok [10] /\
  tree_get_unchecked u arrays 15 = Ok [15; 15; 15].
Proof. vm_compute. done. Qed.

(** src/ops/_multi_intersection.rs:564-598 *)
Example multi_intersection_smoke_test : let u := t_multi_intersection A3 in let arrays := [a1; a2; a3] in
  iter_collect 100 u arrays = Ok [(15, [15; 15; 15])] /\
  tree_get u arrays 15 = Ok (Some [15; 15; 15]) /\
  tree_get u arrays 200 = Ok None /\
  tree_get_unchecked u arrays 15 = Ok [15; 15; 15].
Proof. vm_compute. done. Qed.

(** src/ops/multi_map_fold.rs:174-199 *)
Example multi_map_fold_smoke_test :
  let u := t_multi_map_fold (t_multi_intersection (dense_tree N 4)) (fun l : list N => l) 0 N.add in
  let arrays := [dense_after 4 (inserts [10; 15; 30]); dense_after 4 (inserts [15; 20]); dense_after 4 (inserts [15; 30])] in
  tree_get u arrays 10 = Ok None /\ tree_get u arrays 15 = Ok (Some 45) /\ tree_get u arrays 30 = Ok None /\
  tree_get_unchecked u arrays 15 = Ok 45 /\
  iter_collect 100 u arrays = Ok [(15, 45)].
Proof. vm_compute. done. Qed.

(** src/const_utils/const_int.rs:229-238 *)
Example const_int_test : inc 1 = Ok 2 /\ dec 1 = Ok 0.
Proof. vm_compute. done. Qed.
(** src/const_utils/const_int.rs:240-265: the indices printed *)
Definition printed (s : list nat) (i : nat) : res (list nat * option unit) := Ok (s ++ [i], None).
Example loop_test : const_for 0 3 printed [] = Ok ([0; 1; 2]%nat, None).
Proof. vm_compute. done. Qed.
Example loop_rev_test : const_for_rev 0 3 printed [] = Ok ([2; 1; 0]%nat, None).
Proof. vm_compute. done. Qed.
(** src/const_utils/const_loop.rs:64-77: the lines printed, `break` when N > 5 *)
Example const_loop_macro_test :
  const_loop 1 3 printed [] = Ok ([1; 2]%nat, None) /\
  const_loop 0 7 (fun s i => if (5 <? i)%nat then Ok (s, Some tt) else printed s i) [] = Ok ([0; 1; 2; 3; 4; 5]%nat, Some tt).
Proof. vm_compute. done. Qed.
(** src/const_utils/const_loop.rs:80-91 *)
Example const_loop_rev_macro_test :
  const_loop_rev 1 3 printed [] = Ok ([2; 1]%nat, None) /\
  const_loop_rev 0 7 (fun s i => if (i <? 2)%nat then Ok (s, Some tt) else printed s i) [] = Ok ([6; 5; 4; 3; 2]%nat, Some tt).
Proof. vm_compute. done. Qed.

(** tests/sparse_tree.rs:28-37 *)
Example depth2_test : iter_collect 10 (sparse_tree N 1 2) (sparse_after 1 2 [CInsert 1 3]) = Ok [(1, 3)].
Proof. vm_compute. done. Qed.
(** tests/sparse_tree.rs:54-80, `Array = DenseTree<Data, 3>` as in tests/common.rs:21, and the
    SparseTree the same file has commented out at common.rs:20; miri's count is 2000, 500 here *)
Example insert_test2 : let ks := up_to 500 in let t := dense_after 3 ((fun i => put i i) <$> ks) in
  rmap (fun i => tree_get A3 t i) ks = Ok (Some <$> ks) /\ iter_collect 2000 A3 t = Ok ((fun i => (i, i)) <$> ks).
Proof. vm_compute. done. Qed.
Example insert_test2_sparse : let ks := up_to 500 in let t := sparse_after 1 3 ((fun i => put i i) <$> ks) in
  rmap (fun i => tree_get (sparse_tree N 1 3) t i) ks = Ok (Some <$> ks) /\ iter_collect 2000 (sparse_tree N 1 3) t = Ok ((fun i => (i, i)) <$> ks).
Proof. vm_compute. done. Qed.
(** tests/sparse_tree.rs:82-92 *)
Example remove_test : dense_outs 3 [put 1 1; put 2 2; put 400 400;
   CGetOrInsert 1 (Some 0) None; CGetOrInsert 2 (Some 0) None; CGetOrInsert 400 (Some 0) None]
  = Ok [OVal (Some 0); OVal (Some 0); OVal (Some 0); OVal (Some 1); OVal (Some 2); OVal (Some 400)].
Proof. vm_compute. done. Qed.

(** keys 0..260_000 (tests/common.rs:22) from a linear congruential generator *)
Fixpoint lcg (n : nat) (x : N) : list N :=
  match n with O => [] | S n => (x / 65536 mod 260000) :: lcg n ((x * 6364136223846793005 + 1442695040888963407) mod 2 ^ 64) end.
(** tests/from.rs:19-29, 71-81: `map(&a1, clone)`, `map(intersection(&a1, &a2), fst)`,
    `map(union(&a1, &a2), unwrap fst)`, each materialized, enumerate as `a1` *)
Definition mat_equal (t : tree) (s : t_T t) (l : list (N * t_V t)) : Prop :=
  (let* d := materialize t s in iter_collect 4000 (dense_tree (t_V t) 3) d) = Ok l.
Example materialize_test : let a := dense_after 3 (inserts (lcg 150 0xe15bb9db3dee3a0f)) in
  match iter_collect 4000 A3 a with
  | Ok l =>
    (100 < length l)%nat /\
    mat_equal (t_map A3 (fun x : N => x)) a l /\
    mat_equal (t_map (t_intersection A3 A3) (fun p : N * N => p.1)) (a, a) l /\
    mat_equal (t_map (t_union A3 A3) (fun p : option N * option N => default 77 p.1)) (a, a) l
  | _ => False
  end.
Proof. vm_compute. repeat split; reflexivity || lia. Qed.
(** tests/fuzzy.rs:57-82: rounds of inserts and removals, a `HashMap` beside *)
Definition fuzzy_round (n : nat) (seed : N) : list (call N) :=
  ((fun k => put k k) <$> lcg n seed) ++ (CRemove <$> lcg (n / 2) (seed + 1)) ++ (CRemove <$> take (n / 2) (lcg n seed)).
Definition fuzzy_calls : list (call N) := fuzzy_round 60 11 ++ fuzzy_round 80 12345 ++ fuzzy_round 40 987654321.
Definition fuzzy_map : gmap N N := spec_run (64 ^ 3) ∅ fuzzy_calls.
Example fuzzy_test : let t := dense_after 3 fuzzy_calls in
  bool_decide (60 < size fuzzy_map)%nat = true /\
  forallb (fun k => match tree_get A3 t k with Ok o => bool_decide (o = fuzzy_map !! k) | _ => false end) (lcg 60 11 ++ lcg 80 12345 ++ lcg 40 987654321 ++ lcg 50 5) = true /\
  match iter_collect 4000 A3 t with
  | Ok l => bool_decide (list_to_map l = fuzzy_map) && (length l =? size fuzzy_map)%nat
  | _ => false end = true.
Proof. vm_compute. done. Qed.
