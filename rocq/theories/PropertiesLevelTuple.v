(** * C02, fidelity: the loops of the SparseTree model are the folds over the tuple of levels, as written in the code *)
From Verif Require Import Base BitUtils LevelIndices Hierarchy ConstLoops Dense Sparse SparseLevelsTuple Spec Client SparseHistory Examples Findings.

(** on every tree a history reaches, the lookup of C02 is the fold of `fetch_block_indices` and the ascent of `remove` is
    `fold_rev_mut` with the visitor of `remove`, whatever arguments they get *)
Theorem C02_folds_as_written {V} nw D req (dflt : option V) cs t : nw_ok nw -> 1 <= D -> D <= 8 -> sparse_legal nw D req dflt cs ->
  sparse_reached nw D req dflt cs t ->
  (forall q, fetch_block_indices_fold D t q = fetch_block_indices D t q) /\
  (forall q lbis, remove_levels_fold (s_levels t) q lbis =
     let* (ls, _) := visit_list (rev (seq 0 D)) (remove_visit q lbis) (s_levels t) in Ok ls) /\
  (forall n i, tuple_visit (s_levels t) n (fun _ l => lv_get l i) = get_block (s_levels t) n i).
Proof.
  intros Hnw HD0 HD Hl Hr. pose proof (levels_length _ _ _ _ _ _ (sparse_reached_inv nw D req dflt cs t Hnw HD0 ltac:(lia) Hl Hr)) as HL.
  split; [intros q; by apply fetch_block_indices_is_fold|]. split; [intros q lbis; by apply remove_levels_is_fold|].
  intros n i. apply get_block_is_visit; lia.
Qed.
Example C02_folds_example : sparse_legal 1 3 false None ex_cs /\ sparse_reached 1 3 false None ex_cs (sparse_after 1 3 ex_cs) /\
  fetch_block_indices_fold 3 (sparse_after 1 3 ex_cs) (level_indices 1 3 5) = fetch_block_indices 3 (sparse_after 1 3 ex_cs) (level_indices 1 3 5).
Proof. split; [apply ex_sparse_legal; by left|]. split; [exact ex_sparse_reached|]. vm_compute. done. Qed.
