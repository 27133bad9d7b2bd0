(** * Model of src/sparse_tree_levels.rs as written, and of the visitors of src/sparse_tree.rs

    Sparse.v writes the folds over the tuple of levels as loops over a list of levels.  Here are the folds of the macro
    `sparse_array_levels_impl!` and the visitors passed to them, arm by arm, and the proof that Sparse.v computes the same. *)
From Verif Require Import Base BitUtils BitQueue LevelIndices LevelIndicesProofs ConstLoops Hierarchy Dense Sparse SparseVec SparseShape SparseProofs SparseOps.

(** ** the eight invocations of the macro, sparse_tree_levels.rs:174-181: `[$i]` and `[$rev_i]` *)
Definition macro_i (n : nat) : list nat :=
  match n with
  | 1 => [0] | 2 => [0; 1] | 3 => [0; 1; 2] | 4 => [0; 1; 2; 3] | 5 => [0; 1; 2; 3; 4] | 6 => [0; 1; 2; 3; 4; 5]
  | 7 => [0; 1; 2; 3; 4; 5; 6] | 8 => [0; 1; 2; 3; 4; 5; 6; 7] | _ => []
  end.
(** second list of each invocation, sparse_tree_levels.rs:174-181 *)
Definition macro_rev_i (n : nat) : list nat :=
  match n with
  | 1 => [0] | 2 => [1; 0] | 3 => [2; 1; 0] | 4 => [3; 2; 1; 0] | 5 => [4; 3; 2; 1; 0] | 6 => [5; 4; 3; 2; 1; 0]
  | 7 => [6; 5; 4; 3; 2; 1; 0] | 8 => [7; 6; 5; 4; 3; 2; 1; 0] | _ => []
  end.

(** `ControlFlow<Acc, Acc>` *)
Inductive flow (A : Type) := Break (a : A) | Continue (a : A).
Arguments Break {A}. Arguments Continue {A}.

Section folds.
Context {L : Type}.
(** `match i.value() { $( $i => .. self.$i .., )+ _ => unreachable!() }` sparse_tree_levels.rs:91-128 (visit_type, visit, visit_mut):
    the element the arm for [i] works on; [levels] is the tuple *)
Fixpoint arm (is : list nat) (levels : list L) (i : nat) : res L :=
  match is with
  | [] => Panic
  | j :: is => if decide (i = j) then get_u levels j else arm is levels i
  end.
(** `visit` 111-119 *)
Definition tuple_visit {Out} (levels : list L) (i : nat) (visitor : nat -> L -> res Out) : res Out :=
  let* l := arm (macro_i (length levels)) levels i in visitor i l.
(** `visit_mut` 121-129: the visitor returns the changed level *)
Definition tuple_visit_mut {Out} (levels : list L) (i : nat) (visitor : nat -> L -> res (L * Out)) : res (list L * Out) :=
  let* l := arm (macro_i (length levels)) levels i in
  let* (l, o) := visitor i l in Ok (<[i := l]> levels, o).
(** a `FoldMutVisitor` 43-50 with state [St] *)
Definition fold_mut_visitor (St Acc : Type) := St -> nat -> L -> Acc -> res (St * L * flow Acc).
(** the unrolled statements of `fold_mut` 131-140 and `fold_rev_mut` 142-153 *)
Fixpoint fold_arms_mut {St Acc} (is : list nat) (levels : list L) (acc : Acc) (st : St) (visit : fold_mut_visitor St Acc) : res (St * list L * Acc) :=
  match is with
  | [] => Ok (st, levels, acc)
  | i :: is =>
    let* l := get_u levels i in
    let* (st, l, f) := visit st i l acc in
    let levels := <[i := l]> levels in
    match f with
    | Break v => Ok (st, levels, v)
    | Continue v => fold_arms_mut is levels v st visit
    end
  end.
(** `fold_mut` 131-140 *)
Definition tuple_fold_mut {St Acc} (levels : list L) (acc : Acc) (st : St) (visit : fold_mut_visitor St Acc) :=
  fold_arms_mut (macro_i (length levels)) levels acc st visit.
(** `fold_rev_mut` 142-153 *)
Definition tuple_fold_rev_mut {St Acc} (levels : list L) (acc : Acc) (st : St) (visit : fold_mut_visitor St Acc) :=
  fold_arms_mut (macro_rev_i (length levels)) levels acc st visit.
(** a `FoldVisitor` 34-41 *)
Definition fold_visitor (St Acc : Type) := St -> nat -> L -> Acc -> res (St * flow Acc).
(** `fold_n` 155-169 *)
Fixpoint fold_n_arms {St Acc} (is : list nat) (n : nat) (levels : list L) (acc : Acc) (st : St) (visit : fold_visitor St Acc) : res (St * Acc) :=
  match is with
  | [] => Ok (st, acc)
  | i :: is =>
    if decide (i = n) then Ok (st, acc)
    else
      let* l := get_u levels i in
      let* (st, f) := visit st i l acc in
      match f with
      | Break v => Ok (st, v)
      | Continue v => fold_n_arms is n levels v st visit
      end
  end.
(** `fold_n` 155-169 *)
Definition tuple_fold_n {St Acc} (n : nat) (levels : list L) (acc : Acc) (st : St) (visit : fold_visitor St Acc) :=
  fold_n_arms (macro_i (length levels)) n levels acc st visit.
(** `fold` 64-67: `fold_n(LevelCount::DEFAULT, ..)` *)
Definition tuple_fold {St Acc} (levels : list L) (acc : Acc) (st : St) (visit : fold_visitor St Acc) :=
  tuple_fold_n (length levels) levels acc st visit.

(** ** what they do *)
Lemma macro_i_seq n : 1 <= n -> n <= 8 -> macro_i n = seq 0 n.
Proof. intros H1 H2. do 9 (destruct n as [|n]; [done || lia|]). lia. Qed.
Lemma macro_rev_i_seq n : 1 <= n -> n <= 8 -> macro_rev_i n = rev (seq 0 n).
Proof. intros H1 H2. do 9 (destruct n as [|n]; [done || lia|]). lia. Qed.
Lemma arm_seq levels i a k : arm (seq a k) levels i = if decide (a <= i < a + k) then get_u levels i else Panic.
Proof.
  revert a. induction k as [|k IH]; intros a; cbn [seq arm].
  - by rewrite decide_False by lia.
  - destruct (decide (i = a)) as [->|Hne]; [by rewrite decide_True by lia|]. rewrite IH.
    destruct (decide (a <= i < a + S k)); [by rewrite decide_True by lia|by rewrite decide_False by lia].
Qed.
(** `visit(i)` reaches element [i], and panics out of range *)
Lemma tuple_visit_ok {Out} levels i (f : nat -> L -> res Out) : 1 <= length levels -> length levels <= 8 ->
  tuple_visit levels i f = let* l := get_c levels i in f i l.
Proof.
  intros H1 H2. unfold tuple_visit. rewrite macro_i_seq, arm_seq by done. unfold get_c, get_u. destruct (decide _) as [Hi|Hi].
  - destruct (lookup_lt_is_Some_2 levels i) as [l ->]; [lia|]. done.
  - rewrite lookup_ge_None_2 by lia. done.
Qed.
Lemma tuple_visit_mut_ok {Out} levels i (f : nat -> L -> res (L * Out)) : 1 <= length levels -> length levels <= 8 ->
  tuple_visit_mut levels i f = let* l := get_c levels i in let* (l, o) := f i l in Ok (<[i := l]> levels, o).
Proof.
  intros H1 H2. unfold tuple_visit_mut. rewrite macro_i_seq, arm_seq by done. unfold get_c, get_u. destruct (decide _) as [Hi|Hi].
  - destruct (lookup_lt_is_Some_2 levels i) as [l ->]; [lia|]. done.
  - rewrite lookup_ge_None_2 by lia. done.
Qed.
End folds.

(** ** `fetch_block_indices` sparse_tree.rs:238-267 with its visitor; the state is `out`, the accumulator the block index *)
Definition fetch_visitor (level_indices : list N) : fold_visitor (L := level) (list N) N :=
  fun out i level level_block_index =>
  let* block := lv_get level level_block_index in                        (* 257 *)
  let* in_block_index := get_u level_indices i in                        (* 258 *)
  let* block_index := blk_get block in_block_index in                    (* 259 *)
  let* out := set_u out i block_index in                                 (* 260 *)
  Ok (out, Continue block_index).
(** `fetch_block_indices` sparse_tree.rs:238-267: `debug_assert_eq!` on the length, `Array::from_fn(|_| 0)` *)
Definition fetch_block_indices_fold {V} (D : nat) (t : sparse V) (level_indices : list N) : res (list N * N) :=
  tuple_fold (s_levels t) 0%N (replicate D 0%N) (fetch_visitor level_indices).

Lemma fetch_fold_aux ls q D k n acc out : n + k = D -> length ls = D -> length out = n ->
  fold_n_arms (seq n k) D ls acc (out ++ replicate k 0%N) (fetch_visitor q) =
  let* (rest, last) := fetch_loop ls q k n acc in Ok (out ++ rest, last).
Proof.
  revert n acc out. induction k as [|k IH]; intros n acc out Hn Hl Ho; cbn [seq fold_n_arms fetch_loop].
  - rewrite bind_ok. done.
  - rewrite decide_False by lia. destruct (lookup_lt_is_Some_2 ls n) as [l Hlk]; [lia|].
    rewrite (get_u_ok _ _ _ Hlk), bind_ok. unfold get_block, lv_at, get_c. rewrite Hlk, bind_ok. unfold fetch_visitor at 1.
    destruct (lv_get l acc) as [b| | |]; cbn [rbind]; try done. destruct (get_u q n) as [i| | |]; cbn [rbind]; try done.
    destruct (blk_get b i) as [x| | |]; cbn [rbind]; try done.
    assert (set_u (out ++ replicate (S k) 0%N) n x = Ok ((out ++ [x]) ++ replicate k 0%N)) as ->.
    { rewrite set_u_ok by (rewrite app_length, replicate_length; lia). f_equal. rewrite <- Ho, insert_app_r_alt, Nat.sub_diag by lia.
      cbn. by rewrite <- app_assoc. }
    cbn [rbind]. rewrite IH by (rewrite ?app_length; cbn; lia).
    destruct (fetch_loop ls q k (S n) x) as [[rest last]| | |]; cbn [rbind]; try done. by rewrite <- app_assoc.
Qed.
(** the model of Sparse.v computes what the fold computes *)
Theorem fetch_block_indices_is_fold {V} D (t : sparse V) q : 1 <= D -> D <= 8 -> length (s_levels t) = D ->
  fetch_block_indices_fold D t q = fetch_block_indices D t q.
Proof.
  intros H1 H2 Hl. unfold fetch_block_indices_fold, tuple_fold, tuple_fold_n. rewrite Hl, macro_i_seq by done.
  pose proof (fetch_fold_aux (s_levels t) q D D 0 0%N [] eq_refl Hl eq_refl) as H. cbn [app] in H. rewrite H.
  unfold fetch_block_indices. by destruct (fetch_loop _ _ _ _ _) as [[? ?]| | |].
Qed.

(** ** `remove`: the visitor of sparse_tree.rs:294-327; no state, no accumulator *)
Definition remove_visitor (level_indices levels_block_indices : list N) : fold_mut_visitor (L := level) unit unit :=
  fun st level_number level acc =>
  let* block_index := if decide (level_number = 0) then Ok 0%N else get_c levels_block_indices (level_number - 1) in (* 308-312 *)
  let* level_block := lv_get level block_index in                        (* 313 *)
  let* inner_index := get_c level_indices level_number in                (* 315 *)
  let* level_block := blk_remove level_block inner_index in              (* 316 *)
  let* level := lv_set level block_index level_block in
  if blk_is_empty level_block then                                       (* 319 *)
    let* level := if decide (level_number <> 0) then lv_remove_empty level block_index else Ok level in (* 320-322 *)
    Ok (st, level, Continue acc)
  else Ok (st, level, Break acc).
(** `self.levels.fold_rev_mut((), V{..})` sparse_tree.rs:290 *)
Definition remove_levels_fold (ls : list level) (level_indices levels_block_indices : list N) : res (list level) :=
  let* (_, ls, _) := tuple_fold_rev_mut ls () () (remove_visitor level_indices levels_block_indices) in Ok ls.

Lemma remove_visit_level ls q lbis n l : ls !! n = Some l ->
  remove_visit q lbis ls n =
  let* (_, l', f) := remove_visitor q lbis () n l () in Ok (<[n := l']> ls, match f with Break _ => Some () | Continue _ => None end).
Proof.
  intros Hl. pose proof (lookup_lt_Some _ _ _ Hl) as Hlt. unfold remove_visit, remove_visitor. unfold get_block, put_block, lv_at.
  destruct (if decide (n = 0) then Ok 0%N else get_c lbis (n - 1)) as [a| | |]; cbn [rbind]; try done.
  unfold get_c at 1. rewrite Hl. cbn [rbind]. destruct (lv_get l a) as [b| | |]; cbn [rbind]; try done.
  destruct (get_c q n) as [i| | |]; cbn [rbind]; try done. destruct (blk_remove b i) as [b'| | |]; cbn [rbind]; try done.
  unfold get_c at 1. rewrite Hl. cbn [rbind]. destruct (lv_set l a b') as [l'| | |]; cbn [rbind]; try done.
  destruct (blk_is_empty b'); [|done]. destruct (decide (n <> 0)); [|done].
  unfold get_c. rewrite list_lookup_insert by done. cbn [rbind]. destruct (lv_remove_empty l' a) as [l2| | |]; cbn [rbind]; try done.
  by rewrite list_insert_insert.
Qed.
Lemma remove_fold_aux q lbis is ls : (forall i, i ∈ is -> i < length ls) ->
  (let* (_, ls, _) := fold_arms_mut is ls () () (remove_visitor q lbis) in Ok ls) =
  let* (ls, _) := visit_list is (remove_visit q lbis) ls in Ok ls.
Proof.
  revert ls. induction is as [|i is IH]; intros ls Hi; cbn [fold_arms_mut visit_list]; [done|].
  destruct (lookup_lt_is_Some_2 ls i) as [l Hl]; [apply Hi; left|]. rewrite (get_u_ok _ _ _ Hl), bind_ok.
  rewrite (remove_visit_level _ _ _ _ _ Hl).
  destruct (remove_visitor q lbis () i l ()) as [[[[] l'] f]| | |]; cbn [rbind]; try done. destruct f as [[]|[]]; cbn [rbind]; [done|].
  apply IH. intros j Hj. rewrite insert_length. apply Hi. by right.
Qed.
Theorem remove_levels_is_fold {V} D (t : sparse V) q lbis : 1 <= D -> D <= 8 -> length (s_levels t) = D ->
  remove_levels_fold (s_levels t) q lbis = let* (ls, _) := visit_list (rev (seq 0 D)) (remove_visit q lbis) (s_levels t) in Ok ls.
Proof.
  intros H1 H2 Hl. unfold remove_levels_fold, tuple_fold_rev_mut. rewrite Hl, macro_rev_i_seq by done. apply remove_fold_aux.
  intros i Hi. apply elem_of_list_In, in_rev, elem_of_list_In, elem_of_seq in Hi. lia.
Qed.

(** ** `get_block` 192-212, `get_block_mut` 215-235, `visit_mut(.., Insert)` 412-422 *)
Theorem get_block_is_visit ls n i : 1 <= length ls -> length ls <= 8 -> tuple_visit ls n (fun _ l => lv_get l i) = get_block ls n i.
Proof. intros H1 H2. by rewrite tuple_visit_ok. Qed.
Theorem insert_block_is_visit nw ls n : 1 <= length ls -> length ls <= 8 ->
  tuple_visit_mut ls n (fun _ l => lv_insert_empty nw l) =
  let* l := lv_at ls n in let* (l, new) := lv_insert_empty nw l in Ok (<[n := l]> ls, new).
Proof. intros H1 H2. by rewrite tuple_visit_mut_ok. Qed.
(** the length condition holds of every tree *)
Lemma levels_length {V} nw D (first : option V) E (t : sparse V) m : sparse_inv nw D first E t m -> length (s_levels t) = D.
Proof. intros (P & J & Sh & _). apply (ss_len _ _ _ _ _ _ Sh). Qed.

(** the folds visit in order and stop at `Break`: for any visitor *)
Theorem fold_rev_mut_order {L St Acc} (levels : list L) (acc : Acc) (st : St) visit : 1 <= length levels -> length levels <= 8 ->
  tuple_fold_rev_mut levels acc st visit = fold_arms_mut (rev (seq 0 (length levels))) levels acc st visit.
Proof. intros H1 H2. unfold tuple_fold_rev_mut. by rewrite macro_rev_i_seq. Qed.
Theorem fold_mut_order {L St Acc} (levels : list L) (acc : Acc) (st : St) visit : 1 <= length levels -> length levels <= 8 ->
  tuple_fold_mut levels acc st visit = fold_arms_mut (seq 0 (length levels)) levels acc st visit.
Proof. intros H1 H2. unfold tuple_fold_mut. by rewrite macro_i_seq. Qed.
Example tuple_example : tuple_fold_rev_mut [10; 20; 30] 0 [] (fun st i l acc => Ok (st ++ [i], l + 1, if decide (i = 1) then Break (acc + l) else Continue (acc + l)))
  = Ok ([2; 1], [10; 21; 31], 50) /\
  tuple_fold_n 2 [10; 20; 30] 0 [] (fun st i l acc => Ok (st ++ [i], Continue (acc + l))) = Ok ([0; 1], 30) /\
  tuple_visit [10; 20; 30] 1 (fun i l => Ok (i, l)) = Ok (1, 20) /\ tuple_visit [10; 20; 30] 3 (fun i l => Ok (i, l)) = Panic.
Proof. done. Qed.
