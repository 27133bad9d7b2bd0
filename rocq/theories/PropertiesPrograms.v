(** * C60: the programs of the README and of /repo/examples, for any content
    [table l]: the finite map after the assignments [l], the last one for a key wins; [at_or zero m i]: element
    [i] of the vector [m] (ProgramProofs.v).  [enumerates l get]: [l] lists exactly the pairs of [get], each
    once, keys ascending. *)
From Verif Require Import Base LevelIndices Hierarchy Ops Dense Sparse Spec SpecLaws Generic Lawful Denote Programs ProgramProofs.

(** ** readme_multi_type_example.rs: the users with an age and a name *)
(** the loop visits exactly the keys present in both trees, ascending, each with the closure's value for the pair *)
Theorem C60_users {A B S} (format : A -> B -> S) (D : nat) (ages : list (N * A)) (names : list (N * B)) :
  1 <= D <= 5 -> in_range (64 ^ N.of_nat D) ages -> in_range (64 ^ N.of_nat D) names ->
  exists n l, (forall fuel, n <= fuel -> users D format fuel ages names = Ok l) /\
    enumerates l (fun k => match table ages !! k, table names !! k with Some x, Some y => Some (format x y) | _, _ => None end).
Proof. intros [H1 H2]. by apply users_ok. Qed.

(** ** readme_sparse_vec_dot.rs *)
(** without any law of `f32`: the products of the common keys, added in ascending order of the keys *)
Theorem C60_readme_dot {F} (zero : F) (add mul : F -> F -> F) (D : nat) (l1 l2 : list (N * F)) :
  1 <= D <= 5 -> in_range (64 ^ N.of_nat D) l1 -> in_range (64 ^ N.of_nat D) l2 ->
  exists n ks, StronglySorted N.lt ks /\ (forall k, k ∈ ks <-> is_Some (table l1 !! k) /\ is_Some (table l2 !! k)) /\
    forall fuel, n <= fuel -> readme_dot zero add mul D fuel l1 l2 =
      Ok (fold_left add ((fun k => mul (at_or zero (table l1) k) (at_or zero (table l2) k)) <$> ks) zero).
Proof. intros [H1 H2]. by apply readme_dot_ok. Qed.
(** where zero is neutral and absorbing, that is the dot product of the two vectors with 64^D elements *)
Theorem C60_readme_dot_vectors {F} (zero : F) (add mul : F -> F -> F) (D : nat) (l1 l2 : list (N * F)) :
  (forall x, add x zero = x) -> (forall x, mul zero x = zero) -> (forall x, mul x zero = zero) ->
  1 <= D <= 5 -> in_range (64 ^ N.of_nat D) l1 -> in_range (64 ^ N.of_nat D) l2 ->
  exists n, forall fuel, n <= fuel -> readme_dot zero add mul D fuel l1 l2 =
    Ok (fold_left add ((fun i => mul (at_or zero (table l1) i) (at_or zero (table l2) i)) <$> (N.of_nat <$> seq 0 (64 ^ D))) zero).
Proof. intros L1 L2 L3 [H1 H2]. by apply readme_dot_vectors. Qed.
(** the laws hold of the integers *)
Theorem C60_readme_dot_Z (D : nat) (l1 l2 : list (N * Z)) :
  1 <= D <= 5 -> in_range (64 ^ N.of_nat D) l1 -> in_range (64 ^ N.of_nat D) l2 ->
  exists n, forall fuel, n <= fuel -> readme_dot 0%Z Z.add Z.mul D fuel l1 l2 =
    Ok (fold_left Z.add ((fun i => (at_or 0 (table l1) i * at_or 0 (table l2) i)%Z) <$> (N.of_nat <$> seq 0 (64 ^ D))) 0%Z).
Proof. apply C60_readme_dot_vectors; intros; lia. Qed.

(** ** sparse_vector.rs: blocks of four lanes *)
(** lane by lane, without associativity: lane [r] of the accumulator is the sum of the products at 4b + r *)
Theorem C60_sparse_vector_lanes {F} (zero : F) (add mul : F -> F -> F) (reduce_add : list F -> F) (l1 l2 : list (N * F)) :
  (forall x, add x zero = x) -> (forall x, mul zero x = zero) -> (forall x, mul x zero = zero) ->
  in_range 16384 l1 -> in_range 16384 l2 ->
  exists n, forall fuel, n <= fuel -> sv_dot zero add mul reduce_add fuel l1 l2 =
    Ok (reduce_add ((fun r => fold_left add
      ((fun b => (fun i => mul (at_or zero (table l1) i) (at_or zero (table l2) i)) (4 * b + r)%N) <$> (N.of_nat <$> seq 0 4096)) zero)
      <$> [0; 1; 2; 3]%N)).
Proof. apply sv_dot_lanes. Qed.
(** in a commutative monoid, with `reduce_add` the sum of the lanes: the dot product of vectors of 16384 elements *)
Theorem C60_sparse_vector_dot {F} (zero : F) (add mul : F -> F -> F) (reduce_add : list F -> F) (l1 l2 : list (N * F)) :
  (forall x y z, add x (add y z) = add (add x y) z) -> (forall x y, add x y = add y x) ->
  (forall x, add x zero = x) -> (forall x, mul zero x = zero) -> (forall x, mul x zero = zero) ->
  (forall a b c d, reduce_add [a; b; c; d] = add (add a b) (add c d)) ->
  in_range 16384 l1 -> in_range 16384 l2 ->
  exists n, forall fuel, n <= fuel -> sv_dot zero add mul reduce_add fuel l1 l2 =
    Ok (fold_left add ((fun i => mul (at_or zero (table l1) i) (at_or zero (table l2) i)) <$> (N.of_nat <$> seq 0 (4 * 4096))) zero).
Proof.
  intros assoc comm L1 L2 L3 Hred H1 H2. destruct (sv_dot_lanes zero add mul reduce_add l1 l2 L1 L2 L3 H1 H2) as (n & Hn). exists n. intros fuel Hf.
  rewrite (Hn fuel Hf). f_equal. cbn [fmap list_fmap]. rewrite Hred.
  exact (sum_lanes zero add mul assoc L1 comm (fun i => mul (at_or zero (table l1) i) (at_or zero (table l2) i)) 4096).
Qed.
Theorem C60_sparse_vector_dot_Z (l1 l2 : list (N * Z)) : in_range 16384 l1 -> in_range 16384 l2 ->
  exists n, forall fuel, n <= fuel -> sv_dot 0%Z Z.add Z.mul (fun x => foldr Z.add 0%Z x) fuel l1 l2 =
    Ok (fold_left Z.add ((fun i => (at_or 0 (table l1) i * at_or 0 (table l2) i)%Z) <$> (N.of_nat <$> seq 0 (4 * 4096))) 0%Z).
Proof. apply C60_sparse_vector_dot; intros; cbn; lia. Qed.
(** an element outside makes `set` panic (the block index is out of range), whatever the tree *)
Theorem C60_sparse_vector_out_of_range {F} (zero : F) (t : sparse (list F)) (i : N) (x : F) : (16384 <= i)%N -> sv_set zero t i x = Panic.
Proof.
  intros Hi. unfold sv_set, sparse_get_or_insert, index_from. rewrite (proj2 (N.ltb_ge _ _)); [done|]. change (saturating_pow (msize 1) 2) with 4096%N.
  apply N.div_le_lower_bound; lia.
Qed.

(** ** readme_store_example.rs *)
(** the goods of store [k] *)
Definition stocks (goods : list (list (N * N))) (k : N) (amounts : list N) : Prop :=
  Forall2 (fun g amount => table g !! k = Some amount) goods amounts.
(** some good is there in the wanted amount *)
Definition one_suffices (amounts mins : list N) : Prop :=
  exists i amount min, amounts !! i = Some amount /\ mins !! i = Some min /\ (min <= amount)%N.
(** what the example says it looks for: "5 apples, 20 oranges, 7 carrots - from the SAME store" *)
Definition suits (goods : list (list (N * N))) (mins : list N) (k : N) : Prop :=
  Forall2 (fun g min => exists amount, table g !! k = Some amount /\ (min <= amount)%N) goods mins.

Lemma contains_iff amounts mins : contains amounts mins = true <-> one_suffices amounts mins.
Proof.
  unfold contains, one_suffices. split.
  - destruct (List.find _ _) as [[a m]|] eqn:E; [|done]. intros _. apply find_some in E as [Hin Hle]. cbn in Hle.
    apply elem_of_list_In, elem_of_list_lookup in Hin as [i Hi]. rewrite lookup_zip_with in Hi. 
    destruct (amounts !! i) as [x|] eqn:E1; [|done]. cbn in Hi. destruct (mins !! i) as [y|] eqn:E2; [|done]. cbn in Hi. injection Hi as -> ->.
    exists i, a, m. split_and!; [done..|]. by apply N.leb_le.
  - intros (i & a & m & Ea & Em & Hle). destruct (List.find _ _) eqn:E; [done|]. exfalso.
    assert ((a, m) ∈ zip amounts mins) as Hin.
    { apply elem_of_list_lookup. exists i. by rewrite lookup_zip_with, Ea; cbn; rewrite Em. }
    apply elem_of_list_In in Hin. pose proof (find_none _ _ E _ Hin) as H. cbn in H. apply N.leb_gt in H. lia.
Qed.
Lemma stocks_all goods k amounts : all_of ((fun g => table g !! k) <$> goods) = Some amounts <-> stocks goods k amounts.
Proof.
  unfold stocks. revert amounts. induction goods as [|g goods IH]; intros amounts; cbn [fmap list_fmap all_of].
  - split; [intros [= <-]; constructor|by intros ->%Forall2_nil_inv_l].
  - destruct (table g !! k) as [x|] eqn:E.
    + destruct (all_of _) as [r|] eqn:E2.
      * split; [intros [= <-]; constructor; [done|by apply IH]|]. intros (y & r' & Hy & Hr & ->)%Forall2_cons_inv_l.
        apply IH in Hr. congruence.
      * split; [done|]. intros (y & r' & Hy & Hr & ->)%Forall2_cons_inv_l. apply IH in Hr. congruence.
    + split; [done|]. intros (y & r' & Hy & Hr & ->)%Forall2_cons_inv_l. congruence.
Qed.
Lemma find_first {A} (P : N * A -> bool) (l : list (N * A)) : StronglySorted N.lt l.*1 ->
  match List.find P l with
  | Some p => p ∈ l /\ P p = true /\ forall q, q ∈ l -> (q.1 < p.1)%N -> P q = false
  | None => forall q, q ∈ l -> P q = false
  end.
Proof.
  induction l as [|x l IH]; intros Hs; cbn [List.find]; [intros q []%elem_of_nil|]. cbn in Hs. apply StronglySorted_inv in Hs as [Hs Hall].
  rewrite Forall_forall in Hall. destruct (P x) eqn:E.
  - split; [left|]. split; [done|]. intros q [->|Hq]%elem_of_cons Hlt; [lia|]. specialize (Hall q.1 ltac:(by apply elem_of_list_fmap_1)). lia.
  - specialize (IH Hs). destruct (List.find P l) as [p|].
    + destruct IH as (Hin & Hp & Hf). split; [by right|]. split; [done|]. intros q [->|Hq]%elem_of_cons Hlt; [done|by apply Hf].
    + intros q [->|Hq]%elem_of_cons; [done|by apply IH].
Qed.

(** What the loop returns: the first store, in ascending order, that has every good, and at least ONE of them in
    the wanted amount.  Missing: "every one of them", which is false ([C60_store_refuted]). *)
Theorem C60_store_partial (D : nat) (goods : list (list (N * N))) (mins : list N) :
  1 <= D <= 5 -> goods <> [] -> length goods <= 32 -> Forall (in_range (64 ^ N.of_nat D)) goods ->
  exists n r, (forall fuel, n <= fuel -> store D fuel goods mins = Ok r) /\
    match r with
    | Some (k, amounts) => stocks goods k amounts /\ one_suffices amounts mins /\
        forall k' amounts', (k' < k)%N -> stocks goods k' amounts' -> ~ one_suffices amounts' mins
    | None => forall k amounts, stocks goods k amounts -> ~ one_suffices amounts mins
    end.
Proof.
  intros [HD0 HD5] Hne Hlen Hr. destruct (store_ok D HD0 HD5 goods mins Hne Hlen Hr) as (n & l & Hl & Hs & He).
  exists n, (List.find (fun p => contains (snd p) mins) l). split; [done|].
  assert (forall k amounts, (k, amounts) ∈ l <-> stocks goods k amounts) as Hin by (intros; rewrite He; apply stocks_all).
  pose proof (find_first (fun p => contains (snd p) mins) l Hs) as Hf.
  assert (forall amounts, contains amounts mins = false -> ~ one_suffices amounts mins) as Hno.
  { intros a Ha Hs'. apply contains_iff in Hs'. congruence. }
  destruct (List.find _ l) as [[k a]|].
  - destruct Hf as (H1 & H2 & H3). split; [by apply Hin|]. split; [by apply contains_iff|].
    intros k' a' Hlt Hst. apply Hno. apply (H3 (k', a')); [by apply Hin|done].
  - intros k a Hst. apply Hno. apply (Hf (k, a)). by apply Hin.
Qed.
Lemma suits_one goods mins k : goods <> [] -> suits goods mins k -> exists amounts, stocks goods k amounts /\ one_suffices amounts mins.
Proof.
  intros Hne Hs. unfold suits in Hs. assert (exists amounts, stocks goods k amounts /\ Forall2 (fun a m => (m <= a)%N) amounts mins) as (a & Ha & Hm).
  { clear Hne. induction Hs as [|g m goods mins (x & Hx & Hle) _ (a & Ha & Hm)]; [by exists []; split; constructor|]. exists (x :: a). split; by constructor. }
  exists a. split; [done|]. destruct Ha as [|g x goods a Hx Ha]; [done|]. destruct mins as [|m mins]; [by apply Forall2_cons_nil_inv in Hm|].
  apply Forall2_cons in Hm as [Hm _]. by exists 0, x, m.
Qed.
(** if it finds nothing, no store suits *)
Theorem C60_store_none (D : nat) (goods : list (list (N * N))) (mins : list N) n :
  1 <= D <= 5 -> goods <> [] -> length goods <= 32 -> Forall (in_range (64 ^ N.of_nat D)) goods ->
  (forall fuel, n <= fuel -> store D fuel goods mins = Ok None) -> forall k, ~ suits goods mins k.
Proof.
  intros HD Hne Hlen Hr Hn k Hs. destruct (C60_store_partial D goods mins HD Hne Hlen Hr) as (n' & r & Hr' & H).
  pose proof (Hn (n `max` n') ltac:(lia)) as E. rewrite (Hr' (n `max` n')) in E by lia. injection E as ->.
  destruct (suits_one goods mins k Hne Hs) as (a & Ha & Ho). by apply (H k a).
Qed.
(** with a single good it is the first store that suits *)
Theorem C60_store_single (D : nat) (good : list (N * N)) (min : N) :
  1 <= D <= 5 -> in_range (64 ^ N.of_nat D) good ->
  exists n r, (forall fuel, n <= fuel -> store D fuel [good] [min] = Ok r) /\
    match r with
    | Some (k, _) => suits [good] [min] k /\ forall k', (k' < k)%N -> ~ suits [good] [min] k'
    | None => forall k, ~ suits [good] [min] k
    end.
Proof.
  intros HD Hr. destruct (C60_store_partial D [good] [min] HD ltac:(done) ltac:(cbn; lia) ltac:(by constructor)) as (n & r & Hn & H).
  exists n, r. split; [done|]. destruct r as [[k a]|].
  - destruct H as (Ha & (i & x & m & Hx & Hm & Hle) & Hf). split.
    + apply Forall2_cons_inv_l in Ha as (y & a' & Hy & Ha & ->). apply Forall2_nil_inv_l in Ha as ->. destruct i as [|i]; [|by destruct i].
      cbn in Hx, Hm. injection Hx as ->. injection Hm as ->. constructor; [by exists x|constructor].
    + intros k' Hlt Hs. destruct (suits_one [good] [min] _ ltac:(done) Hs) as (a' & Ha' & Ho). by apply (Hf k' a').
  - intros k Hs. destruct (suits_one [good] [min] _ ltac:(done) Hs) as (a' & Ha' & Ho). by apply (H k a').
Qed.
(** The full claim, "a store it finds has every good in the wanted amount", is false: with one carrot more in
    store 0 the README's program buys 20 oranges from a store that has 4. *)
Definition apples : list (N * N) := [(0, 12); (3, 40)]%N.
Definition oranges : list (N * N) := [(0, 4); (1, 15); (3, 40)]%N.
Definition carrots : list (N * N) := [(1, 5); (3, 100)]%N.
Theorem C60_store_refuted : ~ (forall (D : nat) goods mins n k amounts,
  1 <= D <= 5 -> goods <> [] -> length goods <= 32 -> length mins = length goods -> Forall (in_range (64 ^ N.of_nat D)) goods ->
  (forall fuel, n <= fuel -> store D fuel goods mins = Ok (Some (k, amounts))) -> suits goods mins k).
Proof.
  intros H. set (goods := [apples; oranges; (0, 1)%N :: carrots]). set (mins := [5; 20; 7]%N).
  assert (Forall (in_range (64 ^ N.of_nat 4)) goods) as Hr.
  { assert (forall b l, forallb (fun p : N * N => (p.1 <? b)%N) l = true -> in_range b l) as Hb.
    { intros b l Hl k v Hin. rewrite forallb_forall in Hl. apply elem_of_list_In in Hin. specialize (Hl _ Hin). by apply N.ltb_lt in Hl. }
    repeat constructor; apply Hb; vm_compute; done. }
  destruct (C60_store_partial 4 goods mins ltac:(lia) ltac:(done) ltac:(cbn; lia) Hr) as (n & r & Hn & Hres).
  assert (stocks goods 0 [12; 4; 1]%N) as Hst by (repeat constructor).
  assert (one_suffices [12; 4; 1]%N mins) as Hone by (exists 0, 12%N, 5%N; split_and!; [done..|lia]).
  destruct r as [[k a]|]; [|by apply (Hres 0%N [12; 4; 1]%N)]. assert (k = 0%N) as ->.
  { destruct (N.eq_0_gt_0_cases k) as [->|Hk]; [done|]. exfalso. by apply (proj2 (proj2 Hres) 0%N [12; 4; 1]%N). }
  specialize (H 4 goods mins n 0%N a ltac:(lia) ltac:(done) ltac:(cbn; lia) ltac:(done) Hr Hn).
  apply Forall2_cons in H as [_ H]. apply Forall2_cons in H as [(x & Hx & Hle) _].
  assert (table oranges !! 0%N = Some 4%N) as E by done. rewrite E in Hx. injection Hx as <-. lia.
Qed.

(** the hypotheses are met: the literal programs *)
Example C60_readme_store_runs : store 4 20 [apples; oranges; carrots] [5; 20; 7]%N = Ok (Some (3%N, [40; 40; 100]%N)).
Proof. vm_compute. done. Qed.
(** readme_multi_type_example.rs:7-23 (names as numbers) *)
Example C60_readme_users_runs :
  users 4 pair 20 [(100, 20); (200, 30); (300, 40)]%N [(200, 7); (234, 8); (300, 9)]%N = Ok [(200, (30, 7)); (300, (40, 9))]%N.
Proof. vm_compute. done. Qed.
(** readme_sparse_vec_dot.rs:6-17, the second vector doubled to stay in the integers: 2 * 51 *)
Example C60_readme_dot_runs :
  readme_dot 0%Z Z.add Z.mul 4 20 [(10%N, 1); (20%N, 10); (30%N, 100)]%Z [(10%N, 2); (30%N, 1)]%Z = Ok 102%Z.
Proof. vm_compute. done. Qed.
(** sparse_vector.rs:49-63, likewise *)
Example C60_sparse_vector_runs :
  sv_dot 0%Z Z.add Z.mul (foldr Z.add 0%Z) 20 [(10%N, 1); (20%N, 10); (30%N, 100)]%Z [(10%N, 2); (30%N, 1)]%Z = Ok 102%Z.
Proof. vm_compute. done. Qed.
Example C60_in_range : in_range 16384 [(0%N, 1); (16383%N, 2)]%Z.
Proof. intros k v H. repeat (apply elem_of_cons in H as [H|H]; [injection H as -> ->; lia|]). by apply elem_of_nil in H. Qed.
