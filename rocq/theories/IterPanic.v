(** * Iterating and reading a view whose mapping function panics (src/iter.rs:86-147, src/ops/map.rs)

    The caller catches the panic (`catch_unwind`) and goes on using the same iterator. *)
From Verif Require Import Base BitUtils BitQueue LevelIndices ConstLoops Hierarchy Ops Spec SpecLaws Client TreeClient Compose ViewLaws MaterializeUnwind.

(** what one call of `next` gives to a caller that catches panics *)
Inductive caught (A : Type) := CVal (a : A) | CPanic.
Arguments CVal {A}. Arguments CPanic {A}.

(** `Iter::next` src/iter.rs:86-147 as in [iter_next] (Hierarchy.v), with the state in which a
    panic of `data_unchecked` (142-144) leaves the iterator: the loop 87-140 has already stored
    the new positions in `self` *)
Definition iter_next_b (fuel : nat) (t : tree) (s : t_T t) (it : iter (t_C t)) : res (iter (t_C t) * caught (option (N * t_V t))) :=
  let* (it, o) := iter_loop fuel t s it in
  match o with
  | None => Ok (it, CVal None)
  | Some level_index =>
    match t_cdata_u t s (it_cursor it) level_index with                        (* 142-144 *)
    | Ok data_block =>
      let* block_index := data_block_index (t_nw t) (t_depth t) (it_indices it) level_index in (* 145 *)
      Ok (it, CVal (Some (block_index, data_block)))
    | Panic => Ok (it, CPanic)
    | UB => UB
    | OutOfFuel => OutOfFuel
    end
  end.
(** a client calling `next` exactly [m] times, catching panics *)
Fixpoint iter_poll_b (fuel m : nat) (t : tree) (s : t_T t) (it : iter (t_C t)) : res (iter (t_C t) * list (caught (option (N * t_V t)))) :=
  match m with
  | O => Ok (it, [])
  | S m =>
    let* (it, o) := iter_next_b fuel t s it in
    let* (it, l) := iter_poll_b fuel m t s it in
    Ok (it, o :: l)
  end.
(** src/ops/multi_map_fold.rs as in [t_multi_map_fold] (Ops.v), whose `init` and `f` may panic
    ([None]; 42-62, 114-134): nothing else is called once one of them has panicked.  The other
    members are those of `map` *)
Fixpoint fold_until {X A : Type} (f : A -> X -> option A) (a : option A) (l : list X) : option A :=
  match a, l with
  | None, _ => None
  | Some a, [] => Some a
  | Some a, x :: l => fold_until f (f a x) l
  end.
(** multi_map_fold.rs:42-62, 114-134 with panicking `init` / `f` *)
Definition t_pfold (t : tree) {X A : Type} (items : t_V t -> list X) (init : option A) (f : A -> X -> option A) : tree :=
  t_pmap t (fun d => fold_until f init (items d)).
(** without panics it is [t_multi_map_fold] *)
Lemma fold_until_ok {X A : Type} (f : A -> X -> A) (a : A) (l : list X) : fold_until (fun a x => Some (f a x)) (Some a) l = Some (fold_left f l a).
Proof. revert a. induction l as [|x l IH]; intros a; [done|]. cbn [fold_until fold_left]. apply IH. Qed.

Lemma fold_until_left {X A : Type} (f : A -> X -> option A) (o : option A) (l : list X) : fold_until f o l = fold_left (fun o y => match o with Some a => f a y | None => None end) l o.
Proof.
  revert o. induction l as [|x l IH]; intros [a|]; try done; cbn [fold_until fold_left]; [apply IH|]. clear IH. by induction l as [|y l IH].
Qed.

Section pmap.
Context (t : tree) {W : Type} (f : t_V t -> option W).
Notation TP := (t_pmap t f).
(** proof device: the cursor of the lifted tree *)
Definition pc (it : iter (t_C t)) : iter (t_C TP) := @Iter (t_C TP) (it_iters it) (it_indices it) (it_cursor it).
Definition pc2 {A} (r : res (iter (t_C t) * A)) : res (iter (t_C TP) * A) := let* (it, a) := r in Ok (pc it, a).

Lemma pc2_bind {A B} (r : res A) (k : A -> res (iter (t_C t) * B)) : pc2 (rbind r k) = rbind r (fun a => pc2 (k a)).
Proof. by destruct r. Qed.
Lemma rbind_ext {A B} (r : res A) (k k' : A -> res B) : (forall a, k a = k' a) -> rbind r k = rbind r k'.
Proof. intros H. destruct r; cbn; auto. Qed.
Lemma visit_pc s it i : iter_visit TP s (pc it) i = pc2 (iter_visit t s it i).
Proof.
  unfold iter_visit. cbn [pc it_iters it_indices it_cursor]. rewrite pc2_bind. apply rbind_ext. intros q.
  rewrite pc2_bind. apply rbind_ext. intros [q1 o]. rewrite pc2_bind. apply rbind_ext. intros iters. destruct o as [index|]; [|done].
  rewrite pc2_bind. apply rbind_ext. intros ind. cbn [t_pmap t_select_u]. rewrite pc2_bind. apply rbind_ext. intros [c m].
  rewrite pc2_bind. apply rbind_ext. intros iters2. done.
Qed.
Lemma range_pc s self from it : iterate_as_range_rev self from (iter_visit TP s) (pc it) = pc2 (iterate_as_range_rev self from (iter_visit t s) it).
Proof.
  revert it. induction self as [|self IH]; intros it; [done|]. cbn [iterate_as_range_rev]. rewrite visit_pc.
  destruct (iter_visit t s it self) as [[it' [u|]]| | |]; [done| |done..]. cbn [pc2 rbind]. destruct (decide _); [done|]. apply IH.
Qed.
Lemma loop_pc fuel s it : iter_loop fuel TP s (pc it) = pc2 (iter_loop fuel t s it).
Proof.
  revert it. induction fuel as [|fuel IH]; intros it; [done|]. cbn [iter_loop]. cbn [pc it_iters it_indices it_cursor].
  rewrite pc2_bind. apply rbind_ext. intros q. rewrite pc2_bind. apply rbind_ext. intros [q1 [i|]]; [done|].
  unfold const_for_rev. change (t_depth TP) with (t_depth t).
  change (@Iter (t_C TP) ?a ?b ?c) with (pc (Iter a b c)). rewrite range_pc.
  destruct (iterate_as_range_rev _ _ _ _) as [[it' [u|]]| | |]; try done. cbn [pc2 rbind]. apply IH.
Qed.
(** one step: the element [f] panics on is skipped, everything else as in the source *)
Definition outcome (o : option (N * t_V t)) : caught (option (N * W)) :=
  match o with None => CVal None | Some (k, x) => match f x with Some w => CVal (Some (k, w)) | None => CPanic end end.
Lemma next_pc fuel s it it' o : iter_next fuel t s it = Ok (it', o) -> iter_next_b fuel TP s (pc it) = Ok (pc it', outcome o).
Proof.
  unfold iter_next, iter_next_b. rewrite loop_pc. destruct (iter_loop fuel t s it) as [[it1 [i|]]| | |]; try done; cbn [pc2 rbind].
  - cbn [t_pmap t_cdata_u pc it_cursor it_indices]. destruct (t_cdata_u t s (it_cursor it1) i) as [x| | |]; try done. cbn [rbind].
    change (t_nw TP) with (t_nw t). change (t_depth TP) with (t_depth t).
    destruct (data_block_index _ _ _ _) as [k| | |]; try done. cbn [rbind]. intros [= <- <-]. cbn [outcome]. by destruct (f x).
  - intros [= <- <-]. done.
Qed.
Lemma poll_pc fuel m s it it' l : iter_poll fuel m t s it = Ok (it', l) -> iter_poll_b fuel m TP s (pc it) = Ok (pc it', outcome <$> l).
Proof.
  revert it it' l. induction m as [|m IH]; intros it it' l; cbn [iter_poll iter_poll_b]; [by intros [= <- <-]|].
  destruct (iter_next fuel t s it) as [[it1 o]| | |] eqn:E; try done. rewrite (next_pc _ _ _ _ _ E). cbn [rbind].
  destruct (iter_poll fuel m t s it1) as [[it2 l2]| | |] eqn:E2; try done. rewrite (IH _ _ _ E2). cbn [rbind]. by intros [= <- <-].
Qed.
Lemma new_pc s it : iter_new t s = Ok it -> iter_new TP s = Ok (pc it).
Proof.
  unfold iter_new. cbn [t_pmap t_new t_select_u t_depth t_nw]. destruct (t_new t s) as [c| | |]; try done. cbn [rbind].
  destruct (t_select_u t s c 0 0) as [[c' m]| | |]; try done. cbn [rbind]. destruct (decide _); try done. by intros [= <-].
Qed.
Lemma get_pc s k : tree_get TP s k = let* o := tree_get t s k in match o with Some x => let* w := or_panic (f x) in Ok (Some w) | None => Ok None end.
Proof. unfold tree_get. cbn [t_pmap t_nw t_depth t_data]. destruct (index_from _ _ _) as [i| | |]; done. Qed.
End pmap.

Lemma pmap_poll {b t} (v : view b t) pk s {W} (f : t_V t -> option W) : reached pk v s -> exists n l,
  (forall fuel, n <= fuel -> iter_collect fuel t s = Ok l) /\
  (forall m fuel, n <= fuel -> exists it it', iter_new (t_pmap t f) s = Ok it /\
     iter_poll_b fuel m (t_pmap t f) s it = Ok (it', take m ((outcome t f <$> (Some <$> l)) ++ replicate m (CVal None)))).
Proof.
  intros Hr. destruct (view_poll v pk s Hr) as (n & l & Hc & Hp). exists n, l. split; [done|]. intros m fuel Hf.
  destruct (Hp m fuel Hf) as (it & it' & Hn & E). exists (pc t f it), (pc t f it'). split; [by apply new_pc|].
  rewrite (poll_pc _ _ _ _ _ _ _ _ E). do 2 f_equal. rewrite fmap_take, fmap_app, fmap_replicate. done.
Qed.
