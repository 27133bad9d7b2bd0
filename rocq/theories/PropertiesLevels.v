(** * C59: levels are allocators of blocks

    LevelSpec.v is the specification: which blocks are in use, with which contents.  A history is
    legal if [al_run] accepts it: only an empty block in use is given back, only a block in use is
    written; the blocks written are well-formed ([ok]: a mask of the right width). *)
From Verif Require Import Base BitUtils BitUtilsProofs LevelIndices Sparse SmallBlock Levels LevelSpec LevelProofs.

Section level.
Context (o : block_ops) (ok : bo_B o -> Prop) (L : block_laws o ok).
Context (cs : list (lcall (bo_B o))) (a : alloc (bo_B o)) (xs : list (lout (bo_B o))).
Hypothesis Hok : Forall (lcall_ok ok) cs.
Hypothesis Hrun : al_run (bo_empty o) (bo_is_empty o) al_init cs = Some (a, xs).

(** after any legal history a `Level` has answered as the allocator does; the blocks in use have the contents
    last written; block 0 is the empty block; and there are as many blocks as were ever in use
    together, plus block 0 *)
Theorem C59_level : exists l, lev_calls (lev_vec o) (lo_default (lev_vec o)) cs = Ok (l, xs) /\
  (forall i b, al_used a !! i = Some b -> lo_blocks (lev_vec o) l !! N.to_nat i = Some b) /\
  lo_blocks (lev_vec o) l !! 0 = Some (bo_empty o) /\
  length (lo_blocks (lev_vec o) l) = 1 + al_peak (bo_empty o) (bo_is_empty o) al_init cs.
Proof.
  destruct (vec_run o ok L cs al_init (vl_default o) a xs (vec_init o ok) Hok Hrun) as (l & E & Hl & _).
  exists l. split; [exact E|]. split; [intros i b Hb; by apply (lk_used _ _ _ _ Hl i b Hb)|]. split; [apply Hl|].
  pose proof (lk_len _ _ _ _ Hl) as Hlen. rewrite (al_run_peak (bo_empty o) (bo_is_empty o) al_init cs a xs (al_init_inv (bo_empty o) _) Hrun) in Hlen.
  cbn [al_init al_next] in Hlen. cbn [lev_vec lo_blocks]. lia.
Qed.
(** the same for an `IntrusiveListLevel`, which stores the free list inside the free blocks; the terminator of
    the list is u64::MAX, so there may be no block of this index (more blocks do not fit into memory) *)
Theorem C59_intrusive_list : (1 + N.of_nat (al_peak (bo_empty o) (bo_is_empty o) al_init cs) <= 2 ^ 64 - 1)%N ->
  exists l, lev_calls (lev_list o) (lo_default (lev_list o)) cs = Ok (l, xs) /\
  (forall i b, al_used a !! i = Some b -> lo_blocks (lev_list o) l !! N.to_nat i = Some b) /\
  lo_blocks (lev_list o) l !! 0 = Some (bo_empty o) /\
  length (lo_blocks (lev_list o) l) = 1 + al_peak (bo_empty o) (bo_is_empty o) al_init cs.
Proof.
  intros Hp. pose proof (al_run_peak (bo_empty o) (bo_is_empty o) al_init cs a xs (al_init_inv (bo_empty o) _) Hrun) as Hn. cbn [al_init al_next] in Hn.
  destruct (list_run o ok L cs al_init (il_default o) a xs (list_init o ok) Hok ltac:(unfold U64MAX; lia) Hrun) as (l & E & Hl & _).
  exists l. split; [exact E|]. split; [intros i b Hb; by apply (lk_used _ _ _ _ Hl i b Hb)|]. split; [apply Hl|].
  pose proof (lk_len _ _ _ _ Hl) as Hlen. cbn [lev_list lo_blocks]. lia.
Qed.
(** so the two can replace each other: every legal history gets the same answers *)
Theorem C59_interchangeable : (1 + N.of_nat (al_peak (bo_empty o) (bo_is_empty o) al_init cs) <= 2 ^ 64 - 1)%N ->
  exists l l', lev_calls (lev_vec o) (lo_default (lev_vec o)) cs = Ok (l, xs) /\ lev_calls (lev_list o) (lo_default (lev_list o)) cs = Ok (l', xs) /\
    length (lo_blocks (lev_vec o) l) = length (lo_blocks (lev_list o) l').
Proof.
  intros Hp. destruct C59_level as (l & H1 & _ & _ & H2). destruct (C59_intrusive_list Hp) as (l' & H3 & _ & _ & H4).
  exists l, l'. split; [done|]. split; [done|]. by rewrite H2, H4.
Qed.
(** what the next `insert_empty_block` will return, in either level: an index that is not in use and not 0, whose
    block is empty; all other blocks in use keep their contents *)
Theorem C59_insert_fresh : exists i b, (i <> 0)%N /\ al_used a !! i = None /\ bo_is_empty o b = true /\
  (exists l l', lev_calls (lev_vec o) (lo_default (lev_vec o)) cs = Ok (l, xs) /\ lev_call (lev_vec o) l LInsert = Ok (l', LIndex i) /\
    lo_blocks (lev_vec o) l' !! N.to_nat i = Some b /\
    forall j c, al_used a !! j = Some c -> lo_blocks (lev_vec o) l' !! N.to_nat j = Some c) /\
  ((2 + N.of_nat (al_peak (bo_empty o) (bo_is_empty o) al_init cs) <= 2 ^ 64 - 1)%N ->
   exists l l', lev_calls (lev_list o) (lo_default (lev_list o)) cs = Ok (l, xs) /\ lev_call (lev_list o) l LInsert = Ok (l', LIndex i) /\
    lo_blocks (lev_list o) l' !! N.to_nat i = Some b /\
    forall j c, al_used a !! j = Some c -> lo_blocks (lev_list o) l' !! N.to_nat j = Some c).
Proof.
  pose proof (al_run_inv _ _ _ _ _ _ (al_init_inv (bo_empty o) (bo_is_empty o)) Hrun) as Hi.
  pose proof (al_run_peak (bo_empty o) (bo_is_empty o) al_init cs a xs (al_init_inv (bo_empty o) _) Hrun) as Hn. cbn [al_init al_next] in Hn.
  assert (exists i b a', (i <> 0)%N /\ al_used a !! i = None /\ bo_is_empty o b = true /\ al_step (bo_empty o) (bo_is_empty o) a LInsert = Some (a', LIndex i) /\
    al_used a' = <[i := b]> (al_used a) /\ (al_next a' <= al_next a + 1)%N) as (i & b & a' & Hi0 & Hu & Hb & Hs & Ha' & Hn').
  { cbn [al_step]. destruct (al_free a) as [|[i b] free] eqn:Ef.
    - exists (al_next a), (bo_empty o). eexists. pose proof (ai_next _ _ Hi). split; [lia|]. split; [|split; [apply L|split; [done|cbn; split; [done|lia]]]].
      destruct (al_used a !! al_next a) eqn:E; [|done]. pose proof (ai_used _ _ Hi (al_next a) ltac:(by eexists)). lia.
    - exists i, b. eexists. pose proof (ai_free _ _ Hi) as Hf. rewrite Ef in Hf. inversion Hf as [|? ? Hx _]. subst. destruct Hx as (H1 & H2 & H3).
      split; [lia|]. split; [done|]. split; [done|]. split; [done|]. cbn. split; [done|lia]. }
  assert (forall j c, al_used a !! j = Some c -> al_used a' !! j = Some c) as Hkeep.
  { intros j c Hj. rewrite Ha'. rewrite lookup_insert_ne; [done|]. intros <-. congruence. }
  exists i, b. split; [done|]. split; [done|]. split; [done|]. split.
  - destruct (vec_run o ok L cs al_init (vl_default o) a xs (vec_init o ok) Hok Hrun) as (l & E & Hl).
    destruct (vec_call o ok L a l LInsert a' _ Hl I Hs) as (l' & E' & Hl' & _). exists l, l'. split; [exact E|]. split; [exact E'|]. split.
    + apply (lk_used _ _ _ _ Hl' i b). rewrite Ha'. apply lookup_insert.
    + intros j c Hj. apply (lk_used _ _ _ _ Hl' j c), Hkeep, Hj.
  - intros Hp.
    destruct (list_run o ok L cs al_init (il_default o) a xs (list_init o ok) Hok ltac:(unfold U64MAX; lia) Hrun) as (l & E & Hl).
    destruct (list_call o ok L a l LInsert a' _ Hl I ltac:(unfold U64MAX; lia) Hs) as (l' & E' & Hl' & _). exists l, l'. split; [exact E|]. split; [exact E'|]. split.
    + apply (lk_used _ _ _ _ Hl' i b). rewrite Ha'. apply lookup_insert.
    + intros j c Hj. apply (lk_used _ _ _ _ Hl' j c), Hkeep, Hj.
Qed.
End level.

(** the three block types of the crate meet the laws, for every mask width *)
Theorem C59_blocks nw cap : 0 < nw ->
  block_laws (ops_block nw) (fun b => length (b_mask b) = nw) /\
  block_laws (ops_small nw cap) (fun b => length (sb_mask b) = nw) /\
  block_laws (ops_cluster nw) (fun b => length (c_mask b) = nw).
Proof. intros H. split; [by apply laws_block|]. split; [by apply laws_small|by apply laws_cluster]. Qed.
(** the levels of Sparse.v, which the tree uses, are these levels over `Block` *)
Theorem C59_same_as_tree nw bs root i :
  lv_insert_empty nw (LList bs root) = (let* (l, i) := lo_insert (lev_list (ops_block nw)) (ILevel (o := ops_block nw) bs root) in Ok (LList (il_blocks l) (il_root l), i)) /\
  lv_remove_empty (LList bs root) i = (let* l := lo_remove (lev_list (ops_block nw)) (ILevel (o := ops_block nw) bs root) i in Ok (LList (il_blocks l) (il_root l))).
Proof.
  split.
  - cbn [lv_insert_empty lev_list lo_insert]. unfold il_insert, il_pop, lv_pop. cbn [il_blocks il_root ops_block bo_link bo_restore bo_empty bo_B].
    destruct (root =? U64MAX)%N; [done|]. destruct (get_u bs (N.to_nat root)) as [b| | |]; cbn [rbind]; try done.
    destruct (blk_link b) as [x| | |]; cbn [rbind]; try done. destruct (blk_restore_empty b) as [b'| | |]; cbn [rbind]; try done.
    destruct (set_u bs (N.to_nat root) b') as [bs'| | |]; done.
  - cbn [lv_remove_empty lev_list lo_remove]. unfold il_push. cbn [il_blocks il_root ops_block bo_set_link bo_B].
    destruct (get_u bs (N.to_nat i)) as [b| | |]; cbn [rbind]; try done. destruct (blk_set_link b root) as [b'| | |]; cbn [rbind]; try done.
    destruct (set_u bs (N.to_nat i) b') as [bs'| | |]; done.
Qed.
(** `SingleBlockLevel`: one block, index 0, readable and writable; the other two methods are `unreachable!()` *)
Theorem C59_single o (b : bo_B o) :
  lev_calls (lev_single o) (lo_default (lev_single o)) [LGet 0; LSet 0 b; LGet 0]%N = Ok (b, [LBlock (bo_empty o); LDone; LBlock b]) /\
  forall l i, lev_call (lev_single o) l LInsert = Panic /\ lev_call (lev_single o) l (LRemove i) = Panic.
Proof. done. Qed.

(** ** the hypotheses are met: three blocks, two given back (the second one written and emptied again), reuse in
    LIFO order, a fourth block *)
Example C59_example : let o := ops_block 2 in let w := Block [5; 0]%N (replicate 128 7%N) in let e := Block [0; 0]%N (replicate 128 3%N) in
  let cs := [LInsert; LInsert; LInsert; LSet 2 w; LSet 3 w; LSet 2 e; LRemove 1; LRemove 2; LInsert; LGet 2; LGet 3; LGet 0; LInsert; LInsert]%N in
  Forall (lcall_ok (fun b => length (b_mask b) = 2)) cs /\
  exists a, al_run (bo_empty o) (bo_is_empty o) al_init cs =
    Some (a, [LIndex 1; LIndex 2; LIndex 3; LDone; LDone; LDone; LDone; LDone; LIndex 2; LBlock e; LBlock w; LBlock (blk_empty 2); LIndex 1; LIndex 4]%N) /\
    al_peak (bo_empty o) (bo_is_empty o) al_init cs = 4.
Proof. split; [repeat constructor|]. eexists. split; [vm_compute; reflexivity|by vm_compute]. Qed.
(** the condition on `remove_empty_block_unchecked` is needed: giving back a block that is not empty loses its first word *)
Example C59_remove_condition_needed : let o := ops_block 1 in let w := Block [5]%N (replicate 64 7%N) in
  let cs := [LInsert; LSet 1 w; LRemove 1; LInsert; LGet 1]%N in
  lev_calls (lev_vec o) (lo_default (lev_vec o)) cs = Ok (VLevel (o := ops_block 1) [blk_empty 1; w] [] : lo_L (lev_vec o), [LIndex 1; LDone; LDone; LIndex 1; LBlock w]%N) /\
  exists l, lev_calls (lev_list o) (lo_default (lev_list o)) cs = Ok (l, [LIndex 1; LDone; LDone; LIndex 1; LBlock (Block [0]%N (replicate 64 7%N))]%N).
Proof. split; [by vm_compute|]. eexists. vm_compute. reflexivity. Qed.
