(** * C62: the heap arrays of level blocks: clones are independent, nothing is leaked or freed twice *)
From Verif Require Import Base BitUtils BitUtilsProofs LevelIndices Sparse SmallBlock SmallBlockSpec SmallBlockProofs
  SmallBlockMemory SmallBlockMemorySpec SmallBlockMemoryProofs.
Local Open Scope nat_scope.

(** Every program that creates, uses, clones, overwrites and drops any number of blocks does what the same program does with
    independent maps ([ws_run], SmallBlockMemorySpec.v): the same results, or the same failure at the same call.  At the end every allocation
    belongs to exactly one variable, and the variables that own one are those whose values have moved to the heap *)
Theorem C62_blocks_exactly : forall (nw cap : nat) (cs : list wcall), 0 < nw -> cap <= 255 -> ws_legal nw cap ∅ cs ->
  res_rel (fun '(w, outs) '(s, outs') => outs = outs' /\
      (forall p, is_Some (bx (w_boxes w) !! p) <-> exists id, holds w id p) /\
      (forall id id' p, holds w id p -> holds w id' p -> id = id') /\
      (forall id, (exists p, holds w id p) <-> exists m, s !! id = Some (m, true)) /\
      dom (w_blocks w) = dom s)
    (w_run nw cap w_start cs) (ws_run nw cap ∅ cs).
Proof.
  intros nw cap cs Hnw Hcap Hl. pose proof (w_run_ok nw cap Hnw Hcap w_start ∅ cs (winv_start nw cap) Hl) as H.
  destruct (w_run _ _ _ cs) as [[w o]| | |], (ws_run _ _ _ cs) as [[s o']| | |]; cbn [res_rel] in *; try done.
  destruct H as [-> (I1 & I2 & I3 & I4)]. split_and!; [done|done|done| |].
  - intros id. specialize (I1 id). destruct (w_blocks w !! id) as [b|] eqn:Hb, (s !! id) as [x|] eqn:Hs; try done.
    + pose proof (brep_moved nw cap _ _ _ I1) as Hm. destruct x as [m moved]. cbn in Hm. split.
      * intros (p & Hp). apply holds_owner in Hp as (c & Hc & Hp). rewrite Hb in Hc. injection Hc as <-. exists m.
        by rewrite (proj2 Hm (ex_intro _ _ Hp)).
      * intros (m' & Hm'). injection Hm' as <- ->. destruct (proj1 Hm eq_refl) as [p Hp]. exists p. apply holds_owner. eauto.
    + split; [|by intros (? & ?)]. intros (p & m & Hp). by rewrite Hb in Hp.
  - apply set_eq. intros id. rewrite !elem_of_dom. specialize (I1 id).
    destruct (w_blocks w !! id), (s !! id); try done; split; intros [? ?]; try done; by eexists.
Qed.
(** a program that succeeds with the maps succeeds with the blocks, with the same results; if all blocks have been dropped at its end, no allocation
    is left *)
Theorem C62_no_leak_no_double_free : forall (nw cap : nat) (cs : list wcall) s outs, 0 < nw -> cap <= 255 -> ws_legal nw cap ∅ cs ->
  ws_run nw cap ∅ cs = Ok (s, outs) ->
  exists w, w_run nw cap w_start cs = Ok (w, outs) /\ (s = ∅ -> bx (w_boxes w) = ∅ /\ w_blocks w = ∅).
Proof.
  intros nw cap cs s outs Hnw Hcap Hl Hs. pose proof (C62_blocks_exactly nw cap cs Hnw Hcap Hl) as H. rewrite Hs in H.
  destruct (w_run _ _ _ cs) as [[w o]| | |]; cbn [res_rel] in H; try done. destruct H as (-> & H1 & H2 & H3 & H4).
  exists w. split; [done|]. intros ->. split.
  - apply map_empty. intros p. destruct (bx (w_boxes w) !! p) eqn:E; [|done].
    assert (is_Some (bx (w_boxes w) !! p)) as (id & Hid)%H1 by eauto.
    assert (exists p, holds w id p) as (m & Hm)%H3 by eauto. by rewrite lookup_empty in Hm.
  - apply dom_empty_inv_L. rewrite H4. apply dom_empty_L.
Qed.
(** after `b = a.clone()`, no sequence of calls on `b` changes what `a` answers, and vice versa: whatever happens to the other variables, a variable that
    the program does not name keeps its map *)
Definition names (c : wcall) : list N := match c with WNew id | WCall id _ | WDrop id => [id] | WClone _ dst => [dst] end.
Theorem C62_clones_are_independent : forall (nw cap : nat) (before after : list wcall) a i s1 o1 s2 o2 x, 0 < nw -> cap <= 255 ->
  ws_run nw cap ∅ before = Ok (s1, o1) -> ws_run nw cap s1 after = Ok (s2, o2) ->
  s1 !! a = Some x -> (forall c, c ∈ after -> a ∉ names c) -> (i < msize nw)%N ->
  ws_legal nw cap ∅ (before ++ after ++ [WCall a (BGet i)]) ->
  exists w, w_run nw cap w_start (before ++ after ++ [WCall a (BGet i)]) = Ok (w, o1 ++ o2 ++ [BVal (default 0%N (x.1 !! i))]).
Proof.
  intros nw cap before after a i s1 o1 s2 o2 x Hnw Hcap H1 H2 Ha Hafter Hi Hl.
  assert (s2 !! a = Some x) as Ha2.
  { clear H1 Hl. revert s1 o2 H2 Ha. induction after as [|c cs IH]; intros s1 o2 H2 Ha; cbn [ws_run] in H2; [by injection H2 as <- _|].
    apply bind_ok_inv in H2 as ([s' o] & Hc & H2). apply bind_ok_inv in H2 as ([s'' os] & H2 & Hr). injection Hr as <- <-.
    apply (IH ltac:(intros; apply Hafter; by right) s' os); [done|].
    pose proof (Hafter c ltac:(left)) as Hn. destruct c as [id|id c|src dst|id]; cbn [names ws_call] in *; rewrite elem_of_list_singleton in Hn.
    - injection Hc as <- _. by rewrite lookup_insert_ne.
    - destruct (s1 !! id); [|done]. apply bind_ok_inv in Hc as ([x' ?] & _ & Hc). injection Hc as <- _. by rewrite lookup_insert_ne.
    - destruct (s1 !! src); [|done]. injection Hc as <- _. by rewrite lookup_insert_ne.
    - destruct (s1 !! id); [|done]. injection Hc as <- _. by rewrite lookup_delete_ne. }
  assert (forall cs1 cs2 s s' o', ws_run nw cap s cs1 = Ok (s', o') ->
    ws_run nw cap s (cs1 ++ cs2) = rbind (ws_run nw cap s' cs2) (fun '(s, os) => Ok (s, o' ++ os))) as Happ.
  { clear. induction cs1 as [|c cs1 IH]; intros cs2 s s' o' H; cbn [ws_run app] in *.
    - injection H as <- <-. destruct (ws_run _ _ s cs2) as [[]| | |]; done.
    - apply bind_ok_inv in H as ([s1 o1] & Hc & H). apply bind_ok_inv in H as ([s2 o2] & H & Hr). injection Hr as <- <-.
      rewrite Hc, bind_ok, (IH _ _ _ _ H). destruct (ws_run _ _ s2 cs2) as [[]| | |]; done. }
  destruct x as [m moved].
  destruct (C62_no_leak_no_double_free nw cap (before ++ after ++ [WCall a (BGet i)])
    (<[a := (m, moved || bool_decide (cap < size m))]> s2) (o1 ++ o2 ++ [BVal (default 0%N (m !! i))]) Hnw Hcap Hl) as (w & Hw & _); [|by exists w].
  rewrite (Happ _ _ _ _ _ H1), (Happ _ _ _ _ _ H2). cbn [ws_run ws_call]. rewrite Ha2. cbn. done.
Qed.
(** a program with two moved blocks, one a clone of the other, that diverge and are dropped *)
Definition C62_program : list wcall :=
  [WNew 1; WCall 1 (BGetOrInsert 3 (Some 7)); WCall 1 (BGetOrInsert 9 (Some 8)); WClone 1 2;
   WCall 1 (BGetOrInsert 70 (Some 4)); WClone 1 3; WCall 3 (BSet 70 5); WCall 1 (BGet 70); WCall 3 (BGet 70); WCall 2 (BGet 70);
   WClone 3 1; WDrop 3; WCall 1 (BGet 70); WNew 2; WDrop 2; WDrop 1]%N.
Lemma run_is_empty (r : res (blocks * list bout)) outs :
  match r with Ok (s, o) => map_to_list s = [] /\ o = outs | _ => False end -> r = Ok (∅, outs).
Proof. destruct r as [[s o]| | |]; try done. intros [H ->]. apply map_to_list_empty_iff in H. by rewrite H. Qed.
(** the legality of a concrete program, by computation *)
Definition hb_legalb (size : N) (m : gmap N N) (c : bcall) : bool :=
  match c with
  | BGet i => (i <? size)%N
  | BGetOrInsert i f => (i <? size)%N && match f with Some 0%N => false | _ => true end
  | BInsert i x => (i <? size)%N && negb (x =? 0)%N
  | BRemove i => match m !! i with Some _ => true | None => false end
  | BSet i x => match m !! i with Some _ => true | None => false end && negb (x =? 0)%N
  end.
Fixpoint ws_legalb (nw cap : nat) (s : blocks) (cs : list wcall) : bool :=
  match cs with
  | [] => true
  | c :: cs =>
    match c with WCall id c => match s !! id with Some x => hb_legalb (msize nw) x.1 c | None => true end | _ => true end &&
    match ws_call nw cap s c with Ok (s', _) => ws_legalb nw cap s' cs | _ => true end
  end.
Lemma ws_legalb_ok nw cap s cs : ws_legalb nw cap s cs = true -> ws_legal nw cap s cs.
Proof.
  revert s. induction cs as [|c cs IH]; intros s; cbn [ws_legal ws_legalb]; [done|]. intros [H1 H2]%andb_prop. split.
  - destruct c as [|id c| |]; try done. intros x Hx. rewrite Hx in H1.
    destruct c as [i|i f|i y|i|i y]; cbn [hb_legal hb_legalb] in *.
    + by apply N.ltb_lt.
    + apply andb_prop in H1 as [H1 H3]. split; [by apply N.ltb_lt|]. by intros ->.
    + apply andb_prop in H1 as [H1 H3]. split; [by apply N.ltb_lt|]. intros ->. done.
    + by destruct (x.1 !! i).
    + apply andb_prop in H1 as [H1 H3]. split; [by destruct (x.1 !! i)|]. intros ->. done.
  - intros s' o Hc. rewrite Hc in H2. by apply IH.
Qed.
Example C62_nontrivial :
  ws_legal 2 2 ∅ C62_program /\
  ws_run 2 2 ∅ C62_program = Ok (∅, [BDone; BIns 7 true; BIns 8 true; BDone; BIns 4 true; BDone; BDone; BVal 4; BVal 5; BVal 0;
    BDone; BDone; BVal 5; BDone; BDone; BDone]%N) /\
  match w_run 2 2 w_start (take 8 C62_program) with Ok (w, _) => size (bx (w_boxes w)) = 2 | _ => False end.
Proof.
  split; [apply ws_legalb_ok; vm_compute; reflexivity|]. split; [apply run_is_empty; vm_compute; done|vm_compute; reflexivity].
Qed.

(** the hypotheses of C62_clones_are_independent: 1 is cloned to 3 after it has moved, then 3 is changed, cleared and dropped *)
Example C62_independent_nontrivial :
  let before := take 6 C62_program in
  let after := [WCall 3 (BSet 70 5); WCall 3 (BRemove 3); WDrop 3]%N in
  match ws_run 2 2 ∅ before with
  | Ok (s1, _) => (snd <$> s1 !! 1%N) = Some true /\ match ws_run 2 2 s1 after with Ok _ => True | _ => False end
  | _ => False
  end /\
  (forall c, c ∈ after -> 1%N ∉ names c) /\ ws_legal 2 2 ∅ (before ++ after ++ [WCall 1 (BGet 70)])%N.
Proof.
  split; [vm_compute; done|]. split; [|apply ws_legalb_ok; vm_compute; reflexivity].
  intros c Hc. rewrite !elem_of_cons, elem_of_nil in Hc. destruct Hc as [->|[->|[->|[]]]]; cbn [names]; rewrite elem_of_list_singleton; done.
Qed.

(** ** the tag *)
(** If the compiler puts the tag of `big` where it puts the counters of `small`, `is_small` recognises both variants, whatever the other bytes are *)
Theorem C62_tag_partial : forall (nw cap isz : nat) (l : ulayout) (ptr pops : list N) (arr : list ubyte), 0 < nw ->
  lawful_layout nw cap isz l -> l_tag l = l_pops l -> length ptr = 8 -> length pops = nw -> length arr = cap * isz ->
  hd_error pops = Some 0%N ->
  tag_is_small l (make_big l ptr) = Ok false /\ tag_is_small l (make_small l pops arr) = Ok true.
Proof.
  intros nw cap isz l ptr pops arr Hnw ((Hb1 & Hb2 & Hb3 & Hb4) & (Hs1 & Hs2 & Hs3 & Hs4)) Htag Hptr Hpops Harr Hhd.
  assert (forall mem off bs, off + length bs <= length mem -> length (put_bytes mem off bs) = length mem) as Hlen.
  { intros mem off bs H. unfold put_bytes. rewrite !app_length, take_length, drop_length. lia. }
  assert (forall mem off bs k, off + length bs <= length mem ->
    put_bytes mem off bs !! k = if decide (off <= k < off + length bs) then bs !! (k - off) else mem !! k) as Hput.
  { intros mem off bs k H. unfold put_bytes. destruct (decide (off <= k < off + length bs)).
    - rewrite lookup_app_r by (rewrite take_length; lia). rewrite take_length, Nat.min_l by lia. by rewrite lookup_app_l by lia.
    - destruct (decide (k < off)).
      + rewrite lookup_app_l by (rewrite take_length; lia). by apply lookup_take.
      + rewrite lookup_app_r by (rewrite take_length; lia). rewrite take_length, Nat.min_l by lia.
        rewrite lookup_app_r by lia. rewrite lookup_drop. f_equal. lia. }
  unfold tag_is_small, make_big, make_small. split.
  - rewrite Hput; cbn [length].
    + rewrite decide_True by lia. by rewrite Nat.sub_diag.
    + rewrite Hlen; rewrite ?fmap_length, replicate_length; lia.
  - rewrite Hput.
    + rewrite decide_False by lia. rewrite Hput by (rewrite fmap_length, replicate_length; lia).
      rewrite fmap_length, decide_True by lia. rewrite Htag, Nat.sub_diag.
      destruct pops as [|x pops]; [done|]. cbn in Hhd. injection Hhd as ->. done.
    + rewrite Hlen; rewrite ?fmap_length, ?replicate_length; lia.
Qed.
(** The compiler may choose otherwise, and a layout sorted by alignment (the box first, the tag behind it) does: with one counter and seven one-byte values
    the tag lies behind the inline data, so that asking a fresh block whether it is small reads an uninitialised byte *)
Theorem C62_tag_refuted :
  ~ (forall (nw cap isz : nat) (l : ulayout) (pops : list N) (arr : list ubyte), 0 < nw -> 0 < isz ->
      lawful_layout nw cap isz l -> length pops = nw -> length arr = cap * isz -> hd_error pops = Some 0%N ->
      tag_is_small l (make_small l pops arr) = Ok true).
Proof.
  intros H. specialize (H 1 7 1 (ULayout 8 0 0 1 16) [0%N] (replicate 7 Uninit)).
  assert (UB = Ok true) as He; [|done]. apply H; [lia|lia| |done|done|done]. unfold lawful_layout; cbn. lia.
Qed.
