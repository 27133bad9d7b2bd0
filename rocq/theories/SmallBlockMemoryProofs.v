(** * Proofs about the memory of SmallBlock (SmallBlockMemory.v) *)
From Verif Require Import Base BitUtils BitUtilsProofs LevelIndices Sparse Materialize SmallBlock SmallBlockSpec SmallBlockProofs
  SmallBlockMemory SmallBlockMemorySpec.
Local Open Scope nat_scope.

(** the block as a value *)
Definition load (h : boxes) (b : mblock) : option sblock :=
  match mb_store b with
  | MBig p => match bx h !! p with Some ix => Some (SBlock (mb_mask b) (Big ix)) | None => None end
  | MSmall pops a => Some (SBlock (mb_mask b) (Small pops a))
  end.
Definition owner (b : mblock) : option N := match mb_store b with MBig p => Some p | MSmall _ _ => None end.
(** the only allocation a call touches is the block's own, or a new one *)
Definition own_step (h : boxes) (b : mblock) (h' : boxes) (b' : mblock) : Prop :=
  (bx_next h <= bx_next h')%N /\
  ((owner b' = owner b /\ dom (bx h') = dom (bx h) /\ forall p, owner b <> Some p -> bx h' !! p = bx h !! p) \/
   (owner b = None /\ owner b' = Some (bx_next h) /\ (bx_next h < bx_next h')%N /\
    exists ix, bx h' = <[bx_next h := ix]> (bx h))).
Lemma own_step_refl h b b' : owner b' = owner b -> own_step h b h b'.
Proof. intros H. split; [lia|]. left. done. Qed.
Lemma own_step_write h b p ix n b' : owner b = Some p -> owner b' = Some p -> is_Some (bx h !! p) -> n = bx_next h ->
  own_step h b (Boxes (<[p := ix]> (bx h)) n) b'.
Proof.
  intros Ho Ho' Hp ->. split; [done|]. left. split; [congruence|]. cbn. split.
  - rewrite dom_insert_L. apply elem_of_dom in Hp. set_solver.
  - intros q Hq. rewrite lookup_insert_ne; [done|]. congruence.
Qed.

Section call.
  Context (nw cap : nat).
  Definition refines (h : boxes) (b : mblock) : boxes * mblock -> sblock -> Prop := fun '(h', b') b0' =>
    load h' b' = Some b0' /\ own_step h b h' b'.
  Lemma m_is_big_ok h b b0 : load h b = Some b0 -> m_is_big (mb_store b) = is_big (sb_store b0).
  Proof. unfold load. destruct b as [m [p|pops a]]; cbn; [destruct (bx h !! p)|]; intros [= <-]; done. Qed.
  Lemma mb_get_ok h b b0 i : load h b = Some b0 -> mb_get h b i = sb_get b0 i.
  Proof.
    intros Hb. unfold mb_get, sb_get. rewrite (m_is_big_ok _ _ _ Hb).
    destruct b as [m [p|pops a]]; unfold load in Hb; cbn in Hb; [destruct (bx h !! p) as [ix|] eqn:E; [|done]|]; injection Hb as <-;
      cbn [sb_store is_big rbind mb_store as_ptr as_big].
    - unfold box_read. by rewrite E.
    - destruct (get_u pops 0) as [x| | |]; cbn [rbind]; done.
  Qed.
  Lemma mb_insert_ok h b b0 i v : load h b = Some b0 ->
    res_rel (refines h b) (mb_insert_unchecked nw cap h b i v) (sb_insert_unchecked nw cap b0 i v).
  Proof.
    intros Hb. unfold mb_insert_unchecked, sb_insert_unchecked. rewrite (m_is_big_ok _ _ _ Hb).
    destruct b as [m [p|pops a]]; unfold load in Hb; cbn in Hb; [destruct (bx h !! p) as [ix|] eqn:E; [|done]|]; injection Hb as <-;
      cbn [sb_store is_big rbind mb_store as_ptr as_big sb_mask mb_mask].
    - unfold box_read. rewrite E. cbn [rbind]. destruct (set_u ix (N.to_nat i) v) as [ix'| | |]; cbn [rbind res_rel]; try done.
      unfold box_write. rewrite E. cbn [rbind]. destruct (mask_set_bit true m i) as [[m' ?]| | |]; cbn [rbind res_rel]; try done.
      split; [unfold load; cbn; by rewrite lookup_insert|]. eapply own_step_write; eauto.
    - destruct (get_u pops 0) as [x| | |] eqn:Ex; cbn [rbind res_rel]; try done. destruct (negb (x =? 0)%N) eqn:Ez; [done|].
      unfold inline_part. cbn [mb_store mb_mask as_inline rbind as_small].
      destruct (small_array_len _) as [len| | |]; cbn [rbind res_rel]; try done. destruct (decide (len = cap)).
      + destruct (to_big nw m a) as [ba| | |]; cbn [rbind res_rel]; try done.
        destruct (set_u ba (N.to_nat i) v) as [ba'| | |]; cbn [rbind res_rel]; try done.
        unfold m_drop. cbn [m_is_big box_new rbind]. rewrite Ex. cbn [rbind]. rewrite Ez. cbn [rbind].
        destruct (mask_set_bit true m i) as [[m' ?]| | |]; cbn [rbind res_rel]; try done.
        split; [unfold load; cbn; by rewrite lookup_insert|]. split; [cbn; lia|]. right. cbn. split_and!; [done|done|lia|]. eauto.
      + destruct (small_array_index_unchecked _ i) as [k| | |]; cbn [rbind res_rel]; try done.
        destruct (sub_usize len k) as [?| | |]; cbn [rbind res_rel]; try done.
        destruct (mem_copy a k _ _) as [a'| | |]; cbn [rbind res_rel]; try done.
        destruct (set_u a' k _) as [a''| | |]; cbn [rbind res_rel]; try done.
        destruct (update_pops _ _ _ _) as [pops'| | |]; cbn [rbind res_rel]; try done.
        destruct (mask_set_bit true m i) as [[m' ?]| | |]; cbn [rbind res_rel]; try done.
        split; [done|]. by apply own_step_refl.
  Qed.
  Lemma mb_set_ok h b b0 i v : load h b = Some b0 -> res_rel (refines h b) (mb_set h b i v) (sb_set b0 i v).
  Proof.
    intros Hb. unfold mb_set, sb_set. rewrite (m_is_big_ok _ _ _ Hb).
    destruct b as [m [p|pops a]]; unfold load in Hb; cbn in Hb; [destruct (bx h !! p) as [ix|] eqn:E; [|done]|]; injection Hb as <-;
      cbn [sb_store is_big rbind mb_store as_ptr as_big sb_mask mb_mask].
    - unfold box_read. rewrite E. cbn [rbind]. destruct (set_u ix (N.to_nat i) v) as [ix'| | |]; cbn [rbind res_rel]; try done.
      unfold box_write. rewrite E. cbn [rbind res_rel].
      split; [unfold load; cbn; by rewrite lookup_insert|]. eapply own_step_write; eauto.
    - destruct (get_u pops 0) as [x| | |] eqn:Ex; cbn [rbind res_rel]; try done. destruct (negb (x =? 0)%N) eqn:Ez; [done|].
      unfold inline_part. cbn [mb_store mb_mask as_inline rbind as_small].
      destruct (small_array_index_unchecked _ i) as [k| | |]; cbn [rbind res_rel]; try done.
      destruct (set_u a k _) as [a''| | |]; cbn [rbind res_rel]; try done.
      split; [done|]. by apply own_step_refl.
  Qed.
  Lemma mb_remove_ok h b b0 i : load h b = Some b0 -> res_rel (refines h b) (mb_remove nw h b i) (sb_remove nw b0 i).
  Proof.
    intros Hb. unfold mb_remove, sb_remove. pose proof (m_is_big_ok _ _ _ Hb) as Hbig.
    destruct b as [m [p|pops a]]; unfold load in Hb; cbn in Hb; [destruct (bx h !! p) as [ix|] eqn:E; [|done]|]; injection Hb as <-;
      cbn [sb_store is_big rbind mb_store as_ptr as_big sb_mask mb_mask m_is_big] in *;
      destruct (mask_set_bit false m i) as [[m' prev]| | |]; cbn [rbind res_rel]; try done; destruct prev; cbn [negb]; try done.
    - unfold box_read. rewrite E. cbn [rbind]. destruct (set_u ix (N.to_nat i) 0%N) as [ix'| | |]; cbn [rbind res_rel]; try done.
      unfold box_write. rewrite E. cbn [rbind res_rel].
      split; [unfold load; cbn; by rewrite lookup_insert|]. eapply own_step_write; eauto.
    - destruct (get_u pops 0) as [x| | |] eqn:Ex; cbn [rbind res_rel]; try done. destruct (negb (x =? 0)%N) eqn:Ez; [done|].
      unfold inline_part. cbn [mb_store mb_mask as_inline rbind as_small].
      destruct (small_array_index_unchecked _ i) as [k| | |]; cbn [rbind res_rel]; try done.
      destruct (small_array_len _) as [len| | |]; cbn [rbind res_rel]; try done.
      destruct (sub_usize len k) as [?| | |]; cbn [rbind res_rel]; try done.
      destruct (mem_copy a _ _ _) as [a'| | |]; cbn [rbind res_rel]; try done.
      destruct (update_pops _ _ _ _) as [pops'| | |]; cbn [rbind res_rel]; try done.
      split; [done|]. by apply own_step_refl.
  Qed.
  Lemma mb_call_ok h b b0 c : load h b = Some b0 ->
    res_rel (fun '(h', b', o) '(b0', o0) => o = o0 /\ load h' b' = Some b0' /\ own_step h b h' b')
      (mb_call nw cap h b c) (sb_call nw cap b0 c).
  Proof.
    intros Hb. destruct c as [i|i f|i x|i|i x]; cbn [mb_call sb_call].
    - rewrite (mb_get_ok _ _ _ _ Hb). destruct (sb_get b0 i); cbn [rbind res_rel]; try done.
      split; [done|]. split; [done|]. by apply own_step_refl.
    - unfold mb_get_or_insert, sb_get_or_insert. rewrite (mb_get_ok _ _ _ _ Hb). destruct (sb_get b0 i) as [y| | |]; cbn [rbind res_rel]; try done.
      destruct (y =? 0)%N; [destruct f as [x|]|].
      + pose proof (mb_insert_ok _ _ _ i x Hb) as H.
        destruct (mb_insert_unchecked _ _ _ _ _ _) as [[h' b']| | |], (sb_insert_unchecked _ _ _ _ _); cbn in *; try done.
      + cbn. split; [done|]. split; [done|]. by apply own_step_refl.
      + cbn. split; [done|]. split; [done|]. by apply own_step_refl.
    - done.
    - pose proof (mb_remove_ok _ _ _ i Hb) as H.
      destruct (mb_remove _ _ _ _) as [[h' b']| | |], (sb_remove _ _ _); cbn in *; try done.
    - pose proof (mb_set_ok _ _ _ i x Hb) as H.
      destruct (mb_set _ _ _ _) as [[h' b']| | |], (sb_set _ _ _); cbn in *; try done.
  Qed.
End call.

(** ** any number of blocks *)
Section world.
  Context (nw cap : nat) (Hnw : 0 < nw) (Hcap : cap <= 255).
  (** block [b] of heap [h] represents [x] *)
  Definition brep (h : boxes) (b : mblock) (x : gmap N N * bool) : Prop :=
    exists b0, load h b = Some b0 /\ sb_rep nw cap x b0.
  Definition winv (w : world) (s : blocks) : Prop :=
    (forall id, match w_blocks w !! id, s !! id with
      | Some b, Some x => brep (w_boxes w) b x
      | None, None => True
      | _, _ => False end) /\
    (forall p, is_Some (bx (w_boxes w) !! p) <-> exists id, holds w id p) /\
    (forall id id' p, holds w id p -> holds w id' p -> id = id') /\
    (forall p, is_Some (bx (w_boxes w) !! p) -> (p < bx_next (w_boxes w))%N).
  Lemma brep_moved h b x : brep h b x -> (x.2 = true <-> exists p, owner b = Some p).
  Proof.
    intros (b0 & Hb & R). destruct b as [m [p|pops a]]; unfold load in Hb; cbn in *.
    - destruct (bx h !! p); [|done]. injection Hb as <-. destruct R as (_ & _ & _ & HS & _). cbn in HS. split; [eauto|done].
    - injection Hb as <-. destruct R as (_ & _ & _ & HS & _). cbn in HS. rewrite HS. split; [done|]. by intros [? ?].
  Qed.
  Lemma holds_owner w id p : holds w id p <-> exists b, w_blocks w !! id = Some b /\ owner b = Some p.
  Proof.
    split.
    - intros [m H]. eexists. split; [done|]. done.
    - intros ([m [q|]] & H & [= ->]). exists m. done.
  Qed.
  Lemma brep_frame h h' b x : (forall p, owner b = Some p -> bx h' !! p = bx h !! p) -> brep h b x -> brep h' b x.
  Proof.
    intros Hf (b0 & Hb & R). exists b0. split; [|done]. destruct b as [m [p|pops a]]; unfold load in *; cbn in *; [|done].
    by rewrite Hf.
  Qed.
  Lemma m_is_big_rep h b x : brep h b x -> m_is_big (mb_store b) = Ok (if owner b then true else false).
  Proof.
    intros (b0 & Hb & R). destruct b as [m [p|pops a]]; unfold load in Hb; cbn in *; [done|]. injection Hb as <-.
    destruct R as (_ & _ & _ & _ & _ & Hp & _). cbn in Hp. rewrite (get_u_ok pops 0 0%N), bind_ok; [done|].
    rewrite Hp by done. done.
  Qed.
  Lemma mb_drop_ok h b x : brep h b x ->
    mb_drop h b = Ok (match owner b with Some p => Boxes (delete p (bx h)) (bx_next h) | None => h end).
  Proof.
    intros Hr. unfold mb_drop, m_drop. rewrite (m_is_big_rep _ _ _ Hr), bind_ok. destruct Hr as (b0 & Hb & R).
    destruct b as [m [p|pops a]]; unfold load in Hb; cbn in *; [|done]. unfold box_free. by destruct (bx h !! p).
  Qed.
  Lemma mb_clone_ok h b x : brep h b x -> exists h' b', mb_clone h b = Ok (h', b') /\ own_step h (mb_empty nw cap) h' b' /\ brep h' b' x.
  Proof.
    intros Hr. unfold mb_clone, m_clone. rewrite (m_is_big_rep _ _ _ Hr), bind_ok. destruct Hr as (b0 & Hb & R).
    destruct b as [m [p|pops a]]; unfold load in Hb; cbn in *.
    - unfold box_read. destruct (bx h !! p) as [ix|]; [|done]. injection Hb as <-. cbn. do 2 eexists. split; [done|]. split.
      + split; [cbn; lia|]. right. cbn. split_and!; [done|done|lia|eauto].
      + eexists. split; [unfold load; cbn; by rewrite lookup_insert|]. done.
    - injection Hb as <-. do 2 eexists. split; [done|]. split; [by apply own_step_refl|]. by eexists.
  Qed.
  (** dropping a variable *)
  Lemma winv_drop w s id b : winv w s -> w_blocks w !! id = Some b ->
    exists h, mb_drop (w_boxes w) b = Ok h /\ bx_next h = bx_next (w_boxes w) /\
      (forall p, owner b <> Some p -> bx h !! p = bx (w_boxes w) !! p) /\
      winv (World h (delete id (w_blocks w))) (delete id s).
  Proof.
    intros (I1 & I2 & I3 & I4) Hb. pose proof (I1 id) as Hr. rewrite Hb in Hr. destruct (s !! id) as [x|] eqn:Hs; [|done].
    rewrite (mb_drop_ok _ _ _ Hr). eexists. split; [done|].
    assert (forall p, owner b <> Some p ->
      bx (match owner b with Some q => Boxes (delete q (bx (w_boxes w))) (bx_next (w_boxes w)) | None => w_boxes w end) !! p =
      bx (w_boxes w) !! p) as Hf.
    { intros p Hp. destruct (owner b) as [q|]; [|done]. cbn. rewrite lookup_delete_ne; [done|congruence]. }
    split; [by destruct (owner b)|]. split; [done|].
    set (h := match owner b with Some q => _ | None => _ end) in *.
    assert (forall j q, holds (World h (delete id (w_blocks w))) j q <-> j <> id /\ holds w j q) as Hh.
    { intros j q. rewrite !holds_owner. cbn. split.
      - intros (c & Hc & ?). apply lookup_delete_Some in Hc as [? ?]. split; [done|]. eauto.
      - intros (? & c & ? & ?). exists c. by rewrite lookup_delete_ne. }
    assert (forall p, owner b = Some p -> bx h !! p = None) as Hn.
    { intros p Hp. subst h. rewrite Hp. cbn. apply lookup_delete. }
    split_and!.
    - intros j. cbn [w_blocks w_boxes]. destruct (decide (j = id)) as [->|Hne]; [by rewrite !lookup_delete|]. rewrite !lookup_delete_ne by done.
      pose proof (I1 j) as Hj. destruct (w_blocks w !! j) as [c|] eqn:Hc, (s !! j) as [y|]; try done.
      revert Hj. apply brep_frame. intros p Hp. apply Hf. intros Hq. apply Hne, (I3 _ _ p); apply holds_owner; eauto.
    - intros p. cbn [w_blocks w_boxes]. destruct (decide (owner b = Some p)) as [Hp|Hp].
      + rewrite Hn by done. split; [by intros [? ?]|]. intros (j & Hj). apply Hh in Hj as [Hne Hj].
        destruct Hne. apply (I3 _ _ p Hj). apply holds_owner. eauto.
      + rewrite Hf, I2 by done. split.
        * intros (j & Hj). exists j. apply Hh. split; [|done]. intros ->. apply holds_owner in Hj as (c & Hc & ?). congruence.
        * intros (j & Hj). exists j. by apply Hh in Hj as [_ Hj].
    - intros j j' p Hj Hj'. apply Hh in Hj as [_ Hj]. apply Hh in Hj' as [_ Hj']. by apply (I3 _ _ p).
    - intros p Hp. cbn in *. replace (bx_next h) with (bx_next (w_boxes w)) by (subst h; by destruct (owner b)).
      apply I4. destruct (decide (owner b = Some p)) as [E|E]; [|by rewrite <- Hf]. rewrite Hn in Hp by done. by destruct Hp.
  Qed.
  (** a variable [id] receives a block whose allocation is new or was the old block's *)
  Lemma winv_put w s id b h b' x' : winv w s ->
    (w_blocks w !! id = Some b \/ (w_blocks w !! id = None /\ owner b = None)) ->
    own_step (w_boxes w) b h b' -> brep h b' x' ->
    winv (World h (<[id := b']> (w_blocks w))) (<[id := x']> s).
  Proof.
    intros (I1 & I2 & I3 & I4) Hid (Hnx & Hstep) Hr.
    assert (forall p, owner b = Some p -> holds w id p) as Hown.
    { intros p Hp. apply holds_owner. destruct Hid as [Hid|[_ Hid]]; [eauto|congruence]. }
    assert (forall p, holds w id p -> owner b = Some p) as Hown'.
    { intros p Hp. apply holds_owner in Hp as (c & Hc & ?). destruct Hid as [Hid|[Hid _]]; congruence. }
    assert (forall j q, j <> id -> holds (World h (<[id := b']> (w_blocks w))) j q <-> holds w j q) as Hh.
    { intros j q Hne. rewrite !holds_owner. cbn. by rewrite lookup_insert_ne. }
    assert (forall q, holds (World h (<[id := b']> (w_blocks w))) id q <-> owner b' = Some q) as Hhid.
    { intros q. rewrite holds_owner. cbn. rewrite lookup_insert. split; [by intros (? & [= ->] & ?)|eauto]. }
    assert (forall p, is_Some (bx h !! p) <-> is_Some (bx (w_boxes w) !! p) \/ owner b' = Some p) as Hdom.
    { intros p. destruct Hstep as [(Ho & Hd & Hf)|(Ho & Ho' & _ & ix & ->)].
      - rewrite <- !elem_of_dom, Hd. split; [by left|]. intros [?|Hp]; [done|]. rewrite elem_of_dom. apply I2. exists id. apply Hown. congruence.
      - rewrite lookup_insert_is_Some'. rewrite Ho'. split.
        + intros [<-|?]; [by right|by left].
        + intros [?|[= ->]]; [by right|by left]. }
    assert (forall p j, j <> id -> holds w j p -> bx h !! p = bx (w_boxes w) !! p) as Hf.
    { intros p j Hne Hj. destruct Hstep as [(Ho & Hd & Hf)|(Ho & Ho' & _ & ix & ->)].
      - apply Hf. intros Hp. apply Hne. apply (I3 _ _ p); [done|]. by apply Hown.
      - rewrite lookup_insert_ne; [done|]. intros <-. assert (is_Some (bx (w_boxes w) !! bx_next (w_boxes w))) as H%I4 by (apply I2; eauto). lia. }
    assert (forall p, owner b' = Some p -> (p < bx_next h)%N) as Hlt.
    { intros p Hp. destruct Hstep as [(Ho & Hd & _)|(Ho & Ho' & Hlt & _)].
      - assert (is_Some (bx (w_boxes w) !! p)) as H%I4; [|lia]. apply I2. exists id. apply Hown. congruence.
      - rewrite Ho' in Hp. injection Hp as <-. done. }
    assert (forall j p, j <> id -> holds w j p -> owner b' <> Some p) as Hdis.
    { intros j p Hne Hj Hp. destruct Hstep as [(Ho & _)|(Ho & Ho' & _)].
      - apply Hne, (I3 _ _ p); [done|]. apply Hown. congruence.
      - rewrite Ho' in Hp. injection Hp as <-. assert (is_Some (bx (w_boxes w) !! bx_next (w_boxes w))) as H%I4 by (apply I2; eauto). lia. }
    split_and!.
    - intros j. cbn [w_blocks w_boxes]. destruct (decide (j = id)) as [->|Hne]; [by rewrite !lookup_insert|]. rewrite !lookup_insert_ne by done.
      pose proof (I1 j) as Hj. destruct (w_blocks w !! j) as [c|] eqn:Hc, (s !! j) as [y|]; try done.
      revert Hj. apply brep_frame. intros p Hp. apply (Hf _ j); [done|]. apply holds_owner. eauto.
    - intros p. cbn [w_blocks w_boxes]. rewrite Hdom, I2. split.
      + intros [(j & Hj)|Hp]; [|exists id; by apply Hhid]. destruct (decide (j = id)) as [->|Hne].
        * exists id. apply Hhid. apply Hown' in Hj. destruct Hstep as [(Ho & _)|(Ho & _)]; congruence.
        * exists j. by apply Hh.
      + intros (j & Hj). destruct (decide (j = id)) as [->|Hne]; [right; by apply Hhid|]. left. exists j. by apply Hh in Hj.
    - intros j j' p Hj Hj'. destruct (decide (j = id)) as [->|Hne], (decide (j' = id)) as [->|Hne']; [done|..].
      + apply Hhid in Hj. apply Hh in Hj'; [|done]. by destruct (Hdis j' p).
      + apply Hhid in Hj'. apply Hh in Hj; [|done]. by destruct (Hdis j p).
      + apply Hh in Hj, Hj'; [|done..]. by apply (I3 _ _ p).
    - intros p. cbn [w_blocks w_boxes]. rewrite Hdom. intros [H%I4|H%Hlt]; lia.
  Qed.
  Lemma winv_assign w s id h b x : winv w s -> own_step (w_boxes w) (mb_empty nw cap) h b -> brep h b x ->
    exists w', assign h (w_blocks w) id b = Ok w' /\ winv w' (<[id := x]> s).
  Proof.
    intros I Hstep Hr. unfold assign. destruct (w_blocks w !! id) as [old|] eqn:Hold.
    - (* a fresh name for the new block first: here through the invariant of the world without the old block *)
      destruct (winv_drop _ _ _ _ I Hold) as (h1 & Hd1 & Hn1 & Hf1 & I1).
      pose proof I as (J1 & J2 & J3 & J4).
      assert (forall p, owner old = Some p -> bx h !! p = bx (w_boxes w) !! p /\ owner b <> Some p /\ is_Some (bx (w_boxes w) !! p)) as Hold'.
      { intros p Hp. assert (is_Some (bx (w_boxes w) !! p)) as Hs by (apply J2; exists id; apply holds_owner; eauto).
        destruct Hstep as (_ & [(Ho & _ & Hf)|(_ & Ho & _ & ix & ->)]).
        - split; [apply Hf; done|]. split; [rewrite Ho; done|done].
        - apply J4 in Hs as Hlt. split; [rewrite lookup_insert_ne; [done|lia]|]. split; [rewrite Ho; intros [= ?]; lia|done]. }
      assert (brep h old (default (∅, false) (s !! id))) as Hro.
      { pose proof (J1 id) as Hj. rewrite Hold in Hj. destruct (s !! id) as [y|]; [|done]. cbn. revert Hj.
        apply brep_frame. intros p Hp. by apply Hold'. }
      rewrite (mb_drop_ok _ _ _ Hro), bind_ok. eexists. split; [done|].
      set (h2 := match owner old with Some p => _ | None => h end).
      assert (h1 = match owner old with Some p => Boxes (delete p (bx (w_boxes w))) (bx_next (w_boxes w)) | None => w_boxes w end) as Eh1.
      { pose proof (J1 id) as Hj. rewrite Hold in Hj. destruct (s !! id) as [y|]; [|done].
        rewrite (mb_drop_ok _ _ _ Hj) in Hd1. by injection Hd1 as <-. }
      assert (own_step h1 (mb_empty nw cap) h2 b) as Hs2.
      { destruct Hstep as (Hnx & Hstep). subst h2. rewrite Eh1. destruct (owner old) as [p|] eqn:Eo; [|by split].
        destruct (Hold' p eq_refl) as (Hp1 & Hp2 & Hp3). split; [done|]. cbn [bx bx_next].
        destruct Hstep as [(Ho & Hd & Hf)|(Ho & Ho' & Hlt & ix & Hix)].
        - left. split; [done|]. cbn. split; [rewrite !dom_delete_L; by rewrite Hd|]. intros q Hq.
          destruct (decide (q = p)) as [->|]; [by rewrite !lookup_delete|]. rewrite !lookup_delete_ne by done. by apply Hf.
        - right. split_and!; [done|done|done|]. exists ix. rewrite Hix. apply delete_insert_ne. apply J4 in Hp3. lia. }
      assert (brep h2 b x) as Hr2.
      { revert Hr. apply brep_frame. intros p Hp. subst h2. destruct (owner old) as [q|] eqn:Eo; [|done].
        cbn. rewrite lookup_delete_ne; [done|]. intros ->. by destruct (Hold' _ eq_refl) as (_ & ? & _). }
      pose proof (winv_put (World h1 (delete id (w_blocks w))) (delete id s) id (mb_empty nw cap) h2 b x I1) as Hput.
      cbn [w_blocks w_boxes] in Hput. rewrite !insert_delete_insert in Hput. apply Hput; [|done..].
      right. split; [apply lookup_delete|done].
    - eexists. split; [done|]. eapply (winv_put w s id (mb_empty nw cap)); try done. by right.
  Qed.
  Lemma w_call_ok w s c : winv w s ->
    match c with WCall id c => forall x, s !! id = Some x -> hb_legal (msize nw) x.1 c | _ => True end ->
    res_rel (fun '(w', o) '(s', o') => o = o' /\ winv w' s') (w_call nw cap w c) (ws_call nw cap s c).
  Proof.
    intros I Hl. destruct c as [id|id c|src dst|id]; cbn [w_call ws_call].
    - destruct (winv_assign w s id (w_boxes w) (mb_empty nw cap) (∅, false) I) as (w' & -> & I').
      + by apply own_step_refl.
      + exists (sb_empty nw cap). split; [done|]. apply sb_empty_rep.
      + cbn. done.
    - pose proof (proj1 I id) as Hr. destruct (w_blocks w !! id) as [b|] eqn:Hb, (s !! id) as [x|] eqn:Hs; try done.
      destruct Hr as (b0 & Hb0 & R). specialize (Hl x eq_refl).
      pose proof (mb_call_ok nw cap _ _ _ c Hb0) as H1. pose proof (sb_call_ok Hnw Hcap _ _ _ R Hl) as H2.
      destruct (sb_call nw cap b0 c) as [[b0' o0]| | |], (mb_call nw cap (w_boxes w) b c) as [[[h' b'] o]| | |],
        (sb_spec nw cap x c) as [[x' o']| | |]; cbn [res_rel rbind] in *; try done.
      destruct H1 as (-> & Hb0' & Hst). destruct H2 as (-> & R'). split; [done|].
      eapply winv_put; [done|left; done|done|]. by exists b0'.
    - pose proof (proj1 I src) as Hr. destruct (w_blocks w !! src) as [b|] eqn:Hb, (s !! src) as [x|] eqn:Hs; try done.
      destruct (mb_clone_ok _ _ _ Hr) as (h' & b' & -> & Hst & Hr'). rewrite bind_ok.
      destruct (winv_assign w s dst h' b' x I Hst Hr') as (w' & -> & I'). cbn. done.
    - pose proof (proj1 I id) as Hr. destruct (w_blocks w !! id) as [b|] eqn:Hb, (s !! id) as [x|] eqn:Hs; try done.
      destruct (winv_drop _ _ _ _ I Hb) as (h & -> & _ & _ & I'). cbn. done.
  Qed.
  Lemma w_run_ok w s cs : winv w s -> ws_legal nw cap s cs ->
    res_rel (fun '(w', o) '(s', o') => o = o' /\ winv w' s') (w_run nw cap w cs) (ws_run nw cap s cs).
  Proof.
    revert w s. induction cs as [|c cs IH]; intros w s I Hl; cbn [w_run ws_run ws_legal] in *; [done|].
    destruct Hl as [Hc Hl]. pose proof (w_call_ok w s c I Hc) as H.
    destruct (ws_call nw cap s c) as [[s' o']| | |], (w_call nw cap w c) as [[w' o]| | |]; cbn [res_rel rbind] in *; try done.
    destruct H as [-> I']. specialize (IH w' s' I' (Hl _ _ eq_refl)).
    destruct (w_run _ _ w' cs) as [[]| | |], (ws_run _ _ s' cs) as [[]| | |]; cbn in *; try done.
    destruct IH as [-> ?]. done.
  Qed.
  Lemma winv_start : winv w_start ∅.
  Proof.
    assert (forall id p, ~ holds w_start id p) as Hn.
    { intros id p [m H]. cbn in H. by rewrite lookup_empty in H. }
    split_and!; cbn.
    - intros id. by rewrite !lookup_empty.
    - intros p. rewrite lookup_empty. split; [by intros [? ?]|]. intros [id H]. by destruct (Hn id p).
    - intros id id' p H. by destruct (Hn id p).
    - intros p. rewrite lookup_empty. by intros [? ?].
  Qed.
End world.
