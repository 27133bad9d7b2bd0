(** * The levels are allocators *)
From Verif Require Import Base BitUtils BitUtilsProofs LevelIndices Sparse SmallBlock Levels LevelSpec.

(** what an empty block must do to be a node of the intrusive list *)
Record block_laws (o : block_ops) (ok : bo_B o -> Prop) : Prop := {
  bl_ok : ok (bo_empty o);
  bl_empty : bo_is_empty o (bo_empty o) = true;
  bl_park : forall b x, ok b -> bo_is_empty o b = true -> (x < 2 ^ 64)%N ->
    exists b', bo_set_link o b x = Ok b' /\ bo_link o b' = Ok x /\ bo_restore o b' = Ok b;
}.
Definition lcall_ok {B} (ok : B -> Prop) (c : lcall B) : Prop := match c with LSet _ b => ok b | _ => True end.

(** ** facts about the allocator *)
Section alloc.
Context {B : Type} (empty : B) (is_empty : B -> bool) (He : is_empty empty = true).
Record al_inv (a : alloc B) : Prop := {
  ai_next : (1 <= al_next a)%N;
  ai_used : forall i, is_Some (al_used a !! i) -> (1 <= i < al_next a)%N;
  ai_free : Forall (fun '(i, b) => (1 <= i < al_next a)%N /\ al_used a !! i = None /\ is_empty b = true) (al_free a);
  ai_nodup : NoDup (al_free a).*1;
  ai_count : N.of_nat (size (al_used a) + length (al_free a)) = (al_next a - 1)%N;
}.
Lemma al_init_inv : al_inv al_init.
Proof. split; cbn [al_init al_used al_free al_next]; [lia| |constructor|constructor|done]. intros i. rewrite lookup_empty. by intros []. Qed.
Lemma al_step_inv a c a' x : al_inv a -> al_step empty is_empty a c = Some (a', x) -> al_inv a'.
Proof.
  intros [H1 H2 H3 H4 H5]. destruct c as [|i|i|i b]; cbn [al_step].
  - destruct (al_free a) as [|[i b] free] eqn:Ef; intros [= <- <-].
    + rewrite ?Ef in *. assert (al_used a !! al_next a = None) as Hn. { destruct (al_used a !! al_next a) eqn:E; [|done]. specialize (H2 (al_next a) ltac:(by eexists)). lia. }
      split; cbn [al_used al_free al_next].
      * lia.
      * intros j. rewrite lookup_insert_is_Some. intros [<-|[_ Hj]]; [lia|]. specialize (H2 j Hj). lia.
      * constructor.
      * constructor.
      * rewrite map_size_insert_None by done. cbn [length] in *. lia.
    + rewrite ?Ef in *. inversion H3 as [|? ? Hx H3']. subst. destruct Hx as (Hi & Hu & Hb). cbn [fmap list_fmap fst] in H4. inversion H4 as [|? ? H4a H4b]. subst. split; cbn [al_used al_free al_next].
      * done.
      * intros j. rewrite lookup_insert_is_Some. intros [<-|[_ Hj]]; [lia|]. by apply H2.
      * rewrite Forall_forall in *. intros [j b'] Hj. destruct (H3' _ Hj) as (Hj1 & Hj2 & Hj3). split; [done|]. split; [|done].
        rewrite lookup_insert_ne; [done|]. intros <-. apply H4a. apply elem_of_list_fmap. by exists (i, b').
      * done.
      * rewrite map_size_insert_None by done. cbn [length] in *. lia.
  - destruct (al_used a !! i) as [b|] eqn:Ei; [|done]. destruct (is_empty b) eqn:Eb; [|done]. intros [= <- <-]. split; cbn [al_used al_free al_next].
    + done.
    + intros j. rewrite lookup_delete_is_Some. intros [_ Hj]. by apply H2.
    + constructor. { split; [apply H2; by eexists|]. split; [apply lookup_delete|done]. }
      rewrite Forall_forall in *. intros [j b'] Hj. destruct (H3 _ Hj) as (Hj1 & Hj2 & Hj3). split; [done|]. split; [|done].
      rewrite lookup_delete_None. by right.
    + cbn [fmap list_fmap fst]. constructor; [|done]. intros (y & Hy & Hin)%elem_of_list_fmap. destruct y as [j b']. cbn in Hy. subst j.
      rewrite Forall_forall in H3. destruct (H3 _ Hin) as (_ & Hu & _). congruence.
    + cbn [length]. rewrite <- H5. rewrite map_size_delete, Ei. assert (size (al_used a) <> 0); [|lia].
      rewrite map_size_non_empty_iff. intros E. by rewrite E in Ei.
  - destruct (i =? 0)%N; [by intros [= <- <-]|]. destruct (al_used a !! i); [|done]. by intros [= <- <-].
  - destruct (al_used a !! i) as [b0|] eqn:Ei; [|done]. intros [= <- <-]. split; cbn [al_used al_free al_next].
    + done.
    + intros j. rewrite lookup_insert_is_Some. intros [<-|[_ Hj]]; [apply H2; by eexists|]. by apply H2.
    + rewrite Forall_forall in *. intros [j b'] Hj. destruct (H3 _ Hj) as (Hj1 & Hj2 & Hj3). split; [done|]. split; [|done].
      rewrite lookup_insert_ne; [done|]. intros <-. congruence.
    + done.
    + by rewrite map_size_insert, Ei.
Qed.
Lemma al_step_next a c a' x : al_step empty is_empty a c = Some (a', x) -> (al_next a <= al_next a')%N.
Proof.
  destruct c as [|i|i|i b]; cbn [al_step].
  - destruct (al_free a) as [|[i b] free]; intros [= <- <-]; cbn; lia.
  - destruct (al_used a !! i) as [b|]; [|done]. destruct (is_empty b); [|done]. by intros [= <- <-].
  - destruct (i =? 0)%N; [by intros [= <- <-]|]. destruct (al_used a !! i); [|done]. by intros [= <- <-].
  - destruct (al_used a !! i) as [b0|]; [|done]. by intros [= <- <-].
Qed.
Lemma al_run_next a cs a' xs : al_run empty is_empty a cs = Some (a', xs) -> (al_next a <= al_next a')%N.
Proof.
  revert a xs. induction cs as [|c cs IH]; intros a xs; cbn [al_run]; [by intros [= <- <-]|].
  destruct (al_step empty is_empty a c) as [[a1 x]|] eqn:E; [|done]. destruct (al_run empty is_empty a1 cs) as [[a2 xs']|] eqn:E2; [|done].
  intros [= <- <-]. apply al_step_next in E. specialize (IH _ _ E2). lia.
Qed.
Lemma al_run_inv a cs a' xs : al_inv a -> al_run empty is_empty a cs = Some (a', xs) -> al_inv a'.
Proof.
  revert a xs. induction cs as [|c cs IH]; intros a xs Ha; cbn [al_run]; [by intros [= <- <-]|].
  destruct (al_step empty is_empty a c) as [[a1 x]|] eqn:E; [|done]. destruct (al_run empty is_empty a1 cs) as [[a2 xs']|] eqn:E2; [|done].
  intros [= <- <-]. eapply IH; [|exact E2]. by eapply al_step_inv.
Qed.
(** the blocks allocated are as many as were ever in use together *)
Lemma al_peak_ge a cs : size (al_used a) <= al_peak empty is_empty a cs.
Proof. destruct cs as [|c cs]; cbn [al_peak]; [done|]. destruct (al_step empty is_empty a c) as [[a' x]|]; lia. Qed.
Lemma al_run_peak a cs a' xs : al_inv a -> al_run empty is_empty a cs = Some (a', xs) ->
  al_next a' = ((al_next a) `max` (1 + N.of_nat (al_peak empty is_empty a cs)))%N.
Proof.
  revert a xs. induction cs as [|c cs IH]; intros a xs Ha; cbn [al_run al_peak].
  - intros [= <- <-]. pose proof (ai_count a Ha). pose proof (ai_next a Ha). lia.
  - destruct (al_step empty is_empty a c) as [[a1 x]|] eqn:E; [|done]. destruct (al_run empty is_empty a1 cs) as [[a2 xs']|] eqn:E2; [|done].
    intros [= <- <-]. pose proof (al_step_inv _ _ _ _ Ha E) as Ha1. rewrite (IH _ _ Ha1 E2).
    pose proof (ai_count a Ha) as Hc. pose proof (ai_next a Ha). pose proof (ai_count a1 Ha1) as Hc1. pose proof (ai_next a1 Ha1).
    pose proof (al_peak_ge a1 cs). pose proof (al_step_next _ _ _ _ E).
    assert (al_next a1 = al_next a \/ (al_free a1 = [])) as [Hn|Hn].
    { destruct c as [|i|i|i b]; cbn [al_step] in E.
      - destruct (al_free a) as [|[i b] free]; injection E as <- <-; cbn; [by right|by left].
      - destruct (al_used a !! i) as [b|]; [|done]. destruct (is_empty b); [|done]. injection E as <- <-. by left.
      - destruct (i =? 0)%N; [injection E as <- <-; by left|]. destruct (al_used a !! i); [|done]. injection E as <- <-. by left.
      - destruct (al_used a !! i) as [b0|]; [|done]. injection E as <- <-. by left. }
    + lia.
    + rewrite Hn in Hc1. cbn [length] in Hc1. lia.
Qed.
End alloc.

(** ** refinement *)
Section refine.
Context (o : block_ops) (ok : bo_B o -> Prop) (L : block_laws o ok).
Notation B := (bo_B o).
Notation step := (al_step (bo_empty o) (bo_is_empty o)).
Notation inv := (al_inv (bo_is_empty o)).
(** common to both levels *)
Record lev_ok (a : alloc B) (bs : list B) : Prop := {
  lk_inv : inv a;
  lk_len : N.of_nat (length bs) = al_next a;
  lk_zero : bs !! 0 = Some (bo_empty o);
  lk_used : forall i b, al_used a !! i = Some b -> bs !! N.to_nat i = Some b /\ ok b;
  lk_free : Forall (fun '(i, b) => ok b) (al_free a);
}.
(** `Level` *)
Definition vec_ok (a : alloc B) (l : vlevel o) : Prop :=
  lev_ok a (vl_blocks l) /\ vl_free l = (al_free a).*1 /\ Forall (fun '(i, b) => vl_blocks l !! N.to_nat i = Some b) (al_free a).
(** `IntrusiveListLevel`: the parked blocks form a list *)
Fixpoint chain (bs : list B) (root : N) (free : list (N * B)) : Prop :=
  match free with
  | [] => root = U64MAX
  | (i, b) :: free => root = i /\ exists parked next, bs !! N.to_nat i = Some parked /\ bo_link o parked = Ok next /\ bo_restore o parked = Ok b /\ chain bs next free
  end.
Definition list_ok (a : alloc B) (l : ilevel o) : Prop := lev_ok a (il_blocks l) /\ chain (il_blocks l) (il_root l) (al_free a).
Lemma chain_ext bs bs' root free : (forall i b, (i, b) ∈ free -> bs' !! N.to_nat i = bs !! N.to_nat i) -> chain bs root free -> chain bs' root free.
Proof.
  revert root. induction free as [|[i b] free IH]; intros root H; cbn [chain]; [done|]. intros (-> & parked & next & H1 & H2 & H3 & H4).
  split; [done|]. exists parked, next. rewrite (H i b) by left. split; [done|]. split; [done|]. split; [done|]. apply IH; [|done]. intros j b' Hj. apply (H j b'). by right.
Qed.

Lemma lev_ok_grow a bs a' x : lev_ok a bs -> al_free a = [] -> step a LInsert = Some (a', x) -> lev_ok a' (bs ++ [bo_empty o]).
Proof.
  intros [H1 H2 H3 H4 H5] Hf E. pose proof (al_step_inv _ _ _ _ _ _ H1 E) as Hi. cbn [al_step] in E. rewrite Hf in E. injection E as <- <-.
  split; cbn [al_used al_free al_next].
  - done.
  - rewrite app_length. cbn. lia.
  - by apply lookup_app_l_Some.
  - intros i b. rewrite lookup_insert_Some. intros [[<- <-]|[Hn Hb]].
    + split; [|apply L]. rewrite lookup_app_r by lia. by replace (N.to_nat (al_next a) - length bs) with 0 by lia.
    + destruct (H4 i b Hb). split; [by apply lookup_app_l_Some|done].
  - constructor.
Qed.
Lemma lev_ok_set a bs i b a' x : lev_ok a bs -> ok b -> step a (LSet i b) = Some (a', x) ->
  x = LDone /\ al_free a' = al_free a /\ (1 <= i)%N /\ N.to_nat i < length bs /\ al_used a !! i <> None /\ lev_ok a' (<[N.to_nat i := b]> bs).
Proof.
  intros [H1 H2 H3 H4 H5] Hok E. pose proof (al_step_inv _ _ _ _ _ _ H1 E) as Hi. cbn [al_step] in E.
  destruct (al_used a !! i) as [b0|] eqn:Ei; [|done]. injection E as <- <-. pose proof (ai_used _ _ H1 i ltac:(by eexists)) as Hr.
  destruct (H4 i b0 Ei) as [Hb0 _]. pose proof (lookup_lt_Some _ _ _ Hb0) as Hlt.
  split; [done|]. split; [done|]. split; [lia|]. split; [done|]. split; [done|]. split; cbn [al_used al_free al_next].
  - done.
  - by rewrite insert_length.
  - rewrite list_lookup_insert_ne by lia. done.
  - intros j b'. rewrite lookup_insert_Some. intros [[<- <-]|[Hn Hb]].
    + split; [|done]. by rewrite list_lookup_insert.
    + destruct (H4 j b' Hb). split; [|done]. rewrite list_lookup_insert_ne by lia. done.
  - done.
Qed.
Lemma lev_ok_get a bs i a' x : lev_ok a bs -> step a (LGet i) = Some (a', x) -> a' = a /\ exists b, bs !! N.to_nat i = Some b /\ x = LBlock b.
Proof.
  intros [H1 H2 H3 H4 H5]. cbn [al_step]. destruct (N.eqb_spec i 0) as [->|Hi].
  - intros [= <- <-]. split; [done|]. by exists (bo_empty o).
  - destruct (al_used a !! i) as [b|] eqn:E; [|done]. intros [= <- <-]. split; [done|]. exists b. split; [by apply H4|done].
Qed.
Lemma lev_ok_pop a bs bs' i b free : lev_ok a bs -> al_free a = (i, b) :: free -> bs' !! N.to_nat i = Some b -> (forall j, j <> N.to_nat i -> bs' !! j = bs !! j) -> length bs' = length bs ->
  lev_ok (Alloc (<[i := b]> (al_used a)) free (al_next a)) bs'.
Proof.
  intros [H1 H2 H3 H4 H5] Ef Hb Hne Hl.
  assert (inv (Alloc (<[i := b]> (al_used a)) free (al_next a))) as Hi.
  { eapply (al_step_inv (bo_empty o) (bo_is_empty o) a LInsert _ (LIndex i)); [done|]. cbn [al_step]. by rewrite Ef. }
  rewrite Ef in H5. inversion H5 as [|? ? Hok H5']. subst.
  assert (1 <= i)%N as Hpos. { pose proof (ai_free _ _ H1) as Hf. rewrite Ef in Hf. inversion Hf as [|? ? Hx _]. destruct Hx as [? _]. lia. }
  split; cbn [al_used al_free al_next].
  - done.
  - by rewrite Hl.
  - rewrite Hne by lia. done.
  - intros j b'. rewrite lookup_insert_Some. intros [[<- <-]|[Hn Hb']]; [done|]. destruct (H4 j b' Hb'). rewrite Hne by lia. done.
  - done.
Qed.
Lemma lev_ok_push a bs bs' i a' x : lev_ok a bs -> step a (LRemove i) = Some (a', x) -> (forall j, j <> N.to_nat i -> bs' !! j = bs !! j) -> length bs' = length bs ->
  x = LDone /\ lev_ok a' bs' /\ exists b, al_used a !! i = Some b /\ bo_is_empty o b = true /\ ok b /\ bs !! N.to_nat i = Some b /\ al_free a' = (i, b) :: al_free a /\ (1 <= i < al_next a)%N.
Proof.
  intros [H1 H2 H3 H4 H5] E Hne Hl. pose proof (al_step_inv _ _ _ _ _ _ H1 E) as Hi. cbn [al_step] in E.
  destruct (al_used a !! i) as [b|] eqn:Ei; [|done]. destruct (bo_is_empty o b) eqn:Eb; [|done]. injection E as <- <-. destruct (H4 i b Ei) as [Hbi Hok].
  pose proof (ai_used _ _ H1 i ltac:(by eexists)) as Hr. split; [done|]. split; [|by exists b].
  split; cbn [al_used al_free al_next].
  - done.
  - by rewrite Hl.
  - rewrite Hne by lia. done.
  - intros j b'. rewrite lookup_delete_Some. intros [Hn Hb']. destruct (H4 j b' Hb'). rewrite Hne by lia. done.
  - by constructor.
Qed.

Lemma vec_call a l c a' x : vec_ok a l -> lcall_ok ok c -> step a c = Some (a', x) -> exists l', lev_call (lev_vec o) l c = Ok (l', x) /\ vec_ok a' l'.
Proof.
  intros (Hl & Hf & Hb) Hc E. destruct c as [|i|i|i b]; cbn [lev_call lev_vec lo_insert lo_remove lo_blocks lo_set_blocks].
  - unfold vl_insert. rewrite Hf. destruct (al_free a) as [|[i b] free] eqn:Ef; cbn [fmap list_fmap fst].
    + pose proof (lev_ok_grow a _ a' x Hl Ef E) as Hg. cbn [al_step] in E. rewrite Ef in E. injection E as <- <-. rewrite (lk_len _ _ Hl). rewrite bind_ok.
      eexists. split; [done|]. split; [exact Hg|]. split; [done|constructor].
    + cbn [al_step] in E. rewrite Ef in E. injection E as <- <-. rewrite bind_ok. eexists. split; [done|]. inversion Hb as [|? ? Hb1 Hb2]. subst.
      split; [by apply (lev_ok_pop a _ _ i b free Hl Ef)|]. split; [done|done].
  - destruct (lev_ok_push a _ (vl_blocks l) i a' x Hl E) as (-> & Hp & b & _ & _ & _ & Hbi & Hfr & _); [done|done|]. unfold vl_remove. rewrite bind_ok.
    eexists. split; [done|]. split; [exact Hp|]. rewrite Hfr, Hf. split; [done|]. by constructor.
  - destruct (lev_ok_get a _ i a' x Hl E) as (-> & b & Hbi & ->). cbn [lo_blocks]. rewrite (get_u_ok _ _ _ Hbi), bind_ok. by exists l.
  - destruct (lev_ok_set a _ i b a' x Hl Hc E) as (-> & Hfr & Hi & Hlt & Hu & Hs). unfold set_u. rewrite decide_True by done. rewrite bind_ok. eexists. split; [done|].
    split; [exact Hs|]. rewrite Hfr. split; [done|]. cbn [vl_blocks]. pose proof (ai_free _ _ (lk_inv _ _ Hl)) as Hfree. rewrite Forall_forall in *. intros [j b'] Hj.
    rewrite list_lookup_insert_ne; [exact (Hb _ Hj)|]. destruct (Hfree _ Hj) as (? & Hn & _). intros Heq. assert (i = j) as -> by lia. done.
Qed.
Lemma list_call a l c a' x : list_ok a l -> lcall_ok ok c -> (al_next a' <= U64MAX)%N -> step a c = Some (a', x) -> exists l', lev_call (lev_list o) l c = Ok (l', x) /\ list_ok a' l'.
Proof.
  intros (Hl & Hch) Hc Hmax E. pose proof (al_step_next _ _ _ _ _ _ E) as Hmono. pose proof (ai_free _ _ (lk_inv _ _ Hl)) as Hfree. destruct c as [|i|i|i b]; cbn [lev_call lev_list lo_insert lo_remove lo_blocks lo_set_blocks].
  - unfold il_insert, il_pop. destruct (al_free a) as [|[i b] free] eqn:Ef; cbn [chain] in Hch.
    + rewrite Hch, N.eqb_refl, bind_ok. pose proof (lev_ok_grow a _ a' x Hl Ef E) as Hg. cbn [al_step] in E. rewrite Ef in E. injection E as <- <-. rewrite (lk_len _ _ Hl). rewrite bind_ok.
      eexists. split; [done|]. split; [exact Hg|exact Hch].
    + destruct Hch as (-> & parked & next & Hp & Hn & Hr & Hch). inversion Hfree as [|? ? Hx Hfree']. subst. destruct Hx as (Hi & Hu & Hbe).
      destruct (N.eqb_spec i U64MAX) as [->|_]; [lia|]. rewrite (get_u_ok _ _ _ Hp), bind_ok, Hn, bind_ok, Hr, bind_ok.
      pose proof (lookup_lt_Some _ _ _ Hp) as Hlt. unfold set_u. rewrite decide_True by done. rewrite !bind_ok.
      pose proof (ai_nodup _ _ (lk_inv _ _ Hl)) as Hnd. rewrite Ef in Hnd. cbn [fmap list_fmap fst] in Hnd. inversion Hnd as [|? ? Hnin _]. subst.
      cbn [al_step] in E. rewrite Ef in E. injection E as <- <-. eexists. split; [done|]. split.
      * apply (lev_ok_pop a (il_blocks l) _ i b free Hl Ef); cbn [il_blocks]; [by rewrite list_lookup_insert|intros j Hj; by rewrite list_lookup_insert_ne|by rewrite insert_length].
      * cbn [il_blocks il_root al_free]. eapply chain_ext; [|exact Hch]. intros j b' Hj. rewrite list_lookup_insert_ne; [done|].
        intros Heq. assert (i = j) as -> by lia. apply Hnin. apply elem_of_list_fmap. by exists (j, b').
  - assert (exists b, al_used a !! i = Some b /\ bo_is_empty o b = true) as (b & Hu & Hbe).
    { cbn [al_step] in E. destruct (al_used a !! i) as [b|]; [|done]. exists b. split; [done|]. by destruct (bo_is_empty o b). }
    destruct (lk_used _ _ Hl i b Hu) as [Hbi Hok]. pose proof (lookup_lt_Some _ _ _ Hbi) as Hlt.
    assert (il_root l < 2 ^ 64)%N as Hroot.
    { destruct (al_free a) as [|[j b'] free]; cbn [chain] in Hch; [rewrite Hch; by vm_compute|]. destruct Hch as (-> & _). inversion Hfree as [|? ? Hx _]. subst. destruct Hx as ((_ & Hj) & _). unfold U64MAX in Hmax. lia. }
    destruct (bl_park o ok L b (il_root l) Hok Hbe Hroot) as (parked & E1 & E2 & E3).
    unfold il_push. rewrite (get_u_ok _ _ _ Hbi), bind_ok, E1, bind_ok. unfold set_u. rewrite decide_True by done. rewrite !bind_ok.
    destruct (lev_ok_push a _ (<[N.to_nat i := parked]> (il_blocks l)) i a' x Hl E) as (-> & Hp & b2 & Hu2 & _ & _ & _ & Hfr & _).
    { intros j Hj. by rewrite list_lookup_insert_ne. } { by rewrite insert_length. }
    rewrite Hu in Hu2. injection Hu2 as <-. eexists. split; [done|]. split; [exact Hp|]. cbn [il_blocks il_root]. rewrite Hfr. cbn [chain]. split; [done|].
    exists parked, (il_root l). rewrite list_lookup_insert by done. split; [done|]. split; [done|]. split; [done|].
    eapply chain_ext; [|exact Hch]. intros j b' Hj. rewrite list_lookup_insert_ne; [done|]. rewrite Forall_forall in Hfree. destruct (Hfree _ Hj) as (_ & Hn & _).
    intros Heq. assert (i = j) as -> by lia. congruence.
  - destruct (lev_ok_get a _ i a' x Hl E) as (-> & b & Hbi & ->). rewrite (get_u_ok _ _ _ Hbi), bind_ok. by exists l.
  - destruct (lev_ok_set a _ i b a' x Hl Hc E) as (-> & Hfr & Hi & Hlt & Hu & Hs). unfold set_u. rewrite decide_True by done. rewrite bind_ok. eexists. split; [done|].
    split; [exact Hs|]. rewrite Hfr. cbn [il_blocks il_root]. eapply chain_ext; [|exact Hch]. intros j b' Hj.
    rewrite list_lookup_insert_ne; [done|]. rewrite Forall_forall in Hfree. destruct (Hfree _ Hj) as (_ & Hn & _). intros Heq. assert (i = j) as -> by lia. done.
Qed.
Lemma vec_run cs : forall a l a' xs, vec_ok a l -> Forall (lcall_ok ok) cs -> al_run (bo_empty o) (bo_is_empty o) a cs = Some (a', xs) ->
  exists l', lev_calls (lev_vec o) l cs = Ok (l', xs) /\ vec_ok a' l'.
Proof.
  induction cs as [|c cs IH]; intros a l a' xs Hl Hc; cbn [al_run lev_calls].
  - intros [= <- <-]. by exists l.
  - destruct (step a c) as [[a1 x]|] eqn:E; [|done]. destruct (al_run _ _ a1 cs) as [[a2 xs']|] eqn:E2; [|done]. intros [= <- <-].
    inversion Hc as [|? ? Hc1 Hc2]. subst. destruct (vec_call a l c a1 x Hl Hc1 E) as (l1 & E1 & Hl1). rewrite E1, bind_ok.
    destruct (IH a1 l1 a2 xs' Hl1 Hc2 E2) as (l2 & E3 & Hl2). rewrite E3, bind_ok. by exists l2.
Qed.
Lemma list_run cs : forall a l a' xs, list_ok a l -> Forall (lcall_ok ok) cs -> (al_next a' <= U64MAX)%N -> al_run (bo_empty o) (bo_is_empty o) a cs = Some (a', xs) ->
  exists l', lev_calls (lev_list o) l cs = Ok (l', xs) /\ list_ok a' l'.
Proof.
  induction cs as [|c cs IH]; intros a l a' xs Hl Hc Hm; cbn [al_run lev_calls].
  - intros [= <- <-]. by exists l.
  - destruct (step a c) as [[a1 x]|] eqn:E; [|done]. destruct (al_run _ _ a1 cs) as [[a2 xs']|] eqn:E2; [|done]. intros [= <- <-].
    inversion Hc as [|? ? Hc1 Hc2]. subst. pose proof (al_run_next _ _ _ _ _ _ E2) as Hn. destruct (list_call a l c a1 x Hl Hc1 ltac:(lia) E) as (l1 & E1 & Hl1). rewrite E1, bind_ok.
    destruct (IH a1 l1 a2 xs' Hl1 Hc2 Hm E2) as (l2 & E3 & Hl2). rewrite E3, bind_ok. by exists l2.
Qed.
Lemma lev_ok_init : lev_ok al_init [bo_empty o].
Proof. split; [apply (al_init_inv (bo_empty o))|by cbn|done|by intros i b|constructor]. Qed.
Lemma vec_init : vec_ok al_init (vl_default o).
Proof. split; [apply lev_ok_init|]. split; [done|constructor]. Qed.
Lemma list_init : list_ok al_init (il_default o).
Proof. split; [apply lev_ok_init|done]. Qed.
End refine.

(** ** the three blocks *)
Lemma zero_mask_park (m : mask) : 0 < length m -> mask_is_zero m = true -> forall x, <[0 := 0%N]> (<[0 := x]> m) = m.
Proof.
  intros Hl He x. unfold mask_is_zero in He. apply bool_decide_eq_true in He. rewrite list_insert_insert. apply list_insert_id.
  rewrite He. unfold mask_zero. by apply lookup_replicate_2.
Qed.
Lemma laws_block nw : 0 < nw -> block_laws (ops_block nw) (fun b => length (b_mask b) = nw).
Proof.
  intros Hnw. split; cbn [ops_block bo_empty bo_is_empty bo_set_link bo_link bo_restore bo_B].
  - cbn. unfold mask_zero. apply replicate_length.
  - unfold blk_is_empty, blk_empty, mask_is_zero. cbn [b_mask]. apply bool_decide_eq_true. unfold mask_zero. by rewrite replicate_length.
  - intros [m ix] x Hl He _. unfold blk_is_empty in He. cbn [b_mask] in *. unfold blk_set_link, blk_link, blk_restore_empty, blk_set_link, set_u. cbn [b_mask b_idx].
    rewrite decide_True by lia. rewrite bind_ok. eexists. split; [done|]. cbn [b_mask b_idx]. split; [apply get_u_ok, list_lookup_insert; lia|].
    rewrite insert_length. rewrite decide_True by lia. rewrite bind_ok. rewrite zero_mask_park by (done || lia). done.
Qed.
Lemma laws_small nw cap : 0 < nw -> block_laws (ops_small nw cap) (fun b => length (sb_mask b) = nw).
Proof.
  intros Hnw. split; cbn [ops_small bo_empty bo_is_empty bo_set_link bo_link bo_restore bo_B].
  - cbn. unfold mask_zero. apply replicate_length.
  - unfold sb_is_empty, sb_empty, mask_is_zero. cbn [sb_mask]. apply bool_decide_eq_true. unfold mask_zero. by rewrite replicate_length.
  - intros [m ix] x Hl He _. unfold sb_is_empty in He. cbn [sb_mask] in *. unfold sb_restore_empty, sb_set_link, set_u. cbn [sb_mask sb_store].
    rewrite decide_True by lia. rewrite bind_ok. eexists. split; [done|]. cbn [sb_mask sb_store]. split; [apply get_u_ok, list_lookup_insert; lia|].
    rewrite insert_length. rewrite decide_True by lia. rewrite bind_ok. rewrite zero_mask_park by (done || lia). done.
Qed.
Lemma laws_cluster nw : 0 < nw -> block_laws (ops_cluster nw) (fun b => length (c_mask b) = nw).
Proof.
  intros Hnw. split; cbn [ops_cluster bo_empty bo_is_empty bo_set_link bo_link bo_restore bo_B].
  - cbn. unfold mask_zero. apply replicate_length.
  - unfold cb_empty, mask_is_zero. cbn [c_mask]. apply bool_decide_eq_true. unfold mask_zero. by rewrite replicate_length.
  - intros [m ix st] x Hl He _. cbn [c_mask] in *. unfold cb_set_link, set_u. cbn [c_mask c_sub_blocks c_storage].
    rewrite decide_True by lia. rewrite bind_ok. eexists. split; [done|]. cbn [c_mask c_sub_blocks c_storage]. split; [apply get_u_ok, list_lookup_insert; lia|].
    rewrite insert_length. rewrite decide_True by lia. rewrite bind_ok. rewrite zero_mask_park by (done || lia). done.
Qed.
