(** * A tree in shared memory does what the same tree does in a memory of its own

    [ren] maps the addresses of the private run to those of the shared run.  It only grows; on the
    live addresses it is injective.  [F] is the memory of the other trees. *)
From Verif Require Import Base BitUtils BitQueue LevelIndices ConstLoops Hierarchy Dense DenseWorld Spec Client.

Local Ltac inv H := apply bind_ok_inv in H as (? & ? & H); cbn beta iota in H.

Definition prel (ren : gmap N N) (p q : ptr) : Prop :=
  match p, q with
  | PStatic i, PStatic j => i = j
  | PHeap a, PHeap b => ren !! a = Some b
  | _, _ => False
  end.
Definition srel (ren : gmap N N) (s s' : slot) : Prop :=
  match s, s' with
  | SPtr p, SPtr q => prel ren p q
  | SIdx i, SIdx j => i = j
  | SUninit, SUninit => True
  | _, _ => False
  end.
Definition nrel (ren : gmap N N) (n n' : node) : Prop :=
  n_kind n = n_kind n' /\ n_mask n = n_mask n' /\ n_cap n = n_cap n' /\ n_len n = n_len n' /\
  Forall2 (srel ren) (n_slots n) (n_slots n').
Record hrel (ren : gmap N N) (h : heap) (m : gmap N node) : Prop := HRel {
  hr_node : forall a n, h_nodes h !! a = Some n -> exists b n', ren !! a = Some b /\ m !! b = Some n' /\ nrel ren n n';
  hr_inj : forall a1 a2 b, is_Some (h_nodes h !! a1) -> is_Some (h_nodes h !! a2) -> ren !! a1 = Some b -> ren !! a2 = Some b -> a1 = a2;
  hr_back : forall b, is_Some (m !! b) -> exists a, is_Some (h_nodes h !! a) /\ ren !! a = Some b;
  hr_next : forall a, is_Some (ren !! a) -> (a < h_next h)%N;
}.
Definition wrel (ren : gmap N N) (F : gmap N node) (h w : heap) : Prop :=
  exists m, h_nodes w = m ∪ F /\ m ##ₘ F /\ hrel ren h m.

Lemma prel_mono ren ren' p q : ren ⊆ ren' -> prel ren p q -> prel ren' p q.
Proof. intros H. destruct p, q; cbn; try done. intros E. eapply lookup_weaken; eauto. Qed.
Lemma srel_mono ren ren' p q : ren ⊆ ren' -> srel ren p q -> srel ren' p q.
Proof. intros H. destruct p, q; cbn; try done. by apply prel_mono. Qed.
Lemma nrel_mono ren ren' p q : ren ⊆ ren' -> nrel ren p q -> nrel ren' p q.
Proof.
  intros H (?&?&?&?&Hs). split_and!; try done. eapply Forall2_impl; [exact Hs|]. intros; by eapply srel_mono.
Qed.
Lemma nrel_static ren k n : static_node k = Some n -> nrel ren n n.
Proof.
  unfold static_node. repeat case_decide; intros [= <-]; split_and!; cbn; try done; repeat constructor.
Qed.

Section prim.
Context (F : gmap N node).

Lemma sim_hread ren h w p q n : wrel ren F h w -> prel ren p q -> hread h p = Ok n ->
  exists n', hread w q = Ok n' /\ nrel ren n n'.
Proof.
  intros (m & Em & Hd & Hr) Hp E. destruct p as [k|a], q as [k'|b]; cbn in Hp; try done; cbn in *.
  - subst. destruct (static_node k') as [x|] eqn:Ek; [|done]. injection E as ->. exists n. split; [done|]. by eapply nrel_static.
  - destruct (h_nodes h !! a) as [x|] eqn:Ea; [|done]. injection E as ->.
    destruct (hr_node _ _ _ Hr _ _ Ea) as (b' & n' & Hb & Hm & Hn). simplify_eq.
    exists n'. rewrite Em, (lookup_union_Some_l _ _ _ _ Hm). done.
Qed.
Lemma live_lookup ren h w a b n : wrel ren F h w -> ren !! a = Some b -> h_nodes h !! a = Some n ->
  exists n', h_nodes w !! b = Some n' /\ nrel ren n n'.
Proof.
  intros Hw Hab Ha. destruct (sim_hread ren h w (PHeap a) (PHeap b) n Hw Hab) as (n' & E & Hn); [cbn; by rewrite Ha|].
  cbn in E. exists n'. by destruct (h_nodes w !! b); simplify_eq.
Qed.
Lemma sim_hwrite ren h w p q n n' h' : wrel ren F h w -> prel ren p q -> nrel ren n n' -> hwrite h p n = Ok h' ->
  exists w', hwrite w q n' = Ok w' /\ wrel ren F h' w'.
Proof.
  intros Hw Hp Hn E. destruct p as [k|a], q as [k'|b]; cbn in Hp; try done; cbn in *.
  destruct (h_nodes h !! a) as [x|] eqn:Ea; [|done]. injection E as <-.
  destruct (live_lookup _ _ _ _ _ _ Hw Hp Ea) as (y & Hy & _). rewrite Hy. eexists; split; [done|].
  destruct Hw as (m & Em & Hd & Hr). destruct (hr_node _ _ _ Hr _ _ Ea) as (b' & z & Hb & Hm & _). simplify_eq.
  assert (F !! b = None) as HF by (by eapply map_disjoint_Some_l).
  exists (<[b := n']> m). cbn [h_nodes]. split_and!.
  - by rewrite Em, insert_union_l.
  - by apply map_disjoint_insert_l.
  - constructor; cbn [h_nodes h_next].
    + intros c nc. rewrite lookup_insert_Some. intros [[<- <-]|[Hne Hc]].
      * exists b, n'. by rewrite lookup_insert.
      * destruct (hr_node _ _ _ Hr _ _ Hc) as (bc & nc' & H1 & H2 & H3). exists bc, nc'. split_and!; try done.
        rewrite lookup_insert_ne; [done|]. intros <-. apply Hne. eapply (hr_inj _ _ _ Hr); eauto.
    + intros a1 a2 c H1 H2. apply (hr_inj _ _ _ Hr).
      * destruct (decide (a1 = a)) as [->|]; [eauto|by rewrite lookup_insert_ne in H1].
      * destruct (decide (a2 = a)) as [->|]; [eauto|by rewrite lookup_insert_ne in H2].
    + intros c Hc. assert (is_Some (m !! c)) as Hc' by (destruct (decide (c = b)) as [->|]; [eauto|by rewrite lookup_insert_ne in Hc]).
      destruct (hr_back _ _ _ Hr _ Hc') as (ac & H1 & H2). exists ac. split; [|done].
      destruct (decide (ac = a)) as [->|]; [rewrite lookup_insert; eauto|by rewrite lookup_insert_ne].
    + apply (hr_next _ _ _ Hr).
Qed.
Lemma sim_hdealloc ren h w p q k h' : wrel ren F h w -> prel ren p q -> hdealloc h p k = Ok h' ->
  exists w', hdealloc w q k = Ok w' /\ wrel ren F h' w'.
Proof.
  intros Hw Hp E. destruct p as [s|a], q as [s'|b]; cbn in Hp; try done; cbn in *.
  destruct (h_nodes h !! a) as [x|] eqn:Ea; [|done]. case_decide as Hk; [|done]. injection E as <-.
  destruct (live_lookup _ _ _ _ _ _ Hw Hp Ea) as (y & Hy & (H1 & H2 & H3 & H4 & H5)). rewrite Hy.
  rewrite decide_True by (rewrite <- H1, <- H3, <- (Forall2_length _ _ _ H5); done). eexists; split; [done|].
  destruct Hw as (m & Em & Hd & Hr).  destruct (hr_node _ _ _ Hr _ _ Ea) as (b' & z & Hb & Hm & _). simplify_eq.
  assert (F !! b = None) as HF by (by eapply map_disjoint_Some_l).
  exists (delete b m). cbn [h_nodes]. split_and!.
  - rewrite Em, delete_union, (delete_notin F) by done. done.
  - by apply map_disjoint_delete_l.
  - constructor; cbn [h_nodes h_next].
    + intros c nc. rewrite lookup_delete_Some. intros [Hne Hc].
      destruct (hr_node _ _ _ Hr _ _ Hc) as (bc & nc' & G1 & G2 & G3). exists bc, nc'. split_and!; try done.
      rewrite lookup_delete_ne; [done|]. intros <-. apply Hne. eapply (hr_inj _ _ _ Hr); eauto.
    + intros a1 a2 c [? [? G1]%lookup_delete_Some] [? [? G2]%lookup_delete_Some]. apply (hr_inj _ _ _ Hr); eauto.
    + intros c [? [Hne Hc]%lookup_delete_Some]. destruct (hr_back _ _ _ Hr c) as (ac & G1 & G2); [eauto|].
      exists ac. split; [|done]. rewrite lookup_delete_ne; [done|]. intros <-. simplify_eq.
    + apply (hr_next _ _ _ Hr).
Qed.
Context (al : allocator).
Lemma sim_halloc ren h w n n' h' p : wrel ren F h w -> nrel ren n n' -> halloc h n = (h', p) ->
  exists ren' w' q, walloc al w n' = (w', q) /\ ren ⊆ ren' /\ wrel ren' F h' w' /\ prel ren' p q.
Proof.
  intros (m & Em & Hd & Hr) Hn [= <- <-]. unfold walloc. set (b := al_addr al (h_nodes w) (h_next w)).
  assert (h_nodes w !! b = None) as Hb by apply al_free. rewrite Em in Hb. apply lookup_union_None in Hb as [Hbm HbF].
  assert (ren !! h_next h = None) as Hfr.
  { destruct (ren !! h_next h) eqn:E; [|done]. pose proof (hr_next _ _ _ Hr _ (mk_is_Some _ _ E)). lia. }
  assert (ren ⊆ <[h_next h := b]> ren) as Hsub by (by apply insert_subseteq).
  exists (<[h_next h := b]> ren), (Heap (<[b := n']> (h_nodes w)) (N.succ (h_next w))), (PHeap b).
  split; [done|]. split; [done|]. split; [|cbn; by rewrite lookup_insert].
  exists (<[b := n']> m). cbn [h_nodes]. split_and!.
  - by rewrite Em, insert_union_l.
  - by apply map_disjoint_insert_l.
  - assert (forall a x, h_nodes h !! a = Some x -> a <> h_next h) as Hlive.
    { intros a x Ha ->. destruct (hr_node _ _ _ Hr _ _ Ha) as (? & ? & ? & _). congruence. }
    constructor; cbn [h_nodes h_next].
    + intros c nc. rewrite lookup_insert_Some. intros [[<- <-]|[Hne Hc]].
      * exists b, n'. rewrite !lookup_insert. split_and!; try done. by eapply nrel_mono.
      * destruct (hr_node _ _ _ Hr _ _ Hc) as (bc & nc' & G1 & G2 & G3). exists bc, nc'. rewrite !lookup_insert_ne; [|congruence|congruence].
        split_and!; try done. by eapply nrel_mono.
    + intros a1 a2 c. rewrite !lookup_insert_is_Some'. intros H1 H2. rewrite !lookup_insert_Some. intros [[<- <-]|[Hn1 G1]] [[<- E2]|[Hn2 G2]]; try done.
      * destruct H2 as [?|[x2 H2]]; [done|]. destruct (hr_node _ _ _ Hr _ _ H2) as (? & ? & ? & ? & _). congruence.
      * subst. destruct H1 as [?|[x1 H1]]; [done|]. destruct (hr_node _ _ _ Hr _ _ H1) as (? & ? & ? & ? & _). congruence.
      * destruct H1 as [?|H1]; [done|]. destruct H2 as [?|H2]; [done|]. eapply (hr_inj _ _ _ Hr); eauto.
    + intros c. rewrite lookup_insert_is_Some'. intros [<-|Hc].
      * exists (h_next h). rewrite !lookup_insert. eauto.
      * destruct (hr_back _ _ _ Hr c Hc) as (ac & [x G1] & G2). pose proof (Hlive _ _ G1). exists ac. rewrite !lookup_insert_ne by done. eauto.
    + intros a. rewrite lookup_insert_is_Some'. intros [<-|Ha]; [lia|]. pose proof (hr_next _ _ _ Hr _ Ha). lia.
Qed.
End prim.

(** ** lists *)
Lemma F2_get_u {A B} (R : A -> B -> Prop) l l' i x : Forall2 R l l' -> get_u l i = Ok x -> exists x', get_u l' i = Ok x' /\ R x x'.
Proof.
  unfold get_u. intros H E. destruct (l !! i) as [y|] eqn:El; [|done]. injection E as ->.
  destruct (Forall2_lookup_l _ _ _ _ _ H El) as (x' & -> & ?). eauto.
Qed.
Lemma F2_get_c {A B} (R : A -> B -> Prop) l l' i x : Forall2 R l l' -> get_c l i = Ok x -> exists x', get_c l' i = Ok x' /\ R x x'.
Proof.
  unfold get_c. intros H E. destruct (l !! i) as [y|] eqn:El; [|done]. injection E as ->.
  destruct (Forall2_lookup_l _ _ _ _ _ H El) as (x' & -> & ?). eauto.
Qed.
Lemma F2_set_u {A B} (R : A -> B -> Prop) l l' i x x' l1 : Forall2 R l l' -> R x x' -> set_u l i x = Ok l1 ->
  exists l1', set_u l' i x' = Ok l1' /\ Forall2 R l1 l1'.
Proof.
  unfold set_u. intros H Hx E. rewrite <- (Forall2_length _ _ _ H). case_decide; [|done]. injection E as <-. eexists; split; [done|]. by apply Forall2_insert.
Qed.
Lemma F2_slots_copy ren l l' a b c l1 : Forall2 (srel ren) l l' -> slots_copy l a b c = Ok l1 ->
  exists l1', slots_copy l' a b c = Ok l1' /\ Forall2 (srel ren) l1 l1'.
Proof.
  unfold slots_copy. intros H E. rewrite <- (Forall2_length _ _ _ H). case_decide; [|done]. injection E as <-. eexists; split; [done|].
  apply Forall2_app; [by apply Forall2_take|]. apply Forall2_app; [by apply Forall2_take, Forall2_drop|]. by apply Forall2_drop.
Qed.

Lemma ok_inj {A} (a b : A) : Ok a = Ok b -> a = b.
Proof. congruence. Qed.

(** ** node.rs *)
Section fns.
Context (F : gmap N node).
Implicit Types (ren : gmap N N) (h w : heap).

Lemma sim_contains ren h w p q i b : wrel ren F h w -> prel ren p q -> node_contains h p i = Ok b -> node_contains w q i = Ok b.
Proof. intros Hw Hp E. unfold node_contains in *. inv E. destruct (sim_hread _ _ _ _ _ _ _ Hw Hp H) as (n' & -> & (_ & Hm & _)). rewrite bind_ok, <- Hm. done. Qed.
Lemma sim_node_mask ren h w p q b : wrel ren F h w -> prel ren p q -> node_mask h p = Ok b -> node_mask w q = Ok b.
Proof. intros Hw Hp E. unfold node_mask in *. inv E. destruct (sim_hread _ _ _ _ _ _ _ Hw Hp H) as (n' & -> & (_ & Hm & _)). rewrite bind_ok, <- Hm. done. Qed.
Lemma sim_node_len ren h w p q b : wrel ren F h w -> prel ren p q -> node_len h p = Ok b -> node_len w q = Ok b.
Proof. intros Hw Hp E. unfold node_len in *. inv E. destruct (sim_hread _ _ _ _ _ _ _ Hw Hp H) as (n' & -> & (_ & _ & _ & Hm & _)). rewrite bind_ok, <- Hm. done. Qed.
Lemma sim_get_child k ren h w p q i s : wrel ren F h w -> prel ren p q -> get_child k h p i = Ok s ->
  exists s', get_child k w q i = Ok s' /\ srel ren s s'.
Proof.
  intros Hw Hp E. unfold get_child in *. inv E. destruct (sim_hread _ _ _ _ _ _ _ Hw Hp H) as (n' & -> & (Hk & Hm & _ & _ & Hs)).
  rewrite bind_ok, <- Hk, <- Hm. inv E. rewrite H0, bind_ok. case_decide; [|done]. by eapply F2_get_u.
Qed.
Lemma sim_child_ptr ren h w p q i c : wrel ren F h w -> prel ren p q -> child_ptr h p i = Ok c ->
  exists c', child_ptr w q i = Ok c' /\ prel ren c c'.
Proof.
  intros Hw Hp E. unfold child_ptr in *. inv E. destruct (sim_get_child _ _ _ _ _ _ _ _ Hw Hp H) as (s' & -> & Hs). rewrite bind_ok.
  destruct x; cbn in *; try done. injection E as ->. destruct s'; try done. eauto.
Qed.
Lemma sim_child_idx ren h w p q i j : wrel ren F h w -> prel ren p q -> child_idx h p i = Ok j -> child_idx w q i = Ok j.
Proof.
  intros Hw Hp E. unfold child_idx in *. inv E. destruct (sim_get_child _ _ _ _ _ _ _ _ Hw Hp H) as (s' & -> & Hs). rewrite bind_ok.
  destruct x; cbn in *; try done. injection E as ->. destruct s'; try done. cbn in Hs. by subst.
Qed.
Lemma sim_set_child k ren h w p q i s s' h' : wrel ren F h w -> prel ren p q -> srel ren s s' -> set_child k h p i s = Ok h' ->
  exists w', set_child k w q i s' = Ok w' /\ wrel ren F h' w'.
Proof.
  intros Hw Hp Hs E. unfold set_child in *. inv E. destruct (sim_hread _ _ _ _ _ _ _ Hw Hp H) as (n' & -> & (Hk & Hm & Hc & Hl & Hsl)).
  rewrite bind_ok, <- Hm, <- Hk. inv E. rewrite H0, bind_ok. case_decide; [|done]. inv E.
  destruct (F2_set_u _ _ _ _ _ _ _ Hsl Hs H2) as (l1' & -> & Hl1). rewrite bind_ok.
  eapply sim_hwrite; [done..| |exact E]. by split_and!.
Qed.
Context (al : allocator).
Lemma sim_node_new k ren h w cap e e' h' p : wrel ren F h w -> srel ren e e' -> node_new k h cap e = Ok (h', p) ->
  exists ren' w' q, wnode_new al k w cap e' = Ok (w', q) /\ ren ⊆ ren' /\ wrel ren' F h' w' /\ prel ren' p q.
Proof.
  intros Hw He E. unfold node_new, wnode_new in *. inv E. apply ok_inj in E.
  assert (Forall2 (srel ren) (replicate cap SUninit) (replicate cap SUninit)) as Hu by (by apply Forall2_replicate).
  destruct (F2_set_u _ _ _ _ _ _ _ Hu He H) as (l1' & -> & Hl1). rewrite bind_ok.
  destruct (sim_halloc F al ren h w (Node k 0 cap 1 x) (Node k 0 cap 1 l1') h' p Hw) as (r & w' & q & -> & ?); [by split_and!|exact E|]. eauto 10.
Qed.
Lemma sim_hrealloc k ren h w p q cap h' p' : wrel ren F h w -> prel ren p q -> hrealloc h p k cap = Ok (h', p') ->
  exists ren' w' q', wrealloc al w q k cap = Ok (w', q') /\ ren ⊆ ren' /\ wrel ren' F h' w' /\ prel ren' p' q'.
Proof.
  intros Hw Hp E. unfold hrealloc, wrealloc in *. inv E. destruct (sim_hread _ _ _ _ _ _ _ Hw Hp H) as (n' & -> & (Hk & Hm & Hc & Hl & Hsl)).
  rewrite bind_ok. inv E. destruct (sim_hdealloc _ _ _ _ _ _ _ _ Hw Hp H0) as (w1 & -> & Hw1). rewrite bind_ok. apply ok_inj in E.
  rewrite <- Hm, <- Hc, <- Hl, <- (Forall2_length _ _ _ Hsl).
  destruct (sim_halloc F al ren x0 w1 (Node k (n_mask x) (n_cap x) (n_len x) (take cap (n_slots x ++ replicate (cap - length (n_slots x)) SUninit)))
    (Node k (n_mask x) (n_cap x) (n_len x) (take cap (n_slots n' ++ replicate (cap - length (n_slots x)) SUninit))) h' p' Hw1) as (r & w' & q' & -> & ?).
  - split_and!; try done. cbn. apply Forall2_take, Forall2_app; [done|]. by apply Forall2_replicate.
  - exact E.
  - eauto 10.
Qed.
Lemma sim_node_reserve k ren h w p q h' p' : wrel ren F h w -> prel ren p q -> node_reserve k h p = Ok (h', p') ->
  exists ren' w' q', wnode_reserve al k w q = Ok (w', q') /\ ren ⊆ ren' /\ wrel ren' F h' w' /\ prel ren' p' q'.
Proof.
  intros Hw Hp E. unfold node_reserve, wnode_reserve in *. inv E. destruct (sim_hread _ _ _ _ _ _ _ Hw Hp H) as (n' & -> & (Hk & Hm & Hc & Hl & Hsl)).
  rewrite bind_ok, <- Hl, <- Hc. case_decide as Hlc; [|injection E as <- <-; eauto 10].
  destruct (u8_ok _); [|done]. inv E. destruct x0 as [h1 p1]. destruct (sim_hrealloc _ _ _ _ _ _ _ _ _ Hw Hp H0) as (r1 & w1 & q1 & -> & Hsub & Hw1 & Hp1).
  rewrite bind_ok. inv E. destruct (sim_hread _ _ _ _ _ _ _ Hw1 Hp1 H1) as (n1 & -> & (Hk1 & Hm1 & Hc1 & Hl1 & Hsl1)). rewrite bind_ok. inv E. injection E as <- <-.
  edestruct (sim_hwrite F r1 h1 w1 p1 q1) as (w2 & E2 & Hw2); [done..| |exact H2|]; [|rewrite E2, bind_ok; eauto 10].
  split_and!; cbn; [exact Hk1|exact Hm1|reflexivity|exact Hl1|exact Hsl1].
Qed.
Lemma sim_node_insert k ren h w p q i v v' h' d p' : wrel ren F h w -> prel ren p q -> srel ren v v' -> node_insert k h p i v = Ok (h', d, p') ->
  exists ren' w' q', wnode_insert al k w q i v' = Ok (w', d, q') /\ ren ⊆ ren' /\ wrel ren' F h' w' /\ prel ren' p' q'.
Proof.
  intros Hw Hp Hv E. unfold node_insert, wnode_insert in *. inv E. destruct x as [h1 p1].
  destruct (sim_node_reserve _ _ _ _ _ _ _ _ Hw Hp H) as (r1 & w1 & q1 & -> & Hsub & Hw1 & Hp1). rewrite bind_ok. cbn beta iota in *. inv E.
  destruct (sim_hread _ _ _ _ _ _ _ Hw1 Hp1 H0) as (n1 & -> & (Hk1 & Hm1 & Hc1 & Hl1 & Hsl1)). rewrite bind_ok, <- Hm1, <- Hk1, <- Hl1, <- Hc1.
  inv E. destruct x0 as [mask b0]. rewrite H1, bind_ok. inv E. rewrite H2, bind_ok. case_decide; [|done]. inv E. rewrite H4, bind_ok. inv E.
  destruct (F2_slots_copy _ _ _ _ _ _ _ Hsl1 H5) as (l1' & -> & Hl1'). rewrite bind_ok. inv E.
  destruct (F2_set_u _ _ _ _ _ _ _ Hl1' (srel_mono _ _ _ _ Hsub Hv) H6) as (l2' & -> & Hl2'). rewrite bind_ok.
  destruct (u8_ok _); [|done]. inv E. injection E as <- <- <-.
  edestruct (sim_hwrite F r1 h1 w1 p1 q1) as (w2 & E2 & Hw2); [done..| |exact H7|]; [|rewrite E2, bind_ok; eauto 10].
  by split_and!.
Qed.
Lemma sim_node_remove k ren h w p q i h' : wrel ren F h w -> prel ren p q -> node_remove k h p i = Ok h' ->
  exists w', node_remove k w q i = Ok w' /\ wrel ren F h' w'.
Proof.
  intros Hw Hp E. unfold node_remove in *. inv E. destruct (sim_hread _ _ _ _ _ _ _ Hw Hp H) as (n1 & -> & (Hk1 & Hm1 & Hc1 & Hl1 & Hsl1)).
  rewrite bind_ok, <- Hm1, <- Hk1, <- Hl1, <- Hc1. inv E. rewrite H0, bind_ok. inv E. destruct x1 as [mask b0]. rewrite H1, bind_ok.
  case_decide; [|done]. inv E. rewrite H3, bind_ok. inv E. destruct (F2_slots_copy _ _ _ _ _ _ _ Hsl1 H4) as (l1' & -> & Hl1'). rewrite bind_ok.
  inv E. rewrite H5, bind_ok. eapply sim_hwrite; [done..| |exact E]. by split_and!.
Qed.

(** drop *)
Lemma sim_bits_for_each ren fuel bq f g h w h' : (forall h w i h', wrel ren F h w -> f h i = Ok h' -> exists w', g w i = Ok w' /\ wrel ren F h' w') ->
  wrel ren F h w -> bits_for_each fuel bq f h = Ok h' -> exists w', bits_for_each fuel bq g w = Ok w' /\ wrel ren F h' w'.
Proof.
  intros Hf. revert bq h w. induction fuel as [|fuel IH]; intros bq h w Hw E; cbn in *; [done|].
  inv E. rewrite H, bind_ok. destruct x as [bq' [i|]]; cbn beta iota in *; [|injection E as <-; eauto].
  inv E. destruct (Hf _ _ _ _ Hw H0) as (w1 & -> & Hw1). rewrite bind_ok. eauto.
Qed.
Lemma sim_drop_node k ren h w p q h' : wrel ren F h w -> prel ren p q -> drop_node k h p = Ok h' ->
  exists w', drop_node k w q = Ok w' /\ wrel ren F h' w'.
Proof. apply sim_hdealloc. Qed.
Lemma sim_drop_childs k ren h w p q h' : wrel ren F h w -> prel ren p q -> drop_node_with_childs k h p = Ok h' ->
  exists w', drop_node_with_childs k w q = Ok w' /\ wrel ren F h' w'.
Proof.
  revert h w p q h'. induction k as [|k IH]; intros h w p q h' Hw Hp E; [by eapply sim_drop_node|].
  cbn [drop_node_with_childs] in *. inv E. rewrite (sim_node_mask _ _ _ _ _ _ Hw Hp H), bind_ok. inv E.
  destruct (sim_bits_for_each ren 65 (into_bits_iter [x]) (fun h i => let* c := child_ptr h p i in drop_node_with_childs k h c)
    (fun h i => let* c := child_ptr h q i in drop_node_with_childs k h c) h w x0) as (w1 & -> & Hw1); [|done|done|].
  - intros h1 w1 i h2 Hw1 E1. inv E1. destruct (sim_child_ptr _ _ _ _ _ _ _ Hw1 Hp H1) as (c' & -> & Hc). rewrite bind_ok. by eapply IH.
  - rewrite bind_ok. by eapply sim_drop_node.
Qed.

(** ** dense_tree.rs *)
Definition lrel ren (l l' : loc) : Prop :=
  match l, l' with LRoot, LRoot => True | LSlot p i, LSlot q j => prel ren p q /\ i = j | _, _ => False end.
Lemma sim_loc_read ren h w root root' l l' p : wrel ren F h w -> prel ren root root' -> lrel ren l l' -> loc_read root h l = Ok p ->
  exists q, loc_read root' w l' = Ok q /\ prel ren p q.
Proof.
  intros Hw Hr Hl E. destruct l as [|a i], l' as [|b j]; try done; cbn in *; [injection E as <-; eauto|].
  destruct Hl as [Hl <-]. inv E. destruct (sim_hread _ _ _ _ _ _ _ Hw Hl H) as (n1 & -> & (Hk1 & Hm1 & Hc1 & Hl1 & Hsl1)). rewrite bind_ok, <- Hk1.
  case_decide; [|done]. inv E. destruct (F2_get_u _ _ _ _ _ Hsl1 H1) as (s' & -> & Hs). rewrite bind_ok. destruct x0, s'; try done. cbn in *. injection E as ->. eauto.
Qed.
Lemma sim_loc_write ren h w root root' l l' v v' r1 h' : wrel ren F h w -> prel ren root root' -> lrel ren l l' -> prel ren v v' ->
  loc_write root h l v = Ok (r1, h') -> exists r1' w', loc_write root' w l' v' = Ok (r1', w') /\ prel ren r1 r1' /\ wrel ren F h' w'.
Proof.
  intros Hw Hr Hl Hv E. destruct l as [|a i], l' as [|b j]; try done; cbn in *; [injection E as <- <-; eauto|].
  destruct Hl as [Hl <-]. inv E. destruct (sim_hread _ _ _ _ _ _ _ Hw Hl H) as (n1 & -> & (Hk1 & Hm1 & Hc1 & Hl1 & Hsl1)). rewrite bind_ok, <- Hk1, <- Hm1, <- Hl1, <- Hc1.
  case_decide; [|done]. inv E. destruct (F2_set_u _ _ _ _ (SPtr v) (SPtr v') _ Hsl1 Hv H1) as (s' & -> & Hs). rewrite bind_ok. inv E. injection E as <- <-.
  edestruct (sim_hwrite F ren h w a b) as (w2 & E2 & Hw2); [done..| |exact H2|]; [|rewrite E2, bind_ok; eauto 10].
  by split_and!.
Qed.
Lemma lrel_mono ren ren' l l' : ren ⊆ ren' -> lrel ren l l' -> lrel ren' l l'.
Proof. intros Hs. destruct l, l'; cbn; try done. intros [? ?]. split; [|done]. by eapply prel_mono. Qed.

Definition strel ren (s s' : ptr * heap * loc) : Prop :=
  prel ren s.1.1 s'.1.1 /\ wrel ren F s.1.2 s'.1.2 /\ lrel ren s.2 s'.2.
Lemma sim_goi_body D ix ren s s' n s1 o : strel ren s s' -> goi_body D ix s n = Ok (s1, o) ->
  exists ren' s1', wgoi_body al D ix s' n = Ok (s1', o) /\ ren ⊆ ren' /\ strel ren' s1 s1'.
Proof.
  destruct s as [[root h] l], s' as [[root' w] l']. intros (Hr & Hw & Hl) E. cbn [fst snd] in *. unfold goi_body, wgoi_body in *.
  inv E. rewrite H, bind_ok. inv E. destruct (sim_loc_read _ _ _ _ _ _ _ _ Hw Hr Hl H0) as (q & -> & Hq). rewrite bind_ok. inv E.
  rewrite (sim_contains _ _ _ _ _ _ _ Hw Hq H1), bind_ok. destruct x1.
  - inv E. destruct (sim_hread _ _ _ _ _ _ _ Hw Hq H2) as (n1 & -> & (Hk1 & Hm1 & Hc1 & Hl1 & Hsl1)). rewrite bind_ok, <- Hm1. inv E. rewrite H3, bind_ok. inv E.
    destruct (sim_child_ptr _ _ _ _ _ _ _ Hw Hq H4) as (c' & -> & Hc'). rewrite bind_ok. injection E as <- <-.
    eexists ren, _. split; [done|]. split; [done|]. by split_and!.
  - inv E. destruct x1 as [h1 child]. cbn beta iota in *.
    assert (exists ren1 w1 child', (if decide (n = D - 2) then wnode_new al KIdx w DEFAULT_CAP (SIdx 0)
      else let* e := empty_node (n + 2) D in wnode_new al KPtr w DEFAULT_CAP (SPtr e)) = Ok (w1, child') /\ ren ⊆ ren1 /\ wrel ren1 F h1 w1 /\ prel ren1 child child')
      as (ren1 & w1 & child' & -> & Hs1 & Hw1 & Hc1).
    { destruct (decide (n = D - 2)).
      - eapply sim_node_new; [done| |exact H2]. done.
      - inv H2. rewrite H3, bind_ok. eapply sim_node_new; [done| |exact H2]. cbn. unfold empty_node in H3. repeat (case_decide; [|done]). injection H3 as <-. done. }
    rewrite bind_ok. cbn beta iota. inv E. destruct x1 as [[h2 idx] nn]. cbn beta iota in *.
    destruct (sim_node_insert KPtr ren1 h1 w1 x0 q x (SPtr child) (SPtr child') h2 idx nn Hw1 (prel_mono _ _ _ _ Hs1 Hq) Hc1 H3) as (ren2 & w2 & nn' & -> & Hs2 & Hw2 & Hp2).
    rewrite bind_ok. cbn beta iota. inv E. destruct x1 as [root2 h3]. cbn beta iota in *.
    assert (ren ⊆ ren2) as Hs02 by (by etrans).
    destruct (sim_loc_write ren2 h2 w2 root root' l l' nn nn' root2 h3 Hw2 (prel_mono _ _ _ _ Hs02 Hr) (lrel_mono _ _ _ _ Hs02 Hl) Hp2 H4) as (r1' & w3 & -> & Hr3 & Hw3).
    rewrite bind_ok. injection E as <- <-. eexists ren2, _. split; [done|]. split; [done|]. by split_and!.
Qed.
Lemma sim_loop_fwd D ix is a b ren s s' s1 o : strel ren s s' -> const_loop_fwd is a b (goi_body D ix) s = Ok (s1, o) ->
  exists ren' s1', const_loop_fwd is a b (wgoi_body al D ix) s' = Ok (s1', o) /\ ren ⊆ ren' /\ strel ren' s1 s1'.
Proof.
  revert ren s s'. induction is as [|i is IH]; intros ren s s' Hs E; cbn [const_loop_fwd] in *; [injection E as <- <-; eauto|].
  case_decide; [injection E as <- <-; eauto|]. case_decide; [|by eapply IH]. inv E. destruct x as [s2 o2]. cbn beta iota in *.
  destruct (sim_goi_body _ _ _ _ _ _ _ _ Hs H1) as (ren' & s1' & -> & Hsub & Hs'). rewrite bind_ok. cbn beta iota. destruct o2; [injection E as <- <-; eauto 10|].
  destruct (IH _ _ _ Hs' E) as (ren2 & s2' & -> & ? & ?). exists ren2, s2'. split; [done|]. split; [by etrans|done].
Qed.

Definition drel {V} ren (t u : dense V) : Prop :=
  prel ren (d_root t) (d_root u) /\ wrel ren F (d_heap t) (d_heap u) /\ d_data t = d_data u /\ d_keys t = d_keys u.

Lemma sim_goi {V} D ren (t u : dense V) k ins vf t' j dr : drel ren t u -> get_or_insert_impl D t k ins vf = Ok (t', j, dr) ->
  exists ren' u', wget_or_insert_impl al D u k ins vf = Ok (u', j, dr) /\ ren ⊆ ren' /\ drel ren' t' u'.
Proof.
  intros (Hr & Hw & Hd & Hk) E. unfold get_or_insert_impl, wget_or_insert_impl in *. inv E. destruct x as [[[root h] l] o]. cbn beta iota in *.
  unfold const_loop in *. case_decide; [|done].
  destruct (sim_loop_fwd D (level_indices 1 D k) (seq 0 9) 0 (D - 1) ren (d_root t, d_heap t, LRoot) (d_root u, d_heap u, LRoot) (root, h, l) o) as (ren1 & [[root1 w] l1] & -> & Hs1 & (Hr1 & Hw1 & Hl1)); [by split_and!|done|].
  rewrite bind_ok. cbn [fst snd] in *. inv E. destruct (sim_loc_read _ _ _ _ _ _ _ _ Hw1 Hr1 Hl1 H1) as (q & -> & Hq). rewrite bind_ok. inv E. rewrite H2, bind_ok. inv E.
  rewrite (sim_contains _ _ _ _ _ _ _ Hw1 Hq H3), bind_ok. destruct x1.
  - inv E. rewrite (sim_child_idx _ _ _ _ _ _ _ Hw1 Hq H4), bind_ok, <- Hd, <- Hk. destruct ins.
    + destruct vf as [v|].
      * inv E. rewrite H5, bind_ok. inv E. rewrite H6, bind_ok. injection E as <- <- <-. eexists ren1, _. split; [done|]. split; [done|]. by split_and!.
      * injection E as <- <- <-. eexists ren1, _. split; [done|]. split; [done|]. by split_and!.
    + inv E. rewrite H5, bind_ok. injection E as <- <- <-. eexists ren1, _. split; [done|]. split; [done|]. by split_and!.
  - destruct vf as [v|]; [|injection E as <- <- <-; rewrite <- Hd, <- Hk; eexists ren1, _; split; [done|]; split; [done|]; by split_and!].
    rewrite <- Hd, <- Hk. inv E. destruct x1 as [[h2 idx] nn]. cbn beta iota in *.
    destruct (sim_node_insert KIdx ren1 h w x q x0 (SIdx (N.of_nat (length (d_data t)) mod 2 ^ 32)) (SIdx (N.of_nat (length (d_data t)) mod 2 ^ 32)) h2 idx nn Hw1 Hq eq_refl H4)
      as (ren2 & w2 & nn' & -> & Hs2 & Hw2 & Hp2).
    rewrite bind_ok. cbn beta iota. inv E. destruct x1 as [root2 h3]. cbn beta iota in *.
    destruct (sim_loc_write ren2 h2 w2 root root1 l l1 nn nn' root2 h3 Hw2 (prel_mono _ _ _ _ Hs2 Hr1) (lrel_mono _ _ _ _ Hs2 Hl1) Hp2 H5) as (r1' & w3 & -> & Hr3 & Hw3).
    rewrite bind_ok. injection E as <- <- <-. eexists ren2, _. split; [done|]. split; [by etrans|]. by split_and!.
Qed.

Lemma sim_branch k n ix ren h w p q l : wrel ren F h w -> prel ren p q -> get_branch_loop h k n ix p = Ok l ->
  exists l', get_branch_loop w k n ix q = Ok l' /\ Forall2 (prel ren) l l'.
Proof.
  intros Hw. revert n p q l. induction k as [|k IH]; intros n p q l Hp E; cbn [get_branch_loop] in *; [injection E as <-; eauto|].
  inv E. rewrite H, bind_ok. inv E. destruct (sim_child_ptr _ _ _ _ _ _ _ Hw Hp H0) as (c' & -> & Hc). rewrite bind_ok. inv E.
  destruct (IH _ _ _ _ Hc H1) as (l' & -> & Hl'). rewrite bind_ok. injection E as <-. eexists; split; [done|]. by constructor.
Qed.
Lemma sim_terminal_loop k n ix ren h w p q r : wrel ren F h w -> prel ren p q -> get_terminal_loop h k n ix p = Ok r ->
  exists r', get_terminal_loop w k n ix q = Ok r' /\ prel ren r r'.
Proof.
  intros Hw. revert n p q r. induction k as [|k IH]; intros n p q l Hp E; cbn [get_terminal_loop] in *; [injection E as <-; eauto|].
  inv E. rewrite H, bind_ok. inv E. destruct (sim_child_ptr _ _ _ _ _ _ _ Hw Hp H0) as (c' & -> & Hc). rewrite bind_ok. by eapply IH.
Qed.
Lemma sim_terminal D ren root root' h w ix r i : wrel ren F h w -> prel ren root root' -> get_terminal_node D root h ix = Ok (r, i) ->
  exists r', get_terminal_node D root' w ix = Ok (r', i) /\ prel ren r r'.
Proof.
  intros Hw Hp E. unfold get_terminal_node in *. inv E. destruct (sim_terminal_loop _ _ _ _ _ _ _ _ _ Hw Hp H) as (r' & -> & Hr). rewrite bind_ok.
  inv E. rewrite H0, bind_ok. injection E as <- <-. eauto.
Qed.
Lemma sim_climb_body ren root root' br br' ix h w n h' o : wrel ren F h w -> prel ren root root' -> Forall2 (prel ren) br br' ->
  remove_climb_body root br ix h n = Ok (h', o) -> exists w', remove_climb_body root' br' ix w n = Ok (w', o) /\ wrel ren F h' w'.
Proof.
  intros Hw Hr Hb E. unfold remove_climb_body in *. inv E.
  assert (exists q, (if decide (n = 0) then Ok root' else get_c br' (n - 1)) = Ok q /\ prel ren x q) as (q & -> & Hq).
  { clear E. destruct (decide (n = 0)); [injection H as <-; eauto|by eapply F2_get_c]. }
  rewrite bind_ok. inv E. rewrite H0, bind_ok. inv E. destruct (sim_node_remove _ _ _ _ _ _ _ _ Hw Hq H1) as (w1 & -> & Hw1). rewrite bind_ok. inv E.
  rewrite (sim_node_len _ _ _ _ _ _ Hw1 Hq H2), bind_ok. case_decide; [injection E as <- <-; eauto|].
  case_decide; [|injection E as <- <-; eauto]. inv E. destruct (sim_drop_node _ _ _ _ _ _ _ Hw1 Hq H5) as (w2 & -> & Hw2). rewrite bind_ok. injection E as <- <-. eauto.
Qed.
Lemma sim_loop_rev ren root root' br br' ix is a b h w h' o : wrel ren F h w -> prel ren root root' -> Forall2 (prel ren) br br' ->
  const_loop_rev_body is a b (remove_climb_body root br ix) h = Ok (h', o) ->
  exists w', const_loop_rev_body is a b (remove_climb_body root' br' ix) w = Ok (w', o) /\ wrel ren F h' w'.
Proof.
  intros Hw Hr Hb. revert h w Hw. induction is as [|i is IH]; intros h w Hw E; cbn [const_loop_rev_body] in *; [injection E as <- <-; eauto|].
  destruct (decide (a <= i /\ i < b)); [|by eapply IH]. inv E. destruct x as [h1 o1]. cbn beta iota in *.
  destruct (sim_climb_body _ _ _ _ _ _ _ _ _ _ _ Hw Hr Hb H) as (w1 & -> & Hw1).
  rewrite bind_ok. cbn beta iota. destruct o1; [injection E as <- <-; eauto|by eapply IH].
Qed.
Lemma sim_remove {V} D ren (t u : dense V) k t' o : drel ren t u -> dense_remove D t k = Ok (t', o) ->
  exists u', dense_remove D u k = Ok (u', o) /\ drel ren t' u'.
Proof.
  intros (Hr & Hw & Hd & Hk) E. unfold dense_remove, dense_remove_impl in *. inv E. rewrite H, bind_ok. clear H. inv E. unfold get_branch in *.
  destruct (sim_branch _ _ _ _ _ _ _ _ _ Hw Hr H) as (br' & -> & Hbr). rewrite bind_ok. inv E.
  destruct (F2_get_u _ _ _ _ _ Hbr H0) as (tn' & Etn & Htn). rewrite <- (Forall2_length _ _ _ Hbr), Etn, bind_ok. inv E. rewrite H1, bind_ok. inv E.
  rewrite (sim_child_idx _ _ _ _ _ _ _ Hw Htn H2), bind_ok, <- Hk. inv E. rewrite H3, bind_ok. destruct (x4 =? x)%N; [|injection E as <- <-; exists u; split; [done|]; by split_and!].
  inv E. destruct (sim_node_remove _ _ _ _ _ _ _ _ Hw Htn H4) as (w1 & -> & Hw1). rewrite bind_ok. inv E. rewrite (sim_node_len _ _ _ _ _ _ Hw1 Htn H5), bind_ok.
  inv E.
  assert (exists w2, (if decide (x6 = 1) then let* h := drop_node KIdx w1 tn' in let* (h, _) := const_loop_rev 0 (D - 1) (remove_climb_body (d_root u) br' (level_indices 1 D x)) h in Ok h else Ok w1) = Ok w2 /\ wrel ren F x7 w2) as (w2 & -> & Hw2).
  { case_decide; [|injection H6 as <-; eauto]. inv H6. destruct (sim_drop_node _ _ _ _ _ _ _ Hw1 Htn H8) as (w2 & -> & Hw2). rewrite bind_ok. inv H6.
    destruct x9 as [h9 o9]. injection H6 as <-. unfold const_loop_rev in *. case_decide; [|done].
    destruct (sim_loop_rev _ _ _ _ _ _ _ _ _ _ _ _ _ Hw2 Hr Hbr H9) as (w3 & -> & Hw3). rewrite bind_ok. eauto. }
  rewrite bind_ok. inv E. destruct x8 as [keys lk]. rewrite H7, bind_ok. cbn beta iota in *. inv E. destruct x8 as [keys2 h8]. cbn beta iota in *.
  assert (exists w3, (if decide (lk <> x) then let* keys := set_u keys (N.to_nat x3) lk in
        let* (node, inner_index) := get_terminal_node D (d_root u) w2 (level_indices 1 D lk) in
        let* h := set_child KIdx w2 node inner_index (SIdx (x3 mod 2 ^ 32)) in Ok (keys, h) else Ok (keys, w2)) = Ok (keys2, w3) /\ wrel ren F h8 w3) as (w3 & -> & Hw3).
  { case_decide; [|injection H8 as <- <-; eauto]. inv H8. rewrite H10, bind_ok. inv H8. destruct x9 as [nd ii]. cbn beta iota in *.
    destruct (sim_terminal _ _ _ _ _ _ _ _ _ Hw2 Hr H11) as (nd' & -> & Hnd). rewrite bind_ok. cbn beta iota. inv H8.
    destruct (sim_set_child KIdx ren x7 w2 nd nd' ii (SIdx (x3 mod 2 ^ 32)) (SIdx (x3 mod 2 ^ 32)) x9 Hw2 Hnd eq_refl H12) as (w3 & -> & Hw3). rewrite bind_ok. injection H8 as <- <-. eauto. }
  rewrite bind_ok, <- Hd. cbn beta iota. inv E. destruct x8 as [data value]. rewrite H9, bind_ok. cbn beta iota in *. inv E. rewrite H10, bind_ok. injection E as <- <-.
  eexists. split; [done|]. by split_and!.
Qed.
Lemma sim_drop {V} D ren (t u : dense V) h' dr : drel ren t u -> dense_drop D t = Ok (h', dr) ->
  exists w', dense_drop D u = Ok (w', dr) /\ wrel ren F h' w'.
Proof.
  intros (Hr & Hw & Hd & Hk) E. unfold dense_drop in *. rewrite <- Hd. inv E. rewrite H, bind_ok. inv E. rewrite H0, bind_ok. inv E.
  destruct (sim_drop_childs _ _ _ _ _ _ _ Hw Hr H1) as (w' & -> & Hw'). rewrite bind_ok. injection E as <- <-. eauto.
Qed.
Lemma sim_data {V} D ren (t u : dense V) k ix o : drel ren t u -> dense_data D t k ix = Ok o -> dense_data D u k ix = Ok o.
Proof.
  intros (Hr & Hw & Hd & Hk) E. unfold dense_data in *. rewrite <- Hd, <- Hk. inv E. destruct x as [nd i]. cbn beta iota in *.
  destruct (sim_terminal _ _ _ _ _ _ _ _ _ Hw Hr H) as (nd' & -> & Hnd). rewrite bind_ok. cbn beta iota. inv E. rewrite (sim_child_idx _ _ _ _ _ _ _ Hw Hnd H0), bind_ok. done.
Qed.
Lemma sim_default {V} D h w t : wrel ∅ F h w -> h = heap_empty -> dense_default V D = Ok t ->
  exists ren u, wdense_default al V D w = Ok u /\ drel ren t u.
Proof.
  intros Hw -> E. unfold dense_default, wdense_default in *. inv E. destruct x as [h root]. injection E as <-.
  assert (exists ren1 w1 root', (if decide (D = 1) then wnode_new al KIdx w DEFAULT_CAP (SIdx 0)
      else let* e := empty_node 1 D in wnode_new al KPtr w DEFAULT_CAP (SPtr e)) = Ok (w1, root') /\ ∅ ⊆ ren1 /\ wrel ren1 F h w1 /\ prel ren1 root root')
      as (ren1 & w1 & root' & -> & Hs1 & Hw1 & Hc1).
  { case_decide.
    - eapply sim_node_new; [done| |exact H]. done.
    - inv H. rewrite H1, bind_ok. eapply sim_node_new; [done| |exact H]. cbn. unfold empty_node in H1. repeat (case_decide; [|done]). injection H1 as <-. done. }
  rewrite bind_ok. eexists ren1, _. split; [done|]. by split_and!.
Qed.
End fns.
