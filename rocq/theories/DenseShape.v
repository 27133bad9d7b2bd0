(** * DenseTree: heap shape invariant (ghost map from paths to node addresses) *)
From Verif Require Import Base BitUtils BitUtilsProofs BitQueue LevelIndices LevelIndicesProofs
  ConstLoops Hierarchy Lawful Dense DenseNode.

(** ** node operations on the heap *)
Definition heap_ok (h : heap) : Prop := forall a, is_Some (h_nodes h !! a) -> (a < h_next h)%N.
Lemma heap_fresh h : heap_ok h -> h_nodes h !! h_next h = None.
Proof. intros H. destruct (h_nodes h !! h_next h) eqn:E; [|done]. pose proof (H _ (mk_is_Some _ _ E)). lia. Qed.

Lemma node_new_ok k h e : node_new k h DEFAULT_CAP e =
  Ok (Heap (<[h_next h := Node k 0 DEFAULT_CAP 1 [e; SUninit]]> (h_nodes h)) (N.succ (h_next h)), PHeap (h_next h)).
Proof. reflexivity. Qed.

Lemma reserve_ok k h a n g e i : heap_ok h -> h_nodes h !! a = Some n -> node_rep n g e -> n_kind n = k ->
  (i < 64)%N -> g i = None ->
  exists a' nx n', node_reserve k h (PHeap a) = Ok (Heap (<[a' := n']> (delete a (h_nodes h))) nx, PHeap a') /\
    node_rep n' g e /\ n_kind n' = k /\ n_len n' < n_cap n' /\
    (a' = a /\ nx = h_next h \/ a' = h_next h /\ nx = N.succ (h_next h)).
Proof.
  intros Hh Hn Hr Hk Hi Hg. unfold node_reserve. rewrite (hread_heap _ _ _ Hn), bind_ok.
  pose proof (nr_word _ _ _ Hr) as Hw. pose proof (nr_len _ _ _ Hr) as Hl.
  pose proof (nr_cap _ _ _ Hr) as Hc. pose proof (nr_len_le _ _ _ Hr) as Hlc.
  pose proof (proj2 (nr_bit_false _ _ _ i Hr) Hg) as Hb.
  destruct (decide (n_len n = n_cap n)) as [He|Hne].
  - assert (popcount (n_mask n) < 64) as Hp.
    { destruct (decide (popcount (n_mask n) = 64)) as [E|]; [|pose proof (popcount_le _ Hw); lia].
      rewrite popcount_word in E by done. pose proof (cnt_full _ _ E i ltac:(lia)). congruence. }
    assert (u8_ok (n_cap n * 2) = true) as -> by (apply bool_decide_eq_true; lia).
    unfold hrealloc. rewrite (hread_heap _ _ _ Hn), bind_ok. cbn [hdealloc]. rewrite Hn.
    rewrite decide_True by (split; [done|by rewrite Hc]). rewrite bind_ok. unfold halloc. rewrite bind_ok.
    cbn [h_nodes h_next hread]. rewrite lookup_insert, bind_ok. cbn [hwrite h_nodes h_next].
    rewrite lookup_insert, bind_ok. cbn [n_kind n_mask n_cap n_len n_slots].
    rewrite insert_insert.
    set (slots := take _ _).
    assert (length (n_slots n ++ replicate (n_cap n * 2 - length (n_slots n)) SUninit) = n_cap n * 2) as Hlen1
      by (rewrite app_length, replicate_length; lia).
    assert (slots = n_slots n ++ replicate (n_cap n * 2 - length (n_slots n)) SUninit) as Hsl
      by (unfold slots; apply take_ge; lia).
    eexists _, _, _. split; [reflexivity|]. split_and!; cbn [n_kind n_mask n_cap n_len n_slots]; [|done|lia|by right].
    destruct Hr as [H1 H2 H3 H4 H5 H6 H7].
    constructor; cbn [n_kind n_mask n_cap n_len n_slots]; try done.
    + intros j s Hs. specialize (H3 j s Hs). rewrite Hsl. by apply lookup_app_l_Some.
    + rewrite Hsl. by apply lookup_app_l_Some.
    + rewrite Hsl. lia.
    + lia.
  - exists a, (h_next h), n. rewrite insert_delete_insert, insert_id by done. destruct h as [hn hx]; cbn [h_nodes h_next].
    split; [done|]. split_and!; [done..|lia|by left].
Qed.

Lemma node_insert_ok k h a n g e i s : heap_ok h -> h_nodes h !! a = Some n -> node_rep n g e -> n_kind n = k ->
  (i < 64)%N -> g i = None ->
  exists a' nx n', node_insert k h (PHeap a) i s =
      Ok (Heap (<[a' := n']> (delete a (h_nodes h))) nx, rank (n_mask n') i, PHeap a') /\
    node_rep n' (fn_upd g i (Some s)) e /\ n_kind n' = k /\
    (a' = a /\ nx = h_next h \/ a' = h_next h /\ nx = N.succ (h_next h)).
Proof.
  intros Hh Hn Hr Hk Hi Hg. unfold node_insert.
  destruct (reserve_ok _ _ _ _ _ _ i Hh Hn Hr Hk Hi Hg) as (a' & nx & n' & -> & Hr' & Hk' & Hlt & Hor).
  rewrite bind_ok. cbn [hread h_nodes]. rewrite lookup_insert, bind_ok.
  destruct (nr_insert _ _ _ i s k Hr' Hk' Hi Hg Hlt) as (m & slots & -> & Hdi & Hrk & Hsub & Hcp & Hsl & Hu & Hrep).
  rewrite bind_ok, Hdi, bind_ok, decide_True by done. rewrite Hsub, bind_ok, Hcp, bind_ok, set_u_ok by done.
  rewrite bind_ok, Hu. cbn [hwrite h_nodes h_next]. rewrite lookup_insert, bind_ok, insert_insert.
  eexists a', nx, (Node (n_kind n') m (n_cap n') (n_len n' + 1) (<[rank m i := s]> slots)).
  split; [reflexivity|]. split; [by rewrite Hk'|]. done.
Qed.

Lemma node_remove_ok k h a n g e i s : h_nodes h !! a = Some n -> node_rep n g e -> n_kind n = k ->
  g i = Some s ->
  exists n', node_remove k h (PHeap a) i = Ok (Heap (<[a := n']> (h_nodes h)) (h_next h)) /\
    node_rep n' (fn_upd g i None) e /\ n_kind n' = k.
Proof.
  intros Hn Hr Hk Hg. unfold node_remove. rewrite (hread_heap _ _ _ Hn), bind_ok.
  destruct (nr_remove _ _ _ i s k Hr Hk Hg) as (m & slots & -> & -> & Hsub & Hcp & Hsub1 & Hrep).
  rewrite !bind_ok, decide_True by done. rewrite Hsub, bind_ok, Hcp, bind_ok, Hsub1, bind_ok.
  rewrite (hwrite_heap _ _ _ _ Hn). eexists. split; [done|]. rewrite Hk. done.
Qed.
Lemma set_child_ok k h a n g e i s s' : h_nodes h !! a = Some n -> node_rep n g e -> n_kind n = k ->
  g i = Some s ->
  exists n', set_child k h (PHeap a) i s' = Ok (Heap (<[a := n']> (h_nodes h)) (h_next h)) /\
    node_rep n' (fn_upd g i (Some s')) e /\ n_kind n' = k.
Proof.
  intros Hn Hr Hk Hg. unfold set_child. rewrite (hread_heap _ _ _ Hn), bind_ok.
  rewrite dense_index_ok, bind_ok, decide_True by (done || apply (nr_word _ _ _ Hr) || by eapply nr_bound).
  pose proof (lookup_lt_Some _ _ _ (nr_child _ _ _ Hr _ _ Hg)) as Hlt.
  rewrite set_u_ok, bind_ok by done. rewrite (hwrite_heap _ _ _ _ Hn).
  eexists. split; [done|]. split; [|done]. by eapply nr_write.
Qed.
Lemma drop_node_ok k h a n g e : h_nodes h !! a = Some n -> node_rep n g e -> n_kind n = k ->
  drop_node k h (PHeap a) = Ok (Heap (delete a (h_nodes h)) (h_next h)).
Proof.
  intros Hn Hr Hk. unfold drop_node. cbn [hdealloc]. rewrite Hn, decide_True; [done|].
  split; [done|apply (nr_cap _ _ _ Hr)].
Qed.

(** ** Shape *)
Section shape.
Context (D : nat).

Definition kind_at (l : nat) : kind := if decide (S l < D) then KPtr else KIdx.
Definition empty_at (l : nat) : slot := if decide (S l < D) then SPtr (PStatic (9 - D + S l)) else SIdx 0.

(** [X] overrides the child recorded in the parent of one path (used only between the
    individual steps of an operation). *)
Definition override := option (list N * option slot).
Definition childs0 (P J : gmap (list N) N) (p : list N) (i : N) : option slot :=
  if decide (S (length p) < D) then (fun a => SPtr (PHeap a)) <$> P !! (p ++ [i])
  else SIdx <$> J !! (p ++ [i]).
Definition childs (P J : gmap (list N) N) (X : override) (p : list N) (i : N) : option slot :=
  match X with
  | Some (x, o) => if decide (p ++ [i] = x) then o else childs0 P J p i
  | None => childs0 P J p i
  end.

Record shape (h : heap) (root : ptr) (P J : gmap (list N) N) (X : override) : Prop := Shape {
  sh_root : exists a, root = PHeap a /\ P !! [] = Some a;
  sh_heap : heap_ok h;
  sh_node : forall p a, P !! p = Some a -> exists n, h_nodes h !! a = Some n /\
    n_kind n = kind_at (length p) /\ node_rep n (childs P J X p) (empty_at (length p));
  sh_inj : forall p q a, P !! p = Some a -> P !! q = Some a -> p = q;
  sh_path : forall p a, P !! p = Some a -> path_ok 1 (length p) p /\ length p < D;
  sh_parent : forall p i a, P !! (p ++ [i]) = Some a -> is_Some (P !! p);
  sh_jpath : forall q j, J !! q = Some j -> path_ok 1 D q /\ exists p i, q = p ++ [i] /\ is_Some (P !! p);
  sh_dom : forall a, is_Some (h_nodes h !! a) -> exists p, P !! p = Some a;
}.

(** every node other than the root has a child, except possibly those whose path satisfies [R] *)
Definition exact (R : list N -> Prop) (P J : gmap (list N) N) (X : override) : Prop :=
  forall p, p <> [] -> is_Some (P !! p) -> R p \/ exists i, is_Some (childs P J X p i).

Lemma app_one_inj {A} (p q : list A) i j : p ++ [i] = q ++ [j] -> p = q /\ i = j.
Proof. apply app_inj_tail. Qed.
Lemma app_one_ne {A} (p : list A) i : p ++ [i] <> p.
Proof. intros H. apply (f_equal length) in H. rewrite app_length in H. cbn in H. lia. Qed.

Lemma sh_prefix h root P J X p q a : shape h root P J X -> P !! (p ++ q) = Some a -> is_Some (P !! p).
Proof.
  intros Sh. revert a. induction q as [|i q IH] using rev_ind; intros a Ha; [rewrite app_nil_r in Ha; eauto|].
  rewrite app_assoc in Ha. destruct (sh_parent _ _ _ _ _ Sh _ _ _ Ha) as [b Hb]. eauto.
Qed.

(** where the pointer to node [p] is stored *)
Definition loc_ok (h : heap) (P : gmap (list N) N) (p : list N) (l : loc) : Prop :=
  p = [] /\ l = LRoot \/
  exists q i aq n, p = q ++ [i] /\ P !! q = Some aq /\ h_nodes h !! aq = Some n /\
    l = LSlot (PHeap aq) (rank (n_mask n) i).
Lemma loc_read_ok h root P J X p l a : shape h root P J X -> loc_ok h P p l -> P !! p = Some a ->
  (forall x o, X = Some (x, o) -> x <> p) ->
  loc_read root h l = Ok (PHeap a).
Proof.
  intros Sh [[-> ->]|(q & i & aq & n & -> & Hq & Hn & ->)] Ha HX.
  - destruct (sh_root _ _ _ _ _ Sh) as (a' & -> & Ha'). cbn. congruence.
  - cbn [loc_read]. rewrite (hread_heap _ _ _ Hn), bind_ok.
    destruct (sh_node _ _ _ _ _ Sh _ _ Hq) as (n0 & Hn0 & Hk & Hr). rewrite Hn in Hn0. injection Hn0 as <-.
    destruct (sh_path _ _ _ _ _ Sh _ _ Ha) as [_ Hlt]. rewrite app_length in Hlt. cbn in Hlt.
    unfold kind_at in Hk. rewrite decide_True in Hk by lia. rewrite Hk, decide_True by done.
    assert (childs P J X q i = Some (SPtr (PHeap a))) as Hc.
    { unfold childs, childs0. destruct X as [[x o]|].
      - destruct (decide (q ++ [i] = x)) as [<-|]; [by destruct (HX _ _ eq_refl)|].
        rewrite decide_True by lia. by rewrite Ha.
      - rewrite decide_True by lia. by rewrite Ha. }
    rewrite (get_u_ok _ _ _ (nr_child _ _ _ Hr _ _ Hc)). done.
Qed.

Lemma childs_insert_other P J X r i p a' : r <> p -> r ++ [i] <> p ->
  childs (<[p := a']> P) J X r i = childs P J X r i.
Proof. intros H1 H2. unfold childs, childs0. rewrite lookup_insert_ne by done. done. Qed.
Lemma childs_insert_self P J X p a' i : childs (<[p := a']> P) J X p i = childs P J X p i.
Proof. unfold childs, childs0. rewrite lookup_insert_ne by (intros H; symmetry in H; by apply app_one_ne in H). done. Qed.

(** [n'] (moved from [a] to [a']) replaces the node at [p]; the pointer to it is
    updated in its parent (or the root field). *)
Lemma relocate h root P J X J' p a l n' a' nx :
  shape h root P J X -> P !! p = Some a -> loc_ok h P p l -> (forall x o, X = Some (x, o) -> x <> p) ->
  (a' = a /\ nx = h_next h \/ a' = h_next h /\ nx = N.succ (h_next h)) ->
  n_kind n' = kind_at (length p) ->
  node_rep n' (childs P J' None p) (empty_at (length p)) ->
  (forall r i, r <> p -> childs P J X r i = childs P J' None r i) ->
  (forall q j, J' !! q = Some j -> path_ok 1 D q /\ exists p i, q = p ++ [i] /\ is_Some (P !! p)) ->
  exists root' h', loc_write root (Heap (<[a' := n']> (delete a (h_nodes h))) nx) l (PHeap a') = Ok (root', h') /\
    shape h' root' (<[p := a']> P) J' None /\ h_nodes h' !! a' = Some n' /\ (h_next h <= h_next h')%N.
Proof.
  intros Sh Ha Hl HX Hor Hk Hr Hother HJ'.
  assert (a' <> a -> h_nodes h !! a' = None) as Hfresh.
  { intros Hne. destruct Hor as [[-> _]|[-> _]]; [done|]. apply heap_fresh, (sh_heap _ _ _ _ _ Sh). }
  assert (forall r b, P !! r = Some b -> r <> p -> b <> a /\ b <> a') as Hdis.
  { intros r b Hb Hne. assert (b <> a) as Hba by (intros ->; apply Hne; by eapply (sh_inj _ _ _ _ _ Sh)).
    split; [done|]. intros ->. destruct (sh_node _ _ _ _ _ Sh _ _ Hb) as (n0 & Hn0 & _). rewrite Hfresh in Hn0; done. }
  assert (heap_ok (Heap (<[a' := n']> (delete a (h_nodes h))) nx)) as Hhok.
  { intros b. cbn [h_nodes h_next]. rewrite lookup_insert_is_Some, lookup_delete_is_Some.
    destruct (sh_node _ _ _ _ _ Sh _ _ Ha) as (n0 & Hn0 & _).
    pose proof (sh_heap _ _ _ _ _ Sh a ltac:(eauto)). pose proof (sh_heap _ _ _ _ _ Sh b).
    intros [<-|(_ & _ & Hb)]; [|specialize (H0 Hb)]; destruct Hor as [[-> ->]|[-> ->]]; lia. }
  (* the pure statement about the final node map *)
  assert (forall nodes' root', 
     (forall b, is_Some (nodes' !! b) <-> is_Some ((<[a' := n']> (delete a (h_nodes h))) !! b)) ->
     nodes' !! a' = Some n' ->
     (exists a0, root' = PHeap a0 /\ <[p := a']> P !! [] = Some a0) ->
     (forall r b, P !! r = Some b -> r <> p -> exists n, nodes' !! b = Some n /\ n_kind n = kind_at (length r) /\
        node_rep n (childs (<[p:=a']> P) J' None r) (empty_at (length r))) ->
     shape (Heap nodes' nx) root' (<[p := a']> P) J' None) as Hpure.
  { intros nodes' root' Hdom Hself Hroot Hoth. constructor; cbn [h_nodes h_next].
    - done.
    - intros b Hb. cbn [h_nodes h_next] in *. apply Hhok. cbn [h_nodes]. by apply Hdom.
    - intros r b. destruct (decide (r = p)) as [->|Hne].
      + rewrite lookup_insert. intros [= <-]. exists n'. split_and!; [done..|].
        eapply node_rep_ext; [|exact Hr]. intros i. by rewrite childs_insert_self.
      + rewrite lookup_insert_ne by done. intros Hb. by apply Hoth.
    - intros r s b. destruct (decide (r = p)) as [->|Hr1], (decide (s = p)) as [->|Hr2]; 
        rewrite ?lookup_insert, ?lookup_insert_ne by done; intros H1 H2; try done.
      + injection H1 as <-. destruct (Hdis _ _ H2 Hr2). done.
      + injection H2 as <-. destruct (Hdis _ _ H1 Hr1). done.
      + by eapply (sh_inj _ _ _ _ _ Sh).
    - intros r b. destruct (decide (r = p)) as [->|Hne].
      + intros _. by apply (sh_path _ _ _ _ _ Sh _ a).
      + rewrite lookup_insert_ne by done. apply (sh_path _ _ _ _ _ Sh).
    - intros r i b Hb. apply lookup_insert_is_Some'. destruct (decide (p = r)); [by left|right].
      destruct (decide (p = r ++ [i])) as [->|Hne].
      + by apply (sh_parent _ _ _ _ _ Sh _ i a).
      + rewrite lookup_insert_ne in Hb by done. by apply (sh_parent _ _ _ _ _ Sh _ i b).
    - intros q j Hj. destruct (HJ' q j Hj) as (Hq & r & i & -> & Hr'). split; [done|]. exists r, i. split; [done|].
      apply lookup_insert_is_Some'. by right.
    - intros b Hb. apply Hdom in Hb. rewrite lookup_insert_is_Some, lookup_delete_is_Some in Hb.
      destruct Hb as [<-|(Hne & Hne' & Hb)]; [exists p; by rewrite lookup_insert|].
      destruct (sh_dom _ _ _ _ _ Sh b Hb) as [r Hr'].
      assert (r <> p) by (intros ->; congruence). exists r. by rewrite lookup_insert_ne. }
  destruct Hl as [[-> ->]|(q & i & aq & n & -> & Hq & Hn & ->)].
  - (* root *)
    cbn [loc_write]. eexists _, _. split; [done|]. split; [|split].
    + apply Hpure; [done|by rewrite lookup_insert|exists a'; by rewrite lookup_insert|].
      intros r b Hb Hne. destruct (Hdis _ _ Hb Hne). destruct (sh_node _ _ _ _ _ Sh _ _ Hb) as (n & Hn & Hk' & Hr').
      exists n. rewrite lookup_insert_ne, lookup_delete_ne by done. split_and!; [done..|].
      eapply node_rep_ext; [|exact Hr']. intros i. rewrite childs_insert_other; [by apply Hother|done|].
      intros E. by apply app_nil in E as [_ ?].
    + cbn [h_nodes]. by rewrite lookup_insert.
    + cbn [h_next]. destruct Hor as [[_ ->]|[_ ->]]; lia.
  - (* slot of the parent *)
    assert (q <> q ++ [i]) as Hqne by (intros E; symmetry in E; by apply app_one_ne in E).
    destruct (Hdis _ _ Hq Hqne) as [Hd1 Hd2].
    destruct (sh_node _ _ _ _ _ Sh _ _ Hq) as (n0 & Hn0 & Hk' & Hr'). rewrite Hn in Hn0. injection Hn0 as <-.
    destruct (sh_path _ _ _ _ _ Sh _ _ Ha) as [_ Hlt]. rewrite app_length in Hlt. cbn in Hlt.
    assert (kind_at (length q) = KPtr) as Hkq by (unfold kind_at; rewrite decide_True by lia; done).
    assert (childs P J X q i = Some (SPtr (PHeap a))) as Hc.
    { rewrite Hother by done. unfold childs, childs0. rewrite decide_True by lia. by rewrite Ha. }
    cbn [loc_write hread h_nodes]. rewrite lookup_insert_ne, lookup_delete_ne, Hn, bind_ok by done.
    rewrite Hk', Hkq, decide_True by done.
    pose proof (lookup_lt_Some _ _ _ (nr_child _ _ _ Hr' _ _ Hc)) as Hlt'.
    rewrite set_u_ok, bind_ok by done. cbn [hwrite h_nodes h_next].
    rewrite lookup_insert_ne, lookup_delete_ne, Hn, bind_ok by done.
    eexists _, _. split; [done|]. split; [|split].
    + apply Hpure.
      * intros b. destruct (decide (b = aq)) as [->|Hne].
        -- rewrite lookup_insert. rewrite lookup_insert_ne, lookup_delete_ne, Hn by done. split; eauto.
        -- rewrite lookup_insert_ne by done. done.
      * rewrite lookup_insert_ne by done. by rewrite lookup_insert.
      * destruct (sh_root _ _ _ _ _ Sh) as (ar & -> & Har). exists ar. split; [done|].
        rewrite lookup_insert_ne; [done|]. intros E. by apply app_nil in E as [_ ?].
      * intros r b Hb Hne. destruct (decide (r = q)) as [->|Hnq].
        -- rewrite Hq in Hb. injection Hb as <-. rewrite lookup_insert. eexists. split; [done|]. split; [done|].
           eapply node_rep_ext; [|rewrite <- Hkq, <- Hk'; exact (nr_write _ _ _ _ _ (SPtr (PHeap a')) Hr' Hc)].
           intros j. unfold fn_upd. destruct (N.eqb_spec j i) as [->|Hji].
           ++ unfold childs, childs0. rewrite decide_True by lia. by rewrite lookup_insert.
           ++ rewrite childs_insert_other; [by apply Hother|done|]. intros [_ ?]%app_one_inj. done.
        -- destruct (Hdis _ _ Hb Hne). destruct (sh_node _ _ _ _ _ Sh _ _ Hb) as (nr & Hnr & Hkr & Hrr).
           assert (b <> aq) by (intros ->; apply Hnq; by eapply (sh_inj _ _ _ _ _ Sh)).
           exists nr. rewrite lookup_insert_ne, lookup_insert_ne, lookup_delete_ne by done. split_and!; [done..|].
           eapply node_rep_ext; [|exact Hrr]. intros j. rewrite childs_insert_other; [by apply Hother|done|].
           intros [? _]%app_one_inj. done.
    + cbn [h_nodes]. rewrite lookup_insert_ne by done. by rewrite lookup_insert.
    + cbn [h_next]. destruct Hor as [[_ ->]|[_ ->]]; lia.
Qed.

Lemma childs_no_node P J p : P !! p = None ->
  (forall r i a, P !! (r ++ [i]) = Some a -> is_Some (P !! r)) ->
  (forall q j, J !! q = Some j -> path_ok 1 D q /\ exists p i, q = p ++ [i] /\ is_Some (P !! p)) ->
  forall i, childs0 P J p i = None.
Proof.
  intros Hp Hpar HJ i. unfold childs0. destruct (decide (S (length p) < D)).
  - destruct (P !! (p ++ [i])) as [a|] eqn:E; [|done]. apply Hpar in E as [? ?]. congruence.
  - destruct (J !! (p ++ [i])) as [a|] eqn:E; [|done]. apply HJ in E as (_ & r & j & E & [? ?]).
    apply app_one_inj in E as [<- _]. congruence.
Qed.

(** a fresh, not yet linked child node *)
Lemma shape_alloc h root P J p a i : shape h root P J None -> P !! p = Some a -> S (length p) < D -> (i < 64)%N ->
  P !! (p ++ [i]) = None ->
  exists h', node_new (kind_at (S (length p))) h DEFAULT_CAP (empty_at (S (length p))) = Ok (h', PHeap (h_next h)) /\
    shape h' root (<[p ++ [i] := h_next h]> P) J (Some (p ++ [i], None)) /\
    (forall b, is_Some (h_nodes h !! b) -> h_nodes h' !! b = h_nodes h !! b).
Proof.
  intros Sh Ha Hlt Hi Hnone. rewrite node_new_ok. eexists. split; [done|].
  pose proof (heap_fresh _ (sh_heap _ _ _ _ _ Sh)) as Hfresh.
  assert (forall r b, P !! r = Some b -> b <> h_next h) as Hne.
  { intros r b Hb ->. destruct (sh_node _ _ _ _ _ Sh _ _ Hb) as (n & Hn & _). congruence. }
  split; [constructor; cbn [h_nodes h_next]|].
  - destruct (sh_root _ _ _ _ _ Sh) as (ar & -> & Har). exists ar. split; [done|].
    rewrite lookup_insert_ne; [done|]. intros E. by apply app_nil in E as [_ ?].
  - intros b. cbn [h_nodes h_next]. rewrite lookup_insert_is_Some. intros [<-|[_ Hb]]; [lia|].
    apply (sh_heap _ _ _ _ _ Sh) in Hb. lia.
  - intros r b. destruct (decide (r = p ++ [i])) as [->|Hr].
    + rewrite lookup_insert. intros [= <-]. rewrite lookup_insert. eexists. split; [done|]. cbn [n_kind].
      rewrite app_length. cbn [length]. replace (length p + 1) with (S (length p)) by lia. split; [done|].
      eapply node_rep_ext; [|apply nr_new]. intros j. cbn.
      rewrite decide_False by apply app_one_ne. unfold childs0.
      pose proof (childs_no_node P J _ Hnone (sh_parent _ _ _ _ _ Sh) (sh_jpath _ _ _ _ _ Sh) j) as Hc.
      unfold childs0 in Hc. rewrite lookup_insert_ne; [done|]. intros E. symmetry in E. by apply app_one_ne in E.
    + rewrite lookup_insert_ne by done. intros Hb. destruct (sh_node _ _ _ _ _ Sh _ _ Hb) as (n & Hn & Hk & Hr').
      exists n. rewrite lookup_insert_ne by (intros <-; by apply (Hne _ _ Hb)). split_and!; [done..|].
      eapply node_rep_ext; [|exact Hr']. intros j. cbn. destruct (decide (r ++ [j] = p ++ [i])) as [E|E].
      * unfold childs0. rewrite E, Hnone. apply app_one_inj in E as [-> ->]. by rewrite decide_True.
      * unfold childs0. by rewrite lookup_insert_ne.
  - intros r s b. destruct (decide (r = p ++ [i])) as [->|Hr1], (decide (s = p ++ [i])) as [->|Hr2]; 
        rewrite ?lookup_insert, ?lookup_insert_ne by done; intros H1 H2; try done.
    + injection H1 as <-. by apply Hne in H2.
    + injection H2 as <-. by apply Hne in H1.
    + by eapply (sh_inj _ _ _ _ _ Sh).
  - intros r b. destruct (decide (r = p ++ [i])) as [->|Hne'].
    + intros _. rewrite app_length. cbn [length]. destruct (sh_path _ _ _ _ _ Sh _ _ Ha) as [Hp _].
      split; [|lia]. replace (length p + 1) with (S (length p)) by lia. by apply path_ok_snoc.
    + rewrite lookup_insert_ne by done. apply (sh_path _ _ _ _ _ Sh).
  - intros r j b Hb. apply lookup_insert_is_Some'. right. destruct (decide (r ++ [j] = p ++ [i])) as [E|Hne'].
    + apply app_one_inj in E as [-> ->]. eauto.
    + rewrite lookup_insert_ne in Hb by done. by eapply (sh_parent _ _ _ _ _ Sh).
  - intros q j Hj. destruct (sh_jpath _ _ _ _ _ Sh _ _ Hj) as (Hq & r & k & -> & Hr). split; [done|].
    exists r, k. split; [done|]. apply lookup_insert_is_Some'. by right.
  - intros b. rewrite lookup_insert_is_Some. intros [<-|[Hb1 Hb]]; [exists (p ++ [i]); by rewrite lookup_insert|].
    destruct (sh_dom _ _ _ _ _ Sh _ Hb) as [r Hr]. exists r. rewrite lookup_insert_ne; [done|].
    intros <-. congruence.
  - intros b Hb. cbn [h_nodes]. rewrite lookup_insert_ne; [done|]. intros <-. rewrite Hfresh in Hb. by destruct Hb.
Qed.

(** nodes only get added, and only on the way to [q] *)
Definition grows (P P' : gmap (list N) N) (q : list N) : Prop :=
  (forall r, is_Some (P !! r) -> is_Some (P' !! r)) /\
  (forall r, is_Some (P' !! r) -> is_Some (P !! r) \/ r `prefix_of` q).

Hypothesis HD : D <= 9.

Lemma goi_step h root P J p a l q i n : shape h root P J None -> loc_ok h P p l -> P !! p = Some a ->
  length p = n -> S n < D -> p ++ [i] `prefix_of` q -> (i < 64)%N -> q !! n = Some i ->
  exists root' h' l' P' a', goi_body D q (root, h, l) n = Ok ((root', h', l'), None) /\
    shape h' root' P' J None /\ loc_ok h' P' (p ++ [i]) l' /\ P' !! (p ++ [i]) = Some a' /\ grows P P' q.
Proof.
  intros Sh Hl Ha Hn HnD Hpre Hi Hqi. unfold goi_body. unfold get_c. rewrite Hqi, bind_ok.
  rewrite (loc_read_ok _ _ _ _ _ _ _ _ Sh Hl Ha) by done. rewrite bind_ok.
  destruct (sh_node _ _ _ _ _ Sh _ _ Ha) as (nd & Hnd & Hk & Hr).
  assert (kind_at (length p) = KPtr) as Hkp by (unfold kind_at; rewrite decide_True by lia; done). rewrite Hkp in Hk.
  rewrite (contains_ok _ _ _ _ _ Hnd Hr) by done. rewrite bind_ok.
  assert (childs P J None p i = (fun a => SPtr (PHeap a)) <$> P !! (p ++ [i])) as Hc
    by (cbn; unfold childs0; rewrite decide_True by lia; done).
  destruct (P !! (p ++ [i])) as [b|] eqn:Eb; cbn [fmap option_fmap option_map] in Hc.
  - rewrite bool_decide_true by (rewrite Hc; eauto). rewrite (hread_heap _ _ _ Hnd), bind_ok.
    rewrite dense_index_ok, bind_ok by (done || apply (nr_word _ _ _ Hr)).
    unfold child_ptr. rewrite (get_child_present _ _ _ _ _ Hnd Hr _ _ _ Hk Hc). cbn [rbind as_ptr].
    eexists _, _, _, P, b. split; [reflexivity|]. split; [done|]. split; [|split; [done|]].
    + right. exists p, i, a, nd. done.
    + split; [done|by left].
  - rewrite bool_decide_false by (rewrite Hc; by intros [? ?]).
    destruct (shape_alloc _ _ _ _ _ _ i Sh Ha ltac:(lia) Hi Eb) as (h1 & Hnew & Sh1 & Hsame).
    assert ((if decide (n = D - 2) then node_new KIdx h DEFAULT_CAP (SIdx 0)
             else let* e := empty_node (n + 2) D in node_new KPtr h DEFAULT_CAP (SPtr e))
            = Ok (h1, PHeap (h_next h))) as ->.
    { rewrite <- Hnew. unfold kind_at, empty_at. rewrite Hn. destruct (decide (n = D - 2)).
      - by rewrite !decide_False by lia.
      - rewrite !decide_True by lia. unfold empty_node, EMPTY_LEN. rewrite !decide_True by lia. rewrite bind_ok.
        repeat f_equal. lia. }
    rewrite bind_ok.
    assert (P !! (p ++ [i]) <> Some a) by congruence.
    assert (<[p ++ [i] := h_next h]> P !! p = Some a) as Ha1.
    { rewrite lookup_insert_ne; [done|]. apply app_one_ne. }
    destruct (sh_node _ _ _ _ _ Sh1 _ _ Ha1) as (nd1 & Hnd1 & Hk1 & Hr1). rewrite Hkp in Hk1.
    assert (childs (<[p ++ [i] := h_next h]> P) J (Some (p ++ [i], None)) p i = None) as Hc1.
    { cbn. by rewrite decide_True. }
    destruct (node_insert_ok _ _ _ _ _ _ i (SPtr (PHeap (h_next h))) (sh_heap _ _ _ _ _ Sh1) Hnd1 Hr1 Hk1 Hi Hc1)
      as (a' & nx & n' & -> & Hr' & Hk' & Hor). rewrite bind_ok.
    assert (loc_ok h1 (<[p ++ [i] := h_next h]> P) p l) as Hl1.
    { destruct Hl as [Hl|(r & j & ar & nr & -> & Hr2 & Hn2 & ->)]; [by left|right].
      exists r, j, ar, nr. split; [done|]. split.
      - rewrite lookup_insert_ne; [done|]. intros E. apply (f_equal length) in E. rewrite !app_length in E. cbn in E. lia.
      - split; [|done]. rewrite Hsame; eauto. }
    destruct (relocate _ _ _ _ _ J _ _ _ n' a' nx Sh1 Ha1 Hl1) as (root' & h' & -> & Sh' & Hn' & _).
    + intros x o [= <- <-]. apply app_one_ne.
    + done.
    + by rewrite Hkp.
    + eapply node_rep_ext; [|exact Hr']. intros j. unfold fn_upd. destruct (N.eqb_spec j i) as [->|Hne].
      * cbn. unfold childs0. rewrite decide_True by lia. by rewrite lookup_insert.
      * cbn. rewrite decide_False; [done|]. intros [_ ?]%app_one_inj. done.
    + intros r j Hne. cbn. rewrite decide_False; [done|]. intros [? _]%app_one_inj. done.
    + exact (sh_jpath _ _ _ _ _ Sh1).
    + rewrite bind_ok. eexists _, _, _, _, (h_next h). split; [reflexivity|]. split; [exact Sh'|]. split; [|split].
      * right. exists p, i, a', n'. rewrite lookup_insert. done.
      * rewrite lookup_insert_ne by (intros E; symmetry in E; by apply app_one_ne in E). by rewrite lookup_insert.
      * split.
        -- intros r Hr0. do 2 (apply lookup_insert_is_Some'; right). done.
        -- intros r. rewrite lookup_insert_is_Some', lookup_insert_is_Some'. intros [<-|[<-|?]].
           ++ left. eauto.
           ++ by right.
           ++ by left.
Qed.

Lemma grows_trans P1 P2 P3 q : grows P1 P2 q -> grows P2 P3 q -> grows P1 P3 q.
Proof. intros [A1 A2] [B1 B2]. split; [eauto|]. intros r Hr. destruct (B2 _ Hr); eauto. Qed.
Lemma grows_refl P q : grows P P q.
Proof. split; eauto. Qed.

Lemma take_snoc {A} (q : list A) n i : q !! n = Some i -> take (S n) q = take n q ++ [i].
Proof. apply take_S_r. Qed.

Lemma goi_loop k n h root P J q a l : shape h root P J None -> path_ok 1 D q -> n + k < D ->
  loc_ok h P (take n q) l -> P !! take n q = Some a ->
  exists root' h' l' P' a', visit_list (seq n k) (goi_body D q) (root, h, l) = Ok ((root', h', l'), None) /\
    shape h' root' P' J None /\ loc_ok h' P' (take (n + k) q) l' /\ P' !! take (n + k) q = Some a' /\ grows P P' q.
Proof.
  revert n h root P a l. induction k as [|k IH]; intros n h root P a l Sh Hq Hlt Hl Ha; cbn [seq visit_list].
  - rewrite Nat.add_0_r. eexists _, _, _, P, a. split; [done|]. do 3 (split; [done|]). apply grows_refl.
  - destruct Hq as [Hlen Hq]. destruct (lookup_lt_is_Some_2 q n ltac:(lia)) as [i Hi].
    assert (i < 64)%N as Hi64 by (rewrite Forall_lookup in Hq; apply (Hq _ _ Hi)).
    destruct (goi_step h root P J (take n q) a l q i n Sh Hl Ha) as (root1 & h1 & l1 & P1 & a1 & -> & Sh1 & Hl1 & Ha1 & Hg1); try done.
    + rewrite take_length. lia.
    + lia.
    + rewrite <- take_snoc by done. exists (drop (S n) q). by rewrite take_drop.
    + rewrite bind_ok. rewrite <- take_snoc in Hl1, Ha1 by done.
      destruct (IH (S n) h1 root1 P1 a1 l1 Sh1 (conj Hlen Hq) ltac:(lia) Hl1 Ha1) as (root2 & h2 & l2 & P2 & a2 & -> & Sh2 & Hl2 & Ha2 & Hg2).
      replace (S n + k) with (n + S k) in Hl2, Ha2 by lia.
      eexists _, _, _, P2, a2. split; [done|]. do 3 (split; [done|]). by eapply grows_trans.
Qed.

(** ** Walking down *)
Definition level_ptr (P : gmap (list N) N) (l : nat) (x : ptr) : Prop :=
  (exists p a, P !! p = Some a /\ length p = l /\ x = PHeap a) \/ x = PStatic (9 - D + l).

Lemma static_ptr h l i : S l < D -> (i < 64)%N ->
  child_ptr h (PStatic (9 - D + l)) i = Ok (PStatic (9 - D + S l)).
Proof.
  intros Hl Hi. unfold child_ptr, get_child. cbn [hread]. unfold static_node. rewrite decide_True by lia.
  rewrite bind_ok. cbn [n_mask n_kind n_slots]. rewrite dense_index_ok, bind_ok by (done || apply word_ok_0).
  replace (rank 0 i) with 0; [|symmetry; apply cnt_zero; intros; apply N.bits_0].
  cbn [get_u lookup list_lookup]. rewrite decide_True by done. cbn [rbind as_ptr get_u lookup list_lookup].
  by replace (S (9 - D + l)) with (9 - D + S l) by lia.
Qed.
Lemma static_idx h i : 0 < D -> (i < 64)%N -> child_idx h (PStatic (9 - D + (D - 1))) i = Ok 0%N.
Proof.
  intros HD0 Hi. replace (9 - D + (D - 1)) with 8 by lia. unfold child_idx, get_child. cbn [hread].
  unfold static_node. rewrite decide_False, decide_True by lia. rewrite bind_ok. cbn [n_mask n_kind n_slots].
  rewrite dense_index_ok, bind_ok by (done || apply word_ok_0).
  replace (rank 0 i) with 0; [done|symmetry; apply cnt_zero; intros; apply N.bits_0].
Qed.

Section walk.
Context (h : heap) (root : ptr) (P J : gmap (list N) N).
Hypothesis Sh : shape h root P J None.

Lemma child_ptr_present p i a b : P !! p = Some a -> P !! (p ++ [i]) = Some b ->
  child_ptr h (PHeap a) i = Ok (PHeap b).
Proof.
  intros Ha Hb. destruct (sh_node _ _ _ _ _ Sh _ _ Ha) as (n & Hn & Hk & Hr).
  destruct (sh_path _ _ _ _ _ Sh _ _ Hb) as [_ Hlt]. rewrite app_length in Hlt. cbn in Hlt.
  unfold kind_at in Hk. rewrite decide_True in Hk by lia. unfold child_ptr.
  rewrite (get_child_present _ _ _ _ _ Hn Hr KPtr i (SPtr (PHeap b)) Hk); [done|].
  cbn. unfold childs0. rewrite decide_True by lia. by rewrite Hb.
Qed.
Lemma child_ptr_any l x i : level_ptr P l x -> S l < D -> (i < 64)%N ->
  exists y, child_ptr h x i = Ok y /\ level_ptr P (S l) y.
Proof.
  intros [(p & a & Ha & Hlen & ->)| ->] Hl Hi.
  - destruct (sh_node _ _ _ _ _ Sh _ _ Ha) as (n & Hn & Hk & Hr). unfold kind_at in Hk.
    rewrite decide_True in Hk by lia. unfold child_ptr.
    destruct (get_child_any _ _ _ _ _ Hn Hr KPtr i Hk Hi) as (s & -> & Hs). rewrite bind_ok.
    destruct Hs as [->|[j Hj]].
    + unfold empty_at. rewrite decide_True by lia. cbn. eexists. split; [done|]. right. by rewrite Hlen.
    + cbn in Hj. unfold childs0 in Hj. rewrite decide_True in Hj by lia.
      destruct (P !! (p ++ [j])) as [b|] eqn:Eb; [|done]. cbn in Hj. injection Hj as <-. cbn. eexists. split; [done|].
      left. exists (p ++ [j]), b. rewrite app_length. cbn. split; [done|]. split; [lia|done].
  - rewrite static_ptr by done. eexists. split; [done|]. by right.
Qed.
Lemma child_idx_present p i a j : P !! p = Some a -> S (length p) = D -> J !! (p ++ [i]) = Some j ->
  child_idx h (PHeap a) i = Ok j.
Proof.
  intros Ha HlD Hj. destruct (sh_node _ _ _ _ _ Sh _ _ Ha) as (n & Hn & Hk & Hr).
  unfold kind_at in Hk. rewrite decide_False in Hk by lia. unfold child_idx.
  rewrite (get_child_present _ _ _ _ _ Hn Hr KIdx i (SIdx j) Hk); [done|].
  cbn. unfold childs0. rewrite decide_False by lia. by rewrite Hj.
Qed.
Lemma child_idx_any x i : level_ptr P (D - 1) x -> 0 < D -> (i < 64)%N ->
  exists j, child_idx h x i = Ok j /\ (j = 0%N \/ exists q, J !! q = Some j).
Proof.
  intros [(p & a & Ha & Hlen & ->)| ->] Hl Hi.
  - destruct (sh_node _ _ _ _ _ Sh _ _ Ha) as (n & Hn & Hk & Hr). unfold kind_at in Hk.
    rewrite decide_False in Hk by lia. unfold child_idx.
    destruct (get_child_any _ _ _ _ _ Hn Hr KIdx i Hk Hi) as (s & -> & Hs). rewrite bind_ok.
    destruct Hs as [->|[j Hj]].
    + unfold empty_at. rewrite decide_False by lia. cbn. eexists. split; [done|]. by left.
    + cbn in Hj. unfold childs0 in Hj. rewrite decide_False in Hj by lia.
      destruct (J !! (p ++ [j])) as [b|] eqn:Eb; [|done]. cbn in Hj. injection Hj as <-. cbn. eexists. split; [done|].
      right. eauto.
  - rewrite static_idx by done. eexists. split; [done|]. by left.
Qed.

Lemma branch_any q k n x : path_ok 1 D q -> n + k < D -> level_ptr P n x ->
  exists ys, get_branch_loop h k n q x = Ok ys /\ length ys = k /\
    level_ptr P (n + k) (default x (last ys)).
Proof.
  intros [Hlen Hq]. revert n x. induction k as [|k IH]; intros n x Hk Hx; cbn [get_branch_loop].
  - exists []. rewrite Nat.add_0_r. done.
  - destruct (lookup_lt_is_Some_2 q n ltac:(lia)) as [i Hi].
    assert (i < 64)%N as Hi64 by (rewrite Forall_lookup in Hq; apply (Hq _ _ Hi)).
    unfold get_c. rewrite Hi, bind_ok. destruct (child_ptr_any n x i Hx ltac:(lia) Hi64) as (y & -> & Hy). rewrite bind_ok.
    destruct (IH (S n) y ltac:(lia) Hy) as (ys & -> & Hl & Hlast). rewrite bind_ok. exists (y :: ys).
    split; [done|]. split; [cbn; lia|]. replace (n + S k) with (S n + k) by lia.
    destruct ys as [|z ys]; [done|]. rewrite last_cons_cons.
    destruct (last (z :: ys)) as [w|] eqn:E; [done|by apply last_None in E].
Qed.
Lemma branch_present q k n a t : path_ok 1 D q -> n + k < D -> P !! take n q = Some a ->
  P !! take (n + k) q = Some t ->
  exists bs, get_branch_loop h k n q (PHeap a) = Ok (PHeap <$> bs) /\ length bs = k /\
    forall m b, bs !! m = Some b -> P !! take (n + S m) q = Some b.
Proof.
  intros [Hlen Hq]. revert n a. induction k as [|k IH]; intros n a Hk Ha Ht; cbn [get_branch_loop].
  - exists []. split_and!; [done..|]. intros m b Hm. done.
  - destruct (lookup_lt_is_Some_2 q n ltac:(lia)) as [i Hi]. unfold get_c. rewrite Hi, bind_ok.
    assert (is_Some (P !! take (S n) q)) as [b Hb].
    { eapply (sh_prefix _ _ _ _ _ _ (drop (S n) (take (n + S k) q)) _ Sh).
      replace (take (S n) q) with (take (S n) (take (n + S k) q)); [rewrite take_drop; exact Ht|].
      rewrite take_take. f_equal. lia. }
    rewrite (child_ptr_present (take n q) i a b Ha); [|by rewrite <- take_snoc].
    rewrite bind_ok. replace (n + S k) with (S n + k) in Ht by lia.
    destruct (IH (S n) b ltac:(lia) Hb Ht) as (bs & -> & Hl & Hbs). rewrite bind_ok.
    exists (b :: bs). split; [done|]. split; [cbn; lia|]. intros [|m] c Hm; cbn in Hm.
    + injection Hm as <-. by replace (n + 1) with (S n) by lia.
    + replace (n + S (S m)) with (S n + S m) by lia. by apply Hbs.
Qed.
Lemma terminal_loop_any q k n x : path_ok 1 D q -> n + k < D -> level_ptr P n x ->
  exists y, get_terminal_loop h k n q x = Ok y /\ level_ptr P (n + k) y.
Proof.
  intros [Hlen Hq]. revert n x. induction k as [|k IH]; intros n x Hk Hx; cbn [get_terminal_loop].
  - exists x. by rewrite Nat.add_0_r.
  - destruct (lookup_lt_is_Some_2 q n ltac:(lia)) as [i Hi].
    assert (i < 64)%N as Hi64 by (rewrite Forall_lookup in Hq; apply (Hq _ _ Hi)).
    rewrite (get_u_ok _ _ _ Hi), bind_ok. destruct (child_ptr_any n x i Hx ltac:(lia) Hi64) as (y & -> & Hy).
    rewrite bind_ok. replace (n + S k) with (S n + k) by lia. apply IH; [lia|done].
Qed.
Lemma terminal_loop_present q k n a t : path_ok 1 D q -> n + k < D -> P !! take n q = Some a ->
  P !! take (n + k) q = Some t -> get_terminal_loop h k n q (PHeap a) = Ok (PHeap t).
Proof.
  intros [Hlen Hq]. revert n a. induction k as [|k IH]; intros n a Hk Ha Ht; cbn [get_terminal_loop].
  - rewrite Nat.add_0_r in Ht. congruence.
  - destruct (lookup_lt_is_Some_2 q n ltac:(lia)) as [i Hi]. rewrite (get_u_ok _ _ _ Hi), bind_ok.
    assert (is_Some (P !! take (S n) q)) as [b Hb].
    { eapply (sh_prefix _ _ _ _ _ _ (drop (S n) (take (n + S k) q)) _ Sh).
      replace (take (S n) q) with (take (S n) (take (n + S k) q)); [rewrite take_drop; exact Ht|].
      rewrite take_take. f_equal. lia. }
    rewrite (child_ptr_present (take n q) i a b Ha); [|by rewrite <- take_snoc].
    rewrite bind_ok. replace (n + S k) with (S n + k) in Ht by lia. apply IH; [lia|done|done].
Qed.
End walk.
End shape.
