(** * Materializing: the new DenseTree holds exactly the content of the source *)
From Verif Require Import Base BitUtils BitUtilsProofs BitQueue LevelIndices LevelIndicesProofs
  ConstLoops Hierarchy Lawful IterProofs Dense DenseNode DenseShape DenseProofs DenseRemove DenseTree DenseDrop
  Materialize.

Lemma bind_nil {A B} (f : A -> list B) : [] ≫= f = [].
Proof. done. Qed.
Lemma fold_res_ext {St A} (f g : St -> A -> res St) l s : (forall s x, f s x = g s x) -> fold_res f l s = fold_res g l s.
Proof.
  intros H. revert s. induction l as [|x l IH]; intros s; cbn [fold_res]; [done|]. rewrite H.
  destruct (g s x); cbn [rbind]; [apply IH|done..].
Qed.
Lemma fold_res_app {St A} (f : St -> A -> res St) l1 l2 s :
  fold_res f (l1 ++ l2) s = rbind (fold_res f l1 s) (fold_res f l2).
Proof.
  revert s. induction l1 as [|x l IH]; intros s; cbn [fold_res app]; [done|].
  destruct (f s x); cbn [rbind]; [apply IH|done..].
Qed.
Lemma traverse_m_ok {St} nw m (f : St -> N -> res St) s : mask_ok nw m -> traverse_m m f s = fold_res f (mbits m) s.
Proof.
  intros [_ Hm]. unfold traverse_m. rewrite mask_traverse_ok by done. rewrite bind_ok.
  generalize (mbits m). clear Hm. intros l. revert s. induction l as [|i l IH]; intros s; cbn [visit fold_res]; [done|].
  cbn [rbind]. destruct (f s i) as [s'| | |]; cbn [rbind]; [apply IH|done..].
Qed.

Lemma prefix_up {A} (p q : list A) i : p `prefix_of` q -> p `prefix_of` (q ++ [i]).
Proof. intros [r ->]. exists (r ++ [i]). by rewrite app_assoc. Qed.
Lemma prefix_down {A} (p q : list A) i : p `prefix_of` (q ++ [i]) -> p `prefix_of` q \/ p = q ++ [i].
Proof.
  intros [r Hr]. destruct r as [|j r _] using rev_ind; [right; by rewrite app_nil_r in Hr|].
  rewrite app_assoc in Hr. apply app_inj_tail in Hr as [-> ->]. left. by exists r.
Qed.
Lemma prefix_app_one {A} (p q : list A) i j : p ++ [i] `prefix_of` q -> p ++ [j] `prefix_of` q -> i = j.
Proof. intros [r1 ->] [r2 H]. rewrite <- !app_assoc in H. apply app_inv_head in H. by injection H. Qed.
Lemma prefix_snoc_l {A} (p q : list A) i : p ++ [i] `prefix_of` q -> p `prefix_of` q.
Proof. intros [r ->]. exists ([i] ++ r). by rewrite app_assoc. Qed.

Section part.
Context (D : nat) (tm : list N -> N -> bool).
(** [fx] is the identity, or the correction of a wrong `len` field *)
Context (fx : node -> node).

(** A part of the new tree: the nodes allocated at the addresses [lo, hi), whose paths lie in
    the family [F], holding the elements with paths [ls], pushed at positions [off].. *)
Record part (h : heap) (lo hi : N) (F : list N -> Prop) (ls : list (list N)) (off : nat)
    (P J : gmap (list N) N) : Prop := Part {
  pt_path : forall q a, P !! q = Some a -> F q /\ path_ok 1 (length q) q /\ length q < D /\ (lo <= a < hi)%N;
  pt_node : forall q a, P !! q = Some a -> exists n, h_nodes h !! a = Some n /\ n_kind n = kind_at D (length q) /\
    node_rep (fx n) (childs D P J None q) (empty_at D (length q));
  pt_inj : forall q1 q2 a, P !! q1 = Some a -> P !! q2 = Some a -> q1 = q2;
  pt_parent : forall q i a, P !! (q ++ [i]) = Some a -> F q -> is_Some (P !! q) /\ tm q i = true;
  pt_jpar : forall q i j, J !! (q ++ [i]) = Some j -> F q -> is_Some (P !! q);
  pt_dom : forall a, (lo <= a < hi)%N -> exists q, P !! q = Some a;
  pt_ls : forall q, q ∈ ls -> F q;
  pt_J : forall q j, J !! q = Some j <-> exists x, ls !! x = Some q /\ j = N.of_nat (off + x);
}.

Lemma pt_JF h lo hi F ls off P J q j : part h lo hi F ls off P J -> J !! q = Some j -> F q.
Proof. intros Pt (x & Hx & _)%(pt_J _ _ _ _ _ _ _ _ Pt). eapply (pt_ls _ _ _ _ _ _ _ _ Pt), elem_of_list_lookup_2; eauto. Qed.

Lemma part_frame h h' lo hi F ls off P J : (forall a, (lo <= a < hi)%N -> h_nodes h' !! a = h_nodes h !! a) ->
  part h lo hi F ls off P J -> part h' lo hi F ls off P J.
Proof.
  intros Hh [H1 H2 H3 H4 H5 H6 H7 H8]. constructor; try done.
  intros q a Ha. destruct (H2 _ _ Ha) as (n & Hn & Hk). exists n. destruct (H1 _ _ Ha) as (_ & _ & _ & Hb). by rewrite Hh.
Qed.
Lemma part_F h lo hi F F' ls off P J : (forall q, F q <-> F' q) -> part h lo hi F ls off P J -> part h lo hi F' ls off P J.
Proof.
  intros HF [H1 H2 H3 H4 H5 H6 H7 H8]. constructor; try done.
  - intros q a Ha. rewrite <- HF. eauto.
  - intros q i a Ha. rewrite <- HF. eauto.
  - intros q i j Hj. rewrite <- HF. eauto.
  - intros q Hq. rewrite <- HF. eauto.
Qed.
Lemma part_empty h lo F off : part h lo lo F [] off ∅ ∅.
Proof.
  constructor; intros *; rewrite ?lookup_empty; try done.
  - lia.
  - intros Hq. by apply elem_of_nil in Hq.
  - split; [done|]. intros (x & Hx & _). done.
Qed.
Lemma part_leaf h lo q off : part h lo lo (prefix q) [q] off ∅ {[ q := N.of_nat off ]}.
Proof.
  constructor; intros *; rewrite ?lookup_empty; try done.
  - intros [E _]%lookup_singleton_Some. intros H. subst q. apply prefix_length in H. rewrite app_length in H. cbn in H. lia.
  - lia.
  - intros ->%elem_of_list_singleton. done.
  - rewrite lookup_singleton_Some. split.
    + intros [<- <-]. exists 0. split; [done|]. by rewrite Nat.add_0_r.
    + intros ([|x] & Hx & ->); [|done]. cbn in Hx. injection Hx as <-. split; [done|]. by rewrite Nat.add_0_r.
Qed.

Definition up (F : list N -> Prop) : Prop := forall q i, F q -> F (q ++ [i]).

Lemma part_union h lo mid hi F1 F2 ls1 ls2 off P1 P2 J1 J2 : up F1 -> up F2 ->
  (forall q, F1 q -> F2 q -> False) -> (lo <= mid <= hi)%N ->
  part h lo mid F1 ls1 off P1 J1 -> part h mid hi F2 ls2 (off + length ls1) P2 J2 ->
  part h lo hi (fun q => F1 q \/ F2 q) (ls1 ++ ls2) off (P1 ∪ P2) (J1 ∪ J2).
Proof.
  intros U1 U2 Hd Hlo Pt1 Pt2.
  assert (forall q a, (P1 ∪ P2) !! q = Some a <-> P1 !! q = Some a \/ P2 !! q = Some a) as HP.
  { intros q a. rewrite lookup_union_Some; [done|]. intros r. 
    destruct (P1 !! r) as [a1|] eqn:E1, (P2 !! r) as [a2|] eqn:E2; cbn; try done.
    apply (pt_path _ _ _ _ _ _ _ _ Pt1) in E1 as [? _]. apply (pt_path _ _ _ _ _ _ _ _ Pt2) in E2 as [? _]. eauto. }
  assert (forall q a, (J1 ∪ J2) !! q = Some a <-> J1 !! q = Some a \/ J2 !! q = Some a) as HJ.
  { intros q a. rewrite lookup_union_Some; [done|]. intros r. 
    destruct (J1 !! r) as [a1|] eqn:E1, (J2 !! r) as [a2|] eqn:E2; cbn; try done.
    apply (pt_JF _ _ _ _ _ _ _ _ _ _ Pt1) in E1. apply (pt_JF _ _ _ _ _ _ _ _ _ _ Pt2) in E2. eauto. }
  assert (forall q, F1 q -> (P1 ∪ P2) !! q = P1 !! q /\ (J1 ∪ J2) !! q = J1 !! q) as HL.
  { intros q Hq. split; apply option_eq; intros a; rewrite ?HP, ?HJ; split; [intros [?|H]|auto|intros [?|H]|auto]; try done.
    - apply (pt_path _ _ _ _ _ _ _ _ Pt2) in H as [? _]. by destruct (Hd q).
    - apply (pt_JF _ _ _ _ _ _ _ _ _ _ Pt2) in H. by destruct (Hd q). }
  assert (forall q, F2 q -> (P1 ∪ P2) !! q = P2 !! q /\ (J1 ∪ J2) !! q = J2 !! q) as HR.
  { intros q Hq. split; apply option_eq; intros a; rewrite ?HP, ?HJ; split; [intros [H|?]|auto|intros [H|?]|auto]; try done.
    - apply (pt_path _ _ _ _ _ _ _ _ Pt1) in H as [? _]. by destruct (Hd q).
    - apply (pt_JF _ _ _ _ _ _ _ _ _ _ Pt1) in H. by destruct (Hd q). }
  constructor.
  - intros q a [Ha|Ha]%HP.
    + apply (pt_path _ _ _ _ _ _ _ _ Pt1) in Ha as (? & ? & ? & ?). split_and!; auto; lia.
    + apply (pt_path _ _ _ _ _ _ _ _ Pt2) in Ha as (? & ? & ? & ?). split_and!; auto; lia.
  - intros q a [Ha|Ha]%HP.
    + destruct (pt_node _ _ _ _ _ _ _ _ Pt1 _ _ Ha) as (n & Hn & Hk & Hr). exists n. split; [done|]. split; [done|].
      eapply node_rep_ext; [|exact Hr]. intros i. apply (pt_path _ _ _ _ _ _ _ _ Pt1) in Ha as (Hq & _).
      cbn. unfold childs0. destruct (HL _ (U1 _ i Hq)) as [-> ->]. done.
    + destruct (pt_node _ _ _ _ _ _ _ _ Pt2 _ _ Ha) as (n & Hn & Hk & Hr). exists n. split; [done|]. split; [done|].
      eapply node_rep_ext; [|exact Hr]. intros i. apply (pt_path _ _ _ _ _ _ _ _ Pt2) in Ha as (Hq & _).
      cbn. unfold childs0. destruct (HR _ (U2 _ i Hq)) as [-> ->]. done.
  - intros q1 q2 a [H1|H1]%HP [H2|H2]%HP.
    + by eapply (pt_inj _ _ _ _ _ _ _ _ Pt1).
    + apply (pt_path _ _ _ _ _ _ _ _ Pt1) in H1 as (_ & _ & _ & ?). apply (pt_path _ _ _ _ _ _ _ _ Pt2) in H2 as (_ & _ & _ & ?). lia.
    + apply (pt_path _ _ _ _ _ _ _ _ Pt1) in H2 as (_ & _ & _ & ?). apply (pt_path _ _ _ _ _ _ _ _ Pt2) in H1 as (_ & _ & _ & ?). lia.
    + by eapply (pt_inj _ _ _ _ _ _ _ _ Pt2).
  - intros q i a Ha [Hq|Hq].
    + destruct (HL _ Hq) as [-> _]. destruct (HL _ (U1 _ i Hq)) as [E _]. rewrite E in Ha. by eapply (pt_parent _ _ _ _ _ _ _ _ Pt1).
    + destruct (HR _ Hq) as [-> _]. destruct (HR _ (U2 _ i Hq)) as [E _]. rewrite E in Ha. by eapply (pt_parent _ _ _ _ _ _ _ _ Pt2).
  - intros q i j Ha [Hq|Hq].
    + destruct (HL _ Hq) as [-> _]. destruct (HL _ (U1 _ i Hq)) as [_ E]. rewrite E in Ha. by eapply (pt_jpar _ _ _ _ _ _ _ _ Pt1).
    + destruct (HR _ Hq) as [-> _]. destruct (HR _ (U2 _ i Hq)) as [_ E]. rewrite E in Ha. by eapply (pt_jpar _ _ _ _ _ _ _ _ Pt2).
  - intros a Ha. destruct (decide (a < mid)%N).
    + destruct (pt_dom _ _ _ _ _ _ _ _ Pt1 a) as [q Hq]; [lia|]. exists q. apply HP. by left.
    + destruct (pt_dom _ _ _ _ _ _ _ _ Pt2 a) as [q Hq]; [lia|]. exists q. apply HP. by right.
  - intros q [Hq|Hq]%elem_of_app; [left; by eapply (pt_ls _ _ _ _ _ _ _ _ Pt1)|right; by eapply (pt_ls _ _ _ _ _ _ _ _ Pt2)].
  - intros q j. rewrite HJ, (pt_J _ _ _ _ _ _ _ _ Pt1), (pt_J _ _ _ _ _ _ _ _ Pt2). split.
    + intros [(x & Hx & ->)|(x & Hx & ->)].
      * exists x. split; [|done]. by apply lookup_app_l_Some.
      * exists (length ls1 + x). split; [|f_equal; lia]. rewrite lookup_app_r by lia. by replace (length ls1 + x - length ls1) with x by lia.
    + intros (x & Hx & ->). apply lookup_app_Some in Hx as [Hx|[Hl Hx]]; [left; eauto|].
      right. exists (x - length ls1). split; [done|]. f_equal. lia.
Qed.

(** the children of [p] built so far *)
Definition forest (p : list N) (l : list N) (q : list N) : Prop := exists i, i ∈ l /\ p ++ [i] `prefix_of` q.
Lemma up_forest p l : up (forest p l).
Proof. intros q i (j & Hj & Hp). exists j. split; [done|]. by apply prefix_up. Qed.
Lemma up_prefix p : up (prefix p).
Proof. intros q i Hp. by apply prefix_up. Qed.

(** adding the node [p] itself, at address [a] before or behind its children *)
Lemma part_cons h lo hi lo' hi' p l ls off P J a n : path_ok 1 (length p) p -> length p < D ->
  part h lo hi (forest p l) ls off P J ->
  (forall b, (lo' <= b < hi')%N <-> b = a \/ (lo <= b < hi)%N) -> ~ (lo <= a < hi)%N ->
  h_nodes h !! a = Some n -> n_kind n = kind_at D (length p) ->
  node_rep (fx n) (childs D P J None p) (empty_at D (length p)) ->
  (forall i, i ∈ l -> tm p i = true) ->
  part h lo' hi' (prefix p) ls off (<[p := a]> P) J.
Proof.
  intros Hp Hl Pt Hb Ha Hn Hk Hr Ht.
  assert (~ forest p l p) as Hfp.
  { intros (i & _ & Hi). apply prefix_length in Hi. rewrite app_length in Hi. cbn in Hi. lia. }
  assert (P !! p = None) as Hnone.
  { destruct (P !! p) as [b|] eqn:E; [|done]. by apply (pt_path _ _ _ _ _ _ _ _ Pt) in E as [? _]. }
  assert (forall q, forest p l q -> p `prefix_of` q) as Hfq by (intros q (i & _ & Hi); by eapply prefix_snoc_l).
  assert (forall q i, childs D (<[p:=a]> P) J None q i = childs D P J None q i \/ q ++ [i] = p) as Hc.
  { intros q i. destruct (decide (q ++ [i] = p)); [by right|left]. cbn. unfold childs0. by rewrite lookup_insert_ne. }
  constructor.
  - intros q b. destruct (decide (q = p)) as [->|Hne]; [rewrite lookup_insert|rewrite lookup_insert_ne by done].
    + intros [= <-]. split_and!; [done..| |]; apply Hb; by left.
    + intros E. apply (pt_path _ _ _ _ _ _ _ _ Pt) in E as (? & ? & ? & ?). split_and!; auto; apply Hb; by right.
  - intros q b. destruct (decide (q = p)) as [->|Hne]; [rewrite lookup_insert|rewrite lookup_insert_ne by done].
    + intros [= <-]. exists n. split; [done|]. split; [done|]. eapply node_rep_ext; [|exact Hr]. intros i.
      destruct (Hc p i) as [E|E]; [by rewrite E|by apply app_one_ne in E].
    + intros E. destruct (pt_node _ _ _ _ _ _ _ _ Pt _ _ E) as (n' & Hn' & Hk' & Hr'). exists n'. split; [done|]. split; [done|].
      eapply node_rep_ext; [|exact Hr']. intros i. destruct (Hc q i) as [E'|E']; [by rewrite E'|].
      apply (pt_path _ _ _ _ _ _ _ _ Pt) in E as (HF & _). apply Hfq, prefix_length in HF. subst p. rewrite app_length in HF. cbn in HF. lia.
  - intros q1 q2 b. destruct (decide (q1 = p)) as [->|H1], (decide (q2 = p)) as [->|H2];
      rewrite ?lookup_insert, ?lookup_insert_ne by done; intros E1 E2; try done.
    + injection E1 as <-. apply (pt_path _ _ _ _ _ _ _ _ Pt) in E2 as (_ & _ & _ & ?). done.
    + injection E2 as <-. apply (pt_path _ _ _ _ _ _ _ _ Pt) in E1 as (_ & _ & _ & ?). done.
    + by eapply (pt_inj _ _ _ _ _ _ _ _ Pt).
  - intros q i b. destruct (decide (q ++ [i] = p)) as [<-|Hne].
    { intros _ Hq%prefix_length. rewrite app_length in Hq. cbn in Hq. lia. }
    rewrite lookup_insert_ne by done. intros E Hq. destruct (decide (q = p)) as [->|Hqp].
    + rewrite lookup_insert. split; [eauto|]. apply Ht. apply (pt_path _ _ _ _ _ _ _ _ Pt) in E as ((j & Hj & Hpre) & _).
      destruct Hpre as [r Hr']. rewrite <- app_assoc in Hr'. apply app_inv_head in Hr'. by injection Hr' as <- _.
    + rewrite lookup_insert_ne by done. apply (pt_parent _ _ _ _ _ _ _ _ Pt _ _ _ E).
      destruct (pt_path _ _ _ _ _ _ _ _ Pt _ _ E) as ((j & Hj & Hpre) & _). apply prefix_down in Hpre as [Hpre|Hpre]; [by exists j|].
      apply app_one_inj in Hpre as [<- _]. done.
  - intros q i j E Hq. destruct (decide (q = p)) as [->|Hqp]; [rewrite lookup_insert; eauto|]. rewrite lookup_insert_ne by done.
    apply (pt_jpar _ _ _ _ _ _ _ _ Pt _ _ _ E).
    destruct (pt_JF _ _ _ _ _ _ _ _ _ _ Pt E) as (k & Hk' & Hpre). apply prefix_down in Hpre as [Hpre|Hpre]; [by exists k|].
    apply app_one_inj in Hpre as [<- _]. done.
  - intros b [->|Hb']%Hb; [exists p; by rewrite lookup_insert|]. destruct (pt_dom _ _ _ _ _ _ _ _ Pt b Hb') as [q Hq].
    exists q. rewrite lookup_insert_ne; [done|]. intros <-. congruence.
  - intros q Hq. by apply Hfq, (pt_ls _ _ _ _ _ _ _ _ Pt).
  - apply (pt_J _ _ _ _ _ _ _ _ Pt).
Qed.
End part.

(** ** the packed children array *)
Lemma wbits_rank w i : word_ok w -> (i < 64)%N -> N.testbit w i = true -> wbits w !! rank w i = Some i.
Proof.
  intros Hw Hi Hb. unfold wbits, rank. rewrite cnt_filter.
  replace 64 with (N.to_nat i + S (63 - N.to_nat i)) by lia. rewrite seqN_app, filter_app.
  rewrite lookup_app_r by lia. rewrite Nat.sub_diag. cbn [seqN]. rewrite filter_cons, decide_True.
  - cbn. f_equal. lia.
  - by replace (0 + N.of_nat (N.to_nat i))%N with i by lia.
Qed.
Lemma packed_rep k w g e cs : word_ok w -> (forall i, i ∈ wbits w <-> is_Some (g i)) ->
  Forall2 (fun i s => g i = Some s) (wbits w) cs ->
  node_rep (Node k w (popcount w + 1) (S (popcount w)) (cs ++ [e])) g e.
Proof.
  intros Hw Hg Hf. pose proof (Forall2_length _ _ _ Hf) as Hl.
  assert (length cs = popcount w) as Hp by (by rewrite popcount_wbits).
  assert (forall i, N.testbit w i = true <-> is_Some (g i)) as Hb.
  { intros i. rewrite <- Hg, elem_of_wbits. split; [|naive_solver]. intros H. split; [|done].
    destruct (decide (i < 64)%N); [done|]. rewrite testbit_high in H by (done || lia). done. }
  constructor; cbn [n_kind n_mask n_cap n_len n_slots]; try done.
  - intros i s Hs. assert (i ∈ wbits w) as Hi by (apply Hg; eauto). apply elem_of_wbits in Hi as [Hi Hbi].
    destruct (Forall2_lookup_l _ _ _ _ _ Hf (wbits_rank w i Hw Hi Hbi)) as (s' & Hs' & E). apply lookup_app_l_Some. congruence.
  - rewrite lookup_app_r by lia. by rewrite Hp, Nat.sub_diag.
  - rewrite app_length. cbn. lia.
  - pose proof (popcount_le w Hw). lia.
Qed.

Section rec.
Context (t : tree) (L : lawful t) (src : t_T t) (Hwf : l_wf L src).
Hypothesis Hnw : t_nw t = 1.
Notation D := (t_depth t).
Hypothesis HD : D <= 9.
Context (fx : node -> node).
Hypothesis Hfx : forall n, n_len n = S (popcount (n_mask n)) -> fx n = n.
Local Notation tm := (l_tm L src).
Local Notation sem := (l_sem L src).
Local Notation part := (part D tm fx).
Local Notation kids := (kids L src).
Local Notation leaves := (leaves L src).

Lemma bound1 p i : path_ok 1 (length p) p -> length p < D -> tm p i = true -> (i < 64)%N.
Proof.
  intros Hp Hl Hb. pose proof (l_bound L src p i Hwf) as H. rewrite Hnw in H. change (msize 1) with 64%N in H. auto.
Qed.
Lemma kids1 p i : path_ok 1 (length p) p -> length p < D -> i ∈ kids p <-> tm p i = true.
Proof. intros Hp Hl. apply (elem_of_kids L src Hwf); [by rewrite Hnw|done]. Qed.
Lemma mask1 p m : path_ok 1 (length p) p -> length p < D -> mask_is (t_nw t) m (tm p) ->
  exists w, m = [w] /\ word_ok w /\ wbits w = kids p /\ mask_ok 1 m.
Proof.
  intros Hp Hl Hm. pose proof (kids_mask L src Hwf p m) as Hk. rewrite Hnw in *. specialize (Hk Hp Hl Hm).
  destruct Hm as [[Hml Hmw] Hmb]. destruct m as [|w [|w' m]]; try done. exists w. apply Forall_cons in Hmw as [Hw _].
  split; [done|]. split; [done|]. split; [by rewrite <- Hk, mbits_single|]. split; [done|]. by constructor.
Qed.

(** what building a part of the tree does to the state *)
Record grown (s s' : mst t) (ls : list (list N)) : Prop := Grown {
  gr_heap : heap_ok (m_heap s');
  gr_next : (h_next (m_heap s) <= h_next (m_heap s'))%N;
  gr_frame : forall b, (b < h_next (m_heap s))%N -> h_nodes (m_heap s') !! b = h_nodes (m_heap s) !! b;
  gr_data : m_data s' = m_data s ++ (sem <$> ls);
  gr_keys : m_keys s' = m_keys s ++ (key_of_path 1 <$> ls);
}.
Definition fits (s : mst t) (ls : list (list N)) : Prop := (N.of_nat (length (m_data s) + length ls) <= 2 ^ 32)%N.

(** one child *)
Definition kid_spec (p : list N) (k : nat) (child : mst t -> N -> res (mst t * option slot)) : Prop :=
  forall s i, tm p i = true -> l_Ru L src (m_cur s) p -> heap_ok (m_heap s) -> fits s (leaves k (p ++ [i])) ->
  exists s' o P J, child s i = Ok (s', o) /\ l_Ru L src (m_cur s') p /\ grown s s' (leaves k (p ++ [i])) /\
    part (m_heap s') (h_next (m_heap s)) (h_next (m_heap s')) (prefix (p ++ [i])) (leaves k (p ++ [i])) (length (m_data s)) P J /\
    childs D P J None p i = o.

Lemma union_childs h lo hi lo' hi' (F1 F2 : list N -> Prop) ls1 ls2 off1 off2 P1 P2 J1 J2 p i : (forall q, F1 q -> F2 q -> False) ->
  part h lo hi F1 ls1 off1 P1 J1 -> part h lo' hi' F2 ls2 off2 P2 J2 ->
  (F1 (p ++ [i]) -> childs D (P1 ∪ P2) (J1 ∪ J2) None p i = childs D P1 J1 None p i) /\
  (F2 (p ++ [i]) -> childs D (P1 ∪ P2) (J1 ∪ J2) None p i = childs D P2 J2 None p i).
Proof.
  intros Hd Pt1 Pt2. cbn. unfold childs0. rewrite !lookup_union.
  split; intros HF.
  - assert (P2 !! (p ++ [i]) = None) as ->.
    { destruct (P2 !! _) eqn:E; [|done]. apply (pt_path _ _ _ _ _ _ _ _ _ _ _ Pt2) in E as [? _]. by destruct (Hd (p ++ [i])). }
    assert (J2 !! (p ++ [i]) = None) as ->.
    { destruct (J2 !! _) eqn:E; [|done]. apply (pt_JF _ _ _ _ _ _ _ _ _ _ _ _ _ Pt2) in E. by destruct (Hd (p ++ [i])). }
    rewrite !(right_id_L None _). done.
  - assert (P1 !! (p ++ [i]) = None) as ->.
    { destruct (P1 !! _) eqn:E; [|done]. apply (pt_path _ _ _ _ _ _ _ _ _ _ _ Pt1) in E as [? _]. by destruct (Hd (p ++ [i])). }
    assert (J1 !! (p ++ [i]) = None) as ->.
    { destruct (J1 !! _) eqn:E; [|done]. apply (pt_JF _ _ _ _ _ _ _ _ _ _ _ _ _ Pt1) in E. by destruct (Hd (p ++ [i])). }
    rewrite !(left_id_L None _). done.
Qed.

Lemma forest_snoc p l i q : forest p (l ++ [i]) q <-> forest p l q \/ p ++ [i] `prefix_of` q.
Proof.
  unfold forest. split.
  - intros (j & [Hj| ->%elem_of_list_singleton]%elem_of_app & Hp); [left; eauto|by right].
  - intros [(j & Hj & Hp)|Hp]; [exists j|exists i]; (split; [|done]); apply elem_of_app; [by left|right; by apply elem_of_list_singleton].
Qed.
Lemma forest_disj p l i q : i ∉ l -> forest p l q -> p ++ [i] `prefix_of` q -> False.
Proof. intros Hi (j & Hj & Hp) Hq. by rewrite (prefix_app_one _ _ _ _ Hp Hq) in Hj. Qed.

(** children not yet built are absent *)
Lemma part_absent h lo hi p l ls off P J i : part h lo hi (forest p l) ls off P J -> i ∉ l -> childs D P J None p i = None.
Proof.
  intros Pt Hi. cbn. unfold childs0.
  assert (~ forest p l (p ++ [i])) as Hn.
  { intros HF. by apply (forest_disj p l i (p ++ [i])). }
  destruct (decide _).
  - destruct (P !! _) eqn:E; [|done]. by apply (pt_path _ _ _ _ _ _ _ _ _ _ _ Pt) in E as [? _].
  - destruct (J !! _) eqn:E; [|done]. by apply (pt_JF _ _ _ _ _ _ _ _ _ _ _ _ _ Pt) in E.
Qed.

(** the traversal of a mask by the two versions; [pushed s' o s]: what is done with the child *)
Record raw_inv (s0 : mst t) (a : N) (kd : kind) (w : N) (p : list N) (k : nat) (l : list N) (s : mst t)
    (P J : gmap (list N) N) (cs : list slot) : Prop := RawInv {
  ri_cur : l_Ru L src (m_cur s) p;
  ri_heap : heap_ok (m_heap s);
  ri_next : (a < h_next (m_heap s))%N;
  ri_frame : forall b, (b < a)%N -> h_nodes (m_heap s) !! b = h_nodes (m_heap s0) !! b;
  ri_data : m_data s = m_data s0 ++ (sem <$> (l ≫= (fun i => leaves k (p ++ [i]))));
  ri_keys : m_keys s = m_keys s0 ++ (key_of_path 1 <$> (l ≫= (fun i => leaves k (p ++ [i]))));
  ri_node : h_nodes (m_heap s) !! a =
    Some (Node kd w (popcount w + 1) (length l) (cs ++ replicate (popcount w + 1 - length l) SUninit));
  ri_childs : Forall2 (fun i s => childs D P J None p i = Some s) l cs;
  ri_part : part (m_heap s) (N.succ a) (h_next (m_heap s)) (forest p l) (l ≫= (fun i => leaves k (p ++ [i]))) (length (m_data s0)) P J;
}.

Lemma fold_raw s0 a kd w p k child l2 : path_ok 1 (length p) p -> length p < D -> word_ok w -> wbits w = kids p ->
  kid_spec p k child -> (forall s i s' o, child s i = Ok (s', o) -> is_Some o) ->
  fits s0 (kids p ≫= (fun i => leaves k (p ++ [i]))) ->
  forall l1 s P J cs, kids p = l1 ++ l2 -> raw_inv s0 a kd w p k l1 s P J cs ->
  exists s' P' J' cs', fold_res (fun s i => let* (s, o) := child s i in
      match o with Some c => let* h := raw_push kd (m_heap s) (PHeap a) c in Ok (with_heap s h) | None => UB end) l2 s = Ok s' /\
    raw_inv s0 a kd w p k (kids p) s' P' J' cs'.
Proof.
  intros Hp HpD Hw Hwk Hkid Hsome Hfit. pose proof (popcount_wbits w Hw) as Hpc. rewrite Hwk in Hpc.
  pose proof (popcount_le w Hw) as Hpc64.
  induction l2 as [|i l2 IH]; intros l1 s P J cs Hk RI; cbn [fold_res].
  { rewrite app_nil_r in Hk. rewrite Hk. exists s, P, J, cs. done. }
  destruct RI as [Hcur Hheap Hnext Hframe Hdata Hkeys Hnode Hchilds Hpart].
  assert (tm p i = true) as Hi. { apply kids1; [done..|]. rewrite Hk. apply elem_of_app. right. by left. }
  assert (i ∉ l1) as Hnew.
  { pose proof (wbits_sorted w) as Hs. rewrite Hwk, Hk in Hs. apply ssorted_nodup in Hs. apply NoDup_app in Hs as (_ & Hs & _).
    intros Hin. apply (Hs i Hin). by left. }
  set (ls1 := l1 ≫= (fun i => leaves k (p ++ [i]))) in *.
  assert (fits s (leaves k (p ++ [i]))) as Hfits.
  { unfold fits in *. rewrite Hdata, app_length, fmap_length. rewrite Hk, bind_app, bind_cons, !app_length in Hfit.
    unfold ls1. lia. }
  destruct (Hkid s i Hi Hcur Hheap Hfits) as (s1 & o & P2 & J2 & Hch & Hcur1 & [Gh Gn Gf Gd Gk] & Pt2 & Ho).
  rewrite Hch, bind_ok. destruct (Hsome _ _ _ _ Hch) as [c ->].
  assert (h_nodes (m_heap s1) !! a = h_nodes (m_heap s) !! a) as Ha1 by (apply Gf; done).
  rewrite Hnode in Ha1. unfold raw_push. rewrite (hread_heap _ _ _ Ha1), bind_ok. cbn [n_kind n_mask n_cap n_len n_slots].
  rewrite decide_True by done.
  pose proof (Forall2_length _ _ _ Hchilds) as Hcl.
  assert (length l1 < popcount w) as Hlt. { rewrite Hpc, Hk, app_length. cbn. lia. }
  rewrite set_u_ok by (rewrite app_length, replicate_length; lia). rewrite bind_ok.
  replace (u8_ok (length l1 + 1)) with true by (symmetry; apply bool_decide_eq_true; lia).
  rewrite (hwrite_heap _ _ _ _ Ha1), bind_ok.
  assert (<[length l1:=c]> (cs ++ replicate (popcount w + 1 - length l1) SUninit) =
          (cs ++ [c]) ++ replicate (popcount w + 1 - length (l1 ++ [i])) SUninit) as Hsl.
  { rewrite app_length. cbn [length]. replace (popcount w + 1 - length l1) with (S (popcount w + 1 - (length l1 + 1))) by lia. cbn [replicate].
    rewrite Hcl, insert_app_r_alt by lia. rewrite Nat.sub_diag. cbn [insert list_insert]. by rewrite <- app_assoc. }
  rewrite Hsl.
  assert (length l1 + 1 = length (l1 ++ [i])) as -> by (by rewrite app_length).
  assert (forall q, forest p l1 q -> p ++ [i] `prefix_of` q -> False) as Hdisj by (intros q; by apply forest_disj).
  assert (part (m_heap s1) (N.succ a) (h_next (m_heap s)) (forest p l1) ls1 (length (m_data s0)) P J) as Pt1.
  { eapply part_frame; [|exact Hpart]. intros b Hb. apply Gf. lia. }
  apply (IH (l1 ++ [i]) _ (P ∪ P2) (J ∪ J2) (cs ++ [c])); [by rewrite <- app_assoc|]. clear IH.
  constructor; cbn [with_heap m_cur m_heap m_data m_keys h_nodes h_next]; rewrite ?bind_app, ?bind_cons, ?bind_nil, ?app_nil_r; fold ls1.
  - done.
  - intros b. cbn [h_nodes h_next]. rewrite lookup_insert_is_Some. intros [<-|[_ Hb]]; [lia|by apply Gh].
  - lia.
  - intros b Hb. rewrite lookup_insert_ne by lia. rewrite Gf by lia. by apply Hframe.
  - rewrite Gd, Hdata, <- app_assoc. by rewrite fmap_app.
  - rewrite Gk, Hkeys, <- app_assoc. by rewrite fmap_app.
  - by rewrite lookup_insert.
  - apply Forall2_app; [|constructor; [|constructor]].
    + apply Forall2_same_length_lookup_2; [done|]. intros x j c' Hj Hc'.
      destruct (union_childs _ _ _ _ _ _ _ _ _ _ _ _ _ _ _ p j Hdisj Pt1 Pt2) as [E _]. rewrite E.
      * destruct (Forall2_lookup_lr _ _ _ _ _ _ Hchilds Hj Hc'). done.
      * exists j. split; [by eapply elem_of_list_lookup_2|done].
    + destruct (union_childs _ _ _ _ _ _ _ _ _ _ _ _ _ _ _ p i Hdisj Pt1 Pt2) as [_ E]. rewrite E; [|done]. done.
  - eapply part_frame; [|eapply part_F; [|eapply (part_union _ _ _ _ _ (h_next (m_heap s))); [apply up_forest|apply up_prefix|exact Hdisj| |exact Pt1|]]].
    + intros b Hb. cbn [h_nodes]. rewrite lookup_insert_ne by lia. done.
    + intros q. by rewrite forest_snoc.
    + lia.
    + rewrite Hdata, app_length, fmap_length in Pt2. exact Pt2.
Qed.

(** a node built in place: raw_new, one push per child, raw_finalize *)
Definition built (s : mst t) (p : list N) (k : nat) (s' : mst t) (o : option ptr) : Prop :=
  l_Ru L src (m_cur s') p /\ grown s s' (leaves k p) /\ exists P J,
    part (m_heap s') (h_next (m_heap s)) (h_next (m_heap s')) (prefix p) (leaves k p) (length (m_data s)) P J /\
    o = PHeap <$> P !! p.

Lemma build_raw s w p k child : path_ok 1 (length p) p -> length p < D -> word_ok w -> wbits w = kids p ->
  kid_spec p k child -> (forall s i s' o, child s i = Ok (s', o) -> is_Some o) ->
  l_Ru L src (m_cur s) p -> heap_ok (m_heap s) -> fits s (leaves (S k) p) ->
  exists s' a,
    (let '(h, raw) := raw_new (kind_at D (length p)) (m_heap s) (popcount w + 1) w in
     let* s := fold_res (fun s i => let* (s, o) := child s i in
        match o with Some c => let* h := raw_push (kind_at D (length p)) (m_heap s) raw c in Ok (with_heap s h) | None => UB end)
       (kids p) (with_heap s h) in
     let* (h, p) := raw_finalize (kind_at D (length p)) (m_heap s) raw (empty_at D (length p)) in
     Ok (with_heap s h, p)) = Ok (s', PHeap a) /\
    built s p (S k) s' (Some (PHeap a)).
Proof.
  intros Hp HpD Hw Hwk Hkid Hsome Hcur Hheap Hfit. cbn [leaves] in *. unfold raw_new, halloc.
  set (a := h_next (m_heap s)).
  set (s1 := with_heap s _).
  assert (raw_inv s a (kind_at D (length p)) w p k [] s1 ∅ ∅ []) as RI.
  { constructor; cbn [s1 with_heap m_cur m_heap m_data m_keys h_nodes h_next]; try done.
    - intros b. cbn [h_nodes h_next]. rewrite lookup_insert_is_Some. intros [<-|[_ Hb]]; [unfold a; lia|apply Hheap in Hb; unfold a; lia].
    - lia.
    - intros b Hb. rewrite lookup_insert_ne by lia. done.
    - by rewrite app_nil_r.
    - by rewrite app_nil_r.
    - rewrite lookup_insert. cbn [length app]. by rewrite Nat.sub_0_r.
    - apply part_empty. }
  destruct (fold_raw s a _ w p k child (kids p) Hp HpD Hw Hwk Hkid Hsome Hfit [] s1 ∅ ∅ [] eq_refl RI) as (s2 & P & J & cs & Hf & RI2).
  rewrite Hf, bind_ok. clear Hf RI.
  destruct RI2 as [Hcur2 Hheap2 Hnext Hframe Hdata Hkeys Hnode Hchilds Hpart].
  pose proof (popcount_wbits w Hw) as Hpc. rewrite Hwk in Hpc. pose proof (popcount_le w Hw) as Hpc64.
  pose proof (Forall2_length _ _ _ Hchilds) as Hcl.
  unfold raw_finalize. rewrite (hread_heap _ _ _ Hnode), bind_ok. cbn [n_kind n_mask n_cap n_len n_slots].
  rewrite decide_True by done. rewrite set_u_ok by (rewrite app_length, replicate_length; lia). rewrite bind_ok.
  replace (u8_ok (length (kids p) + 1)) with true by (symmetry; apply bool_decide_eq_true; lia).
  rewrite (hwrite_heap _ _ _ _ Hnode), bind_ok, decide_True by lia. rewrite bind_ok.
  assert (<[length (kids p):=empty_at D (length p)]> (cs ++ replicate (popcount w + 1 - length (kids p)) SUninit) =
          cs ++ [empty_at D (length p)]) as ->.
  { replace (popcount w + 1 - length (kids p)) with 1 by lia. rewrite Hcl, insert_app_r_alt by lia. by rewrite Nat.sub_diag. }
  set (n := Node _ _ _ _ _).
  assert (node_rep n (childs D P J None p) (empty_at D (length p))) as Hrep.
  { unfold n. replace (length (kids p) + 1) with (S (popcount w)) by lia. apply packed_rep; [done| |by rewrite Hwk].
    intros i. rewrite Hwk. split.
    - intros Hi. apply elem_of_list_lookup in Hi as [x Hx]. destruct (Forall2_lookup_l _ _ _ _ _ Hchilds Hx) as (c & _ & ->). eauto.
    - intros Hi. destruct (decide (i ∈ kids p)) as [|Hn]; [done|]. rewrite (part_absent _ _ _ _ _ _ _ _ _ _ Hpart Hn) in Hi. by destruct Hi. }
  eexists _, a. split; [reflexivity|]. split; [done|]. split.
  - constructor; cbn [with_heap m_cur m_heap m_data m_keys h_nodes h_next].
    + intros b. cbn [h_nodes h_next]. rewrite lookup_insert_is_Some. intros [<-|[_ Hb]]; [lia|by apply Hheap2].
    + fold a. lia.
    + intros b Hb. rewrite lookup_insert_ne by (unfold a; lia). by apply Hframe.
    + done.
    + done.
  - exists (<[p := a]> P), J. split; [|by rewrite lookup_insert].
    cbn [with_heap m_cur m_heap m_data m_keys h_nodes h_next].
    eapply (part_cons D tm fx _ (N.succ a) (h_next (m_heap s2)) _ _ p (kids p) _ _ _ _ a n); [done|done| | | | | | |].
    + eapply part_frame; [|exact Hpart]. intros b Hb. cbn [h_nodes]. rewrite lookup_insert_ne by lia. done.
    + intros b. fold a. lia.
    + lia.
    + cbn [h_nodes]. by rewrite lookup_insert.
    + done.
    + rewrite Hfx; [done|]. cbn [n n_len n_mask]. lia.
    + intros i. by rewrite kids1.
Qed.

Lemma path_child p i : path_ok 1 (length p) p -> length p < D -> tm p i = true -> path_ok 1 (length (p ++ [i])) (p ++ [i]).
Proof.
  intros Hp Hl Hi. rewrite app_length. replace (length p + length [i]) with (S (length p)) by (cbn; lia).
  apply path_ok_snoc; [done|]. by eapply bound1.
Qed.

(** the elements of a terminal node *)
Definition leaf_child (key_acc : N) (s : mst t) (index : N) : res (mst t * option slot) :=
  let* data := t_cdata_u t src (m_cur s) index in
  let '(s, data_index) := push_fn s (key_acc + index)%N data in
  Ok (s, Some (SIdx data_index)).
Lemma leaf_kid p : path_ok 1 (length p) p -> S (length p) = D -> kid_spec p 0 (leaf_child (key_of_path 1 p * 64)).
Proof.
  intros Hp HpD s i Hi Hcur Hheap Hfit. cbn [leaves] in *. pose proof (bound1 p i Hp ltac:(lia) Hi) as Hi64.
  assert (path_ok (t_nw t) (D - 1) p) as Hp'. { rewrite Hnw. by replace (D - 1) with (length p) by lia. }
  destruct (l_terminal L src p i Hwf Hp' Hi) as [v Hv].
  assert (t_cdata_u t src (m_cur s) i = Ok v) as Hd by (eapply (l_cdata_u L); eauto; rewrite Hnw; exact Hi64).
  unfold leaf_child. rewrite Hd, bind_ok. cbn [push_fn].
  eexists _, _, ∅, {[ p ++ [i] := N.of_nat (length (m_data s)) ]}. split; [reflexivity|]. cbn [m_cur m_heap m_data m_keys].
  split; [done|]. split; [|split].
  - constructor; cbn [m_cur m_heap m_data m_keys]; try done.
    + rewrite fmap_cons, fmap_nil. by rewrite Hv.
    + rewrite fmap_cons, fmap_nil, key_of_path_snoc. done.
  - apply part_leaf.
  - cbn. unfold childs0. rewrite decide_False by lia. rewrite lookup_singleton. cbn. do 2 f_equal. symmetry. apply N.mod_small.
    unfold fits in Hfit. cbn [length] in Hfit. lia.
Qed.

Lemma terminal_ok s m p cap : path_ok 1 (length p) p -> S (length p) = D -> mask_is (t_nw t) m (tm p) ->
  cap = mask_count_ones m + 1 -> l_Ru L src (m_cur s) p -> heap_ok (m_heap s) -> fits s (leaves 1 p) ->
  exists s' a, make_terminal_node t src s m cap (key_of_path 1 p * 64) = Ok (s', PHeap a) /\ built s p 1 s' (Some (PHeap a)).
Proof.
  intros Hp HpD Hm -> Hcur Hheap Hfit. destruct (mask1 p m Hp ltac:(lia) Hm) as (w & -> & Hw & Hwk & Hmok).
  destruct (build_raw s w p 0 (leaf_child (key_of_path 1 p * 64)) Hp ltac:(lia) Hw Hwk (leaf_kid p Hp HpD)) as (s' & a & E & Hb); try done.
  { intros s1 i s2 o. unfold leaf_child. intros (v & _ & [= <- <-])%bind_ok_inv. eauto. }
  exists s', a. split; [|exact Hb]. rewrite <- E. unfold make_terminal_node. cbn [get_u lookup list_lookup rbind].
  unfold kind_at, empty_at. rewrite !decide_False by lia.
  replace (mask_count_ones [w]) with (popcount w) by (unfold mask_count_ones; cbn; lia).
  destruct (raw_new KIdx (m_heap s) (popcount w + 1) w) as [h raw]. rewrite (traverse_m_ok 1) by done. rewrite mbits_single, Hwk by done.
  erewrite fold_res_ext; [reflexivity|]. intros s1 i. unfold leaf_child. cbn [push_fn].
  destruct (t_cdata_u t src (m_cur s1) i); reflexivity.
Qed.

Lemma block_start_ok n p i : length p = n -> S n < D -> (i < 64)%N ->
  (key_of_path 1 p * 64 ^ N.of_nat (D - n) + block_start D n i = key_of_path 1 (p ++ [i]) * 64 ^ N.of_nat (D - S n))%N.
Proof.
  intros Hn HnD Hi. rewrite key_of_path_snoc. change (msize 1) with 64%N. unfold block_start, shl64.
  rewrite (N.mod_small (lsize 1 * _)) by (change (lsize 1) with 6%N; lia).
  rewrite N.shiftl_mul_pow2. change (lsize 1) with 6%N. 
  replace (2 ^ (6 * N.of_nat (D - n - 1)))%N with (64 ^ N.of_nat (D - S n))%N.
  2:{ rewrite N.pow_mul_r. change (2 ^ 6)%N with 64%N. do 2 f_equal. lia. }
  change WMAX with (N.ones 64). rewrite N.land_ones, N.mod_small.
  - replace (64 ^ N.of_nat (D - n))%N with (64 * 64 ^ N.of_nat (D - S n))%N; [lia|].
    rewrite <- N.pow_succ_r'. f_equal. lia.
  - apply (N.lt_le_trans _ (64 * 64 ^ N.of_nat (D - S n))%N).
    + apply N.mul_lt_mono_pos_r; [|done]. apply N.neq_0_lt_0, N.pow_nonzero. lia.
    + rewrite <- N.pow_succ_r'. transitivity (64 ^ 9)%N; [|by vm_compute]. apply N.pow_le_mono_r; lia.
Qed.

(** one level, exact version *)
Lemma from_exact_ok k : t_exact t = true -> forall n p index key_acc s,
  length p = n -> n + S k = D -> path_ok 1 (length p) p ->
  (exists c m, t_select_u t src (m_cur s) n index = Ok (c, m) /\ mask_is (t_nw t) m (tm p) /\ l_Ru L src c p) ->
  key_acc = (key_of_path 1 p * 64 ^ N.of_nat (D - n))%N -> heap_ok (m_heap s) -> fits s (leaves (S k) p) ->
  exists s' a, from_exact t src k n index key_acc s = Ok (s', PHeap a) /\ built s p (S k) s' (Some (PHeap a)).
Proof.
  intros Hex. induction k as [|k IH]; intros n p index key_acc s Hn HnD Hp (c & m & Hsel & Hm & Hcur) -> Hheap Hfit;
    cbn [from_exact]; rewrite Hex, Hsel, bind_ok.
  - replace (D - n) with 1 by lia. change (64 ^ N.of_nat 1)%N with 64%N.
    destruct (terminal_ok (with_cur s c) m p (mask_count_ones m + 1)) as (s' & a & E & Hb); try done; [lia|].
    exists s', a. split; [exact E|]. destruct Hb as (H1 & [G1 G2 G3 G4 G5] & H2). split; [done|]. split; [by constructor|done].
  - destruct (mask1 p m Hp ltac:(lia) Hm) as (w & -> & Hw & Hwk & Hmok). cbn [get_u lookup list_lookup rbind].
    set (child := fun (s : mst t) i => let* (s, q) := from_exact t src k (S n) i (key_of_path 1 p * 64 ^ N.of_nat (D - n) + block_start D n i)%N s in
                     Ok (s, Some (SPtr q))).
    assert (kid_spec p (S k) child) as Hkid.
    { intros s1 i Hi Hcur1 Hheap1 Hfit1. pose proof (bound1 p i Hp ltac:(lia) Hi) as Hi64.
      destruct (IH (S n) (p ++ [i]) i (key_of_path 1 p * 64 ^ N.of_nat (D - n) + block_start D n i)%N s1) as (s' & a & E & H1 & H2 & P & J & H3 & H4).
      + rewrite app_length. cbn. lia.
      + lia.
      + apply path_child; [done|lia|done].
      + subst n. apply (l_selectS_u L); [done|done|by rewrite Hnw|lia|done].
      + by rewrite block_start_ok by (done || lia).
      + done.
      + done.
      + unfold child. rewrite E. cbn [rbind]. exists s', (Some (SPtr (PHeap a))), P, J. split; [done|].
        split; [|split; [done|split; [done|]]].
        * apply (l_Ru_take L _ _ _ (length p)) in H1. by rewrite take_app in H1.
        * cbn. unfold childs0. rewrite decide_True by lia. destruct (P !! (p ++ [i])); [|done]. cbn in *. congruence. }
    destruct (build_raw (with_cur s c) w p (S k) child Hp ltac:(lia) Hw Hwk Hkid) as (s' & a & E & Hb); try done.
    { intros s1 i s2 o. unfold child. intros ([s3 q] & _ & [= <- <-])%bind_ok_inv. eauto. }
    exists s', a. split.
    + rewrite <- E. unfold kind_at, empty_at. rewrite !decide_True by lia.
      replace (mask_count_ones [w]) with (popcount w) by (unfold mask_count_ones; cbn; lia).
      destruct (raw_new KPtr (m_heap (with_cur s c)) (popcount w + 1) w) as [h raw]. rewrite (traverse_m_ok 1) by done. rewrite mbits_single, Hwk by done.
      erewrite fold_res_ext.
      2:{ intros s1 i. instantiate (1 := fun s i => let* (s, o) := child s i in
            match o with Some c => let* h := raw_push KPtr (m_heap s) raw c in Ok (with_heap s h) | None => UB end).
          cbn beta. unfold child. destruct (from_exact _ _ _ _ _ _ _) as [[s2 q]| | |]; reflexivity. }
      destruct (fold_res _ _ _) as [s2| | |]; cbn [rbind]; try done.
      unfold empty_node, EMPTY_LEN. rewrite !decide_True by lia. cbn [rbind]. by rewrite Hn.
    + destruct Hb as (H1 & [G1 G2 G3 G4 G5] & H2). split; [done|]. split; [by constructor|done].
Qed.

(** ** the non-exact version *)
Hypothesis Hfx2 : forall k w cs e, fx (Node k w (length cs + 1) (length cs) (cs ++ [e])) =
  Node k w (length cs + 1) (S (popcount w)) (cs ++ [e]).

Record vec_inv (s0 : mst t) (p : list N) (k : nat) (l : list N) (s : mst t) (w : N) (cs : list slot)
    (P J : gmap (list N) N) : Prop := VecInv {
  vi_cur : l_Ru L src (m_cur s) p;
  vi_grown : grown s0 s (l ≫= (fun i => leaves k (p ++ [i])));
  vi_word : word_ok w;
  vi_bits : forall i, i ∈ wbits w <-> i ∈ l /\ is_Some (childs D P J None p i);
  vi_childs : Forall2 (fun i s => childs D P J None p i = Some s) (wbits w) cs;
  vi_part : part (m_heap s) (h_next (m_heap s0)) (h_next (m_heap s)) (forest p l) (l ≫= (fun i => leaves k (p ++ [i]))) (length (m_data s0)) P J;
}.

Lemma fold_vec s0 p k child l2 : path_ok 1 (length p) p -> length p < D -> 
  kid_spec p k child -> heap_ok (m_heap s0) ->
  fits s0 (kids p ≫= (fun i => leaves k (p ++ [i]))) ->
  forall l1 s w cs P J, kids p = l1 ++ l2 -> vec_inv s0 p k l1 s w cs P J ->
  exists s' w' cs' P' J', fold_res (fun '(s, m, cs) i => let* (s, o) := child s i in
      match o with
      | Some c => let* (m, _) := mask_set_bit true m i in if decide (length cs < 64) then Ok (s, m, cs ++ [c]) else UB
      | None => Ok (s, m, cs) end) l2 (s, [w], cs) = Ok (s', [w'], cs') /\
    vec_inv s0 p k (kids p) s' w' cs' P' J'.
Proof.
  intros Hp HpD Hkid Hheap0 Hfit.
  induction l2 as [|i l2 IH]; intros l1 s w cs P J Hk VI; cbn [fold_res].
  { rewrite app_nil_r in Hk. rewrite Hk. exists s, w, cs, P, J. done. }
  destruct VI as [Hcur Hgrown Hw Hbits Hchilds Hpart].
  assert (tm p i = true) as Hi. { apply kids1; [done..|]. rewrite Hk. apply elem_of_app. right. by left. }
  pose proof (bound1 p i Hp HpD Hi) as Hi64.
  assert (StronglySorted N.lt (kids p)) as Hsort by (apply ssorted_filter, seqN_sorted).
  assert (forall j, j ∈ l1 -> (j < i)%N) as Hlast.
  { rewrite Hk in Hsort. intros j Hj. clear -Hsort Hj. induction l1 as [|x l1 IHl]; [by apply elem_of_nil in Hj|].
    cbn in Hsort. inversion_clear Hsort as [|? ? Hs Hf]. apply elem_of_cons in Hj as [->|Hj]; [|by apply IHl].
    rewrite Forall_forall in Hf. apply Hf. apply elem_of_app. right. by left. }
  assert (i ∉ l1) as Hnew by (intros Hin; apply Hlast in Hin; lia).
  set (ls1 := l1 ≫= (fun i => leaves k (p ++ [i]))) in *.
  assert (fits s (leaves k (p ++ [i]))) as Hfits.
  { unfold fits in *. rewrite (gr_data _ _ _ Hgrown), app_length, fmap_length. rewrite Hk, bind_app, bind_cons, !app_length in Hfit.
    unfold ls1. lia. }
  destruct (Hkid s i Hi Hcur (gr_heap _ _ _ Hgrown) Hfits) as (s1 & o & P2 & J2 & Hch & Hcur1 & [Gh Gn Gf Gd Gk] & Pt2 & Ho).
  rewrite Hch, bind_ok.
  assert (forall q, forest p l1 q -> p ++ [i] `prefix_of` q -> False) as Hdisj by (intros q; by apply forest_disj).
  assert (part (m_heap s1) (h_next (m_heap s0)) (h_next (m_heap s)) (forest p l1) ls1 (length (m_data s0)) P J) as Pt1.
  { eapply part_frame; [|exact Hpart]. intros b Hb. apply Gf. lia. }
  assert (grown s0 s1 ((l1 ++ [i]) ≫= (fun i => leaves k (p ++ [i])))) as Hgrown1.
  { destruct Hgrown as [Gh0 Gn0 Gf0 Gd0 Gk0]. rewrite bind_app, bind_cons, bind_nil, app_nil_r. fold ls1. constructor.
    - done.
    - lia.
    - intros b Hb. rewrite Gf by lia. by apply Gf0.
    - by rewrite Gd, Gd0, <- app_assoc, fmap_app.
    - by rewrite Gk, Gk0, <- app_assoc, fmap_app. }
  assert (part (m_heap s1) (h_next (m_heap s0)) (h_next (m_heap s1)) (forest p (l1 ++ [i]))
            ((l1 ++ [i]) ≫= (fun i => leaves k (p ++ [i]))) (length (m_data s0)) (P ∪ P2) (J ∪ J2)) as Ptu.
  { rewrite bind_app, bind_cons, bind_nil, app_nil_r. fold ls1.
    eapply part_F; [|eapply (part_union _ _ _ _ _ (h_next (m_heap s))); [apply up_forest|apply up_prefix|exact Hdisj| |exact Pt1|]].
    - intros q. by rewrite forest_snoc.
    - pose proof (gr_next _ _ _ Hgrown). lia.
    - rewrite (gr_data _ _ _ Hgrown), app_length, fmap_length in Pt2. exact Pt2. }
  assert (forall j, j ∈ l1 -> childs D (P ∪ P2) (J ∪ J2) None p j = childs D P J None p j) as Hc1.
  { intros j Hj. destruct (union_childs _ _ _ _ _ _ _ _ _ _ _ _ _ _ _ p j Hdisj Pt1 Pt2) as [E _]. apply E. exists j. done. }
  assert (childs D (P ∪ P2) (J ∪ J2) None p i = o) as Hc2.
  { destruct (union_childs _ _ _ _ _ _ _ _ _ _ _ _ _ _ _ p i Hdisj Pt1 Pt2) as [_ E]. by rewrite E. }
  assert (Forall2 (fun i s => childs D (P ∪ P2) (J ∪ J2) None p i = Some s) (wbits w) cs) as Hch1.
  { apply Forall2_same_length_lookup_2; [by eapply Forall2_length|]. intros x j c' Hj Hc'.
    rewrite Hc1; [by destruct (Forall2_lookup_lr _ _ _ _ _ _ Hchilds Hj Hc')|].
    apply elem_of_list_lookup_2, Hbits in Hj. by destruct Hj. }
  destruct o as [c|].
  - destruct (mask_set_bit_ok true 1 [w] i) as (m' & Hset & [Hml Hmw] & Hmb); [by split; [|constructor]|done|].
    rewrite Hset, bind_ok. destruct m' as [|w' [|? ?]]; try done. apply Forall_cons in Hmw as [Hw' _].
    assert (wbits w' = wbits w ++ [i]) as Hwb.
    { apply ssorted_ext; [apply wbits_sorted|apply ssorted_app; [apply wbits_sorted|by repeat constructor|]|].
      - intros x y Hx ->%elem_of_list_singleton. apply Hbits in Hx as [Hx _]. by apply Hlast.
      - intros j. rewrite elem_of_app, elem_of_list_singleton, !elem_of_wbits.
        specialize (Hmb j). rewrite !mbit_single in Hmb by done. rewrite Hmb. destruct (N.eqb_spec j i); naive_solver. }
    pose proof (Forall2_length _ _ _ Hchilds) as Hcl. pose proof (wbits_length w') as Hwl. rewrite Hwb, app_length in Hwl. cbn in Hwl.
    rewrite decide_True by lia. apply (IH (l1 ++ [i]) s1 w' (cs ++ [c]) (P ∪ P2) (J ∪ J2)); [by rewrite <- app_assoc|].
    constructor; [done|done|done| | |done].
    + intros j. rewrite Hwb, !elem_of_app, !elem_of_list_singleton, Hbits. split.
      * intros [[Hj Hs]| ->]; [split; [by left|by rewrite Hc1]|]. split; [by right|]. rewrite Hc2. eauto.
      * intros [[Hj| ->] Hs]; [|by right]. left. split; [done|]. by rewrite Hc1 in Hs.
    + rewrite Hwb. apply Forall2_app; [done|]. by repeat constructor.
  - apply (IH (l1 ++ [i]) s1 w cs (P ∪ P2) (J ∪ J2)); [by rewrite <- app_assoc|].
    constructor; [done|done|done| |done|done].
    intros j. rewrite Hbits, elem_of_app, elem_of_list_singleton. split.
    + intros [Hj Hs]. split; [by left|by rewrite Hc1].
    + intros [[Hj| ->] Hs]; [split; [done|by rewrite Hc1 in Hs]|]. rewrite Hc2 in Hs. by destruct Hs.
Qed.

Lemma leaves_length k p q : length p + k = D -> path_ok 1 (length p) p -> q ∈ leaves k p -> length q = D.
Proof.
  intros Hl Hp Hq. apply (elem_of_leaves L src Hwf) in Hq as (r & -> & Hr & _); [|done|by rewrite Hnw]. rewrite app_length. lia.
Qed.
(** nothing built below [p]: the part is empty *)
Lemma part_void h lo hi p l ls off P J : (lo <= hi)%N -> part h lo hi (forest p l) ls off P J ->
  S (length p) < D -> (forall q, q ∈ ls -> length q = D) -> (forall i, i ∈ l -> childs D P J None p i = None) ->
  P = ∅ /\ ls = [] /\ hi = lo.
Proof.
  intros Hle Pt HpD Hlen Hno.
  assert (forall i, P !! (p ++ [i]) = None) as Hno1.
  { intros i. destruct (P !! (p ++ [i])) as [a|] eqn:E; [|done].
    destruct (pt_path _ _ _ _ _ _ _ _ _ _ _ Pt _ _ E) as ((j & Hj & Hpre) & _).
    assert (j = i) as ->. { destruct Hpre as [r Hr]. rewrite <- app_assoc in Hr. apply app_inv_head in Hr. by injection Hr. }
    specialize (Hno i Hj). cbn in Hno. unfold childs0 in Hno. rewrite decide_True in Hno by lia. by rewrite E in Hno. }
  assert (forall q, P !! q = None) as HP.
  { intros q. destruct (P !! q) as [a|] eqn:E; [|done]. exfalso.
    destruct (pt_path _ _ _ _ _ _ _ _ _ _ _ Pt _ _ E) as ((j & Hj & r & Hr) & _). subst q. revert a E.
    induction r as [|x r IHr] using rev_ind; intros a E.
    - rewrite app_nil_r in E. by rewrite Hno1 in E.
    - rewrite app_assoc in E. destruct (pt_parent _ _ _ _ _ _ _ _ _ _ _ Pt _ _ _ E) as [[b Hb] _]; [|by eapply IHr].
      exists j. split; [done|]. by exists r. }
  assert (P = ∅) as -> by (apply map_empty; done). split; [done|]. split.
  - destruct ls as [|q ls]; [done|exfalso].
    assert (J !! q = Some (N.of_nat (off + 0))) as HJ by (apply (pt_J _ _ _ _ _ _ _ _ _ _ _ Pt); exists 0; done).
    pose proof (Hlen q ltac:(by left)) as Hql. destruct q as [|x q _] using rev_ind; [cbn in Hql; lia|].
    rewrite app_length in Hql. cbn in Hql.
    destruct (pt_ls _ _ _ _ _ _ _ _ _ _ _ Pt (q ++ [x]) ltac:(by left)) as (j & Hj & Hpre).
    apply prefix_down in Hpre as [Hpre|Hpre].
    + destruct (pt_jpar _ _ _ _ _ _ _ _ _ _ _ Pt _ _ _ HJ) as [b Hb]; [by exists j|]. by rewrite lookup_empty in Hb.
    + apply app_one_inj in Hpre as [-> _]. lia.
  - destruct (decide (hi = lo)); [done|]. destruct (pt_dom _ _ _ _ _ _ _ _ _ _ _ Pt lo) as [q Hq]; [lia|]. by rewrite lookup_empty in Hq.
Qed.

Lemma from_sparse_ok k : forall n p index key_acc s,
  length p = n -> n + S k = D -> path_ok 1 (length p) p ->
  (exists c m, t_select_u t src (m_cur s) n index = Ok (c, m) /\ mask_is (t_nw t) m (tm p) /\ l_Ru L src c p) ->
  key_acc = (key_of_path 1 p * 64 ^ N.of_nat (D - n))%N -> heap_ok (m_heap s) -> fits s (leaves (S k) p) ->
  exists s' o, from_sparse t src k n index key_acc s = Ok (s', o) /\ built s p (S k) s' o.
Proof.
  induction k as [|k IH]; intros n p index key_acc s Hn HnD Hp (c & m & Hsel & Hm & Hcur) -> Hheap Hfit;
    cbn [from_sparse]; rewrite Hsel, bind_ok.
  - replace (D - n) with 1 by lia. change (64 ^ N.of_nat 1)%N with 64%N.
    destruct (terminal_ok (with_cur s c) m p (mask_count_ones m + 1)) as (s' & a & E & Hb); try done; [lia|].
    rewrite E, bind_ok. exists s', (Some (PHeap a)). split; [done|].
    destruct Hb as (H1 & [G1 G2 G3 G4 G5] & H2). split; [done|]. split; [by constructor|done].
  - destruct (mask1 p m Hp ltac:(lia) Hm) as (w & -> & Hw & Hwk & Hmok).
    set (child := fun (s : mst t) i => let* (s, q) := from_sparse t src k (S n) i (key_of_path 1 p * 64 ^ N.of_nat (D - n) + block_start D n i)%N s in
                     Ok (s, SPtr <$> q)).
    assert (kid_spec p (S k) child) as Hkid.
    { intros s1 i Hi Hcur1 Hheap1 Hfit1. pose proof (bound1 p i Hp ltac:(lia) Hi) as Hi64.
      destruct (IH (S n) (p ++ [i]) i (key_of_path 1 p * 64 ^ N.of_nat (D - n) + block_start D n i)%N s1) as (s' & o & E & H1 & H2 & P & J & H3 & H4).
      + rewrite app_length. cbn. lia.
      + lia.
      + apply path_child; [done|lia|done].
      + subst n. apply (l_selectS_u L); [done|done|by rewrite Hnw|lia|done].
      + by rewrite block_start_ok by (done || lia).
      + done.
      + done.
      + unfold child. rewrite E. cbn [rbind]. exists s', (SPtr <$> o), P, J. split; [done|].
        split; [|split; [done|split; [done|]]].
        * apply (l_Ru_take L _ _ _ (length p)) in H1. by rewrite take_app in H1.
        * cbn. unfold childs0. rewrite decide_True by lia. rewrite H4. by destruct (P !! (p ++ [i])). }
    set (s0 := with_cur s c).
    assert (vec_inv s0 p (S k) [] s0 0 [] ∅ ∅) as VI.
    { constructor; try done.
      - constructor; try done; cbn; by rewrite app_nil_r.
      - intros i. rewrite wbits_0, !elem_of_nil. naive_solver.
      - rewrite wbits_0. constructor.
      - apply part_empty. }
    destruct (fold_vec s0 p (S k) child (kids p) Hp ltac:(lia) Hkid Hheap Hfit [] s0 0%N [] ∅ ∅ eq_refl VI) as (s1 & w' & cs & P & J & E & VI1).
    rewrite (traverse_m_ok 1) by done. rewrite mbits_single, Hwk by done.
    erewrite fold_res_ext.
    2:{ intros [[s1' nm] cs'] i. instantiate (1 := fun '(s, m, cs) i => let* (s, o) := child s i in
      match o with
      | Some c => let* (m, _) := mask_set_bit true m i in if decide (length cs < 64) then Ok (s, m, cs ++ [c]) else UB
      | None => Ok (s, m, cs) end). cbn beta iota. unfold child.
      destruct (from_sparse _ _ _ _ _ _ _) as [[s2 [q|]]| | |]; reflexivity. }
    change (mask_zero 1) with [0%N]. rewrite E, bind_ok.
    destruct VI1 as [Hcur1 Hgrown Hw' Hbits Hchilds Hpart]. pose proof (Forall2_length _ _ _ Hchilds) as Hcl.
    change (h_next (m_heap s0)) with (h_next (m_heap s)) in Hpart. change (m_data s0) with (m_data s) in Hpart.
    assert (grown s s1 (leaves (S (S k)) p)) as Hgrown'.
    { destruct Hgrown as [G1 G2 G3 G4 G5]. by constructor. }
    destruct (decide (cs = [])) as [->|Hne].
    + exists s1, None. split; [done|]. split; [done|]. split; [done|].
      assert (forall i, i ∈ kids p -> childs D P J None p i = None) as Hno.
      { intros i Hi. destruct (childs D P J None p i) eqn:Ec; [|done]. exfalso.
        assert (i ∈ wbits w') as Hin by (apply Hbits; rewrite Ec; eauto).
        destruct (wbits w'); [by apply elem_of_nil in Hin|done]. }
      destruct (part_void _ _ _ _ _ _ _ _ _ (gr_next _ _ _ Hgrown') Hpart ltac:(lia)) as (-> & Hls & Hhi); [|done|].
      * intros q Hq. apply (leaves_length (S (S k)) p); [lia|done|]. exact Hq.
      * exists ∅, ∅. split; [|done]. change (leaves (S (S k)) p) with (kids p ≫= (fun i => leaves (S k) (p ++ [i]))).
        rewrite Hls, Hhi. apply part_empty.
    + unfold empty_node, EMPTY_LEN. rewrite !decide_True by lia. cbn [rbind get_u lookup list_lookup]. unfold from_parts, halloc.
      set (a := h_next (m_heap s1)). eexists _, (Some (PHeap a)). split; [reflexivity|]. split; [done|].
      destruct Hgrown' as [G1 G2 G3 G4 G5]. split.
      * constructor; cbn [with_heap m_cur m_heap m_data m_keys h_nodes h_next]; try done.
        -- intros b. cbn [h_nodes h_next]. rewrite lookup_insert_is_Some. intros [<-|[_ Hb]]; [unfold a; lia|]. apply G1 in Hb. unfold a. lia.
        -- unfold a. lia.
        -- intros b Hb. rewrite lookup_insert_ne by (unfold a; lia). by apply G3.
      * exists (<[p := a]> P), J. split; [|by rewrite lookup_insert]. cbn [with_heap m_cur m_heap m_data m_keys h_nodes h_next].
        eapply (part_cons D tm fx _ (h_next (m_heap s)) a _ _ p (kids p) _ _ _ _ a); [done|lia| | | | | | |].
        -- eapply part_frame; [|exact Hpart]. intros b Hb. cbn [h_nodes]. rewrite lookup_insert_ne by (unfold a in *; lia). done.
        -- intros b. unfold a. lia.
        -- lia.
        -- cbn [h_nodes]. by rewrite lookup_insert.
        -- cbn [n_kind]. unfold kind_at. by rewrite decide_True by lia.
        -- rewrite Hfx2. replace (length cs + 1) with (popcount w' + 1) by (rewrite popcount_wbits by done; lia).
           unfold empty_at. rewrite decide_True by lia. rewrite Hn. apply packed_rep; [done| |done].
           intros i. rewrite Hbits. split; [by intros [_ ?]|]. intros Hs. split; [|done].
           destruct (decide (i ∈ kids p)) as [|Hnot]; [done|]. rewrite (part_absent _ _ _ _ _ _ _ _ _ _ Hpart Hnot) in Hs. by destruct Hs.
        -- intros i. by rewrite kids1 by (done || lia).
Qed.
End rec.
