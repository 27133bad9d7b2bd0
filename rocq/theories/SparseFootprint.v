(** * The cells touched by the operations of SparseTree *)
From Verif Require Import Base BitUtils LevelIndices ConstLoops Hierarchy Dense Sparse Footprint DenseFootprint.

(** ** the levels: the cells are the blocks, the header holds each level's block count and free-list root *)
Definition vpeek (ls : list level) (c : nat * nat) : option block := ls !! c.1 ≫= fun l => lv_blocks l !! c.2.
Definition lhead (l : level) : option (nat * N) := match l with LSingle _ => None | LList bs r => Some (length bs, r) end.
Definition vhead (ls : list level) : list (option (nat * N)) := lhead <$> ls.
Notation vrd := (rd vpeek vhead).
Notation vfp := (fp vpeek vhead).
Notation mkv := (fun (_ : unit) (ls : list level) => ls).
Implicit Types (ls : list level) (F : list (nat * nat)).

(** the cells of level [n] *)
Definition at_level (n : nat) F : list nat := snd <$> filter (fun c => c.1 = n) F.
Lemma in_at_level n F i : i ∈ at_level n F <-> (n, i) ∈ F.
Proof.
  unfold at_level. rewrite elem_of_list_fmap. split.
  - intros ([n' i'] & -> & [Hn Hi]%elem_of_list_filter). cbn in *. by subst.
  - intros H. exists (n, i). split; [done|]. by apply elem_of_list_filter.
Qed.
Lemma lhead_length l l' : lhead l' = lhead l -> length (lv_blocks l') = length (lv_blocks l).
Proof. destruct l, l'; cbn; try done. by intros [= -> _]. Qed.
Lemma agree_level F ls ls' n l : agree vpeek vhead F ls ls' -> ls !! n = Some l ->
  exists l', ls' !! n = Some l' /\ lhead l' = lhead l /\ agree lpeek length (at_level n F) (lv_blocks l) (lv_blocks l').
Proof.
  intros [Hh Hc] Hl. assert (vhead ls' !! n = vhead ls !! n) as Hn by (by rewrite Hh). unfold vhead in Hn. rewrite !list_lookup_fmap, Hl in Hn. cbn in Hn.
  destruct (ls' !! n) as [l'|] eqn:Hl'; [|done]. cbn in Hn. injection Hn as Hn. exists l'. split_and!; [done|done|]. split; [by apply lhead_length|].
  intros i Hi. apply in_at_level in Hi. specialize (Hc _ Hi). unfold vpeek in Hc. cbn in Hc. by rewrite Hl, Hl' in Hc.
Qed.
Lemma patched_level F ls ls' n l l' l1 l1' : agree vpeek vhead F ls ls' -> ls !! n = Some l -> ls' !! n = Some l' -> lhead l1' = lhead l1 ->
  patched lpeek length (at_level n F) (lv_blocks l') (lv_blocks l1) (lv_blocks l1') ->
  patched vpeek vhead F ls' (<[n := l1]> ls) (<[n := l1']> ls').
Proof.
  intros [Hh Hc] Hl Hl' Hhd [_ Hp]. split.
  - unfold vhead in *. rewrite !list_fmap_insert. by rewrite Hh, Hhd.
  - intros [m i]. unfold vpeek in *. cbn. destruct (decide (n = m)) as [<-|Hne].
    + rewrite !list_lookup_insert by (by eapply lookup_lt_Some). cbn. specialize (Hp i). unfold lpeek in Hp. rewrite Hp, Hl'. cbn.
      destruct (decide (i ∈ at_level n F)) as [H|H], (decide ((n, i) ∈ F)) as [H'|H']; rewrite in_at_level in H; done.
    + rewrite !list_lookup_insert_ne by done. case_decide as Hi; [|done]. by apply (Hc (m, i)).
Qed.
(** the general step: one level is replaced *)
Lemma fp_level {A} F n (f : level -> res (level * A)) ls l l1 (a : A) : ls !! n = Some l -> f l = Ok (l1, a) ->
  (forall l', lhead l' = lhead l -> agree lpeek length (at_level n F) (lv_blocks l) (lv_blocks l') ->
    exists l1', f l' = Ok (l1', a) /\ lhead l1' = lhead l1 /\ patched lpeek length (at_level n F) (lv_blocks l') (lv_blocks l1) (lv_blocks l1')) ->
  vfp F (fun a ls => (ls, a)) (fun ls => let* l := lv_at ls n in let* (l, a) := f l in Ok (<[n := l]> ls, a)) ls a (<[n := l1]> ls).
Proof.
  intros Hl E Hf. split.
  - destruct (Hf l eq_refl (agree_refl _ _ _ _)) as (l1' & E' & _ & Hp). assert (l1' = l1) as -> by congruence. by apply (patched_level F ls ls n l l).
  - intros ls' Ha. destruct (agree_level F ls ls' n l Ha Hl) as (l' & Hl' & Hh & Hag). destruct (Hf l' Hh Hag) as (l1' & E' & Hh1 & Hp).
    exists (<[n := l1']> ls'). unfold lv_at, get_c. rewrite Hl', bind_ok, E', bind_ok. split; [done|]. by apply (patched_level F ls ls' n l l').
Qed.

Lemma rd_get_block F ls n i b : (n, N.to_nat i) ∈ F -> get_block ls n i = Ok b -> vrd F (fun ls => get_block ls n i) ls b.
Proof.
  intros HF E ls' Ha. unfold get_block, lv_at, get_c in *. destruct (ls !! n) as [l|] eqn:Hl; [|done]. rewrite bind_ok in E.
  destruct (agree_level F ls ls' n l Ha Hl) as (l' & Hl' & Hh & Hag). rewrite Hl', bind_ok. unfold lv_get in *.
  by apply (rd_get (at_level n F) (lv_blocks l)); [apply in_at_level|..].
Qed.
Lemma blocks_with l bs : length bs = length (lv_blocks l) -> lv_blocks (lv_with_blocks l bs) = bs.
Proof. destruct l as [b|]; cbn; [|done]. destruct bs as [|x [|]]; done. Qed.
Lemma lhead_with l l' bs bs' : lhead l' = lhead l -> length bs = length (lv_blocks l) -> length bs' = length (lv_blocks l') -> lhead (lv_with_blocks l' bs') = lhead (lv_with_blocks l bs).
Proof. destruct l as [|x r], l' as [|x' r']; cbn; try done. intros [= H1 H2]. congruence. Qed.
Lemma set_length {A} (l : list A) i a l1 : set_u l i a = Ok l1 -> length l1 = length l.
Proof. unfold set_u. case_decide; [|done]. intros [= <-]. apply insert_length. Qed.
Lemma fp_put_block F ls n i b ls1 : (n, N.to_nat i) ∈ F -> put_block ls n i b = Ok ls1 -> vfp F mkv (fun ls => put_block ls n i b) ls tt ls1.
Proof.
  intros HF E. unfold put_block, lv_at, get_c in E. destruct (ls !! n) as [l|] eqn:Hl; [|done]. rewrite bind_ok in E. inv E. injection E as <-. rename x into l1.
  assert (lv_set l i b = Ok l1) as Es by done. unfold lv_set in H. inv H. injection H as <-. rename x into bs.
  pose proof (fp_level F n (fun l => let* l := lv_set l i b in Ok (l, ())) ls l (lv_with_blocks l bs) () Hl) as Hf. cbn beta in Hf.
  rewrite Es, bind_ok in Hf. specialize (Hf eq_refl).
  assert (vfp F (fun a ls => (ls, a)) (fun ls => let* l := lv_at ls n in let* (l, a) := let* l := lv_set l i b in Ok (l, ()) in Ok (<[n := l]> ls, a)) ls () (<[n := lv_with_blocks l bs]> ls)) as [Hp Hg].
  { apply Hf. intros l' Hh Ha. destruct (fp_set (at_level n F) (lv_blocks l) (N.to_nat i) b bs ltac:(by apply in_at_level) H0) as [_ Hs].
    destruct (Hs _ Ha) as (bs' & Eb & Pb). exists (lv_with_blocks l' bs'). unfold lv_set. rewrite Eb. split; [done|].
    pose proof (set_length _ _ _ _ H0) as L1. pose proof (set_length _ _ _ _ Eb) as L2. split; [by apply lhead_with|]. by rewrite !blocks_with. }
  split; [exact Hp|]. intros ls' Ha. destruct (Hg ls' Ha) as (ls1' & E1 & P1). exists ls1'. split; [|done]. unfold put_block.
  apply bind_ok_inv in E1 as (l' & E1 & E2). rewrite E1, bind_ok. apply bind_ok_inv in E2 as ([l2 []] & E2 & E3). apply bind_ok_inv in E2 as (l3 & E2 & E4).
  injection E4 as ->. rewrite E2, bind_ok. cbn beta iota in E3. by injection E3 as <-.
Qed.
Lemma fp_insert_child F ls n blk i it ls1 : (n, N.to_nat blk) ∈ F -> insert_child ls n blk i it = Ok ls1 -> vfp F mkv (fun ls => insert_child ls n blk i it) ls tt ls1.
Proof.
  intros HF E. unfold insert_child in *. inv E. eapply (fp_rd vpeek vhead _ (fun ls => get_block ls n blk)); [by apply rd_get_block|].
  inv E. eapply fp_pure; [done|]. by apply fp_put_block.
Qed.
Notation mkva := (fun (a : N) (ls : list level) => (ls, a)).
Lemma lv_insert_patch nw FL l l1 new : N.to_nat new ∈ FL -> lv_insert_empty nw l = Ok (l1, new) -> forall l', lhead l' = lhead l -> agree lpeek length FL (lv_blocks l) (lv_blocks l') ->
  exists l1', lv_insert_empty nw l' = Ok (l1', new) /\ lhead l1' = lhead l1 /\ patched lpeek length FL (lv_blocks l') (lv_blocks l1) (lv_blocks l1').
Proof.
  intros HF E l' Hh Ha. destruct l as [b|bs r]; [done|]. destruct l' as [|bs' r']; [done|]. cbn in Hh, Ha. injection Hh as Hlen ->. cbn in E |- *. unfold lv_pop in *.
  destruct (r =? U64MAX)%N eqn:Er.
  - rewrite bind_ok in *. cbn beta iota in *. injection E as <- <-. exists (LList (bs' ++ [blk_empty nw]) r). rewrite Hlen. split; [done|]. cbn.
    split; [rewrite !app_length; cbn; by rewrite Hlen|]. rewrite Nat2N.id in HF. destruct (fp_push FL bs (blk_empty nw) HF) as [_ Hs].
    destruct (Hs _ Ha) as (x & [= <-] & Px). exact Px.
  - apply bind_ok_inv in E as ([[bs1 r1] o1] & E1 & E). cbn beta iota in E. cbn zeta in E1. inv E1. inv E1. inv E1. inv E1. injection E1 as -> -> <-. cbn beta iota in E. injection E as <- <-.
    rewrite (rd_get FL bs _ _ HF H bs' Ha), bind_ok. rewrite H0, bind_ok, H1, bind_ok.
    destruct (fp_set FL bs _ _ _ HF H2) as [_ Hs]. destruct (Hs _ Ha) as (y & Ey & Py). rewrite Ey, bind_ok. cbn beta iota. rewrite bind_ok. cbn beta iota.
    exists (LList y r1). split; [done|]. cbn. split; [|done]. pose proof (set_length _ _ _ _ H2). pose proof (set_length _ _ _ _ Ey). by rewrite (proj1 Py).
Qed.
(** the block-taking branch of `get_or_insert_impl` (sparse_tree.rs:409-420) *)
Definition take_block (nw : nat) ls (n : nat) : res (list level * N) :=
  let* l := lv_at ls n in let* (l, new) := lv_insert_empty nw l in Ok (<[n := l]> ls, new).
Lemma fp_take_block nw F ls n ls1 new : (n, N.to_nat new) ∈ F -> take_block nw ls n = Ok (ls1, new) -> vfp F mkva (fun ls => take_block nw ls n) ls new ls1.
Proof.
  intros HF E. unfold take_block in *. inv E. inv E. destruct x0 as [l1 a]. injection E as <- ->. unfold lv_at, get_c in H. destruct (ls !! n) as [l|] eqn:Hl; [|done]. injection H as ->.
  apply (fp_level F n (lv_insert_empty nw) ls x l1 new Hl H0). intros l' Hh Ha. apply (lv_insert_patch nw _ x l1 new); [by apply in_at_level|done..].
Qed.
(** giving an emptied block back (sparse_tree.rs:319-321) *)
Definition give_block ls (n : nat) (i : N) : res (list level) := let* l := lv_at ls n in let* l := lv_remove_empty l i in Ok (<[n := l]> ls).
Lemma fp_give_block F ls n i ls1 : (n, N.to_nat i) ∈ F -> give_block ls n i = Ok ls1 -> vfp F mkv (fun ls => give_block ls n i) ls tt ls1.
Proof.
  intros HF E. unfold give_block in *. inv E. inv E. injection E as <-. rename x0 into l1. unfold lv_at, get_c in H. destruct (ls !! n) as [l|] eqn:Hl; [|done]. injection H as ->. rename x into l.
  pose proof (fp_level F n (fun l => let* l := lv_remove_empty l i in Ok (l, ())) ls l l1 () Hl) as Hf. cbn beta in Hf. rewrite H0, bind_ok in Hf. specialize (Hf eq_refl).
  assert (vfp F (fun a ls => (ls, a)) (fun ls => let* l := lv_at ls n in let* (l, a) := let* l := lv_remove_empty l i in Ok (l, ()) in Ok (<[n := l]> ls, a)) ls () (<[n := l1]> ls)) as [Hp Hg].
  { apply Hf. intros l' Hh Ha. destruct l as [b|bs r]; [done|]. destruct l' as [|bs' r']; [done|]. cbn in Hh, Ha. injection Hh as Hlen ->. cbn in H0 |- *.
    inv H0. inv H0. inv H0. injection H0 as <-. assert (N.to_nat i ∈ at_level n F) as HL by (by apply in_at_level).
    rewrite (rd_get _ bs _ _ HL H bs' Ha), bind_ok, H1, bind_ok. destruct (fp_set _ bs _ _ _ HL H2) as [_ Hs]. destruct (Hs _ Ha) as (y & Ey & Py). rewrite Ey, bind_ok.
    exists (LList y i). split; [done|]. cbn. split; [|done]. by rewrite (proj1 Py). }
  split; [exact Hp|]. intros ls' Ha. destruct (Hg ls' Ha) as (ls1' & E1 & P1). exists ls1'. split; [|done].
  apply bind_ok_inv in E1 as (l' & E1 & E2). rewrite E1, bind_ok. apply bind_ok_inv in E2 as ([l2 []] & E2 & E3). apply bind_ok_inv in E2 as (l3 & E2 & E4).
  injection E4 as ->. rewrite E2, bind_ok. cbn beta iota in E3. by injection E3 as <-.
Qed.

(** ** walks *)
Lemma rd_fetch ix : forall k ls n i r, fetch_loop ls ix k n i = Ok r ->
  exists F, length F <= k /\ vrd F (fun ls => fetch_loop ls ix k n i) ls r.
Proof.
  induction k as [|k IH]; intros ls n i r E; cbn [fetch_loop] in *.
  - exists []. split; [done|]. rewrite E. apply rd_ret.
  - inv E. inv E. inv E. inv E. destruct x2 as [out last]. destruct (IH _ _ _ _ H2) as (F & HF & Hr). exists ((n, N.to_nat i) :: F). split; [cbn; lia|].
    eapply (rd_bind vpeek vhead _ (fun ls => get_block ls n i)); [by apply rd_get_block; [left|]|]. eapply rd_pure; [done|]. eapply rd_pure; [done|].
    eapply (rd_bind vpeek vhead _ (fun ls => fetch_loop ls ix k (S n) x1)); [eapply rd_weaken; [|exact Hr]; set_solver|]. injection E as <-. apply (rd_ret vpeek vhead).
Qed.
Notation mkgo := (fun (a : N) (ls : list level) => ((ls, a), None : option unit)).
Lemma fp_sgoi_body nw ix n ls i r : sgoi_body nw ix (ls, i) n = Ok r ->
  exists F ls1 i1, length F <= 2 /\ r = ((ls1, i1), None) /\ vfp F mkgo (fun ls => sgoi_body nw ix (ls, i) n) ls i1 ls1.
Proof.
  intros E. unfold sgoi_body in *. inv E. inv E. inv E. rename x into ii, x0 into b, x1 into next. destruct (next =? 0)%N eqn:En.
  - inv E. inv E. destruct x0 as [l1 new]. cbn zeta in E. inv E. injection E as <-.
    assert (take_block nw ls (S n) = Ok (<[S n := l1]> ls, new)) as Et by (unfold take_block; by rewrite H2, bind_ok, H3, bind_ok).
    set (F := [(n, N.to_nat i); (S n, N.to_nat new)]). exists F, x0, new. split; [done|]. split; [done|].
    eapply fp_pure; [done|]. eapply (fp_rd vpeek vhead _ (fun ls => get_block ls n i)); [by apply rd_get_block; [left|]|]. eapply fp_pure; [done|]. rewrite En.
    assert (vfp F mkgo (fun ls => let* (ls, new) := take_block nw ls (S n) in let* ls := insert_child ls n i ii new in Ok ((ls, new), None)) ls new x0) as [Hp Hg].
    { eapply (fp_bind vpeek vhead _ _ _ mkva); [apply fp_take_block; [right; left|exact Et]|]. cbn beta iota.
      eapply (fp_bind vpeek vhead _ _ _ mkv); [by apply fp_insert_child; [left|]|]. cbn beta. apply (fp_ret vpeek vhead F mkgo). }
    split; [done|]. intros ls' Ha. destruct (Hg ls' Ha) as (ls1 & E1 & P1). exists ls1. split; [|done]. rewrite <- E1. unfold take_block.
    destruct (lv_at ls' (S n)) as [l'| | |]; try done. rewrite !bind_ok. by destruct (lv_insert_empty nw l') as [[l2 nn]| | |].
  - injection E as <-. exists [(n, N.to_nat i)], ls, next. split; [cbn; lia|]. split; [done|]. eapply fp_pure; [done|].
    eapply (fp_rd vpeek vhead _ (fun ls => get_block ls n i)); [by apply rd_get_block; [left|]|]. eapply fp_pure; [done|]. rewrite En. apply (fp_ret vpeek vhead _ mkgo).
Qed.
Lemma fp_sgoi_loop nw ix : forall ns ls i r, visit_list ns (sgoi_body nw ix) (ls, i) = Ok r ->
  exists F ls1 i1, length F <= 2 * length ns /\ r = ((ls1, i1), None) /\ vfp F mkgo (fun ls => visit_list ns (sgoi_body nw ix) (ls, i)) ls i1 ls1.
Proof.
  induction ns as [|n ns IH]; intros ls i r E; cbn [visit_list] in *.
  - injection E as <-. exists [], ls, i. split; [cbn; lia|]. split; [done|]. apply (fp_ret vpeek vhead _ mkgo).
  - inv E. destruct (fp_sgoi_body _ _ _ _ _ _ H) as (F1 & ls1 & i1 & HF1 & -> & Hf1). cbn beta iota in E. destruct (IH _ _ _ E) as (F2 & ls2 & i2 & HF2 & -> & Hf2).
    exists (F1 ++ F2), ls2, i2. split; [rewrite app_length; cbn [length]; lia|]. split; [done|].
    eapply (fp_bind vpeek vhead _ _ _ mkgo); [eapply fp_weaken; [|exact Hf1]; set_solver|]. cbn beta iota. eapply fp_weaken; [|exact Hf2]. set_solver.
Qed.
Notation mkrm := (fun (o : option unit) (ls : list level) => (ls, o)).
Lemma fp_remove_visit ix lbis F : (0, 0) ∈ F -> (forall n i, lbis !! n = Some i -> (S n, N.to_nat i) ∈ F) -> forall n ls ls1 o,
  remove_visit ix lbis ls n = Ok (ls1, o) -> vfp F mkrm (fun ls => remove_visit ix lbis ls n) ls o ls1.
Proof.
  intros F0 FS n ls ls1 o E. unfold remove_visit in *. inv E. rename x into bi.
  assert ((n, N.to_nat bi) ∈ F) as HF. { destruct (decide (n = 0)) as [->|Hn]; [by injection H as <-|]. unfold get_c in H. destruct (lbis !! (n - 1)) eqn:El; [|done]. injection H as ->.
    apply FS in El. by replace (S (n - 1)) with n in El by lia. }
  eapply fp_pure; [done|]. inv E. eapply (fp_rd vpeek vhead _ (fun ls => get_block ls n bi)); [by apply rd_get_block|]. inv E. eapply fp_pure; [done|]. inv E. eapply fp_pure; [done|].
  inv E. rename x2 into ls2. eapply (fp_bind vpeek vhead _ _ _ mkv); [by apply fp_put_block|]. cbn beta. destruct (blk_is_empty x1); [|injection E as -> <-; apply (fp_ret vpeek vhead _ mkrm)].
  destruct (decide (n <> 0)); [|injection E as -> <-; apply (fp_ret vpeek vhead _ mkrm)]. inv E. inv E. injection E as <- <-.
  assert (give_block ls2 n bi = Ok (<[n := x3]> ls2)) as Eg by (unfold give_block; by rewrite H4, bind_ok, H5, bind_ok).
  destruct (fp_give_block F ls2 n bi _ HF Eg) as [Hp Hg]. split; [exact Hp|]. intros ls' Ha. destruct (Hg ls' Ha) as (ls1 & E1 & P1). exists ls1. split; [|done].
  unfold give_block in E1. apply bind_ok_inv in E1 as (l' & -> & E1). rewrite bind_ok. apply bind_ok_inv in E1 as (l2 & -> & E1). rewrite bind_ok. by injection E1 as ->.
Qed.
Lemma fp_remove_loop ix lbis F : (0, 0) ∈ F -> (forall n i, lbis !! n = Some i -> (S n, N.to_nat i) ∈ F) -> forall ns ls ls1 o,
  visit_list ns (remove_visit ix lbis) ls = Ok (ls1, o) -> vfp F mkrm (fun ls => visit_list ns (remove_visit ix lbis) ls) ls o ls1.
Proof.
  intros F0 FS. induction ns as [|n ns IH]; intros ls ls1 o E; cbn [visit_list] in *.
  - injection E as -> <-. apply (fp_ret vpeek vhead _ mkrm).
  - inv E. destruct x as [ls2 o2]. eapply (fp_bind vpeek vhead _ _ _ mkrm); [by apply fp_remove_visit|]. cbn beta iota.
    destruct o2 as [u|]; [injection E as -> <-; apply (fp_ret vpeek vhead _ mkrm)|]. by apply IH.
Qed.

(** ** the whole tree *)
(** the memory of a SparseTree (sparse_tree.rs:47-67): its blocks, and the elements of its three vectors *)
Inductive scell := SBlock (n i : nat) | SValue (j : nat) | SKey (j : nat) | SPos (j : nat).
Global Instance scell_eq_dec : EqDecision scell. Proof. solve_decision. Defined.
Inductive scontent (V : Type) := YBlock (b : option block) | YValue (v : option (option V)) | YKey (k : option N) | YPos (p : option (N * N)).
Arguments YBlock {V}. Arguments YValue {V}. Arguments YKey {V}. Arguments YPos {V}.
Definition speek {V} (t : sparse V) (c : scell) : scontent V :=
  match c with
  | SBlock n i => YBlock (vpeek (s_levels t) (n, i)) | SValue j => YValue (s_values t !! j)
  | SKey j => YKey (s_keys t !! j) | SPos j => YPos (s_lbi t !! j)
  end.
(** the struct itself: per level the block count and the root of the free list, and the three vector lengths *)
Definition sheader {V} (t : sparse V) : list (option (nat * N)) * nat * nat * nat :=
  (vhead (s_levels t), length (s_values t), length (s_keys t), length (s_lbi t)).

Section tree.
Context {V : Type}.
Implicit Types t u : sparse V.
Definition scells (Fb : list (nat * nat)) (Fv Fk Fp : list nat) : list scell := ((fun c => SBlock c.1 c.2) <$> Fb) ++ (SValue <$> Fv) ++ (SKey <$> Fk) ++ (SPos <$> Fp).
Lemma scells_length Fb Fv Fk Fp : length (scells Fb Fv Fk Fp) = length Fb + length Fv + length Fk + length Fp.
Proof. unfold scells. rewrite !app_length, !fmap_length. lia. Qed.
Ltac in_cells := unfold scells; rewrite !elem_of_app, !elem_of_list_fmap; split;
  [intros [([? ?] & Hq & Hin)|[(x & Hq & Hin)|[(x & Hq & Hin)|(x & Hq & Hin)]]]; cbn in *; by simplify_eq|].
Lemma in_block Fb Fv Fk Fp n i : SBlock n i ∈ scells Fb Fv Fk Fp <-> (n, i) ∈ Fb.
Proof. in_cells. intros H. left. by exists (n, i). Qed.
Lemma in_value Fb Fv Fk Fp a : SValue a ∈ scells Fb Fv Fk Fp <-> a ∈ Fv.
Proof. in_cells. intros H. right. left. by exists a. Qed.
Lemma in_skey Fb Fv Fk Fp a : SKey a ∈ scells Fb Fv Fk Fp <-> a ∈ Fk.
Proof. in_cells. intros H. right. right. left. by exists a. Qed.
Lemma in_pos Fb Fv Fk Fp a : SPos a ∈ scells Fb Fv Fk Fp <-> a ∈ Fp.
Proof. in_cells. intros H. right. right. right. by exists a. Qed.
Lemma sagree_split Fb Fv Fk Fp t u : agree speek sheader (scells Fb Fv Fk Fp) t u ->
  agree vpeek vhead Fb (s_levels t) (s_levels u) /\ agree lpeek length Fv (s_values t) (s_values u) /\
  agree lpeek length Fk (s_keys t) (s_keys u) /\ agree lpeek length Fp (s_lbi t) (s_lbi u).
Proof.
  intros [Hh Hc]. injection Hh as H1 H2 H3 H4. split_and!; (split; [done|]).
  - intros [n i] Ha. specialize (Hc (SBlock n i) ltac:(by apply in_block)). cbn [speek] in Hc. injection Hc as Hc. exact Hc.
  - intros a Ha. specialize (Hc (SValue a) ltac:(by apply in_value)). cbn [speek] in Hc. injection Hc as Hc. exact Hc.
  - intros a Ha. specialize (Hc (SKey a) ltac:(by apply in_skey)). cbn [speek] in Hc. injection Hc as Hc. exact Hc.
  - intros a Ha. specialize (Hc (SPos a) ltac:(by apply in_pos)). cbn [speek] in Hc. injection Hc as Hc. exact Hc.
Qed.
Lemma spatched_join Fb Fv Fk Fp u t1 u1 : patched vpeek vhead Fb (s_levels u) (s_levels t1) (s_levels u1) ->
  patched lpeek length Fv (s_values u) (s_values t1) (s_values u1) -> patched lpeek length Fk (s_keys u) (s_keys t1) (s_keys u1) ->
  patched lpeek length Fp (s_lbi u) (s_lbi t1) (s_lbi u1) -> patched speek sheader (scells Fb Fv Fk Fp) u t1 u1.
Proof.
  intros [P1 P2] [Q1 Q2] [R1 R2] [S1 S2]. split; [unfold sheader; congruence|]. intros [n i|j|j|j]; cbn [speek].
  - rewrite (P2 (n, i)). destruct (decide ((n, i) ∈ Fb)), (decide (SBlock n i ∈ scells Fb Fv Fk Fp)) as [Hx|Hx]; rewrite in_block in Hx; done.
  - specialize (Q2 j). unfold lpeek in Q2. rewrite Q2. destruct (decide (j ∈ Fv)), (decide (SValue j ∈ scells Fb Fv Fk Fp)) as [Hx|Hx]; rewrite in_value in Hx; done.
  - specialize (R2 j). unfold lpeek in R2. rewrite R2. destruct (decide (j ∈ Fk)), (decide (SKey j ∈ scells Fb Fv Fk Fp)) as [Hx|Hx]; rewrite in_skey in Hx; done.
  - specialize (S2 j). unfold lpeek in S2. rewrite S2. destruct (decide (j ∈ Fp)), (decide (SPos j ∈ scells Fb Fv Fk Fp)) as [Hx|Hx]; rewrite in_pos in Hx; done.
Qed.

Lemma sget_footprint nw D t k o : tree_get (sparse_tree V nw D) t k = Ok o ->
  exists F : list scell, length F <= D + 1 /\ forall u, agree speek sheader F t u -> tree_get (sparse_tree V nw D) u k = Ok o.
Proof.
  unfold tree_get. cbn [sparse_tree t_nw t_depth t_data t_T t_V]. intros E. inv E. set (ix := level_indices nw D x) in *. unfold sparse_data, fetch_block_index, fetch_block_indices in E.
  inv E. inv H0. destruct x1 as [out i]. injection H0 as ->. destruct (rd_fetch _ _ _ _ _ _ H1) as (F & HF & Hr).
  exists (scells F [N.to_nat x0] [] []). split; [rewrite scells_length; cbn [length]; lia|].
  intros u Hu. apply sagree_split in Hu as (Hl & Hv & _ & _). rewrite H, bind_ok. fold ix. unfold sparse_data, fetch_block_index, fetch_block_indices.
  rewrite (Hr _ Hl), bind_ok. cbn beta iota. rewrite bind_ok. destruct (x0 =? 0)%N; [done|]. inv E. injection E as <-.
  by rewrite (data_get_rd [N.to_nat x0] _ _ _ ltac:(left) H0 _ Hv), bind_ok.
Qed.
Lemma sgoi_footprint nw D t k insert vf t1 j dr : 1 <= D -> sgoi_impl nw D t k insert vf = Ok (t1, j, dr) ->
  exists F : list scell, length F <= 2 * D + 2 /\ forall u, agree speek sheader F t u -> exists u1, sgoi_impl nw D u k insert vf = Ok (u1, j, dr) /\ patched speek sheader F u t1 u1.
Proof.
  intros HD E. unfold sgoi_impl in E. cbn zeta in E. set (ix := level_indices nw D k) in *. inv E. rename x into li.
  apply bind_ok_inv in E as ([[ls i] c] & EL & E). cbn beta iota in E. assert (0 <= D - 1 < 9) as [HD0 HD9].
  { unfold const_loop in EL. destruct (decide (0 <= D - 1 /\ D - 1 < 9)); [lia|done]. }
  rewrite const_loop_ok in EL by done. destruct (fp_sgoi_loop _ _ _ _ _ _ EL) as (F1 & ls0 & i0 & HF1 & [= <- <- ->] & Hf1). rewrite seq_length in HF1.
  inv E. rename x into b. inv E. rename x into di. set (Fb := F1 ++ [(D - 1, N.to_nat i)]).
  set (vj := if (di =? 0)%N then length (s_values t) else N.to_nat di).
  exists (scells Fb [vj] [length (s_keys t)] [length (s_lbi t)]). split.
  { rewrite scells_length. unfold Fb. rewrite app_length. cbn [length]. lia. }
  intros u Hu. apply sagree_split in Hu as (Hl & Hv & Hk & Hp).
  destruct (fp_weaken vpeek vhead F1 Fb _ _ _ _ _ ltac:(set_solver) Hf1) as [_ W1]. destruct (W1 _ Hl) as (ls' & E1 & P1).
  unfold sgoi_impl. cbn zeta. fold ix. rewrite H, bind_ok. rewrite const_loop_ok by done. rewrite E1, bind_ok. cbn beta iota.
  assert ((D - 1, N.to_nat i) ∈ Fb) as HinF by set_solver.
  rewrite (rd_get_block Fb ls _ _ _ HinF H0 ls' (patched_agree _ _ _ _ _ _ P1)), bind_ok, H1, bind_ok.
  pose proof (patched_same _ _ _ _ _ Hv) as Pv. pose proof (patched_same _ _ _ _ _ Hk) as Pk. pose proof (patched_same _ _ _ _ _ Hp) as Pp.
  rewrite (proj1 Hv). destruct (di =? 0)%N eqn:Ed; subst vj; cbn beta iota in *.
  - destruct vf as [v|]; [|injection E as <- <- <-; eexists; split; [done|]; by apply spatched_join]. inv E. injection E as <- <- <-.
    destruct (fp_insert_child Fb ls _ _ _ _ _ HinF H2) as [_ W2]. destruct (W2 _ (patched_agree _ _ _ _ _ _ P1)) as (ls2' & E2 & P2). rewrite E2, bind_ok.
    eexists. split; [done|]. apply spatched_join; cbn.
    + by eapply patched_trans.
    + destruct (fp_push [length (s_values t)] (s_values t) (Some v) ltac:(left)) as [_ Hs]. destruct (Hs _ Hv) as (l' & [= <-] & Pl). done.
    + destruct (fp_push [length (s_keys t)] (s_keys t) k ltac:(left)) as [_ Hs]. destruct (Hs _ Hk) as (l' & [= <-] & Pl). done.
    + destruct (fp_push [length (s_lbi t)] (s_lbi t) (i, li) ltac:(left)) as [_ Hs]. destruct (Hs _ Hp) as (l' & [= <-] & Pl). done.
  - destruct insert.
    + destruct vf as [v|]; [|injection E as <- <- <-; eexists; split; [done|]; by apply spatched_join]. inv E. inv E. injection E as <- <- <-.
      rewrite (data_get_rd [N.to_nat di] _ _ _ ltac:(left) H2 _ Hv), bind_ok. destruct (fp_set [N.to_nat di] _ _ _ _ ltac:(left) H3) as [_ Hs]. destruct (Hs _ Hv) as (l' & El & Pl).
      rewrite El, bind_ok. eexists. split; [done|]. by apply spatched_join.
    + inv E. injection E as <- <- <-. rewrite (data_get_rd [N.to_nat di] _ _ _ ltac:(left) H2 _ Hv), bind_ok. eexists. split; [done|]. by apply spatched_join.
Qed.
Lemma fetch_length ix : forall k ls n i out last, fetch_loop ls ix k n i = Ok (out, last) -> length out = k.
Proof. induction k as [|k IH]; intros ls n i out last E; cbn [fetch_loop] in E; [by injection E as <- _|]. inv E. inv E. inv E. inv E. destruct x2 as [o2 l2]. injection E as <- _. cbn. f_equal. by eapply IH. Qed.
Lemma sremove_footprint nw D t k t1 o : 1 <= D -> sparse_remove_impl nw D t k = Ok (t1, o) ->
  exists F : list scell, length F <= 2 * D + 8 /\ forall u, agree speek sheader F t u -> exists u1, sparse_remove_impl nw D u k = Ok (u1, o) /\ patched speek sheader F u t1 u1.
Proof.
  intros HD E. unfold sparse_remove_impl in E. cbn zeta in E. set (ix := level_indices nw D k) in *. unfold fetch_block_indices in E.
  apply bind_ok_inv in E as ([lbis di] & EF & E). cbn beta iota in E. destruct (rd_fetch _ _ _ _ _ _ EF) as (F1 & HF1 & Hr1). pose proof (fetch_length _ _ _ _ _ _ _ EF) as HL.
  destruct (di =? 0)%N eqn:Ed.
  { injection E as <- <-. exists (scells F1 [] [] []). split; [rewrite scells_length; cbn; lia|]. intros u Hu. pose proof (patched_same _ _ _ _ _ Hu) as HP.
    apply sagree_split in Hu as (Hl & _ & _ & _). exists u. split; [|done]. unfold sparse_remove_impl. cbn zeta. fold ix. unfold fetch_block_indices. rewrite (Hr1 _ Hl), bind_ok. cbn beta iota. by rewrite Ed. }
  apply bind_ok_inv in E as ([ls c] & EV & E). cbn beta iota in E. apply bind_ok_inv in E as ([lbi last] & EP & E). cbn beta iota in E. apply bind_ok_inv in E as ([lbi2 ls2] & EM & E). cbn beta iota in E.
  apply bind_ok_inv in E as ([keys ky] & EK & E). cbn beta iota in E. apply bind_ok_inv in E as ([values value] & EW & E). cbn beta iota in E. apply bind_ok_inv in E as (v & EU & E). injection E as <- <-.
  set (dj := N.to_nat di).
  set (Fb := F1 ++ (0, 0) :: imap (fun n i => (S n, N.to_nat i)) lbis ++ [(D - 1, N.to_nat last.1)]).
  assert (forall n i, lbis !! n = Some i -> (S n, N.to_nat i) ∈ Fb) as HS.
  { intros n i Hi. unfold Fb. apply elem_of_app. right. right. apply elem_of_app. left. apply elem_of_list_lookup. exists n. by rewrite list_lookup_imap, Hi. }
  assert ((0, 0) ∈ Fb) as H0 by (unfold Fb; set_solver). assert ((D - 1, N.to_nat last.1) ∈ Fb) as HLs by (unfold Fb; set_solver).
  exists (scells Fb [dj; length (s_values t) - 1] [dj; length (s_keys t) - 1] [dj; length (s_lbi t) - 1]). split.
  { rewrite scells_length. unfold Fb. rewrite !app_length. cbn [length]. rewrite app_length, imap_length. cbn [length]. lia. }
  intros u Hu. apply sagree_split in Hu as (Hl & Hv & Hk & Hp).
  destruct (fp_remove_loop ix lbis Fb H0 HS _ _ _ _ EV) as [_ W1]. destruct (W1 _ Hl) as (ls' & E1 & P1).
  destruct (fp_pop [dj; length (s_lbi t) - 1] (s_lbi t) lbi last ltac:(right; left) EP) as [_ W2]. destruct (W2 _ Hp) as (lbi' & E2 & P2).
  destruct (fp_swap_remove [dj; length (s_keys t) - 1] (s_keys t) dj keys ky ltac:(left) ltac:(right; left) EK) as [_ W3]. destruct (W3 _ Hk) as (keys' & E3 & P3).
  destruct (fp_swap_remove [dj; length (s_values t) - 1] (s_values t) dj values value ltac:(left) ltac:(right; left) EW) as [_ W4]. destruct (W4 _ Hv) as (values' & E4 & P4).
  assert (exists lbi2' ls2', (if decide (dj < length lbi') then let* lbi := set_u lbi' dj last in let '(lb, ii) := last in
      let* b := get_block ls' (D - 1) lb in let* b := blk_set b ii (trunc (D - 1) di) in let* ls := put_block ls' (D - 1) lb b in Ok (lbi, ls) else Ok (lbi', ls')) = Ok (lbi2', ls2') /\
      patched lpeek length [dj; length (s_lbi t) - 1] (s_lbi u) lbi2 lbi2' /\ patched vpeek vhead Fb (s_levels u) ls2 ls2') as (lbi2' & ls2' & E5 & P5 & P6).
  { fold dj in EM. rewrite (proj1 P2). destruct (decide (dj < length lbi)).
    - apply bind_ok_inv in EM as (lbi3 & EM1 & EM). destruct last as [lb ii]. cbn in HLs. apply bind_ok_inv in EM as (b & EM2 & EM). apply bind_ok_inv in EM as (b2 & EM3 & EM).
      apply bind_ok_inv in EM as (ls3 & EM4 & EM). injection EM as <- <-.
      destruct (fp_set [dj; length (s_lbi t) - 1] lbi dj (lb, ii) lbi3 ltac:(left) EM1) as [_ W5]. destruct (W5 _ (patched_agree _ _ _ _ _ _ P2)) as (l5 & E5 & P5). rewrite E5, bind_ok.
      pose proof (patched_agree _ _ _ _ _ _ P1) as A1. rewrite (rd_get_block Fb ls _ _ _ HLs EM2 ls' A1), bind_ok, EM3, bind_ok.
      destruct (fp_put_block Fb ls _ _ _ _ HLs EM4) as [_ W6]. destruct (W6 _ A1) as (ls6 & E6 & P6). rewrite E6, bind_ok. exists l5, ls6. split; [done|]. split; by eapply patched_trans.
    - injection EM as <- <-. by exists lbi', ls'. }
  exists (Sparse ls2' values' keys' lbi2'). split; [|by apply spatched_join].
  unfold sparse_remove_impl. cbn zeta. fold ix. unfold fetch_block_indices. rewrite (Hr1 (s_levels u)) by (eapply agree_incl; [|exact Hl]; unfold Fb; set_solver). rewrite bind_ok. cbn beta iota. rewrite Ed.
  rewrite E1, bind_ok. cbn beta iota. rewrite E2, bind_ok. cbn beta iota. fold dj.
  etrans; [exact (f_equal (fun r => rbind r _) E5)|]. rewrite bind_ok. cbn beta iota. rewrite E3, bind_ok. cbn beta iota. rewrite E4, bind_ok. cbn beta iota. by rewrite EU, bind_ok.
Qed.
End tree.
