(** * The client's operand iterator of multi_intersection / multi_union

    `multi_intersection(iter)` and `multi_union(iter)` (_multi_intersection.rs:548-554,
    _multi_union.rs:331-337) take any `Iterator<Item = &Tree> + Clone`; it is the client's (safe) code,
    and "will be cloned and iterated multiple times".  Ops.v assumes that every clone yields the same
    trees.  Here nothing is assumed: every clone yields some finite list of trees (up to its first
    `None`), and the lists are unrelated.

    Lifetimes make sure that a tree reference stays valid; a tree yielded in place of another one
    would use a cursor with the wrong tree, which is modelled for depth 1 only, where cursors hold no
    pointers (Ops.v keeps the memory of a tree in its value): the theorems only speak about clones that yield a beginning or a continuation of what
    the cursor was made from, or about code that does not look at later clones. *)
From Verif Require Import Base BitUtils BitQueue LevelIndices ConstLoops Hierarchy Ops Dense Spec TreeClient Materialize.

(** ** Model *)
Section operands.
Context (t : tree).
(** what the clones yield: [ops n None] is the clone made by the [n]-th call of the cursor
    (0: `new`, then the selections), [ops n (Some i)] the one made by reading the data at index [i]
    when [n] calls have been made: in an iteration, or a `materialize`, no two calls have the same
    number and index.  `get` and `get_unchecked` make one clone, [ops 0 None]. *)
Definition operands : Type := nat -> option N -> list (t_T t).

(** _multi_intersection.rs with `src.iter.clone()` at 97, 150, 350, 372, 409, 449 *)
Definition t_mi_any : tree := {|
  t_nw := t_nw t; t_depth := t_depth t; t_exact := false;
  t_T := operands;
  t_C := nat * mi_cursor (t_C t);
  t_V := list (t_V t);
  t_data := fun s index li => t_data (t_multi_intersection t) (s 0 None) index li;          (* 97 *)
  t_data_u := fun s index li => t_data_u (t_multi_intersection t) (s 0 None) index li;      (* 150 *)
  t_new := fun s => let* c := t_new (t_multi_intersection t) (s 0 None) in Ok (1, c);       (* 350 *)
  t_select := fun s c n i =>                                                                (* 372 *)
    let* (c', m) := mi_select t (s (fst c) None) (snd c) n i in Ok ((S (fst c), c'), m);
  t_select_u := fun s c n i =>                                                              (* 409 *)
    let* (c', m) := mi_select_u t (s (fst c) None) (snd c) n i in Ok ((S (fst c), c'), m);
  t_cdata := fun s c i => t_cdata (t_multi_intersection t) (s (fst c) (Some i)) (snd c) i;  (* 449 *)
  t_cdata_u := fun s c i => t_cdata_u (t_multi_intersection t) (s (fst c) (Some i)) (snd c) i;
|}.
(** _multi_union.rs with `iter.clone()` at 42, 61, 157; the cursor keeps the references it was made
    from (123) and 172-250 use those *)
Definition t_mu_any : tree := {|
  t_nw := t_nw t; t_depth := t_depth t; t_exact := t_exact t;
  t_T := operands;
  t_C := nat * mu_cursor (t_T t) (t_C t);
  t_V := list (t_V t);
  t_data := fun s index li => t_data (t_multi_union t) (s 0 None) index li;                 (* 42 *)
  t_data_u := fun s index li => t_data_u (t_multi_union t) (s 0 None) index li;             (* 61 *)
  t_new := fun s => let* c := t_new (t_multi_union t) (s 0 None) in Ok (1, c);              (* 157 *)
  t_select := fun s c n i =>
    let* (c', m) := mu_select t (s (fst c) None) (snd c) n i in Ok ((S (fst c), c'), m);
  t_select_u := fun s c n i =>
    let* (c', m) := mu_select t (s (fst c) None) (snd c) n i in Ok ((S (fst c), c'), m);
  t_cdata := fun s c i => t_cdata (t_multi_union t) (s (fst c) (Some i)) (snd c) i;
  t_cdata_u := fun s c i => t_cdata_u (t_multi_union t) (s (fst c) (Some i)) (snd c) i;
|}.

(** ** `size_hint` and `len` of the iterators that wrap the client's *)
(** `Iterator::size_hint` of the operand iterator when the trees [l] are left to come; a correct
    implementation brackets their number *)
Definition hint_fn : Type := list (t_T t) -> nat * option nat.
(** the size hint brackets the number of trees to come *)
Definition honest (h : hint_fn) : Prop := forall l, fst (h l) <= length l /\ forall hi, snd (h l) = Some hi -> length l <= hi.
(** _multi_intersection.rs:307-309 and _multi_union.rs:114-116 *)
Definition mi_du_hint_any (h : hint_fn) (iter : list (t_T t)) : nat * option nat := h iter.
Definition mu_du_hint_any (h : hint_fn) (iter : list (t_T t)) : nat * option nat := (0, snd (h iter)).
End operands.
(** `ExactSizeIterator::len` (provided method of core): asserts that the bounds coincide *)
Definition exact_len (hint : nat * option nat) : res nat :=
  match snd hint with Some hi => if decide (hi = fst hint) then Ok (fst hint) else Panic | None => Panic end.

(** ** Proofs: two trees that answer alike iterate and materialize alike *)
Definition rrel {A B} (R : A -> B -> Prop) (x : res A) (y : res B) : Prop :=
  match x, y with Ok a, Ok b => R a b | Panic, Panic => True | UB, UB => True | OutOfFuel, OutOfFuel => True | _, _ => False end.
Lemma rrel_bind {A B A' B'} (R : A -> B -> Prop) (R' : A' -> B' -> Prop) x y f g :
  rrel R x y -> (forall a b, R a b -> rrel R' (f a) (g b)) -> rrel R' (rbind x f) (rbind y g).
Proof. destruct x, y; cbn; intros H K; try done. by apply K. Qed.
Lemma rrel_same {A A' B'} (R' : A' -> B' -> Prop) (x : res A) f g :
  (forall a, rrel R' (f a) (g a)) -> rrel R' (rbind x f) (rbind x g).
Proof. destruct x; cbn; intros K; try done. Qed.
Lemma rrel_eq {A} (x y : res A) : rrel eq x y -> x = y.
Proof. destruct x, y; cbn; intros H; try contradiction; try done. by subst. Qed.
Lemma rrel_eq_refl {A} (x : res A) : rrel eq x x.
Proof. by destruct x. Qed.
Lemma rrel_traverse {St St'} m (g : St -> N -> res St) (g' : St' -> N -> res St') (Q : St -> St' -> Prop) s s' :
  Q s s' -> (forall s s' i, Q s s' -> rrel Q (g s i) (g' s' i)) -> rrel Q (traverse_m m g s) (traverse_m m g' s').
Proof.
  intros Hs Hg. unfold traverse_m.
  set (f1 := fun r i => (rbind r (fun s => g s i), match rbind r (fun s => g s i) with Ok _ => false | _ => true end)).
  set (f2 := fun r i => (rbind r (fun s => g' s i), match rbind r (fun s => g' s i) with Ok _ => false | _ => true end)).
  assert (forall (r : res St) (r' : res St') i, rrel Q r r' -> rrel Q (f1 r i).1 (f2 r' i).1 /\ (f1 r i).2 = (f2 r' i).2) as Hf.
  { intros r r' i H. assert (rrel Q (f1 r i).1 (f2 r' i).1) as H1 by (apply (rrel_bind Q); [done|]; intros; by apply Hg).
    split; [done|]. cbn [f1 f2 fst snd] in *. destruct (rbind r _), (rbind r' _); done. }
  assert (forall fuel w (r : res St) (r' : res St'), rrel Q r r' ->
    rrel (fun a b => rrel Q a.1 b.1 /\ a.2 = b.2) (traverse_one_bits_loop fuel w f1 r) (traverse_one_bits_loop fuel w f2 r')) as Hone.
  { induction fuel as [|fuel IH]; intros w r r' H; cbn [traverse_one_bits_loop]; [done|]. destruct (w =? 0)%N; [done|].
    destruct (Hf r r' (trailing_zeros w) H) as [H1 H2]. destruct (f1 r _) as [a b1], (f2 r' _) as [a' b2]. cbn [fst snd] in *. subst b2.
    destruct b1; [done|]. by apply IH. }
  assert (forall l k (r : res St) (r' : res St'), rrel Q r r' ->
    rrel (fun a b => rrel Q a.1 b.1 /\ a.2 = b.2) (traverse_array_loop l k f1 r) (traverse_array_loop l k f2 r')) as Harr.
  { assert (forall fuel k w (r : res St) (r' : res St'), rrel Q r r' ->
      rrel (fun a b => rrel Q a.1 b.1 /\ a.2 = b.2) (traverse_one_bits_loop fuel w (fun s j => f1 s (k * 64 + j)%N) r) (traverse_one_bits_loop fuel w (fun s j => f2 s (k * 64 + j)%N) r')) as Hone'.
    { induction fuel as [|fuel IH]; intros k w r r' H; cbn [traverse_one_bits_loop]; [done|]. destruct (w =? 0)%N; [done|].
      destruct (Hf r r' (k * 64 + trailing_zeros w)%N H) as [H1 H2]. destruct (f1 r _) as [a b1], (f2 r' _) as [a' b2]. cbn [fst snd] in *. subst b2.
      destruct b1; [done|]. by apply IH. }
    induction l as [|w l IH]; intros k r r' H; cbn [traverse_array_loop]; [done|].
    eapply rrel_bind; [apply Hone', H|]. intros [a b1] [a' b2] [H1 H2]. cbn [fst snd] in *. subst b2. destruct b1; [done|]. by apply IH. }
  assert (rrel (fun a b => rrel Q a.1 b.1 /\ a.2 = b.2) (mask_traverse_bits m f1 (Ok s)) (mask_traverse_bits m f2 (Ok s'))) as H.
  { unfold mask_traverse_bits. destruct (decide _).
    - apply rrel_same. intros w. by apply Hone.
    - by apply Harr. }
  eapply rrel_bind; [exact H|]. intros [a b1] [a' b2] [H1 _]. done.
Qed.

Section sim.
Context (t t' : tree) (s : t_T t) (s' : t_T t') (R : t_C t -> t_C t' -> Prop) (h : t_V t -> t_V t').
Hypothesis Hnw : t_nw t' = t_nw t.
Hypothesis Hd : t_depth t' = t_depth t.
Hypothesis Hex : t_exact t' = t_exact t.
Hypothesis Hnew : rrel R (t_new t s) (t_new t' s').
Hypothesis Hsel : forall c c' n i, R c c' -> rrel (fun x y => R x.1 y.1 /\ x.2 = y.2) (t_select_u t s c n i) (t_select_u t' s' c' n i).
Hypothesis Hdat : forall c c' i, R c c' -> rrel (fun x y => y = h x) (t_cdata_u t s c i) (t_cdata_u t' s' c' i).

Definition ri (a : iter (t_C t)) (b : iter (t_C t')) : Prop := it_iters a = it_iters b /\ it_indices a = it_indices b /\ R (it_cursor a) (it_cursor b).
Definition ri2 {A} (a : iter (t_C t) * A) (b : iter (t_C t') * A) : Prop := ri a.1 b.1 /\ a.2 = b.2.
Lemma sim_visit a b i : ri a b -> rrel ri2 (iter_visit t s a i) (iter_visit t' s' b i).
Proof.
  destruct a as [ia na ca], b as [ib nb cb]. intros (H1 & H2 & H3). cbn in H1, H2, H3. subst ib nb. unfold iter_visit. cbn [it_iters it_indices it_cursor].
  apply rrel_same. intros q. apply rrel_same. intros [q1 [j|]]; apply rrel_same; intros iters; [|done].
  apply rrel_same. intros ind. eapply rrel_bind; [apply Hsel, H3|]. intros [c m] [c' m'] [Hc Hm]. cbn [fst snd] in *. subst m'.
  apply rrel_same. intros it2. done.
Qed.
Lemma sim_range n from a b : ri a b -> rrel ri2 (iterate_as_range_rev n from (iter_visit t s) a) (iterate_as_range_rev n from (iter_visit t' s') b).
Proof.
  revert a b. induction n as [|n IH]; intros a b H; cbn [iterate_as_range_rev]; [done|].
  eapply rrel_bind; [by apply sim_visit|]. intros [a1 o] [b1 o'] [H1 H2]. cbn [fst snd] in *. subst o'. destruct o as [u|]; [done|].
  destruct (decide _); [done|]. by apply IH.
Qed.
Lemma sim_loop fuel a b : ri a b -> rrel ri2 (iter_loop fuel t s a) (iter_loop fuel t' s' b).
Proof.
  revert a b. induction fuel as [|fuel IH]; intros [ia na ca] [ib nb cb] (H1 & H2 & H3); cbn [iter_loop]; [done|].
  cbn in H1, H2, H3. subst ib nb. cbn [it_iters it_indices it_cursor]. apply rrel_same. intros q. apply rrel_same. intros [q1 [j|]]; [done|].
  unfold const_for_rev. rewrite Hd. eapply rrel_bind; [by apply sim_range|]. intros [a1 o] [b1 o'] [H4 H5]. cbn [fst snd] in *. subst o'.
  destruct o; [by apply IH|done].
Qed.
Definition hk (o : option (N * t_V t)) : option (N * t_V t') := (fun kv => (kv.1, h kv.2)) <$> o.
Lemma sim_next fuel a b : ri a b -> rrel (fun x y => ri x.1 y.1 /\ y.2 = hk x.2) (iter_next fuel t s a) (iter_next fuel t' s' b).
Proof.
  intros H. unfold iter_next. eapply rrel_bind; [by apply sim_loop|]. intros [a1 o] [b1 o'] [H1 H2]. cbn [fst snd] in *. subst o'.
  destruct o as [i|]; [|done]. pose proof H1 as (_ & Hi & Hc). eapply rrel_bind; [by apply Hdat|]. intros x y ->. rewrite Hnw, Hd, <- Hi.
  apply rrel_same. done.
Qed.
Lemma sim_new_iter : rrel ri (iter_new t s) (iter_new t' s').
Proof.
  unfold iter_new. eapply rrel_bind; [exact Hnew|]. intros c c' Hc. eapply rrel_bind; [by apply Hsel|]. intros [c1 m] [c1' m'] [H1 H2].
  cbn [fst snd] in *. subst m'. rewrite Hnw, Hd. by destruct (decide _).
Qed.
Lemma sim_poll fuel m a b : ri a b -> rrel (fun x y => ri x.1 y.1 /\ y.2 = hk <$> x.2) (iter_poll fuel m t s a) (iter_poll fuel m t' s' b).
Proof.
  revert a b. induction m as [|m IH]; intros a b H; cbn [iter_poll]; [done|]. eapply rrel_bind; [by apply sim_next|].
  intros [a1 o] [b1 o'] [H1 H2]. cbn [fst snd] in *. subst o'. eapply rrel_bind; [by apply IH|]. intros [a2 l] [b2 l'] [H3 H4]. cbn [fst snd] in *. subst l'. done.
Qed.
Lemma sim_drain fuel a b : ri a b -> rrel (fun x y => ri x.1 y.1 /\ y.2 = (fun kv => (kv.1, h kv.2)) <$> x.2) (iter_drain fuel t s a) (iter_drain fuel t' s' b).
Proof.
  revert a b. induction fuel as [|fuel IH]; intros a b H; cbn [iter_drain]; [done|]. eapply rrel_bind; [by apply sim_next|].
  intros [a1 o] [b1 o'] [H1 H2]. cbn [fst snd] in *. subst o'. destruct o as [[k x]|]; [|done]. cbn [hk fmap option_fmap option_map].
  eapply rrel_bind; [by apply IH|]. intros [a2 l] [b2 l'] [H3 H4]. cbn [fst snd] in *. subst l'. done.
Qed.
Lemma sim_collect fuel : rrel (fun x y => y = (fun kv => (kv.1, h kv.2)) <$> x) (iter_collect fuel t s) (iter_collect fuel t' s').
Proof.
  unfold iter_collect. eapply rrel_bind; [exact sim_new_iter|]. intros a b H. eapply rrel_bind; [by apply sim_drain|]. intros [a1 l] [b1 l'] [_ Hl]. done.
Qed.

(** `materialize` *)
Definition rm (a : mst t) (b : mst t') : Prop := R (m_cur a) (m_cur b) /\ m_heap a = m_heap b /\ m_data b = fmap (M:=option) h <$> m_data a /\ m_keys a = m_keys b.
Definition rm2 {A} (a : mst t * A) (b : mst t' * A) : Prop := rm a.1 b.1 /\ a.2 = b.2.
Lemma rm_heap a b x : rm a b -> rm (with_heap a x) (with_heap b x).
Proof. by intros (? & ? & ? & ?). Qed.
Lemma rm_cur a b c c' : rm a b -> R c c' -> rm (with_cur a c) (with_cur b c').
Proof. by intros (? & ? & ? & ?) Hc. Qed.
Lemma sim_terminal a b mask cap ka : rm a b -> rrel rm2 (make_terminal_node t s a mask cap ka) (make_terminal_node t' s' b mask cap ka).
Proof.
  intros H. unfold make_terminal_node. apply rrel_same. intros w. pose proof H as (_ & Hh & _). rewrite Hh. destruct (raw_new _ _ _ _) as [hp raw].
  eapply (rrel_bind rm).
  - apply rrel_traverse; [by apply rm_heap|]. clear -Hdat. intros a b i H. pose proof H as (Hc & Hh & Hda & Hk). eapply rrel_bind; [by apply Hdat|].
    intros x y ->. unfold push_fn. cbn [m_heap m_data m_keys m_cur]. rewrite Hda, fmap_length, Hh. apply rrel_same. intros hp'.
    split; [done|]. split; [done|]. split; [|by rewrite <- Hk]. cbn [with_heap m_data]. by rewrite fmap_app.
  - intros x y Hx. pose proof Hx as (_ & Hh' & _). rewrite Hh'. apply rrel_same. intros [hp' p]. split; [by apply rm_heap|done].
Qed.
Lemma sim_from_exact k : forall n index ka a b, rm a b -> rrel rm2 (from_exact t s k n index ka a) (from_exact t' s' k n index ka b).
Proof.
  induction k as [|k IH]; intros n index ka a b H; cbn [from_exact]; rewrite Hex; (case (t_exact t); [|done]);
    pose proof H as (Hc & _); (eapply rrel_bind; [by apply Hsel|]); intros [c m] [c' m'] [Hcc Hm]; cbn [fst snd] in *; subst m'.
  - apply sim_terminal. by apply rm_cur.
  - apply rrel_same. intros w. cbn [with_cur m_heap]. pose proof H as (_ & Hh & _). rewrite Hh. destruct (raw_new _ _ _ _) as [hp raw].
    rewrite Hd. eapply (rrel_bind rm).
    + apply rrel_traverse; [by apply rm_heap, rm_cur|]. clear -IH Hex Hsel Hdat Hd. intros a b i H. eapply rrel_bind; [by apply IH|].
      intros [a1 p] [b1 p'] [H1 H2]. cbn [fst snd] in *. subst p'. pose proof H1 as (_ & Hh & _). rewrite Hh. apply rrel_same. intros hp. by apply rm_heap.
    + intros x y Hx. apply rrel_same. intros ec. pose proof Hx as (_ & Hh' & _). rewrite Hh'. apply rrel_same. intros [hp' p]. split; [by apply rm_heap|done].
Qed.
Lemma sim_from_sparse k : forall n index ka a b, rm a b -> rrel rm2 (from_sparse t s k n index ka a) (from_sparse t' s' k n index ka b).
Proof.
  induction k as [|k IH]; intros n index ka a b H; cbn [from_sparse];
    pose proof H as (Hc & _); (eapply rrel_bind; [by apply Hsel|]); intros [c m] [c' m'] [Hcc Hm]; cbn [fst snd] in *; subst m'.
  - eapply rrel_bind; [apply sim_terminal; by apply rm_cur|]. intros [a1 p] [b1 p'] [H1 H2]. cbn [fst snd] in *. by subst p'.
  - eapply (rrel_bind (fun x y => rm x.1.1 y.1.1 /\ x.1.2 = y.1.2 /\ x.2 = y.2)).
    + apply rrel_traverse; [split; [by apply rm_cur|done]|]. clear -IH Hd Hsel Hdat. intros [[a nm] ch] [[b nm'] ch'] i (H & H1 & H2). cbn [fst snd] in *. subst nm' ch'.
      rewrite Hd. eapply rrel_bind; [by apply IH|]. intros [a1 o] [b1 o'] [H1 H2]. cbn [fst snd] in *. subst o'. destruct o as [p|]; [|done].
      apply rrel_same. intros [nm' x]. by destruct (decide _).
    + intros [[a1 nm] ch] [[b1 nm'] ch'] (H1 & H2 & H3). cbn [fst snd] in *. subst nm' ch'. destruct (decide _); [done|]. rewrite Hd.
      apply rrel_same. intros ec. apply rrel_same. intros w. pose proof H1 as (_ & Hh' & _). rewrite Hh'. destruct (from_parts _ _ _ _ _) as [hp p].
      split; [by apply rm_heap|done].
Qed.
Lemma sim_mat : rrel (fun d d' => d_root d' = d_root d /\ d_heap d' = d_heap d /\ d_keys d' = d_keys d /\ d_data d' = fmap (M:=option) h <$> d_data d)
  (materialize t s) (materialize t' s').
Proof.
  unfold materialize. eapply rrel_bind; [exact Hnew|]. intros c c' Hc. rewrite Hex, Hd.
  assert (rm (Mst c heap_empty [None] [USIZE_MAX]) (Mst c' heap_empty [None] [USIZE_MAX])) as Hs by done.
  eapply (rrel_bind rm2).
  - case (t_exact t); [by apply sim_from_exact|]. eapply rrel_bind; [by apply sim_from_sparse|].
    intros [a1 o] [b1 o'] [H1 H2]. cbn [fst snd] in *. subst o'. by apply rrel_same.
  - intros [a1 p] [b1 p'] [(H1 & H2 & H3 & H4) H5]. cbn [fst snd] in *. subst p'. done.
Qed.
End sim.

(** the same for the cursor calls of a client, checked or not, and reading the data afterwards *)
Section sim_cursor.
Context (t t' : tree) (s : t_T t) (s' : t_T t') (R : t_C t -> t_C t' -> Prop).
Hypothesis Hsel : forall c c' n i, R c c' -> rrel (fun x y => R x.1 y.1 /\ x.2 = y.2) (t_select_u t s c n i) (t_select_u t' s' c' n i).
Hypothesis Hselc : forall c c' n i, R c c' -> rrel (fun x y => R x.1 y.1 /\ x.2 = y.2) (t_select t s c n i) (t_select t' s' c' n i).
Lemma sim_selects xs : forall c c' m, R c c' ->
  rrel (fun x y => R x.1 y.1 /\ x.2 = y.2) (run_selects t s c m xs) (run_selects t' s' c' m xs).
Proof.
  induction xs as [|x xs IH]; intros c c' m H; cbn [run_selects]; [done|].
  eapply (rrel_bind (fun x y => R x.1 y.1 /\ x.2 = y.2)).
  - destruct (sel_unchecked x); [by apply Hsel|by apply Hselc].
  - intros [c1 m1] [c1' m1'] [H1 H2]. cbn [fst snd] in *. subst m1'. by apply IH.
Qed.
End sim_cursor.

Lemma rrel_refl {A} (R : A -> A -> Prop) x : (forall a, R a a) -> rrel R x x.
Proof. by destruct x; cbn. Qed.
Lemma fmap_id_opt {A} (l : list (option A)) : fmap (M:=option) (fun x : A => x) <$> l = l.
Proof. induction l as [|[x|] l IH]; [done| |]; cbn; by f_equal. Qed.

(** ** multi_union keeps the references the cursor was made from *)
Section mu_any.
Context (t : tree) (ops : operands t).
Notation l0 := (ops 0 None).
Notation T := (t_mu_any t).
Notation T' := (t_multi_union t).
Definition mu_R (c : t_C T) (c' : t_C T') : Prop := snd c = c'.
Lemma mu_any_new : rrel mu_R (t_new T ops) (t_new T' l0).
Proof. cbn [t_mu_any t_new]. destruct (t_new T' l0); done. Qed.
Lemma mu_any_sel c c' n i : mu_R c c' -> rrel (fun x y => mu_R x.1 y.1 /\ x.2 = y.2) (t_select_u T ops c n i) (t_select_u T' l0 c' n i).
Proof.
  intros <-. cbn [t_mu_any t_multi_union t_select_u]. change (mu_select t (ops (fst c) None) (snd c) n i) with (mu_select t l0 (snd c) n i).
  destruct (mu_select t l0 (snd c) n i) as [[c1 m]| | |]; done.
Qed.
Lemma mu_any_cd c i : t_cdata T ops c i = t_cdata T' l0 (snd c) i.
Proof. done. Qed.
Lemma mu_any_cdu c i : t_cdata_u T ops c i = t_cdata_u T' l0 (snd c) i.
Proof. done. Qed.
Lemma mu_any_dat c c' i : mu_R c c' -> rrel (fun x y => y = x) (t_cdata_u T ops c i) (t_cdata_u T' l0 c' i).
Proof. intros <-. rewrite mu_any_cdu. by apply rrel_refl. Qed.
Lemma mu_any_poll fuel m a b : ri T T' mu_R a b ->
  rrel (fun x y => ri T T' mu_R x.1 y.1 /\ y.2 = x.2) (iter_poll fuel m T ops a) (iter_poll fuel m T' l0 b).
Proof.
  intros H. pose proof (sim_poll T T' ops l0 mu_R (fun x => x) eq_refl eq_refl mu_any_sel mu_any_dat fuel m a b H) as K.
  destruct (iter_poll fuel m T ops a) as [[a1 l]| | |], (iter_poll fuel m T' l0 b) as [[b1 l']| | |]; try done.
  destruct K as [K1 K2]. split; [done|]. cbn [fst snd] in *. rewrite K2. clear. induction l as [|[[k x]|] l IH]; cbn; [done| |]; by f_equal.
Qed.
Lemma mu_any_iter_new : rrel (ri T T' mu_R) (iter_new T ops) (iter_new T' l0).
Proof. exact (sim_new_iter T T' ops l0 mu_R eq_refl eq_refl mu_any_new mu_any_sel). Qed.
Lemma mu_any_collect fuel : iter_collect fuel T ops = iter_collect fuel T' l0.
Proof.
  pose proof (sim_collect T T' ops l0 mu_R (fun x => x) eq_refl eq_refl mu_any_new mu_any_sel mu_any_dat fuel) as K.
  apply rrel_eq. destruct (iter_collect fuel T ops) as [l| | |], (iter_collect fuel T' l0) as [l'| | |]; try done.
  cbn in K |- *. rewrite K. clear. induction l as [|[k x] l IH]; [done|]. cbn. by f_equal.
Qed.
Lemma mu_any_materialize : materialize T ops = materialize T' l0.
Proof.
  pose proof (sim_mat T T' ops l0 mu_R (fun x => x) eq_refl eq_refl mu_any_new mu_any_sel mu_any_dat) as K.
  apply rrel_eq. destruct (materialize T ops) as [[r h d k]| | |], (materialize T' l0) as [[r' h' d' k']| | |]; try done.
  cbn in K |- *. destruct K as (-> & -> & -> & K). f_equal. rewrite K. symmetry. exact (fmap_id_opt d).
Qed.
Lemma mu_any_selects c c' m xs : mu_R c c' ->
  rrel (fun x y => mu_R x.1 y.1 /\ x.2 = y.2) (run_selects T ops c m xs) (run_selects T' l0 c' m xs).
Proof. apply sim_selects; [exact mu_any_sel|exact mu_any_sel]. Qed.
End mu_any.

(** ** multi_intersection re-reads the operands with every call *)
Section mi_any.
Context (t : tree) (ops : operands t).
Notation l0 := (ops 0 None).
Notation T := (t_mi_any t).
Notation T' := (t_multi_intersection t).
Lemma mi_rest_app sel cs : forall srcs more acc, length cs <= length srcs ->
  mi_select_rest t sel (srcs ++ more) cs acc = mi_select_rest t sel srcs cs acc.
Proof.
  induction cs as [|c cs IH]; intros srcs more acc H; [by destruct srcs, more|]. destruct srcs as [|a srcs]; cbn [length] in H; [lia|].
  cbn [mi_select_rest app]. destruct (sel a c) as [[c1 m]| | |]; cbn [rbind]; [|done..]. rewrite IH by lia. done.
Qed.
Lemma mi_all_app sel cs srcs more : length cs <= length srcs ->
  mi_select_all t sel (srcs ++ more) cs = mi_select_all t sel srcs cs.
Proof.
  destruct cs as [|c cs]; intros H; [done|]. destruct srcs as [|a srcs]; cbn [length] in H; [lia|].
  cbn [mi_select_all app]. destruct (sel a c) as [[c1 m]| | |]; cbn [rbind]; [|done..]. rewrite mi_rest_app by lia. done.
Qed.
Lemma mi_data_app i cs : forall srcs more, length cs <= length srcs ->
  mi_cursor_data t (srcs ++ more) cs i = mi_cursor_data t srcs cs i.
Proof.
  induction cs as [|c cs IH]; intros srcs more H; [by destruct srcs, more|]. destruct srcs as [|a srcs]; cbn [length] in H; [lia|].
  cbn [mi_cursor_data app]. destruct (t_cdata_u t a c i); cbn [rbind]; [|done..]. rewrite IH by lia. done.
Qed.
Lemma mi_rest_len sel cs : forall srcs acc cs' acc', mi_select_rest t sel srcs cs acc = Ok (cs', acc') -> length cs' = length cs.
Proof.
  induction cs as [|c cs IH]; intros srcs acc cs' acc'; [destruct srcs; by intros [= <- _]|].
  destruct srcs as [|a srcs]; cbn [mi_select_rest]; [done|]. destruct (sel a c) as [[c1 m]| | |]; cbn [rbind]; [|done..].
  destruct (mi_select_rest t sel srcs cs (mask_and acc m)) as [[cs1 acc1]| | |] eqn:E; cbn [rbind]; [|done..].
  intros [= <- _]. cbn. f_equal. by eapply IH.
Qed.
Lemma mi_all_len sel cs srcs cs' acc : mi_select_all t sel srcs cs = Ok (Some (cs', acc)) -> length cs' = length cs.
Proof.
  destruct cs as [|c cs], srcs as [|a srcs]; cbn [mi_select_all]; try done.
  destruct (sel a c) as [[c1 m]| | |]; cbn [rbind]; [|done..].
  destruct (mi_select_rest t sel srcs cs m) as [[cs1 acc1]| | |] eqn:E; cbn [rbind]; [|done..].
  intros [= <- _]. cbn. f_equal. by eapply mi_rest_len.
Qed.
Lemma arrayvec_len {A B} (f : A -> res B) l : forall cap k, arrayvec_collect f cap l = Ok k -> length k = length l.
Proof.
  induction l as [|x l IH]; intros cap k; cbn [arrayvec_collect]; [by intros [= <-]|].
  destruct (f x); cbn [rbind]; [|done..]. destruct cap as [|cap]; [done|].
  destruct (arrayvec_collect f cap l) eqn:E; cbn [rbind]; [|done..]. intros [= <-]. cbn. f_equal. by eapply IH.
Qed.

Hypothesis Hpre : forall n o, l0 `prefix_of` ops n o.
Definition mi_R (c : t_C T) (c' : t_C T') : Prop := snd c = c' /\ length (mi_cursors c') <= length l0.
Lemma mi_any_new : rrel mi_R (t_new T ops) (t_new T' l0).
Proof.
  cbn [t_mi_any t_multi_intersection t_new]. destruct (arrayvec_collect (t_new t) MULTI_N l0) as [k| | |] eqn:E; cbn [rbind rrel]; try done.
  split; [done|]. cbn. rewrite (arrayvec_len _ _ _ _ E). done.
Qed.
Lemma mi_any_sel c c' n i : mi_R c c' -> rrel (fun x y => mi_R x.1 y.1 /\ x.2 = y.2) (t_select_u T ops c n i) (t_select_u T' l0 c' n i).
Proof.
  intros [<- Hl]. cbn [t_mi_any t_multi_intersection t_select_u]. unfold mi_select_u.
  destruct (Hpre (fst c) None) as [more ->]. rewrite mi_all_app by done.
  destruct (mi_select_all t _ l0 (mi_cursors (snd c))) as [[[cs acc]|]| | |] eqn:E; cbn [rbind rrel fst snd]; try done.
  split; [|done]. split; [done|]. cbn. by rewrite (mi_all_len _ _ _ _ _ E).
Qed.
Lemma mi_any_selc c c' n i : mi_R c c' -> rrel (fun x y => mi_R x.1 y.1 /\ x.2 = y.2) (t_select T ops c n i) (t_select T' l0 c' n i).
Proof.
  intros [<- Hl]. cbn [t_mi_any t_multi_intersection t_select]. unfold mi_select.
  destruct (_ <? _)%N; [done|].
  destruct (Hpre (fst c) None) as [more ->]. rewrite mi_all_app by done.
  destruct (mi_select_all t _ l0 (mi_cursors (snd c))) as [[[cs acc]|]| | |] eqn:E; cbn [rbind rrel fst snd]; try done.
  split; [|done]. split; [done|]. cbn. by rewrite (mi_all_len _ _ _ _ _ E).
Qed.
Lemma mi_any_cdu c c' i : mi_R c c' -> t_cdata_u T ops c i = t_cdata_u T' l0 c' i.
Proof.
  intros [<- Hl]. cbn [t_mi_any t_multi_intersection t_cdata_u]. destruct (Hpre (fst c) (Some i)) as [more ->]. by rewrite mi_data_app.
Qed.
Lemma mi_any_cd c c' i : mi_R c c' -> t_cdata T ops c i = t_cdata T' l0 c' i.
Proof.
  intros [<- Hl]. cbn [t_mi_any t_multi_intersection t_cdata]. destruct (mask_get_bit _ i) as [[|]| | |]; cbn [rbind]; try done.
  destruct (Hpre (fst c) (Some i)) as [more ->]. by rewrite mi_data_app.
Qed.
Lemma mi_any_dat c c' i : mi_R c c' -> rrel (fun x y => y = x) (t_cdata_u T ops c i) (t_cdata_u T' l0 c' i).
Proof. intros H. rewrite (mi_any_cdu c c' i H). by apply rrel_refl. Qed.
Lemma mi_any_iter_new : rrel (ri T T' mi_R) (iter_new T ops) (iter_new T' l0).
Proof. exact (sim_new_iter T T' ops l0 mi_R eq_refl eq_refl mi_any_new mi_any_sel). Qed.
Lemma mi_any_poll fuel m a b : ri T T' mi_R a b ->
  rrel (fun x y => ri T T' mi_R x.1 y.1 /\ y.2 = x.2) (iter_poll fuel m T ops a) (iter_poll fuel m T' l0 b).
Proof.
  intros H. pose proof (sim_poll T T' ops l0 mi_R (fun x => x) eq_refl eq_refl mi_any_sel mi_any_dat fuel m a b H) as K.
  destruct (iter_poll fuel m T ops a) as [[a1 l]| | |], (iter_poll fuel m T' l0 b) as [[b1 l']| | |]; try done.
  destruct K as [K1 K2]. split; [done|]. cbn [fst snd] in *. rewrite K2. clear. induction l as [|[[k x]|] l IH]; cbn; [done| |]; by f_equal.
Qed.
Lemma mi_any_collect fuel : iter_collect fuel T ops = iter_collect fuel T' l0.
Proof.
  pose proof (sim_collect T T' ops l0 mi_R (fun x => x) eq_refl eq_refl mi_any_new mi_any_sel mi_any_dat fuel) as K.
  apply rrel_eq. destruct (iter_collect fuel T ops) as [l| | |], (iter_collect fuel T' l0) as [l'| | |]; try done.
  cbn in K |- *. rewrite K. clear. induction l as [|[k x] l IH]; [done|]. cbn. by f_equal.
Qed.
Lemma mi_any_materialize : materialize T ops = materialize T' l0.
Proof.
  pose proof (sim_mat T T' ops l0 mi_R (fun x => x) eq_refl eq_refl mi_any_new mi_any_sel mi_any_dat) as K.
  apply rrel_eq. destruct (materialize T ops) as [[r h d k]| | |], (materialize T' l0) as [[r' h' d' k']| | |]; try done.
  cbn in K |- *. destruct K as (-> & -> & -> & K). f_equal. rewrite K. symmetry. exact (fmap_id_opt d).
Qed.
Lemma mi_any_selects c c' m xs : mi_R c c' ->
  rrel (fun x y => mi_R x.1 y.1 /\ x.2 = y.2) (run_selects T ops c m xs) (run_selects T' l0 c' m xs).
Proof. apply sim_selects; [exact mi_any_sel|exact mi_any_selc]. Qed.
End mi_any.

(** a clone that yields fewer trees than the cursor was made from is read past its end *)
Section shrink.
Context (t : tree).
Lemma mi_rest_short n i l : forall cs srcs acc,
  Forall2 (fun a c => exists x, t_select_u t a c n i = Ok x) l cs -> srcs `prefix_of` l -> length srcs < length l ->
  mi_select_rest t (fun a c => t_select_u t a c n i) srcs cs acc = UB.
Proof.
  induction l as [|a l IH]; intros cs srcs acc H Hp Hl; cbn [length] in Hl; [lia|].
  inversion H as [|a' c l' cs' [[c1 m] Hs] H']; subst. destruct srcs as [|a0 srcs]; cbn [mi_select_rest]; [done|].
  pose proof (prefix_cons_inv_1 _ _ _ _ Hp) as ->. apply prefix_cons_inv_2 in Hp. rewrite Hs. cbn [rbind]. rewrite IH; [done|done|done|].
  cbn [length] in Hl. lia.
Qed.
Lemma mi_all_short n i l cs srcs :
  Forall2 (fun a c => exists x, t_select_u t a c n i = Ok x) l cs -> srcs `prefix_of` l -> length srcs < length l ->
  mi_select_all t (fun a c => t_select_u t a c n i) srcs cs = UB.
Proof.
  intros H Hp Hl. destruct H as [|a c l cs [[c1 m] Hs] H]; cbn [length] in Hl; [lia|]. cbn [mi_select_all].
  destruct srcs as [|a0 srcs]; [done|]. pose proof (prefix_cons_inv_1 _ _ _ _ Hp) as ->. apply prefix_cons_inv_2 in Hp.
  rewrite Hs. cbn [rbind]. rewrite (mi_rest_short n i l); [done|done|done|]. cbn [length] in Hl. lia.
Qed.
End shrink.
