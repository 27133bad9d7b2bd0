(** * Unwinding out of `materialize`

    Materialize.v describes `FromHibitTree::from_sparse_hierarchy` (from.rs:152-178) up to a panic
    of the source.  Here the same code is followed through the unwinding: the local vectors
    `data` and `keys` (155-158) are dropped with what they hold at that moment. *)
From Verif Require Import Base BitUtils BitUtilsProofs BitQueue LevelIndices ConstLoops Hierarchy Ops Dense Spec SpecLaws Client TreeClient DenseProofs
  Materialize MaterializeLaws Compose ViewLaws MaterializeViews PanicSafety.

(** ** a view whose `map` function may panic: src/ops/map.rs as in [t_map] (Ops.v), with
    [f v = None] when the user's function panics on [v] *)
Definition or_panic {A} (o : option A) : res A := match o with Some a => Ok a | None => Panic end.
(** src/ops/map.rs with a panicking function *)
Definition t_pmap (t : tree) {W : Type} (f : t_V t -> option W) : tree := {|
  t_nw := t_nw t; t_depth := t_depth t; t_exact := t_exact t;
  t_T := t_T t; t_C := t_C t; t_V := W;
  t_data := fun s index li =>                                 (* 56-65 *)
    let* data := t_data t s index li in
    match data with Some data => let* w := or_panic (f data) in Ok (Some w) | None => Ok None end;
  t_data_u := fun s index li =>                               (* 68-73 *)
    let* data := t_data_u t s index li in or_panic (f data);
  t_new := t_new t; t_select := t_select t; t_select_u := t_select_u t;   (* 101-120 *)
  t_cdata := fun s c i =>                                     (* 123-132 *)
    let* data := t_cdata t s c i in
    match data with Some data => let* w := or_panic (f data) in Ok (Some w) | None => Ok None end;
  t_cdata_u := fun s c i =>                                   (* 135-140 *)
    let* data := t_cdata_u t s c i in or_panic (f data);
|}.

(** ** from.rs with the state at the moment of a panic *)
Section unwind.
Context (t : tree) (src : t_T t).
(** result of a call that may unwind: the state is kept *)
Inductive ur (A : Type) := UOk (a : A) | UUnw (s : mst t) | UUB | UFuel.
Global Arguments UOk {A}. Global Arguments UUnw {A}. Global Arguments UUB {A}. Global Arguments UFuel {A}.
(** sequencing: a panic unwinds *)
Definition ubind {A B} (m : ur A) (f : A -> ur B) : ur B :=
  match m with UOk a => f a | UUnw s => UUnw s | UUB => UUB | UFuel => UFuel end.
(** a call made in state [s] *)
Definition at_ {A} (s : mst t) (r : res A) : ur A :=
  match r with Ok a => UOk a | Panic => UUnw s | UB => UUB | OutOfFuel => UFuel end.
Notation "'let+' x := m 'in' k" := (ubind m (fun x => k))
  (at level 200, x pattern, m at level 200, k at level 200, right associativity).
(** `traverse` (bit_queue.rs:142-147, 274-293) whose callback may unwind *)
Definition traverse_u {St} (m : mask) (f : St -> N -> ur St) (s : St) : ur St :=
  match mask_traverse_bits m (fun r i =>
    let r' := ubind r (fun s => f s i) in
    (r', match r' with UOk _ => false | _ => true end)) (UOk s) with
  | Ok (r, _) => r | Panic => UUB | UB => UUB | OutOfFuel => UFuel
  end.

(** `make_terminal_node` from.rs:28-50 *)
Definition make_terminal_u (s : mst t) (mask : mask) (cap : nat) (key_acc : N) : ur (mst t * ptr) :=
  let+ w := at_ s (get_u mask 0) in
  let '(h, raw) := raw_new KIdx (m_heap s) cap w in
  let+ s := traverse_u mask (fun s index =>
    let+ data := at_ s (t_cdata_u t src (m_cur s) index) in
    let key := (key_acc + index)%N in
    let '(s, data_index) := push_fn s key data in
    let+ h := at_ s (raw_push KIdx (m_heap s) raw (SIdx data_index)) in
    UOk (with_heap s h)) (with_heap s h) in
  let+ (h, p) := at_ s (raw_finalize KIdx (m_heap s) raw (SIdx 0)) in
  UOk (with_heap s h, p).
(** `from_exact_sparse_hierarchy` from.rs:53-94 *)
Fixpoint from_exact_u (k n : nat) (index key_acc : N) (s : mst t) : ur (mst t * ptr) :=
  if t_exact t then
    let+ (c, mask) := at_ s (t_select_u t src (m_cur s) n index) in
    let s := with_cur s c in
    let cap := mask_count_ones mask + 1 in
    match k with
    | O => make_terminal_u s mask cap key_acc
    | S k =>
      let+ w := at_ s (get_u mask 0) in
      let '(h, raw) := raw_new KPtr (m_heap s) cap w in
      let+ s := traverse_u mask (fun s index =>
        let key_acc := (key_acc + block_start (t_depth t) n index)%N in
        let+ (s, child_node) := from_exact_u k (S n) index key_acc s in
        let+ h := at_ s (raw_push KPtr (m_heap s) raw (SPtr child_node)) in
        UOk (with_heap s h)) (with_heap s h) in
      let+ empty_child := at_ s (empty_node (S n) (t_depth t)) in
      let+ (h, p) := at_ s (raw_finalize KPtr (m_heap s) raw (SPtr empty_child)) in
      UOk (with_heap s h, p)
    end
  else UUnw s.
(** `from_sparse_hierarchy` from.rs:97-137 *)
Fixpoint from_sparse_u (k n : nat) (index key_acc : N) (s : mst t) : ur (mst t * option ptr) :=
  let+ (c, mask) := at_ s (t_select_u t src (m_cur s) n index) in
  let s := with_cur s c in
  match k with
  | O =>
    let cap := mask_count_ones mask + 1 in
    let+ (s, p) := make_terminal_u s mask cap key_acc in
    UOk (s, Some p)
  | S k =>
    let+ (s, node_mask, childs) := traverse_u mask (fun '(s, node_mask, childs) index =>
      let key_acc := (key_acc + block_start (t_depth t) n index)%N in
      let+ (s, child_node) := from_sparse_u k (S n) index key_acc s in
      match child_node with
      | Some child_node =>
        let+ (node_mask, _) := at_ s (mask_set_bit true node_mask index) in
        if decide (length childs < 64) then
          UOk (s, node_mask, childs ++ [SPtr child_node])
        else UUB
      | None => UOk (s, node_mask, childs)
      end) (s, mask_zero 1, []) in
    if decide (childs = []) then UOk (s, None)
    else
      let+ empty_child := at_ s (empty_node (S n) (t_depth t)) in
      let+ w := at_ s (get_u node_mask 0) in
      let '(h, p) := from_parts KPtr (m_heap s) w childs (SPtr empty_child) in
      UOk (with_heap s h, Some p)
  end.
(** `FromHibitTree::from_sparse_hierarchy` from.rs:152-178, with the source's cursor [c] (153) *)
Definition materialize_u (c : t_C t) : ur (dense (t_V t)) :=
  let s := Mst c heap_empty [None] [USIZE_MAX] in
  let+ (s, root) :=
    if t_exact t then from_exact_u (t_depth t - 1) 0 0 0 s
    else
      let+ (s, o) := from_sparse_u (t_depth t - 1) 0 0 0 s in
      let+ p := at_ s (unwrap_unc o) in UOk (s, p) in
  UOk (Dense root (m_heap s) (m_data s) (m_keys s)).
(** the whole call 152-178: on a panic of the source, `data` is dropped during the unwinding.
    [needs_drop]: the element type has a destructor (`mem::needs_drop::<T>()`), which here
    never panics itself *)
Definition materialize_b (needs_drop : bool) : res (dense (t_V t)) :=
  let* c := t_new t src in                                                   (* 153 *)
  match materialize_u c with
  | UOk d => Ok d
  | UUnw s =>
    if needs_drop then
      match drop_slice (fun _ => false) true (m_data s) with Unwinding _ => Panic | _ => UB end
    else Panic
  | UUB => UB
  | UFuel => OutOfFuel
  end.
End unwind.
Arguments ubind {t A B}. Arguments at_ {t A}. Arguments traverse_u {t St}.

(** ** a traversal is a loop over a list that only depends on the mask *)
Fixpoint run_list {St} (f : St -> N -> St * bool) (l : list N) (e : res unit) (s : St) : res (St * bool) :=
  match l with
  | [] => let* _ := e in Ok (s, false)
  | i :: l => let '(s, brk) := f s i in if brk then Ok (s, true) else run_list f l e s
  end.
Lemma run_list_app {St} (f : St -> N -> St * bool) l1 l2 e s : run_list f (l1 ++ l2) e s =
  let* (s, brk) := run_list f l1 (Ok tt) s in if brk : bool then Ok (s, true) else run_list f l2 e s.
Proof. revert s. induction l1 as [|i l1 IH]; intros s; cbn [app run_list rbind]; [done|]. destruct (f s i) as [s' []]; [done|]. apply IH. Qed.
Lemma traverse_loop_list fuel element : exists l e, (e = Ok tt \/ e = OutOfFuel) /\ forall St (f : St -> N -> St * bool) s,
  traverse_one_bits_loop fuel element f s = run_list f l e s.
Proof.
  revert element. induction fuel as [|fuel IH]; intros element.
  - exists [], OutOfFuel. split; [by right|]. done.
  - cbn [traverse_one_bits_loop]. destruct (element =? 0)%N; [exists [], (Ok tt); split; [by left|done]|].
    destruct (IH (clear_lowest element)) as (l & e & He & Hl). exists (trailing_zeros element :: l), e. split; [done|].
    intros St f s. cbn [run_list]. destruct (f s (trailing_zeros element)) as [s' []]; [done|]. apply Hl.
Qed.
Lemma traverse_array_list arr i : exists l e, (e = Ok tt \/ e = OutOfFuel) /\ forall St (f : St -> N -> St * bool) s,
  traverse_array_loop arr i f s = run_list f l e s.
Proof.
  revert i. induction arr as [|w arr IH]; intros i.
  - exists [], (Ok tt). split; [by left|]. done.
  - destruct (IH (N.succ i)) as (l2 & e2 & He2 & Hl2). destruct (traverse_loop_list 65 w) as (l1 & e1 & He1 & Hl1).
    assert (forall St (f : St -> N -> St * bool) e s, run_list (fun s r => f s (i * 64 + r)%N) l1 e s = run_list f ((fun r => (i * 64 + r)%N) <$> l1) e s) as Hm.
    { intros St f e'. clear. induction l1 as [|x l1 IH]; intros s; [done|]. rewrite fmap_cons. cbn [run_list]. destruct (f s _) as [s' []]; [done|]. apply IH. }
    destruct He1 as [->| ->].
    + exists (((fun r => (i * 64 + r)%N) <$> l1) ++ l2), e2. split; [done|]. intros St f s. cbn [traverse_array_loop]. unfold traverse_one_bits.
      rewrite Hl1, Hm, run_list_app. destruct (run_list f _ (Ok tt) s) as [[s' []]| | |]; try done. cbn [rbind]. apply Hl2.
    + exists ((fun r => (i * 64 + r)%N) <$> l1), OutOfFuel. split; [by right|]. intros St f s. cbn [traverse_array_loop]. unfold traverse_one_bits.
      rewrite Hl1, Hm. generalize ((fun r : N => (i * 64 + r)%N) <$> l1) as l. clear. intros l. revert s.
      induction l as [|x l IH]; intros s; cbn [run_list rbind]; [done|]. destruct (f s x) as [s' []]; [done|]. apply IH.
Qed.
Lemma mask_traverse_list m : exists l e, (e = Ok tt \/ e = UB \/ e = OutOfFuel) /\ forall St (f : St -> N -> St * bool) s,
  mask_traverse_bits m f s = run_list f l e s.
Proof.
  unfold mask_traverse_bits. destruct (decide (length m = 1)) as [_|_].
  - destruct (get_u m 0) as [w| | |] eqn:E; [|unfold get_u in E; destruct (m !! 0); done| |unfold get_u in E; destruct (m !! 0); done].
    + destruct (traverse_loop_list 65 w) as (l & e & He & Hl). exists l, e. split; [tauto|]. intros St f s. rewrite bind_ok. unfold traverse_one_bits. rewrite Hl. done.
    + exists [], UB. split; [by auto|]. done.
  - destruct (traverse_array_list m 0) as (l & e & He & Hl). exists l, e. split; [tauto|]. intros St f s. unfold traverse_array_one_bits. rewrite Hl. done.
Qed.
Fixpoint fold_m {St} (f : St -> N -> res St) (l : list N) (e : res unit) (s : St) : res St :=
  match l with [] => let* _ := e in Ok s | i :: l => let* s := f s i in fold_m f l e s end.
Fixpoint fold_u {t St} (f : St -> N -> ur t St) (l : list N) (e : res unit) (s : St) : ur t St :=
  match l with
  | [] => match e with Ok _ => UOk t s | OutOfFuel => UFuel t | _ => UUB t end
  | i :: l => ubind (f s i) (fold_u f l e)
  end.
Lemma traverse_list m : exists l e, (forall St (f : St -> N -> res St) s, traverse_m m f s = fold_m f l e s) /\
  (e = Ok tt \/ e = UB \/ e = OutOfFuel) /\
  forall t St (f : St -> N -> ur t St) s, traverse_u m f s = fold_u f l e s.
Proof.
  destruct (mask_traverse_list m) as (l & e & He & Hl). exists l, e. split; [|split; [done|]].
  - intros St f. unfold traverse_m. intros s. rewrite Hl. clear Hl.
    assert (forall r, (let* (r, _) := run_list (fun (r : res St) i => let r' := rbind r (fun s => f s i) in
      (r', match r' with Ok _ => false | _ => true end)) l e (Ok r) in r) = fold_m f l e r) as H; [|apply H].
    induction l as [|i l IH]; intros r; cbn [run_list fold_m].
    + destruct e; try done.
    + cbn [rbind]. destruct (f r i) as [r'| | |]; try done. apply IH.
  - intros t St f s. unfold traverse_u. rewrite Hl. clear Hl. revert s.
    induction l as [|i l IH]; intros r; cbn [run_list fold_u].
    + destruct He as [->|[->| ->]]; done.
    + cbn [ubind]. destruct (f r i) as [r'|s'| |]; try done. cbn [ubind]. apply IH.
Qed.

(** ** forgetting the state at the panic gives back Materialize.v *)
Section erase.
Context (t : tree) (src : t_T t).
Definition erase {A} (m : ur t A) : res A :=
  match m with UOk _ a => Ok a | UUnw _ _ => Panic | UUB _ => UB | UFuel _ => OutOfFuel end.
Lemma erase_bind {A B} (m : ur t A) (f : A -> ur t B) : erase (ubind m f) = rbind (erase m) (fun a => erase (f a)).
Proof. by destruct m. Qed.
Lemma erase_at {A} s (r : res A) : erase (at_ s r) = r.
Proof. by destruct r. Qed.
Lemma rbind_ext {A B} (m m' : res A) (f g : A -> res B) : m = m' -> (forall a, f a = g a) -> rbind m f = rbind m' g.
Proof. intros -> H. destruct m'; cbn; auto. Qed.
Lemma erase_traverse {St} m (f : St -> N -> ur t St) (g : St -> N -> res St) s : (forall s i, erase (f s i) = g s i) ->
  erase (traverse_u m f s) = traverse_m m g s.
Proof.
  intros H. destruct (traverse_list m) as (l & e & H1 & He & H2). rewrite H1, H2. clear H1 H2. revert s.
  induction l as [|i l IH]; intros s; cbn [fold_u fold_m].
  - by destruct He as [->|[->| ->]].
  - rewrite erase_bind, H. apply rbind_ext; auto.
Qed.
Ltac er := rewrite ?erase_bind, ?erase_at; apply rbind_ext; [try reflexivity|intros ?; cbn beta iota].
Lemma erase_terminal s mask cap ka : erase (make_terminal_u t src s mask cap ka) = make_terminal_node t src s mask cap ka.
Proof.
  unfold make_terminal_u, make_terminal_node. er. destruct (raw_new _ _ _ _) as [h raw]. er.
  - apply erase_traverse. intros s' i. er. destruct (push_fn s' (ka + i)%N a0) as [s'' di]. er. done.
  - er. by destruct a1.
Qed.
Lemma erase_exact k : forall n index ka s, erase (from_exact_u t src k n index ka s) = from_exact t src k n index ka s.
Proof.
  induction k as [|k IH]; intros n index ka s; cbn [from_exact_u from_exact]; (destruct (t_exact t); [|done]); er; destruct a as [c mask].
  - apply erase_terminal.
  - er. destruct (raw_new _ _ _ _) as [h raw]. er.
    + apply erase_traverse. intros s' i. er; [apply IH|]. destruct a0. er. done.
    + er. er. by destruct a2.
Qed.
Lemma erase_sparse k : forall n index ka s, erase (from_sparse_u t src k n index ka s) = from_sparse t src k n index ka s.
Proof.
  induction k as [|k IH]; intros n index ka s; cbn [from_sparse_u from_sparse]; er; destruct a as [c mask].
  - er; [apply erase_terminal|]. by destruct a.
  - er.
    + apply erase_traverse. intros [[s' nm] ch] i. er; [apply IH|]. destruct a as [s'' [p|]]; [|done]. er. destruct a. by destruct (decide _).
    + destruct a as [[s' nm] ch]. destruct (decide (ch = [])); [done|]. er. er. by destruct (from_parts _ _ _ _ _).
Qed.
Lemma erase_materialize : materialize t src = let* c := t_new t src in erase (materialize_u t src c).
Proof.
  unfold materialize, materialize_u. apply rbind_ext; [done|]. intros c. rewrite erase_bind. apply rbind_ext; [|by intros []].
  destruct (t_exact t); [by rewrite erase_exact|]. rewrite erase_bind, erase_sparse. apply rbind_ext; [done|]. intros [s o]. cbn beta iota.
  by rewrite erase_bind, erase_at.
Qed.

(** ** at any moment `data` holds the uninitialised slot 0 and initialised values *)
Definition mid (s : mst t) : Prop := exists vs, m_data s = None :: (Some <$> vs).
Definition post {A} (m : ur t A) (Q : A -> Prop) : Prop :=
  match m with UOk _ a => Q a | UUnw _ s => mid s | _ => True end.
Lemma post_bind {A B} (m : ur t A) (f : A -> ur t B) Q R : post m Q -> (forall a, Q a -> post (f a) R) -> post (ubind m f) R.
Proof. destruct m; cbn; auto. Qed.
Lemma post_at {A} s (r : res A) : mid s -> post (at_ s r) (fun _ => True).
Proof. by destruct r. Qed.
Lemma post_traverse {St} m (f : St -> N -> ur t St) (Q : St -> Prop) s : Q s -> (forall s i, Q s -> post (f s i) Q) ->
  post (traverse_u m f s) Q.
Proof.
  intros Hs H. destruct (traverse_list m) as (l & e & _ & He & ->). revert s Hs.
  induction l as [|i l IH]; intros s Hs; cbn [fold_u].
  - by destruct He as [->|[->| ->]].
  - eapply post_bind; [by apply H|]. auto.
Qed.
Lemma mid_heap s h : mid s -> mid (with_heap s h). Proof. done. Qed.
Lemma mid_cur s c : mid s -> mid (with_cur s c). Proof. done. Qed.
Lemma mid_push s key v : mid s -> mid (fst (push_fn s key v)).
Proof. intros [vs E]. exists (vs ++ [v]). unfold push_fn. cbn [fst m_data]. by rewrite E, fmap_app. Qed.
Lemma post_terminal s mask cap ka : mid s -> post (make_terminal_u t src s mask cap ka) (fun r => mid (fst r)).
Proof.
  intros Hs. unfold make_terminal_u. eapply post_bind; [by apply post_at|]. intros w _. destruct (raw_new _ _ _ _) as [h raw].
  eapply (post_bind _ _ mid).
  - apply post_traverse; [done|]. intros s' i Hs'. eapply post_bind; [by apply post_at|]. intros d _.
    pose proof (mid_push s' (ka + i)%N d Hs') as Hp. destruct (push_fn s' (ka + i)%N d) as [s'' di]. cbn [fst] in Hp.
    eapply post_bind; [by apply post_at|]. intros h' _. exact Hp.
  - intros s' Hs'. eapply post_bind; [by apply post_at|]. intros [h' p] _. exact Hs'.
Qed.
Lemma post_exact k : forall n index ka s, mid s -> post (from_exact_u t src k n index ka s) (fun r => mid (fst r)).
Proof.
  induction k as [|k IH]; intros n index ka s Hs; cbn [from_exact_u]; (destruct (t_exact t); [|done]);
    (eapply post_bind; [by apply post_at|]; intros [c mask] _).
  - by apply post_terminal.
  - eapply post_bind; [by apply post_at|]. intros w _. destruct (raw_new _ _ _ _) as [h raw].
    eapply (post_bind _ _ mid).
    + apply post_traverse; [done|]. intros s' i Hs'. eapply post_bind; [by apply IH|]. intros [s'' p] Hs''. cbn [fst] in Hs''.
      eapply post_bind; [by apply post_at|]. done.
    + intros s' Hs'. eapply post_bind; [by apply post_at|]. intros ec _. eapply post_bind; [by apply post_at|]. intros [h' p] _. exact Hs'.
Qed.
Lemma post_sparse k : forall n index ka s, mid s -> post (from_sparse_u t src k n index ka s) (fun r => mid (fst r)).
Proof.
  induction k as [|k IH]; intros n index ka s Hs; cbn [from_sparse_u]; (eapply post_bind; [by apply post_at|]; intros [c mask] _).
  - eapply post_bind; [by apply post_terminal|]. by intros [s' p] Hs'.
  - eapply (post_bind _ _ (fun x => mid (fst (fst x)))).
    + apply post_traverse; [done|]. intros [[s' nm] ch] i Hs'. cbn [fst] in Hs'. eapply post_bind; [by apply IH|].
      intros [s'' [p|]] Hs''; [|done]. cbn [fst] in Hs''. eapply post_bind; [by apply post_at|]. intros [nm' b] _. by destruct (decide _).
    + intros [[s' nm] ch] Hs'. cbn [fst] in Hs'. destruct (decide _); [done|]. eapply post_bind; [by apply post_at|]. intros ec _.
      eapply post_bind; [by apply post_at|]. intros w _. by destruct (from_parts _ _ _ _ _).
Qed.
Lemma post_materialize c : post (materialize_u t src c) (fun _ => True).
Proof.
  unfold materialize_u. set (s := Mst c heap_empty [None] [USIZE_MAX]). assert (mid s) as Hs by (by exists []).
  eapply (post_bind _ _ (fun r => mid (fst r))); [|by intros []].
  destruct (t_exact t); [by apply post_exact|]. eapply post_bind; [by apply post_sparse|]. intros [s' o] Hs'. cbn [fst] in Hs'.
  eapply post_bind; [by apply post_at|]. done.
Qed.

(** a panic of the source inside the copying loop: undefined behaviour if the element type has a
    destructor, otherwise it just unwinds *)
Lemma materialize_b_ok b : materialize_b t src b =
  match t_new t src, materialize t src with
  | Panic, _ => Panic
  | _, Panic => if b then UB else Panic
  | _, r => r
  end.
Proof.
  rewrite erase_materialize. unfold materialize_b. destruct (t_new t src) as [c| | |]; try done. cbn [rbind].
  pose proof (post_materialize c) as Hp. destruct (materialize_u t src c) as [d|s| |]; try done. cbn [erase].
  destruct b; [|done]. destruct Hp as [vs ->]. done.
Qed.
End erase.

(** ** a panicking `map` function against the total function into `option W`: the two copies
    proceed alike up to the first value on which the function panics *)
Definition okp {A} (r : res A) (Q : A -> Prop) : Prop := match r with Ok a => Q a | _ => True end.
Lemma okp_bind {A B} (r : res A) (f : A -> res B) Q R : okp r Q -> (forall a, Q a -> okp (f a) R) -> okp (rbind r f) R.
Proof. destruct r; cbn; auto. Qed.
Lemma okp_true {A} (r : res A) : okp r (fun _ => True).
Proof. by destruct r. Qed.
Lemma okp_traverse {St} m (f : St -> N -> res St) (Q : St -> Prop) s : Q s -> (forall s i, Q s -> okp (f s i) Q) -> okp (traverse_m m f s) Q.
Proof.
  intros Hs H. destruct (traverse_list m) as (l & e & -> & _). revert s Hs. induction l as [|i l IH]; intros s Hs; cbn [fold_m].
  - by destruct e.
  - eapply okp_bind; [by apply H|]. auto.
Qed.
Section grow.
Context (t : tree) (src : t_T t) (x : option (t_V t)).
Definition has (s : mst t) : Prop := x ∈ m_data s.
Lemma has_terminal s mask cap ka : has s -> okp (make_terminal_node t src s mask cap ka) (fun r => has (fst r)).
Proof.
  intros Hs. unfold make_terminal_node. eapply okp_bind; [apply okp_true|]. intros w _. destruct (raw_new _ _ _ _) as [h raw].
  eapply (okp_bind _ _ has).
  - apply okp_traverse; [done|]. intros s' i Hs'. eapply okp_bind; [apply okp_true|]. intros d _.
    unfold push_fn. eapply okp_bind; [apply okp_true|]. intros h' _. unfold has in *. cbn. apply elem_of_app. by left.
  - intros s' Hs'. eapply okp_bind; [apply okp_true|]. by intros [h' p] _.
Qed.
Lemma has_exact k : forall n index ka s, has s -> okp (from_exact t src k n index ka s) (fun r => has (fst r)).
Proof.
  induction k as [|k IH]; intros n index ka s Hs; cbn [from_exact]; (destruct (t_exact t); [|done]);
    (eapply okp_bind; [apply okp_true|]; intros [c mask] _).
  - by apply has_terminal.
  - eapply okp_bind; [apply okp_true|]. intros w _. destruct (raw_new _ _ _ _) as [h raw].
    eapply (okp_bind _ _ has).
    + apply okp_traverse; [done|]. intros s' i Hs'. eapply okp_bind; [by apply IH|]. intros [s'' p] Hs''. cbn [fst] in Hs''.
      eapply okp_bind; [apply okp_true|]. done.
    + intros s' Hs'. eapply okp_bind; [apply okp_true|]. intros ec _. eapply okp_bind; [apply okp_true|]. by intros [h' p] _.
Qed.
Lemma has_sparse k : forall n index ka s, has s -> okp (from_sparse t src k n index ka s) (fun r => has (fst r)).
Proof.
  induction k as [|k IH]; intros n index ka s Hs; cbn [from_sparse]; (eapply okp_bind; [apply okp_true|]; intros [c mask] _).
  - eapply okp_bind; [by apply has_terminal|]. by intros [s' p] Hs'.
  - eapply (okp_bind _ _ (fun x => has (fst (fst x)))).
    + apply okp_traverse; [done|]. intros [[s' nm] ch] i Hs'. cbn [fst] in Hs'. eapply okp_bind; [by apply IH|].
      intros [s'' [p|]] Hs''; [|done]. cbn [fst] in Hs''. eapply okp_bind; [apply okp_true|]. intros [nm' b] _. by destruct (decide _).
    + intros [[s' nm] ch] Hs'. cbn [fst] in Hs'. destruct (decide _); [done|]. eapply okp_bind; [apply okp_true|]. intros ec _.
      eapply okp_bind; [apply okp_true|]. intros w _. by destruct (from_parts _ _ _ _ _).
Qed.
End grow.

Section pmap.
Context (t : tree) (src : t_T t) {W : Type} (f : t_V t -> option W).
Notation TM := (t_map t f).
Notation TP := (t_pmap t f).
Definition lift_data (l : list (option W)) : list (option (option W)) := option_map (@Some W) <$> l.
Definition same (s : mst TM) (s' : mst TP) : Prop :=
  m_cur s = m_cur s' /\ m_heap s = m_heap s' /\ m_keys s = m_keys s' /\ m_data s = lift_data (m_data s').
Definition bad (s : mst TM) : Prop := has TM (Some None) s.
(** if the total copy gets through, the other one does too, unless it met a panicking value *)
Definition sim {A B} (r : res A) (r' : res B) (Q : A -> B -> Prop) (Bd : A -> Prop) : Prop :=
  match r with Ok a => (exists b, r' = Ok b /\ Q a b) \/ (r' = Panic /\ Bd a) | _ => True end.
Lemma sim_bind {A B A' B'} (r : res A) (r' : res B) Q Bd (g : A -> res A') (g' : B -> res B') Q' Bd' :
  sim r r' Q Bd -> (forall a b, Q a b -> sim (g a) (g' b) Q' Bd') -> (forall a, Bd a -> okp (g a) Bd') ->
  sim (rbind r g) (rbind r' g') Q' Bd'.
Proof.
  intros H1 H2 H3. destruct r as [a| | |]; cbn in *; try done. destruct H1 as [(b & -> & Hq)|(-> & Hb)]; cbn; [by apply H2|].
  specialize (H3 a Hb). destruct (g a); cbn in *; auto.
Qed.
Lemma sim_same {A A' B'} (r : res A) (g : A -> res A') (g' : A -> res B') Q' Bd' :
  (forall a, sim (g a) (g' a) Q' Bd') -> sim (rbind r g) (rbind r g') Q' Bd'.
Proof. intros H. destruct r; cbn; try done. Qed.
Lemma sim_traverse {St St'} m (g : St -> N -> res St) (g' : St' -> N -> res St') (Q : St -> St' -> Prop) (Bd : St -> Prop) s s' :
  Q s s' -> (forall s s' i, Q s s' -> sim (g s i) (g' s' i) Q Bd) -> (forall s i, Bd s -> okp (g s i) Bd) ->
  sim (traverse_m m g s) (traverse_m m g' s') Q Bd.
Proof.
  intros Hs H1 H2. destruct (traverse_list m) as (l & e & H & _). rewrite !H. clear H. revert s s' Hs.
  induction l as [|i l IH]; intros s s' Hs; cbn [fold_m].
  - destruct e; cbn; eauto.
  - eapply sim_bind; [by apply H1|by apply IH|]. intros a Ha. clear -H2 Ha. revert a Ha.
    induction l as [|j l IH]; intros a Ha; cbn [fold_m]; [by destruct e|]. eapply okp_bind; [by apply H2|]. done.
Qed.
Definition same2 {A} (r : mst TM * A) (r' : mst TP * A) : Prop := same (fst r) (fst r') /\ snd r = snd r'.
Definition bad2 {A} (r : mst TM * A) : Prop := bad (fst r).
Lemma same_heap s s' h : same s s' -> same (with_heap s h) (with_heap s' h).
Proof. intros (H1 & H2 & H3 & H4). done. Qed.
Lemma same_cur s s' c : same s s' -> same (with_cur s c) (with_cur s' c).
Proof. intros (H1 & H2 & H3 & H4). done. Qed.
Lemma sim_terminal s s' mask cap ka : same s s' ->
  sim (make_terminal_node TM src s mask cap ka) (make_terminal_node TP src s' mask cap ka) same2 bad2.
Proof.
  intros Hs. unfold make_terminal_node. apply sim_same. intros w. pose proof Hs as (_ & Hh & _). rewrite Hh.
  destruct (raw_new _ _ _ _) as [h raw]. eapply (sim_bind _ _ same bad).
  - apply sim_traverse; [by apply same_heap| |].
    + clear. intros s s' i Hs. pose proof Hs as (Hc & Hh & Hk & Hd). cbn [t_map t_pmap t_cdata_u]. rewrite Hc.
      destruct (t_cdata_u t src (m_cur s') i) as [d| | |]; cbn [rbind sim]; try done.
      unfold push_fn. rewrite Hh. replace (length (m_data s)) with (length (m_data s')) by (by rewrite Hd; unfold lift_data; rewrite fmap_length).
      cbn [m_heap].
      destruct (f d) as [w'|] eqn:Ef; cbn [or_panic rbind].
      * apply sim_same. intros h'. left. eexists. split; [done|]. split; [done|]. split; [done|]. split; [by rewrite <- Hk|].
        cbn [with_heap m_data]. rewrite Hd. unfold lift_data. rewrite fmap_app. done.
      * destruct (raw_push _ _ _ _) as [h'| | |]; cbn [rbind sim]; try done. right. split; [done|].
        unfold bad, has. cbn [with_heap m_data]. apply elem_of_app. right. left.
    + intros s0 i Hb. cbn [t_map t_cdata_u]. eapply okp_bind; [apply okp_true|]. intros d _. unfold push_fn.
      eapply okp_bind; [apply okp_true|]. intros h' _. unfold bad, has in *. cbn. apply elem_of_app. by left.
  - intros a b Hab. pose proof Hab as (_ & Hh' & _). rewrite Hh'. apply sim_same. intros [h' p]. left. eexists. split; [done|].
    split; [by apply same_heap|done].
  - intros a Ha. eapply okp_bind; [apply okp_true|]. by intros [h' p] _.
Qed.
Lemma sim_exact k : forall n index ka s s', same s s' ->
  sim (from_exact TM src k n index ka s) (from_exact TP src k n index ka s') same2 bad2.
Proof.
  induction k as [|k IH]; intros n index ka s s' Hs; cbn [from_exact]; cbn [t_map t_pmap t_exact t_select_u t_depth]; (destruct (t_exact t); [|done]);
    pose proof Hs as (Hc & _); rewrite Hc; apply sim_same; intros [c mask].
  - apply sim_terminal. by apply same_cur.
  - apply sim_same. intros w. cbn [with_cur m_heap]. pose proof Hs as (_ & Hh & _). rewrite Hh.
    destruct (raw_new _ _ _ _) as [h raw]. eapply (sim_bind _ _ same bad).
    + apply sim_traverse; [by apply same_heap, same_cur| |].
      * clear -IH. intros s s' i Hs. eapply (sim_bind _ _ same2 bad2); [by apply IH| |].
        -- intros [a p] [b p'] [Hab Hp]. cbn [fst snd] in *. subst p'. pose proof Hab as (_ & Hh' & _). rewrite Hh'. apply sim_same. intros h'.
           left. eexists. split; [done|]. by apply same_heap.
        -- intros [a p] Ha. eapply okp_bind; [apply okp_true|]. done.
      * intros s0 i Hb. eapply okp_bind; [by apply (has_exact TM)|]. intros [s1 p] Hs1. eapply okp_bind; [apply okp_true|]. done.
    + intros a b Hab. apply sim_same. intros ec. pose proof Hab as (_ & Hh' & _). rewrite Hh'. apply sim_same. intros [h' p]. left. eexists. split; [done|].
      split; [by apply same_heap|done].
    + intros a Ha. eapply okp_bind; [apply okp_true|]. intros ec _. eapply okp_bind; [apply okp_true|]. by intros [h' p] _.
Qed.
Lemma sim_sparse k : forall n index ka s s', same s s' ->
  sim (from_sparse TM src k n index ka s) (from_sparse TP src k n index ka s') same2 bad2.
Proof.
  induction k as [|k IH]; intros n index ka s s' Hs; cbn [from_sparse]; cbn [t_map t_pmap t_select_u t_depth];
    pose proof Hs as (Hc & _); rewrite Hc; apply sim_same; intros [c mask].
  - eapply (sim_bind _ _ same2 bad2); [apply sim_terminal; by apply same_cur| |].
    + intros [a p] [b p'] [Hab Hp]. cbn [fst snd] in *. subst p'. left. eexists. done.
    + by intros [a p] Ha.
  - eapply (sim_bind _ _ (fun r r' => same (fst (fst r)) (fst (fst r')) /\ snd (fst r) = snd (fst r') /\ snd r = snd r') (fun r => bad (fst (fst r)))).
    + apply (sim_traverse _ _ _ _ (fun r => bad (fst (fst r)))); [split; [by apply same_cur|done]| |].
      * clear -IH. intros [[s nm] ch] [[s' nm'] ch'] i (Hs & Hn & Hch). cbn [fst snd] in *. subst nm' ch'.
        eapply (sim_bind _ _ same2 bad2); [by apply IH| |].
        -- intros [a p] [b p'] [Hab Hp]. cbn [fst snd] in *. subst p'. destruct p as [p|].
           ++ apply sim_same. intros [nm' x]. destruct (decide _); [|done]. left. eexists. split; [done|]. done.
           ++ left. eexists. split; [done|]. done.
        -- intros [a [p|]] Ha; [|done]. eapply okp_bind; [apply okp_true|]. intros [nm' x] _. by destruct (decide _).
      * intros [[s0 nm] ch] i Hb. cbn [fst] in Hb. eapply okp_bind; [by apply (has_sparse TM)|]. intros [s1 [p|]] Hs1; [|done].
        eapply okp_bind; [apply okp_true|]. intros [nm' x] _. by destruct (decide _).
    + intros [[a nm] ch] [[b nm'] ch'] (Hab & Hn & Hch). cbn [fst snd] in *. subst nm' ch'. destruct (decide _).
      * left. eexists. done.
      * apply sim_same. intros ec. apply sim_same. intros w. pose proof Hab as (_ & Hh' & _). rewrite Hh'.
        destruct (from_parts _ _ _ _ _) as [h p]. left. eexists. split; [done|]. split; [by apply same_heap|done].
    + intros [[a nm] ch] Ha. cbn [fst] in Ha. destruct (decide _); [done|]. eapply okp_bind; [apply okp_true|]. intros ec _.
      eapply okp_bind; [apply okp_true|]. intros w _. by destruct (from_parts _ _ _ _ _).
Qed.
Lemma sim_materialize : sim (materialize TM src) (materialize TP src)
  (fun d d' => d_root d = d_root d' /\ d_heap d = d_heap d' /\ d_keys d = d_keys d' /\ d_data d = lift_data (d_data d'))
  (fun d => Some None ∈ d_data d).
Proof.
  unfold materialize. cbn [t_map t_pmap t_new t_exact t_depth]. apply sim_same. intros c.
  assert (same (@Mst (t_C TM) (t_V TM) c heap_empty [None] [USIZE_MAX]) (@Mst (t_C TP) (t_V TP) c heap_empty [None] [USIZE_MAX])) as Hs by done.
  eapply (sim_bind _ _ same2 bad2).
  - destruct (t_exact t).
    + exact (sim_exact (t_depth t - 1) 0 0%N 0%N _ _ Hs).
    + eapply (sim_bind _ _ same2 bad2); [exact (sim_sparse (t_depth t - 1) 0 0%N 0%N _ _ Hs)| |].
      * intros [a o] [b o'] [Hab Ho]. cbn [fst snd] in *. subst o'. apply sim_same. intros p. left. eexists. done.
      * intros [a o] Ha. eapply okp_bind; [apply okp_true|]. done.
  - intros [a p] [b p'] [(H1 & H2 & H3 & H4) Hp]. cbn [fst snd] in *. subst p'. left. eexists. split; [done|]. done.
  - intros [a p] Ha. exact Ha.
Qed.
End pmap.

Lemma lift_get {W} D (d : dense (option W)) (d' : dense W) k : d_root d = d_root d' -> d_heap d = d_heap d' -> d_keys d = d_keys d' ->
  d_data d = lift_data (d_data d') -> tree_get (dense_tree (option W) D) d k =
    match tree_get (dense_tree W D) d' k with Ok o => Ok (option_map Some o) | Panic => Panic | UB => UB | OutOfFuel => OutOfFuel end.
Proof.
  intros Hrt Hh Hk Hd. unfold tree_get. cbn [dense_tree t_nw t_depth t_data]. destruct (index_from 1 D k) as [i| | |]; try done. rewrite !bind_ok. unfold dense_data.
  rewrite Hrt, Hh, Hk, Hd. destruct (get_terminal_node _ _ _ _) as [[node ii]| | |]; try done. rewrite !bind_ok. cbn beta iota.
  destruct (child_idx _ _ _) as [di| | |]; try done. rewrite !bind_ok. destruct (get_u _ _) as [key| | |]; try done. rewrite !bind_ok.
  destruct (key =? i)%N; [|done]. unfold data_get, lift_data, get_u. rewrite list_lookup_fmap.
  destruct (d_data d' !! N.to_nat di) as [[w|]|]; done.
Qed.
Section views.
Context {b : bool} {t : tree} (v : view b t) (pk : N -> Prop) (s : t_T t) {W : Type} (f : t_V t -> option W).
Hypothesis Hr : reached pk v s.
Hypothesis Hnw : t_nw t = 1.
Hypothesis Hfew : few t s.
Notation D := (t_depth t).
Notation TM := (t_map t f).
Notation TP := (t_pmap t f).
Let vm : view b TM := VMap b t (option W) f v.

Lemma pm_get k : tree_get TM s k = match tree_get t s k with Ok o => Ok (f <$> o) | Panic => Panic | UB => UB | OutOfFuel => OutOfFuel end.
Proof.
  unfold tree_get. cbn [t_map t_nw t_depth t_data]. destruct (index_from (t_nw t) (t_depth t) k) as [i| | |]; try done. rewrite !bind_ok.
  destruct (t_data t s i _) as [[x|]| | |]; done.
Qed.
Lemma pm_get_Some k y : tree_get TM s k = Ok (Some y) <-> exists x, tree_get t s k = Ok (Some x) /\ y = f x.
Proof.
  rewrite pm_get. split.
  - destruct (tree_get t s k) as [[x|]| | |]; cbn; intros H; simplify_eq; eauto.
  - intros (x & -> & ->). done.
Qed.
Lemma pm_few : few TM s.
Proof. intros ks Hn Hk. apply Hfew; [done|]. intros k (y & (x & Hx & _)%pm_get_Some)%Hk. eauto. Qed.
(** the total copy: made, unless the source has no element *)
Lemma pm_total : (t_exact t = true \/ D = 1 \/ exists k x, tree_get t s k = Ok (Some x)) ->
  exists d m, materialize TM s = Ok d /\ get_is TM s m /\ dense_inv D allp (fixd d) m.
Proof.
  intros Hc. destruct (t_exact t) eqn:Hex.
  - destruct (mat_exact vm pk s Hr Hnw pm_few (or_introl Hex)) as (d & m & E & Hm & Hi). exists d, m. split; [done|]. split; [done|].
    rewrite (fixd_inv _ _ _ _ Hi). by eapply dense_inv_false.
  - destruct (mat_sparse vm pk s Hr Hnw pm_few Hex) as [?|(E & HD & Hn)]; [done|].
    exfalso. destruct Hc as [?|[?|(k & x & Hx)]]; [done|cbn [t_map t_depth] in HD; lia|]. apply (Hn k (f x)). apply pm_get_Some. eauto.
Qed.
Lemma pm_new d : materialize TM s = Ok d -> exists c, t_new t s = Ok c.
Proof. unfold materialize. cbn [t_map t_new]. intros (c & E & _)%bind_ok_inv. eauto. Qed.

(** the function panics on some element: the copy is not made, and if the element type has a
    destructor, an uninitialised element is dropped *)
Lemma pmap_panics k x : tree_get t s k = Ok (Some x) -> f x = None ->
  materialize_b TP s true = UB /\ materialize_b TP s false = Panic.
Proof.
  intros Hx Hf. destruct pm_total as (d & m & E & Hm & Hi); [eauto 10|].
  assert (Some None ∈ d_data d) as Hbad.
  { destruct (mat_kv vm s Hnw d m Hi Hm) as (ks & vs & Ekv & El & _ & Hz).
    assert ((k, None) ∈ zip ks vs) as Hin by (apply Hz, pm_get_Some; eauto).
    apply elem_of_list_lookup in Hin as (j & Hj). apply lookup_zip_with_Some in Hj as (k' & w' & [= <- <-] & _ & Hj).
    unfold dense_key_values in Ekv. apply bind_ok_inv in Ekv as (l1 & _ & Ekv). apply bind_ok_inv in Ekv as (l2 & E2 & Ekv).
    apply bind_ok_inv in Ekv as (l3 & E3 & [= _ <-]). apply all_init_inv in E3 as ->. unfold from_1 in E2. destruct (decide _); [|done].
    injection E2 as E2. apply elem_of_list_lookup. exists (1 + j). etrans; [symmetry; exact (lookup_drop (d_data d) 1 j)|]. etrans; [exact (f_equal (fun l => l !! j) E2)|].
    etrans; [apply list_lookup_fmap|]. exact (f_equal (fmap Some) Hj). }
  pose proof (sim_materialize t s f) as Hs. rewrite E in Hs. cbn [sim] in Hs.
  assert (materialize TP s = Panic) as Ep.
  { destruct Hs as [(d' & _ & _ & _ & _ & Hd)|[? _]]; [|done]. exfalso. rewrite Hd in Hbad. unfold lift_data in Hbad.
    apply elem_of_list_fmap in Hbad as ([w|] & Hw & _); done. }
  destruct (pm_new d E) as [c Ec]. rewrite !materialize_b_ok, Ep. cbn [t_pmap t_new]. rewrite Ec. done.
Qed.
(** the function panics on no element: the copy holds what the function returned *)
Lemma pmap_copies nd : (forall k x, tree_get t s k = Ok (Some x) -> is_Some (f x)) ->
  (t_exact t = true \/ D = 1 \/ exists k x, tree_get t s k = Ok (Some x)) ->
  exists d, materialize_b TP s nd = Ok d /\
    forall k, tree_get (dense_tree W D) d k = match tree_get t s k with Ok o => Ok (o ≫= f) | Panic => Panic | UB => UB | OutOfFuel => OutOfFuel end.
Proof.
  intros Hf Hc. destruct (pm_total Hc) as (d & m & E & Hm & Hi).
  pose proof (sim_materialize t s f) as Hs. rewrite E in Hs. cbn [sim] in Hs. destruct (pm_new d E) as [c Ec].
  assert (Some None ∉ d_data d) as Hno.
  { intros Hin. apply elem_of_list_lookup in Hin as (j & Hj).
    destruct (mat_kv vm s Hnw d m Hi Hm) as (ks & vs & Ekv & El & _ & Hz).
    unfold dense_key_values in Ekv. apply bind_ok_inv in Ekv as (l1 & _ & Ekv). apply bind_ok_inv in Ekv as (l2 & E2 & Ekv).
    apply bind_ok_inv in Ekv as (l3 & E3 & [= -> ->]). apply all_init_inv in E3 as ->. unfold from_1 in E2. destruct (decide _); [|done].
    injection E2 as E2. destruct j as [|j].
    - destruct Hi as (P & J & _ & Hv & _). destruct (vec_entries _ (proj1 (view_depth vm)) (proj2 (view_depth vm)) _ _ _ _ Hv) as (? & ? & _ & H0 & _). change (d_data (fixd d)) with (d_data d) in H0. rewrite H0 in Hj. done.
    - assert (vs !! j = Some None) as Hv.
      { assert ((Some <$> vs) !! j = Some (Some None)) as Hj'.
        { etrans; [symmetry; exact (f_equal (fun l => l !! j) E2)|]. etrans; [exact (lookup_drop (d_data d) 1 j)|]. exact Hj. }
        rewrite list_lookup_fmap in Hj'. clear Hj. rename Hj' into Hj. destruct (vs !! j) as [w|]; [|done]. cbn in Hj. injection Hj as ->. done. }
      destruct (lookup_lt_is_Some_2 ks j) as [k Hk]; [rewrite El; by eapply lookup_lt_Some|].
      assert ((k, None) ∈ zip ks vs) as Hin by (apply elem_of_list_lookup; exists j; apply lookup_zip_with_Some; eauto).
      apply Hz, pm_get_Some in Hin as (x & Hx & Hn). destruct (Hf k x Hx) as [w Hw]. congruence. }
  destruct Hs as [(d' & Ed & Hrt & Hh & Hk & Hd)|[_ ?]]; [|done].
  exists d'. split; [rewrite materialize_b_ok, Ed; cbn [t_pmap t_new]; by rewrite Ec|]. intros k.
  pose proof (mat_get vm pk s Hr Hnw d m k Hi Hm) as Hg. rewrite pm_get in Hg.
  assert (tree_get (dense_tree (option W) D) d k =
    match tree_get (dense_tree W D) d' k with Ok o => Ok (option_map Some o) | Panic => Panic | UB => UB | OutOfFuel => OutOfFuel end) as Hl.
  { by apply lift_get. }
  change (t_V TM) with (option W) in Hg. change (t_depth TM) with (t_depth t) in Hg. rewrite Hl in Hg. clear Hl.
  destruct (tree_get t s k) as [[x|]| | |] eqn:Ex; destruct (tree_get (dense_tree W D) d' k) as [[w|]| | |]; cbn in *; simplify_eq; try done.
  by rewrite <- Hg.
Qed.
End views.
