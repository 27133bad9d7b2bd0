(** * The item iterators of multi_intersection / multi_union, step by step

    Ops.v models the data iterators of the `multi_*` trees by the list of items they yield.
    Here they are modelled as the state machines they are (`next`, `fold`, `size_hint`), and
    the list view is justified: both ways of consuming them yield that list. *)
From Verif Require Import Base BitUtils LevelIndices Hierarchy Ops Spec.

(** ** Model *)
(** `arrayvec::IntoIter` (the type of `Data`, _multi_intersection.rs:154, _multi_union.rs:68):
    third-party, modelled by its documented behaviour *)
Definition av_next {A} (l : list A) : res (list A * option A) :=
  match l with [] => Ok ([], None) | x :: l => Ok (l, Some x) end.
(** `fold` of the ArrayVec iterator *)
Definition av_fold {A B} (f : B -> A -> B) (init : B) (l : list A) : res B := Ok (fold_left f l init).
(** `size_hint` of the ArrayVec iterator *)
Definition av_hint {A} (l : list A) : nat * option nat := (length l, Some (length l)).

Section items.
Context (t : tree).
(** ** multi_intersection `DataUnchecked` _multi_intersection.rs:267-316; the state is the
    remaining operands ([iter]); the client's iterator over the operands is an exact one
    (`slice::Iter`) *)
Definition mi_du_next (index : N) (li : list N) (iter : list (t_T t)) : res (list (t_T t) * option (t_V t)) :=
  match iter with                                             (* 286-292 *)
  | [] => Ok ([], None)
  | array :: iter => let* d := t_data_u t array index li in Ok (iter, Some d)
  end.
(** `fold` _multi_intersection.rs:295-304 *)
Fixpoint mi_du_fold {B} (index : N) (li : list N) (f : B -> t_V t -> B) (init : B) (iter : list (t_T t)) : res B :=
  match iter with                                             (* 295-304 *)
  | [] => Ok init
  | array :: iter => let* data := t_data_u t array index li in mi_du_fold index li f (f init data) iter
  end.
Definition mi_du_hint (iter : list (t_T t)) : nat * option nat := (length iter, Some (length iter)). (* _multi_intersection.rs:307-309 *)

(** ** multi_intersection `CursorData` _multi_intersection.rs:454-520: remaining operands and cursors *)
Definition mi_cd_next (level_index : N) (st : list (t_T t) * list (t_C t))
  : res ((list (t_T t) * list (t_C t)) * option (t_V t)) :=
  let '(array_iter, cursors_iter) := st in                    (* 481-489 *)
  match cursors_iter with
  | [] => Ok ((array_iter, []), None)
  | c :: cursors_iter =>
    match array_iter with
    | [] => UB                                                (* unwrap_unchecked *)
    | array :: array_iter =>
      let* d := t_cdata_u t array c level_index in Ok ((array_iter, cursors_iter), Some d)
    end
  end.
(** `fold` _multi_intersection.rs:494-508 *)
Fixpoint mi_cd_fold_loop {B} (level_index : N) (f : B -> t_V t -> B) (init : B)
    (array_iter : list (t_T t)) (cursors_iter : list (t_C t)) : res B :=
  match cursors_iter with                                     (* 494-508 *)
  | [] => Ok init
  | c :: cursors_iter =>
    match array_iter with
    | [] => UB
    | array :: array_iter =>
      let* data := t_cdata_u t array c level_index in
      mi_cd_fold_loop level_index f (f init data) array_iter cursors_iter
    end
  end.
(** `fold` _multi_intersection.rs:494-508 *)
Definition mi_cd_fold {B} (level_index : N) (f : B -> t_V t -> B) (init : B) (st : list (t_T t) * list (t_C t)) : res B :=
  mi_cd_fold_loop level_index f init (fst st) (snd st).
(** `size_hint` _multi_intersection.rs:511-513 *)
Definition mi_cd_hint (st : list (t_T t) * list (t_C t)) : nat * option nat :=
  (length (snd st), Some (length (snd st))).                  (* 511-513 *)

(** ** multi_union `DataUnchecked` _multi_union.rs:70-117 *)
Fixpoint mu_du_next (index : N) (li : list N) (iter : list (t_T t)) : res (list (t_T t) * option (t_V t)) :=
  match iter with                                             (* 89-95: find_map *)
  | [] => Ok ([], None)
  | array :: iter =>
    let* o := t_data t array index li in
    match o with Some d => Ok (iter, Some d) | None => mu_du_next index li iter end
  end.
(** `fold` _multi_union.rs:97-111 *)
Fixpoint mu_du_fold {B} (index : N) (li : list N) (f : B -> t_V t -> B) (init : B) (iter : list (t_T t)) : res B :=
  match iter with                                             (* 98-111 *)
  | [] => Ok init
  | array :: iter =>
    let* o := t_data t array index li in
    mu_du_fold index li f (match o with Some d => f init d | None => init end) iter
  end.
Definition mu_du_hint (iter : list (t_T t)) : nat * option nat := (0, Some (length iter)). (* _multi_union.rs:114-116 *)

(** ** multi_union `CursorData` _multi_union.rs:253-303: the state is the remaining cursor indices *)
Fixpoint mu_cd_next (cursors : list (t_T t * t_C t)) (level_index : N) (idx : list N) : res (list N * option (t_V t)) :=
  match idx with                                              (* 271-281: find_map *)
  | [] => Ok ([], None)
  | j :: idx =>
    let* (array, c) := get_u cursors (N.to_nat j) in
    let* o := t_cdata t array c level_index in
    match o with Some d => Ok (idx, Some d) | None => mu_cd_next cursors level_index idx end
  end.
(** `fold` _multi_union.rs:284-297 *)
Fixpoint mu_cd_fold {B} (cursors : list (t_T t * t_C t)) (level_index : N) (f : B -> t_V t -> B) (init : B) (idx : list N) : res B :=
  match idx with                                              (* 284-297 *)
  | [] => Ok init
  | j :: idx =>
    let* (array, c) := get_u cursors (N.to_nat j) in
    let* o := t_cdata t array c level_index in
    mu_cd_fold cursors level_index f (match o with Some d => f init d | None => init end) idx
  end.
Definition mu_cd_hint (idx : list N) : nat * option nat := (0, Some (length idx)). (* _multi_union.rs:300-302 *)
End items.

(** ** What a correct item iterator is *)
(** call `next` [m] times *)
Fixpoint polls {St A} (next : St -> res (St * option A)) (m : nat) (st : St) : res (St * list (option A)) :=
  match m with
  | O => Ok (st, [])
  | S m => let* (st, o) := next st in let* (st, l) := polls next m st in Ok (st, o :: l)
  end.
(** [m] calls of `next` return the items of [l] in order and then None for ever; whatever was
    consumed before, `fold` visits exactly the items that are left, and `size_hint` brackets
    their number ([exact]: states it) *)
Definition items_iter {St A} (next : St -> res (St * option A))
    (fold : forall B, (B -> A -> B) -> B -> St -> res B) (hint : St -> nat * option nat)
    (exact : bool) (st : St) (l : list A) : Prop :=
  forall m, exists st',
    polls next m st = Ok (st', (Some <$> take m l) ++ replicate (m - length l) None) /\
    (forall B (f : B -> A -> B) b, fold B f b st' = Ok (fold_left f (drop m l) b)) /\
    fst (hint st') <= length (drop m l) /\
    (exists hi, snd (hint st') = Some hi /\ length (drop m l) <= hi) /\
    (exact = true -> hint st' = (length (drop m l), Some (length (drop m l)))).

(** ** Proofs *)
Section proofs.
Context {St A : Type} (next : St -> res (St * option A)) (fold : forall B, (B -> A -> B) -> B -> St -> res B)
  (hint : St -> nat * option nat) (exact : bool).
(** [I st l]: the state [st] still has the items [l] *)
Lemma items_iter_intro (I : St -> list A -> Prop) :
  (forall st, I st [] -> exists st', next st = Ok (st', None) /\ I st' []) ->
  (forall st x l, I st (x :: l) -> exists st', next st = Ok (st', Some x) /\ I st' l) ->
  (forall st l B (f : B -> A -> B) b, I st l -> fold B f b st = Ok (fold_left f l b)) ->
  (forall st l, I st l -> fst (hint st) <= length l /\ (exists hi, snd (hint st) = Some hi /\ length l <= hi) /\
     (exact = true -> hint st = (length l, Some (length l)))) ->
  forall st l, I st l -> items_iter next fold hint exact st l.
Proof.
  intros H0 HS Hf Hh st l Hi m. revert st l Hi. induction m as [|m IH]; intros st l Hi.
  - exists st. rewrite take_0, drop_0. cbn [polls fmap list_fmap app replicate].
    split; [done|]. split; [intros; by apply Hf|]. by apply Hh.
  - destruct l as [|x l].
    + destruct (H0 st Hi) as (st1 & E & Hi1). destruct (IH st1 [] Hi1) as (st' & E' & Hrest).
      exists st'. cbn [polls]. rewrite E, bind_ok. rewrite E', bind_ok. split.
      * f_equal. f_equal. rewrite !take_nil. cbn [length]. rewrite !Nat.sub_0_r. done.
      * rewrite drop_nil in *. done.
    + destruct (HS st x l Hi) as (st1 & E & Hi1). destruct (IH st1 l Hi1) as (st' & E' & Hrest).
      exists st'. cbn [polls]. rewrite E, bind_ok. rewrite E', bind_ok. split; [done|]. done.
Qed.
End proofs.

Lemma av_items {A} (l : list A) : items_iter av_next (fun B => av_fold) av_hint true l l.
Proof.
  apply (items_iter_intro _ _ _ _ (fun st l => st = l)); [| | | |done].
  - intros ? ->. eexists. split; done.
  - intros ? x l' ->. eexists. split; done.
  - by intros ? ? B f b ->.
  - intros ? ? ->. cbn. split; [lia|]. split; [|done]. eexists. split; [done|lia].
Qed.

Section items.
Context (t : tree).
Implicit Types (s : list (t_T t)).

Lemma mi_du_items index li s l : t_data_u (t_multi_intersection t) s index li = Ok l ->
  items_iter (mi_du_next t index li) (fun B f b => mi_du_fold t index li f b) (mi_du_hint t) true s l.
Proof.
  cbn [t_multi_intersection t_data_u]. intros H.
  apply (items_iter_intro _ _ _ _ (fun st l => rmap (fun array => t_data_u t array index li) st = Ok l)); [| | | |done]; clear.
  - intros [|a st]; cbn [rmap]; [intros _; eexists; split; done|].
    intros [d [_ [r [_ [=]]]%bind_ok_inv]]%bind_ok_inv.
  - intros [|a st] x l; cbn [rmap]; [done|]. intros [d [Hd [r [Hr [= -> ->]]]%bind_ok_inv]]%bind_ok_inv.
    exists st. cbn [mi_du_next]. by rewrite Hd.
  - intros st l B f. revert l. induction st as [|a st IH]; intros l b; cbn [rmap].
    + by intros [= <-].
    + intros [d [Hd [r [Hr [= <-]]]%bind_ok_inv]]%bind_ok_inv. cbn [mi_du_fold fold_left].
      rewrite Hd, bind_ok. by apply IH.
  - intros st l H. assert (length st = length l) as Hl.
    { revert l H. induction st as [|a st IH]; intros l; cbn [rmap]; [by intros [= <-]|].
      intros [d [Hd [r [Hr [= <-]]]%bind_ok_inv]]%bind_ok_inv. cbn. f_equal. by apply IH. }
    unfold mi_du_hint. cbn. rewrite Hl. split; [lia|]. split; [|done]. eexists. split; [done|lia].
Qed.

Lemma mi_cursor_data_nil s i : mi_cursor_data t s [] i = Ok [].
Proof. by destruct s. Qed.
Lemma mi_cursor_data_cons_inv s c cs i l : mi_cursor_data t s (c :: cs) i = Ok l ->
  exists a s' d r, s = a :: s' /\ t_cdata_u t a c i = Ok d /\ mi_cursor_data t s' cs i = Ok r /\ l = d :: r.
Proof.
  destruct s as [|a s]; cbn [mi_cursor_data]; [done|].
  intros [d [Hd [r [Hr [= <-]]]%bind_ok_inv]]%bind_ok_inv. by exists a, s, d, r.
Qed.
Lemma mi_cd_items s (c : mi_cursor (t_C t)) i l : t_cdata_u (t_multi_intersection t) s c i = Ok l ->
  items_iter (mi_cd_next t i) (fun B f b => mi_cd_fold t i f b) (mi_cd_hint t) true (s, mi_cursors c) l.
Proof.
  cbn [t_multi_intersection t_cdata_u]. intros H.
  apply (items_iter_intro _ _ _ _ (fun st l => mi_cursor_data t (fst st) (snd st) i = Ok l)); [| | | |done]; clear.
  - intros [srcs [|c cs]]; cbn [fst snd].
    + intros _. exists (srcs, []). split; [done|]. apply mi_cursor_data_nil.
    + by intros (?&?&?&?&_&_&_&?)%mi_cursor_data_cons_inv.
  - intros [srcs [|c cs]] x l; cbn [fst snd]; [by rewrite mi_cursor_data_nil|].
    intros (a&srcs'&d&r&->&Hd&Hr&[= -> ->])%mi_cursor_data_cons_inv.
    exists (srcs', cs). cbn [mi_cd_next]. by rewrite Hd.
  - intros [srcs cs] l B f. unfold mi_cd_fold. cbn [fst snd]. revert srcs l.
    induction cs as [|c cs IH]; intros srcs l b.
    + rewrite mi_cursor_data_nil. intros [= <-]. by destruct srcs.
    + intros (a&srcs'&d&r&->&Hd&Hr&->)%mi_cursor_data_cons_inv.
      cbn [mi_cd_fold_loop fold_left]. rewrite Hd, bind_ok. by apply IH.
  - intros [srcs cs] l H. cbn [fst snd] in H. assert (length cs = length l) as Hl.
    { revert srcs l H. induction cs as [|c cs IH]; intros srcs l; [rewrite mi_cursor_data_nil; by intros [= <-]|].
      intros (a&srcs'&d&r&->&Hd&Hr&->)%mi_cursor_data_cons_inv. cbn. f_equal. by eapply IH. }
    unfold mi_cd_hint. cbn. rewrite Hl. split; [lia|]. split; [|done]. eexists. split; [done|lia].
Qed.

Lemma mu_du_items index li s l : t_data_u (t_multi_union t) s index li = Ok l ->
  items_iter (mu_du_next t index li) (fun B f b => mu_du_fold t index li f b) (mu_du_hint t) false s l.
Proof.
  cbn [t_multi_union t_data_u]. intros H.
  apply (items_iter_intro _ _ _ _ (fun st l => mu_data_u_loop t st index li = Ok l)); [| | | |done]; clear.
  - intros st. induction st as [|a st IH]; cbn [mu_data_u_loop mu_du_next]; [intros _; eexists; split; done|].
    intros [o [Ho [r [Hr [= E]]]%bind_ok_inv]]%bind_ok_inv. destruct o; [done|]. subst r. rewrite Ho, bind_ok. by apply IH.
  - intros st x l. revert x l. induction st as [|a st IH]; intros x l; cbn [mu_data_u_loop mu_du_next]; [done|].
    intros [o [Ho [r [Hr [= E]]]%bind_ok_inv]]%bind_ok_inv. rewrite Ho, bind_ok. destruct o as [d|].
    + injection E as [= -> ->]. by exists st.
    + subst r. by apply IH.
  - intros st l B f. revert l. induction st as [|a st IH]; intros l b; cbn [mu_data_u_loop].
    + by intros [= <-].
    + intros [o [Ho [r [Hr [= <-]]]%bind_ok_inv]]%bind_ok_inv. cbn [mu_du_fold].
      rewrite Ho, bind_ok. rewrite (IH r) by done. by destruct o.
  - intros st l H. assert (length l <= length st) as Hl.
    { revert l H. induction st as [|a st IH]; intros l; cbn [mu_data_u_loop]; [by intros [= <-]|].
      intros [o [Ho [r [Hr [= <-]]]%bind_ok_inv]]%bind_ok_inv. apply IH in Hr. destruct o; cbn; lia. }
    unfold mu_du_hint. cbn. split; [lia|]. split; [|done]. eexists. split; [done|lia].
Qed.

Lemma mu_cd_items (cs : list (t_T t * t_C t)) i idx l : mu_cursor_data t idx cs i = Ok l ->
  items_iter (mu_cd_next t cs i) (fun B f b => mu_cd_fold t cs i f b) mu_cd_hint false idx l.
Proof.
  intros H. apply (items_iter_intro _ _ _ _ (fun st l => mu_cursor_data t st cs i = Ok l)); [| | | |done]; clear.
  - intros st. induction st as [|a st IH]; cbn [mu_cursor_data mu_cd_next]; [intros _; eexists; split; done|].
    intros [[ar c] [Ha [o [Ho [r [Hr [= E]]]%bind_ok_inv]]%bind_ok_inv]]%bind_ok_inv. destruct o; [done|]. subst r.
    rewrite Ha, bind_ok, Ho, bind_ok. by apply IH.
  - intros st x l. revert x l. induction st as [|a st IH]; intros x l; cbn [mu_cursor_data mu_cd_next]; [done|].
    intros [[ar c] [Ha [o [Ho [r [Hr [= E]]]%bind_ok_inv]]%bind_ok_inv]]%bind_ok_inv.
    rewrite Ha, bind_ok, Ho, bind_ok. destruct o as [d|].
    + injection E as [= -> ->]. by exists st.
    + subst r. by apply IH.
  - intros st l B f. revert l. induction st as [|a st IH]; intros l b; cbn [mu_cursor_data].
    + by intros [= <-].
    + intros [[ar c] [Ha [o [Ho [r [Hr [= <-]]]%bind_ok_inv]]%bind_ok_inv]]%bind_ok_inv. cbn [mu_cd_fold].
      rewrite Ha, bind_ok, Ho, bind_ok. rewrite (IH r) by done. by destruct o.
  - intros st l H. assert (length l <= length st) as Hl.
    { revert l H. induction st as [|a st IH]; intros l; cbn [mu_cursor_data]; [by intros [= <-]|].
      intros [[ar c] [Ha [o [Ho [r [Hr [= <-]]]%bind_ok_inv]]%bind_ok_inv]]%bind_ok_inv. apply IH in Hr. destruct o; cbn; lia. }
    unfold mu_cd_hint. cbn. split; [lia|]. split; [|done]. eexists. split; [done|lia].
Qed.

(** ** `get` of the multi trees, for any number of operands *)
Lemma get_index_ok k s os : Forall2 (fun a o => tree_get t a k = Ok o) s os -> s <> [] ->
  index_from (t_nw t) (t_depth t) k = Ok k.
Proof.
  intros Hf Hne. destruct Hf as [|a o s' os' Ha _]; [done|]. unfold tree_get in Ha.
  apply bind_ok_inv in Ha as (k' & Hk & _). rewrite Hk. unfold index_from in Hk. destruct (k <? _)%N; congruence.
Qed.
Definition get_rel (k : N) (a : t_T t) (o : option (t_V t)) : Prop :=
  t_data t a k (level_indices (t_nw t) (t_depth t) k) = Ok o.
Lemma get_rel_of k s os : Forall2 (fun a o => tree_get t a k = Ok o) s os -> Forall2 (get_rel k) s os.
Proof.
  intros Hf. eapply Forall2_impl; [exact Hf|]. intros a o Ha. unfold tree_get in Ha.
  apply bind_ok_inv in Ha as (k' & Hk & Hd). unfold index_from in Hk. destruct (k <? _)%N; [|done].
  injection Hk as <-. done.
Qed.
Lemma mu_data_loop_any k s os acc : Forall2 (get_rel k) s os -> length acc <= 32 ->
  mu_data_loop t s k (level_indices (t_nw t) (t_depth t) k) acc =
    if decide (length acc + length (present os) <= 32) then Ok (acc ++ present os) else Panic.
Proof.
  intros Hf. revert acc. induction Hf as [|a o s os Ha Hf IH]; intros acc Hl; cbn [mu_data_loop present].
  - rewrite app_nil_r. cbn [length]. by rewrite decide_True by lia.
  - unfold get_rel in Ha. rewrite Ha, bind_ok. destruct o as [d|]; [|by apply IH].
    unfold MULTI_N. destruct (decide (length acc < 32)).
    + rewrite IH by (rewrite app_length; cbn; lia). rewrite app_length, <- app_assoc. cbn [length app].
      repeat case_decide; done || lia.
    + rewrite decide_False; [done|cbn; lia].
Qed.
Lemma mu_get_any k s os : s <> [] -> Forall2 (fun a o => tree_get t a k = Ok o) s os ->
  tree_get (t_multi_union t) s k = if decide (length (present os) <= 32) then Ok (some_of os) else Panic.
Proof.
  intros Hne Hf. unfold tree_get. cbn [t_multi_union t_nw t_depth t_data].
  rewrite (get_index_ok k s os Hf Hne), bind_ok. cbv zeta.
  rewrite (mu_data_loop_any k s os []) by (by apply get_rel_of || (cbn; lia)). cbn [length app Nat.add].
  unfold some_of. case_decide; [|done]. rewrite bind_ok. by destruct (present os).
Qed.
Lemma mi_data_loop_any k s os acc : Forall2 (get_rel k) s os -> length acc <= 32 ->
  mi_data_loop t s k (level_indices (t_nw t) (t_depth t) k) acc =
    match all_of (take (33 - length acc) os) with
    | None => Ok None
    | Some _ => if decide (length acc + length os <= 32) then Ok ((fun l => acc ++ l) <$> all_of os) else Panic
    end.
Proof.
  intros Hf. revert acc. induction Hf as [|a o s os Ha Hf IH]; intros acc Hl; cbn [mi_data_loop].
  - rewrite take_nil. cbn [all_of length]. rewrite decide_True by lia. cbn. by rewrite app_nil_r.
  - unfold get_rel in Ha. rewrite Ha, bind_ok. replace (33 - length acc) with (S (32 - length acc)) by lia.
    destruct o as [d|]; cbn [take all_of]; [|done]. unfold MULTI_N. destruct (decide (length acc < 32)).
    + rewrite IH by (rewrite app_length; cbn; lia). rewrite app_length. cbn [length].
      replace (33 - (length acc + 1)) with (32 - length acc) by lia.
      destruct (all_of (take (32 - length acc) os)); [|done].
      replace (length acc + 1 + length os) with (length acc + S (length os)) by lia.
      case_decide; [|done]. destruct (all_of os); cbn; [|done]. by rewrite <- app_assoc.
    + replace (32 - length acc) with 0 by lia. rewrite take_0. cbn [all_of]. rewrite decide_False; [done|cbn; lia].
Qed.
Lemma mi_get_any k s os : s <> [] -> Forall2 (fun a o => tree_get t a k = Ok o) s os ->
  tree_get (t_multi_intersection t) s k =
    match all_of (take 33 os) with
    | None => Ok None
    | Some _ => if decide (length s <= 32) then Ok (all_of os) else Panic
    end.
Proof.
  intros Hne Hf. unfold tree_get. cbn [t_multi_intersection t_nw t_depth t_data].
  rewrite (get_index_ok k s os Hf Hne), bind_ok. cbv zeta.
  rewrite (mi_data_loop_any k s os []) by (by apply get_rel_of || (cbn; lia)).
  change (33 - length []) with 33. change (length [] + length os) with (length os). rewrite (Forall2_length _ _ _ Hf).
  destruct (all_of (take 33 os)); [|done]. case_decide; [|done]. by destruct (all_of os).
Qed.
(** `get_unchecked` has no limit on the number of operands *)
Lemma mu_get_unchecked_any k s os : Forall2 (fun a o => tree_get t a k = Ok o) s os ->
  tree_get_unchecked (t_multi_union t) s k = Ok (present os).
Proof.
  intros Hf%get_rel_of. unfold tree_get_unchecked. cbn [t_multi_union t_nw t_depth t_data_u]. cbv zeta.
  induction Hf as [|a o s os Ha Hf IH]; cbn [mu_data_u_loop present]; [done|].
  unfold get_rel in Ha. rewrite Ha, bind_ok, IH, bind_ok. by destruct o.
Qed.
Lemma mi_get_unchecked_any k s vs : Forall2 (fun a v => tree_get_unchecked t a k = Ok v) s vs ->
  tree_get_unchecked (t_multi_intersection t) s k = Ok vs.
Proof.
  intros Hf. unfold tree_get_unchecked in *. cbn [t_multi_intersection t_nw t_depth t_data_u]. cbv zeta in *.
  induction Hf as [|a v s vs Ha Hf IH]; cbn [rmap]; [done|]. by rewrite Ha, bind_ok, IH, bind_ok.
Qed.
End items.

(** The state in which `Cursor::data` (_multi_union.rs:225-243) creates the iterator: the cursor indices of the
    last level *)
Definition mu_cd_start {t : tree} (c : mu_cursor (t_T t) (t_C t)) : list N := List.last (mu_lvls c) [].
Lemma mu_cd_start_items t s (c : mu_cursor (t_T t) (t_C t)) i l : t_cdata_u (t_multi_union t) s c i = Ok l ->
  items_iter (mu_cd_next t (mu_cursors c) i) (fun B f b => mu_cd_fold t (mu_cursors c) i f b) mu_cd_hint false (mu_cd_start c) l.
Proof.
  cbn [t_multi_union t_cdata_u]. intros (d & Hd & Hu)%bind_ok_inv. apply mu_cd_items.
  unfold mu_cdata in Hd. destruct (decide _); [done|]. apply bind_ok_inv in Hd as (lvl & Hl & Hd).
  assert (mu_cd_start c = lvl) as ->.
  { unfold mu_cd_start, get_u in *. destruct (mu_lvls c !! _) eqn:E; [|done]. injection Hl as ->.
    revert E. generalize (mu_lvls c) as ls. clear. intros ls. induction ls as [|a ls IH]; [done|].
    destruct ls as [|b ls]; [by intros [= ->]|]. intros E. cbn [List.last]. apply IH.
    rewrite <- E. cbn [length]. replace (S (S (length ls)) - 1) with (S (length ls)) by lia.
    by replace (S (length ls) - 1) with (length ls) by lia. }
  destruct lvl; [injection Hd as <-; done|]. apply bind_ok_inv in Hd as (ds & Hds & [= <-]).
  cbn in Hu. by injection Hu as <-.
Qed.
