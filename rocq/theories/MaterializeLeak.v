(** * What an unwinding `materialize` leaves allocated

    The nodes under construction are raw pointers on the stack (from.rs:40, 77, 120): no destructor knows about them. *)
From Verif Require Import Base BitUtils BitQueue LevelIndices Hierarchy Dense Materialize PanicSafety PEffects PMaterialize.

(** the allocations of an unwinding call of `from_sparse_hierarchy` from.rs:152-178 ([y_exact], [y_sparse]: PMaterialize.v), at the moment the panic leaves
    it: nothing between the panic and the caller frees a node.  [None]: no user function panicked *)
Definition p_unwound {St} (E : ptree St) (src : p_S E) (st : St) : res (option heap) :=
  let* c := t_new (p_t E) (p_src E src) in                                   (* 153 *)
  let s := Yst c heap_empty [None] [USIZE_MAX] st in                         (* 154-157 *)
  let* r :=
    if t_exact (p_t E) then
      let* r := y_exact E src (t_depth (p_t E) - 1) 0 0 0 s in               (* 167-170 *)
      Ok (match r with inl _ => None | inr s => Some s end)
    else
      let* r := y_sparse E src (t_depth (p_t E) - 1) 0 0 0 s in              (* 172-174 *)
      Ok (match r with inl _ => None | inr s => Some s end) in
  Ok (y_heap <$> r).

(** every node allocated so far is still allocated *)
Definition all_live (h : heap) : Prop :=
  N.of_nat (size (h_nodes h)) = h_next h /\ forall a, is_Some (h_nodes h !! a) -> (a < h_next h)%N.
Lemma all_live_empty : all_live heap_empty.
Proof. split; [done|]. intros a. cbn. rewrite lookup_empty. by intros [? ?]. Qed.
Lemma all_live_alloc h n h' p : all_live h -> halloc h n = (h', p) -> all_live h' /\ (0 < h_next h')%N.
Proof.
  intros [Hs Hl] [= <- _]. cbn [h_nodes h_next].
  assert (h_nodes h !! h_next h = None) as Hn.
  { destruct (h_nodes h !! h_next h) eqn:E; [|done]. specialize (Hl (h_next h) ltac:(eauto)). lia. }
  split; [|lia]. split; cbn [h_nodes h_next].
  - rewrite map_size_insert, Hn. lia.
  - intros a. rewrite lookup_insert_is_Some'. intros [<-|H]; [lia|]. specialize (Hl a H). lia.
Qed.
Lemma all_live_write h p n h' : all_live h -> hwrite h p n = Ok h' -> all_live h' /\ h_next h' = h_next h.
Proof.
  intros [Hs Hl]. destruct p as [|a]; cbn; [done|]. destruct (h_nodes h !! a) eqn:E; [|done]. intros [= <-]. split; [|done].
  split; cbn [h_nodes h_next].
  - rewrite map_size_insert, E. done.
  - intros b. rewrite lookup_insert_is_Some'. intros [<-|H]; [|by apply Hl]. apply Hl. eauto.
Qed.
Lemma all_live_push k h p v h' : all_live h -> raw_push k h p v = Ok h' -> all_live h' /\ h_next h' = h_next h.
Proof.
  intros H Hp. unfold raw_push in Hp. apply bind_ok_inv in Hp as (n & _ & Hp). destruct (decide _); [|done].
  apply bind_ok_inv in Hp as (sl & _ & Hp). destruct (u8_ok _); [|done]. by eapply all_live_write.
Qed.
Lemma all_live_finalize k h p v h' p' : all_live h -> raw_finalize k h p v = Ok (h', p') -> all_live h' /\ h_next h' = h_next h.
Proof.
  intros H Hp. unfold raw_finalize in Hp. apply bind_ok_inv in Hp as (n & _ & Hp). destruct (decide _); [|done].
  apply bind_ok_inv in Hp as (sl & _ & Hp). destruct (u8_ok _); [|done]. apply bind_ok_inv in Hp as (h1 & Hw & Hp).
  destruct (decide _); [|done]. injection Hp as <- <-. by eapply all_live_write.
Qed.

Section leak.
Context {St : Type} (E : ptree St) (src : p_S E).
Definition ends {T} (P : T -> Prop) (Q : pst (t_C (p_t E)) (p_V E) St -> Prop) (r : res (T + pst (t_C (p_t E)) (p_V E) St)) : Prop :=
  match r with Ok (inl x) => P x | Ok (inr s) => Q s | _ => True end.
Lemma ends_bind {A B} (P : A -> Prop) (R : B -> Prop) Q (m : res (A + pst (t_C (p_t E)) (p_V E) St)) f : ends P Q m -> (forall a, m = Ok (inl a) -> P a -> ends R Q (f a)) -> ends R Q (ybind m f).
Proof using. unfold ybind. destruct m as [[a|s]| | |]; cbn; try done. intros Ha Hf. by apply Hf. Qed.
Lemma ends_lift {A} (P : A -> Prop) Q (m : res A) : (forall a, m = Ok a -> P a) -> ends P Q (ylift (E:=E) m).
Proof using. unfold ylift. destruct m; cbn; auto. Qed.
Lemma traverse_one_inv {S} (P : S -> Prop) f : (forall x i, P x -> P (f x i).1) -> forall fuel w s s' b, P s ->
  traverse_one_bits_loop fuel w f s = Ok (s', b) -> P s'.
Proof using.
  intros Hf. induction fuel as [|n IH]; intros w s s' b Hs; cbn [traverse_one_bits_loop]; [done|]. destruct (w =? 0)%N; [by intros [= <- _]|].
  pose proof (Hf s (trailing_zeros w) Hs) as Hs1. destruct (f s (trailing_zeros w)) as [s1 brk]. cbn in Hs1. destruct brk; [by intros [= <- _]|]. by apply IH.
Qed.
Lemma traverse_array_inv {S} (P : S -> Prop) f : (forall x i, P x -> P (f x i).1) -> forall l j s s' b, P s ->
  traverse_array_loop l j f s = Ok (s', b) -> P s'.
Proof using.
  intros Hf. induction l as [|w l IH]; intros j s s' b Hs; cbn [traverse_array_loop]; [by intros [= <- _]|]. intros H.
  apply bind_ok_inv in H as ([s1 brk] & H1 & H).
  assert (P s1) as Hs1. { eapply (traverse_one_inv P (fun s r => f s (j * 64 + r)%N)); [|exact Hs|exact H1]. intros x i. apply Hf. }
  destruct brk; [by injection H as <- _|]. eapply IH; [|exact H]. done.
Qed.
Lemma traverse_y_inv {T} (P : T -> Prop) Q m (f : T -> N -> res (T + pst (t_C (p_t E)) (p_V E) St)) s : (forall x i, P x -> ends P Q (f x i)) -> P s ->
  ends P Q (traverse_y m f s).
Proof using.
  intros Hf Hs. unfold traverse_y. destruct (mask_traverse_bits m _ _) as [[r b]| | |] eqn:Et; cbn; try done.
  assert (forall x i, ends P Q x ->
    ends P Q (((fun r i => let r' := ybind r (fun s => f s i) in (r', match r' with Ok (inl _) => false | _ => true end)) x i).1)) as Hg.
  { intros x i Hx. cbn. eapply ends_bind; [exact Hx|]. intros a _ Ha. by apply Hf. }
  unfold mask_traverse_bits in Et. destruct (decide (length m = 1)).
  - apply bind_ok_inv in Et as (w & _ & Et). eapply (traverse_one_inv (ends P Q)); [exact Hg| |exact Et]. exact Hs.
  - eapply (traverse_array_inv (ends P Q)); [exact Hg| |exact Et]. exact Hs.
Qed.
(** the invariant, and what is left at a panic *)
Definition fine (s : pst (t_C (p_t E)) (p_V E) St) : Prop := all_live (y_heap s).
Definition busy (s : pst (t_C (p_t E)) (p_V E) St) : Prop := all_live (y_heap s) /\ (0 < h_next (y_heap s))%N.
Lemma y_terminal_leak s m cap k : fine s -> ends (fun r => fine r.1) busy (y_terminal E src s m cap k).
Proof using.
  intros Hs. unfold y_terminal. eapply (ends_bind (fun _ => True)); [by apply ends_lift|]. intros w _ _.
  destruct (raw_new KIdx (y_heap s) cap w) as [h raw] eqn:Er. destruct (all_live_alloc _ _ _ _ Hs Er) as [Hh Hn].
  eapply (ends_bind busy).
  - apply traverse_y_inv; [|by split]. intros x i [Hx1 Hx2].
    eapply (ends_bind (fun r => busy r.2)).
    + unfold y_data_unchecked. destruct (p_cdata_u E src (y_cur x) i (y_st x)) as [[[v|] st']| | |]; cbn; done.
    + intros [v x'] _ Hx'. cbn in Hx'. unfold y_push_fn.
      eapply (ends_bind (fun h => all_live h /\ 0 < h_next h)%N).
      * apply ends_lift. intros h1 Hp. cbn in Hp. destruct Hx' as [Ha Hb]. destruct (all_live_push _ _ _ _ _ Ha Hp) as [? ->]. done.
      * intros h1 _ Hh1. exact Hh1.
  - intros s1 _ [Hs1 _]. eapply (ends_bind (fun r => all_live r.1)).
    + apply ends_lift. intros [h1 p1] Hf. by eapply all_live_finalize.
    + intros [h1 p1] _ Hh1. exact Hh1.
Qed.
Lemma y_exact_leak k : forall n i key s, fine s -> ends (fun r => fine r.1) busy (y_exact E src k n i key s).
Proof using.
  induction k as [|k IH]; intros n i key s Hs; cbn [y_exact]; (destruct (t_exact (p_t E)); [|done]);
    (eapply (ends_bind (fun _ => True)); [by apply ends_lift|]); intros [c m] _ _.
  - by apply y_terminal_leak.
  - eapply (ends_bind (fun _ => True)); [by apply ends_lift|]. intros w _ _.
    destruct (raw_new KPtr _ _ w) as [h raw] eqn:Er. destruct (all_live_alloc _ _ _ _ Hs Er) as [Hh Hn].
    eapply (ends_bind fine).
    + apply traverse_y_inv; [|done]. intros x j Hx. eapply ends_bind; [by apply IH|]. intros [x' ch] _ Hx'.
      eapply (ends_bind all_live).
      * apply ends_lift. intros h1 Hp. by eapply all_live_push.
      * intros h1 _ Hh1. exact Hh1.
    + intros s1 _ Hs1. eapply (ends_bind (fun _ => True)); [by apply ends_lift|]. intros e _ _.
      eapply (ends_bind (fun r => all_live r.1)).
      * apply ends_lift. intros [h1 p1] Hf. by eapply all_live_finalize.
      * intros [h1 p1] _ Hh1. exact Hh1.
Qed.
Lemma y_sparse_leak k : forall n i key s, fine s -> ends (fun r => fine r.1) busy (y_sparse E src k n i key s).
Proof using.
  induction k as [|k IH]; intros n i key s Hs; cbn [y_sparse];
    (eapply (ends_bind (fun _ => True)); [by apply ends_lift|]); intros [c m] _ _.
  - eapply ends_bind; [by apply y_terminal_leak|]. intros [s1 p] _ H. exact H.
  - eapply (ends_bind (fun r => fine r.1.1)).
    + apply traverse_y_inv; [|done]. intros [[x nm] ch] j Hx. eapply ends_bind; [by apply IH|]. intros [x' [q|]] _ Hx'; [|exact Hx'].
      eapply (ends_bind (fun _ => True)); [by apply ends_lift|]. intros [nm' ?] _ _. destruct (decide _); [exact Hx'|done].
    + intros [[s1 nm] ch] _ Hs1. destruct (decide (ch = [])); [exact Hs1|].
      eapply (ends_bind (fun _ => True)); [by apply ends_lift|]. intros e _ _.
      eapply (ends_bind (fun _ => True)); [by apply ends_lift|]. intros w _ _.
      destruct (from_parts KPtr (y_heap s1) w ch (SPtr e)) as [h p] eqn:Ef. unfold from_parts in Ef.
      destruct (all_live_alloc _ _ _ _ Hs1 Ef) as [Hh _]. exact Hh.
Qed.
Lemma unwound_leak st h : p_unwound E src st = Ok (Some h) -> all_live h /\ (0 < h_next h)%N.
Proof using.
  unfold p_unwound. intros H. apply bind_ok_inv in H as (c & _ & H). apply bind_ok_inv in H as (r & Hr & H). injection H as H.
  assert (fine (Yst c heap_empty [None] [USIZE_MAX] st)) as Hs by apply all_live_empty.
  destruct r as [s1|]; [|done]. injection H as <-.
  destruct (t_exact (p_t E)); apply bind_ok_inv in Hr as ([?|s2] & Hy & Hr); try done; injection Hr as <-.
  - pose proof (y_exact_leak (t_depth (p_t E) - 1) 0 0%N 0%N _ Hs) as Hl. rewrite Hy in Hl. exact Hl.
  - pose proof (y_sparse_leak (t_depth (p_t E) - 1) 0 0%N 0%N _ Hs) as Hl. rewrite Hy in Hl. exact Hl.
Qed.
Lemma unwound_iff st : (exists h, p_unwound E src st = Ok (Some h)) <-> (exists st', p_materialize E src false st = Ok (None, st')).
Proof using.
  unfold p_unwound, p_materialize. destruct (t_new (p_t E) (p_src E src)) as [c| | |]; cbn [rbind]; try (split; intros (? & ?); done).
  unfold ybind. destruct (t_exact (p_t E)).
  - destruct (y_exact _ _ _ _ _ _ _) as [[[? ?]|s1]| | |]; cbn; split; intros (? & ?); try done; eauto.
  - destruct (y_sparse _ _ _ _ _ _ _) as [[[? [?|]]|s1]| | |]; cbn; split; intros (? & ?); try done; eauto.
Qed.
End leak.
