(** * Properties of the public compile-time helpers: C53 *)
From Verif Require Import Base LevelIndices ConstUtils.

(** C53: `inc`, `dec` and the types `Inc`, `Dec`, `SatDec` on 0..=9 *)
Theorem C53_inc n : (n <= 9)%N -> inc n = if (n <? 9)%N then Ok (n + 1)%N else Panic.
Proof.
  intros Hn. unfold inc, Inc, const_default. assert (9 < USIZE_MAX)%N by (vm_compute; done).
  destruct (N.eqb_spec n USIZE_MAX); [lia|]. destruct (N.eqb_spec n 9); destruct (N.ltb_spec n 9); try lia; [by rewrite N.eqb_refl|].
  destruct (N.eqb_spec (n + 1) USIZE_MAX); [lia|done].
Qed.
Theorem C53_dec n : (n <= 9)%N -> dec n = if (0 <? n)%N then Ok (n - 1)%N else Panic.
Proof.
  intros Hn. unfold dec, Dec, const_default. assert (9 < USIZE_MAX)%N by (vm_compute; done).
  destruct (N.eqb_spec n USIZE_MAX); [lia|]. destruct (N.eqb_spec n 0); destruct (N.ltb_spec 0 n); try lia; [by rewrite N.eqb_refl|].
  destruct (N.eqb_spec (n - 1) USIZE_MAX); [lia|done].
Qed.
(** a step and back *)
Theorem C53_round_trip n : (n < 9)%N -> (let* m := inc n in dec m) = Ok n /\ (let* m := dec (n + 1) in inc m) = Ok (n + 1)%N.
Proof.
  intros Hn. rewrite C53_inc, C53_dec by lia. destruct (N.ltb_spec n 9); [|lia]. destruct (N.ltb_spec 0 (n + 1)); [|lia]. cbn [rbind].
  rewrite C53_dec, C53_inc by lia. replace (n + 1 - 1)%N with n by lia. destruct (N.ltb_spec 0 (n + 1)); [|lia]. by destruct (N.ltb_spec n 9); [|lia].
Qed.
(** C53: the type `SatDec` saturates at 0; the method `sat_dec` agrees with it above 0 .. *)
Theorem C53_sat_dec_partial n : (n <= 9)%N -> SatDec n = N.pred n /\ ((0 < n)%N -> sat_dec n = Ok (N.pred n)).
Proof.
  intros Hn. assert (9 < USIZE_MAX)%N by (vm_compute; done). split.
  - unfold SatDec. destruct (N.eqb_spec n USIZE_MAX); [lia|]. destruct (N.eqb_spec n 0); lia.
  - intros H0. change (sat_dec n) with (dec n). rewrite C53_dec by done. destruct (N.ltb_spec 0 n); [|lia]. f_equal. lia.
Qed.
(** .. but at 0 it panics: it returns `Self::Dec::default()` *)
Theorem C53_sat_dec_refuted : const_int 0 /\ SatDec 0 = 0%N /\ sat_dec 0 = Panic.
Proof. split; [left; lia|]. done. Qed.

(** C53: the associated types of every implementor are implementors, also at both ends and for
    the invalid value; no type but the invalid one is its own successor or predecessor; a default value exists for all but the invalid one *)
Theorem C53_closed n : const_int n -> const_int (Dec n) /\ const_int (SatDec n) /\ const_int (Inc n) /\
  (Dec n = n <-> n = USIZE_MAX) /\ (Inc n = n <-> n = USIZE_MAX) /\ (SatDec n = n <-> n = 0%N \/ n = USIZE_MAX) /\
  const_default n = (if decide (n = USIZE_MAX) then Panic else Ok n).
Proof.
  assert (USIZE_MAX = 18446744073709551615)%N as HM by (vm_compute; done). unfold const_int, Dec, SatDec, Inc, const_default. rewrite HM.
  intros H. repeat case_decide; repeat match goal with |- context [N.eqb ?a ?b] => destruct (N.eqb_spec a b) end; split_and!; try lia; try done.
Qed.

Lemma from_fn_at_read {A} (l : list A) n : forall i, i + n <= length l -> from_fn_at (fun i => get_u l i) i n = Ok (take n (drop i l)).
Proof.
  induction n as [|n IH]; intros i Hi; cbn [from_fn_at]; [by rewrite take_0|].
  destruct (lookup_lt_is_Some_2 l i) as [x Hx]; [lia|]. rewrite (get_u_ok _ _ _ Hx). cbn [rbind]. rewrite IH by lia. cbn [rbind].
  f_equal. rewrite (drop_S l x i Hx). done.
Qed.
(** C53: `split_last` of an array of 1 to 9 elements moves each element exactly once: the last one
    and the others in order *)
Theorem C53_split_last {A} (init : list A) (x : A) : length init < 9 -> split_last (init ++ [x]) = Ok (init, x).
Proof.
  intros Hl. unfold split_last. rewrite app_length. cbn [length]. assert (9 < USIZE_MAX)%N by (vm_compute; done).
  unfold Dec. destruct (N.eqb_spec (N.of_nat (length init + 1)) USIZE_MAX); [lia|]. destruct (N.eqb_spec (N.of_nat (length init + 1)) 0); [lia|].
  replace (N.to_nat (N.of_nat (length init + 1) - 1)) with (length init) by lia.
  rewrite from_fn_at_read by (rewrite app_length; cbn; lia). cbn [rbind]. rewrite drop_0, take_app. rewrite fmap_app. cbn [fmap list_fmap]. by rewrite List.last_last.
Qed.
(** .. of an empty array it reads an element that is not there (it compiles for element types of size 0) *)
Theorem C53_split_last_empty_refuted {A} : split_last ([] : list A) = UB.
Proof.
  unfold split_last. cbn [length]. change (Dec (N.of_nat 0)) with USIZE_MAX. destruct (N.to_nat USIZE_MAX) as [|n] eqn:En; [|done].
  assert (0 < USIZE_MAX)%N by (vm_compute; done). lia.
Qed.

(** C53: a `CondType` calls exactly the function of its side, once, and always holds a value of that
    side: `get`, `clone` and writes through `get_mut` never see the other one *)
Theorem C53_cond_new {St T F} B (true_fn : St -> option T * St) (false_fn : St -> option F * St) st m st' :
  cond_new B true_fn false_fn st = (Some m, st') ->
  (B = true -> exists v, true_fn st = (Some v, st') /\ cond_get B m = Ok (ETrue v)) /\
  (B = false -> exists v, false_fn st = (Some v, st') /\ cond_get B m = Ok (EFalse v)).
Proof.
  unfold cond_new. destruct B; [destruct (true_fn st) as [[v|] st1]|destruct (false_fn st) as [[v|] st1]]; intros [= <- <-]; (split; [|]; intros; [|]; try done); by exists v.
Qed.
Theorem C53_cond_panics {St T F} B (true_fn : St -> option T * St) (false_fn : St -> option F * St) st st' :
  cond_new B true_fn false_fn st = (None, st') <-> if B then true_fn st = (None, st') else false_fn st = (None, st').
Proof.
  unfold cond_new. destruct B; [destruct (true_fn st) as [[v|] st1]|destruct (false_fn st) as [[v|] st1]]; split; intros [=]; by subst.
Qed.
(** values reachable by the public operations *)
Inductive cond_reached {T F : Type} (B : bool) : cond_mem T F -> either T F -> Prop :=
| CRnew St true_fn false_fn (st st' : St) m e : cond_new B true_fn false_fn st = (Some m, st') ->
    (if B then exists v, true_fn st = (Some v, st') /\ e = ETrue v else exists v, false_fn st = (Some v, st') /\ e = EFalse v) -> cond_reached B m e
| CRfrom e m : cond_from e = (B, m) -> cond_reached B m e
| CRclone m m' e : cond_reached B m e -> cond_clone B m = Ok m' -> cond_reached B m' e
| CRset m m' e ft ff : cond_reached B m e -> cond_set B m ft ff = Ok m' -> cond_reached B m' (match e with ETrue v => ETrue (ft v) | EFalse v => EFalse (ff v) end).
Theorem C53_cond {T F} B (m : cond_mem T F) e : cond_reached B m e ->
  cond_get B m = Ok e /\ (B = true <-> exists v, e = ETrue v) /\ cond_clone B m = Ok m /\ forall ft ff, exists m', cond_set B m ft ff = Ok m'.
Proof.
  intros H. assert (m = match e with ETrue v => MemT v | EFalse v => MemF v end /\ B = match e with ETrue _ => true | EFalse _ => false end) as [-> ->].
  { induction H as [St tf ff st st' m e Hn He|e m Hf|m m' e H IH Hc|m m' e ft ff H IH Hc].
    - unfold cond_new in Hn. destruct B; destruct He as (v & Hv & ->); rewrite Hv in Hn; by injection Hn as <-.
    - destruct e; by injection Hf as <- <-.
    - destruct IH as [-> ->]. split; [|done]. destruct e; by injection Hc as <-.
    - destruct IH as [-> ->]. split; [|by destruct e]. destruct e; by injection Hc as <-. }
  destruct e as [v|v]; (split; [done|]; split; [|split; [done|intros ft ff; by eexists]]); split; try done; [intros _; by exists v|by intros [? ?]].
Qed.

Example C53_example : split_last [7; 8; 9] = Ok ([7; 8], 9) /\ inc 3 = Ok 4%N /\ dec 3 = Ok 2%N /\
  cond_new (St := list nat) (T := nat) (F := bool) true (fun st => (Some 5, st ++ [1])) (fun st => (Some true, st ++ [2])) [] = (Some (MemT 5), [1]).
Proof. done. Qed.
Example C53_example_cond : cond_reached (T := nat) (F := bool) false (MemF true) (EFalse true).
Proof. apply (CRset false (MemF false) (MemF true) (EFalse false) id negb); [|done]. by apply CRfrom. Qed.
