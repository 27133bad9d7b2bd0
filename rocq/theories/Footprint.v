(** * Footprints: which memory cells an operation reads or writes
    A state [S] is made of cells [C] and a header of fixed size.  A call has footprint [F] when its outcome is
    determined by the header and the cells of [F], and no other cell is changed. *)
From Verif Require Import Base ConstLoops.

Section footprint.
Context {S C X H : Type} `{EqDecision C} (peek : S -> C -> X) (header : S -> H).
(** the same header and the same content of the cells [F] *)
Definition agree (F : list C) (s s' : S) : Prop := header s' = header s /\ forall c, c ∈ F -> peek s' c = peek s c.
(** [s1'] is [s'] with the header and the cells [F] of [s1] *)
Definition patched (F : list C) (s' s1 s1' : S) : Prop :=
  header s1' = header s1 /\ forall c, peek s1' c = if decide (c ∈ F) then peek s1 c else peek s' c.

(** a read-only call *)
Definition rd {A} (F : list C) (f : S -> res A) (s : S) (a : A) : Prop := forall s', agree F s s' -> f s' = Ok a.
(** a call that changes the state; [mk]: how the new state sits in its result *)
Definition fp {A R} (F : list C) (mk : A -> S -> R) (f : S -> res R) (s : S) (a : A) (s1 : S) : Prop :=
  patched F s s1 s1 /\ forall s', agree F s s' -> exists s1', f s' = Ok (mk a s1') /\ patched F s' s1 s1'.

Implicit Types (s : S) (F G : list C).
Lemma agree_refl F s : agree F s s. Proof using. done. Qed.
Lemma agree_incl F G s s' : F ⊆ G -> agree G s s' -> agree F s s'.
Proof using. intros HF [H1 H2]. split; [done|]. intros c Hc. apply H2. by apply HF. Qed.
Lemma rd_weaken {A} F G (f : S -> res A) s a : F ⊆ G -> rd F f s a -> rd G f s a.
Proof using. intros HF Hr s' Ha. apply Hr. by eapply agree_incl. Qed.
Lemma fp_weaken {A R} F G (mk : A -> S -> R) f s a s1 : F ⊆ G -> fp F mk f s a s1 -> fp G mk f s a s1.
Proof using.
  intros HF [[P1 P2] Hf]. assert (forall c, c ∉ F -> peek s1 c = peek s c) as Hs1.
  { intros c Hc. rewrite P2. by rewrite decide_False. }
  split.
  - split; [done|]. intros c. case_decide as Hc; [done|]. apply Hs1. set_solver.
  - intros s' Ha. destruct (Hf s' ltac:(by eapply agree_incl)) as (s1' & E & Q1 & Q2). exists s1'. split; [done|]. split; [done|].
    intros c. rewrite Q2. destruct (decide (c ∈ F)), (decide (c ∈ G)); try done; [set_solver|]. rewrite Hs1 by done. by apply Ha.
Qed.
Lemma rd_ret {A} F (a : A) (s : S) : rd F (fun _ => Ok a) s a.
Proof using. by intros s' _. Qed.
Lemma rd_bind {A B} F (f : S -> res A) (g : S -> A -> res B) s a b :
  rd F f s a -> rd F (fun x => g x a) s b -> rd F (fun x => rbind (f x) (g x)) s b.
Proof using. intros Hf Hg s' Ha. rewrite (Hf s' Ha), bind_ok. by apply Hg. Qed.
Lemma fp_ret {A R} F (mk : A -> S -> R) a s : fp F mk (fun x => Ok (mk a x)) s a s.
Proof using.
  assert (forall s', agree F s s' -> patched F s' s s') as HP.
  { intros s' [H1 H2]. split; [done|]. intros c. case_decide; [by apply H2|done]. }
  split; [by apply HP|]. intros s' Ha. exists s'. split; [done|by apply HP].
Qed.
Lemma patched_agree F s' s1 s1' : patched F s' s1 s1' -> agree F s1 s1'.
Proof using. intros [H1 H2]. split; [done|]. intros c Hc. rewrite H2. by rewrite decide_True. Qed.
Lemma patched_trans F s' s1 s1' s2 s2' : patched F s' s1 s1' -> patched F s1' s2 s2' -> patched F s' s2 s2'.
Proof using. intros [H1 H2] [H3 H4]. split; [done|]. intros c. rewrite H4. case_decide as Hc; [done|]. rewrite H2. by rewrite decide_False. Qed.
Lemma fp_rd {A B R} F (f : S -> res A) (g : S -> A -> res R) (mk : B -> S -> R) s a b s1 :
  rd F f s a -> fp F mk (fun x => g x a) s b s1 -> fp F mk (fun x => rbind (f x) (g x)) s b s1.
Proof using. intros Hf [Hp Hg]. split; [done|]. intros s' Ha. rewrite (Hf s' Ha), bind_ok. by apply Hg. Qed.
Lemma fp_bind {A B R Q} F (f : S -> res R) (k : R -> res Q) (mk : A -> S -> R) (mk2 : B -> S -> Q) s a b s1 s2 :
  fp F mk f s a s1 -> fp F mk2 (fun x => k (mk a x)) s1 b s2 -> fp F mk2 (fun x => rbind (f x) k) s b s2.
Proof using.
  intros [Hp Hf] [Hp2 Hg]. split; [by eapply patched_trans|]. intros s' Ha. destruct (Hf s' Ha) as (s1' & E & P1).
  destruct (Hg s1' (patched_agree _ _ _ _ P1)) as (s2' & E2 & P2). exists s2'. rewrite E, bind_ok. split; [done|by eapply patched_trans].
Qed.
(** a pure step *)
Lemma fp_pure {A B R} F (m : res A) (g : S -> A -> res R) (mk : B -> S -> R) s a b s1 :
  m = Ok a -> fp F mk (fun x => g x a) s b s1 -> fp F mk (fun x => rbind m (g x)) s b s1.
Proof using. intros -> Hg. exact Hg. Qed.
Lemma rd_pure {A B} F (m : res A) (g : S -> A -> res B) s a b : m = Ok a -> rd F (fun x => g x a) s b -> rd F (fun x => rbind m (g x)) s b.
Proof using. intros -> Hg. exact Hg. Qed.
End footprint.
