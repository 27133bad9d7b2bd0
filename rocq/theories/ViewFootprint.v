(** * How much memory the read-only steps of trees look at: containers and lazy operations *)
From Verif Require Import Base BitUtils LevelIndices ConstLoops Hierarchy Ops Dense Sparse Footprint DenseFootprint SparseFootprint.

(** the memory of a tree: its cells and a header *)
Record memory (S : Type) := Memory { m_cell : Type; m_content : Type; m_head : Type;
  m_peek : S -> m_cell -> m_content; m_header : S -> m_head }.
Arguments Memory {S}. Arguments m_cell {S}. Arguments m_content {S}. Arguments m_head {S}. Arguments m_peek {S}. Arguments m_header {S}.
(** the step [f] on [s] returns [a], and looks at no more than [n] cells besides the header: every other state that
    agrees on them gives the same result *)
Definition within {S A} (m : memory S) (n : nat) (f : S -> res A) (s : S) (a : A) : Prop :=
  exists F : list (m_cell m), length F <= n /\ forall u, agree (m_peek m) (m_header m) F s u -> f u = Ok a.

Definition dense_memory (V : Type) : memory (dense V) := Memory _ _ _ dpeek dheader.
Definition sparse_memory (V : Type) : memory (sparse V) := Memory _ _ _ speek sheader.
(** two operands: the cells of both *)
Definition pair_memory {S T} (m : memory S) (m' : memory T) : memory (S * T) :=
  Memory (m_cell m + m_cell m') (m_content m + m_content m') (m_head m * m_head m')
    (fun s c => match c with inl c => inl (m_peek m s.1 c) | inr c => inr (m_peek m' s.2 c) end)
    (fun s => (m_header m s.1, m_header m' s.2)).
(** a list of operands: the cells of each *)
Definition list_memory {S} (m : memory S) : memory (list S) :=
  Memory (nat * m_cell m) (option (m_content m)) (list (m_head m))
    (fun s c => (fun x => m_peek m x c.2) <$> s !! c.1) (fun s => m_header m <$> s).

Section within.
Context {S : Type} (m : memory S).
Lemma within_ret {A} n s (a : A) : within m n (fun _ => Ok a) s a.
Proof using. exists []. split; [cbn; lia|done]. Qed.
Lemma within_ok {A} n (f : S -> res A) s a : within m n f s a -> f s = Ok a.
Proof using. intros (F & _ & H). apply H. apply agree_refl. Qed.
Lemma within_le {A} n n' (f : S -> res A) s a : n <= n' -> within m n f s a -> within m n' f s a.
Proof using. intros Hn (F & HF & H). exists F. split; [lia|done]. Qed.
Lemma within_ext {A} n (f g : S -> res A) s a : (forall x, f x = g x) -> within m n f s a -> within m n g s a.
Proof using. intros Hfg (F & HF & H). exists F. split; [done|]. intros u Hu. rewrite <- Hfg. by apply H. Qed.
Lemma within_bind {A B} n1 n2 (f : S -> res A) (g : S -> A -> res B) s a b :
  within m n1 f s a -> within m n2 (fun x => g x a) s b -> within m (n1 + n2) (fun x => rbind (f x) (g x)) s b.
Proof using.
  intros (F1 & H1 & R1) (F2 & H2 & R2). exists (F1 ++ F2). split; [rewrite app_length; lia|].
  intros u Hu. rewrite R1, bind_ok by (eapply agree_incl; [|exact Hu]; set_solver).
  apply R2. eapply agree_incl; [|exact Hu]. set_solver.
Qed.
Lemma within_pure {A B} n (r : res A) (g : S -> A -> res B) s a b :
  r = Ok a -> within m n (fun x => g x a) s b -> within m n (fun x => rbind r (g x)) s b.
Proof using. intros -> H. exact H. Qed.
End within.
Section pair.
Context {S T : Type} (m : memory S) (m' : memory T).
Lemma within_fst {A} n (f : S -> res A) s t a : within m n f s a -> within (pair_memory m m') n (fun p => f p.1) (s, t) a.
Proof using.
  intros (F & HF & H). exists (inl <$> F). split; [by rewrite fmap_length|]. intros [u w] [Hh Hc]. cbn in *. apply H. split; [congruence|].
  intros c Hin. specialize (Hc (inl c) ltac:(apply elem_of_list_fmap; eauto)). cbn in Hc. congruence.
Qed.
Lemma within_snd {A} n (f : T -> res A) s t a : within m' n f t a -> within (pair_memory m m') n (fun p => f p.2) (s, t) a.
Proof using.
  intros (F & HF & H). exists (inr <$> F). split; [by rewrite fmap_length|]. intros [u w] [Hh Hc]. cbn in *. apply H. split; [congruence|].
  intros c Hin. specialize (Hc (inr c) ltac:(apply elem_of_list_fmap; eauto)). cbn in Hc. congruence.
Qed.
End pair.
Section lists.
Context {S : Type} (m : memory S).
Lemma list_agree_nil F u : agree (m_peek (list_memory m)) (m_header (list_memory m)) F [] u -> u = [].
Proof using. intros [Hh _]. cbn in Hh. by destruct u. Qed.
(** a loop over the operands: what it does with the first, and with the rest *)
Lemma within_cons {A} n n' (h : list S -> res A) (x : S) s (a : A) {B} (f : S -> res B) (b : B) (g : B -> list S -> res A) :
  (forall y u, h (y :: u) = rbind (f y) (fun b => g b u)) ->
  within m n f x b -> within (list_memory m) n' (g b) s a -> within (list_memory m) (n + n') h (x :: s) a.
Proof using.
  intros Hh (F & HF & R) (F' & HF' & R'). exists (((fun c => (0, c)) <$> F) ++ ((fun c => (Datatypes.S c.1, c.2)) <$> F')). split.
  { rewrite app_length, !fmap_length. by apply Nat.add_le_mono. }
  intros u [Hu Hc]. cbn in Hu. destruct u as [|y u]; [done|]. cbn in Hu. injection Hu as Hy Hu. rewrite Hh, R, bind_ok.
  - apply R'. split; [done|]. intros [i c] Hin. specialize (Hc (Datatypes.S i, c)). cbn in Hc. apply Hc. apply elem_of_app. right.
    apply elem_of_list_fmap. by exists (i, c).
  - split; [done|]. intros c Hin. specialize (Hc (0, c)). cbn in Hc. assert (Some (m_peek m y c) = Some (m_peek m x c)) as [= ?]; [|done].
    apply Hc. apply elem_of_app. left. apply elem_of_list_fmap. eauto.
Qed.
Lemma within_nil {A} n (h : list S -> res A) (a : A) : h [] = Ok a -> within (list_memory m) n h [] a.
Proof using. intros E. exists []. split; [cbn; lia|]. intros u Hu. by rewrite (list_agree_nil _ _ Hu). Qed.
End lists.

(** ** what a step of a tree costs *)
(** `get` and `get_unchecked` *)
Definition get_cost (t : tree) (m : memory (t_T t)) (n : t_T t -> nat) : Prop :=
  (forall s k li o, t_data t s k li = Ok o -> within m (n s) (fun s => t_data t s k li) s o) /\
  (forall s k li o, t_data_u t s k li = Ok o -> within m (n s) (fun s => t_data_u t s k li) s o).
(** a cursor: making one looks at nothing, selecting a node at [a] cells, its data at [b] *)
Definition cursor_cost (t : tree) (m : memory (t_T t)) (a b : t_T t -> nat) : Prop :=
  (forall s c, t_new t s = Ok c -> within m 0 (fun s => t_new t s) s c) /\
  (forall s c l i o, t_select t s c l i = Ok o -> within m (a s) (fun s => t_select t s c l i) s o) /\
  (forall s c l i o, t_select_u t s c l i = Ok o -> within m (a s) (fun s => t_select_u t s c l i) s o) /\
  (forall s c i o, t_cdata t s c i = Ok o -> within m (b s) (fun s => t_cdata t s c i) s o) /\
  (forall s c i o, t_cdata_u t s c i = Ok o -> within m (b s) (fun s => t_cdata_u t s c i) s o).

Section costs.
Context (t : tree) (m : memory (t_T t)) (n a b : t_T t -> nat).
Hypothesis Hg : get_cost t m n.
Hypothesis Hc : cursor_cost t m a b.
Lemma map_get_cost {X} (f : t_V t -> X) : get_cost (t_map t f) m n.
Proof using Hg.
  destruct Hg as [H1 H2]. split; intros s k li o E; cbn in E |- *; apply bind_ok_inv in E as (x & E1 & E2); rewrite <- (Nat.add_0_r (n s)).
  - eapply within_bind; [by apply H1|]. cbn beta. rewrite E2. apply within_ret.
  - eapply within_bind; [by apply H2|]. cbn beta. rewrite E2. apply within_ret.
Qed.
Lemma map_cursor_cost {X} (f : t_V t -> X) : cursor_cost (t_map t f) m a b.
Proof using Hc.
  destruct Hc as (H1 & H2 & H3 & H4 & H5). split_and!; [exact H1|exact H2|exact H3| |]; intros s c i o E; cbn in E |- *; apply bind_ok_inv in E as (x & E1 & E2); rewrite <- (Nat.add_0_r (b s)).
  - eapply within_bind; [by apply H4|]. cbn beta. rewrite E2. apply within_ret.
  - eapply within_bind; [by apply H5|]. cbn beta. rewrite E2. apply within_ret.
Qed.
Lemma mmf_get_cost {X A} (items : t_V t -> list X) (init : A) f : get_cost (t_multi_map_fold t items init f) m n.
Proof using Hg.
  destruct Hg as [H1 H2]. split; intros s k li o E; cbn in E |- *; apply bind_ok_inv in E as (x & E1 & E2); rewrite <- (Nat.add_0_r (n s)).
  - eapply within_bind; [by apply H1|]. cbn beta. rewrite E2. apply within_ret.
  - eapply within_bind; [by apply H2|]. cbn beta. rewrite E2. apply within_ret.
Qed.
Lemma mmf_cursor_cost {X A} (items : t_V t -> list X) (init : A) f : cursor_cost (t_multi_map_fold t items init f) m a b.
Proof using Hc.
  destruct Hc as (H1 & H2 & H3 & H4 & H5). split_and!; [exact H1|exact H2|exact H3| |]; intros s c i o E; cbn in E |- *; apply bind_ok_inv in E as (x & E1 & E2); rewrite <- (Nat.add_0_r (b s)).
  - eapply within_bind; [by apply H4|]. cbn beta. rewrite E2. apply within_ret.
  - eapply within_bind; [by apply H5|]. cbn beta. rewrite E2. apply within_ret.
Qed.

(** *** lists of operands *)
Lemma mi_data_cost : forall s k li ds o, mi_data_loop t s k li ds = Ok o -> within (list_memory m) (sum_list_with n s) (fun s => mi_data_loop t s k li ds) s o.
Proof using Hg.
  destruct Hg as [H1 _]. induction s as [|x s IH]; intros k li ds o E; [by apply within_nil|]. cbn [mi_data_loop] in E. apply bind_ok_inv in E as (d & E1 & E2).
  cbn [sum_list_with]. eapply (within_cons m _ _ _ _ _ _ (fun x => t_data t x k li) d (fun d u => match d with
    | Some data => if decide (length ds < MULTI_N) then mi_data_loop t u k li (ds ++ [data]) else Panic | None => Ok None end)); [done|by apply H1|].
  cbn beta. destruct d as [d|]; [|injection E2 as <-; apply within_ret]. destruct (decide _); [|done]. by apply IH.
Qed.
Lemma mi_get_cost : get_cost (t_multi_intersection t) (list_memory m) (sum_list_with n).
Proof using Hg.
  split; [intros s k li o E; by apply mi_data_cost|]. destruct Hg as [_ H2]. intros s k li o E. cbn in E |- *.
  revert o E. induction s as [|x s IH]; intros o E; [by apply within_nil|]. cbn [rmap] in E. apply bind_ok_inv in E as (d & E1 & E2). apply bind_ok_inv in E2 as (r & E2 & E3). injection E3 as <-.
  cbn [sum_list_with]. eapply (within_cons m _ _ _ _ _ _ (fun x => t_data_u t x k li) d (fun d u => let* r := rmap (fun array => t_data_u t array k li) u in Ok (d :: r))); [done|by apply H2|].
  cbn beta. rewrite <- (Nat.add_0_r (sum_list_with n s)). eapply within_bind; [by apply IH|]. apply within_ret.
Qed.
Lemma mu_data_cost : forall s k li ds o, mu_data_loop t s k li ds = Ok o -> within (list_memory m) (sum_list_with n s) (fun s => mu_data_loop t s k li ds) s o.
Proof using Hg.
  destruct Hg as [H1 _]. induction s as [|x s IH]; intros k li ds o E; [by apply within_nil|]. cbn [mu_data_loop] in E. apply bind_ok_inv in E as (d & E1 & E2).
  cbn [sum_list_with]. eapply (within_cons m _ _ _ _ _ _ (fun x => t_data t x k li) d (fun d u => match d with
    | Some data => if decide (length ds < MULTI_N) then mu_data_loop t u k li (ds ++ [data]) else Panic | None => mu_data_loop t u k li ds end)); [done|by apply H1|].
  cbn beta. destruct d as [d|]; [|by apply IH]. destruct (decide _); [|done]. by apply IH.
Qed.
Lemma mu_get_cost : get_cost (t_multi_union t) (list_memory m) (sum_list_with n).
Proof using Hg.
  split.
  - intros s k li o E. cbn in E |- *. apply bind_ok_inv in E as (ds & E1 & E2). rewrite <- (Nat.add_0_r (sum_list_with n s)). eapply within_bind; [by apply mu_data_cost|].
    cbn beta. rewrite E2. apply within_ret.
  - destruct Hg as [H1 _]. intros s k li. cbn. induction s as [|x s IH]; intros o E; [by apply within_nil|]. cbn [mu_data_u_loop] in E. apply bind_ok_inv in E as (d & E1 & E2). apply bind_ok_inv in E2 as (r & E2 & E3). injection E3 as <-.
    cbn [sum_list_with]. eapply (within_cons m _ _ _ _ _ _ (fun x => t_data t x k li) d (fun d u => let* ds := mu_data_u_loop t u k li in Ok (match d with Some d => d :: ds | None => ds end))); [done|by apply H1|].
    cbn beta. rewrite <- (Nat.add_0_r (sum_list_with n s)). eapply within_bind; [by apply IH|]. apply within_ret.
Qed.
Lemma mi_rest_cost (sel : t_T t -> t_C t -> res (t_C t * mask)) : (forall x c o, sel x c = Ok o -> within m (a x) (fun x => sel x c) x o) ->
  forall s cs acc o, mi_select_rest t sel s cs acc = Ok o -> within (list_memory m) (sum_list_with a s) (fun s => mi_select_rest t sel s cs acc) s o.
Proof using.
  intros Hs. induction s as [|x s IH]; intros [|c cs] acc o E; cbn [mi_select_rest] in E; try done.
  - injection E as <-. exists []. split; [cbn; lia|]. by intros [] _.
  - injection E as <-. exists []. split; [cbn; lia|]. by intros [] _.
  - apply bind_ok_inv in E as ([c' mk] & E1 & E2). cbn beta iota in E2. apply bind_ok_inv in E2 as ([cs' acc'] & E2 & E3). injection E3 as <-.
    cbn [sum_list_with]. eapply (within_cons m _ _ _ _ _ _ (fun x => sel x c) (c', mk) (fun p u => let '(c, mk) := p in let* (cs, acc) := mi_select_rest t sel u cs (mask_and acc mk) in Ok (c :: cs, acc))); [done|by apply Hs|].
    cbn beta iota. rewrite <- (Nat.add_0_r (sum_list_with a s)). eapply within_bind; [by apply IH|]. apply within_ret.
Qed.
Lemma mi_all_cost (sel : t_T t -> t_C t -> res (t_C t * mask)) : (forall x c o, sel x c = Ok o -> within m (a x) (fun x => sel x c) x o) ->
  forall s cs o, mi_select_all t sel s cs = Ok o -> within (list_memory m) (sum_list_with a s) (fun s => mi_select_all t sel s cs) s o.
Proof using.
  intros Hs s [|c cs] o E; cbn [mi_select_all] in E |- *; [injection E as <-; apply within_ret|]. destruct s as [|x s]; [done|].
  apply bind_ok_inv in E as ([c' mk] & E1 & E2). cbn beta iota in E2. apply bind_ok_inv in E2 as ([cs' acc'] & E2 & E3). injection E3 as <-.
  cbn [sum_list_with]. eapply (within_cons m _ _ _ _ _ _ (fun x => sel x c) (c', mk) (fun p u => let '(c, mk) := p in let* (cs, acc) := mi_select_rest t sel u cs mk in Ok (Some (c :: cs, acc)))); [done|by apply Hs|].
  cbn beta iota. rewrite <- (Nat.add_0_r (sum_list_with a s)). eapply within_bind; [by apply mi_rest_cost|]. apply within_ret.
Qed.
Lemma mi_cdata_cost : forall s cs i o, mi_cursor_data t s cs i = Ok o -> within (list_memory m) (sum_list_with b s) (fun s => mi_cursor_data t s cs i) s o.
Proof using Hc.
  destruct Hc as (_ & _ & _ & _ & H5). induction s as [|x s IH]; intros [|c cs] i o E; cbn [mi_cursor_data] in E; try done.
  - injection E as <-. exists []. split; [cbn; lia|]. by intros [] _.
  - injection E as <-. exists []. split; [cbn; lia|]. by intros [] _.
  - apply bind_ok_inv in E as (d & E1 & E2). apply bind_ok_inv in E2 as (ds & E2 & E3). injection E3 as <-.
    cbn [sum_list_with]. eapply (within_cons m _ _ _ _ _ _ (fun x => t_cdata_u t x c i) d (fun d u => let* ds := mi_cursor_data t u cs i in Ok (d :: ds))); [done|by apply H5|].
    cbn beta iota. rewrite <- (Nat.add_0_r (sum_list_with b s)). eapply within_bind; [by apply IH|]. apply within_ret.
Qed.
Lemma mi_cursor_cost : cursor_cost (t_multi_intersection t) (list_memory m) (sum_list_with a) (sum_list_with b).
Proof using Hc.
  pose proof Hc as (H1 & H2 & H3 & _ & _). split_and!.
  - intros s c E. cbn in E |- *. apply bind_ok_inv in E as (cs & E1 & E2). rewrite <- (Nat.add_0_r 0). eapply within_bind; [|cbn beta; rewrite E2; apply within_ret].
    revert E1. generalize MULTI_N as cap. clear E2. revert cs. induction s as [|x s IH]; intros cs cap E; [by apply within_nil|]. cbn [arrayvec_collect] in E.
    apply bind_ok_inv in E as (y & E1 & E2). rewrite <- (Nat.add_0_r 0). 
    eapply (within_cons m _ _ _ _ _ _ (t_new t) y (fun y u => match cap with O => Panic | Datatypes.S cap => let* r := arrayvec_collect (t_new t) cap u in Ok (y :: r) end)); [done|by apply H1|].
    cbn beta. destruct cap as [|cap]; [done|]. apply bind_ok_inv in E2 as (r & E2 & E3). injection E3 as <-. rewrite <- (Nat.add_0_r 0). eapply within_bind; [by apply IH|]. apply within_ret.
  - intros s c l i o E. cbn in E |- *. unfold mi_select in *. destruct (_ <? _)%N; [injection E as <-; apply within_ret|].
    apply bind_ok_inv in E as (r & E1 & E2). rewrite <- (Nat.add_0_r (sum_list_with a s)). eapply within_bind; [apply mi_all_cost; [intros; by apply H2|exact E1]|]. cbn beta. rewrite E2. apply within_ret.
  - intros s c l i o E. cbn in E |- *. unfold mi_select_u in *.
    apply bind_ok_inv in E as (r & E1 & E2). rewrite <- (Nat.add_0_r (sum_list_with a s)). eapply within_bind; [apply mi_all_cost; [intros; by apply H3|exact E1]|]. cbn beta. rewrite E2. apply within_ret.
  - intros s c i o E. cbn in E |- *. apply bind_ok_inv in E as (bb & E1 & E2). eapply within_pure; [exact E1|]. destruct bb; [|injection E2 as <-; apply within_ret].
    apply bind_ok_inv in E2 as (d & E2 & E3). rewrite <- (Nat.add_0_r (sum_list_with b s)). eapply within_bind; [by apply mi_cdata_cost|]. cbn beta. rewrite E3. apply within_ret.
  - intros s c i o E. by apply mi_cdata_cost.
Qed.
End costs.

Section two.
Context (t0 t1 : tree) (m0 : memory (t_T t0)) (m1 : memory (t_T t1)) (n0 a0 b0 : t_T t0 -> nat) (n1 a1 b1 : t_T t1 -> nat).
Notation m := (pair_memory m0 m1).
Hypothesis Hg0 : get_cost t0 m0 n0.
Hypothesis Hg1 : get_cost t1 m1 n1.
Hypothesis Hc0 : cursor_cost t0 m0 a0 b0.
Hypothesis Hc1 : cursor_cost t1 m1 a1 b1.
Lemma both {A B C} f g (h : A -> B -> res C) x y s0 s1 z k0 k1 : within m0 k0 f s0 x -> within m1 k1 g s1 y -> h x y = Ok z ->
  within m (k0 + k1) (fun s => let* u := f s.1 in let* v := g s.2 in h u v) (s0, s1) z.
Proof using.
  intros H0 H1 E. eapply within_bind; [by apply within_fst|]. cbn beta. rewrite <- (Nat.add_0_r k1).
  eapply within_bind; [by apply within_snd|]. cbn beta. rewrite E. apply within_ret.
Qed.
Ltac two f g h H0 H1 := match goal with E : rbind _ _ = Ok _ |- _ =>
  apply bind_ok_inv in E as (? & ? & E); apply bind_ok_inv in E as (? & ? & E); eapply (both f g h); [by apply H0|by apply H1|exact E] end.
Lemma union_get_cost : get_cost (t_union t0 t1) m (fun s => n0 s.1 + n1 s.2).
Proof using Hg0 Hg1.
  destruct Hg0 as [H0 _], Hg1 as [H1 _]. assert (forall s0 s1 k li o, un_data t0 t1 (s0, s1) k li = Ok o -> within m (n0 s0 + n1 s1) (fun s => un_data t0 t1 s k li) (s0, s1) o) as Hd.
  { intros s0 s1 k li o E. unfold un_data in *. cbn [fst snd] in E. two (fun s => t_data t0 s k li) (fun s => t_data t1 s k li) (fun (d0 : option (t_V t0)) (d1 : option (t_V t1)) => if is_noneb d0 && is_noneb d1 then Ok None else Ok (Some (d0, d1))) H0 H1. }
  split; intros [s0 s1] k li o E; cbn in E |- *; [by apply Hd|]. apply bind_ok_inv in E as (d & E1 & E2). rewrite <- (Nat.add_0_r (n0 s0 + n1 s1)).
  eapply within_bind; [by apply Hd|]. cbn beta. rewrite E2. apply within_ret.
Qed.
Lemma intersection_get_cost : get_cost (t_intersection t0 t1) m (fun s => n0 s.1 + n1 s.2).
Proof using Hg0 Hg1.
  destruct Hg0 as [H0 H0'], Hg1 as [H1 H1']. split; intros [s0 s1] k li o E; cbn in E |- *; [two (fun s => t_data t0 s k li) (fun s => t_data t1 s k li) (fun (d0 : option (t_V t0)) (d1 : option (t_V t1)) => if is_noneb d0 || is_noneb d1 then Ok None else let* v0 := unwrap_u d0 in let* v1 := unwrap_u d1 in Ok (Some (v0, v1))) H0 H1|two (fun s => t_data_u t0 s k li) (fun s => t_data_u t1 s k li) (fun (d0 : t_V t0) (d1 : t_V t1) => Ok (d0, d1)) H0' H1'].
Qed.
Lemma union_cursor_cost : cursor_cost (t_union t0 t1) m (fun s => a0 s.1 + a1 s.2) (fun s => b0 s.1 + b1 s.2).
Proof using Hc0 Hc1.
  destruct Hc0 as (H1 & H2 & H3 & H4 & H5), Hc1 as (K1 & K2 & K3 & K4 & K5).
  assert (forall s0 s1 c i o, un_cdata t0 t1 (s0, s1) c i = Ok o -> within m (b0 s0 + b1 s1) (fun s => un_cdata t0 t1 s c i) (s0, s1) o) as Hd.
  { intros s0 s1 c i o E. unfold un_cdata in *. cbn [fst snd] in E. two (fun s => t_cdata t0 s c.1 i) (fun s => t_cdata t1 s c.2 i) (fun (d0 : option (t_V t0)) (d1 : option (t_V t1)) => if is_noneb d0 && is_noneb d1 then Ok None else Ok (Some (d0, d1))) H4 K4. }
  assert (forall s0 s1 c l i o, un_select t0 t1 (s0, s1) c l i = Ok o -> within m (a0 s0 + a1 s1) (fun s => un_select t0 t1 s c l i) (s0, s1) o) as Hs.
  { intros s0 s1 c l i o E. unfold un_select in *. cbn [fst snd] in E. apply bind_ok_inv in E as ([x mx] & E1 & E). apply bind_ok_inv in E as ([y my] & E2 & E). injection E as <-.
    apply (within_bind m _ _ (fun s => t_select t0 s.1 c.1 l i) _ _ (x, mx)); [apply (within_fst m0 m1 _ (fun s => t_select t0 s c.1 l i)); by apply H2|]. cbn beta iota. rewrite <- (Nat.add_0_r (a1 s1)).
    apply (within_bind m _ _ (fun s => t_select t1 s.2 c.2 l i) _ _ (y, my)); [apply (within_snd m0 m1 _ (fun s => t_select t1 s c.2 l i)); by apply K2|]. apply within_ret. }
  split_and!.
  - intros [s0 s1] c E. cbn in E |- *. rewrite <- (Nat.add_0_r 0). two (t_new t0) (t_new t1) (fun (d0 : t_C t0) (d1 : t_C t1) => Ok (d0, d1)) H1 K1.
  - intros [s0 s1] c l i o E. by apply Hs.
  - intros [s0 s1] c l i o E. by apply Hs.
  - intros [s0 s1] c i o E. by apply Hd.
  - intros [s0 s1] c i o E. cbn in E |- *. apply bind_ok_inv in E as (d & E1 & E2). rewrite <- (Nat.add_0_r (b0 s0 + b1 s1)).
    eapply within_bind; [by apply Hd|]. cbn beta. rewrite E2. apply within_ret.
Qed.
Lemma intersection_cursor_cost : cursor_cost (t_intersection t0 t1) m (fun s => a0 s.1 + a1 s.2) (fun s => b0 s.1 + b1 s.2).
Proof using Hc0 Hc1.
  destruct Hc0 as (H1 & H2 & H3 & H4 & H5), Hc1 as (K1 & K2 & K3 & K4 & K5). split_and!.
  - intros [s0 s1] c E. cbn in E |- *. rewrite <- (Nat.add_0_r 0). two (t_new t0) (t_new t1) (fun (d0 : t_C t0) (d1 : t_C t1) => Ok (d0, d1)) H1 K1.
  - intros [s0 s1] c l i o E. cbn in E |- *. apply bind_ok_inv in E as ([x mx] & E1 & E). apply bind_ok_inv in E as ([y my] & E2 & E). injection E as <-.
    apply (within_bind m _ _ (fun s => t_select t0 s.1 c.1 l i) _ _ (x, mx)); [apply (within_fst m0 m1 _ (fun s => t_select t0 s c.1 l i)); by apply H2|]. cbn beta iota. rewrite <- (Nat.add_0_r (a1 s1)).
    apply (within_bind m _ _ (fun s => t_select t1 s.2 c.2 l i) _ _ (y, my)); [apply (within_snd m0 m1 _ (fun s => t_select t1 s c.2 l i)); by apply K2|]. apply within_ret.
  - intros [s0 s1] c l i o E. cbn in E |- *. apply bind_ok_inv in E as ([x mx] & E1 & E). apply bind_ok_inv in E as ([y my] & E2 & E). injection E as <-.
    apply (within_bind m _ _ (fun s => t_select_u t0 s.1 c.1 l i) _ _ (x, mx)); [apply (within_fst m0 m1 _ (fun s => t_select_u t0 s c.1 l i)); by apply H3|]. cbn beta iota. rewrite <- (Nat.add_0_r (a1 s1)).
    apply (within_bind m _ _ (fun s => t_select_u t1 s.2 c.2 l i) _ _ (y, my)); [apply (within_snd m0 m1 _ (fun s => t_select_u t1 s c.2 l i)); by apply K3|]. apply within_ret.
  - intros [s0 s1] c i o E. cbn in E |- *. two (fun s => t_cdata t0 s c.1 i) (fun s => t_cdata t1 s c.2 i) (fun (d0 : option (t_V t0)) (d1 : option (t_V t1)) => if is_noneb d0 || is_noneb d1 then Ok None else let* v0 := unwrap_u d0 in let* v1 := unwrap_u d1 in Ok (Some (v0, v1))) H4 K4.
  - intros [s0 s1] c i o E. cbn in E |- *. two (fun s => t_cdata_u t0 s c.1 i) (fun s => t_cdata_u t1 s c.2 i) (fun (d0 : t_V t0) (d1 : t_V t1) => Ok (d0, d1)) H5 K5.
Qed.
End two.

(** ** the containers *)
Section dense_cost.
Context {V : Type} (D : nat).
Implicit Types (t u : dense V).
Lemma dense_data_cost t k li o : 1 <= D -> dense_data D t k li = Ok o -> within (dense_memory V) (D + 2) (fun t => dense_data D t k li) t o.
Proof using.
  intros HD E. unfold dense_data in E. inv E. destruct x as [p ii].
  inv E. rename x into di. inv E. rename x into key. destruct (rd_terminal D li _ _ _ H) as (F & HF & Hr).
  exists (cells (F ++ cells_of p) [N.to_nat di] [N.to_nat di]). split.
  { cbn. rewrite cells_length, app_length. destruct p; cbn; lia. }
  intros u Hu. apply agree_split in Hu as (Hroot & Hh & Hd & Hk). unfold dense_data. rewrite Hroot.
  rewrite (Hr (d_heap u)) by (eapply agree_incl; [|exact Hh]; set_solver). rewrite bind_ok. cbn beta iota.
  rewrite (rd_child_idx (F ++ cells_of p) _ p ii di ltac:(set_solver) H0 (d_heap u) Hh), bind_ok.
  rewrite (rd_get [N.to_nat di] _ _ _ ltac:(left) H1 (d_keys u) Hk), bind_ok. destruct (key =? k)%N; [|done].
  inv E. injection E as <-. unfold data_get in *. inv H2. rewrite (rd_get [N.to_nat di] _ _ _ ltac:(left) H3 (d_data u) Hd), bind_ok. by rewrite H2.
Qed.
Lemma dense_get_cost : 1 <= D -> get_cost (dense_tree V D) (dense_memory V) (fun _ => D + 2).
Proof using.
  intros HD. split; intros t k li o E; cbn in E |- *; [by apply dense_data_cost|]. unfold dense_data_unchecked in *. apply bind_ok_inv in E as (x & E1 & E2).
  rewrite <- (Nat.add_0_r (D + 2)). eapply within_bind; [by apply dense_data_cost|]. cbn beta. rewrite E2. apply within_ret.
Qed.
(** steps on the node heap and on the element vector *)
Lemma within_heap {A} (ps : list ptr) (f : heap -> res A) t a :
  (forall F, (forall p, p ∈ ps -> cells_of p ⊆ F) -> rd hpeek h_next F f (d_heap t) a) ->
  within (dense_memory V) (length ps) (fun t => f (d_heap t)) t a.
Proof using.
  intros H. exists (cells (mjoin (cells_of <$> ps)) [] []). split.
  { cbn [dense_memory m_cell]. rewrite cells_length. cbn [length]. rewrite !Nat.add_0_r. clear H. induction ps as [|p ps IH]; [done|]. change (mjoin (cells_of <$> p :: ps)) with (cells_of p ++ mjoin (cells_of <$> ps)). rewrite app_length. cbn [length]. destruct p; cbn [cells_of length]; lia. }
  intros u Hu. apply agree_split in Hu as (Hroot & Hh & Hd & Hk). refine (H _ _ _ Hh).
  intros p Hp c Hin. apply elem_of_list_join. exists (cells_of p). split; [done|]. apply elem_of_list_fmap. eauto.
Qed.
Lemma within_data t j v : data_get (d_data t) j = Ok v -> within (dense_memory V) 1 (fun t => data_get (d_data t) j) t v.
Proof using.
  intros E. exists (cells [] [j] []). split; [cbn; lia|]. intros u Hu. apply agree_split in Hu as (Hroot & Hh & Hd & Hk).
  unfold data_get in *. inv E. rewrite (rd_get [j] _ _ _ ltac:(left) H (d_data u) Hd), bind_ok. by rewrite E.
Qed.
Lemma within_root {A} n (f : ptr -> dense V -> res A) t a : within (dense_memory V) n (f (d_root t)) t a -> within (dense_memory V) n (fun t => f (d_root t) t) t a.
Proof using.
  intros (F & HF & H). exists F. split; [done|]. intros u Hu. assert (d_root u = d_root t) as ->; [|by apply H].
  destruct Hu as [Hh _]. cbn in Hh. unfold dheader in Hh. congruence.
Qed.
Lemma dense_cursor_cost : cursor_cost (dense_tree V D) (dense_memory V) (fun _ => 2) (fun _ => 2).
Proof using.
  assert (forall t c n p, dcur_prev t c n = Ok p -> within (dense_memory V) 0 (fun t => dcur_prev t c n) t p) as Hprev.
  { intros t c n p E. unfold dcur_prev in *. destruct (decide (n = 1)).
    - apply (within_root 0 (fun r _ => Ok r)). injection E as <-. apply within_ret.
    - apply bind_ok_inv in E as (o & E1 & E2). eapply within_pure; [exact E1|]. rewrite E2. apply within_ret. }
  assert (forall t c p, dcur_node D t c = Ok p -> within (dense_memory V) 0 (fun t => dcur_node D t c) t p) as Hnode.
  { intros t c p E. unfold dcur_node in *. destruct (decide (D = 1)).
    - apply (within_root 0 (fun r _ => Ok r)). injection E as <-. apply within_ret.
    - apply bind_ok_inv in E as (o & E1 & E2). eapply within_pure; [exact E1|]. rewrite E2. apply within_ret. }
  assert (forall t p mk, node_mask (d_heap t) p = Ok mk -> within (dense_memory V) 1 (fun t => node_mask (d_heap t) p) t mk) as Hmask.
  { intros t p mk E. apply (within_heap [p] (fun h => node_mask h p)). intros F HF. unfold node_mask in *. inv E. injection E as <-.
    eapply (rd_bind hpeek h_next F (fun h => hread h p)); [by apply rd_hread; [apply HF; left|]|]. by apply rd_ret. }
  split_and!; cbn [dense_tree t_new t_select t_select_u t_cdata t_cdata_u t_T t_C t_V].
  - intros s c [= <-]. apply within_ret.
  - intros t c n i o E. unfold dcur_select in *. destruct (decide (n = 0)).
    + inv E. apply (within_le _ (1 + 0)); [lia|]. eapply within_bind; [apply (within_root 1 (fun r t => node_mask (d_heap t) r)); by apply Hmask|]. cbn beta. rewrite E. apply within_ret.
    + inv E. rename x into p. inv E. rename x into has. inv E. rename x into q. inv E. rename x into e. inv E. inv E. 
      change 2 with (0 + 2). eapply within_bind; [by apply Hprev|]. cbn beta.
      assert (within (dense_memory V) (1 + 0) (fun t => let* has := node_contains (d_heap t) p i in let* node := child_ptr (d_heap t) p i in Ok (has, node)) t (has, q)) as (F1 & HF1 & R1).
      { apply (within_heap [p] (fun h => let* has := node_contains h p i in let* node := child_ptr h p i in Ok (has, node))). intros F HF.
        eapply (rd_bind hpeek h_next F (fun h => node_contains h p i)); [apply rd_contains; [apply HF; left|done]|].
        eapply (rd_bind hpeek h_next F (fun h => child_ptr h p i)); [apply rd_child_ptr; [apply HF; left|done]|]. by apply rd_ret. }
      destruct (Hmask t _ _ H4) as (F2 & HF2 & R2). exists (F1 ++ F2). split; [rewrite app_length; lia|]. intros u Hu.
      specialize (R1 u ltac:(eapply agree_incl; [|exact Hu]; set_solver)). specialize (R2 u ltac:(eapply agree_incl; [|exact Hu]; set_solver)).
      apply bind_ok_inv in R1 as (has' & R1 & R3). apply bind_ok_inv in R3 as (q' & R3 & [= -> ->]). cbn beta in *.
      by rewrite R1, bind_ok, R3, bind_ok, H2, bind_ok, H3, bind_ok, R2, bind_ok.
  - intros t c n i o E. unfold dcur_select_u in *. destruct (decide (n = 0)).
    + inv E. apply (within_le _ (1 + 0)); [lia|]. eapply within_bind; [apply (within_root 1 (fun r t => node_mask (d_heap t) r)); by apply Hmask|]. cbn beta. rewrite E. apply within_ret.
    + inv E. rename x into p. inv E. rename x into q. inv E. inv E. injection E as <-.
      change 2 with (0 + (1 + (1 + 0))). eapply within_bind; [by apply Hprev|]. cbn beta. eapply within_bind; [|cbn beta; eapply within_pure; [exact H1|]; eapply within_bind; [by apply Hmask|apply within_ret]].
      apply (within_heap [p] (fun h => child_ptr h p i)). intros F HF. apply rd_child_ptr; [apply HF; left|done].
  - intros t c i o E. unfold dcur_data in *. inv E. rename x into p. inv E. rename x into has.
    change 2 with (0 + 2). eapply within_bind; [by apply Hnode|]. cbn beta. destruct has.
    + inv E. rename x into di. inv E. injection E as <-.
      assert (within (dense_memory V) (1 + 0) (fun t => let* has := node_contains (d_heap t) p i in let* node := child_idx (d_heap t) p i in Ok (has, node)) t (true, di)) as (F1 & HF1 & R1).
      { apply (within_heap [p] (fun h => let* has := node_contains h p i in let* node := child_idx h p i in Ok (has, node))). intros F HF.
        eapply (rd_bind hpeek h_next F (fun h => node_contains h p i)); [apply rd_contains; [apply HF; left|done]|].
        eapply (rd_bind hpeek h_next F (fun h => child_idx h p i)); [apply rd_child_idx; [apply HF; left|done]|]. by apply rd_ret. }
      destruct (within_data t _ _ H2) as (F2 & HF2 & R2). exists (F1 ++ F2). split; [rewrite app_length; lia|]. intros u Hu.
      specialize (R1 u ltac:(eapply agree_incl; [|exact Hu]; set_solver)). specialize (R2 u ltac:(eapply agree_incl; [|exact Hu]; set_solver)).
      apply bind_ok_inv in R1 as (has' & R1 & R3). apply bind_ok_inv in R3 as (q' & R3 & [= -> ->]). cbn beta in *.
      by rewrite R1, bind_ok, R3, bind_ok, R2, bind_ok.
    + injection E as <-. apply (within_le _ (1 + 0)); [lia|]. apply (within_bind _ _ _ _ _ _ false); [|cbn beta iota; apply within_ret].
      apply (within_heap [p] (fun h => node_contains h p i)). intros F HF. apply rd_contains; [apply HF; left|done].
  - intros t c i o E. unfold dcur_data_u in *. inv E. rename x into p. inv E. rename x into di.
    change 2 with (0 + (1 + 1)). eapply within_bind; [by apply Hnode|]. cbn beta. eapply within_bind; [|cbn beta; by apply within_data].
    apply (within_heap [p] (fun h => child_idx h p i)). intros F HF. apply rd_child_idx; [apply HF; left|done].
Qed.
End dense_cost.

Section sparse_cost.
Context {V : Type} (nw D : nat).
Implicit Types (t u : sparse V).
Lemma sparse_data_cost t k li o : sparse_data D t k li = Ok o -> within (sparse_memory V) (D + 1) (fun t => sparse_data D t k li) t o.
Proof using.
  intros E. unfold sparse_data, fetch_block_index, fetch_block_indices in E.
  inv E. inv H. destruct x0 as [out i]. injection H as ->. destruct (rd_fetch _ _ _ _ _ _ H0) as (F & HF & Hr).
  exists (scells F [N.to_nat x] [] []). split; [cbn; rewrite scells_length; cbn [length]; lia|].
  intros u Hu. apply sagree_split in Hu as (Hl & Hv & _ & _). unfold sparse_data, fetch_block_index, fetch_block_indices.
  rewrite (Hr _ Hl), bind_ok. cbn beta iota. rewrite bind_ok. destruct (x =? 0)%N; [done|]. inv E. injection E as <-.
  by rewrite (data_get_rd [N.to_nat x] _ _ _ ltac:(left) H _ Hv), bind_ok.
Qed.
Lemma sparse_get_cost : get_cost (sparse_tree V nw D) (sparse_memory V) (fun _ => D + 1).
Proof using.
  split; intros t k li o E; cbn in E |- *; [by apply sparse_data_cost|]. unfold sparse_data_unchecked in *. apply bind_ok_inv in E as (x & E1 & E2).
  rewrite <- (Nat.add_0_r (D + 1)). eapply within_bind; [by apply sparse_data_cost|]. cbn beta. rewrite E2. apply within_ret.
Qed.
Lemma within_block t n i b : get_block (s_levels t) n i = Ok b -> within (sparse_memory V) 1 (fun t => get_block (s_levels t) n i) t b.
Proof using.
  intros E. exists (scells [(n, N.to_nat i)] [] [] []). split; [cbn; lia|]. intros u Hu. apply sagree_split in Hu as (Hl & _).
  exact (rd_get_block _ _ _ _ _ ltac:(left) E _ Hl).
Qed.
Lemma within_value t j v : data_get (s_values t) j = Ok v -> within (sparse_memory V) 1 (fun t => data_get (s_values t) j) t v.
Proof using.
  intros E. exists (scells [] [j] [] []). split; [cbn; lia|]. intros u Hu. apply sagree_split in Hu as (_ & Hv & _).
  exact (data_get_rd [j] _ _ _ ltac:(left) E _ Hv).
Qed.
Lemma sparse_cursor_cost : cursor_cost (sparse_tree V nw D) (sparse_memory V) (fun _ => 2) (fun _ => 2).
Proof using.
  assert (forall t c n i o, scur_select t c n i = Ok o -> within (sparse_memory V) 2 (fun t => scur_select t c n i) t o) as Hs.
  { intros t c n i o E. unfold scur_select in *. destruct (decide (n = 0)).
    - destruct (i =? 0)%N; [|done]. inv E. injection E as <-. apply (within_le _ (1 + 0)); [lia|]. eapply within_bind; [by apply within_block|apply within_ret].
    - inv E. rename x into prev. inv E. rename x into b. inv E. rename x into lbi. inv E. rename x into block. inv E. rename x into c'. injection E as <-.
      eapply within_pure; [exact H|]. change 2 with (1 + (1 + 0)). eapply within_bind; [by apply within_block|]. cbn beta. eapply within_pure; [exact H1|].
      eapply within_bind; [by apply within_block|]. cbn beta. eapply within_pure; [exact H3|]. apply within_ret. }
  assert (forall t c i o, scur_data D t c i = Ok o -> within (sparse_memory V) 2 (fun t => scur_data D t c i) t o) as Hd.
  { intros t c i o E. unfold scur_data in *. inv E. rename x into lb. inv E. rename x into b. inv E. rename x into di.
    eapply within_pure; [exact H|]. change 2 with (1 + 1). eapply within_bind; [by apply within_block|]. cbn beta. eapply within_pure; [exact H1|].
    destruct (di =? 0)%N; [injection E as <-; apply within_ret|]. inv E. injection E as <-. change 1 with (1 + 0). eapply within_bind; [by apply within_value|apply within_ret]. }
  split_and!; cbn [sparse_tree t_new t_select t_select_u t_cdata t_cdata_u t_T t_C t_V].
  - intros s c [= <-]. apply within_ret.
  - exact Hs.
  - exact Hs.
  - exact Hd.
  - intros t c i o E. unfold scur_data_u in *. apply bind_ok_inv in E as (x & E1 & E2). change 2 with (2 + 0). eapply within_bind; [by apply Hd|]. cbn beta. rewrite E2. apply within_ret.
Qed.
End sparse_cost.
