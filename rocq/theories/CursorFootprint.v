(** * How much memory a cursor step looks at, also for cursors that carry references to the operands

    The cursor of a `multi_union` holds references to its operands (_multi_union.rs:123-138).  A
    cursor is written as [plug s k]: the state [k] of the cursor proper, with references into [s]. *)
From Verif Require Import Base BitUtils LevelIndices ConstLoops Hierarchy Ops Dense Sparse Spec TreeClient Footprint DenseFootprint SparseFootprint ViewFootprint.

(** the step [f] on [s] looks at no more than [n] cells: on every state [u] that agrees with [s] on them it returns [r u] *)
Definition wi {S R} (m : memory S) (n : nat) (f : S -> res R) (s : S) (r : S -> R) : Prop :=
  exists F : list (m_cell m), length F <= n /\ forall u, agree (m_peek m) (m_header m) F s u -> f u = Ok (r u).

Section wi.
Context {S : Type} (m : memory S).
Lemma wi_within {A} n (f : S -> res A) s a : within m n f s a <-> wi m n f s (fun _ => a).
Proof using. done. Qed.
Lemma wi_ret {A} n s (r : S -> A) : wi m n (fun u => Ok (r u)) s r.
Proof using. exists []. split; [cbn; lia|done]. Qed.
Lemma wi_le {A} n n' (f : S -> res A) s r : n <= n' -> wi m n f s r -> wi m n' f s r.
Proof using. intros Hn (F & HF & H). exists F. split; [lia|done]. Qed.
Lemma wi_ext {A} n (f g : S -> res A) s r : (forall x, f x = g x) -> wi m n f s r -> wi m n g s r.
Proof using. intros Hfg (F & HF & H). exists F. split; [done|]. intros u Hu. rewrite <- Hfg. by apply H. Qed.
Lemma wi_bind {A B} n1 n2 (f : S -> res A) (g : S -> A -> res B) s x r :
  wi m n1 f s x -> wi m n2 (fun u => g u (x u)) s r -> wi m (n1 + n2) (fun u => rbind (f u) (g u)) s r.
Proof using.
  intros (F1 & H1 & R1) (F2 & H2 & R2). exists (F1 ++ F2). split; [rewrite app_length; lia|].
  intros u Hu. rewrite R1, bind_ok by (eapply agree_incl; [|exact Hu]; set_solver).
  apply R2. eapply agree_incl; [|exact Hu]. set_solver.
Qed.
Lemma wi_bind0 {A B} n (f : S -> res A) (g : S -> A -> res B) s x r :
  wi m n f s x -> wi m 0 (fun u => g u (x u)) s r -> wi m n (fun u => rbind (f u) (g u)) s r.
Proof using. intros H1 H2. rewrite <- (Nat.add_0_r n). by eapply wi_bind. Qed.
Lemma wi_pure {A B} n (a : res A) (g : S -> A -> res B) s x r : a = Ok x -> wi m n (fun u => g u x) s r -> wi m n (fun u => rbind a (g u)) s r.
Proof using. by intros ->. Qed.
End wi.
Section wi_pair.
Context {S T : Type} (m : memory S) (m' : memory T).
Lemma wi_fst {A} n (f : S -> res A) s t r : wi m n f s r -> wi (pair_memory m m') n (fun p => f p.1) (s, t) (fun p => r p.1).
Proof using.
  intros (F & HF & H). exists (inl <$> F). split; [by rewrite fmap_length|]. intros [u w] [Hh Hc]. cbn in *. apply H. split; [congruence|].
  intros c Hin. specialize (Hc (inl c) ltac:(apply elem_of_list_fmap; eauto)). cbn in Hc. congruence.
Qed.
Lemma wi_snd {A} n (f : T -> res A) s t r : wi m' n f t r -> wi (pair_memory m m') n (fun p => f p.2) (s, t) (fun p => r p.2).
Proof using.
  intros (F & HF & H). exists (inr <$> F). split; [by rewrite fmap_length|]. intros [u w] [Hh Hc]. cbn in *. apply H. split; [congruence|].
  intros c Hin. specialize (Hc (inr c) ltac:(apply elem_of_list_fmap; eauto)). cbn in Hc. congruence.
Qed.
End wi_pair.

(** the cells [F] of the operand [j], and those of the operands from 1 on *)
Section lists.
Context {S : Type} (m : memory S).
Notation lagree := (agree (m_peek (list_memory m)) (m_header (list_memory m))).
Definition at_op (j : nat) (F : list (m_cell m)) : list (m_cell (list_memory m)) := (fun c => (j, c)) <$> F.
Definition tail_op (F : list (m_cell (list_memory m))) : list (m_cell (list_memory m)) := (fun c => (Datatypes.S c.1, c.2)) <$> F.
Lemma op_len j F G n n' : length F <= n -> length G <= n' -> length (at_op j F ++ G) <= n + n'.
Proof using. intros HF HG. rewrite app_length. unfold at_op. apply Nat.add_le_mono; [|done]. etrans; [|exact HF]. by rewrite fmap_length. Qed.
Lemma tail_len F n : length F <= n -> length (tail_op F) <= n.
Proof using. intros HF. etrans; [|exact HF]. unfold tail_op. by rewrite fmap_length. Qed.
Lemma lagree_len F s u : lagree F s u -> length u = length s.
Proof using. intros [Hh _]. cbn in Hh. by rewrite <- (fmap_length (m_header m) u), Hh, fmap_length. Qed.
Lemma lagree_app F G s u : lagree (F ++ G) s u -> lagree F s u /\ lagree G s u.
Proof using. intros H. split; (eapply agree_incl; [|exact H]; set_solver). Qed.
Lemma lagree_at j F s u x : lagree (at_op j F) s u -> s !! j = Some x -> exists y, u !! j = Some y /\ agree (m_peek m) (m_header m) F x y.
Proof using.
  intros Hu Hx. destruct (lookup_lt_is_Some_2 u j) as [y Hy]; [rewrite (lagree_len _ _ _ Hu); by eapply lookup_lt_Some|].
  exists y. split; [done|]. destruct Hu as [Hh Hc]. cbn in Hh, Hc. split.
  - assert ((m_header m <$> u) !! j = (m_header m <$> s) !! j) as He by (by rewrite Hh). rewrite !list_lookup_fmap, Hx, Hy in He. cbn in He. congruence.
  - intros c Hin. specialize (Hc (j, c) ltac:(apply elem_of_list_fmap; eauto)). cbn in Hc. rewrite Hx, Hy in Hc. cbn in Hc. congruence.
Qed.
Lemma lagree_cons F G x s u : lagree (at_op 0 F ++ tail_op G) (x :: s) u -> exists y v, u = y :: v /\ agree (m_peek m) (m_header m) F x y /\ lagree G s v.
Proof using.
  intros [H1 H2]%lagree_app. destruct (lagree_at 0 F _ u x H1 eq_refl) as (y & Hy & Ha). destruct u as [|y' v]; [done|]. cbn in Hy. injection Hy as ->.
  exists y, v. split; [done|]. split; [done|]. destruct H2 as [Hh Hc]. cbn in Hh, Hc. injection Hh as _ Hh. split; [done|].
  intros [i c] Hin. specialize (Hc (Datatypes.S i, c) ltac:(apply elem_of_list_fmap; by exists (i, c))). exact Hc.
Qed.
Lemma lagree_nil F u : lagree F [] u -> u = [].
Proof using. intros H. by destruct u as [|y u]; [|apply lagree_len in H]. Qed.
End lists.

(** [ccost t m plug ok a b]: making a cursor looks at nothing; a (checked or unchecked) selection on a
    cursor [plug s k] looks at [a s] cells of [s], `data`/`data_unchecked` at [b s] *)
Record ccost (t : tree) (m : memory (t_T t)) {K} (plug : t_T t -> K -> t_C t) (ok : K -> Prop) (a b : t_T t -> nat) : Prop := CCost {
  cc_new : forall s c, t_new t s = Ok c -> exists k, ok k /\ wi m 0 (t_new t) s (fun u => plug u k);
  cc_sel : forall s k n i c mk, ok k -> t_select t s (plug s k) n i = Ok (c, mk) ->
    exists k', ok k' /\ wi m (a s) (fun u => t_select t u (plug u k) n i) s (fun u => (plug u k', mk));
  cc_sel_u : forall s k n i c mk, ok k -> t_select_u t s (plug s k) n i = Ok (c, mk) ->
    exists k', ok k' /\ wi m (a s) (fun u => t_select_u t u (plug u k) n i) s (fun u => (plug u k', mk));
  cc_data : forall s k i o, ok k -> t_cdata t s (plug s k) i = Ok o -> wi m (b s) (fun u => t_cdata t u (plug u k) i) s (fun _ => o);
  cc_data_u : forall s k i o, ok k -> t_cdata_u t s (plug s k) i = Ok o -> wi m (b s) (fun u => t_cdata_u t u (plug u k) i) s (fun _ => o);
}.
Arguments ccost t m {K} plug ok a b.

Lemma ccost_plain t m a b : cursor_cost t m a b -> ccost t m (fun _ (c : t_C t) => c) (fun _ => True) a b.
Proof.
  intros (H1 & H2 & H3 & H4 & H5). split.
  - intros s c E. exists c. split; [done|]. exact (H1 s c E).
  - intros s k n i c mk _ E. exists c. split; [done|]. exact (H2 s k n i _ E).
  - intros s k n i c mk _ E. exists c. split; [done|]. exact (H3 s k n i _ E).
  - intros s k i o _ E. exact (H4 s k i o E).
  - intros s k i o _ E. exact (H5 s k i o E).
Qed.

Section one.
Context (t : tree) (m : memory (t_T t)) {K : Type} (plug : t_T t -> K -> t_C t) (ok : K -> Prop) (a b : t_T t -> nat).
Hypothesis Hc : ccost t m plug ok a b.
Lemma map_ccost {X} (f : t_V t -> X) : ccost (t_map t f) m plug ok a b.
Proof using Hc.
  destruct Hc as [H1 H2 H3 H4 H5]. split; [exact H1|exact H2|exact H3| |]; intros s k i o Hk E; cbn in E |- *; apply bind_ok_inv in E as (x & E1 & E2).
  - eapply wi_bind0; [by apply H4|]. cbn beta. rewrite E2. apply wi_ret.
  - eapply wi_bind0; [by apply H5|]. cbn beta. rewrite E2. apply wi_ret.
Qed.
Lemma mmf_ccost {X A} (items : t_V t -> list X) (init : A) f : ccost (t_multi_map_fold t items init f) m plug ok a b.
Proof using Hc.
  destruct Hc as [H1 H2 H3 H4 H5]. split; [exact H1|exact H2|exact H3| |]; intros s k i o Hk E; cbn in E |- *; apply bind_ok_inv in E as (x & E1 & E2).
  - eapply wi_bind0; [by apply H4|]. cbn beta. rewrite E2. apply wi_ret.
  - eapply wi_bind0; [by apply H5|]. cbn beta. rewrite E2. apply wi_ret.
Qed.

(** ** lists of operands *)
(** making a cursor per operand, with a capacity *)
Lemma collect_ccost : forall s cap cs, arrayvec_collect (t_new t) cap s = Ok cs -> exists ks, Forall ok ks /\ length ks = length s /\
  wi (list_memory m) 0 (arrayvec_collect (t_new t) cap) s (fun u => zip_with plug u ks).
Proof using Hc.
  induction s as [|x s IH]; intros cap cs E.
  - exists []. split; [done|]. split; [done|]. exists []. split; [done|]. intros u Hu. by rewrite (lagree_nil m _ _ Hu).
  - cbn [arrayvec_collect] in E. apply bind_ok_inv in E as (y & E1 & E2). destruct cap as [|cap]; [done|]. apply bind_ok_inv in E2 as (r & E2 & E3).
    destruct (cc_new _ _ _ _ _ _ Hc x y E1) as (k & Hk & F & HF & R). destruct (IH cap r E2) as (ks & Hks & Hl & F' & HF' & R').
    exists (k :: ks). split; [by constructor|]. split; [cbn; by rewrite Hl|]. exists (at_op m 0 F ++ tail_op m F').
    split; [apply (op_len m 0 F _ 0 0 HF), (tail_len m _ _ HF')|]. intros u Hu. apply lagree_cons in Hu as (y' & v & -> & Hy & Hv).
    cbn [arrayvec_collect zip_with]. rewrite (R _ Hy), bind_ok. rewrite (R' _ Hv), bind_ok. done.
Qed.
(** *** multi_intersection *)
Definition mi_plug (s : list (t_T t)) (k : list K * N * mask) : mi_cursor (t_C t) := MICursor (zip_with plug s k.1.1) k.1.2 k.2.
Definition mi_okk (k : list K * N * mask) : Prop := Forall ok k.1.1.
Lemma mi_rest_ccost (sel : t_T t -> t_C t -> res (t_C t * mask)) :
  (forall x k c mk, ok k -> sel x (plug x k) = Ok (c, mk) -> exists k', ok k' /\ wi m (a x) (fun y => sel y (plug y k)) x (fun y => (plug y k', mk))) ->
  forall s ks acc cs acc', Forall ok ks -> mi_select_rest t sel s (zip_with plug s ks) acc = Ok (cs, acc') -> exists ks', Forall ok ks' /\
    wi (list_memory m) (sum_list_with a s) (fun u => mi_select_rest t sel u (zip_with plug u ks) acc) s (fun u => (zip_with plug u ks', acc')).
Proof using.
  intros Hs. induction s as [|x s IH]; intros ks acc cs acc' Hok E.
  - cbn in E. injection E as <- <-. exists []. split; [done|]. exists []. split; [done|]. intros u Hu. by rewrite (lagree_nil m _ _ Hu).
  - destruct ks as [|k ks]; cbn [zip_with mi_select_rest] in E.
    + injection E as <- <-. exists []. split; [done|]. exists []. split; [cbn; lia|]. intros u Hu. by destruct u.
    + apply Forall_cons in Hok as [Hk Hok]. apply bind_ok_inv in E as ([c' mk] & E1 & E2). apply bind_ok_inv in E2 as ([cs' ac] & E2 & E3). injection E3 as <- <-.
      destruct (Hs x k c' mk Hk E1) as (k' & Hk' & F & HF & R). destruct (IH ks _ _ _ Hok E2) as (ks' & Hks' & F' & HF' & R').
      exists (k' :: ks'). split; [by constructor|]. exists (at_op m 0 F ++ tail_op m F').
      split; [cbn [sum_list_with]; apply (op_len m 0 F); [done|by apply tail_len]|]. intros u Hu. apply lagree_cons in Hu as (y & v & -> & Hy & Hv).
      cbn [zip_with mi_select_rest]. rewrite (R _ Hy), bind_ok. rewrite (R' _ Hv), bind_ok. done.
Qed.
Lemma mi_all_ccost (sel : t_T t -> t_C t -> res (t_C t * mask)) :
  (forall x k c mk, ok k -> sel x (plug x k) = Ok (c, mk) -> exists k', ok k' /\ wi m (a x) (fun y => sel y (plug y k)) x (fun y => (plug y k', mk))) ->
  forall s ks o, Forall ok ks -> mi_select_all t sel s (zip_with plug s ks) = Ok o -> exists o' : option (list K * mask), match o' with Some (ks', _) => Forall ok ks' | None => True end /\
    wi (list_memory m) (sum_list_with a s) (fun u => mi_select_all t sel u (zip_with plug u ks)) s (fun u => match o' with Some (ks', mk) => Some (zip_with plug u ks', mk) | None => None end).
Proof using.
  intros Hs [|x s] ks o Hok E.
  - exists None. split; [done|]. exists []. split; [done|]. intros u Hu. by rewrite (lagree_nil m _ _ Hu).
  - destruct ks as [|k ks]; cbn [zip_with mi_select_all] in E.
    + exists None. split; [done|]. exists []. split; [cbn; lia|]. intros u Hu. by destruct u.
    + apply Forall_cons in Hok as [Hk Hok]. apply bind_ok_inv in E as ([c' mk] & E1 & E2). apply bind_ok_inv in E2 as ([cs' ac] & E2 & E3).
      destruct (Hs x k c' mk Hk E1) as (k' & Hk' & F & HF & R). destruct (mi_rest_ccost sel Hs s ks _ _ _ Hok E2) as (ks' & Hks' & F' & HF' & R').
      exists (Some (k' :: ks', ac)). split; [by constructor|]. exists (at_op m 0 F ++ tail_op m F').
      split; [cbn [sum_list_with]; apply (op_len m 0 F); [done|by apply tail_len]|]. intros u Hu. apply lagree_cons in Hu as (y & v & -> & Hy & Hv).
      cbn [zip_with mi_select_all]. rewrite (R _ Hy), bind_ok. rewrite (R' _ Hv), bind_ok. done.
Qed.
Lemma mi_cdata_ccost : forall s ks i o, Forall ok ks -> mi_cursor_data t s (zip_with plug s ks) i = Ok o ->
  wi (list_memory m) (sum_list_with b s) (fun u => mi_cursor_data t u (zip_with plug u ks) i) s (fun _ => o).
Proof using Hc.
  induction s as [|x s IH]; intros ks i o Hok E.
  - cbn in E. injection E as <-. exists []. split; [done|]. intros u Hu. by rewrite (lagree_nil m _ _ Hu).
  - destruct ks as [|k ks]; cbn [zip_with mi_cursor_data] in E.
    + injection E as <-. exists []. split; [cbn; lia|]. intros u Hu. by destruct u.
    + apply Forall_cons in Hok as [Hk Hok]. apply bind_ok_inv in E as (d & E1 & E2). apply bind_ok_inv in E2 as (ds & E2 & E3). injection E3 as <-.
      destruct (cc_data_u _ _ _ _ _ _ Hc x k i d Hk E1) as (F & HF & R). destruct (IH ks _ _ Hok E2) as (F' & HF' & R').
      exists (at_op m 0 F ++ tail_op m F').
      split; [cbn [sum_list_with]; apply (op_len m 0 F); [done|by apply tail_len]|]. intros u Hu. apply lagree_cons in Hu as (y & v & -> & Hy & Hv).
      cbn [zip_with mi_cursor_data]. rewrite (R _ Hy), bind_ok. rewrite (R' _ Hv), bind_ok. done.
Qed.
Lemma mi_ccost : ccost (t_multi_intersection t) (list_memory m) mi_plug mi_okk (sum_list_with a) (sum_list_with b).
Proof using Hc.
  split.
  - intros s c E. cbn in E. apply bind_ok_inv in E as (cs & E1 & E2). destruct (collect_ccost s _ _ E1) as (ks & Hks & _ & Hw).
    exists (ks, USIZE_MAX, mask_zero (t_nw t)). split; [done|]. cbn [t_multi_intersection t_new]. eapply wi_bind0; [exact Hw|]. apply wi_ret.
  - intros s [[ks e] tm] n i c mk Hok E. cbn in E |- *. unfold mi_select in *. cbn [mi_plug mi_empty_below_n mi_cursors mi_terminal fst snd] in *. destruct (_ <? _)%N.
    + injection E as <- <-. exists (ks, e, tm). split; [done|]. apply wi_ret.
    + apply bind_ok_inv in E as (o & E1 & E2).
      destruct (mi_all_ccost (fun x c => t_select t x c n i) (fun x k c mk => cc_sel _ _ _ _ _ _ Hc x k n i c mk) s ks o Hok E1) as (o' & Ho' & Hw).
      assert (o = match o' with Some (ks', mk) => Some (zip_with plug s ks', mk) | None => None end) as Ho.
      { destruct Hw as (F & _ & R). specialize (R s (agree_refl _ _ _ _)). cbn beta in R. rewrite E1 in R. congruence. }
      destruct o' as [[ks' acc]|]; subst o; injection E2 as <- <-.
      * eexists (ks', _, _). split; [exact Ho'|]. eapply wi_bind0; [exact Hw|]. cbn beta iota. apply wi_ret.
      * exists (ks, e, tm). split; [done|]. eapply wi_bind0; [exact Hw|]. cbn beta iota. apply wi_ret.
  - intros s [[ks e] tm] n i c mk Hok E. cbn in E |- *. unfold mi_select_u in *. cbn [mi_plug mi_empty_below_n mi_cursors mi_terminal fst snd] in *.
    apply bind_ok_inv in E as (o & E1 & E2).
    destruct (mi_all_ccost (fun x c => t_select_u t x c n i) (fun x k c mk => cc_sel_u _ _ _ _ _ _ Hc x k n i c mk) s ks o Hok E1) as (o' & Ho' & Hw).
    assert (o = match o' with Some (ks', mk) => Some (zip_with plug s ks', mk) | None => None end) as Ho.
    { destruct Hw as (F & _ & R). specialize (R s (agree_refl _ _ _ _)). cbn beta in R. rewrite E1 in R. congruence. }
    destruct o' as [[ks' acc]|]; subst o; injection E2 as <- <-.
    + eexists (ks', _, _). split; [exact Ho'|]. eapply wi_bind0; [exact Hw|]. cbn beta iota. apply wi_ret.
    + exists (ks, e, tm). split; [done|]. eapply wi_bind0; [exact Hw|]. cbn beta iota. apply wi_ret.
  - intros s [[ks e] tm] i o Hok E. cbn in E |- *. apply bind_ok_inv in E as (bb & E1 & E2). eapply wi_pure; [exact E1|]. destruct bb; [|injection E2 as <-; apply wi_ret].
    apply bind_ok_inv in E2 as (d & E2 & E3). injection E3 as <-. eapply wi_bind0; [exact (mi_cdata_ccost s ks i d Hok E2)|]. cbn beta. apply wi_ret.
  - intros s [[ks e] tm] i o Hok E. exact (mi_cdata_ccost s ks i o Hok E).
Qed.

(** *** multi_union: the cursors sit next to the operand that they belong to *)
Definition zs (s : list (t_T t)) (ks : list K) : list (t_T t * t_C t) := zip_with (fun x k => (x, plug x k)) s ks.
Definition mu_plug (s : list (t_T t)) (k : list K * list (list N)) : mu_cursor (t_T t) (t_C t) := MUCursor (zs s k.1) k.2.
Definition mu_okk (k : list K * list (list N)) : Prop := Forall ok k.1 /\ Forall NoDup k.2.
Definition at_cost (f : t_T t -> nat) (s : list (t_T t)) (j : N) : nat := match s !! N.to_nat j with Some x => f x | None => 0 end.

Lemma zs_lookup s ks j x c : zs s ks !! j = Some (x, c) -> s !! j = Some x /\ exists k, ks !! j = Some k /\ c = plug x k.
Proof using. intros (x' & k & [= <- ->] & H1 & H2)%lookup_zip_with_Some. eauto. Qed.
Lemma zs_at s ks j x k : s !! j = Some x -> ks !! j = Some k -> zs s ks !! j = Some (x, plug x k).
Proof using. intros H1 H2. apply lookup_zip_with_Some. eauto 10. Qed.
Lemma zs_insert s ks j x k : s !! j = Some x -> <[j := (x, plug x k)]> (zs s ks) = zs s (<[j := k]> ks).
Proof using.
  intros Hx. unfold zs. etrans; [exact (insert_zip_with (fun x k => (x, plug x k)) s ks j x k)|]. by rewrite (list_insert_id s j x Hx).
Qed.
Lemma zs_len s u ks : length u = length s -> length (zs u ks) = length (zs s ks).
Proof using. intros H. unfold zs. rewrite !zip_with_length, H. done. Qed.

Lemma mu_root_ccost n i : forall s ks acc cs acc', Forall ok ks -> mu_select_root t n i (zs s ks) acc = Ok (cs, acc') -> exists ks', Forall ok ks' /\
  wi (list_memory m) (sum_list_with a s) (fun u => mu_select_root t n i (zs u ks) acc) s (fun u => (zs u ks', acc')).
Proof using Hc.
  induction s as [|x s IH]; intros ks acc cs acc' Hok E.
  - cbn in E. injection E as <- <-. exists []. split; [done|]. exists []. split; [done|]. intros u Hu. by rewrite (lagree_nil m _ _ Hu).
  - destruct ks as [|k ks]; cbn [zs zip_with mu_select_root] in E.
    + injection E as <- <-. exists []. split; [done|]. exists []. split; [cbn; lia|]. intros u Hu. by destruct u.
    + apply Forall_cons in Hok as [Hk Hok]. apply bind_ok_inv in E as ([c' mk] & E1 & E2). apply bind_ok_inv in E2 as ([cs' ac] & E2 & E3). injection E3 as <- <-.
      destruct (cc_sel _ _ _ _ _ _ Hc x k n i c' mk Hk E1) as (k' & Hk' & F & HF & R). destruct (IH ks _ _ _ Hok E2) as (ks' & Hks' & F' & HF' & R').
      exists (k' :: ks'). split; [by constructor|]. exists (at_op m 0 F ++ tail_op m F').
      split; [cbn [sum_list_with]; apply (op_len m 0 F); [done|by apply tail_len]|]. intros u Hu. apply lagree_cons in Hu as (y & v & -> & Hy & Hv).
      cbn [zs zip_with mu_select_root]. rewrite (R _ Hy), bind_ok. change (zip_with (fun x k => (x, plug x k)) v ks) with (zs v ks). rewrite (R' _ Hv), bind_ok. done.
Qed.
Lemma mu_foreach_ccost n i s : forall idx ks pushed acc cs pushed' acc', Forall ok ks -> mu_foreach t n i idx (zs s ks) pushed acc = Ok (cs, pushed', acc') ->
  exists ks', Forall ok ks' /\ (exists more, pushed' = pushed ++ more /\ more `sublist_of` idx) /\
  wi (list_memory m) (sum_list_with (at_cost a s) idx) (fun u => mu_foreach t n i idx (zs u ks) pushed acc) s (fun u => (zs u ks', pushed', acc')).
Proof using Hc.
  induction idx as [|j idx IH]; intros ks pushed acc cs pushed' acc' Hok E; cbn [mu_foreach] in E.
  - injection E as <- <- <-. exists ks. split; [done|]. split; [exists []; by rewrite app_nil_r|]. apply wi_ret.
  - apply bind_ok_inv in E as ([x c] & E1%get_u_inv & E2). apply zs_lookup in E1 as (Hx & k & Hk & ->).
    apply bind_ok_inv in E2 as ([c' mk] & E2 & E3). apply bind_ok_inv in E3 as (cs1 & E3 & E4).
    assert (ok k) as Hkok by (by eapply Forall_lookup_1).
    destruct (cc_sel _ _ _ _ _ _ Hc x k n i c' mk Hkok E2) as (k' & Hk' & F & HF & R).
    assert (c' = plug x k') as -> by (specialize (R x (agree_refl _ _ _ _)); cbn beta in R; congruence).
    unfold set_u in E3. destruct (decide _); [|done]. injection E3 as <-. rewrite zs_insert in E4 by done.
    destruct (IH (<[N.to_nat j := k']> ks) _ _ _ _ _ ltac:(by apply Forall_insert) E4) as (ks' & Hks' & (more & Hp & Hm) & F' & HF' & R').
    exists ks'. split; [done|]. split.
    { destruct (mask_is_zero mk); [exists more; split; [done|by apply sublist_cons]|]. exists (j :: more). split; [by rewrite Hp, <- app_assoc|by apply sublist_skip]. }
    exists (at_op m (N.to_nat j) F ++ F'). split.
    { cbn [sum_list_with]. unfold at_cost at 1. rewrite Hx. by apply op_len. }
    intros u [Hu1 Hu2]%lagree_app. destruct (lagree_at m _ _ _ _ _ Hu1 Hx) as (y & Hy & Ha). cbn [mu_foreach].
    rewrite (get_u_ok _ _ _ (zs_at u ks _ y k Hy Hk)), bind_ok, (R _ Ha), bind_ok.
    rewrite set_u_ok, bind_ok by (eapply lookup_lt_Some, (zs_at u ks _ y k Hy Hk)). rewrite zs_insert by done. exact (R' _ Hu2).
Qed.
Lemma mu_data_ccost i s ks : Forall ok ks -> forall idx o, mu_cursor_data t idx (zs s ks) i = Ok o ->
  wi (list_memory m) (sum_list_with (at_cost b s) idx) (fun u => mu_cursor_data t idx (zs u ks) i) s (fun _ => o).
Proof using Hc.
  intros Hok. induction idx as [|j idx IH]; intros o E; cbn [mu_cursor_data] in E; [injection E as <-; apply wi_ret|].
  apply bind_ok_inv in E as ([x c] & E1%get_u_inv & E2). apply zs_lookup in E1 as (Hx & k & Hk & ->).
  apply bind_ok_inv in E2 as (d & E2 & E3). apply bind_ok_inv in E3 as (ds & E3 & E4). injection E4 as <-.
  assert (ok k) as Hkok by (by eapply Forall_lookup_1).
  destruct (cc_data _ _ _ _ _ _ Hc x k i d Hkok E2) as (F & HF & R). destruct (IH _ E3) as (F' & HF' & R').
  exists (at_op m (N.to_nat j) F ++ F'). split.
  { cbn [sum_list_with]. unfold at_cost at 1. rewrite Hx. by apply op_len. }
  intros u [Hu1 Hu2]%lagree_app. destruct (lagree_at m _ _ _ _ _ Hu1 Hx) as (y & Hy & Ha). cbn [mu_cursor_data].
  rewrite (get_u_ok _ _ _ (zs_at u ks _ y k Hy Hk)), bind_ok, (R _ Ha), bind_ok. rewrite (R' _ Hu2), bind_ok. done.
Qed.
(** no operand is visited twice *)
Lemma at_cost_seq f s : sum_list_with (at_cost f s) (N.of_nat <$> seq 0 (length s)) = sum_list_with f s.
Proof using.
  assert (forall k r, (forall i, s !! (k + i) = r !! i) -> sum_list_with (at_cost f s) (N.of_nat <$> seq k (length r)) = sum_list_with f r) as H; [|by apply (H 0)].
  intros k r. revert k. induction r as [|x r IH]; intros k Hr; [done|]. cbn [length seq fmap list_fmap sum_list_with]. f_equal.
  - unfold at_cost. rewrite Nnat.Nat2N.id. specialize (Hr 0). rewrite Nat.add_0_r in Hr. by rewrite Hr.
  - apply IH. intros i. specialize (Hr (Datatypes.S i)). rewrite <- Nat.add_succ_comm in Hr. exact Hr.
Qed.
Lemma at_cost_sub f s : forall idx l, idx ⊆+ l -> sum_list_with (at_cost f s) idx <= sum_list_with (at_cost f s) l.
Proof using. intros idx l. induction 1; cbn [sum_list_with]; lia. Qed.
Lemma at_cost_le f s idx : NoDup idx -> sum_list_with (at_cost f s) idx <= sum_list_with f s.
Proof using.
  intros Hnd. rewrite <- at_cost_seq.
  assert (sum_list_with (at_cost f s) idx = sum_list_with (at_cost f s) (List.filter (fun j => bool_decide (N.to_nat j < length s)) idx)) as ->.
  { clear Hnd. induction idx as [|j idx IH]; [done|]. cbn [List.filter sum_list_with]. case_bool_decide as Hj; cbn [sum_list_with]; rewrite IH; [done|].
    unfold at_cost at 1. rewrite lookup_ge_None_2 by lia. done. }
  apply at_cost_sub, NoDup_submseteq; [apply NoDup_ListNoDup, List.NoDup_filter; by apply NoDup_ListNoDup|].
  intros j Hj%elem_of_list_In%filter_In. destruct Hj as [_ Hj%bool_decide_eq_true]. apply elem_of_list_fmap. exists (N.to_nat j). split; [lia|]. apply elem_of_seq. lia.
Qed.
Lemma nodup_sublist (l k : list N) : l `sublist_of` k -> NoDup k -> NoDup l.
Proof using.
  induction 1 as [|x l k Hs IH|x l k Hs IH]; [done| |]; intros [Hx Hk]%NoDup_cons; [|by apply IH].
  constructor; [|by apply IH]. intros Hin. apply Hx. eapply elem_of_submseteq; [exact Hin|by apply sublist_submseteq].
Qed.
Lemma NoDup_seqN n : NoDup (seqN 0 n).
Proof using.
  generalize 0%N. induction n as [|n IH]; intros z; cbn [seqN]; constructor; [|done]. rewrite elem_of_seqN. lia.
Qed.
Lemma collect2_ccost : forall s cap cs, arrayvec_collect (fun x => let* c := t_new t x in Ok (x, c)) cap s = Ok cs -> exists ks, Forall ok ks /\
  wi (list_memory m) 0 (arrayvec_collect (fun x => let* c := t_new t x in Ok (x, c)) cap) s (fun u => zs u ks).
Proof using Hc.
  induction s as [|x s IH]; intros cap cs E.
  - exists []. split; [done|]. exists []. split; [done|]. intros u Hu. by rewrite (lagree_nil m _ _ Hu).
  - cbn [arrayvec_collect] in E. apply bind_ok_inv in E as (y & E1 & E2). destruct cap as [|cap]; [done|]. apply bind_ok_inv in E2 as (r & E2 & E3).
    apply bind_ok_inv in E1 as (c & E1 & _).
    destruct (cc_new _ _ _ _ _ _ Hc x c E1) as (k & Hk & F & HF & R). destruct (IH cap r E2) as (ks & Hks & F' & HF' & R').
    exists (k :: ks). split; [by constructor|]. exists (at_op m 0 F ++ tail_op m F').
    split; [apply (op_len m 0 F _ 0 0 HF), (tail_len m _ _ HF')|]. intros u Hu. apply lagree_cons in Hu as (y' & v & -> & Hy & Hv).
    cbn [arrayvec_collect zs zip_with]. rewrite (R _ Hy), !bind_ok. rewrite (R' _ Hv), bind_ok. done.
Qed.
Lemma mu_ccost : ccost (t_multi_union t) (list_memory m) mu_plug mu_okk (sum_list_with a) (sum_list_with b).
Proof using Hc.
  assert (forall s k n i c mk, mu_okk k -> mu_select t s (mu_plug s k) n i = Ok (c, mk) ->
    exists k', mu_okk k' /\ wi (list_memory m) (sum_list_with a s) (fun u => mu_select t u (mu_plug u k) n i) s (fun u => (mu_plug u k', mk))) as Hsel.
  { intros s [ks lv] n i c mk [Hok Hlv] E. unfold mu_select in *. cbn [mu_plug mu_cursors mu_lvls fst snd] in *. destruct (decide (n = 0)).
    - apply bind_ok_inv in E as ([cs acc] & E1 & E2). injection E2 as <- <-. destruct (mu_root_ccost n i s ks _ _ _ Hok E1) as (ks' & Hks' & Hw).
      exists (ks', lv). split; [done|]. eapply wi_bind0; [exact Hw|]. apply wi_ret.
    - apply bind_ok_inv in E as (lv1 & E1 & E). apply bind_ok_inv in E as (idx & E2 & E). apply bind_ok_inv in E as ([[cs pushed] acc] & E3 & E).
      apply bind_ok_inv in E as (lv2 & E4 & E). injection E as <- <-.
      assert (Forall NoDup lv1) as Hlv1. { unfold set_u in E1. destruct (decide _); [|done]. injection E1 as <-. by apply Forall_insert; [|apply NoDup_nil_2]. }
      assert (NoDup idx) as Hidx. { destruct (decide (n = 1)); [injection E2 as <-; apply NoDup_seqN|]. apply get_u_inv in E2. by eapply Forall_lookup_1. }
      destruct (mu_foreach_ccost n i s idx ks _ _ _ _ _ Hok E3) as (ks' & Hks' & (more & -> & Hm) & Hw).
      exists (ks', lv2). split.
      { split; [done|]. unfold set_u in E4. destruct (decide (_ < _)); [|done]. injection E4 as <-. apply Forall_insert; [done|]. exact (nodup_sublist _ _ Hm Hidx). }
      eapply wi_pure; [exact E1|]. destruct (decide (n = 1)).
      + injection E2 as <-. apply (wi_le _ _ _ _ _ _ (at_cost_le a s _ Hidx)). destruct Hw as (F & HF & R). exists F. split; [done|]. intros u Hu.
        rewrite bind_ok. rewrite (zs_len s u ks) by exact (lagree_len m _ _ _ Hu). rewrite (R u Hu), bind_ok. cbn beta iota. rewrite E4, bind_ok. done.
      + apply (wi_le _ _ _ _ _ _ (at_cost_le a s _ Hidx)). eapply wi_pure; [exact E2|]. eapply wi_bind0; [exact Hw|]. cbn beta iota. eapply wi_pure; [exact E4|]. apply wi_ret. }
  assert (forall s k i o, mu_okk k -> mu_cdata t s (mu_plug s k) i = Ok o ->
    wi (list_memory m) (sum_list_with b s) (fun u => mu_cdata t u (mu_plug u k) i) s (fun _ => o)) as Hdat.
  { intros s [ks lv] i o [Hok Hlv] E. unfold mu_cdata in *. cbn [mu_plug mu_cursors mu_lvls fst snd] in *. destruct (decide (t_depth t = 1)); [done|].
    apply bind_ok_inv in E as (lvl & E1 & E). eapply wi_pure; [exact E1|]. apply get_u_inv in E1. destruct lvl as [|j lvl]; [injection E as <-; apply wi_ret|].
    apply bind_ok_inv in E as (d & E2 & E). injection E as <-. apply (wi_le _ (sum_list_with (at_cost b s) (j :: lvl))); [apply at_cost_le; by apply (Forall_lookup_1 _ _ _ _ Hlv E1)|].
    eapply wi_bind0; [by apply mu_data_ccost|]. apply wi_ret. }
  split; [|exact Hsel|exact Hsel|exact Hdat|].
  - intros s c E. cbn in E. apply bind_ok_inv in E as (cs & E1 & E2). destruct (collect2_ccost s _ _ E1) as (ks & Hks & Hw).
    exists (ks, replicate (t_depth t - 1) []). split; [split; [done|apply Forall_replicate, NoDup_nil_2]|]. cbn [t_multi_union t_new]. eapply wi_bind0; [exact Hw|]. apply wi_ret.
  - intros s k i o Hk E. cbn in E |- *. apply bind_ok_inv in E as (d & E1 & E2). eapply wi_bind0; [by apply Hdat|]. cbn beta. rewrite E2. apply wi_ret.
Qed.
End one.

Section two.
Context (t0 t1 : tree) (m0 : memory (t_T t0)) (m1 : memory (t_T t1)) {K0 K1 : Type}
  (plug0 : t_T t0 -> K0 -> t_C t0) (plug1 : t_T t1 -> K1 -> t_C t1) (ok0 : K0 -> Prop) (ok1 : K1 -> Prop) (a0 b0 : t_T t0 -> nat) (a1 b1 : t_T t1 -> nat).
Notation m := (pair_memory m0 m1).
Hypothesis Hc0 : ccost t0 m0 plug0 ok0 a0 b0.
Hypothesis Hc1 : ccost t1 m1 plug1 ok1 a1 b1.
Definition plug2 (s : t_T t0 * t_T t1) (k : K0 * K1) : t_C t0 * t_C t1 := (plug0 s.1 k.1, plug1 s.2 k.2).
Definition ok2 (k : K0 * K1) : Prop := ok0 k.1 /\ ok1 k.2.
Notation a := (fun s => a0 s.1 + a1 s.2).
Notation b := (fun s => b0 s.1 + b1 s.2).
Lemma new2 : forall s c, (let* c0 := t_new t0 s.1 in let* c1 := t_new t1 s.2 in Ok (c0, c1)) = Ok c ->
  exists k, ok2 k /\ wi m 0 (fun s => let* c0 := t_new t0 s.1 in let* c1 := t_new t1 s.2 in Ok (c0, c1)) s (fun u => plug2 u k).
Proof using Hc0 Hc1.
  intros [s0 s1] c E. apply bind_ok_inv in E as (c0 & E0 & E). apply bind_ok_inv in E as (c1 & E1 & _).
  destruct (cc_new _ _ _ _ _ _ Hc0 s0 c0 E0) as (k0 & Hk0 & H0). destruct (cc_new _ _ _ _ _ _ Hc1 s1 c1 E1) as (k1 & Hk1 & H1).
  exists (k0, k1). split; [done|]. change 0 with (0 + 0). eapply wi_bind; [exact (wi_fst m0 m1 _ _ s0 s1 _ H0)|]. cbn beta.
  eapply wi_bind0; [exact (wi_snd m0 m1 _ _ s0 s1 _ H1)|]. apply wi_ret.
Qed.
Lemma sel2 (op : mask -> mask -> mask) (f0 : t_T t0 -> t_C t0 -> res (t_C t0 * mask)) (f1 : t_T t1 -> t_C t1 -> res (t_C t1 * mask)) :
  (forall s k c mk, ok0 k -> f0 s (plug0 s k) = Ok (c, mk) -> exists k', ok0 k' /\ wi m0 (a0 s) (fun u => f0 u (plug0 u k)) s (fun u => (plug0 u k', mk))) ->
  (forall s k c mk, ok1 k -> f1 s (plug1 s k) = Ok (c, mk) -> exists k', ok1 k' /\ wi m1 (a1 s) (fun u => f1 u (plug1 u k)) s (fun u => (plug1 u k', mk))) ->
  let f := fun (s : t_T t0 * t_T t1) (c : t_C t0 * t_C t1) => let* (c0, mk0) := f0 s.1 c.1 in let* (c1, mk1) := f1 s.2 c.2 in Ok ((c0, c1), op mk0 mk1) in
  forall s k c mk, ok2 k -> f s (plug2 s k) = Ok (c, mk) -> exists k', ok2 k' /\ wi m (a s) (fun u => f u (plug2 u k)) s (fun u => (plug2 u k', mk)).
Proof using.
  intros H0 H1 f [s0 s1] [k0 k1] c mk [Hk0 Hk1] E. unfold f in E. cbn [plug2 fst snd] in E.
  apply bind_ok_inv in E as ([c0 mk0] & E0 & E). apply bind_ok_inv in E as ([c1 mk1] & E1 & E). injection E as <- <-.
  destruct (H0 s0 k0 c0 mk0 Hk0 E0) as (k0' & Hk0' & W0). destruct (H1 s1 k1 c1 mk1 Hk1 E1) as (k1' & Hk1' & W1).
  exists (k0', k1'). split; [done|]. unfold f. cbn [plug2 fst snd]. eapply wi_bind; [exact (wi_fst m0 m1 _ _ s0 s1 _ W0)|]. cbn beta iota.
  eapply wi_bind0; [exact (wi_snd m0 m1 _ _ s0 s1 _ W1)|]. cbn beta iota. apply (wi_ret m 0 (s0, s1) (fun u : t_T t0 * t_T t1 => (plug0 u.1 k0', plug1 u.2 k1', op mk0 mk1))).
Qed.
Lemma dat2 {A B C} (g : A -> B -> res C) (f0 : t_T t0 -> t_C t0 -> res A) (f1 : t_T t1 -> t_C t1 -> res B) :
  (forall s k o, ok0 k -> f0 s (plug0 s k) = Ok o -> wi m0 (b0 s) (fun u => f0 u (plug0 u k)) s (fun _ => o)) ->
  (forall s k o, ok1 k -> f1 s (plug1 s k) = Ok o -> wi m1 (b1 s) (fun u => f1 u (plug1 u k)) s (fun _ => o)) ->
  let f := fun (s : t_T t0 * t_T t1) (c : t_C t0 * t_C t1) => let* x := f0 s.1 c.1 in let* y := f1 s.2 c.2 in g x y in
  forall s k o, ok2 k -> f s (plug2 s k) = Ok o -> wi m (b s) (fun u => f u (plug2 u k)) s (fun _ => o).
Proof using.
  intros H0 H1 f [s0 s1] [k0 k1] o [Hk0 Hk1] E. unfold f in E. cbn [plug2 fst snd] in E.
  apply bind_ok_inv in E as (x & E0 & E). apply bind_ok_inv in E as (y & E1 & E).
  pose proof (H0 s0 k0 x Hk0 E0) as W0. pose proof (H1 s1 k1 y Hk1 E1) as W1.
  unfold f. cbn [plug2 fst snd]. eapply wi_bind; [exact (wi_fst m0 m1 _ _ s0 s1 _ W0)|]. cbn beta.
  eapply wi_bind0; [exact (wi_snd m0 m1 _ _ s0 s1 _ W1)|]. cbn beta. rewrite E. exact (wi_ret m 0 (s0, s1) (fun _ => o)).
Qed.
Lemma union_ccost : ccost (t_union t0 t1) m plug2 ok2 a b.
Proof using Hc0 Hc1.
  assert (forall s k n i c mk, ok2 k -> un_select t0 t1 s (plug2 s k) n i = Ok (c, mk) ->
    exists k', ok2 k' /\ wi m (a s) (fun u => un_select t0 t1 u (plug2 u k) n i) s (fun u => (plug2 u k', mk))) as Hs.
  { intros s k n i. exact (sel2 mask_or (fun s c => t_select t0 s c n i) (fun s c => t_select t1 s c n i)
      (fun s k c mk => cc_sel _ _ _ _ _ _ Hc0 s k n i c mk) (fun s k c mk => cc_sel _ _ _ _ _ _ Hc1 s k n i c mk) s k). }
  assert (forall s k i o, ok2 k -> un_cdata t0 t1 s (plug2 s k) i = Ok o -> wi m (b s) (fun u => un_cdata t0 t1 u (plug2 u k) i) s (fun _ => o)) as Hd.
  { intros s k i o. exact (dat2 (fun (d0 : option (t_V t0)) (d1 : option (t_V t1)) => if is_noneb d0 && is_noneb d1 then Ok None else Ok (Some (d0, d1)))
      (fun s c => t_cdata t0 s c i) (fun s c => t_cdata t1 s c i) (fun s k o => cc_data _ _ _ _ _ _ Hc0 s k i o) (fun s k o => cc_data _ _ _ _ _ _ Hc1 s k i o) s k o). }
  split; [exact new2|exact Hs|exact Hs|exact Hd|].
  intros s k i o Hk E. cbn in E |- *. apply bind_ok_inv in E as (d & E1 & E2). eapply wi_bind0; [by apply Hd|]. cbn beta. rewrite E2. apply (wi_ret m 0 s (fun _ => o)).
Qed.
Lemma intersection_ccost : ccost (t_intersection t0 t1) m plug2 ok2 a b.
Proof using Hc0 Hc1.
  split; [exact new2| | | |].
  - intros s k n i. exact (sel2 mask_and (fun s c => t_select t0 s c n i) (fun s c => t_select t1 s c n i)
      (fun s k c mk => cc_sel _ _ _ _ _ _ Hc0 s k n i c mk) (fun s k c mk => cc_sel _ _ _ _ _ _ Hc1 s k n i c mk) s k).
  - intros s k n i. exact (sel2 mask_and (fun s c => t_select_u t0 s c n i) (fun s c => t_select_u t1 s c n i)
      (fun s k c mk => cc_sel_u _ _ _ _ _ _ Hc0 s k n i c mk) (fun s k c mk => cc_sel_u _ _ _ _ _ _ Hc1 s k n i c mk) s k).
  - intros s k i o. exact (dat2 (fun (d0 : option (t_V t0)) (d1 : option (t_V t1)) => if is_noneb d0 || is_noneb d1 then Ok None else let* v0 := unwrap_u d0 in let* v1 := unwrap_u d1 in Ok (Some (v0, v1)))
      (fun s c => t_cdata t0 s c i) (fun s c => t_cdata t1 s c i) (fun s k o => cc_data _ _ _ _ _ _ Hc0 s k i o) (fun s k o => cc_data _ _ _ _ _ _ Hc1 s k i o) s k o).
  - intros s k i o. exact (dat2 (fun (d0 : t_V t0) (d1 : t_V t1) => Ok (d0, d1))
      (fun s c => t_cdata_u t0 s c i) (fun s c => t_cdata_u t1 s c i) (fun s k o => cc_data_u _ _ _ _ _ _ Hc0 s k i o) (fun s k o => cc_data_u _ _ _ _ _ _ Hc1 s k i o) s k o).
Qed.
End two.

(** ** whole expressions *)
(** containers and the lazy operations over them in any nesting, with any number of operands *)
Inductive expression : tree -> Type :=
| EDense V D : 1 <= D -> expression (dense_tree V D)
| ESparse V nw D : expression (sparse_tree V nw D)
| EMap t W (f : t_V t -> W) : expression t -> expression (t_map t f)
| EMultiMapFold t X A (items : t_V t -> list X) (init : A) (f : A -> X -> A) : expression t -> expression (t_multi_map_fold t items init f)
| EIntersection t0 t1 : expression t0 -> expression t1 -> expression (t_intersection t0 t1)
| EUnion t0 t1 : expression t0 -> expression t1 -> expression (t_union t0 t1)
| EMultiIntersection t : expression t -> expression (t_multi_intersection t)
| EMultiUnion t : expression t -> expression (t_multi_union t).
(** its memory: that of its containers *)
Fixpoint e_memory {t} (x : expression t) : memory (t_T t) :=
  match x in expression t return memory (t_T t) with
  | EDense V D _ => dense_memory V
  | ESparse V nw D => sparse_memory V
  | EMap t W f x => e_memory x
  | EMultiMapFold t X A items init f x => e_memory x
  | EIntersection t0 t1 x0 x1 => pair_memory (e_memory x0) (e_memory x1)
  | EUnion t0 t1 x0 x1 => pair_memory (e_memory x0) (e_memory x1)
  | EMultiIntersection t x => list_memory (e_memory x)
  | EMultiUnion t x => list_memory (e_memory x)
  end.
(** the number of its containers *)
Fixpoint containers {t} (x : expression t) : t_T t -> nat :=
  match x in expression t return t_T t -> nat with
  | EDense V D _ => fun _ => 1
  | ESparse V nw D => fun _ => 1
  | EMap t W f x => containers x
  | EMultiMapFold t X A items init f x => containers x
  | EIntersection t0 t1 x0 x1 => fun s => containers x0 s.1 + containers x1 s.2
  | EUnion t0 t1 x0 x1 => fun s => containers x0 s.1 + containers x1 s.2
  | EMultiIntersection t x => sum_list_with (containers x)
  | EMultiUnion t x => sum_list_with (containers x)
  end.
(** the largest depth of a container *)
Fixpoint deepest {t} (x : expression t) : nat :=
  match x with
  | EDense V D _ => D
  | ESparse V nw D => D
  | EMap t W f x => deepest x
  | EMultiMapFold t X A items init f x => deepest x
  | EIntersection t0 t1 x0 x1 => deepest x0 `max` deepest x1
  | EUnion t0 t1 x0 x1 => deepest x0 `max` deepest x1
  | EMultiIntersection t x => deepest x
  | EMultiUnion t x => deepest x
  end.

Lemma get_cost_le t m n n' : (forall s, n s <= n' s) -> get_cost t m n -> get_cost t m n'.
Proof. intros Hn [H1 H2]. split; intros s k li o E; (eapply within_le; [apply Hn|]); [by apply H1|by apply H2]. Qed.
Lemma sum_mul {A} (f : A -> nat) c l : sum_list_with (fun x => f x * c) l = sum_list_with f l * c.
Proof. induction l as [|x l IH]; cbn [sum_list_with]; [done|]. rewrite IH. lia. Qed.
Lemma expr_get {t} (x : expression t) : forall D, deepest x <= D -> get_cost t (e_memory x) (fun s => containers x s * (D + 2)).
Proof.
  induction x as [V D0 H|V nw D0|t W f x IH|t X A items init f x IH|t0 t1 x0 IH0 x1 IH1|t0 t1 x0 IH0 x1 IH1|t x IH|t x IH]; intros D HD; cbn [deepest e_memory containers] in *.
  - eapply get_cost_le; [|by apply dense_get_cost]. cbn beta. intros s. lia.
  - eapply get_cost_le; [|by apply sparse_get_cost]. cbn beta. intros s. lia.
  - by apply map_get_cost, IH.
  - by apply mmf_get_cost, IH.
  - pose proof (IH0 D ltac:(lia)) as G0. pose proof (IH1 D ltac:(lia)) as G1. eapply get_cost_le; [|by eapply intersection_get_cost].
    intros s. cbn beta. by rewrite Nat.mul_add_distr_r.
  - pose proof (IH0 D ltac:(lia)) as G0. pose proof (IH1 D ltac:(lia)) as G1. eapply get_cost_le; [|by eapply union_get_cost].
    intros s. cbn beta. by rewrite Nat.mul_add_distr_r.
  - eapply get_cost_le; [|by apply mi_get_cost, IH]. intros s. rewrite sum_mul. lia.
  - eapply get_cost_le; [|by apply mu_get_cost, IH]. intros s. rewrite sum_mul. lia.
Qed.
Lemma ccost_le t m {K} (plug : t_T t -> K -> t_C t) ok a b a' b' : (forall s, a s <= a' s) -> (forall s, b s <= b' s) -> ccost t m plug ok a b -> ccost t m plug ok a' b'.
Proof.
  intros Ha Hb [H1 H2 H3 H4 H5]. split; [exact H1| | | |].
  - intros s k n i c mk Hk E. destruct (H2 s k n i c mk Hk E) as (k' & Hk' & H). exists k'. split; [done|]. eapply wi_le; [apply Ha|exact H].
  - intros s k n i c mk Hk E. destruct (H3 s k n i c mk Hk E) as (k' & Hk' & H). exists k'. split; [done|]. eapply wi_le; [apply Ha|exact H].
  - intros s k i o Hk E. eapply wi_le; [apply Hb|]. by apply H4.
  - intros s k i o Hk E. eapply wi_le; [apply Hb|]. by apply H5.
Qed.
Lemma expr_cursor {t} (x : expression t) : exists (K : Type) (plug : t_T t -> K -> t_C t) (ok : K -> Prop),
  ccost t (e_memory x) plug ok (fun s => containers x s * 2) (fun s => containers x s * 2).
Proof.
  induction x as [V D0 H|V nw D0|t W f x IH|t X A items init f x IH|t0 t1 x0 IH0 x1 IH1|t0 t1 x0 IH0 x1 IH1|t x IH|t x IH]; cbn [e_memory containers] in *.
  - eexists _, _, _. eapply ccost_le; [| |apply ccost_plain, dense_cursor_cost]; cbn beta; intros; lia.
  - eexists _, _, _. eapply ccost_le; [| |apply ccost_plain, sparse_cursor_cost]; cbn beta; intros; lia.
  - destruct IH as (K & plug & ok & IH). exists K, plug, ok. by apply map_ccost.
  - destruct IH as (K & plug & ok & IH). exists K, plug, ok. by apply mmf_ccost.
  - destruct IH0 as (K0 & plug0 & ok0 & IH0). destruct IH1 as (K1 & plug1 & ok1 & IH1). eexists _, _, _.
    eapply ccost_le; [| |apply (intersection_ccost _ _ _ _ _ _ _ _ _ _ _ _ IH0 IH1)]; cbn beta; intros; lia.
  - destruct IH0 as (K0 & plug0 & ok0 & IH0). destruct IH1 as (K1 & plug1 & ok1 & IH1). eexists _, _, _.
    eapply ccost_le; [| |apply (union_ccost _ _ _ _ _ _ _ _ _ _ _ _ IH0 IH1)]; cbn beta; intros; lia.
  - destruct IH as (K & plug & ok & IH). eexists _, _, _. eapply ccost_le; [| |by apply mi_ccost]; intros s; by rewrite sum_mul.
  - destruct IH as (K & plug & ok & IH). eexists _, _, _. eapply ccost_le; [| |by apply mu_ccost]; intros s; by rewrite sum_mul.
Qed.

(** ** a use of a cursor: selections and data accesses, in any order; what it observes *)
Inductive cursor_call := CSelect (x : sel) | CData (i : N) | CDataUnchecked (i : N).
Inductive cursor_answer (V : Type) := AMask (m : mask) | AData (o : option V).
Arguments AMask {V}. Arguments AData {V}.
Fixpoint cursor_session (t : tree) (s : t_T t) (c : t_C t) (xs : list cursor_call) : res (list (cursor_answer (t_V t))) :=
  match xs with
  | [] => Ok []
  | CSelect x :: xs =>
    let* (c, m) := (if sel_unchecked x then t_select_u t else t_select t) s c (sel_level x) (sel_index x) in
    let* r := cursor_session t s c xs in Ok (AMask m :: r)
  | CData i :: xs => let* o := t_cdata t s c i in let* r := cursor_session t s c xs in Ok (AData o :: r)
  | CDataUnchecked i :: xs => let* v := t_cdata_u t s c i in let* r := cursor_session t s c xs in Ok (AData (Some v) :: r)
  end.
Lemma session_cost {t} (x : expression t) {K} (plug : t_T t -> K -> t_C t) ok a : ccost t (e_memory x) plug ok a a ->
  forall xs s k r, ok k -> cursor_session t s (plug s k) xs = Ok r ->
  wi (e_memory x) (length xs * a s) (fun u => cursor_session t u (plug u k) xs) s (fun _ => r).
Proof.
  intros Hc. induction xs as [|y xs IH]; intros s k r Hk E; [injection E as <-; apply (wi_ret _ _ _ (fun _ => []))|].
  cbn [length Nat.mul]. destruct y as [y|i|i]; cbn [cursor_session] in E |- *; apply bind_ok_inv in E as (z & E1 & E).
  - destruct z as [c m]. apply bind_ok_inv in E as (r' & E2 & E3). injection E3 as <-.
    assert (exists k', ok k' /\ wi (e_memory x) (a s) (fun u => (if sel_unchecked y then t_select_u t else t_select t) u (plug u k) (sel_level y) (sel_index y)) s (fun u => (plug u k', m))) as (k' & Hk' & Hw).
    { destruct (sel_unchecked y); [by eapply (cc_sel_u _ _ _ _ _ _ Hc)|by eapply (cc_sel _ _ _ _ _ _ Hc)]. }
    assert (c = plug s k') as ->. { destruct Hw as (F & _ & R). specialize (R s (agree_refl _ _ _ _)). cbn beta in R. congruence. }
    eapply wi_bind; [exact Hw|]. cbn beta iota. eapply wi_bind0; [by apply IH|]. apply (wi_ret _ _ _ (fun _ => _)).
  - apply bind_ok_inv in E as (r' & E2 & E3). injection E3 as <-. eapply wi_bind; [by apply (cc_data _ _ _ _ _ _ Hc)|]. cbn beta. eapply wi_bind0; [by apply IH|]. apply (wi_ret _ _ _ (fun _ => _)).
  - apply bind_ok_inv in E as (r' & E2 & E3). injection E3 as <-. eapply wi_bind; [by apply (cc_data_u _ _ _ _ _ _ Hc)|]. cbn beta. eapply wi_bind0; [by apply IH|]. apply (wi_ret _ _ _ (fun _ => _)).
Qed.
Lemma expr_session {t} (x : expression t) s xs r : (let* c := t_new t s in cursor_session t s c xs) = Ok r ->
  within (e_memory x) (length xs * (containers x s * 2)) (fun s => let* c := t_new t s in cursor_session t s c xs) s r.
Proof.
  intros E. destruct (expr_cursor x) as (K & plug & ok & Hc). apply bind_ok_inv in E as (c & E1 & E2).
  destruct (cc_new _ _ _ _ _ _ Hc s c E1) as (k & Hk & Hw).
  assert (c = plug s k) as ->. { destruct Hw as (F & _ & R). specialize (R s (agree_refl _ _ _ _)). cbn beta in R. congruence. }
  apply wi_within. change (length xs * (containers x s * 2)) with (0 + length xs * (containers x s * 2)). eapply wi_bind; [exact Hw|]. cbn beta.
  by apply (session_cost x plug ok (fun s => containers x s * 2) Hc).
Qed.
