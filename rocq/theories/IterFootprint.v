(** * Memory cells a whole iteration looks at (src/iter.rs:50-147)
    Each selection and each data access of the iterator is a step of the tree's cursor, which looks at a bounded
    number of cells (CursorFootprint.v); the iterator's own state is no memory of the tree.  So the cost of an
    iteration is the number of nodes it selects (the observer [logged] of IterCost.v counts them) plus the number of
    leaves it returns, times the cost of a step. *)
From Verif Require Import Base BitUtils BitUtilsProofs BitQueue LevelIndices LevelIndicesProofs ConstLoops Hierarchy Lawful IterProofs IterCost
  Footprint DenseFootprint SparseFootprint ViewFootprint CursorFootprint.

Section iter.
Context (t : tree) (m : memory (t_T t)) {K : Type} (plug : t_T t -> K -> t_C t) (ok : K -> Prop) (a b : t_T t -> nat).
Context (Hc : ccost t m plug ok a b).
Context (s : t_T t).

(** an iterator with another cursor *)
Definition recur {C C'} (it : iter C) (c : C') : iter C' := Iter (it_iters it) (it_indices it) c.
Definition counted (it : iter (t_C (logged t))) : nat := length (selected it).
Definition at_k (it : iter (t_C (logged t))) (k : K) : Prop := ok k /\ fst (it_cursor it) = plug s k.
(** a part of the iterator's code [g]: run from [it] by the observer it yields [it'] and [x] *)
Definition follows {A} (g : t_T t -> iter (t_C t) -> res (iter (t_C t) * A)) (it : iter (t_C (logged t))) (k : K) (it' : iter (t_C (logged t))) (x : A) (extra : nat) : Prop :=
  exists k', at_k it' k' /\ counted it <= counted it' /\
    wi m ((counted it' - counted it) * a s + extra) (fun u => g u (recur it (plug u k))) s (fun u => (recur it' (plug u k'), x)).

Lemma plug_eq {n} (g : t_T t -> res (t_C t * mask)) k' c (mk mk' : mask) : wi m n g s (fun u => (plug u k', mk')) -> g s = Ok (c, mk) -> c = plug s k'.
Proof using. intros (F & _ & R) E. specialize (R s (agree_refl _ _ _ _)). cbn beta in R. congruence. Qed.

Lemma visit_follows it k i it' x : at_k it k -> iter_visit (logged t) s it i = Ok (it', x) ->
  follows (fun u it => iter_visit t u it i) it k it' x 0.
Proof using Hc.
  intros [Hk Hck] E. unfold iter_visit in E |- *. unfold follows.
  apply bind_ok_inv in E as (q & E1 & E). apply bind_ok_inv in E as ([q2 o] & E2 & E). apply bind_ok_inv in E as (iters & E3 & E).
  destruct o as [index|].
  - apply bind_ok_inv in E as (indices & E4 & E). apply bind_ok_inv in E as ([c mk] & E5 & E). apply bind_ok_inv in E as (iters2 & E6 & E).
    injection E as <- <-. destruct it as [its ids [c0 [p log]]]. cbn in * |-. subst c0.
    apply bind_ok_inv in E5 as ([c1 m1] & E5 & E7). injection E7 as <- <-.
    destruct (cc_sel_u _ _ _ _ _ _ Hc s k _ _ _ _ Hk E5) as (k' & Hk' & Hw).
    assert (c1 = plug s k') as -> by (eapply plug_eq; [exact Hw|exact E5]).
    exists k'. split; [done|]. unfold counted, selected. cbn. rewrite app_length. cbn. split; [lia|].
    replace ((length log + 1 - length log) * a s + 0) with (a s + 0) by lia.
    eapply wi_pure; [exact E1|]. eapply wi_pure; [exact E2|]. cbn beta iota. eapply wi_pure; [exact E3|]. cbn beta iota.
    eapply wi_pure; [exact E4|]. eapply wi_bind; [exact Hw|]. cbn beta iota. eapply wi_pure; [exact E6|].
    apply (wi_ret m 0 s (fun u => (Iter iters2 indices (plug u k'), Some ()))).
  - injection E as <- <-. exists k. split; [done|]. split; [done|]. unfold counted, selected. cbn [it_cursor it_iters it_indices recur].
    eapply wi_pure; [exact E1|]. eapply wi_pure; [exact E2|]. cbn beta iota. eapply wi_pure; [exact E3|]. cbn beta iota.
    apply (wi_ret m _ s (fun u => (Iter iters (it_indices it) (plug u k), None))).
Qed.

Lemma visit_list_follows l : forall it k it' x, at_k it k -> visit_list l (iter_visit (logged t) s) it = Ok (it', x) ->
  follows (fun u it => visit_list l (iter_visit t u) it) it k it' x 0.
Proof using Hc.
  induction l as [|i l IH]; intros it k it' x Hk E; cbn [visit_list] in E |- *.
  - injection E as <- <-. exists k. split; [done|]. split; [done|]. apply (wi_ret m _ s (fun u => (recur it (plug u k), None))).
  - apply bind_ok_inv in E as ([it1 o] & E1 & E). destruct (visit_follows _ _ _ _ _ Hk E1) as (k1 & Hk1 & Hc1 & W1).
    destruct o as [o|].
    + injection E as <- <-. exists k1. split; [done|]. split; [done|]. eapply wi_bind0; [exact W1|]. cbn beta iota.
      apply (wi_ret m _ s (fun u => (recur it1 (plug u k1), Some o))).
    + destruct (IH _ _ _ _ Hk1 E) as (k2 & Hk2 & Hc2 & W2). exists k2. split; [done|]. split; [lia|].
      eapply wi_le; [|eapply wi_bind; [exact W1|exact W2]].
      assert (counted it' - counted it = (counted it1 - counted it) + (counted it' - counted it1)) as -> by lia. lia.
Qed.

Lemma loop_follows fuel : forall it k it' x, at_k it k -> iter_loop fuel (logged t) s it = Ok (it', x) ->
  follows (fun u it => iter_loop fuel t u it) it k it' x 0.
Proof using Hc.
  induction fuel as [|fuel IH]; intros it k it' x Hk E; [done|]. cbn [iter_loop] in E. unfold follows. cbn [iter_loop].
  apply bind_ok_inv in E as (q & E1 & E). apply bind_ok_inv in E as ([q2 o] & E2 & E). cbn [recur it_iters].
  set (it0 := Iter (<[length (it_iters it) - 1:=q2]> (it_iters it)) (it_indices it) (it_cursor it)) in E.
  destruct o as [index|].
  - injection E as <- <-. exists k. split; [done|]. split; [done|]. eapply wi_pure; [exact E1|]. eapply wi_pure; [exact E2|]. cbn beta iota.
    apply (wi_ret m _ s (fun u => (recur it0 (plug u k), Some index))).
  - apply bind_ok_inv in E as ([it1 ctrl] & E3 & E). rewrite const_for_rev_0 in E3.
    destruct (visit_list_follows _ it0 k _ _ Hk E3) as (k1 & Hk1 & Hc1 & W1'). change (counted it0) with (counted it) in *.
    assert (wi m ((counted it1 - counted it) * a s + 0) (fun u => const_for_rev 0 (t_depth t - 1) (iter_visit t u) (recur it0 (plug u k))) s
      (fun u => (recur it1 (plug u k1), ctrl))) as W1 by (eapply wi_ext; [|exact W1']; intros u; symmetry; apply const_for_rev_0).
    clear W1'.
    destruct ctrl as [ctrl|].
    + destruct (IH _ _ _ _ Hk1 E) as (k2 & Hk2 & Hc2 & W2). exists k2. split; [done|]. split; [lia|].
      eapply wi_pure; [exact E1|]. eapply wi_pure; [exact E2|]. cbn beta iota zeta.
      eapply wi_le; [|eapply wi_bind; [exact W1|exact W2]].
      assert (counted it' - counted it = (counted it1 - counted it) + (counted it' - counted it1)) as -> by lia. lia.
    + injection E as <- <-. exists k1. split; [done|]. split; [done|].
      eapply wi_pure; [exact E1|]. eapply wi_pure; [exact E2|]. cbn beta iota zeta.
      eapply wi_bind0; [exact W1|]. cbn beta iota. apply (wi_ret m _ s (fun u => (recur it1 (plug u k1), None))).
Qed.

Definition items {A} (x : option A) : nat := match x with Some _ => 1 | None => 0 end.
Lemma next_follows fuel it k it' x : at_k it k -> iter_next fuel (logged t) s it = Ok (it', x) ->
  follows (fun u it => iter_next fuel t u it) it k it' x (items x * b s).
Proof using Hc.
  intros Hk E. unfold iter_next in E. unfold follows, iter_next. apply bind_ok_inv in E as ([it1 o] & E1 & E).
  destruct (loop_follows _ _ _ _ _ Hk E1) as (k1 & Hk1 & Hc1 & W1). destruct o as [li|].
  - apply bind_ok_inv in E as (v & E2 & E). apply bind_ok_inv in E as (bi & E3 & E). injection E as <- <-.
    exists k1. split; [done|]. split; [done|]. cbn [items].
    replace ((counted it1 - counted it) * a s + 1 * b s) with ((counted it1 - counted it) * a s + 0 + b s) by lia.
    eapply wi_bind; [exact W1|]. cbn beta iota. destruct Hk1 as [Hk1 Hck1]. change (t_cdata_u t s (fst (it_cursor it1)) li = Ok v) in E2. rewrite Hck1 in E2.
    eapply wi_bind0; [exact (cc_data_u _ _ _ _ _ _ Hc s k1 _ _ Hk1 E2)|]. cbn beta. cbn [recur it_indices]. eapply wi_pure; [exact E3|]. cbn beta.
    apply (wi_ret m _ s (fun u => (Iter (it_iters it1) (it_indices it1) (plug u k1), Some (bi, v)))).
  - injection E as <- <-. exists k1. split; [done|]. split; [done|]. cbn [items].
    eapply wi_le; [|eapply wi_bind0; [exact W1|]]; [lia|]. cbn beta iota. apply (wi_ret m _ s (fun u => (recur it1 (plug u k1), None))).
Qed.

Lemma drain_follows fuel : forall it k it' l, at_k it k -> iter_drain fuel (logged t) s it = Ok (it', l) ->
  follows (fun u it => iter_drain fuel t u it) it k it' l (length l * b s).
Proof using Hc.
  induction fuel as [|fuel IH]; intros it k it' l Hk E; [done|]. cbn [iter_drain] in E. unfold follows. cbn [iter_drain].
  apply bind_ok_inv in E as ([it1 o] & E1 & E). destruct (next_follows _ _ _ _ _ Hk E1) as (k1 & Hk1 & Hc1 & W1).
  destruct o as [x|].
  - apply bind_ok_inv in E as ([it2 l2] & E2 & E). injection E as <- <-.
    destruct (IH _ _ _ _ Hk1 E2) as (k2 & Hk2 & Hc2 & W2). exists k2. split; [done|]. split; [lia|].
    eapply wi_le; [|eapply wi_bind; [exact W1|eapply wi_bind0; [exact W2|]]].
    + cbn [items length]. assert (counted it2 - counted it = (counted it1 - counted it) + (counted it2 - counted it1)) as -> by lia. lia.
    + cbn beta iota. apply (wi_ret m _ s (fun u => (recur it2 (plug u k2), x :: l2))).
  - injection E as <- <-. exists k1. split; [done|]. split; [done|]. eapply wi_bind0; [exact W1|]. cbn beta iota.
    apply (wi_ret m _ s (fun u => (recur it1 (plug u k1), []))).
Qed.

Lemma new_follows it : iter_new (logged t) s = Ok it -> exists k, at_k it k /\ counted it = 1 /\
  wi m (a s) (fun u => iter_new t u) s (fun u => recur it (plug u k)).
Proof using Hc.
  intros E. unfold iter_new in E |- *. apply bind_ok_inv in E as ([c [p log]] & E1 & E). apply bind_ok_inv in E as ([c2 mk] & E2 & E).
  cbn in E1. apply bind_ok_inv in E1 as (c0 & E0 & E1). injection E1 as -> <- <-.
  cbn in E2. apply bind_ok_inv in E2 as ([c1 m1] & E2 & E3). injection E3 as <- <-.
  destruct (cc_new _ _ _ _ _ _ Hc s c E0) as (k0 & Hk0 & W0).
  assert (c = plug s k0) as ->. { destruct W0 as (F & _ & R). specialize (R s (agree_refl _ _ _ _)). cbn beta in R. congruence. }
  destruct (cc_sel_u _ _ _ _ _ _ Hc s k0 _ _ _ _ Hk0 E2) as (k & Hk & W1).
  assert (c1 = plug s k) as -> by (eapply plug_eq; [exact W1|exact E2]).
  change (t_depth (logged t)) with (t_depth t) in E. destruct (decide (0 < t_depth t)) as [Hd|]; [|done]. injection E as <-.
  exists k. split; [done|]. split; [done|].
  change (a s) with (0 + a s). eapply wi_bind; [exact W0|]. cbn beta. eapply wi_bind0; [exact W1|]. cbn beta iota.
  apply (wi_ret m _ s (fun u => Iter _ _ (plug u k))).
Qed.

Lemma poll_follows fuel n : forall it k it' l, at_k it k -> iter_poll fuel n (logged t) s it = Ok (it', l) ->
  follows (fun u it => iter_poll fuel n t u it) it k it' l (n * b s).
Proof using Hc.
  induction n as [|n IH]; intros it k it' l Hk E; unfold follows; cbn [iter_poll] in E |- *.
  - injection E as <- <-. exists k. split; [done|]. split; [done|]. apply (wi_ret m _ s (fun u => (recur it (plug u k), []))).
  - apply bind_ok_inv in E as ([it1 o] & E1 & E). destruct (next_follows _ _ _ _ _ Hk E1) as (k1 & Hk1 & Hc1 & W1).
    apply bind_ok_inv in E as ([it2 l2] & E2 & E). injection E as <- <-.
    destruct (IH _ _ _ _ Hk1 E2) as (k2 & Hk2 & Hc2 & W2). exists k2. split; [done|]. split; [lia|].
    eapply wi_le; [|eapply wi_bind; [exact W1|eapply wi_bind0; [exact W2|]]].
    + assert (items o <= 1) as Ho by (destruct o; cbn; lia). assert (items o * b s <= 1 * b s) as Hb by (by apply Nat.mul_le_mono_r).
      assert (counted it2 - counted it = (counted it1 - counted it) + (counted it2 - counted it1)) as -> by lia. lia.
    + cbn beta iota. apply (wi_ret m _ s (fun u => (recur it2 (plug u k2), o :: l2))).
Qed.

(** a client that makes an iterator and calls `next` [n] times *)
Lemma first_follows fuel n it it' l : iter_new (logged t) s = Ok it -> iter_poll fuel n (logged t) s it = Ok (it', l) ->
  within m (counted it' * a s + n * b s) (fun u => let* it := iter_new t u in let* (_, l) := iter_poll fuel n t u it in Ok l) s l.
Proof using Hc.
  intros E1 E2. destruct (new_follows _ E1) as (k & Hk & Hn & W1). destruct (poll_follows _ _ _ _ _ _ Hk E2) as (k' & Hk' & Hle & W2).
  apply wi_within. eapply wi_le; [|eapply wi_bind; [exact W1|eapply wi_bind0; [exact W2|]]].
  - rewrite Hn in Hle. rewrite Hn. destruct (counted it') as [|x]; [lia|]. replace (S x - 1) with x by lia. cbn [Nat.mul]. lia.
  - cbn beta iota. apply (wi_ret m _ s (fun _ => l)).
Qed.

Lemma collect_follows ps : iter_visits t s ps -> exists n l, forall fuel, n <= fuel ->
  iter_collect fuel t s = Ok l /\ within m (length ps * a s + length l * b s) (fun u => iter_collect fuel t u) s l.
Proof using Hc.
  intros (n & l & H). exists n, l. intros fuel Hf. destruct (H fuel Hf) as (H1 & it & it' & E1 & E2 & Hps). split; [done|].
  destruct (new_follows _ E1) as (k & Hk & Hn & W1). destruct (drain_follows _ _ _ _ _ Hk E2) as (k' & Hk' & Hle & W2).
  assert (counted it' = length ps) as Hcnt by (unfold counted; by rewrite Hps).
  apply wi_within. unfold iter_collect. eapply wi_le; [|eapply wi_bind; [exact W1|eapply wi_bind0; [exact W2|]]].
  - rewrite Hcnt, Hn in Hle. rewrite Hcnt, Hn. destruct (length ps) as [|x]; [lia|]. replace (S x - 1) with x by lia. cbn [Nat.mul]. exact (Nat.eq_le_incl _ _ (Nat.add_assoc _ _ _)).
  - cbn beta iota. apply (wi_ret m _ s (fun _ => l)).
Qed.
End iter.

(** whole expressions *)
Lemma expr_iter {t} (x : expression t) s ps : iter_visits t s ps -> exists n l, forall fuel, n <= fuel ->
  iter_collect fuel t s = Ok l /\
  within (e_memory x) ((length ps + length l) * (containers x s * 2)) (fun u => iter_collect fuel t u) s l.
Proof.
  intros H. destruct (expr_cursor x) as (K & plug & ok & Hc). destruct (collect_follows _ _ _ _ _ _ Hc s ps H) as (n & l & Hl).
  exists n, l. intros fuel Hf. rewrite Nat.mul_add_distr_r. by apply Hl.
Qed.

Lemma expr_first {t} (x : expression t) s fuel n it it' l : iter_new (logged t) s = Ok it -> iter_poll fuel n (logged t) s it = Ok (it', l) ->
  within (e_memory x) ((length (selected it') + n) * (containers x s * 2)) (fun u => let* it := iter_new t u in let* (_, l) := iter_poll fuel n t u it in Ok l) s l.
Proof.
  intros H1 H2. destruct (expr_cursor x) as (K & plug & ok & Hc). rewrite Nat.mul_add_distr_r. by apply (first_follows _ _ _ _ _ _ Hc s fuel n it it' l).
Qed.
