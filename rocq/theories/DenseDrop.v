(** * DenseTree: enumeration of the entries and drop *)
From Verif Require Import Base BitUtils BitUtilsProofs BitQueue BitQueueProofs LevelIndices LevelIndicesProofs
  ConstLoops Hierarchy Lawful Dense DenseNode DenseShape DenseProofs DenseRemove DenseTree.

(** draining a bit iterator *)
Fixpoint fold_res {St A} (f : St -> A -> res St) (l : list A) (s : St) : res St :=
  match l with [] => Ok s | x :: l => let* s := f s x in fold_res f l s end.
Lemma bits_for_each_ok {St} n fuel q (f : St -> N -> res St) s : bq_ok n q -> length (bq_items q) < fuel ->
  bits_for_each fuel q f s = fold_res f (bq_items q) s.
Proof.
  revert q s. induction fuel as [|fuel IH]; intros q s Hq Hl; [lia|]. cbn [bits_for_each].
  destruct (bq_next_ok n q Hq) as (q' & o & -> & Hq' & -> & Ht). rewrite bind_ok.
  destruct (bq_items q) as [|x l] eqn:E; cbn [head fold_res]; [done|].
  destruct (f s x) as [s'| | |]; cbn [rbind]; try done. rewrite IH; [by rewrite Ht|done|rewrite Ht; cbn in Hl |- *; lia].
Qed.

Section drop.
Context (D : nat).
Hypothesis HD0 : 1 <= D.
Hypothesis HD : D <= 9.
Context {V : Type}.
Implicit Types (t : dense V) (m : gmap N V).

Lemma dense_key_values_ok ex t m : dense_inv D ex t m -> exists ks vs, dense_key_values t = Ok (ks, vs) /\
  length ks = length vs /\ zip ks vs ≡ₚ map_to_list m.
Proof.
  intros (P & J & Sh & Hv & _). destruct (vec_entries D HD0 HD _ _ _ _ Hv) as (ks & vs & Ek & Ed & El & Hai).
  exists ks, vs. unfold dense_key_values, from_1. rewrite Ek, Ed in *. cbn [length]. rewrite !decide_True by lia.
  rewrite !bind_ok. rewrite Hai, bind_ok. split; [done|]. split; [done|]. symmetry. by eapply (vec_perm D HD0 HD).
Qed.

Section sub.
Context (h0 : heap) (root : ptr) (P J : gmap (list N) N) (Sh : shape D h0 root P J None).

(** [h'] is [h] without the nodes at the paths satisfying [F] *)
Definition minus (h h' : heap) (F : list N -> Prop) : Prop :=
  (forall r b, F r -> P !! r = Some b -> h_nodes h' !! b = None) /\
  (forall b, (forall r, F r -> P !! r <> Some b) -> h_nodes h' !! b = h_nodes h !! b).

Lemma drop_sub k p a h : P !! p = Some a -> length p + S k = D ->
  (forall r b, p `prefix_of` r -> P !! r = Some b -> h_nodes h !! b = h_nodes h0 !! b) ->
  exists h', drop_node_with_childs k h (PHeap a) = Ok h' /\ minus h h' (fun r => p `prefix_of` r).
Proof.
  revert p a h. induction k as [|k IH]; intros p a h Ha Hl Hh; cbn [drop_node_with_childs];
    destruct (sh_node _ _ _ _ _ _ Sh _ _ Ha) as (n & Hn & Hk & Hr); pose proof (Hh p a ltac:(done) Ha) as Hha; rewrite Hn in Hha.
  - rewrite (drop_node_ok KIdx _ _ _ _ _ Hha Hr) by (rewrite Hk; unfold kind_at; by rewrite decide_False by lia).
    eexists. split; [done|]. split; cbn [h_nodes].
    + intros r b [z ->] Hb. destruct z as [|x z].
      * rewrite app_nil_r, Ha in Hb. injection Hb as ->. apply lookup_delete.
      * destruct (sh_path _ _ _ _ _ _ Sh _ _ Hb) as [_ Hlt]. rewrite app_length in Hlt. cbn in Hlt. lia.
    + intros b Hb. rewrite lookup_delete_ne; [done|]. intros ->. by eapply Hb.
  - unfold node_mask. cbn [hread]. rewrite Hha, bind_ok, bind_ok.
    pose proof (nr_word _ _ _ Hr) as Hw.
    destruct (into_bits_iter_ok 1 [n_mask n]) as [Hq Hqi]; [by split; [|constructor]|lia|].
    rewrite mbits_single in Hqi by done.
    rewrite (bits_for_each_ok 1); [|done|rewrite Hqi; pose proof (wbits_length (n_mask n)); lia]. rewrite Hqi.
    assert (forall i, i ∈ wbits (n_mask n) <-> is_Some (P !! (p ++ [i]))) as Hit.
    { intros i. rewrite elem_of_wbits, (nr_bits _ _ _ Hr). cbn. unfold childs0. rewrite decide_True by lia. rewrite fmap_is_Some.
      split; [by intros [_ ?]|]. intros Hs. split; [|done]. destruct Hs as [b Hb]. destruct (sh_path _ _ _ _ _ _ Sh _ _ Hb) as [[_ Hp] _].
      apply Forall_app in Hp as [_ Hp]. by apply Forall_inv in Hp. }
    assert (forall l h1, NoDup l -> (forall i, i ∈ l -> is_Some (P !! (p ++ [i]))) ->
      h_nodes h1 !! a = Some n ->
      (forall i r b, i ∈ l -> p ++ [i] `prefix_of` r -> P !! r = Some b -> h_nodes h1 !! b = h_nodes h0 !! b) ->
      exists h2, fold_res (fun h i => let* c := child_ptr h (PHeap a) i in drop_node_with_childs k h c) l h1 = Ok h2 /\
        minus h1 h2 (fun r => exists i, i ∈ l /\ p ++ [i] `prefix_of` r)) as Hfold.
    { induction l as [|i l IHl]; intros h1 Hnd Hsome Ha1 Hh1.
      - exists h1. split; [done|]. split; [intros r b [i [Hi _]]; by apply elem_of_nil in Hi|done].
      - apply NoDup_cons in Hnd as [Hni Hnd]. cbn [fold_res].
        destruct (Hsome i ltac:(left)) as [b Hb].
        assert (child_ptr h1 (PHeap a) i = Ok (PHeap b)) as ->.
        { unfold child_ptr. rewrite (get_child_present _ _ _ _ _ Ha1 Hr KPtr i (SPtr (PHeap b))); [done| |].
          - rewrite Hk. unfold kind_at. by rewrite decide_True by lia.
          - cbn. unfold childs0. rewrite decide_True by lia. by rewrite Hb. }
        rewrite bind_ok. destruct (IH (p ++ [i]) b h1 Hb) as (h2 & -> & [Hm1 Hm2]); [rewrite app_length; cbn; lia| |].
        { intros r c Hpr Hc. eapply Hh1; [left|done..]. }
        rewrite bind_ok. destruct (IHl h2) as (h3 & -> & [Hm3 Hm4]); [done|intros; apply Hsome; by right| | |].
        + rewrite Hm2; [done|]. intros r [z ->] E. pose proof (sh_inj _ _ _ _ _ _ Sh _ _ _ Ha E) as E'.
          apply (f_equal length) in E'. rewrite !app_length in E'. cbn in E'. lia.
        + intros i' r c Hi' Hpr Hc. rewrite Hm2; [eapply Hh1; [by right|done..]|].
          intros r' [z' ->] E. destruct Hpr as [z ->]. pose proof (sh_inj _ _ _ _ _ _ Sh _ _ _ Hc E) as E'.
          rewrite <- !app_assoc in E'. apply app_inv_head in E'. injection E' as -> _. done.
        + eexists. split; [done|]. split.
          * intros r c [i' [Hi' Hpr]] Hc. destruct (decide (i' ∈ l)) as [Hil|Hil]; [by eapply Hm3; eauto|].
            apply elem_of_cons in Hi' as [->|?]; [|done]. rewrite Hm4; [by eapply Hm1|].
            intros r' [i' [Hi' [z' ->]]] E. destruct Hpr as [z ->]. pose proof (sh_inj _ _ _ _ _ _ Sh _ _ _ Hc E) as E'.
            rewrite <- !app_assoc in E'. apply app_inv_head in E'. injection E' as -> _. done.
          * intros c Hc. rewrite Hm4; [apply Hm2|].
            -- intros r Hpr. apply Hc. exists i. split; [left|done].
            -- intros r [i' [Hi' Hpr]]. apply Hc. exists i'. split; [by right|done]. }
    destruct (Hfold (wbits (n_mask n)) h) as (h2 & -> & [Hm1 Hm2]).
    { apply ssorted_nodup, wbits_sorted. }
    { intros i Hi. by apply Hit. }
    { done. }
    { intros i r b _ Hpr Hb. apply (Hh r); [|done]. etrans; [|exact Hpr]. by exists [i]. }
    rewrite bind_ok.
    assert (h_nodes h2 !! a = Some n) as Ha2.
    { rewrite Hm2; [done|]. intros r [i [_ [z ->]]] E. pose proof (sh_inj _ _ _ _ _ _ Sh _ _ _ Ha E) as E'.
      apply (f_equal length) in E'. rewrite !app_length in E'. cbn in E'. lia. }
    rewrite (drop_node_ok KPtr _ _ _ _ _ Ha2 Hr) by (rewrite Hk; unfold kind_at; by rewrite decide_True by lia).
    eexists. split; [done|]. split; cbn [h_nodes].
    + intros r b [z ->] Hb. destruct (decide (a = b)) as [->|Hne]; [apply lookup_delete|]. rewrite lookup_delete_ne by done.
      destruct z as [|x z]; [rewrite app_nil_r in Hb; congruence|]. rewrite cons_middle, app_assoc in Hb.
      eapply Hm1; [|exact Hb]. exists x. split; [|by exists z]. apply Hit. by eapply (sh_prefix _ _ _ _ _ _ _ _ _ Sh).
    + intros b Hb. rewrite lookup_delete_ne by (intros ->; by eapply Hb). apply Hm2.
      intros r [i [_ Hpr]]. apply Hb. etrans; [|exact Hpr]. by exists [i].
Qed.
End sub.

(** drop frees every node exactly once and drops every value exactly once *)
Lemma dense_drop_ok ex t m : dense_inv D ex t m -> exists h dr, dense_drop D t = Ok (h, dr) /\
  h_nodes h = ∅ /\ dr ≡ₚ (snd <$> map_to_list m).
Proof.
  intros (P & J & Sh & Hv & _). destruct (vec_entries D HD0 HD _ _ _ _ Hv) as (ks & vs & Ek & Ed & El & Hai).
  pose proof (vec_perm D HD0 HD _ _ _ _ Hv _ _ Ek Ed El) as Hp.
  destruct (sh_root _ _ _ _ _ _ Sh) as (a & Er & Ha).
  destruct (drop_sub (d_heap t) (d_root t) P J Sh (D - 1) [] a (d_heap t) Ha) as (h' & Hd & [Hm1 Hm2]); [cbn; lia|done|].
  exists h', vs. unfold dense_drop, from_1. rewrite Ed in *. cbn [length]. rewrite decide_True by lia.
  rewrite bind_ok, Hai, bind_ok, Er, Hd, bind_ok. split; [done|]. split.
  - apply map_empty. intros b. destruct (h_nodes (d_heap t) !! b) as [n|] eqn:E.
    + destruct (sh_dom _ _ _ _ _ _ Sh b ltac:(eauto)) as [p Hpb]. eapply Hm1; [|exact Hpb]. by exists p.
    + rewrite Hm2; [done|]. intros r _ Hr. destruct (sh_node _ _ _ _ _ _ Sh _ _ Hr) as (n & Hn & _). congruence.
  - rewrite Hp, snd_zip by lia. done.
Qed.

(** every node: at most 64 children, the default child behind them, capacity ≤ 128 (u8) *)
Lemma dense_node_bounds ex t m a n : dense_inv D ex t m -> h_nodes (d_heap t) !! a = Some n ->
  n_len n = S (popcount (n_mask n)) /\ n_len n <= 65 /\ n_len n <= n_cap n /\ n_cap n <= 128 /\ n_cap n = length (n_slots n).
Proof.
  intros (P & J & Sh & Hv & _) Hn. destruct (sh_dom _ _ _ _ _ _ Sh a ltac:(eauto)) as [p Hp].
  destruct (sh_node _ _ _ _ _ _ Sh _ _ Hp) as (n' & Hn' & Hk & Hr). rewrite Hn in Hn'. injection Hn' as <-.
  split; [apply (nr_len _ _ _ Hr)|]. split.
  - rewrite (nr_len _ _ _ Hr), popcount_wbits by apply (nr_word _ _ _ Hr). pose proof (wbits_length (n_mask n)). lia.
  - split; [by eapply nr_len_le|]. split; [apply (nr_cap_le _ _ _ Hr)|apply (nr_cap _ _ _ Hr)].
Qed.
End drop.
