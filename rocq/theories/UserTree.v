(** * A tree implemented by a client: example of an implementor of the traits

    Not part of the library: a "generative" tree (see the documentation of HibitTreeCursor,
    src/hibit_tree.rs:253-258) of depth [D] that contains every key whose last six bits are in
    the set [m0], mapped to itself, without storing anything.  Its cursor keeps the selected path. *)
From Verif Require Import Base BitUtils BitUtilsProofs BitQueue LevelIndices LevelIndicesProofs
  ConstLoops Hierarchy Lawful IterProofs Spec TreeClient Generic Contract.

Section periodic.
Context (D : nat) (m0 : N).
(** the same mask in every node *)
Definition periodic_mask (p : list N) : mask := if decide (S (length p) = D) then [m0] else [N.ones 64].
(** client code *)
Definition periodic_select (s : unit) (c : list N) (level : nat) (i : N) : res (list N * mask) :=
  let p := match level with O => [] | S n => take n c ++ [i] end in Ok (p, periodic_mask p).
(** the keys of the periodic tree *)
Definition periodic_has (q : list N) : bool := match last q with Some i => N.testbit m0 i | None => false end.
(** a client implementation of src/hibit_tree.rs:124-321 *)
Definition periodic : tree := {|
  t_nw := 1; t_depth := D; t_exact := true; t_T := unit; t_C := list N; t_V := N;
  t_data := fun _ k q => Ok (if periodic_has q then Some k else None);
  t_data_u := fun _ k q => Ok k;
  t_new := fun _ => Ok [];
  t_select := periodic_select;
  t_select_u := periodic_select;
  t_cdata := fun _ c i => Ok (if N.testbit m0 i then Some (undigits 64 (c ++ [i])) else None);
  t_cdata_u := fun _ c i => Ok (undigits 64 (c ++ [i]));
|}.
Context (HD : 1 <= D) (Hm0 : word_ok m0) (Hne : m0 <> 0%N).

Lemma periodic_run has cur xs cur' c m : sel_run 64 D has cur xs cur' ->
  match cur with None => True | Some (p, _) => c = p /\ m = Some (periodic_mask p) end ->
  exists c' m', run_selects periodic tt c m xs = Ok (c', m') /\
    match cur' with None => True | Some (p, _) => c' = p /\ m' = Some (periodic_mask p) end.
Proof.
  intros Hr. revert c m. induction Hr as [cur|cur [n i u] cur1 xs cur2 Hs Hr IH]; intros c m Hc; cbn [run_selects]; [eauto|].
  assert (forall s c n i, (if u then t_select_u periodic else t_select periodic) s c n i = periodic_select s c n i) as -> by by destruct u.
  unfold periodic_select. cbn [sel_level sel_index]. rewrite bind_ok. apply IH.
  unfold sel_step in Hs. cbn [sel_level sel_index sel_unchecked] in Hs. destruct n as [|n].
  - destruct Hs as (_ & _ & ->). done.
  - destruct Hs as (p & ch & -> & _ & _ & _ & _ & ->). destruct Hc as [-> _]. done.
Qed.
Lemma periodic_bit p i : in_tree periodic (length p) p -> length p < D -> node_bit periodic tt p i = mbit (periodic_mask p) i.
Proof.
  intros Hp Hl. unfold node_bit. cbn [t_new periodic]. rewrite bind_ok.
  destruct (periodic_run (fun _ => True) None _ _ [] None (descend_run periodic HD (fun _ => True) p Hp Hl) I) as (c & m & E & -> & ->).
  change (t_T periodic) with unit in *. rewrite E. done.
Qed.
Lemma periodic_full p i : S (length p) <> D -> mbit (periodic_mask p) i = bool_decide (i < 64)%N.
Proof.
  intros H. unfold periodic_mask. destruct (decide _) as [|_]; [done|]. unfold mbit. destruct (N.ltb_spec i 64) as [Hi|Hi].
  - rewrite bool_decide_eq_true_2 by done. rewrite N.div_small by done. cbn. rewrite N.mod_small by done.
    by apply N.ones_spec_low.
  - rewrite bool_decide_eq_false_2 by lia. assert (1 <= i / 64)%N by (apply N.div_le_lower_bound; lia).
    destruct (N.to_nat (i / 64)) as [|n] eqn:E; [lia|]. done.
Qed.
Lemma periodic_last p i : S (length p) = D -> mbit (periodic_mask p) i = N.testbit m0 i.
Proof.
  intros H. unfold periodic_mask. destruct (decide _) as [_|]; [|done]. unfold mbit. destruct (N.ltb_spec i 64) as [Hi|Hi].
  - rewrite N.div_small by done. cbn. by rewrite N.mod_small by done.
  - assert (1 <= i / 64)%N by (apply N.div_le_lower_bound; lia). destruct (N.to_nat (i / 64)) as [|n] eqn:E; [lia|]. cbn.
    symmetry. unfold word_ok in Hm0. destruct (N.eq_dec m0 0) as [->|]; [by rewrite N.bits_0|]. apply N.bits_above_log2. 
    apply N.log2_lt_pow2; [lia|]. eapply N.lt_le_trans; [exact Hm0|]. apply N.pow_le_mono_r; lia.
Qed.
Lemma periodic_elem q : in_tree periodic D q -> elem_at periodic tt q = if periodic_has q then Some (undigits 64 q) else None.
Proof. done. Qed.
Lemma periodic_has_snoc p i : periodic_has (p ++ [i]) = N.testbit m0 i.
Proof. unfold periodic_has. by rewrite last_snoc. Qed.

Lemma periodic_honest : honest true periodic tt.
Proof.
  assert (forall p i, in_tree periodic (length p) p -> (i < 64)%N -> in_tree periodic (S (length p)) (p ++ [i])) as Hsnoc.
  { intros p i [_ Hp] Hi. split; [rewrite app_length; cbn; lia|]. apply Forall_app. split; [done|]. by constructor. }
  split.
  - intros q _. eexists. reflexivity.
  - intros q x Hq. rewrite periodic_elem by done. destruct (periodic_has q); [|done]. intros [= <-]. done.
  - by exists [].
  - intros c0 xs p checked [= <-] Hr. pose proof (sel_run_path periodic HD _ None _ _ I Hr) as [Hp Hl].
    destruct (periodic_run _ None xs _ [] None Hr I) as (c & m & E & -> & ->).
    exists p, (periodic_mask p). split; [done|]. split; [|split].
    + unfold periodic_mask. destruct (decide _); (split; [done|]); apply Forall_singleton; [done|]. unfold word_ok. vm_compute. done.
    + intros i. by rewrite periodic_bit.
    + intros Hlen i Hi. rewrite periodic_elem, periodic_has_snoc by (cbn [periodic t_depth] in *; replace D with (S (length p)) by lia; by apply Hsnoc). split.
      * intros x. destruct (N.testbit m0 i); [|done]. by intros [= <-].
      * intros _. eexists. split; [reflexivity|]. split; destruct (N.testbit m0 i); naive_solver.
  - intros q x n i [Hq1 Hq2] Hx Hi. assert (n < length q) as Hn by by eapply lookup_lt_Some.
    cbn [periodic t_depth] in Hq1. rewrite periodic_bit; [|split; [done|by apply Forall_take]|rewrite take_length; lia].
    destruct (decide (S n = D)) as [HnD|HnD].
    + rewrite periodic_last by (rewrite take_length; lia). rewrite periodic_elem in Hx by done. destruct (periodic_has q) eqn:Eh; [|done].
      unfold periodic_has in Eh. rewrite last_lookup in Eh. replace (pred (length q)) with n in Eh by lia. by rewrite Hi in Eh.
    + rewrite periodic_full by (rewrite take_length; lia). apply bool_decide_eq_true_2. rewrite Forall_forall in Hq2. apply Hq2. by eapply elem_of_list_lookup_2.
  - intros p i [Hp1 Hp2] Hb. cbn [periodic t_depth] in *. rewrite periodic_bit, periodic_last in Hb by (done || lia).
    assert (i < 64)%N as Hi.
    { destruct (N.ltb_spec i 64); [done|]. rewrite <- (periodic_last p) in Hb by lia. apply mbit_bound in Hb. unfold periodic_mask in Hb. destruct (decide _); cbn in Hb; lia. }
    rewrite periodic_elem, periodic_has_snoc, Hb; [done|]. replace D with (S (length p)) by lia. by apply Hsnoc.
  - intros p i j Hp Hl Hi Hb. cbn [periodic t_depth] in *. rewrite periodic_bit by (done || lia). rewrite periodic_full by lia. by apply bool_decide_eq_true_2.
Qed.
Lemma periodic_exact pk : honest_exact pk periodic tt.
Proof.
  intros _ p i Hp Hl Hb. cbn [periodic t_depth] in *. rewrite periodic_bit in Hb by done. destruct (decide (S (length p) = D)) as [HnD|HnD].
  - exists []. pose proof Hb as Hi%mbit_bound. rewrite periodic_last in Hb by done.
    assert (i < 64)%N by (unfold periodic_mask in Hi; destruct (decide _); cbn in Hi; lia).
    assert (in_tree periodic D (p ++ [i])) as Hq.
    { split; [rewrite app_length; cbn; lia|]. apply Forall_app. split; [apply Hp|]. by constructor. }
    split; [done|]. left. rewrite periodic_elem, periodic_has_snoc, Hb by done. done.
  - rewrite periodic_full in Hb by done. apply bool_decide_eq_true in Hb.
    set (j := N.log2 m0). assert (N.testbit m0 j = true) as Hj by by apply N.bit_log2.
    assert (j < 64)%N as Hj64 by (apply N.log2_lt_pow2; [lia|exact Hm0]).
    exists (replicate (D - S (S (length p))) 0%N ++ [j]).
    assert (in_tree periodic D (p ++ i :: replicate (D - S (S (length p))) 0%N ++ [j])) as Hq.
    { split; [rewrite app_length; cbn [length]; rewrite app_length, replicate_length; cbn [length]; lia|].
      apply Forall_app. split; [apply Hp|]. constructor; [done|]. apply Forall_app. split; [apply Forall_replicate; done|]. by constructor. }
    split; [done|]. left. rewrite periodic_elem by done.
    replace (p ++ i :: replicate (D - S (S (length p))) 0%N ++ [j]) with ((p ++ i :: replicate (D - S (S (length p))) 0%N) ++ [j]) by by rewrite <- app_assoc.
    rewrite periodic_has_snoc, Hj. done.
Qed.
End periodic.
