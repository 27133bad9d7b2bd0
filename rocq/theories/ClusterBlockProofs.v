(** * ClusterBlock: what holds of its get_or_zero and get_or_insert *)
From Verif Require Import Base BitUtils BitUtilsProofs LevelIndices SmallBlock SmallBlockSpec SmallBlockProofs.
Local Open Scope nat_scope.

Lemma cnt_below f b n : b <= n -> cnt (fun j => f j && (j <? N.of_nat b)%N) n = cnt f b.
Proof.
  induction 1 as [|n Hn IH].
  - apply cnt_ext. intros j Hj. destruct (N.ltb_spec j (N.of_nat b)); [by rewrite andb_true_r|lia].
  - cbn [cnt]. rewrite IH. destruct (N.ltb_spec (N.of_nat n) (N.of_nat b)); [lia|]. rewrite andb_false_r. lia.
Qed.
(** bits of one sub-block *)
Definition sbit (m : mask) (k j : N) : bool := mbit m (16 * k + j).
Lemma sub_mask_ok nw m k : mask_ok nw m -> (k < 4 * N.of_nat nw)%N ->
  exists sm, sub_mask m k = Ok sm /\ forall j, N.testbit sm j = (j <? 16)%N && sbit m k j.
Proof.
  intros [Hl Hm] Hk. unfold sub_mask. destruct (lookup_lt_is_Some_2 m (N.to_nat (k / 4))) as [w Hw]; [lia|].
  rewrite (get_u_ok _ _ _ Hw), bind_ok. eexists. split; [done|]. intros j.
  rewrite N.land_spec. destruct (N.ltb_spec j 16).
  - rewrite N.ones_spec_low by done. rewrite andb_true_r. rewrite N.shiftr_spec by lia. unfold sbit, mbit. cbn [andb].
    replace (N.to_nat ((16 * k + j) / 64)) with (N.to_nat (k / 4)) by lia. rewrite Hw. f_equal. lia.
  - rewrite N.ones_spec_high by done. rewrite andb_false_r. done.
Qed.
Lemma sub_mask_rank sm f bit : (forall j, N.testbit sm j = (j <? 16)%N && f j) -> (bit < 16)%N ->
  popcount (N.land sm (N.ones bit)) = cnt f (N.to_nat bit).
Proof.
  intros Hsm Hbit. rewrite (popcount_cnt _ 16).
  - rewrite <- (cnt_below f (N.to_nat bit) 16) by lia. apply cnt_ext. intros j Hj. rewrite N.land_spec, Hsm, N2Nat.id.
    destruct (N.ltb_spec j 16); [|lia]. cbn [andb]. f_equal. destruct (N.ltb_spec j bit).
    + by rewrite N.ones_spec_low.
    + by rewrite N.ones_spec_high.
  - rewrite land_ones_low. eapply N.lt_le_trans; [apply N.mod_lt; apply N.pow_nonzero; lia|].
    apply N.pow_le_mono_r; lia.
Qed.
Lemma or_sub_mask_ok nw m k bit : mask_ok nw m -> (k < 4 * N.of_nat nw)%N -> (bit < 16)%N ->
  exists m', or_sub_mask m k bit = Ok m' /\ mask_ok nw m' /\ forall j, mbit m' j = (j =? 16 * k + bit)%N || mbit m j.
Proof.
  intros [Hl Hm] Hk Hbit. unfold or_sub_mask. destruct (lookup_lt_is_Some_2 m (N.to_nat (k / 4))) as [w Hw]; [lia|].
  rewrite (get_u_ok _ _ _ Hw), bind_ok. rewrite set_u_ok by lia. eexists. split; [done|].
  assert (word_ok w) as Hwo by (rewrite Forall_forall in Hm; apply Hm; by eapply elem_of_list_lookup_2).
  set (p := (16 * (k mod 4) + bit)%N).
  assert (forall j, N.testbit (N.lor w (N.shiftl 1 p)) j = (j =? p)%N || N.testbit w j) as Hb.
  { intros j. rewrite N.lor_spec, orb_comm. f_equal. rewrite N.shiftl_1_l.
    destruct (N.eqb_spec j p) as [->|]; [apply N.pow2_bits_true|apply N.pow2_bits_false; congruence]. }
  split.
  - split; [by rewrite insert_length|]. apply Forall_insert; [done|]. apply word_ok_bits. intros j Hj. rewrite Hb.
    rewrite testbit_high by done. unfold p. lia.
  - intros j. unfold mbit. destruct (decide (N.to_nat (j / 64) = N.to_nat (k / 4))) as [He|He].
    + rewrite He, list_lookup_insert by lia. rewrite Hw, Hb. f_equal. unfold p. lia.
    + rewrite list_lookup_insert_ne by done. destruct (N.eqb_spec j (16 * k + bit)); [lia|done].
Qed.

(** ** representation *)
Record cb_rep (nw : nat) (m : gmap N N) (b : cblock) : Prop := CbRep {
  cr_mask : mask_ok nw (c_mask b);
  cr_bits : forall i, mbit (c_mask b) i = true <-> is_Some (m !! i);
  cr_subs : length (c_sub_blocks b) = 4 * nw;
  cr_groups : length (c_storage b) = size (cb_groups m);
  cr_len : forall sb, sb ∈ c_storage b -> length sb = 16;
  cr_ptr : forall i x, m !! i = Some x -> exists p sb, c_sub_blocks b !! N.to_nat (i / 16) = Some p /\
    c_storage b !! N.to_nat p = Some sb /\ sb !! cnt (sbit (c_mask b) (i / 16)) (N.to_nat (i mod 16)) = Some x;
  cr_inj : forall i j p, is_Some (m !! i) -> is_Some (m !! j) ->
    c_sub_blocks b !! N.to_nat (i / 16) = Some p -> c_sub_blocks b !! N.to_nat (j / 16) = Some p -> (i / 16 = j / 16)%N;
}.
Lemma cb_empty_rep nw : cb_rep nw ∅ (cb_empty nw).
Proof.
  constructor; cbn [cb_empty c_mask c_sub_blocks c_storage].
  - apply mask_zero_ok.
  - intros i. rewrite mbit_zero, lookup_empty. split; [done|]. by intros [? ?].
  - by rewrite replicate_length.
  - unfold cb_groups. rewrite dom_empty_L, set_map_empty, size_empty. done.
  - intros sb Hsb. by apply elem_of_nil in Hsb.
  - intros i x. by rewrite lookup_empty.
  - intros i j p [? H]. by rewrite lookup_empty in H.
Qed.
Lemma cb_bound nw m b i : cb_rep nw m b -> is_Some (m !! i) -> (i < msize nw)%N.
Proof. intros R Hi%(cr_bits _ _ _ R). apply mbit_bound in Hi. destruct (cr_mask _ _ _ R) as [Hl _]. unfold msize. by rewrite <- Hl. Qed.
Lemma cb_sbit m i : sbit m (i / 16) (i mod 16) = mbit m i.
Proof. unfold sbit. f_equal. lia. Qed.
Lemma cb_get_ok nw m b i : cb_rep nw m b -> (i < msize nw)%N -> cb_get b i = Ok (default 0%N (m !! i)).
Proof.
  intros R Hi. unfold cb_get. destruct (sub_mask_ok nw (c_mask b) (i / 16)) as (sm & -> & Hsm); [apply R|unfold msize in Hi; lia|].
  rewrite bind_ok, Hsm. destruct (N.ltb_spec (i mod 16) 16); [|lia]. cbn [andb]. rewrite cb_sbit.
  destruct (mbit (c_mask b) i) eqn:Hb; cbn [negb].
  - apply (cr_bits _ _ _ R) in Hb as [x Hx]. destruct (cr_ptr _ _ _ R i x Hx) as (p & sb & Hp & Hsb & Hv).
    rewrite (get_u_ok _ _ _ Hp), bind_ok, (get_u_ok _ _ _ Hsb), bind_ok, Hx.
    rewrite (sub_mask_rank _ _ _ Hsm) by done. by apply get_u_ok.
  - destruct (m !! i) as [x|] eqn:Hx; [|done]. assert (mbit (c_mask b) i = true) by (apply (cr_bits _ _ _ R); eauto). congruence.
Qed.
Lemma cb_groups_in m k : k ∈ cb_groups m <-> exists i, is_Some (m !! i) /\ (i / 16 = k)%N.
Proof.
  unfold cb_groups. rewrite elem_of_map. split.
  - intros (i & -> & Hi%elem_of_dom). eauto.
  - intros (i & Hi & <-). exists i. split; [done|]. by apply elem_of_dom.
Qed.
Lemma cb_groups_insert m i x : cb_groups (<[i := x]> m) = cb_groups m ∪ {[(i / 16)%N]}.
Proof. unfold cb_groups. rewrite dom_insert_L, set_map_union_L, set_map_singleton_L. set_solver. Qed.
Lemma cb_insert_ok nw m b i x : cb_rep nw m b -> (i < msize nw)%N -> cb_handles m (BGetOrInsert i (Some x)) ->
  exists b', cb_get_or_insert b i (Some x) = Ok (b', BIns x true) /\ cb_rep nw (<[i := x]> m) b'.
Proof.
  intros R Hi [Hpos Hgr]. unfold cb_get_or_insert. cbv zeta.
  set (k := (i / 16)%N) in *. assert (k < 4 * N.of_nat nw)%N as Hk by (unfold k, msize in *; lia).
  assert (i mod 16 < 16)%N as Hbit by lia.
  destruct (sub_mask_ok nw (c_mask b) k) as (sm & -> & Hsm); [apply R|done|]. rewrite bind_ok.
  assert ((sm = 0%N) <-> k ∉ cb_groups m) as Hempty.
  { rewrite cb_groups_in. split.
    - intros -> (j & Hj & Hjk). apply (cr_bits _ _ _ R) in Hj. pose proof (Hsm (j mod 16)%N) as H1. rewrite <- Hjk, cb_sbit, Hj, N.bits_0 in H1.
      destruct (N.ltb_spec (j mod 16) 16); [done|lia].
    - intros Hno. apply N.bits_inj. intros j. rewrite Hsm, N.bits_0. destruct (N.ltb_spec j 16); [|done]. cbn [andb].
      unfold sbit. destruct (mbit (c_mask b) (16 * k + j)) eqn:Hb; [|done]. destruct Hno.
      exists (16 * k + j)%N. split; [by apply (cr_bits _ _ _ R)|lia]. }
  assert (exists subs storage p sb, (if (sm =? 0)%N then
      if decide (length (c_storage b) < 4) then
        let* subs := set_u (c_sub_blocks b) (N.to_nat k) (N.of_nat (length (c_storage b))) in
        Ok (subs, c_storage b ++ [replicate 16 0%N], N.of_nat (length (c_storage b)))
      else Panic
    else let* p := get_u (c_sub_blocks b) (N.to_nat k) in Ok (c_sub_blocks b, c_storage b, p)) = Ok (subs, storage, p) /\
    length subs = 4 * nw /\ subs !! N.to_nat k = Some p /\ storage !! N.to_nat p = Some sb /\
    length storage = size (cb_groups (<[i := x]> m)) /\ (forall sb, sb ∈ storage -> length sb = 16) /\
    (forall j, is_Some (m !! j) -> subs !! N.to_nat (j / 16) = c_sub_blocks b !! N.to_nat (j / 16)) /\
    (forall j y, m !! j = Some y -> exists q sb, c_sub_blocks b !! N.to_nat (j / 16) = Some q /\ storage !! N.to_nat q = Some sb /\
       (q = p <-> (j / 16 = k)%N) /\
       sb !! cnt (sbit (c_mask b) (j / 16)) (N.to_nat (j mod 16)) = Some y)) as
    (subs & storage & p & sb & -> & Hlsubs & Hsubk & Hsb & Hlst & H16 & Hsame & Hvals).
  { destruct (N.eqb_spec sm 0) as [H0|H0].
    - apply Hempty in H0. assert (size (cb_groups m ∪ {[k]}) = S (size (cb_groups m))) as Hsz.
      { rewrite size_union by set_solver. rewrite size_singleton. lia. }
      rewrite decide_True by (rewrite (cr_groups _ _ _ R); lia). cbn [rbind].
      rewrite set_u_ok, bind_ok by (rewrite (cr_subs _ _ _ R); lia).
      eexists _, _, _, (replicate 16 0%N). split; [done|]. rewrite insert_length, (cr_subs _ _ _ R). split; [done|].
      split. { apply list_lookup_insert. rewrite (cr_subs _ _ _ R). lia. }
      split. { rewrite Nat2N.id, lookup_app_r, Nat.sub_diag by done. done. }
      split. { rewrite cb_groups_insert. fold k. rewrite Hsz, app_length, (cr_groups _ _ _ R). cbn [length]. lia. }
      split. { intros sb [Hs|Hs%elem_of_list_singleton]%elem_of_app; [by apply (cr_len _ _ _ R)|]. subst. by rewrite replicate_length. }
      split. { intros j Hj. rewrite list_lookup_insert_ne; [done|]. intros He. apply H0, cb_groups_in. exists j. split; [done|lia]. }
      intros j y Hy. destruct (cr_ptr _ _ _ R j y Hy) as (q & sb & Hq & Hs & Hv). exists q, sb.
      split; [done|]. pose proof (lookup_lt_Some _ _ _ Hs). split; [by rewrite lookup_app_l|]. split; [|done].
      split; [intros ->; lia|]. intros He. destruct H0. apply cb_groups_in. exists j. split; [eauto|lia].
    - assert (k ∈ cb_groups m) as Hin by (destruct (decide (k ∈ cb_groups m)) as [|Hn]; [done|by apply Hempty in Hn]).
      pose proof Hin as (j & [y Hy] & Hjk)%cb_groups_in. destruct (cr_ptr _ _ _ R j y Hy) as (p & sb & Hp & Hs & Hv).
      rewrite Hjk in Hp. rewrite (get_u_ok _ _ _ Hp), bind_ok. eexists _, _, _, sb. split; [done|].
      split; [apply R|]. split; [done|]. split; [done|]. split.
      { rewrite (cr_groups _ _ _ R), cb_groups_insert. f_equal. fold k. set_solver. }
      split; [apply R|]. split; [done|].
      intros j' y' Hy'. destruct (cr_ptr _ _ _ R j' y' Hy') as (q & sb' & Hq & Hs' & Hv'). exists q, sb'.
      split; [done|]. split; [done|]. split; [|done]. split.
      + intros ->. rewrite <- Hjk. apply (cr_inj _ _ _ R j' j p); [eauto|eauto|done|by rewrite Hjk].
      + intros He. rewrite He, Hp in Hq. congruence. }
  rewrite bind_ok. cbv zeta.
  assert ((N.land (N.land sm (N.ones (i mod 16))) (N.shiftl 1 (i mod 16)) =? 0)%N = true) as ->.
  { apply N.eqb_eq, N.bits_inj. intros j. rewrite !N.land_spec, N.shiftl_1_l, N.bits_0.
    destruct (N.eq_dec j (i mod 16)) as [->|Hne].
    - rewrite N.ones_spec_high by lia. by rewrite andb_false_r.
    - rewrite N.pow2_bits_false by congruence. by rewrite andb_false_r. }
  destruct (or_sub_mask_ok nw (c_mask b) k (i mod 16)%N) as (mk' & -> & Hm' & Hb'); [apply R|done..|]. rewrite bind_ok.
  rewrite (get_u_ok _ _ _ Hsb), bind_ok. rewrite Nat.sub_diag.
  pose proof (H16 sb (elem_of_list_lookup_2 _ _ _ Hsb)) as Hlsb.
  rewrite (sub_mask_rank _ _ _ Hsm) by done. set (r := cnt (sbit (c_mask b) k) (N.to_nat (i mod 16))).
  assert (r < 16) as Hr by (unfold r; pose proof (cnt_le (sbit (c_mask b) k) (N.to_nat (i mod 16))); lia).
  destruct (mem_copy_ok sb r (S r) 0) as (sb1 & -> & Hl1 & Hsb1); [lia..|]. rewrite bind_ok.
  rewrite set_u_ok, bind_ok by lia. rewrite set_u_ok, bind_ok by (by eapply lookup_lt_Some).
  assert (16 * k + i mod 16 = i)%N as Hik by (unfold k; lia). rewrite Hik in Hb'.
  assert (forall j, (j / 16)%N = k -> (is_Some (m !! j) \/ j = i) ->
    cnt (sbit mk' k) (N.to_nat (j mod 16)) = cnt (sbit (c_mask b) k) (N.to_nat (j mod 16))) as Hcnt.
  { intros j Hjk Hj. apply cnt_ext. intros q Hq. unfold sbit. rewrite Hb'.
    destruct (N.eqb_spec (16 * k + q) i) as [He|]; [|done]. cbn [orb]. symmetry.
    destruct Hpos as [Hp|Hp]; [rewrite He; by apply (cr_bits _ _ _ R)|].
    destruct Hj as [Hj| ->]; [|lia]. specialize (Hp j Hj Hjk). lia. }
  eexists. split; [done|]. constructor; cbn [c_mask c_sub_blocks c_storage].
  - done.
  - intros j. rewrite Hb'. destruct (N.eqb_spec j i) as [->|Hne].
    + rewrite lookup_insert. split; [eauto|done].
    + rewrite lookup_insert_ne by done. apply (cr_bits _ _ _ R).
  - done.
  - by rewrite insert_length.
  - intros sb' (n & Hn)%elem_of_list_lookup. destruct (decide (n = N.to_nat p)) as [->|Hne].
    + rewrite list_lookup_insert in Hn by (by eapply lookup_lt_Some). injection Hn as <-. rewrite insert_length. lia.
    + rewrite list_lookup_insert_ne in Hn by done. apply H16. by eapply elem_of_list_lookup_2.
  - intros j y Hy. destruct (decide (j = i)) as [->|Hne].
    + rewrite lookup_insert in Hy. injection Hy as <-. fold k. rewrite Hcnt by (done || by right). fold r.
      exists p, (<[r := x]> sb1). split; [done|]. split; [apply list_lookup_insert; by eapply lookup_lt_Some|].
      apply list_lookup_insert. lia.
    + rewrite lookup_insert_ne in Hy by done. destruct (Hvals j y Hy) as (q & sb' & Hq & Hs' & Hqp & Hv).
      rewrite (Hsame j) by eauto. destruct (decide (j / 16 = k)%N) as [Hjk|Hjk].
      * rewrite (proj2 Hqp Hjk) in Hq, Hs'. exists p, (<[r := x]> sb1). split; [done|].
        split; [apply list_lookup_insert; by eapply lookup_lt_Some|]. rewrite Hjk in *. rewrite Hcnt by (done || left; eauto).
        assert (sb' = sb) as -> by congruence.
        rewrite list_lookup_insert_ne; [rewrite Hsb1, decide_False by lia; done|].
        unfold r. intros He. apply Hne.
        assert (sbit (c_mask b) k (j mod 16) = true) as Hsj.
        { rewrite <- Hjk, cb_sbit. apply (cr_bits _ _ _ R). eauto. }
        destruct Hpos as [Hp|Hp].
        -- assert (sbit (c_mask b) k (i mod 16) = true) as Hsi by (unfold k; rewrite cb_sbit; by apply (cr_bits _ _ _ R)).
           pose proof (cnt_inj _ _ _ Hsi Hsj He) as Heq. unfold k in *. lia.
        -- specialize (Hp j ltac:(eauto) Hjk). pose proof (cnt_strict _ (j mod 16)%N (N.to_nat (i mod 16)) Hsj). unfold k in *. lia.
      * exists q, sb'. split; [done|]. split.
        -- rewrite list_lookup_insert_ne; [done|]. intros He. apply Hjk, Hqp. lia.
        -- rewrite <- Hv. f_equal. apply cnt_ext. intros c Hc. unfold sbit. rewrite Hb'.
           destruct (N.eqb_spec (16 * (j / 16) + c) i) as [He|]; [|done]. unfold k in *. lia.
  - assert (forall j p', is_Some (m !! j) -> subs !! N.to_nat (j / 16) = Some p' -> p' = p -> (j / 16 = k)%N) as Hone.
    { intros j p' [y Hy] Hs He. destruct (Hvals j y Hy) as (q & sb' & Hq & _ & Hqp & _). rewrite Hsame in Hs by eauto.
      apply Hqp. congruence. }
    intros j1 j2 p' H1 H2 Hp1 Hp2. rewrite lookup_insert_is_Some in H1, H2.
    destruct H1 as [->|[_ H1]], H2 as [->|[_ H2]]; fold k in Hp1, Hp2 |- *.
    + done.
    + symmetry. eapply Hone; [exact H2|exact Hp2|congruence].
    + eapply Hone; [exact H1|exact Hp1|congruence].
    + apply (cr_inj _ _ _ R j1 j2 p'); [done|done|by rewrite <- Hsame|by rewrite <- Hsame].
Qed.
Lemma cb_run_ok nw m b cs : cb_rep nw m b -> cb_legal_run (msize nw) m cs ->
  exists b', run_calls cb_call b cs = Ok (b', snd (cb_run m cs)) /\ cb_rep nw (fst (cb_run m cs)) b'.
Proof.
  revert m b. induction cs as [|c cs IH]; intros m b R Hl; cbn [run_calls cb_run]; [eauto|].
  destruct Hl as (Hc & Hh & Hl).
  assert (exists b', cb_call b c = Ok (b', snd (cb_step m c)) /\ cb_rep nw (fst (cb_step m c)) b') as (b' & -> & R').
  { destruct c as [i|i [x|]| | |]; try done.
    - cbn [cb_call cb_step hb_step hb_legal] in *. rewrite (cb_get_ok _ _ _ _ R Hc), bind_ok. eauto.
    - destruct Hc as [Hi Hx]. cbn [cb_call cb_step fst snd]. by apply cb_insert_ok. }
  rewrite bind_ok. destruct (cb_step m c) as [m' o]. cbn [fst snd] in *. destruct (IH _ _ R' Hl) as (b'' & -> & R''). rewrite bind_ok.
  destruct (cb_run m' cs) as [m'' os]. cbn [fst snd] in *. eauto.
Qed.
