(** * SmallBlock and Block refine the block specification *)
From Verif Require Import Base BitUtils BitUtilsProofs LevelIndices Sparse Dense DenseNode DenseDrop Materialize MaterializeProofs
  SmallBlock SmallBlockSpec.
Local Open Scope nat_scope.

(** ** counting *)
Lemma cnt_app f a b : cnt f (a + b) = cnt f a + cnt (fun i => f (N.of_nat a + i)%N) b.
Proof.
  induction b as [|b IH]; [by rewrite !Nat.add_0_r|]. rewrite Nat.add_succ_r. cbn [cnt]. rewrite IH.
  replace (N.of_nat a + N.of_nat b)%N with (N.of_nat (a + b)) by lia. lia.
Qed.
Lemma cnt_word m w x r : m !! w = Some x -> r <= 64 ->
  cnt (mbit m) (64 * w + r) = cnt (mbit m) (64 * w) + cnt (N.testbit x) r.
Proof.
  intros Hw Hr. rewrite cnt_app. f_equal. apply cnt_ext. intros i Hi. unfold mbit.
  replace (N.to_nat ((N.of_nat (64 * w) + i) / 64)) with w by lia. rewrite Hw. f_equal. lia.
Qed.
Lemma mbits_nth m j i : mbits m !! j = Some i -> cnt (mbit m) (N.to_nat i) = j.
Proof.
  intros Hj. pose proof (elem_of_list_lookup_2 _ _ _ Hj) as Hi. rewrite elem_of_mbits in Hi.
  pose proof (mbit_bound _ _ Hi) as Hb. rewrite cnt_filter.
  assert (exists post, mbits m = filter (fun i => mbit m i = true) (seqN 0 (N.to_nat i)) ++ i :: post) as [post Hpost].
  { unfold mbits. replace (64 * length m) with (N.to_nat i + S (64 * length m - S (N.to_nat i))) by lia.
    rewrite seqN_app, filter_app. cbn [seqN]. rewrite filter_cons_True by (by rewrite N2Nat.id).
    eexists. repeat f_equal. lia. }
  eapply (NoDup_lookup (mbits m)); [| |exact Hj].
  - apply ssorted_nodup, mbits_sorted.
  - rewrite Hpost. rewrite lookup_app_r by done. by rewrite Nat.sub_diag.
Qed.
Lemma mbits_length nw m : mask_ok nw m -> length (mbits m) = cnt (mbit m) (64 * nw).
Proof. intros [Hl _]. rewrite cnt_filter. unfold mbits. by rewrite Hl. Qed.
Lemma size_cnt nw mk (m : gmap N N) : mask_ok nw mk -> (forall i, mbit mk i = true <-> is_Some (m !! i)) ->
  size m = cnt (mbit mk) (64 * nw).
Proof.
  intros Hm Hb. rewrite <- (mbits_length nw) by done. rewrite <- size_dom.
  replace (dom m) with (list_to_set (mbits mk) : gset N).
  - rewrite size_list_to_set; [done|]. apply ssorted_nodup, mbits_sorted.
  - apply set_eq. intros i. rewrite elem_of_list_to_set, elem_of_mbits, elem_of_dom. apply Hb.
Qed.
Lemma cnt_flag_set mk mk' k n : mbit mk k = false -> (forall j, mbit mk' j = if (j =? k)%N then true else mbit mk j) ->
  cnt (mbit mk') n = cnt (mbit mk) n + (if decide (N.to_nat k < n) then 1 else 0).
Proof.
  intros Hk Hb. rewrite <- cnt_set by done. apply cnt_ext. intros i _. rewrite Hb. by destruct (i =? k)%N.
Qed.
Lemma cnt_flag_clear mk mk' k n : mbit mk k = true -> (forall j, mbit mk' j = if (j =? k)%N then false else mbit mk j) ->
  cnt (mbit mk) n = cnt (mbit mk') n + (if decide (N.to_nat k < n) then 1 else 0).
Proof.
  intros Hk Hb. rewrite (cnt_clear _ k) by done. f_equal. apply cnt_ext. intros i _. rewrite Hb. by destruct (i =? k)%N.
Qed.

(** ** memory *)
Lemma mem_copy_ok {A} (l : list A) src dst n : src + n <= length l -> dst + n <= length l ->
  exists l', mem_copy l src dst n = Ok l' /\ length l' = length l /\
    forall j, l' !! j = if decide (dst <= j < dst + n) then l !! (src + (j - dst)) else l !! j.
Proof.
  intros H1 H2. unfold mem_copy. rewrite decide_True by done. eexists. split; [done|].
  assert (length (take dst l) = dst) as Ht by (rewrite take_length; lia).
  assert (length (take n (drop src l)) = n) as Hn by (rewrite take_length, drop_length; lia).
  split.
  - rewrite !app_length, Ht, Hn, drop_length. lia.
  - intros j. destruct (decide _) as [Hj|Hj].
    + rewrite lookup_app_r by lia. rewrite lookup_app_l by lia. rewrite Ht, lookup_take by lia. rewrite lookup_drop. done.
    + destruct (decide (j < dst)).
      * rewrite lookup_app_l by lia. apply lookup_take. lia.
      * rewrite lookup_app_r, lookup_app_r by lia. rewrite lookup_drop. f_equal. lia.
Qed.
Lemma mem_copy_fails {A} (l : list A) src dst n : length l < src + n -> mem_copy l src dst n = UB.
Proof. intros H. unfold mem_copy. rewrite decide_False; [done|]. lia. Qed.
Lemma update_range_ok f (g : N -> N) pops from n : from + n <= length pops ->
  (forall w x, from <= w < from + n -> pops !! w = Some x -> f x = Ok (g x)) ->
  exists pops', update_range f pops from n = Ok pops' /\ length pops' = length pops /\
    forall w, pops' !! w = if decide (from <= w < from + n) then g <$> pops !! w else pops !! w.
Proof.
  revert pops from. induction n as [|n IH]; intros pops from Hl Hf.
  - exists pops. split; [done|]. split; [done|]. intros w. rewrite decide_False by lia. done.
  - cbn [update_range]. destruct (lookup_lt_is_Some_2 pops from) as [x Hx]; [lia|].
    rewrite (get_u_ok _ _ _ Hx), bind_ok. rewrite (Hf from x) by (lia || done). rewrite bind_ok.
    rewrite set_u_ok, bind_ok by lia.
    destruct (IH (<[from := g x]> pops) (S from)) as (pops' & -> & Hl' & Hp).
    + rewrite insert_length. lia.
    + intros w y Hw Hy. rewrite list_lookup_insert_ne in Hy by lia. apply (Hf w); [lia|done].
    + exists pops'. split; [done|]. rewrite insert_length in Hl'. split; [done|]. intros w. rewrite Hp.
      destruct (decide (w = from)) as [->|Hne].
      * rewrite decide_False by lia. rewrite decide_True by lia. rewrite list_lookup_insert by lia. by rewrite Hx.
      * rewrite list_lookup_insert_ne by done. destruct (decide (S from <= w < S from + n)).
        -- rewrite decide_True by lia. done.
        -- rewrite decide_False by lia. done.
Qed.

(** ** representation *)
Definition sb_rep (nw cap : nat) (s : gmap N N * bool) (b : sblock) : Prop :=
  mask_ok nw (sb_mask b) /\ (forall i, mbit (sb_mask b) i = true <-> is_Some (s.1 !! i)) /\
  (forall i, s.1 !! i <> Some 0%N) /\
  match sb_store b with
  | Big idx => s.2 = true /\ length idx = N.to_nat (msize nw) /\
    forall i, (i < msize nw)%N -> idx !! N.to_nat i = Some (default 0%N (s.1 !! i))
  | Small pops arr => s.2 = false /\ length pops = nw /\
    (forall w, w < nw -> pops !! w = Some (N.of_nat (cnt (mbit (sb_mask b)) (64 * w)))) /\
    length arr = cap /\ cnt (mbit (sb_mask b)) (64 * nw) <= cap /\
    forall i x, s.1 !! i = Some x -> arr !! cnt (mbit (sb_mask b)) (N.to_nat i) = Some (Some x)
  end.
Lemma sb_empty_rep nw cap : sb_rep nw cap (∅, false) (sb_empty nw cap).
Proof.
  split; [apply mask_zero_ok|]. cbn [fst snd sb_mask sb_store sb_empty].
  assert (forall n, cnt (mbit (mask_zero nw)) n = 0) as Hc by (intros n; apply cnt_zero; intros; apply mbit_zero).
  split. { intros i. rewrite mbit_zero, lookup_empty. split; [done|]. by intros [? ?]. }
  split. { intros i. by rewrite lookup_empty. }
  split; [done|]. rewrite !replicate_length. split; [done|]. split.
  { intros w Hw. rewrite Hc. by apply lookup_replicate_2. }
  split; [done|]. rewrite Hc. split; [lia|]. intros i x. by rewrite lookup_empty.
Qed.

Section rep.
  Context {nw cap : nat} (Hnw : 0 < nw).
  Context (m : gmap N N) (moved : bool) (b : sblock) (R : sb_rep nw cap (m, moved) b).
  Local Notation mk := (sb_mask b).
  Local Notation c := (cnt (mbit (sb_mask b))).

  Lemma rep_bits i : mbit mk i = true <-> is_Some (m !! i).
  Proof. apply R. Qed.
  Lemma rep_bit_false i : mbit mk i = false <-> m !! i = None.
  Proof.
    pose proof (rep_bits i) as [H1 H2]. destruct (mbit mk i) eqn:E, (m !! i) as [x|] eqn:Hx; split; intros; try done.
    - by destruct (H1 eq_refl).
    - assert (false = true) by (apply H2; eauto). done.
  Qed.
  Lemma rep_bound i : is_Some (m !! i) -> (i < msize nw)%N.
  Proof. intros Hi%rep_bits. apply mbit_bound in Hi. destruct R as [[Hl _] _]. unfold msize. rewrite <- Hl. done. Qed.
  Lemma rep_size : size m = c (64 * nw).
  Proof. apply size_cnt; apply R. Qed.
  Lemma rep_is_big : is_big (sb_store b) = Ok moved.
  Proof.
    destruct R as (_ & _ & _ & HS). unfold is_big. destruct (sb_store b) as [idx|pops arr]; cbn [fst snd] in HS.
    - destruct HS as (-> & _). done.
    - destruct HS as (-> & Hlp & Hp & _). rewrite (get_u_ok _ _ _ (Hp 0 Hnw)), bind_ok. done.
  Qed.
  Context (pops : list N) (arr : list (option N)) (HSt : sb_store b = Small pops arr).
  Lemma rep_small : moved = false /\ length pops = nw /\ (forall w, w < nw -> pops !! w = Some (N.of_nat (c (64 * w)))) /\
    length arr = cap /\ c (64 * nw) <= cap /\ forall i x, m !! i = Some x -> arr !! c (N.to_nat i) = Some (Some x).
  Proof. destruct R as (_ & _ & _ & HS). rewrite HSt in HS. exact HS. Qed.
  (** the number of words of any mask of the same shape whose lower words agree *)
  Lemma small_index_ok chk mk' i : mask_ok nw mk' -> (i < msize nw)%N ->
    (forall j, (j < i)%N -> mbit mk' j = mbit mk j) ->
    small_array_index chk (SBlock mk' (Small pops arr)) i =
      Ok (if chk && negb (mbit mk' i) then None else Some (c (N.to_nat i))).
  Proof.
    intros [Hl Hm] Hi Hlow. destruct rep_small as (_ & Hlp & Hp & _). unfold msize in Hi.
    assert (exists w, mk' !! N.to_nat (i / 64) = Some w) as [w Hw] by (apply lookup_lt_is_Some_2; lia).
    assert (word_ok w) as Hwo by (rewrite Forall_forall in Hm; apply Hm; by eapply elem_of_list_lookup_2).
    assert (c (N.to_nat i) = cnt (mbit mk') (N.to_nat i)) as Hcc.
    { apply cnt_ext. intros j Hj. symmetry. apply Hlow. lia. }
    assert (cnt (mbit mk') (N.to_nat i) = c (64 * N.to_nat (i / 64)) + rank w (i mod 64)) as Hrank.
    { replace (N.to_nat i) with (64 * N.to_nat (i / 64) + N.to_nat (i mod 64)) by lia.
      rewrite (cnt_word _ _ w) by (done || lia). unfold rank. f_equal.
      apply cnt_ext. intros j Hj. apply Hlow. lia. }
    assert (popcount (N.land w (not64 (shl64 WMAX (i mod 64)))) = rank w (i mod 64)) as Hpop.
    { pose proof (dense_index_ok w (i mod 64)%N Hwo) as H1. unfold get_dense_index in H1.
      destruct (N.ltb_spec (i mod 64) 64); [|lia]. specialize (H1 ltac:(lia)). by injection H1. }
    assert ((N.land w (shl64 1 (i mod 64)) =? 0)%N = negb (mbit mk' i)) as Htest.
    { unfold mbit. rewrite Hw. apply Bool.eq_iff_eq_true. rewrite N.eqb_eq, negb_true_iff. split.
      - intros H0. destruct (N.testbit w (i mod 64)) eqn:Ht; [|done].
        assert (N.testbit (N.land w (shl64 1 (i mod 64))) (i mod 64) = true) as H1.
        { rewrite N.land_spec, Ht, bit_mask by lia. lia. }
        rewrite H0 in H1. by rewrite N.bits_0 in H1.
      - intros Ht. apply N.bits_inj. intros j. rewrite N.land_spec, bit_mask, N.bits_0 by lia.
        destruct (N.eqb_spec j (i mod 64)) as [->|]; [by rewrite Ht|by rewrite andb_false_r]. }
    unfold small_array_index. cbn [sb_mask sb_store].
    assert ((if decide (length mk' = 1) then 0%N else (i / 64)%N) = (i / 64)%N) as ->.
    { destruct (decide _); lia. }
    assert ((if decide (length mk' = 1) then i else (i mod 64)%N) = (i mod 64)%N) as ->.
    { destruct (decide _); [|done]. lia. }
    rewrite (get_u_ok _ _ _ Hw), bind_ok. destruct (N.leb_spec 64 (i mod 64)); [lia|].
    rewrite Htest. destruct (chk && negb (mbit mk' i)); [done|].
    cbn [as_small]. rewrite bind_ok.
    assert ((if decide (length pops = 1) then Ok 0%N else get_u pops (N.to_nat (i / 64))) =
            Ok (N.of_nat (c (64 * N.to_nat (i / 64))))) as ->.
    { destruct (decide _) as [H1|H1].
      - replace (N.to_nat (i / 64)) with 0 by lia. done.
      - apply get_u_ok, Hp. lia. }
    rewrite bind_ok. repeat f_equal. rewrite Hpop, Nat2N.id. lia.
  Qed.
  Lemma small_index_unchecked_ok mk' i : mask_ok nw mk' -> (i < msize nw)%N ->
    (forall j, (j < i)%N -> mbit mk' j = mbit mk j) ->
    small_array_index_unchecked (SBlock mk' (Small pops arr)) i = Ok (c (N.to_nat i)).
  Proof. intros. unfold small_array_index_unchecked. rewrite small_index_ok by done. done. Qed.
  (** [small_array_len] counts the last word of the mask and trusts the populations for the others *)
  Lemma small_len_ok mk' : mask_ok nw mk' ->
    small_array_len (SBlock mk' (Small pops arr)) =
      Ok (c (64 * (nw - 1)) + (cnt (mbit mk') (64 * nw) - cnt (mbit mk') (64 * (nw - 1)))).
  Proof.
    intros [Hl Hm]. destruct rep_small as (_ & Hlp & Hp & _).
    destruct (lookup_lt_is_Some_2 mk' (nw - 1)) as [w Hw]; [lia|].
    assert (word_ok w) as Hwo by (rewrite Forall_forall in Hm; apply Hm; by eapply elem_of_list_lookup_2).
    unfold small_array_len. cbn [as_small sb_store sb_mask]. rewrite bind_ok. unfold last_u. rewrite Hlp, Hl.
    assert ((if decide (nw = 1) then Ok 0%N else get_u pops (nw - 1)) = Ok (N.of_nat (c (64 * (nw - 1))))) as ->.
    { destruct (decide _) as [->|H1]; [done|]. apply get_u_ok, Hp. lia. }
    rewrite bind_ok, (get_u_ok _ _ _ Hw), bind_ok. f_equal. rewrite Nat2N.id. f_equal.
    rewrite popcount_word by done. pose proof (cnt_word _ _ w 64 Hw) as H1.
    replace (64 * (nw - 1) + 64) with (64 * nw) in H1 by lia. rewrite H1 by lia. lia.
  Qed.
  Lemma to_big_ok : exists idx, to_big nw mk arr = Ok idx /\ length idx = N.to_nat (msize nw) /\
    forall i, (i < msize nw)%N -> idx !! N.to_nat i = Some (default 0%N (m !! i)).
  Proof.
    destruct R as (Hm & Hb & _ & _). destruct rep_small as (_ & _ & _ & Ha & _ & Harr).
    unfold to_big. rewrite (traverse_m_ok nw) by done.
    set (f := fun '(big_array, i) index => _).
    assert (forall l2 l1 big, mbits mk = l1 ++ l2 -> length big = N.to_nat (msize nw) ->
      (forall i, (i < msize nw)%N -> big !! N.to_nat i = Some (if decide (i ∈ l1) then default 0%N (m !! i) else 0%N)) ->
      exists idx, fold_res f l2 (big, length l1) = Ok (idx, length (mbits mk)) /\ length idx = N.to_nat (msize nw) /\
        forall i, (i < msize nw)%N -> idx !! N.to_nat i = Some (default 0%N (m !! i))) as Hind.
    { induction l2 as [|i l2 IH]; intros l1 big Hl Hlen Hbig.
      - rewrite app_nil_r in Hl. exists big. rewrite Hl. cbn [fold_res]. split; [done|]. split; [done|].
        intros i Hi. rewrite Hbig by done. destruct (decide (i ∈ l1)) as [|Hn]; [done|]. f_equal.
        rewrite <- Hl, elem_of_mbits in Hn. destruct (m !! i) as [x|] eqn:Hx; [|done].
        destruct Hn. apply Hb. cbn. eauto.
      - cbn [fold_res].
        assert (mbits mk !! length l1 = Some i) as Hi by (rewrite Hl, lookup_app_r, Nat.sub_diag by done; done).
        pose proof (mbits_nth _ _ _ Hi) as Hci.
        assert (mbit mk i = true) as Hbi by (apply elem_of_mbits; by eapply elem_of_list_lookup_2).
        destruct (proj1 (Hb i) Hbi) as [x Hx]. cbn in Hx.
        assert (i < msize nw)%N as Hib by (apply rep_bound; eauto).
        assert (f (big, length l1) i = Ok (<[N.to_nat i := x]> big, length (l1 ++ [i]))) as ->.
        { unfold f. pose proof (Harr i x Hx) as H1. rewrite Hci in H1. rewrite (get_u_ok _ _ _ H1), !bind_ok.
          rewrite set_u_ok, bind_ok by lia. rewrite app_length. cbn [length]. do 2 f_equal. lia. }
        cbn [rbind]. apply IH.
        + rewrite Hl, <- app_assoc. done.
        + by rewrite insert_length.
        + intros j Hj. destruct (decide (j = i)) as [->|Hne].
          * rewrite list_lookup_insert by lia. rewrite decide_True by set_solver. by rewrite Hx.
          * rewrite list_lookup_insert_ne by lia. rewrite Hbig by done.
            destruct (decide (j ∈ l1)); [rewrite decide_True by set_solver; done|rewrite decide_False by set_solver; done]. }
    destruct (Hind (mbits mk) [] (replicate (N.to_nat (msize nw)) 0%N)) as (idx & Hf & Hlen & Hidx); [done| | |].
    - by rewrite replicate_length.
    - intros i Hi. rewrite decide_False by (by apply not_elem_of_nil). apply lookup_replicate_2. lia.
    - cbn [length] in Hf. rewrite Hf, bind_ok. eauto.
  Qed.
End rep.

(** ** the operations *)
Section ops.
  Context {nw cap : nat} (Hnw : 0 < nw) (Hcap : cap <= 255).
  Lemma sb_eta b : b = SBlock (sb_mask b) (sb_store b).
  Proof. by destruct b. Qed.
  Lemma sb_get_ok m moved b i : sb_rep nw cap (m, moved) b -> (i < msize nw)%N ->
    sb_get b i = Ok (default 0%N (m !! i)).
  Proof.
    intros R Hi. unfold sb_get. rewrite (rep_is_big Hnw _ _ _ R), bind_ok.
    destruct (sb_store b) as [idx|pops arr] eqn:HSt.
    - destruct R as (_ & _ & _ & HS). rewrite HSt in HS. destruct HS as (HH & _ & Hidx). cbn in HH. subst moved.
      cbn [as_big]. rewrite bind_ok. by apply get_u_ok, Hidx.
    - destruct (rep_small _ _ _ R _ _ HSt) as (-> & _ & _ & _ & _ & Harr).
      rewrite (sb_eta b), HSt. rewrite (small_index_ok Hnw _ _ _ R _ _ HSt) by (done || apply R). rewrite bind_ok.
      cbn [andb]. destruct (mbit (sb_mask b) i) eqn:Hb; cbn [negb].
      + apply (rep_bits _ _ _ R) in Hb as [x Hx]. cbn [as_small sb_store]. rewrite bind_ok.
        rewrite (get_u_ok _ _ _ (Harr _ _ Hx)), bind_ok, Hx. done.
      + apply (rep_bit_false _ _ _ R) in Hb. by rewrite Hb.
  Qed.
  Lemma sb_insert_unchecked_ok m moved b i x : sb_rep nw cap (m, moved) b -> (i < msize nw)%N -> m !! i = None -> x <> 0%N ->
    exists b', sb_insert_unchecked nw cap b i x = Ok b' /\
      sb_rep nw cap (<[i := x]> m, moved || bool_decide (cap < size (<[i := x]> m))) b'.
  Proof.
    intros R Hi Hmi Hx. unfold sb_insert_unchecked. rewrite (rep_is_big Hnw _ _ _ R), bind_ok.
    pose proof R as (Hm & Hb & Hnz & HS). cbn [fst snd] in Hb, Hnz, HS.
    assert (mbit (sb_mask b) i = false) as Hbi by (by apply (rep_bit_false _ _ _ R)).
    destruct (mask_set_bit_ok true nw (sb_mask b) i Hm Hi) as (mk' & Hset & Hm' & Hb').
    assert (forall j, mbit mk' j = true <-> is_Some (<[i := x]> m !! j)) as Hbits'.
    { intros j. rewrite Hb'. destruct (N.eqb_spec j i) as [->|Hne].
      - rewrite lookup_insert. split; [eauto|done].
      - rewrite lookup_insert_ne by done. apply Hb. }
    assert (forall j, <[i := x]> m !! j <> Some 0%N) as Hnz'.
    { intros j. destruct (decide (j = i)) as [->|]; [rewrite lookup_insert; congruence|]. rewrite lookup_insert_ne by done. apply Hnz. }
    assert (forall n, cnt (mbit mk') n = cnt (mbit (sb_mask b)) n + (if decide (N.to_nat i < n) then 1 else 0)) as Hcnt
      by (intros n; by apply cnt_flag_set).
    pose proof (rep_size _ _ _ R) as Hsz.
    assert (size (<[i := x]> m) = S (size m)) as Hsz' by (by apply map_size_insert_None).
    destruct (sb_store b) as [idx|pops arr] eqn:HSt.
    - destruct HS as (-> & Hlen & Hidx). cbn [as_big]. rewrite bind_ok.
      rewrite set_u_ok, !bind_ok by lia. rewrite Hset, bind_ok. eexists. split; [done|].
      split; [exact Hm'|]. split; [exact Hbits'|]. split; [exact Hnz'|]. cbn [sb_store orb fst snd].
      rewrite insert_length. split; [done|]. split; [done|]. intros j Hj.
      destruct (decide (j = i)) as [->|Hne].
      + rewrite list_lookup_insert, lookup_insert by lia. done.
      + rewrite list_lookup_insert_ne, lookup_insert_ne by lia. by apply Hidx.
    - destruct HS as (-> & Hlp & Hp & Ha & Hle & Harr). rewrite (sb_eta b), HSt.
      rewrite (small_len_ok Hnw _ _ _ R _ _ HSt) by done. rewrite bind_ok.
      assert (cnt (mbit (sb_mask b)) (64 * (nw - 1)) + (cnt (mbit (sb_mask b)) (64 * nw) - cnt (mbit (sb_mask b)) (64 * (nw - 1)))
              = cnt (mbit (sb_mask b)) (64 * nw)) as ->.
      { pose proof (cnt_mono (mbit (sb_mask b)) (64 * (nw - 1)) (64 * nw)). lia. }
      set (c := cnt (mbit (sb_mask b))) in *. cbn [sb_store sb_mask as_small].
      destruct (decide (c (64 * nw) = cap)) as [Hfull|Hfull].
      + rewrite bind_ok. destruct (to_big_ok Hnw _ _ _ R _ _ HSt) as (idx & -> & Hlen & Hidx). rewrite bind_ok.
        rewrite set_u_ok, !bind_ok by lia. rewrite Hset, bind_ok. eexists. split; [done|].
        split; [exact Hm'|]. split; [exact Hbits'|]. split; [exact Hnz'|]. cbn [sb_store orb fst snd].
        rewrite bool_decide_eq_true_2 by lia. rewrite insert_length. split; [done|]. split; [done|]. intros j Hj.
        destruct (decide (j = i)) as [->|Hne].
        * rewrite list_lookup_insert, lookup_insert by lia. done.
        * rewrite list_lookup_insert_ne, lookup_insert_ne by lia. by apply Hidx.
      + rewrite (small_index_unchecked_ok Hnw _ _ _ R _ _ HSt) by done. fold c. rewrite !bind_ok.
        assert (c (N.to_nat i) <= c (64 * nw)) as Hci by (apply cnt_mono; unfold msize in Hi; lia).
        unfold sub_usize. rewrite decide_True, bind_ok by done.
        destruct (mem_copy_ok arr (c (N.to_nat i)) (S (c (N.to_nat i))) (c (64 * nw) - c (N.to_nat i)))
          as (arr1 & -> & Hl1 & Harr1); [lia..|]. rewrite bind_ok. rewrite set_u_ok, bind_ok by lia.
        unfold update_pops. set (from := S (N.to_nat (i / 64))).
        destruct (update_range_ok inc_u8 N.succ pops from (nw - from)) as (pops' & -> & Hlp' & Hp').
        { unfold from, msize in *. lia. }
        { intros w y Hw Hy. rewrite Hp in Hy by lia. apply Some_inj in Hy. rewrite <- Hy. clear Hy y. unfold inc_u8.
          pose proof (cnt_mono (mbit (sb_mask b)) (64 * w) (64 * nw)) as Hcm. fold c in Hcm. specialize (Hcm ltac:(lia)).
          destruct (N.ltb_spec (N.of_nat (c (64 * w))) 255); [by rewrite N.add_1_r|lia]. }
        rewrite !bind_ok, Hset, bind_ok. eexists. split; [done|].
        split; [exact Hm'|]. split; [exact Hbits'|]. split; [exact Hnz'|]. cbn [sb_store sb_mask orb fst snd].
        rewrite bool_decide_eq_false_2 by lia. split; [done|]. split; [lia|]. split; [|split; [|split]].
        * intros w Hw. rewrite Hp', Hcnt, Hp by done. fold c. unfold from.
          destruct (decide (S (N.to_nat (i / 64)) <= w < _)).
          -- rewrite decide_True by lia. cbn. f_equal. lia.
          -- rewrite decide_False by lia. f_equal. lia.
        * rewrite insert_length. lia.
        * rewrite Hcnt. fold c. rewrite decide_True by (unfold msize in Hi; lia). lia.
        * intros j y Hy. rewrite Hcnt. fold c. destruct (decide (j = i)) as [->|Hne].
          -- rewrite lookup_insert in Hy. injection Hy as <-. rewrite decide_False by lia. rewrite Nat.add_0_r.
             apply list_lookup_insert. lia.
          -- rewrite lookup_insert_ne in Hy by done. pose proof (Harr _ _ Hy) as Hay. fold c in Hay.
             assert (is_Some (m !! j)) as Hjs by eauto. assert (mbit (sb_mask b) j = true) as Hbj by (by apply Hb).
             pose proof (rep_bound _ _ _ R j Hjs) as Hjb. unfold msize in Hjb.
             pose proof (cnt_strict (mbit (sb_mask b)) j (64 * nw) Hbj) as Hlt. fold c in Hlt. specialize (Hlt ltac:(lia)).
             destruct (decide (N.to_nat i < N.to_nat j)) as [Hij|Hij].
             ++ pose proof (cnt_mono (mbit (sb_mask b)) (N.to_nat i) (N.to_nat j)) as Hcm. fold c in Hcm. specialize (Hcm ltac:(lia)).
                rewrite list_lookup_insert_ne by lia. rewrite Harr1, decide_True by lia.
                replace (_ + _) with (c (N.to_nat j)) by lia. done.
             ++ pose proof (cnt_strict (mbit (sb_mask b)) j (N.to_nat i) Hbj) as Hlt2. fold c in Hlt2.
                specialize (Hlt2 ltac:(lia)). rewrite Nat.add_0_r.
                rewrite list_lookup_insert_ne by lia. rewrite Harr1, decide_False by lia. done.
  Qed.
  Lemma sb_remove_ok m moved b i : sb_rep nw cap (m, moved) b -> is_Some (m !! i) ->
    if remove_fits nw cap m moved i then
      exists b', sb_remove nw b i = Ok b' /\ sb_rep nw cap (delete i m, moved) b'
    else sb_remove nw b i = UB.
  Proof.
    intros R Hmi. pose proof (rep_bound _ _ _ R i Hmi) as Hi. unfold sb_remove.
    pose proof R as (Hm & Hb & Hnz & HS). cbn [fst snd] in Hb, Hnz, HS.
    assert (mbit (sb_mask b) i = true) as Hbi by (by apply (rep_bits _ _ _ R)).
    destruct (mask_set_bit_ok false nw (sb_mask b) i Hm Hi) as (mk' & Hset & Hm' & Hb').
    rewrite Hset, bind_ok, Hbi. cbn [negb sb_store]. rewrite (rep_is_big Hnw _ _ _ R), bind_ok.
    assert (forall j, mbit mk' j = true <-> is_Some (delete i m !! j)) as Hbits'.
    { intros j. rewrite Hb'. destruct (N.eqb_spec j i) as [->|Hne].
      - rewrite lookup_delete. split; [done|by intros [? ?]].
      - rewrite lookup_delete_ne by done. apply Hb. }
    assert (forall j, delete i m !! j <> Some 0%N) as Hnz'.
    { intros j. destruct (decide (j = i)) as [->|]; [by rewrite lookup_delete|]. rewrite lookup_delete_ne by done. apply Hnz. }
    assert (forall n, cnt (mbit (sb_mask b)) n = cnt (mbit mk') n + (if decide (N.to_nat i < n) then 1 else 0)) as Hcnt
      by (intros n; by apply cnt_flag_clear).
    pose proof (rep_size _ _ _ R) as Hsz.
    destruct (sb_store b) as [idx|pops arr] eqn:HSt.
    - destruct HS as (-> & Hlen & Hidx). unfold remove_fits. cbn [orb]. cbn [as_big]. rewrite bind_ok.
      rewrite set_u_ok, !bind_ok by lia. eexists. split; [done|].
      split; [exact Hm'|]. split; [exact Hbits'|]. split; [exact Hnz'|]. cbn [sb_store orb fst snd].
      rewrite insert_length. split; [done|]. split; [done|]. intros j Hj.
      destruct (decide (j = i)) as [->|Hne].
      + rewrite list_lookup_insert, lookup_delete by lia. done.
      + rewrite list_lookup_insert_ne, lookup_delete_ne by lia. by apply Hidx.
    - destruct HS as (-> & Hlp & Hp & Ha & Hle & Harr).
      rewrite (small_index_unchecked_ok Hnw _ _ _ R _ _ HSt mk') by
        (done || (intros j Hj; rewrite Hb'; destruct (N.eqb_spec j i); [lia|done])).
      rewrite bind_ok, (small_len_ok Hnw _ _ _ R _ _ HSt) by done. rewrite bind_ok. cbn [as_small]. rewrite bind_ok.
      set (c := cnt (mbit (sb_mask b))) in *. set (c' := cnt (mbit mk')) in *.
      assert (c (N.to_nat i) < c (64 * nw)) as Hlti by (apply cnt_strict; [done|]; unfold msize in Hi; lia).
      assert (c' (64 * (nw - 1)) <= c' (64 * nw)) as Hmono' by (apply cnt_mono; lia).
      assert (c (64 * (nw - 1)) <= c (64 * nw)) as Hmono by (apply cnt_mono; lia).
      pose proof (Hcnt (64 * nw)) as HcA. pose proof (Hcnt (64 * (nw - 1))) as HcB. fold c c' in HcA, HcB.
      rewrite decide_True in HcA by (unfold msize in Hi; lia).
      set (len := c (64 * (nw - 1)) + (c' (64 * nw) - c' (64 * (nw - 1)))).
      assert (len = c (64 * nw) - (if decide (i / 64 = N.of_nat nw - 1)%N then 1 else 0)) as Hlen.
      { unfold len, msize in *. destruct (decide (i / 64 = _)%N) as [Hl|Hl].
        - rewrite decide_False in HcB by lia. lia.
        - rewrite decide_True in HcB by lia. lia. }
      unfold sub_usize. rewrite decide_True, bind_ok by (rewrite Hlen; destruct (decide _); lia).
      unfold remove_fits. cbn [orb].
      assert ((bool_decide (i / 64 = N.of_nat nw - 1)%N || bool_decide (size m < cap) = true) <->
              S (c (N.to_nat i)) + (len - c (N.to_nat i)) <= cap) as Hfit.
      { rewrite orb_true_iff, !bool_decide_eq_true, Hlen, Hsz. fold c. destruct (decide (i / 64 = _)%N); lia. }
      destruct (_ || _) eqn:Hor.
      + assert (S (c (N.to_nat i)) + (len - c (N.to_nat i)) <= cap) as Hf by (by apply Hfit).
        destruct (mem_copy_ok arr (S (c (N.to_nat i))) (c (N.to_nat i)) (len - c (N.to_nat i)))
          as (arr1 & -> & Hl1 & Harr1); [lia..|]. rewrite bind_ok.
        unfold update_pops. set (from := S (N.to_nat (i / 64))).
        destruct (update_range_ok dec_u8 N.pred pops from (nw - from)) as (pops' & -> & Hlp' & Hp').
        { unfold from, msize in *. lia. }
        { intros w y Hw Hy. rewrite Hp in Hy by lia. apply Some_inj in Hy. rewrite <- Hy. clear Hy y. unfold dec_u8.
          assert (0 < c (64 * w)) as Hpos.
          { eapply Nat.le_lt_trans; [apply Nat.le_0_l|]. apply (cnt_strict _ i); [done|]. unfold from in Hw. lia. }
          destruct (N.ltb_spec 0 (N.of_nat (c (64 * w)))); [by rewrite N.sub_1_r|lia]. }
        rewrite bind_ok. eexists. split; [done|].
        split; [exact Hm'|]. split; [exact Hbits'|]. split; [exact Hnz'|]. cbn [sb_store sb_mask orb fst snd].
        split; [done|]. split; [lia|]. split; [|split; [|split]].
        * intros w Hw. rewrite Hp', Hp by done. pose proof (Hcnt (64 * w)) as Hcw. fold c c' in Hcw |- *. unfold from.
          destruct (decide (S (N.to_nat (i / 64)) <= w < _)).
          -- rewrite decide_True in Hcw by lia. cbn [fmap option_fmap option_map]. f_equal. lia.
          -- rewrite decide_False in Hcw by lia. f_equal. lia.
        * lia.
        * fold c'. lia.
        * intros j y Hy. destruct (decide (j = i)) as [->|Hne]; [by rewrite lookup_delete in Hy|].
          rewrite lookup_delete_ne in Hy by done. pose proof (Harr _ _ Hy) as Hay. fold c in Hay.
          assert (is_Some (m !! j)) as Hjs by eauto. assert (mbit (sb_mask b) j = true) as Hbj by (by apply Hb).
          pose proof (rep_bound _ _ _ R j Hjs) as Hjb. unfold msize in Hjb.
          pose proof (cnt_strict (mbit (sb_mask b)) j (64 * nw) Hbj) as Hlt. fold c in Hlt. specialize (Hlt ltac:(lia)).
          pose proof (Hcnt (N.to_nat j)) as Hcj. fold c c' in Hcj |- *. rewrite Harr1.
          destruct (decide (N.to_nat i < N.to_nat j)) as [Hij|Hij].
          -- pose proof (cnt_strict (mbit (sb_mask b)) i (N.to_nat j) Hbi Hij) as Hlt2. fold c in Hlt2.
             assert (c (N.to_nat j) < S (c (N.to_nat i)) + (len - c (N.to_nat i))) as Hin.
             { rewrite Hlen. destruct (decide _); lia. }
             rewrite decide_True by lia. replace (_ + _) with (c (N.to_nat j)) by lia. done.
          -- pose proof (cnt_strict (mbit (sb_mask b)) j (N.to_nat i) Hbj) as Hlt2. fold c in Hlt2.
             specialize (Hlt2 ltac:(lia)). rewrite decide_False by lia. rewrite <- Hay. f_equal. lia.
      + rewrite mem_copy_fails; [done|]. rewrite Ha.
        destruct (decide (S (c (N.to_nat i)) + (len - c (N.to_nat i)) <= cap)) as [Hf|]; [|lia].
        apply Hfit in Hf. by rewrite Hf in Hor.
  Qed.
  Lemma sb_set_ok m moved b i x : sb_rep nw cap (m, moved) b -> is_Some (m !! i) -> x <> 0%N ->
    exists b', sb_set b i x = Ok b' /\ sb_rep nw cap (<[i := x]> m, moved) b'.
  Proof.
    intros R Hmi Hx. pose proof (rep_bound _ _ _ R i Hmi) as Hi. unfold sb_set.
    pose proof R as (Hm & Hb & Hnz & HS). cbn [fst snd] in Hb, Hnz, HS.
    rewrite (rep_is_big Hnw _ _ _ R), bind_ok.
    assert (mbit (sb_mask b) i = true) as Hbi by (by apply (rep_bits _ _ _ R)).
    assert (forall j, mbit (sb_mask b) j = true <-> is_Some (<[i := x]> m !! j)) as Hbits'.
    { intros j. destruct (decide (j = i)) as [->|].
      - rewrite lookup_insert, Hbi. split; [eauto|done].
      - rewrite lookup_insert_ne by done. apply Hb. }
    assert (forall j, <[i := x]> m !! j <> Some 0%N) as Hnz'.
    { intros j. destruct (decide (j = i)) as [->|]; [rewrite lookup_insert; congruence|]. rewrite lookup_insert_ne by done. apply Hnz. }
    destruct (sb_store b) as [idx|pops arr] eqn:HSt.
    - destruct HS as (-> & Hlen & Hidx). cbn [as_big]. rewrite bind_ok.
      rewrite set_u_ok, !bind_ok by lia. eexists. split; [done|].
      split; [exact Hm|]. split; [exact Hbits'|]. split; [exact Hnz'|]. cbn [sb_store orb fst snd].
      rewrite insert_length. split; [done|]. split; [done|]. intros j Hj.
      destruct (decide (j = i)) as [->|Hne].
      + rewrite list_lookup_insert, lookup_insert by lia. done.
      + rewrite list_lookup_insert_ne, lookup_insert_ne by lia. by apply Hidx.
    - destruct HS as (-> & Hlp & Hp & Ha & Hle & Harr). rewrite (sb_eta b), HSt.
      rewrite (small_index_unchecked_ok Hnw _ _ _ R _ _ HSt) by done. cbn [as_small sb_store sb_mask]. rewrite !bind_ok.
      destruct Hmi as [y Hy]. pose proof (lookup_lt_Some _ _ _ (Harr _ _ Hy)) as Hlt.
      rewrite set_u_ok, bind_ok by done. eexists. split; [done|].
      split; [exact Hm|]. split; [exact Hbits'|]. split; [exact Hnz'|]. cbn [sb_store sb_mask orb fst snd].
      split; [done|]. split; [done|]. split; [done|]. rewrite insert_length. split; [done|]. split; [done|].
      intros j z Hz. destruct (decide (j = i)) as [->|Hne].
      + rewrite lookup_insert in Hz. injection Hz as <-. by apply list_lookup_insert.
      + rewrite lookup_insert_ne in Hz by done. rewrite list_lookup_insert_ne; [by apply Harr|].
        intros Heq. apply Hne. symmetry. eapply cnt_inj; [done| |exact Heq]. apply Hb. eauto.
  Qed.
  Lemma rep_moved_size m moved b : sb_rep nw cap (m, moved) b -> moved || bool_decide (cap < size m) = moved.
  Proof.
    intros R. destruct moved; [done|]. cbn [orb]. apply bool_decide_eq_false_2.
    rewrite (rep_size _ _ _ R). destruct R as (_ & _ & _ & HS). destruct (sb_store b); [by destruct HS|].
    destruct HS as (_ & _ & _ & _ & H & _). lia.
  Qed.
  (** one call *)
  Lemma sb_call_ok s b c : sb_rep nw cap s b -> hb_legal (msize nw) s.1 c ->
    res_rel (fun '(b', o) '(s', o') => o = o' /\ sb_rep nw cap s' b') (sb_call nw cap b c) (sb_spec nw cap s c).
  Proof.
    destruct s as [m moved]. intros R Hl. cbn [fst] in Hl. unfold sb_spec. destruct c as [i|i f|i x|i|i x]; cbn [hb_step hb_legal] in *.
    - cbn [sb_call]. rewrite (sb_get_ok _ _ _ _ R Hl), bind_ok. cbn [res_rel]. split; [done|].
      by rewrite (rep_moved_size _ _ _ R).
    - destruct Hl as [Hi Hf]. cbn [sb_call]. unfold sb_get_or_insert. rewrite (sb_get_ok _ _ _ _ R Hi), bind_ok.
      destruct (m !! i) as [y|] eqn:Hy; cbn [default from_option].
      + destruct (N.eqb_spec y 0) as [->|Hny]; [by destruct (proj1 (proj2 (proj2 R)) i)|].
        cbn [res_rel id]. destruct (N.eqb_spec y 0); [done|]. split; [done|]. by rewrite (rep_moved_size _ _ _ R).
      + cbn. destruct f as [x|].
        * destruct (sb_insert_unchecked_ok _ _ _ i x R Hi Hy) as (b' & -> & R'); [congruence|]. cbn. done.
        * cbn. split; [done|]. by rewrite (rep_moved_size _ _ _ R).
    - done.
    - cbn [sb_call]. pose proof (sb_remove_ok _ _ _ _ R Hl) as H. destruct (remove_fits nw cap m moved i).
      + destruct H as (b' & -> & R'). cbn. done.
      + by rewrite H.
    - destruct Hl as [Hi Hx]. cbn [sb_call]. destruct (sb_set_ok _ _ _ _ x R Hi Hx) as (b' & -> & R').
      cbn. split; [done|]. pose proof (rep_moved_size _ _ _ R') as ->. done.
  Qed.
End ops.

Lemma sb_run_ok nw cap s b cs : 0 < nw -> cap <= 255 -> sb_rep nw cap s b -> hb_legal_run no_extra (msize nw) s.1 cs ->
  res_rel (fun '(b', o) '(s', o') => o = o' /\ sb_rep nw cap s' b') (run_calls (sb_call nw cap) b cs) (sb_spec_run nw cap s cs).
Proof.
  intros Hnw Hcap. revert s b. induction cs as [|c cs IH]; intros s b R Hl; cbn [run_calls sb_spec_run]; [done|].
  destruct Hl as (Hc & _ & Hl). pose proof (sb_call_ok Hnw Hcap s b c R Hc) as H.
  destruct (sb_spec nw cap s c) as [[s' o']| | |] eqn:Hsp, (sb_call nw cap b c) as [[b' o]| | |]; cbn [res_rel rbind] in *; try done.
  destruct H as [-> R'].
  assert (s'.1 = fst (hb_step s.1 c)) as Hs'.
  { destruct s as [m moved]. unfold sb_spec in Hsp. cbn [fst]. destruct (hb_step m c) as [m' o''].
    destruct c; cbn in Hsp |- *; try congruence; try (injection Hsp as <- _; done).
    destruct (remove_fits _ _ _ _ _); [|done]. by injection Hsp as <- _. }
  specialize (IH s' b' R'). rewrite Hs' in IH. specialize (IH Hl).
  destruct (run_calls _ b' cs) as [[]| | |], (sb_spec_run _ _ s' cs) as [[]| | |]; cbn in *; try done.
  destruct IH as [-> ?]. done.
Qed.

(** ** Block *)
Definition blk_rep (nw : nat) (m : gmap N N) (b : block) : Prop :=
  mask_ok nw (b_mask b) /\ (forall i, mbit (b_mask b) i = true <-> is_Some (m !! i)) /\
  (forall i, m !! i <> Some 0%N) /\ length (b_idx b) = N.to_nat (msize nw) /\
  forall i, (i < msize nw)%N -> b_idx b !! N.to_nat i = Some (default 0%N (m !! i)).
Lemma blk_empty_rep nw : blk_rep nw ∅ (blk_empty nw).
Proof.
  split; [apply mask_zero_ok|]. cbn [b_mask b_idx blk_empty].
  split. { intros i. rewrite mbit_zero, lookup_empty. split; [done|]. by intros [? ?]. }
  split; [done|]. rewrite replicate_length. split; [done|]. intros i Hi. rewrite lookup_empty. apply lookup_replicate_2. lia.
Qed.
Lemma blk_call_ok nw m b c : blk_rep nw m b -> hb_legal (msize nw) m c -> no_panic m c ->
  exists b', blk_call b c = Ok (b', snd (hb_step m c)) /\ blk_rep nw (fst (hb_step m c)) b'.
Proof.
  intros R Hl Hp. pose proof R as (Hm & Hb & Hnz & Hlen & Hidx).
  assert (forall i, is_Some (m !! i) -> (i < msize nw)%N) as Hbound.
  { intros i Hi%Hb. apply mbit_bound in Hi. destruct Hm as [Hl' _]. unfold msize. by rewrite <- Hl'. }
  assert (forall i x, (i < msize nw)%N -> x <> 0%N -> exists mk', mask_set_bit true (b_mask b) i = Ok (mk', mbit (b_mask b) i) /\
    blk_rep nw (<[i := x]> m) (Block mk' (<[N.to_nat i := x]> (b_idx b)))) as Hins.
  { intros i x Hi Hx. destruct (mask_set_bit_ok true nw (b_mask b) i Hm Hi) as (mk' & Hset & Hm' & Hb').
    exists mk'. split; [done|]. split; [done|]. cbn [b_mask b_idx]. split; [|split; [|split]].
    - intros j. rewrite Hb'. destruct (N.eqb_spec j i) as [->|Hne].
      + rewrite lookup_insert. split; [eauto|done].
      + rewrite lookup_insert_ne by done. apply Hb.
    - intros j. destruct (decide (j = i)) as [->|]; [rewrite lookup_insert; congruence|]. rewrite lookup_insert_ne by done. apply Hnz.
    - by rewrite insert_length.
    - intros j Hj. destruct (decide (j = i)) as [->|Hne].
      + rewrite list_lookup_insert, lookup_insert by lia. done.
      + rewrite list_lookup_insert_ne, lookup_insert_ne by lia. by apply Hidx. }
  destruct c as [i|i f|i x|i|i x]; cbn [hb_legal no_panic blk_call hb_step fst snd] in *.
  - unfold blk_get. rewrite (get_u_ok _ _ _ (Hidx i Hl)), bind_ok. eauto.
  - destruct Hl as [Hi Hf]. unfold blk_get_or_insert. rewrite (get_u_ok _ _ _ (Hidx i Hi)), bind_ok.
    destruct (m !! i) as [y|] eqn:Hy; cbn [default from_option id].
    + destruct (N.eqb_spec y 0) as [->|Hny]; [by destruct (Hnz i)|]. cbn [negb fst snd]. eauto.
    + cbn [N.eqb negb]. destruct f as [x|]; [|by destruct Hp].
      destruct (Hins i x Hi) as (mk' & -> & R'); [congruence|]. rewrite bind_ok.
      rewrite set_u_ok, bind_ok by lia. cbn [fst snd]. eauto.
  - destruct Hl as [Hi Hx]. unfold blk_insert. destruct (Hins i x Hi Hx) as (mk' & -> & R'). rewrite bind_ok.
    rewrite set_u_ok, !bind_ok by lia. eauto.
  - pose proof (Hbound i Hl) as Hi. unfold blk_remove.
    destruct (mask_set_bit_ok false nw (b_mask b) i Hm Hi) as (mk' & -> & Hm' & Hb'). rewrite bind_ok.
    rewrite set_u_ok, !bind_ok by lia. eexists. split; [done|]. split; [done|]. cbn [b_mask b_idx]. split; [|split; [|split]].
    + intros j. rewrite Hb'. destruct (N.eqb_spec j i) as [->|Hne].
      * rewrite lookup_delete. split; [done|by intros [? ?]].
      * rewrite lookup_delete_ne by done. apply Hb.
    + intros j. destruct (decide (j = i)) as [->|]; [by rewrite lookup_delete|]. rewrite lookup_delete_ne by done. apply Hnz.
    + by rewrite insert_length.
    + intros j Hj. destruct (decide (j = i)) as [->|Hne].
      * rewrite list_lookup_insert, lookup_delete by lia. done.
      * rewrite list_lookup_insert_ne, lookup_delete_ne by lia. by apply Hidx.
  - destruct Hl as [Hi Hx]. pose proof (Hbound i Hi) as Hib. unfold blk_set. rewrite set_u_ok, !bind_ok by lia.
    eexists. split; [done|]. split; [done|]. cbn [b_mask b_idx]. split; [|split; [|split]].
    + intros j. destruct (decide (j = i)) as [->|].
      * rewrite lookup_insert. split; [eauto|]. intros _. by apply Hb.
      * rewrite lookup_insert_ne by done. apply Hb.
    + intros j. destruct (decide (j = i)) as [->|]; [rewrite lookup_insert; congruence|]. rewrite lookup_insert_ne by done. apply Hnz.
    + by rewrite insert_length.
    + intros j Hj. destruct (decide (j = i)) as [->|Hne].
      * rewrite list_lookup_insert, lookup_insert by lia. done.
      * rewrite list_lookup_insert_ne, lookup_insert_ne by lia. by apply Hidx.
Qed.
Lemma blk_run_ok nw m b cs : blk_rep nw m b -> hb_legal_run no_panic (msize nw) m cs ->
  exists b', run_calls blk_call b cs = Ok (b', snd (hb_run m cs)) /\ blk_rep nw (fst (hb_run m cs)) b'.
Proof.
  revert m b. induction cs as [|c cs IH]; intros m b R Hl; cbn [run_calls hb_run]; [eauto|].
  destruct Hl as (Hc & Hp & Hl). destruct (blk_call_ok _ _ _ _ R Hc Hp) as (b' & -> & R'). rewrite bind_ok.
  destruct (hb_step m c) as [m' o]. cbn [fst snd] in *. destruct (IH _ _ R' Hl) as (b'' & -> & R''). rewrite bind_ok.
  destruct (hb_run m' cs) as [m'' os]. cbn [fst snd] in *. eauto.
Qed.
