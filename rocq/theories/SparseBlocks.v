(** * SparseTree: how many blocks are held (C25)

    No invariant is needed to see that only `lv_insert_empty` changes the length of a block
    vector, and only when the level's free list is empty; the invariant then bounds the
    length by the number of live subtrees. *)
From Verif Require Import Base BitUtils BitUtilsProofs BitQueue LevelIndices LevelIndicesProofs
  ConstLoops Hierarchy Lawful Dense Sparse SparseVec SparseShape SparseProofs SparseOps SparseTree Spec Client DenseHistory SparseHistory.

(** number of blocks and head of the free list of a level *)
Definition lv_stat (l : level) : nat * option N :=
  match l with LSingle _ => (1, None) | LList bs r => (length bs, Some r) end.
(** number of blocks held at level [n] (the specification's view: `levels[n].blocks().len()`) *)
Definition blocks_held {V} (t : sparse V) (n : nat) : nat :=
  match s_levels t !! n with Some l => length (lv_blocks l) | None => 0 end.

Ltac ib := repeat first
  [ match goal with H : rbind _ _ = Ok _ |- _ => apply bind_ok_inv in H; destruct H as (? & ? & H) end
  | match goal with H : (let '(_, _) := ?x in _) = Ok _ |- _ => destruct x end
  | match goal with H : Ok _ = Ok _ |- _ => injection H as H; subst end ].

Section stat.
Context (nw D : nat).
Implicit Types (ls : list level).

Definition stats ls := lv_stat <$> ls.
Lemma stats_insert_same ls n l l' : ls !! n = Some l -> lv_stat l' = lv_stat l -> stats (<[n := l']> ls) = stats ls.
Proof.
  intros Hl E. unfold stats. rewrite list_fmap_insert, E. apply list_insert_id. by rewrite list_lookup_fmap, Hl.
Qed.
Lemma set_u_length {A} (l l' : list A) i x : set_u l i x = Ok l' -> length l' = length l.
Proof. unfold set_u. case_decide; [|done]. intros [= <-]. apply insert_length. Qed.
Lemma lv_set_stat l i b l' : lv_set l i b = Ok l' -> lv_stat l' = lv_stat l.
Proof.
  unfold lv_set. intros H. ib. match goal with H : set_u _ _ _ = _ |- _ => apply set_u_length in H end.
  destruct l; cbn in *; [done|congruence].
Qed.
Lemma lv_at_inv ls n l : lv_at ls n = Ok l -> ls !! n = Some l.
Proof. unfold lv_at, get_c. destruct (ls !! n); [|done]. by intros [= ->]. Qed.
Lemma put_block_stat ls n i b ls' : put_block ls n i b = Ok ls' -> stats ls' = stats ls.
Proof.
  unfold put_block. intros H. ib. eapply stats_insert_same; [by apply lv_at_inv|by eapply lv_set_stat].
Qed.
Lemma insert_child_stat ls n a i x ls' : insert_child ls n a i x = Ok ls' -> stats ls' = stats ls.
Proof. unfold insert_child. intros H. ib. by eapply put_block_stat. Qed.
Definition count_of (s : option (nat * option N)) : nat := match s with Some (c, _) => c | None => 0 end.
Lemma lv_remove_count l a l' : lv_remove_empty l a = Ok l' -> (lv_stat l').1 = (lv_stat l).1.
Proof.
  destruct l as [b|bs r]; [done|]. cbn. intros H. ib. cbn.
  match goal with H : set_u _ _ _ = _ |- _ => by apply set_u_length in H end.
Qed.
Definition counts ls := fst <$> stats ls.
Lemma counts_stats ls ls' : stats ls' = stats ls -> counts ls' = counts ls.
Proof. unfold counts. by intros ->. Qed.
Lemma remove_visit_counts q lbis ls n ls' o : remove_visit q lbis ls n = Ok (ls', o) -> counts ls' = counts ls.
Proof.
  unfold remove_visit. intros H. ib.
  match goal with H : put_block _ _ _ _ = Ok _ |- _ => pose proof (put_block_stat _ _ _ _ _ H) as Hst end.
  apply counts_stats in Hst. rewrite <- Hst. destruct (blk_is_empty _); [|by ib]. case_decide; [|by ib]. ib.
  match goal with H : lv_at _ _ = Ok _ |- _ => apply lv_at_inv in H as Hl end.
  match goal with H : lv_remove_empty _ _ = Ok _ |- _ => apply lv_remove_count in H as Hc end.
  unfold counts, stats. rewrite !list_fmap_insert, Hc. apply list_insert_id. by rewrite !list_lookup_fmap, Hl.
Qed.
Lemma visit_counts q lbis l ls ls' o : visit_list l (remove_visit q lbis) ls = Ok (ls', o) -> counts ls' = counts ls.
Proof.
  revert ls. induction l as [|n l IH]; intros ls; cbn [visit_list]; [by intros [= <- <-]|]. intros H.
  apply bind_ok_inv in H as ([ls1 c] & Hv & H). rewrite <- (remove_visit_counts _ _ _ _ _ _ Hv).
  destruct c; [by injection H as <- <-|eauto].
Qed.
Lemma remove_impl_counts {V} (t t' : sparse V) k o : sparse_remove_impl nw D t k = Ok (t', o) -> counts (s_levels t') = counts (s_levels t).
Proof.
  unfold sparse_remove_impl. intros H. apply bind_ok_inv in H as ([lbis j] & _ & H).
  destruct (j =? 0)%N; [by injection H as <- <-|].
  apply bind_ok_inv in H as ([ls o'] & Hv & H). apply visit_counts in Hv.
  apply bind_ok_inv in H as ([lbi last] & _ & H).
  apply bind_ok_inv in H as ([lbi' ls2] & Hl & H). ib. cbn [s_levels]. rewrite <- Hv.
  case_decide; [|by injection Hl as <- <-]. destruct last as [a i]. ib. apply counts_stats. by eapply put_block_stat.
Qed.

(** growing: a level is as long as before, or its free list is empty *)
Definition grew ls0 ls : Prop := length ls = length ls0 /\ forall n, counts ls !! n = counts ls0 !! n \/ exists c, stats ls !! n = Some (c, Some U64MAX).
Lemma grew_refl ls : grew ls ls.
Proof. split; [done|]. intros n. by left. Qed.
Lemma grew_stats ls0 ls ls' : stats ls' = stats ls -> grew ls0 ls -> grew ls0 ls'.
Proof.
  intros E [Hl H]. split; [|intros n; rewrite (counts_stats _ _ E), E; apply H].
  rewrite <- Hl. apply (f_equal length) in E. unfold stats in E. by rewrite !fmap_length in E.
Qed.
Lemma insert_empty_grew ls0 ls n l l' new : grew ls0 ls -> ls !! n = Some l -> lv_insert_empty nw l = Ok (l', new) ->
  grew ls0 (<[n := l']> ls).
Proof.
  intros [HL Hg] Hl Hi. split; [by rewrite insert_length|]. intros i. destruct (decide (i = n)) as [->|Hne].
  - pose proof (lookup_lt_Some _ _ _ Hl) as Hlt. destruct l as [b|bs r]; [done|]. cbn in Hi.
    unfold lv_pop in Hi. destruct (N.eqb_spec r U64MAX) as [->|Hr]; cbn [rbind] in Hi.
    + injection Hi as <- <-. right. unfold stats. rewrite list_lookup_fmap, list_lookup_insert by done. cbn. eauto.
    + ib. left. destruct (Hg n) as [Hc|(c & Hc)].
      * rewrite <- Hc. unfold counts, stats. rewrite !list_lookup_fmap, list_lookup_insert, Hl by done. cbn.
        match goal with H : set_u _ _ _ = Ok _ |- _ => by rewrite (set_u_length _ _ _ _ H) end.
      * exfalso. unfold stats in Hc. rewrite list_lookup_fmap, Hl in Hc. cbn in Hc. congruence.
  - specialize (Hg i). unfold counts, stats in *. rewrite !list_lookup_fmap in *. by rewrite list_lookup_insert_ne.
Qed.
Lemma sgoi_body_grew ls0 q ls a n ls' a' o : grew ls0 ls -> sgoi_body nw q (ls, a) n = Ok ((ls', a'), o) -> grew ls0 ls'.
Proof.
  intros Hg. unfold sgoi_body. intros H.
  apply bind_ok_inv in H as (i & _ & H). apply bind_ok_inv in H as (b & _ & H). apply bind_ok_inv in H as (nx & _ & H).
  destruct (nx =? 0)%N; [|by injection H as <- <- <-].
  apply bind_ok_inv in H as (l & Hl & H). apply bind_ok_inv in H as ([l' new] & Hi & H).
  apply bind_ok_inv in H as (ls2 & Hc & H). injection H as <- <- <-.
  eapply grew_stats; [by eapply insert_child_stat|]. eapply insert_empty_grew; [done|by apply lv_at_inv|done].
Qed.
Lemma sgoi_visit_grew ls0 q l ls a ls' a' o : grew ls0 ls -> visit_list l (sgoi_body nw q) (ls, a) = Ok ((ls', a'), o) -> grew ls0 ls'.
Proof.
  revert ls a. induction l as [|n l IH]; intros ls a Hg; cbn [visit_list]; [by intros [= <- <- <-]|]. intros H.
  apply bind_ok_inv in H as ([[ls1 a1] c] & Hb & H). pose proof (sgoi_body_grew _ _ _ _ _ _ _ _ Hg Hb) as Hg1.
  destruct c; [by injection H as <- <- <-|eauto].
Qed.
Lemma sgoi_impl_grew {V} (t t' : sparse V) k ins vf oj dr : D <= 9 -> 1 <= D -> sgoi_impl nw D t k ins vf = Ok (t', oj, dr) -> grew (s_levels t) (s_levels t').
Proof.
  intros HD HD0. unfold sgoi_impl. intros H.
  apply bind_ok_inv in H as (li & _ & H). apply bind_ok_inv in H as ([[ls a] c] & Hv & H).
  rewrite const_loop_ok in Hv by lia. apply (sgoi_visit_grew (s_levels t)) in Hv; [|apply grew_refl].
  apply bind_ok_inv in H as (b & _ & H). apply bind_ok_inv in H as (j & _ & H).
  destruct (j =? 0)%N.
  - destruct vf as [v|]; [|by injection H as <- <- <-]. ib. cbn [s_levels]. eapply grew_stats; [by eapply insert_child_stat|done].
  - destruct ins; [destruct vf as [v|]; [ib; done|by injection H as <- <- <-]|ib; done].
Qed.
End stat.

Section held.
Context (nw D : nat).
Hypothesis Hnw : nw_ok nw.
Hypothesis HD0 : 1 <= D.
Hypothesis HD : D <= 9.
Context {V : Type} (first : option V).
Notation sparse_inv := (sparse_inv nw D first).
Notation B := (key_bound nw D).
Implicit Types (t : sparse V).

Lemma blocks_held_counts t n : blocks_held t n = default 0 (counts (s_levels t) !! n).
Proof.
  unfold blocks_held, counts, stats. rewrite !list_lookup_fmap. destruct (s_levels t !! n) as [[b|bs r]|]; done.
Qed.
Lemma inv_full E t m n c : sparse_inv E t m -> 1 <= n -> n < D -> stats (s_levels t) !! n = Some (c, Some U64MAX) ->
  c <= 1 + size (prefixes (msize nw) D n (dom m ∪ E)).
Proof.
  intros (P & J & Sh & Hv & _ & _ & Hc) Hn Hlt Hst. unfold stats in Hst. apply list_lookup_fmap_Some in Hst as (l & Hl & El).
  pose proof (ss_lvl _ _ _ _ _ _ Sh _ _ Hl) as Hok. destruct n as [|n]; [lia|]. cbn [lvl_ok] in Hok.
  destruct Hok as (bs & r & fl & -> & Hll). cbn in El. injection El as -> <-.
  assert (fl = []) as ->.
  { destruct fl as [|a fl]; [done|]. destruct (ll_chain _ _ _ _ _ _ _ Hll) as (<- & link & Hb & _). apply lookup_lt_Some in Hb.
    pose proof (ll_bound _ _ _ _ _ _ _ Hll) as Hbd. pose proof (lbits_le D HD0 (S n - 1)) as Hle. exfalso.
    apply (N.lt_irrefl U64MAX). apply N.lt_le_trans with (N.of_nat (length bs)); [lia|].
    etransitivity; [exact Hbd|]. etransitivity; [exact Hle|]. discriminate. }
  assert (length bs - 1 <= size (prefixes (msize nw) D (S n) (dom m ∪ E))); [|lia].
  eapply (ll_count nw D Hnw HD0 (S n) bs _ P); [exact Hll| |].
  - intros p a Hp Hpl. split; [rewrite <- Hpl; by eapply ss_path|].
    apply (covered_level nw D Hnw HD0 HD (dom m ∪ E) P (s_levels t) J None n Sh); [|eauto|done].
    by eapply (sdom_covered nw D Hnw HD0 HD first).
  - intros p q a. apply (ss_inj _ _ _ _ _ _ Sh).
Qed.
Lemma inv_values E t m : sparse_inv E t m -> length (s_values t) = 1 + size m.
Proof.
  intros (P & J & Sh & Hv & _). destruct (svec_entries nw D (VB D) HD0 first _ _ _ _ Hv) as (ks & vs & Ek & Ed & El & Ea).
  pose proof (svec_perm nw D (VB D) Hnw HD0 first _ _ _ _ Hv _ _ Ek Ed El) as Hp. apply Permutation_length in Hp.
  rewrite zip_with_length_l in Hp by lia. rewrite Ed. cbn [length]. rewrite fmap_length.
  unfold size, map_size. lia.
Qed.

Lemma use_ref_levels t j w dr t' o dr' : sparse_use_ref t j w dr = Ok (t', o, dr') -> s_levels t' = s_levels t.
Proof.
  unfold sparse_use_ref, sparse_write_ref. intros H. apply bind_ok_inv in H as (v & _ & H). destruct w as [x|]; [|by injection H as <- <- <-].
  by ib.
Qed.
Lemma call_grew t c t' o dr : sparse_call nw D t c = Ok (t', o, dr) -> grew (s_levels t) (s_levels t') \/ counts (s_levels t') = counts (s_levels t).
Proof.
  pose proof (grew_refl (s_levels t)) as Hrefl.
  destruct c as [k v|k dflt w|k|k|k w|k|f]; cbn [sparse_call].
  - unfold sparse_insert. destruct (index_from nw D k) as [k'| | |]; cbn [rbind]; try (intros [= <- <- <-]; by left); try done.
    destruct (sgoi_impl nw D t k' true (Some v)) as [[[t1 oj] d1]| | |] eqn:E; cbn [rbind]; try (intros [= <- <- <-]; by left); try done.
    intros [= <- <- <-]. left. by eapply sgoi_impl_grew.
  - unfold sparse_get_or_insert. destruct (index_from nw D k) as [k'| | |]; cbn [rbind]; try (intros [= <- <- <-]; by left); try done.
    destruct (sgoi_impl nw D t k' false dflt) as [[[t1 [j|]] d1]| | |] eqn:E; cbn [rbind]; try (intros [= <- <- <-]; by left); try done.
    + intros H%use_ref_levels. rewrite H. left. by eapply sgoi_impl_grew.
    + intros [= <- <- <-]. left. by eapply sgoi_impl_grew.
  - unfold sparse_remove. destruct (index_from nw D k) as [k'| | |]; cbn [rbind]; try (intros [= <- <- <-]; by left); try done.
    destruct (sparse_remove_impl nw D t k') as [[t1 o1]| | |] eqn:E; try (intros [= <- <- <-]; by left); try done.
    intros [= <- <- <-]. right. by eapply remove_impl_counts.
  - destruct (tree_get (sparse_tree V nw D) t k); try (intros [= <- <- <-]; by left); done.
  - destruct (sparse_get_mut nw D t k) as [[j|]| | |]; try (intros [= <- <- <-]; by left); try done.
    intros H%use_ref_levels. rewrite H. by left.
  - destruct (sparse_get_or_default nw D t k); try (intros [= <- <- <-]; by left); done.
  - unfold sparse_update_all. intros H. ib. by left.
Qed.

Lemma calls_held E t m cs t' os dr n : sparse_inv E t m -> 1 <= n -> n < D ->
  Forall (sparse_api (match first with Some _ => true | None => false end)) cs ->
  spec_always_e B (fun m E => links_fit (msize nw) D (dom m ∪ E)) E m cs ->
  sparse_calls nw D t cs = Ok (t', os, dr) ->
  blocks_held t' n = blocks_held t n \/ exists cs1, cs1 `prefix_of` cs /\
    blocks_held t' n <= 1 + size (prefixes (msize nw) D n (dom (spec_run B m cs1) ∪ (E ∪ spec_all_panicked B m cs1))).
Proof.
  intros Hi Hn Hlt. revert E t m os dr Hi. induction cs as [|c cs IH]; intros E t m os dr Hi Hapi Hsz; cbn [sparse_calls].
  { intros [= <- <- <-]. by left. }
  inversion_clear Hapi as [|? ? Hc Hcs]. cbn [spec_always_e] in Hsz. destruct Hsz as [_ Hsz].
  destruct (sparse_call_ok nw D Hnw HD0 HD first E t m c Hi Hc) as (t1 & dr1 & E1 & _ & Hi1).
  { by apply spec_always_e_head in Hsz. }
  rewrite E1, bind_ok. intros H. apply bind_ok_inv in H as ([[t2 os2] drs] & E2 & H). injection H as <- <- <-.
  destruct (IH _ t1 _ _ _ Hi1 Hcs Hsz E2) as [Heq|(cs1 & Hp & Hle)].
  - rewrite Heq. rewrite !blocks_held_counts. destruct (call_grew _ _ _ _ _ E1) as [[_ Hg]| ->]; [|by left].
    destruct (Hg n) as [->|(x & Hx)]; [by left|right]. exists [c]. split; [by exists cs|].
    cbn [spec_run spec_all_panicked]. rewrite union_empty_r_L.
    etransitivity; [|eapply (inv_full _ _ _ _ x Hi1 Hn Hlt Hx)]. unfold counts. rewrite list_lookup_fmap, Hx. done.
  - right. exists (c :: cs1). split; [by apply prefix_cons|]. cbn [spec_run spec_all_panicked]. rewrite (union_assoc_L E). exact Hle.
Qed.
End held.

(** the whole history *)
Lemma sparse_held {V} nw D req (dflt : option V) cs t n : nw_ok nw -> 1 <= D -> D <= 9 ->
  sparse_legal nw D req dflt cs -> sparse_reached nw D req dflt cs t -> 1 <= n -> n < D ->
  exists cs1, cs1 `prefix_of` cs /\
    blocks_held t n <= 1 + size (prefixes (msize nw) D n (dom (spec_run (key_bound nw D) ∅ cs1) ∪ spec_all_panicked (key_bound nw D) ∅ cs1)).
Proof.
  intros Hnw HD0 HD (Hapi & Hrq & Hsz) (os & dr & Hrun) Hn Hlt. unfold sparse_run in Hrun.
  destruct (sparse_default_ok nw D HD0 HD (placeholder req dflt) req dflt Hrq eq_refl) as (t0 & E0 & Hi).
  rewrite E0, bind_ok in Hrun.
  destruct (calls_held nw D Hnw HD0 HD (placeholder req dflt) ∅ t0 ∅ cs t os dr n Hi Hn Hlt) as [Heq|(cs1 & Hp & Hle)].
  - unfold placeholder. destruct req; [|done]. destruct (Hrq eq_refl) as [d ->]. done.
  - done.
  - done.
  - exists []. split; [apply prefix_nil|]. rewrite Heq.
    assert (blocks_held t0 n = 1) as ->; [|lia].
    unfold sparse_default in E0. ib. unfold blocks_held. cbn [s_levels].
    rewrite list_lookup_fmap, lookup_seq_lt by lia. cbn. by destruct n; [lia|].
  - exists cs1. split; [done|]. by rewrite union_empty_l_L in Hle.
Qed.
