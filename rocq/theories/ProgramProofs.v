(** * The example programs compute functions of the inserted pairs *)
From Verif Require Import Base BitUtils BitUtilsProofs LevelIndices LevelIndicesProofs Hierarchy Lawful IterProofs Ops OpsProofs
  Dense Sparse Spec SpecLaws Client DenseHistory DenseLaws SparseHistory SparseLaws TreeClient Generic Compose ViewLaws Denote Programs.

(** ** specification: the vector / table after the given assignments, the last one wins *)
Definition table {V} (l : list (N * V)) : gmap N V := fold_left (fun m p => <[p.1 := p.2]> m) l ∅.
(** element [i] of a sparse vector *)
Definition at_or {F} (zero : F) (m : gmap N F) (i : N) : F := match m !! i with Some x => x | None => zero end.
Definition in_range {V} (B : N) (l : list (N * V)) : Prop := forall k v, (k, v) ∈ l -> (k < B)%N.

Definition inserts_of {V} (l : list (N * V)) : list (call V) := (fun p => CInsert p.1 p.2) <$> l.

Lemma insert_all_calls {V} D (l : list (N * V)) : forall t t' os dr, dense_calls D t (inserts_of l) = Ok (t', os, dr) ->
  Forall (fun o => o = ODone) os -> insert_all D t l = Ok t'.
Proof.
  induction l as [|[k v] l IH]; intros t t' os dr; cbn [inserts_of fmap list_fmap dense_calls insert_all fst snd].
  - intros H _. cbn in *. congruence.
  - intros H Hd. apply bind_ok_inv in H as ([[t1 o] dr1] & H1 & H). cbn beta iota in H.
    apply bind_ok_inv in H as ([[t2 os2] dr2] & H2 & H). cbn beta iota in H. injection H as <- <- <-.
    apply Forall_cons in Hd as [-> Hd]. cbn [dense_call] in H1.
    destruct (dense_insert D t k v) as [[t3 d3]| | |]; try done. injection H1 as -> _. rewrite bind_ok. cbn beta iota.
    by eapply IH.
Qed.
Lemma inserts_outs {V} B d (l : list (N * V)) : in_range B l -> forall m, Forall (fun o => o = ODone) (spec_outs B d m (inserts_of l)).
Proof.
  induction l as [|[k v] l IH]; intros Hr m; cbn; constructor.
  - assert (k < B)%N as Hk by (eapply Hr; left). by rewrite (proj2 (N.ltb_lt _ _) Hk).
  - apply IH. intros k' v' H. eapply Hr. by right.
Qed.
Lemma inserts_run {V} B (l : list (N * V)) : in_range B l -> forall m,
  spec_run B m (inserts_of l) = fold_left (fun m p => <[p.1 := p.2]> m) l m.
Proof.
  induction l as [|[k v] l IH]; intros Hr m; cbn; [done|].
  assert (k < B)%N as Hk by (eapply Hr; left). rewrite (proj2 (N.ltb_lt _ _) Hk). apply IH.
  intros k' v' H. eapply Hr. by right.
Qed.
Lemma inserts_panicked {V} B (l : list (N * V)) : forall m, spec_all_panicked B m (inserts_of l) = ∅.
Proof. induction l as [|[k v] l IH]; intros m; cbn; [done|]. rewrite IH. set_solver. Qed.
Lemma inserts_api {V} (l : list (N * V)) : Forall dense_api (inserts_of l).
Proof. apply Forall_forall. intros c ([k v] & -> & _)%elem_of_list_fmap. done. Qed.
Lemma inserts_no_remove {V} (l : list (N * V)) : ~ Exists is_remove (inserts_of l).
Proof. intros (c & ([k v] & -> & _)%elem_of_list_fmap & Hc)%Exists_exists. done. Qed.

Section build.
Context {V : Type} (D : nat).
Hypothesis HD0 : 1 <= D.
Hypothesis HD5 : D <= 5.
Local Lemma d9 : D <= 9. Proof using HD5. clear HD0. lia. Qed.
Lemma build_ok (l : list (N * V)) pk : in_range (64 ^ N.of_nat D) l ->
  exists t, build D l = Ok t /\ denotes pk (VDense V D HD0 d9) t (table l).
Proof using HD0 HD5.
  intros Hr. assert (dense_legal D (inserts_of l)) as Hl.
  { apply dense_small_legal; [done|exact d9|done|apply inserts_api|]. by intros []%inserts_no_remove. }
  destruct (dense_run_ok D (inserts_of l) HD0 d9 Hl) as (t & dr & ex & E & _ & _).
  exists t. split.
  - unfold build. unfold dense_run in E. apply bind_ok_inv in E as (t0 & -> & E). rewrite bind_ok.
    eapply insert_all_calls; [exact E|]. by apply inserts_outs.
  - cbn [denotes]. exists (inserts_of l). split; [done|]. split; [by eexists _, _|]. split.
    + intros k. rewrite inserts_panicked. set_solver.
    + unfold table. by rewrite inserts_run.
Qed.
End build.

(** ** sums *)
Section sum.
Context {F : Type} (zero : F) (add : F -> F -> F).
Definition sum_of (l : list F) : F := fold_left add l zero.
(** leaving out zeros *)
Lemma sum_sparse (add_0 : forall x, add x zero = x) (f : N -> F) (ks : list N) : forall n a,
  StronglySorted N.lt ks -> (forall k, k ∈ ks -> (N.of_nat n <= k)%N) -> forall m, (forall k, k ∈ ks -> (k < N.of_nat (n + m))%N) ->
  (forall k, k ∉ ks -> f k = zero) ->
  fold_left add (f <$> ks) a = fold_left add (f <$> (N.of_nat <$> seq n m)) a.
Proof.
  intros n a Hs Hlo m. revert f n ks a Hs Hlo. induction m as [|m IH]; intros f n ks a Hs Hlo Hhi Hz.
  - destruct ks as [|k ks]; [done|]. pose proof (Hlo k ltac:(left)). pose proof (Hhi k ltac:(left)). lia.
  - cbn [seq fmap list_fmap fold_left]. destruct ks as [|k ks].
    + cbn [fmap list_fmap fold_left]. rewrite (Hz (N.of_nat n)), add_0 by set_solver.
      exact (IH f (S n) [] a Hs ltac:(intros k []%elem_of_nil) ltac:(intros k []%elem_of_nil) Hz).
    + destruct (decide (k = N.of_nat n)) as [->|Hne].
      * cbn [fmap list_fmap fold_left]. apply StronglySorted_inv in Hs as [Hs Hall]. rewrite Forall_forall in Hall.
        assert (forall g : N -> F, (forall j, j ∈ ks -> g j = f j) -> g <$> ks = f <$> ks) as Hext.
        { intros g Hg. by apply list_fmap_ext; intros i x Hx; apply Hg, elem_of_list_lookup; eauto. }
        set (g := fun j => if decide (j = N.of_nat n) then zero else f j).
        rewrite <- (Hext g). 2:{ intros j Hj. unfold g. case_decide; [|done]. subst. specialize (Hall _ Hj). lia. }
        assert (g <$> (N.of_nat <$> seq (S n) m) = f <$> (N.of_nat <$> seq (S n) m)) as <-.
        { apply list_fmap_ext. intros i x Hx. apply list_lookup_fmap_inv in Hx as (y & -> & Hy). apply lookup_seq in Hy as [-> Hy].
          unfold g. case_decide; [lia|done]. }
        apply IH; [done| | |].
        -- intros j Hj. specialize (Hall _ Hj). lia.
        -- intros j Hj. specialize (Hhi j ltac:(by right)). lia.
        -- intros j Hj. unfold g. case_decide; [done|]. apply Hz. set_solver.
      * rewrite (Hz (N.of_nat n)), add_0.
        2:{ intros [Hj|Hj]%elem_of_cons; [done|]. apply StronglySorted_inv in Hs as [_ Hall]. rewrite Forall_forall in Hall.
            specialize (Hall _ Hj). specialize (Hlo k ltac:(left)). lia. }
        apply (IH f (S n) (k :: ks)); [done| | |done].
        -- intros j Hj. pose proof (Hlo j Hj). assert (j <> N.of_nat n); [|lia]. intros ->. apply elem_of_cons in Hj as [Hj|Hj]; [congruence|].
           apply StronglySorted_inv in Hs as [_ Hall]. rewrite Forall_forall in Hall. specialize (Hall _ Hj). specialize (Hlo k ltac:(left)). lia.
        -- intros j Hj. specialize (Hhi j Hj). lia.
Qed.
End sum.

(** ** an ordered list of pairs that is a map with a function applied *)
Lemma sorted_pairs {A} (l : list (N * A)) (m : gmap N A) : l ≡ₚ map_to_list m -> StronglySorted N.lt l.*1 ->
  enumerates l (fun k => m !! k).
Proof. intros Hp Hs. split; [done|]. intros k v. rewrite Hp. apply elem_of_map_to_list. Qed.

Section users.
Context {A B S : Type} (D : nat).
Hypothesis HD0 : 1 <= D.
Hypothesis HD5 : D <= 5.
Context (format : A -> B -> S).
Lemma users_ok (la : list (N * A)) (lb : list (N * B)) : in_range (64 ^ N.of_nat D) la -> in_range (64 ^ N.of_nat D) lb ->
  exists n l, (forall fuel, n <= fuel -> users D format fuel la lb = Ok l) /\
    enumerates l (fun k => match table la !! k, table lb !! k with Some x, Some y => Some (format x y) | _, _ => None end).
Proof using HD0 HD5.
  intros Ha Hb. destruct (build_ok D HD0 HD5 la any_key Ha) as (ta & Ea & Da). destruct (build_ok D HD0 HD5 lb any_key Hb) as (tb & Eb & Db).
  set (va := VDense A D HD0 (d9 D HD5)) in *. set (vb := VDense B D HD0 (d9 D HD5)) in *.
  set (t := t_intersection (dense_tree A D) (dense_tree B D)).
  set (v := VMap _ t S (fun p : A * B => format p.1 p.2) (VIntersection true true (dense_tree A D) (dense_tree B D) eq_refl eq_refl va vb)).
  assert (denotes any_key v (ta, tb) ((fun p : A * B => format p.1 p.2) <$> map_zip (table la) (table lb))) as Hv.
  { exists (map_zip (table la) (table lb)). split; [|done]. by exists (table la), (table lb). }
  destruct (denotes_ok any_key v _ _ Hv) as [_ (n & l & Hl & Hs & Hp)]. exists n, l. split.
  - intros fuel Hf. unfold users. rewrite Ea, bind_ok, Eb, bind_ok. exact (Hl fuel Hf).
  - destruct (sorted_pairs l _ Hp Hs) as [Hs' He]. split; [exact Hs'|]. intros k x. etrans; [exact (He k x)|].
    rewrite lookup_fmap, map_lookup_zip_with. destruct (table la !! k), (table lb !! k); done.
Qed.
End users.

Lemma enumerates_keys {A} (l : list (N * A)) get : enumerates l get -> forall k, k ∈ l.*1 <-> is_Some (get k).
Proof.
  intros [_ He] k. rewrite elem_of_list_fmap. split.
  - intros ([k' v] & -> & H). exists v. by apply He.
  - intros [v Hv]. exists (k, v). split; [done|]. by apply He.
Qed.
Lemma enumerates_snd {A} (l : list (N * A)) get (f : N -> A) : enumerates l get -> (forall k v, get k = Some v -> v = f k) -> l.*2 = f <$> l.*1.
Proof.
  intros [_ He] Hf. rewrite <- list_fmap_compose. apply list_fmap_ext. intros i [k v] Hi. cbn. apply Hf, He, elem_of_list_lookup. eauto.
Qed.

Section dot.
Context {F : Type} (zero : F) (add mul : F -> F -> F) (D : nat).
Hypothesis HD0 : 1 <= D.
Hypothesis HD5 : D <= 5.
Lemma readme_dot_ok (l1 l2 : list (N * F)) : in_range (64 ^ N.of_nat D) l1 -> in_range (64 ^ N.of_nat D) l2 ->
  exists n ks, StronglySorted N.lt ks /\ (forall k, k ∈ ks <-> is_Some (table l1 !! k) /\ is_Some (table l2 !! k)) /\
    forall fuel, n <= fuel -> readme_dot zero add mul D fuel l1 l2 =
      Ok (fold_left add ((fun k => mul (at_or zero (table l1) k) (at_or zero (table l2) k)) <$> ks) zero).
Proof using HD0 HD5.
  intros H1 H2. destruct (users_ok D HD0 HD5 mul l1 l2 H1 H2) as (n & l & Hl & He). exists n, l.*1. split; [by destruct He|]. split.
  - intros k. rewrite (enumerates_keys l _ He). destruct (table l1 !! k), (table l2 !! k); cbn; split; intros H;
      try (by destruct H); try (by destruct H as [[] []]); eauto. all: destruct H as [Ha Hb]; try (by destruct Ha); by destruct Hb.
  - intros fuel Hf. unfold readme_dot. rewrite (Hl fuel Hf), bind_ok. do 2 f_equal. apply (enumerates_snd l _ _ He).
    intros k v. unfold at_or. destruct (table l1 !! k), (table l2 !! k); congruence.
Qed.
Lemma table_range {V} B (l : list (N * V)) : in_range B l -> forall m : gmap N V, (forall k, is_Some (m !! k) -> (k < B)%N) ->
  forall k, is_Some (fold_left (fun m p => <[p.1 := p.2]> m) l m !! k) -> (k < B)%N.
Proof.
  induction l as [|[k v] l IH]; intros Hr m Hm; cbn; [done|]. apply IH.
  - intros k' v' H. eapply Hr. by right.
  - intros k' H. destruct (decide (k = k')) as [->|Hne]; [eapply Hr; left|]. rewrite lookup_insert_ne in H by done. by apply Hm.
Qed.
Lemma readme_dot_vectors (l1 l2 : list (N * F)) : (forall x, add x zero = x) -> (forall x, mul zero x = zero) -> (forall x, mul x zero = zero) ->
  in_range (64 ^ N.of_nat D) l1 -> in_range (64 ^ N.of_nat D) l2 ->
  exists n, forall fuel, n <= fuel -> readme_dot zero add mul D fuel l1 l2 =
    Ok (fold_left add ((fun i => mul (at_or zero (table l1) i) (at_or zero (table l2) i)) <$> (N.of_nat <$> seq 0 (64 ^ D))) zero).
Proof using HD0 HD5.
  intros L1 L2 L3 H1 H2. destruct (readme_dot_ok l1 l2 H1 H2) as (n & ks & Hs & Hk & He). exists n. intros fuel Hf. rewrite (He fuel Hf). f_equal.
  apply (sum_sparse zero add L1); [done|lia| |].
  - intros k [[x Hx] _]%Hk. assert (k < 64 ^ N.of_nat D)%N as Hlt.
    { eapply (table_range _ l1 H1 ∅); [|by exists x]. intros j [y Hy]. by rewrite lookup_empty in Hy. }
    rewrite Nat.add_0_l, Nat2N.inj_pow. exact Hlt.
  - intros k Hn. unfold at_or. destruct (table l1 !! k) eqn:E1, (table l2 !! k) eqn:E2; rewrite ?L2, ?L3; try done.
    exfalso. apply Hn, Hk. eauto.
Qed.
End dot.

(** ** the store *)
Lemma store_loop_drain t (acc : t_V t -> bool) s : forall fuel it it' l, iter_drain fuel t s it = Ok (it', l) ->
  store_loop fuel t acc s it = Ok (List.find (fun p => acc (snd p)) l).
Proof.
  induction fuel as [|fuel IH]; intros it it' l; [done|]. cbn [iter_drain store_loop]. intros H.
  apply bind_ok_inv in H as ([it1 o] & H1 & H). cbn beta iota in H. rewrite H1, bind_ok. cbn beta iota.
  destruct o as [[k v]|]; [|by injection H as <- <-]. apply bind_ok_inv in H as ([it2 l2] & H2 & H). cbn beta iota in H. injection H as <- <-.
  cbn [List.find snd]. destruct (acc v); [done|]. by eapply IH.
Qed.
Section store.
Context (D : nat).
Hypothesis HD0 : 1 <= D.
Hypothesis HD5 : D <= 5.
Lemma builds_ok (goods : list (list (N * N))) pk : Forall (in_range (64 ^ N.of_nat D)) goods ->
  exists ts, rmap (build D) goods = Ok ts /\ Forall2 (denotes pk (VDense N D HD0 (d9 D HD5))) ts (table <$> goods).
Proof using HD0 HD5.
  induction 1 as [|l goods Hl _ (ts & E & Hts)]; [exists []; split; [done|constructor]|]. destruct (build_ok D HD0 HD5 l pk Hl) as (t & Et & Ht).
  exists (t :: ts). split; [|by constructor]. cbn [rmap]. by rewrite Et, bind_ok, E, bind_ok.
Qed.
Lemma store_ok (goods : list (list (N * N))) (mins : list N) : goods <> [] -> length goods <= 32 ->
  Forall (in_range (64 ^ N.of_nat D)) goods ->
  exists n l, (forall fuel, n <= fuel -> store D fuel goods mins = Ok (List.find (fun p => contains (snd p) mins) l)) /\
    enumerates l (fun k => all_of ((fun g => table g !! k) <$> goods)).
Proof using HD0 HD5.
  intros Hne Hlen Hr. destruct (builds_ok goods any_key Hr) as (ts & Ets & Hts). set (v0 := VDense N D HD0 (d9 D HD5)) in *.
  assert (exists m : gmap N (list N), forall k, m !! k = all_of ((.!! k) <$> (table <$> goods))) as [m Hm].
  { assert (exists g0 gs, goods = g0 :: gs) as (g0 & gs & ->) by (destruct goods; [done|eauto]).
    exists (map_imap (fun k (_ : N) => all_of ((.!! k) <$> (table <$> (g0 :: gs)))) (table g0)). intros k. rewrite map_lookup_imap.
    destruct (table g0 !! k) as [x|] eqn:E; cbn; [done|]. by rewrite E. }
  set (v := VMultiIntersection true (dense_tree N D) v0).
  assert (denotes any_key v ts m) as Hv.
  { assert (length ts = length goods) as Hl by (etrans; [exact (Forall2_length _ _ _ Hts)|apply fmap_length]).
    split; [intros ->; destruct goods; done|]. split; [change (length ts <= 32); rewrite Hl; done|]. by exists (table <$> goods). }
  destruct (denotes_ok any_key v _ _ Hv) as [_ (n & l & Hl & Hs & Hp)]. exists n, l. split.
  - intros fuel Hf. unfold store. rewrite Ets, bind_ok. cbn zeta. specialize (Hl fuel Hf). unfold iter_collect in Hl.
    apply bind_ok_inv in Hl as (it & E1 & Hl). apply bind_ok_inv in Hl as ([it' l'] & E2 & Hl). cbn beta iota in Hl. injection Hl as ->.
    rewrite E1, bind_ok. exact (store_loop_drain _ _ _ _ _ _ _ E2).
  - destruct (sorted_pairs l _ Hp Hs) as [Hs' He]. split; [exact Hs'|]. intros k x. etrans; [exact (He k x)|]. rewrite Hm, <- list_fmap_compose. done.
Qed.
End store.

(** ** the sparse vector of blocks *)
Section sparse_vector.
Context {F : Type} (zero : F) (add mul : F -> F -> F).
Notation Z4 := (lanes_zero zero).
Implicit Types (m : gmap N (list F)) (l : list (N * F)).
Notation B := (key_bound 1 2).

Definition block_of m (b : N) : list F := match m !! b with Some x => x | None => Z4 end.
Fixpoint set_calls m l : list (call (list F)) :=
  match l with
  | [] => []
  | (i, x) :: l =>
    let blk := <[N.to_nat (i mod 4) := x]> (block_of m (i / 4)) in
    CGetOrInsert (i / 4)%N (Some Z4) (Some blk) :: set_calls (<[(i / 4)%N := blk]> m) l
  end.
Definition four m : Prop := forall b x, m !! b = Some x -> length x = 4.
Lemma four_block m b : four m -> length (block_of m b) = 4.
Proof. intros H. unfold block_of. destruct (m !! b) eqn:E; [by eapply H|done]. Qed.
Lemma four_insert m b x : four m -> length x = 4 -> four (<[b := x]> m).
Proof. intros H Hx b' y. destruct (decide (b = b')) as [->|Hne]; [rewrite lookup_insert; congruence|]. rewrite lookup_insert_ne by done. apply H. Qed.

Lemma set_spec_map m i x blk : (i / 4 < B)%N -> spec_map B m (CGetOrInsert (i / 4)%N (Some x) (Some blk)) = <[(i / 4)%N := blk]> m.
Proof.
  intros Hi. cbn [spec_map]. rewrite (proj2 (N.ltb_lt _ _) Hi). destruct (m !! (i / 4)%N); cbn [overwrite fst]; [done|]. apply insert_insert.
Qed.
Lemma sv_sets_calls l : forall m t t' os dr, four m -> (forall i x, (i, x) ∈ l -> (i / 4 < B)%N) ->
  sparse_calls 1 2 t (set_calls m l) = Ok (t', os, dr) -> os = spec_outs B (Some Z4) m (set_calls m l) -> sv_sets zero t l = Ok t'.
Proof.
  induction l as [|[i x] l IH]; intros m t t' os dr Hf Hr; cbn [set_calls sparse_calls sv_sets spec_outs].
  - intros H _. by injection H as -> _ _.
  - assert (i / 4 < B)%N as Hi by (eapply Hr; left). rewrite set_spec_map by done. set (blk := <[N.to_nat (i mod 4) := x]> (block_of m (i / 4))).
    intros H Hos. apply bind_ok_inv in H as ([[t1 o] dr1] & H1 & H). cbn beta iota in H.
    apply bind_ok_inv in H as ([[t2 os2] dr2] & H2 & H). cbn beta iota in H. injection H as <- <- <-. injection Hos as Ho Hos.
    assert (o = OVal (Some (block_of m (i / 4)))) as ->.
    { rewrite Ho. cbn [spec_out]. rewrite (proj2 (N.ltb_lt _ _) Hi). unfold block_of. by destruct (m !! (i / 4)%N). }
    assert (length blk = 4) as Hblk by (unfold blk; rewrite insert_length; by apply four_block).
    assert (sv_set zero t i x = Ok t1) as ->.
    { cbn [sparse_call] in H1. unfold sv_set. destruct (sparse_get_or_insert 1 2 t (i / 4) (Some Z4)) as [[[t3 [j|]] d3]| | |]; try done.
      rewrite bind_ok. cbn beta iota. unfold sparse_use_ref in H1. apply bind_ok_inv in H1 as (v & Hv & H1). rewrite Hv, bind_ok.
      apply bind_ok_inv in H1 as (t4 & H4 & H1). injection H1 as <- Hvv _; subst v.
      assert (set_u (block_of m (i / 4)) (N.to_nat (i mod 4)) x = Ok blk) as ->.
      { unfold set_u. rewrite decide_True; [done|]. rewrite four_block by done. pose proof (N.mod_lt i 4 ltac:(done)). lia. }
      by rewrite bind_ok. }
    rewrite bind_ok. eapply (IH (<[(i / 4)%N := blk]> m)); [by apply four_insert| |exact H2|exact Hos].
    intros i' x' Hin. eapply Hr. by right.
Qed.
(** the blocks hold the elements of the vector *)
Definition holds m (v : gmap N F) : Prop := four m /\ forall b r, r < 4 ->
  match m !! b with Some x => x !! r = Some (at_or zero v (4 * b + N.of_nat r)) | None => v !! (4 * b + N.of_nat r)%N = None end.
Lemma sets_hold l : (forall i x, (i, x) ∈ l -> (i / 4 < B)%N) -> forall m v, holds m v ->
  holds (spec_run B m (set_calls m l)) (fold_left (fun w p => <[p.1 := p.2]> w) l v).
Proof.
  induction l as [|[i x] l IH]; intros Hr m v Hh; [done|]. cbn [set_calls spec_run fold_left fst snd].
  rewrite set_spec_map by (eapply Hr; left). apply IH; [intros i' x' H; eapply Hr; by right|]. destruct Hh as [Hf Hh].
  set (blk := <[N.to_nat (i mod 4) := x]> (block_of m (i / 4))).
  assert (length blk = 4) as Hblk by (unfold blk; rewrite insert_length; by apply four_block).
  pose proof (N.div_mod i 4 ltac:(done)) as Hdm. pose proof (N.mod_lt i 4 ltac:(done)) as Hml.
  split; [by apply four_insert|]. intros b r Hb. destruct (decide (i / 4 = b)%N) as [<-|Hne].
  - rewrite lookup_insert. unfold blk. destruct (decide (N.to_nat (i mod 4) = r)) as [<-|Hner].
    + rewrite list_lookup_insert by (rewrite four_block by done; lia). f_equal. unfold at_or.
      replace (4 * (i / 4) + N.of_nat (N.to_nat (i mod 4)))%N with i by lia. by rewrite lookup_insert.
    + rewrite list_lookup_insert_ne by done. unfold at_or. rewrite lookup_insert_ne by lia. specialize (Hh (i / 4)%N r Hb). unfold block_of.
      destruct (m !! (i / 4)%N); [exact Hh|]. rewrite Hh. unfold lanes_zero. by apply lookup_replicate_2.
  - rewrite lookup_insert_ne by done. assert (4 * b + N.of_nat r <> i)%N as Hni.
    { intros <-. apply Hne. rewrite N.mul_comm, N.div_add_l, N.div_small by lia. lia. }
    specialize (Hh b r Hb). destruct (m !! b); unfold at_or in *; by rewrite lookup_insert_ne by done.
Qed.
Lemma set_calls_api l : forall m, Forall (sparse_api true) (set_calls m l).
Proof. induction l as [|[i x] l IH]; intros m; cbn; by constructor. Qed.
Lemma set_calls_panicked l : forall m m', spec_all_panicked B m' (set_calls m l) = ∅.
Proof. induction l as [|[i x] l IH]; intros m m'; cbn; [done|]. rewrite IH. set_solver. Qed.

Lemma nw1 : nw_ok 1. Proof. by left. Qed.
Lemma le12 : 1 <= 2. Proof. lia. Qed.
Lemma le28 : 2 <= 8. Proof. lia. Qed.
Definition sv_view : view true (sparse_tree (list F) 1 2) := VSparse (list F) 1 2 (Some Z4) nw1 le12 le28.
Lemma sv_build_ok l pk : in_range 16384 l -> exists t m, sv_build zero l = Ok t /\ denotes pk sv_view t m /\ holds m (table l).
Proof.
  intros Hr. assert (forall i x, (i, x) ∈ l -> (i / 4 < B)%N) as Hr'.
  { intros i x H%Hr. change B with 4096%N. apply N.div_lt_upper_bound; lia. }
  assert (sparse_legal 1 2 true (Some Z4) (set_calls ∅ l)) as Hl.
  { apply sparse_small_legal; [apply nw1|lia|lia|left; lia|apply set_calls_api|by eexists]. }
  destruct (sparse_run_ok 1 2 true (Some Z4) (set_calls ∅ l) nw1 ltac:(lia) ltac:(lia) Hl) as (t & dr & E & _ & _). cbn zeta in E.
  exists t, (spec_run B ∅ (set_calls ∅ l)). split_and!.
  - unfold sv_build. unfold sparse_run in E. apply bind_ok_inv in E as (t0 & E0 & E). rewrite E0, bind_ok.
    eapply (sv_sets_calls l ∅); [|done|exact E|done]. intros b x. by rewrite lookup_empty.
  - exists true, (Some Z4), (set_calls ∅ l). split; [done|]. split; [done|]. split; [by eexists _, _|]. split; [|done].
    intros k. rewrite set_calls_panicked. set_solver.
  - apply sets_hold; [done|]. split; [intros b x; by rewrite lookup_empty|]. intros b r _. by rewrite !lookup_empty.
Qed.

(** lane [r] of a block *)
Definition lane (r : nat) (x : list F) : F := match x !! r with Some y => y | None => zero end.
Lemma lanes4 (x : list F) : length x = 4 -> x = [lane 0 x; lane 1 x; lane 2 x; lane 3 x].
Proof. destruct x as [|a [|b [|c [|d [|]]]]]; try done. Qed.
Lemma fold_lanes (l : list (list F)) : Forall (fun x => length x = 4) l -> forall a, length a = 4 ->
  let s := fold_left (lanes_op add) l a in
  length s = 4 /\ forall r, r < 4 -> lane r s = fold_left add (lane r <$> l) (lane r a).
Proof.
  induction 1 as [|x l Hx Hl IH]; intros a Ha; cbn [fold_left fmap list_fmap]; [done|].
  assert (length (lanes_op add a x) = 4) as Hax by (unfold lanes_op; rewrite zip_with_length; lia).
  destruct (IH _ Hax) as [IH1 IH2]. split; [done|]. intros r Hr. rewrite IH2 by done. f_equal.
  rewrite (lanes4 a Ha), (lanes4 x Hx). destruct r as [|[|[|[|]]]]; try done. lia.
Qed.

Notation prod l1 l2 := (fun i => mul (at_or zero (table l1) i) (at_or zero (table l2) i)).
Lemma sv_dot_lanes (reduce : list F -> F) l1 l2 : (forall x, add x zero = x) -> (forall x, mul zero x = zero) -> (forall x, mul x zero = zero) ->
  in_range 16384 l1 -> in_range 16384 l2 ->
  exists n, forall fuel, n <= fuel -> sv_dot zero add mul reduce fuel l1 l2 =
    Ok (reduce ((fun r => fold_left add ((fun b => prod l1 l2 (4 * b + r)%N) <$> (N.of_nat <$> seq 0 4096)) zero) <$> [0; 1; 2; 3]%N)).
Proof.
  intros L1 L2 L3 H1 H2. destruct (sv_build_ok l1 any_key H1) as (t1 & m1 & E1 & D1 & F1 & O1).
  destruct (sv_build_ok l2 any_key H2) as (t2 & m2 & E2 & D2 & F2 & O2).
  set (t := t_intersection (sparse_tree (list F) 1 2) (sparse_tree (list F) 1 2)).
  set (f := fun p : list F * list F => lanes_op mul p.1 p.2).
  set (v := VMap _ t (list F) f (VIntersection true true (sparse_tree (list F) 1 2) (sparse_tree (list F) 1 2) eq_refl eq_refl sv_view sv_view)).
  assert (denotes any_key v (t1, t2) (f <$> map_zip m1 m2)) as Hv.
  { exists (map_zip m1 m2). split; [|done]. by exists m1, m2. }
  destruct (denotes_ok any_key v _ _ Hv) as [Hget (n & l & Hl & Hs & Hp)]. exists n. intros fuel Hf. unfold sv_dot.
  rewrite E1, bind_ok, E2, bind_ok.
  transitivity (let* p := Ok l in Ok (reduce (fold_left (lanes_op add) p.*2 Z4))).
  { exact (f_equal (fun r => let* p := r in Ok (reduce (fold_left (lanes_op add) p.*2 Z4))) (Hl fuel Hf)). }
  rewrite bind_ok. do 2 f_equal. destruct (sorted_pairs l _ Hp Hs) as [Hs' He].
  assert (forall k x, (k, x) ∈ l -> exists x1 x2, m1 !! k = Some x1 /\ m2 !! k = Some x2 /\ x = lanes_op mul x1 x2) as Hin.
  { intros k x Hx. apply (He k x) in Hx. rewrite lookup_fmap, map_lookup_zip_with in Hx.
    destruct (m1 !! k) as [x1|] eqn:Ea, (m2 !! k) as [x2|] eqn:Eb; try done. cbn in Hx. injection Hx as <-. eauto. }
  assert (forall k x1 x2, m1 !! k = Some x1 -> m2 !! k = Some x2 -> k ∈ l.*1) as Hin2.
  { intros k x1 x2 Ea Eb. apply elem_of_list_fmap. exists (k, lanes_op mul x1 x2). split; [done|]. apply (He k).
    rewrite lookup_fmap, map_lookup_zip_with, Ea, Eb. done. }
  assert (Forall (fun x => length x = 4) l.*2) as H4.
  { apply Forall_forall. intros x ([k y] & -> & Hy)%elem_of_list_fmap. cbn. destruct (Hin k y Hy) as (x1 & x2 & Ea & Eb & ->).
    unfold lanes_op. rewrite zip_with_length, (F1 _ _ Ea), (F2 _ _ Eb). done. }
  destruct (fold_lanes l.*2 H4 Z4 eq_refl) as [Hlen Hlane].
  assert (forall r, r < 4 -> lane r (fold_left (lanes_op add) l.*2 Z4) =
    fold_left add ((fun b => prod l1 l2 (4 * b + N.of_nat r)%N) <$> (N.of_nat <$> seq 0 4096)) zero) as Hall.
  { intros r Hr. rewrite Hlane by done. assert (lane r Z4 = zero) as ->.
    { unfold lane, lanes_zero. by rewrite lookup_replicate_2. }
    assert (lane r <$> l.*2 = (fun b => prod l1 l2 (4 * b + N.of_nat r)%N) <$> l.*1) as ->.
    { rewrite <- !list_fmap_compose. apply list_fmap_ext. intros i [k x] Hi. cbn.
      destruct (Hin k x) as (x1 & x2 & Ea & Eb & ->); [apply elem_of_list_lookup; eauto|].
      pose proof (O1 k r Hr) as G1. pose proof (O2 k r Hr) as G2. rewrite Ea in G1. rewrite Eb in G2.
      unfold lane, lanes_op. rewrite lookup_zip_with, G1. cbn. by rewrite G2. }
    apply (sum_sparse zero add L1); [done|lia| |].
    - intros k Hk. destruct (decide (k < 4096)%N) as [|Hge]; [lia|]. exfalso. apply elem_of_list_fmap in Hk as ([k' x] & -> & Hx). cbn [fst] in Hge.
      apply (He k' x) in Hx. specialize (Hget k'). rewrite decide_False in Hget.
      + destruct (denotes_reached any_key v _ _ Hv) as [_ Hgi]. apply (Hgi k' x) in Hx. rewrite Hget in Hx. done.
      + intros Hok. apply Hge. unfold view_key_ok in Hok. exact Hok.
    - intros k Hk. pose proof (O1 k r Hr) as G1. pose proof (O2 k r Hr) as G2. unfold at_or in *.
      destruct (m1 !! k) as [x1|] eqn:Ea; [|by rewrite G1, L2]. destruct (m2 !! k) as [x2|] eqn:Eb; [|by rewrite G2, L3].
      exfalso. apply Hk. by eapply Hin2. }
  rewrite (lanes4 _ Hlen), !Hall by lia. done.
Qed.

Lemma sum_shift (assoc : forall x y z, add x (add y z) = add (add x y) z) (add_0 : forall x, add x zero = x) (comm : forall x y, add x y = add y x)
  (l : list F) : forall a, fold_left add l a = add a (fold_left add l zero).
Proof.
  induction l as [|x l IH]; intros a; cbn [fold_left]; [by rewrite add_0|]. rewrite IH, (IH (add zero x)), assoc. f_equal. by rewrite (comm zero x), add_0.
Qed.
Lemma sum_lanes (assoc : forall x y z, add x (add y z) = add (add x y) z) (add_0 : forall x, add x zero = x) (comm : forall x y, add x y = add y x)
  (p : N -> F) n :
  let s r := fold_left add ((fun b => p (4 * b + r)%N) <$> (N.of_nat <$> seq 0 n)) zero in
  add (add (s 0%N) (s 1%N)) (add (s 2%N) (s 3%N)) = fold_left add (p <$> (N.of_nat <$> seq 0 (4 * n))) zero.
Proof.
  induction n as [|n IH]; cbn zeta in *.
  - cbn. by rewrite !add_0.
  - replace (4 * S n) with (4 * n + 4) by lia. rewrite (seq_app (4 * n)), !fmap_app, fold_left_app, <- IH.
    replace (seq 0 (S n)) with (seq 0 n ++ [n]) by (by rewrite seq_S). rewrite !fmap_app, !fold_left_app. cbn [seq fmap list_fmap fold_left].
    assert (4 * N.of_nat n + 0 = N.of_nat (4 * n + 0))%N as R0 by lia. assert (4 * N.of_nat n + 1 = N.of_nat (4 * n + 1))%N as R1 by lia.
    assert (4 * N.of_nat n + 2 = N.of_nat (4 * n + 2))%N as R2 by lia. assert (4 * N.of_nat n + 3 = N.of_nat (4 * n + 3))%N as R3 by lia.
    rewrite R0, R1, R2, R3. replace (0 + 4 * n) with (4 * n + 0) by lia.
    replace (S (4 * n + 0)) with (4 * n + 1) by lia. replace (S (4 * n + 1)) with (4 * n + 2) by lia. replace (S (4 * n + 2)) with (4 * n + 3) by lia.
    generalize (p (N.of_nat (4 * n + 0))) (p (N.of_nat (4 * n + 1))) (p (N.of_nat (4 * n + 2))) (p (N.of_nat (4 * n + 3))).
    generalize (fold_left add ((fun b => p (4 * b + 0)%N) <$> (N.of_nat <$> seq 0 n)) zero)
      (fold_left add ((fun b => p (4 * b + 1)%N) <$> (N.of_nat <$> seq 0 n)) zero)
      (fold_left add ((fun b => p (4 * b + 2)%N) <$> (N.of_nat <$> seq 0 n)) zero)
      (fold_left add ((fun b => p (4 * b + 3)%N) <$> (N.of_nat <$> seq 0 n)) zero).
    clear -assoc comm. intros a b c d w x y z.
    assert (forall u v t, add u (add v t) = add v (add u t)) as lc by (intros u v' t; rewrite assoc, (comm u v'), <- assoc; done).
    rewrite <- !assoc. f_equal. rewrite (lc w b). f_equal. rewrite (lc x c), (lc w c). f_equal.
    rewrite (lc y d), (lc x d), (lc w d). done.
Qed.
End sparse_vector.
