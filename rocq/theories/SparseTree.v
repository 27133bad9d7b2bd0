(** * SparseTree is a lawful hierarchical bitmap tree; its hierarchy is exact *)
From Verif Require Import Base BitUtils BitUtilsProofs BitQueue LevelIndices LevelIndicesProofs
  ConstLoops Hierarchy Lawful Dense DenseNode DenseShape Sparse SparseVec SparseShape SparseProofs SparseOps.

Section stree.
Context (nw D : nat).
Hypothesis Hnw : nw_ok nw.
Hypothesis HD0 : 1 <= D.
Hypothesis HD : D <= 9.
Context {V : Type} (first : option V).
Notation pmap := (gmap (list N) N).
Notation sshape := (sshape nw D).
Notation schilds := (schilds D).
Notation schilds0 := (schilds0 D).
Notation sparse_inv := (sparse_inv nw D first).
Implicit Types (t : sparse V) (m : gmap N V) (P J : pmap).

(** block index reached by following [p] from block [a] of level [n] *)
Fixpoint swalk (ls : list level) (n : nat) (a : N) (p : list N) : option N :=
  match p with
  | [] => Some a
  | i :: p => match get_block ls n a with
              | Ok b => match b_idx b !! N.to_nat i with Some a => swalk ls (S n) a p | None => None end
              | _ => None
              end
  end.
Definition stm t (p : list N) (i : N) : bool :=
  match swalk (s_levels t) 0 0 p with
  | Some a => match get_block (s_levels t) (length p) a with Ok b => mbit (b_mask b) i | _ => false end
  | None => false
  end.
Definition ssem t (q : list N) : option V := match sparse_data D t 0 q with Ok o => o | _ => None end.
Definition sRv (t : sparse V) (c : scursor) : Prop := length c = D - 1.
Definition sRk t (c : scursor) (p : list N) : Prop :=
  length c = D - 1 /\ forall n, n < length p -> exists a, swalk (s_levels t) 0 0 (take (S n) p) = Some a /\ c !! n = Some (Some a).

(** any block index on the way *)
Lemma ss_any ls P J p : sshape ls P J None -> path_ok nw (length p) p -> length p < D ->
  exists b, get_block ls (length p) (default 0%N (P !! p)) = Ok b /\ blk_rep nw b (schilds P J None p).
Proof.
  intros Sh Hp Hlt. destruct (P !! p) as [a|] eqn:E; cbn [from_option id]; [by eapply ss_block|].
  destruct p as [|x p]; [rewrite (ss_root _ _ _ _ _ _ Sh) in E; done|].
  rewrite (ss_zero nw D HD0 _ _ _ _ _ Sh) by (cbn in *; lia). eexists. split; [done|]. eapply br_ext; [|by apply blk_empty_rep].
  intros i. symmetry. cbn [SparseShape.schilds]. apply (schilds_no_node nw D P J _ E); [apply (ss_parent _ _ _ _ _ _ Sh)|apply (ss_jpath _ _ _ _ _ _ Sh)].
Qed.
Lemma swalk_ok ls P J p r : sshape ls P J None -> path_ok nw (length (p ++ r)) (p ++ r) -> length (p ++ r) <= D ->
  (r = [] -> length p < D) ->
  swalk ls (length p) (default 0%N (P !! p)) r =
    Some (default 0%N (if decide (length (p ++ r) < D) then P !! (p ++ r) else J !! (p ++ r))).
Proof.
  intros Sh. revert p. induction r as [|i r IH]; intros p Hp Hle Hlt; cbn [swalk].
  - rewrite app_nil_r. by rewrite decide_True by auto.
  - assert (path_ok nw (length p) p) as Hp0 by (exact (proj1 (path_ok_app_inv _ _ _ _ Hp))).
    rewrite app_length in Hle. cbn in Hle.
    destruct (ss_any _ _ _ _ Sh Hp0 ltac:(lia)) as (b & -> & Hr).
    assert (i < msize nw)%N as Hi. { destruct Hp as [_ Hf]. apply Forall_app in Hf as [_ Hf]. by inversion Hf. }
    rewrite (br_idx _ _ _ Hr i Hi). cbn [SparseShape.schilds]. unfold SparseShape.schilds0.
    destruct (decide (S (length p) < D)) as [Hlt'|Hge].
    + assert (p ++ i :: r = (p ++ [i]) ++ r) as Eapp by (by rewrite <- app_assoc).
      replace (S (length p)) with (length (p ++ [i])) by (rewrite app_length; cbn; lia).
      rewrite IH.
      * by rewrite Eapp.
      * by rewrite <- Eapp.
      * rewrite <- Eapp, app_length. cbn. lia.
      * intros _. rewrite app_length. cbn. lia.
    + destruct r; [|cbn in *; lia]. cbn [swalk]. rewrite decide_False by (rewrite app_length; cbn; lia). done.
Qed.
Lemma swalk_node ls P J p : sshape ls P J None -> path_ok nw (length p) p -> length p < D ->
  swalk ls 0 0 p = Some (default 0%N (P !! p)).
Proof.
  intros Sh Hp Hlt. pose proof (swalk_ok ls P J [] p Sh Hp) as H. cbn [length app] in H. rewrite (ss_root _ _ _ _ _ _ Sh) in H.
  cbn [from_option id] in H. rewrite H by (intros; lia). by rewrite decide_True by done.
Qed.
Lemma stm_ok E t m P J p i : sshape (s_levels t) P J None -> sparse_inv E t m -> path_ok nw (length p) p -> length p < D ->
  stm t p i = bool_decide (is_Some (schilds0 P J p i)).
Proof.
  intros Sh Hi Hp Hlt. unfold stm. rewrite (swalk_node _ _ _ _ Sh Hp Hlt).
  destruct (ss_any _ _ _ _ Sh Hp Hlt) as (b & -> & Hr). apply (br_bit _ _ _ Hr).
Qed.
Lemma ssem_ok E t m q : sparse_inv E t m -> path_ok nw D q -> ssem t q = m !! key_of_path nw q.
Proof.
  intros Hi Hq. unfold ssem. change (sparse_data D t 0 q) with (sparse_data D t (key_of_path nw q) q).
  by rewrite (sparse_data_ok nw D Hnw HD0 HD first _ _ _ _ Hi Hq).
Qed.
Lemma ssem_J E t m P J q : sshape (s_levels t) P J None -> svec_ok nw D (VB D) first J (s_keys t) (s_values t) m ->
  sparse_inv E t m -> path_ok nw D q -> is_Some (ssem t q) <-> is_Some (J !! q).
Proof.
  intros Sh Hv Hi Hq. rewrite (ssem_ok _ _ _ _ Hi Hq).
  rewrite (svec_m_J nw D _ Hnw HD0 first _ _ _ _ Hv (key_of_path nw q)) by (by apply path_ok_bound).
  by rewrite level_indices_of_path by (done || lia).
Qed.
Lemma sJ_prefix ls P J X q j p r : sshape ls P J X -> J !! q = Some j -> q = p ++ r -> r <> [] -> is_Some (P !! p).
Proof.
  intros Sh Hj -> Hr. destruct (ss_jpath _ _ _ _ _ _ Sh _ _ Hj) as (_ & _ & p' & i & E & [a Ha]).
  destruct r as [|x r _] using rev_ind; [done|]. rewrite app_assoc in E. apply app_one_inj in E as [<- _].
  by eapply (ss_prefix _ _ _ _ _ _ p r _ Sh).
Qed.

(** selecting a node *)
Lemma scur_select_ok E t m c p i : sparse_inv E t m -> sRk t c p -> path_ok nw (length p) p -> S (length p) < D -> (i < msize nw)%N ->
  exists c' mk, scur_select t c (S (length p)) i = Ok (c', mk) /\ mask_is nw mk (stm t (p ++ [i])) /\ sRk t c' (p ++ [i]).
Proof.
  intros Hi [Hcl Hc] Hp Hlt Hib. pose proof Hi as (P & J & Sh & _). unfold scur_select. rewrite decide_False by lia.
  assert ((if decide (S (length p) = 1) then Ok 0%N else let* o := get_u c (S (length p) - 2) in unwrap_unc o) = Ok (default 0%N (P !! p))) as ->.
  { destruct p as [|x p]; [cbn [length]; rewrite decide_True by done; by rewrite (ss_root _ _ _ _ _ _ Sh)|].
    rewrite decide_False by (cbn; lia). destruct (Hc (length p) ltac:(cbn; lia)) as (a & Hw & Ha).
    rewrite firstn_all2 in Hw by (cbn; lia). rewrite (swalk_node _ _ _ _ Sh Hp ltac:(lia)) in Hw. injection Hw as <-.
    cbn [length]. replace (S (S (length p)) - 2) with (length p) by lia. by rewrite (get_u_ok _ _ _ Ha). }
  rewrite bind_ok. replace (S (length p) - 1) with (length p) by lia.
  destruct (ss_any _ _ _ _ Sh Hp ltac:(lia)) as (b & -> & Hr). rewrite bind_ok, (blk_get_ok _ _ _ _ Hr Hib), bind_ok.
  cbn [SparseShape.schilds]. unfold SparseShape.schilds0. rewrite decide_True by lia.
  assert (path_ok nw (length (p ++ [i])) (p ++ [i])) as Hp'.
  { rewrite app_length. cbn [length]. replace (length p + 1) with (S (length p)) by lia. by apply path_ok_snoc. }
  assert (length (p ++ [i]) = S (length p)) as Hl' by (rewrite app_length; cbn; lia).
  destruct (ss_any _ _ _ _ Sh Hp' ltac:(lia)) as (b' & Hb' & Hr'). rewrite Hl' in Hb'. rewrite Hb', bind_ok.
  rewrite set_u_ok, bind_ok by (rewrite Hcl; lia). eexists _, _. split; [done|]. split.
  - split; [apply (br_mask _ _ _ Hr')|]. intros j. rewrite (br_bit _ _ _ Hr').
    by rewrite (stm_ok _ _ _ _ _ _ _ Sh Hi Hp' ltac:(lia)).
  - split; [by rewrite insert_length|]. intros n Hn. rewrite Hl' in Hn. destruct (decide (n = length p)) as [->|Hne].
    + exists (default 0%N (P !! (p ++ [i]))). rewrite firstn_all2 by lia. split; [apply (swalk_node _ _ _ _ Sh Hp'); lia|].
      rewrite list_lookup_insert by lia. done.
    + destruct (Hc n ltac:(lia)) as (a & Hw & Ha). exists a. rewrite take_app_le by lia. split; [done|].
      by rewrite list_lookup_insert_ne by lia.
Qed.
Lemma scur_select0_ok E t m c : sparse_inv E t m -> sRv t c ->
  exists c' mk, scur_select t c 0 0 = Ok (c', mk) /\ mask_is nw mk (stm t []) /\ sRk t c' [].
Proof.
  intros Hi Hc. pose proof Hi as (P & J & Sh & _). unfold scur_select. rewrite decide_True by done. change (0 =? 0)%N with true. cbn match.
  destruct (ss_block _ _ _ _ _ _ _ _ Sh (ss_root _ _ _ _ _ _ Sh)) as (b & Hb & Hr). cbn [length] in Hb. rewrite Hb, bind_ok.
  eexists _, _. split; [done|]. split.
  - split; [apply (br_mask _ _ _ Hr)|]. intros j. rewrite (br_bit _ _ _ Hr).
    by rewrite (stm_ok _ _ _ _ _ _ _ Sh Hi (path_ok_nil nw) ltac:(cbn; lia)).
  - split; [done|]. intros n Hn. cbn in Hn. lia.
Qed.
Lemma scur_data_ok E t m c p i : sparse_inv E t m -> sRk t c p -> path_ok nw (D - 1) p -> (i < msize nw)%N ->
  scur_data D t c i = Ok (ssem t (p ++ [i])).
Proof.
  intros Hi [Hcl Hc] [Hpl Hpf] Hib. pose proof Hi as (P & J & Sh & Hv & _). unfold scur_data.
  assert (path_ok nw (length p) p) as Hp by done.
  assert ((if decide (D = 1) then Ok 0%N else let* o := get_u c (length c - 1) in unwrap_unc o) = Ok (default 0%N (P !! p))) as ->.
  { destruct p as [|x p]; [cbn in Hpl; rewrite decide_True by lia; by rewrite (ss_root _ _ _ _ _ _ Sh)|].
    cbn in Hpl. rewrite decide_False by lia. destruct (Hc (length p) ltac:(cbn; lia)) as (a & Hw & Ha).
    rewrite firstn_all2 in Hw by (cbn; lia). rewrite (swalk_node _ _ _ _ Sh Hp ltac:(cbn; lia)) in Hw. injection Hw as <-.
    replace (length c - 1) with (length p) by lia. by rewrite (get_u_ok _ _ _ Ha). }
  rewrite bind_ok. rewrite <- Hpl. destruct (ss_any _ _ _ _ Sh Hp ltac:(lia)) as (b & -> & Hr).
  rewrite bind_ok, (blk_get_ok _ _ _ _ Hr Hib), bind_ok. cbn [SparseShape.schilds]. unfold SparseShape.schilds0. rewrite decide_False by lia.
  assert (path_ok nw D (p ++ [i])) as Hq by (replace D with (S (D - 1)) by lia; by apply path_ok_snoc).
  rewrite (ssem_ok _ _ _ _ Hi Hq). destruct (J !! (p ++ [i])) as [j|] eqn:Ej; cbn [from_option id].
  - pose proof (J_pos nw D _ _ _ _ _ _ Sh Ej). assert ((j =? 0)%N = false) as -> by (apply N.eqb_neq; lia).
    destruct (svec_J_data nw D _ HD0 first _ _ _ _ Hv _ _ Ej) as (v & Hd & ->). unfold data_get. by rewrite (get_u_ok _ _ _ Hd).
  - change (0 =? 0)%N with true. cbn match. f_equal. symmetry. apply eq_None_not_Some. rewrite <- (ssem_ok _ _ _ _ Hi Hq).
    rewrite (ssem_J _ _ _ _ _ _ Sh Hv Hi Hq), Ej. by intros [? ?].
Qed.

Definition swf t : Prop := exists E m, sparse_inv E t m.
Definition lawful_sparse : lawful (sparse_tree V nw D).
Proof.
  refine (Lawful (sparse_tree V nw D) swf ssem stm true sRv sRk sRk
    _ _ _ _ _ _ _ _ _ _ _ _ _ _ _ _ _ _ _); cbn [t_nw t_depth t_T t_C t_V t_data t_data_u t_new t_select t_select_u t_cdata t_cdata_u sparse_tree].
  - exact Hnw.
  - lia.
  - intros t q v n i (E & m & Hi) Hq Hs Hn. pose proof Hi as (P & J & Sh & Hv & _).
      assert (length q = D) as Hl by apply Hq. pose proof (lookup_lt_Some _ _ _ Hn) as Hnl.
      pose proof (path_ok_take nw D q n Hq) as Hp. rewrite Nat.min_l in Hp by lia.
      assert (length (take n q) = n) as Hln by apply Hp.
      rewrite (stm_ok _ _ _ _ _ _ _ Sh Hi) by (rewrite ?Hln; done || lia). apply bool_decide_eq_true.
      assert (is_Some (J !! q)) as [j Hj] by (apply (ssem_J _ _ _ _ _ _ Sh Hv Hi Hq); eauto).
      unfold SparseShape.schilds0. rewrite Hln, <- (spath_take_S _ _ _ Hn). destruct (decide (S n < D)).
      + eapply (sJ_prefix _ _ _ _ _ _ _ (drop (S n) q) Sh Hj); [by rewrite take_drop|]. intros E'. apply (f_equal length) in E'.
        rewrite drop_length in E'. cbn in E'. lia.
      + rewrite take_ge by lia. eauto.
  - intros t p i (E & m & Hi) Hp Ht. pose proof Hi as (P & J & Sh & Hv & _). pose proof Hp as [Hl Hf].
      rewrite (stm_ok _ _ _ _ _ _ _ Sh Hi) in Ht by (rewrite ?Hl; done || lia). apply bool_decide_eq_true in Ht.
      unfold SparseShape.schilds0 in Ht. rewrite decide_False in Ht by lia. destruct Ht as [j Hj].
      destruct (ss_jpath _ _ _ _ _ _ Sh _ _ Hj) as (Hq & _). apply (ssem_J _ _ _ _ _ _ Sh Hv Hi Hq). eauto.
  - intros t p i (E & m & Hi) Hp Hlt Ht. pose proof Hi as (P & J & Sh & Hv & _).
      destruct (ss_any _ _ _ _ Sh Hp Hlt) as (b & _ & Hr). rewrite (stm_ok _ _ _ _ _ _ _ Sh Hi Hp Hlt) in Ht.
      apply bool_decide_eq_true in Ht. by apply (br_bound _ _ _ _ Hr).
  - intros t p i j (E & m & Hi) Hp Hlt Hib Ht. pose proof Hi as (P & J & Sh & Hv & _).
      assert (path_ok nw (length (p ++ [i])) (p ++ [i])) as Hp'.
      { rewrite app_length. cbn [length]. replace (length p + 1) with (S (length p)) by lia. by apply path_ok_snoc. }
      assert (length (p ++ [i]) = S (length p)) as Hl' by (rewrite app_length; cbn; lia).
      rewrite (stm_ok _ _ _ _ _ _ _ Sh Hi Hp' ltac:(lia)) in Ht. apply bool_decide_eq_true in Ht.
      rewrite (stm_ok _ _ _ _ _ _ _ Sh Hi Hp ltac:(lia)). apply bool_decide_eq_true. unfold SparseShape.schilds0 at 1. rewrite decide_True by lia.
      destruct (P !! (p ++ [i])) eqn:Ea; [eauto|].
      rewrite (schilds_no_node nw D P J _ Ea (ss_parent _ _ _ _ _ _ Sh) (ss_jpath _ _ _ _ _ _ Sh)) in Ht. by destruct Ht.
  - done.
  - intros t c p [H _]. exact H.
  - intros t c p n [Hl Hc]. split; [done|]. intros k Hk. rewrite take_length in Hk. destruct (Hc k ltac:(lia)) as (a & Hw & Ha).
      exists a. rewrite take_take, Nat.min_l by lia. done.
  - intros t c p n [Hl Hc]. split; [done|]. intros k Hk. rewrite take_length in Hk. destruct (Hc k ltac:(lia)) as (a & Hw & Ha).
      exists a. rewrite take_take, Nat.min_l by lia. done.
  - intros t _. eexists. split; [done|]. unfold sRv, scur_new; apply replicate_length.
  - intros t c (E & m & Hi) Hc. by eapply scur_select0_ok.
  - intros t c (E & m & Hi) Hc. by eapply scur_select0_ok.
  - intros t c p i (E & m & Hi) Hc Hp Hlt Hib. by eapply scur_select_ok.
  - intros t c p i (E & m & Hi) Hc Hp Hlt Ht. pose proof Hi as (P & J & Sh & _). eapply scur_select_ok; try done.
      destruct (ss_any _ _ _ _ Sh Hp ltac:(lia)) as (b & _ & Hr). rewrite (stm_ok _ _ _ _ _ _ _ Sh Hi Hp ltac:(lia)) in Ht.
      apply bool_decide_eq_true in Ht. by apply (br_bound _ _ _ _ Hr).
  - intros t q (E & m & Hi) Hq. rewrite (ssem_ok _ _ _ _ Hi Hq). by eapply sparse_data_ok.
  - intros t q v (E & m & Hi) Hq Hs. unfold sparse_data_unchecked. rewrite (ssem_ok _ _ _ _ Hi Hq) in Hs.
      rewrite (sparse_data_ok nw D Hnw HD0 HD first _ _ _ _ Hi Hq), Hs. done.
  - intros t c p i (E & m & Hi) Hc Hp Hib. rewrite (scur_data_ok _ _ _ _ _ _ Hi Hc Hp Hib). eexists. split; [done|]. done.
  - intros t c p i v (E & m & Hi) Hc Hp Hib Hs. unfold scur_data_u. rewrite (scur_data_ok _ _ _ _ _ _ Hi Hc Hp Hib), Hs. done.
Defined.

Lemma sparse_at E t m k : sparse_inv E t m -> (k < SKB nw D)%N -> l_at lawful_sparse t k = m !! k.
Proof.
  intros Hi Hk. unfold l_at. cbn [t_nw t_depth sparse_tree l_sem lawful_sparse]. destruct (level_indices_ok nw D k Hnw ltac:(lia) Hk) as [Hq Hkq].
  rewrite (ssem_ok _ _ _ _ Hi Hq). by rewrite Hkq.
Qed.
Lemma sparse_hierarchy_exact E t m : sparse_inv E t m -> hierarchy_exact (fun k => k ∈ E) lawful_sparse t.
Proof.
  intros Hi p i. cbn [t_nw t_depth sparse_tree l_sem l_tm lawful_sparse]. intros Hp Hlt Ht. pose proof Hi as (P & J & Sh & Hv & _ & _ & Hc).
  rewrite (stm_ok _ _ _ _ _ _ _ Sh Hi Hp Hlt) in Ht. apply bool_decide_eq_true in Ht.
  assert (forall d p i, D - length p <= d -> length p < D -> is_Some (schilds0 P J p i) ->
     exists r, path_ok nw D (p ++ i :: r) /\ (is_Some (J !! (p ++ i :: r)) \/ key_of_path nw (p ++ i :: r) ∈ E)) as Hex.
  { clear p i Hp Hlt Ht. induction d as [|d IH]; intros p i Hd Hlt Hs; [lia|]. unfold SparseShape.schilds0 in Hs.
    destruct (decide (S (length p) < D)) as [Hlt'|Hge].
    - destruct (Hc (p ++ [i])) as [[x Hx]|(k & Hk & Hkb & Ho)]; [by intros [_ ?]%app_nil|done| |].
      + destruct (IH (p ++ [i]) x) as (r & Hr1 & Hr2); [rewrite app_length; cbn; lia|rewrite app_length; cbn; lia|exact Hx|].
        exists (x :: r). rewrite <- app_assoc in Hr1, Hr2. done.
      + destruct (level_indices_ok nw D k Hnw ltac:(lia) Hkb) as [Hq Hkq].
        exists (drop (length (p ++ [i])) (level_indices nw D k)). rewrite (cons_middle i p), app_assoc. rewrite Ho at 1 3 5. rewrite take_drop.
        split; [done|]. right. by rewrite Hkq.
    - destruct Hs as [j Hj]. exists []. destruct (ss_jpath _ _ _ _ _ _ Sh _ _ Hj) as (Hq & _). split; [done|eauto]. }
  destruct (Hex _ p i (le_n _) Hlt Ht) as (r & Hr1 & Hr2). exists r. split; [done|]. destruct Hr2 as [Hr2|Hr2]; [left|by right].
  by apply (ssem_J _ _ _ _ _ _ Sh Hv Hi Hr1).
Qed.
End stree.
