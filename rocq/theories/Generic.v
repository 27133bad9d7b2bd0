(** * Consequences of lawfulness that hold for every tree *)
From Verif Require Import Base BitUtils BitUtilsProofs BitQueue LevelIndices LevelIndicesProofs
  ConstLoops Hierarchy Lawful IterProofs Spec TreeClient.

Lemma undigits_key nw p : undigits (msize nw) p = key_of_path nw p.
Proof. reflexivity. Qed.
Lemma digits_mod W D n k : (0 < W)%N -> D <= n -> digits W D (k mod W ^ N.of_nat n) = digits W D k.
Proof.
  intros HW. induction D as [|D IH]; intros Hn; [done|]. cbn [digits]. rewrite IH by lia. f_equal.
  set (a := (W ^ N.of_nat D)%N). assert (a <> 0)%N as Ha by (apply N.pow_nonzero; lia).
  replace (W ^ N.of_nat n)%N with (a * (W * W ^ N.of_nat (n - S D)))%N.
  2:{ unfold a. rewrite <- N.pow_succ_r', <- N.pow_add_r. f_equal. lia. }
  set (b := (W ^ N.of_nat (n - S D))%N). assert (b <> 0)%N as Hb by (apply N.pow_nonzero; lia).
  rewrite N.mod_mul_r by lia. rewrite (N.mul_comm a (k / a mod (W * b))%N), N.div_add by done.
  rewrite (N.div_small (k mod a) a) by (by apply N.mod_lt). rewrite N.add_0_l.
  rewrite N.mod_mul_r by lia. rewrite N.mul_comm, N.mod_add by lia. rewrite N.mod_mod by lia. done.
Qed.
Lemma level_indices_digits nw D k : nw_ok nw -> 0 < D -> (k < msize nw ^ N.of_nat D)%N ->
  level_indices nw D k = digits (msize nw) D k.
Proof.
  intros Hw HD. pose proof (msize_pos nw Hw) as Hm. unfold level_indices. destruct D as [|D]; [lia|].
  replace (S D - 1) with D by lia. clear HD. revert k. induction D as [|D IH]; intros k Hk.
  - cbn [level_indices_loop digits]. change (N.of_nat 0) with 0%N. change (N.of_nat 1) with 1%N in Hk.
    rewrite N.pow_1_r in Hk. rewrite N.pow_0_r, N.div_1_r, N.mod_small by done. done.
  - rewrite li_step by done. cbn [digits]. f_equal.
    + symmetry. apply N.mod_small. apply N.div_lt_upper_bound; [apply N.pow_nonzero; lia|].
      replace (N.of_nat (S (S D))) with (N.succ (N.of_nat (S D))) in Hk by lia.
      rewrite N.pow_succ_r' in Hk. rewrite N.mul_comm. done.
    + rewrite IH by (apply N.mod_lt, N.pow_nonzero; lia). change (digits (msize nw) (S D) (k mod msize nw ^ N.of_nat (S D)) = digits (msize nw) (S D) k).
      apply digits_mod; lia.
Qed.
Lemma digits_path nw D k : nw_ok nw -> 0 < D -> (k < msize nw ^ N.of_nat D)%N ->
  path_ok nw D (digits (msize nw) D k) /\ key_of_path nw (digits (msize nw) D k) = k.
Proof. intros. rewrite <- level_indices_digits by done. by apply level_indices_ok. Qed.
Lemma path_digits nw D p : nw_ok nw -> 0 < D -> path_ok nw D p ->
  (key_of_path nw p < msize nw ^ N.of_nat D)%N /\ digits (msize nw) D (key_of_path nw p) = p.
Proof.
  intros Hw HD Hp. assert (key_of_path nw p < msize nw ^ N.of_nat D)%N as Hb by by apply path_ok_bound.
  split; [done|]. rewrite <- level_indices_digits by done. by apply level_indices_of_path.
Qed.

Section generic.
Context {t : tree} (L : lawful t).
Notation nw := (t_nw t).
Notation D := (t_depth t).
Notation W := (msize (t_nw t)).
Implicit Types (s : t_T t).

(** content by key; keys outside the hierarchy have none *)
Definition content s (k : N) : option (t_V t) :=
  if (k <? W ^ N.of_nat D)%N then l_at L s k else None.

Lemma content_path s q : path_ok nw D q -> content s (key_of_path nw q) = l_sem L s q.
Proof.
  intros Hq. pose proof (l_nw L) as Hw. pose proof (l_depth L) as HD.
  unfold content, l_at. rewrite (proj2 (N.ltb_lt _ _)) by by apply path_ok_bound.
  by rewrite level_indices_of_path.
Qed.
Lemma content_Some s k v : content s k = Some v <-> (k < W ^ N.of_nat D)%N /\ l_at L s k = Some v.
Proof. unfold content. destruct (N.ltb_spec k (W ^ N.of_nat D)%N); split; naive_solver lia. Qed.

Lemma tree_get_ok s k : l_wf L s ->
  tree_get t s k = if (k <? N.min (W ^ N.of_nat D) USIZE_MAX)%N then Ok (content s k) else Panic.
Proof.
  intros Hwf. unfold tree_get. destruct (index_from_spec nw D k) as [[-> Hk]|[-> Hk]].
  - rewrite bind_ok, (proj2 (N.ltb_lt _ _)) by done.
    destruct (level_indices_ok nw D k) as [Hp Hkp]; [apply L|apply L|lia|].
    cbv zeta. rewrite <- Hkp at 1. rewrite (l_data L) by done. unfold content. rewrite (proj2 (N.ltb_lt _ _)) by lia. done.
  - rewrite (proj2 (N.ltb_ge _ _)) by done. done.
Qed.
Lemma tree_get_unchecked_ok s k v : l_wf L s -> content s k = Some v -> tree_get_unchecked t s k = Ok v.
Proof.
  intros Hwf [Hk Ha]%content_Some. unfold tree_get_unchecked.
  destruct (level_indices_ok nw D k) as [Hp Hkp]; [apply L|apply L|done|].
  cbv zeta. rewrite <- Hkp at 1. by apply (l_data_u L).
Qed.
Lemma iter_content s : l_wf L s -> exists n l,
  (forall fuel, n <= fuel -> iter_collect fuel t s = Ok l) /\ enumerates l (content s).
Proof.
  intros Hwf. destruct (iter_collect_ok L s Hwf) as (n & l & H1 & H2 & H3). exists n, l.
  split; [done|]. split; [done|]. intros k v. by rewrite H3, content_Some.
Qed.

(** some stored element lies below path [p] *)
Definition has_below s (p : list N) : Prop := exists k v, below W D p k /\ content s k = Some v.
Lemma has_below_tm s p i : l_wf L s -> length p < D -> has_below s (p ++ [i]) -> l_tm L s p i = true.
Proof.
  intros Hwf Hl (k & v & [Hk Hp] & Hc). pose proof (l_nw L) as Hw. pose proof (l_depth L) as HD.
  destruct (digits_path nw D k Hw HD Hk) as [Hq Hkq]. rewrite <- Hkq, content_path in Hc by done.
  destruct Hp as [r Hr]. rewrite <- (take_app p ([i] ++ r)).
  eapply (l_complete L s (p ++ [i] ++ r) v); [done|by rewrite app_assoc, <- Hr|by rewrite app_assoc, <- Hr|].
  change ((p ++ i :: r) !! length p = Some i). by rewrite list_lookup_middle by done.
Qed.
(** some key satisfying [bad] lies below [p] *)
Definition bad_below (bad : N -> Prop) (p : list N) : Prop := exists k, below W D p k /\ bad k.
Lemma tm_has_below bad s p i : l_wf L s -> hierarchy_exact bad L s -> path_ok nw (length p) p -> length p < D ->
  l_tm L s p i = true -> has_below s (p ++ [i]) \/ bad_below bad (p ++ [i]).
Proof.
  intros Hwf Hex Hp Hl Hb. destruct (Hex p i Hp Hl Hb) as (r & Hr & Hor).
  pose proof (l_nw L) as Hw. pose proof (l_depth L) as HD. destruct (path_digits nw D _ Hw HD Hr) as [Hk Hd].
  assert (below W D (p ++ [i]) (key_of_path nw (p ++ i :: r))) as Hbl.
  { split; [done|]. rewrite Hd. exists r. by rewrite <- app_assoc. }
  destruct Hor as [[v Hv]|Hbad]; [left|right; by exists (key_of_path nw (p ++ i :: r))].
  exists (key_of_path nw (p ++ i :: r)), v. split; [done|by rewrite content_path].
Qed.
Lemma tm_terminal_has s p i : l_wf L s -> path_ok nw (D - 1) p -> l_tm L s p i = true -> has_below s (p ++ [i]).
Proof.
  intros Hwf Hp Hb. pose proof (l_nw L) as Hw. pose proof (l_depth L) as HD.
  destruct (l_terminal L s p i Hwf Hp Hb) as [v Hv].
  assert (i < W)%N as Hi by (eapply (l_bound L s p i Hwf); [by eapply path_ok_len|destruct Hp; lia|done]).
  assert (path_ok nw D (p ++ [i])) as Hq.
  { replace D with (S (D - 1)) by lia. by apply path_ok_snoc. }
  destruct (path_digits nw D _ Hw HD Hq) as [Hk Hd].
  exists (key_of_path nw (p ++ [i])), v. split; [split; [done|by rewrite Hd]|by rewrite content_path].
Qed.

(** ** the cursor *)
Definition cur_ok s (c : t_C t) (m : option mask) (cur : option (list N * bool)) : Prop :=
  match cur with
  | None => l_Rv L s c
  | Some (p, b) => path_ok nw (length p) p /\ length p < D /\
      (if b : bool then l_Rk L s c p else l_Ru L s c p) /\
      exists mk, m = Some mk /\ mask_is nw mk (l_tm L s p)
  end.
Lemma cur_ok_Rv s c m cur : cur_ok s c m cur -> l_Rv L s c.
Proof.
  destruct cur as [[p b]|]; [|done]. intros (_ & _ & H & _). eapply (l_Ru_Rv L s c p).
  destruct b; [by apply (l_Rk_Ru L)|done].
Qed.
(** [has]: some condition under which the parent announces a node *)
Lemma run_selects_gen s (has : list N -> Prop) c m cur xs cur' : l_wf L s -> cur_ok s c m cur ->
  (forall p i, path_ok nw (length p) p -> S (length p) < D -> has (p ++ [i]) -> l_tm L s p i = true) ->
  sel_run W D has cur xs cur' ->
  exists c' m', run_selects t s c m xs = Ok (c', m') /\ cur_ok s c' m' cur'.
Proof.
  intros Hwf Hc Hhas Hr. revert c m Hc. induction Hr as [cur|cur [n i u] cur1 xs cur2 Hs Hr IH]; intros c m Hc; cbn [run_selects].
  - eauto.
  - unfold sel_step in Hs. cbn [sel_level sel_index sel_unchecked] in *. destruct n as [|n].
    + destruct Hs as (HD & -> & ->). pose proof (cur_ok_Rv _ _ _ _ Hc) as Hv. destruct u.
      * destruct (l_select0_u L s c Hwf Hv) as (c' & mk & -> & Hm & Hu). rewrite bind_ok. apply IH.
        split; [apply path_ok_nil|]. split; [done|]. split; [done|]. eauto.
      * destruct (l_select0 L s c Hwf Hv) as (c' & mk & -> & Hm & Hu). rewrite bind_ok. apply IH.
        split; [apply path_ok_nil|]. split; [done|]. split; [done|]. eauto.
    + destruct Hs as (p & b & -> & Hn & HSn & Hi & Hsel & ->). destruct Hc as (Hp & Hlp & HR & _).
      assert (length (take n p) = n) as Htl by (rewrite take_length; lia).
      assert (path_ok nw (length (take n p)) (take n p)) as Htp by (eapply path_ok_len, path_ok_take, Hp).
      assert (path_ok nw (length (take n p ++ [i])) (take n p ++ [i])) as Htq.
      { eapply path_ok_len, path_ok_snoc; [exact Htp|done]. }
      destruct u.
      * assert (l_Ru L s c (take n p)) as HR'.
        { apply (l_Ru_take L). destruct b; [by apply (l_Rk_Ru L)|done]. }
        destruct (l_selectS_u L s c (take n p) i Hwf HR' Htp) as (c' & mk & E & Hm & Hu); [lia| |].
        { apply Hhas; [done|lia|done]. }
        rewrite Htl in E. rewrite E, bind_ok. apply IH. split; [done|]. split; [rewrite app_length; cbn; lia|]. split; [done|]. eauto.
      * subst b. destruct (l_selectS L s c (take n p) i Hwf (l_Rk_take L _ _ _ _ HR) Htp) as (c' & mk & E & Hm & Hu); [lia|done|].
        rewrite Htl in E. rewrite E, bind_ok. apply IH. split; [done|]. split; [rewrite app_length; cbn; lia|]. split; [done|]. eauto.
Qed.

Lemma run_selects_ok s c m cur xs cur' : l_wf L s -> cur_ok s c m cur ->
  sel_run W D (has_below s) cur xs cur' ->
  exists c' m', run_selects t s c m xs = Ok (c', m') /\ cur_ok s c' m' cur'.
Proof. intros Hwf Hc. apply run_selects_gen; [done|done|]. intros p i _ Hl. apply has_below_tm; [done|lia]. Qed.

(** what the returned mask says about the content *)
Definition mask_reads s (ex : Prop) (bad : N -> Prop) (p : list N) (mk : mask) : Prop :=
  mask_ok nw mk /\
  (forall i, has_below s (p ++ [i]) -> mbit mk i = true) /\
  (ex -> forall i, mbit mk i = true -> has_below s (p ++ [i]) \/ bad_below bad (p ++ [i])) /\
  (length p = D - 1 -> forall i, mbit mk i = true -> has_below s (p ++ [i])).
Lemma mask_reads_ok s (ex : Prop) bad p mk : l_wf L s -> (ex -> hierarchy_exact bad L s) -> path_ok nw (length p) p -> length p < D ->
  mask_is nw mk (l_tm L s p) -> mask_reads s ex bad p mk.
Proof.
  intros Hwf Hex Hp Hl [Hm Hb]. split; [done|]. split; [|split].
  - intros i Hi. rewrite Hb. by apply has_below_tm.
  - intros He i. rewrite Hb. intros Hi. apply tm_has_below; auto.
  - intros He i. rewrite Hb. intros Hi. apply tm_terminal_has; [done|by split; [|apply Hp]|done].
Qed.

(** cursor protocol, complete statement *)
Lemma cursor_protocol s (ex : Prop) bad xs p b : l_wf L s -> (ex -> hierarchy_exact bad L s) ->
  sel_run W D (has_below s) None xs (Some (p, b)) ->
  exists c0 c mk, t_new t s = Ok c0 /\ run_selects t s c0 None xs = Ok (c, Some mk) /\
    mask_reads s ex bad p mk /\
    (length p = D - 1 -> forall i, (i < W)%N ->
      (forall v, content s (undigits W (p ++ [i])) = Some v -> t_cdata_u t s c i = Ok v) /\
      (b = true -> exists d, t_cdata t s c i = Ok d /\
        (forall v, content s (undigits W (p ++ [i])) = Some v -> d = Some v) /\
        (l_cdok L = true -> d = content s (undigits W (p ++ [i]))))).
Proof.
  intros Hwf Hex Hr. destruct (l_new L s Hwf) as (c0 & Hn & Hv).
  destruct (run_selects_ok s c0 None None xs _ Hwf Hv Hr) as (c & m & E & Hp & Hl & HR & mk & -> & Hm).
  exists c0, c, mk. split; [done|]. split; [done|]. split; [by apply mask_reads_ok|].
  intros Hlen i Hi. pose proof (l_depth L) as HD.
  assert (path_ok nw (D - 1) p) as Hp' by (split; [done|apply Hp]).
  assert (path_ok nw D (p ++ [i])) as Hq.
  { replace D with (S (D - 1)) by lia. by apply path_ok_snoc. }
  rewrite undigits_key, content_path by done. split.
  - intros v Hvv. eapply (l_cdata_u L s c p); try done. destruct b; [by apply (l_Rk_Ru L)|done].
  - intros ->. destruct (l_cdata L s c p i Hwf HR Hp' Hi) as (d & -> & H1 & H2). exists d. split; [done|]. split; [done|].
    intros Hok. destruct (l_sem L s (p ++ [i])) as [v|]; [by apply H1|by apply H2].
Qed.
End generic.
