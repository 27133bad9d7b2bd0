(** * The contract of an implementor of the public traits, in terms of its methods

    `HibitTree` and `HibitTreeCursor` (src/hibit_tree.rs:124-321) are public traits that a
    client may implement for an own ("generative") tree.  This file states what the library
    needs of such an implementation, using only calls of the trait's methods, and shows that
    it is enough for [lawful], i.e. for every theorem about lazy expressions. *)
From Verif Require Import Base BitUtils BitUtilsProofs BitQueue LevelIndices LevelIndicesProofs
  ConstLoops Hierarchy Lawful IterProofs Spec TreeClient Generic.

(** what `data` says about the element with path [q] *)
Definition elem_at (t : tree) (s : t_T t) (q : list N) : option (t_V t) :=
  match t_data t s (undigits (msize (t_nw t)) q) q with Ok o => o | _ => None end.
(** the checked selections from the root down to [p], on a new cursor *)
Definition descend (p : list N) : list sel := Sel 0 0 false :: imap (fun n i => Sel (S n) i false) p.
(** bit [i] of the mask of the node with path [p], as told by a new cursor *)
Definition node_bit (t : tree) (s : t_T t) (p : list N) (i : N) : bool :=
  match (let* c := t_new t s in run_selects t s c None (descend p)) with
  | Ok (_, Some mk) => mbit mk i
  | _ => false
  end.
(** the mask of the parent announces the node [p] *)
Definition announced (t : tree) (s : t_T t) (p : list N) : Prop :=
  exists q i, p = q ++ [i] /\ node_bit t s q i = true.
Definition in_tree (t : tree) (n : nat) (p : list N) : Prop :=
  length p = n /\ Forall (fun i => (i < msize (t_nw t))%N) p.

(** the contract for one value [s] of the type [t]; [b]: `Cursor::data` answers None for every
    absent element (unions need that of their operands) *)
Record honest (b : bool) (t : tree) (s : t_T t) : Prop := {
  (** `data` answers for every path *)
  h_data : forall q, in_tree t (t_depth t) q -> exists o, t_data t s (undigits (msize (t_nw t)) q) q = Ok o;
  h_data_u : forall q x, in_tree t (t_depth t) q -> elem_at t s q = Some x ->
    t_data_u t s (undigits (msize (t_nw t)) q) q = Ok x;
  h_new : exists c0, t_new t s = Ok c0;
  (** every session that keeps to the protocol succeeds; the mask it returns is the one a new
      cursor finds at this path; on the last level the cursor reads the elements *)
  h_session : forall c0 xs p checked, t_new t s = Ok c0 ->
    sel_run (msize (t_nw t)) (t_depth t) (announced t s) None xs (Some (p, checked)) ->
    exists c mk, run_selects t s c0 None xs = Ok (c, Some mk) /\
      mask_ok (t_nw t) mk /\ (forall i, mbit mk i = node_bit t s p i) /\
      (length p = t_depth t - 1 -> forall i, (i < msize (t_nw t))%N ->
        (forall x, elem_at t s (p ++ [i]) = Some x -> t_cdata_u t s c i = Ok x) /\
        (checked = true -> exists d, t_cdata t s c i = Ok d /\
          (forall x, elem_at t s (p ++ [i]) = Some x -> d = Some x) /\
          (b = true -> elem_at t s (p ++ [i]) = None -> d = None)));
  (** every node above an element is announced *)
  h_complete : forall q x n i, in_tree t (t_depth t) q -> elem_at t s q = Some x -> q !! n = Some i ->
    node_bit t s (take n q) i = true;
  (** the masks of the last level are exact *)
  h_terminal : forall p i, in_tree t (t_depth t - 1) p -> node_bit t s p i = true -> is_Some (elem_at t s (p ++ [i]));
  (** a node that is not announced has an empty mask *)
  h_parent : forall p i j, in_tree t (length p) p -> S (length p) < t_depth t -> (i < msize (t_nw t))%N ->
    node_bit t s (p ++ [i]) j = true -> node_bit t s p i = true;
}.
(** and if it declares EXACT_HIERARCHY: an announced child contains an element (or a key for
    which nothing is promised) *)
Definition honest_exact (pk : N -> Prop) (t : tree) (s : t_T t) : Prop :=
  t_exact t = true -> forall p i, in_tree t (length p) p -> length p < t_depth t -> node_bit t s p i = true ->
    exists r, in_tree t (t_depth t) (p ++ i :: r) /\
      (is_Some (elem_at t s (p ++ i :: r)) \/ pk (undigits (msize (t_nw t)) (p ++ i :: r))).
(** the key usize::MAX is not an index (`Index::from` rejects it) *)
Definition honest_max (t : tree) (s : t_T t) : Prop :=
  forall q, in_tree t (t_depth t) q -> undigits (msize (t_nw t)) q = USIZE_MAX -> elem_at t s q = None.

(** ** the contract makes the tree lawful *)
Section user.
Context (b : bool) (t : tree) (Hnw : nw_ok (t_nw t)) (HD : 0 < t_depth t).
Notation W := (msize (t_nw t)).
Notation D := (t_depth t).
Notation run s := (sel_run W D (announced t s)).

(** cursors that a protocol session can have produced; [p]: a prefix of the selected path *)
Definition u_Rv (s : t_T t) (c : t_C t) : Prop := exists c0 xs cur m, t_new t s = Ok c0 /\ run s None xs cur /\
  run_selects t s c0 None xs = Ok (c, m).
Definition u_R (ch : option bool) (s : t_T t) (c : t_C t) (p : list N) : Prop :=
  exists c0 xs p' checked m n, t_new t s = Ok c0 /\ run s None xs (Some (p', checked)) /\
    run_selects t s c0 None xs = Ok (c, m) /\ p = take n p' /\ (ch = Some true -> checked = true).

Lemma run_selects_app s c m xs ys : run_selects t s c m (xs ++ ys) =
  let* (c, m) := run_selects t s c m xs in run_selects t s c m ys.
Proof.
  revert c m. induction xs as [|x xs IH]; intros c m; cbn [run_selects app]; [done|].
  destruct ((if sel_unchecked x then t_select_u t else t_select t) s c (sel_level x) (sel_index x)) as [[c' m']| | |]; cbn; done.
Qed.
Lemma sel_run_app has cur xs cur1 ys cur2 : sel_run W D has cur xs cur1 -> sel_run W D has cur1 ys cur2 -> sel_run W D has cur (xs ++ ys) cur2.
Proof. induction 1 as [|? ? ? ? ? ? ? IH]; intros H2; cbn [app]; [done|]. econstructor; [done|by apply IH]. Qed.
Lemma sel_run_path has cur xs cur' :
  match cur with None => True | Some (p, _) => path_ok (t_nw t) (length p) p /\ length p < D end -> sel_run W D has cur xs cur' ->
  match cur' with None => True | Some (p, _) => path_ok (t_nw t) (length p) p /\ length p < D end.
Proof.
  intros Hc Hr. revert Hc. induction Hr as [cur|cur [n i u] cur1 xs cur2 Hs Hr IH]; intros Hc; [done|]. apply IH. clear IH Hr cur2.
  unfold sel_step in Hs. cbn [sel_level sel_index sel_unchecked] in Hs. destruct n as [|n].
  - destruct Hs as (? & _ & ->). split; [apply path_ok_nil|done].
  - destruct Hs as (p & ch & -> & Hn & HSn & Hi & _ & ->). destruct Hc as [Hp Hl]. split.
    + eapply path_ok_len, path_ok_snoc; [eapply path_ok_take, Hp|done].
    + rewrite app_length, take_length. cbn. lia.
Qed.

Lemma u_step s c p' (c0 : t_C t) xs checked m n i u : honest b t s -> t_new t s = Ok c0 -> run s None xs (Some (p', checked)) ->
  run_selects t s c0 None xs = Ok (c, m) -> S (length (take n p')) < D -> (i < W)%N ->
  (if (u : bool) then announced t s (take n p' ++ [i]) else checked = true) ->
  exists c' mk, (if u then t_select_u t else t_select t) s c (S (length (take n p'))) i = Ok (c', mk) /\
    mask_is (t_nw t) mk (node_bit t s (take n p' ++ [i])) /\
    u_R (Some (negb u)) s c' (take n p' ++ [i]).
Proof.
  intros Hh Hn Hr E Hl Hi Hu. set (n' := length (take n p')) in *.
  assert (take n' p' = take n p') as Ht by (unfold n'; rewrite take_length; destruct (decide (n <= length p')); [by rewrite Nat.min_l by lia|by rewrite Nat.min_r, !take_ge by lia]).
  assert (run s None (xs ++ [Sel (S n') i u]) (Some (take n p' ++ [i], negb u))) as Hr'.
  { eapply sel_run_app; [exact Hr|]. econstructor; [|constructor]. cbn [sel_step sel_level sel_index sel_unchecked].
    exists p', checked. split; [done|]. split; [unfold n'; rewrite take_length; lia|]. split; [done|]. split; [done|]. rewrite Ht. split; [|done].
    by destruct u. }
  destruct (h_session b t s Hh c0 _ _ _ Hn Hr') as (c' & mk & E' & Hm & Hb & _).
  rewrite run_selects_app, E, bind_ok in E'. cbn [run_selects sel_unchecked sel_level sel_index] in E'.
  apply bind_ok_inv in E' as ([c1 m1] & E1 & E2). injection E2 as -> ->. exists c', mk. split; [exact E1|]. split; [by split|].
  exists c0, (xs ++ [Sel (S n') i u]), (take n p' ++ [i]), (negb u), (Some mk), (length (take n p' ++ [i])).
  split; [done|]. split; [done|]. split; [|split; [by rewrite firstn_all|]].
  - rewrite run_selects_app, E, bind_ok. cbn [run_selects sel_unchecked sel_level sel_index]. rewrite E1. done.
  - by intros [= ->].
Qed.
Lemma u_step0 s c u : honest b t s -> u_Rv s c -> exists c' mk,
  (if (u : bool) then t_select_u t else t_select t) s c 0 0%N = Ok (c', mk) /\ mask_is (t_nw t) mk (node_bit t s []) /\
  u_R (Some (negb u)) s c' [].
Proof.
  intros Hh (c0 & xs & cur & m & Hn & Hr & E).
  assert (run s None (xs ++ [Sel 0 0 u]) (Some ([], negb u))) as Hr'.
  { eapply sel_run_app; [exact Hr|]. econstructor; [|constructor]. cbn. done. }
  destruct (h_session b t s Hh c0 _ _ _ Hn Hr') as (c' & mk & E' & Hm & Hb & _).
  rewrite run_selects_app, E, bind_ok in E'. cbn [run_selects sel_unchecked sel_level sel_index] in E'.
  apply bind_ok_inv in E' as ([c1 m1] & E1 & E2). injection E2 as -> ->. exists c', mk. split; [exact E1|]. split; [by split|].
  exists c0, (xs ++ [Sel 0 0 u]), [], (negb u), (Some mk), 0.
  split; [done|]. split; [done|]. split; [|split; [done|by intros [= ->]]].
  rewrite run_selects_app, E, bind_ok. cbn [run_selects sel_unchecked sel_level sel_index]. rewrite E1. done.
Qed.
Lemma descend_run has p : path_ok (t_nw t) (length p) p -> length p < D -> sel_run W D has None (descend p) (Some (p, true)).
Proof.
  intros Hp Hl. unfold descend. econstructor; [cbn; done|].
  assert (forall q r, path_ok (t_nw t) (length (q ++ r)) (q ++ r) -> length (q ++ r) < D ->
    sel_run W D has (Some (q, true)) (imap (fun n i => Sel (S (length q + n)) i false) r) (Some (q ++ r, true))) as H.
  { clear p Hp Hl. intros q r. revert q. induction r as [|i r IH]; intros q Hp Hl.
    - rewrite app_nil_r. constructor.
    - cbn [imap]. econstructor.
      + cbn [sel_step sel_level sel_index sel_unchecked]. exists q, true. rewrite Nat.add_0_r. split; [done|]. split; [done|].
        rewrite app_length in Hl. cbn [length] in Hl. split; [lia|]. destruct Hp as [_ [_ [Hi _]%Forall_cons]%Forall_app]. split; [done|]. split; [done|].
        reflexivity.
      + rewrite take_ge by lia. rewrite (imap_ext _ (fun n x => Sel (S (length (q ++ [i]) + n)) x false)).
        2:{ intros n x _. rewrite app_length. cbn. f_equal. lia. }
        replace (q ++ i :: r) with ((q ++ [i]) ++ r) in * by by rewrite <- app_assoc.
        by apply IH. }
  exact (H [] p Hp Hl).
Qed.

Lemma u_bound s p i : honest b t s -> path_ok (t_nw t) (length p) p -> length p < D -> node_bit t s p i = true -> (i < W)%N.
Proof.
  intros Hh Hp Hl Hb. destruct (h_new b t s Hh) as [c0 Hn].
  destruct (h_session b t s Hh c0 _ _ _ Hn (descend_run (announced t s) p Hp Hl)) as (c & mk & _ & [Hm _] & Hbit & _).
  rewrite <- Hbit in Hb. apply mbit_bound in Hb. unfold msize. rewrite <- Hm. lia.
Qed.
Lemma u_R_Rv ch s c p : u_R ch s c p -> u_Rv s c.
Proof. intros (c0 & xs & p' & checked & m & n & Hn & Hr & E & _). by exists c0, xs, (Some (p', checked)), m. Qed.
Lemma u_R_take ch s c p n : u_R ch s c p -> u_R ch s c (take n p).
Proof. intros (c0 & xs & p' & checked & m & n' & Hn & Hr & E & -> & Hc). exists c0, xs, p', checked, m, (n `min` n'). rewrite take_take. done. Qed.
Lemma u_last ch s c p : u_R ch s c p -> path_ok (t_nw t) (D - 1) p -> exists c0 xs checked m,
  t_new t s = Ok c0 /\ run s None xs (Some (p, checked)) /\ run_selects t s c0 None xs = Ok (c, m) /\ (ch = Some true -> checked = true).
Proof.
  intros (c0 & xs & p' & checked & m & n & Hn & Hr & E & -> & Hc) [Hl _]. exists c0, xs, checked, m.
  pose proof (sel_run_path _ None _ _ I Hr) as [_ Hl']. rewrite take_length in Hl. rewrite take_ge by lia. done.
Qed.
Definition lawful_user : lawful t.
Proof.
  refine {| l_wf := honest b t; l_sem := elem_at t; l_tm := node_bit t; l_cdok := b; l_Rv := u_Rv; l_Rk := u_R (Some true); l_Ru := u_R None |}.
  - exact Hnw.
  - exact HD.
  - intros s q x n i Hh Hq. by apply (h_complete b t s Hh).
  - intros s p i Hh Hp. by apply (h_terminal b t s Hh).
  - intros s p i. apply u_bound.
  - intros s p i j Hh Hp. by apply (h_parent b t s Hh).
  - intros s c p (c0 & xs & p' & checked & m & n & Hn & Hr & E & Hp & _). by exists c0, xs, p', checked, m, n.
  - intros s c p. apply u_R_Rv.
  - intros s c p n. apply u_R_take.
  - intros s c p n. apply u_R_take.
  - intros s Hh. destruct (h_new b t s Hh) as [c0 Hn]. exists c0. split; [done|]. exists c0, [], None, None. split; [done|]. split; [constructor|done].
  - intros s c Hh Hv. destruct (u_step0 s c false Hh Hv) as (c' & mk & E & Hm & HR). by exists c', mk.
  - intros s c Hh Hv. destruct (u_step0 s c true Hh Hv) as (c' & mk & E & Hm & (c0 & xs & p' & checked & m & n & Hn & Hr & E' & Hp & _)).
    exists c', mk. split; [done|]. split; [done|]. by exists c0, xs, p', checked, m, n.
  - intros s c p i Hh (c0 & xs & p' & checked & m & n & Hn & Hr & E & -> & Hc) Hp Hl Hi.
    destruct (u_step s c p' c0 xs checked m n i false Hh Hn Hr E Hl Hi (Hc eq_refl)) as (c' & mk & E1 & Hm & HR). by exists c', mk.
  - intros s c p i Hh (c0 & xs & p' & checked & m & n & Hn & Hr & E & -> & _) Hp Hl Hb.
    assert (i < W)%N as Hi by (eapply u_bound; [done|done|lia|done]).
    destruct (u_step s c p' c0 xs checked m n i true Hh Hn Hr E Hl Hi) as (c' & mk & E1 & Hm & (c0' & xs' & p'' & checked' & m' & n' & Hn' & Hr' & E' & Hp' & _)); [by eexists _, _|].
    exists c', mk. split; [done|]. split; [done|]. by exists c0', xs', p'', checked', m', n'.
  - intros s q Hh Hq. unfold elem_at. rewrite <- undigits_key. destruct (h_data b t s Hh q Hq) as [o Ho]. by rewrite Ho.
  - intros s q x Hh Hq. by apply (h_data_u b t s Hh).
  - intros s c p i Hh HR Hp Hi. destruct (u_last _ _ _ _ HR Hp) as (c0 & xs & checked & m & Hn & Hr & E & Hc).
    destruct (h_session b t s Hh c0 _ _ _ Hn Hr) as (c' & mk & E' & _ & _ & H). rewrite E in E'. injection E' as <- ->.
    by apply (H (proj1 Hp) i Hi), Hc.
  - intros s c p i x Hh HR Hp Hi Hx. destruct (u_last _ _ _ _ HR Hp) as (c0 & xs & checked & m & Hn & Hr & E & Hc).
    destruct (h_session b t s Hh c0 _ _ _ Hn Hr) as (c' & mk & E' & _ & _ & H). rewrite E in E'. injection E' as <- ->.
    by apply (H (proj1 Hp) i Hi).
Defined.
End user.

(** ** and the other way round *)
Section back.
Context {t : tree} (L : lawful t) (s : t_T t) (Hwf : l_wf L s).
Notation W := (msize (t_nw t)).
Notation D := (t_depth t).
Lemma elem_at_sem q : in_tree t D q -> elem_at t s q = l_sem L s q.
Proof. intros Hq. unfold elem_at. rewrite undigits_key. rewrite (l_data L s q Hwf Hq). done. Qed.
Lemma node_bit_tm p i : in_tree t (length p) p -> length p < D -> node_bit t s p i = l_tm L s p i.
Proof.
  intros Hp Hl. unfold node_bit. destruct (l_new L s Hwf) as (c0 & Hn & Hv). rewrite Hn, bind_ok.
  destruct (run_selects_ok L s c0 None None _ _ Hwf Hv (descend_run t (l_depth L) (has_below L s) p Hp Hl)) as (c & m & E & _ & _ & _ & mk & -> & Hm).
  rewrite E. apply Hm.
Qed.
Lemma lawful_honest : honest (l_cdok L) t s.
Proof.
  pose proof (l_depth L) as HD. pose proof (l_nw L) as Hnw.
  split.
  - intros q Hq. rewrite undigits_key. rewrite (l_data L s q Hwf Hq). eauto.
  - intros q x Hq Hx. rewrite elem_at_sem in Hx by done. rewrite undigits_key. by apply (l_data_u L).
  - destruct (l_new L s Hwf) as (c0 & Hn & _). by exists c0.
  - intros c0 xs p checked Hn Hr. destruct (l_new L s Hwf) as (c0' & Hn' & Hv). rewrite Hn in Hn'. injection Hn' as <-.
    assert (forall p i, path_ok (t_nw t) (length p) p -> S (length p) < D -> announced t s (p ++ [i]) -> l_tm L s p i = true) as Han.
    { intros p0 i0 Hp0 Hl0 (q & j & [-> [= ->]]%app_inj_tail & Hb). rewrite <- node_bit_tm; [done|done|lia]. }
    destruct (run_selects_gen L s (announced t s) c0 None None xs (Some (p, checked)) Hwf Hv Han Hr) as (c & m & E & Hp & Hl & HR & mk & -> & Hm).
    exists c, mk. split; [done|]. split; [apply Hm|]. split; [intros i; rewrite node_bit_tm by done; apply Hm|].
    intros Hlen i Hi. assert (path_ok (t_nw t) (D - 1) p) as Hp' by (split; [done|apply Hp]).
    assert (in_tree t D (p ++ [i])) as Hq.
    { replace D with (S (D - 1)) by lia. by apply path_ok_snoc. }
    rewrite elem_at_sem by done. split.
    + intros x Hx. eapply (l_cdata_u L s c p); try done. destruct checked; [by apply (l_Rk_Ru L)|done].
    + intros ->. exact (l_cdata L s c p i Hwf HR Hp' Hi).
  - intros q x n i Hq Hx Hi. assert (n < length q) as Hn by by eapply lookup_lt_Some. rewrite elem_at_sem in Hx by done.
    destruct Hq as [Hq1 Hq2]. rewrite node_bit_tm; [eapply (l_complete L); try done|..].
    + split; [done|by apply Forall_take].
    + rewrite take_length. lia.
  - intros p i Hp Hb. pose proof (path_ok_len _ _ _ Hp) as Hp1. assert (length p < D) as Hl by (destruct Hp; lia).
    rewrite node_bit_tm in Hb by done. assert (i < W)%N as Hi by (by eapply (l_bound L)). rewrite elem_at_sem; [by apply (l_terminal L)|].
    replace D with (S (D - 1)) by lia. by apply path_ok_snoc.
  - intros p i j Hp Hl Hi Hb. rewrite node_bit_tm in Hb.
    + rewrite node_bit_tm by (done || lia). by eapply (l_parent L).
    + by eapply path_ok_len, path_ok_snoc.
    + rewrite app_length. cbn. lia.
Qed.
Lemma lawful_honest_exact pk : (t_exact t = true -> hierarchy_exact pk L s) -> honest_exact pk t s.
Proof.
  intros He Hx p i Hp Hl Hb. rewrite node_bit_tm in Hb by done. destruct (He Hx p i Hp Hl Hb) as (r & Hr & Hor).
  exists r. split; [done|]. by rewrite elem_at_sem, undigits_key.
Qed.
Lemma lawful_honest_max : content L s USIZE_MAX = None -> honest_max t s.
Proof. intros Hm q Hq Hk. rewrite elem_at_sem by done. rewrite <- (content_path L s q Hq), <- undigits_key, Hk. exact Hm. Qed.
End back.
