(** * `multi_union` whose operands are references into a memory that may change

    In the model of Ops.v a cursor of `MultiUnion` holds, like the code
    (_multi_union.rs:123-138, `cursors: ArrayVec<(&Tree, Tree::Cursor), 32>`), pairs of an operand
    and its cursor; the operand is a value there.  Where several trees live in one memory
    (DenseWorld.v) the reference has to be read in the memory of the moment: here the cursor
    keeps the operands' cursors only, and its [j]-th reference is the [j]-th operand of the
    source, which is where `Cursor::new` took it from (_multi_union.rs:155-169).  Everything else is the
    functions of Ops.v.  Used by WorldSpec.v. *)
From Verif Require Import Base BitUtils BitUtilsProofs LevelIndices LevelIndicesProofs ConstLoops Hierarchy Ops TreeTransfer.

(** drop the references *)
Definition mu_strip {T C} (c : mu_cursor T C) : list C * list (list N) := ((mu_cursors c).*2, mu_lvls c).
(** and take them from the source *)
Definition mu_link {T C} (s : list T) (c : list C * list (list N)) : mu_cursor T C := MUCursor (zip s (fst c)) (snd c).
(** `MultiUnion` _multi_union.rs:20-68, 140-250, by the functions of Ops.v *)
Definition t_multi_union_ref (t : tree) : tree := {|
  t_nw := t_nw t; t_depth := t_depth t; t_exact := t_exact t;
  t_T := list (t_T t);
  t_C := list (t_C t) * list (list N);
  t_V := list (t_V t);
  t_data := t_data (t_multi_union t);                                            (* 37-54 *)
  t_data_u := t_data_u (t_multi_union t);                                        (* 57-65 *)
  t_new := fun s => let* c := t_new (t_multi_union t) s in Ok (mu_strip c);      (* 155-169 *)
  t_select := fun s c n i => let* (c, m) := mu_select t s (mu_link s c) n i in Ok (mu_strip c, m); (* 172-177 *)
  t_select_u := fun s c n i => let* (c, m) := mu_select t s (mu_link s c) n i in Ok (mu_strip c, m); (* 180-222 *)
  t_cdata := fun s c i => mu_cdata t s (mu_link s c) i;                          (* 225-243 *)
  t_cdata_u := fun s c i => let* d := mu_cdata t s (mu_link s c) i in unwrap_u d; (* 246-250 *)
|}.

Local Ltac inv H := apply bind_ok_inv in H as (? & ? & H); cbn beta iota in H.

(** ** it answers what the [multi_union] of Ops.v answers *)
Section same.
Context (t : tree).
Definition mu_impl : impl (t_multi_union t) :=
  let t' := t_multi_union_ref t in
  Impl (t_multi_union t) (t_T t') (t_C t') (t_data t') (t_data_u t') (t_new t') (t_select t') (t_select_u t') (t_cdata t') (t_cdata_u t').
Lemma mu_retype : retype (t_multi_union t) mu_impl = t_multi_union_ref t.
Proof. done. Qed.

Lemma collect_fst s cap (l : list (t_T t * t_C t)) : arrayvec_collect (fun a => let* c := t_new t a in Ok (a, c)) cap s = Ok l -> l.*1 = s.
Proof.
  revert cap l. induction s as [|a s IH]; intros cap l E; cbn [arrayvec_collect] in E; [by injection E as <-|].
  inv E. inv H. injection H as <-. destruct cap; [done|]. inv E. injection E as <-. apply IH in H. by rewrite fmap_cons, H.
Qed.
Lemma root_fst n i cs acc cs' m : mu_select_root t n i cs acc = Ok (cs', m) -> cs'.*1 = cs.*1.
Proof.
  revert acc cs' m. induction cs as [|[a c] cs IH]; intros acc cs' m E; cbn [mu_select_root] in E; [by injection E as <- _|].
  inv E. destruct x as [c1 m1]. cbn beta iota in E. inv E. destruct x as [cs1 acc1]. injection E as <- _. apply IH in H0. by rewrite !fmap_cons, H0.
Qed.
Lemma foreach_fst n i idx cs pushed acc cs' p' m : mu_foreach t n i idx cs pushed acc = Ok (cs', p', m) -> cs'.*1 = cs.*1.
Proof.
  revert cs pushed acc. induction idx as [|j idx IH]; intros cs pushed acc E; cbn [mu_foreach] in E; [by injection E as <- _ _|].
  inv E. destruct x as [a c]. cbn beta iota in E. inv E. destruct x as [c1 m1]. cbn beta iota in E. inv E. apply IH in E. rewrite E.
  unfold get_u in H. destruct (cs !! N.to_nat j) as [x0|] eqn:Ej; [|done]. injection H as ->.
  unfold set_u in H1. destruct (decide _) as [Hd|Hd]; [|done]. injection H1 as <-. rewrite list_fmap_insert. cbn.
  apply list_insert_id. by rewrite list_lookup_fmap, Ej.
Qed.
Lemma select_fst s c n i c' m : mu_select t s c n i = Ok (c', m) -> (mu_cursors c').*1 = (mu_cursors c).*1.
Proof.
  intros E. unfold mu_select in E. case_decide.
  - inv E. destruct x as [cs acc]. injection E as <- _. by apply root_fst in H0.
  - inv E. inv E. inv E. destruct x1 as [[cs p] acc]. cbn beta iota in E. inv E. injection E as <- _. by apply foreach_fst in H2.
Qed.
Lemma zip_back {A B} (s : list A) (l : list (A * B)) : l.*1 = s -> zip s l.*2 = l.
Proof. intros <-. apply zip_fst_snd. Qed.
Definition mu_linked (s : list (t_T t)) (c : mu_cursor (t_T t) (t_C t)) (c' : list (t_C t) * list (list N)) : Prop :=
  c' = mu_strip c /\ (mu_cursors c).*1 = s.
Lemma linked_link s c c' : mu_linked s c c' -> mu_link s c' = c.
Proof. intros [-> H]. destruct c as [cs lv]. unfold mu_link, mu_strip. cbn in *. by rewrite zip_back. Qed.
Lemma mu_ref_sim s : isim (t_multi_union t) mu_impl s s (mu_linked s).
Proof.
  assert (forall c c' n j c1 m, mu_linked s c c' -> mu_select t s c n j = Ok (c1, m) ->
    exists c1', t_select (t_multi_union_ref t) s c' n j = Ok (c1', m) /\ mu_linked s c1 c1') as Hs.
  { intros c c' n j c1 m Hc E. cbn [t_multi_union_ref t_select]. rewrite (linked_link s c) by done. rewrite E, bind_ok. cbn beta iota. eexists. split; [done|].
    split; [done|]. rewrite (select_fst _ _ _ _ _ _ E). apply Hc. }
  constructor.
  - done.
  - done.
  - intros c E. exists (mu_strip c). split; [cbn -[t_multi_union]; by rewrite E|]. split; [done|]. cbn [t_multi_union t_new] in E. inv E. injection E as <-. by apply collect_fst in H.
  - exact Hs.
  - exact Hs.
  - intros c c' j o Hc E. cbn [mu_impl i_cdata t_multi_union_ref t_cdata]. by rewrite (linked_link s c).
  - intros c c' j o Hc E. cbn [mu_impl i_cdata_u t_multi_union_ref t_cdata_u]. by rewrite (linked_link s c).
Qed.
End same.

(** ** if every operand answers the same, so do [multi_union] and [multi_intersection] *)
Section multi.
Context (t : tree).
Notation same_pair := (fun p q : t_T t * t_C t => tsim t p.1 q.1 eq /\ p.2 = q.2).

Lemma all_equal {A} (l l' : list A) : Forall2 (=) l l' -> l = l'.
Proof. induction 1 as [|a b l l' -> _ ->]; done. Qed.
Lemma zip_snds {A B C} (s : list A) (s' : list C) (x x' : list B) : length x = length s -> length x' = length s' -> Forall2 (fun p q => p.2 = q.2) (zip s x) (zip s' x') -> x = x'.
Proof. intros H H' Hx. rewrite <- (snd_zip s x), <- (snd_zip s' x') by lia. apply all_equal, Forall2_fmap. exact Hx. Qed.
Lemma zip_second {A B C D} (s : list A) (s' : list C) (x : list (D * B)) (x' : list (D * B)) :
  Forall2 (fun p q => p.2.2 = q.2.2) (zip s x) (zip s' x') -> Forall2 (fun p q => p.2 = q.2) (zip s x.*2) (zip s' x'.*2).
Proof.
  revert s' x x'. induction s as [|a s IH]; intros s' x x' H.
  - inversion H as [E E'|]. destruct s' as [|b s']; [constructor|]. destruct x'; [constructor|done].
  - destruct x as [|y x]; cbn in *.
    + inversion H as [E E'|]. destruct s' as [|b s']; [constructor|]. destruct x'; [constructor|done].
    + destruct s' as [|b s']; [by inversion H|]. destruct x' as [|y' x']; [by inversion H|]. cbn in *.
      apply Forall2_cons in H as [H1 H2]. constructor; [done|by apply IH].
Qed.
Lemma sim_rmap {A B} (f g : A -> res B) (P : A -> A -> Prop) s s' r : (forall a a' b, P a a' -> f a = Ok b -> g a' = Ok b) ->
  Forall2 P s s' -> rmap f s = Ok r -> rmap g s' = Ok r.
Proof.
  intros Hf Hs. revert r. induction Hs as [|a a' s s' Ha Hs IH]; intros r E; cbn [rmap] in *; [done|].
  inv E. rewrite (Hf _ _ _ Ha H), bind_ok. inv E. by rewrite (IH _ H0), bind_ok.
Qed.
Lemma sim_mi_data s s' k li acc o : Forall2 (fun a a' => tsim t a a' eq) s s' -> mi_data_loop t s k li acc = Ok o -> mi_data_loop t s' k li acc = Ok o.
Proof.
  intros Hs. revert acc. induction Hs as [|a a' s s' Ha Hs IH]; intros acc E; cbn [mi_data_loop] in *; [done|].
  inv E. pose proof (ts_data Ha _ _ _ H) as H'. cbn [itself i_data] in H'. rewrite H', bind_ok. destruct x; [|done]. destruct (decide _); [by apply IH|done].
Qed.
Lemma sim_mu_data s s' k li acc o : Forall2 (fun a a' => tsim t a a' eq) s s' -> mu_data_loop t s k li acc = Ok o -> mu_data_loop t s' k li acc = Ok o.
Proof.
  intros Hs. revert acc. induction Hs as [|a a' s s' Ha Hs IH]; intros acc E; cbn [mu_data_loop] in *; [done|].
  inv E. pose proof (ts_data Ha _ _ _ H) as H'. cbn [itself i_data] in H'. rewrite H', bind_ok. destruct x; [|by apply IH]. destruct (decide _); [by apply IH|done].
Qed.
Lemma sim_mu_data_u s s' k li o : Forall2 (fun a a' => tsim t a a' eq) s s' -> mu_data_u_loop t s k li = Ok o -> mu_data_u_loop t s' k li = Ok o.
Proof.
  intros Hs. revert o. induction Hs as [|a a' s s' Ha Hs IH]; intros o E; cbn [mu_data_u_loop] in *; [done|].
  inv E. pose proof (ts_data Ha _ _ _ H) as H'. cbn [itself i_data] in H'. rewrite H', bind_ok. inv E. by rewrite (IH _ H0), bind_ok.
Qed.
Lemma sim_collect {A B} (f g : A -> res B) (P : A -> A -> Prop) s s' cap r (R : A -> A -> B -> B -> Prop) :
  (forall a a' b, P a a' -> f a = Ok b -> exists b', g a' = Ok b' /\ R a a' b b') -> Forall2 P s s' -> arrayvec_collect f cap s = Ok r ->
  exists r', arrayvec_collect g cap s' = Ok r' /\ Forall2 (fun p q => R p.1 q.1 p.2 q.2) (zip s r) (zip s' r') /\ length r = length s /\ length r' = length s'.
Proof.
  intros Hf Hs. revert cap r. induction Hs as [|a a' s s' Ha Hs IH]; intros cap r E; cbn [arrayvec_collect] in *.
  - injection E as <-. exists []. split; [done|]. cbn. by split; [constructor|].
  - inv E. destruct (Hf _ _ _ Ha H) as (b' & -> & HR). rewrite bind_ok. destruct cap; [done|]. inv E. injection E as <-.
    destruct (IH _ _ H0) as (r' & -> & H1 & H2 & H3). rewrite bind_ok. eexists. split; [done|]. cbn. by split; [constructor|split; f_equal].
Qed.
Lemma sim_rest sel sel' srcs srcs' cs acc cs1 m : Forall2 (fun a a' => forall c c1 m, sel a c = Ok (c1, m) -> sel' a' c = Ok (c1, m)) srcs srcs' ->
  mi_select_rest t sel srcs cs acc = Ok (cs1, m) -> mi_select_rest t sel' srcs' cs acc = Ok (cs1, m).
Proof.
  intros Hs. revert srcs srcs' Hs acc cs1 m. induction cs as [|c cs IH]; intros srcs srcs' Hs acc cs1 m E; destruct Hs as [|a a' srcs srcs' Ha Hs]; cbn [mi_select_rest] in *; try done.
  inv E. destruct x as [c1 m1]. cbn beta iota in E. rewrite (Ha _ _ _ H), bind_ok. cbn beta iota.
  inv E. destruct x as [cs2 m2]. rewrite (IH _ _ Hs _ _ _ H0). by rewrite bind_ok.
Qed.
Lemma sim_all sel sel' srcs srcs' cs o : Forall2 (fun a a' => forall c c1 m, sel a c = Ok (c1, m) -> sel' a' c = Ok (c1, m)) srcs srcs' ->
  mi_select_all t sel srcs cs = Ok o -> mi_select_all t sel' srcs' cs = Ok o.
Proof.
  intros Hs E. destruct cs as [|c cs]; cbn [mi_select_all] in *; [done|]. destruct Hs as [|a a' srcs srcs' Ha Hs]; [done|].
  inv E. destruct x as [c1 m1]. cbn beta iota in E. rewrite (Ha _ _ _ H), bind_ok. cbn beta iota.
  inv E. destruct x as [cs2 m2]. by erewrite sim_rest; [|exact Hs|exact H0].
Qed.
Lemma sim_mi_cdata s s' cs i o : Forall2 (fun a a' => tsim t a a' eq) s s' -> mi_cursor_data t s cs i = Ok o -> mi_cursor_data t s' cs i = Ok o.
Proof.
  intros Hs. revert s s' Hs o. induction cs as [|c cs IH]; intros s s' Hs o E; destruct Hs as [|a a' s s' Ha Hs]; cbn [mi_cursor_data] in *; try done.
  inv E. pose proof (ts_cdata_u Ha _ _ _ _ eq_refl H) as H'. cbn [itself i_cdata_u] in H'. rewrite H', bind_ok. inv E. by rewrite (IH _ _ Hs _ H0), bind_ok.
Qed.
Lemma tsim_multi_intersection s s' : Forall2 (fun a a' => tsim t a a' eq) s s' -> tsim (t_multi_intersection t) s s' eq.
Proof.
  intros Hs. constructor; cbn [itself i_data i_data_u i_new i_select i_select_u i_cdata i_cdata_u i_T i_C t_multi_intersection t_data t_data_u t_new t_select t_select_u t_cdata t_cdata_u t_T t_C t_V].
  - intros k li o. by apply sim_mi_data.
  - intros k li o. apply (sim_rmap _ _ (fun a a' => tsim t a a' eq)); [|done]. intros a a' b Ha. exact (ts_data_u Ha _ _ _).
  - intros c E. inv E. injection E as <-.
    destruct (sim_collect (t_new t) (t_new t) (fun a a' => tsim t a a' eq) s s' MULTI_N x (fun _ _ b b' => b = b')) as (x' & -> & Hx & Hl & Hl'); [|done|done|].
    { intros a a' b Ha Eb. destruct (ts_new Ha _ Eb) as (b' & Eb' & Hb). exists b'. done. }
    rewrite bind_ok. eexists. split; [done|]. f_equal. by eapply zip_snds.
  - intros c ? n i c1 m <- E. exists c1. split; [|done]. unfold mi_select in *. destruct (_ <? _)%N; [done|]. inv E.
    rewrite (sim_all (fun a c => t_select t a c n i) (fun a c => t_select t a c n i) s s' (mi_cursors c) x); [by rewrite bind_ok| |done].
    eapply Forall2_impl; [exact Hs|]. intros a a' Ha c2 c3 m' E2. by destruct (ts_select Ha c2 c2 _ _ _ _ eq_refl E2) as (? & ? & ->).
  - intros c ? n i c1 m <- E. exists c1. split; [|done]. unfold mi_select_u in *. inv E.
    rewrite (sim_all (fun a c => t_select_u t a c n i) (fun a c => t_select_u t a c n i) s s' (mi_cursors c) x); [by rewrite bind_ok| |done].
    eapply Forall2_impl; [exact Hs|]. intros a a' Ha c2 c3 m' E2. by destruct (ts_select_u Ha c2 c2 _ _ _ _ eq_refl E2) as (? & ? & ->).
  - intros c ? i o <- E. inv E. rewrite H, bind_ok. destruct x; [|done]. inv E. by rewrite (sim_mi_cdata _ _ _ _ _ Hs H0), bind_ok.
  - intros c ? i o <- E. by eapply sim_mi_cdata.
Qed.

Lemma sim_root n i cs cs' acc r m : Forall2 same_pair cs cs' -> mu_select_root t n i cs acc = Ok (r, m) ->
  exists r', mu_select_root t n i cs' acc = Ok (r', m) /\ Forall2 same_pair r r'.
Proof.
  intros Hs. revert acc r. induction Hs as [|[a c] [a' c'] cs cs' [Ha Hc] Hs IH]; intros acc r E; cbn [mu_select_root fst snd] in *.
  - injection E as <- <-. by exists [].
  - subst c'. inv E. destruct x as [c1 m1]. cbn beta iota in E. destruct (ts_select Ha c c _ _ _ _ eq_refl H) as (c1' & E1 & <-). cbn [itself i_select] in E1. rewrite E1, bind_ok. cbn beta iota.
    inv E. destruct x as [cs2 m2]. injection E as <- <-. destruct (IH _ _ H0) as (r' & -> & Hr). rewrite bind_ok. eexists. split; [done|]. by constructor.
Qed.
Lemma sim_foreach n i idx cs cs' pushed acc r p m : Forall2 same_pair cs cs' -> mu_foreach t n i idx cs pushed acc = Ok (r, p, m) ->
  exists r', mu_foreach t n i idx cs' pushed acc = Ok (r', p, m) /\ Forall2 same_pair r r'.
Proof.
  revert cs cs' pushed acc. induction idx as [|j idx IH]; intros cs cs' pushed acc Hs E; cbn [mu_foreach] in *.
  - injection E as <- <- <-. by exists cs'.
  - inv E. destruct x as [a c]. cbn beta iota in E. unfold get_u in *. destruct (cs !! N.to_nat j) as [x|] eqn:Ej; [|done]. injection H as ->.
    destruct (Forall2_lookup_l _ _ _ _ _ Hs Ej) as ([a' c'] & -> & [Ha Hc]). cbn [fst snd] in Ha, Hc. subst c'. rewrite bind_ok. cbn beta iota.
    inv E. destruct x as [c1 m1]. cbn beta iota in E. destruct (ts_select Ha c c _ _ _ _ eq_refl H) as (c1' & E1 & <-). cbn [itself i_select] in E1. rewrite E1, bind_ok. cbn beta iota.
    inv E. unfold set_u in *. rewrite <- (Forall2_length _ _ _ Hs). destruct (decide _); [|done]. injection H0 as <-. rewrite bind_ok. eapply IH; [|exact E]. apply Forall2_insert; [done|]. done.
Qed.
Lemma zip_same s s' (cs : list (t_C t)) : Forall2 (fun a a' => tsim t a a' eq) s s' -> Forall2 same_pair (zip s cs) (zip s' cs).
Proof. intros Hs. revert cs. induction Hs as [|a a' s s' Ha Hs IH]; intros [|c cs]; cbn; constructor; [done|apply IH]. Qed.
Lemma same_snd l l' : Forall2 same_pair l l' -> l.*2 = l'.*2.
Proof. induction 1 as [|[a c] [a' c'] l l' [_ Hc] _ IH]; cbn in *; [done|]. by rewrite Hc, IH. Qed.
Lemma sim_mu_select s s' c n i c1 m : Forall2 (fun a a' => tsim t a a' eq) s s' -> mu_select t s (mu_link s c) n i = Ok (c1, m) ->
  exists c1', mu_select t s' (mu_link s' c) n i = Ok (c1', m) /\ mu_strip c1' = mu_strip c1.
Proof.
  intros Hs E. pose proof (zip_same s s' (fst c) Hs) as Hz. unfold mu_select, mu_link in *. cbn [mu_cursors mu_lvls] in *. case_decide.
  - inv E. destruct x as [cs acc]. injection E as <- <-. destruct (sim_root _ _ _ _ _ _ _ Hz H0) as (r' & -> & Hr). rewrite bind_ok. eexists. split; [done|].
    unfold mu_strip. cbn. by rewrite (same_snd _ _ Hr).
  - inv E. rewrite H0, bind_ok. rewrite <- (Forall2_length _ _ _ Hz). inv E. rewrite H1, bind_ok. inv E. destruct x1 as [[cs p] acc]. cbn beta iota in E.
    destruct (sim_foreach _ _ _ _ _ _ _ _ _ _ Hz H2) as (r' & -> & Hr). rewrite bind_ok. cbn beta iota. inv E. rewrite H3, bind_ok. injection E as <- <-. eexists. split; [done|].
    unfold mu_strip. cbn. by rewrite (same_snd _ _ Hr).
Qed.
Lemma sim_mu_cursor_data idx l l' i o : Forall2 same_pair l l' -> mu_cursor_data t idx l i = Ok o -> mu_cursor_data t idx l' i = Ok o.
Proof.
  intros Hs. revert o. induction idx as [|j idx IH]; intros o E; cbn [mu_cursor_data] in *; [done|]. inv E. destruct x as [a c]. cbn beta iota in E.
  unfold get_u in *. destruct (l !! N.to_nat j) as [x|] eqn:Ej; [|done]. injection H as ->.
  destruct (Forall2_lookup_l _ _ _ _ _ Hs Ej) as ([a' c'] & -> & [Ha Hc]). cbn [fst snd] in Ha, Hc. subst c'. rewrite bind_ok. cbn beta iota.
  inv E. pose proof (ts_cdata Ha _ _ _ _ eq_refl H) as H'. cbn [itself i_cdata] in H'. rewrite H', bind_ok. inv E. by rewrite (IH _ H0), bind_ok.
Qed.
Lemma sim_mu_cdata s s' c i o : Forall2 (fun a a' => tsim t a a' eq) s s' -> mu_cdata t s (mu_link s c) i = Ok o -> mu_cdata t s' (mu_link s' c) i = Ok o.
Proof.
  intros Hs E. pose proof (zip_same s s' (fst c) Hs) as Hz. unfold mu_cdata, mu_link in *. cbn [mu_cursors mu_lvls] in *. case_decide; [done|]. inv E. rewrite H0, bind_ok.
  destruct x; [done|]. inv E. by rewrite (sim_mu_cursor_data _ _ _ _ _ Hz H1), bind_ok.
Qed.
Lemma tsim_multi_union s s' : Forall2 (fun a a' => tsim t a a' eq) s s' -> tsim (t_multi_union_ref t) s s' eq.
Proof.
  intros Hs. constructor; cbn [itself i_data i_data_u i_new i_select i_select_u i_cdata i_cdata_u i_T i_C t_multi_union_ref t_multi_union t_data t_data_u t_new t_select t_select_u t_cdata t_cdata_u t_T t_C t_V].
  - intros k li o E. inv E. by rewrite (sim_mu_data _ _ _ _ _ _ Hs H), bind_ok.
  - intros k li o. by apply sim_mu_data_u.
  - intros c E. inv E. inv H. injection H as <-. injection E as <-.
    edestruct (sim_collect (fun a => let* c := t_new t a in Ok (a, c)) (fun a => let* c := t_new t a in Ok (a, c)) (fun a a' => tsim t a a' eq) s s' MULTI_N x0 (fun _ _ b b' => b.2 = b'.2)) as (x' & -> & Hx & Hl & Hl'); [|done|done|].
    { intros a a' b Ha Eb. inv Eb. injection Eb as <-. destruct (ts_new Ha _ H) as (b' & Eb' & <-). cbn [itself i_new] in Eb'. rewrite Eb', bind_ok. eexists. split; [done|done]. }
    rewrite !bind_ok. eexists. split; [done|]. unfold mu_strip. cbn. f_equal. apply Forall2_length in Hs.
    eapply zip_snds; [by rewrite fmap_length|by rewrite fmap_length|]. clear -Hx. by apply zip_second.
  - intros c ? n i c1 m <- E. exists c1. split; [|done]. inv E. destruct x as [c2 m2]. injection E as <- <-. destruct (sim_mu_select _ _ _ _ _ _ _ Hs H) as (c1' & E1 & Hc). etrans; [apply (f_equal (fun r => let* (c, m) := r in Ok (mu_strip c, m)) E1)|]. cbn. by rewrite Hc.
  - intros c ? n i c1 m <- E. exists c1. split; [|done]. inv E. destruct x as [c2 m2]. injection E as <- <-. destruct (sim_mu_select _ _ _ _ _ _ _ Hs H) as (c1' & E1 & Hc). etrans; [apply (f_equal (fun r => let* (c, m) := r in Ok (mu_strip c, m)) E1)|]. cbn. by rewrite Hc.
  - intros c ? i o <- E. by apply (sim_mu_cdata s).
  - intros c ? i o <- E. inv E. etrans; [apply (f_equal (fun r => let* d := r in unwrap_u d) (sim_mu_cdata _ _ _ _ _ Hs H))|]. by rewrite bind_ok.
Qed.
Lemma tsim_fold {X A} (items : t_V t -> list X) (init : A) (f : A -> X -> A) s s' Rc : tsim t s s' Rc -> tsim (t_multi_map_fold t items init f) s s' Rc.
Proof.
  intros H. constructor; cbn [itself i_data i_data_u i_new i_select i_select_u i_cdata i_cdata_u i_T i_C t_multi_map_fold t_data t_data_u t_new t_select t_select_u t_cdata t_cdata_u t_T t_C t_V].
  - intros k q o E. inv E. pose proof (ts_data H _ _ _ H0) as H'. cbn [itself i_data] in H'. by rewrite H', bind_ok.
  - intros k q o E. inv E. pose proof (ts_data_u H _ _ _ H0) as H'. cbn [itself i_data_u] in H'. by rewrite H', bind_ok.
  - apply H.
  - apply H.
  - apply H.
  - intros c c' i o Hc E. inv E. pose proof (ts_cdata H _ _ _ _ Hc H0) as H'. cbn [itself i_cdata] in H'. by rewrite H', bind_ok.
  - intros c c' i o Hc E. inv E. pose proof (ts_cdata_u H _ _ _ _ Hc H0) as H'. cbn [itself i_cdata_u] in H'. by rewrite H', bind_ok.
Qed.
End multi.
