(** * Two values of a tree type that answer alike
    If everything [s] answers, [s'] answers too, and [s] keeps the contract of Contract.v, so does [s']. *)
From Verif Require Import Base BitUtils BitUtilsProofs LevelIndices LevelIndicesProofs ConstLoops Hierarchy Lawful Spec TreeClient Contract.

(** a tree type like [t] (same masks, depth and elements) with other values and cursors *)
Record impl (t : tree) := Impl {
  i_T : Type; i_C : Type;
  i_data : i_T -> N -> list N -> res (option (t_V t));
  i_data_u : i_T -> N -> list N -> res (t_V t);
  i_new : i_T -> res i_C;
  i_select : i_T -> i_C -> nat -> N -> res (i_C * mask);
  i_select_u : i_T -> i_C -> nat -> N -> res (i_C * mask);
  i_cdata : i_T -> i_C -> N -> res (option (t_V t));
  i_cdata_u : i_T -> i_C -> N -> res (t_V t);
}.
Arguments i_T {t}. Arguments i_C {t}.
Definition retype (t : tree) (i : impl t) : tree := {|
  t_nw := t_nw t; t_depth := t_depth t; t_exact := t_exact t; t_T := i_T i; t_C := i_C i; t_V := t_V t;
  t_data := i_data t i; t_data_u := i_data_u t i; t_new := i_new t i; t_select := i_select t i;
  t_select_u := i_select_u t i; t_cdata := i_cdata t i; t_cdata_u := i_cdata_u t i |}.
(** [t] itself *)
Definition itself (t : tree) : impl t := Impl t (t_T t) (t_C t) (t_data t) (t_data_u t) (t_new t) (t_select t) (t_select_u t) (t_cdata t) (t_cdata_u t).
Lemma retype_itself t : retype t (itself t) = t.
Proof. by destruct t. Qed.

Record isim (t : tree) (i : impl t) (s : t_T t) (s' : i_T i) (Rc : t_C t -> i_C i -> Prop) : Prop := {
  ts_data : forall k q o, t_data t s k q = Ok o -> i_data t i s' k q = Ok o;
  ts_data_u : forall k q x, t_data_u t s k q = Ok x -> i_data_u t i s' k q = Ok x;
  ts_new : forall c, t_new t s = Ok c -> exists c', i_new t i s' = Ok c' /\ Rc c c';
  ts_select : forall c c' n j c1 m, Rc c c' -> t_select t s c n j = Ok (c1, m) -> exists c1', i_select t i s' c' n j = Ok (c1', m) /\ Rc c1 c1';
  ts_select_u : forall c c' n j c1 m, Rc c c' -> t_select_u t s c n j = Ok (c1, m) -> exists c1', i_select_u t i s' c' n j = Ok (c1', m) /\ Rc c1 c1';
  ts_cdata : forall c c' j o, Rc c c' -> t_cdata t s c j = Ok o -> i_cdata t i s' c' j = Ok o;
  ts_cdata_u : forall c c' j x, Rc c c' -> t_cdata_u t s c j = Ok x -> i_cdata_u t i s' c' j = Ok x;
}.
(** two values of the same type *)
Notation tsim t s s' Rc := (isim t (itself t) s s' Rc).
Arguments ts_data {t i s s' Rc}. Arguments ts_data_u {t i s s' Rc}. Arguments ts_new {t i s s' Rc}. Arguments ts_select {t i s s' Rc}.
Arguments ts_select_u {t i s s' Rc}. Arguments ts_cdata {t i s s' Rc}. Arguments ts_cdata_u {t i s s' Rc}.
Section same_type.
Context {t : tree} {s s' : t_T t} {Rc : t_C t -> t_C t -> Prop} (H : tsim t s s' Rc).
Lemma tt_data k q o : t_data t s k q = Ok o -> t_data t s' k q = Ok o.
Proof using H. exact (ts_data H k q o). Qed.
Lemma tt_data_u k q x : t_data_u t s k q = Ok x -> t_data_u t s' k q = Ok x.
Proof using H. exact (ts_data_u H k q x). Qed.
Lemma tt_new c : t_new t s = Ok c -> exists c', t_new t s' = Ok c' /\ Rc c c'.
Proof using H. exact (ts_new H c). Qed.
Lemma tt_select c c' n j c1 m : Rc c c' -> t_select t s c n j = Ok (c1, m) -> exists c1', t_select t s' c' n j = Ok (c1', m) /\ Rc c1 c1'.
Proof using H. exact (ts_select H c c' n j c1 m). Qed.
Lemma tt_select_u c c' n j c1 m : Rc c c' -> t_select_u t s c n j = Ok (c1, m) -> exists c1', t_select_u t s' c' n j = Ok (c1', m) /\ Rc c1 c1'.
Proof using H. exact (ts_select_u H c c' n j c1 m). Qed.
Lemma tt_cdata c c' j o : Rc c c' -> t_cdata t s c j = Ok o -> t_cdata t s' c' j = Ok o.
Proof using H. exact (ts_cdata H c c' j o). Qed.
Lemma tt_cdata_u c c' j x : Rc c c' -> t_cdata_u t s c j = Ok x -> t_cdata_u t s' c' j = Ok x.
Proof using H. exact (ts_cdata_u H c c' j x). Qed.
End same_type.

Section transfer.
Context (t : tree) (im : impl t) (s : t_T t) (s' : i_T im) (Rc : t_C t -> i_C im -> Prop) (Hts : isim t im s s' Rc) (b : bool).
Notation t' := (retype t im).
Context (Hnw : nw_ok (t_nw t)) (HD : 0 < t_depth t) (Hh : honest b t s).
Notation W := (msize (t_nw t)). Notation D := (t_depth t).

Local Lemma r_data k q o : t_data t s k q = Ok o -> t_data t' s' k q = Ok o.
Proof using Hts. exact (ts_data Hts k q o). Qed.
Local Lemma r_data_u k q o : t_data_u t s k q = Ok o -> t_data_u t' s' k q = Ok o.
Proof using Hts. exact (ts_data_u Hts k q o). Qed.
Local Lemma r_new c : t_new t s = Ok c -> exists c', t_new t' s' = Ok c' /\ Rc c c'.
Proof using Hts. exact (ts_new Hts c). Qed.
Local Lemma r_select c c' n j c1 m : Rc c c' -> t_select t s c n j = Ok (c1, m) -> exists c1', t_select t' s' c' n j = Ok (c1', m) /\ Rc c1 c1'.
Proof using Hts. exact (ts_select Hts c c' n j c1 m). Qed.
Local Lemma r_select_u c c' n j c1 m : Rc c c' -> t_select_u t s c n j = Ok (c1, m) -> exists c1', t_select_u t' s' c' n j = Ok (c1', m) /\ Rc c1 c1'.
Proof using Hts. exact (ts_select_u Hts c c' n j c1 m). Qed.
Local Lemma r_cdata c c' j o : Rc c c' -> t_cdata t s c j = Ok o -> t_cdata t' s' c' j = Ok o.
Proof using Hts. exact (ts_cdata Hts c c' j o). Qed.
Local Lemma r_cdata_u c c' j o : Rc c c' -> t_cdata_u t s c j = Ok o -> t_cdata_u t' s' c' j = Ok o.
Proof using Hts. exact (ts_cdata_u Hts c c' j o). Qed.

Local Ltac norm := change (t_nw t') with (t_nw t) in *; change (t_depth t') with D in *; change (t_V t') with (t_V t) in *.
Lemma run_selects_sim xs c c' m c1 m1 : Rc c c' -> run_selects t s c m xs = Ok (c1, m1) ->
  exists c1', run_selects t' s' c' m xs = Ok (c1', m1) /\ Rc c1 c1'.
Proof.
  revert c c' m. induction xs as [|x xs IH]; intros c c' m Hc E; cbn [run_selects] in *; [injection E as <- <-; eauto|].
  apply bind_ok_inv in E as ([c2 m2] & E1 & E). cbn beta iota in *. destruct (sel_unchecked x).
  - destruct (r_select_u _ _ _ _ _ _ Hc E1) as (c2' & -> & Hc2). rewrite bind_ok. eauto.
  - destruct (r_select _ _ _ _ _ _ Hc E1) as (c2' & -> & Hc2). rewrite bind_ok. eauto.
Qed.
Lemma elem_sim q : in_tree t D q -> elem_at t' s' q = elem_at t s q.
Proof. intros Hq. unfold elem_at. norm. destruct (h_data b t s Hh q Hq) as [o Ho]. pose proof (r_data _ _ _ Ho) as Ho'. by rewrite Ho, Ho'. Qed.
Lemma node_bit_sim p i : in_tree t (length p) p -> length p < D -> node_bit t' s' p i = node_bit t s p i.
Proof.
  intros Hp Hl. unfold node_bit. destruct (h_new b t s Hh) as [c0 Hc0]. destruct (r_new _ Hc0) as (c0' & Hc0' & HR).
  rewrite Hc0, Hc0', !bind_ok. destruct (h_session b t s Hh c0 _ _ _ Hc0 (descend_run t HD (announced t s) p Hp Hl)) as (c & mk & E & _).
  destruct (run_selects_sim _ _ _ _ _ _ HR E) as (c' & E' & _). by rewrite E, E'.
Qed.
Lemma announced_sim p : in_tree t (length p) p -> length p <= D -> announced t' s' p <-> announced t s p.
Proof.
  intros Hp Hl. split; intros (q & i & -> & Hb); exists q, i; (split; [done|]); rewrite app_length in Hl; cbn in Hl.
  all: assert (in_tree t (length q) q) as Hq by (split; [done|]; destruct Hp as [_ Hp]; by apply Forall_app in Hp as [? _]).
  - rewrite <- node_bit_sim; [done|done|lia].
  - rewrite node_bit_sim; [done|done|lia].
Qed.
Lemma sel_run_sim cur xs cur' : match cur with None => True | Some (p, _) => path_ok (t_nw t) (length p) p /\ length p < D end ->
  sel_run W D (announced t' s') cur xs cur' -> sel_run W D (announced t s) cur xs cur'.
Proof.
  intros Hc Hr. induction Hr as [cur|cur x cur1 xs cur2 Hs Hr IH]; [constructor|].
  pose proof (sel_run_path t HD (announced t' s') cur [x] cur1 Hc ltac:(econstructor; [done|constructor])) as Hc1.
  econstructor; [|by apply IH]. unfold sel_step in *. destruct x as [[|n] i u]; cbn [sel_level sel_index sel_unchecked] in *; [done|].
  destruct Hs as (p & ch & -> & H1 & H2 & H3 & H4 & ->). exists p, ch. split_and!; try done. destruct u; [|done].
  apply announced_sim; [| |done]; destruct Hc1; [done|lia].
Qed.
Lemma honest_sim : honest b t' s'.
Proof.
  constructor; norm.
  - intros q Hq. destruct (h_data b t s Hh q Hq) as [o Ho]. exists o. by apply r_data.
  - intros q x Hq. rewrite elem_sim by done. intros Hx. apply r_data_u. by apply (h_data_u b t s Hh).
  - destruct (h_new b t s Hh) as [c0 Hc0]. destruct (r_new _ Hc0) as (c0' & Hc0' & HR). eauto.
  - intros c0' xs p ch Hc0' Hr. destruct (h_new b t s Hh) as [c0 Hc0]. destruct (r_new _ Hc0) as (c0'' & E & HR). rewrite Hc0' in E. injection E as <-.
    pose proof (sel_run_path t HD (announced t' s') None xs _ I Hr) as [Hp Hl].
    destruct (h_session b t s Hh c0 xs p ch Hc0 (sel_run_sim None xs _ I Hr)) as (c & mk & E & Hm & Hbit & Hel).
    destruct (run_selects_sim _ _ _ _ _ _ HR E) as (c' & E' & HR'). exists c', mk. split; [done|]. split; [done|]. split.
    + intros i. rewrite node_bit_sim by done. apply Hbit.
    + intros Hlen i Hi. assert (in_tree t D (p ++ [i])) as Hq.
      { destruct Hp as [_ Hp]. split; [rewrite app_length; cbn; lia|]. apply Forall_app. split; [done|]. by constructor. }
      rewrite elem_sim by done. destruct (Hel Hlen i Hi) as [Hu Hc]. split.
      * intros x Hx. apply (r_cdata_u c); [done|]. by apply Hu.
      * intros Hch. destruct (Hc Hch) as (d & Hd & Hd1 & Hd2). exists d. split; [by apply (r_cdata c)|done].
  - intros q x n i Hq. rewrite elem_sim by done. intros Hx Hn. pose proof (lookup_lt_Some _ _ _ Hn). destruct Hq as [Hq1 Hq2].
    rewrite node_bit_sim; [by eapply (h_complete b t s Hh)| |rewrite take_length; lia]. split; [done|]. by apply Forall_take.
  - intros p i [Hp1 Hp2]. rewrite node_bit_sim; [|by split|lia]. intros Hb. destruct (h_terminal b t s Hh p i (conj Hp1 Hp2) Hb) as [x Hx].
    exists x. unfold elem_at in *. norm. destruct (t_data t s _ _) as [o| | |] eqn:E; try done. pose proof (r_data _ _ _ E) as E'. by rewrite E'.
  - intros p i j Hp Hl Hi. rewrite !node_bit_sim; [by apply (h_parent b t s Hh)|done|lia| |rewrite app_length; cbn; lia].
    destruct Hp as [_ Hp2]. split; [done|]. apply Forall_app. split; [done|by constructor].
Qed.
Lemma honest_exact_sim pk : honest_exact pk t s -> honest_exact pk t' s'.
Proof.
  intros He Hx p i Hp Hl. rewrite node_bit_sim by done. intros Hb. destruct (He Hx p i Hp Hl Hb) as (r & Hr & H). exists r. split; [done|]. by rewrite elem_sim.
Qed.
Lemma honest_max_sim : honest_max t s -> honest_max t' s'.
Proof. intros H q Hq Hu. rewrite elem_sim by done. by apply H. Qed.
End transfer.
