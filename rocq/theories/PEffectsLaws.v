(** * What closures with side effects and panics do, anywhere in an expression *)
From Verif Require Import Base BitUtils BitUtilsProofs BitQueue LevelIndices LevelIndicesProofs ConstLoops Hierarchy Lawful IterProofs Ops OpsProofs MultiProofs Spec Dense
  Client TreeClient Generic Compose ViewLaws EffectsLaws PEffects.

Section laws.
Context {St : Type}.

(** ** specification
    An evaluation changes the state and gives a value, or [None]: a user function panicked. *)
Definition ans (X : Type) : Type := St -> option X * St.
Definition aret {X} (x : X) : ans X := fun st => (Some x, st).
(** one after the other; a panic ends it *)
Definition abind {X Y} (m : ans X) (k : X -> ans Y) : ans Y := fun st =>
  let '(o, st) := m st in match o with Some x => k x st | None => (None, st) end.
(** the consumer evaluates one entry, takes its element (if it has one), evaluates the next entry, .. *)
Fixpoint feed {X A W} (c : consumer St X A W) (l : list (ans (option X))) (a : A) : ans W :=
  match l with
  | [] => c_end c a
  | m :: l => abind m (fun o => match o with
    | None => feed c l a
    | Some x => abind (c_step c a x) (fun r => match r with inl a => feed c l a | inr w => aret w end)
    end)
  end.
Definition consume {X A W} (c : consumer St X A W) (l : list (ans (option X))) : ans W := abind (c_init c tt) (feed c l).
(** all entries are evaluated, up to the first without an element *)
Fixpoint all_of {X} (l : list (ans (option X))) : ans (option (list X)) :=
  match l with
  | [] => aret (Some [])
  | m :: l => abind m (fun o => match o with
    | None => aret None
    | Some x => abind (all_of l) (fun r => aret (match r with Some xs => Some (x :: xs) | None => None end))
    end)
  end.
(** all entries are evaluated; the elements there are *)
Fixpoint some_of {X} (l : list (ans (option X))) : ans (list X) :=
  match l with
  | [] => aret []
  | m :: l => abind m (fun o => abind (some_of l) (fun xs => aret (match o with Some x => x :: xs | None => xs end)))
  end.

(** [pview b E]: the expression [E] is built by `map` with such functions, `intersection`, `union`, and
    `multi_intersection` and `multi_union` whose data iterators are consumed by such a function
    (`multi_map_fold`, `map`), from views (Compose.v) *)
Inductive pview : bool -> ptree St -> Type :=
| PView b t : view b t -> pview b (p_pure t)
| PMap b E W : pview b E -> pview b (p_map E W)
| PIntersection b0 b1 E0 E1 : t_nw (p_t E1) = t_nw (p_t E0) -> t_depth (p_t E1) = t_depth (p_t E0) ->
    pview b0 E0 -> pview b1 E1 -> pview (b0 && b1) (p_intersection E0 E1)
| PUnion E0 E1 : t_nw (p_t E1) = t_nw (p_t E0) -> t_depth (p_t E1) = t_depth (p_t E0) ->
    pview true E0 -> pview true E1 -> pview true (p_union E0 E1)
| PMultiIntersection b E A W : pview b E -> pview true (p_multi_intersection E A W)
| PMultiUnion E A W : 2 <= t_depth (p_t E) -> pview true E -> pview false (p_multi_union E A W).
(** the closure-free view underneath *)
Fixpoint punder {b E} (x : pview b E) : view b (p_t E) :=
  match x in pview b E return view b (p_t E) with
  | PView b t v => v
  | PMap b E W x => punder x
  | PIntersection b0 b1 E0 E1 Hn Hd x0 x1 => VIntersection b0 b1 (p_t E0) (p_t E1) Hn Hd (punder x0) (punder x1)
  | PUnion E0 E1 Hn Hd x0 x1 => VUnion (p_t E0) (p_t E1) Hn Hd (punder x0) (punder x1)
  | PMultiIntersection b E A W x => VMultiIntersection b (p_t E) (punder x)
  | PMultiUnion E A W HD x => VMultiUnion (p_t E) HD (punder x)
  end.
(** does the expression, closures erased, have an element for the key? *)
Definition phas (E : ptree St) (s : p_S E) (k : N) : bool := match got (p_t E) (p_src E s) k with Some _ => true | None => false end.
(** .. or for one of the [msize] keys (64, 128 or 256, aligned) that share its last node? *)
Definition near (E : ptree St) (k : N) (s : p_S E) : bool :=
  let w := msize (t_nw (p_t E)) in existsb (fun j => phas E s (k / w * w + j)) (seqN 0 (N.to_nat w)).

(** how an element is asked for: by `get`, by `get_unchecked`, by an iterator *)
Inductive mode := Get | GetU | It.
Definition checked (m : mode) : mode := match m with GetU => Get | _ => m end.
(** evaluating an expression for one key *)
Fixpoint pev {b E} (x : pview b E) : mode -> p_S E -> N -> ans (option (p_V E)) :=
  match x in pview b E return mode -> p_S E -> N -> ans (option (p_V E)) with
  | PView b t v => fun m s k => aret (got t s k)
  | PMap b E W x => fun m s k =>
    abind (pev x m (fst s) k) (fun o => match o with Some y => abind (snd s y) (fun w => aret (Some w)) | None => aret None end)
  | PIntersection b0 b1 E0 E1 _ _ x0 x1 => fun m s k =>
    abind (pev x0 m (fst s) k) (fun o0 => abind (pev x1 m (snd s) k) (fun o1 =>
    aret (match o0, o1 with Some y0, Some y1 => Some (y0, y1) | _, _ => None end)))
  | PUnion E0 E1 _ _ x0 x1 => fun m s k =>
    abind (pev x0 (checked m) (fst s) k) (fun o0 => abind (pev x1 (checked m) (snd s) k) (fun o1 =>
    aret (match o0, o1 with None, None => None | _, _ => Some (o0, o1) end)))
  | PMultiIntersection b E A W x => fun m s k =>
    match m with
    | Get => abind (all_of ((fun a => pev x Get a k) <$> fst s)) (fun r => match r with
             | Some xs => abind (consume (snd s) ((fun y => aret (Some y)) <$> xs)) (fun w => aret (Some w))
             | None => aret None
             end)
    | GetU => abind (consume (snd s) ((fun a => pev x GetU a k) <$> fst s)) (fun w => aret (Some w))
    | It => if forallb (fun a => phas E a k) (fst s)
            then abind (consume (snd s) ((fun a => pev x It a k) <$> fst s)) (fun w => aret (Some w)) else aret None
    end
  | PMultiUnion E A W _ x => fun m s k =>
    match m with
    | Get => abind (some_of ((fun a => pev x Get a k) <$> fst s)) (fun xs => match xs with
             | [] => aret None
             | _ => abind (consume (snd s) ((fun y => aret (Some y)) <$> xs)) (fun w => aret (Some w))
             end)
    | GetU => abind (consume (snd s) ((fun a => pev x Get a k) <$> fst s)) (fun w => aret (Some w))
    | It => if existsb (fun a => phas E a k) (fst s)
            then abind (consume (snd s) ((fun a => pev x It a k) <$> List.filter (near E k) (fst s))) (fun w => aret (Some w)) else aret None
    end
  end.

(** ** running the model follows the specification *)
Definition does {X} (m : M X) (a : ans X) : Prop := forall st, m st = Ok (a st).
Lemma does_ret {X} (x : X) : does (pret x) (aret x).
Proof. done. Qed.
Lemma does_call {A B} (f : ufn St A B) a : does (ucall f a) (f a).
Proof. done. Qed.
Lemma does_bind {X Y} (m : M X) (k : X -> M Y) a b : does m a -> (forall x, does (k x) (b x)) -> does (pbind m k) (abind a b).
Proof. intros H1 H2 st. unfold pbind, abind. rewrite H1, bind_ok. destruct (a st) as [[x|] st']; [apply H2|done]. Qed.
(** .. where only the values that the first part can give matter *)
Lemma does_bind_when {X Y} (P : X -> Prop) (m : M X) (k : X -> M Y) a b : does m a -> (forall st x, fst (a st) = Some x -> P x) ->
  (forall x, P x -> does (k x) (b x)) -> does (pbind m k) (abind a b).
Proof.
  intros H1 HP H2 st. unfold pbind, abind. rewrite H1, bind_ok. specialize (HP st). destruct (a st) as [[x|] st']; [|done]. apply H2. by apply HP.
Qed.
Lemma does_lift {X} (r : res X) x : r = Ok x -> does (plift r) (aret x).
Proof. intros -> st. done. Qed.
Lemma does_lift_bind {X Y} (r : res X) x (k : X -> M Y) a : r = Ok x -> does (k x) a -> does (pbind (plift r) k) a.
Proof. intros -> H st. unfold pbind, plift. cbn [rbind]. apply H. Qed.
Lemma does_eq {X} (m : M X) (a b : ans X) : (forall st, a st = b st) -> does m a -> does m b.
Proof. intros H1 H2 st. rewrite H2. f_equal. apply H1. Qed.
Lemma abind_ret {X Y} (x : X) (k : X -> ans Y) st : abind (aret x) k st = k x st.
Proof. done. Qed.
Lemma abind_assoc {X Y Z} (m : ans X) (k : X -> ans Y) (l : Y -> ans Z) st : abind (abind m k) l st = abind m (fun x => abind (k x) l) st.
Proof. unfold abind. destruct (m st) as [[x|] st']; done. Qed.
Lemma abind_ext {X Y} (m : ans X) (k l : X -> ans Y) st : (forall x st, k x st = l x st) -> abind m k st = abind m l st.
Proof. intros H. unfold abind. destruct (m st) as [[x|] st']; auto. Qed.

(** a present element: the value, without the option *)
Definition unsome {X} (a : ans (option X)) : ans X := fun st => match a st with (Some (Some y), st) => (Some y, st) | (_, st) => (None, st) end.
Definition never_none {X} (a : ans (option X)) : Prop := forall st, fst (a st) <> Some None.
Definition never_some {X} (a : ans (option X)) : Prop := forall st y, fst (a st) <> Some (Some y).
Lemma unsome_some {X} (a : ans X) st : unsome (abind a (fun x => aret (Some x))) st = a st.
Proof. unfold unsome, abind, aret. destruct (a st) as [[x|] st']; done. Qed.
Lemma does_unsome {X} (m : M X) (a : ans (option X)) : never_none a -> does m (unsome a) -> does (pbind m (fun d => pret (Some d))) a.
Proof.
  intros Hn H st. unfold pbind. rewrite H, bind_ok. unfold unsome. specialize (Hn st). destruct (a st) as [[[y|]|] st']; done.
Qed.
Lemma does_unwrap {X} (m : M (option X)) (a : ans (option X)) : never_none a -> does m a -> does (pbind m (fun d => plift (unwrap_u d))) (unsome a).
Proof.
  intros Hn H st. unfold pbind. rewrite H, bind_ok. unfold unsome. specialize (Hn st). destruct (a st) as [[[y|]|] st']; done.
Qed.
Lemma never_none_bind_some {X} (a : ans X) : never_none (abind a (fun x => aret (Some x))).
Proof. intros st. unfold abind. by destruct (a st) as [[x|] st']. Qed.
Lemma never_some_ret {X} : never_some (aret (None : option X)).
Proof. done. Qed.

(** *** consumers *)
Lemma does_feed {X A W} (c : consumer St X A W) ms l : Forall2 does ms l -> forall a, does (take_lazy c ms a) (feed c l a).
Proof.
  induction 1 as [|m e ms l Hm H IH]; intros a; cbn [take_lazy feed]; [apply does_call|].
  apply does_bind; [done|]. intros [x|]; [|apply IH]. apply does_bind; [apply does_call|]. intros [a'|w]; [apply IH|apply does_ret].
Qed.
Lemma does_consume {X A W} (c : consumer St X A W) ms l : Forall2 does ms l -> does (consume_lazy c ms) (consume c l).
Proof. intros H. unfold consume_lazy, consume. apply does_bind; [apply does_call|]. intros a. by apply does_feed. Qed.
Lemma does_feed_items {X A W} (c : consumer St X A W) (l : list X) : forall a, does (take_items c l a) (feed c ((fun y => aret (Some y)) <$> l) a).
Proof.
  induction l as [|x l IH]; intros a; [apply does_call|]. rewrite fmap_cons. cbn [take_items feed].
  apply (does_eq _ (abind (c_step c a x) (fun r => match r with inl a => feed c ((fun y => aret (Some y)) <$> l) a | inr w => aret w end))); [done|].
  apply does_bind; [apply does_call|]. intros [a'|w]; [apply IH|apply does_ret].
Qed.
Lemma does_consume_items {X A W} (c : consumer St X A W) (l : list X) : does (consume_items c l) (consume c ((fun y => aret (Some y)) <$> l)).
Proof. unfold consume_items, consume. apply does_bind; [apply does_call|]. intros a. by apply does_feed_items. Qed.

(** *** the multi operations *)
Lemma does_mi_loop {E : ptree St} (srcs : list (p_S E)) index li (e : p_S E -> ans (option (p_V E))) : Forall (fun a => does (p_data E a index li) (e a)) srcs ->
  forall acc, length acc + length srcs <= MULTI_N ->
  does (p_mi_data_loop E srcs index li acc) (abind (all_of (e <$> srcs)) (fun r => aret (match r with Some xs => Some (acc ++ xs) | None => None end))).
Proof.
  induction 1 as [|a srcs Ha H IH]; intros acc Hl; cbn [p_mi_data_loop].
  - intros st. unfold abind, aret. cbn. by rewrite app_nil_r.
  - rewrite fmap_cons. cbn [all_of length] in *. eapply does_eq; [intros st; symmetry; apply abind_assoc|]. apply does_bind; [done|]. intros [y|]; [|apply does_ret].
    rewrite decide_True by lia. eapply does_eq; [|apply IH; rewrite app_length; cbn; lia]. intros st. etrans; [|symmetry; apply abind_assoc].
    apply abind_ext. intros [xs|] st'; unfold abind, aret; [|done]. by rewrite <- app_assoc.
Qed.
Lemma does_mu_loop {E : ptree St} (srcs : list (p_S E)) index li (e : p_S E -> ans (option (p_V E))) : Forall (fun a => does (p_data E a index li) (e a)) srcs ->
  forall acc, length acc + length srcs <= MULTI_N ->
  does (p_mu_data_loop E srcs index li acc) (abind (some_of (e <$> srcs)) (fun xs => aret (acc ++ xs))).
Proof.
  induction 1 as [|a srcs Ha H IH]; intros acc Hl; cbn [p_mu_data_loop].
  - intros st. unfold abind, aret. cbn. by rewrite app_nil_r.
  - rewrite fmap_cons. cbn [some_of length] in *. eapply does_eq; [intros st; symmetry; apply abind_assoc|]. apply does_bind; [done|]. intros [y|].
    + rewrite decide_True by lia. eapply does_eq; [|apply IH; rewrite app_length; cbn; lia]. intros st. etrans; [|symmetry; apply abind_assoc].
      apply abind_ext. intros xs st'. unfold abind, aret. by rewrite <- app_assoc.
    + eapply does_eq; [|apply IH; lia]. intros st. etrans; [|symmetry; apply abind_assoc]. apply abind_ext. intros xs st'. done.
Qed.
(** what [all_of] and [some_of] can answer *)
Lemma all_of_has {X} (l : list (ans (option X))) : Forall never_none l -> never_none (all_of l).
Proof.
  induction 1 as [|m l Hm H IH]; intros st; [done|]. cbn [all_of]. unfold abind. specialize (Hm st). destruct (m st) as [[[y|]|] st']; try done.
  specialize (IH st'). destruct (all_of l st') as [[[xs|]|] st2]; done.
Qed.
Lemma all_of_hasnt {X} (l : list (ans (option X))) : Exists never_some l -> never_some (all_of l).
Proof.
  induction 1 as [m l Hm|m l H IH]; intros st y; cbn [all_of]; unfold abind.
  - specialize (Hm st). destruct (m st) as [[[z|]|] st']; try done. exfalso. by apply (Hm z).
  - destruct (m st) as [[[z|]|] st']; try done. specialize (IH st'). destruct (all_of l st') as [[[xs|]|] st2]; try done. exfalso. by apply (IH xs).
Qed.
Lemma some_of_has {X} (l : list (ans (option X))) : Exists never_none l -> forall st, fst (some_of l st) <> Some [].
Proof.
  induction 1 as [m l Hm|m l H IH]; intros st; cbn [some_of]; unfold abind.
  - specialize (Hm st). destruct (m st) as [[[z|]|] st']; try done. destruct (some_of l st') as [[xs|] st2]; done.
  - destruct (m st) as [[o|] st']; try done. specialize (IH st'). destruct (some_of l st') as [[xs|] st2]; [|done]. by destruct o.
Qed.
Lemma some_of_hasnt {X} (l : list (ans (option X))) : Forall never_some l -> forall st y xs, fst (some_of l st) <> Some (y :: xs).
Proof.
  induction 1 as [|m l Hm H IH]; intros st y xs; [done|]. cbn [some_of]. unfold abind. specialize (Hm st). destruct (m st) as [[[z|]|] st']; [exfalso; by apply (Hm z)| |done].
  specialize (IH st'). destruct (some_of l st') as [[xs'|] st2]; [|done]. cbn [aret fst]. intros [= ->]. by apply (IH y xs).
Qed.

Lemma vL_mi b t v : vL (VMultiIntersection b t v) = lawful_multi_intersection (vL v).
Proof. unfold vL. cbn [view_lawful]. by destruct (view_lawful v). Qed.
Lemma vL_mu t HD v : exists H, vL (VMultiUnion t HD v) = lawful_multi_union (vL v) H HD.
Proof. unfold vL. cbn [view_lawful]. destruct (view_lawful v) as [L H]. by exists H. Qed.
Lemma mi_has b t v s q : is_Some (l_sem (vL (VMultiIntersection b t v)) s q) <-> Forall (fun a => is_Some (l_sem (vL v) a q)) s.
Proof. rewrite vL_mi. cbn [lawful_multi_intersection l_sem]. unfold mi_sem. apply mapM_is_Some. Qed.
Lemma mu_has t HD v s q : is_Some (l_sem (vL (VMultiUnion t HD v)) s q) <-> Exists (fun a => is_Some (l_sem (vL v) a q)) s.
Proof.
  destruct (vL_mu t HD v) as [H ->]. cbn [lawful_multi_union l_sem]. etrans; [apply mu_sem_is_Some|]. symmetry. apply Exists_exists.
Qed.
Lemma mi_Ru' b t v s c p : l_Ru (vL (VMultiIntersection b t v)) s c p -> Forall2 (fun a c => l_Ru (vL v) a c p) s (mi_cursors c).
Proof. rewrite vL_mi. cbn [lawful_multi_intersection l_Ru]. by intros [H _ _]. Qed.
Lemma mi_Rk' b t v s c p : l_Rk (vL (VMultiIntersection b t v)) s c p -> Forall2 (fun a c => l_Rk (vL v) a c p) s (mi_cursors c).
Proof. rewrite vL_mi. cbn [lawful_multi_intersection l_Rk]. by intros [[H _ _] _]. Qed.
Lemma mi_Rk_bit b t v s c p i : l_Rk (vL (VMultiIntersection b t v)) s c p -> path_ok (t_nw t) (t_depth t - 1) p -> (i < msize (t_nw t))%N ->
  mask_get_bit (mi_terminal c) i = Ok (mi_tm (vL v) s p i).
Proof.
  rewrite vL_mi. cbn [lawful_multi_intersection l_Rk]. intros [_ Ht] [Hl _] Hi. specialize (Ht ltac:(lia)). rewrite take_ge in Ht by lia.
  destruct Ht as [Hm Hb]. rewrite (mask_get_bit_ok (t_nw t)) by done. f_equal. apply Hb.
Qed.
(** a node's bit is set iff the element is there (last level) *)
Lemma last_tm {b t} (v : view b t) pk s p i : reached pk v s -> path_ok (t_nw t) (t_depth t - 1) p -> (i < msize (t_nw t))%N ->
  l_tm (vL v) s p i = true <-> is_Some (l_sem (vL v) s (p ++ [i])).
Proof.
  intros Hr Hp Hi. pose proof (vg_wf pk _ _ (reached_good pk v s Hr)) as Hwf. split; [by apply l_terminal|]. intros [y Hy].
  assert (l_tm (vL v) s (take (length p) (p ++ [i])) i = true) as Hx; [|by rewrite take_app in Hx].
  eapply l_complete; eauto; [by apply (path_full v)|]. rewrite lookup_app_r by done. by rewrite Nat.sub_diag.
Qed.
Lemma mu_Rk' t HD v s c p : l_Ru (vL (VMultiUnion t HD v)) s c p -> mu_Rk (vL v) s c p.
Proof. by destruct (vL_mu t HD v) as [H ->]. Qed.
Lemma mu_Rk_Ru t HD v s c p : l_Rk (vL (VMultiUnion t HD v)) s c p -> l_Ru (vL (VMultiUnion t HD v)) s c p.
Proof. by destruct (vL_mu t HD v) as [H ->]. Qed.
(** the cursor of an operand that has something in the last node is there *)
Lemma mu_live {t} (L : lawful t) s c p k a ch : mu_wf L s -> mu_Rk L s c p -> path_ok (t_nw t) (t_depth t - 1) p ->
  mu_cursors c !! k = Some (a, ch) -> alive L a p = true -> l_Rk L a ch p.
Proof.
  intros Hwf [Hb Hr Hlv] Hp Hc Ha. destruct (mu_Rk_wf_in L _ _ _ _ _ Hwf Hb Hc) as [Hwa Hsa]. pose proof (proj1 Hp) as Hpl. pose proof (l_depth L).
  rewrite <- (take_ge p (t_depth t - 1)) by lia. eapply Hr; [lia|done|].
  destruct (decide (t_depth t - 1 <= 1)) as [|Hn]; [by left|]. right.
  destruct (exists_last (l := p)) as (p' & x & Hpe). { intros ->. cbn in Hpl. lia. }
  rewrite Hpe in Ha |- *. rewrite Hpe, app_length in Hpl. cbn in Hpl.
  rewrite Hpe in Hp. apply path_ok_app_inv in Hp as [Hp1 [_ Hp2]]. inversion_clear Hp2.
  apply alive_parent in Ha; [|done..|lia|done].
  rewrite take_app_alt by lia. apply alive_true; [done|done|lia|by eexists].
Qed.

(** *** one access *)
Definition phasq {b E} (x : pview b E) (s : p_S E) (q : list N) : Prop := is_Some (l_sem (vL (punder x)) (p_src E s) q).
Record pfollows {b E} (x : pview b E) (s : p_S E) : Prop := PFollows {
  pf_has : forall m q, path_ok (t_nw (p_t E)) (t_depth (p_t E)) q -> phasq x s q -> never_none (pev x m s (key_of_path (t_nw (p_t E)) q));
  pf_hasnt : forall m q, path_ok (t_nw (p_t E)) (t_depth (p_t E)) q -> m <> GetU -> ~ phasq x s q -> never_some (pev x m s (key_of_path (t_nw (p_t E)) q));
  pf_data : forall q, path_ok (t_nw (p_t E)) (t_depth (p_t E)) q -> does (p_data E s (key_of_path (t_nw (p_t E)) q) q) (pev x Get s (key_of_path (t_nw (p_t E)) q));
  pf_data_u : forall q, path_ok (t_nw (p_t E)) (t_depth (p_t E)) q -> phasq x s q ->
    does (p_data_u E s (key_of_path (t_nw (p_t E)) q) q) (unsome (pev x GetU s (key_of_path (t_nw (p_t E)) q)));
  pf_cdata : forall c p i, l_Rk (vL (punder x)) (p_src E s) c p -> path_ok (t_nw (p_t E)) (t_depth (p_t E) - 1) p -> (i < msize (t_nw (p_t E)))%N ->
    b = true \/ phasq x s (p ++ [i]) -> does (p_cdata E s c i) (pev x It s (key_of_path (t_nw (p_t E)) (p ++ [i])));
  pf_cdata_u : forall c p i, l_Ru (vL (punder x)) (p_src E s) c p -> path_ok (t_nw (p_t E)) (t_depth (p_t E) - 1) p -> (i < msize (t_nw (p_t E)))%N ->
    phasq x s (p ++ [i]) -> does (p_cdata_u E s c i) (unsome (pev x It s (key_of_path (t_nw (p_t E)) (p ++ [i]))));
}.
Lemma phas_q pk {b E} (x : pview b E) s q : reached pk (punder x) (p_src E s) -> path_ok (t_nw (p_t E)) (t_depth (p_t E)) q ->
  phas E s (key_of_path (t_nw (p_t E)) q) = true <-> phasq x s q.
Proof.
  intros Hr Hq. unfold phas, phasq. rewrite (got_sem (punder x) pk) by done. destruct (l_sem _ _ _); (split; [|intros [? ?]]); try done; intros _; by eexists.
Qed.
Lemma near_alive pk {b E} (x : pview b E) s p i : reached pk (punder x) (p_src E s) -> path_ok (t_nw (p_t E)) (t_depth (p_t E) - 1) p -> (i < msize (t_nw (p_t E)))%N ->
  near E (key_of_path (t_nw (p_t E)) (p ++ [i])) s = alive (vL (punder x)) (p_src E s) p.
Proof.
  intros Hr Hp Hi. pose proof (vg_wf pk _ _ (reached_good pk _ _ Hr)) as Hwf. pose proof (l_depth (vL (punder x))) as HD. pose proof (proj1 Hp) as Hpl.
  apply eq_true_iff_eq. rewrite (alive_true _ _ p) by (done || (rewrite Hpl; done) || lia). unfold near. rewrite existsb_exists.
  assert (key_of_path (t_nw (p_t E)) (p ++ [i]) / msize (t_nw (p_t E)) = key_of_path (t_nw (p_t E)) p)%N as ->.
  { rewrite key_of_path_snoc. rewrite N.add_comm, N.div_add by lia. rewrite N.div_small by done. lia. }
  split.
  - intros (j & Hj%elem_of_list_In%elem_of_seqN & Hh). exists j. rewrite <- key_of_path_snoc in Hh.
    apply (last_tm (punder x) pk); [done|done|lia|]. apply (phas_q pk x); [done|apply (path_full (punder x)); [done|lia]|done].
  - intros (j & Hj). assert (j < msize (t_nw (p_t E)))%N as Hjb by (apply (l_bound (vL (punder x)) (p_src E s) p j); [done|by rewrite Hpl|lia|done]). exists j. split.
    + apply elem_of_list_In, elem_of_seqN. lia.
    + rewrite <- key_of_path_snoc. apply (phas_q pk x); [done|by apply (path_full (punder x))|]. by apply (last_tm (punder x) pk).
Qed.

Lemma does_map_u {X W} (m : M X) (f : ufn St X W) (a : ans (option X)) : never_none a -> does m (unsome a) ->
  does (pbind m (ucall f)) (unsome (abind a (fun o => match o with Some y => abind (f y) (fun w => aret (Some w)) | None => aret None end))).
Proof.
  intros Hn H st. unfold pbind. rewrite H, bind_ok. unfold unsome, abind. specialize (Hn st). destruct (a st) as [[[y|]|] st']; try done.
  unfold ucall. destruct (f y st') as [[w|] st2]; done.
Qed.
Lemma does_map {X W} (m : M (option X)) (f : ufn St X W) (a : ans (option X)) : does m a ->
  does (pbind m (psome (ucall f))) (abind a (fun o => match o with Some y => abind (f y) (fun w => aret (Some w)) | None => aret None end)).
Proof. intros H. apply does_bind; [done|]. intros [y|]; [|apply does_ret]. cbn [psome]. apply does_bind; [apply does_call|]. intros w. apply does_ret. Qed.
Lemma map_has {X W} (f : ufn St X W) (a : ans (option X)) : never_none a -> never_none (abind a (fun o => match o with Some y => abind (f y) (fun w => aret (Some w)) | None => aret None end)).
Proof. intros H st. unfold abind. specialize (H st). destruct (a st) as [[[y|]|] st']; try done. destruct (f y st') as [[w|] st2]; done. Qed.
Lemma map_hasnt {X W} (f : ufn St X W) (a : ans (option X)) : never_some a -> never_some (abind a (fun o => match o with Some y => abind (f y) (fun w => aret (Some w)) | None => aret None end)).
Proof. intros H st w. unfold abind. specialize (H st). destruct (a st) as [[[y|]|] st']; try done. exfalso. by apply (H y). Qed.
(** the two-operand operations *)
Definition both {X Y} (a0 : ans (option X)) (a1 : ans (option Y)) : ans (option (X * Y)) :=
  abind a0 (fun o0 => abind a1 (fun o1 => aret (match o0, o1 with Some y0, Some y1 => Some (y0, y1) | _, _ => None end))).
Definition either {X Y} (a0 : ans (option X)) (a1 : ans (option Y)) : ans (option (option X * option Y)) :=
  abind a0 (fun o0 => abind a1 (fun o1 => aret (match o0, o1 with None, None => None | _, _ => Some (o0, o1) end))).
Lemma does_both {X Y} (m0 : M (option X)) (m1 : M (option Y)) a0 a1 : does m0 a0 -> does m1 a1 ->
  does (pbind m0 (fun d0 => pbind m1 (fun d1 => if orb (is_noneb d0) (is_noneb d1) then pret None else
    plift (let* v0 := unwrap_u d0 in let* v1 := unwrap_u d1 in Ok (Some (v0, v1)))))) (both a0 a1).
Proof. intros H0 H1. unfold both. apply does_bind; [done|]. intros [y0|]; (apply does_bind; [done|]); intros [y1|]; done. Qed.
Lemma does_both_u {X Y} (m0 : M X) (m1 : M Y) (a0 : ans (option X)) (a1 : ans (option Y)) : never_none a0 -> never_none a1 -> does m0 (unsome a0) -> does m1 (unsome a1) ->
  does (pbind m0 (fun d0 => pbind m1 (fun d1 => pret (d0, d1)))) (unsome (both a0 a1)).
Proof.
  intros N0 N1 H0 H1 st. unfold pbind. rewrite H0, bind_ok. unfold both, unsome, abind. specialize (N0 st). destruct (a0 st) as [[[y0|]|] st0]; try done.
  rewrite H1, bind_ok. unfold unsome. specialize (N1 st0). destruct (a1 st0) as [[[y1|]|] st1]; done.
Qed.
Lemma both_has {X Y} (a0 : ans (option X)) (a1 : ans (option Y)) : never_none a0 -> never_none a1 -> never_none (both a0 a1).
Proof. intros N0 N1 st. unfold both, abind. specialize (N0 st). destruct (a0 st) as [[[y0|]|] st0]; try done. specialize (N1 st0). destruct (a1 st0) as [[[y1|]|] st1]; done. Qed.
Lemma both_hasnt {X Y} (a0 : ans (option X)) (a1 : ans (option Y)) : never_some a0 \/ never_some a1 -> never_some (both a0 a1).
Proof.
  intros [H|H] st y; unfold both, abind.
  - specialize (H st). destruct (a0 st) as [[[y0|]|] st0]; try done; [exfalso; by apply (H y0)|]. destruct (a1 st0) as [[[y1|]|] st1]; done.
  - destruct (a0 st) as [[o0|] st0]; try done. specialize (H st0). destruct (a1 st0) as [[[y1|]|] st1]; try done; [exfalso; by apply (H y1)|]. by destruct o0.
Qed.
Lemma does_either {X Y} (m0 : M (option X)) (m1 : M (option Y)) a0 a1 : does m0 a0 -> does m1 a1 ->
  does (pbind m0 (fun d0 => pbind m1 (fun d1 => if andb (is_noneb d0) (is_noneb d1) then pret None else pret (Some (d0, d1))))) (either a0 a1).
Proof. intros H0 H1. unfold either. apply does_bind; [done|]. intros [y0|]; (apply does_bind; [done|]); intros [y1|]; done. Qed.
Lemma either_has {X Y} (a0 : ans (option X)) (a1 : ans (option Y)) : never_none a0 \/ never_none a1 -> never_none (either a0 a1).
Proof.
  intros [H|H] st; unfold either, abind.
  - specialize (H st). destruct (a0 st) as [[[y0|]|] st0]; try done. destruct (a1 st0) as [[[y1|]|] st1]; done.
  - destruct (a0 st) as [[o0|] st0]; try done. specialize (H st0). destruct (a1 st0) as [[[y1|]|] st1]; try done. by destruct o0.
Qed.
Lemma either_hasnt {X Y} (a0 : ans (option X)) (a1 : ans (option Y)) : never_some a0 -> never_some a1 -> never_some (either a0 a1).
Proof.
  intros H0 H1 st y. unfold either, abind. specialize (H0 st). destruct (a0 st) as [[[y0|]|] st0]; try done; [exfalso; by apply (H0 y0)|].
  specialize (H1 st0). destruct (a1 st0) as [[[y1|]|] st1]; try done. exfalso. by apply (H1 y1).
Qed.
(** the operand indices of live operands *)
Lemma live_indices {X} (P : X -> bool) (l : list X) : Forall2 (fun j a => l !! N.to_nat j = Some a /\ P a = true)
  (filter (fun j => match l !! N.to_nat j with Some a => P a | None => false end = true) (seqN 0 (length l))) (List.filter P l).
Proof.
  assert (forall pre l, Forall2 (fun j a => (pre ++ l) !! N.to_nat j = Some a /\ P a = true)
    (filter (fun j => match (pre ++ l) !! N.to_nat j with Some a => P a | None => false end = true) (seqN (N.of_nat (length pre)) (length l))) (List.filter P l)) as H.
  { clear l. intros pre l. revert pre. induction l as [|a l IH]; intros pre; [constructor|]. cbn [length seqN List.filter]. rewrite filter_cons.
    assert ((pre ++ a :: l) !! N.to_nat (N.of_nat (length pre)) = Some a) as Ha by (rewrite Nat2N.id; by apply list_lookup_middle). rewrite Ha.
    specialize (IH (pre ++ [a])). rewrite <- app_assoc in IH. cbn [app] in IH. rewrite app_length in IH. cbn [length] in IH.
    replace (N.of_nat (length pre + 1)) with (N.succ (N.of_nat (length pre))) in IH by lia.
    destruct (P a) eqn:HP; [rewrite decide_True by done; by constructor|]. by rewrite decide_False by done. }
  exact (H [] l).
Qed.

Lemma pview_follows pk {b E} (x : pview b E) : forall s, reached pk (punder x) (p_src E s) -> pfollows x s.
Proof.
  induction x as [b t v|b E W x IH|b0 b1 E0 E1 Hn Hd x0 IH0 x1 IH1|E0 E1 Hn Hd x0 IH0 x1 IH1|b E A W x IH|E A W HD x IH]; intros s Hr.
  - cbn [punder p_pure p_src p_S p_t] in Hr. split; cbn [p_pure p_t p_src p_data p_data_u p_cdata p_cdata_u pev punder]; unfold phasq; cbn [punder p_pure p_src p_t].
    + intros m q Hq Hh st. rewrite (got_sem v pk) by done. destruct Hh as [y Hy]. by rewrite Hy.
    + intros m q Hq _ Hh st y. rewrite (got_sem v pk) by done. unfold aret. cbn [fst]. intros [= Hy]. apply Hh. by rewrite Hy.
    + intros q Hq. apply does_lift. by apply (leaf_data v pk).
    + intros q Hq [y Hy] st. assert (got t s (key_of_path (t_nw t) q) = Some y) as Hg by (by rewrite (got_sem v pk)).
      unfold plift, unsome, aret. rewrite Hg. by rewrite (leaf_data_u v pk s q y).
    + intros c p i Hc Hp Hi Hb. apply does_lift. by apply (leaf_cdata v pk).
    + intros c p i Hc Hp Hi [y Hy] st. assert (got t s (key_of_path (t_nw t) (p ++ [i])) = Some y) as Hg.
      { rewrite (got_sem v pk); [done|done|]. by apply (path_full v). }
      unfold plift, unsome, aret. rewrite Hg. by rewrite (leaf_cdata_u v pk s c p i y).
  - destruct s as [s f]. destruct (IH s Hr) as [H1 H2 H3 H4 H5 H6].
    split; cbn [p_map p_t p_src p_data p_data_u p_cdata p_cdata_u pev fst snd]; unfold phasq in *; cbn [punder p_map p_src p_t fst] in *.
    + intros m q Hq Hh. apply map_has. by apply H1.
    + intros m q Hq Hm Hh. apply map_hasnt. by apply H2.
    + intros q Hq. apply does_map. by apply H3.
    + intros q Hq Hh. apply does_map_u; [by apply H1|by apply H4].
    + intros c p i Hc Hp Hi Hb. apply does_map. by apply H5.
    + intros c p i Hc Hp Hi Hh. apply does_map_u; [apply H1; [by apply (path_full (punder x))|done]|by apply H6].
  - destruct s as [s0 s1]. destruct Hr as [Hr0 Hr1]. cbn [p_intersection p_src fst snd] in Hr0, Hr1.
    destruct (IH0 s0 Hr0) as [A1 A2 A3 A4 A5 A6]. destruct (IH1 s1 Hr1) as [B1 B2 B3 B4 B5 B6].
    assert (forall q, phasq (PIntersection b0 b1 E0 E1 Hn Hd x0 x1) (s0, s1) q <-> phasq x0 s0 q /\ phasq x1 s1 q) as Hhas.
    { intros q. unfold phasq. cbn [punder]. apply int_has. }
    assert (forall q, phasq x0 s0 q \/ ~ phasq x0 s0 q) as Hdec.
    { intros q. unfold phasq. destruct (l_sem _ _ _); [left; by eexists|right; by intros [? ?]]. }
    rewrite Hn, Hd in *.
    split; cbn [p_intersection p_t t_intersection t_nw t_depth p_data p_data_u p_cdata p_cdata_u pev fst snd].
    + intros m q Hq [Hh0 Hh1]%Hhas. apply both_has; [by apply A1|by apply B1].
    + intros m q Hq Hm Hh. apply both_hasnt. destruct (Hdec q) as [H0|H0]; [right; apply B2|left; apply A2]; try done. intros H. by apply Hh, Hhas.
    + intros q Hq. apply does_both; [by apply A3|by apply B3].
    + intros q Hq [Hh0 Hh1]%Hhas. apply does_both_u; [by apply A1|by apply B1|by apply A4|by apply B4].
    + intros [c0 c1] p i Hc Hp Hi Hb. apply int_Rk in Hc as [Hc0 Hc1]. cbn [p_intersection p_src fst snd] in Hc0, Hc1 |- *. apply does_both.
      * apply A5; try done. destruct Hb as [Hb|Hb]; [apply andb_true_iff in Hb as [-> ->]; by left|right; by apply Hhas in Hb as [? ?]].
      * apply B5; try done. destruct Hb as [Hb|Hb]; [apply andb_true_iff in Hb as [-> ->]; by left|right; by apply Hhas in Hb as [? ?]].
    + intros [c0 c1] p i Hc Hp Hi [Hh0 Hh1]%Hhas. apply int_Ru in Hc as [Hc0 Hc1]. cbn [p_intersection p_src fst snd] in Hc0, Hc1 |- *.
      pose proof (path_full (punder x0) p i Hp Hi). apply does_both_u; [by apply A1|by apply B1|by apply A6|by apply B6].
  - destruct s as [s0 s1]. destruct Hr as [Hr0 Hr1]. cbn [p_union p_src fst snd] in Hr0, Hr1.
    destruct (IH0 s0 Hr0) as [A1 A2 A3 A4 A5 A6]. destruct (IH1 s1 Hr1) as [B1 B2 B3 B4 B5 B6].
    assert (forall q, phasq (PUnion E0 E1 Hn Hd x0 x1) (s0, s1) q <-> phasq x0 s0 q \/ phasq x1 s1 q) as Hhas.
    { intros q. unfold phasq. cbn [punder]. apply un_has. }
    rewrite Hn, Hd in *.
    assert (forall m q, path_ok (t_nw (p_t E0)) (t_depth (p_t E0)) q -> phasq (PUnion E0 E1 Hn Hd x0 x1) (s0, s1) q ->
      never_none (pev (PUnion E0 E1 Hn Hd x0 x1) m (s0, s1) (key_of_path (t_nw (p_t E0)) q))) as HA.
    { intros m q Hq Hh%Hhas. apply either_has. destruct Hh; [left; by apply A1|right; by apply B1]. }
    assert (forall q, path_ok (t_nw (p_t E0)) (t_depth (p_t E0)) q ->
      does (p_data (p_union E0 E1) (s0, s1) (key_of_path (t_nw (p_t E0)) q) q) (pev (PUnion E0 E1 Hn Hd x0 x1) Get (s0, s1) (key_of_path (t_nw (p_t E0)) q))) as HC.
    { intros q Hq. apply does_either; [by apply A3|by apply B3]. }
    assert (forall c p i, l_Rk (vL (punder x0)) (p_src E0 s0) (fst c) p /\ l_Rk (vL (punder x1)) (p_src E1 s1) (snd c) p ->
      path_ok (t_nw (p_t E0)) (t_depth (p_t E0) - 1) p -> (i < msize (t_nw (p_t E0)))%N ->
      does (p_cdata (p_union E0 E1) (s0, s1) c i) (pev (PUnion E0 E1 Hn Hd x0 x1) It (s0, s1) (key_of_path (t_nw (p_t E0)) (p ++ [i])))) as HE.
    { intros [c0 c1] p i [Hc0 Hc1] Hp Hi. cbn [fst snd] in *. apply does_either; [apply A5|apply B5]; try done; by left. }
    split.
    + exact HA.
    + intros m q Hq Hm Hh. apply either_hasnt; [apply A2|apply B2]; try done; try (by destruct m); intros H; apply Hh, Hhas; auto.
    + exact HC.
    + intros q Hq Hh. apply (does_unwrap (p_data (p_union E0 E1) (s0, s1) _ q)).
      * exact (HA GetU q Hq Hh).
      * exact (HC q Hq).
    + intros c p i Hc%un_Rk Hp Hi _. exact (HE c p i Hc Hp Hi).
    + intros c p i Hc%un_Ru Hp Hi Hh. apply (does_unwrap (p_cdata (p_union E0 E1) (s0, s1) c i)).
      * apply HA; [by apply (path_full (punder x0))|done].
      * exact (HE c p i Hc Hp Hi).
  - destruct s as [srcs cn]. destruct Hr as (Hne & Hlen & Hall). cbn [p_multi_intersection p_src fst] in Hne, Hlen, Hall.
    rewrite fmap_length in Hlen. rewrite Forall_fmap in Hall.
    assert (Forall (pfollows x) srcs) as HF by (eapply Forall_impl; [exact Hall|]; intros a Ha; by apply IH).
    assert (forall q, phasq (PMultiIntersection b E A W x) (srcs, cn) q <-> Forall (fun a => phasq x a q) srcs) as Hhas.
    { intros q. unfold phasq. cbn [punder]. etrans; [apply mi_has|]. cbn [p_multi_intersection p_src fst]. by rewrite Forall_fmap. }
    assert (forall q, path_ok (t_nw (p_t E)) (t_depth (p_t E)) q -> forallb (fun a => phas E a (key_of_path (t_nw (p_t E)) q)) srcs = true <-> Forall (fun a => phasq x a q) srcs) as Hfb.
    { intros q Hq. rewrite forallb_forall, Forall_forall. split; intros H a Ha.
      - apply (phas_q pk x); [|done|apply H; by apply elem_of_list_In]. rewrite Forall_forall in Hall. by apply Hall.
      - apply elem_of_list_In in Ha. apply (phas_q pk x); [|done|by apply H]. rewrite Forall_forall in Hall. by apply Hall. }
    assert (forall c p i, Forall2 (fun a c => l_Ru (vL (punder x)) a c p) (p_src E <$> srcs) (mi_cursors c) -> path_ok (t_nw (p_t E)) (t_depth (p_t E) - 1) p -> (i < msize (t_nw (p_t E)))%N ->
      Forall (fun a => phasq x a (p ++ [i])) srcs ->
      does (consume_lazy cn (p_mi_items_c E srcs (mi_cursors c) i)) (consume cn ((fun a => pev x It a (key_of_path (t_nw (p_t E)) (p ++ [i]))) <$> srcs))) as HCU.
    { intros c p i Hc Hp Hi Hh. apply does_consume. generalize dependent (mi_cursors c). clear Hne Hlen Hhas Hfb Hall. induction srcs as [|a srcs IHs]; intros cs Hc.
      - inversion_clear Hc. constructor.
      - rewrite fmap_cons in Hc. inversion_clear Hc as [|? c0 ? cs' H1 H2]. inversion_clear HF as [|? ? F1 F2]. inversion_clear Hh as [|? ? G1 G2].
        cbn [p_mi_items_c]. rewrite fmap_cons. constructor; [|by apply IHs]. apply does_unsome.
        + apply (pf_has _ _ F1); [by apply (path_full (punder x))|done].
        + by apply (pf_cdata_u _ _ F1). }
    split; cbn [p_multi_intersection p_t t_multi_intersection t_nw t_depth p_data p_data_u p_cdata p_cdata_u pev fst snd].
    + intros m q Hq Hh. destruct m.
      * apply Hhas in Hh. intros st. unfold abind at 1.
        assert (never_none (all_of ((fun a => pev x Get a (key_of_path (t_nw (p_t E)) q)) <$> srcs))) as Hn.
        { apply all_of_has. rewrite Forall_fmap. rewrite Forall_forall in *. intros a Ha. apply (pf_has _ _ (HF a Ha)); [done|]. by apply Hh. }
        specialize (Hn st). destruct (all_of _ st) as [[[xs|]|] st']; try done. apply never_none_bind_some.
      * apply never_none_bind_some.
      * rewrite (proj2 (Hfb q Hq)) by (by apply Hhas). apply never_none_bind_some.
    + intros m q Hq Hm Hh. destruct m; [|done|].
      * intros st y. unfold abind at 1.
        assert (never_some (all_of ((fun a => pev x Get a (key_of_path (t_nw (p_t E)) q)) <$> srcs))) as Hn.
        { apply all_of_hasnt. rewrite Exists_fmap. assert (Exists (fun a => ~ phasq x a q) srcs) as Hex.
          { apply not_Forall_Exists; [|intros H; by apply Hh, Hhas]. intros a. unfold phasq. destruct (l_sem _ _ _); [left; by eexists|right; by intros [? ?]]. }
          rewrite Exists_exists in *. destruct Hex as (a & Ha & Hna). exists a. split; [done|]. rewrite Forall_forall in HF. by apply (pf_hasnt _ _ (HF a Ha)). }
        specialize (Hn st). destruct (all_of _ st) as [[[xs|]|] st']; try done. exfalso. by apply (Hn xs).
      * destruct (forallb _ srcs) eqn:Ef; [|apply never_some_ret]. exfalso. apply Hh, Hhas, (Hfb q Hq), Ef.
    + intros q Hq. eapply does_eq; [|apply (does_bind _ _ (abind (all_of ((fun a => pev x Get a (key_of_path (t_nw (p_t E)) q)) <$> srcs)) (fun r => aret (match r with Some xs => Some ([] ++ xs) | None => None end)))
        (fun r => match r with Some xs => abind (consume cn ((fun y => aret (Some y)) <$> xs)) (fun w => aret (Some w)) | None => aret None end))].
      * intros st. etrans; [apply abind_assoc|]. apply abind_ext. intros [xs|] st'; done.
      * apply does_mi_loop; [|cbn [length]; unfold MULTI_N; lia]. eapply Forall_impl; [exact HF|]. intros a Ha. by apply (pf_data _ _ Ha).
      * intros [xs|]; [|apply does_ret]. cbn [psome]. apply does_bind; [apply does_consume_items|]. intros w. apply does_ret.
    + intros q Hq Hh%Hhas. eapply does_eq; [intros st; symmetry; apply unsome_some|]. apply does_consume. unfold p_mi_items_u.
      apply Forall2_fmap, Forall_Forall2_diag. rewrite Forall_forall in *. intros a Ha. apply does_unsome; [by apply (pf_has _ _ (HF a Ha)); [|apply Hh]|].
      by apply (pf_data_u _ _ (HF a Ha)); [|apply Hh].
    + intros c p i Hc Hp Hi _. pose proof (mi_Rk_bit _ _ _ _ _ _ _ Hc Hp Hi) as Hbit.
      assert (mi_tm (vL (punder x)) (p_src E <$> srcs) p i = forallb (fun a => phas E a (key_of_path (t_nw (p_t E)) (p ++ [i]))) srcs) as Htm.
      { apply eq_true_iff_eq. rewrite Hfb by (by apply (path_full (punder x))). unfold mi_tm. rewrite forallb_forall, Forall_forall. split.
        - intros H a Ha. unfold phasq. rewrite Forall_forall in Hall. apply (last_tm (punder x) pk); [by apply Hall|done|done|]. apply H, elem_of_list_In. by apply elem_of_list_fmap_1.
        - intros H a' Ha'. apply elem_of_list_In, elem_of_list_fmap in Ha' as (a & -> & Ha). rewrite Forall_forall in Hall.
          apply (last_tm (punder x) pk); [by apply Hall|done|done|]. by apply H. }
      apply (does_lift_bind _ (forallb (fun a => phas E a (key_of_path (t_nw (p_t E)) (p ++ [i]))) srcs)); [etrans; [exact Hbit|]; f_equal; exact Htm|]. destruct (forallb _ srcs) eqn:Ef; [|apply does_ret].
      apply does_bind; [|intros w; apply does_ret]. apply HCU; try done; [|by apply (Hfb _ (path_full (punder x) p i Hp Hi))].
      eapply Forall2_impl; [exact (mi_Rk' _ _ _ _ _ _ Hc)|]. intros a ch. apply l_Rk_Ru.
    + intros c p i Hc Hp Hi Hh%Hhas. rewrite (proj2 (Hfb _ (path_full (punder x) p i Hp Hi)) Hh).
      eapply does_eq; [intros st; symmetry; apply unsome_some|]. apply HCU; try done. exact (mi_Ru' _ _ _ _ _ _ Hc).
  - destruct s as [srcs cn]. destruct Hr as (Hlen & Hall). cbn [p_multi_union p_src fst] in Hlen, Hall.
    rewrite fmap_length in Hlen. rewrite Forall_fmap in Hall.
    assert (Forall (pfollows x) srcs) as HF by (eapply Forall_impl; [exact Hall|]; intros a Ha; by apply IH).
    assert (forall q, phasq (PMultiUnion E A W HD x) (srcs, cn) q <-> Exists (fun a => phasq x a q) srcs) as Hhas.
    { intros q. unfold phasq. cbn [punder]. etrans; [apply mu_has|]. cbn [p_multi_union p_src fst]. by rewrite Exists_fmap. }
    assert (forall q, path_ok (t_nw (p_t E)) (t_depth (p_t E)) q -> existsb (fun a => phas E a (key_of_path (t_nw (p_t E)) q)) srcs = true <-> Exists (fun a => phasq x a q) srcs) as Hfb.
    { intros q Hq. rewrite existsb_exists, Exists_exists. rewrite Forall_forall in Hall. split; intros (a & Ha & H); exists a.
      - apply elem_of_list_In in Ha. split; [done|]. apply (phas_q pk x); [|done|done]. by apply Hall.
      - split; [by apply elem_of_list_In|]. apply (phas_q pk x); [|done|done]. by apply Hall. }
    assert (forall c p i, mu_Rk (vL (punder x)) (p_src E <$> srcs) c p -> path_ok (t_nw (p_t E)) (t_depth (p_t E) - 1) p -> (i < msize (t_nw (p_t E)))%N ->
      phasq (PMultiUnion E A W HD x) (srcs, cn) (p ++ [i]) ->
      does (p_mu_cdata E (srcs, cn) c i) (pev (PMultiUnion E A W HD x) It (srcs, cn) (key_of_path (t_nw (p_t E)) (p ++ [i])))) as HE.
    { intros c p i Hc Hp Hi Hh%Hhas. pose proof (path_full (punder x) p i Hp Hi) as Hq. pose proof (proj1 Hp) as Hpl.
      cbn [pev fst snd]. rewrite (proj2 (Hfb _ Hq) Hh).
      unfold p_mu_cdata. rewrite decide_False by lia. cbn [fst snd]. pose proof Hc as [[Hs Hll] _ Hlv].
      specialize (Hlv (t_depth (p_t E) - 1) ltac:(lia) ltac:(lia)). rewrite take_ge in Hlv by lia. rewrite fmap_length in Hlv.
      eapply does_lift_bind; [rewrite Hll; apply get_u_ok; exact Hlv|].
      pose proof (live_indices (near E (key_of_path (t_nw (p_t E)) (p ++ [i]))) srcs) as Hidx.
      assert (filter (fun j => alive_at (vL (punder x)) (p_src E <$> srcs) p j = true) (seqN 0 (length srcs)) =
        filter (fun j => match srcs !! N.to_nat j with Some a => near E (key_of_path (t_nw (p_t E)) (p ++ [i])) a | None => false end = true) (seqN 0 (length srcs))) as ->.
      { apply list_filter_iff. intros j. unfold alive_at. rewrite list_lookup_fmap. destruct (srcs !! N.to_nat j) as [a|] eqn:Ej; [|done]. cbn [fmap option_fmap option_map].
        rewrite (near_alive pk x a p i); [done| |done|done]. rewrite Forall_forall in Hall. apply Hall. by eapply elem_of_list_lookup_2. }
      assert (List.filter (near E (key_of_path (t_nw (p_t E)) (p ++ [i]))) srcs <> []) as Hne.
      { apply Exists_exists in Hh as (a & Ha & Hh). intros Hn. assert (In a []) as []. rewrite <- Hn. apply filter_In. split; [by apply elem_of_list_In|].
        rewrite Forall_forall in Hall. rewrite (near_alive pk x) by (done || by apply Hall). apply alive_true; [exact (vg_wf pk _ _ (reached_good pk _ _ (Hall a Ha)))|by rewrite Hpl|lia|].
        exists i. apply (last_tm (punder x) pk); [by apply Hall|done|done|done]. }
      match goal with |- context [match ?l with [] => _ | _ => _ end] => set (idx := l) in * end.
      assert (does (consume_lazy cn (p_mu_items_c E srcs idx (mu_cursors c) i)) (consume cn ((fun a => pev x It a (key_of_path (t_nw (p_t E)) (p ++ [i]))) <$> List.filter (near E (key_of_path (t_nw (p_t E)) (p ++ [i]))) srcs))) as Hcons.
      { apply does_consume. unfold p_mu_items_c. apply Forall2_fmap. eapply Forall2_impl; [exact Hidx|]. intros j a [Hj Hnear].
        assert (a ∈ srcs) as Ha by (by eapply elem_of_list_lookup_2). rewrite Forall_forall in Hall, HF.
        assert (is_Some (mu_cursors c !! N.to_nat j)) as [[a' ch] Hcj].
        { apply lookup_lt_is_Some. apply (f_equal length) in Hs. rewrite !fmap_length in Hs. rewrite Hs. by eapply lookup_lt_Some. }
        assert (a' = p_src E a) as ->.
        { assert ((mu_cursors c).*1 !! N.to_nat j = Some a') as H1 by (by rewrite list_lookup_fmap, Hcj). rewrite Hs, list_lookup_fmap, Hj in H1. by injection H1. }
        eapply does_lift_bind; [exact (get_u_ok _ _ _ Hcj)|]. eapply does_lift_bind; [exact (get_u_ok _ _ _ Hj)|].
        apply (pf_cdata _ _ (HF a Ha)); [|done|done|by left]. eapply mu_live; [|exact Hc|done|exact Hcj|].
        - split; [rewrite fmap_length; unfold MULTI_N; lia|]. rewrite Forall_fmap, Forall_forall. intros z Hz. exact (vg_wf pk _ _ (reached_good pk _ _ (Hall z Hz))).
        - rewrite <- (near_alive pk x a p i); [done|by apply Hall|done|done]. }
      assert (idx <> []) as Hidn. { intros Hn. rewrite Hn in Hidx. inversion Hidx as [He|]. by apply Hne. }
      clearbody idx. destruct idx as [|j idx]; [done|]. apply does_bind; [done|]. intros w. apply does_ret. }
    split; cbn [p_multi_union p_t t_multi_union t_nw t_depth p_data p_data_u p_cdata p_cdata_u].
    + intros m q Hq Hh. cbn [pev fst snd]. destruct m.
      * intros st. unfold abind at 1.
        assert (forall st, fst (some_of ((fun a => pev x Get a (key_of_path (t_nw (p_t E)) q)) <$> srcs) st) <> Some []) as Hn.
        { apply some_of_has. rewrite Exists_fmap. apply Hhas in Hh. rewrite Exists_exists in *. destruct Hh as (a & Ha & Hh). exists a. split; [done|].
          rewrite Forall_forall in HF. by apply (pf_has _ _ (HF a Ha)). }
        specialize (Hn st). destruct (some_of _ st) as [[[|y xs]|] st']; try done. apply never_none_bind_some.
      * apply never_none_bind_some.
      * rewrite (proj2 (Hfb q Hq)) by (by apply Hhas). apply never_none_bind_some.
    + intros m q Hq Hm Hh. cbn [pev fst snd]. destruct m; [|done|].
      * intros st y. unfold abind at 1.
        assert (forall st y xs, fst (some_of ((fun a => pev x Get a (key_of_path (t_nw (p_t E)) q)) <$> srcs) st) <> Some (y :: xs)) as Hn.
        { apply some_of_hasnt. rewrite Forall_fmap. rewrite Forall_forall in *. intros a Ha. apply (pf_hasnt _ _ (HF a Ha)); [done|done|]. intros H. apply Hh, Hhas, Exists_exists. eauto. }
        specialize (Hn st). destruct (some_of _ st) as [[[|z xs]|] st']; try done. exfalso. by apply (Hn z xs).
      * destruct (existsb _ srcs) eqn:Ef; [|apply never_some_ret]. exfalso. apply Hh, Hhas, (Hfb q Hq), Ef.
    + intros q Hq. cbn [pev fst snd]. eapply does_eq; [|apply (does_bind _ _ (abind (some_of ((fun a => pev x Get a (key_of_path (t_nw (p_t E)) q)) <$> srcs)) (fun xs => aret ([] ++ xs)))
        (fun xs => match xs with [] => aret None | _ => abind (consume cn ((fun y => aret (Some y)) <$> xs)) (fun w => aret (Some w)) end))].
      * intros st. etrans; [apply abind_assoc|]. apply abind_ext. intros xs st'. done.
      * apply does_mu_loop; [|cbn [length]; unfold MULTI_N; lia]. eapply Forall_impl; [exact HF|]. intros a Ha. by apply (pf_data _ _ Ha).
      * intros [|y xs]; [apply does_ret|]. cbn [psome]. apply does_bind; [apply does_consume_items|]. intros w. apply does_ret.
    + intros q Hq Hh%Hhas. cbn [pev fst snd]. eapply does_eq; [intros st; symmetry; apply unsome_some|]. apply does_consume. unfold p_mu_items_u.
      apply Forall2_fmap, Forall_Forall2_diag. rewrite Forall_forall in *. intros a Ha. by apply (pf_data _ _ (HF a Ha)).
    + intros c p i Hc Hp Hi [Hb|Hh]; [done|]. exact (HE c p i (mu_Rk' _ _ _ _ _ _ (mu_Rk_Ru _ _ _ _ _ _ Hc)) Hp Hi Hh).
    + intros c p i Hc Hp Hi Hh. apply (does_unwrap (p_mu_cdata E (srcs, cn) c i)).
      * cbn [pev fst snd]. rewrite (proj2 (Hfb _ (path_full (punder x) p i Hp Hi))) by (by apply Hhas). apply never_none_bind_some.
      * exact (HE c p i (mu_Rk' _ _ _ _ _ _ Hc) Hp Hi Hh).
Qed.

(** ** the callers *)
(** evaluating several keys for an iterator, in order; for each the element with its key, or [None]: panicked *)
Fixpoint pevs {b E} (x : pview b E) (s : p_S E) (ks : list N) (st : St) : list (option (option (N * p_V E))) * St :=
  match ks with
  | [] => ([], st)
  | k :: ks =>
    let '(o, st) := pev x It s k st in
    let '(r, st) := pevs x s ks st in
    (match o with Some (Some y) => Some (Some (k, y)) | Some None => Some None | None => None end :: r, st)
  end.
Section callers.
Context {b : bool} {E : ptree St} (x : pview b E) (pk : N -> Prop) (s : p_S E).
Hypothesis Hr : reached pk (punder x) (p_src E s).
Notation L := (vL (punder x)).
Notation t := (p_t E).
Lemma pcaller_wf : l_wf L (p_src E s).
Proof. exact (vg_wf pk _ _ (reached_good pk (punder x) (p_src E s) Hr)). Qed.
Lemma pcaller_follows : pfollows x s.
Proof. exact (pview_follows pk x s Hr). Qed.
Lemma present_path k v : tree_get t (p_src E s) k = Ok (Some v) -> path_ok (t_nw t) (t_depth t) (level_indices (t_nw t) (t_depth t) k) /\
  key_of_path (t_nw t) (level_indices (t_nw t) (t_depth t) k) = k /\ phasq x s (level_indices (t_nw t) (t_depth t) k).
Proof.
  intros Hg. apply (view_get_Some pk (punder x) _ k v Hr) in Hg. pose proof Hg as Hg'. apply content_Some in Hg as [Hk _].
  destruct (level_indices_ok (t_nw t) (t_depth t) k) as [Hp Hkp]; [apply L|apply L|done|]. split; [done|]. split; [done|].
  unfold phasq. rewrite <- content_path by done. rewrite Hkp. by eexists.
Qed.
Lemma pev_present m k st v : tree_get t (p_src E s) k = Ok (Some v) -> fst (pev x m s k st) <> Some None.
Proof. intros (Hp & Hk & Hh)%present_path. pose proof (pf_has _ _ pcaller_follows m _ Hp Hh st) as H. by rewrite Hk in H. Qed.
Lemma pev_absent m k st y : view_key_ok t k -> m <> GetU -> tree_get t (p_src E s) k = Ok None -> fst (pev x m s k st) <> Some (Some y).
Proof.
  intros Hk Hm Hg. destruct (level_indices_ok (t_nw t) (t_depth t) k) as [Hp Hkp]; [apply L|apply L|unfold view_key_ok in Hk; lia|].
  assert (~ phasq x s (level_indices (t_nw t) (t_depth t) k)) as Hh.
  { intros Hh. apply (phas_q pk x s _ Hr Hp) in Hh. rewrite Hkp in Hh. unfold phas, got in Hh. by rewrite Hg in Hh. }
  pose proof (pf_hasnt _ _ pcaller_follows m _ Hp Hm Hh st y) as H. by rewrite Hkp in H.
Qed.
Lemma p_get_ev k st : view_key_ok t k -> p_get E s k st = Ok (pev x Get s k st).
Proof.
  intros Hk. unfold p_get. destruct (index_from_spec (t_nw t) (t_depth t) k) as [[-> Hlt]|[_ Hge]]; [|unfold view_key_ok in Hk; lia].
  destruct (level_indices_ok (t_nw t) (t_depth t) k) as [Hp Hkp]; [apply L|apply L|lia|].
  pose proof (pf_data _ _ pcaller_follows _ Hp st) as Hd. rewrite Hkp in Hd. exact Hd.
Qed.
Lemma p_get_u_ev k st v : tree_get t (p_src E s) k = Ok (Some v) -> p_get_unchecked E s k st = Ok (unsome (pev x GetU s k) st).
Proof.
  intros (Hp & Hk & Hh)%present_path. pose proof (pf_data_u _ _ pcaller_follows _ Hp Hh st) as Hd. rewrite Hk in Hd. exact Hd.
Qed.
Lemma p_poll_ev fuel m it p qs st : iinv L (p_src E s) it p -> todo_upto L (p_src E s) (it_iters it) p (t_depth t) = qs ->
  meas_upto L (p_src E s) (it_iters it) p (t_depth t) < fuel ->
  p_poll fuel m E s it st = Ok (let '(r, st) := pevs x s (key_of_path (t_nw t) <$> take m qs) st in (r ++ replicate (m - length qs) (Some None), st)).
Proof.
  pose proof pcaller_wf as Hwf. revert it p qs st. induction m as [|m IH]; intros it p qs st Hi Hqs Hf; [done|]. cbn [p_poll]. unfold p_next.
  destruct (iter_loop_ok L (p_src E s) Hwf fuel it p Hi Hf) as (it' & p' & o & Hloop & Hi' & Ho & Hm). rewrite Hloop, bind_ok. destruct o as [i|].
  - destruct Ho as (Hl & Htm & Htodo). rewrite Hqs in Htodo. subst qs. pose proof (l_depth L) as HD0.
    assert (path_ok (t_nw t) (t_depth t - 1) p') as Hpok by (rewrite <- Hl; apply Hi').
    assert (i < msize (t_nw t))%N as Hib by (eapply l_bound; eauto; [apply Hi'|lia]).
    assert (phasq x s (p' ++ [i])) as Hh by (by apply (l_terminal L)).
    pose proof (pf_has _ _ pcaller_follows It _ (path_full (punder x) p' i Hpok Hib) Hh st) as Hnn.
    rewrite Htodo. cbn [take]. rewrite fmap_cons. cbn [pevs].
    rewrite (pf_cdata_u _ _ pcaller_follows _ _ _ (ii_cur _ _ _ _ Hi') Hpok Hib Hh st), bind_ok. unfold unsome.
    destruct (pev x It s (key_of_path (t_nw t) (p' ++ [i])) st) as [[[y|]|] st1]; [|done|].
    + assert (it_indices it' = p') as Hidx.
      { rewrite <- (ii_pre L _ it' p' Hi'). symmetry. apply take_ge. rewrite (ii_idx L _ it' p' Hi'). lia. }
      rewrite Hidx, data_block_index_ok, !bind_ok by (done || apply L).
      rewrite (IH it' p' _ st1 Hi' eq_refl) by lia. rewrite bind_ok. by destruct (pevs x s _ st1) as [r st2].
    + rewrite bind_ok. rewrite (IH it' p' _ st1 Hi' eq_refl) by lia. rewrite bind_ok. by destruct (pevs x s _ st1) as [r st2].
  - destruct Ho as [Ho Hd]. rewrite Hqs in Ho. subst qs. rewrite Ho. rewrite bind_ok. cbn [take].
    destruct (todo_upto_empty L (p_src E s) (it_iters it') p' 0 (t_depth t)) as [E1 E2]; [lia|by intros k _ _; apply Hd|].
    rewrite (IH it' p' [] st Hi'); [|by rewrite E1|rewrite E2; cbn; lia].
    rewrite bind_ok. rewrite take_nil. cbn [pevs length fmap list_fmap app]. by rewrite !Nat.sub_0_r.
Qed.
Lemma p_iter_ev : exists n l, (forall fuel, n <= fuel -> iter_collect fuel t (p_src E s) = Ok l) /\
  forall m fuel st, n <= fuel -> p_iter fuel m E s st =
    Ok (let '(r, st) := pevs x s (take m l.*1) st in (r ++ replicate (m - length l) (Some None), st)).
Proof.
  pose proof pcaller_wf as Hwf. destruct (iter_new_ok L (p_src E s) Hwf) as (it & Hnew & Hi & Htodo).
  set (bound := meas_upto L (p_src E s) (it_iters it) [] (t_depth t) + length (todo_upto L (p_src E s) (it_iters it) [] (t_depth t))).
  destruct (iter_drain_ok L (p_src E s) Hwf (S bound) it [] Hi) as (it1 & p1 & l & _ & _ & _ & Hl); [unfold bound; lia|].
  exists (S bound), l. split.
  - intros fuel Hf. unfold iter_collect. rewrite Hnew, bind_ok.
    destruct (iter_drain_ok L (p_src E s) Hwf fuel it [] Hi) as (it' & p' & l' & -> & _ & _ & Hl'); [unfold bound in Hf; lia|].
    rewrite bind_ok. f_equal. rewrite <- Hl in Hl'. apply (fmap_inj Some) in Hl'; [done|]. intros ? ?. by injection 1.
  - intros m fuel st Hf. unfold p_iter. rewrite Hnew, bind_ok. rewrite (p_poll_ev fuel m it [] _ st Hi eq_refl) by (unfold bound in Hf; lia).
    revert Hl. generalize (todo_upto L (p_src E s) (it_iters it) [] (t_depth t)) as qs. intros qs Hl.
    assert (key_of_path (t_nw t) <$> qs = l.*1) as Hq.
    { clear -Hl. revert l Hl. induction qs as [|q qs IH]; intros [|[k v] l] Hl; try done. rewrite !fmap_cons in *. injection Hl as Hq Hl. f_equal; [|by apply IH].
      unfold entry in Hq. destruct (l_sem L _ q); [|done]. cbn in Hq. by injection Hq. }
    rewrite fmap_take, Hq. replace (length qs) with (length l); [done|]. by rewrite <- (fmap_length (key_of_path (t_nw t)) qs), Hq, fmap_length.
Qed.
End callers.

(** ** when the three ways to ask agree *)
(** the operands of every multi operation are closure-free *)
Definition plain {b E} (x : pview b E) : bool := match x with PView _ _ _ => true | _ => false end.
Fixpoint flat {b E} (x : pview b E) : bool :=
  match x with
  | PView _ _ _ => true
  | PMap _ _ _ x => flat x
  | PIntersection _ _ _ _ _ _ x0 x1 => flat x0 && flat x1
  | PUnion _ _ _ _ x0 x1 => flat x0 && flat x1
  | PMultiIntersection _ _ _ _ x => plain x
  | PMultiUnion _ _ _ _ x => plain x
  end.
Lemma plain_pev {b E} (x : pview b E) : plain x = true -> exists g : p_S E -> N -> option (p_V E),
  (forall m a k, pev x m a k = aret (g a k)) /\ forall a k, phas E a k = match g a k with Some _ => true | None => false end.
Proof. destruct x as [b t v| | | | |]; try done. intros _. exists (got t). split; intros; [done|]. unfold phas. cbn [p_pure p_t p_src]. by destruct (got t a k). Qed.
Lemma all_of_plain {X} (os : list (option X)) st : all_of (aret <$> os) st = (Some (mapM id os), st).
Proof.
  induction os as [|[y|] os IH]; [done| |done]. rewrite fmap_cons. cbn [all_of]. unfold abind. unfold aret at 1. rewrite IH. cbn [mapM id mbind option_bind].
  by destruct (mapM id os).
Qed.
Lemma some_of_plain {X} (os : list (option X)) st : some_of (aret <$> os) st = (Some (omap id os), st).
Proof. induction os as [|[y|] os IH]; [done| |]; rewrite fmap_cons; cbn [some_of]; unfold abind; unfold aret at 1; rewrite IH; done. Qed.
Lemma feed_plain {X A W} (c : consumer St X A W) (os : list (option X)) : forall a st, feed c (aret <$> os) a st = feed c ((fun y => aret (Some y)) <$> omap id os) a st.
Proof.
  induction os as [|[y|] os IH]; intros a st; [done| |].
  - change (omap id (Some y :: os)) with (y :: omap id os). rewrite !fmap_cons. cbn [feed]. rewrite !abind_ret. apply abind_ext. intros [a'|w] st'; [apply IH|done].
  - change (omap id (None :: os)) with (omap id os). rewrite fmap_cons. cbn [feed]. rewrite abind_ret. apply IH.
Qed.
Lemma consume_plain {X A W} (c : consumer St X A W) (os : list (option X)) st : consume c (aret <$> os) st = consume c ((fun y => aret (Some y)) <$> omap id os) st.
Proof. unfold consume. apply abind_ext. intros a st'. apply feed_plain. Qed.
Lemma phas_near (E : ptree St) k a : nw_ok (t_nw (p_t E)) -> phas E a k = true -> near E k a = true.
Proof.
  intros Hnw Hh. unfold near. set (w := msize (t_nw (p_t E))). assert (0 < w)%N as Hw by (unfold w, msize, nw_ok in *; lia). apply existsb_exists. exists (k mod w)%N. split.
  - apply elem_of_list_In, elem_of_seqN. pose proof (N.mod_lt k w). lia.
  - replace (k / w * w + k mod w)%N with k; [done|]. rewrite (N.div_mod k w) at 1 by lia. lia.
Qed.
Lemma omap_near {X Y} (f : X -> bool) (g : X -> option Y) (l : list X) : (forall a, is_Some (g a) -> f a = true) ->
  omap id (g <$> List.filter f l) = omap id (g <$> l).
Proof.
  intros Hf. induction l as [|a l IH]; [done|]. cbn [List.filter]. rewrite fmap_cons. destruct (f a) eqn:Ef.
  - rewrite fmap_cons. cbn [omap list_omap]. by rewrite IH.
  - rewrite IH. cbn [omap list_omap id]. destruct (g a) eqn:Eg; [|done]. exfalso. rewrite Hf in Ef; [done|]. by rewrite Eg.
Qed.
Lemma phas_content pk {b E} (x : pview b E) s k : reached pk (punder x) (p_src E s) -> phas E s k = true <-> is_Some (content (vL (punder x)) (p_src E s) k).
Proof. intros Hr. unfold phas. rewrite (got_content (punder x) pk) by done. destruct (content _ _ _); (split; [|intros [? ?]]); try done; intros _; by eexists. Qed.
Lemma abind_plain {X Y} (m : ans X) x (k : X -> ans Y) st : m st = (Some x, st) -> abind m k st = k x st.
Proof. unfold abind. by intros ->. Qed.
Lemma mi_content b t v s k : s <> [] -> is_Some (content (vL (VMultiIntersection b t v)) s k) -> Forall (fun a => is_Some (content (vL v) a k)) s.
Proof. intros Hne. rewrite vL_mi, content_mi by done. apply mapM_is_Some_1. Qed.
Lemma mu_content t HD v s k : is_Some (content (vL (VMultiUnion t HD v)) s k) -> Exists (fun a => is_Some (content (vL v) a k)) s.
Proof.
  destruct (vL_mu t HD v) as [H ->]. rewrite content_mu. destruct (omap _ s) as [|z zs] eqn:Ez; [by intros [? ?]|]. intros _.
  assert (z ∈ omap (fun a => content (vL v) a k) s) as Hz by (rewrite Ez; left).
  apply elem_of_list_omap in Hz as (a & Ha & Hz). apply Exists_exists. exists a. split; [done|by eexists].
Qed.
Lemma modes_agree {b E} (x : pview b E) pk : flat x = true -> forall s, reached pk (punder x) (p_src E s) -> forall k st,
  pev x It s k st = pev x Get s k st /\ (phas E s k = true -> pev x GetU s k st = pev x Get s k st).
Proof.
  induction x as [b t v|b E W x IH|b0 b1 E0 E1 Hn Hd x0 IH0 x1 IH1|E0 E1 Hn Hd x0 IH0 x1 IH1|b E A W x IH|E A W HD x IH]; intros Hfl s Hr k st; cbn [flat] in Hfl.
  - done.
  - destruct (IH Hfl (fst s) Hr k st) as [H1 H2]. cbn [pev]. unfold abind at 1. rewrite H1. split; [done|]. intros Hh. unfold abind at 1. by rewrite (H2 Hh).
  - destruct s as [s0 s1]. destruct Hr as [Hr0 Hr1]. cbn [p_intersection p_src fst snd] in Hr0, Hr1. apply andb_true_iff in Hfl as [Hf0 Hf1].
    cbn [pev fst snd]. split.
    + unfold abind at 1. rewrite (proj1 (IH0 Hf0 s0 Hr0 k st)). unfold abind at 2. destruct (pev x0 Get s0 k st) as [[o0|] st0]; [|done].
      unfold abind. by rewrite (proj1 (IH1 Hf1 s1 Hr1 k st0)).
    + intros Hh. assert (phas E0 s0 k = true /\ phas E1 s1 k = true) as [Hh0 Hh1].
      { rewrite (phas_content pk x0), (phas_content pk x1) by done. apply (phas_content pk (PIntersection b0 b1 E0 E1 Hn Hd x0 x1) (s0, s1)) in Hh; [|by split].
        by apply int_content in Hh. }
      unfold abind at 1. rewrite (proj2 (IH0 Hf0 s0 Hr0 k st) Hh0). unfold abind at 2. destruct (pev x0 Get s0 k st) as [[o0|] st0]; [|done].
      unfold abind. by rewrite (proj2 (IH1 Hf1 s1 Hr1 k st0) Hh1).
  - destruct s as [s0 s1]. destruct Hr as [Hr0 Hr1]. cbn [p_union p_src fst snd] in Hr0, Hr1. apply andb_true_iff in Hfl as [Hf0 Hf1].
    cbn [pev fst snd checked]. split; [|done].
    unfold abind at 1. rewrite (proj1 (IH0 Hf0 s0 Hr0 k st)). unfold abind at 2. destruct (pev x0 Get s0 k st) as [[o0|] st0]; [|done].
    unfold abind. by rewrite (proj1 (IH1 Hf1 s1 Hr1 k st0)).
  - destruct s as [srcs cn]. destruct (plain_pev x Hfl) as (g & Hg & Hp). cbn [pev fst snd].
    assert (forall m, (fun a => pev x m a k) <$> srcs = aret <$> ((fun a => g a k) <$> srcs)) as Hm.
    { intros m. rewrite <- list_fmap_compose. apply list_fmap_ext. intros i a _. cbn. apply Hg. }
    rewrite !Hm. set (os := (fun a => g a k) <$> srcs).
    assert (forallb (fun a => phas E a k) srcs = match mapM id os with Some _ => true | None => false end) as Hfb.
    { unfold os. clear -Hp. induction srcs as [|a srcs IH]; [done|]. rewrite fmap_cons. cbn [forallb mapM id]. rewrite Hp, IH.
      destruct (g a k); [|done]. cbn [andb mbind option_bind]. by destruct (mapM id _). }
    assert (forall xs, mapM id os = Some xs -> omap id os = xs) as Hom.
    { generalize os. clear. induction os as [|[y|] os IH]; intros xs; cbn [mapM id mbind option_bind]; [by intros [= <-]| |done].
      destruct (mapM id os) as [ys|]; [|done]. cbn. intros [= <-]. f_equal. by apply IH. }
    rewrite (abind_plain (all_of (aret <$> os)) (mapM id os)) by apply all_of_plain. rewrite Hfb.
    assert (forall xs, mapM id os = Some xs -> abind (consume cn (aret <$> os)) (fun w => aret (Some w)) st = abind (consume cn ((fun y => aret (Some y)) <$> xs)) (fun w => aret (Some w)) st) as Hc.
    { intros xs Hxs. unfold abind. by rewrite consume_plain, (Hom xs). }
    destruct (mapM id os) as [xs|] eqn:Exs.
    + split; [by apply Hc|intros _; by apply Hc].
    + split; [done|]. intros Hh. exfalso. apply (phas_content pk (PMultiIntersection b E A W x) (srcs, cn)) in Hh; [|done].
      assert (forallb (fun a => phas E a k) srcs = true) as Hall; [|by rewrite Hall in Hfb].
      destruct Hr as (Hne & _ & Hrs). cbn [p_multi_intersection p_src fst] in Hne, Hrs. rewrite Forall_fmap in Hrs.
      apply mi_content in Hh as Hh'; [|done]. cbn [p_multi_intersection p_src fst] in Hh'. rewrite Forall_fmap, Forall_forall in Hh'. rewrite Forall_forall in Hrs. apply forallb_forall. intros a Ha%elem_of_list_In.
      apply (phas_content pk x); [by apply Hrs|]. by apply Hh'.
  - destruct s as [srcs cn]. destruct (plain_pev x Hfl) as (g & Hg & Hp). cbn [pev fst snd].
    assert (forall m (l : list (p_S E)), (fun a => pev x m a k) <$> l = aret <$> ((fun a => g a k) <$> l)) as Hm.
    { intros m l. rewrite <- list_fmap_compose. apply list_fmap_ext. intros i a _. cbn. apply Hg. }
    rewrite !Hm. set (os := (fun a => g a k) <$> srcs).
    assert (existsb (fun a => phas E a k) srcs = match omap id os with [] => false | _ => true end) as Hfb.
    { unfold os. clear -Hp. induction srcs as [|a srcs IH]; [done|]. rewrite fmap_cons. cbn [existsb omap list_omap id]. rewrite Hp.
      destruct (g a k); [done|]. exact IH. }
    assert (forall l, omap id ((fun a => g a k) <$> l) = omap id os -> abind (consume cn (aret <$> ((fun a => g a k) <$> l))) (fun w => aret (Some w)) st =
      abind (consume cn ((fun y => aret (Some y)) <$> omap id os)) (fun w => aret (Some w)) st) as Hc.
    { intros l Hl. unfold abind. by rewrite consume_plain, Hl. }
    rewrite (abind_plain (some_of (aret <$> os)) (omap id os)) by apply some_of_plain.
    split.
    + rewrite Hfb. destruct (omap id os) as [|y ys] eqn:Eo; [done|]. rewrite <- Eo in *. apply Hc. apply omap_near.
      intros a [z Hz]. apply phas_near; [apply (vL (punder x))|]. by rewrite Hp, Hz.
    + intros Hh. etrans; [exact (Hc srcs eq_refl)|]. destruct (omap id os) as [|y ys] eqn:Eo; [|done]. exfalso.
      apply (phas_content pk (PMultiUnion E A W HD x) (srcs, cn)) in Hh; [|done].
      assert (existsb (fun a => phas E a k) srcs = true) as Hall; [|by rewrite Hall in Hfb].
      destruct Hr as (_ & Hrs). cbn [p_multi_union p_src fst] in Hrs. rewrite Forall_fmap, Forall_forall in Hrs.
      apply mu_content in Hh. cbn [p_multi_union p_src fst] in Hh. rewrite Exists_fmap, Exists_exists in Hh. destruct Hh as (a & Ha & Hh). apply existsb_exists. exists a. split; [by apply elem_of_list_In|].
      apply (phas_content pk x); [by apply Hrs|done].
Qed.
End laws.
Arguments pview : clear implicits.
