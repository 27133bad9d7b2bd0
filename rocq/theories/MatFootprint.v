(** * Memory cells `materialize` reads of its source (src/dense_tree/from.rs), for a source with an exact hierarchy
    Each node of the copy is built after one selection, each value of the copy is taken by one data access
    (from.rs:68, 42); both are steps of the source's cursor (CursorFootprint.v).  So the cost is the number of nodes of
    the copy and of its values, times the cost of a step. *)
From Verif Require Import Base BitUtils BitQueue LevelIndices ConstLoops Hierarchy Dense Materialize MaterializeUnwind
  Footprint DenseFootprint SparseFootprint ViewFootprint CursorFootprint.

(** fresh addresses are unused *)
Definition hok (h : heap) : Prop := forall a, (h_next h <= a)%N -> h_nodes h !! a = None.
Definition hsize (h : heap) : nat := size (h_nodes h).
Lemma halloc_size h n h' p : halloc h n = (h', p) -> hok h -> hok h' /\ hsize h' = S (hsize h).
Proof.
  intros [= <- <-] H. split.
  - intros a Ha. cbn in *. rewrite lookup_insert_ne by lia. apply H. lia.
  - unfold hsize. cbn. rewrite map_size_insert_None; [done|]. apply H. lia.
Qed.
Lemma hwrite_size h p n h' : hwrite h p n = Ok h' -> hok h -> hok h' /\ hsize h' = hsize h.
Proof.
  intros E H. unfold hwrite in E. destruct p as [k|a]; [discriminate E|]. destruct (h_nodes h !! a) as [n0|] eqn:Ea; [|done]. injection E as <-. split.
  - intros b Hb. cbn in *. destruct (decide (a = b)) as [->|]; [rewrite (H b Hb) in Ea; done|]. rewrite lookup_insert_ne by done. by apply H.
  - unfold hsize. cbn. rewrite map_size_insert_Some; [done|by eexists].
Qed.
Lemma raw_push_size k h p v h' : raw_push k h p v = Ok h' -> hok h -> hok h' /\ hsize h' = hsize h.
Proof.
  unfold raw_push. intros E. apply bind_ok_inv in E as (n & _ & E). destruct (decide _) in E; [|done]. apply bind_ok_inv in E as (sl & _ & E).
  destruct (u8_ok _); [|done]. by eapply hwrite_size.
Qed.
Lemma raw_finalize_size k h p e h' q : raw_finalize k h p e = Ok (h', q) -> hok h -> hok h' /\ hsize h' = hsize h.
Proof.
  unfold raw_finalize. intros E. apply bind_ok_inv in E as (n & _ & E). destruct (decide _) in E; [|done]. apply bind_ok_inv in E as (sl & _ & E).
  destruct (u8_ok _); [|done]. apply bind_ok_inv in E as (h1 & E1 & E). destruct (decide _) in E; [|done]. injection E as <- <-. by eapply hwrite_size.
Qed.

Section mat.
Context (t : tree) (m : memory (t_T t)) {K : Type} (plug : t_T t -> K -> t_C t) (ok : K -> Prop) (a b : t_T t -> nat).
Context (Hc : ccost t m plug ok a b) (src : t_T t).
Notation mst := (mat_state (t_C t) (t_V t)).
Local Notation nodes s := (hsize (m_heap s)).
Local Notation vals s := (length (m_data s)).
Local Notation re s c := (with_cur s c).

Definition okm (s : mst) (k : K) : Prop := ok k /\ m_cur s = plug src k /\ hok (m_heap s).
(** [g], run from [s], ends in [s'] and returns [r s'] *)
Definition mf {B} (g : t_T t -> mst -> res B) (s : mst) (k : K) (s' : mst) (r : mst -> B) : Prop :=
  exists k', okm s' k' /\ nodes s <= nodes s' /\ vals s <= vals s' /\
    wi m ((nodes s' - nodes s) * a src + (vals s' - vals s) * b src) (fun u => g u (re s (plug u k))) src (fun u => r (re s' (plug u k'))).

Lemma fold_mf (f : t_T t -> mst -> N -> res mst) l e :
  (forall s k i s', okm s k -> f src s i = Ok s' -> mf (fun u s => f u s i) s k s' (fun s => s)) ->
  forall s k s', okm s k -> fold_m (f src) l e s = Ok s' -> mf (fun u s => fold_m (f u) l e s) s k s' (fun s => s).
Proof using.
  intros Hf. induction l as [|i l IH]; intros s k s' Hk E; cbn [fold_m] in E; unfold mf; cbn [fold_m].
  - apply bind_ok_inv in E as (x & E1 & E). injection E as <-. exists k. split; [done|]. split; [done|]. split; [done|].
    eapply wi_pure; [exact E1|]. apply (wi_ret m _ src (fun u => re s (plug u k))).
  - apply bind_ok_inv in E as (s1 & E1 & E). destruct (Hf _ _ _ _ Hk E1) as (k1 & Hk1 & Hn1 & Hv1 & W1).
    destruct (IH _ _ _ Hk1 E) as (k2 & Hk2 & Hn2 & Hv2 & W2). exists k2. split; [done|]. split; [lia|]. split; [lia|].
    eapply wi_le; [|eapply wi_bind; [exact W1|exact W2]].
    assert (nodes s' - nodes s = (nodes s1 - nodes s) + (nodes s' - nodes s1)) as -> by lia.
    assert (vals s' - vals s = (vals s1 - vals s) + (vals s' - vals s1)) as -> by lia. lia.
Qed.

Definition tstep (u : t_T t) (raw : ptr) (key_acc : N) (s : mst) (index : N) : res mst :=
  let* data := t_cdata_u t u (m_cur s) index in
  let key := (key_acc + index)%N in
  let '(s, data_index) := push_fn s key data in
  let* h := raw_push KIdx (m_heap s) raw (SIdx data_index) in
  Ok (with_heap s h).
Lemma tstep_mf raw key_acc s k i s' : okm s k -> tstep src raw key_acc s i = Ok s' -> mf (fun u s => tstep u raw key_acc s i) s k s' (fun s => s).
Proof using Hc.
  intros (Hk & Hck & Hh) E. unfold tstep in E. apply bind_ok_inv in E as (v & E1 & E). destruct s as [c h d ks]. cbn in *|-. subst c.
  apply bind_ok_inv in E as (h1 & E2 & E). injection E as <-. destruct (raw_push_size _ _ _ _ _ E2 Hh) as [Hh1 Hs1].
  exists k. split; [done|]. cbn. rewrite app_length. cbn. split; [lia|]. split; [lia|].
  replace ((hsize h1 - hsize h) * a src + (length d + 1 - length d) * b src) with (b src) by (rewrite Hs1, Nat.sub_diag; replace (length d + 1 - length d) with 1 by lia; lia).
  unfold tstep. cbn. eapply wi_bind0; [exact (cc_data_u _ _ _ _ _ _ Hc src k _ _ Hk E1)|]. cbn beta. eapply wi_pure; [exact E2|].
  apply (wi_ret m 0 src (fun u => Mst (plug u k) h1 (d ++ [Some v]) (ks ++ [(key_acc + i)%N]))).
Qed.
Lemma tstep_nodes raw key_acc s i s' : tstep src raw key_acc s i = Ok s' -> hok (m_heap s) -> hok (m_heap s') /\ nodes s' = nodes s.
Proof using.
  intros E Hh. unfold tstep in E. apply bind_ok_inv in E as (v & E1 & E). cbn in E. apply bind_ok_inv in E as (h1 & E2 & E). injection E as <-. cbn. by eapply raw_push_size.
Qed.
Lemma tfold_nodes raw key_acc l e : forall s s', fold_m (tstep src raw key_acc) l e s = Ok s' -> hok (m_heap s) -> hok (m_heap s') /\ nodes s' = nodes s.
Proof using.
  induction l as [|i l IH]; intros s s' E Hh; cbn [fold_m] in E.
  - apply bind_ok_inv in E as (x & _ & E). by injection E as <-.
  - apply bind_ok_inv in E as (s1 & E1 & E). destruct (tstep_nodes _ _ _ _ _ E1 Hh) as [H1 H2]. rewrite <- H2. by apply IH.
Qed.

Lemma terminal_mf mk cap key_acc s k s' p : okm s k -> make_terminal_node t src s mk cap key_acc = Ok (s', p) ->
  exists k', okm s' k' /\ nodes s' = S (nodes s) /\ vals s <= vals s' /\
    wi m ((vals s' - vals s) * b src) (fun u => make_terminal_node t u (re s (plug u k)) mk cap key_acc) src (fun u => (re s' (plug u k'), p)).
Proof using Hc.
  intros (Hk & Hck & Hh) E. unfold make_terminal_node in E. apply bind_ok_inv in E as (w & E1 & E).
  destruct (raw_new KIdx (m_heap s) cap w) as [h raw] eqn:E2. destruct (halloc_size _ _ _ _ E2 Hh) as [Hh2 Hs2].
  destruct (traverse_list mk) as (l & e & Ht & _). rewrite Ht in E.
  apply bind_ok_inv in E as (s1 & E3 & E). change (fold_m (tstep src raw key_acc) l e (with_heap s h) = Ok s1) in E3.
  apply bind_ok_inv in E as ([h3 p3] & E4 & E). injection E as <- <-.
  destruct (tfold_nodes _ _ _ _ _ _ E3 Hh2) as [Hh3 Hs3].
  destruct (fold_mf (fun u => tstep u raw key_acc) l e (fun s k i s' => tstep_mf raw key_acc s k i s') (with_heap s h) k s1) as (k1 & (Hk1 & Hck1 & _) & _ & Hv1 & W1); [done|exact E3|].
  destruct (raw_finalize_size _ _ _ _ _ _ E4 Hh3) as [Hh4 Hs4].
  exists k1. split; [done|]. cbn [with_heap m_heap m_data] in *. split; [lia|]. split; [exact Hv1|].
  unfold make_terminal_node. eapply wi_pure; [exact E1|]. cbn beta.
  eapply wi_ext with (f := fun u => let* s := fold_m (tstep u raw key_acc) l e (re (with_heap s h) (plug u k)) in
     let* (h, p) := raw_finalize KIdx (m_heap s) raw (SIdx 0) in Ok (with_heap s h, p)).
  { intros u. cbn [with_cur m_heap]. rewrite E2, Ht. reflexivity. }
  eapply wi_bind0.
  - eapply wi_le; [|exact W1]. rewrite Hs3, Nat.sub_diag. cbn [with_heap m_data]. lia.
  - cbn beta. cbn [with_cur m_heap]. eapply wi_pure; [exact E4|]. cbn beta iota. destruct s1 as [c1 h1 d1 ks1]. cbn.
    apply (wi_ret m 0 src (fun u => (Mst (plug u k1) h3 d1 ks1, p3))).
Qed.

Lemma exact_mf (Hx : t_exact t = true) : forall j n index key_acc s k s' p, okm s k -> from_exact t src j n index key_acc s = Ok (s', p) ->
  mf (fun u s => from_exact t u j n index key_acc s) s k s' (fun s => (s, p)).
Proof using Hc.
  induction j as [|j IH]; intros n index key_acc s k s' p (Hk & Hck & Hh) E; unfold mf; cbn [from_exact] in E |- *; rewrite Hx in E |- *.
  - apply bind_ok_inv in E as ([c mk] & E1 & E). rewrite Hck in E1. destruct (cc_sel_u _ _ _ _ _ _ Hc src k _ _ _ _ Hk E1) as (k1 & Hk1 & W1).
    assert (c = plug src k1) as ->. { destruct W1 as (F & _ & R). specialize (R src (agree_refl _ _ _ _)). cbn beta in R. congruence. }
    destruct (terminal_mf _ _ _ (with_cur s (plug src k1)) k1 _ _ ltac:(done) E) as (k2 & Hk2 & Hn & Hv & W2). cbn [with_cur m_heap m_data] in Hn, Hv, W2.
    exists k2. split; [done|]. split; [lia|]. split; [done|]. rewrite Hn. replace (S (nodes s) - nodes s) with 1 by lia. rewrite Nat.mul_1_l.
    cbn [with_cur m_cur]. eapply wi_bind; [exact W1|]. cbn beta iota. exact W2.
  - apply bind_ok_inv in E as ([c mk] & E1 & E). rewrite Hck in E1. destruct (cc_sel_u _ _ _ _ _ _ Hc src k _ _ _ _ Hk E1) as (k1 & Hk1 & W1).
    assert (c = plug src k1) as ->. { destruct W1 as (F & _ & R). specialize (R src (agree_refl _ _ _ _)). cbn beta in R. congruence. }
    apply bind_ok_inv in E as (w & E2 & E). cbn [with_cur m_heap] in E.
    destruct (raw_new KPtr (m_heap s) (mask_count_ones mk + 1) w) as [h raw] eqn:E3. destruct (halloc_size _ _ _ _ E3 Hh) as [Hh3 Hs3].
    destruct (traverse_list mk) as (l & e & Ht & _). rewrite Ht in E. apply bind_ok_inv in E as (s1 & E4 & E).
    apply bind_ok_inv in E as (em & E5 & E). apply bind_ok_inv in E as ([h6 p6] & E6 & E). injection E as <- <-.
    set (f := fun (u : t_T t) (s : mst) (index : N) => let key_acc := (key_acc + block_start (t_depth t) n index)%N in
        let* (s, child_node) := from_exact t u j (S n) index key_acc s in
        let* h := raw_push KPtr (m_heap s) raw (SPtr child_node) in
        Ok (with_heap s h)).
    change (fold_m (f src) l e (with_heap (with_cur s (plug src k1)) h) = Ok s1) in E4.
    destruct (fold_mf f l e) with (s := with_heap (with_cur s (plug src k1)) h) (k := k1) (s' := s1) as (k2 & (Hk2 & Hck2 & Hh4) & Hn4 & Hv4 & W4); [|done|exact E4|].
    { clear - IH. intros s k i s' Hs E. unfold f in E. apply bind_ok_inv in E as ([s1 ch] & E1 & E). apply bind_ok_inv in E as (h & E2 & E). injection E as <-.
      destruct (IH _ _ _ _ _ _ _ Hs E1) as (k1 & (Hk1 & Hck1 & Hh1) & Hn1 & Hv1 & W1). destruct (raw_push_size _ _ _ _ _ E2 Hh1) as [Hh2 Hs2].
      exists k1. split; [done|]. cbn [with_heap m_heap m_data]. rewrite Hs2. split; [done|]. split; [done|]. unfold f.
      eapply wi_bind0; [exact W1|]. cbn beta iota. cbn [with_cur m_heap]. eapply wi_pure; [exact E2|].
      destruct s1 as [c1 h1 d1 ks1]. cbn. apply (wi_ret m 0 src (fun u => Mst (plug u k1) h d1 ks1)). }
    cbn [with_heap with_cur m_heap m_data] in Hn4, Hv4, W4. destruct (raw_finalize_size _ _ _ _ _ _ E6 Hh4) as [Hh6 Hs6].
    exists k2. split; [done|]. cbn [with_heap m_heap m_data]. rewrite Hs6. split; [lia|]. split; [done|]. rewrite Hs3 in W4, Hn4.
    eapply wi_le with (n := a src + ((nodes s1 - S (nodes s)) * a src + (vals s1 - vals s) * b src)).
    { assert (nodes s1 - nodes s = S (nodes s1 - S (nodes s))) as -> by lia. cbn [Nat.mul]. lia. }
    cbn [with_cur m_cur]. eapply wi_bind; [exact W1|]. cbn beta iota. cbn [with_cur m_heap].
    eapply wi_pure; [exact E2|]. cbn beta.
    eapply wi_ext with (f := fun u => let* s := fold_m (f u) l e (re (with_heap s h) (plug u k1)) in
      let* empty_child := empty_node (S n) (t_depth t) in
      let* (h, p) := raw_finalize KPtr (m_heap s) raw (SPtr empty_child) in Ok (with_heap s h, p)).
    { intros u. rewrite E3, Ht. reflexivity. }
    eapply wi_bind0; [exact W4|]. cbn beta. eapply wi_pure; [exact E5|]. cbn [with_cur m_heap]. eapply wi_pure; [exact E6|]. cbn beta iota.
    destruct s1 as [c1 h1 d1 ks1]. cbn. apply (wi_ret m 0 src (fun u => (Mst (plug u k2) h6 d1 ks1, p6))).
Qed.

Lemma materialize_cost d : t_exact t = true -> materialize t src = Ok d ->
  within m (size (h_nodes (d_heap d)) * a src + (length (d_data d) - 1) * b src) (fun u => materialize t u) src d.
Proof using Hc.
  intros Hx E. unfold materialize in E. apply bind_ok_inv in E as (c & E1 & E). rewrite Hx in E. apply bind_ok_inv in E as ([s root] & E2 & E). injection E as <-.
  destruct (cc_new _ _ _ _ _ _ Hc src c E1) as (k & Hk & W1).
  assert (c = plug src k) as ->. { destruct W1 as (F & _ & R). specialize (R src (agree_refl _ _ _ _)). cbn beta in R. congruence. }
  assert (okm (Mst (plug src k) heap_empty [None] [USIZE_MAX]) k) as Hk0 by (split; [exact Hk|split; [reflexivity|intros x _; apply lookup_empty]]).
  destruct (exact_mf Hx _ _ _ _ _ k _ _ Hk0 E2) as (k2 & _ & _ & _ & W2).
  apply wi_within. unfold materialize. rewrite Hx. cbn [d_heap d_data]. eapply (wi_bind m 0); [exact W1|]. cbn beta.
  eapply wi_bind0 with (x := fun u => (re s (plug u k2), root)); [|exact (wi_ret m 0 src (fun _ => Dense root (m_heap s) (m_data s) (m_keys s)))].
  eapply wi_le; [|exact W2]. cbn [m_heap m_data length]. change (hsize heap_empty) with 0. rewrite Nat.sub_0_r. done.
Qed.
End mat.

Lemma expr_materialize {t} (x : expression t) s d : t_exact t = true -> materialize t s = Ok d ->
  within (e_memory x) ((size (h_nodes (d_heap d)) + (length (d_data d) - 1)) * (containers x s * 2)) (fun u => materialize t u) s d.
Proof.
  intros Hx E. destruct (expr_cursor x) as (K & plug & ok & Hc). rewrite Nat.mul_add_distr_r. by apply (materialize_cost _ _ _ _ _ _ Hc s d Hx E).
Qed.
