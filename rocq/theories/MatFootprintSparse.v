(** * Memory cells `materialize` reads of a source without an exact hierarchy (src/dense_tree/from.rs:97-137)
    Such a copy selects the nodes that an iteration selects ([walk], IterCost.v): each once. *)
From Verif Require Import Base BitUtils BitUtilsProofs BitQueue LevelIndices LevelIndicesProofs ConstLoops Hierarchy Lawful IterProofs IterCost
  DenseDrop Dense Materialize MaterializeProofs MaterializeLaws MaterializeEmpty AllViews
  Footprint DenseFootprint SparseFootprint ViewFootprint CursorFootprint MatFootprint.

Section mat.
Context (t : tree) (m : memory (t_T t)) {K : Type} (plug : t_T t -> K -> t_C t) (ok : K -> Prop) (a b : t_T t -> nat).
Context (Hc : ccost t m plug ok a b) (L : lawful t) (src : t_T t) (Hwf : l_wf L src) (Hnw : t_nw t = 1).
Notation D := (t_depth t).
Notation mst := (mat_state (t_C t) (t_V t)).
Local Notation vals s := (length (m_data s)).
Local Notation re s c := (with_cur s c).
Local Notation okm := (okm t plug ok src).
Local Notation walk := (walk L src).

Lemma sparse_mf j : forall n p index ka s k s' o, length p = n -> n + S j = D -> path_ok 1 n p ->
  (exists c mk, t_select_u t src (m_cur s) n index = Ok (c, mk) /\ mask_is (t_nw t) mk (l_tm L src p) /\ l_Ru L src c p) ->
  okm s k -> from_sparse t src j n index ka s = Ok (s', o) ->
  exists k', okm s' k' /\ vals s <= vals s' /\
    wi m (length (walk (S j) p) * a src + (vals s' - vals s) * b src) (fun u => from_sparse t u j n index ka (re s (plug u k))) src (fun u => (re s' (plug u k'), o)).
Proof using Hc Hwf Hnw.
  induction j as [|j IH]; intros n p index ka s k s' o Hn HnD Hp (c & mk & Hsel & Hm & Hcur) (Hk & Hck & Hh) E; cbn [from_sparse] in E |- *;
    rewrite Hsel, bind_ok in E; rewrite Hck in Hsel; destruct (cc_sel_u _ _ _ _ _ _ Hc src k _ _ _ _ Hk Hsel) as (k1 & Hk1 & W1);
    (assert (c = plug src k1) as -> by (destruct W1 as (F & _ & R); specialize (R src (agree_refl _ _ _ _)); cbn beta in R; congruence));
    (assert (mask_ok 1 mk) as Hmok by (destruct Hm as [Hm' _]; by rewrite Hnw in Hm')).
  - apply bind_ok_inv in E as ([s1 p1] & E & E'). injection E' as <- <-.
    destruct (terminal_mf _ _ _ _ _ _ Hc src _ _ _ (with_cur s (plug src k1)) k1 _ _ ltac:(done) E) as (k2 & Hk2 & _ & Hv & W2). cbn [with_cur m_heap m_data] in Hv, W2.
    exists k2. split; [done|]. split; [done|].
    assert (length (walk 1 p) = 1) as ->. { cbn [IterCost.walk length]. f_equal. induction (kids L src p) as [|x l IHl]; [done|exact IHl]. }
    rewrite Nat.mul_1_l. cbn [with_cur m_cur]. eapply wi_bind; [exact W1|]. cbn beta iota.
    eapply wi_bind0; [exact W2|]. cbn beta iota. apply (wi_ret m 0 src (fun u => (re s1 (plug u k2), Some p1))).
  - pose proof (kids_mask L src Hwf p mk) as Hkids. rewrite Hnw in Hkids. subst n. specialize (Hkids Hp ltac:(lia)).
    assert (mask_is 1 mk (l_tm L src p)) as Hm1 by (by rewrite Hnw in Hm). specialize (Hkids Hm1).
    apply bind_ok_inv in E as ([[s1 nm] ch] & E & E2). rewrite (traverse_m_ok 1) in E by done.
    set (f := fun (u : t_T t) '(s, node_mask, childs) (index : N) =>
        let key_acc := (ka + block_start D (length p) index)%N in
        let* (s, child_node) := from_sparse t u j (S (length p)) index key_acc s in
        match child_node with
        | Some child_node =>
          let* (node_mask, _) := mask_set_bit true node_mask index in
          if decide (length childs < 64) then
            Ok (s, node_mask, childs ++ [SPtr child_node])
          else UB
        | None => Ok (s, node_mask, childs)
        end).
    change (fold_res (f src) (mbits mk) (with_cur s (plug src k1), mask_zero 1, []) = Ok (s1, nm, ch)) in E.
    assert (forall l s nm ch k s' nm' ch', (forall i, i ∈ l -> i ∈ kids L src p) -> okm s k -> l_Ru L src (m_cur s) p ->
      fold_res (f src) l (s, nm, ch) = Ok (s', nm', ch') ->
      exists k', okm s' k' /\ vals s <= vals s' /\
        wi m (length (l ≫= (fun i => walk (S j) (p ++ [i]))) * a src + (vals s' - vals s) * b src)
          (fun u => fold_res (f u) l (re s (plug u k), nm, ch)) src (fun u => (re s' (plug u k'), nm', ch'))) as Hfold.
    { clear s s' E E2 s1 nm ch Hsel Hck Hh k Hk W1 k1 Hk1 Hcur o.
      intros l. induction l as [|i l IHl]; intros s nm ch k s' nm' ch' Hin Hok Hcur E; cbn [fold_res] in E |- *.
      - injection E as <- <- <-. exists k. split; [done|]. split; [done|]. apply (wi_ret m _ src (fun u => (re s (plug u k), nm, ch))).
      - apply bind_ok_inv in E as ([[s1 nm1] ch1] & E1 & E).
        assert (l_tm L src p i = true) as Hi. { apply (elem_of_kids L src Hwf); [by rewrite Hnw|lia|apply Hin; left]. }
        assert (i < 64)%N as Hi64 by (pose proof (l_bound L src p i Hwf) as Hb; rewrite Hnw in Hb; apply Hb; [done|lia|done]).
        pose proof (l_selectS_u L src (m_cur s) p i Hwf Hcur ltac:(by rewrite Hnw) ltac:(lia) Hi) as Hs1.
        unfold f in E1. apply bind_ok_inv in E1 as ([s2 o2] & E1 & E2).
        assert (length (p ++ [i]) = S (length p)) as Hlp by (rewrite app_length; cbn; lia).
        pose proof (path_ok_snoc _ _ _ _ Hp Hi64) as Hp'.
        destruct (from_sparse_empty t L src Hwf Hnw j (S (length p)) (p ++ [i]) _ _ _ _ _ Hlp ltac:(lia) Hp' Hs1 E1) as [Hc2 _].
        apply (l_Ru_take L _ _ _ (length p)) in Hc2. rewrite take_app in Hc2.
        destruct (IH (S (length p)) (p ++ [i]) _ _ _ k _ _ Hlp ltac:(lia) Hp' Hs1 Hok E1) as (k2 & Hk2 & Hv2 & W2).
        assert (s1 = s2 /\ wi m 0 (fun u => match o2 with
            | Some child_node => let* (node_mask, _) := mask_set_bit true nm i in
                if decide (length ch < 64) then Ok (re s2 (plug u k2), node_mask, ch ++ [SPtr child_node]) else UB
            | None => Ok (re s2 (plug u k2), nm, ch) end) src (fun u => (re s2 (plug u k2), nm1, ch1))) as [-> W3].
        { destruct o2 as [q|].
          - apply bind_ok_inv in E2 as ([nm2 bb] & E3 & E2). destruct (decide (length ch < 64)); [|done]. injection E2 as <- <- <-. split; [done|].
            eapply wi_pure; [exact E3|]. cbn beta iota. apply (wi_ret m 0 src (fun u => (re s2 (plug u k2), nm2, ch ++ [SPtr q]))).
          - injection E2 as <- <- <-. split; [done|]. apply (wi_ret m 0 src (fun u => (re s2 (plug u k2), nm, ch))). }
        destruct (IHl s2 nm1 ch1 k2 s' nm' ch' ltac:(intros x Hx; apply Hin; by right) Hk2 Hc2 E) as (k3 & Hk3 & Hv3 & W4).
        exists k3. split; [done|]. split; [lia|].
        rewrite bind_cons, app_length.
        eapply wi_le; [|eapply wi_bind; [|exact W4]].
        2:{ unfold f. eapply wi_bind0; [exact W2|]. cbn beta iota. exact W3. }
        assert (vals s' - vals s = (vals s2 - vals s) + (vals s' - vals s2)) as -> by lia. lia. }
    assert (okm (with_cur s (plug src k1)) k1) as Hok1 by done.
    destruct (Hfold (mbits mk) _ _ _ k1 _ _ _ ltac:(intros i Hi; by rewrite Hkids in Hi) Hok1 Hcur E) as (k2 & (Hk2 & Hck2 & Hh2) & Hv & W2).
    cbn [with_cur m_data] in Hv, W2. rewrite Hkids in W2.
    assert (exists k', okm s' k' /\ vals s' = vals s1 /\ wi m 0 (fun u =>
      if decide (ch = []) then Ok (re s1 (plug u k2), None)
      else let* empty_child := empty_node (S (length p)) D in
        let* w := get_u nm 0 in
        let '(h, q) := from_parts KPtr (m_heap (re s1 (plug u k2))) w ch (SPtr empty_child) in
        Ok (with_heap (re s1 (plug u k2)) h, Some q)) src (fun u => (re s' (plug u k'), o))) as (k3 & Hk3 & Hv3 & W3).
    { destruct (decide (ch = [])) as [Hd|Hd].
      - injection E2 as <- <-. exists k2. split; [done|]. split; [done|]. apply (wi_ret m 0 src (fun u => (re s1 (plug u k2), None))).
      - apply bind_ok_inv in E2 as (ec & E3 & E2). apply bind_ok_inv in E2 as (w & E4 & E2). destruct (from_parts _ _ _ _ _) as [h q] eqn:E5. injection E2 as <- <-.
        destruct (halloc_size _ _ _ _ E5 Hh2) as [Hh3 _]. exists k2. split; [done|]. split; [done|].
        eapply wi_pure; [exact E3|]. cbn beta. eapply wi_pure; [exact E4|]. cbn beta. cbn [with_cur m_heap]. rewrite E5.
        destruct s1 as [c1 h1 d1 ks1]. cbn. apply (wi_ret m 0 src (fun u => (Mst (plug u k2) h d1 ks1, Some q))). }
    exists k3. split; [done|]. split; [lia|]. rewrite Hv3.
    assert (length (walk (S (S j)) p) = S (length (kids L src p ≫= (fun i => walk (S j) (p ++ [i]))))) as -> by done.
    eapply wi_le with (n := a src + (length (kids L src p ≫= (fun i => walk (S j) (p ++ [i]))) * a src + (vals s1 - vals s) * b src)); [cbn [Nat.mul]; lia|].
    cbn [with_cur m_cur]. eapply wi_bind; [exact W1|]. cbn beta iota.
    eapply wi_bind0 with (x := fun u => (re s1 (plug u k2), nm, ch)); [|exact W3].
    eapply wi_ext; [|exact W2]. intros u. rewrite (traverse_m_ok 1) by done. rewrite Hkids. reflexivity.
Qed.

Lemma materialize_sparse_cost d : t_exact t = false -> 1 <= D -> materialize t src = Ok d ->
  within m (length (walk D []) * a src + (length (d_data d) - 1) * b src) (fun u => materialize t u) src d.
Proof using Hc Hwf Hnw.
  intros Hx HD E. unfold materialize in E. apply bind_ok_inv in E as (c & E1 & E). rewrite Hx in E. apply bind_ok_inv in E as ([s root] & E2 & E). injection E as <-.
  apply bind_ok_inv in E2 as ([s1 o] & E2 & E3). apply bind_ok_inv in E3 as (q & E3 & E4). injection E4 as <- <-.
  destruct (cc_new _ _ _ _ _ _ Hc src c E1) as (k & Hk & W1).
  assert (c = plug src k) as ->. { destruct W1 as (F & _ & R). specialize (R src (agree_refl _ _ _ _)). cbn beta in R. congruence. }
  assert (okm (Mst (plug src k) heap_empty [None] [USIZE_MAX]) k) as Hk0 by (split; [exact Hk|split; [reflexivity|intros x _; apply lookup_empty]]).
  destruct (l_new L src Hwf) as (c' & Hn & Hv). rewrite E1 in Hn. injection Hn as <-.
  destruct (sparse_mf (D - 1) 0 [] 0%N 0%N (Mst (plug src k) heap_empty [None] [USIZE_MAX]) k s1 o) as (k2 & _ & _ & W2);
    [done|lia|apply path_ok_nil|by apply (sel_root t L src Hwf)|exact Hk0|exact E2|].
  apply wi_within. unfold materialize. rewrite Hx. cbn [d_heap d_data]. eapply (wi_bind m 0); [exact W1|]. cbn beta.
  eapply wi_bind0 with (x := fun u => (re s1 (plug u k2), q)); [|exact (wi_ret m 0 src (fun _ => Dense q (m_heap s1) (m_data s1) (m_keys s1)))].
  eapply wi_bind0; [eapply wi_le; [|exact W2]|].
  - cbn [m_data length]. replace (S (D - 1)) with D by lia. done.
  - cbn beta iota. eapply wi_pure; [exact E3|]. apply (wi_ret m 0 src (fun u => (re s1 (plug u k2), q))).
Qed.
End mat.

(** other data methods of the containers do not matter to cursors *)
Lemma ccost_data t d du (m : memory (t_T t)) {K} (plug : t_T t -> K -> t_C t) ok a b : ccost t m plug ok a b -> ccost (with_data t d du) m plug ok a b.
Proof. intros [H1 H2 H3 H4 H5]. split; [exact H1|exact H2|exact H3|exact H4|exact H5]. Qed.
Lemma expr_materialize_sparse {t} (x : expression t) d du (L : lawful (with_data t d du)) s c : l_wf L s -> t_nw t = 1 -> 1 <= t_depth t -> t_exact t = false -> materialize t s = Ok c ->
  within (e_memory x) ((length (walk L s (t_depth t) []) + (length (d_data c) - 1)) * (containers x s * 2)) (fun u => materialize t u) s c.
Proof.
  intros Hwf Hnw HD Hx E. destruct (expr_cursor x) as (K & plug & ok & Hc). rewrite Nat.mul_add_distr_r.
  exact (materialize_sparse_cost (with_data t d du) _ _ _ _ _ (ccost_data t d du _ _ _ _ _ Hc) L s Hwf Hnw c Hx HD E).
Qed.
