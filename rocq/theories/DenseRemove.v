(** * DenseTree: remove, enumeration, drop *)
From Verif Require Import Base BitUtils BitUtilsProofs BitQueue BitQueueProofs LevelIndices LevelIndicesProofs
  ConstLoops Hierarchy Lawful Dense DenseNode DenseShape DenseProofs.

Section remove.
Context (D : nat).
Hypothesis HD0 : 2 <= D.
Hypothesis HD : D <= 9.
Let HD1 : 1 <= D. Proof. lia. Qed.
Context {V : Type}.
Implicit Types (t : dense V) (m : gmap N V).

Lemma exact_ext R P J J' X : (forall r, is_Some (J !! r) -> is_Some (J' !! r)) -> exact D R P J X -> exact D R P J' X.
Proof.
  intros HJ He p Hp HPp. destruct (He p Hp HPp) as [HR|[i Hi]]; [by left|right]. exists i. unfold childs, childs0 in *.
  destruct X as [[x o]|]; repeat destruct (decide _); try done; rewrite fmap_is_Some in *; auto.
Qed.

(** the structural part of `remove`: unlink [q] from its terminal node, free it and the
    nodes above that become empty *)
Lemma remove_struct (h : heap) (root : ptr) P J q j : shape D h root P J None -> J !! q = Some j ->
  exists branch tn i, get_branch_loop h (D - 1) 0 q root = Ok branch /\
    get_u branch (length branch - 1) = Ok tn /\ get_u q (length q - 1) = Ok i /\ child_idx h tn i = Ok j /\
  exists h1 len, node_remove KIdx h tn i = Ok h1 /\ node_len h1 tn = Ok len /\
  exists h2 P2, (if decide (len = 1) then
        let* h := drop_node KIdx h1 tn in
        let* (h, _) := const_loop_rev 0 (D - 1) (remove_climb_body root branch q) h in
        Ok h
      else Ok h1) = Ok h2 /\ shape D h2 root P2 (delete q J) None /\
      (forall R, exact D R P J None -> exact D R P2 (delete q J) None).
Proof.
  intros Sh Hj. destruct (J_node D HD1 HD _ _ _ _ _ _ _ Sh Hj) as [Hq [a Ha]].
  destruct (sh_root _ _ _ _ _ _ Sh) as (ar & Er & Har).
  destruct (branch_present D HD _ _ _ _ Sh q (D - 1) 0 ar a Hq) as (bs & Hbr & Hbl & Hbs); [lia|done|done|].
  assert (bs !! (D - 2) = Some a) as Hba.
  { destruct (lookup_lt_is_Some_2 bs (D - 2) ltac:(lia)) as [b Hb]. pose proof (Hbs _ _ Hb) as E.
    replace (0 + S (D - 2)) with (D - 1) in E by lia. congruence. }
  destruct (dpath_last D HD1 HD q Hq) as (i & Eq & Hi & Hi64 & Hgu). pose proof (dpath_take D HD1 HD q Hq) as Hlen.
  set (p := take (D - 1) q) in *.
  exists (PHeap <$> bs), (PHeap a), i. split; [by rewrite Er|]. split.
  { apply get_u_ok. rewrite list_lookup_fmap, fmap_length, Hbl. replace (D - 1 - 1) with (D - 2) by lia. by rewrite Hba. }
  split; [done|]. split.
  { eapply (child_idx_present D HD); [exact Sh|exact Ha|lia|by rewrite <- Eq]. }
  assert (kind_at D (length p) = KIdx) as Hkp by (unfold kind_at; by rewrite decide_False by lia).
  destruct (shape_unlink D h root P J None (delete q J) None p a i (SIdx j) Sh Ha) as (h1 & n1 & Hrem & Sh1 & Hn1 & Hr1 & Hk1).
  { cbn. unfold childs0. rewrite decide_False by lia. by rewrite <- Eq, Hj. }
  { intros r x. cbn. unfold childs0. destruct (decide (r = p /\ x = i)) as [[-> ->]|Hne].
    - rewrite decide_False by lia. rewrite <- Eq. by rewrite lookup_delete.
    - destruct (decide (S (length r) < D)); [done|]. rewrite lookup_delete_ne; [done|]. intros E. rewrite Eq in E.
      apply app_one_inj in E as [-> ->]. by apply Hne. }
  { intros q0 j0 [_ Hq0]%lookup_delete_Some. by eapply (sh_jpath _ _ _ _ _ _ Sh). }
  rewrite Hkp in Hrem, Hk1. exists h1, (n_len n1). split; [done|]. split; [by apply node_len_ok|].
  assert (forall r, r <> p -> is_Some (P !! r) -> (exists x, is_Some (childs D P J None r x)) ->
     exists x, is_Some (childs D P (delete q J) None r x)) as Hex.
  { intros r Hrp HPr [x Hx]. exists x. cbn in *. unfold childs0 in *. destruct (decide (S (length r) < D)); [done|].
    rewrite lookup_delete_ne; [done|]. intros E. rewrite Eq in E. by apply app_one_inj in E as [? _]. }
  destruct (decide (n_len n1 = 1)) as [Hl|Hl].
  - rewrite (drop_node_ok _ _ _ _ _ _ Hn1 Hr1 Hk1), bind_ok.
    pose proof (proj1 (nr_len_1 _ _ _ Hr1) Hl) as Hnone.
    destruct (lookup_lt_is_Some_2 q (D - 2)) as [i' Hi']; [destruct Hq as [Hql _]; lia|].
    assert (p = take (D - 2) q ++ [i']) as Ep.
    { unfold p. rewrite <- take_snoc by done. f_equal. lia. }
    assert (p = take (S (D - 2)) q) as Ep2 by (unfold p; f_equal; lia).
    rewrite const_loop_rev_ok by lia. replace (D - 1 - 0) with (S (D - 2)) by lia.
    clearbody p. rewrite Ep in Ha, Hnone. pose proof (shape_free D HD1 HD _ _ _ _ _ _ _ Sh1 Ha Hnone) as Sh2.
    rewrite <- Ep in Sh2, Ha, Hnone. rewrite Ep2 in Sh2.
    destruct (climb_ok D HD1 HD q (PHeap <$> bs) (D - 2) _ _ _ _ _ Hq ltac:(lia) Sh2) as (h3 & o & P3 & Hv & Sh3 & _ & Hex3).
    + by rewrite lookup_delete.
    + intros m Hm. destruct (lookup_lt_is_Some_2 bs m ltac:(lia)) as [b Hb]. exists b. rewrite list_lookup_fmap, Hb.
      split; [done|]. pose proof (Hbs _ _ Hb) as E. cbn [Nat.add] in E. rewrite lookup_delete_ne; [done|].
      intros E'. apply (f_equal length) in E'. destruct Hq as [Hql _]. rewrite !take_length in E'. lia.
    + apply lookup_delete_is_Some. split.
      * intros E'. apply (f_equal length) in E'. destruct Hq as [Hql _]. rewrite !take_length in E'. lia.
      * eapply (sh_parent _ _ _ _ _ _ Sh _ i' a). by rewrite <- Ep.
    + rewrite Hv, bind_ok. eexists _, P3. split; [done|]. split; [done|]. intros R He. apply Hex3.
      rewrite <- Ep2. intros r Hr [Hrp HPr]%lookup_delete_is_Some.
      destruct (He r Hr HPr) as [HR|Hx0]; [by left|right]. destruct (Hex r ltac:(done) HPr Hx0) as [x Hx]. exists x. cbn in *.
      destruct (decide (r ++ [x] = p)); [eauto|]. unfold childs0 in *. by rewrite lookup_delete_ne.
  - eexists _, P. split; [done|]. split; [done|]. intros R He r Hr HPr.
    destruct (decide (r = p)) as [->|Hrp]; [|destruct (He r Hr HPr); [by left|right; by apply Hex]].
    right. by apply (nr_len_not1 _ _ _ Hr1).
Qed.

Lemma dense_remove_impl_ok ex t m k : dense_inv D ex t m -> (k < KB D)%N ->
  exists t', dense_remove_impl D t k = Ok (t', m !! k) /\ dense_inv D ex t' (delete k m).
Proof.
  intros (P & J & Sh & Hv & Hex) Hk. destruct (key_path D HD1 k Hk) as [Hq Hkq].
  unfold dense_remove_impl. set (q := level_indices 1 D k) in *. unfold get_branch.
  destruct (J !! q) as [j|] eqn:Ej.
  - (* present *)
    destruct (remove_struct _ _ _ _ _ _ Sh Ej) as (br & tn & i & -> & Htn & Hgu & Hci & h1 & len & Hrem & Hln & h2 & P2 & Hif & Sh2 & Hex2).
    rewrite bind_ok, Htn, bind_ok, Hgu, bind_ok, Hci, bind_ok.
    destruct (vec_J_data D HD1 HD _ _ _ _ Hv _ _ Ej) as (old & Hd & Hmv). rewrite Hkq in Hmv. rewrite Hmv.
    pose proof Ej as Hjk. apply (v_J _ _ _ _ _ Hv) in Hjk as (_ & Hj1 & Hkj). rewrite Hkq in Hkj.
    rewrite (get_u_ok _ _ _ Hkj), bind_ok, N.eqb_refl, Hrem, bind_ok, Hln, bind_ok, Hif, bind_ok.
    pose proof (vec_pos _ _ _ _ _ Hv) as Hpos. pose proof (v_len _ _ _ _ _ Hv) as HL.
    pose proof (lookup_lt_Some _ _ _ Hkj) as Hjl. pose proof (v_le _ _ _ _ _ Hv) as Hle.
    destruct (lookup_lt_is_Some_2 (d_keys t) (length (d_keys t) - 1) ltac:(lia)) as [lk Hlk].
    unfold pop_u. rewrite (get_u_ok _ _ _ Hlk), bind_ok, bind_ok.
    assert (exists keys' h3 J', (if decide (lk <> k) then
        let* keys := set_u (take (length (d_keys t) - 1) (d_keys t)) (N.to_nat j) lk in
        let* (node, inner_index) := get_terminal_node D (d_root t) h2 (level_indices 1 D lk) in
        let* h := set_child KIdx h2 node inner_index (SIdx (j mod 2 ^ 32)) in Ok (keys, h)
      else Ok (take (length (d_keys t) - 1) (d_keys t), h2)) = Ok (keys', h3) /\
      shape D h3 (d_root t) P2 J' None /\ exact D ex P2 J' None /\
      length keys' = length (d_keys t) - 1 /\
      (forall x, x < length (d_keys t) - 1 -> keys' !! x = if decide (x = N.to_nat j) then Some lk else d_keys t !! x) /\
      (forall r, J' !! r = if decide (r = q) then None else if decide (key_of_path 1 r = lk /\ path_ok 1 D r) then Some j else J !! r))
      as (keys' & h3 & J' & -> & Sh3 & Hex3 & Lk & Hk' & HJ').
    { destruct (decide (lk <> k)) as [Hne|Heq].
      - assert (N.to_nat j <> length (d_keys t) - 1) as Hjne by (intros E; rewrite E, Hlk in Hkj; congruence).
        rewrite set_u_ok, bind_ok by (rewrite take_length; lia).
        assert ((lk < KB D)%N) as Hlkb by (eapply (v_key _ _ _ _ _ Hv); [|exact Hlk]; lia).
        destruct (key_path D HD1 lk Hlkb) as [Hql Hkql]. set (ql := level_indices 1 D lk) in *.
        assert (J !! ql = Some (N.of_nat (length (d_keys t) - 1))) as HJl.
        { apply (v_J _ _ _ _ _ Hv). rewrite Nat2N.id, Hkql. split_and!; [done|lia|done]. }
        assert (ql <> q) as Hqne by (intros E; rewrite E, Ej in HJl; injection HJl; lia).
        assert (delete q J !! ql = Some (N.of_nat (length (d_keys t) - 1))) as HJl2 by (by rewrite lookup_delete_ne).
        destruct (J_node D HD1 HD _ _ _ _ _ _ _ Sh2 HJl2) as [_ [b Hb]].
        destruct (sh_root _ _ _ _ _ _ Sh2) as (ar & Er & Har).
        destruct (dpath_last D HD1 HD ql Hql) as (il & Eql & _ & Hil & Hgul). pose proof (dpath_take D HD1 HD ql Hql) as Hlen.
        unfold get_terminal_node. rewrite Er, (terminal_loop_present D HD _ _ _ _ Sh2 ql (D - 1) 0 ar b) by (done || lia).
        rewrite bind_ok, Hgul, bind_ok, bind_ok.
        destruct (sh_node _ _ _ _ _ _ Sh2 _ _ Hb) as (n & Hn & Hkd & Hr). set (p := take (D - 1) ql) in *.
        assert (kind_at D (length p) = KIdx) as Hkp by (unfold kind_at; by rewrite decide_False by lia).
        rewrite Hkp in Hkd.
        destruct (set_child_ok KIdx h2 b n _ _ il (SIdx (N.of_nat (length (d_keys t) - 1))) (SIdx (j mod 2 ^ 32)) Hn Hr Hkd)
          as (n' & -> & Hr' & Hkn').
        { cbn. unfold childs0. rewrite decide_False by lia. by rewrite <- Eql, HJl2. }
        rewrite bind_ok. rewrite N.mod_small in Hr' by lia. eexists _, _, (<[ql := j]> (delete q J)). split; [reflexivity|].
        split; [|split; [|split; [|split]]].
        + rewrite <- Er. eapply shape_inplace; [exact Sh2|exact Hb|by rewrite Hkp| | |].
          * eapply node_rep_ext; [|exact Hr']. intros x. unfold fn_upd. cbn. unfold childs0.
            destruct (N.eqb_spec x il) as [->|Hx].
            -- rewrite decide_False by lia. rewrite <- Eql. by rewrite lookup_insert.
            -- destruct (decide (S (length p) < D)); [done|]. rewrite lookup_insert_ne; [done|]. intros E. rewrite Eql in E at 1.
               by apply app_one_inj in E as [_ ?].
          * intros r x Hrp. cbn. unfold childs0. destruct (decide (S (length r) < D)); [done|].
            rewrite lookup_insert_ne; [done|]. intros E. rewrite Eql in E at 1. by apply app_one_inj in E as [? _].
          * intros q0 x Hq0. apply lookup_insert_Some in Hq0 as [[<- _]|[_ Hq0]].
            -- split; [done|]. eexists _, _. split; [exact Eql|]. eauto.
            -- by eapply (sh_jpath _ _ _ _ _ _ Sh2).
        + eapply exact_ext; [|exact (Hex2 _ Hex)]. intros r Hrs. apply lookup_insert_is_Some'. by right.
        + rewrite insert_length, take_length. lia.
        + intros x Hx. destruct (decide (x = N.to_nat j)) as [->|Hxj].
          * apply list_lookup_insert. rewrite take_length. lia.
          * rewrite list_lookup_insert_ne by done. by apply lookup_take.
        + intros r. destruct (decide (r = q)) as [->|Hrq].
          * rewrite lookup_insert_ne by done. by rewrite lookup_delete.
          * destruct (decide (key_of_path 1 r = lk /\ path_ok 1 D r)) as [[E Hrp]|Hn'].
            -- assert (r = ql) as -> by (apply (key_inj D HD1); [done..|congruence]). by rewrite lookup_insert.
            -- rewrite lookup_insert_ne by (intros <-; by apply Hn'). by rewrite lookup_delete_ne.
      - assert (lk = k) as -> by (destruct (decide (lk = k)); [done|by destruct Heq]).
        assert (length (d_keys t) - 1 = N.to_nat j) as Ejl.
        { eapply (vec_keys_inj _ HD1 HD _ _ _ _ Hv); [lia|lia|exact Hlk|exact Hkj]. }
        eexists _, _, (delete q J). split; [reflexivity|]. split; [done|]. split; [by apply Hex2|].
        split; [rewrite take_length; lia|]. split.
        + intros x Hx. rewrite decide_False by lia. by apply lookup_take.
        + intros r. destruct (decide (r = q)) as [->|Hrq]; [by rewrite lookup_delete|].
          rewrite decide_False; [by rewrite lookup_delete_ne|]. intros [E Hrp]. apply Hrq. apply (key_inj D HD1); [done..|congruence]. }
    rewrite bind_ok. unfold swap_remove, get_c. rewrite Hd, bind_ok.
    destruct (lookup_lt_is_Some_2 (d_data t) (length (d_data t) - 1) ltac:(lia)) as [ld Hld].
    rewrite Hld, bind_ok. cbn [rbind]. eexists. split; [reflexivity|].
    exists P2, J'. cbn [d_root d_heap d_data d_keys]. split; [done|]. split; [|done].
    eapply (vec_remove _ HD1 HD); [exact Hv|exact Ej|by rewrite Hkq|exact Hlk|done| |exact Hk'| |exact HJ'].
    + rewrite take_length, insert_length. lia.
    + intros x Hx. rewrite lookup_take by lia. destruct (decide (x = N.to_nat j)) as [->|Hne].
      * rewrite list_lookup_insert by lia. by rewrite Hld.
      * by rewrite list_lookup_insert_ne.
  - (* absent *)
    assert (m !! k = None) as Hmk.
    { apply eq_None_not_Some. intros Hs. apply (vec_m_J D HD1 HD _ _ _ _ Hv) in Hs; [|done]. fold q in Hs. rewrite Ej in Hs. by destruct Hs. }
    destruct (sh_root _ _ _ _ _ _ Sh) as (ar & Er & Har).
    destruct (branch_any D HD _ _ _ _ Sh q (D - 1) 0 (d_root t) Hq) as (ys & -> & Hyl & Hlast); [lia| |].
    { left. exists [], ar. by rewrite Er. }
    rewrite bind_ok. destruct (lookup_lt_is_Some_2 ys (length ys - 1) ltac:(lia)) as [y Hy].
    rewrite (get_u_ok _ _ _ Hy), bind_ok.
    assert (last ys = Some y) as Ely by (rewrite last_lookup; by replace (pred (length ys)) with (length ys - 1) by lia).
    rewrite Ely in Hlast. cbn [default Nat.add] in Hlast.
    destruct (dpath_last D HD1 HD q Hq) as (i & Eq & Hi & Hi64 & ->). rewrite bind_ok.
    destruct (child_idx_any D HD _ _ _ _ Sh y i Hlast ltac:(lia) Hi64) as (j & -> & Hor). rewrite bind_ok.
    destruct (vec_any_absent _ HD1 HD _ _ _ _ Hv q j Hq Ej Hor) as (k' & Hk' & Hne). rewrite (get_u_ok _ _ _ Hk'), bind_ok.
    rewrite Hkq in Hne. apply N.eqb_neq in Hne as ->. exists t. rewrite Hmk. split; [done|].
    rewrite delete_notin by done. by exists P, J.
Qed.
End remove.
