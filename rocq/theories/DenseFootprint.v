(** * The cells touched by the operations of DenseTree *)
From Verif Require Import Base BitUtils LevelIndices ConstLoops Hierarchy Dense Footprint.

(** ** the node heap *)
Definition hpeek (h : heap) (a : N) : option node := h_nodes h !! a.
Definition cells_of (p : ptr) : list N := match p with PHeap a => [a] | PStatic _ => [] end.
Definition loc_cells (l : loc) : list N := match l with LRoot => [] | LSlot p _ => cells_of p end.
Notation hrd := (rd hpeek h_next).
Notation hfp := (fp hpeek h_next).
Notation mkh := (fun (_ : unit) (h : heap) => h).
Notation mkhp := (fun (p : ptr) (h : heap) => (h, p)).

Ltac inv H := apply bind_ok_inv in H as (? & ? & H); cbn beta iota in H.
Lemma rd_ok {A} F (f : heap -> res A) h a : hrd F f h a -> f h = Ok a.
Proof. intros H. by apply H. Qed.

Lemma rd_hread F h p n : cells_of p ⊆ F -> hread h p = Ok n -> hrd F (fun h => hread h p) h n.
Proof.
  intros HF E h' [_ Ha]. destruct p as [k|a]; [done|]. cbn in *. unfold hpeek in Ha. rewrite (Ha a) by (apply HF; left). exact E.
Qed.
Lemma fp_write F h a (x : option node) nx : a ∈ F -> forall h', agree hpeek h_next F h h' ->
  patched hpeek h_next F h' (Heap (partial_alter (fun _ => x) a (h_nodes h)) nx) (Heap (partial_alter (fun _ => x) a (h_nodes h')) nx).
Proof.
  intros HF h' [_ Ha]. split; [done|]. intros c. unfold hpeek in *. cbn. destruct (decide (a = c)) as [->|Hne].
  - rewrite decide_True by done. by rewrite !lookup_partial_alter.
  - rewrite !lookup_partial_alter_ne by done. case_decide; [by apply Ha|done].
Qed.
Lemma fp_hwrite F h p n h1 : cells_of p ⊆ F -> hwrite h p n = Ok h1 -> hfp F mkh (fun h => hwrite h p n) h tt h1.
Proof.
  intros HF E. destruct p as [k|a]; [done|]. cbn in E. destruct (h_nodes h !! a) eqn:Ea; [|done]. injection E as <-.
  assert (a ∈ F) as Hin by (apply HF; left). split; [by apply (fp_write F h a (Some n) _ Hin)|].
  intros h' Ha. exists (Heap (<[a := n]> (h_nodes h')) (h_next h')). split.
  - cbn. pose proof (proj2 Ha a Hin) as Hl. unfold hpeek in Hl. by rewrite Hl, Ea.
  - rewrite (proj1 Ha). by apply (fp_write F h a (Some n) _ Hin).
Qed.
Lemma fp_hdealloc F h p k h1 : cells_of p ⊆ F -> hdealloc h p k = Ok h1 -> hfp F mkh (fun h => hdealloc h p k) h tt h1.
Proof.
  intros HF E. destruct p as [|a]; [done|]. cbn in E. destruct (h_nodes h !! a) as [n|] eqn:Ea; [|done]. case_decide as Hk; [|done]. injection E as <-.
  assert (a ∈ F) as Hin by (apply HF; left). split; [by apply (fp_write F h a None _ Hin)|].
  intros h' Ha. exists (Heap (delete a (h_nodes h')) (h_next h')). split.
  - cbn. pose proof (proj2 Ha a Hin) as Hl. unfold hpeek in Hl. rewrite Hl, Ea. by rewrite decide_True.
  - rewrite (proj1 Ha). by apply (fp_write F h a None _ Hin).
Qed.
Lemma fp_halloc F h n h1 p : h_next h ∈ F -> halloc h n = (h1, p) -> hfp F mkhp (fun h => Ok (halloc h n)) h p h1.
Proof.
  intros Hin E. injection E as <- <-. split; [by apply (fp_write F h _ (Some n) _ Hin)|].
  intros h' Ha. exists (Heap (<[h_next h' := n]> (h_nodes h')) (N.succ (h_next h'))). split.
  - unfold halloc. by rewrite (proj1 Ha).
  - rewrite (proj1 Ha). by apply (fp_write F h _ (Some n) _ Hin).
Qed.
Lemma halloc_next h n h1 p : halloc h n = (h1, p) -> h_next h1 = N.succ (h_next h) /\ p = PHeap (h_next h).
Proof. by intros [= <- <-]. Qed.
Lemma hdealloc_next h p k h1 : hdealloc h p k = Ok h1 -> h_next h1 = h_next h.
Proof. destruct p as [|a]; [done|]. cbn. destruct (h_nodes h !! a); [|done]. case_decide; [|done]. by intros [= <-]. Qed.
Lemma hwrite_next h p n h1 : hwrite h p n = Ok h1 -> h_next h1 = h_next h.
Proof. destruct p as [|a]; [done|]. cbn. destruct (h_nodes h !! a); [|done]. by intros [= <-]. Qed.

Lemma fp_hrealloc F h p k cap h1 p1 : cells_of p ⊆ F -> h_next h ∈ F -> hrealloc h p k cap = Ok (h1, p1) ->
  hfp F mkhp (fun h => hrealloc h p k cap) h p1 h1.
Proof.
  intros HF Hn E. unfold hrealloc in *. inv E. inv E. injection E as E1 E2. rename x into n, x0 into h2.
  eapply (fp_rd hpeek h_next F (fun h => hread h p)); [by apply rd_hread|]. 
  eapply (fp_bind hpeek h_next F _ _ mkh _ h tt); [by apply fp_hdealloc|]. cbn beta.
  apply fp_halloc; [by erewrite hdealloc_next|]. by rewrite <- E1, <- E2.
Qed.
Lemma rd_get_child F k h p i s : cells_of p ⊆ F -> get_child k h p i = Ok s -> hrd F (fun h => get_child k h p i) h s.
Proof.
  intros HF E. unfold get_child in *. inv E. eapply (rd_bind hpeek h_next F (fun h => hread h p)); [by apply rd_hread|]. rewrite E. by apply rd_ret.
Qed.
Lemma rd_child_ptr F h p i q : cells_of p ⊆ F -> child_ptr h p i = Ok q -> hrd F (fun h => child_ptr h p i) h q.
Proof.
  intros HF E. unfold child_ptr in *. inv E. eapply (rd_bind hpeek h_next F (fun h => get_child KPtr h p i)); [by apply rd_get_child|]. rewrite E. by apply rd_ret.
Qed.
Lemma rd_child_idx F h p i q : cells_of p ⊆ F -> child_idx h p i = Ok q -> hrd F (fun h => child_idx h p i) h q.
Proof.
  intros HF E. unfold child_idx in *. inv E. eapply (rd_bind hpeek h_next F (fun h => get_child KIdx h p i)); [by apply rd_get_child|]. rewrite E. by apply rd_ret.
Qed.
Lemma rd_contains F h p i b : cells_of p ⊆ F -> node_contains h p i = Ok b -> hrd F (fun h => node_contains h p i) h b.
Proof.
  intros HF E. unfold node_contains in *. inv E. eapply (rd_bind hpeek h_next F (fun h => hread h p)); [by apply rd_hread|]. rewrite E. by apply rd_ret.
Qed.
Lemma rd_node_len F h p b : cells_of p ⊆ F -> node_len h p = Ok b -> hrd F (fun h => node_len h p) h b.
Proof.
  intros HF E. unfold node_len in *. inv E. eapply (rd_bind hpeek h_next F (fun h => hread h p)); [by apply rd_hread|]. rewrite E. by apply rd_ret.
Qed.
Lemma fp_set_child F k h p i s h1 : cells_of p ⊆ F -> set_child k h p i s = Ok h1 -> hfp F mkh (fun h => set_child k h p i s) h tt h1.
Proof.
  intros HF E. unfold set_child in *. inv E. eapply (fp_rd hpeek h_next F (fun h => hread h p)); [by apply rd_hread|]. inv E.
  eapply fp_pure; [done|]. case_decide; [|done]. inv E. eapply fp_pure; [done|]. by apply fp_hwrite.
Qed.
Lemma fp_node_new F k h cap s h1 p : h_next h ∈ F -> node_new k h cap s = Ok (h1, p) -> hfp F mkhp (fun h => node_new k h cap s) h p h1.
Proof. intros HF E. unfold node_new in *. inv E. eapply fp_pure; [done|]. apply fp_halloc; [done|]. by injection E as <- <-. Qed.
Lemma node_new_next k h cap s h1 p : node_new k h cap s = Ok (h1, p) -> h_next h1 = N.succ (h_next h) /\ p = PHeap (h_next h).
Proof. intros E. unfold node_new in *. inv E. by injection E as <- <-. Qed.
Lemma fp_node_reserve F k h p h1 p1 : cells_of p ⊆ F -> h_next h ∈ F -> node_reserve k h p = Ok (h1, p1) ->
  hfp F mkhp (fun h => node_reserve k h p) h p1 h1 /\ cells_of p1 ⊆ F.
Proof.
  intros HF Hn E. unfold node_reserve in *. inv E. rename x into n. split.
  - eapply (fp_rd hpeek h_next F (fun h => hread h p)); [by apply rd_hread|]. case_decide.
    + destruct (u8_ok (n_cap n * 2)); [|done]. inv E. destruct x as [h2 p2]. inv E. inv E. injection E as -> ->.
      eapply (fp_bind hpeek h_next F _ _ mkhp); [by apply fp_hrealloc|]. cbn beta iota.
      assert (cells_of p1 ⊆ F) as HF1.
      { unfold hrealloc in H1. inv H1. inv H1. injection H1 as _ <-. intros c ->%elem_of_list_singleton. by erewrite hdealloc_next. }
      eapply (fp_rd hpeek h_next F (fun h => hread h p1)); [by apply rd_hread|].
      eapply (fp_bind hpeek h_next F _ _ mkh); [by apply fp_hwrite|]. cbn beta. apply (fp_ret hpeek h_next F mkhp).
    + injection E as -> ->. apply (fp_ret hpeek h_next F mkhp).
  - case_decide; [|by injection E as -> ->]. destruct (u8_ok (n_cap n * 2)); [|done]. inv E. destruct x as [h2 p2]. inv E. inv E. injection E as -> ->.
    unfold hrealloc in H1. inv H1. inv H1. injection H1 as _ <-. intros c ->%elem_of_list_singleton. by erewrite hdealloc_next.
Qed.
Notation mkins := (fun (r : nat * ptr) (h : heap) => (h, r.1, r.2)).
Lemma fp_node_insert F k h p i v h1 d p1 : cells_of p ⊆ F -> h_next h ∈ F -> node_insert k h p i v = Ok (h1, d, p1) ->
  hfp F mkins (fun h => node_insert k h p i v) h (d, p1) h1 /\ cells_of p1 ⊆ F.
Proof.
  intros HF Hn E. unfold node_insert in *. inv E. destruct x as [h2 p2]. destruct (fp_node_reserve F k h p h2 p2 HF Hn H) as [Hr HF2].
  assert (p1 = p2) as ->.
  { clear Hr. inv E. inv E. destruct x0 as [m b]. inv E. case_decide; [|done]. inv E. inv E. inv E. destruct (u8_ok _); [|done]. inv E. by injection E as _ _ ->. }
  split; [|done]. eapply (fp_bind hpeek h_next F _ _ mkhp); [exact Hr|]. cbn beta iota.
  inv E. eapply (fp_rd hpeek h_next F (fun h => hread h p2)); [by apply rd_hread|]. 
  inv E. eapply fp_pure; [done|]. destruct x0 as [m b]. inv E. eapply fp_pure; [done|]. case_decide; [|done].
  inv E. eapply fp_pure; [done|]. inv E. eapply fp_pure; [done|]. inv E. eapply fp_pure; [done|]. destruct (u8_ok _); [|done]. inv E. injection E as -> -> .
  eapply (fp_bind hpeek h_next F _ _ mkh); [by apply fp_hwrite|]. cbn beta. apply (fp_ret hpeek h_next F mkins (d, p2)).
Qed.
Lemma fp_node_remove F k h p i h1 : cells_of p ⊆ F -> node_remove k h p i = Ok h1 -> hfp F mkh (fun h => node_remove k h p i) h tt h1.
Proof.
  intros HF E. unfold node_remove in *. inv E. eapply (fp_rd hpeek h_next F (fun h => hread h p)); [by apply rd_hread|].
  inv E. eapply fp_pure; [done|]. inv E. eapply fp_pure; [done|]. destruct x1 as [m b]. case_decide; [|done].
  inv E. eapply fp_pure; [done|]. inv E. eapply fp_pure; [done|]. inv E. eapply fp_pure; [done|]. by apply fp_hwrite.
Qed.
Lemma rd_loc_read F root h l p : loc_cells l ⊆ F -> loc_read root h l = Ok p -> hrd F (fun h => loc_read root h l) h p.
Proof.
  intros HF E. destruct l as [|q i]; cbn in *; [rewrite E; by apply rd_ret|]. inv E. eapply (rd_bind hpeek h_next F (fun h => hread h q)); [by apply rd_hread|].
  case_decide; [|done]. rewrite E. by apply rd_ret.
Qed.
Notation mkrh := (fun (root : ptr) (h : heap) => (root, h)).
Lemma fp_loc_write F root h l v root1 h1 : loc_cells l ⊆ F -> loc_write root h l v = Ok (root1, h1) ->
  hfp F mkrh (fun h => loc_write root h l v) h root1 h1.
Proof.
  intros HF E. destruct l as [|q i]; cbn in *; [injection E as -> ->; apply (fp_ret hpeek h_next F mkrh)|]. inv E.
  eapply (fp_rd hpeek h_next F (fun h => hread h q)); [by apply rd_hread|]. case_decide; [|done]. inv E. eapply fp_pure; [done|]. inv E. injection E as -> ->.
  eapply (fp_bind hpeek h_next F _ _ mkh); [by apply fp_hwrite|]. cbn beta. apply (fp_ret hpeek h_next F mkrh).
Qed.

(** ** walks along a path *)
Lemma rd_terminal_loop ix : forall k h n p q, get_terminal_loop h k n ix p = Ok q ->
  exists F, length F <= k /\ hrd F (fun h => get_terminal_loop h k n ix p) h q.
Proof.
  induction k as [|k IH]; intros h n p q E; cbn [get_terminal_loop] in *.
  - exists []. split; [done|]. rewrite E. apply rd_ret.
  - inv E. inv E. destruct (IH _ _ _ _ E) as (F & HF & Hr). exists (cells_of p ++ F). split; [rewrite app_length; destruct p; cbn; lia|].
    eapply rd_pure; [done|]. eapply (rd_bind hpeek h_next _ (fun h => child_ptr h p x)); [apply rd_child_ptr; [set_solver|done]|].
    eapply rd_weaken; [|exact Hr]. set_solver.
Qed.
Lemma rd_terminal D ix root h q : get_terminal_node D root h ix = Ok q ->
  exists F, length F <= D - 1 /\ hrd F (fun h => get_terminal_node D root h ix) h q.
Proof.
  intros E. unfold get_terminal_node in *. inv E. destruct (rd_terminal_loop ix _ _ _ _ _ H) as (F & HF & Hr). exists F. split; [done|].
  eapply (rd_bind hpeek h_next _ (fun h => get_terminal_loop h (D - 1) 0 ix root)); [exact Hr|]. rewrite E. apply rd_ret.
Qed.
Lemma rd_branch_loop ix : forall k h n p q, get_branch_loop h k n ix p = Ok q ->
  exists F, length F <= k /\ hrd F (fun h => get_branch_loop h k n ix p) h q.
Proof.
  induction k as [|k IH]; intros h n p q E; cbn [get_branch_loop] in *.
  - exists []. split; [done|]. rewrite E. apply rd_ret.
  - inv E. inv E. inv E. destruct (IH _ _ _ _ H1) as (F & HF & Hr). exists (cells_of p ++ F). split; [rewrite app_length; destruct p; cbn; lia|].
    eapply rd_pure; [done|]. eapply (rd_bind hpeek h_next _ (fun h => child_ptr h p x)); [apply rd_child_ptr; [set_solver|done]|].
    eapply (rd_bind hpeek h_next _ (fun h => get_branch_loop h k (S n) ix x0)); [eapply rd_weaken; [|exact Hr]; set_solver|]. rewrite E. apply rd_ret.
Qed.

Notation mkgoi := (fun (r : ptr * loc) (h : heap) => (((r.1, h, r.2), None) : (ptr * heap * loc) * option unit)).
Lemma fp_goi_body D ix n root h l r : goi_body D ix (root, h, l) n = Ok r ->
  exists F root1 h1 l1, length F <= 4 /\ r = ((root1, h1, l1), None) /\
    hfp F mkgoi (fun h => goi_body D ix (root, h, l) n) h (root1, l1) h1.
Proof.
  intros E. unfold goi_body in *. inv E. inv E. rename x0 into p. inv E. rename x0 into has.
  set (F := loc_cells l ++ cells_of p ++ [h_next h; N.succ (h_next h)]).
  assert (length F <= 4) as HF. { unfold F. rewrite !app_length. assert (length (loc_cells l) <= 1) by (destruct l as [|[] ?]; cbn; lia). assert (length (cells_of p) <= 1) by (destruct p; cbn; lia). cbn [length]. lia. }
  assert (loc_cells l ⊆ F) as F1 by set_solver. assert (cells_of p ⊆ F) as F2 by set_solver. assert (h_next h ∈ F) as F3 by set_solver. assert (N.succ (h_next h) ∈ F) as F4 by set_solver.
  exists F.
  assert (forall root1 h1 l1, hfp F mkgoi (fun h => (if has : bool then
      let* nd := hread h p in let* d := get_dense_index (n_mask nd) x in let* _ := child_ptr h p x in Ok ((root, h, LSlot p d), None)
    else let* (h, child) := if decide (n = D - 2) then node_new KIdx h DEFAULT_CAP (SIdx 0) else let* e := empty_node (n + 2) D in node_new KPtr h DEFAULT_CAP (SPtr e) in
         let* (h, idx, new_node) := node_insert KPtr h p x (SPtr child) in
         let* (root, h) := loc_write root h l new_node in Ok ((root, h, LSlot new_node idx), None))) h (root1, l1) h1 ->
    hfp F mkgoi (fun h => goi_body D ix (root, h, l) n) h (root1, l1) h1) as Hpre.
  { intros root1 h1 l1 Hp. unfold goi_body. eapply fp_pure; [done|]. eapply (fp_rd hpeek h_next _ (fun h => loc_read root h l)); [by apply rd_loc_read|].
    eapply (fp_rd hpeek h_next _ (fun h => node_contains h p x)); [by apply rd_contains|]. exact Hp. }
  destruct has.
  - inv E. inv E. inv E. injection E as <-. exists root, h, (LSlot p x1). split_and!; [done..|]. apply Hpre.
    eapply (fp_rd hpeek h_next _ (fun h => hread h p)); [by apply rd_hread|]. eapply fp_pure; [done|].
    eapply (fp_rd hpeek h_next _ (fun h => child_ptr h p x)); [by apply rd_child_ptr|]. apply (fp_ret hpeek h_next F mkgoi (root, _)).
  - inv E. destruct x0 as [h2 child]. inv E. destruct x0 as [[h3 idx] nn]. inv E. destruct x0 as [root4 h4]. injection E as <-.
    exists root4, h4, (LSlot nn idx). split_and!; [done..|]. apply Hpre.
    assert (hfp F mkhp (fun h => if decide (n = D - 2) then node_new KIdx h DEFAULT_CAP (SIdx 0) else let* e := empty_node (n + 2) D in node_new KPtr h DEFAULT_CAP (SPtr e)) h child h2 /\ h_next h2 = N.succ (h_next h)) as [Hnew Hnx].
    { case_decide; [split; [by apply fp_node_new|by eapply node_new_next]|]. inv H2. split; [|by eapply node_new_next]. eapply fp_pure; [done|]. by apply fp_node_new. }
    eapply (fp_bind hpeek h_next F _ _ mkhp); [exact Hnew|]. cbn beta iota.
    destruct (fp_node_insert F KPtr h2 p x (SPtr child) h3 idx nn) as [Hi HFn]; [done|by rewrite Hnx|done|].
    eapply (fp_bind hpeek h_next F _ _ mkins _ _ (idx, nn)); [exact Hi|]. cbn [fst snd].
    eapply (fp_bind hpeek h_next F _ _ mkrh); [by apply fp_loc_write|]. cbn beta iota. apply (fp_ret hpeek h_next F mkgoi (root4, _)).
Qed.
Lemma fp_goi_loop D ix : forall ns root h l r, visit_list ns (goi_body D ix) (root, h, l) = Ok r ->
  exists F root1 h1 l1, length F <= 4 * length ns /\ r = ((root1, h1, l1), None) /\
    hfp F mkgoi (fun h => visit_list ns (goi_body D ix) (root, h, l)) h (root1, l1) h1.
Proof.
  induction ns as [|n ns IH]; intros root h l r E; cbn [visit_list] in *.
  - injection E as <-. exists [], root, h, l. split_and!; [cbn; lia|done|]. apply (fp_ret hpeek h_next [] mkgoi (root, l)).
  - inv E. destruct (fp_goi_body _ _ _ _ _ _ _ H) as (F1 & root1 & h1 & l1 & HF1 & -> & Hf1). cbn beta iota in E.
    destruct (IH _ _ _ _ E) as (F2 & root2 & h2 & l2 & HF2 & -> & Hf2). exists (F1 ++ F2), root2, h2, l2. split_and!; [rewrite app_length; cbn [length]; lia|done|].
    eapply (fp_bind hpeek h_next _ _ _ mkgoi _ _ (root1, l1)); [eapply fp_weaken; [|exact Hf1]; set_solver|]. cbn [fst snd].
    eapply fp_weaken; [|exact Hf2]. set_solver.
Qed.

(** the heap part of `get_or_insert_impl` dense_tree.rs:125-175: the position of the element, or the entry made for position [i]; [value]: the closure returns *)
Definition goi_heap (D : nat) (ix : list N) (value : bool) (i : nat) (root : ptr) (h : heap) : res (ptr * heap * option N) :=
  let* ((root, h, node), _) := const_loop 0 (D - 1) (goi_body D ix) (root, h, LRoot) in
  let* p := loc_read root h node in
  let* ii := get_u ix (length ix - 1) in
  let* has := node_contains h p ii in
  if has : bool then let* di := child_idx h p ii in Ok (root, h, Some di)
  else if value then
    let* (h, _, nn) := node_insert KIdx h p ii (SIdx (N.of_nat i mod 2 ^ 32)) in
    let* (root, h) := loc_write root h node nn in Ok (root, h, None)
  else Ok (root, h, None).
Notation mkgh := (fun (r : ptr * option N) (h : heap) => (r.1, h, r.2)).
Lemma fp_goi_heap D ix value i root h root1 h1 o : goi_heap D ix value i root h = Ok (root1, h1, o) ->
  exists F, length F <= 4 * D + 3 /\ hfp F mkgh (fun h => goi_heap D ix value i root h) h (root1, o) h1.
Proof.
  intros E. unfold goi_heap in *. inv E. assert (0 <= D - 1 < 9) as [HD0 HD9].
  { unfold const_loop in H. by case_decide. }
  rewrite const_loop_ok in H by done.
  destruct (fp_goi_loop _ _ _ _ _ _ _ H) as (F1 & root2 & h2 & l & HF1 & -> & Hf1). rewrite seq_length in HF1. cbn beta iota in E.
  inv E. rename x into p. inv E. rename x into ii. inv E. rename x into has.
  set (F := F1 ++ loc_cells l ++ cells_of p ++ [h_next h2]).
  assert (length F <= 4 * D + 3) as HF. { unfold F. rewrite !app_length. assert (length (loc_cells l) <= 1) by (destruct l as [|[] ?]; cbn; lia). assert (length (cells_of p) <= 1) by (destruct p; cbn; lia). cbn [length]. lia. }
  assert (loc_cells l ⊆ F) as G1 by set_solver. assert (cells_of p ⊆ F) as G2 by set_solver. assert (h_next h2 ∈ F) as G3 by set_solver. assert (F1 ⊆ F) as G4 by set_solver.
  exists F. split; [done|].
  assert (hfp F mkgoi (fun h => const_loop 0 (D - 1) (goi_body D ix) (root, h, LRoot)) h (root2, l) h2) as Hl.
  { assert (hfp F mkgoi (fun h => visit_list (seq 0 (D - 1 - 0)) (goi_body D ix) (root, h, LRoot)) h (root2, l) h2) as Hl by (eapply fp_weaken; [exact G4|exact Hf1]).
    destruct Hl as [Hp Hl]. split; [done|]. intros h' Ha. rewrite const_loop_ok by done. by apply Hl. }
  eapply (fp_bind hpeek h_next _ _ _ mkgoi _ _ (root2, l)); [exact Hl|]. cbn [fst snd].
  eapply (fp_rd hpeek h_next _ (fun h => loc_read root2 h l)); [by apply rd_loc_read|]. eapply fp_pure; [done|].
  eapply (fp_rd hpeek h_next _ (fun h => node_contains h p ii)); [by apply rd_contains|]. destruct has.
  - inv E. injection E as -> -> <-. eapply (fp_rd hpeek h_next _ (fun h => child_idx h p ii)); [by apply rd_child_idx|].
    apply (fp_ret hpeek h_next F mkgh (root1, _)).
  - destruct value; [|injection E as -> -> <-; apply (fp_ret hpeek h_next F mkgh (root1, _))].
    inv E. destruct x as [[h3 d] nn]. inv E. destruct x as [root3 h4]. injection E as -> -> <-.
    destruct (fp_node_insert F KIdx h2 p ii _ h3 d nn G2 G3 H3) as [Hi _].
    eapply (fp_bind hpeek h_next F _ _ mkins _ _ (d, nn)); [exact Hi|]. cbn [fst snd].
    eapply (fp_bind hpeek h_next F _ _ mkrh); [by apply fp_loc_write|]. cbn beta iota. apply (fp_ret hpeek h_next F mkgh (root1, _)).
Qed.

(** ** lists (`Vec`): the cells are the positions, the header is the length *)
Section lists.
Context {A : Type}.
Definition lpeek (l : list A) (j : nat) : option A := l !! j.
Notation lrd := (rd lpeek length).
Notation lfp := (fp lpeek length).
Lemma rd_get F l j (a : A) : j ∈ F -> get_u l j = Ok a -> lrd F (fun l => get_u l j) l a.
Proof. intros HF E l' [_ Ha]. unfold get_u in *. unfold lpeek in Ha. rewrite (Ha j HF). exact E. Qed.
Lemma rd_get_c F l j (a : A) : j ∈ F -> get_c l j = Ok a -> lrd F (fun l => get_c l j) l a.
Proof. intros HF E l' [_ Ha]. unfold get_c in *. unfold lpeek in Ha. rewrite (Ha j HF). exact E. Qed.
Lemma patched_list F l' l1 l1' : length l1' = length l1 -> (forall j, j ∈ F -> l1' !! j = l1 !! j) -> (forall j, j ∉ F -> l1' !! j = l' !! j) ->
  patched lpeek length F l' l1 l1'.
Proof. intros H1 H2 H3. split; [done|]. intros j. unfold lpeek. case_decide; [by apply H2|by apply H3]. Qed.
Lemma fp_set F l j (a : A) l1 : j ∈ F -> set_u l j a = Ok l1 -> lfp F (fun (_ : unit) l => l) (fun l => set_u l j a) l tt l1.
Proof.
  intros HF E. unfold set_u in *. case_decide as Hj; [|done]. injection E as <-.
  assert (forall l', agree lpeek length F l l' -> patched lpeek length F l' (<[j := a]> l) (<[j := a]> l')) as HP.
  { intros l' [H1 H2]. unfold lpeek in H2. apply patched_list; [by rewrite !insert_length| |].
    - intros i Hi. destruct (decide (j = i)) as [->|Hne]; [by rewrite !list_lookup_insert by lia|]. rewrite !list_lookup_insert_ne by done. by apply H2.
    - intros i Hi. rewrite list_lookup_insert_ne; [done|]. by intros ->. }
  split; [by apply HP|]. intros l' Ha. exists (<[j := a]> l'). rewrite decide_True by (destruct Ha as [-> _]; lia). split; [done|by apply HP].
Qed.
Lemma fp_push F l (a : A) : length l ∈ F -> lfp F (fun (_ : unit) l => l) (fun l => Ok (l ++ [a])) l tt (l ++ [a]).
Proof.
  intros HF. assert (forall l', agree lpeek length F l l' -> patched lpeek length F l' (l ++ [a]) (l' ++ [a])) as HP.
  { intros l' [H1 H2]. unfold lpeek in H2. apply patched_list; [rewrite !app_length; cbn; lia| |].
    - intros i Hi. destruct (decide (i < length l)); [rewrite !lookup_app_l by lia; by apply H2|]. rewrite !lookup_app_r by lia. by rewrite H1.
    - intros i Hi. destruct (decide (i < length l')); [by rewrite lookup_app_l|]. assert (i <> length l) by (by intros ->).
      rewrite lookup_ge_None_2 by (rewrite app_length; cbn; lia). symmetry. apply lookup_ge_None_2. lia. }
  split; [by apply HP|]. intros l' Ha. exists (l' ++ [a]). split; [done|by apply HP].
Qed.
Lemma patched_take F n l l' : length l' = length l -> (forall j, j ∈ F -> l' !! j = l !! j) -> (forall j, n <= j < length l -> j ∈ F) ->
  patched lpeek length F l' (take n l) (take n l').
Proof.
  intros H1 H2 H3. apply patched_list; [rewrite !take_length; lia| |].
  - intros i Hi. destruct (decide (i < n)); [rewrite !lookup_take by lia; by apply H2|]. by rewrite !lookup_take_ge by lia.
  - intros i Hi. destruct (decide (i < n)); [by rewrite lookup_take by lia|]. rewrite lookup_take_ge by lia. symmetry. apply lookup_ge_None_2.
    destruct (decide (length l <= i)); [lia|]. exfalso. apply Hi, H3. lia.
Qed.
Lemma fp_pop F l l1 (a : A) : length l - 1 ∈ F -> pop_u l = Ok (l1, a) -> lfp F (fun a l => (l, a)) pop_u l a l1.
Proof.
  intros HF E. unfold pop_u in *. inv E. injection E as <- ->.
  assert (forall l', agree lpeek length F l l' -> patched lpeek length F l' (take (length l - 1) l) (take (length l - 1) l')) as HP.
  { intros l' [H1 H2]. apply patched_take; [done|exact H2|]. intros j Hj. by assert (j = length l - 1) as -> by lia. }
  split; [by apply HP|]. intros l' Ha. exists (take (length l - 1) l'). split; [|by apply HP].
  pose proof (rd_get F l (length l - 1) a HF H l' Ha) as E'. cbn beta in E'. destruct Ha as [Hl _]. rewrite Hl, E'. done.
Qed.
Lemma fp_swap_remove F l i l1 (a : A) : i ∈ F -> length l - 1 ∈ F -> swap_remove l i = Ok (l1, a) -> lfp F (fun a l => (l, a)) (fun l => swap_remove l i) l a l1.
Proof.
  intros HF HF2 E. unfold swap_remove in *. inv E. inv E. injection E as <- ->. rename x0 into y.
  assert (i < length l) as Hi. { unfold get_c in H. destruct (l !! i) eqn:Ei; [|done]. by eapply lookup_lt_Some. }
  assert (forall l', agree lpeek length F l l' -> patched lpeek length F l' (take (length l - 1) (<[i := y]> l)) (take (length l - 1) (<[i := y]> l'))) as HP.
  { intros l' [H1 H2]. unfold lpeek in H2. 
    assert (patched lpeek length F (<[i := y]> l') (take (length l - 1) (<[i := y]> l)) (take (length l - 1) (<[i := y]> l'))) as [P1 P2].
    { apply patched_take; [by rewrite !insert_length| |].
      - intros j Hj. destruct (decide (i = j)) as [->|Hne]; [by rewrite !list_lookup_insert by lia|]. rewrite !list_lookup_insert_ne by done. by apply H2.
      - intros j. rewrite insert_length. intros Hj. by assert (j = length l - 1) as -> by lia. }
    split; [done|]. intros c. rewrite P2. case_decide; [done|]. unfold lpeek. rewrite list_lookup_insert_ne; [done|]. by intros ->. }
  split; [by apply HP|]. intros l' Ha. exists (take (length l - 1) (<[i := y]> l')). split; [|by apply HP].
  pose proof (rd_get_c F l i a HF H l' Ha) as E1. pose proof (rd_get_c F l (length l - 1) y HF2 H0 l' Ha) as E2. cbn beta in E1, E2.
  destruct Ha as [Hl _]. by rewrite E1, bind_ok, Hl, E2, bind_ok.
Qed.
End lists.

(** ** the climbing loop of `remove` *)
Notation mkclimb := (fun (o : option unit) (h : heap) => (h, o)).
Lemma fp_climb root branch ix F : cells_of root ⊆ F -> Forall (fun p => cells_of p ⊆ F) branch -> forall ns h h1 o,
  visit_list ns (remove_climb_body root branch ix) h = Ok (h1, o) ->
  hfp F mkclimb (fun h => visit_list ns (remove_climb_body root branch ix) h) h o h1.
Proof.
  intros HR HB. induction ns as [|n ns IH]; intros h h1 o E; cbn [visit_list] in *.
  - injection E as -> <-. apply (fp_ret hpeek h_next F mkclimb).
  - inv E. destruct x as [h2 o2]. assert (hfp F mkclimb (fun h => remove_climb_body root branch ix h n) h o2 h2) as Hb.
    { clear E. unfold remove_climb_body in *. rename H into E. inv E. rename x into node.
      assert (cells_of node ⊆ F) as HN. { destruct (decide (n = 0)); [by injection H as <-|]. unfold get_c in H. destruct (branch !! (n - 1)) eqn:Eb; [|done]. injection H as <-. by eapply (Forall_lookup_1 _ _ _ _ HB). }
      inv E. inv E. inv E. eapply fp_pure; [done|]. eapply fp_pure; [done|]. eapply (fp_bind hpeek h_next F _ _ mkh); [by apply fp_node_remove|].
      cbn beta. eapply (fp_rd hpeek h_next _ (fun h => node_len h node)); [by apply rd_node_len|]. case_decide.
      - injection E as -> <-. apply (fp_ret hpeek h_next F mkclimb).
      - case_decide; [|injection E as -> <-; apply (fp_ret hpeek h_next F mkclimb)]. inv E. injection E as -> <-.
        eapply (fp_bind hpeek h_next F _ _ mkh); [by apply fp_hdealloc|]. apply (fp_ret hpeek h_next F mkclimb). }
    eapply (fp_bind hpeek h_next F _ _ mkclimb); [exact Hb|]. cbn beta iota. destruct o2 as [u|].
    + injection E as -> <-. apply (fp_ret hpeek h_next F mkclimb).
    + by apply IH.
Qed.

(** ** the whole tree *)
(** the memory of a DenseTree (dense_tree.rs:38-49): its nodes, and the elements of `data` and `keys` *)
Inductive dcell := DNode (a : N) | DData (j : nat) | DKey (j : nat).
Global Instance dcell_eq_dec : EqDecision dcell. Proof. solve_decision. Defined.
Inductive dcontent (V : Type) := XNode (n : option node) | XData (v : option (option V)) | XKey (k : option N).
Arguments XNode {V}. Arguments XData {V}. Arguments XKey {V}.
Definition dpeek {V} (t : dense V) (c : dcell) : dcontent V :=
  match c with DNode a => XNode (h_nodes (d_heap t) !! a) | DData j => XData (d_data t !! j) | DKey j => XKey (d_keys t !! j) end.
(** the struct itself: root pointer and the two vector lengths (and the allocator's next address) *)
Definition dheader {V} (t : dense V) : ptr * N * nat * nat := (d_root t, h_next (d_heap t), length (d_data t), length (d_keys t)).

Section tree.
Context {V : Type}.
Implicit Types t u : dense V.
Definition cells (Fh : list N) (Fd Fk : list nat) : list dcell := (DNode <$> Fh) ++ (DData <$> Fd) ++ (DKey <$> Fk).
Lemma cells_length Fh Fd Fk : length (cells Fh Fd Fk) = length Fh + length Fd + length Fk.
Proof. unfold cells. rewrite !app_length, !fmap_length. lia. Qed.
Lemma in_node Fh Fd Fk a : DNode a ∈ cells Fh Fd Fk <-> a ∈ Fh.
Proof. unfold cells. rewrite !elem_of_app, !elem_of_list_fmap. split; [|eauto]. intros [(x & [= ->] & H)|[(x & [=] & H)|(x & [=] & H)]]. done. Qed.
Lemma in_data Fh Fd Fk a : DData a ∈ cells Fh Fd Fk <-> a ∈ Fd.
Proof. unfold cells. rewrite !elem_of_app, !elem_of_list_fmap. split; [|eauto]. intros [(x & [=] & H)|[(x & [= ->] & H)|(x & [=] & H)]]. done. Qed.
Lemma in_key Fh Fd Fk a : DKey a ∈ cells Fh Fd Fk <-> a ∈ Fk.
Proof. unfold cells. rewrite !elem_of_app, !elem_of_list_fmap. split; [|eauto 6]. intros [(x & [=] & H)|[(x & [=] & H)|(x & [= ->] & H)]]. done. Qed.
Lemma agree_split Fh Fd Fk t u : agree dpeek dheader (cells Fh Fd Fk) t u ->
  d_root u = d_root t /\ agree hpeek h_next Fh (d_heap t) (d_heap u) /\ agree lpeek length Fd (d_data t) (d_data u) /\ agree lpeek length Fk (d_keys t) (d_keys u).
Proof.
  intros [Hh Hc]. injection Hh as H1 H2 H3 H4. split_and!; [done|split; [done|]..].
  - intros a Ha. specialize (Hc (DNode a) ltac:(by apply in_node)). cbn in Hc. injection Hc as Hc. exact Hc.
  - intros a Ha. specialize (Hc (DData a) ltac:(by apply in_data)). cbn in Hc. injection Hc as Hc. exact Hc.
  - intros a Ha. specialize (Hc (DKey a) ltac:(by apply in_key)). cbn in Hc. injection Hc as Hc. exact Hc.
Qed.
Lemma patched_join Fh Fd Fk u t1 u1 : d_root u1 = d_root t1 -> patched hpeek h_next Fh (d_heap u) (d_heap t1) (d_heap u1) ->
  patched lpeek length Fd (d_data u) (d_data t1) (d_data u1) -> patched lpeek length Fk (d_keys u) (d_keys t1) (d_keys u1) ->
  patched dpeek dheader (cells Fh Fd Fk) u t1 u1.
Proof.
  intros H1 [P1 P2] [Q1 Q2] [R1 R2]. split; [unfold dheader; congruence|]. intros [a|j|j]; cbn.
  - specialize (P2 a). unfold hpeek in P2. rewrite P2. destruct (decide (a ∈ Fh)), (decide (DNode a ∈ cells Fh Fd Fk)) as [Hx|Hx]; rewrite in_node in Hx; done.
  - specialize (Q2 j). unfold lpeek in Q2. rewrite Q2. destruct (decide (j ∈ Fd)), (decide (DData j ∈ cells Fh Fd Fk)) as [Hx|Hx]; rewrite in_data in Hx; done.
  - specialize (R2 j). unfold lpeek in R2. rewrite R2. destruct (decide (j ∈ Fk)), (decide (DKey j ∈ cells Fh Fd Fk)) as [Hx|Hx]; rewrite in_key in Hx; done.
Qed.
Lemma patched_same {S C X H} `{EqDecision C} (peek : S -> C -> X) (header : S -> H) F s s' : agree peek header F s s' -> patched peek header F s' s s'.
Proof. intros [H1 H2]. split; [done|]. intros c. case_decide; [by apply H2|done]. Qed.

(** `get` *)
Lemma get_footprint D t k o : 1 <= D -> tree_get (dense_tree V D) t k = Ok o ->
  exists F, length F <= D + 2 /\ forall u, agree dpeek dheader F t u -> tree_get (dense_tree V D) u k = Ok o.
Proof.
  unfold tree_get. cbn [dense_tree t_nw t_depth t_data t_T t_V]. intros HD E. inv E. set (ix := level_indices 1 D x) in *. unfold dense_data in E. inv E. destruct x0 as [p ii].
  inv E. rename x0 into di. inv E. rename x0 into key. destruct (rd_terminal D ix _ _ _ H0) as (F & HF & Hr).
  exists (cells (F ++ cells_of p) [N.to_nat di] [N.to_nat di]). split.
  { rewrite cells_length, app_length. destruct p; cbn; lia. }
  intros u Hu. apply agree_split in Hu as (Hroot & Hh & Hd & Hk). rewrite H, bind_ok. fold ix. unfold dense_data. rewrite Hroot.
  rewrite (Hr (d_heap u)) by (eapply agree_incl; [|exact Hh]; set_solver). rewrite bind_ok. cbn beta iota.
  rewrite (rd_child_idx (F ++ cells_of p) _ p ii di ltac:(set_solver) H1 (d_heap u) Hh), bind_ok.
  rewrite (rd_get [N.to_nat di] _ _ _ ltac:(left) H2 (d_keys u) Hk), bind_ok. destruct (key =? x)%N; [|done].
  inv E. injection E as <-. unfold data_get in *. inv H3. rewrite (rd_get [N.to_nat di] _ _ _ ltac:(left) H4 (d_data u) Hd), bind_ok. by rewrite H3.
Qed.

(** `get_or_insert_impl` *)
Lemma goi_split D t k insert vf : get_or_insert_impl D t k insert vf =
  let* (root, h, o) := goi_heap D (level_indices 1 D k) (match vf with Some _ => true | None => false end) (length (d_data t)) (d_root t) (d_heap t) in
  match o with
  | Some di =>
    if insert then
      match vf with
      | None => Ok (Dense root h (d_data t) (d_keys t), None, [])
      | Some v => let* old := data_get (d_data t) (N.to_nat di) in let* data := set_u (d_data t) (N.to_nat di) (Some v) in
                  Ok (Dense root h data (d_keys t), Some (N.to_nat di), [old])
      end
    else let* _ := data_get (d_data t) (N.to_nat di) in Ok (Dense root h (d_data t) (d_keys t), Some (N.to_nat di), [])
  | None => match vf with
            | None => Ok (Dense root h (d_data t) (d_keys t), None, [])
            | Some v => Ok (Dense root h (d_data t ++ [Some v]) (d_keys t ++ [k]), Some (length (d_data t)), [])
            end
  end.
Proof.
  unfold get_or_insert_impl, goi_heap. cbn zeta. destruct (const_loop _ _ _ _) as [[[[root h] l] c]| | |]; try done. rewrite !bind_ok. cbn beta iota.
  destruct (loc_read root h l) as [p| | |]; try done. rewrite !bind_ok. destruct (get_u _ _) as [ii| | |]; try done. rewrite !bind_ok.
  destruct (node_contains h p ii) as [[|]| | |]; try done; rewrite !bind_ok.
  - destruct (child_idx h p ii) as [di| | |]; try done.
  - destruct vf as [v|]; [|done]. destruct (node_insert _ _ _ _ _) as [[[h2 d] nn]| | |]; try done. rewrite !bind_ok. cbn beta iota.
    destruct (loc_write _ _ _ _) as [[root2 h3]| | |]; done.
Qed.
Lemma data_get_rd F data j (v : V) : j ∈ F -> data_get data j = Ok v -> rd lpeek length F (fun l => data_get l j) data v.
Proof. intros HF E l' Ha. unfold data_get in *. inv E. rewrite (rd_get F _ _ _ HF H l' Ha), bind_ok. exact E. Qed.
Lemma goi_footprint D t k insert vf t1 j dr : get_or_insert_impl D t k insert vf = Ok (t1, j, dr) ->
  exists F, length F <= 4 * D + 5 /\ forall u, agree dpeek dheader F t u -> exists u1, get_or_insert_impl D u k insert vf = Ok (u1, j, dr) /\ patched dpeek dheader F u t1 u1.
Proof.
  rewrite goi_split. intros E. inv E. destruct x as [[root h] o]. destruct (fp_goi_heap _ _ _ _ _ _ _ _ _ H) as (Fh & HFh & _ & Hf).
  set (di := match o with Some di => N.to_nat di | None => length (d_data t) end). exists (cells Fh [di] [length (d_keys t)]). split; [rewrite cells_length; cbn; lia|].
  intros u Hu. apply agree_split in Hu as (Hroot & Hh & Hd & Hk). destruct (Hf (d_heap u) Hh) as (h' & E' & Hp). cbn [fst snd] in E'.
  rewrite goi_split, (proj1 Hd), Hroot, E', bind_ok. cbn beta iota.
  pose proof (patched_same _ _ _ _ _ Hd) as Pd. pose proof (patched_same _ _ _ _ _ Hk) as Pk. destruct o as [i|]; subst di; cbn beta iota in *.
  - destruct insert.
    + destruct vf as [v|].
      * inv E. inv E. injection E as <- <- <-. rewrite (data_get_rd [N.to_nat i] _ _ _ ltac:(left) H0 _ Hd), bind_ok.
        destruct (fp_set [N.to_nat i] _ _ _ _ ltac:(left) H1) as [_ Hs]. destruct (Hs _ Hd) as (l' & El & Pl). rewrite El, bind_ok.
        eexists. split; [done|]. by apply patched_join.
      * injection E as <- <- <-. eexists. split; [done|]. by apply patched_join.
    + inv E. injection E as <- <- <-. rewrite (data_get_rd [N.to_nat i] _ _ _ ltac:(left) H0 _ Hd), bind_ok. eexists. split; [done|]. by apply patched_join.
  - destruct vf as [v|]; injection E as <- <- <-; eexists; (split; [done|]); apply patched_join; try done.
    + destruct (fp_push [length (d_data t)] (d_data t) (Some v) ltac:(left)) as [_ Hs]. destruct (Hs _ Hd) as (l' & El & Pl). injection El as <-. done.
    + destruct (fp_push [length (d_keys t)] (d_keys t) k ltac:(left)) as [_ Hs]. destruct (Hs _ Hk) as (l' & El & Pl). injection El as <-. done.
Qed.

Lemma branch_length ix : forall k h n p q, get_branch_loop h k n ix p = Ok q -> length q = k.
Proof. induction k as [|k IH]; intros h n p q E; cbn [get_branch_loop] in *; [by injection E as <-|]. inv E. inv E. inv E. injection E as <-. cbn. f_equal. by eapply IH. Qed.
(** `remove` *)
Lemma remove_footprint D t k t1 o : 1 <= D -> dense_remove_impl D t k = Ok (t1, o) ->
  exists F, length F <= 3 * D + 4 /\ forall u, agree dpeek dheader F t u -> exists u1, dense_remove_impl D u k = Ok (u1, o) /\ patched dpeek dheader F u t1 u1.
Proof.
  intros HD E. unfold dense_remove_impl in E. set (ix := level_indices 1 D k) in *. inv E. rename x into branch. unfold get_branch in H.
  destruct (rd_branch_loop _ _ _ _ _ _ H) as (F1 & HF1 & Hr1). pose proof (branch_length _ _ _ _ _ _ H) as HB. inv E. rename x into tn. inv E. rename x into ti.
  inv E. rename x into di. inv E. rename x into key.
  set (FB := cells_of (d_root t) ++ (branch ≫= cells_of)).
  assert (length FB <= D) as HFB.
  { unfold FB. rewrite app_length. assert (length (branch ≫= cells_of) <= length branch) by (clear; induction branch as [|[] b IH]; cbn; lia). destruct (d_root t); cbn; lia. }
  assert (Forall (fun p => cells_of p ⊆ FB) branch) as HBF.
  { apply Forall_forall. intros p Hp c Hc. apply elem_of_app. right. apply elem_of_list_bind. eauto. }
  assert (cells_of (d_root t) ⊆ FB) as HRF by set_solver.
  assert (cells_of tn ⊆ FB) as HTF. { apply get_u_inv in H0. by eapply (Forall_lookup_1 _ _ _ _ HBF). }
  destruct (key =? k)%N eqn:Ek.
  - inv E. rename x into h1. inv E. rename x into len. inv E. rename x into h2. inv E. destruct x as [keys lk]. inv E. destruct x as [keys2 h3].
    inv E. destruct x as [data value]. inv E. rename x into v. injection E as <- <-.
    set (G := FB).
    assert (hfp FB mkh (fun h => let* h := node_remove KIdx h tn ti in let* len := node_len h tn in
      if decide (len = 1) then let* h := drop_node KIdx h tn in let* (h, _) := const_loop_rev 0 (D - 1) (remove_climb_body (d_root t) branch ix) h in Ok h else Ok h) (d_heap t) tt h2) as Hheap1.
    { eapply (fp_bind hpeek h_next _ _ _ mkh); [by apply fp_node_remove|]. cbn beta. eapply (fp_rd hpeek h_next _ (fun h => node_len h tn)); [by apply rd_node_len|].
      destruct (decide (len = 1)); [|injection H6 as ->; apply (fp_ret hpeek h_next FB mkh)]. inv H6. eapply (fp_bind hpeek h_next _ _ _ mkh); [by apply fp_hdealloc|]. cbn beta.
      apply bind_ok_inv in H6 as ([h4 o4] & HL & H6). cbn beta iota in H6. injection H6 as ->.
      assert (0 <= D - 1 < 9) as [HD0 HD9]. { unfold const_loop_rev in HL. destruct (decide (0 <= D - 1 /\ D - 1 < 9)); [lia|done]. }
      rewrite const_loop_rev_ok in HL by done. pose proof (fp_climb (d_root t) branch ix FB HRF HBF _ _ _ _ HL) as Hc.
      eapply (fp_bind hpeek h_next _ _ _ mkclimb); [|cbn beta iota; apply (fp_ret hpeek h_next FB mkh)].
      destruct Hc as [Hp Hc]. split; [exact Hp|]. intros h' Ha. rewrite const_loop_rev_ok by done. by apply Hc. }
    assert (exists F2, length F2 <= D /\ hfp F2 mkh (fun h => if decide (lk <> k) then let* (node, ii) := get_terminal_node D (d_root t) h (level_indices 1 D lk) in set_child KIdx h node ii (SIdx (di mod 2 ^ 32)) else Ok h) h2 tt h3) as (F2 & HF2 & Hheap2).
    { destruct (decide (lk <> k)).
      - apply bind_ok_inv in H8 as (ks & HK & H8). apply bind_ok_inv in H8 as ([node ii] & HT & H8). cbn beta iota in H8. apply bind_ok_inv in H8 as (h4 & HS & H8). injection H8 as <- ->. destruct (rd_terminal _ _ _ _ _ HT) as (F2 & HF2 & Hr2).
        exists (F2 ++ cells_of node). split; [rewrite app_length; destruct node; cbn; lia|].
        eapply (fp_rd hpeek h_next _ (fun h => get_terminal_node D (d_root t) h (level_indices 1 D lk))); [eapply rd_weaken; [|exact Hr2]; set_solver|].
        cbn beta iota. apply fp_set_child; [set_solver|done].
      - injection H8 as <- ->. exists []. split; [cbn; lia|]. apply (fp_ret hpeek h_next [] mkh). }
    set (dj := N.to_nat di).
    exists (cells (F1 ++ FB ++ F2) [dj; length (d_data t) - 1] [dj; length (d_keys t) - 1]). split; [rewrite cells_length, !app_length; cbn [length]; lia|].
    intros u Hu. apply agree_split in Hu as (Hroot & Hh & Hd & Hk).
    destruct (fp_weaken hpeek h_next FB (F1 ++ FB ++ F2) _ _ _ _ _ ltac:(set_solver) Hheap1) as [_ W1]. destruct (W1 _ Hh) as (h2' & E2 & P2).
    destruct (fp_weaken hpeek h_next F2 (F1 ++ FB ++ F2) _ _ _ _ _ ltac:(set_solver) Hheap2) as [_ W2]. destruct (W2 _ (patched_agree _ _ _ _ _ _ P2)) as (h3' & E3 & P3).
    destruct (fp_pop [dj; length (d_keys t) - 1] (d_keys t) keys lk ltac:(right; left) H7) as [_ W3]. destruct (W3 _ Hk) as (ks' & E4 & P4).
    assert (exists ks2', (if decide (lk <> k) then set_u ks' dj lk else Ok ks') = Ok ks2' /\ patched lpeek length [dj; length (d_keys t) - 1] (d_keys u) keys2 ks2') as (ks2' & E5 & P5).
    { destruct (decide (lk <> k)).
      - apply bind_ok_inv in H8 as (ks & HK & H8). apply bind_ok_inv in H8 as ([node ii] & HT & H8). cbn beta iota in H8. apply bind_ok_inv in H8 as (h4 & HS & H8). injection H8 as <- ->. destruct (fp_set [dj; length (d_keys t) - 1] keys dj lk ks ltac:(left) HK) as [_ W4].
        destruct (W4 _ (patched_agree _ _ _ _ _ _ P4)) as (ks2' & E5 & P5). exists ks2'. split; [exact E5|]. by eapply patched_trans.
      - injection H8 as <- ->. by exists ks'. }
    destruct (fp_swap_remove [dj; length (d_data t) - 1] (d_data t) dj data value ltac:(left) ltac:(right; left) H9) as [_ W5]. destruct (W5 _ Hd) as (ds' & E6 & P6).
    exists (Dense (d_root t) h3' ds' ks2'). split; [|by apply patched_join; [done|by eapply patched_trans|done|done]].
    unfold dense_remove_impl. fold ix. unfold get_branch. rewrite Hroot.
    rewrite (Hr1 (d_heap u)) by (eapply agree_incl; [|exact Hh]; set_solver). rewrite bind_ok, H0, bind_ok, H1, bind_ok.
    rewrite (rd_child_idx FB _ _ _ _ HTF H2 (d_heap u)) by (eapply agree_incl; [|exact Hh]; set_solver). rewrite bind_ok.
    rewrite (rd_get [dj; length (d_keys t) - 1] _ (N.to_nat di) _ ltac:(left) H3 (d_keys u) Hk), bind_ok, Ek.
    apply bind_ok_inv in E2 as (h1' & E21 & E2). rewrite E21, bind_ok. apply bind_ok_inv in E2 as (len' & E22 & E2). rewrite E22, bind_ok. rewrite E2, bind_ok.
    rewrite E4, bind_ok. cbn beta iota. fold dj.
    assert ((if decide (lk <> k) then let* keys := set_u ks' dj lk in let* (node, ii) := get_terminal_node D (d_root t) h2' (level_indices 1 D lk) in
       let* h := set_child KIdx h2' node ii (SIdx (di mod 2 ^ 32)) in Ok (keys, h) else Ok (ks', h2')) = Ok (ks2', h3')) as E7.
    { destruct (decide (lk <> k)); [|by injection E5 as ->; injection E3 as ->]. rewrite E5, bind_ok. apply bind_ok_inv in E3 as ([node ii] & E31 & E3). rewrite E31, bind_ok. cbn beta iota in *. by rewrite E3, bind_ok. }
    etrans; [exact (f_equal (fun r => rbind r _) E7)|]. rewrite bind_ok. cbn beta iota. rewrite E6, bind_ok. cbn beta iota. by rewrite H10, bind_ok.
  - injection E as <- <-. exists (cells (F1 ++ FB) [] [N.to_nat di]). split; [rewrite cells_length, app_length; cbn [length]; lia|].
    intros u Hu. pose proof (patched_same _ _ _ _ _ Hu) as HP. apply agree_split in Hu as (Hroot & Hh & Hd & Hk). exists u. split; [|done].
    unfold dense_remove_impl. fold ix. unfold get_branch. rewrite Hroot.
    rewrite (Hr1 (d_heap u)) by (eapply agree_incl; [|exact Hh]; set_solver). rewrite bind_ok, H0, bind_ok, H1, bind_ok.
    rewrite (rd_child_idx FB _ _ _ _ HTF H2 (d_heap u)) by (eapply agree_incl; [|exact Hh]; set_solver). rewrite bind_ok.
    by rewrite (rd_get [N.to_nat di] _ _ _ ltac:(left) H3 (d_keys u) Hk), bind_ok, Ek.
Qed.
End tree.
