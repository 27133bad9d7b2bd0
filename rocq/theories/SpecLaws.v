(** * Facts about the specification alone (no model involved) *)
From Verif Require Import Base Spec.

Definition vals {V} (m : gmap N V) : list V := (map_to_list m).*2.
Lemma vals_insert {V} (m : gmap N V) k v : m !! k = None -> vals (<[k := v]> m) ≡ₚ v :: vals m.
Proof. intros H. unfold vals. by rewrite map_to_list_insert by done. Qed.
Lemma vals_delete {V} (m : gmap N V) k v : m !! k = Some v -> vals m ≡ₚ v :: vals (delete k m).
Proof. intros H. unfold vals. rewrite <- (map_to_list_delete m k v H). done. Qed.
Lemma vals_overwrite {V} (m : gmap N V) k v x : m !! k = Some v -> v :: vals (<[k := x]> m) ≡ₚ x :: vals m.
Proof.
  intros H. rewrite <- insert_delete_insert, vals_insert by apply lookup_delete.
  rewrite (vals_delete m k v H). apply perm_swap.
Qed.

Section spec.
Context {V : Type} (B : N).
Implicit Types (m : gmap N V) (c : call V).

(** one call neither creates nor loses values *)
Lemma spec_balance m c : spec_in B m c ++ vals m ≡ₚ spec_removed B m c ++ spec_drop B m c ++ vals (spec_map B m c).
Proof.
  destruct c as [k v|k dflt w|k|k|k w|k|f]; cbn [spec_in spec_removed spec_drop spec_map]; try done.
  - destruct (N.ltb_spec k B); [|done]. destruct (m !! k) as [old|] eqn:E; cbn [ol app].
    + by rewrite vals_overwrite.
    + by rewrite vals_insert.
  - destruct (N.ltb_spec k B); [|done]. destruct (m !! k) as [old|] eqn:E.
    + destruct w; cbn [ol overwrite fst snd app]; [|done]. by rewrite vals_overwrite.
    + destruct dflt as [d|]; [|done]. destruct w; cbn [ol overwrite fst snd app].
      * rewrite insert_insert, vals_insert by done. done.
      * by rewrite vals_insert.
  - destruct (N.ltb_spec k B); [|done]. destruct (m !! k) as [old|] eqn:E; cbn [ol app].
    + by apply vals_delete.
    + by rewrite delete_notin.
  - destruct (N.ltb_spec k B); [|done]. destruct (m !! k) as [old|] eqn:E; [|done].
    destruct w; cbn [ol overwrite fst snd app]; [|done]. by rewrite vals_overwrite.
  - fold (vals m). rewrite Permutation_app_comm. done.
Qed.
Lemma spec_balance_run m cs :
  spec_collect B (spec_in B) m cs ++ vals m ≡ₚ
  spec_collect B (spec_removed B) m cs ++ spec_collect B (spec_drop B) m cs ++ vals (spec_run B m cs).
Proof.
  revert m. induction cs as [|c cs IH]; intros m; [done|]. cbn [spec_collect spec_run].
  specialize (IH (spec_map B m c)). pose proof (spec_balance m c) as Hb.
  transitivity (spec_collect B (spec_in B) (spec_map B m c) cs ++ (spec_in B m c ++ vals m)).
  { rewrite (Permutation_app_comm (spec_in B m c)), <- app_assoc. done. }
  rewrite Hb.
  transitivity ((spec_removed B m c ++ spec_drop B m c) ++ (spec_collect B (spec_in B) (spec_map B m c) cs ++ vals (spec_map B m c))).
  { rewrite !app_assoc. rewrite (Permutation_app_comm _ (spec_removed B m c)).
    rewrite <- !app_assoc. apply Permutation_app_head. rewrite !app_assoc. apply Permutation_app_tail, Permutation_app_comm. }
  rewrite IH. clear. rewrite <- !app_assoc. apply Permutation_app_head.
  rewrite !app_assoc. apply Permutation_app_tail. rewrite <- !app_assoc.
  rewrite (Permutation_app_comm (spec_drop B m c)), <- app_assoc. apply Permutation_app_head, Permutation_app_comm.
Qed.

(** the values handed back by `remove`, read off the calls and the answers *)
Fixpoint removed_values (cs : list (call V)) (os : list (out V)) : list V :=
  match cs, os with
  | CRemove _ :: cs, OVal (Some v) :: os => v :: removed_values cs os
  | _ :: cs, _ :: os => removed_values cs os
  | _, _ => []
  end.
Lemma removed_values_spec d0 m cs : removed_values cs (spec_outs B d0 m cs) = spec_collect B (spec_removed B) m cs.
Proof.
  revert m. induction cs as [|c cs IH]; intros m; [done|]. cbn [spec_outs spec_collect].
  rewrite <- IH. destruct c as [k v|k dflt w|k|k|k w|k|f]; cbn [spec_removed]; try reflexivity.
  cbn [spec_out]. destruct (N.ltb_spec k B) as [H|H]; [destruct (m !! k) eqn:E|]; reflexivity.
Qed.

Lemma spec_run_app m cs1 cs2 : spec_run B m (cs1 ++ cs2) = spec_run B (spec_run B m cs1) cs2.
Proof. revert m. induction cs1 as [|c cs1 IH]; intros m; [done|]. cbn [app spec_run]. apply IH. Qed.
Lemma spec_outs_app d0 m cs1 cs2 : spec_outs B d0 m (cs1 ++ cs2) = spec_outs B d0 m cs1 ++ spec_outs B d0 (spec_run B m cs1) cs2.
Proof. revert m. induction cs1 as [|c cs1 IH]; intros m; [done|]. cbn [app spec_outs spec_run]. by rewrite IH. Qed.
Lemma spec_outs_length d0 m cs : length (spec_outs B d0 m cs) = length cs.
Proof. revert m. induction cs as [|c cs IH]; intros m; [done|]. cbn [spec_outs length]. by rewrite IH. Qed.
Lemma spec_always_app P m cs1 cs2 : spec_always B P m (cs1 ++ cs2) <-> spec_always B P m cs1 /\ spec_always B P (spec_run B m cs1) cs2.
Proof.
  revert m. induction cs1 as [|c cs1 IH]; intros m; cbn [app spec_always spec_run].
  - split; [|by intros [_ H]]. intros H. split; [|done]. split; [|done]. by destruct cs2; destruct H.
  - rewrite IH. naive_solver.
Qed.
Lemma spec_always_weaken (P Q : gmap N V -> Prop) m cs : (forall m, P m -> Q m) -> spec_always B P m cs -> spec_always B Q m cs.
Proof. intros HPQ. revert m. induction cs as [|c cs IH]; intros m [H1 H2]; (split; [auto|]); [done|]. by apply IH. Qed.
Lemma spec_map_keys m c : (forall k v, m !! k = Some v -> (k < B)%N) -> forall k v, spec_map B m c !! k = Some v -> (k < B)%N.
Proof.
  intros Hb k v. destruct c as [k' v'|k' dflt w|k'|k'|k' w|k'|f]; cbn [spec_map]; eauto.
  - destruct (N.ltb_spec k' B); eauto. rewrite lookup_insert_Some. naive_solver.
  - destruct (N.ltb_spec k' B); eauto. destruct (m !! k') eqn:?; [destruct w; cbn; eauto; rewrite lookup_insert_Some; naive_solver|].
    destruct dflt; eauto. destruct w; cbn [overwrite fst]; rewrite ?lookup_insert_Some; naive_solver.
  - destruct (N.ltb_spec k' B); eauto. rewrite lookup_delete_Some. naive_solver.
  - destruct (N.ltb_spec k' B); eauto. destruct (m !! k') eqn:?; [|eauto]. destruct w; cbn; eauto; rewrite lookup_insert_Some; naive_solver.
  - rewrite map_lookup_imap. destruct (m !! k) eqn:?; [eauto|done].
Qed.
(** every state a history passes through only has keys below the bound *)
Lemma spec_always_keys m cs : (forall k v, m !! k = Some v -> (k < B)%N) ->
  spec_always B (fun m => forall k v, m !! k = Some v -> (k < B)%N) m cs.
Proof.
  revert m. induction cs as [|c cs IH]; intros m Hb; (split; [done|]); [done|]. apply IH. by apply spec_map_keys.
Qed.
(** a map with keys below [B] has at most [B] elements *)
Lemma bounded_size m : (forall k v, m !! k = Some v -> (k < B)%N) -> (N.of_nat (size m) <= B)%N.
Proof.
  intros Hb. rewrite <- size_dom.
  assert (size (dom m) <= N.to_nat B); [|lia].
  transitivity (length (N.of_nat <$> seq 0 (N.to_nat B))); [|by rewrite fmap_length, seq_length].
  assert (NoDup (N.of_nat <$> seq 0 (N.to_nat B))) as Hn by (apply (NoDup_fmap_2 _), NoDup_seq).
  rewrite <- (size_list_to_set (C := gset N)) by exact Hn.
  apply subseteq_size. intros k [v Hk]%elem_of_dom. apply elem_of_list_to_set, elem_of_list_fmap.
  exists (N.to_nat k). split; [lia|]. apply elem_of_seq. apply Hb in Hk. lia.
Qed.
End spec.

(** two enumerations of the same function are equal *)
Lemma sorted_ext (l1 l2 : list N) : StronglySorted N.lt l1 -> StronglySorted N.lt l2 -> (forall k, k ∈ l1 <-> k ∈ l2) -> l1 = l2.
Proof.
  revert l2. induction l1 as [|a l1 IH]; intros [|b l2] H1 H2 He; [done|exfalso; specialize (He b); set_solver|exfalso; specialize (He a); set_solver|].
  apply StronglySorted_inv in H1 as [H1 F1], H2 as [H2 F2]. rewrite Forall_forall in F1, F2.
  assert (a = b) as ->.
  { pose proof (proj1 (He a) ltac:(left)) as Ha. pose proof (proj2 (He b) ltac:(left)) as Hb.
    apply elem_of_cons in Ha as [?|Ha%F2], Hb as [?|Hb%F1]; try done. lia. }
  f_equal. apply IH; try done. intros k. specialize (He k). rewrite !elem_of_cons in He. split; intros Hk.
  - destruct (proj1 He (or_intror Hk)) as [->|?]; [|done]. apply F1 in Hk. lia.
  - destruct (proj2 He (or_intror Hk)) as [->|?]; [|done]. apply F2 in Hk. lia.
Qed.
Lemma enumerates_unique {V} (l1 l2 : list (N * V)) g1 g2 : enumerates l1 g1 -> enumerates l2 g2 -> (forall k, g1 k = g2 k) -> l1 = l2.
Proof.
  intros [S1 E1] [S2 E2] Hg. assert (forall k v, (k, v) ∈ l1 <-> (k, v) ∈ l2) as He.
  { intros k v. by rewrite E1, E2, Hg. }
  clear E1 E2. revert l2 S2 He. induction l1 as [|[a x] l1 IH]; intros [|[b y] l2] S2 He; [done|exfalso; specialize (He b y); set_solver|exfalso; specialize (He a x); set_solver|].
  cbn [fmap list_fmap fst] in *. apply StronglySorted_inv in S1 as [S1 F1], S2 as [S2 F2]. rewrite Forall_forall in F1, F2.
  assert (forall k v, (k, v) ∈ l1 -> (a < k)%N) as F1' by (intros k v Hk; apply F1, elem_of_list_fmap; by exists (k, v)).
  assert (forall k v, (k, v) ∈ l2 -> (b < k)%N) as F2' by (intros k v Hk; apply F2, elem_of_list_fmap; by exists (k, v)).
  assert ((a, x) = (b, y)) as Heq.
  { pose proof (proj1 (He a x) ltac:(left)) as Ha. pose proof (proj2 (He b y) ltac:(left)) as Hb.
    apply elem_of_cons in Ha as [?|Ha%F2'], Hb as [Hb|Hb%F1']; try done. exfalso; lia. }
  simplify_eq. f_equal. apply IH; try done. intros k v. specialize (He k v). rewrite !elem_of_cons in He. split; intros Hk.
  - destruct (proj1 He (or_intror Hk)) as [?|?]; [|done]. simplify_eq. apply F1' in Hk. lia.
  - destruct (proj2 He (or_intror Hk)) as [?|?]; [|done]. simplify_eq. apply F2' in Hk. lia.
Qed.
