(** * What it means for a [tree] record to be a correct `HibitTree`

    [lawful t] packages, for a modelled `HibitTree` implementation [t]:
    - [l_sem s]: the abstract content of the source value [s], as a function from
      full paths (length = depth) to optional data;
    - [l_tm s p i]: bit [i] of the mask of the node at path [p] (all bits are zero for a
      node that does not exist);
    - [l_Rv/l_Rk/l_Ru]: invariants of cursor states: usable / levels 0..|p| were selected
      along path [p] with checked selections / ... possibly with unchecked ones;
    and the contract of every trait method (doc comments of src/hibit_tree.rs:141-321). *)
From Verif Require Import Base BitUtils BitUtilsProofs BitQueue LevelIndices LevelIndicesProofs
  ConstLoops Hierarchy.

Definition mask_is (nw : nat) (m : mask) (f : N -> bool) : Prop :=
  mask_ok nw m /\ forall i, mbit m i = f i.

Record lawful (t : tree) := Lawful {
  l_wf : t_T t -> Prop;
  l_sem : t_T t -> list N -> option (t_V t);
  l_tm : t_T t -> list N -> N -> bool;
  (** does Cursor::data answer None for every absent element? *)
  l_cdok : bool;
  l_Rv : t_T t -> t_C t -> Prop;
  l_Rk : t_T t -> t_C t -> list N -> Prop;
  l_Ru : t_T t -> t_C t -> list N -> Prop;
  l_nw : nw_ok (t_nw t);
  l_depth : 0 < t_depth t;
  (** every stored element is announced by the masks on its path *)
  l_complete : forall s q v n i, l_wf s -> path_ok (t_nw t) (t_depth t) q ->
    l_sem s q = Some v -> q !! n = Some i -> l_tm s (take n q) i = true;
  (** the masks of the last level are exact *)
  l_terminal : forall s p i, l_wf s -> path_ok (t_nw t) (t_depth t - 1) p ->
    l_tm s p i = true -> is_Some (l_sem s (p ++ [i]));
  l_bound : forall s p i, l_wf s -> path_ok (t_nw t) (length p) p -> length p < t_depth t ->
    l_tm s p i = true -> (i < msize (t_nw t))%N;
  (** a node not announced by its parent has an empty mask *)
  l_parent : forall s p i j, l_wf s -> path_ok (t_nw t) (length p) p -> S (length p) < t_depth t ->
    (i < msize (t_nw t))%N -> l_tm s (p ++ [i]) j = true -> l_tm s p i = true;
  l_Rk_Ru : forall s c p, l_Rk s c p -> l_Ru s c p;
  l_Ru_Rv : forall s c p, l_Ru s c p -> l_Rv s c;
  l_Rk_take : forall s c p n, l_Rk s c p -> l_Rk s c (take n p);
  l_Ru_take : forall s c p n, l_Ru s c p -> l_Ru s c (take n p);
  l_new : forall s, l_wf s -> exists c, t_new t s = Ok c /\ l_Rv s c;
  l_select0 : forall s c, l_wf s -> l_Rv s c -> exists c' m,
    t_select t s c 0 0%N = Ok (c', m) /\ mask_is (t_nw t) m (l_tm s []) /\ l_Rk s c' [];
  l_select0_u : forall s c, l_wf s -> l_Rv s c -> exists c' m,
    t_select_u t s c 0 0%N = Ok (c', m) /\ mask_is (t_nw t) m (l_tm s []) /\ l_Ru s c' [];
  l_selectS : forall s c p i, l_wf s -> l_Rk s c p -> path_ok (t_nw t) (length p) p ->
    S (length p) < t_depth t -> (i < msize (t_nw t))%N -> exists c' m,
    t_select t s c (S (length p)) i = Ok (c', m) /\
    mask_is (t_nw t) m (l_tm s (p ++ [i])) /\ l_Rk s c' (p ++ [i]);
  l_selectS_u : forall s c p i, l_wf s -> l_Ru s c p -> path_ok (t_nw t) (length p) p ->
    S (length p) < t_depth t -> l_tm s p i = true -> exists c' m,
    t_select_u t s c (S (length p)) i = Ok (c', m) /\
    mask_is (t_nw t) m (l_tm s (p ++ [i])) /\ l_Ru s c' (p ++ [i]);
  l_data : forall s q, l_wf s -> path_ok (t_nw t) (t_depth t) q ->
    t_data t s (key_of_path (t_nw t) q) q = Ok (l_sem s q);
  l_data_u : forall s q v, l_wf s -> path_ok (t_nw t) (t_depth t) q -> l_sem s q = Some v ->
    t_data_u t s (key_of_path (t_nw t) q) q = Ok v;
  l_cdata : forall s c p i, l_wf s -> l_Rk s c p -> path_ok (t_nw t) (t_depth t - 1) p ->
    (i < msize (t_nw t))%N -> exists d, t_cdata t s c i = Ok d /\
      (forall v, l_sem s (p ++ [i]) = Some v -> d = Some v) /\
      (l_cdok = true -> l_sem s (p ++ [i]) = None -> d = None);
  l_cdata_u : forall s c p i v, l_wf s -> l_Ru s c p -> path_ok (t_nw t) (t_depth t - 1) p ->
    (i < msize (t_nw t))%N -> l_sem s (p ++ [i]) = Some v -> t_cdata_u t s c i = Ok v;
}.
Arguments l_wf {t}. Arguments l_sem {t}. Arguments l_tm {t}. Arguments l_cdok {t}.
Arguments l_Rv {t}. Arguments l_Rk {t}. Arguments l_Ru {t}.
Arguments l_nw {t}. Arguments l_depth {t}. Arguments l_complete {t}. Arguments l_terminal {t}.
Arguments l_bound {t}. Arguments l_parent {t}. Arguments l_Rk_Ru {t}. Arguments l_Ru_Rv {t}.
Arguments l_Rk_take {t}. Arguments l_Ru_take {t}. Arguments l_new {t}. Arguments l_select0 {t}.
Arguments l_select0_u {t}. Arguments l_selectS {t}. Arguments l_selectS_u {t}.
Arguments l_data {t}. Arguments l_data_u {t}. Arguments l_cdata {t}. Arguments l_cdata_u {t}.

(** Content addressed by key. *)
Definition l_at {t} (L : lawful t) (s : t_T t) (k : N) : option (t_V t) :=
  l_sem L s (level_indices (t_nw t) (t_depth t) k).

(** some key satisfying [bad] lies below the path [p] *)
Definition above (nw D : nat) (bad : N -> Prop) (p : list N) : Prop :=
  exists q, path_ok nw D (p ++ q) /\ bad (key_of_path nw (p ++ q)).
(** "No false-positive bits in bitmasks" (src/hibit_tree.rs:145-147), except possibly above
    the keys satisfying [bad]. *)
Definition hierarchy_exact {t} (bad : N -> Prop) (L : lawful t) (s : t_T t) : Prop :=
  forall p i, path_ok (t_nw t) (length p) p -> length p < t_depth t -> l_tm L s p i = true ->
    exists r, path_ok (t_nw t) (t_depth t) (p ++ i :: r) /\
      (is_Some (l_sem L s (p ++ i :: r)) \/ bad (key_of_path (t_nw t) (p ++ i :: r))).
Lemma above_mono nw D (bad bad' : N -> Prop) p : (forall k, bad k -> bad' k) -> above nw D bad p -> above nw D bad' p.
Proof. intros H (q & Hq & Hb). exists q. auto. Qed.
Lemma hierarchy_exact_mono {t} (bad bad' : N -> Prop) (L : lawful t) s : (forall k, bad k -> bad' k) ->
  hierarchy_exact bad L s -> hierarchy_exact bad' L s.
Proof. intros H He p i Hp Hl Ht. destruct (He p i Hp Hl Ht) as (r & Hr & [Hs|Hb]); exists r; auto. Qed.

Lemma mask_is_ext nw m f g : (forall i, f i = g i) -> mask_is nw m f -> mask_is nw m g.
Proof. intros H [H1 H2]. split; [done|]. intros i. by rewrite H2, H. Qed.

(** paths *)
Lemma path_ok_nil nw : path_ok nw 0 [].
Proof. split; [done|constructor]. Qed.
Lemma path_ok_snoc nw n p i : path_ok nw n p -> (i < msize nw)%N -> path_ok nw (S n) (p ++ [i]).
Proof.
  intros [Hl Hp] Hi. split; [rewrite app_length; cbn; lia|]. apply Forall_app. split; [done|]. by constructor.
Qed.
Lemma path_ok_take nw n p m : path_ok nw n p -> path_ok nw (m `min` n) (take m p).
Proof. intros [Hl Hp]. split; [rewrite take_length; lia|]. by apply Forall_take. Qed.
Lemma path_ok_len nw n p : path_ok nw n p -> path_ok nw (length p) p.
Proof. intros [Hl Hp]. by split. Qed.
Lemma path_ok_app_inv nw n p q : path_ok nw n (p ++ q) -> path_ok nw (length p) p /\ path_ok nw (length q) q.
Proof. intros [Hl [H1 H2]%Forall_app]. by split. Qed.

(** above any key there may be anything: this says nothing *)
Lemma hierarchy_exact_any {t} (bad : N -> Prop) (L : lawful t) s : l_wf L s -> (forall k, bad k) -> hierarchy_exact bad L s.
Proof.
  intros Hwf Hbad p i Hp Hl Ht. pose proof (l_bound L s p i Hwf Hp Hl Ht) as Hi.
  exists (replicate (t_depth t - S (length p)) 0%N). split; [|by right]. split.
  - rewrite app_length. cbn [length]. rewrite replicate_length. lia.
  - apply Forall_app. split; [apply Hp|]. constructor; [done|]. apply Forall_replicate. lia.
Qed.
