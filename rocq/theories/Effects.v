(** * Closures with side effects: when the functions of `map` and `multi_map_fold` are called

    In Ops.v the user's functions are stateless.  Here they may read and change a state [St]
    (interior mutability, a counter, I/O: `UnaryFunction::exec(&self, arg)`,
    src/utils/function.rs:4-52), so it can be observed how often, for which elements, in which
    order and when they are called.  Selecting nodes never calls user code
    (src/ops/map.rs:109-120, multi_map_fold.rs:95-108), so an expression is described by the
    closure-free expression [e_t] it is built on (each `map` and fold erased), which determines
    the cursor and the masks, and by its four data methods, which run in the state. *)
From Verif Require Import Base BitUtils BitQueue LevelIndices ConstLoops Hierarchy Ops Dense Materialize.

Section effects.
Context {St : Type}.
(** the tree and cursor methods (src/hibit_tree.rs:124-321) when user functions keep a state *)
Record etree := ETree {
  e_t : tree;
  e_V : Type;                                                (* Data, DataUnchecked, Cursor::Data *)
  e_data : t_T e_t -> N -> list N -> St -> res (option e_V * St);
  e_data_u : t_T e_t -> N -> list N -> St -> res (e_V * St);
  e_cdata : t_T e_t -> t_C e_t -> N -> St -> res (option e_V * St);
  e_cdata_u : t_T e_t -> t_C e_t -> N -> St -> res (e_V * St);
}.

(** a container, or an expression without closures *)
Definition e_pure (t : tree) : etree := {|
  e_t := t; e_V := t_V t;
  e_data := fun s index li st => let* o := t_data t s index li in Ok (o, st);
  e_data_u := fun s index li st => let* o := t_data_u t s index li in Ok (o, st);
  e_cdata := fun s c i st => let* o := t_cdata t s c i in Ok (o, st);
  e_cdata_u := fun s c i st => let* o := t_cdata_u t s c i in Ok (o, st);
|}.
(** src/ops/map.rs *)
Definition e_map (E : etree) {W : Type} (f : e_V E -> St -> W * St) : etree := {|
  e_t := e_t E; e_V := W;
  e_data := fun s index li st =>                              (* 56-65 *)
    let* (data, st) := e_data E s index li st in
    match data with Some data => let '(w, st) := f data st in Ok (Some w, st) | None => Ok (None, st) end;
  e_data_u := fun s index li st =>                            (* 68-73 *)
    let* (data, st) := e_data_u E s index li st in Ok (f data st);
  e_cdata := fun s c i st =>                                  (* 123-132 *)
    let* (data, st) := e_cdata E s c i st in
    match data with Some data => let '(w, st) := f data st in Ok (Some w, st) | None => Ok (None, st) end;
  e_cdata_u := fun s c i st =>                                (* 135-140 *)
    let* (data, st) := e_cdata_u E s c i st in Ok (f data st);
|}.
(** `data_iter.fold(init, |init, data| f.exec(init, data))`, multi_map_fold.rs:47, 59 *)
Fixpoint fold_st {X A : Type} (f : A -> X -> St -> A * St) (l : list X) (a : A) (st : St) : A * St :=
  match l with [] => (a, st) | x :: l => let '(a, st) := f a x st in fold_st f l a st end.
(** src/ops/multi_map_fold.rs over a closure-free multi tree; [items] gives the items of the
    data iterator.  (In 128-134 `init` is called before the source's data_unchecked, which
    calls no user code here.) *)
Definition e_fold (t : tree) {X A : Type} (items : t_V t -> list X) (init : St -> A * St) (f : A -> X -> St -> A * St) : etree :=
  let run d st := let '(a, st) := init st in fold_st f (items d) a st in {|
  e_t := t; e_V := A;
  e_data := fun s index li st =>                              (* 42-52 *)
    let* o := t_data t s index li in
    match o with Some d => let '(a, st) := run d st in Ok (Some a, st) | None => Ok (None, st) end;
  e_data_u := fun s index li st =>                            (* 55-62 *)
    let* d := t_data_u t s index li in Ok (run d st);
  e_cdata := fun s c i st =>                                  (* 114-124 *)
    let* o := t_cdata t s c i in
    match o with Some d => let '(a, st) := run d st in Ok (Some a, st) | None => Ok (None, st) end;
  e_cdata_u := fun s c i st =>                                (* 127-134 *)
    let* d := t_cdata_u t s c i in Ok (run d st);
|}.
(** src/ops/intersection.rs *)
Definition e_intersection (E0 E1 : etree) : etree := {|
  e_t := t_intersection (e_t E0) (e_t E1); e_V := e_V E0 * e_V E1;
  e_data := fun s index li st =>                              (* 49-58 *)
    let* (d0, st) := e_data E0 (fst s) index li st in
    let* (d1, st) := e_data E1 (snd s) index li st in
    if orb (is_noneb d0) (is_noneb d1) then Ok (None, st) else
    let* v0 := unwrap_u d0 in let* v1 := unwrap_u d1 in Ok (Some (v0, v1), st);
  e_data_u := fun s index li st =>                            (* 61-67 *)
    let* (d0, st) := e_data_u E0 (fst s) index li st in
    let* (d1, st) := e_data_u E1 (snd s) index li st in Ok ((d0, d1), st);
  e_cdata := fun s c i st =>                                  (* 151-163 *)
    let* (d0, st) := e_cdata E0 (fst s) (fst c) i st in
    let* (d1, st) := e_cdata E1 (snd s) (snd c) i st in
    if orb (is_noneb d0) (is_noneb d1) then Ok (None, st) else
    let* v0 := unwrap_u d0 in let* v1 := unwrap_u d1 in Ok (Some (v0, v1), st);
  e_cdata_u := fun s c i st =>                                (* 166-172 *)
    let* (d0, st) := e_cdata_u E0 (fst s) (fst c) i st in
    let* (d1, st) := e_cdata_u E1 (snd s) (snd c) i st in Ok ((d0, d1), st);
|}.
(** src/ops/union.rs *)
Definition e_union (E0 E1 : etree) : etree :=
  let data := fun (s : t_T (e_t E0) * t_T (e_t E1)) index li st =>   (* 49-59 *)
    let* (d0, st) := e_data E0 (fst s) index li st in
    let* (d1, st) := e_data E1 (snd s) index li st in
    if andb (is_noneb d0) (is_noneb d1) then Ok (None, st) else Ok (Some (d0, d1), st) in
  let cdata := fun (s : t_T (e_t E0) * t_T (e_t E1)) (c : t_C (e_t E0) * t_C (e_t E1)) i st =>  (* 144-154 *)
    let* (d0, st) := e_cdata E0 (fst s) (fst c) i st in
    let* (d1, st) := e_cdata E1 (snd s) (snd c) i st in
    if andb (is_noneb d0) (is_noneb d1) then Ok (None, st) else Ok (Some (d0, d1), st) in {|
  e_t := t_union (e_t E0) (e_t E1); e_V := option (e_V E0) * option (e_V E1);
  e_data := data;
  e_data_u := fun s index li st =>                            (* 62-66 *)
    let* (d, st) := data s index li st in let* x := unwrap_u d in Ok (x, st);
  e_cdata := cdata;
  e_cdata_u := fun s c i st =>                                (* 157-161 *)
    let* (d, st) := cdata s c i st in let* x := unwrap_u d in Ok (x, st);
|}.

(** ** the callers *)
(** `HibitTree::get` src/hibit_tree.rs:190-196, `get_unchecked` 202-207 *)
Definition e_get (E : etree) (s : t_T (e_t E)) (index : N) (st : St) : res (option (e_V E) * St) :=
  let* index := index_from (t_nw (e_t E)) (t_depth (e_t E)) index in
  e_data E s index (level_indices (t_nw (e_t E)) (t_depth (e_t E)) index) st.
(** `get_unchecked` src/hibit_tree.rs:201-207 *)
Definition e_get_unchecked (E : etree) (s : t_T (e_t E)) (index : N) (st : St) : res (e_V E * St) :=
  e_data_u E s index (level_indices (t_nw (e_t E)) (t_depth (e_t E)) index) st.
(** `Iter::next` src/iter.rs:86-147; the loop 87-140 only selects nodes *)
Definition e_next (fuel : nat) (E : etree) (s : t_T (e_t E)) (it : iter (t_C (e_t E))) (st : St)
  : res (iter (t_C (e_t E)) * option (N * e_V E) * St) :=
  let* (it, o) := iter_loop fuel (e_t E) s it in
  match o with
  | None => Ok (it, None, st)
  | Some level_index =>
    let* (data_block, st) := e_cdata_u E s (it_cursor it) level_index st in              (* 142-144 *)
    let* block_index := data_block_index (t_nw (e_t E)) (t_depth (e_t E)) (it_indices it) level_index in (* 145 *)
    Ok (it, Some (block_index, data_block), st)
  end.
(** `let mut it = tree.iter()` and [m] calls of `next` *)
Fixpoint e_poll (fuel m : nat) (E : etree) (s : t_T (e_t E)) (it : iter (t_C (e_t E))) (st : St)
  : res (list (option (N * e_V E)) * St) :=
  match m with
  | O => Ok ([], st)
  | S m =>
    let* (it, o, st) := e_next fuel E s it st in
    let* (l, st) := e_poll fuel m E s it st in
    Ok (o :: l, st)
  end.
(** `iter` (src/hibit_tree.rs:183-187) and [m] calls of `next` *)
Definition e_iter (fuel m : nat) (E : etree) (s : t_T (e_t E)) (st : St) : res (list (option (N * e_V E)) * St) :=
  let* it := iter_new (e_t E) s in e_poll fuel m E s it st.

(** ** `materialize` (src/dense_tree/from.rs) as in Materialize.v, with the closures' state *)
Section from.
Context (E : etree) (src : t_T (e_t E)).
(** the state of the copying recursion, from.rs:20-25 *)
Record est := Est { x_cur : t_C (e_t E); x_heap : heap; x_data : list (option (e_V E)); x_keys : list N; x_st : St }.
Definition x_with_cur (s : est) (c : t_C (e_t E)) : est := Est c (x_heap s) (x_data s) (x_keys s) (x_st s).
Definition x_with_heap (s : est) (h : heap) : est := Est (x_cur s) h (x_data s) (x_keys s) (x_st s).
(** `push_fn` from.rs:159-164 *)
Definition x_push_fn (s : est) (key : N) (value : e_V E) (st : St) : est * N :=            (* 159-164 *)
  let i := length (x_data s) in
  (Est (x_cur s) (x_heap s) (x_data s ++ [Some value]) (x_keys s ++ [key]) st, (N.of_nat i mod 2 ^ 32)%N).
(** from.rs:28-50 *)
Definition x_terminal (s : est) (mask : mask) (cap : nat) (key_acc : N) : res (est * ptr) :=
  let* w := get_u mask 0 in
  let '(h, raw) := raw_new KIdx (x_heap s) cap w in                          (* 40 *)
  let* s := traverse_m mask (fun s index =>                                  (* 41 *)
    let* (data, st) := e_cdata_u E src (x_cur s) index (x_st s) in           (* 42 *)
    let key := (key_acc + index)%N in                                        (* 43 *)
    let '(s, data_index) := x_push_fn s key data st in                       (* 44 *)
    let* h := raw_push KIdx (x_heap s) raw (SIdx data_index) in              (* 45 *)
    Ok (x_with_heap s h)) (x_with_heap s h) in
  let* (h, p) := raw_finalize KIdx (x_heap s) raw (SIdx 0) in                (* 49 *)
  Ok (x_with_heap s h, p).
(** from.rs:53-94 *)
Fixpoint x_exact (k n : nat) (index key_acc : N) (s : est) : res (est * ptr) :=
  if t_exact (e_t E) then                                                    (* 66 *)
    let* (c, mask) := t_select_u (e_t E) src (x_cur s) n index in            (* 68 *)
    let s := x_with_cur s c in
    let cap := mask_count_ones mask + 1 in                                   (* 69-70 *)
    match k with
    | O => x_terminal s mask cap key_acc                                     (* 72-75 *)
    | S k =>
      let* w := get_u mask 0 in
      let '(h, raw) := raw_new KPtr (x_heap s) cap w in                      (* 77 *)
      let* s := traverse_m mask (fun s index =>                              (* 78 *)
        let key_acc := (key_acc + block_start (t_depth (e_t E)) n index)%N in (* 81 *)
        let* (s, child_node) := x_exact k (S n) index key_acc s in           (* 82-84 *)
        let* h := raw_push KPtr (x_heap s) raw (SPtr child_node) in          (* 87 *)
        Ok (x_with_heap s h)) (x_with_heap s h) in
      let* empty_child := empty_node (S n) (t_depth (e_t E)) in              (* 92 *)
      let* (h, p) := raw_finalize KPtr (x_heap s) raw (SPtr empty_child) in  (* 93 *)
      Ok (x_with_heap s h, p)
    end
  else Panic.
(** from.rs:97-137 *)
Fixpoint x_sparse (k n : nat) (index key_acc : N) (s : est) : res (est * option ptr) :=
  let* (c, mask) := t_select_u (e_t E) src (x_cur s) n index in              (* 110 *)
  let s := x_with_cur s c in
  match k with
  | O =>
    let cap := mask_count_ones mask + 1 in                                   (* 114-115 *)
    let* (s, p) := x_terminal s mask cap key_acc in                          (* 116 *)
    Ok (s, Some p)
  | S k =>
    let* (s, node_mask, childs) := traverse_m mask (fun '(s, node_mask, childs) index =>  (* 119-129 *)
      let key_acc := (key_acc + block_start (t_depth (e_t E)) n index)%N in  (* 123 *)
      let* (s, child_node) := x_sparse k (S n) index key_acc s in            (* 124 *)
      match child_node with
      | Some child_node =>
        let* (node_mask, _) := mask_set_bit true node_mask index in          (* 125 *)
        if decide (length childs < 64) then                                  (* 126 *)
          Ok (s, node_mask, childs ++ [SPtr child_node])
        else UB
      | None => Ok (s, node_mask, childs)
      end) (s, mask_zero 1, []) in
    if decide (childs = []) then Ok (s, None)                                (* 131-132 *)
    else
      let* empty_child := empty_node (S n) (t_depth (e_t E)) in              (* 134 *)
      let* w := get_u node_mask 0 in
      let '(h, p) := from_parts KPtr (x_heap s) w childs (SPtr empty_child) in  (* 135 *)
      Ok (x_with_heap s h, Some p)
  end.
(** from.rs:152-178 *)
Definition e_materialize (st : St) : res (dense (e_V E) * St) :=
  let* c := t_new (e_t E) src in                                             (* 153 *)
  let s := Est c heap_empty [None] [USIZE_MAX] st in                         (* 154-157 *)
  let* (s, root) :=
    if t_exact (e_t E) then x_exact (t_depth (e_t E) - 1) 0 0 0 s            (* 167-170 *)
    else
      let* (s, o) := x_sparse (t_depth (e_t E) - 1) 0 0 0 s in               (* 172-174 *)
      let* p := unwrap_unc o in Ok (s, p) in
  Ok (Dense root (x_heap s) (x_data s) (x_keys s), x_st s).                  (* 177 *)
End from.
End effects.
Arguments etree : clear implicits.
Arguments Est {St E}. Arguments x_cur {St E}. Arguments x_heap {St E}. Arguments x_data {St E}. Arguments x_keys {St E}. Arguments x_st {St E}.
Arguments x_with_cur {St E}. Arguments x_with_heap {St E}. Arguments x_push_fn {St E}.
