(** * `materialize` over an expression whose functions have side effects and may panic

    src/dense_tree/from.rs as in Materialize.v, on the expressions of PEffects.v: every element is
    computed by [p_cdata_u], which runs user functions in a state and may unwind; the unwinding is
    followed out of the recursion to the local vectors `data` and `keys`.  As in
    MaterializeUnwind.v the partly built nodes are only pointers at that moment: nobody frees them
    (C19 speaks about trees that were built).  A panic of the library itself stays [Panic]. *)
From Verif Require Import Base BitUtils BitQueue LevelIndices ConstLoops Hierarchy Ops Dense Materialize PanicSafety PEffects.

(** the state of the copying recursion (from.rs:20-25) and of the user functions: cursors of type [C], elements of type [V] *)
Record pst (C V St : Type) := Yst { y_cur : C; y_heap : heap; y_data : list (option V); y_keys : list N; y_st : St }.
Arguments Yst {C V St}. Arguments y_cur {C V St}. Arguments y_heap {C V St}. Arguments y_data {C V St}. Arguments y_keys {C V St}. Arguments y_st {C V St}.

Section from.
Context {St : Type} (E : ptree St) (src : p_S E).
Notation yst := (pst (t_C (p_t E)) (p_V E) St).
Definition y_with_cur (s : yst) (c : t_C (p_t E)) : yst := Yst c (y_heap s) (y_data s) (y_keys s) (y_st s).
Definition y_with_heap (s : yst) (h : heap) : yst := Yst (y_cur s) h (y_data s) (y_keys s) (y_st s).
Definition y_with_st (s : yst) (st : St) : yst := Yst (y_cur s) (y_heap s) (y_data s) (y_keys s) st.
(** [Ok (inl a)]: returned; [Ok (inr s)]: a user function panicked, the frames unwind, the captured
    vectors are as in [s] *)
Definition ybind {A B} (m : res (A + yst)) (f : A -> res (B + yst)) : res (B + yst) :=
  let* r := m in match r with inl a => f a | inr s => Ok (inr s) end.
(** library code without user calls *)
Definition ylift {A} (r : res A) : res (A + yst) := let* a := r in Ok (inl a).
Notation "'let!' x := m 'in' k" := (ybind m (fun x => k))
  (at level 200, x pattern, m at level 200, k at level 200, right associativity).
(** `mask.traverse_bits(|index| ..)` (src/bit_block.rs:63-74); an unwinding callback ends it *)
Definition traverse_y {T} (m : mask) (f : T -> N -> res (T + yst)) (s : T) : res (T + yst) :=
  let* (r, _) := mask_traverse_bits m (fun r i =>
    let r' := ybind r (fun s => f s i) in
    (r', match r' with Ok (inl _) => false | _ => true end)) (Ok (inl s)) in
  r.

(** `push_fn` from.rs:159-164 *)
Definition y_push_fn (s : yst) (key : N) (value : p_V E) : yst * N :=
  let i := length (y_data s) in
  (Yst (y_cur s) (y_heap s) (y_data s ++ [Some value]) (y_keys s ++ [key]) (y_st s), (N.of_nat i mod 2 ^ 32)%N).
(** the element, computed by user code *)
Definition y_data_unchecked (s : yst) (index : N) : res ((p_V E * yst) + yst) :=
  let* (o, st) := p_cdata_u E src (y_cur s) index (y_st s) in
  match o with Some v => Ok (inl (v, y_with_st s st)) | None => Ok (inr (y_with_st s st)) end.
(** `make_terminal_node` from.rs:28-50 *)
Definition y_terminal (s : yst) (mask : mask) (cap : nat) (key_acc : N) : res ((yst * ptr) + yst) :=
  let! w := ylift (get_u mask 0) in
  let '(h, raw) := raw_new KIdx (y_heap s) cap w in                          (* 40 *)
  let! s := traverse_y mask (fun s index =>                                  (* 41 *)
    let! (data, s) := y_data_unchecked s index in                            (* 42 *)
    let key := (key_acc + index)%N in                                        (* 43 *)
    let '(s, data_index) := y_push_fn s key data in                          (* 44 *)
    let! h := ylift (raw_push KIdx (y_heap s) raw (SIdx data_index)) in      (* 45 *)
    Ok (inl (y_with_heap s h))) (y_with_heap s h) in
  let! (h, p) := ylift (raw_finalize KIdx (y_heap s) raw (SIdx 0)) in        (* 49 *)
  Ok (inl (y_with_heap s h, p)).
(** `from_exact_sparse_hierarchy` from.rs:53-94 *)
Fixpoint y_exact (k n : nat) (index key_acc : N) (s : yst) : res ((yst * ptr) + yst) :=
  if t_exact (p_t E) then                                                    (* 66 *)
    let! (c, mask) := ylift (t_select_u (p_t E) (p_src E src) (y_cur s) n index) in  (* 68 *)
    let s := y_with_cur s c in
    let cap := mask_count_ones mask + 1 in                                   (* 69-70 *)
    match k with
    | O => y_terminal s mask cap key_acc                                     (* 72-75 *)
    | S k =>
      let! w := ylift (get_u mask 0) in
      let '(h, raw) := raw_new KPtr (y_heap s) cap w in                      (* 77 *)
      let! s := traverse_y mask (fun s index =>                              (* 78 *)
        let key_acc := (key_acc + block_start (t_depth (p_t E)) n index)%N in (* 81 *)
        let! (s, child_node) := y_exact k (S n) index key_acc s in           (* 82-84 *)
        let! h := ylift (raw_push KPtr (y_heap s) raw (SPtr child_node)) in  (* 87 *)
        Ok (inl (y_with_heap s h))) (y_with_heap s h) in
      let! empty_child := ylift (empty_node (S n) (t_depth (p_t E))) in      (* 92 *)
      let! (h, p) := ylift (raw_finalize KPtr (y_heap s) raw (SPtr empty_child)) in  (* 93 *)
      Ok (inl (y_with_heap s h, p))
    end
  else Panic.
(** `from_sparse_hierarchy` from.rs:97-137 *)
Fixpoint y_sparse (k n : nat) (index key_acc : N) (s : yst) : res ((yst * option ptr) + yst) :=
  let! (c, mask) := ylift (t_select_u (p_t E) (p_src E src) (y_cur s) n index) in  (* 110 *)
  let s := y_with_cur s c in
  match k with
  | O =>
    let cap := mask_count_ones mask + 1 in                                   (* 114-115 *)
    let! (s, p) := y_terminal s mask cap key_acc in                          (* 116 *)
    Ok (inl (s, Some p))
  | S k =>
    let! (s, node_mask, childs) := traverse_y mask (fun '(s, node_mask, childs) index =>  (* 119-129 *)
      let key_acc := (key_acc + block_start (t_depth (p_t E)) n index)%N in  (* 123 *)
      let! (s, child_node) := y_sparse k (S n) index key_acc s in            (* 124 *)
      match child_node with
      | Some child_node =>
        let! (node_mask, _) := ylift (mask_set_bit true node_mask index) in  (* 125 *)
        if decide (length childs < 64) then                                  (* 126 *)
          Ok (inl (s, node_mask, childs ++ [SPtr child_node]))
        else UB
      | None => Ok (inl (s, node_mask, childs))
      end) (s, mask_zero 1, []) in
    if decide (childs = []) then Ok (inl (s, None))                          (* 131-132 *)
    else
      let! empty_child := ylift (empty_node (S n) (t_depth (p_t E))) in      (* 134 *)
      let! w := ylift (get_u node_mask 0) in
      let '(h, p) := from_parts KPtr (y_heap s) w childs (SPtr empty_child) in  (* 135 *)
      Ok (inl (y_with_heap s h, Some p))
  end.
(** `FromHibitTree::from_sparse_hierarchy` from.rs:152-178: [Ok (Some d, st)] the copy; [Ok (None, st)]
    a user function panicked and the panic reached the caller.  On unwinding `data` is dropped with
    what it holds (155: slot 0 is uninitialised); [needs_drop]: the element type has a destructor,
    which here never panics itself *)
Definition p_materialize (needs_drop : bool) (st : St) : res (option (dense (p_V E)) * St) :=
  let* c := t_new (p_t E) (p_src E src) in                                   (* 153 *)
  let s := Yst c heap_empty [None] [USIZE_MAX] st in                         (* 154-157 *)
  let* r :=
    let! (s, root) :=
      if t_exact (p_t E) then y_exact (t_depth (p_t E) - 1) 0 0 0 s          (* 167-170 *)
      else
        let! (s, o) := y_sparse (t_depth (p_t E) - 1) 0 0 0 s in             (* 172-174 *)
        let! p := ylift (unwrap_unc o) in Ok (inl (s, p)) in
    Ok (inl (Dense root (y_heap s) (y_data s) (y_keys s), y_st s)) in        (* 177 *)
  match r with
  | inl (d, st) => Ok (Some d, st)
  | inr s =>
    if needs_drop then
      match drop_slice (fun _ => false) true (y_data s) with Unwinding _ => Ok (None, y_st s) | _ => UB end
    else Ok (None, y_st s)
  end.
End from.

Arguments y_with_cur {St E}. Arguments y_with_heap {St E}. Arguments y_with_st {St E}. Arguments y_push_fn {St E}.
Arguments ybind {St E A B}. Arguments ylift {St E A}. Arguments traverse_y {St E T}.
