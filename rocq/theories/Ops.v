(** * Model of src/ops: map, union, intersection, multi_union, multi_intersection,
      multi_map_fold

    Each operation is a function from [tree] records to [tree] records, mirroring the
    Rust `impl HibitTree for ...` / `impl HibitTreeCursor for ...` blocks.  The type-level
    requirement that all operands have the same LevelCount/LevelMask (e.g.
    src/ops/union.rs:36-39) is a hypothesis of the theorems, not part of the model. *)
From Verif Require Import Base BitUtils BitQueue LevelIndices ConstLoops Hierarchy.

(** monadic map over a list, left to right *)
Fixpoint rmap {A B} (f : A -> res B) (l : list A) : res (list B) :=
  match l with
  | [] => Ok []
  | x :: l => let* y := f x in let* r := rmap f l in Ok (y :: r)
  end.

(** ** Map, src/ops/map.rs.  The user function is a total Coq function: a panicking or
    stateful closure is not modelled. *)
Definition t_map (t : tree) {W : Type} (f : t_V t -> W) : tree := {|
  t_nw := t_nw t;                                             (* 53 *)
  t_depth := t_depth t;                                       (* 52 *)
  t_exact := t_exact t;                                       (* 50 *)
  t_T := t_T t; t_C := t_C t; t_V := W;
  t_data := fun s index li =>                                 (* 56-65 *)
    let* data := t_data t s index li in
    match data with Some data => Ok (Some (f data)) | None => Ok None end;
  t_data_u := fun s index li =>                               (* 68-73 *)
    let* data := t_data_u t s index li in Ok (f data);
  t_new := t_new t;                                           (* 101-106 *)
  t_select := t_select t;                                     (* 109-113 *)
  t_select_u := t_select_u t;                                 (* 116-120 *)
  t_cdata := fun s c i =>                                     (* 123-132 *)
    let* data := t_cdata t s c i in
    match data with Some data => Ok (Some (f data)) | None => Ok None end;
  t_cdata_u := fun s c i =>                                   (* 135-140 *)
    let* data := t_cdata_u t s c i in Ok (f data);
|}.

(** `Option::unwrap_unchecked` *)
Definition unwrap_u {A} (o : option A) : res A := match o with Some a => Ok a | None => UB end.
(** `Option::is_none` *)
Definition is_noneb {A} (o : option A) : bool := match o with Some _ => false | None => true end.

(** ** Union, src/ops/union.rs *)
Section union.
Context (t0 t1 : tree).
(** `data` src/ops/union.rs:48-59 *)
Definition un_data (s : t_T t0 * t_T t1) (index : N) (li : list N)
  : res (option (option (t_V t0) * option (t_V t1))) :=      (* 49-59 *)
  let* d0 := t_data t0 (fst s) index li in
  let* d1 := t_data t1 (snd s) index li in
  if andb (is_noneb d0) (is_noneb d1) then Ok None else Ok (Some (d0, d1)).
(** `select_level_node` src/ops/union.rs:116-141 *)
Definition un_select (s : t_T t0 * t_T t1) (c : t_C t0 * t_C t1) (n : nat) (i : N)
  : res ((t_C t0 * t_C t1) * mask) :=                         (* 116-141 *)
  let* (c0, mask0) := t_select t0 (fst s) (fst c) n i in
  let* (c1, mask1) := t_select t1 (snd s) (snd c) n i in
  Ok ((c0, c1), mask_or mask0 mask1).
(** `Cursor::data` src/ops/union.rs:143-154 *)
Definition un_cdata (s : t_T t0 * t_T t1) (c : t_C t0 * t_C t1) (i : N)
  : res (option (option (t_V t0) * option (t_V t1))) :=      (* 144-154 *)
  let* d0 := t_cdata t0 (fst s) (fst c) i in
  let* d1 := t_cdata t1 (snd s) (snd c) i in
  if andb (is_noneb d0) (is_noneb d1) then Ok None else Ok (Some (d0, d1)).
(** `Union` src/ops/union.rs *)
Definition t_union : tree := {|
  t_nw := t_nw t0;                                            (* 46 *)
  t_depth := t_depth t0;                                      (* 45 *)
  t_exact := andb (t_exact t0) (t_exact t1);                  (* 42-43 *)
  t_T := t_T t0 * t_T t1;                                     (* 10-13 *)
  t_C := t_C t0 * t_C t1;                                     (* 75-83 *)
  t_V := option (t_V t0) * option (t_V t1);                   (* 23-26, 90-93 *)
  t_data := un_data;
  t_data_u := fun s index li =>                               (* 62-66 *)
    let* d := un_data s index li in unwrap_u d;
  t_new := fun s =>                                           (* 107-113 *)
    let* c0 := t_new t0 (fst s) in
    let* c1 := t_new t1 (snd s) in Ok (c0, c1);
  t_select := un_select;                                      (* 116-121 *)
  t_select_u := un_select;                                    (* 124-141 *)
  t_cdata := un_cdata;
  t_cdata_u := fun s c i =>                                   (* 157-161 *)
    let* d := un_cdata s c i in unwrap_u d;
|}.
End union.

(** ** Intersection, src/ops/intersection.rs *)
Section intersection.
Context (t0 t1 : tree).
(** `Intersection` src/ops/intersection.rs *)
Definition t_intersection : tree := {|
  t_nw := t_nw t0;                                            (* 46 *)
  t_depth := t_depth t0;                                      (* 45 *)
  t_exact := false;                                           (* 43 *)
  t_T := t_T t0 * t_T t1;
  t_C := t_C t0 * t_C t1;
  t_V := t_V t0 * t_V t1;
  t_data := fun s index li =>                                 (* 49-58 *)
    let* d0 := t_data t0 (fst s) index li in
    let* d1 := t_data t1 (snd s) index li in
    if orb (is_noneb d0) (is_noneb d1) then Ok None else
    let* v0 := unwrap_u d0 in let* v1 := unwrap_u d1 in Ok (Some (v0, v1));
  t_data_u := fun s index li =>                               (* 61-67 *)
    let* d0 := t_data_u t0 (fst s) index li in
    let* d1 := t_data_u t1 (snd s) index li in Ok (d0, d1);
  t_new := fun s =>                                           (* 102-108 *)
    let* c0 := t_new t0 (fst s) in
    let* c1 := t_new t1 (snd s) in Ok (c0, c1);
  t_select := fun s c n i =>                                  (* 111-129 *)
    let* (c0, mask0) := t_select t0 (fst s) (fst c) n i in
    let* (c1, mask1) := t_select t1 (snd s) (snd c) n i in
    Ok ((c0, c1), mask_and mask0 mask1);
  t_select_u := fun s c n i =>                                (* 132-148 *)
    let* (c0, mask0) := t_select_u t0 (fst s) (fst c) n i in
    let* (c1, mask1) := t_select_u t1 (snd s) (snd c) n i in
    Ok ((c0, c1), mask_and mask0 mask1);
  t_cdata := fun s c i =>                                     (* 151-163 *)
    let* d0 := t_cdata t0 (fst s) (fst c) i in
    let* d1 := t_cdata t1 (snd s) (snd c) i in
    if orb (is_noneb d0) (is_noneb d1) then Ok None else
    let* v0 := unwrap_u d0 in let* v1 := unwrap_u d1 in Ok (Some (v0, v1));
  t_cdata_u := fun s c i =>                                   (* 166-172 *)
    let* d0 := t_cdata_u t0 (fst s) (fst c) i in
    let* d1 := t_cdata_u t1 (snd s) (snd c) i in Ok (d0, d1);
|}.
End intersection.

(** `const N: usize = 32`, src/ops/_multi_intersection.rs:318, _multi_union.rs:119 *)
Definition MULTI_N : nat := 32.

(** `ArrayVec::from_iter(..)` with capacity 32: panics on the 33rd item. *)
Fixpoint arrayvec_collect {A B} (f : A -> res B) (cap : nat) (l : list A) {struct l} : res (list B) :=
  match l with
  | [] => Ok []
  | x :: l =>
    let* y := f x in
    match cap with
    | O => Panic
    | S cap => let* r := arrayvec_collect f cap l in Ok (y :: r)
    end
  end.

(** ** MultiIntersection, src/ops/_multi_intersection.rs.  `iter: Iterator<Item=&T> + Clone`
    is the list of trees it yields (the iterator is cloned and re-iterated; it is assumed to
    yield the same sequence every time). *)
Record mi_cursor (C : Type) := MICursor { (* _multi_intersection.rs:321-329; C: the operands' Cursor *)
  mi_cursors : list C;
  mi_empty_below_n : N;
  mi_terminal : mask;
}.
Arguments MICursor {C}. Arguments mi_cursors {C}. Arguments mi_empty_below_n {C}. Arguments mi_terminal {C}.
Section multi_intersection.
Context (t : tree).
(** `data`, variant 2, _multi_intersection.rs:92-116 *)
Fixpoint mi_data_loop (srcs : list (t_T t)) (index : N) (li : list N) (datas : list (t_V t))
  : res (option (list (t_V t))) :=
  match srcs with
  | [] => Ok (Some datas)
  | array :: srcs =>
    let* data := t_data t array index li in
    match data with
    | Some data =>
      if decide (length datas < MULTI_N) then mi_data_loop srcs index li (datas ++ [data])
      else Panic                                              (* ArrayVec::push *)
    | None => Ok None
    end
  end.
(** the shared body of `select_level_node` _multi_intersection.rs:371-388 and `select_level_node_unchecked`
    408-425: [sel] is the child's (un)checked selection *)
Fixpoint mi_select_rest (sel : t_T t -> t_C t -> res (t_C t * mask))
    (srcs : list (t_T t)) (cs : list (t_C t)) (acc : mask) : res (list (t_C t) * mask) :=
  match cs with
  | [] => Ok ([], acc)
  | c :: cs =>
    match srcs with
    | [] => UB                                                (* next().unwrap_unchecked() *)
    | array :: srcs =>
      let* (c, m) := sel array c in
      let* (cs, acc) := mi_select_rest sel srcs cs (mask_and acc m) in
      Ok (c :: cs, acc)
    end
  end.
(** [None]: there is no cursor, the function returned `BitBlock::zero()` early *)
Definition mi_select_all (sel : t_T t -> t_C t -> res (t_C t * mask))
    (srcs : list (t_T t)) (cs : list (t_C t)) : res (option (list (t_C t) * mask)) :=
  match cs with
  | [] => Ok None
  | c :: cs =>
    match srcs with
    | [] => UB
    | array :: srcs =>
      let* (c, m) := sel array c in
      let* (cs, acc) := mi_select_rest sel srcs cs m in
      Ok (Some (c :: cs, acc))
    end
  end.
(** `select_level_node` _multi_intersection.rs:363-401.  In `if N > self.empty_below_n` and in
    `self.empty_below_n = .. N ..` the name N is the constant 32 of line 318 (the generic
    parameter N is a type, not a value); `N::VALUE` is the level. *)
Definition mi_select (s : list (t_T t)) (c : mi_cursor (t_C t)) (n : nat) (i : N) : res (mi_cursor (t_C t) * mask) :=
  if (mi_empty_below_n c <? N.of_nat MULTI_N)%N then Ok (c, mask_zero (t_nw t)) else
  let* o := mi_select_all (fun a c => t_select t a c n i) s (mi_cursors c) in
  match o with
  | None => Ok (c, mask_zero (t_nw t))
  | Some (cs, acc_mask) =>
    let ebn := if mask_is_zero acc_mask then N.of_nat MULTI_N else USIZE_MAX in   (* 390-394 *)
    let term := if decide (n = t_depth t - 1) then acc_mask else mi_terminal c in (* 396-398 *)
    Ok (MICursor cs ebn term, acc_mask)
  end.
(** `select_level_node_unchecked` _multi_intersection.rs:404-428 *)
Definition mi_select_u (s : list (t_T t)) (c : mi_cursor (t_C t)) (n : nat) (i : N) : res (mi_cursor (t_C t) * mask) :=
  let* o := mi_select_all (fun a c => t_select_u t a c n i) s (mi_cursors c) in
  match o with
  | None => Ok (c, mask_zero (t_nw t))
  | Some (cs, acc_mask) => Ok (MICursor cs (mi_empty_below_n c) (mi_terminal c), acc_mask)
  end.
(** `CursorData` drained, _multi_intersection.rs:473-514 *)
Fixpoint mi_cursor_data (srcs : list (t_T t)) (cs : list (t_C t)) (i : N) : res (list (t_V t)) :=
  match cs with
  | [] => Ok []
  | c :: cs =>
    match srcs with
    | [] => UB
    | array :: srcs =>
      let* d := t_cdata_u t array c i in
      let* ds := mi_cursor_data srcs cs i in Ok (d :: ds)
    end
  end.
(** `MultiIntersection` _multi_intersection.rs:24-160, 332-452 *)
Definition t_multi_intersection : tree := {|
  t_nw := t_nw t;                                             (* 40 *)
  t_depth := t_depth t;                                       (* 39 *)
  t_exact := false;                                           (* 37 *)
  t_T := list (t_T t);
  t_C := mi_cursor (t_C t);
  t_V := list (t_V t);
  t_data := fun s index li => mi_data_loop s index li [];     (* 43-116 *)
  t_data_u := fun s index li =>                               (* 142-152, DataUnchecked 278-304 drained *)
    rmap (fun array => t_data_u t array index li) s;
  t_new := fun s =>                                           (* 346-360 *)
    let* cursors := arrayvec_collect (t_new t) MULTI_N s in
    Ok (MICursor cursors USIZE_MAX (mask_zero (t_nw t)));
  t_select := mi_select;
  t_select_u := mi_select_u;
  t_cdata := fun s c i =>                                     (* 431-439 *)
    let* b := mask_get_bit (mi_terminal c) i in
    if b then let* d := mi_cursor_data s (mi_cursors c) i in Ok (Some d) else Ok None;
  t_cdata_u := fun s c i => mi_cursor_data s (mi_cursors c) i; (* 442-450 *)
|}.
End multi_intersection.

(** ** MultiUnion, src/ops/_multi_union.rs *)
Record mu_cursor (T C : Type) := MUCursor { (* _multi_union.rs:123-138; T, C: the operands and their Cursor *)
  mu_cursors : list (T * C);
  mu_lvls : list (list N);
}.
Arguments MUCursor {T C}. Arguments mu_cursors {T C}. Arguments mu_lvls {T C}.
Section multi_union.
Context (t : tree).
(** `data` _multi_union.rs:37-54 *)
Fixpoint mu_data_loop (srcs : list (t_T t)) (index : N) (li : list N) (datas : list (t_V t))
  : res (list (t_V t)) :=
  match srcs with
  | [] => Ok datas
  | array :: srcs =>
    let* data := t_data t array index li in
    match data with
    | Some data =>
      if decide (length datas < MULTI_N) then mu_data_loop srcs index li (datas ++ [data]) else Panic
    | None => mu_data_loop srcs index li datas
    end
  end.
(** `DataUnchecked` drained, _multi_union.rs:88-111 *)
Fixpoint mu_data_u_loop (srcs : list (t_T t)) (index : N) (li : list N) : res (list (t_V t)) :=
  match srcs with
  | [] => Ok []
  | array :: srcs =>
    let* data := t_data t array index li in
    let* ds := mu_data_u_loop srcs index li in
    Ok (match data with Some d => d :: ds | None => ds end)
  end.
(** level 0, _multi_union.rs:185-191 *)
Fixpoint mu_select_root (n : nat) (i : N) (cs : list (t_T t * t_C t)) (acc : mask)
  : res (list (t_T t * t_C t) * mask) :=
  match cs with
  | [] => Ok ([], acc)
  | (array, c) :: cs =>
    let* (c, m) := t_select t array c n i in
    let* (cs, acc) := mu_select_root n i cs (mask_or acc m) in
    Ok ((array, c) :: cs, acc)
  end.
(** `foreach` over the given cursor indices, _multi_union.rs:202-219; [acc] = (cursors, pushed indices, acc_mask) *)
Fixpoint mu_foreach (n : nat) (i : N) (idx : list N) (cs : list (t_T t * t_C t))
    (pushed : list N) (acc : mask) : res (list (t_T t * t_C t) * list N * mask) :=
  match idx with
  | [] => Ok (cs, pushed, acc)
  | j :: idx =>
    let* (array, c) := get_u cs (N.to_nat j) in
    let* (c, m) := t_select t array c n i in
    let* cs := set_u cs (N.to_nat j) (array, c) in
    mu_foreach n i idx cs (if mask_is_zero m then pushed else pushed ++ [j]) (mask_or acc m)
  end.
(** `select_level_node` _multi_union.rs:172-177 = `select_level_node_unchecked` 180-222 *)
Definition mu_select (s : list (t_T t)) (c : mu_cursor (t_T t) (t_C t)) (n : nat) (i : N) : res (mu_cursor (t_T t) (t_C t) * mask) :=
  if decide (n = 0) then
    let* (cs, acc) := mu_select_root n i (mu_cursors c) (mask_zero (t_nw t)) in
    Ok (MUCursor cs (mu_lvls c), acc)
  else
    let* lvls := set_u (mu_lvls c) (n - 1) [] in              (* 196-198 clear() *)
    let* idx := if decide (n = 1) then Ok (seqN 0 (length (mu_cursors c)))
                else get_u lvls (n - 2) in                    (* 211-218 *)
    let* (cs, pushed, acc) := mu_foreach n i idx (mu_cursors c) [] (mask_zero (t_nw t)) in
    let* lvls := set_u lvls (n - 1) pushed in
    Ok (MUCursor cs lvls, acc).
(** `CursorData` drained, _multi_union.rs:262-297 *)
Fixpoint mu_cursor_data (idx : list N) (cs : list (t_T t * t_C t)) (i : N) : res (list (t_V t)) :=
  match idx with
  | [] => Ok []
  | j :: idx =>
    let* (array, c) := get_u cs (N.to_nat j) in
    let* d := t_cdata t array c i in
    let* ds := mu_cursor_data idx cs i in
    Ok (match d with Some d => d :: ds | None => ds end)
  end.
(** `Cursor::data` _multi_union.rs:225-243 *)
Definition mu_cdata (s : list (t_T t)) (c : mu_cursor (t_T t) (t_C t)) (i : N) : res (option (list (t_V t))) :=
  if decide (t_depth t = 1) then Panic else                   (* todo!() *)
  let* lvl := get_u (mu_lvls c) (length (mu_lvls c) - 1) in   (* last().unwrap_unchecked() *)
  match lvl with
  | [] => Ok None
  | _ => let* d := mu_cursor_data lvl (mu_cursors c) i in Ok (Some d)
  end.
(** `MultiUnion` _multi_union.rs:20-68, 140-250 *)
Definition t_multi_union : tree := {|
  t_nw := t_nw t;                                             (* 34 *)
  t_depth := t_depth t;                                       (* 33 *)
  t_exact := t_exact t;                                       (* 31 *)
  t_T := list (t_T t);
  t_C := mu_cursor (t_T t) (t_C t);
  t_V := list (t_V t);
  t_data := fun s index li =>                                 (* 37-54 *)
    let* datas := mu_data_loop s index li [] in
    match datas with [] => Ok None | _ => Ok (Some datas) end;
  t_data_u := mu_data_u_loop;                                 (* 57-65 *)
  t_new := fun s =>                                           (* 155-169 *)
    let* states := arrayvec_collect (fun a => let* c := t_new t a in Ok (a, c)) MULTI_N s in
    Ok (MUCursor states (replicate (t_depth t - 1) []));
  t_select := mu_select;
  t_select_u := mu_select;
  t_cdata := mu_cdata;
  t_cdata_u := fun s c i => let* d := mu_cdata s c i in unwrap_u d; (* 246-250 *)
|}.
End multi_union.

(** ** MultiMapFold, src/ops/multi_map_fold.rs.  [items] are the items the data iterator of
    the underlying `MultiHibitTree` yields; [init]/[f] are total functions.  All methods have
    the shape of [t_map] with the drained fold: multi_map_fold.rs:42-63, 92-135. *)
Definition t_multi_map_fold (t : tree) {X A : Type} (items : t_V t -> list X) (init : A)
    (f : A -> X -> A) : tree := {|
  t_nw := t_nw t;                                             (* 39 *)
  t_depth := t_depth t;                                       (* 38 *)
  t_exact := t_exact t;                                       (* 37 *)
  t_T := t_T t; t_C := t_C t; t_V := A;
  t_data := fun s index li =>                                 (* 42-52 *)
    let* data_iter := t_data t s index li in
    match data_iter with Some d => Ok (Some (fold_left f (items d) init)) | None => Ok None end;
  t_data_u := fun s index li =>                               (* 55-62 *)
    let* d := t_data_u t s index li in Ok (fold_left f (items d) init);
  t_new := t_new t;                                           (* 92-97 *)
  t_select := t_select t;                                     (* 100-104 *)
  t_select_u := t_select_u t;                                 (* 107-111 *)
  t_cdata := fun s c i =>                                     (* 114-124 *)
    let* data_iter := t_cdata t s c i in
    match data_iter with Some d => Ok (Some (fold_left f (items d) init)) | None => Ok None end;
  t_cdata_u := fun s c i =>                                   (* 127-134 *)
    let* d := t_cdata_u t s c i in Ok (fold_left f (items d) init);
|}.
