(** * Closures that have side effects and may panic, anywhere in an expression

    As Effects.v, and more: a user function may also panic, it may sit in any operand (also in the
    operands of `multi_intersection` and `multi_union`), every tree value carries its own function
    (`Map { s, f }`, src/ops/map.rs:7-10; `MultiMapFold { s, init, f }`, multi_map_fold.rs:6-10), and
    the data iterators of the multi operations are evaluated lazily exactly where the code does so.

    Selecting nodes never calls user code, so an expression is described by the closure-free
    expression [p_t] it is built on and by its four data methods. *)
From Verif Require Import Base BitUtils BitQueue LevelIndices ConstLoops Hierarchy Ops.

Section peffects.
Context {St : Type}.

(** running code that may call user functions, from a state: [Ok (Some x, st)] it returned [x];
    [Ok (None, st)] a user function panicked and the panic unwinds to the caller *)
Definition M (X : Type) : Type := St -> res (option X * St).
(** return without a user call *)
Definition pret {X} (x : X) : M X := fun st => Ok (Some x, st).
(** sequencing: a panic ends the run *)
Definition pbind {X Y} (m : M X) (k : X -> M Y) : M Y := fun st =>
  let* (o, st) := m st in match o with Some x => k x st | None => Ok (None, st) end.
(** library code without user calls *)
Definition plift {X} (r : res X) : M X := fun st => let* x := r in Ok (Some x, st).
(** a user function (`UnaryFunction::exec(&self, arg)` etc., src/utils/function.rs); [None]: panics *)
Definition ufn (A B : Type) : Type := A -> St -> option B * St.
(** a call of a user function; [None]: it panicked *)
Definition ucall {A B} (f : ufn A B) (a : A) : M B := fun st => Ok (f a st).

(** The code that receives the data iterator of a multi operation and calls `next` on it: it
    starts ([c_init]), takes one item after the other and may stop early with a result
    ([c_step] answers [inr]), and is told when the iterator is exhausted ([c_end]).  Every closure
    `|iter| ..` given to `map` over a multi operation that calls `next` finitely often has this
    form, [A] being what it remembers; so has `multi_map_fold` (see [folder]). *)
Record consumer (X A W : Type) := Consumer {
  c_init : ufn unit A;
  c_step : A -> ufn X (A + W);
  c_end : ufn A W;
}.
Arguments Consumer {X A W}. Arguments c_init {X A W}. Arguments c_step {X A W}. Arguments c_end {X A W}.
(** src/ops/multi_map_fold.rs:46-47, 58-59, 118-119, 130-132: `data_iter.fold(init.exec(), |init, data| f.exec(init, data))` *)
Definition folder {X A : Type} (init : ufn unit A) (f : A -> ufn X A) : consumer X A A := {|
  c_init := init;
  c_step := fun a x st => let '(o, st) := f a x st in (match o with Some a => Some (inl a) | None => None end, st);
  c_end := fun a st => (Some a, st);
|}.

(** consuming `arrayvec::IntoIter` (the items are already computed), _multi_intersection.rs:120, _multi_union.rs:67 *)
Fixpoint take_items {X A W} (c : consumer X A W) (l : list X) (a : A) : M W :=
  match l with
  | [] => ucall (c_end c) a
  | x :: l => pbind (ucall (c_step c a) x) (fun r => match r with inl a => take_items c l a | inr w => pret w end)
  end.
(** the items one after the other, multi_map_fold.rs:42-62 *)
Definition consume_items {X A W} (c : consumer X A W) (l : list X) : M W := pbind (ucall (c_init c) tt) (take_items c l).
(** consuming a lazy iterator: each entry computes one item when `next` (or `fold`) comes to it;
    [None] items are skipped (`find_map`, _multi_union.rs:88-94, 262-272) *)
Fixpoint take_lazy {X A W} (c : consumer X A W) (l : list (M (option X))) (a : A) : M W :=
  match l with
  | [] => ucall (c_end c) a
  | m :: l => pbind m (fun o => match o with
    | None => take_lazy c l a
    | Some x => pbind (ucall (c_step c a) x) (fun r => match r with inl a => take_lazy c l a | inr w => pret w end)
    end)
  end.
(** the same when the items are computed on demand, _multi_union.rs:88-94, 262-272 *)
Definition consume_lazy {X A W} (c : consumer X A W) (l : list (M (option X))) : M W := pbind (ucall (c_init c) tt) (take_lazy c l).

(** the tree and cursor methods (src/hibit_tree.rs:124-321) when user functions keep a state and may panic *)
Record ptree := PTree {
  p_t : tree;
  p_S : Type;                                                (* the tree value, with its functions *)
  p_src : p_S -> t_T p_t;                                    (* without them *)
  p_V : Type;                                                (* Data, DataUnchecked, Cursor::Data *)
  p_data : p_S -> N -> list N -> M (option p_V);
  p_data_u : p_S -> N -> list N -> M p_V;
  p_cdata : p_S -> t_C p_t -> N -> M (option p_V);
  p_cdata_u : p_S -> t_C p_t -> N -> M p_V;
}.

(** a container, or an expression without such closures *)
Definition p_pure (t : tree) : ptree := {|
  p_t := t; p_S := t_T t; p_src := fun s => s; p_V := t_V t;
  p_data := fun s index li => plift (t_data t s index li);
  p_data_u := fun s index li => plift (t_data_u t s index li);
  p_cdata := fun s c i => plift (t_cdata t s c i);
  p_cdata_u := fun s c i => plift (t_cdata_u t s c i);
|}.
(** `if let Some(data) = d { Some(f(data)) } else { None }` *)
Definition psome {X W} (f : X -> M W) (o : option X) : M (option W) :=
  match o with Some x => pbind (f x) (fun w => pret (Some w)) | None => pret None end.
(** src/ops/map.rs; the tree value is `Map { s, f }` *)
Definition p_map (E : ptree) (W : Type) : ptree := {|
  p_t := p_t E; p_S := p_S E * ufn (p_V E) W; p_src := fun s => p_src E (fst s); p_V := W;
  p_data := fun s index li => pbind (p_data E (fst s) index li) (psome (ucall (snd s)));     (* 56-65 *)
  p_data_u := fun s index li => pbind (p_data_u E (fst s) index li) (ucall (snd s));         (* 68-73 *)
  p_cdata := fun s c i => pbind (p_cdata E (fst s) c i) (psome (ucall (snd s)));             (* 123-132 *)
  p_cdata_u := fun s c i => pbind (p_cdata_u E (fst s) c i) (ucall (snd s));                 (* 135-140 *)
|}.
(** src/ops/intersection.rs *)
Definition p_intersection (E0 E1 : ptree) : ptree := {|
  p_t := t_intersection (p_t E0) (p_t E1); p_S := p_S E0 * p_S E1;
  p_src := fun s => (p_src E0 (fst s), p_src E1 (snd s)); p_V := p_V E0 * p_V E1;
  p_data := fun s index li =>                                 (* 49-58 *)
    pbind (p_data E0 (fst s) index li) (fun d0 => pbind (p_data E1 (snd s) index li) (fun d1 =>
    if orb (is_noneb d0) (is_noneb d1) then pret None else
    plift (let* v0 := unwrap_u d0 in let* v1 := unwrap_u d1 in Ok (Some (v0, v1)))));
  p_data_u := fun s index li =>                               (* 61-67 *)
    pbind (p_data_u E0 (fst s) index li) (fun d0 => pbind (p_data_u E1 (snd s) index li) (fun d1 => pret (d0, d1)));
  p_cdata := fun s c i =>                                     (* 151-163 *)
    pbind (p_cdata E0 (fst s) (fst c) i) (fun d0 => pbind (p_cdata E1 (snd s) (snd c) i) (fun d1 =>
    if orb (is_noneb d0) (is_noneb d1) then pret None else
    plift (let* v0 := unwrap_u d0 in let* v1 := unwrap_u d1 in Ok (Some (v0, v1)))));
  p_cdata_u := fun s c i =>                                   (* 166-172 *)
    pbind (p_cdata_u E0 (fst s) (fst c) i) (fun d0 => pbind (p_cdata_u E1 (snd s) (snd c) i) (fun d1 => pret (d0, d1)));
|}.
(** src/ops/union.rs *)
Definition p_union (E0 E1 : ptree) : ptree :=
  let data := fun (s : p_S E0 * p_S E1) index li =>           (* 49-59 *)
    pbind (p_data E0 (fst s) index li) (fun d0 => pbind (p_data E1 (snd s) index li) (fun d1 =>
    if andb (is_noneb d0) (is_noneb d1) then pret None else pret (Some (d0, d1)))) in
  let cdata := fun (s : p_S E0 * p_S E1) (c : t_C (p_t E0) * t_C (p_t E1)) i =>   (* 144-154 *)
    pbind (p_cdata E0 (fst s) (fst c) i) (fun d0 => pbind (p_cdata E1 (snd s) (snd c) i) (fun d1 =>
    if andb (is_noneb d0) (is_noneb d1) then pret None else pret (Some (d0, d1)))) in {|
  p_t := t_union (p_t E0) (p_t E1); p_S := p_S E0 * p_S E1;
  p_src := fun s => (p_src E0 (fst s), p_src E1 (snd s)); p_V := option (p_V E0) * option (p_V E1);
  p_data := data;
  p_data_u := fun s index li => pbind (data s index li) (fun d => plift (unwrap_u d));   (* 62-66 *)
  p_cdata := cdata;
  p_cdata_u := fun s c i => pbind (cdata s c i) (fun d => plift (unwrap_u d));           (* 157-161 *)
|}.

(** ** src/ops/_multi_intersection.rs, its data iterator handed to a consumer: `multi_map_fold`
    or `map` over it (there `self.s.data(..)` comes first and the consumer runs on the result:
    multi_map_fold.rs:42-62, 114-134, where 130 calls `init` before `data_unchecked`, which only
    builds the lazy iterator) *)
Section multi_intersection.
Context (E : ptree).
(** `data` _multi_intersection.rs:92-116; nothing is consumed before all operands have answered *)
Fixpoint p_mi_data_loop (srcs : list (p_S E)) (index : N) (li : list N) (datas : list (p_V E)) : M (option (list (p_V E))) :=
  match srcs with
  | [] => pret (Some datas)
  | array :: srcs => pbind (p_data E array index li) (fun data =>
    match data with
    | Some data => if decide (length datas < MULTI_N) then p_mi_data_loop srcs index li (datas ++ [data]) else plift Panic
    | None => pret None
    end)
  end.
(** `DataUnchecked` _multi_intersection.rs:278-304 *)
Definition p_mi_items_u (srcs : list (p_S E)) (index : N) (li : list N) : list (M (option (p_V E))) :=
  (fun array => pbind (p_data_u E array index li) (fun d => pret (Some d))) <$> srcs.
(** `CursorData` _multi_intersection.rs:473-514 *)
Fixpoint p_mi_items_c (srcs : list (p_S E)) (cs : list (t_C (p_t E))) (i : N) : list (M (option (p_V E))) :=
  match cs with
  | [] => []
  | c :: cs =>
    match srcs with
    | [] => [plift UB]                                        (* next().unwrap_unchecked() *)
    | array :: srcs => pbind (p_cdata_u E array c i) (fun d => pret (Some d)) :: p_mi_items_c srcs cs i
    end
  end.
(** `MultiIntersection` _multi_intersection.rs:24-160, 332-452 *)
Definition p_multi_intersection (A W : Type) : ptree := {|
  p_t := t_multi_intersection (p_t E);
  p_S := list (p_S E) * consumer (p_V E) A W;
  p_src := fun s => p_src E <$> fst s; p_V := W;
  p_data := fun s index li =>                                 (* 43-116 *)
    pbind (p_mi_data_loop (fst s) index li []) (psome (consume_items (snd s)));
  p_data_u := fun s index li =>                               (* 142-152 *)
    consume_lazy (snd s) (p_mi_items_u (fst s) index li);
  p_cdata := fun s c i =>                                     (* 431-439 *)
    pbind (plift (mask_get_bit (mi_terminal c) i)) (fun b =>
    if b then pbind (consume_lazy (snd s) (p_mi_items_c (fst s) (mi_cursors c) i)) (fun w => pret (Some w)) else pret None);
  p_cdata_u := fun s c i => consume_lazy (snd s) (p_mi_items_c (fst s) (mi_cursors c) i);  (* 442-450 *)
|}.
End multi_intersection.

(** ** src/ops/_multi_union.rs, likewise *)
Section multi_union.
Context (E : ptree).
(** `data` _multi_union.rs:37-54 *)
Fixpoint p_mu_data_loop (srcs : list (p_S E)) (index : N) (li : list N) (datas : list (p_V E)) : M (list (p_V E)) :=
  match srcs with
  | [] => pret datas
  | array :: srcs => pbind (p_data E array index li) (fun data =>
    match data with
    | Some data => if decide (length datas < MULTI_N) then p_mu_data_loop srcs index li (datas ++ [data]) else plift Panic
    | None => p_mu_data_loop srcs index li datas
    end)
  end.
(** `DataUnchecked` _multi_union.rs:88-111 *)
Definition p_mu_items_u (srcs : list (p_S E)) (index : N) (li : list N) : list (M (option (p_V E))) :=
  (fun array => p_data E array index li) <$> srcs.
(** `CursorData` _multi_union.rs:262-297; the tree reference in `cursors[j].0` is the [j]-th operand *)
Definition p_mu_items_c (srcs : list (p_S E)) (idx : list N) (cs : list (t_T (p_t E) * t_C (p_t E))) (i : N) : list (M (option (p_V E))) :=
  (fun j => pbind (plift (get_u cs (N.to_nat j))) (fun '(_, c) =>
            pbind (plift (get_u srcs (N.to_nat j))) (fun array => p_cdata E array c i))) <$> idx.
(** `Cursor::data` _multi_union.rs:225-243 *)
Definition p_mu_cdata {A W} (s : list (p_S E) * consumer (p_V E) A W) (c : mu_cursor (t_T (p_t E)) (t_C (p_t E))) (i : N) : M (option W) :=
  if decide (t_depth (p_t E) = 1) then plift Panic else       (* todo!() *)
  pbind (plift (get_u (mu_lvls c) (length (mu_lvls c) - 1))) (fun lvl =>
  match lvl with
  | [] => pret None
  | _ => pbind (consume_lazy (snd s) (p_mu_items_c (fst s) lvl (mu_cursors c) i)) (fun w => pret (Some w))
  end).
(** `MultiUnion` _multi_union.rs:20-68, 140-250 *)
Definition p_multi_union (A W : Type) : ptree := {|
  p_t := t_multi_union (p_t E);
  p_S := list (p_S E) * consumer (p_V E) A W;
  p_src := fun s => p_src E <$> fst s; p_V := W;
  p_data := fun s index li =>                                 (* 37-54 *)
    pbind (p_mu_data_loop (fst s) index li []) (fun datas => match datas with [] => pret None | _ => psome (consume_items (snd s)) (Some datas) end);
  p_data_u := fun s index li => consume_lazy (snd s) (p_mu_items_u (fst s) index li);   (* 57-65 *)
  p_cdata := p_mu_cdata;
  p_cdata_u := fun s c i => pbind (p_mu_cdata s c i) (fun d => plift (unwrap_u d));      (* 246-250 *)
|}.
End multi_union.

(** ** the callers *)
(** `HibitTree::get` src/hibit_tree.rs:190-196, `get_unchecked` 202-207 *)
Definition p_get (E : ptree) (s : p_S E) (index : N) : M (option (p_V E)) :=
  pbind (plift (index_from (t_nw (p_t E)) (t_depth (p_t E)) index)) (fun index =>
  p_data E s index (level_indices (t_nw (p_t E)) (t_depth (p_t E)) index)).
(** `get_unchecked` src/hibit_tree.rs:201-207 *)
Definition p_get_unchecked (E : ptree) (s : p_S E) (index : N) : M (p_V E) :=
  p_data_u E s index (level_indices (t_nw (p_t E)) (t_depth (p_t E)) index).
(** `Iter::next` src/iter.rs:86-147; the loop 87-140 only selects nodes, and has stored the new
    position in the iterator when the element is computed (142-144): a panic leaves it there *)
Definition p_next (fuel : nat) (E : ptree) (s : p_S E) (it : iter (t_C (p_t E))) (st : St)
  : res (iter (t_C (p_t E)) * option (option (N * p_V E)) * St) :=
  let* (it, o) := iter_loop fuel (p_t E) (p_src E s) it in
  match o with
  | None => Ok (it, Some None, st)
  | Some level_index =>
    let* (data_block, st) := p_cdata_u E s (it_cursor it) level_index st in              (* 142-144 *)
    match data_block with
    | None => Ok (it, None, st)
    | Some data_block =>
      let* block_index := data_block_index (t_nw (p_t E)) (t_depth (p_t E)) (it_indices it) level_index in (* 145 *)
      Ok (it, Some (Some (block_index, data_block)), st)
    end
  end.
(** [m] calls of `next`, each panic caught by the caller, who goes on with the same iterator *)
Fixpoint p_poll (fuel m : nat) (E : ptree) (s : p_S E) (it : iter (t_C (p_t E))) (st : St)
  : res (list (option (option (N * p_V E))) * St) :=
  match m with
  | O => Ok ([], st)
  | S m =>
    let* (it, o, st) := p_next fuel E s it st in
    let* (l, st) := p_poll fuel m E s it st in
    Ok (o :: l, st)
  end.
(** `iter` (src/hibit_tree.rs:183-187) and [m] calls of `next` *)
Definition p_iter (fuel m : nat) (E : ptree) (s : p_S E) (st : St) : res (list (option (option (N * p_V E))) * St) :=
  let* it := iter_new (p_t E) (p_src E s) in p_poll fuel m E s it st.
End peffects.
Arguments ptree : clear implicits. Arguments ufn : clear implicits. Arguments consumer : clear implicits.
Arguments Consumer {St X A W}. Arguments c_init {St X A W}. Arguments c_step {St X A W}. Arguments c_end {St X A W}.
