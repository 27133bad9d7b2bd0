(** * Model of the memory of SmallBlock, src/level_block/small_block.rs: the union that holds a boxed array or an inline one,
      its clone and its drop

    SmallBlock.v has the block as a value; here the boxed array is an allocation that a block owns. *)
From Verif Require Import Base BitUtils LevelIndices Sparse Materialize SmallBlock SmallBlockSpec.

(** the allocations made by `Box::new`: allocator state, no counterpart in the crate *)
Record boxes := Boxes { bx : gmap N (list N); bx_next : N }.
(** `BigSmallArray` small_block.rs:9-22: a pointer, or the inline data *)
Inductive mstore := MBig (p : N) | MSmall (pops : list N) (array : list (option N)).
(** small_block.rs:101-109 *)
Record mblock := MBlock { mb_mask : mask; mb_store : mstore }.
(** `Box::new` *)
Definition box_new (h : boxes) (ix : list N) : boxes * N := (Boxes (<[bx_next h := ix]> (bx h)) (bx_next h + 1), bx_next h).
(** reading through a box *)
Definition box_read (h : boxes) (p : N) : res (list N) := match bx h !! p with Some ix => Ok ix | None => UB end.
(** writing through a box *)
Definition box_write (h : boxes) (p : N) (ix : list N) : res boxes :=
  match bx h !! p with Some _ => Ok (Boxes (<[p := ix]> (bx h)) (bx_next h)) | None => UB end.
(** `ManuallyDrop::drop(&mut self.big.1)` small_block.rs:95 *)
Definition box_free (h : boxes) (p : N) : res boxes :=
  match bx h !! p with Some _ => Ok (Boxes (delete p (bx h)) (bx_next h)) | None => UB end.
(** `is_small`, `is_big` small_block.rs:75-82 *)
Definition m_is_big (s : mstore) : res bool :=
  match s with MBig _ => Ok true | MSmall pops _ => let* p := get_u pops 0 in Ok (negb (p =? 0)%N) end.
(** `self.big.1` (reading the union) *)
Definition as_ptr (s : mstore) : res N := match s with MBig p => Ok p | MSmall _ _ => UB end.
(** `self.small` (reading the union) *)
Definition as_inline (s : mstore) : res (list N * list (option N)) := match s with MSmall p a => Ok (p, a) | MBig _ => UB end.
(** the inline part of a block, read by `small_array_index_impl` and `small_array_len` small_block.rs:128-191 *)
Definition inline_part (b : mblock) : res sblock :=
  let* (pops, array) := as_inline (mb_store b) in Ok (SBlock (mb_mask b) (Small pops array)).
(** `Drop for BigSmallArray` small_block.rs:85-98 *)
Definition m_drop (h : boxes) (s : mstore) : res boxes :=
  let* big := m_is_big s in
  if (big : bool) then let* p := as_ptr s in box_free h p else Ok h.
(** `Clone for BigSmallArray` small_block.rs:51-67 *)
Definition m_clone (h : boxes) (s : mstore) : res (boxes * mstore) :=
  let* big := m_is_big s in
  if (big : bool) then
    let* p := as_ptr s in
    let* ix := box_read h p in                                               (* Box::clone *)
    let '(h, q) := box_new h ix in Ok (h, MBig q)
  else let* (pops, array) := as_inline s in Ok (h, MSmall pops array).
(** `#[derive(Clone)]` small_block.rs:101 *)
Definition mb_clone (h : boxes) (b : mblock) : res (boxes * mblock) :=
  let* (h, s) := m_clone h (mb_store b) in Ok (h, MBlock (mb_mask b) s).
(** drop of a SmallBlock: of its field `big_small`, small_block.rs:85-98 *)
Definition mb_drop (h : boxes) (b : mblock) : res boxes := m_drop h (mb_store b).
(** `insert_unchecked` small_block.rs:198-240 *)
Definition mb_insert_unchecked (nw cap : nat) (h : boxes) (b : mblock) (index value : N) : res (boxes * mblock) :=
  let* big := m_is_big (mb_store b) in
  let* (h, st) :=
    if (big : bool) then
      let* p := as_ptr (mb_store b) in
      let* array := box_read h p in
      let* array := set_u array (N.to_nat index) value in
      let* h := box_write h p array in Ok (h, mb_store b)
    else
      let* s := inline_part b in
      let* len := small_array_len s in
      if decide (len = cap) then
        let* (_, array) := as_inline (mb_store b) in
        let* big_array := to_big nw (mb_mask b) array in
        let* big_array := set_u big_array (N.to_nat index) value in
        let '(h, p) := box_new h big_array in                                (* 207; filled before anything else allocates *)
        let* h := m_drop h (mb_store b) in                                   (* 220: the assignment drops the old value *)
        Ok (h, MBig p)
      else
        let* inner_index := small_array_index_unchecked s index in
        let* (pops, array) := as_inline (mb_store b) in
        let* n := sub_usize len inner_index in
        let* array := mem_copy array inner_index (S inner_index) n in
        let* array := set_u array inner_index (Some value) in
        let* pops := update_pops inc_u8 nw pops index in
        Ok (h, MSmall pops array) in
  let* (m, _) := mask_set_bit true (mb_mask b) index in
  Ok (h, MBlock m st).
(** `empty` small_block.rs:252-263 *)
Definition mb_empty (nw cap : nat) : mblock := MBlock (mask_zero nw) (MSmall (replicate nw 0%N) (replicate cap None)).
(** `get_or_zero` small_block.rs:314-326 *)
Definition mb_get (h : boxes) (b : mblock) (index : N) : res N :=
  let* big := m_is_big (mb_store b) in
  if (big : bool) then
    let* p := as_ptr (mb_store b) in let* array := box_read h p in get_u array (N.to_nat index)
  else
    let* s := inline_part b in
    let* o := small_array_index true s index in
    match o with
    | Some i =>
      let* (_, array) := as_inline (mb_store b) in
      let* x := get_u array i in match x with Some x => Ok x | None => UB end
    | None => Ok 0%N
    end.
(** `get_or_insert` small_block.rs:329-339 *)
Definition mb_get_or_insert (nw cap : nat) (h : boxes) (b : mblock) (index : N) (f : option N) : res (boxes * mblock * bout) :=
  let* block_index := mb_get h b index in
  if (block_index =? 0)%N then
    match f with
    | Some block_index => let* (h, b) := mb_insert_unchecked nw cap h b index block_index in Ok (h, b, BIns block_index true)
    | None => Ok (h, b, BPanicked)
    end
  else Ok (h, b, BIns block_index false).
(** `remove_unchecked` small_block.rs:342-364 *)
Definition mb_remove (nw : nat) (h : boxes) (b : mblock) (index : N) : res (boxes * mblock) :=
  let* (m, prev) := mask_set_bit false (mb_mask b) index in
  if negb prev then Panic else
  let b := MBlock m (mb_store b) in
  let* big := m_is_big (mb_store b) in
  if (big : bool) then
    let* p := as_ptr (mb_store b) in
    let* array := box_read h p in
    let* array := set_u array (N.to_nat index) 0%N in
    let* h := box_write h p array in Ok (h, b)
  else
    let* s := inline_part b in
    let* inner_index := small_array_index_unchecked s index in
    let* len := small_array_len s in
    let* (pops, array) := as_inline (mb_store b) in
    let* n := sub_usize len inner_index in
    let* array := mem_copy array (S inner_index) inner_index n in
    let* pops := update_pops dec_u8 nw pops index in
    Ok (h, MBlock m (MSmall pops array)).
(** `set_unchecked` small_block.rs:367-376 *)
Definition mb_set (h : boxes) (b : mblock) (index item : N) : res (boxes * mblock) :=
  let* big := m_is_big (mb_store b) in
  if (big : bool) then
    let* p := as_ptr (mb_store b) in
    let* array := box_read h p in
    let* array := set_u array (N.to_nat index) item in
    let* h := box_write h p array in Ok (h, b)
  else
    let* s := inline_part b in
    let* inner_index := small_array_index_unchecked s index in
    let* (pops, array) := as_inline (mb_store b) in
    let* array := set_u array inner_index (Some item) in
    Ok (h, MBlock (mb_mask b) (MSmall pops array)).
(** the methods of `SmallBlock`, small_block.rs:247-377; `insert` is the trait's `todo!()`, level_block/mod.rs:48-54 *)
Definition mb_call (nw cap : nat) (h : boxes) (b : mblock) (c : bcall) : res (boxes * mblock * bout) :=
  match c with
  | BGet i => let* x := mb_get h b i in Ok (h, b, BVal x)
  | BGetOrInsert i f => mb_get_or_insert nw cap h b i f
  | BInsert i x => Panic
  | BRemove i => let* (h, b) := mb_remove nw h b i in Ok (h, b, BDone)
  | BSet i x => let* (h, b) := mb_set h b i x in Ok (h, b, BDone)
  end.

(** ** any number of blocks, named by variables: a client program, no counterpart in the crate *)
Inductive wcall :=
| WNew (id : N)                                                              (* let id = SmallBlock::empty() *)
| WCall (id : N) (c : bcall)                                                 (* id.method(..) *)
| WClone (src dst : N)                                                       (* dst = src.clone() *)
| WDrop (id : N).                                                            (* drop(id) *)
Record world := World { w_boxes : boxes; w_blocks : gmap N mblock }.
(** assigning to a variable drops what it held: Rust's assignment, no counterpart in the crate *)
Definition assign (h : boxes) (bs : gmap N mblock) (id : N) (b : mblock) : res world :=
  match bs !! id with
  | Some old => let* h := mb_drop h old in Ok (World h (<[id := b]> bs))
  | None => Ok (World h (<[id := b]> bs))
  end.
(** one statement of the client program; naming a variable that holds nothing does not compile (here: a panic) *)
Definition w_call (nw cap : nat) (w : world) (c : wcall) : res (world * bout) :=
  match c with
  | WNew id => let* w := assign (w_boxes w) (w_blocks w) id (mb_empty nw cap) in Ok (w, BDone)
  | WCall id c =>
    match w_blocks w !! id with
    | Some b => let* (h, b, o) := mb_call nw cap (w_boxes w) b c in Ok (World h (<[id := b]> (w_blocks w)), o)
    | None => Panic
    end
  | WClone src dst =>
    match w_blocks w !! src with
    | Some b => let* (h, b) := mb_clone (w_boxes w) b in let* w := assign h (w_blocks w) dst b in Ok (w, BDone)
    | None => Panic
    end
  | WDrop id =>
    match w_blocks w !! id with
    | Some b => let* h := mb_drop (w_boxes w) b in Ok (World h (delete id (w_blocks w)), BDone)
    | None => Panic
    end
  end.
(** a client program *)
Fixpoint w_run (nw cap : nat) (w : world) (cs : list wcall) : res (world * list bout) :=
  match cs with
  | [] => Ok (w, [])
  | c :: cs => let* (w, o) := w_call nw cap w c in let* (w, os) := w_run nw cap w cs in Ok (w, o :: os)
  end.
(** before the program: nothing is allocated *)
Definition w_start : world := World (Boxes ∅ 0) ∅.

(** ** the bytes of the union, small_block.rs:9-22.  `#[repr(C)]` puts both variants at offset 0; where a tuple's fields lie inside
    the tuple Rust leaves to the compiler *)
Inductive ubyte := Byte (x : N) | Uninit.
Record ulayout := ULayout { l_tag : nat; l_box : nat; l_pops : nat; l_array : nat; l_size : nat }.
(** what Rust promises about a tuple: its fields are aligned, lie inside it and do not overlap.  A box is 8 bytes, a value of the arrays
    [isz] bytes; small_block.rs:16-21 *)
Definition lawful_layout (nw cap isz : nat) (l : ulayout) : Prop :=
  (l_tag l + 1 <= l_size l /\ l_box l + 8 <= l_size l /\ l_box l mod 8 = 0 /\ (l_tag l + 1 <= l_box l \/ l_box l + 8 <= l_tag l)) /\
  (l_pops l + nw <= l_size l /\ l_array l + cap * isz <= l_size l /\ l_array l mod isz = 0 /\
   (l_pops l + nw <= l_array l \/ l_array l + cap * isz <= l_pops l)).
(** put bytes at an offset: memory, no counterpart in the crate *)
Definition put_bytes (mem : list ubyte) (off : nat) (bs : list ubyte) : list ubyte :=
  take off mem ++ bs ++ drop (off + length bs) mem.
(** `Self { big: (1, ..) }` small_block.rs:31-36; the pointer's bytes are [ptr] *)
Definition make_big (l : ulayout) (ptr : list N) : list ubyte :=
  put_bytes (put_bytes (replicate (l_size l) Uninit) (l_box l) (Byte <$> ptr)) (l_tag l) [Byte 1].
(** `Self { small }` small_block.rs:46-49 with the counters [pops] and the array's bytes [arr], small_block.rs:252-263, 228-236 *)
Definition make_small (l : ulayout) (pops : list N) (arr : list ubyte) : list ubyte :=
  put_bytes (put_bytes (replicate (l_size l) Uninit) (l_pops l) (Byte <$> pops)) (l_array l) arr.
(** `is_small` small_block.rs:75-77: reads `self.big.0`; reading an uninitialised byte is undefined behaviour *)
Definition tag_is_small (l : ulayout) (mem : list ubyte) : res bool :=
  match mem !! l_tag l with Some (Byte x) => Ok (x =? 0)%N | _ => UB end.
