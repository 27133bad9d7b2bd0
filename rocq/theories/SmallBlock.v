(** * Model of src/level_block: the HiBlock trait (level_block/mod.rs:13-67), SmallBlock (small_block.rs) and
      ClusterBlock (cluster_block.rs); Block is modelled in Sparse.v

    These two blocks are compiled but no configuration of config.rs uses them (its module `sbo`
    is commented out). *)
From Verif Require Import Base BitUtils LevelIndices Sparse Materialize.

(** ** calls of a HiBlock *)
Inductive bcall :=
| BGet (i : N)                                                (* get_or_zero *)
| BGetOrInsert (i : N) (f : option N)                         (* get_or_insert; None: the closure panics *)
| BInsert (i x : N)                                           (* insert *)
| BRemove (i : N)                                             (* remove_unchecked *)
| BSet (i x : N).                                             (* set_unchecked *)
Inductive bout := BVal (x : N) | BIns (x : N) (inserted : bool) | BDone | BPanicked.

(** ** Block, the deprecated `get_or_insert` block.rs:81-95 (Sparse.v has the rest): the mask bit is set before
    the closure runs *)
Definition blk_get_or_insert (b : block) (index : N) (f : option N) : res (block * bout) :=
  let* block_index := get_u (b_idx b) (N.to_nat index) in                    (* 84-85 *)
  if negb (block_index =? 0)%N then Ok (b, BIns block_index false)           (* 86-87 *)
  else
    let* (m, _) := mask_set_bit true (b_mask b) index in                     (* 89 *)
    match f with                                                             (* 91 *)
    | Some block_index =>
      let* ix := set_u (b_idx b) (N.to_nat index) block_index in             (* 92 *)
      Ok (Block m ix, BIns block_index true)
    | None => Ok (Block m (b_idx b), BPanicked)
    end.
(** the methods of `Block`, block.rs:12-117 *)
Definition blk_call (b : block) (c : bcall) : res (block * bout) :=
  match c with
  | BGet i => let* x := blk_get b i in Ok (b, BVal x)
  | BGetOrInsert i f => blk_get_or_insert b i f
  | BInsert i x => let* b := blk_insert b i x in Ok (b, BDone)
  | BRemove i => let* b := blk_remove b i in Ok (b, BDone)
  | BSet i x => let* b := blk_set b i x in Ok (b, BDone)
  end.

(** ** SmallBlock small_block.rs *)
(** `BigSmallArray` small_block.rs:9-22, a union whose first byte is the tag: `big.0` is 1, and the first element of
    `MaskU64Populations` always 0.  (That the two tuples have their first fields in the same place is
    assumed: Rust does not promise a layout for tuples.)  [None] in the small array is an uninitialised
    element. *)
Inductive big_small := Big (indices : list N) | Small (mask_u64_populations : list N) (array : list (option N)).
(** `is_big` small_block.rs:75-82 *)
Definition is_big (s : big_small) : res bool :=
  match s with Big _ => Ok true | Small pops _ => let* p := get_u pops 0 in Ok (negb (p =? 0)%N) end.
(** reading the union: as the other variant it is undefined behaviour *)
Definition as_big (s : big_small) : res (list N) := match s with Big ix => Ok ix | Small _ _ => UB end.
(** `self.small` (reading the union) *)
Definition as_small (s : big_small) : res (list N * list (option N)) := match s with Small p a => Ok (p, a) | Big _ => UB end.
(** small_block.rs:101-109 *)
Record sblock := SBlock { sb_mask : mask; sb_store : big_small }.
(** `slice.last().unwrap_unchecked()` *)
Definition last_u {A} (l : list A) : res A := get_u l (length l - 1).
(** `small_array_index_impl` small_block.rs:128-164 *)
Definition small_array_index (check_for_empty : bool) (b : sblock) (index : N) : res (option nat) :=
  let u64_index := if decide (length (sb_mask b) = 1) then 0%N else (index / 64)%N in
  let bit_index := if decide (length (sb_mask b) = 1) then index else (index mod 64)%N in
  let* block := get_u (sb_mask b) (N.to_nat u64_index) in
  if (64 <=? bit_index)%N then UB else
  if check_for_empty && (N.land block (shl64 1 bit_index) =? 0)%N then Ok None else
  let block := N.land block (not64 (shl64 WMAX bit_index)) in
  let* (pops, _) := as_small (sb_store b) in
  let* offset := if decide (length pops = 1) then Ok 0%N else get_u pops (N.to_nat u64_index) in
  Ok (Some (N.to_nat offset + popcount block)).
(** `small_array_index_unchecked` small_block.rs:167-169 *)
Definition small_array_index_unchecked (b : sblock) (index : N) : res nat :=
  let* o := small_array_index false b index in match o with Some i => Ok i | None => UB end.
(** `small_array_len` small_block.rs:177-191 *)
Definition small_array_len (b : sblock) : res nat :=
  let* (pops, _) := as_small (sb_store b) in
  let* start := if decide (length pops = 1) then Ok 0%N else last_u pops in
  let* w := last_u (sb_mask b) in
  Ok (N.to_nat start + popcount w).
(** `ptr::copy(p + src, p + dst, n)` inside one array *)
Definition mem_copy {A} (l : list A) (src dst n : nat) : res (list A) :=
  if decide (src + n <= length l /\ dst + n <= length l) then
    Ok (take dst l ++ take n (drop src l) ++ drop (dst + n) l)
  else UB.
(** `a - b` on usize *)
Definition sub_usize (a b : nat) : res nat := if decide (b <= a) then Ok (a - b) else Panic.
(** `x += 1`, `x -= 1` on u8 *)
Definition inc_u8 (x : N) : res N := if (x <? 255)%N then Ok (x + 1)%N else Panic.
(** `x -= 1` on u8 *)
Definition dec_u8 (x : N) : res N := if (0 <? x)%N then Ok (x - 1)%N else Panic.
(** `for i in from..to { f(pops[i]) }` small_block.rs:234-236, 360-362 *)
Fixpoint update_range (f : N -> res N) (pops : list N) (from n : nat) : res (list N) :=
  match n with
  | O => Ok pops
  | S n => let* x := get_u pops from in let* x := f x in let* pops := set_u pops from x in update_range f pops (S from) n
  end.
(** the counters of all words, small_block.rs:234-236, 360-362 *)
Definition update_pops (f : N -> res N) (nw : nat) (pops : list N) (index : N) : res (list N) :=
  let from := S (N.to_nat (index / 64)) in update_range f pops from (nw - from).
(** moving to the big array small_block.rs:207-218 *)
Definition to_big (nw : nat) (m : mask) (array : list (option N)) : res (list N) :=
  let* (big_array, _) := traverse_m m (fun '(big_array, i) index =>
    let* value := get_u array i in
    let* value := match value with Some v => Ok v | None => UB end in        (* assume_init_read *)
    let* big_array := set_u big_array (N.to_nat index) value in
    Ok (big_array, S i)) (replicate (N.to_nat (msize nw)) 0%N, 0) in
  Ok big_array.
(** `insert_unchecked` small_block.rs:198-240; [cap] is SmallBlockIndices::CAP *)
Definition sb_insert_unchecked (nw cap : nat) (b : sblock) (index value : N) : res sblock :=
  let* big := is_big (sb_store b) in
  let* st :=
    if (big : bool) then
      let* array := as_big (sb_store b) in
      let* array := set_u array (N.to_nat index) value in Ok (Big array)
    else
      let* len := small_array_len b in
      if decide (len = cap) then
        let* (_, array) := as_small (sb_store b) in
        let* big_array := to_big nw (sb_mask b) array in
        let* big_array := set_u big_array (N.to_nat index) value in          (* 219 *)
        Ok (Big big_array)                                                   (* 220 *)
      else
        let* inner_index := small_array_index_unchecked b index in
        let* (pops, array) := as_small (sb_store b) in
        let* n := sub_usize len inner_index in
        let* array := mem_copy array inner_index (S inner_index) n in        (* 228 *)
        let* array := set_u array inner_index (Some value) in                (* 231 *)
        let* pops := update_pops inc_u8 nw pops index in
        Ok (Small pops array) in
  let* (m, _) := mask_set_bit true (sb_mask b) index in                      (* 239 *)
  Ok (SBlock m st).
(** `empty` small_block.rs:252-263, `is_empty` 266-268 *)
Definition sb_empty (nw cap : nat) : sblock := SBlock (mask_zero nw) (Small (replicate nw 0%N) (replicate cap None)).
(** `is_empty` small_block.rs:266-268 *)
Definition sb_is_empty (b : sblock) : bool := mask_is_zero (sb_mask b).
(** `as_u64_mut` small_block.rs:279-283, `restore_empty` 286-288 *)
Definition sb_set_link (b : sblock) (x : N) : res sblock := let* m := set_u (sb_mask b) 0 x in Ok (SBlock m (sb_store b)).
(** `restore_empty` small_block.rs:286-288 *)
Definition sb_restore_empty (b : sblock) : res sblock := sb_set_link b 0.
(** `get_or_zero` small_block.rs:314-326 *)
Definition sb_get (b : sblock) (index : N) : res N :=
  let* big := is_big (sb_store b) in
  if (big : bool) then let* array := as_big (sb_store b) in get_u array (N.to_nat index)
  else
    let* o := small_array_index true b index in
    match o with
    | Some i =>
      let* (_, array) := as_small (sb_store b) in
      let* x := get_u array i in match x with Some x => Ok x | None => UB end
    | None => Ok 0%N
    end.
(** `get_or_insert` small_block.rs:329-339: the closure runs before anything is changed *)
Definition sb_get_or_insert (nw cap : nat) (b : sblock) (index : N) (f : option N) : res (sblock * bout) :=
  let* block_index := sb_get b index in
  if (block_index =? 0)%N then
    match f with
    | Some block_index => let* b := sb_insert_unchecked nw cap b index block_index in Ok (b, BIns block_index true)
    | None => Ok (b, BPanicked)
    end
  else Ok (b, BIns block_index false).
(** `remove_unchecked` small_block.rs:342-364 *)
Definition sb_remove (nw : nat) (b : sblock) (index : N) : res sblock :=
  let* (m, prev) := mask_set_bit false (sb_mask b) index in                  (* 343 *)
  if negb prev then Panic else                                               (* 344 debug_assert *)
  let b := SBlock m (sb_store b) in
  let* big := is_big (sb_store b) in
  if (big : bool) then
    let* array := as_big (sb_store b) in
    let* array := set_u array (N.to_nat index) 0%N in Ok (SBlock m (Big array))
  else
    let* inner_index := small_array_index_unchecked b index in               (* 351 *)
    let* len := small_array_len b in                                         (* 352 *)
    let* (pops, array) := as_small (sb_store b) in
    let* n := sub_usize len inner_index in
    let* array := mem_copy array (S inner_index) inner_index n in            (* 357 *)
    let* pops := update_pops dec_u8 nw pops index in
    Ok (SBlock m (Small pops array)).
(** `set_unchecked` small_block.rs:367-376 *)
Definition sb_set (b : sblock) (index item : N) : res sblock :=
  let* big := is_big (sb_store b) in
  if (big : bool) then
    let* array := as_big (sb_store b) in
    let* array := set_u array (N.to_nat index) item in Ok (SBlock (sb_mask b) (Big array))
  else
    let* inner_index := small_array_index_unchecked b index in
    let* (pops, array) := as_small (sb_store b) in
    let* array := set_u array inner_index (Some item) in
    Ok (SBlock (sb_mask b) (Small pops array)).
(** `insert`: the trait's default, level_block/mod.rs:48-54, is `todo!()` *)
Definition sb_insert (b : sblock) (index item : N) : res sblock := Panic.
(** the methods of `SmallBlock`, small_block.rs:247-377 *)
Definition sb_call (nw cap : nat) (b : sblock) (c : bcall) : res (sblock * bout) :=
  match c with
  | BGet i => let* x := sb_get b i in Ok (b, BVal x)
  | BGetOrInsert i f => sb_get_or_insert nw cap b i f
  | BInsert i x => let* b := sb_insert b i x in Ok (b, BDone)
  | BRemove i => let* b := sb_remove nw b i in Ok (b, BDone)
  | BSet i x => let* b := sb_set b i x in Ok (b, BDone)
  end.

(** ** ClusterBlock cluster_block.rs; sub-blocks of 16 values; [sub_masks] (cluster_block.rs:79-98, a cast of the mask's words
    to u16s, little endian) is done by arithmetic *)
Record cblock := CBlock { c_mask : mask; c_sub_blocks : list N; c_storage : list (list N) }.
(** one 16-bit sub mask, cluster_block.rs:79-98 *)
Definition sub_mask (m : mask) (k : N) : res N :=
  let* w := get_u m (N.to_nat (k / 4)) in Ok (N.land (N.shiftr w (16 * (k mod 4))) (N.ones 16)).
(** or one bit into a sub mask *)
Definition or_sub_mask (m : mask) (k bit : N) : res mask :=
  let* w := get_u m (N.to_nat (k / 4)) in set_u m (N.to_nat (k / 4)) (N.lor w (N.shiftl 1 (16 * (k mod 4) + bit))).
(** `empty` cluster_block.rs:109-118; the storage is an ArrayVec of capacity 4 *)
Definition cb_empty (nw : nat) : cblock := CBlock (mask_zero nw) (replicate (4 * nw) 0%N) [].
(** `get_or_zero` cluster_block.rs:165-190 *)
Definition cb_get (b : cblock) (index : N) : res N :=
  let k := (index / 16)%N in let bit := (index mod 16)%N in
  let* m := sub_mask (c_mask b) k in
  if negb (N.testbit m bit) then Ok 0%N else
  let inner := popcount (N.land m (N.ones bit)) in
  let* p := get_u (c_sub_blocks b) (N.to_nat k) in
  let* sb := get_u (c_storage b) (N.to_nat p) in
  get_u sb inner.
(** `get_or_insert` cluster_block.rs:192-248.  217-218 and the mask before 224-226 look at the bit, so it is never seen set, and
    `len` (233) is the inner index itself *)
Definition cb_get_or_insert (b : cblock) (index : N) (f : option N) : res (cblock * bout) :=
  let k := (index / 16)%N in let bit := (index mod 16)%N in
  let* m := sub_mask (c_mask b) k in
  let* (subs, storage, p) :=
    if (m =? 0)%N then                                                       (* 203 *)
      if decide (length (c_storage b) < 4) then                              (* ArrayVec::push *)
        let p := N.of_nat (length (c_storage b)) in
        let* subs := set_u (c_sub_blocks b) (N.to_nat k) p in
        Ok (subs, c_storage b ++ [replicate 16 0%N], p)
      else Panic
    else let* p := get_u (c_sub_blocks b) (N.to_nat k) in Ok (c_sub_blocks b, c_storage b, p) in
  let m := N.land m (N.ones bit) in                                          (* 216-220 *)
  let inner := popcount m in
  if (N.land m (N.shiftl 1 bit) =? 0)%N then                                 (* 224-226 *)
    let* mask := or_sub_mask (c_mask b) k bit in                             (* 228 *)
    match f with                                                             (* 231 *)
    | None => Ok (CBlock mask subs storage, BPanicked)
    | Some x =>
      let len := popcount m in                                               (* 233 *)
      let* sb := get_u storage (N.to_nat p) in
      let* sb := mem_copy sb inner (S inner) (len - inner) in                (* 237 *)
      let* sb := set_u sb inner x in                                         (* 240 *)
      let* storage := set_u storage (N.to_nat p) sb in
      Ok (CBlock mask subs storage, BIns x true)
    end
  else let* sb := get_u storage (N.to_nat p) in let* x := get_u sb inner in Ok (CBlock (c_mask b) subs storage, BIns x false).
(** the methods of `ClusterBlock`, cluster_block.rs:102-256 *)
Definition cb_call (b : cblock) (c : bcall) : res (cblock * bout) :=
  match c with
  | BGet i => let* x := cb_get b i in Ok (b, BVal x)
  | BGetOrInsert i f => cb_get_or_insert b i f
  | BInsert _ _ | BRemove _ | BSet _ _ => Panic                              (* todo!() 250-256 *)
  end.

(** a history of calls *)
Fixpoint run_calls {B} (call : B -> bcall -> res (B * bout)) (b : B) (cs : list bcall) : res (B * list bout) :=
  match cs with
  | [] => Ok (b, [])
  | c :: cs => let* (b, o) := call b c in let* (b, os) := run_calls call b cs in Ok (b, o :: os)
  end.
