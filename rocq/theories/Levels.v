(** * Model of src/level: `ILevel`, `Level`, `IntrusiveListLevel`, `SingleBlockLevel`, for any block type

    Sparse.v has the two levels that SparseTree uses, for `Block`; here they are generic in the
    block, and `Level` (level.rs, which no configuration uses) is included.  Not modelled:
    allocation failure. *)
From Verif Require Import Base BitUtils LevelIndices Sparse SmallBlock.

(** ** the traits `Empty` and `MaybeEmptyIntrusive`, lib.rs:176-201 *)
Record block_ops := BlockOps {
  bo_B : Type;
  bo_empty : bo_B;                                            (* `empty` 177 *)
  bo_is_empty : bo_B -> bool;                                 (* `is_empty` 178 *)
  bo_link : bo_B -> res N;                                    (* `*as_u64_mut()` 198, read *)
  bo_set_link : bo_B -> N -> res bo_B;                        (* .. written *)
  bo_restore : bo_B -> res bo_B;                              (* `restore_empty` 200 *)
}.
(** the implementations: Block block.rs:16-52, SmallBlock small_block.rs:244-289, ClusterBlock cluster_block.rs:102-142
    (whose `is_empty` is `todo!()`; no level calls it, here it is the mask) *)
Definition ops_block (nw : nat) : block_ops := BlockOps block (blk_empty nw) blk_is_empty blk_link blk_set_link blk_restore_empty.
(** SmallBlock, small_block.rs:247-289 *)
Definition ops_small (nw cap : nat) : block_ops :=
  BlockOps sblock (sb_empty nw cap) sb_is_empty (fun b => get_u (sb_mask b) 0) sb_set_link sb_restore_empty.
(** `*as_u64_mut() = ..` cluster_block.rs:121-142 *)
Definition cb_set_link (b : cblock) (x : N) : res cblock := let* m := set_u (c_mask b) 0 x in Ok (CBlock m (c_sub_blocks b) (c_storage b)).
(** ClusterBlock, cluster_block.rs:102-142 *)
Definition ops_cluster (nw : nat) : block_ops :=
  BlockOps cblock (cb_empty nw) (fun b => mask_is_zero (c_mask b)) (fun b => get_u (c_mask b) 0) cb_set_link (fun b => cb_set_link b 0).

(** ** the trait `ILevel`, level/mod.rs:11-25; `blocks_mut` is a write of one block *)
Record level_ops (B : Type) := LevelOps {
  lo_L : Type;
  lo_default : lo_L;
  lo_blocks : lo_L -> list B;
  lo_set_blocks : lo_L -> list B -> lo_L;
  lo_insert : lo_L -> res (lo_L * N);
  lo_remove : lo_L -> N -> res lo_L;
}.
Arguments LevelOps {B}. Arguments lo_L {B}. Arguments lo_default {B}. Arguments lo_blocks {B}. Arguments lo_set_blocks {B}.
Arguments lo_insert {B}. Arguments lo_remove {B}.

Section levels.
Context (o : block_ops).
Notation B := (bo_B o).

(** ** `Level`, level.rs:7-50.  The vector of free indices is kept last element first *)
Record vlevel := VLevel { vl_blocks : list B; vl_free : list N }.
Definition vl_default : vlevel := VLevel [bo_empty o] []. (* level.rs:14-20 *)
Definition vl_insert (l : vlevel) : res (vlevel * N) := (* level.rs:37-45 *)
  match vl_free l with
  | index :: free => Ok (VLevel (vl_blocks l) free, index)
  | [] => Ok (VLevel (vl_blocks l ++ [bo_empty o]) [], N.of_nat (length (vl_blocks l)))
  end.
Definition vl_remove (l : vlevel) (i : N) : res vlevel := Ok (VLevel (vl_blocks l) (i :: vl_free l)). (* level.rs:48-50 *)
(** `ILevel for Level` level.rs:22-50 *)
Definition lev_vec : level_ops B :=
  LevelOps vlevel vl_default vl_blocks (fun l bs => VLevel bs (vl_free l)) vl_insert vl_remove.

(** ** `IntrusiveListLevel`, intrusive_list_level.rs:6-95 *)
Record ilevel := ILevel { il_blocks : list B; il_root : N }.
Definition il_default : ilevel := ILevel [bo_empty o] U64MAX. (* intrusive_list_level.rs:17-23 *)
Definition il_pop (l : ilevel) : res (ilevel * option N) := (* intrusive_list_level.rs:36-53 *)
  if (il_root l =? U64MAX)%N then Ok (l, None)
  else
    let index := il_root l in
    let* b := get_u (il_blocks l) (N.to_nat index) in
    let* next := bo_link o b in
    let* b := bo_restore o b in
    let* blocks := set_u (il_blocks l) (N.to_nat index) b in
    Ok (ILevel blocks next, Some index).
Definition il_push (l : ilevel) (i : N) : res ilevel := (* intrusive_list_level.rs:59-65 *)
  let* b := get_u (il_blocks l) (N.to_nat i) in
  let* b := bo_set_link o b (il_root l) in
  let* blocks := set_u (il_blocks l) (N.to_nat i) b in
  Ok (ILevel blocks i).
Definition il_insert (l : ilevel) : res (ilevel * N) := (* intrusive_list_level.rs:82-90 *)
  let* (l, r) := il_pop l in
  match r with
  | Some index => Ok (l, index)
  | None => Ok (ILevel (il_blocks l ++ [bo_empty o]) (il_root l), N.of_nat (length (il_blocks l)))
  end.
(** `ILevel for IntrusiveListLevel` intrusive_list_level.rs:68-95 *)
Definition lev_list : level_ops B :=
  LevelOps ilevel il_default il_blocks (fun l bs => ILevel bs (il_root l)) il_insert il_push.   (* 93-95 *)

(** ** `SingleBlockLevel`, single_block_level.rs:5-37 *)
Definition lev_single : level_ops B :=
  LevelOps B (bo_empty o) (fun b => [b]) (fun b bs => default b (head bs))
    (fun _ => Panic) (fun _ _ => Panic).                                                  (* unreachable!() 22-28 *)
End levels.
Arguments VLevel {o}. Arguments ILevel {o}. Arguments vl_blocks {o}. Arguments vl_free {o}. Arguments il_blocks {o}. Arguments il_root {o}.

(** ** a client of a level *)
Inductive lcall (B : Type) :=
| LInsert                                                     (* insert_empty_block *)
| LRemove (i : N)                                             (* remove_empty_block_unchecked *)
| LGet (i : N)                                                (* blocks().get_unchecked(i) *)
| LSet (i : N) (b : B).                                       (* *blocks_mut().get_unchecked_mut(i) = b *)
Inductive lout (B : Type) := LIndex (i : N) | LDone | LBlock (b : B).
Arguments LInsert {B}. Arguments LRemove {B}. Arguments LGet {B}. Arguments LSet {B}.
Arguments LIndex {B}. Arguments LDone {B}. Arguments LBlock {B}.
(** one call *)
Definition lev_call {B} (o : level_ops B) (l : lo_L o) (c : lcall B) : res (lo_L o * lout B) :=
  match c with
  | LInsert => let* (l, i) := lo_insert o l in Ok (l, LIndex i)
  | LRemove i => let* l := lo_remove o l i in Ok (l, LDone)
  | LGet i => let* b := get_u (lo_blocks o l) (N.to_nat i) in Ok (l, LBlock b)
  | LSet i b => let* bs := set_u (lo_blocks o l) (N.to_nat i) b in Ok (lo_set_blocks o l bs, LDone)
  end.
(** a history of calls *)
Fixpoint lev_calls {B} (o : level_ops B) (l : lo_L o) (cs : list (lcall B)) : res (lo_L o * list (lout B)) :=
  match cs with
  | [] => Ok (l, [])
  | c :: cs => let* (l, x) := lev_call o l c in let* (l, xs) := lev_calls o l cs in Ok (l, x :: xs)
  end.
