(** * Byte layout of DenseTree nodes: src/dense_tree/node.rs:53-67, 119-134, 181-190 (64-bit target) *)
From Verif Require Import Base Dense.

(** `size_of` / `align_of` the child type: NodePtr is a NonNull (node.rs:106), DataIndex a u32
    (dense_tree.rs:28) *)
Definition child_size (k : kind) : N := match k with KPtr => 8 | KIdx => 4 end.
(** `#[repr(C)] NodeHeaderN<N>` node.rs:53-67: each field at the first multiple of its alignment after
    the previous field; fields: mask: u64, capacity: u8, len: u8, children_placeholder:
    [*const u8; N] *)
Definition align_up (x a : N) : N := ((x + a - 1) / a * a)%N.
(** `#[repr(C)]`: the next field, after padding *)
Definition field (off : N * N) (size align : N) : N * N := (align_up (snd off) align, (align_up (snd off) align + size)%N).
(** the fields mask, capacity, len, children_placeholder of node.rs:55-66; alignment and size of the struct *)
Definition f_mask := field (0, 0)%N 8 8.
Definition f_capacity := field f_mask 1 1.
Definition f_len := field f_capacity 1 1.
Definition f_children (n : N) := field f_len (8 * n) 8.
Definition header_align : N := 8.
Definition sizeof_header (n : N) : N := align_up (snd (f_children n)) header_align.
(** `children_addr_offset` node.rs:119-122: `offset_of!(NodeHeader, children_placeholder)` *)
Definition children_addr_offset : N := fst (f_children 0).
(** `layout` node.rs:181-190 *)
Definition layout (k : kind) (cap : nat) : N * N :=
  let array_size := (child_size k * N.of_nat cap)%N in
  let size := (children_addr_offset + array_size)%N in
  (align_up size header_align, header_align).
(** `children_ptr().add(i)` node.rs:124-134 *)
Definition slot_addr (k : kind) (base : N) (i : nat) : N := (base + children_addr_offset + N.of_nat i * child_size k)%N.

Lemma align_up_ge x a : (0 < a)%N -> (x <= align_up x a)%N.
Proof.
  intros Ha. unfold align_up. pose proof (N.div_mod' (x + a - 1) a). pose proof (N.mod_lt (x + a - 1) a ltac:(lia)). lia.
Qed.
Lemma align_up_lt x a : (0 < a)%N -> (align_up x a < x + a)%N.
Proof.
  intros Ha. unfold align_up. pose proof (N.div_mod' (x + a - 1) a). pose proof (N.mod_lt (x + a - 1) a ltac:(lia)). lia.
Qed.
Lemma align_up_mult x a : (0 < a)%N -> (align_up x a mod a = 0)%N.
Proof. intros Ha. unfold align_up. apply N.mod_mul. lia. Qed.
