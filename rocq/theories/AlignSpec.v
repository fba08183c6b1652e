(** Alignment of what the containers hand out (property C81).  No proofs here. *)
From Verif Require Import Base Status Mem VectorModel VectorDriver ListModel ListSpec ListDriver.

(** An address that is a multiple of [a]. *)
Definition aligned (a x : N) : Prop := x mod a = 0.
(** The address of a pointer, when block [b] of the memory begins at [addr b]. *)
Definition address (addr : N -> N) (p : ptr) : N := addr (pb p) + po p.
(** The pointers of a node: the node itself (a struct of two pointers) and its data (ZyanListGetNodeData). *)
Definition node_aligned (addr : N -> N) (a : N) (p : ptr) : Prop :=
  aligned a (address addr p) /\ exists q, lget_node_data (Some p) = Some q /\ aligned a (address addr q).
(** The alignment of a pointer, hence of ZyanListNode, on the 64-bit platforms of the model
    (include/Zycore/List.h:51-67: a struct of two pointers, 16 bytes, followed by the data). *)
Definition POINTER_ALIGNMENT : N := 8.
