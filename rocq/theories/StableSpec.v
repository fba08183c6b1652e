(** How long the pointers that vectors and strings give out stay valid (property C93).  No proofs here. *)
From Verif Require Import Base Status Mem.

Section Stable.
  Context {C : Type}.

  (** Between [w] and [w'] the allocator has granted a request: it has handed out or moved a block. *)
  Definition granted (w w' : world C) : Prop :=
    exists t fill, tick w <= t /\ t < tick w' /\ orc w t = AOk fill.

  (** Nothing can be done with the pointer any more: every access through it is undefined. *)
  Definition dead (p : option ptr) (w : world C) : Prop :=
    forall d, (forall n, mread (padd p d) n w = Fault UseAfterFree) /\
              (forall x, mwrite (padd p d) x w = Fault UseAfterFree).
End Stable.
