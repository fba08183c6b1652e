(** How much memory histories of string and bitset calls ask the allocator for (property C86).  No proofs here. *)
From Verif Require Import Base Status Mem VectorModel VectorSpec VectorDriver CostSpec StringModel StringSpec StringDriver
  BitsetModel BitsetSpec BitsetDriver.

(** Number returned by a getter. *)
Definition gotten (x : res N (status * N)) : N := match x with Ok (_, n) _ => n | Fault _ => 0 end.

(** The calls one after another.  The first number is the total size, in bytes, of the blocks the calls asked the allocator
    for: what GetCapacity returns after a call, with the byte of the terminator, once for every request the call made.  The
    second number is the total number of characters by which the calls changed what GetSize returns. *)
Fixpoint run_scost (s : str) (ops : list sop) : Mem.M N (N * N * str) := fun w =>
  match ops with
  | [] => Ok (0, 0, s) w
  | o :: ops =>
      match run_sop s o w with
      | Fault f => Fault f
      | Ok (_, s1) w1 =>
          match run_scost s1 ops w1 with
          | Fault f => Fault f
          | Ok (blocks, changes, s2) w2 =>
              Ok ((tick w1 - tick w) * (gotten (sget_capacity s1 w1) + 1) + blocks,
                  distance (gotten (sget_size s w)) (gotten (sget_size s1 w1)) + changes, s2) w2
          end
      end
  end.
(** All calls but those with which a caller chooses the capacity. *)
Definition sautomatic (o : sop) : bool := match o with SReserve _ | SShrinkToFit => false | _ => true end.

(** The same for bitsets; the second number counts bits. *)
Fixpoint run_bcost (b : bitset) (ops : list bitop) : Mem.M N (N * N * bitset) := fun w =>
  match ops with
  | [] => Ok (0, 0, b) w
  | o :: ops =>
      match run_bitop b o w with
      | Fault f => Fault f
      | Ok (_, b1) w1 =>
          match run_bcost b1 ops w1 with
          | Fault f => Fault f
          | Ok (blocks, changes, b2) w2 =>
              Ok ((tick w1 - tick w) * snd (bs_get_capacity_bytes b1) + blocks,
                  distance (snd (bs_get_size b)) (snd (bs_get_size b1)) + changes, b2) w2
          end
      end
  end.
Definition bautomatic (o : bitop) : bool := match o with BReserve _ | BShrinkToFit => false | _ => true end.
(** The number of calls of Clear. *)
Fixpoint clears (ops : list sop) : N := match ops with [] => 0 | SClear :: ops => 1 + clears ops | _ :: ops => clears ops end.
