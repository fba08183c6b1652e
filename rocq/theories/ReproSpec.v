(** Reproducibility: which programs leave nothing to chance.  No proofs here. *)
From Verif Require Import Base Status Mem VectorModel VectorSpec VectorDriver StringModel StringSpec StringDriver
  BitsetModel BitsetSpec BitsetDriver FormatSpec ProgSpec VectorExamples.

(** A constructor that does not look at the former bytes of the slot. *)
Definition fresh_ctor (e : N) (f : list N -> status * list N) : Prop :=
  forall a b, nlen a = e -> nlen b = e -> snd (f a) = snd (f b).
(** The step gives no object contents that the documentation leaves open: no new element without a value
    (Emplace without a constructor, or with one that looks at what was there before; Resize to a larger size without
    an initial value), no string with characters nobody wrote (Resize to a larger size), and no logical operation whose
    source ends in the middle of a byte that the destination goes on in. *)
Definition determined (p : pstep) (K : store) : Prop :=
  match p with
  | PVecCall i (OEmplace c) | PVecCall i (OEmplaceEx _ c) =>
      forall cf xs cap, holds K i (KVec cf xs cap) -> exists f, c = Some f /\ fresh_ctor (c_esz cf) f
  | PVecCall i (OResize n) => forall cf xs cap, holds K i (KVec cf xs cap) -> n <= nlen xs
  | PStrCall i (SResize n) | PFormat _ i (FStr (SResize n)) => forall cs, holds K i (KStr cs) -> n <= nlen cs
  | PLogic _ i j => forall xs ys, holds K i (KBits xs) -> holds K j (KBits ys) -> nlen ys mod 8 = 0 \/ nlen xs <= nlen ys
  | _ => True
  end.
Fixpoint determineds (ps : list pstep) (K : store) (log : list (list N)) : Prop :=
  match ps with
  | [] => True
  | p :: ps => determined p K /\ forall r K' log', pspec p K log r K' log' -> determineds ps K' log'
  end.

(** Two contents that may differ in the values of elements, characters and bits only. *)
Definition same_shape (k1 k2 : option content) : Prop :=
  match k1, k2 with
  | None, None => True
  | Some (KVec c1 xs cap1), Some (KVec c2 ys cap2) => c1 = c2 /\ nlen xs = nlen ys /\ cap1 = cap2
  | Some (KStr cs), Some (KStr ds) => nlen cs = nlen ds
  | Some (KBits bs), Some (KBits ds) => nlen bs = nlen ds
  | _, _ => False
  end.

(** Memory that holds something else: the allocator hands out blocks full of counters, and there is a block already. *)
Definition other_world : world N :=
  release (mkworld (hset (fun _ => None) 0 (Some [1;2;3])) 1 (fun _ => AOk (fun k => k mod 256)) 0 []).
(** A constructor that writes [5;5], and a program with it. *)
Definition fives (old : list N) : status * list N := (ST_SUCCESS, [5;5]).
Definition settled_program : list pstep :=
  [ PBits 8 2 1; PBits 8 1 0; PBitCall 1 (BSet 3); PLogic LXor 0 1; PVec 2 0 (Some (fun x => x)) 2 1;
    PVecCall 2 (OEmplace (Some fives)); PVecCall 2 (OPushBack [1;2]); PVecCall 2 (OResize 1); PStr 0 2 1;
    PStrCall 3 (SAppend [72;105]); PStrCall 3 (SResize 1); PFormat true 3 (FHexS (-255) 3 true false (Some [48;120]));
    PConcat 3 3 0 1 0; PVecCopy 2 4 1 0; PStrCopy 4 0 2 1 ].
(** A program that leaves the value of a new element open. *)
Definition open_program : list pstep := [ PVec 2 0 None 2 1; PVecCall 0 (OEmplace None) ].
