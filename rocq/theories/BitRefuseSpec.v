(** Growable bitsets with an allocator that refuses requests (property C83).  No proofs here. *)
From Verif Require Import Base Status Mem VectorModel VectorSpec VectorDriver RefuseSpec StringModel BitsetModel BitsetSpec BitsetDriver.

(** What a caller sees of a bitset: GetSize, the bits that Test answers for, GetSizeBytes and GetCapacityBytes. *)
Record bstate := mkbst { bt_size : N; bt_bits : list bool; bt_bytes : N; bt_cap : N }.
(** A bitset in order: the size is the number of bits, and they are in as few bytes as possible. *)
Definition whole (bs : list bool) (cap : N) : bstate := mkbst (nlen bs) bs ((nlen bs + 7) / 8) cap.
Definition bstate_shown (w : world N) (b : bitset) (s : bstate) : Prop :=
  bs_get_size b = (ST_SUCCESS, bt_size s) /\
  (forall i, i < W64 -> bs_test b i w = Ok (verdict (nnth i (bt_bits s))) w) /\
  bs_get_size_bytes b = (ST_SUCCESS, bt_bytes s) /\ bs_get_capacity_bytes b = (ST_SUCCESS, bt_cap s).

(** The change that a call makes to the bytes of a bitset of [len] bits; [None]: it does not change their number or the
    memory they are in. *)
Definition bchange (o : bitop) (len : N) : option (vop N) :=
  match o with
  | BPush _ => if len mod 8 =? 0 then Some (OPushBack [0]) else None
  | BPop => if len mod 8 =? 1 then Some OPopBack else None
  | BClear => Some OClear
  | BReserve n => Some (OReserve (n / 8))
  | BShrinkToFit => Some OShrinkToFit
  | _ => None
  end.
(** The number of bytes that the call requests from the allocator, for a bitset with growth factor [g] and shrink threshold
    [t]; [None]: it requests nothing. *)
Definition basked (g t : N) (o : bitop) (bs : list bool) (cap : N) : option N :=
  match bchange o (nlen bs) with
  | Some v => asked (mkcfg false g t 1 None) v ((nlen bs + 7) / 8) cap
  | None => None
  end.

(** The state after a call whose request of [k] bytes is refused.  Push has counted a bit that does not exist.  Pop has
    removed the bit.  Clear has set the size to 0 but left the bytes.  The capacity is the requested one. *)
Definition brefused (o : bitop) (k : N) (bs : list bool) : bstate :=
  let bytes := (nlen bs + 7) / 8 in
  match o with
  | BPush _ => mkbst (nlen bs + 1) bs bytes k
  | BPop => whole (nfirst (nlen bs - 1) bs) k
  | BClear => mkbst 0 [] bytes k
  | _ => mkbst (nlen bs) bs bytes k
  end.
(** One call on a bitset with the bits [bs] and the capacity [cap] when the allocator would answer its request with [ans]. *)
Definition bcall (g t : N) (ans : aresp N) (o : bitop) (bs : list bool) (cap : N) (r : status) (s' : bstate) : Prop :=
  match basked g t o bs cap, refusal ans with
  | Some k, Some e => r = err_status e /\ s' = brefused o k bs
  | a, _ => r = fst (bitstep None o bs) /\
      s' = whole (snd (bitstep None o bs)) (match a with Some k => k | None => cap end)
  end.
Definition brefuses (g t : N) (ans : aresp N) (o : bitop) (bs : list bool) (cap : N) : Prop :=
  basked g t o bs cap <> None /\ refusal ans <> None.
Definition brequests (g t : N) (o : bitop) (bs : list bool) (cap : N) : N :=
  match basked g t o bs cap with None => 0 | Some _ => 1 end.
(** The bitset is in order and its capacity is no lie: the block of [cap] bytes or more that it still has holds it. *)
Definition busable (cap : N) (s' : bstate) : Prop :=
  s' = whole (bt_bits s') (bt_cap s') /\ bt_bytes s' <= bt_cap s' /\ bt_cap s' <= cap.

(** A history under an allocator that answers request number [n] with [ans n], in which every refused request leaves a usable
    bitset; [n'] is the number of the next request. *)
Inductive bcalls (g t : N) (ans : N -> aresp N) : N -> list bitop -> list bool -> N -> list status -> list bool -> N -> N -> Prop :=
| bcalls_nil n bs cap : bcalls g t ans n [] bs cap [] bs cap n
| bcalls_cons n o ops bs cap r s1 rs bs2 cap2 n2 :
    bcall g t (ans n) o bs cap r s1 -> (brefuses g t (ans n) o bs cap -> busable cap s1) ->
    bcalls g t ans (n + brequests g t o bs cap) ops (bt_bits s1) (bt_cap s1) rs bs2 cap2 n2 ->
    bcalls g t ans n (o :: ops) bs cap (r :: rs) bs2 cap2 n2.

(** Legal parameters of ZyanBitsetInitEx, whatever the allocator does. *)
Definition bitinit_params_ok (w : world N) (n g t : N) : Prop :=
  world_ok w /\ 1 <= g < 256 /\ t < 256 /\ n / 8 < W32.
(** ZyanBitsetDestroy succeeds and leaves the memory that there was in [w0]. *)
Definition bdestroys_back (w0 w : world N) (b : bitset) : Prop :=
  exists b' w', bs_destroy b w = Ok (ST_SUCCESS, b') w' /\ forall k, heap w' k = heap w0 k.
