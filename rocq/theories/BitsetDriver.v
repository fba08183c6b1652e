(** Client programs of bitsets: how a caller drives the modelled functions.  No proofs here. *)
From Verif Require Import Base Status Mem VectorModel VectorDriver StringModel BitsetModel BitsetSpec.

(** The static zero byte the functions copy from lives in a block of its own. *)
Definition with_zero {A} (k : option ptr -> M A) : M A := with_arg [0] k.

Definition keep (b : bitset) (m : M status) : M (status * bitset) := let* r := m in ret (r, b).
Definition run_bitop (b : bitset) (o : bitop) : M (status * bitset) :=
  match o with
  | BSet i => keep b (bs_set b i)
  | BReset i => keep b (bs_reset b i)
  | BAssign i value => keep b (bs_assign b i value)
  | BToggle i => keep b (bs_toggle b i)
  | BSetAll => keep b (bs_set_all b)
  | BResetAll => keep b (bs_reset_all b)
  | BFlip => keep b (bs_flip b)
  | BPush value => with_zero (fun z => bs_push z b value)
  | BPop => bs_pop b
  | BClear => bs_clear b
  | BReserve n => bs_reserve b n
  | BShrinkToFit => bs_shrink_to_fit b
  end.
Fixpoint run_bitops (b : bitset) (ops : list bitop) : M (list status * bitset) :=
  match ops with
  | [] => ret ([], b)
  | o :: ops =>
      let* (r, b1) := run_bitop b o in
      let* (rs, b2) := run_bitops b1 ops in
      ret (r :: rs, b2)
  end.

(** What Test says of a bit. *)
Definition verdict (x : option bool) : status :=
  match x with Some true => ST_TRUE | Some false => ST_FALSE | None => ST_OUT_OF_RANGE end.
(** What the API shows of a bitset: GetSize, Test at every index, TestMSB and TestLSB, GetSizeBytes. *)
Definition bitshows (w : world N) (b : bitset) (bs : list bool) : Prop :=
  bs_get_size b = (ST_SUCCESS, nlen bs) /\
  (forall i, i < W64 -> bs_test b i w = Ok (verdict (nnth i bs)) w) /\
  bs_test_msb b w = Ok (verdict (nnth 0 (rev bs))) w /\
  bs_test_lsb b w = Ok (verdict (nnth 0 bs)) w /\
  bs_get_size_bytes b = (ST_SUCCESS, (nlen bs + 7) / 8).

(** Legal parameters of ZyanBitsetInitEx in a world whose allocator works. *)
Definition bitinit_args_ok (w : world N) (n g s : N) : Prop :=
  world_ok w /\ allocator_ok w /\ 1 <= g < 256 /\ s < 256 /\ n / 8 < W32.
(** Legal parameters of ZyanBitsetInitBuffer: the caller's block [b] holds [pre], the buffer, [post]. *)
Definition bitbuffer_args_ok (w : world N) (n cap b : N) (pre buf post : list N) : Prop :=
  world_ok w /\ heap w b = Some (pre ++ buf ++ post) /\ nlen buf = cap /\ 1 <= cap < W64 /\ n / 8 < W32 /\
  n / 8 <= cap.
(** Bitsets of [n] bits, times the largest growth factor, fit into the address space. *)
Definition bitroom (n : N) : Prop := (n / 8 + 1) * 256 < W64.

Definition zeros (n : N) : list bool := nrepeat false n.
(** A bitset built in world [w0] and brought by a history of calls into a state with the bits [bs]; the history starts
    with [n] bits, a multiple of 8. *)
Definition bitbuilt_by (good : option N -> list bitop -> list bool -> Prop) (limit : option N)
    (w0 w : world N) (b : bitset) (bs : list bool) : Prop :=
  exists n ops b0 w1 rs,
    match limit with
    | None => exists g s, bitinit_args_ok w0 n g s /\
        with_zero (fun z => bs_init_ex z n true g s) w0 = Ok (ST_SUCCESS, Some b0) w1
    | Some k => exists cap blk pre buf post, k = 8 * cap /\ bitbuffer_args_ok w0 n cap blk pre buf post /\
        with_zero (fun z => bs_init_buffer z n (Some (mkptr blk (nlen pre))) cap) w0 = Ok (ST_SUCCESS, Some b0) w1
    end /\
    n mod 8 = 0 /\ legal limit ops (zeros n) /\ good limit ops (zeros n) /\ bitroom (n + pushes ops) /\
    run_bitops b0 ops w1 = Ok (rs, b) w /\ bs = snd (bitsteps limit ops (zeros n)).
Definition bitbuilt := bitbuilt_by (fun _ _ _ => True).
Definition bitreached limit w b bs := exists w0, bitbuilt limit w0 w b bs.
(** The same for histories that leave no stale bits. *)
Definition bitreached_tidy limit w b bs := exists w0, bitbuilt_by tidy limit w0 w b bs.
(** The two bitsets do not share their memory. *)
Definition apart (b c : bitset) : Prop :=
  forall p q, v_data (bs_bits b) = Some p -> v_data (bs_bits c) = Some q -> pb p <> pb q.

(** From world [w] on the bitset behaves as one with the bits [bs]. *)
Definition bitbehaves_as (limit : option N) (w : world N) (b : bitset) (bs : list bool) : Prop :=
  forall ops, legal limit ops bs -> bitroom (nlen bs + pushes ops) ->
    exists b' w', run_bitops b ops w = Ok (fst (bitsteps limit ops bs), b') w' /\
      bitshows w' b' (snd (bitsteps limit ops bs)).

(** The status that answers a question, and the identity on booleans ("the bit is set"). *)
Definition yes_no (x : bool) : status := if x then ST_TRUE else ST_FALSE.
Definition id_bool (x : bool) : bool := x.
(** C38: what [call] does when it combines the bits of two bitsets with [f]. *)
Definition combines (call : bitset -> bitset -> M status) (f : bool -> bool -> bool) : Prop :=
  forall limd (w : world N) d xs lims w1 s ys,
    bitreached limd w d xs -> bitbuilt lims w w1 s ys -> apart d s ->
    exists w2 zs, call d s w1 = Ok ST_SUCCESS w2 /\ nlen zs = nlen xs /\
      bitbehaves_as limd w2 d zs /\ bitbehaves_as lims w2 s ys /\
      (forall i x y, nnth i xs = Some x -> nnth i ys = Some y -> nnth i zs = Some (f x y)) /\
      (forall i, 8 * ((nlen ys + 7) / 8) <= i -> nnth i zs = nnth i xs).
