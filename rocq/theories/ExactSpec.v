(** What a bitset does under every history of calls, also those that make no sense: a machine whose state is the size
    the bitset claims and the bits its bytes hold.  Nothing in the first part mentions memory or the code. *)
From Verif Require Import Base Status Mem VectorModel VectorDriver StringModel BitsetModel BitsetSpec BitsetDriver.

(** The claimed size, and the bits of all bytes (eight for each byte); the two need not agree. *)
Definition raw : Type := N * list bool.

Definition raw_change (f : bool -> bool) (i : N) (s : raw) : status * raw :=
  let (n, cs) := s in
  if (n <=? i) || (nlen cs <=? i) then (ST_OUT_OF_RANGE, s) else (ST_SUCCESS, (n, put_bit f i cs)).
(** The number of bytes asked for by Init and Reserve: the number of whole bytes, which is cut to 32 bits and then one
    more. *)
Definition whole_bytes (n : N) : N := if n / 8 <? W32 then n / 8 else (n / 8 + 1) mod W32.
(** One call: the status and the state afterwards.  [limit] is the number of bits of a fixed buffer. *)
Definition raw_step (limit : option N) (o : bitop) (s : raw) : status * raw :=
  let (n, cs) := s in
  match o with
  | BSet i => raw_change (fun _ => true) i s
  | BReset i => raw_change (fun _ => false) i s
  | BAssign i value => raw_change (fun _ => value) i s
  | BToggle i => raw_change negb i s
  | BSetAll => (ST_SUCCESS, (n, map (fun _ => true) cs))
  | BResetAll => (ST_SUCCESS, (n, map (fun _ => false) cs))
  | BFlip => (ST_SUCCESS, (n, map negb cs))
  | BPush value =>
      (* the size is raised first; a byte is added where the old size is a multiple of 8 *)
      let n' := (n + 1) mod W64 in
      if n mod 8 =? 0 then
        if holds_bits limit (nlen cs + 8) then raw_change (fun _ => value) n (n', cs ++ zeros 8)
        else (ST_INSUFFICIENT_BUFFER_SIZE, (n', cs))
      else raw_change (fun _ => value) n (n', cs)
  | BPop =>
      let n' := if n =? 0 then W64 - 1 else n - 1 in
      if n' mod 8 =? 0 then
        if nlen cs =? 0 then (ST_OUT_OF_RANGE, (n', cs)) else (ST_SUCCESS, (n', nfirst (nlen cs - 8) cs))
      else (ST_SUCCESS, (n', cs))
  | BClear => (ST_SUCCESS, (0, []))
  | BReserve k => (if holds_bits limit (8 * whole_bytes k) then ST_SUCCESS else ST_INSUFFICIENT_BUFFER_SIZE, s)
  | BShrinkToFit => (ST_SUCCESS, s)
  end.
Fixpoint raw_steps (limit : option N) (ops : list bitop) (s : raw) : list status * raw :=
  match ops with
  | [] => ([], s)
  | o :: ops =>
      let (r, s1) := raw_step limit o s in
      let (rs, s2) := raw_steps limit ops s1 in
      (r :: rs, s2)
  end.
(** The state Init and InitBuffer leave. *)
Definition raw_init (n : N) : raw := (n, zeros (8 * whole_bytes n)).

(** Bit [i] as Test sees it. *)
Definition raw_bit (s : raw) (i : N) : option bool := if fst s <=? i then None else nnth i (snd s).
(** The positions in the last byte which All, Any and None do not look at, by the number of bits the size says are used
    in it (0: all of them). *)
Definition ignored (r : N) : list N :=
  match r with
  | 0 => [4]
  | 1 => [5;6;7]
  | 2 => [5;6]
  | 3 => [5;7]
  | 4 => [5]
  | 5 => [6;7]
  | 6 => [6]
  | _ => [7]
  end.
Fixpoint drop_at (ks : list N) (i : N) (bs : list bool) : list bool :=
  match bs with
  | [] => []
  | x :: bs => if existsb (N.eqb i) ks then drop_at ks (i + 1) bs else x :: drop_at ks (i + 1) bs
  end.
(** The bits All, Any and None look at. *)
Definition looked_at (s : raw) : list bool :=
  nfirst (nlen (snd s) - 8) (snd s) ++ drop_at (ignored (fst s mod 8)) 0 (nskip (nlen (snd s) - 8) (snd s)).
(** Two bit lists combined, as far as both go; the rest of the first. *)
Fixpoint merge_bits (f : bool -> bool -> bool) (xs ys : list bool) : list bool :=
  match xs, ys with
  | x :: xs, y :: ys => f x y :: merge_bits f xs ys
  | _, _ => xs
  end.

(** ** What the API shows of a bitset in the state [s]: every query. *)
Definition raw_shows (w : world N) (b : bitset) (s : raw) : Prop :=
  bs_get_size b = (ST_SUCCESS, fst s) /\
  bs_get_size_bytes b = (ST_SUCCESS, nlen (snd s) / 8) /\
  (forall i, i < W64 -> bs_test b i w = Ok (verdict (raw_bit s i)) w) /\
  bs_test_msb b w = Ok (verdict (if fst s =? 0 then None else raw_bit s (fst s - 1))) w /\
  bs_test_lsb b w = Ok (verdict (raw_bit s 0)) w /\
  bs_count b w = Ok (ST_SUCCESS, N.min (ones (snd s)) (fst s)) w /\
  bs_all b w = Ok (yes_no (forallb id_bool (looked_at s))) w /\
  bs_any b w = Ok (yes_no (existsb id_bool (looked_at s))) w /\
  bs_none b w = Ok (yes_no (negb (existsb id_bool (looked_at s)))) w.

(** Parameters of Init and InitBuffer: any number of bits a ZyanUSize holds. *)
Definition any_init_args (w : world N) (n g s : N) : Prop :=
  world_ok w /\ allocator_ok w /\ 1 <= g < 256 /\ s < 256 /\ n < W64.
Definition any_buffer_args (w : world N) (n cap b : N) (pre buf post : list N) : Prop :=
  world_ok w /\ heap w b = Some (pre ++ buf ++ post) /\ nlen buf = cap /\ 1 <= cap < W64 /\ n < W64.
(** A bitset built in world [w0] and brought by any history into the state [s]. *)
Definition raw_built (limit : option N) (w0 w : world N) (b : bitset) (s : raw) : Prop :=
  exists n ops b0 w1 rs,
    match limit with
    | None => exists g t, any_init_args w0 n g t /\
        with_zero (fun z => bs_init_ex z n true g t) w0 = Ok (ST_SUCCESS, Some b0) w1
    | Some k => exists cap blk pre buf post, k = 8 * cap /\ any_buffer_args w0 n cap blk pre buf post /\ whole_bytes n <= cap /\
        with_zero (fun z => bs_init_buffer z n (Some (mkptr blk (nlen pre))) cap) w0 = Ok (ST_SUCCESS, Some b0) w1
    end /\
    bitroom (8 * whole_bytes n + 8 * pushes ops) /\
    run_bitops b0 ops w1 = Ok (rs, b) w /\ s = snd (raw_steps limit ops (raw_init n)).
Definition raw_reached limit w b s := exists w0, raw_built limit w0 w b s.
(** From world [w] on the bitset behaves as one in the state [s]. *)
Definition raw_behaves (limit : option N) (w : world N) (b : bitset) (s : raw) : Prop :=
  forall ops, bitroom (nlen (snd s) + 8 * pushes ops) ->
    exists b' w', run_bitops b ops w = Ok (fst (raw_steps limit ops s), b') w' /\
      raw_shows w' b' (snd (raw_steps limit ops s)).
(** What [call] does when it combines two bitsets bit by bit. *)
Definition raw_combines (call : bitset -> bitset -> M status) (f : bool -> bool -> bool) : Prop :=
  forall limd (w : world N) d s lims w1 e t,
    raw_reached limd w d s -> raw_built lims w w1 e t -> apart d e ->
    exists w2, call d e w1 = Ok ST_SUCCESS w2 /\
      raw_behaves limd w2 d (fst s, merge_bits f (snd s) (snd t)) /\ raw_behaves lims w2 e t.
