(** Programs over several bitsets: creating them, changing them one by one, combining any two of them (also one with
    itself).  Specification: a list of the states of ExactSpec.v; driver: the calls of the API. *)
From Verif Require Import Base Status Mem VectorModel VectorDriver StringModel BitsetModel BitsetSpec BitsetDriver ExactSpec.

(** ** Specification *)
(** The three logical operations, include/Zycore/Bitset.h:177-205. *)
Inductive gate := And | Or | Xor.
Definition gate_fun (g : gate) : bool -> bool -> bool :=
  match g with And => andb | Or => orb | Xor => xorb end.
(** A call of a program; the bitsets are numbered in the order of their creation. *)
Inductive bcall :=
| BNew (n g t : N)             (* a new bitset of [n] bits, growth factor [g], shrink threshold [t] *)
| BOn (i : N) (o : bitop)      (* one of the calls of BitsetSpec.v on bitset [i] *)
| BCombine (g : gate) (i j : N). (* bitset [i] combined with bitset [j] *)
(** The [i]-th element replaced. *)
Definition put_at {A} (i : N) (x : A) (l : list A) : list A := nfirst i l ++ x :: nskip (i + 1) l.
(** The status of one call and the states afterwards. *)
Definition call_step (c : bcall) (ss : list raw) : status * list raw :=
  match c with
  | BNew n _ _ => (ST_SUCCESS, ss ++ [raw_init n])
  | BOn i o =>
      match nnth i ss with
      | Some s => let (r, s1) := raw_step None o s in (r, put_at i s1 ss)
      | None => (ST_INVALID_ARGUMENT, ss)
      end
  | BCombine g i j =>
      match nnth i ss, nnth j ss with
      | Some s, Some t => (ST_SUCCESS, put_at i (fst s, merge_bits (gate_fun g) (snd s) (snd t)) ss)
      | _, _ => (ST_INVALID_ARGUMENT, ss)
      end
  end.
Fixpoint call_steps (cs : list bcall) (ss : list raw) : list status * list raw :=
  match cs with
  | [] => ([], ss)
  | c :: cs =>
      let (r, ss1) := call_step c ss in
      let (rs, ss2) := call_steps cs ss1 in
      (r :: rs, ss2)
  end.
(** Legal programs with [k] bitsets so far: only existing bitsets are used, legal parameters of Init. *)
Fixpoint calls_ok (k : N) (cs : list bcall) : Prop :=
  match cs with
  | [] => True
  | BNew n g t :: cs => n < W64 /\ 1 <= g < 256 /\ t < 256 /\ calls_ok (k + 1) cs
  | BOn i _ :: cs => i < k /\ calls_ok k cs
  | BCombine _ i j :: cs => i < k /\ j < k /\ calls_ok k cs
  end.
(** At most so many bits does any of the bitsets get. *)
Fixpoint calls_need (cs : list bcall) : N :=
  match cs with
  | [] => 0
  | BNew n _ _ :: cs => 8 * whole_bytes n + calls_need cs
  | BOn _ o :: cs => 8 * pushes [o] + calls_need cs
  | BCombine _ _ _ :: cs => calls_need cs
  end.

(** ** Driver *)
Definition gate_call (g : gate) : bitset -> bitset -> M status :=
  match g with And => bs_and | Or => bs_or | Xor => bs_xor end.
Definition run_bcall (bs : list bitset) (c : bcall) : M (status * list bitset) :=
  match c with
  | BNew n g t =>
      let* (r, b) := with_zero (fun z => bs_init_ex z n true g t) in
      ret (r, match b with Some b => bs ++ [b] | None => bs end)
  | BOn i o =>
      match nnth i bs with
      | Some b => let* (r, b1) := run_bitop b o in ret (r, put_at i b1 bs)
      | None => fail NullDeref
      end
  | BCombine g i j =>
      match nnth i bs, nnth j bs with
      | Some b, Some c => let* r := gate_call g b c in ret (r, bs)
      | _, _ => fail NullDeref
      end
  end.
Fixpoint run_bcalls (bs : list bitset) (cs : list bcall) : M (list status * list bitset) :=
  match cs with
  | [] => ret ([], bs)
  | c :: cs =>
      let* (r, bs1) := run_bcall bs c in
      let* (rs, bs2) := run_bcalls bs1 cs in
      ret (r :: rs, bs2)
  end.
(** All bitsets destroyed, the first one first. *)
Fixpoint destroy_all (bs : list bitset) : M (list status) :=
  match bs with
  | [] => ret []
  | b :: bs =>
      let* (r, _) := bs_destroy b in
      let* rs := destroy_all bs in
      ret (r :: rs)
  end.

(** ** Laws *)
(** The programs [P] and [Q], started with the bitsets [bs] in world [w], cannot be told apart: the
    statuses of both are all ST_SUCCESS and all queries on all bitsets answer the same afterwards. *)
Definition same_effect (bs : list bitset) (w : world N) (P Q : list bcall) : Prop :=
  exists bs1 w1 bs2 w2 ss,
    run_bcalls bs P w = Ok (map (fun _ => ST_SUCCESS) P, bs1) w1 /\ Forall2 (raw_shows w1) bs1 ss /\
    run_bcalls bs Q w = Ok (map (fun _ => ST_SUCCESS) Q, bs2) w2 /\ Forall2 (raw_shows w2) bs2 ss.
(** Bitsets some legal program has led to, in a world whose allocator works; [k] of them, with room for the bits of
    programs that add none. *)
Definition bitsets (k : N) (w : world N) (bs : list bitset) (ss : list raw) : Prop :=
  exists w0 cs rs, world_ok w0 /\ allocator_ok w0 /\ calls_ok 0 cs /\ bitroom (calls_need cs) /\
    run_bcalls [] cs w0 = Ok (rs, bs) w /\ ss = snd (call_steps cs []) /\ nlen bs = k.
