(** Programs that use any number of vectors, strings and bitsets at the same time.  First what such a program means in
    terms of plain lists, each object having contents of its own; then how the modelled functions run it, all objects
    living in one memory and sharing one allocator.  No proofs here. *)
From Verif Require Import Base Status Mem VectorModel VectorSpec VectorDriver StringModel StringSpec StringDriver
  BitsetModel BitsetSpec BitsetDriver FormatModel FormatSpec FormatDriver.

Inductive logic := LAnd | LOr | LXor.
Definition connective (op : logic) : bool -> bool -> bool :=
  match op with LAnd => andb | LOr => orb | LXor => xorb end.

(** Objects are numbered in the order of their creation. *)
Inductive pstep :=
| PVec (e cap : N) (d : option (list N -> list N)) (g s : N)   (* create a vector: element size, capacity, destructor, growth factor, shrink threshold *)
| PStr (cap g s : N)                                           (* create a string *)
| PBits (n g s : N)                                            (* create a bitset of [n] bits *)
| PVecCall (i : N) (o : vop N)                                 (* a call on vector [i] *)
| PStrCall (i : N) (o : sop)
| PBitCall (i : N) (o : bitop)
| PPushFrom (i j k : N)                                        (* PushBack element [k] of vector [j] to vector [i] *)
| PAppendFrom (i j : N)                                        (* Append string [j] to string [i] *)
| PInsertFrom (i k j : N)                                      (* Insert string [j] at position [k] of string [i] *)
| PLogic (op : logic) (i j : N)                                (* AND, OR, XOR of the bitsets [i] and [j] into [i] *)
| PVecCopy (i cap g s : N)                                     (* create a vector: a duplicate of vector [i] *)
| PStrCopy (i cap g s : N)                                     (* create a string: a duplicate of string [i] *)
| PConcat (i j cap g s : N)                                    (* create a string: the strings [i] and [j] one after the other *)
| PFormat (is64 : bool) (i : N) (o : fop)                      (* append a number to string [i], in a 64-bit or a 32-bit build *)
| PDestroy (i : N).

(** ** Meaning *)
Inductive content :=
| KVec (c : vcfg N) (xs : list (list N)) (cap : N)
| KStr (cs : list N)
| KBits (bs : list bool).
(** The contents of all objects; [None]: destroyed. *)
Notation store := (list (option content)).
Definition put {A} (i : N) (x : A) (l : list A) : list A := nfirst i l ++ [x] ++ nskip (i + 1) l.
Definition holds (K : store) (i : N) (k : content) : Prop := nnth i K = Some (Some k).

(** [zs] is [xs] combined with [ys]; from the end of the last byte of [ys] on it is [xs]. *)
Definition combined (f : bool -> bool -> bool) (xs ys zs : list bool) : Prop :=
  nlen zs = nlen xs /\
  (forall i x y, nnth i xs = Some x -> nnth i ys = Some y -> nnth i zs = Some (f x y)) /\
  (forall i, 8 * ((nlen ys + 7) / 8) <= i -> nnth i zs = nnth i xs).

(** The elements passed to a destructor when an object is destroyed. *)
Definition last_words (k : content) : list (list N) :=
  match k with KVec c xs _ => destroyed c xs | _ => [] end.

(** One step: it takes the contents [K] and the log of destroyed elements to [K'] and [log'].  A step on object [i] gives
    object [i] the contents that the specification of its kind says, and leaves all others alone. *)
Definition pspec (p : pstep) (K : store) (log : list (list N)) (r : status) (K' : store) (log' : list (list N)) : Prop :=
  match p with
  | PVec e cap d g s => r = ST_SUCCESS /\ K' = K ++ [Some (KVec (mkcfg false g s e d) [] (N.max 1 cap))] /\ log' = log
  | PStr _ _ _ => r = ST_SUCCESS /\ K' = K ++ [Some (KStr [])] /\ log' = log
  | PBits n _ _ => r = ST_SUCCESS /\ K' = K ++ [Some (KBits (zeros n))] /\ log' = log
  | PVecCall i o => exists c xs cap xs' cap', holds K i (KVec c xs cap) /\
      vspec c o (mkst xs cap log) r (mkst xs' cap' log') /\ K' = put i (Some (KVec c xs' cap')) K
  | PStrCall i o => exists cs cs', holds K i (KStr cs) /\ sspec None o cs r cs' /\ K' = put i (Some (KStr cs')) K /\ log' = log
  | PBitCall i o => exists bs, holds K i (KBits bs) /\ r = fst (bitstep None o bs) /\
      K' = put i (Some (KBits (snd (bitstep None o bs)))) K /\ log' = log
  | PPushFrom i j k => exists c xs cap c2 ys cap2 y xs' cap', holds K i (KVec c xs cap) /\ holds K j (KVec c2 ys cap2) /\
      nnth k ys = Some y /\ vspec c (OPushBack y) (mkst xs cap log) r (mkst xs' cap' log') /\
      K' = put i (Some (KVec c xs' cap')) K
  | PAppendFrom i j => exists cs x cs', holds K i (KStr cs) /\ holds K j (KStr x) /\ sspec None (SAppend x) cs r cs' /\
      K' = put i (Some (KStr cs')) K /\ log' = log
  | PInsertFrom i k j => exists cs x cs', holds K i (KStr cs) /\ holds K j (KStr x) /\ sspec None (SInsert k x) cs r cs' /\
      K' = put i (Some (KStr cs')) K /\ log' = log
  | PLogic op i j => exists xs ys zs, holds K i (KBits xs) /\ holds K j (KBits ys) /\ combined (connective op) xs ys zs /\
      r = ST_SUCCESS /\ K' = put i (Some (KBits zs)) K /\ log' = log
  | PVecCopy i cap g s => exists c xs cap0, holds K i (KVec c xs cap0) /\ r = ST_SUCCESS /\
      K' = K ++ [Some (KVec (mkcfg false g s (c_esz c) (c_dtor c)) xs (N.max 1 (N.max cap (nlen xs))))] /\ log' = log
  | PStrCopy i _ _ _ => exists cs, holds K i (KStr cs) /\ r = ST_SUCCESS /\ K' = K ++ [Some (KStr cs)] /\ log' = log
  | PConcat i j _ _ _ => exists x y, holds K i (KStr x) /\ holds K j (KStr y) /\ r = ST_SUCCESS /\
      K' = K ++ [Some (KStr (x ++ y))] /\ log' = log
  | PFormat _ i o => exists cs cs', holds K i (KStr cs) /\ fspec None o cs r cs' /\ K' = put i (Some (KStr cs')) K /\ log' = log
  | PDestroy i => exists k, holds K i k /\ r = ST_SUCCESS /\ K' = put i None K /\ log' = log ++ last_words k
  end.
Inductive pspecs : list pstep -> store -> list (list N) -> list status -> store -> list (list N) -> Prop :=
| pspecs_nil K log : pspecs [] K log [] K log
| pspecs_cons p ps K log r K1 log1 rs K2 log2 :
    pspec p K log r K1 log1 -> pspecs ps K1 log1 rs K2 log2 -> pspecs (p :: ps) K log (r :: rs) K2 log2.

(** Steps that a correct program may take: legal parameters and arguments, objects of the right kind that are not destroyed
    yet, two different objects where there are two (only [PConcat] may be given the same one twice), and no object too large for the address space. *)
Definition plegal (p : pstep) (K : store) : Prop :=
  match p with
  | PVec e cap d g s => 1 <= e /\ dtor_ok e d /\ 1 <= g < 256 /\ s < 256 /\ N.max 1 cap * e < W64
  | PStr cap g s => 1 <= g < 256 /\ s < 256 /\ N.max 32 cap + 1 < W64
  | PBits n g s => 1 <= g < 256 /\ s < 256 /\ n / 8 < W32 /\ n mod 8 = 0
  | PVecCall i o => exists c xs cap, holds K i (KVec c xs cap) /\ arg_ok (c_esz c) o /\ room (nlen xs + demand o) (c_esz c)
  | PStrCall i o => exists cs, holds K i (KStr cs) /\ sums_ok o /\ sroom (nlen cs + sdemand o)
  | PBitCall i o => exists bs, holds K i (KBits bs) /\ legal_op None o bs /\ bitroom (nlen bs)
  | PPushFrom i j k => i <> j /\ exists c xs cap c2 ys cap2, holds K i (KVec c xs cap) /\ holds K j (KVec c2 ys cap2) /\
      c_esz c2 = c_esz c /\ k < nlen ys /\ room (nlen xs + 1) (c_esz c)
  | PAppendFrom i j | PInsertFrom i _ j => i <> j /\ exists cs x, holds K i (KStr cs) /\ holds K j (KStr x) /\ sroom (nlen cs + nlen x)
  | PLogic _ i j => i <> j /\ exists xs ys, holds K i (KBits xs) /\ holds K j (KBits ys)
  | PVecCopy i cap g s => 1 <= g < 256 /\ s < 256 /\
      exists c xs cap0, holds K i (KVec c xs cap0) /\ N.max 1 (N.max cap (nlen xs)) * c_esz c < W64
  | PStrCopy i cap g s => 1 <= g < 256 /\ s < 256 /\
      exists cs, holds K i (KStr cs) /\ N.max 32 (N.max cap (nlen cs)) + 1 < W64
  | PConcat i j cap g s => 1 <= g < 256 /\ s < 256 /\
      exists x y, holds K i (KStr x) /\ holds K j (KStr y) /\ N.max 32 (N.max cap (nlen x + nlen y)) + 1 < W64
  | PFormat _ i o => exists cs, holds K i (KStr cs) /\ fargs_ok o /\ sroom (nlen cs + fdemand o)
  | PDestroy i => exists k, holds K i k
  end.
(** A program all of whose steps are legal, whatever the unspecified values (of emplaced elements, say) are. *)
Fixpoint plegals (ps : list pstep) (K : store) (log : list (list N)) : Prop :=
  match ps with
  | [] => True
  | p :: ps => plegal p K /\ forall r K' log', pspec p K log r K' log' -> plegals ps K' log'
  end.

(** ** Execution *)
Inductive obj := OV (v : vector N) | OS (s : str) | OB (b : bitset).
Notation objs := (list (option obj)).
Definition byte_op (op : logic) : bitset -> bitset -> M status :=
  match op with LAnd => bs_and | LOr => bs_or | LXor => bs_xor end.
(** A step that names no object of the right kind is not run at all. *)
Definition on_vec {A} (os : objs) (i : N) (k : vector N -> M A) : M A :=
  match nnth i os with Some (Some (OV v)) => k v | _ => fail BadPointer end.
Definition on_str {A} (os : objs) (i : N) (k : str -> M A) : M A :=
  match nnth i os with Some (Some (OS s)) => k s | _ => fail BadPointer end.
Definition on_bits {A} (os : objs) (i : N) (k : bitset -> M A) : M A :=
  match nnth i os with Some (Some (OB b)) => k b | _ => fail BadPointer end.
Definition run_step (os : objs) (p : pstep) : M (status * objs) :=
  match p with
  | PVec e cap d g s => let* (r, v) := vinit_ex e cap d true g s in ret (r, os ++ [option_map OV v])
  | PStr cap g s => let* (r, x) := sinit_ex cap true g s in ret (r, os ++ [option_map OS x])
  | PBits n g s => let* (r, b) := with_zero (fun z => bs_init_ex z n true g s) in ret (r, os ++ [option_map OB b])
  | PVecCall i o => on_vec os i (fun v => let* (r, v) := run_op v o in ret (r, put i (Some (OV v)) os))
  | PStrCall i o => on_str os i (fun s => let* (r, s) := run_sop s o in ret (r, put i (Some (OS s)) os))
  | PBitCall i o => on_bits os i (fun b => let* (r, b) := run_bitop b o in ret (r, put i (Some (OB b)) os))
  | PPushFrom i j k => on_vec os i (fun v => on_vec os j (fun u =>
      let* p := vget u k in let* (r, v) := vpush_back v p in ret (r, put i (Some (OV v)) os)))
  | PAppendFrom i j => on_str os i (fun s => on_str os j (fun t =>
      let* (r, s) := sappend s t in ret (r, put i (Some (OS s)) os)))
  | PInsertFrom i k j => on_str os i (fun s => on_str os j (fun t =>
      let* (r, s) := sinsert s k t in ret (r, put i (Some (OS s)) os)))
  | PLogic op i j => on_bits os i (fun b => on_bits os j (fun c =>
      let* r := byte_op op b c in ret (r, put i (Some (OB b)) os)))
  | PVecCopy i cap g s => on_vec os i (fun v =>
      let* (r, d) := vduplicate_ex v cap true g s in ret (r, os ++ [option_map OV d]))
  | PStrCopy i cap g s => on_str os i (fun s0 =>
      let* (r, d) := sduplicate_ex s0 cap true g s in ret (r, os ++ [option_map OS d]))
  | PConcat i j cap g s => on_str os i (fun s1 => on_str os j (fun s2 =>
      let* (r, d) := sconcat_ex s1 s2 cap true g s in ret (r, os ++ [option_map OS d])))
  | PFormat is64 i o => on_str os i (fun s => let* (r, s) := run_fop is64 s o in ret (r, put i (Some (OS s)) os))
  | PDestroy i =>
      match nnth i os with
      | Some (Some (OV v)) => let* (r, _) := vdestroy v in ret (r, put i None os)
      | Some (Some (OS s)) => let* (r, _) := sdestroy s in ret (r, put i None os)
      | Some (Some (OB b)) => let* (r, _) := bs_destroy b in ret (r, put i None os)
      | _ => fail BadPointer
      end
  end.
Fixpoint run_prog (os : objs) (ps : list pstep) : M (list status * objs) :=
  match ps with
  | [] => ret ([], os)
  | p :: ps =>
      let* (r, os1) := run_step os p in
      let* (rs, os2) := run_prog os1 ps in
      ret (r :: rs, os2)
  end.

(** What the API shows of every object. *)
Definition obj_shows (w : world N) (x : option obj) (k : option content) : Prop :=
  match x, k with
  | None, None => True
  | Some (OV v), Some (KVec c xs cap) => shows w v xs /\ vget_capacity v = (ST_SUCCESS, cap)
  | Some (OS s), Some (KStr cs) => sshows w s cs
  | Some (OB b), Some (KBits bs) => bitshows w b bs
  | _, _ => False
  end.
(** The blocks of the old memory are still there, with their contents. *)
Definition untouched (w w' : world N) : Prop := forall b buf, heap w b = Some buf -> heap w' b = Some buf.
(** The object whose contents a step changes; [None]: the step creates an object. *)
Definition target (p : pstep) : option N :=
  match p with
  | PVec _ _ _ _ _ | PStr _ _ _ | PBits _ _ _ | PVecCopy _ _ _ _ | PStrCopy _ _ _ _ | PConcat _ _ _ _ _ => None
  | PVecCall i _ | PStrCall i _ | PBitCall i _ | PPushFrom i _ _ | PAppendFrom i _ | PInsertFrom i _ _ | PLogic _ i _
  | PFormat _ i _ | PDestroy i => Some i
  end.
(** Two vectors, two strings and two bitsets, used in turns; everything is destroyed in the end. *)
Definition example_program : list pstep :=
  [ PVec 2 0 None 2 1; PStr 0 2 1; PBits 16 2 1; PVec 2 4 (Some (fun x => x)) 2 1; PStr 40 1 0; PBits 8 1 0;
    PVecCall 3 (OPushBack [7; 8]); PStrCall 1 (SAppend [72; 105]); PBitCall 2 (BSet 3); PPushFrom 0 3 0; PStrCall 4 (SAppend [33]);
    PAppendFrom 1 4; PInsertFrom 4 0 1; PBitCall 5 (BSet 3); PLogic LXor 2 5; PVecCall 3 (OPushBack [9; 9]); PDestroy 3;
    PVecCall 0 (OPushBack [1; 2]); PDestroy 5; PDestroy 1; PBitCall 2 (BSet 0); PDestroy 4; PDestroy 0; PDestroy 2 ].
(** Copies, and a number; the element of the vector is passed to the destructor twice, once for each vector that has it. *)
Definition copy_program : list pstep :=
  [ PStr 0 2 1; PStrCall 0 (SAppend [72; 105]); PFormat true 0 (FDecU 42 4); PStrCopy 0 0 1 0; PStrCall 0 (SDelete 0 4); PConcat 1 0 0 2 1;
    PVec 1 0 (Some (fun x => x)) 2 1; PVecCall 3 (OPushBack [7]); PVecCopy 3 8 2 1;
    PDestroy 3; PDestroy 4; PDestroy 2; PDestroy 1; PDestroy 0 ].
