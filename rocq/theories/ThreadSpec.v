(** Threads that run the modelled functions at the same time in one memory (property C90): calls taken apart into single
    accesses of the memory, and a machine that interleaves them.  No proofs here. *)
From Verif Require Import Base Status Mem VectorModel.

Section Threads.
  Context {C : Type}.

  (** ** Calls in single steps *)
  (** What a thread still has to do: its next access of the memory or request to the allocator, and how it goes on with the
      answer.  [Tail p f] reads on from [p] as far as [f] has to look (strlen); [Build] asks whether assertions are compiled in;
      [Log] is the call of a destructor with an element that the thread has read; [Place] and [Drop] are the caller's, who keeps
      an argument in memory of its own. *)
  Inductive code (A : Type) :=
  | Done (a : A)
  | Crash (f : fault)
  | Read (p : option ptr) (n : N) (k : list C -> code A)
  | Tail (p : option ptr) (f : list C -> option N) (k : N -> code A)
  | Build (k : bool -> code A)
  | Write (p : option ptr) (x : list C) (k : code A)
  | Alloc (e n : N) (k : status * option ptr -> code A)
  | Realloc (p : option ptr) (e n : N) (k : status * option ptr -> code A)
  | Dealloc (p : option ptr) (e n : N) (k : status -> code A)
  | Log (x : list C) (k : code A)
  | Place (x : list C) (k : option ptr -> code A)
  | Drop (b : N) (k : code A).
  Global Arguments Done {A}. Global Arguments Crash {A}. Global Arguments Read {A}. Global Arguments Tail {A}.
  Global Arguments Build {A}. Global Arguments Write {A}. Global Arguments Alloc {A}. Global Arguments Realloc {A}.
  Global Arguments Dealloc {A}. Global Arguments Log {A}. Global Arguments Place {A}. Global Arguments Drop {A}.

  (** The accesses that Mem.v does not name. *)
  Definition mtail (p : option ptr) (f : list C -> option N) : M C N := fun w =>
    match p with
    | None => Fault NullDeref
    | Some p =>
        match heap w (pb p) with
        | None => Fault UseAfterFree
        | Some buf => match f (nskip (po p) buf) with None => Fault OutOfBounds | Some n => Ok n w end
        end
    end.
  Definition mbuild : M C bool := fun w => Ok (checked w) w.
  Definition mlog (x : list C) : M C unit := fun w =>
    Ok tt (mkbuild (heap w) (nextb w) (orc w) (tick w) (dlog w ++ [x]) (checked w)).
  Definition mplace (x : list C) : M C (option ptr) := fun w =>
    Ok (Some (mkptr (nextb w) 0))
       (mkbuild (hset (heap w) (nextb w) (Some x)) (nextb w + 1) (orc w) (tick w) (dlog w) (checked w)).
  Definition mdrop (b : N) : M C unit := fun w =>
    Ok tt (match heap w b with Some _ => set_heap w (hset (heap w) b None) | None => w end).

  (** One step: the accesses are those of Mem.v. *)
  Definition step {A} (c : code A) : M C (code A) :=
    match c with
    | Done a => ret (Done a)
    | Crash f => fail f
    | Read p n k => let* x := mread p n in ret (k x)
    | Tail p f k => let* n := mtail p f in ret (k n)
    | Build k => let* b := mbuild in ret (k b)
    | Write p x k => mwrite p x ;;; ret k
    | Alloc e n k => let* r := alloc e n in ret (k r)
    | Realloc p e n k => let* r := realloc p e n in ret (k r)
    | Dealloc p e n k => let* r := dealloc p e n in ret (k r)
    | Log x k => mlog x ;;; ret k
    | Place x k => let* p := mplace x in ret (k p)
    | Drop b k => mdrop b ;;; ret k
    end.
  (** All steps, one after the other, by a thread alone. *)
  Fixpoint run {A} (c : code A) : M C A :=
    match c with
    | Done a => ret a
    | Crash f => fail f
    | Read p n k => let* x := mread p n in run (k x)
    | Tail p f k => let* n := mtail p f in run (k n)
    | Build k => let* b := mbuild in run (k b)
    | Write p x k => mwrite p x ;;; run k
    | Alloc e n k => let* r := alloc e n in run (k r)
    | Realloc p e n k => let* r := realloc p e n in run (k r)
    | Dealloc p e n k => let* r := dealloc p e n in run (k r)
    | Log x k => mlog x ;;; run k
    | Place x k => let* p := mplace x in run (k p)
    | Drop b k => mdrop b ;;; run k
    end.
  (** The number of its steps. *)
  Fixpoint steps {A} (c : code A) (w : world C) : N :=
    match c with
    | Done _ | Crash _ => 0
    | Read p n k => match mread p n w with Ok x w => 1 + steps (k x) w | _ => 1 end
    | Tail p f k => match mtail p f w with Ok x w => 1 + steps (k x) w | _ => 1 end
    | Build k => match mbuild w with Ok x w => 1 + steps (k x) w | _ => 1 end
    | Write p x k => match mwrite p x w with Ok _ w => 1 + steps k w | _ => 1 end
    | Alloc e n k => match alloc e n w with Ok x w => 1 + steps (k x) w | _ => 1 end
    | Realloc p e n k => match realloc p e n w with Ok x w => 1 + steps (k x) w | _ => 1 end
    | Dealloc p e n k => match dealloc p e n w with Ok x w => 1 + steps (k x) w | _ => 1 end
    | Log x k => match mlog x w with Ok _ w => 1 + steps k w | _ => 1 end
    | Place x k => match mplace x w with Ok p w => 1 + steps (k p) w | _ => 1 end
    | Drop b k => match mdrop b w with Ok _ w => 1 + steps k w | _ => 1 end
    end.
  (** The blocks that its steps change (or allocate, or release). *)
  Definition block_of (p : option ptr) : list N := match p with Some p => [pb p] | None => [] end.
  Fixpoint changes {A} (c : code A) (w : world C) : list N :=
    match c with
    | Done _ | Crash _ => []
    | Read p n k => match mread p n w with Ok x w => changes (k x) w | _ => [] end
    | Tail p f k => match mtail p f w with Ok x w => changes (k x) w | _ => [] end
    | Build k => match mbuild w with Ok x w => changes (k x) w | _ => [] end
    | Write p x k => match mwrite p x w with Ok _ w => block_of p ++ changes k w | _ => [] end
    | Alloc e n k => match alloc e n w with Ok r w => block_of (snd r) ++ changes (k r) w | _ => [] end
    | Realloc p e n k => match realloc p e n w with Ok r w => block_of p ++ block_of (snd r) ++ changes (k r) w | _ => [] end
    | Dealloc p e n k => match dealloc p e n w with Ok x w => block_of p ++ changes (k x) w | _ => [] end
    | Log x k => match mlog x w with Ok _ w => changes k w | _ => [] end
    | Place x k => match mplace x w with Ok p w => block_of p ++ changes (k p) w | _ => [] end
    | Drop b k => match mdrop b w with Ok _ w => b :: changes k w | _ => [] end
    end.
  (** Worlds with the same memory (and everything else), and outcomes with the same result and the same world. *)
  Definition same_world (w w' : world C) : Prop :=
    (forall b, heap w b = heap w' b) /\
    nextb w = nextb w' /\ orc w = orc w' /\ tick w = tick w' /\ dlog w = dlog w' /\ checked w = checked w'.
  Definition same_outcome {A} (r r' : res C A) : Prop :=
    match r, r' with
    | Ok a w, Ok a' w' => a = a' /\ same_world w w'
    | Fault f, Fault f' => f = f'
    | _, _ => False
    end.
  (** The steps, made by a thread alone, amount to the computation [m] of the model, whatever the memory is. *)
  Definition amounts_to {A} (c : code A) (m : M C A) : Prop := forall w, same_outcome (run c w) (m w).
  (** It changes only blocks that were live before or that it has got itself. *)
  Definition tidy {A} (c : code A) : Prop := forall w a w', run c w = Ok a w' ->
    forall b, In b (changes c w) -> heap w b <> None \/ nextb w <= b < nextb w'.
  (** A computation that consists of such steps. *)
  Definition in_steps {A} (m : M C A) : Prop := exists c, amounts_to c m /\ tidy c.
  (** Steps that change nothing. *)
  Fixpoint reads_only {A} (c : code A) : Prop :=
    match c with
    | Done _ | Crash _ => True
    | Read _ _ k => forall x, reads_only (k x)
    | Tail _ _ k => forall n, reads_only (k n)
    | Build k => forall b, reads_only (k b)
    | _ => False
    end.
  Definition only_reads {A} (m : M C A) : Prop := exists c, amounts_to c m /\ reads_only c.

  (** ** The machine *)
  (** [sees]: what a thread knows of the world besides the memory (the next name that the allocator will use for a block
      handed to this thread, the answers to its requests, the calls of its destructors).  The memory in it is not used: there is
      only one memory, which all threads share. *)
  Record thread (A : Type) := mkthread { todo : code A; sees : world C }.
  Global Arguments mkthread {A}. Global Arguments todo {A}. Global Arguments sees {A}.
  Record machine (A : Type) := mkmachine { memory : N -> option (list C); threads : N -> thread A }.
  Global Arguments mkmachine {A}. Global Arguments memory {A}. Global Arguments threads {A}.
  (** Thread [t] makes its next step; [None]: undefined behaviour, or an assertion fails. *)
  Definition turn {A} (t : N) (m : machine A) : option (machine A) :=
    let th := threads m t in
    match step (todo th) (set_heap (sees th) (memory m)) with
    | Ok c w => Some (mkmachine (heap w) (fun u => if u =? t then mkthread c w else threads m u))
    | Fault _ => None
    end.
  (** A schedule says which thread makes its next step. *)
  Fixpoint play {A} (schedule : list N) (m : machine A) : option (machine A) :=
    match schedule with
    | [] => Some m
    | t :: schedule => match turn t m with Some m => play schedule m | None => None end
    end.
  Definition start {A} (memory : N -> option (list C)) (cs : N -> code A) (ws : N -> world C) : machine A :=
    mkmachine memory (fun t => mkthread (cs t) (ws t)).
  (** Number of turns of thread [t]. *)
  Fixpoint turns (t : N) (schedule : list N) : N :=
    match schedule with [] => 0 | u :: schedule => (if u =? t then 1 else 0) + turns t schedule end.
  (** Thread [t] has come to its end with result [a] and has the world [w] before it. *)
  Definition finished {A} (m : machine A) (t : N) (a : A) (w : world C) : Prop :=
    todo (threads m t) = Done a /\ w = set_heap (sees (threads m t)) (memory m).

  (** ** Which memory belongs to which thread *)
  (** Blocks that thread [t] can use: those of [ws t], which it is given, and those that it gets from the allocator, whose names
      are below [last t]. *)
  Definition owns (ws : N -> world C) (last : N -> N) (t b : N) : Prop :=
    heap (ws t) b <> None \/ nextb (ws t) <= b < last t.
  (** No thread can use a block that another thread changes. *)
  Definition apart {A} (cs : N -> code A) (ws : N -> world C) (last : N -> N) : Prop :=
    forall t u b, t <> u -> In b (changes (cs t) (ws t)) -> ~ owns ws last u b.
  (** The memory that the threads start with has the blocks of each of them, with their contents. *)
  Definition holds_all (memory : N -> option (list C)) (ws : N -> world C) (last : N -> N) : Prop :=
    forall t b, owns ws last t b -> memory b = heap (ws t) b.
  (** The worlds before and after are the same as far as the thread can tell. *)
  Definition same_view (ws : N -> world C) (last : N -> N) (t : N) (w w' : world C) : Prop :=
    nextb w = nextb w' /\ orc w = orc w' /\ tick w = tick w' /\ dlog w = dlog w' /\ checked w = checked w' /\
    forall b, owns ws last t b -> heap w b = heap w' b.
End Threads.
Arguments code : clear implicits.
Arguments thread : clear implicits.
Arguments machine : clear implicits.
