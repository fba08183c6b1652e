(** Programs that meet an allocator that may refuse any request: a careful client looks at every status, does not use an
    object whose creation failed, and only destroys an object one of whose calls was refused memory (property C88).
    The steps are those of ProgSpec.v.  No proofs here. *)
From Verif Require Import Base Status Mem VectorModel VectorSpec VectorDriver StringModel StringSpec StringDriver
  BitsetModel BitsetSpec BitsetDriver RefuseSpec FormatSpec FmtRefuseSpec ProgSpec.

(** A client that decides what to do next when it sees the status of the last step. *)
Inductive client :=
| Finish
| Do (p : pstep) (next : status -> client).

(** ** Meaning
    The state: the contents of the objects as in ProgSpec.v, where [None] stands for an object that is not to be used any
    more; and of those the spoiled ones, which are still to be destroyed: number and the elements that the destructor will
    be passed then. *)
Notation spoils := (list (N * list (list N))).

(** What a step leaves whose request for memory is refused. *)
Definition refused_step (p : pstep) (K : store) (sp : spoils) (log : list (list N)) (K' : store) (sp' : spoils) (log' : list (list N)) : Prop :=
  let spoil i words := K' = put i None K /\ sp' = (i, words) :: sp in
  match p with
  | PVec _ _ _ _ _ | PStr _ _ _ | PBits _ _ _ | PVecCopy _ _ _ _ | PStrCopy _ _ _ _ | PConcat _ _ _ _ _ => K' = K ++ [None] /\ sp' = sp /\ log' = log
  | PVecCall i o => exists c xs cap k s, holds K i (KVec c xs cap) /\ asked c o (nlen xs) cap = Some k /\
      vrefused c o k (mkst xs cap log) s /\ spoil i (destroyed c (s_elems s)) /\ log' = s_log s
  | PPushFrom i j _ => exists c xs cap, holds K i (KVec c xs cap) /\ cap < nlen xs + 1 /\ spoil i (destroyed c xs) /\ log' = log
  | PStrCall i _ | PAppendFrom i _ | PInsertFrom i _ _ | PFormat _ i _ => exists cs, holds K i (KStr cs) /\ spoil i [] /\ log' = log
  | PBitCall i _ => exists bs, holds K i (KBits bs) /\ spoil i [] /\ log' = log
  | PLogic _ _ _ | PDestroy _ => False
  end.
(** A step asks for memory this often at most: once, but several times when it formats a number. *)
Definition step_requests (p : pstep) : N := match p with PFormat _ _ o => max_requests o | _ => 1 end.
(** One step, with an allocator that answers request number [t] with [ans t]; [t'] is the number of the next request. *)
Definition xstep (ans : N -> aresp N) (p : pstep) (K : store) (sp : spoils) (log : list (list N)) (t : N)
    (r : status) (K' : store) (sp' : spoils) (log' : list (list N)) (t' : N) : Prop :=
  (** the requests are granted, if there are any: as in ProgSpec.v *)
  (pspec p K log r K' log' /\ sp' = sp /\ t <= t' <= t + step_requests p /\ all_granted ans t t') \/
  (** a request is refused: it is the last one, and its error is returned *)
  (exists e, t < t' <= t + step_requests p /\ all_granted ans t (t' - 1) /\ ans (t' - 1) = AFail e /\ r = err_status e /\
     refused_step p K sp log K' sp' log') \/
  (** a spoiled object is destroyed *)
  (exists i words, p = PDestroy i /\ In (i, words) sp /\ r = ST_SUCCESS /\
     K' = K /\ sp' = filter (fun x => negb (fst x =? i)) sp /\ log' = log ++ words /\ t' = t).
Inductive xsteps (ans : N -> aresp N) : client -> store -> spoils -> list (list N) -> N ->
    list status -> store -> spoils -> list (list N) -> N -> Prop :=
| xsteps_finish K sp log t : xsteps ans Finish K sp log t [] K sp log t
| xsteps_do p next K sp log t r K1 sp1 log1 t1 rs K2 sp2 log2 t2 :
    xstep ans p K sp log t r K1 sp1 log1 t1 -> xsteps ans (next r) K1 sp1 log1 t1 rs K2 sp2 log2 t2 ->
    xsteps ans (Do p next) K sp log t (r :: rs) K2 sp2 log2 t2.

(** A careful client: every step is legal as in ProgSpec.v or destroys a spoiled object, whatever the allocator
    answers. *)
Fixpoint careful (q : client) (K : store) (sp : spoils) (log : list (list N)) : Prop :=
  match q with
  | Finish => True
  | Do p next =>
      (plegal p K \/ exists i words, p = PDestroy i /\ In (i, words) sp) /\
      forall ans t r K' sp' log' t', xstep ans p K sp log t r K' sp' log' t' -> careful (next r) K' sp' log'
  end.

(** ** Execution *)
(** A step; an object whose creation failed is forgotten. *)
Definition try_step (os : objs) (p : pstep) : M (status * objs) :=
  let* (r, os') := run_step os p in
  ret (r, match target p with None => if st_success r then os' else os ++ [None] | Some _ => os' end).
Fixpoint run_client (os : objs) (q : client) : M (list status * objs) :=
  match q with
  | Finish => ret ([], os)
  | Do p next =>
      let* (r, os1) := try_step os p in
      let* (rs, os2) := run_client os1 (next r) in
      ret (r :: rs, os2)
  end.

(** The numbers of the objects that are still to be destroyed. *)
Definition remaining (os : objs) : list N :=
  filter (fun i => match nnth i os with Some (Some _) => true | _ => false end) (map N.of_nat (seq 0 (length os))).

(** ** Examples *)
(** A client that fills a vector and a string, and gives up when it is refused memory. *)
Definition example_client : client :=
  Do (PVec 1 0 (Some (fun x => x)) 2 1) (fun r =>
  if negb (st_success r) then Finish else
  Do (PVecCall 0 (OPushBack [7])) (fun _ =>
  Do (PStr 0 2 1) (fun r =>
  if negb (st_success r) then Do (PDestroy 0) (fun _ => Finish) else
  Do (PVecCall 0 (OPushBack [8])) (fun r =>
  if negb (st_success r) then Do (PDestroy 0) (fun _ => Do (PStrCall 1 (SAppend [33])) (fun _ => Do (PDestroy 1) (fun _ => Finish))) else
  Do (PFormat true 1 (FDecS (-72) 100 false None)) (fun _ =>
  Do (PDestroy 0) (fun _ =>
  Do (PDestroy 1) (fun _ => Finish))))))).
Definition refuses_request (n : N) : N -> aresp N := fun t => if t =? n then AFail 5 else AOk (fun _ => 0).
