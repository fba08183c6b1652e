(** Client programs of lists: how a caller drives the modelled functions.  No proofs here. *)
From Verif Require Import Base Status Mem VectorModel VectorDriver ListModel ListSpec.
Notation op := (lop cell).

(** The node reached from the head by [i] calls of GetNextNode. *)
Fixpoint walk (node : option ptr) (i : nat) : M (option ptr) :=
  match i with
  | O => ret node
  | S i => let* (_, node) := lget_next_node node in walk node i
  end.
Definition nth_node (l : zlist) (i : N) : M (option ptr) := walk (snd (lget_head l)) (N.to_nat i).

(** The caller's stores through the pointer Emplace returned. *)
Definition store_item (p : option ptr) (x : option element) : M unit :=
  match x with None => ret tt | Some x => mwrite p x end.
Definition after_emplace (m : M (status * zlist * option ptr)) (store : option element) : M (status * zlist) :=
  let* (st, l, p) := m in
  (if st_success st then store_item p store else ret tt) ;;;
  ret (st, l).
(** An optional argument in memory of its own. *)
Definition with_opt {A} (x : option element) (k : option ptr -> M A) : M A :=
  match x with None => k None | Some x => with_arg x k end.
Definition run_lop (l : zlist) (o : op) : M (status * zlist) :=
  match o with
  | LPushBack x => with_arg x (lpush_back l)
  | LPushFront x => with_arg x (lpush_front l)
  | LEmplaceBack f s => after_emplace (lemplace_back l f) s
  | LEmplaceFront f s => after_emplace (lemplace_front l f) s
  | LPopBack => lpop_back l
  | LPopFront => lpop_front l
  | LClear => lclear l
  | LResize n init => with_opt init (lresize_ex l n)
  | LSet i x =>
      let* node := nth_node l i in
      with_arg x (fun p => let* st := lset_node_data l node p in ret (st, l))
  end.
Fixpoint run_lops (l : zlist) (ops : list op) : M (list status * zlist) :=
  match ops with
  | [] => ret ([], l)
  | o :: ops =>
      let* (r, l1) := run_lop l o in
      let* (rs, l2) := run_lops l1 ops in
      ret (r :: rs, l2)
  end.

(** All nodes with their data, from [node] on, with GetNextNode (or GetPrevNode), which must report success, and GetNodeData. *)
Fixpoint traverse (step : option ptr -> M (status * option ptr)) (e : N) (node : option ptr) (fuel : nat)
    : M (list (ptr * element)) :=
  match node with
  | None => ret []
  | Some p =>
      match fuel with
      | O => fail OutOfFuel
      | S fuel =>
          let* x := mread (lget_node_data node) e in
          let* (st, next) := step node in
          if negb (st =? ST_SUCCESS) then fail BadPointer else
          let* rest := traverse step e next fuel in
          ret ((p, x) :: rest)
      end
  end.
(** What the API shows of a list: GetSize, the nodes [ps] and the elements [xs] in forward and in backward order. *)
Definition lshows (w : world cell) (l : zlist) (ps : list ptr) (xs : list element) : Prop :=
  length ps = length xs /\
  lget_size l = (ST_SUCCESS, nlen xs) /\ fst (lget_head l) = ST_SUCCESS /\ fst (lget_tail l) = ST_SUCCESS /\
  traverse lget_next_node (l_esz l) (snd (lget_head l)) (length xs) w = Ok (combine ps xs) w /\
  traverse lget_prev_node (l_esz l) (snd (lget_tail l)) (length xs) w = Ok (rev (combine ps xs)) w.

(** What a call with status [r] does to the nodes: a node stays where it is until it is removed. *)
Definition lnodes (o : op) (r : status) (ps ps' : list ptr) : Prop :=
  match o with
  | LPushBack _ | LEmplaceBack _ _ => if st_success r then exists p, ps' = ps ++ [p] else ps' = ps
  | LPushFront _ | LEmplaceFront _ _ => if st_success r then exists p, ps' = p :: ps else ps' = ps
  | LPopBack => if st_success r then exists p, ps = ps' ++ [p] else ps' = ps
  | LPopFront => if st_success r then exists p, ps = p :: ps' else ps' = ps
  | LClear => ps' = []
  | LResize n _ => if n <=? nlen ps then ps' = nfirst n ps else exists qs, ps' = ps ++ qs
  | LSet _ _ => ps' = ps
  end.

(** The allocator answers some request with an error. *)
Definition fails (w : world cell) : Prop := exists t st, orc w t = AFail st.
(** The elements the destructor has to see. *)
Definition seen {A} (d : option (A -> A)) (gone : list A) : list A := match d with None => [] | Some _ => gone end.

(** Legal parameters of ZyanListInitEx. *)
Definition linit_args_ok (w : world cell) (e : N) (d : option (element -> element)) : Prop :=
  world_ok w /\ 1 <= e /\ NODE_SIZE + e < W64 /\ dtor_ok e d.
(** Legal parameters of ZyanListInitCustomBuffer: the caller's block [b] holds [pre], the buffer, [post]. *)
Definition lbuffer_args_ok (w : world cell) (e : N) (d : option (element -> element)) (cap b : N)
    (pre buf post : list cell) : Prop :=
  world_ok w /\ 1 <= e /\ dtor_ok e d /\ heap w b = Some (pre ++ buf ++ post) /\ nlen buf = cap /\ 1 <= cap /\
  cap + (NODE_SIZE + e) < W64.
(** The number of nodes that fit. *)
Definition nodes_in (cap e : N) : N := cap / (NODE_SIZE + e).
(** The address of the [i]-th slot of the buffer. *)
Definition slot (b base e i : N) : ptr := mkptr b (base + i * (NODE_SIZE + e)).

(** A list in a state reached by some history of calls, with the elements [xs]. *)
Definition lreached (limit : option N) (w : world cell) (l : zlist) (xs : list element) : Prop :=
  exists w0 e d l0 w1 ops rs ps,
    match limit with
    | None => linit_args_ok w0 e d /\ linit_ex e d true w0 = Ok (ST_SUCCESS, Some l0) w1
    | Some k => exists cap b pre buf post, k = nodes_in cap e /\ lbuffer_args_ok w0 e d cap b pre buf post /\
        linit_custom e d (Some (mkptr b (nlen pre))) cap w0 = Ok (ST_SUCCESS, Some l0) w1
    end /\
    Forall (larg_ok e) ops /\ ldemands ops < W64 /\
    run_lops l0 ops w1 = Ok (rs, l) w /\ lshows w l ps xs.
