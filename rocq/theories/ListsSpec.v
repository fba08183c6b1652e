(** Programs that work with several lists: the calls in any order, and what they should do.  The lists have names
    (numbers); an entry of the machine's state is element size, number of nodes that fit (lists in a caller's
    buffer), destructor and elements. *)
From Verif Require Import Base Status Mem VectorModel VectorDriver ListModel ListSpec ListDriver.

(** Init(Ex), InitCustomBuffer with the [cap] bytes at offset [off] of block [b], a call on a list, Destroy. *)
Inductive lcmd :=
| CInit (i e : N) (d : option (element -> element))
| CInitBuffer (i e : N) (d : option (element -> element)) (b off cap : N)
| CCall (i : N) (o : lop cell)
| CDestroy (i : N).
Definition put {A} (s : N -> option A) (i : N) (x : option A) : N -> option A := fun j => if j =? i then x else s j.
Definition empty {A} : N -> option A := fun _ => None.

(** ** The program *)
(** A call on a list that does not exist is a bad pointer; the state after a failed Init has no list of that name. *)
Definition run_cmd (s : N -> option zlist) (c : lcmd) : M (status * (N -> option zlist)) :=
  match c with
  | CInit i e d => let* (st, l) := linit_ex e d true in ret (st, put s i l)
  | CInitBuffer i e d b off cap =>
      let* (st, l) := linit_custom e d (Some (mkptr b off)) cap in ret (st, put s i l)
  | CCall i o =>
      match s i with
      | None => fail BadPointer
      | Some l => let* (st, l) := run_lop l o in ret (st, put s i (Some l))
      end
  | CDestroy i =>
      match s i with
      | None => fail BadPointer
      | Some l => let* (st, _) := ldestroy l in ret (st, put s i None)
      end
  end.
Fixpoint run_cmds (s : N -> option zlist) (cs : list lcmd) : M (list status * (N -> option zlist)) :=
  match cs with
  | [] => ret ([], s)
  | c :: cs =>
      let* (r, s1) := run_cmd s c in
      let* (rs, s2) := run_cmds s1 cs in
      ret (r :: rs, s2)
  end.

(** ** Legal programs *)
(** Lists are created before they are used, under a free name, with legal parameters; a list in a buffer gets bytes of
    a block [w0] has, and the block is used by no other list at that time.  [live]: element size and buffer block. *)
Definition cmd_ok (w0 : world cell) (live : N -> option (N * option N)) (c : lcmd) : Prop :=
  match c with
  | CInit i e d => live i = None /\ 1 <= e /\ NODE_SIZE + e < W64 /\ dtor_ok e d
  | CInitBuffer i e d b off cap =>
      live i = None /\ 1 <= e /\ dtor_ok e d /\ 1 <= cap /\ cap + (NODE_SIZE + e) < W64 /\
      (exists x, heap w0 b = Some x /\ off + cap <= nlen x) /\
      forall j e', live j <> Some (e', Some b)
  | CCall i o => exists e b, live i = Some (e, b) /\ larg_ok e o
  | CDestroy i => live i <> None
  end.
Definition live_after (live : N -> option (N * option N)) (c : lcmd) : N -> option (N * option N) :=
  match c with
  | CInit i e _ => put live i (Some (e, None))
  | CInitBuffer i e _ b _ _ => put live i (Some (e, Some b))
  | CCall _ _ => live
  | CDestroy i => put live i None
  end.
Fixpoint cmds_ok (w0 : world cell) (live : N -> option (N * option N)) (cs : list lcmd) : Prop :=
  match cs with
  | [] => True
  | c :: cs => cmd_ok w0 live c /\ cmds_ok w0 (live_after live c) cs
  end.
Fixpoint cmds_demand (cs : list lcmd) : N :=
  match cs with
  | [] => 0
  | CCall _ o :: cs => ldemand o + cmds_demand cs
  | _ :: cs => cmds_demand cs
  end.
(** The blocks handed over as buffers. *)
Definition buffers (cs : list lcmd) : list N :=
  flat_map (fun c => match c with CInitBuffer _ _ _ b _ _ => [b] | _ => [] end) cs.

(** ** The machine *)
Record alist := mkalist { a_esz : N; a_limit : option N; a_dtor : option (element -> element); a_elems : list element }.
(** Status [r], state afterwards and what the destructors see.  A call concerns the list it names only. *)
Definition cmd_spec (fails : Prop) (c : lcmd) (s : N -> option alist) (r : status) (s' : N -> option alist)
    (log : list element) : Prop :=
  match c with
  | CInit i e d => r = ST_SUCCESS /\ s' = put s i (Some (mkalist e None d [])) /\ log = []
  | CInitBuffer i e d _ _ cap => r = ST_SUCCESS /\ s' = put s i (Some (mkalist e (Some (nodes_in cap e)) d [])) /\ log = []
  | CCall i o => exists a xs gone new,
      s i = Some a /\ lspec (a_esz a) (a_limit a) fails o (a_elems a) r xs gone new /\
      s' = put s i (Some (mkalist (a_esz a) (a_limit a) (a_dtor a) xs)) /\ log = seen (a_dtor a) gone
  | CDestroy i => exists a, s i = Some a /\ r = ST_SUCCESS /\ s' = put s i None /\ log = seen (a_dtor a) (a_elems a)
  end.
Inductive cmds_spec (fails : Prop) :
  list lcmd -> (N -> option alist) -> list status -> (N -> option alist) -> list element -> Prop :=
| cmds_nil s : cmds_spec fails [] s [] s []
| cmds_cons c cs s r s1 log1 rs s2 log2 :
    cmd_spec fails c s r s1 log1 -> cmds_spec fails cs s1 rs s2 log2 ->
    cmds_spec fails (c :: cs) s (r :: rs) s2 (log1 ++ log2).

(** The lists of the program are those of the machine: same names, and each shows its elements. *)
Definition lists_show (w : world cell) (s : N -> option zlist) (a : N -> option alist) : Prop :=
  forall i, match s i, a i with
            | Some l, Some x => l_esz l = a_esz x /\ exists ps, lshows w l ps (a_elems x)
            | None, None => True
            | _, _ => False
            end.
