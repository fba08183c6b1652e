(** A list whose elements own memory: the client, and what it expects.  No proofs here.

    As for vectors ([OwnDriver.v]): an element names a block, and the destructor [release] releases that block. *)
From Verif Require Import Base Status Mem VectorModel VectorDriver ListModel ListSpec ListDriver OwnDriver OwnListModel.

Section Client.
  Variables (e : N) (name : N -> list cell) (own : list cell -> N).
  Notation release := (release e own).

  (** An object that the list did not take is released by the client. *)
  Definition lunless_taken (b : N) (rl : status * zlist) : M (status * zlist) :=
    if st_success (fst rl) then ret rl else let* _ := dealloc (Some (mkptr b 0)) 1 1 in ret rl.

  (** The calls of the client.  [QEmplaceBack], [QEmplaceFront]: Emplace without a constructor, the caller stores the element
      through the pointer it gets.  [QSet i]: SetNodeData for the [i]-th node. [QShorten n]: Resize to [n] unless the list is shorter. *)
  Inductive qop :=
  | QPushBack (buf : list cell)
  | QPushFront (buf : list cell)
  | QEmplaceBack (buf : list cell)
  | QEmplaceFront (buf : list cell)
  | QPopBack
  | QPopFront
  | QSet (i : N) (buf : list cell)
  | QShorten (n : N)
  | QClear.

  Definition run_qop (l : zlist) (o : qop) : M (status * zlist) :=
    match o with
    | QPushBack buf => let* b := new_object buf in let* rl := with_arg (name b) (lpush_back l) in lunless_taken b rl
    | QPushFront buf => let* b := new_object buf in let* rl := with_arg (name b) (lpush_front l) in lunless_taken b rl
    | QEmplaceBack buf =>
        let* b := new_object buf in let* rl := after_emplace (lemplace_back l None) (Some (name b)) in lunless_taken b rl
    | QEmplaceFront buf =>
        let* b := new_object buf in let* rl := after_emplace (lemplace_front l None) (Some (name b)) in lunless_taken b rl
    | QPopBack => olpop_back release l
    | QPopFront => olpop_front release l
    | QSet i buf =>
        let* b := new_object buf in
        let* node := nth_node l i in
        let* rl := with_arg (name b) (fun p => let* st := olset_node_data release l node p in ret (st, l)) in
        lunless_taken b rl
    | QShorten n => olresize release l (N.min n (snd (lget_size l)))
    | QClear => olclear release l
    end.
  Fixpoint run_qops (l : zlist) (ops : list qop) : M (list status * zlist) :=
    match ops with
    | [] => ret ([], l)
    | o :: ops =>
        let* (r, l1) := run_qop l o in
        let* (rs, l2) := run_qops l1 ops in
        ret (r :: rs, l2)
    end.

  (** The list shows the objects with the contents [bufs]: going through it gives elements that name blocks with them. *)
  Definition lowns (w : world cell) (l : zlist) (bufs : list (list cell)) : Prop :=
    exists ps xs, lshows w l ps xs /\ map (fun x => heap w (own x)) xs = map Some bufs.
End Client.

(** ** Specification: a list of contents *)
(** One call: the status [r] and the contents afterwards.  Only a push or an Emplace may be refused: by a full buffer, or by an allocator that
    sometimes fails. *)
Definition qspec (limit : option N) (fails : Prop) (o : qop) (l : list (list cell)) (r : status) (l' : list (list cell)) : Prop :=
  match o with
  | QPushBack buf | QEmplaceBack buf => if st_success r then r = ST_SUCCESS /\ full limit (nlen l) = false /\ l' = l ++ [buf] else refusal limit fails (nlen l) r /\ l' = l
  | QPushFront buf | QEmplaceFront buf => if st_success r then r = ST_SUCCESS /\ full limit (nlen l) = false /\ l' = buf :: l else refusal limit fails (nlen l) r /\ l' = l
  | QPopBack => match l with [] => r = ST_INVALID_OPERATION /\ l' = [] | _ => r = ST_SUCCESS /\ l' = nfirst (nlen l - 1) l end
  | QPopFront => match l with [] => r = ST_INVALID_OPERATION /\ l' = [] | _ :: t => r = ST_SUCCESS /\ l' = t end
  | QSet i buf => if nlen l <=? i then r = ST_INVALID_ARGUMENT /\ l' = l else r = ST_SUCCESS /\ l' = nfirst i l ++ [buf] ++ nskip (i + 1) l
  | QShorten n => r = ST_SUCCESS /\ l' = nfirst n l
  | QClear => r = ST_SUCCESS /\ l' = []
  end.
Inductive qspecs (limit : option N) (fails : Prop) : list qop -> list (list cell) -> list status -> list (list cell) -> Prop :=
| qspecs_nil l : qspecs limit fails [] l [] l
| qspecs_cons o ops l r l1 rs l2 : qspec limit fails o l r l1 -> qspecs limit fails ops l1 rs l2 ->
    qspecs limit fails (o :: ops) l (r :: rs) l2.
