(** Specification of lists: a machine over plain lists of elements.  Nothing here mentions nodes, pointers or the code.
    An element is a list of [esz] bytes of type [C]. *)
From Verif Require Import Base Status Mem.

Section ListSpec.
  Context {C : Type}.
  Notation element := (list C).

  (** The mutating calls.  Emplace: the constructor, and the bytes the caller stores through the returned pointer
      afterwards.  Resize: the new size and the initialiser.  Set: SetNodeData for the [i]-th node. *)
  Inductive lop :=
  | LPushBack (x : element)
  | LPushFront (x : element)
  | LEmplaceBack (ctor : option (element -> element)) (store : option element)
  | LEmplaceFront (ctor : option (element -> element)) (store : option element)
  | LPopBack
  | LPopFront
  | LClear
  | LResize (n : N) (init : option element)
  | LSet (i : N) (x : element).

  (** The elements and constructors given to a call have the right size. *)
  Definition ctor_ok (e : N) (f : option (element -> element)) : Prop :=
    match f with None => True | Some f => forall x, nlen x = e -> nlen (f x) = e end.
  Definition size_ok (e : N) (x : option element) : Prop := match x with None => True | Some x => nlen x = e end.
  Definition larg_ok (e : N) (o : lop) : Prop :=
    match o with
    | LPushBack x | LPushFront x | LSet _ x => nlen x = e
    | LEmplaceBack f s | LEmplaceFront f s => ctor_ok e f /\ size_ok e s
    | LResize _ init => size_ok e init
    | _ => True
    end.
  (** The number of elements a call may add, or ask for. *)
  Definition ldemand (o : lop) : N :=
    match o with
    | LPushBack _ | LPushFront _ | LEmplaceBack _ _ | LEmplaceFront _ _ => 1
    | LResize n _ => n
    | _ => 0
    end.
  Fixpoint ldemands (ops : list lop) : N :=
    match ops with [] => 0 | o :: ops => ldemand o + ldemands ops end.

  (** A list with [n] elements is full; [limit] is the number of nodes that fit into a fixed buffer. *)
  Definition full (limit : option N) (n : N) : bool := match limit with None => false | Some k => k <=? n end.
  (** The status of a call that cannot add to a list of [n] elements: the buffer is full, or, for a list with an
      allocator that sometimes [fails], any error. *)
  Definition refusal (limit : option N) (fails : Prop) (n : N) (r : status) : Prop :=
    if full limit n then r = ST_INSUFFICIENT_BUFFER_SIZE
    else limit = None /\ fails /\ exists st, r = err_status st.
  (** Status [r] of a call that wants to add one element, and the resulting elements. *)
  Definition added (limit : option N) (fails : Prop) (xs ys : list element) (x : element) (r : status)
      (xs' new : list element) : Prop :=
    (full limit (nlen xs) = false /\ r = ST_SUCCESS /\ xs' = ys /\ new = [x]) \/
    (refusal limit fails (nlen xs) r /\ xs' = xs /\ new = []).
  (** What a new element contains: the bytes stored last. *)
  Definition emplaced (e : N) (f : option (element -> element)) (store : option element) (x : element) : Prop :=
    match store with
    | Some y => x = y
    | None => exists raw, nlen raw = e /\ x = match f with Some f => f raw | None => raw end
    end.

  (** One call on a list with the elements [xs]: status, elements afterwards, the elements that go (in the order their
      destructor runs) and the elements that come. *)
  Definition lspec (e : N) (limit : option N) (fails : Prop) (o : lop) (xs : list element)
      (r : status) (xs' gone new : list element) : Prop :=
    match o with
    | LPushBack x => added limit fails xs (xs ++ [x]) x r xs' new /\ gone = []
    | LPushFront x => added limit fails xs (x :: xs) x r xs' new /\ gone = []
    | LEmplaceBack f s => gone = [] /\ exists x, emplaced e f s x /\ added limit fails xs (xs ++ [x]) x r xs' new
    | LEmplaceFront f s => gone = [] /\ exists x, emplaced e f s x /\ added limit fails xs (x :: xs) x r xs' new
    | LPopBack =>
        new = [] /\
        ((xs = [] /\ r = ST_INVALID_OPERATION /\ xs' = [] /\ gone = []) \/
         (exists x, xs = xs' ++ [x] /\ r = ST_SUCCESS /\ gone = [x]))
    | LPopFront =>
        new = [] /\
        ((xs = [] /\ r = ST_INVALID_OPERATION /\ xs' = [] /\ gone = []) \/
         (exists x, xs = x :: xs' /\ r = ST_SUCCESS /\ gone = [x]))
    | LClear => r = ST_SUCCESS /\ xs' = [] /\ gone = xs /\ new = []
    | LResize n init =>
        if n =? 0 then r = ST_SUCCESS /\ xs' = [] /\ gone = xs /\ new = []
        else if n <=? nlen xs then r = ST_SUCCESS /\ xs' = nfirst n xs /\ gone = rev (nskip n xs) /\ new = []
        else gone = [] /\ xs' = xs ++ new /\ Forall (fun x => match init with Some y => x = y | None => nlen x = e end) new /\
             ((nlen xs' = n /\ r = ST_SUCCESS /\ full limit (n - 1) = false) \/
              (nlen xs' < n /\ refusal limit fails (nlen xs') r))
    | LSet i x =>
        match nnth i xs with
        | None => r = ST_INVALID_ARGUMENT /\ xs' = xs /\ gone = [] /\ new = []
        | Some y => r = ST_SUCCESS /\ xs' = nfirst i xs ++ [x] ++ nskip (i + 1) xs /\ gone = [y] /\ new = [x]
        end
    end.
  Inductive lspecs (e : N) (limit : option N) (fails : Prop) :
    list lop -> list element -> list status -> list element -> list element -> list element -> Prop :=
  | lspecs_nil xs : lspecs e limit fails [] xs [] xs [] []
  | lspecs_cons o ops xs r xs1 gone1 new1 rs xs2 gone2 new2 :
      lspec e limit fails o xs r xs1 gone1 new1 ->
      lspecs e limit fails ops xs1 rs xs2 gone2 new2 ->
      lspecs e limit fails (o :: ops) xs (r :: rs) xs2 (gone1 ++ gone2) (new1 ++ new2).
End ListSpec.
Arguments lop : clear implicits.
