(** Specification of the vector: a machine over plain lists of elements.

    Nothing here mentions memory, pointers or the code: an element is a list of [esz] cells, the
    contents of a vector is a list of elements. *)
From Verif Require Import Base Status.

(** Parameters fixed when a vector is created. *)
Record vcfg (C : Type) := mkcfg {
  c_fixed  : bool;                          (* caller-supplied buffer of fixed capacity *)
  c_growth : N;
  c_shrink : N;
  c_esz    : N;                             (* element size *)
  c_dtor   : option (list C -> list C)      (* element destructor *)
}.
Arguments mkcfg {C}. Arguments c_fixed {C}. Arguments c_growth {C}. Arguments c_shrink {C}.
Arguments c_esz {C}. Arguments c_dtor {C}.

(** Abstract state: contents, capacity, and the elements destroyed so far (oldest first). *)
Record vstate (C : Type) := mkst {
  s_elems : list (list C);
  s_cap   : N;
  s_log   : list (list C)
}.
Arguments mkst {C}. Arguments s_elems {C}. Arguments s_cap {C}. Arguments s_log {C}.

(** The mutating calls of the API, with the *values* of the elements passed in. *)
Inductive vop (C : Type) :=
| OPushBack (x : list C)
| OInsert (i : N) (x : list C)
| OInsertRange (i : N) (xs : list (list C))
| OEmplace (ctor : option (list C -> status * list C))
| OEmplaceEx (i : N) (ctor : option (list C -> status * list C))
| OSet (i : N) (x : list C)
| OSwap (i j : N)
| ODelete (i : N)
| ODeleteRange (i n : N)
| OPopBack
| OClear
| OResize (n : N)
| OResizeEx (n : N) (init : list C)
| OReserve (n : N)
| OShrinkToFit.
Arguments OPushBack {C}. Arguments OInsert {C}. Arguments OInsertRange {C}.
Arguments OEmplace {C}. Arguments OEmplaceEx {C}. Arguments OSet {C}. Arguments OSwap {C}.
Arguments ODelete {C}. Arguments ODeleteRange {C}. Arguments OPopBack {C}. Arguments OClear {C}.
Arguments OResize {C}. Arguments OResizeEx {C}. Arguments OReserve {C}. Arguments OShrinkToFit {C}.

Section Spec.
  Context {C : Type}.
  Notation cfg := (vcfg C).
  Notation st := (vstate C).

  (** Capacity after making room for [need] elements; [None]: not possible. *)
  Definition regrow (c : cfg) (cap need : N) : option N :=
    if need <=? cap then Some cap
    else if c_fixed c then None
    else Some (need * c_growth c).

  (** Capacity after the number of elements dropped to [size]. *)
  Definition reshrink (c : cfg) (cap size : N) : N :=
    if c_fixed c || (c_shrink c =? 0) || (cap <=? size * c_shrink c) then cap
    else N.max 1 (size * c_growth c).

  (** Destructor calls: logged only when a destructor was supplied. *)
  Definition destroyed (c : cfg) (xs : list (list C)) : list (list C) :=
    match c_dtor c with Some _ => xs | None => [] end.

  (** Insert [xs] before position [i]. *)
  Definition linsert (i : N) (xs l : list (list C)) : list (list C) :=
    nfirst i l ++ xs ++ nskip i l.
  (** Remove [n] elements from position [i]. *)
  Definition ldelete (i n : N) (l : list (list C)) : list (list C) :=
    nfirst i l ++ nskip (i + n) l.
  (** Replace the element at [i]. *)
  Definition lset (i : N) (x : list C) (l : list (list C)) : list (list C) :=
    nfirst i l ++ [x] ++ nskip (i + 1) l.
  (** Exchange the elements at [i] and [j]. *)
  Definition lswap (i j : N) (l : list (list C)) : list (list C) :=
    match nnth i l, nnth j l with
    | Some x, Some y => lset j x (lset i y l)
    | _, _ => l
    end.

  (** What inserting [xs] at [i] does. *)
  Definition spec_insert (c : cfg) (i : N) (xs : list (list C)) (s : st) (r : status) (s' : st) :=
    if nlen (s_elems s) <? i then r = ST_OUT_OF_RANGE /\ s' = s
    else match regrow c (s_cap s) (nlen (s_elems s) + nlen xs) with
         | None => r = ST_INSUFFICIENT_BUFFER_SIZE /\ s' = s
         | Some cap => r = ST_SUCCESS /\ s' = mkst (linsert i xs (s_elems s)) cap (s_log s)
         end.

  (** What emplacing at [i] does: the constructor turns the unspecified former bytes of the slot into
      the new element; without a constructor the element is unspecified. *)
  Definition spec_emplace (c : cfg) (i : N) (ctor : option (list C -> status * list C)) (s : st)
      (r : status) (s' : st) :=
    exists old x, nlen old = c_esz c /\ nlen x = c_esz c /\
      (match ctor with None => True | Some f => exists k, f old = (k, x) end) /\
      spec_insert c i [x] s r s'.

  Definition spec_delete (c : cfg) (i n : N) (s : st) (r : status) (s' : st) :=
    if n =? 0 then r = ST_INVALID_ARGUMENT /\ s' = s
    else if nlen (s_elems s) <? i + n then r = ST_OUT_OF_RANGE /\ s' = s
    else r = ST_SUCCESS /\
         s' = mkst (ldelete i n (s_elems s)) (reshrink c (s_cap s) (nlen (s_elems s) - n))
                   (s_log s ++ destroyed c (nsub i n (s_elems s))).

  (** Resize: [new] are the elements appended when growing. *)
  Definition spec_resize (c : cfg) (n : N) (new : list (list C)) (s : st) (r : status) (s' : st) :=
    if n =? nlen (s_elems s) then r = ST_SUCCESS /\ s' = s
    else if n <? nlen (s_elems s) then
      r = ST_SUCCESS /\
      s' = mkst (nfirst n (s_elems s)) (reshrink c (s_cap s) n)
                (s_log s ++ destroyed c (nskip n (s_elems s)))
    else match regrow c (s_cap s) n with
         | None => r = ST_INSUFFICIENT_BUFFER_SIZE /\ s' = s
         | Some cap => r = ST_SUCCESS /\
             s' = mkst (s_elems s ++ new) (reshrink c cap n) (s_log s)
         end.

  (** One call: from state [s] it returns status [r] and leaves state [s']. *)
  Definition vspec (c : cfg) (o : vop C) (s : st) (r : status) (s' : st) : Prop :=
    match o with
    | OPushBack x => spec_insert c (nlen (s_elems s)) [x] s r s'
    | OInsert i x => spec_insert c i [x] s r s'
    | OInsertRange i xs =>
        match xs with
        | [] => r = ST_INVALID_ARGUMENT /\ s' = s
        | _ => spec_insert c i xs s r s'
        end
    | OEmplace ctor => spec_emplace c (nlen (s_elems s)) ctor s r s'
    | OEmplaceEx i ctor => spec_emplace c i ctor s r s'
    | OSet i x =>
        match nnth i (s_elems s) with
        | None => r = ST_OUT_OF_RANGE /\ s' = s
        | Some y => r = ST_SUCCESS /\
            s' = mkst (lset i x (s_elems s)) (s_cap s) (s_log s ++ destroyed c [y])
        end
    | OSwap i j =>
        if (nlen (s_elems s) <=? i) || (nlen (s_elems s) <=? j) then r = ST_OUT_OF_RANGE /\ s' = s
        else if nlen (s_elems s) =? s_cap s then r = ST_INSUFFICIENT_BUFFER_SIZE /\ s' = s
        else r = ST_SUCCESS /\ s' = mkst (lswap i j (s_elems s)) (s_cap s) (s_log s)
    | ODelete i => spec_delete c i 1 s r s'
    | ODeleteRange i n => spec_delete c i n s r s'
    | OPopBack =>
        if nlen (s_elems s) =? 0 then r = ST_OUT_OF_RANGE /\ s' = s
        else spec_delete c (nlen (s_elems s) - 1) 1 s r s'
    | OClear => spec_resize c 0 [] s r s'
    | OResize n =>
        exists new, nlen new = n - nlen (s_elems s) /\ Forall (fun x => nlen x = c_esz c) new /\
          spec_resize c n new s r s'
    | OResizeEx n init =>
        spec_resize c n (nrepeat init (n - nlen (s_elems s))) s r s'
    | OReserve n =>
        if n <=? s_cap s then r = ST_SUCCESS /\ s' = s
        else if c_fixed c then r = ST_INSUFFICIENT_BUFFER_SIZE /\ s' = s
        else r = ST_SUCCESS /\ s' = mkst (s_elems s) n (s_log s)
    | OShrinkToFit =>
        r = ST_SUCCESS /\
        s' = (if c_fixed c then s else mkst (s_elems s) (N.max 1 (nlen (s_elems s))) (s_log s))
    end.

  (** A sequence of calls with the statuses they return. *)
  Inductive vspecs (c : cfg) : list (vop C) -> st -> list status -> st -> Prop :=
  | vspecs_nil s : vspecs c [] s [] s
  | vspecs_cons o ops s r s1 rs s2 :
      vspec c o s r s1 -> vspecs c ops s1 rs s2 -> vspecs c (o :: ops) s (r :: rs) s2.
End Spec.

(** First position of [a, b) whose element satisfies [p]; [None]: there is none. *)
Definition first_match {A} (p : A -> bool) (xs : list A) (a b : N) (r : option N) : Prop :=
  match r with
  | Some i => a <= i < b /\ (exists x, nnth i xs = Some x /\ p x = true) /\
              (forall j x, a <= j < i -> nnth j xs = Some x -> p x = false)
  | None => forall j x, a <= j < b -> nnth j xs = Some x -> p x = false
  end.

(** A three-way comparison on elements of [e] cells that is a total preorder. *)
Definition cmp_order {C} (e : N) (cmp : list C -> list C -> Z) : Prop :=
  (forall a b, nlen a = e -> nlen b = e -> ((cmp a b <= 0)%Z <-> (0 <= cmp b a)%Z)) /\
  (forall a b c, nlen a = e -> nlen b = e -> nlen c = e ->
     (cmp a b <= 0)%Z -> (cmp b c <= 0)%Z -> (cmp a c <= 0)%Z).

(** The positions [a, b) of [xs] are in ascending order. *)
Definition sorted_range {A} (cmp : A -> A -> Z) (xs : list A) (a b : N) : Prop :=
  forall i j x y, a <= i -> i < j -> j < b -> nnth i xs = Some x -> nnth j xs = Some y ->
    (cmp x y <= 0)%Z.

(** [r] is the lower bound of [key] in the positions [a, b): everything before is smaller than the
    key, nothing from there on is. *)
Definition lower_bound {A} (cmp : A -> A -> Z) (xs : list A) (a b : N) (key : A) (r : N) : Prop :=
  a <= r <= b /\
  (forall i x, a <= i < r -> nnth i xs = Some x -> (cmp x key < 0)%Z) /\
  (forall i x, r <= i < b -> nnth i xs = Some x -> (0 <= cmp x key)%Z).

(** The call has to ask the allocator for more room (or, for ShrinkToFit, for a smaller block), given
    the number of elements and the capacity of a growable vector. *)
Definition wants_room {C} (o : vop C) (len cap : N) : bool :=
  match o with
  | OPushBack _ | OEmplace _ => cap <? len + 1
  | OInsert i _ | OEmplaceEx i _ => (i <=? len) && (cap <? len + 1)
  | OInsertRange i xs => (i <=? len) && (0 <? nlen xs) && (cap <? len + nlen xs)
  | OResize n | OResizeEx n _ => (len <? n) && (cap <? n)
  | OReserve n => cap <? n
  | OShrinkToFit => (0 <? len) || (1 <? cap)
  | _ => false
  end.

(** Elements a call with status [r] on a vector of [len] elements puts into the vector. *)
Definition adds {C} (o : vop C) (r : status) (len : N) (ys : list (list C)) : Prop :=
  if st_success r then
    match o with
    | OPushBack x | OInsert _ x | OSet _ x => ys = [x]
    | OInsertRange _ xs => ys = xs
    | OEmplace _ | OEmplaceEx _ _ => nlen ys = 1
    | OResize n => nlen ys = n - len
    | OResizeEx n x => ys = nrepeat x (n - len)
    | _ => ys = []
    end
  else ys = [].

(** A sequence of calls together with all the elements it put into the vector. *)
Inductive vhistory {C} (c : vcfg C)
    : list (vop C) -> vstate C -> list status -> vstate C -> list (list C) -> Prop :=
| vh_nil s : vhistory c [] s [] s []
| vh_cons o ops s r s1 rs s2 ys zs :
    vspec c o s r s1 -> adds o r (nlen (s_elems s)) ys -> vhistory c ops s1 rs s2 zs ->
    vhistory c (o :: ops) s (r :: rs) s2 (ys ++ zs).

(** The call names positions that the vector of [len] elements does not have. *)
Definition bad_range {C} (o : vop C) (len : N) : bool :=
  match o with
  | OInsert i _ | OEmplaceEx i _ | OInsertRange i _ => len <? i
  | OSet i _ => len <=? i
  | OSwap i j => (len <=? i) || (len <=? j)
  | ODelete i => len <=? i
  | ODeleteRange i n => (len <? i + n) || (n =? 0)
  | OPopBack => len =? 0
  | _ => false
  end.
