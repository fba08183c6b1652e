(** Allocators that refuse requests: when a vector call asks its allocator for memory, and what is left when the answer is
    an error.  No proofs here. *)
From Verif Require Import Base Status Mem VectorModel VectorSpec VectorDriver.

(** What a call does depends on the allocator only through the answers to the requests the call makes. *)
Definition depends_on_answers {C A} (m : M C A) : Prop :=
  forall w a w', m w = Ok a w' ->
    tick w <= tick w' /\
    forall o, (forall t, tick w <= t < tick w' -> o t = orc w t) -> m (with_oracle w o) = Ok a (with_oracle w' o).

Section Refuse.
  Context {C : Type}.
  Notation st := (vstate C).

  (** The capacity of the block that the call requests from the allocator, for a growable vector of [len] elements and
      capacity [cap]; [None]: it requests nothing. *)
  Definition asked (c : vcfg C) (o : vop C) (len cap : N) : option N :=
    let grow n := if cap <? len + n then Some ((len + n) * c_growth c) else None in
    let too_big n := negb (c_shrink c =? 0) && (n * c_shrink c <? cap) in
    let shrink n := if too_big n then Some (N.max 1 (n * c_growth c)) else None in
    let fit k := if 1 <=? k then Some k else if 1 <? cap then Some 1 else None in
    let resize n := if n =? len then None else if (cap <? n) || too_big n then fit (n * c_growth c) else None in
    match o with
    | OPushBack _ | OEmplace _ => grow 1
    | OInsert i _ | OEmplaceEx i _ => if i <=? len then grow 1 else None
    | OInsertRange i xs => if (0 <? nlen xs) && (i <=? len) then grow (nlen xs) else None
    | OSet _ _ | OSwap _ _ => None
    | ODelete i => if i + 1 <=? len then shrink (len - 1) else None
    | ODeleteRange i n => if (0 <? n) && (i + n <=? len) then shrink (len - n) else None
    | OPopBack => if 0 <? len then shrink (len - 1) else None
    | OClear => resize 0
    | OResize n | OResizeEx n _ => resize n
    | OReserve n => if cap <? n then Some n else None
    | OShrinkToFit => fit len
    end.

  (** The state a call leaves when the allocator refuses the block of capacity [k] it requests.  The capacity is the requested
      one all the same.  A deletion has happened.  A resize to fewer elements has destroyed the elements behind the new end,
      but they are still there.  All other calls leave the elements alone. *)
  Definition vrefused (c : vcfg C) (o : vop C) (k : N) (s s' : st) : Prop :=
    let cut n :=
      if n <? nlen (s_elems s)
      then s' = mkst (nfirst n (s_elems s) ++ (match c_dtor c with
                                               | Some f => map f (nskip n (s_elems s))
                                               | None => nskip n (s_elems s)
                                               end))
                     k (s_log s ++ destroyed c (nskip n (s_elems s)))
      else s' = mkst (s_elems s) k (s_log s) in
    let delete i n := s' = mkst (ldelete i n (s_elems s)) k (s_log s ++ destroyed c (nsub i n (s_elems s))) in
    match o with
    | ODelete i => delete i 1
    | ODeleteRange i n => delete i n
    | OPopBack => delete (nlen (s_elems s) - 1) 1
    | OClear => cut 0
    | OResize n | OResizeEx n _ => cut n
    | _ => s' = mkst (s_elems s) k (s_log s)
    end.

  (** The capacity that is left is no lie: the block the vector still has (one of capacity [s_cap s] or more) holds it. *)
  Definition usable (s s' : st) : Prop := nlen (s_elems s') <= s_cap s' /\ s_cap s' <= s_cap s.

  (** Calls that make a vector shorter or smaller, by deletion or ShrinkToFit. *)
  Definition trims (o : vop C) : bool :=
    match o with ODelete _ | ODeleteRange _ _ | OPopBack | OShrinkToFit => true | _ => false end.
  (** Calls that only put in elements or reserve room for them. *)
  Definition extends (o : vop C) : bool :=
    match o with
    | OPushBack _ | OInsert _ _ | OInsertRange _ _ | OEmplace _ | OEmplaceEx _ _ | OReserve _ => true
    | _ => false
    end.

  (** One call when the allocator would answer its request with [ans], and the number of requests made. *)
  Definition refusal (ans : aresp C) : option N := match ans with AFail st => Some st | AOk _ => None end.
  Definition requests (c : vcfg C) (o : vop C) (s : st) : N :=
    match asked c o (nlen (s_elems s)) (s_cap s) with None => 0 | Some _ => 1 end.
  Definition vcall (c : vcfg C) (ans : aresp C) (o : vop C) (s : st) (r : status) (s' : st) : Prop :=
    match asked c o (nlen (s_elems s)) (s_cap s), refusal ans with
    | Some k, Some e => r = err_status e /\ vrefused c o k s s'
    | _, _ => vspec c o s r s'
    end.
  (** The allocator refuses the request of the call. *)
  Definition refuses (c : vcfg C) (ans : aresp C) (o : vop C) (s : st) : Prop :=
    asked c o (nlen (s_elems s)) (s_cap s) <> None /\ refusal ans <> None.

  (** A history under an allocator that answers request number [t] with [ans t], in which every refused request leaves a
      usable vector; [t'] is the number of the next request. *)
  Inductive vcalls (c : vcfg C) (ans : N -> aresp C) : N -> list (vop C) -> st -> list status -> st -> N -> Prop :=
  | vcalls_nil t s : vcalls c ans t [] s [] s t
  | vcalls_cons t o ops s r s1 rs s2 t2 :
      vcall c (ans t) o s r s1 -> (refuses c (ans t) o s -> usable s s1) ->
      vcalls c ans (t + requests c o s) ops s1 rs s2 t2 ->
      vcalls c ans t (o :: ops) s (r :: rs) s2 t2.

  (** Legal parameters of ZyanVectorInitEx, whatever the allocator does. *)
  Definition init_params_ok (w : world C) (e cap : N) (d : option (list C -> list C)) (g s : N) : Prop :=
    world_ok w /\ 1 <= e /\ dtor_ok e d /\ 1 <= g < 256 /\ s < 256 /\ N.max 1 cap * e < W64.

  (** ZyanVectorDestroy succeeds, destroys each of the elements [xs] once, and leaves the memory that there was in [w0]. *)
  Definition destroys_back (w0 : world C) (c : vcfg C) (w : world C) (v : vector C) (xs : list (list C)) : Prop :=
    exists v' w', vdestroy v w = Ok (ST_SUCCESS, v') w' /\ dlog w' = dlog w ++ destroyed c xs /\
      forall b, heap w' b = heap w0 b.
End Refuse.
