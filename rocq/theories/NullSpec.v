(** What a call with a NULL argument may do.  No proofs here. *)
From Verif Require Import Base Status Mem NullModel.

(** It is refused with INVALID_ARGUMENT; the object, the memory, the allocator and the out-parameters are left alone. *)
Definition refused {C O} (m : Mem.M C (nret * option O * nout)) (o : option O) : Prop :=
  forall w, m w = Ok (NStatus ST_INVALID_ARGUMENT, o, NoOut) w.
(** The same with some error status. *)
Definition an_error {C O} (m : Mem.M C (nret * option O * nout)) (o : option O) : Prop :=
  forall w, exists st, st_success st = false /\ m w = Ok (NStatus st, o, NoOut) w.
(** The call never returns: it is undefined behaviour, whatever the memory is. *)
Definition crashes {C A} (m : Mem.M C A) : Prop := forall w, exists f, m w = Fault f.
(** It is undefined behaviour or ends with an error: there is no successful return. *)
Definition no_success {C O} (m : Mem.M C (nret * option O * nout)) : Prop :=
  forall w st o x w', m w = Ok (NStatus st, o, x) w' -> st_success st = false.
(** Two calls that do the same. *)
Definition same {C A} (m m' : Mem.M C A) : Prop := forall w, m w = m' w.
