(** The memory requests of lists (property C102).  No proofs here. *)
From Verif Require Import Base Status Mem VectorModel VectorDriver ListModel ListSpec ListDriver.

(** The calls that add one element. *)
Definition adds_one (o : op) : bool :=
  match o with LPushBack _ | LPushFront _ | LEmplaceBack _ _ | LEmplaceFront _ _ => true | _ => false end.
(** The calls that may add elements; n: a Resize to more elements than the list has. *)
Definition adds_some (n : N) (o : op) : bool :=
  match o with LResize k _ => n <? k | _ => adds_one o end.
(** Request number [t] is granted; [t] is refused with this code. *)
Definition grants (w : world cell) (t : N) : Prop := exists fill, orc w t = AOk fill.
Definition refuses (w : world cell) (t c : N) : Prop := orc w t = AFail c.
(** The next [k] requests are granted. *)
Definition grants_next (w : world cell) (k : N) : Prop := forall i, i < k -> grants w (tick w + i).
(** What the elements that Resize adds look like. *)
Definition initialised (e : N) (init : option element) (x : element) : Prop :=
  match init with Some y => x = y | None => nlen x = e end.
