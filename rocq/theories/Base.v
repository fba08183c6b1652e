(** Machine arithmetic and N-indexed list operations shared by all models. *)
From Coq Require Export List NArith ZArith Lia Bool.
From Coq Require Import ZifyBool ZifyNat ZifyN.
Export ListNotations.
Ltac Zify.zify_post_hook ::= Z.div_mod_to_equations.
#[global] Open Scope N_scope.

Arguments N.add : simpl never.
Arguments N.sub : simpl never.
Arguments N.mul : simpl never.
Arguments N.div : simpl never.
Arguments N.modulo : simpl never.
Arguments N.eqb : simpl never.
Arguments N.ltb : simpl never.
Arguments N.leb : simpl never.
Arguments N.max : simpl never.
Arguments N.min : simpl never.
Arguments N.of_nat : simpl never.
Arguments N.to_nat : simpl never.

(** [ZyanUSize] / [ZyanU64] are unsigned 64-bit machine integers
    (include/Zycore/Types.h:219,224, on LP64): arithmetic wraps modulo 2^64. *)
Definition W64 : N := 18446744073709551616.
Definition W32 : N := 4294967296.
Definition W8  : N := 256.

Definition wadd (a b : N) : N := (a + b) mod W64.
Definition wsub (a b : N) : N := (a + (W64 - b mod W64)) mod W64.
Definition wmul (a b : N) : N := (a * b) mod W64.

(** N-indexed list length, prefix, suffix, sub-range, overwrite. *)
Section NList.
  Context {A : Type}.
  Definition nlen (l : list A) : N := N.of_nat (length l).
  Definition nfirst (n : N) (l : list A) : list A := firstn (N.to_nat n) l.
  Definition nskip (n : N) (l : list A) : list A := skipn (N.to_nat n) l.
  (** [nsub o n l]: the [n] cells of [l] starting at offset [o]. *)
  Definition nsub (o n : N) (l : list A) : list A := nfirst n (nskip o l).
  (** [nsplice o x l]: [l] with the cells at [o .. o+|x|-1] replaced by [x]. *)
  Definition nsplice (o : N) (x l : list A) : list A :=
    nfirst o l ++ x ++ nskip (o + nlen x) l.
  Definition nnth (n : N) (l : list A) : option A := nth_error l (N.to_nat n).
  Definition nrepeat (x : A) (n : N) : list A := repeat x (N.to_nat n).
End NList.
