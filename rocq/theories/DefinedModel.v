(** Views defined by the macro ZYAN_DEFINE_STRING_VIEW. *)
From Verif Require Import Base Mem VectorModel StringModel.
Import ListNotations.

(** The argument of the macro: an array of [size] characters (a string literal is an array that ends right behind its
    NUL), or a pointer to the first character of a C string. *)
Inductive source_kind := AnArray (size : N) | APointer.
(** "sizeof(string)" in C: the size of the array, or that of a pointer (8 bytes on the 64-bit targets modelled here). *)
Definition sizeof_source (k : source_kind) : N := match k with AnArray size => size | APointer => 8 end.
(** ZYAN_DEFINE_STRING_VIEW(string), include/Zycore/String.h:175-192, for an argument of kind [k] at the address [p]. *)
Definition defined_view (k : source_kind) (p : option ptr) : view := define_view p (sizeof_source k).
