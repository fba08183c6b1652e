(** The arithmetic of Resize, written down without the code. *)
From Verif Require Import Base Mem VectorModel.

(** The bytes that are asked for when a vector that has to grow is resized to [n] elements: [n]
    times the growth factor, at least one element, times the element size, with both products taken
    modulo 2^64.  Models the arguments of the call of the allocator's reallocate function in
    src/Vector.c:103-116, reached from src/Vector.c:771-776, and the product in src/Allocator.c:69. *)
Definition after_resize {C} (v : vector C) (n : N) : N :=
  (N.max 1 ((n * v_growth v) mod W64) * v_esz v) mod W64.
