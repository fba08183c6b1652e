(** What a client of the vector searches may rely on about the calls of its comparison function.
    No proofs here. *)
From Verif Require Import Base Status Mem VectorModel VectorSpec VectorDriver VectorExamples CallbackModel.

Section CallbackSpec.
  Context {C A R : Type}.

  (** A comparison that answers by looking at the two elements of [e] cells it is given, and at its own
      state, which it may change: [f a left right] is the answer and the new state.  It changes nothing
      else. *)
  Definition looks (e : N) (cmp : @callback C A R) (f : A -> list C -> list C -> R * A) : Prop :=
    forall p q a x y w, mread p e w = Ok x w -> mread q e w = Ok y w -> cmp p q a w = Ok (f a x y) w.

  (** The comparison is called once for each of the elements [js] of [xs], in this order, with the element
      on the left and the key [y] on the right; its answers are [rs], and its state goes from the first to
      the last argument. *)
  Inductive called (f : A -> list C -> list C -> R * A) (xs : list (list C)) (y : list C)
      : A -> list N -> list R -> A -> Prop :=
  | called_none a : called f xs y a [] [] a
  | called_once a j x r a1 js rs a2 :
      nnth j xs = Some x -> f a x y = (r, a1) -> called f xs y a1 js rs a2 ->
      called f xs y a (j :: js) (r :: rs) a2.

  (** A program that reads its two arguments and answers with [g]. *)
  Definition reading (e : N) (g : list C -> list C -> R) : @callback C A R := fun p q a =>
    let* x := mread p e in let* y := mread q e in ret (g x y, a).
End CallbackSpec.

(** A comparison that writes down what it was shown, for the examples. *)
Definition logging {R} (g : list N -> list N -> R) : @callback N (list (list N * list N)) R := fun p q a =>
  let* x := mread p 2 in let* y := mread q 2 in ret (g x y, a ++ [(x, y)]).
Definition logs {R} (g : list N -> list N -> R) (a : list (list N * list N)) (x y : list N)
    : R * list (list N * list N) := (g x y, a ++ [(x, y)]).

(** A vector with the elements [1;2], [3;4], [5;6], searched for [3;4]. *)
Definition search_log {T} (k : vector N -> option ptr -> M N T) : res N (option T) :=
  (let* (_, v) := vinit_ex 2 4 None true 2 4 in
   match v with
   | None => ret None
   | Some v =>
       let* (_, v) := run_ops v [OPushBack [1;2]; OPushBack [3;4]; OPushBack [5;6]] in
       let* t := with_arg [3;4] (k v) in ret (Some t)
   end) world0.
Definition answer_of {T} (r : res N (option T)) : option T :=
  match r with Ok t _ => t | Fault _ => None end.
