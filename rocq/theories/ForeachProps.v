(** Property theorems of C78: the access macros ZYAN_VECTOR_GET, ZYAN_VECTOR_FOREACH, ZYAN_VECTOR_FOREACH_MUTABLE and
    ZYAN_LIST_GET.  Statements only. *)
From Verif Require Import Base NListFacts Status Mem VectorModel VectorSpec VectorDriver VectorRep VectorExamples
  ListModel ListSpec ListDriver ListExamples ForeachModel ForeachSpec ForeachProofs ForeachProofs2 ForeachProofs3.
From Coq Require Import ZifyBool ZifyNat ZifyN.

(** ZYAN_VECTOR_GET yields the element; at a position the vector does not have it dereferences NULL. *)
Theorem c78_get :
  forall (C : Type) (w : Mem.world C) v xs i,
    reached w v xs -> vector_get v i w = match nnth i xs with Some x => Ok x w | None => Fault NullDeref end.
Proof. exact @get_reached. Qed.
Print Assumptions c78_get.

(** A body that only looks at the item: every element once, in order, until the body leaves the loop; vector and memory
    stay as they are. *)
Theorem c78_foreach_look :
  forall (C A : Type) (f : A -> list C -> A) (p : A -> list C -> bool) (w : Mem.world C) v xs a,
    reached w v xs -> foreach (fun a v x => ret (p a x, f a x, v)) a v w = Ok (fold_until f p xs a, v) w.
Proof. exact @look_reached. Qed.
Print Assumptions c78_foreach_look.
Example c78_look_met : exists (w : Mem.world N) v, reached w v [[1;2];[3;4];[5;6]] /\
  vector_get v 1 w = Ok [3;4] w /\ vector_get v 3 w = Fault NullDeref /\
  foreach (fun a v x => ret (nlen a =? 1, a ++ [x], v)) [] v w = Ok ([[1;2];[3;4]], v) w.
Proof.
  destruct ex_reached as (w & v & R & _). exists w, v. assert (R' : reached w v [[1;2];[3;4];[5;6]]) by now left.
  split; [exact R'|]. rewrite !(c78_get _ _ _ _ _ R'). split; [reflexivity|]. split; [reflexivity|].
  exact (c78_foreach_look N _ (fun a x => a ++ [x]) (fun a x => nlen a =? 1) w v _ [] R').
Qed.

(** A body that changes the item in place through the pointer of ZYAN_VECTOR_FOREACH_MUTABLE. *)
Theorem c78_foreach_mutable :
  forall (C A : Type) (h : A -> list C -> A) (f : list C -> list C) (w : Mem.world C) v xs a,
    reached w v xs -> (forall x, nlen (f x) = nlen x) ->
    exists w', foreach_mut (fun a v p => let* x := mread p (v_esz v) in mwrite p (f x) ;;; ret (false, h a x, v)) a v w =
        Ok (fold_left h xs a, v) w' /\ shows w' v (map f xs) /\ dlog w' = dlog w.
Proof. exact @change_reached. Qed.
Print Assumptions c78_foreach_mutable.
Example c78_mutable_met : exists (w : Mem.world N) v, reached w v [[1;2];[3;4];[5;6]] /\
  (forall x : list N, nlen (rev x) = nlen x) /\ map (@rev N) [[1;2];[3;4];[5;6]] = [[2;1];[4;3];[6;5]].
Proof.
  destruct ex_reached as (w & v & R & _). exists w, v. split; [now left|]. split; [apply nlen_rev|reflexivity].
Qed.

(** A body that makes any calls on the vector, depending on the items and on the answers so far: the loop visits the
    positions below the initial size, and at each the element that is there by then.  When there is none any more it
    dereferences NULL.  [inv] is what the caller keeps true of its variables, [d] a bound on the room asked for per item. *)
Theorem c78_foreach :
  forall (C A : Type) (calls : A -> list C -> list (vop C)) (after : A -> list C -> list status -> bool * A) d
    (inv : N -> A -> Prop) (w : Mem.world C) v xs a,
    reached w v xs -> inv 0 a ->
    (forall i a x, i < nlen xs -> inv i a -> nlen x = v_esz v ->
       Forall (arg_ok (v_esz v)) (calls a x) /\ demands (calls a x) <= d) ->
    (forall i a x rs, i < nlen xs -> inv i a -> inv (i + 1) (snd (after a x rs))) ->
    room (nlen xs * (1 + d)) (v_esz v) ->
    exists r s', visits calls after (params v) (nlen xs) 0 a (mkst xs (snd (vget_capacity v)) (dlog w)) r s' /\
      match r with
      | Some a' => exists w' v', foreach (caller calls after) a v w = Ok (a', v') w' /\
          shows w' v' (s_elems s') /\ snd (vget_capacity v') = s_cap s' /\ dlog w' = s_log s'
      | None => foreach (caller calls after) a v w = Fault NullDeref
      end.
Proof. exact @foreach_reached. Qed.
Print Assumptions c78_foreach.

Example c78_foreach_met : exists (w : Mem.world N) v, reached w v [[1;2];[3;4];[5;6]] /\
  let calls := fun i x => [OSet i (rev x); OPushBack x] in
  let inv := fun i a : N => a = i in
  inv 0 0 /\
  (forall i a (x : list N), i < 3 -> inv i a -> nlen x = v_esz v -> Forall (arg_ok (v_esz v)) (calls a x) /\ demands (calls a x) <= 1) /\
  (forall i a (x : list N) (rs : list status), i < 3 -> inv i a -> inv (i + 1) (a + 1)) /\ room (3 * (1 + 1)) (v_esz v).
Proof.
  destruct ex_reached as (w & v & R & E & _). exists w, v. split; [now left|]. rewrite E. cbv zeta. split; [reflexivity|].
  split; [|split; [intros i a x rs _ ->; reflexivity|reflexivity]].
  intros i a x _ _ L. split; [|cbn; lia]. constructor; [cbn; now rewrite nlen_rev|]. constructor; [exact L|constructor].
Qed.

(** Calls that never leave fewer elements: the loop runs to its end or until the body leaves it. *)
Theorem c78_foreach_safe_partial :
  forall (C A : Type) (calls : A -> list C -> list (vop C)) (after : A -> list C -> list status -> bool * A) d
    (w : Mem.world C) v xs a,
    reached w v xs ->
    (forall a x, nlen x = v_esz v -> Forall (arg_ok (v_esz v)) (calls a x) /\ demands (calls a x) <= d) ->
    (forall c a x s rs s', vspecs c (calls a x) s rs s' -> nlen (s_elems s) <= nlen (s_elems s')) ->
    room (nlen xs * (1 + d)) (v_esz v) ->
    exists a' v' w' ys, foreach (caller calls after) a v w = Ok (a', v') w' /\ shows w' v' ys /\ nlen xs <= nlen ys.
Proof. exact @safe_reached. Qed.
Print Assumptions c78_foreach_safe_partial.
(** Elements appended in the loop are not visited by it. *)
Theorem c78_foreach_push :
  forall (C : Type) (g : list C -> list C) (w : Mem.world C) v xs,
    reached_own w v xs -> (forall x, nlen (g x) = nlen x) -> room (2 * nlen xs) (v_esz v) ->
    exists v' w',
      foreach (caller (fun _ x => [OPushBack (g x)]) (fun a x _ => (false, a ++ [x]))) [] v w = Ok (xs, v') w' /\
      shows w' v' (xs ++ map g xs).
Proof. exact @push_reached. Qed.
Print Assumptions c78_foreach_push.
Example c78_push_met : exists (w : Mem.world N) v, reached_own w v [[1;2];[3;4];[5;6]] /\
  room (2 * nlen [[1;2];[3;4];[5;6]]) (v_esz v) /\
  (forall c (a : list (list N)) x (s : vstate N) rs s', vspecs c [OPushBack (rev x)] s rs s' ->
     nlen (s_elems s) <= nlen (s_elems s')).
Proof.
  destruct ex_reached as (w & v & R & E & _). exists w, v. split; [exact R|]. rewrite E. split; [reflexivity|].
  intros c a x s rs s' V. exact (push_grows _ _ _ _ _ V).
Qed.

(** Missing in c78_foreach_safe_partial: calls that remove.  If the body removes something at every item, a loop over two or
    more elements always ends in a dereference of NULL. *)
Theorem c78_foreach_remove_refuted :
  forall (C A : Type) (calls : A -> list C -> list (vop C)) (after : A -> list C -> list status -> bool * A) d
    (w : Mem.world C) v xs a,
    reached w v xs -> 2 <= nlen xs ->
    (forall a x, nlen x = v_esz v -> Forall (arg_ok (v_esz v)) (calls a x) /\ demands (calls a x) <= d) ->
    (forall a x rs, fst (after a x rs) = false) ->
    (forall c a x s rs s', s_elems s <> [] -> vspecs c (calls a x) s rs s' -> nlen (s_elems s') < nlen (s_elems s)) ->
    room (nlen xs * (1 + d)) (v_esz v) ->
    foreach (caller calls after) a v w = Fault NullDeref.
Proof. exact @less_reached. Qed.
Print Assumptions c78_foreach_remove_refuted.
(** In particular when it removes the last element, or all elements, or the element of the item. *)
Theorem c78_foreach_pop_refuted :
  forall (C : Type) (w : Mem.world C) v xs,
    reached w v xs -> 2 <= nlen xs ->
    foreach (caller (fun (_ : unit) _ => [OPopBack]) (fun a _ _ => (false, a))) tt v w = Fault NullDeref.
Proof. exact @pop_reached. Qed.
Print Assumptions c78_foreach_pop_refuted.
Theorem c78_foreach_clear_refuted :
  forall (C : Type) (w : Mem.world C) v xs,
    reached w v xs -> 2 <= nlen xs ->
    foreach (caller (fun (_ : unit) _ => [OClear]) (fun a _ _ => (false, a))) tt v w = Fault NullDeref.
Proof. exact @clear_reached. Qed.
Print Assumptions c78_foreach_clear_refuted.
Theorem c78_foreach_delete_refuted :
  forall (C : Type) (w : Mem.world C) v xs,
    reached w v xs -> 2 <= nlen xs ->
    foreach (caller (fun a _ => [ODelete a]) (fun a _ _ => (false, a + 1))) 0 v w = Fault NullDeref.
Proof. exact @delete_reached. Qed.
Print Assumptions c78_foreach_delete_refuted.
Example c78_remove_met : exists (w : Mem.world N) v, reached w v [[1;2];[3;4];[5;6]] /\ 2 <= nlen [[1;2];[3;4];[5;6]].
Proof. destruct ex_reached as (w & v & R & _). exists w, v. split; [now left|]. vm_compute. discriminate. Qed.

(** ZYAN_LIST_GET yields the element of a node of the list, and dereferences NULL when there is no node. *)
Theorem c78_list_get :
  forall limit (w : Mem.world cell) l ps xs j q x,
    lreached limit w l xs -> lshows w l ps xs -> nnth j ps = Some q -> nnth j xs = Some x ->
    list_get (l_esz l) (Some q) w = Ok x w.
Proof. exact list_get_reached. Qed.
Print Assumptions c78_list_get.
Theorem c78_list_get_null :
  forall e (w : Mem.world cell), list_get e None w = Fault NullDeref.
Proof. exact list_get_null. Qed.
Print Assumptions c78_list_get_null.
Example c78_list_met :
  exists w l ps q, lreached None w l [el 1 2; el 3 4] /\ lshows w l ps [el 1 2; el 3 4] /\
    nnth 1 ps = Some q /\ nnth 1 [el 1 2; el 3 4] = Some (el 3 4).
Proof.
  destruct (lreached_any 2 [el 1 2; el 3 4]) as (w & l & ps & R & SH & E); [lia|reflexivity|repeat constructor|reflexivity|].
  destruct ps as [|p [|q ps]]; [now destruct SH|now destruct SH|].
  exists w, l, (p :: q :: ps), q. split; [exact R|]. split; [exact SH|]. split; reflexivity.
Qed.
