(** List properties that the code does not have. *)
From Verif Require Import Base NListFacts Status Mem VectorModel VectorDriver ListModel ListSpec ListDriver ListFinal2 ListExamples.
From Coq Require Import ZifyBool ZifyNat ZifyN.

(** C32 is false for every list and every node of it: Remove and RemoveRange report success, and the list still has
    the node. *)
Theorem c32_remove_refuted :
  forall limit w l ps xs p q,
    lreached limit w l xs -> lshows w l ps xs -> In p ps ->
    (lremove l (Some p) w = Ok (ST_SUCCESS, l) w /\ lshows w l ps xs) /\
    (lremove_range l (Some p) (Some q) w = Ok (ST_SUCCESS, l) w /\ lshows w l ps xs).
Proof. exact remove_keeps. Qed.
Print Assumptions c32_remove_refuted.
Example c32_instance : exists w l ps p, lreached None w l [el 1 2; el 3 4] /\ lshows w l ps [el 1 2; el 3 4] /\ In p ps.
Proof.
  destruct (lreached_any 2 [el 1 2; el 3 4]) as (w & l & ps & R & SH & _); [lia|reflexivity|repeat constructor|reflexivity|].
  destruct ps as [|p ps]; [destruct SH as (X & _); discriminate X|]. exists w, l, (p :: ps), p. split; [exact R|]. split; [exact SH|now left].
Qed.

(** C63 is false for ResizeEx: a Resize from 1 to 4 elements that runs out of memory at the third one, or out of
    buffer, fails, and leaves a list that has grown. *)
Theorem c63_resize_allocation_refuted :
  exists (w : world cell),
    result ((let* (rs, l) := start_list 2 None [LPushBack (el 1 1)] in
             let* (r, l) := run_lop l (LResize 4 (Some (el 5 5))) in
             let* xs := elements_of l in ret (rs, r, xs)) w)
    = inr ([ST_SUCCESS], err_status 7, [el 1 1; el 5 5; el 5 5]).
Proof. exists (lworld_failing [3]). vm_compute. reflexivity. Qed.
Theorem c63_resize_buffer_refuted :
  exists (w : world cell),
    result ((let* (rs, l) := start_buffer_list 2 None 54 [LPushBack (el 1 1)] in
             let* (r, l) := run_lop l (LResize 4 (Some (el 5 5))) in
             let* xs := elements_of l in ret (rs, r, xs)) w)
    = inr ([ST_SUCCESS], ST_INSUFFICIENT_BUFFER_SIZE, [el 1 1; el 5 5; el 5 5]).
Proof. exists (lworld_buf 54). vm_compute. reflexivity. Qed.

(** C65 is false: with element_size = 2^64 - 16 a node has the size 0, Init accepts a buffer of 8 bytes, and EmplaceBack
    overwrites the memory behind the buffer (here: the caller's 8 bytes of value 2), or, if there is no such memory,
    accesses memory out of bounds. *)
Theorem c65_huge_element_refuted :
  exists (w : world cell),
    (exists c, heap w 0 = Some ([CByte 1] ++ lbuf 8 ++ c) /\ c = repeat (CByte 2) 8) /\
    result ((let* (rs, l) := start_buffer_list (W64 - 16) None 8 [LEmplaceBack None None] in
             let* post := mread (Some (mkptr 0 9)) 8 in ret (rs, post)) w)
    = inr ([ST_SUCCESS], enc None).
Proof.
  exists (mkworld (fun b => if b =? 0 then Some ([CByte 1] ++ lbuf 8 ++ repeat (CByte 2) 8) else None) 1 (fun _ => AFail 7) 0 []).
  split; [eexists; split; reflexivity|]. vm_compute. reflexivity.
Qed.
Theorem c65_huge_element_out_of_bounds_refuted :
  exists (w : world cell),
    result (start_buffer_list (W64 - 16) None 8 [LEmplaceBack None None] w) = inl OutOfBounds.
Proof. exists (lworld_buf 8). vm_compute. reflexivity. Qed.
(** The same with a growable list: an allocation of 0 bytes is requested, which the allocator asserts against. *)
Theorem c65_huge_element_allocation_refuted :
  exists (w : world cell) f, result (start_list (W64 - 16) None [LEmplaceBack None None] w) = inl f.
Proof. exists lworld. eexists. vm_compute. reflexivity. Qed.
(** ... more generally for every element size for which the node size wraps, every allocator that grants the request and
    every constructor. *)
Theorem c65_wrapping_element_refuted :
  forall (w : world cell) e dtor fill ctor, W64 - 16 <= e -> e < W64 -> orc w (tick w) = AOk fill ->
    exists l f, linit e dtor w = Ok (ST_SUCCESS, Some l) w /\ lemplace_back l ctor w = Fault f.
Proof. exact huge_element_faults. Qed.
Print Assumptions c65_wrapping_element_refuted.
Example c65_wrapping_instance : W64 - 16 <= W64 - 3 /\ W64 - 3 < W64 /\ exists fill, orc lworld (tick lworld) = AOk fill.
Proof. split; [now vm_compute|]. split; [reflexivity|]. eexists. reflexivity. Qed.
