(** Vector properties that the code does not have: concrete programs, evaluated by the kernel. *)
From Verif Require Import Base Status Mem VectorModel VectorSpec VectorDriver VectorExamples.

(** C03 is false: a PushBack whose allocation failed reports an error, but the capacity it recorded is
    that of the storage it did not get; the next PushBack writes outside the storage. *)
Theorem c03_growth_failure_refuted :
  exists (w : world N) (ops : list (vop N)),
    Forall (arg_ok 1) ops /\
    result ((let* (rs, v) := start_ops 1 1 None 2 0 ops in ret (rs, vget_capacity v)) w)
      = inr ([ST_SUCCESS; err_status 7], (ST_SUCCESS, 4)) /\
    result (start_ops 1 1 None 2 0 (ops ++ [OPushBack [3]]) w) = inl OutOfBounds.
Proof.
  exists (world_failing [1]), [OPushBack [1]; OPushBack [2]].
  split; [repeat constructor|]. split; vm_compute; reflexivity.
Qed.

(** C03 is false for deletions too: the element is gone although Delete reported an error. *)
Theorem c03_shrink_failure_refuted :
  exists (w : world N) (ops : list (vop N)),
    Forall (arg_ok 1) ops /\
    result ((let* (rs, v) := start_ops 1 8 None 2 2 ops in let* xs := read_all v in ret (rs, xs)) w)
      = inr ([ST_SUCCESS; ST_SUCCESS; err_status 7], [Some [2]]).
Proof.
  exists (world_failing [1]), [OPushBack [1]; OPushBack [2]; ODelete 0].
  split; [repeat constructor|]. vm_compute. reflexivity.
Qed.

(** C05 is false when the allocator fails: a shrinking Resize destroys the elements, reports an error and
    keeps them; Destroy destroys them again. *)
Theorem c05_resize_failure_refuted :
  exists (w : world N) (ops : list (vop N)),
    Forall (arg_ok 1) ops /\
    result ((let* (rs, v) := start_ops 1 8 (Some (fun x => x)) 2 2 ops in
             let* xs := read_all v in
             let* (r, _) := vdestroy v in let* l := read_log in ret (rs, xs, r, l)) w)
      = inr ([ST_SUCCESS; ST_SUCCESS; err_status 7], [Some [1]; Some [2]], ST_SUCCESS, [[2]; [1]; [2]]).
Proof.
  exists (world_failing [1]), [OPushBack [1]; OPushBack [2]; OResize 1].
  split; [repeat constructor|]. vm_compute. reflexivity.
Qed.

(** C07 is false for the empty vector: Find reports OUT_OF_RANGE, not FALSE. *)
Theorem c07_find_empty_refuted :
  exists (w : world N),
    result ((let* (_, v) := start_ops 1 1 None 2 0 [] in
             with_arg [5] (fun p => vfind v p (fun x y => match x, y with [a], [b] => a =? b | _, _ => false end))) w)
      = inr (ST_OUT_OF_RANGE, None).
Proof. exists world0. vm_compute. reflexivity. Qed.

(** C10 is false: in DeleteRange [index + count] wraps around, so a huge count is accepted and the vector
    grows. *)
Theorem c10_delete_range_refuted :
  exists (w : world N) (i n : N), n < W64 /\ i < W64 /\ 3 < i + n /\
    result ((let* (rs, v) := start_ops 1 4 None 2 0
               [OPushBack [1]; OPushBack [2]; OPushBack [3]; ODeleteRange i n] in
             let* xs := read_all v in ret (rs, xs)) w)
      = inr ([ST_SUCCESS; ST_SUCCESS; ST_SUCCESS; ST_SUCCESS],
             [Some [1]; Some [1]; Some [2]; Some [3]]).
Proof.
  exists world0, 1, 18446744073709551615. split; [reflexivity|]. split; [reflexivity|].
  split; [reflexivity|]. vm_compute. reflexivity.
Qed.

(** C10 is false: in InsertRange [size + count] wraps around, so no room is made and memory outside the
    storage is accessed, instead of an error being reported. *)
Theorem c10_insert_range_refuted :
  exists (w : world N) (n : N), n < W64 /\
    result ((let* (_, v) := start_ops 1 4 None 2 0 [OPushBack [1]] in
             with_arg [9] (fun p => vinsert_range v 0 p n)) w)
      = inl OutOfBounds.
Proof. exists world0, 18446744073709551615. split; [reflexivity|]. vm_compute. reflexivity. Qed.

(** C11 is false for EmplaceEx inside the vector: after a failing constructor the last element is
    overwritten and lost. *)
Theorem c11_emplace_ex_refuted :
  exists (w : world N) (f : list N -> status * list N),
    (forall x, st_success (fst (f x)) = false /\ nlen (snd (f x)) = nlen x) /\
    result ((let* (rs, v) := start_ops 1 4 None 2 0 [OPushBack [1]; OPushBack [2]] in
             let* (r, v, _) := vemplace_ex v 0 (Some f) in
             let* xs := read_all v in ret (r, xs)) w)
      = inr (ST_FAILED, [Some [1]; Some [1]]).
Proof.
  exists world0, (fun x => (ST_FAILED, x)). split; [intros x; split; reflexivity|].
  vm_compute. reflexivity.
Qed.

(** C12 is false for equal indices: the element is copied onto itself with ZYAN_MEMCPY, which is
    undefined. *)
Theorem c12_swap_same_refuted :
  exists (w : world N) (i : N),
    result (start_ops 1 4 None 2 0 [OPushBack [1]; OPushBack [2]; OSwap i i] w) = inl Overlapping.
Proof. exists world0, 1. vm_compute. reflexivity. Qed.

(** C54 is false when the vector has to grow: PushBack of an element of the same vector reads storage that
    was just released. *)
Theorem c54_push_back_own_element_refuted :
  exists (w : world N),
    result ((let* (_, v) := start_ops 1 2 None 2 0 [OPushBack [1]; OPushBack [2]] in
             let* p := vget v 0 in vpush_back v p) w) = inl UseAfterFree.
Proof. exists world0. vm_compute. reflexivity. Qed.
