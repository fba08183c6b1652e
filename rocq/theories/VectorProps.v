(** Property theorems of the vector (C01-C12, C54).  Statements only; the counterexamples are in
    VectorRefuted.v. *)
From Verif Require Import Base Status Mem VectorModel VectorSpec VectorDriver VectorFinal VectorFinal2
  VectorExamples.
From Coq Require Import Permutation ZifyBool ZifyNat ZifyN.

(** C01.  Any history of calls on a growable vector whose allocator works returns the statuses and leaves
    the contents that the list machine [vspecs] prescribes; no call faults. *)
Theorem c01_growable_vector :
  forall (C : Type) (w0 : world C) e cap d g s ops,
    init_args_ok w0 e cap d g s -> Forall (arg_ok e) ops -> room (demands ops) e ->
    exists v0 w1 rs v w xs,
      vinit_ex e cap d true g s w0 = Ok (ST_SUCCESS, Some v0) w1 /\
      run_ops v0 ops w1 = Ok (rs, v) w /\
      vspecs (mkcfg false g s e d) ops (mkst [] (N.max 1 cap) (dlog w0)) rs
             (mkst xs (snd (vget_capacity v)) (dlog w)) /\
      shows w v xs.
Proof. exact @growable_vector_refines. Qed.
Print Assumptions c01_growable_vector.
Example c01_hypotheses_met :
  init_args_ok world0 2 0 None 2 4 /\
  Forall (arg_ok 2) [OPushBack [1;2]; OInsert 0 [3;4]; OSwap 0 1; ODeleteRange 0 1; OInsert 9 [5;6]; OClear] /\
  room (demands [OPushBack [1;2]; OInsert 0 [3;4]; OSwap 0 1; ODeleteRange 0 1; OInsert 9 [5;6]; OClear]) 2.
Proof.
  split; [|split].
  - apply init_args_world0; try lia; try reflexivity; exact I.
  - repeat constructor; discriminate.
  - reflexivity.
Qed.

(** C02.  On a caller-supplied buffer the list machine is the bounded one; nothing outside the buffer
    changes, the data pointer stays, the allocator is not asked. *)
Theorem c02_fixed_buffer_vector :
  forall (C : Type) (w0 : world C) e cap d b pre buf post ops,
    buffer_args_ok w0 e cap d b pre buf post -> Forall (arg_ok e) ops -> room (demands ops) e ->
    exists v0 rs v w xs buf',
      vinit_custom e (Some (mkptr b (nlen pre))) cap d w0 = Ok (ST_SUCCESS, Some v0) w0 /\
      run_ops v0 ops w0 = Ok (rs, v) w /\
      vspecs (mkcfg true 1 0 e d) ops (mkst [] cap (dlog w0)) rs (mkst xs cap (dlog w)) /\
      shows w v xs /\ vget_capacity v = (ST_SUCCESS, cap) /\
      v_data v = Some (mkptr b (nlen pre)) /\ tick w = tick w0 /\
      heap w b = Some (pre ++ buf' ++ post) /\ nlen buf' = nlen buf /\
      (forall b', b' <> b -> heap w b' = heap w0 b').
Proof. exact @fixed_vector_refines. Qed.
Print Assumptions c02_fixed_buffer_vector.
Example c02_hypotheses_met :
  buffer_args_ok world_buf 2 3 None 0 [1;1] [2;2;2;2;2;2] [3;3] /\
  Forall (arg_ok 2) [OPushBack [1;2]; OResizeEx 3 [7;7]; OPushBack [3;4]; OPopBack] /\
  room (demands [OPushBack [1;2]; OResizeEx 3 [7;7]; OPushBack [3;4]; OPopBack]) 2.
Proof. split; [exact buffer_args_world|]. split; [repeat constructor|reflexivity]. Qed.

(** C03, the part that holds: a call that needed room reports the allocator's error, and size, elements and
    all memory are unchanged.  Missing: the capacity is not kept (c03_growth_failure_refuted), and a
    failing shrink is reported as an error although the deletion took place
    (c03_shrink_failure_refuted). *)
Theorem c03_allocation_failure_partial :
  forall (C : Type) (w : world C) v xs o orc' st,
    reached_own w v xs -> arg_ok (v_esz v) o -> room (nlen xs + demand o) (v_esz v) ->
    wants_room o (nlen xs) (snd (vget_capacity v)) = true -> orc' (tick w) = AFail st ->
    exists v' w', run_op v o (with_oracle w orc') = Ok (err_status st, v') w' /\
      shows w' v' xs /\ dlog w' = dlog w /\ (forall b, heap w' b = heap w b).
Proof. exact @growth_failure_keeps_elements. Qed.
Print Assumptions c03_allocation_failure_partial.
Example c03_hypotheses_met : exists (w : world N) v,
  reached_own w v [[1;2];[3;4];[5;6]] /\ arg_ok (v_esz v) (OInsert 1 [7;8]) /\
  room (3 + demand (OInsert 1 [7;8])) (v_esz v) /\
  wants_room (OInsert 1 [7;8]) 3 (snd (vget_capacity v)) = true.
Proof.
  destruct ex_reached_full as (w & v & R & E & _ & CP). exists w, v. rewrite E, CP.
  repeat split; auto.
Qed.

(** C03 for the initialisation: a refused request is reported and nothing is left allocated. *)
Theorem c03_init_failure :
  forall (C : Type) (w : world C) e cap d g s st,
    1 <= e -> 1 <= g -> orc w (tick w) = AFail st ->
    exists ov w', vinit_ex e cap d true g s w = Ok (err_status st, ov) w' /\
      (forall b, heap w' b = heap w b) /\ dlog w' = dlog w.
Proof. exact @init_failure. Qed.
Print Assumptions c03_init_failure.
Example c03_init_hypotheses_met : orc (world_failing [0]) (tick (world_failing [0])) = AFail 7.
Proof. reflexivity. Qed.

(** C04.  Capacity is at least the size and, for a growable vector, exactly what the storage holds. *)
Theorem c04_capacity :
  forall (C : Type) (w : world C) v xs,
    reached w v xs ->
    nlen xs <= snd (vget_capacity v) /\
    (reached_own w v xs -> exists p buf, v_data v = Some p /\ po p = 0 /\ heap w (pb p) = Some buf /\
       nlen buf = snd (vget_capacity v) * v_esz v).
Proof. exact @capacity_is_storage. Qed.
Print Assumptions c04_capacity.
(** C04.  After Reserve(n), pushes up to n elements ask the allocator nothing and move nothing. *)
Theorem c04_reserve :
  forall (C : Type) (w : world C) v xs n ys,
    reached_own w v xs -> room (nlen xs + n) (v_esz v) ->
    Forall (fun y => nlen y = v_esz v) ys -> nlen xs + nlen ys <= n ->
    exists v1 w1 v2 w2,
      vreserve v n w = Ok (ST_SUCCESS, v1) w1 /\ n <= snd (vget_capacity v1) /\
      shows w1 v1 xs /\
      run_ops v1 (map OPushBack ys) w1 = Ok (map (fun _ => ST_SUCCESS) ys, v2) w2 /\
      tick w2 = tick w1 /\ v_data v2 = v_data v1 /\ shows w2 v2 (xs ++ ys).
Proof. exact @reserve_then_push. Qed.
Print Assumptions c04_reserve.
(** C04.  ShrinkToFit. *)
Theorem c04_shrink_to_fit :
  forall (C : Type) (w : world C) v xs,
    reached_own w v xs ->
    exists v' w', vshrink_to_fit v w = Ok (ST_SUCCESS, v') w' /\
      vget_capacity v' = (ST_SUCCESS, N.max 1 (nlen xs)) /\ shows w' v' xs.
Proof. exact @shrink_to_fit_capacity. Qed.
Print Assumptions c04_shrink_to_fit.
Example c04_hypotheses_met : exists (w : world N) v,
  reached_own w v [[1;2];[3;4];[5;6]] /\ reached w v [[1;2];[3;4];[5;6]] /\
  room (3 + 10) (v_esz v) /\ Forall (fun y => nlen y = v_esz v) [[7;8];[9;10]].
Proof.
  destruct ex_reached as (w & v & R & E & _ & CP). exists w, v. rewrite E.
  split; [exact R|]. split; [left; exact R|]. split; [reflexivity|]. repeat constructor.
Qed.

(** C05, with a working allocator: over a whole life cycle the destructor log is, call by call, the one of
    the list machine (which logs each removed element, in index order), and as a multiset it is exactly
    the elements that were put in.  Missing: a failing allocator (c05_resize_failure_refuted). *)
Theorem c05_destructors_partial :
  forall (C : Type) (w0 : world C) e cap f g s ops,
    init_args_ok w0 e cap (Some f) g s -> Forall (arg_ok e) ops -> room (demands ops) e ->
    exists v0 w1 rs v w xs v' w' added,
      vinit_ex e cap (Some f) true g s w0 = Ok (ST_SUCCESS, Some v0) w1 /\
      run_ops v0 ops w1 = Ok (rs, v) w /\ shows w v xs /\
      vhistory (mkcfg false g s e (Some f)) ops (mkst [] (N.max 1 cap) (dlog w0)) rs
               (mkst xs (snd (vget_capacity v)) (dlog w)) added /\
      vdestroy v w = Ok (ST_SUCCESS, v') w' /\ dlog w' = dlog w ++ xs /\
      Permutation (dlog w') (dlog w0 ++ added).
Proof. exact @destructor_life_cycle. Qed.
Print Assumptions c05_destructors_partial.
Example c05_hypotheses_met :
  init_args_ok world0 1 0 (Some (map (fun x => x + 1))) 2 4 /\
  Forall (arg_ok 1) [OPushBack [1]; OInsert 0 [3]; OSet 0 [4]; OPopBack] /\
  room (demands [OPushBack [1]; OInsert 0 [3]; OSet 0 [4]; OPopBack]) 1.
Proof.
  split; [|split].
  - apply init_args_world0; try lia; try reflexivity.
    intros x _. unfold nlen. now rewrite map_length.
  - repeat constructor.
  - reflexivity.
Qed.

(** C06, with a working allocator: during the life cycle memory that was live before is untouched, and at
    the end memory is exactly as before. *)
Theorem c06_no_leak_partial :
  forall (C : Type) (w0 : world C) e cap d g s ops,
    init_args_ok w0 e cap d g s -> Forall (arg_ok e) ops -> room (demands ops) e ->
    exists v0 w1 rs v w v' w',
      vinit_ex e cap d true g s w0 = Ok (ST_SUCCESS, Some v0) w1 /\
      run_ops v0 ops w1 = Ok (rs, v) w /\
      (forall b, heap w0 b <> None -> heap w b = heap w0 b) /\
      vdestroy v w = Ok (ST_SUCCESS, v') w' /\
      (forall b, heap w' b = heap w0 b).
Proof. exact @life_cycle_no_leak. Qed.
Print Assumptions c06_no_leak_partial.
(** C06 when the allocator refuses to grow in the last call before Destroy.  Missing: further calls after
    such a failure, which may leave the storage (c03_growth_failure_refuted). *)
Theorem c06_failed_growth_no_leak_partial :
  forall (C : Type) (w0 : world C) e cap d g s ops o orc' st v0 w1 rs v w xs,
    init_args_ok w0 e cap d g s -> Forall (arg_ok e) ops -> room (demands ops) e ->
    vinit_ex e cap d true g s w0 = Ok (ST_SUCCESS, Some v0) w1 ->
    run_ops v0 ops w1 = Ok (rs, v) w -> shows w v xs ->
    arg_ok e o -> room (nlen xs + demand o) e ->
    wants_room o (nlen xs) (snd (vget_capacity v)) = true -> orc' (tick w) = AFail st ->
    exists v1 w2 v' w', run_op v o (with_oracle w orc') = Ok (err_status st, v1) w2 /\
      vdestroy v1 w2 = Ok (ST_SUCCESS, v') w' /\ (forall b, heap w' b = heap w0 b).
Proof. exact @failed_growth_no_leak. Qed.
Print Assumptions c06_failed_growth_no_leak_partial.
Example c06_failed_growth_hypotheses_met :
  let ops := [OPushBack [1;2]] in let o := OPushBack [3;4] in exists v0 w1 rs v w (orc' : N -> aresp N),
  init_args_ok world0 2 1 None 2 4 /\ Forall (arg_ok 2) ops /\ room (demands ops) 2 /\
  vinit_ex 2 1 None true 2 4 world0 = Ok (ST_SUCCESS, Some v0) w1 /\ run_ops v0 ops w1 = Ok (rs, v) w /\ shows w v [[1;2]] /\
  arg_ok 2 o /\ room (1 + demand o) 2 /\ wants_room o 1 (snd (vget_capacity v)) = true /\ orc' (tick w) = AFail 7.
Proof.
  cbv zeta. eexists _, _, _, _, _, (fun _ => AFail 7).
  split; [apply init_args_world0; try lia; try reflexivity; exact I|]. split; [repeat constructor|]. split; [reflexivity|].
  split; [vm_compute; reflexivity|]. split; [vm_compute; reflexivity|]. split; [|repeat split; reflexivity].
  split; [reflexivity|]. intros i. destruct i as [|p]; [now vm_compute|].
  rewrite NListFacts.nnth_ge by (change (nlen [[1;2]]) with 1; lia). now destruct p.
Qed.
Example c06_hypotheses_met :
  init_args_ok world0 2 1 None 2 4 /\ Forall (arg_ok 2) [OPushBack [1;2]; OClear; OShrinkToFit] /\
  room (demands [OPushBack [1;2]; OClear; OShrinkToFit]) 2.
Proof. split; [apply init_args_world0; try lia; try reflexivity; exact I|]. split; [repeat constructor|reflexivity]. Qed.

(** C07, for a non-empty vector.  Missing: a range that starts at the end, in particular the whole of an
    empty vector, is reported as OUT_OF_RANGE (c07_find_empty_refuted). *)
Theorem c07_find_ex_partial :
  forall (C : Type) (w : world C) v xs y cmp i n,
    reached w v xs -> nlen y = v_esz v -> i + n <= nlen xs -> i < nlen xs ->
    exists r f w', with_arg y (fun p => vfind_ex v p cmp i n) w = Ok (r, f) w' /\
      first_match (fun x => cmp x y) xs i (i + n) f /\
      r = (match f with Some _ => ST_TRUE | None => ST_FALSE end) /\
      (forall b, heap w' b = heap w b) /\ dlog w' = dlog w.
Proof. exact @find_reached. Qed.
Print Assumptions c07_find_ex_partial.
Theorem c07_find_partial :
  forall (C : Type) (w : world C) v xs y cmp,
    reached w v xs -> nlen y = v_esz v -> xs <> [] ->
    exists r f w', with_arg y (fun p => vfind v p cmp) w = Ok (r, f) w' /\
      first_match (fun x => cmp x y) xs 0 (nlen xs) f /\
      r = (match f with Some _ => ST_TRUE | None => ST_FALSE end) /\
      (forall b, heap w' b = heap w b) /\ dlog w' = dlog w.
Proof. exact @find_all_reached. Qed.
Print Assumptions c07_find_partial.
Example c07_hypotheses_met : exists (w : world N) v,
  reached w v [[1;2];[3;4];[5;6]] /\ nlen [3;4] = v_esz v /\ 1 + 2 <= 3.
Proof.
  destruct ex_reached as (w & v & R & E & _). exists w, v. rewrite E.
  split; [left; exact R|]. split; [reflexivity|lia].
Qed.

(** C08. *)
Theorem c08_binary_search_ex :
  forall (C : Type) (w : world C) v xs y cmp i n,
    reached w v xs -> nlen y = v_esz v -> i + n <= nlen xs ->
    cmp_order (v_esz v) cmp -> sorted_range cmp xs i (i + n) ->
    exists r k w', with_arg y (fun p => vbinary_search_ex v p cmp i n) w = Ok (r, Some k) w' /\
      lower_bound cmp xs i (i + n) y k /\
      (r = ST_TRUE /\ (exists j x, i <= j < i + n /\ nnth j xs = Some x /\ cmp x y = 0%Z) \/
       r = ST_FALSE /\ forall j x, i <= j < i + n -> nnth j xs = Some x -> cmp x y <> 0%Z) /\
      (forall b, heap w' b = heap w b) /\ dlog w' = dlog w.
Proof. exact @bsearch_reached. Qed.
Print Assumptions c08_binary_search_ex.
Theorem c08_binary_search :
  forall (C : Type) (w : world C) v xs y cmp,
    reached w v xs -> nlen y = v_esz v ->
    cmp_order (v_esz v) cmp -> sorted_range cmp xs 0 (nlen xs) ->
    exists r k w', with_arg y (fun p => vbinary_search v p cmp) w = Ok (r, Some k) w' /\
      lower_bound cmp xs 0 (nlen xs) y k /\
      (r = ST_TRUE /\ (exists j x, nnth j xs = Some x /\ cmp x y = 0%Z) \/
       r = ST_FALSE /\ forall j x, nnth j xs = Some x -> cmp x y <> 0%Z) /\
      (forall b, heap w' b = heap w b) /\ dlog w' = dlog w.
Proof. exact @bsearch_all_reached. Qed.
Print Assumptions c08_binary_search.
Example c08_hypotheses_met : exists (w : world N) v,
  reached w v [[1;2];[3;4];[5;6]] /\ nlen [4;0] = v_esz v /\ cmp_order (v_esz v) first_byte_cmp /\
  sorted_range first_byte_cmp [[1;2];[3;4];[5;6]] 0 3.
Proof.
  destruct ex_reached as (w & v & R & E & _). exists w, v. rewrite E.
  split; [left; exact R|]. split; [reflexivity|]. split.
  - split; intros; unfold first_byte_cmp in *; lia.
  - intros i j x y _ L1 L2 NX NY. unfold first_byte_cmp.
    assert (D : (i = 0 /\ (j = 1 \/ j = 2)) \/ (i = 1 /\ j = 2)) by lia.
    destruct D as [[-> [-> | ->]]|[-> ->]]; injection NX as <-; injection NY as <-; cbn [hd]; lia.
Qed.

(** C09. *)
Theorem c09_duplicate :
  forall (C : Type) (w : world C) v xs cap g s,
    reached w v xs -> allocator_ok w -> N.max 1 (N.max cap (nlen xs)) * v_esz v < W64 ->
    1 <= g < 256 -> s < 256 ->
    exists d w', vduplicate_ex v cap true g s w = Ok (ST_SUCCESS, Some d) w' /\
      shows w' d xs /\ shows w' v xs /\
      vget_capacity d = (ST_SUCCESS, N.max 1 (N.max cap (nlen xs))) /\
      (exists b, v_data d = Some (mkptr b 0) /\ heap w b = None /\
         forall b', b' <> b -> heap w' b' = heap w b') /\ dlog w' = dlog w /\
      forall ops, Forall (arg_ok (v_esz v)) ops -> room (nlen xs + demands ops) (v_esz v) ->
        (exists rs d2 w2 ys, run_ops d ops w' = Ok (rs, d2) w2 /\ shows w2 d2 ys /\
           vspecs (mkcfg false g s (v_esz v) (v_dtor v)) ops
             (mkst xs (N.max 1 (N.max cap (nlen xs))) (dlog w)) rs
             (mkst ys (snd (vget_capacity d2)) (dlog w2)) /\ shows w2 v xs) /\
        (exists rs v2 w2, run_ops v ops w' = Ok (rs, v2) w2 /\ shows w2 d xs).
Proof. exact @duplicate_reached. Qed.
Print Assumptions c09_duplicate.
Theorem c09_duplicate_custom_buffer :
  forall (C : Type) (w : world C) v xs b bpre buf bpost cap,
    reached w v xs -> heap w b = Some (bpre ++ buf ++ bpost) ->
    (forall p, v_data v = Some p -> pb p <> b) ->
    nlen buf = cap * v_esz v -> cap * v_esz v < W64 -> 1 <= cap ->
    if cap <? nlen xs
    then vduplicate_custom v (Some (mkptr b (nlen bpre))) cap w = Ok (ST_INSUFFICIENT_BUFFER_SIZE, None) w
    else exists d w' buf', vduplicate_custom v (Some (mkptr b (nlen bpre))) cap w = Ok (ST_SUCCESS, Some d) w' /\
      shows w' d xs /\ shows w' v xs /\ vget_capacity d = (ST_SUCCESS, cap) /\ dlog w' = dlog w /\
      heap w' b = Some (bpre ++ buf' ++ bpost) /\ (forall b', b' <> b -> heap w' b' = heap w b') /\
      forall ops, Forall (arg_ok (v_esz v)) ops -> room (nlen xs + demands ops) (v_esz v) ->
        (exists rs d2 w2 ys, run_ops d ops w' = Ok (rs, d2) w2 /\ shows w2 d2 ys /\
           vspecs (mkcfg true 1 0 (v_esz v) (v_dtor v)) ops (mkst xs cap (dlog w)) rs
             (mkst ys (snd (vget_capacity d2)) (dlog w2)) /\ shows w2 v xs) /\
        (exists rs v2 w2, run_ops v ops w' = Ok (rs, v2) w2 /\ shows w2 d xs).
Proof. exact @duplicate_custom_reached. Qed.
Print Assumptions c09_duplicate_custom_buffer.
Example c09_custom_buffer_hypotheses_met : exists (w : world N) v b,
  reached w v [[1;2];[3;4];[5;6]] /\ heap w b = Some ([1;1] ++ [2;2;2;2;2;2] ++ [3;3]) /\
  (forall p, v_data v = Some p -> pb p <> b) /\ nlen [2;2;2;2;2;2] = 3 * v_esz v /\ 3 * v_esz v < W64.
Proof.
  destruct ex_reached_beside as (w & v & R & E & D & H). exists w, v, 0. rewrite E, D, H.
  split; [left; exact R|]. split; [reflexivity|]. split; [intros p P; injection P as <-; discriminate|]. split; reflexivity.
Qed.
Example c09_hypotheses_met : exists (w : world N) v,
  reached w v [[1;2];[3;4];[5;6]] /\ N.max 1 (N.max 7 3) * v_esz v < W64.
Proof.
  destruct ex_reached as (w & v & R & E & _). exists w, v. rewrite E.
  split; [left; exact R|reflexivity].
Qed.

(** C10, for arguments whose sums do not wrap around ([arg_ok]).  Missing: huge counts
    (c10_delete_range_refuted, c10_insert_range_refuted). *)
Theorem c10_out_of_range_partial :
  forall (C : Type) (w : world C) v xs o,
    reached w v xs -> bad_range o (nlen xs) = true -> arg_ok (v_esz v) o ->
    exists r w', run_op v o w = Ok (r, v) w' /\ (r = ST_OUT_OF_RANGE \/ r = ST_INVALID_ARGUMENT) /\
      (forall b, heap w' b = heap w b) /\ dlog w' = dlog w /\ shows w' v xs.
Proof. exact @bad_range_rejected. Qed.
Print Assumptions c10_out_of_range_partial.
Theorem c10_get_any_index :
  forall (C : Type) (w : world C) v xs i,
    reached w v xs ->
    match nnth i xs with
    | None => vget v i w = Ok None w /\ vget_pointer v i w = Ok (ST_OUT_OF_RANGE, None) w
    | Some x => exists p, vget v i w = Ok (Some p) w /\ vget_pointer v i w = Ok (ST_SUCCESS, Some p) w /\
                  mread (Some p) (v_esz v) w = Ok x w
    end.
Proof. exact @get_any_index. Qed.
Print Assumptions c10_get_any_index.
Theorem c10_null_arguments :
  forall (C : Type) (w : world C) v i n,
    vpush_back v None w = Ok (ST_INVALID_ARGUMENT, v) w /\
    vinsert v i None w = Ok (ST_INVALID_ARGUMENT, v) w /\
    vinsert_range v i None n w = Ok (ST_INVALID_ARGUMENT, v) w /\
    vset v i None w = Ok (ST_INVALID_ARGUMENT, v) w.
Proof. exact @null_arguments. Qed.
Print Assumptions c10_null_arguments.
Example c10_hypotheses_met : exists (w : world N) v,
  reached w v [[1;2];[3;4];[5;6]] /\ bad_range (@ODeleteRange N 2 7) 3 = true /\
  arg_ok (v_esz v) (@ODeleteRange N 2 7).
Proof.
  destruct ex_reached as (w & v & R & E & _). exists w, v. split; [left; exact R|]. split; reflexivity.
Qed.

(** C11, for emplacing at the end.  Missing: emplacing inside the vector (c11_emplace_ex_refuted). *)
Theorem c11_emplace_failure_partial :
  forall (C : Type) (w : world C) v xs f,
    reached w v xs -> (nlen xs < snd (vget_capacity v) \/ reached_own w v xs) ->
    room (nlen xs + 1) (v_esz v) ->
    (forall x, nlen x = v_esz v -> st_success (fst (f x)) = false /\ nlen (snd (f x)) = v_esz v) ->
    (forall x y, fst (f x) = fst (f y)) ->
    exists v' w' p x, vemplace v (Some f) w = Ok (fst (f x), v', p) w' /\ shows w' v' xs /\
      dlog w' = dlog w.
Proof. exact @emplace_failure. Qed.
Print Assumptions c11_emplace_failure_partial.
Example c11_hypotheses_met : exists (w : world N) v,
  reached w v [[1;2];[3;4];[5;6]] /\ reached_own w v [[1;2];[3;4];[5;6]] /\ room (3 + 1) (v_esz v) /\
  (forall x, nlen x = v_esz v -> st_success (fst ((fun y => (ST_FAILED, map (N.add 1) y)) x)) = false /\
     nlen (snd ((fun y => (ST_FAILED, map (N.add 1) y)) x)) = v_esz v).
Proof.
  destruct ex_reached_full as (w & v & R & E & _). exists w, v. rewrite E.
  split; [left; exact R|]. split; [exact R|]. split; [reflexivity|].
  intros x L. split; [reflexivity|]. cbn [snd]. rewrite <- L. unfold nlen. now rewrite map_length.
Qed.

(** C12, for different indices.  Missing: [i = j] (c12_swap_same_refuted). *)
Theorem c12_swap_partial :
  forall (C : Type) (w : world C) v xs i j,
    reached w v xs -> i <> j ->
    (i < nlen xs -> j < nlen xs -> nlen xs < snd (vget_capacity v) ->
     exists v' w' ys, vswap v i j w = Ok (ST_SUCCESS, v') w' /\ shows w' v' ys /\ dlog w' = dlog w /\
       (forall k, nnth k ys = if k =? i then nnth j xs else if k =? j then nnth i xs else nnth k xs) /\
       exists v2 w2, vswap v' i j w' = Ok (ST_SUCCESS, v2) w2 /\ shows w2 v2 xs) /\
    (nlen xs <= i \/ nlen xs <= j -> vswap v i j w = Ok (ST_OUT_OF_RANGE, v) w) /\
    (i < nlen xs -> j < nlen xs -> nlen xs = snd (vget_capacity v) ->
     vswap v i j w = Ok (ST_INSUFFICIENT_BUFFER_SIZE, v) w).
Proof. exact @swap_reached. Qed.
Print Assumptions c12_swap_partial.
Example c12_hypotheses_met : exists (w : world N) v,
  reached w v [[1;2];[3;4];[5;6]] /\ 3 < snd (vget_capacity v).
Proof.
  destruct ex_reached as (w & v & R & E & _ & CP). exists w, v. rewrite CP.
  split; [left; exact R|reflexivity].
Qed.

(** C54, without reallocation.  Missing: the vector is full (c54_push_back_own_element_refuted). *)
Theorem c54_push_back_own_element_partial :
  forall (C : Type) (w : world C) v xs i x,
    reached w v xs -> nnth i xs = Some x -> nlen xs < snd (vget_capacity v) ->
    exists p v' w', vget v i w = Ok (Some p) w /\ vpush_back v (Some p) w = Ok (ST_SUCCESS, v') w' /\
      shows w' v' (xs ++ [x]) /\ tick w' = tick w.
Proof. exact @push_back_own_element. Qed.
Print Assumptions c54_push_back_own_element_partial.
Example c54_hypotheses_met : exists (w : world N) v,
  reached w v [[1;2];[3;4];[5;6]] /\ nnth 1 [[1;2];[3;4];[5;6]] = Some [3;4] /\
  3 < snd (vget_capacity v).
Proof.
  destruct ex_reached as (w & v & R & E & _ & CP). exists w, v. rewrite CP.
  split; [left; exact R|]. split; reflexivity.
Qed.
