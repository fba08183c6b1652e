(** Property theorems about alignment (C81).  Statements only. *)
From Verif Require Import Base NListFacts Status Mem VectorModel VectorSpec VectorDriver VectorExamples.
From Verif Require Import ListModel ListSpec ListDriver ListExamples ListProps AlignSpec AlignProofs.
From Coq Require Import ZifyBool ZifyNat ZifyN.

(** C81, growable lists.  If the allocator hands out blocks aligned to [a] (a divisor of 16), every node and every
    element is aligned to [a], whatever the element size. *)
Theorem c81_growable_list :
  forall (w0 : Mem.world cell) e d l0 w1 ops rs l w ps xs addr a,
    linit_args_ok w0 e d -> linit_ex e d true w0 = Ok (ST_SUCCESS, Some l0) w1 ->
    Forall (larg_ok e) ops -> ldemands ops < W64 ->
    run_lops l0 ops w1 = Ok (rs, l) w -> lshows w l ps xs ->
    a <> 0 -> aligned a 16 -> (forall b, aligned a (addr b)) ->
    Forall (node_aligned addr a) ps.
Proof. exact growable_aligned. Qed.
Print Assumptions c81_growable_list.
Example c81_growable_hypotheses_met :
  exists l0 rs l w ps xs,
    linit_args_ok lworld 2 None /\ linit_ex 2 None true lworld = Ok (ST_SUCCESS, Some l0) lworld /\
    Forall (larg_ok 2) list_history /\ ldemands list_history < W64 /\
    run_lops l0 list_history lworld = Ok (rs, l) w /\ lshows w l ps xs /\ nlen xs = 3 /\
    aligned 16 16 /\ forall b, aligned 16 (4096 + 64 * b).
Proof.
  assert (A : linit_args_ok lworld 2 None) by (apply lworld_args; [lia|reflexivity|exact I]).
  destruct (c30_growable_list _ _ _ A) as (l0 & E & _ & H). destruct list_history_ok as [H1 H2].
  destruct (H _ H1 H2) as (rs & l & w & ps & xs & gone & new & R & _ & SH & _).
  exists l0, rs, l, w, ps, xs. do 6 (split; [assumption|]). split.
  - pose proof E as E'. vm_compute in E'. injection E' as <-.
    assert (Z : match run_lops (mklist true 0 2 None None None None 0 None) list_history lworld with
                | Ok (_, l) _ => Some (l_size l) | _ => None end = Some 3) by (vm_compute; reflexivity).
    rewrite R in Z. destruct SH as (_ & G & _). unfold lget_size in G. congruence.
  - split; [reflexivity|]. intros b. unfold aligned. replace (4096 + 64 * b) with ((256 + 4 * b) * 16) by lia. now apply N.mod_mul.
Qed.

(** C81, lists in a caller's buffer, the part that holds: if the buffer is aligned to [a] and the element size is a
    multiple of [a], every node and every element is aligned to [a].  Missing: element sizes that are not a multiple of
    the alignment of a pointer ([c81_fixed_list_refuted]). *)
Theorem c81_fixed_list_partial :
  forall (w0 : Mem.world cell) e d cap b pre buf post l0 w1 ops rs l w ps xs addr a,
    lbuffer_args_ok w0 e d cap b pre buf post ->
    linit_custom e d (Some (mkptr b (nlen pre))) cap w0 = Ok (ST_SUCCESS, Some l0) w1 ->
    Forall (larg_ok e) ops -> ldemands ops < W64 ->
    run_lops l0 ops w1 = Ok (rs, l) w -> lshows w l ps xs ->
    a <> 0 -> aligned a 16 -> aligned a e -> aligned a (addr b + nlen pre) ->
    Forall (node_aligned addr a) ps.
Proof. exact fixed_aligned. Qed.
Print Assumptions c81_fixed_list_partial.
(** C81 is false for every element size that is not a multiple of 8: in a buffer aligned for pointers with room for two
    nodes or more, every history that fills the list puts a node (a struct of two pointers) at an address that is not a
    multiple of 8, and has written its pointers there. *)
Theorem c81_fixed_list_refuted :
  forall (w0 : Mem.world cell) e d cap b pre buf post l0 w1 ops rs l w ps xs addr,
    lbuffer_args_ok w0 e d cap b pre buf post ->
    linit_custom e d (Some (mkptr b (nlen pre))) cap w0 = Ok (ST_SUCCESS, Some l0) w1 ->
    Forall (larg_ok e) ops -> ldemands ops < W64 ->
    run_lops l0 ops w1 = Ok (rs, l) w -> lshows w l ps xs ->
    aligned POINTER_ALIGNMENT (addr b + nlen pre) -> ~ aligned POINTER_ALIGNMENT e ->
    2 <= nodes_in cap e -> nlen xs = nodes_in cap e ->
    exists p, In p ps /\ ~ aligned POINTER_ALIGNMENT (address addr p).
Proof. exact full_misaligned8. Qed.
Print Assumptions c81_fixed_list_refuted.
(** Two elements of 4 bytes (int) fill a buffer of 40 bytes. *)
Example c81_fixed_hypotheses_met :
  let x := [CByte 1; CByte 2; CByte 3; CByte 4] in
  let ops := [LPushBack x; LPushBack x] in
  exists l0 rs l w ps xs,
    lbuffer_args_ok (lworld_buf 40) 4 None 40 0 [CByte 1] (lbuf 40) [CByte 2] /\
    linit_custom 4 None (Some (mkptr 0 1)) 40 (lworld_buf 40) = Ok (ST_SUCCESS, Some l0) (lworld_buf 40) /\
    Forall (larg_ok 4) ops /\ ldemands ops < W64 /\
    run_lops l0 ops (lworld_buf 40) = Ok (rs, l) w /\ lshows w l ps xs /\
    aligned POINTER_ALIGNMENT (4095 + 1) /\ ~ aligned POINTER_ALIGNMENT 4 /\ aligned 4 4 /\ aligned 4 (4095 + 1) /\
    2 <= nodes_in 40 4 /\ nlen xs = nodes_in 40 4.
Proof.
  intros x ops.
  assert (A : lbuffer_args_ok (lworld_buf 40) 4 None 40 0 [CByte 1] (lbuf 40) [CByte 2])
    by (apply lworld_buf_args; [lia|lia|reflexivity|exact I]).
  assert (H1 : Forall (larg_ok 4) ops) by (repeat constructor).
  assert (H2 : ldemands ops < W64) by reflexivity.
  destruct (c30_fixed_list _ _ _ _ _ _ _ _ A) as (l0 & E & _ & H).
  destruct (H _ H1 H2) as (rs & l & w & ps & xs & gone & new & buf' & R & _ & SH & _).
  exists l0, rs, l, w, ps, xs. do 6 (split; [assumption|]). do 2 (split; [reflexivity || discriminate|]).
  do 2 (split; [reflexivity|]). split; [vm_compute; discriminate|].
  assert (Z : match linit_custom 4 None (Some (mkptr 0 1)) 40 (lworld_buf 40) with
              | Ok (_, Some l0) w0 =>
                  match run_lops l0 ops w0 with Ok (_, l) _ => Some (l_size l) | _ => None end
              | _ => None end = Some 2) by (vm_compute; reflexivity).
  change (mkptr 0 1) with (mkptr 0 (nlen [CByte 1])) in Z. rewrite E, R in Z.
  destruct SH as (_ & G & _). unfold lget_size in G. change (nodes_in 40 4) with 2. congruence.
Qed.

(** C81, vectors: the pointer that Get returns for an element is aligned like the block (of the allocator or of the
    caller) and the element size. *)
Theorem c81_growable_vector :
  forall (C : Type) w (v : vector C) xs addr a i,
    reached_own w v xs -> i < nlen xs ->
    a <> 0 -> aligned a (v_esz v) -> (forall b, aligned a (addr b)) ->
    exists p, vget v i w = Ok (Some p) w /\ aligned a (address addr p).
Proof. exact @own_vector_aligned. Qed.
Print Assumptions c81_growable_vector.
Example c81_vector_hypotheses_met :
  exists w v, reached_own w v [[1;2];[3;4];[5;6]] /\ v_esz v = 2 /\ aligned 2 2 /\ forall b, aligned 2 (4096 + 64 * b).
Proof.
  destruct (reach_any 2 2 4 None [[1;2];[3;4];[5;6]] 0) as (w & v & R & E & _);
    try (repeat constructor; lia || reflexivity || exact I).
  exists w, v. split; [exact R|]. split; [exact E|]. split; [reflexivity|]. intros b. unfold aligned.
  replace (4096 + 64 * b) with ((2048 + 32 * b) * 2) by lia. now apply N.mod_mul.
Qed.
Theorem c81_fixed_buffer_vector :
  forall (C : Type) w0 e cap d b pre buf post v0 w1 ops rs (v : vector C) w xs addr a i,
    buffer_args_ok w0 e cap d b pre buf post -> Forall (arg_ok e) ops -> room (demands ops) e ->
    vinit_custom e (Some (mkptr b (nlen pre))) cap d w0 = Ok (ST_SUCCESS, Some v0) w1 ->
    run_ops v0 ops w1 = Ok (rs, v) w -> shows w v xs -> i < nlen xs ->
    a <> 0 -> aligned a e -> aligned a (addr b + nlen pre) ->
    exists p, vget v i w = Ok (Some p) w /\ aligned a (address addr p).
Proof. exact @buffer_vector_aligned. Qed.
Print Assumptions c81_fixed_buffer_vector.
(** The histories are those of [c02_hypotheses_met]; the buffer begins two bytes into its block. *)
Example c81_buffer_vector_hypotheses_met :
  buffer_args_ok world_buf 2 3 None 0 [1;1] [2;2;2;2;2;2] [3;3] /\
  Forall (arg_ok 2) [OPushBack [1;2]; OPushBack [3;4]] /\ room (demands [OPushBack [1;2]; OPushBack [3;4]]) 2 /\
  aligned 2 2 /\ aligned 2 (4094 + nlen [1;1]).
Proof. split; [exact buffer_args_world|]. split; [repeat constructor|]. now repeat split. Qed.
