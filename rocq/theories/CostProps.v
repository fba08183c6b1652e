(** C80: amortised cost of the calls of a vector. *)
From Verif Require Import Base NListFacts Status Mem VectorModel VectorSpec VectorDriver VectorExamples
  CostSpec CostProofs CostProofs2 CostExamples.
From Coq Require Import ZifyBool ZifyNat ZifyN.

(** With a growth factor of at least 2, and a shrink threshold that is larger than it (or 0: never
    shrink), the blocks that a history of calls asks the allocator for are together not larger than a
    constant times the number of elements the calls put in or took out, plus a constant. *)
Theorem c80_amortised_partial :
  forall C (w : world C) v xs ops, reached_own w v xs -> 2 <= v_growth v -> v_shrink v = 0 \/ v_growth v < v_shrink v ->
    Forall (arg_ok (v_esz v)) ops -> forallb automatic ops = true -> room (nlen xs + demands ops) (v_esz v) ->
    exists blocks changes v' w', run_cost v ops w = Ok (blocks, changes, v') w' /\
      blocks <= v_growth v * v_growth v * changes + v_growth v * distance (v_growth v * nlen xs) (snd (vget_capacity v)).
Proof. exact (@amortised). Qed.
Print Assumptions c80_amortised_partial.
Example c80_amortised_hypotheses_met : exists (w : world N) v, reached_own w v [[1;2];[3;4];[5;6]] /\ 2 <= v_growth v /\
  v_growth v < v_shrink v /\ let ops := [OPushBack [7;8]; OInsertRange 1 [[0;1];[2;3]]; OPopBack; ODeleteRange 0 5; OClear] in
  Forall (arg_ok (v_esz v)) ops /\ forallb automatic ops = true /\ room (3 + demands ops) (v_esz v).
Proof.
  destruct (ex_params 3 5 1) as (w & v & R & E & G & T & CP); [lia|lia|lia|]. exists w, v. rewrite E, G, T. cbv zeta.
  split; [exact R|]. split; [lia|]. split; [lia|]. split; [repeat constructor|]. split; reflexivity.
Qed.

(** A new vector with the default parameters. *)
Theorem c80_default :
  forall C (w : world C) e cap d ops, init_args_ok w e cap d VECTOR_DEFAULT_GROWTH VECTOR_DEFAULT_SHRINK ->
    Forall (arg_ok e) ops -> forallb automatic ops = true -> room (demands ops) e ->
    exists v w1 blocks changes v' w', vinit e cap d w = Ok (ST_SUCCESS, Some v) w1 /\
      run_cost v ops w1 = Ok (blocks, changes, v') w' /\ blocks <= 4 * changes + 2 * N.max 1 cap.
Proof. exact (@amortised_new). Qed.
Print Assumptions c80_default.
(** Seven pushes and six pops: blocks of 4, 10 and 4 elements for 13 changes. *)
Example c80_default_hypotheses_met : let ops := map OPushBack (repeat [1;2] 7) ++ repeat OPopBack 6 in
  init_args_ok world0 2 0 None VECTOR_DEFAULT_GROWTH VECTOR_DEFAULT_SHRINK /\ Forall (arg_ok 2) ops /\
  forallb automatic ops = true /\ room (demands ops) 2 /\
  match vinit 2 0 None world0 with
  | Ok (_, Some v) w1 => match run_cost v ops w1 with Ok (blocks, changes, _) _ => Some (blocks, changes) | _ => None end
  | _ => None
  end = Some (18, 13).
Proof.
  cbv zeta. split; [apply init_args_world0; [lia|exact I|vm_compute; split; [discriminate|reflexivity]|reflexivity|reflexivity]|].
  split; [repeat constructor|]. split; [reflexivity|]. split; [reflexivity|].
  vm_compute. reflexivity.
Qed.

(** Pushing elements makes logarithmically many requests. *)
Theorem c80_push_requests :
  forall C (w : world C) v xs ys, reached_own w v xs -> 2 <= v_growth v -> Forall (fun y => nlen y = v_esz v) ys ->
    room (nlen xs + nlen ys) (v_esz v) ->
    exists v' w', run_ops v (map OPushBack ys) w = Ok (map (fun _ => ST_SUCCESS) ys, v') w' /\ shows w' v' (xs ++ ys) /\
      tick w' - tick w <= 1 + N.log2 ((nlen xs + nlen ys) / snd (vget_capacity v)).
Proof. exact (@push_requests). Qed.
Print Assumptions c80_push_requests.
Example c80_push_requests_hypotheses_met : exists (w : world N) v, reached_own w v [[1;2];[3;4];[5;6]] /\ 2 <= v_growth v /\
  Forall (fun y => nlen y = v_esz v) [[1;2];[3;4]] /\ room (3 + 2) (v_esz v).
Proof.
  destruct (ex_params 2 4 0) as (w & v & R & E & G & T & CP); [lia|lia|lia|]. exists w, v. rewrite E, G.
  split; [exact R|]. split; [lia|]. split; [repeat constructor|reflexivity].
Qed.

(** All other parameters: with growth factor 1 every push onto a full vector asks for a new block, and
    the blocks grow with the square of the number of pushes. *)
Theorem c80_growth_one_refuted :
  forall C (w : world C) v xs ys, reached_own w v xs -> v_growth v = 1 -> snd (vget_capacity v) = nlen xs ->
    Forall (fun y => nlen y = v_esz v) ys -> room (nlen xs + nlen ys) (v_esz v) ->
    exists blocks v' w', run_cost v (map OPushBack ys) w = Ok (blocks, nlen ys, v') w' /\
      2 * blocks = nlen ys * (2 * nlen xs + nlen ys + 1) /\ tick w' = tick w + nlen ys.
Proof. exact (@push_tight). Qed.
Print Assumptions c80_growth_one_refuted.
Example c80_growth_one_hypotheses_met : exists (w : world N) v, reached_own w v [[1;2];[3;4];[5;6]] /\ v_growth v = 1 /\
  snd (vget_capacity v) = 3 /\ Forall (fun y => nlen y = v_esz v) [[1;2];[3;4]] /\ room (3 + 2) (v_esz v).
Proof.
  destruct (ex_params 1 4 0) as (w & v & R & E & G & T & CP); [lia|lia|lia|]. exists w, v. rewrite E, CP.
  split; [exact R|]. split; [exact G|]. split; [reflexivity|]. split; [repeat constructor|reflexivity].
Qed.

(** With a shrink threshold from 1 to the growth factor every pop asks for a new block. *)
Theorem c80_shrink_refuted :
  forall C (w : world C) v xs n, reached_own w v xs -> 1 <= v_shrink v <= v_growth v ->
    v_shrink v * (nlen xs - 1) < snd (vget_capacity v) -> N.of_nat n < nlen xs ->
    exists blocks v' w', run_cost v (repeat OPopBack n) w = Ok (blocks, N.of_nat n, v') w' /\
      2 * blocks = v_growth v * (N.of_nat n * (2 * nlen xs - N.of_nat n - 1)) /\ tick w' = tick w + N.of_nat n.
Proof. exact (@pop_tight). Qed.
Print Assumptions c80_shrink_refuted.
Example c80_shrink_hypotheses_met : exists (w : world N) v, reached_own w v [[1;2];[3;4];[5;6]] /\
  1 <= v_shrink v <= v_growth v /\ v_shrink v * (3 - 1) < snd (vget_capacity v) /\ N.of_nat 2 < 3.
Proof.
  destruct (ex_params 2 2 3) as (w & v & R & E & G & T & CP); [lia|lia|lia|]. exists w, v. rewrite G, T, CP.
  split; [exact R|]. split; [lia|]. split; lia.
Qed.
