(** C03 and C58: the call after a refused request to grow. *)
From Verif Require Import Base Status Mem VectorModel VectorSpec VectorDriver StringModel StringSpec StringDriver
  VectorExamples StringExamples StringProps OverrunProofs.

(** C03.  Whenever PushBack on a full growable vector fails for want of memory, the next PushBack writes behind the storage. *)
Theorem c03_second_push_refuted :
  forall (C : Type) (w : world C) v xs x y orc' st,
    reached_own w v xs -> snd (vget_capacity v) = nlen xs -> nlen x = v_esz v -> nlen y = v_esz v ->
    room (nlen xs + 1) (v_esz v) -> orc' (tick w) = AFail st ->
    exists v' w', run_op v (OPushBack x) (with_oracle w orc') = Ok (err_status st, v') w' /\
      run_op v' (OPushBack y) w' = Fault OutOfBounds.
Proof. exact @second_push. Qed.
Print Assumptions c03_second_push_refuted.
Example c03_second_push_hypotheses_met : exists (w : world N) v,
  reached_own w v [[1;2];[3;4];[5;6]] /\ snd (vget_capacity v) = 3 /\ nlen [7;8] = v_esz v /\ room (3 + 1) (v_esz v).
Proof.
  destruct ex_reached_full as (w & v & R & E & _ & CP). exists w, v. rewrite E, CP. repeat split; auto.
Qed.

(** C58.  Whenever Append fails for want of memory, an attempt to append as many characters again writes behind the storage,
    if the growth factor is at most the shrink threshold or the string never shrinks. *)
Theorem c58_second_append_refuted :
  forall (w : world N) s cs x y orc' st,
    sreached_own w s cs -> v_growth (s_vec s) <= v_shrink (s_vec s) \/ v_shrink (s_vec s) = 0 ->
    sroom (nlen cs + nlen x) -> (forall c, sget_capacity s w = Ok (ST_SUCCESS, c) w -> c < nlen cs + nlen x) ->
    nlen y = nlen x -> orc' (tick w) = AFail st ->
    exists s' w', run_sop s (SAppend x) (with_oracle w orc') = Ok (err_status st, s') w' /\
      run_sop s' (SAppend y) w' = Fault OutOfBounds.
Proof. exact second_append. Qed.
Print Assumptions c58_second_append_refuted.
Example c58_second_append_hypotheses_met : exists s w,
  sreached_own w s [] /\ (v_growth (s_vec s) <= v_shrink (s_vec s) \/ v_shrink (s_vec s) = 0) /\
  sroom (nlen (@nil N) + nlen (repeat 97 33)) /\
  (forall c, sget_capacity s w = Ok (ST_SUCCESS, c) w -> c < nlen (@nil N) + nlen (repeat 97 33)) /\
  nlen (repeat 98 33) = nlen (repeat 97 33).
Proof.
  destruct c58_hypotheses_met as (s & w & E & R & RM & CP). exists s, w. split; [exact R|]. split.
  - vm_compute in E. injection E as <- _. left. vm_compute. discriminate.
  - now repeat split.
Qed.
