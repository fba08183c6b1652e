(** C93: how long the pointers that vectors and strings give out stay valid. *)
From Verif Require Import Base Status Mem VectorModel VectorSpec VectorDriver RefuseSpec StringModel StringSpec StringDriver StrRefuseSpec
  StableSpec StableProofs StableProofs2 VectorExamples StringExamples VectorMore.
From Verif Require Import Mem.

(** A pointer that ZyanVectorGet returned for index [i] can be used after any further calls, with any allocator, as long as the
    allocator has granted no request since: it is still what Get returns for that index, and shows the element that is there
    now ... *)
Theorem c93_pointers_stay :
  forall (C : Type) (w : world C) v xs o ops rs v' w' xs' i p x,
    reached w v xs -> run_ops v ops (with_oracle w o) = Ok (rs, v') w' -> shows w' v' xs' ->
    ~ granted (with_oracle w o) w' -> i < nlen xs -> vget v i w = Ok p w -> nnth i xs' = Some x ->
    vget v' i w' = Ok p w' /\ mread p (v_esz v) w' = Ok x w'.
Proof. exact @pointers_stay. Qed.
Print Assumptions c93_pointers_stay.
(** ... and not once it has granted one. *)
Theorem c93_pointers_end :
  forall (C : Type) (w : world C) v xs o ops rs v' w' i p,
    reached w v xs -> run_ops v ops (with_oracle w o) = Ok (rs, v') w' ->
    granted (with_oracle w o) w' -> i < nlen xs -> vget v i w = Ok p w -> dead p w'.
Proof. exact @pointers_end. Qed.
Print Assumptions c93_pointers_end.
(** With a working allocator a call on a growable vector has a request granted exactly if [asked] says so, which depends on the
    size, the capacity, the growth factor and the shrink threshold. *)
Theorem c93_call :
  forall (C : Type) (w : world C) v xs o,
    reached_own w v xs -> arg_ok (v_esz v) o -> room (nlen xs + demand o) (v_esz v) ->
    exists r v' w' xs', run_op v o w = Ok (r, v') w' /\ shows w' v' xs' /\
      (granted w w' <->
       asked (mkcfg false (v_growth v) (v_shrink v) (v_esz v) (v_dtor v)) o (nlen xs) (snd (vget_capacity v)) <> None).
Proof. exact @pointers_call. Qed.
Print Assumptions c93_call.
(** Three elements in a vector of capacity four: a fourth PushBack leaves the pointer to the first element valid, Reserve ends
    it. *)
Example c93_hypotheses_met : exists (w : world N) v p,
  reached w v [[1;2];[3;4];[5;6]] /\ reached_own w v [[1;2];[3;4];[5;6]] /\ vget v 0 w = Ok p w /\ with_oracle w (orc w) = w /\
  (arg_ok (v_esz v) (OPushBack [7;8]) /\ room (3 + 1) (v_esz v) /\
   exists r v1 w1 xs1, run_ops v [OPushBack [7;8]] w = Ok ([r], v1) w1 /\ shows w1 v1 xs1 /\ ~ granted w w1) /\
  (arg_ok (v_esz v) (@OReserve N 99) /\ room (3 + 99) (v_esz v) /\
   exists r v2 w2, run_ops v [OReserve 99] w = Ok ([r], v2) w2 /\ granted w w2).
Proof.
  destruct ex_reached as (w & v & R & E & _ & CP).
  destruct (shown_get w v [[1;2];[3;4];[5;6]] 0 [1;2]) as [G _]; [destruct R as (? & ? & ? & ? & ? & ? & ? & ? & ? & ? & R); apply R|reflexivity|].
  exists w, v, (offset v 0). split; [now left|]. split; [exact R|]. split; [exact G|]. split; [now destruct w|]. rewrite E. split.
  - split; [reflexivity|]. split; [reflexivity|].
    destruct (c93_call N w v _ (OPushBack [7;8]) R) as (r & v1 & w1 & xs1 & A & B & D); [rewrite E; reflexivity|rewrite E; reflexivity|].
    exists r, v1, w1, xs1. split; [now apply run_one|]. split; [exact B|]. rewrite D, CP. intros X. now apply X.
  - split; [exact I|]. split; [reflexivity|].
    destruct (c93_call N w v _ (OReserve 99) R) as (r & v1 & w1 & xs1 & A & B & D); [exact I|rewrite E; reflexivity|].
    exists r, v1, w1. split; [now apply run_one|]. rewrite D, CP. discriminate.
Qed.

(** A vector on a buffer of the caller makes no request: its pointers stay valid. *)
Theorem c93_buffer :
  forall (C : Type) (w : world C) v xs o ops rs v' w',
    reached_buf w v xs -> run_ops v ops (with_oracle w o) = Ok (rs, v') w' -> tick w' = tick w.
Proof. exact @buffer_never_moves. Qed.
Print Assumptions c93_buffer.
(** A buffer of three elements, and an allocator that would refuse everything: four times PushBack. *)
Example c93_buffer_hypotheses_met :
  match vinit_custom 2 (Some (mkptr 0 2)) 3 None world_buf with
  | Ok (_, Some v) w => reached_buf w v [] /\
      match run_ops v [OPushBack [5;6]; OPushBack [7;8]; OPushBack [9;9]; OPushBack [4;4]] (with_oracle w (fun _ => AFail 7)) with
      | Ok (rs, _) _ => rs = [ST_SUCCESS; ST_SUCCESS; ST_SUCCESS; ST_INSUFFICIENT_BUFFER_SIZE]
      | Fault _ => False
      end
  | _ => False
  end.
Proof.
  split; [|vm_compute; reflexivity]. exists world_buf, 2, 3, None, 0, [1;1], [2;2;2;2;2;2], [3;3]. eexists. eexists. exists [], [].
  split; [exact buffer_args_world|]. split; [constructor|]. split; [reflexivity|]. split; [reflexivity|]. split; [reflexivity|].
  split; [reflexivity|]. intros i. unfold read_elem, vget, bind. cbn [v_size]. destruct (N.leb_spec 0 i); [|lia].
  now rewrite NListFacts.nnth_ge by (apply N.le_0_l).
Qed.
(** Destroy ends the pointers into a growable vector. *)
Theorem c93_destroy :
  forall (C : Type) (w : world C) v xs i p,
    reached_own w v xs -> i < nlen xs -> vget v i w = Ok p w ->
    exists v' w', vdestroy v w = Ok (ST_SUCCESS, v') w' /\ dead p w'.
Proof. exact @pointers_destroyed. Qed.
Print Assumptions c93_destroy.
Example c93_destroy_hypotheses_met : exists (w : world N) v p,
  reached_own w v [[1;2];[3;4];[5;6]] /\ 2 < nlen [[1;2];[3;4];[5;6]] /\ vget v 2 w = Ok p w.
Proof.
  destruct ex_reached as (w & v & R & _). exists w, v, (offset v 2). split; [exact R|]. split; [reflexivity|].
  apply (shown_get w v [[1;2];[3;4];[5;6]] 2 [5;6]); [|reflexivity]. now destruct R as (? & ? & ? & ? & ? & ? & ? & ? & ? & ? & ? & ? & ? & ? & ? & R).
Qed.

(** The same for ZyanStringGetData: the pointer stays, and with it every address inside the string ... *)
Theorem c93_data_stays :
  forall (w : world N) s cs o ops rs s' w' cs',
    sreached w s cs -> run_sops s ops (with_oracle w o) = Ok (rs, s') w' -> sshows w' s' cs' ->
    ~ granted (with_oracle w o) w' ->
    sget_data s' = sget_data s /\
    forall i n, i + n <= nlen cs' + 1 -> mread (padd (snd (sget_data s)) i) n w' = Ok (nsub i n (cs' ++ [0])) w'.
Proof. exact data_stays. Qed.
Print Assumptions c93_data_stays.
(** ... until a request is granted. *)
Theorem c93_data_ends :
  forall (w : world N) s cs o ops rs s' w',
    sreached w s cs -> run_sops s ops (with_oracle w o) = Ok (rs, s') w' ->
    granted (with_oracle w o) w' -> dead (snd (sget_data s)) w'.
Proof. exact data_ends. Qed.
Print Assumptions c93_data_ends.
(** A view of a string keeps its size, and shows the characters that are now where the string was ... *)
Theorem c93_view_stays :
  forall (w : world N) s cs o ops rs s' w' cs' old q,
    sreached w s cs -> view_inside_view old s = (ST_SUCCESS, q) ->
    run_sops s ops (with_oracle w o) = Ok (rs, s') w' -> sshows w' s' cs' -> ~ granted (with_oracle w o) w' -> nlen cs <= nlen cs' ->
    views_part w' q (nfirst (nlen cs) cs').
Proof. exact view_stays. Qed.
Print Assumptions c93_view_stays.
(** ... until a request is granted. *)
Theorem c93_view_ends :
  forall (w : world N) s cs o ops rs s' w' old q,
    sreached w s cs -> view_inside_view old s = (ST_SUCCESS, q) ->
    run_sops s ops (with_oracle w o) = Ok (rs, s') w' -> granted (with_oracle w o) w' -> dead (snd (view_get_data q)) w'.
Proof. exact view_ends. Qed.
Print Assumptions c93_view_ends.
(** With a working allocator a call on a growable string has a request granted exactly if [sasked] says so. *)
Theorem c93_string_call :
  forall (w : world N) s cs cap o,
    sreached_own w s cs -> sget_capacity s w = Ok (ST_SUCCESS, cap) w -> sums_ok o -> sroom (nlen cs + sdemand o) ->
    exists r s' w' cs', run_sop s o w = Ok (r, s') w' /\ sshows w' s' cs' /\ sspec None o cs r cs' /\
      (granted w w' <-> sasked (v_growth (s_vec s)) (v_shrink (s_vec s)) o (mksst cs cap) <> None).
Proof. exact data_call. Qed.
Print Assumptions c93_string_call.
(** SetChar leaves the pointer and the view valid, ShrinkToFit ends them. *)
Example c93_string_hypotheses_met : exists (w : world N) s cap old q,
  sreached w s [97;98;99] /\ sreached_own w s [97;98;99] /\ sget_capacity s w = Ok (ST_SUCCESS, cap) w /\
  view_inside_view old s = (ST_SUCCESS, q) /\ with_oracle w (orc w) = w /\
  sroom (nlen [97;98;99] + sdemand (SSetChar 1 120)) /\ sroom (nlen [97;98;99] + sdemand SShrinkToFit) /\
  (exists r s1 w1 cs1, run_sops s [SSetChar 1 120] w = Ok ([r], s1) w1 /\ sshows w1 s1 cs1 /\ nlen [97;98;99] <= nlen cs1 /\ ~ granted w w1) /\
  (exists r s2 w2, run_sops s [SShrinkToFit] w = Ok ([r], s2) w2 /\ granted w w2).
Proof.
  destruct (sreach_any [97;98;99]) as (w & s & R); [reflexivity|].
  destruct (reached_capacity w s _ R) as [cap CP]. exists w, s, cap, (define_view None 0). eexists.
  split; [now left|]. split; [exact R|]. split; [exact CP|]. split; [reflexivity|]. split; [now destruct w|].
  split; [reflexivity|]. split; [reflexivity|]. split.
  - destruct (c93_string_call w s _ cap (SSetChar 1 120) R CP) as (r & s1 & w1 & cs1 & A & B & K & D); [reflexivity|reflexivity|].
    exists r, s1, w1, cs1. split; [now apply srun_one|]. split; [exact B|]. split; [|rewrite D; intros X; now apply X].
    cbn [sspec] in K. destruct K as [_ K]. vm_compute in K. subst cs1. discriminate.
  - destruct (c93_string_call w s _ cap SShrinkToFit R CP) as (r & s1 & w1 & cs1 & A & B & K & D); [exact I|reflexivity|].
    exists r, s1, w1. split; [now apply srun_one|]. rewrite D. discriminate.
Qed.
(** A string on a buffer of the caller makes no request. *)
Theorem c93_fixed_string :
  forall (w : world N) s cs o ops rs s' w',
    sreached_buf w s cs -> run_sops s ops (with_oracle w o) = Ok (rs, s') w' -> tick w' = tick w.
Proof. exact fixed_string_never_moves. Qed.
Print Assumptions c93_fixed_string.
Example c93_fixed_string_hypotheses_met : exists (w : world N) s rs s' w',
  sreached_buf w s [97;98] /\ run_sops s [SSetChar 9 120; SReserve 99] (with_oracle w (fun _ => AFail 7)) = Ok (rs, s') w'.
Proof.
  destruct (sreach_buf_any [97;98] 3) as (w & s & R); [reflexivity|discriminate|reflexivity|]. exists w, s.
  destruct (fixed_runs w s _ [SSetChar 9 120; SReserve 99] (fun _ => AFail 7) R) as (rs & s' & w' & E); [repeat constructor|reflexivity|].
  now exists rs, s', w'.
Qed.
