(** Property theorems on lists of numbers in a string (C114).  Statements only. *)
From Verif Require Import Base Status VectorModel VectorDriver StringModel StringSpec StringDriver StringExamples FormatModel FormatSpec
  FormatDriver FormatExamples ReadSpec SplitDriver NumsSpec NumsExamples NumsProofs Mem.

(** Numbers of any kind written one after the other into a growable string, with a separator between them: every call
    succeeds, splitting the string at the separator gives as many fields as there are numbers, and the fields read as
    the numbers, in order. *)
Theorem c114_growable :
  forall is64 (w0 : world N) cap g t sep sq old nums,
    sinit_args_ok w0 cap g t -> views w0 sq sep -> sep <> [] -> ~ In 0 sep ->
    Forall number_call nums -> Forall fargs_ok nums -> Forall (separates sep) nums -> sroom (fdemands (write_list sep nums)) ->
    exists s0 w1 rs s w qs,
      sinit_ex cap true g t w0 = Ok (ST_SUCCESS, Some s0) w1 /\
      run_fops is64 s0 (write_list sep nums) w1 = Ok (rs, s) w /\ Forall (eq ST_SUCCESS) rs /\
      split old s sq w = Ok qs w /\ Forall2 (fun q o => exists text, views_part w q text /\ reads_back o text) qs nums.
Proof. exact numbers_growable. Qed.
Print Assumptions c114_growable.
(** "7; -30; +0x0FF" *)
Example c114_growable_met :
  sinit_args_ok (text_world [59;32;0]) 0 2 4 /\ views (text_world [59;32;0]) (text_view 0 3) [59;32] /\ [59;32] <> @nil N /\ ~ In 0 [59;32] /\
  Forall number_call [FDecU 7 0; FDecS (-30) 0 false None; FHexS 255 3 true true (Some [48;120])] /\
  Forall fargs_ok [FDecU 7 0; FDecS (-30) 0 false None; FHexS 255 3 true true (Some [48;120])] /\
  Forall (separates [59;32]) [FDecU 7 0; FDecS (-30) 0 false None; FHexS 255 3 true true (Some [48;120])] /\
  sroom (fdemands (write_list [59;32] [FDecU 7 0; FDecS (-30) 0 false None; FHexS 255 3 true true (Some [48;120])])) /\
  reads_back (FHexS 255 3 true true (Some [48;120])) [43;48;120;48;70;70].
Proof.
  split; [apply sinit_args_example; [lia|lia|reflexivity]|]. split; [now repeat split|]. split; [discriminate|].
  split; [intros [H|[H|[]]]; discriminate|].
  split; [repeat constructor; discriminate|].
  split; [repeat constructor; now vm_compute|].
  split; [repeat constructor; try discriminate; cbn; intros H; repeat destruct H as [H|H]; easy|].
  split; reflexivity.
Qed.
(** The same in a fixed buffer, if all calls succeed; they do if the buffer has room for the longest numerals. *)
Theorem c114_fixed :
  forall is64 (w0 : world N) cap b pre buf post sep sq old nums,
    sbuffer_args_ok w0 cap b pre buf post -> views w0 sq sep -> (forall p, sdata sq = Some p -> pb p <> b) -> sep <> [] -> ~ In 0 sep ->
    Forall number_call nums -> Forall fargs_ok nums -> Forall (separates sep) nums -> sroom (fdemands (write_list sep nums)) ->
    exists s0 w1 rs s w,
      sinit_custom (Some (mkptr b (nlen pre))) cap w0 = Ok (ST_SUCCESS, Some s0) w1 /\
      run_fops is64 s0 (write_list sep nums) w1 = Ok (rs, s) w /\
      (fdemands (write_list sep nums) < cap -> Forall (eq ST_SUCCESS) rs) /\
      (Forall (eq ST_SUCCESS) rs ->
       exists qs, split old s sq w = Ok qs w /\ Forall2 (fun q o => exists text, views_part w q text /\ reads_back o text) qs nums).
Proof. exact numbers_fixed'. Qed.
Print Assumptions c114_fixed.
Example c114_fixed_met :
  sbuffer_args_ok nums_world 60 1 [] (nrepeat 7 60) [] /\ views nums_world (text_view 0 2) [44] /\
  (forall p, sdata (text_view 0 2) = Some p -> pb p <> 1) /\ [44] <> @nil N /\ ~ In 0 [44] /\
  Forall number_call [FDecU 7 0; FDecS (-30) 2 false None] /\ Forall fargs_ok [FDecU 7 0; FDecS (-30) 2 false None] /\
  Forall (separates [44]) [FDecU 7 0; FDecS (-30) 2 false None] /\
  sroom (fdemands (write_list [44] [FDecU 7 0; FDecS (-30) 2 false None])) /\
  fdemands (write_list [44] [FDecU 7 0; FDecS (-30) 2 false None]) < 60.
Proof.
  split; [exact nums_world_buffer|]. split; [now repeat split|]. split; [intros p E; injection E as <-; discriminate|]. split; [discriminate|].
  split; [intros [H|[]]; discriminate|]. split; [repeat constructor|]. split; [repeat constructor; now vm_compute|].
  split; [repeat constructor; try discriminate; intros []|]. split; reflexivity.
Qed.
