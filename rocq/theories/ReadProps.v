(** Property theorems of C97.  Statements only. *)
From Verif Require Import Base Status Mem VectorModel VectorDriver StringModel StringSpec StringDriver StringExamples
  FormatModel FormatSpec FormatDriver FormatDigits FormatExamples ReadSpec ReadProofs.
From Coq Require Import ZifyBool ZifyNat ZifyN.

(** After any history of string and formatting calls, a number formatting call succeeds (or the caller's buffer is
    too small), and the text it appends to the string reads as the number: decimal or hexadecimal, any padding, sign, case
    and prefix. *)
Theorem c97_read_back :
  forall is64 limit (w : world N) s cs o,
    freached is64 limit w s cs -> number_call o -> fargs_ok o -> sroom (nlen cs + fdemand o) ->
    exists r s' w', run_fop is64 s o w = Ok (r, s') w' /\
      (r = ST_SUCCESS \/ r = ST_INSUFFICIENT_BUFFER_SIZE /\ limit <> None) /\
      (r = ST_SUCCESS -> exists text, sshows w' s' (cs ++ text) /\ views w' s' (cs ++ text) /\ reads_back o text).
Proof. exact number_read_back. Qed.
Print Assumptions c97_read_back.
Example c97_read_back_met : exists (w : world N) s,
  freached false (Some 9) w s [97;98] /\ number_call (FHexS (-9223372036854775808) 20 true true (Some [48;120])) /\
  fargs_ok (FHexS (-9223372036854775808) 20 true true (Some [48;120])) /\
  sroom (nlen [97;98] + fdemand (FHexS (-9223372036854775808) 20 true true (Some [48;120]))).
Proof.
  destruct (freach_buf_any false [97;98] 9) as (w & s & R); [reflexivity|now vm_compute|now vm_compute|].
  exists w, s. split; [exact R|]. split; [cbn; lia|]. split; [cbn; lia|reflexivity].
Qed.
Example c97_reading :
  read_number 10 [48;48;52;50] = Some 42 /\ read_number 16 [70;102;48] = Some 4080 /\ read_number 10 [] = None /\
  read_number 10 [70] = None /\ read_integer 16 [48;120] [45;48;120;49;48] = Some (-16)%Z /\
  read_integer 10 [] [43;53] = Some 5%Z /\ read_integer 10 [] [45] = None.
Proof. now vm_compute. Qed.

(** Compare and CompareI order two texts that end in numbers formatted in the same way (and are otherwise equal) like
    the numbers. *)
Theorem c97_compare_numbers :
  forall eqc base upper pad (w : world N) v1 v2 p m n cm cn,
    eqc = eq_cs \/ eqc = eq_ci -> 2 <= base <= 16 -> numeral base upper m cm -> numeral base upper n cn ->
    views w v1 (p ++ padded pad cm) -> views w v2 (p ++ padded pad cn) ->
    scompare eqc v1 v2 w = Ok (if m =? n then (ST_TRUE, 0%Z) else (ST_FALSE, if m <? n then (-1)%Z else 1%Z)) w.
Proof. exact compare_numbers. Qed.
Print Assumptions c97_compare_numbers.
Example c97_compare_met :
  numeral 10 false 9 [57] /\ numeral 10 false 10 [49;48] /\
  views (text_world ([] ++ (([120] ++ padded 0 [57]) ++ [0]) ++ [120;49;48;0])) (text_view 0 3) ([120] ++ padded 0 [57]) /\
  views (text_world ([120;57;0] ++ (([120] ++ padded 0 [49;48]) ++ [0]) ++ [])) (text_view 3 4) ([120] ++ padded 0 [49;48]).
Proof.
  split; [exists [9]; split; [reflexivity|]; split; [repeat constructor|]; split; [reflexivity|exact I]|].
  split; [exists [1;0]; split; [reflexivity|]; split; [repeat constructor|]; split; [reflexivity|cbn; lia]|].
  split; apply text_views; reflexivity.
Qed.

(** Negative numbers come out in the opposite order: of any two different negative numbers formatted in the same way
    the smaller one compares as greater. *)
Theorem c97_compare_negative_refuted :
  forall eqc base upper pad (w : world N) v1 v2 prefix x y force cx cy,
    eqc = eq_cs \/ eqc = eq_ci -> 2 <= base <= 16 -> (x < y < 0)%Z ->
    numeral base upper (Z.abs_N x) cx -> numeral base upper (Z.abs_N y) cy ->
    views w v1 (sign_text x force ++ prefix ++ padded pad cx) ->
    views w v2 (sign_text y force ++ prefix ++ padded pad cy) ->
    scompare eqc v1 v2 w = Ok (ST_FALSE, 1%Z) w.
Proof. exact compare_negative. Qed.
Print Assumptions c97_compare_negative_refuted.
Example c97_negative_met :
  numeral 10 false (Z.abs_N (-9)) [57] /\ numeral 10 false (Z.abs_N (-8)) [56] /\
  views (text_world ([] ++ ((sign_text (-9) false ++ [] ++ padded 0 [57]) ++ [0]) ++ [45;56;0])) (text_view 0 3)
    (sign_text (-9) false ++ [] ++ padded 0 [57]) /\
  views (text_world ([45;57;0] ++ ((sign_text (-8) false ++ [] ++ padded 0 [56]) ++ [0]) ++ [])) (text_view 3 3)
    (sign_text (-8) false ++ [] ++ padded 0 [56]).
Proof.
  split; [exists [9]; split; [reflexivity|]; split; [repeat constructor|]; split; [reflexivity|exact I]|].
  split; [exists [8]; split; [reflexivity|]; split; [repeat constructor|]; split; [reflexivity|exact I]|].
  split; apply text_views; reflexivity.
Qed.
