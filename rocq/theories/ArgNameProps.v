(** Property theorems about the program name in the argument list (C40). *)
From Verif Require Import Base NListFacts Status Mem VectorModel VectorDriver StringModel StringDriver ArgModel ArgSpec ArgDriver ArgExamples
  ArgNameSpec ArgNameProofs.
From Coq Require Import Ascii String.
Local Open Scope list_scope.
Import ListNotations.

(** C40.  argv[0] is not read: with any two pointers there (also invalid ones) the call does the same. *)
Theorem c40_program_name :
  forall tw p q argv lo hi args allocator w,
    argparse_ex tw (mkaconfig (p :: argv) lo hi args) allocator w = argparse_ex tw (mkaconfig (q :: argv) lo hi args) allocator w.
Proof. exact program_name_unread. Qed.
Print Assumptions c40_program_name.
(** argc = 0 is treated like a program name and nothing else. *)
Theorem c40_no_program_name :
  forall tw p lo hi args allocator w,
    argparse_ex tw (mkaconfig [] lo hi args) allocator w = argparse_ex tw (mkaconfig [p] lo hi args) allocator w.
Proof. exact no_program_name. Qed.
Print Assumptions c40_no_program_name.
(** The outcome is the one of the grammar for every argument array, whatever its first pointer and even if it is empty. *)
Theorem c40_any_program_name_partial :
  forall tw cfg ts ds w,
    tokens_are tw cfg ts ds -> names_ok ds -> ac_min cfg <= ac_max cfg -> world_ok w -> allocator_ok w -> arg_room ts ->
    exists es stop o r w',
      scan ds actual true ts es stop /\ judged ds (ac_min cfg) (ac_max cfg) es stop o /\
      argparse tw cfg w = Ok r w' /\ delivered tw w w' r o.
Proof. exact any_name. Qed.
Print Assumptions c40_any_program_name_partial.
(** A pointer to nothing in front of ten tokens; an empty array. *)
Example c40_any_program_name_partial_met :
  (let s := setup (chars "prog") words defs 1 9 in
   let cfg := mkaconfig (mkptr 999 7 :: tl (ac_argv (snd s))) 1 9 (ac_args (snd s)) in
   heap (fst s) 999 = None /\ nlen words = 10 /\
   tokens_are (fst s) cfg words defs /\ names_ok defs /\ ac_min cfg <= ac_max cfg /\ world_ok aworld /\ allocator_ok aworld /\ arg_room words /\
   exists v w', argparse (fst s) cfg aworld = Ok (ST_SUCCESS, Some v, Some None) w') /\
  (let s := setup (chars "prog") [] defs 0 9 in
   let cfg := mkaconfig [] 0 9 (ac_args (snd s)) in
   tokens_are (fst s) cfg [] defs /\ names_ok defs /\ ac_min cfg <= ac_max cfg /\ world_ok aworld /\ allocator_ok aworld /\ arg_room []).
Proof.
  assert (P : let s := setup (chars "prog") words defs 1 9 in parse_args (fst s) (snd s) (chars "prog") words defs aworld)
    by (apply call_ok; vm_compute; reflexivity).
  assert (Q : let s := setup (chars "prog") [] defs 0 9 in parse_args (fst s) (snd s) (chars "prog") [] defs aworld)
    by (apply call_ok; vm_compute; reflexivity).
  cbv zeta in P, Q. destruct P as ((P1 & P2) & P3 & _ & P4 & P5 & P6). destruct Q as ((Q1 & Q2) & Q3 & _ & Q4 & Q5 & Q6).
  split.
  - cbv zeta. split; [reflexivity|]. split; [vm_compute; reflexivity|].
    split; [split; [inversion P1; assumption|exact P2]|]. split; [exact P3|]. split; [vm_compute; discriminate|].
    split; [exact P4|]. split; [exact P5|]. split; [exact P6|]. eexists. eexists. vm_compute. reflexivity.
  - cbv zeta. split; [split; [inversion Q1; assumption|exact Q2]|]. split; [exact Q3|]. split; [vm_compute; discriminate|].
    split; [exact Q4|]. split; [exact Q5|exact Q6].
Qed.
