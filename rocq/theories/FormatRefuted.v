(** Formatting properties that the code does not have: concrete programs, evaluated by the kernel. *)
From Verif Require Import Base Status Mem VectorModel VectorSpec VectorDriver VectorExamples StringModel StringSpec
  StringDriver StringExamples FormatModel FormatSpec FormatDriver FormatExamples.

(** C28 is false for the signed functions: in a buffer for three characters, AppendDecS(-1234) fails but leaves "-",
    AppendHexS(255, prefix "0x") fails but leaves "0x". *)
Theorem c28_signed_refuted :
  exists (w : world N),
    (forall is64, result ((let* (rs, s) := start_fops_buf is64 4 [FDecS (-1234) 0 false None] in
             let* x := show s in ret (rs, x)) w) = inr ([ST_INSUFFICIENT_BUFFER_SIZE], [45; 0])) /\
    (forall is64, result ((let* (rs, s) := start_fops_buf is64 4 [FHexS 255 0 true false (Some [48;120])] in
             let* x := show s in ret (rs, x)) w) = inr ([ST_INSUFFICIENT_BUFFER_SIZE], [48; 120; 0])).
Proof. exists (text_world [7;7;7;7]). split; intros []; vm_compute; reflexivity. Qed.

(** C29 is false for a fixed buffer: the formatter writes into the rest of the buffer before the size is checked.
    Appending "xyz" to "ab" in a buffer for three characters fails and leaves 'x' where the terminator was. *)
Theorem c29_fixed_buffer_refuted :
  exists (w : world N),
    forall is64 f2, result ((let* (rs, s) := start_fops_buf is64 4 [FStr (SAppend [97;98])] in
      let* (st, s) := sappend_format (FText [120;121;122]) f2 s in
      let* x := show s in ret (rs, st, x)) w)
    = inr ([ST_SUCCESS], ST_INSUFFICIENT_BUFFER_SIZE, [97; 98; 120]).
Proof. exists (text_world [7;7;7;7]). intros [] f2; vm_compute; reflexivity. Qed.
(** ... when the formatter reports an error after some output: the terminator is gone. *)
Theorem c29_formatter_error_refuted :
  exists (w : world N),
    forall is64 f2, result ((let* (rs, s) := start_fops is64 0 2 4 [FStr (SAppend [97;98])] in
      let* (st, s) := sappend_format (FError [120;121]) f2 s in
      let* x := show s in ret (rs, st, x)) w)
    = inr ([ST_SUCCESS], ST_FAILED, [97; 98; 120]).
Proof. exists world0. intros [] f2; vm_compute; reflexivity. Qed.
(** ... when the growth factor is 1: the size already includes the new text when the room for the second attempt is
    computed, so that an assertion fails; a release build reports success for a string whose text is missing. *)
Theorem c29_growth_one_refuted :
  exists (w : world N) (t : list N), nlen t = 40 /\
    forall is64, result ((let* (rs, s) := start_fops is64 0 1 0 [FStr (SAppend [97;98])] in
      let* (st, s) := sappend_format (FText t) (FText t) s in
      let* x := show s in ret (rs, st, x)) w) = inl AssertFailed /\
    result ((let* (rs, s) := start_fops is64 0 1 0 [FStr (SAppend [97;98])] in
      let* (st, s) := sappend_format (FText t) (FText t) s in
      let* x := show s in ret (rs, st, x)) (release w)) = inr ([ST_SUCCESS], ST_SUCCESS, [97;98;0] ++ repeat 120 29 ++ [0] ++ repeat 170 9 ++ [0]).
Proof. exists world0, (repeat 120 40). split; [reflexivity|]. intros []; split; vm_compute; reflexivity. Qed.
(** ... when the second call of the formatter, which is given an argument list the first call has already walked,
    produces another text: SUCCESS is returned for a string that shows that text, its terminator and leftover
    bytes. *)
Theorem c29_argument_list_reused_refuted :
  exists (w : world N) (t : list N), nlen t = 40 /\
    forall is64, result ((let* (rs, s) := start_fops is64 0 2 0 [FStr (SAppend [97;98])] in
      let* (st, s) := sappend_format (FText t) (FText [63]) s in
      let* x := show s in ret (rs, st, nfirst 5 x)) w) = inr ([ST_SUCCESS], ST_SUCCESS, [97; 98; 63; 0; 120]).
Proof. exists world0, (repeat 120 40). split; [reflexivity|]. intros []; vm_compute; reflexivity. Qed.
(** ... and when the allocator refuses to grow the string, the terminator is gone as well. *)
Theorem c29_allocation_failure_refuted :
  exists (w : world N) (t : list N), nlen t = 40 /\
    forall is64 f2, result ((let* (rs, s) := start_fops is64 0 2 0 [FStr (SAppend [97;98])] in
      let* (st, s) := sappend_format (FText t) f2 s in
      let* x := show s in ret (rs, st, x)) w) = inr ([ST_SUCCESS], err_status 7, [97; 98; 120]).
Proof. exists (world_failing [1]), (repeat 120 40). split; [reflexivity|]. intros [] f2; vm_compute; reflexivity. Qed.

(** C60 is false for HexU: with padding it resizes the string twice; when the second reallocation fails, the first
    one is not undone and the string shows 33 instead of 30 characters. *)
Theorem c60_hexu_refuted :
  exists (w : world N) (x : list N), nlen x = 30 /\
    forall is64, result ((let* (rs, s) := start_fops is64 0 1 0 [FStr (SAppend x); FHexU 4294967295 3 true] in
      let* y := sget_size s in ret (rs, y)) w) = inr ([ST_SUCCESS; err_status 7], (ST_SUCCESS, 33)).
Proof. exists (world_failing [2]), (repeat 97 30). split; [reflexivity|]. intros []; vm_compute; reflexivity. Qed.
(** ... and for DecS, which keeps the sign. *)
Theorem c60_decs_refuted :
  exists (w : world N) (x : list N), nlen x = 30 /\
    forall is64, result ((let* (rs, s) := start_fops is64 0 1 0 [FStr (SAppend x); FDecS (-100) 0 true None] in
      let* y := show s in ret (rs, y)) w) = inr ([ST_SUCCESS; err_status 7], x ++ [45; 0]).
Proof. exists (world_failing [1]), (repeat 97 30). split; [reflexivity|]. intros []; vm_compute; reflexivity. Qed.
