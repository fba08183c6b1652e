(** Property theorems of AppendFormat in full (C99).  Statements only.  [printed], [seen] and the rest of the vocabulary
    are in AppendSpec.v; c29_fits_partial (FormatProps.v) is the case in which the text fits. *)
From Verif Require Import Base Status Mem VectorModel VectorDriver StringModel StringSpec StringDriver
  FormatModel FormatSpec FormatDriver FormatDigits FormatProps FormatExamples AppendSpec AppendProofs AppendExamples.

(** The formatter reports an error after having produced [t]: AppendFormat fails, size and capacity are as before, and
    behind the characters is as much of [t] as fits.  The string shows no text any more, unless nothing was written. *)
Theorem c99_formatter_error :
  forall is64 limit (w : world N) s cs c t f2,
    freached is64 limit w s cs -> sget_capacity s w = Ok (ST_SUCCESS, c) w ->
    exists w', sappend_format (FError t) f2 s w = Ok (ST_FAILED, s) w' /\
      seen w' s (nlen cs) c (cs ++ nfirst (c - nlen cs) t) /\ others_kept w w' s /\
      (nfirst (c - nlen cs) t = [] -> sshows w' s cs) /\
      (forall x y, nfirst (c - nlen cs) t = x :: y -> x <> 0 -> shows_no_text w' s).
Proof. exact format_error. Qed.
Print Assumptions c99_formatter_error.
Example c99_formatter_error_hypotheses_met : exists (w : world N) s,
  freached true None w s [97;98] /\ sget_capacity s w = Ok (ST_SUCCESS, 32) w /\
  nfirst (32 - nlen [97;98]) [120;121] = 120 :: [121].
Proof. destruct (freach_ab true true 2) as (w & s & R & C & _); [now right|]. now exists w, s. Qed.

(** A fixed buffer for [k] characters is too short for [t]: AppendFormat returns INSUFFICIENT_BUFFER_SIZE, size and
    capacity are as before and the rest of the buffer holds the beginning of [t] and a terminator.  The string shows no
    text any more, unless the buffer was full. *)
Theorem c99_fixed_buffer_short :
  forall is64 k (w : world N) s cs t f2,
    freached is64 (Some k) w s cs -> k < nlen cs + nlen t -> int_text t -> k - nlen cs < 2147483648 ->
    sroom (nlen cs + nlen t) ->
    exists w', sappend_format (FText t) f2 s w = Ok (ST_INSUFFICIENT_BUFFER_SIZE, s) w' /\
      seen w' s (nlen cs) k (cs ++ nfirst (k - nlen cs) t ++ [0]) /\ others_kept w w' s /\
      (nlen cs = k -> sshows w' s cs) /\
      (forall x y, t = x :: y -> nlen cs < k -> x <> 0 -> shows_no_text w' s).
Proof. exact format_short. Qed.
Print Assumptions c99_fixed_buffer_short.
Example c99_fixed_buffer_short_hypotheses_met : exists (w : world N) s,
  freached true (Some 3) w s [97;98] /\ 3 < nlen [97;98] + nlen [120;121;122] /\ int_text [120;121;122] /\
  3 - nlen [97;98] < 2147483648 /\ sroom (nlen [97;98] + nlen [120;121;122]).
Proof.
  destruct (freach_buf_any true [97;98] 3) as (w & s & R); [reflexivity|now vm_compute|now vm_compute|].
  exists w, s. split; [exact R|]. repeat split.
Qed.

(** A growable string is too short for [t] and the memory is refused: AppendFormat returns the allocator's error, the
    beginning of [t] and a terminator have been written, and the capacity GetCapacity reports is the refused one. *)
Theorem c99_memory_refused :
  forall is64 (w : world N) s cs c t f2 o e,
    freached is64 None w s cs -> sget_capacity s w = Ok (ST_SUCCESS, c) w ->
    c < nlen cs + nlen t -> int_text t -> sroom (nlen cs + nlen t) -> c - nlen cs < 2147483648 ->
    o (tick w) = AFail e ->
    exists s' w', sappend_format (FText t) f2 s (with_oracle w o) = Ok (err_status e, s') w' /\
      seen w' s' (nlen cs) ((nlen cs + nlen t + 1) * v_growth (s_vec s) - 1) (cs ++ nfirst (c - nlen cs) t ++ [0]) /\
      others_kept w w' s /\
      (nlen cs = c -> sshows w' s' cs) /\
      (forall x y, t = x :: y -> nlen cs < c -> x <> 0 -> shows_no_text w' s').
Proof. exact format_refused. Qed.
Print Assumptions c99_memory_refused.
Example c99_memory_refused_hypotheses_met : exists (w : world N) s (o : N -> aresp N),
  freached true None w s [97;98] /\ sget_capacity s w = Ok (ST_SUCCESS, 32) w /\
  32 < nlen [97;98] + nlen (nrepeat 120 40) /\ int_text (nrepeat 120 40) /\ sroom (nlen [97;98] + nlen (nrepeat 120 40)) /\
  32 - nlen [97;98] < 2147483648 /\ o (tick w) = AFail 7.
Proof.
  destruct (freach_ab true true 2) as (w & s & R & C & _); [now right|]. exists w, s, (fun _ => AFail 7).
  split; [exact R|]. split; [exact C|]. repeat split.
Qed.

(** The memory is granted.  The string already claims the new size when the formatter is called again, so that the room
    given to the second call is what the growth factor adds to that size, not what the text needs.  The second call's
    answer is [t2], or [t2] and an error; nothing makes it repeat the first one. *)
Theorem c99_second_call :
  forall is64 (w : world N) s cs c t,
    freached is64 None w s cs -> sget_capacity s w = Ok (ST_SUCCESS, c) w ->
    c < nlen cs + nlen t -> int_text t -> sroom (nlen cs + nlen t) -> c - nlen cs < 2147483648 ->
    let n := nlen cs + nlen t + 1 in let cap := n * v_growth (s_vec s) in cap - n < 2147483648 ->
    exists s',
      (forall t2, checked w = false \/ nlen t2 <= cap - n -> exists w',
         sappend_format (FText t) (FText t2) s w = Ok (ST_SUCCESS, s') w' /\
         seen w' s' (nlen cs + nlen t) (cap - 1) (cs ++ nfirst (cap - n) t2 ++ [0]) /\ others_kept w w' s) /\
      (forall t2, checked w = true -> cap - n < nlen t2 -> sappend_format (FText t) (FText t2) s w = Fault AssertFailed) /\
      (forall t2, exists w',
         sappend_format (FText t) (FError t2) s w = Ok (ST_FAILED, s') w' /\
         seen w' s' (nlen cs + nlen t) (cap - 1) (cs ++ nfirst (cap - n) t2) /\ others_kept w w' s).
Proof. exact format_second. Qed.
Print Assumptions c99_second_call.
Example c99_second_call_hypotheses_met : exists (w : world N) s,
  freached true None w s [97;98] /\ sget_capacity s w = Ok (ST_SUCCESS, 32) w /\
  32 < nlen [97;98] + nlen (nrepeat 120 40) /\ int_text (nrepeat 120 40) /\ sroom (nlen [97;98] + nlen (nrepeat 120 40)) /\
  32 - nlen [97;98] < 2147483648 /\ v_growth (s_vec s) = 2 /\ checked w = true.
Proof.
  destruct (freach_ab true true 2) as (w & s & R & C & G & B); [now right|]. exists w, s.
  split; [exact R|]. split; [exact C|]. repeat (split; [reflexivity|]). now split.
Qed.

(** Growth factor 1 leaves no room: whatever text makes the string grow, a debug build stops at an assertion, a release
    build reports success for a string that claims the size of the text and does not hold it. *)
Theorem c99_growth_one_refuted :
  forall is64 (w : world N) s cs c x y,
    freached is64 None w s cs -> sget_capacity s w = Ok (ST_SUCCESS, c) w ->
    let t := x :: y in
    c < nlen cs + nlen t -> int_text t -> sroom (nlen cs + nlen t) -> c - nlen cs < 2147483648 ->
    v_growth (s_vec s) = 1 ->
    (forall t2, checked w = true -> 1 <= nlen t2 -> sappend_format (FText t) (FText t2) s w = Fault AssertFailed) /\
    (forall t2, checked w = false -> exists w' s',
       sappend_format (FText t) (FText t2) s w = Ok (ST_SUCCESS, s') w' /\
       seen w' s' (nlen cs + nlen t) (nlen cs + nlen t) (cs ++ [0]) /\ (x <> 0 -> ~ sshows w' s' (cs ++ t))).
Proof. exact append_one. Qed.
Print Assumptions c99_growth_one_refuted.
Example c99_growth_one_hypotheses_met : forall build : bool, exists (w : world N) s,
  freached true None w s [97;98] /\ sget_capacity s w = Ok (ST_SUCCESS, 32) w /\
  32 < nlen [97;98] + nlen (120 :: nrepeat 120 39) /\ int_text (120 :: nrepeat 120 39) /\
  sroom (nlen [97;98] + nlen (120 :: nrepeat 120 39)) /\
  32 - nlen [97;98] < 2147483648 /\ v_growth (s_vec s) = 1 /\ checked w = build.
Proof.
  intros build. destruct (freach_ab true build 1) as (w & s & R & C & G & B); [now left|]. exists w, s.
  split; [exact R|]. split; [exact C|]. repeat (split; [reflexivity|]). now split.
Qed.

(** C28, for every fixed buffer: a signed number whose sign and prefix fit and whose digits do not is reported as
    INSUFFICIENT_BUFFER_SIZE, and sign and prefix stay in the string. *)
Theorem c99_signed_refuted :
  forall is64 k (w : world N) s cs v pad force prefix,
    freached is64 (Some k) w s cs -> (-9223372036854775808 <= v < 9223372036854775808)%Z -> pad < 256 ->
    sroom (nlen cs + (1 + nlen (prefix_text prefix) + pad + 20)) ->
    let head := cs ++ sign_text v force ++ prefix_text prefix in nlen head <= k ->
    (forall ds, numeral 10 false (Z.abs_N v) ds -> k < nlen (head ++ padded pad ds) ->
       exists w' s', run_fop is64 s (FDecS v pad force prefix) w = Ok (ST_INSUFFICIENT_BUFFER_SIZE, s') w' /\
         sshows w' s' head) /\
    (forall upper ds, numeral 16 upper (Z.abs_N v) ds -> k < nlen (head ++ padded pad ds) ->
       exists w' s', run_fop is64 s (FHexS v pad upper force prefix) w = Ok (ST_INSUFFICIENT_BUFFER_SIZE, s') w' /\
         sshows w' s' head).
Proof. exact signed_left. Qed.
Print Assumptions c99_signed_refuted.
Example c99_signed_hypotheses_met : exists (w : world N) s,
  freached true (Some 5) w s [97;98] /\ nlen ([97;98] ++ sign_text (-1203) false ++ prefix_text (Some [36])) <= 5 /\
  numeral 10 false (Z.abs_N (-1203)) [49;50;48;51] /\
  5 < nlen (([97;98] ++ sign_text (-1203) false ++ prefix_text (Some [36])) ++ padded 0 [49;50;48;51]).
Proof.
  destruct (freach_buf_any true [97;98] 5) as (w & s & R); [reflexivity|now vm_compute|now vm_compute|].
  exists w, s. split; [exact R|]. split; [now vm_compute|]. split; [apply c25_numerals|now vm_compute].
Qed.
