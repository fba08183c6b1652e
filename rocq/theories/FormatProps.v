(** Property theorems of number and text formatting (C25-C29, C60).  Statements only; the counterexamples are in
    FormatRefuted.v. *)
From Verif Require Import Base Status Mem VectorModel VectorDriver StringModel StringSpec StringDriver StringExamples
  FormatModel FormatSpec FormatDriver FormatDigits FormatFinal FormatExamples.
From Coq Require Import ZifyBool ZifyNat ZifyN.

(** The usual numeral of a number exists and is unique, so that the statements below fix the appended text. *)
Theorem c25_numeral_unique :
  forall base upper n, 2 <= base <= 16 -> exists! cs, numeral base upper n cs.
Proof.
  intros base upper n B. destruct (numeral_exists base upper n) as [cs H]; [lia|].
  exists cs. split; [exact H|]. intros cs'. now apply numeral_unique.
Qed.
Print Assumptions c25_numeral_unique.
Example c25_numerals :
  numeral 10 false 0 [48] /\ numeral 10 false 1203 [49;50;48;51] /\ numeral 16 true 43981 [65;66;67;68] /\
  numeral 16 false 43981 [97;98;99;100] /\ padded 6 [49;50] = [48;48;48;48;49;50] /\ padded 1 [49;50] = [49;50].
Proof.
  split; [exists [0]; now repeat (split || constructor)|].
  split; [exists [1;2;0;3]; split; [reflexivity|]; split; [repeat constructor|]; split; [reflexivity|cbn; lia]|].
  split; [exists [10;11;12;13]; split; [reflexivity|]; split; [repeat constructor|]; split; [reflexivity|cbn; lia]|].
  split; [exists [10;11;12;13]; split; [reflexivity|]; split; [repeat constructor|]; split; [reflexivity|cbn; lia]|].
  split; reflexivity.
Qed.

(** C25.  After any history of string and formatting calls, AppendDecU appends the padded decimal numeral of any
    64-bit value to any string that can hold it; the string can be used on. *)
Theorem c25_append_decu :
  forall is64 limit (w : world N) s cs v pad ds,
    freached is64 limit w s cs -> v < W64 -> pad < 256 -> sroom (nlen cs + (pad + 20)) ->
    numeral 10 false v ds -> holds_chars limit (nlen (cs ++ padded pad ds)) = true ->
    exists w' s', sappend_decu is64 s v pad w = Ok (ST_SUCCESS, s') w' /\ sshows w' s' (cs ++ padded pad ds) /\
      behaves_as limit w' s' (cs ++ padded pad ds).
Proof. exact append_decu. Qed.
Print Assumptions c25_append_decu.
Example c25_hypotheses_met : exists (w : world N) s,
  freached true None w s [97;98] /\ numeral 10 false 1203 [49;50;48;51] /\
  holds_chars None (nlen ([97;98] ++ padded 6 [49;50;48;51])) = true.
Proof.
  destruct (freach_any true [97;98]) as (w & s & R); [reflexivity|]. exists w, s. split; [exact R|].
  split; [apply c25_numerals|reflexivity].
Qed.
(** Histories: any sequence of string calls and formatting calls on a growable string returns the statuses and leaves
    the contents of the machine [fspecs]. *)
Theorem c25_growable_histories :
  forall is64 (w0 : world N) cap g t ops,
    sinit_args_ok w0 cap g t -> Forall fargs_ok ops -> sroom (fdemands ops) ->
    exists s0 w1 rs s w cs,
      sinit_ex cap true g t w0 = Ok (ST_SUCCESS, Some s0) w1 /\
      run_fops is64 s0 ops w1 = Ok (rs, s) w /\ fspecs None ops [] rs cs /\ sshows w s cs /\
      (forall b x, heap w0 b = Some x -> heap w b = Some x).
Proof. exact growable_format. Qed.
Print Assumptions c25_growable_histories.
Example c25_histories_hypotheses_met :
  sinit_args_ok (text_world [1;2;3]) 0 2 4 /\ Forall fargs_ok c25_example_ops /\ sroom (fdemands c25_example_ops).
Proof.
  split; [apply sinit_args_example; [lia|lia|reflexivity]|]. split; [|reflexivity].
  repeat constructor; vm_compute; congruence.
Qed.

(** C26.  The same for AppendHexU. *)
Theorem c26_append_hexu :
  forall is64 limit (w : world N) s cs v pad upper ds,
    freached is64 limit w s cs -> v < W64 -> pad < 256 -> sroom (nlen cs + (pad + 20)) ->
    numeral 16 upper v ds -> holds_chars limit (nlen (cs ++ padded pad ds)) = true ->
    exists w' s', sappend_hexu is64 s v pad upper w = Ok (ST_SUCCESS, s') w' /\ sshows w' s' (cs ++ padded pad ds) /\
      behaves_as limit w' s' (cs ++ padded pad ds).
Proof. exact append_hexu. Qed.
Print Assumptions c26_append_hexu.
Example c26_hypotheses_met : exists (w : world N) s,
  freached false (Some 9) w s [97;98] /\ numeral 16 true 43981 [65;66;67;68] /\
  holds_chars (Some 9) (nlen ([97;98] ++ padded 6 [65;66;67;68])) = true.
Proof.
  destruct (freach_buf_any false [97;98] 9) as (w & s & R); [reflexivity|now vm_compute|now vm_compute|].
  exists w, s. split; [exact R|]. split; [apply c25_numerals|reflexivity].
Qed.

(** C27.  AppendDecS and AppendHexS append sign, prefix and the padded numeral of the absolute value. *)
Theorem c27_append_signed :
  forall is64 limit (w : world N) s cs v pad force prefix,
    freached is64 limit w s cs ->
    (-9223372036854775808 <= v < 9223372036854775808)%Z -> pad < 256 ->
    sroom (nlen cs + (1 + nlen (prefix_text prefix) + pad + 20)) ->
    (forall ds, numeral 10 false (Z.abs_N v) ds ->
       let text := cs ++ sign_text v force ++ prefix_text prefix ++ padded pad ds in
       holds_chars limit (nlen text) = true ->
       exists w' s', run_fop is64 s (FDecS v pad force prefix) w = Ok (ST_SUCCESS, s') w' /\ sshows w' s' text /\
         behaves_as limit w' s' text) /\
    (forall upper ds, numeral 16 upper (Z.abs_N v) ds ->
       let text := cs ++ sign_text v force ++ prefix_text prefix ++ padded pad ds in
       holds_chars limit (nlen text) = true ->
       exists w' s', run_fop is64 s (FHexS v pad upper force prefix) w = Ok (ST_SUCCESS, s') w' /\ sshows w' s' text /\
         behaves_as limit w' s' text).
Proof. exact append_signed. Qed.
Print Assumptions c27_append_signed.
Example c27_hypotheses_met : exists (w : world N) s,
  freached true None w s [97;98] /\ numeral 10 false (Z.abs_N (-1203)) [49;50;48;51] /\
  sign_text (-1203) true = [45] /\ sign_text 1203 true = [43] /\ sign_text 1203 false = [].
Proof.
  destruct (freach_any true [97;98]) as (w & s & R); [reflexivity|]. exists w, s. split; [exact R|].
  split; [apply c25_numerals|]. now repeat split.
Qed.

(** C28.  On any caller-supplied buffer every history follows the machine [fspecs], and nothing outside the buffer
    changes ... *)
Theorem c28_fixed_histories :
  forall is64 (w0 : world N) cap b pre buf post ops,
    sbuffer_args_ok w0 cap b pre buf post -> Forall fargs_ok ops -> sroom (fdemands ops) ->
    exists s0 w1 rs s w cs buf',
      sinit_custom (Some (mkptr b (nlen pre))) cap w0 = Ok (ST_SUCCESS, Some s0) w1 /\
      run_fops is64 s0 ops w1 = Ok (rs, s) w /\ fspecs (Some (cap - 1)) ops [] rs cs /\ sshows w s cs /\
      heap w b = Some (pre ++ buf' ++ post) /\ nlen buf' = cap /\
      (forall b', b' <> b -> heap w b' = heap w0 b').
Proof. exact fixed_format. Qed.
Print Assumptions c28_fixed_histories.
(** ... and DecU and HexU leave the string as it was when the numeral does not fit.  Missing: DecS and HexS, which
    keep the sign and the prefix (c28_signed_refuted; what they leave is part of [fspecs]). *)
Theorem c28_unsigned_full_partial :
  forall is64 limit (w : world N) s cs v pad,
    freached is64 limit w s cs -> v < W64 -> pad < 256 -> sroom (nlen cs + (pad + 20)) ->
    (forall ds, numeral 10 false v ds -> holds_chars limit (nlen (cs ++ padded pad ds)) = false ->
       exists w' s', sappend_decu is64 s v pad w = Ok (ST_INSUFFICIENT_BUFFER_SIZE, s') w' /\ sshows w' s' cs /\
         behaves_as limit w' s' cs) /\
    (forall upper ds, numeral 16 upper v ds -> holds_chars limit (nlen (cs ++ padded pad ds)) = false ->
       exists w' s', sappend_hexu is64 s v pad upper w = Ok (ST_INSUFFICIENT_BUFFER_SIZE, s') w' /\ sshows w' s' cs /\
         behaves_as limit w' s' cs).
Proof. exact append_unsigned_full. Qed.
Print Assumptions c28_unsigned_full_partial.
Example c28_hypotheses_met :
  sbuffer_args_ok (text_world ([1;2] ++ [7;7;7;7] ++ [3])) 4 0 [1;2] [7;7;7;7] [3] /\
  (exists (w : world N) s, freached true (Some 5) w s [97;98] /\ numeral 10 false 1203 [49;50;48;51] /\
     holds_chars (Some 5) (nlen ([97;98] ++ padded 0 [49;50;48;51])) = false).
Proof.
  split; [apply (sbuffer_args_example [1;2] [7;7;7;7] [3]); now vm_compute|].
  destruct (freach_buf_any true [97;98] 5) as (w & s & R); [reflexivity|now vm_compute|now vm_compute|].
  exists w, s. split; [exact R|]. split; [apply c25_numerals|reflexivity].
Qed.

(** C29.  AppendFormat, for a formatter that produces the text [t].  Proved: the text fits into the capacity ... *)
Theorem c29_fits_partial :
  forall is64 limit (w : world N) s cs t f2,
    freached is64 limit w s cs -> v_cap (s_vec s) < 2147483648 -> nlen cs + nlen t < v_cap (s_vec s) ->
    exists w' s', sappend_format (FText t) f2 s w = Ok (ST_SUCCESS, s') w' /\ sshows w' s' (cs ++ t) /\
      behaves_as limit w' s' (cs ++ t).
Proof. exact format_fits. Qed.
Print Assumptions c29_fits_partial.
(** ... or the string grows with a factor of at least 2, on a platform on which the second call of the formatter
    produces the same text ... *)
Theorem c29_grows_partial :
  forall is64 (w : world N) s cs t,
    freached is64 None w s cs -> v_cap (s_vec s) <= nlen cs + nlen t -> 2 <= v_growth (s_vec s) ->
    (nlen cs + nlen t + 1) * v_growth (s_vec s) < 2147483648 -> sroom (nlen cs + nlen t) ->
    exists w' s', sappend_format (FText t) (FText t) s w = Ok (ST_SUCCESS, s') w' /\ sshows w' s' (cs ++ t) /\
      behaves_as None w' s' (cs ++ t).
Proof. exact format_grows. Qed.
Print Assumptions c29_grows_partial.
(** ... or a fixed buffer is completely full.  All other cases are refuted (c29_*_refuted), except capacities of 2 GiB
    and more, which are not covered. *)
Theorem c29_full_partial :
  forall is64 k (w : world N) s cs t f2,
    freached is64 (Some k) w s cs -> nlen cs = k -> 1 <= nlen t -> nlen t < 2147483648 -> sroom (k + nlen t) ->
    exists w' s', sappend_format (FText t) f2 s w = Ok (ST_INSUFFICIENT_BUFFER_SIZE, s') w' /\ sshows w' s' cs /\
      behaves_as (Some k) w' s' cs.
Proof. exact format_full. Qed.
Print Assumptions c29_full_partial.
Example c29_hypotheses_met : exists (w : world N) s,
  freached true None w s [] /\ v_cap (s_vec s) = 33 /\ v_growth (s_vec s) = 2.
Proof.
  assert (A : sinit_args_ok (text_world []) 0 2 4) by (apply sinit_args_example; [lia|lia|reflexivity]).
  destruct (growable_format true (text_world []) 0 2 4 [] A) as (s0 & w1 & rs & s1 & w2 & cs & E1 & E2 & K & SH & _).
  { constructor. } { reflexivity. }
  inversion K; subst. cbn in E2. injection E2 as <- <-.
  exists w1, s0. split.
  - exists (text_world []), s0, w1, [], []. split; [now exists 0, 2, 4|]. split; [constructor|]. split; [reflexivity|].
    split; [reflexivity|exact SH].
  - vm_compute in E1. injection E1 as <- <-. now split.
Qed.
Example c29_full_hypotheses_met : exists (w : world N) s, freached true (Some 2) w s [97;98].
Proof. apply freach_buf_any; now vm_compute. Qed.

(** C60.  DecU reports a failed allocation and leaves the string and all memory as they were.  Missing: HexU, DecS and
    HexS (c60_hexu_refuted, c60_decs_refuted) and the capacity (as in C58). *)
Theorem c60_decu_partial :
  forall is64 (w : world N) s cs v pad ds orc' st,
    freached is64 None w s cs -> v < W64 -> pad < 256 -> sroom (nlen cs + (pad + 20)) -> numeral 10 false v ds ->
    (forall c, sget_capacity s w = Ok (ST_SUCCESS, c) w -> c < nlen (cs ++ padded pad ds)) -> orc' (tick w) = AFail st ->
    exists s' w', sappend_decu is64 s v pad (with_oracle w orc') = Ok (err_status st, s') w' /\ sshows w' s' cs /\
      (forall b, heap w' b = heap w b).
Proof. exact decu_fail. Qed.
Print Assumptions c60_decu_partial.
Example c60_hypotheses_met : exists (w : world N) s,
  freached true None w s [] /\
  (forall c, sget_capacity s w = Ok (ST_SUCCESS, c) w -> c < nlen ([] ++ padded 40 [49;50;48;51])).
Proof.
  destruct c29_hypotheses_met as (w & s & R & C & _). exists w, s. split; [exact R|]. intros c.
  unfold sget_capacity. rewrite C. vm_compute. intros X. now injection X as <-.
Qed.
