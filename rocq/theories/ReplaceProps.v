(** C109: replacing all occurrences of a text in a string with LPosEx, Delete and Insert. *)
From Verif Require Import Base Status VectorModel VectorDriver StringModel StringSpec StringDriver StringExamples ReplaceDriver ReplaceProofs ReplaceExamples Mem.

(** Every text has exactly one version with the occurrences replaced. *)
Theorem c109_replaced_total :
  forall needle repl, needle <> [] -> forall xs, exists ys, replaced needle repl xs ys.
Proof. exact replaced_total. Qed.
Print Assumptions c109_replaced_total.
Theorem c109_replaced_unique :
  forall needle repl xs ys zs, replaced needle repl xs ys -> replaced needle repl xs zs -> ys = zs.
Proof. exact replaced_unique. Qed.
Print Assumptions c109_replaced_unique.
Example c109_replaced_met : [98] <> @nil N /\ replaced [98] [120;121] [97;98;98;97] [97;120;121;120;121;97].
Proof. split; [discriminate|exact replaced_example]. Qed.
(** On a string that can grow the loop ends with FALSE, and the string is this version and goes on working. *)
Theorem c109_growable :
  forall (w : world N) s cs needle repl nq rq ys,
    sreached_own w s cs -> needle <> [] -> ~ In 0 needle -> views w nq needle -> views_part w rq repl -> beside nq s -> beside rq s ->
    replaced needle repl cs ys -> sroom (nlen cs + nlen ys) ->
    exists w' s', replace_all s nq rq w = Ok (ST_FALSE, s') w' /\ sshows w' s' ys /\ (exists limit, behaves_as limit w' s' ys).
Proof. exact replace_own. Qed.
Print Assumptions c109_growable.
Example c109_met : exists w s nq rq,
  sreached_own w s [97;98;98;97] /\ ~ In 0 [98] /\ views w nq [98] /\ views_part w rq [120;121] /\ beside nq s /\ beside rq s /\
  replaced [98] [120;121] [97;98;98;97] [97;120;121;120;121;97] /\ sroom (nlen [97;98;98;97] + nlen [97;120;121;120;121;97]).
Proof.
  destruct replace_state as (w & s & A & B & C & D & E). exists w, s, (text_view 0 2), (text_view 2 3).
  split; [exact A|]. split; [intros [H|[]]; discriminate|]. repeat (split; [assumption|]). split; [exact replaced_example|reflexivity].
Qed.
(** In a fixed buffer the same happens exactly if the result fits; otherwise the loop ends with INSUFFICIENT_BUFFER_SIZE
    before the first replacement that does not fit. *)
Theorem c109_fixed :
  forall (w : world N) s cs c needle repl nq rq ys,
    sreached_buf w s cs -> sget_capacity s w = Ok (ST_SUCCESS, c) w ->
    needle <> [] -> ~ In 0 needle -> views w nq needle -> views_part w rq repl -> beside nq s -> beside rq s ->
    replaced needle repl cs ys -> sroom (nlen cs + nlen ys + nlen repl) ->
    exists st w' s' zs, replace_all s nq rq w = Ok (st, s') w' /\ sshows w' s' zs /\ (exists limit, behaves_as limit w' s' zs) /\
      if nlen ys <=? c then st = ST_FALSE /\ zs = ys else st = ST_INSUFFICIENT_BUFFER_SIZE /\ stopped needle repl cs zs.
Proof. exact replace_buf. Qed.
Print Assumptions c109_fixed.
Example c109_fixed_met : exists w s c nq rq,
  sreached_buf w s [97;98;98;97] /\ sget_capacity s w = Ok (ST_SUCCESS, c) w /\
  ~ In 0 [98] /\ views w nq [98] /\ views_part w rq [120;121] /\ beside nq s /\ beside rq s /\
  replaced [98] [120;121] [97;98;98;97] [97;120;121;120;121;97] /\
  sroom (nlen [97;98;98;97] + nlen [97;120;121;120;121;97] + nlen [120;121]).
Proof.
  destruct replace_state_buf as (w & s & c & A & A' & B & C & D & E). exists w, s, c, (text_view 0 2), (text_view 2 3).
  split; [exact A|]. split; [exact A'|]. split; [intros [H|[]]; discriminate|]. repeat (split; [assumption|]). split; [exact replaced_example|reflexivity].
Qed.
