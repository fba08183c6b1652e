(** Property theorems of C106: calls and the calls that take them back.  Statements only. *)
From Verif Require Import Base NListFacts Status VectorModel VectorSpec VectorDriver VectorExamples StringModel StringSpec
  StringDriver StringExamples BitsetModel BitsetSpec BitsetDriver BitsetExamples ListModel ListSpec ListDriver ListExamples
  UndoSpec UndoExamples UndoProofs UndoProofs2 UndoProofs3 UndoProofs4 Mem.
From Coq Require Import ZifyBool ZifyNat ZifyN.

(** Vectors: after any session of successful calls the noted calls, made in reverse order, all succeed and bring the
    elements back; in fixed buffers too.  Missing: Swap (see [c106_swap_refuted]). *)
Theorem c106_vector_partial :
  forall (C : Type) (w : world C) v xs ops undos ys rs v1 w1,
    reached w v xs -> session vundo xs ops undos ys -> Forall (arg_ok (v_esz v)) ops ->
    room (nlen xs + demands (ops ++ undos)) (v_esz v) ->
    run_ops v ops w = Ok (rs, v1) w1 -> Forall (eq ST_SUCCESS) rs ->
    shows w1 v1 ys /\
    exists rs2 v2 w2, run_ops v1 undos w1 = Ok (rs2, v2) w2 /\ Forall (eq ST_SUCCESS) rs2 /\ shows w2 v2 xs.
Proof. exact @undo_reached. Qed.
Print Assumptions c106_vector_partial.
(** In a growable vector no call of such a session is refused. *)
Theorem c106_vector_growable :
  forall (C : Type) (w : world C) v xs ops undos ys,
    reached_own w v xs -> session vundo xs ops undos ys -> Forall (arg_ok (v_esz v)) ops ->
    room (nlen xs + demands (ops ++ undos)) (v_esz v) ->
    exists rs v1 w1, run_ops v ops w = Ok (rs, v1) w1 /\ Forall (eq ST_SUCCESS) rs.
Proof. exact @undo_growable. Qed.
Print Assumptions c106_vector_growable.
Example c106_vector_met : exists (w : world N) v rs v1 w1 rs2 v2 w2,
  reached_own w v [[1;2];[3;4];[5;6]] /\ Forall (arg_ok (v_esz v)) vector_calls /\
  room (nlen [[1;2];[3;4];[5;6]] + demands (vector_calls ++ vector_undos)) (v_esz v) /\
  run_ops v vector_calls w = Ok (rs, v1) w1 /\ Forall (eq ST_SUCCESS) rs /\ shows w1 v1 [] /\
  run_ops v1 vector_undos w1 = Ok (rs2, v2) w2 /\ Forall (eq ST_SUCCESS) rs2 /\ shows w2 v2 [[1;2];[3;4];[5;6]].
Proof.
  destruct ex_reached as (w & v & R & E & _). exists w, v.
  assert (A : Forall (arg_ok (v_esz v)) vector_calls). { rewrite E. repeat constructor. }
  assert (RM : room (nlen [[1;2];[3;4];[5;6]] + demands (vector_calls ++ vector_undos)) (v_esz v)). { rewrite E. reflexivity. }
  destruct (c106_vector_growable N w v _ _ _ _ R vector_session A RM) as (rs & v1 & w1 & ER & OK).
  destruct (c106_vector_partial N w v _ _ _ _ _ _ _ (or_introl R) vector_session A RM ER OK) as (SH & rs2 & v2 & w2 & X).
  exists rs, v1, w1, rs2, v2, w2. tauto.
Qed.

(** Swap needs an unused element behind the last one: on any growable vector that has one, a Swap followed by ShrinkToFit
    cannot be taken back by another Swap. *)
Theorem c106_swap_refuted :
  forall (C : Type) (w : world C) v xs i j,
    reached_own w v xs -> i < nlen xs -> j < nlen xs -> i <> j -> nlen xs < snd (vget_capacity v) ->
    exists v' w', run_ops v [OSwap i j; OShrinkToFit; OSwap i j] w =
        Ok ([ST_SUCCESS; ST_SUCCESS; ST_INSUFFICIENT_BUFFER_SIZE], v') w' /\ shows w' v' (lswap i j xs).
Proof. exact @swap_shrink. Qed.
Print Assumptions c106_swap_refuted.
Example c106_swap_met : exists (w : world N) v v' w', reached_own w v [[1;2];[3;4];[5;6]] /\
  run_ops v [OSwap 0 2; OShrinkToFit; OSwap 0 2] w = Ok ([ST_SUCCESS; ST_SUCCESS; ST_INSUFFICIENT_BUFFER_SIZE], v') w' /\
  shows w' v' [[5;6];[3;4];[1;2]].
Proof.
  destruct ex_reached as (w & v & R & _ & _ & CP). exists w, v.
  destruct (c106_swap_refuted N w v _ 0 2 R) as (v' & w' & X & Y); [reflexivity|reflexivity|discriminate|now rewrite CP|].
  exists v', w'. auto.
Qed.

(** Strings. *)
Theorem c106_string_partial :
  forall (w : world N) s cs ops undos ds rs s1 w1,
    sreached w s cs -> session sundo cs ops undos ds -> sroom (nlen cs + sdemands (ops ++ undos)) ->
    run_sops s ops w = Ok (rs, s1) w1 -> Forall (eq ST_SUCCESS) rs ->
    sshows w1 s1 ds /\
    exists rs2 s2 w2, run_sops s1 undos w1 = Ok (rs2, s2) w2 /\ Forall (eq ST_SUCCESS) rs2 /\ sshows w2 s2 cs.
Proof. exact undo_string. Qed.
Print Assumptions c106_string_partial.
Theorem c106_string_growable :
  forall (w : world N) s cs ops undos ds,
    sreached_own w s cs -> session sundo cs ops undos ds -> sroom (nlen cs + sdemands (ops ++ undos)) ->
    exists rs s1 w1, run_sops s ops w = Ok (rs, s1) w1 /\ Forall (eq ST_SUCCESS) rs.
Proof. exact undo_string_growable. Qed.
Print Assumptions c106_string_growable.
Example c106_string_met : exists (w : world N) s rs s1 w1 rs2 s2 w2,
  sreached_own w s [97;98;99] /\ sroom (nlen [97;98;99] + sdemands (string_calls ++ string_undos)) /\
  run_sops s string_calls w = Ok (rs, s1) w1 /\ Forall (eq ST_SUCCESS) rs /\ sshows w1 s1 [] /\
  run_sops s1 string_undos w1 = Ok (rs2, s2) w2 /\ Forall (eq ST_SUCCESS) rs2 /\ sshows w2 s2 [97;98;99].
Proof.
  destruct (sreach_any [97;98;99]) as (w & s & R); [reflexivity|]. exists w, s.
  assert (RM : sroom (nlen [97;98;99] + sdemands (string_calls ++ string_undos))) by reflexivity.
  destruct (c106_string_growable w s _ _ _ _ R string_session RM) as (rs & s1 & w1 & ER & OK).
  destruct (c106_string_partial w s _ _ _ _ _ _ _ (or_introl R) string_session RM ER OK) as (SH & rs2 & s2 & w2 & X).
  exists rs, s1, w1, rs2, s2, w2. tauto.
Qed.
(** Truncate refuses the size the string has: appending nothing succeeds but cannot be taken back by a successful call of
    Truncate (the contents are right nevertheless). *)
Theorem c106_truncate_refuted :
  forall (w : world N) s cs, sreached w s cs -> sroom (nlen cs) ->
    exists s' w', run_sops s [SAppend []; STruncate (nlen cs)] w = Ok ([ST_SUCCESS; ST_INVALID_ARGUMENT], s') w' /\ sshows w' s' cs.
Proof. exact truncate_same. Qed.
Print Assumptions c106_truncate_refuted.
Example c106_truncate_met : exists (w : world N) s s' w', sreached w s [97;98;99] /\
  run_sops s [SAppend []; STruncate 3] w = Ok ([ST_SUCCESS; ST_INVALID_ARGUMENT], s') w'.
Proof.
  destruct (sreach_any [97;98;99]) as (w & s & R); [reflexivity|]. exists w, s.
  destruct (c106_truncate_refuted w s _ (or_introl R) eq_refl) as (s' & w' & X & _). exists s', w'. split; [now left|exact X].
Qed.

(** Bitsets ([legal]: no Push into a full buffer and no Pop of an empty bitset, see C35 to C37). *)
Theorem c106_bitset_partial :
  forall limit (w : world N) b bs ops undos cs rs b1 w1,
    bitreached limit w b bs -> session bundo bs ops undos cs -> legal limit ops bs ->
    bitroom (nlen bs + pushes (ops ++ undos)) ->
    run_bitops b ops w = Ok (rs, b1) w1 -> Forall (eq ST_SUCCESS) rs ->
    bitshows w1 b1 cs /\
    exists rs2 b2 w2, run_bitops b1 undos w1 = Ok (rs2, b2) w2 /\ Forall (eq ST_SUCCESS) rs2 /\ bitshows w2 b2 bs.
Proof. exact undo_bitset. Qed.
Print Assumptions c106_bitset_partial.
Example c106_bitset_met : exists (w : world N) b rs b1 w1 rs2 b2 w2,
  bitreached None w b [true;false;true] /\ legal None bitset_calls [true;false;true] /\
  bitroom (nlen [true;false;true] + pushes (bitset_calls ++ bitset_undos)) /\
  run_bitops b bitset_calls w = Ok (rs, b1) w1 /\ Forall (eq ST_SUCCESS) rs /\ bitshows w1 b1 [true;false;false] /\
  run_bitops b1 bitset_undos w1 = Ok (rs2, b2) w2 /\ Forall (eq ST_SUCCESS) rs2 /\ bitshows w2 b2 [true;false;true].
Proof.
  destruct (bitreach_any [true;false;true]) as (w & b & R & _); [reflexivity|]. exists w, b.
  assert (RM : bitroom (nlen [true;false;true] + pushes (bitset_calls ++ bitset_undos))) by reflexivity.
  assert (LG : legal None bitset_calls [true;false;true]). { repeat split. discriminate. }
  destruct (undo_bitset_runs None w b _ bitset_calls R LG) as (b1 & w1 & ER); [reflexivity|].
  assert (OK : Forall (eq ST_SUCCESS) (fst (bitsteps None bitset_calls [true;false;true]))) by (vm_compute; repeat constructor).
  destruct (c106_bitset_partial None w b _ _ _ _ _ _ _ R bitset_session LG RM ER OK) as (SH & rs2 & b2 & w2 & X).
  exists (fst (bitsteps None bitset_calls [true;false;true])), b1, w1, rs2, b2, w2. tauto.
Qed.

(** Lists; with an allocator ([limit = None]) it must not fail. *)
Theorem c106_list :
  forall limit (w : world cell) l xs ops undos ys rs l1 w1,
    lreached limit w l xs -> (limit = None -> ~ fails w) -> session lundo xs ops undos ys ->
    Forall (larg_ok (l_esz l)) (ops ++ undos) -> nlen xs + ldemands (ops ++ undos) < W64 ->
    run_lops l ops w = Ok (rs, l1) w1 -> Forall (eq ST_SUCCESS) rs ->
    (exists ps, lshows w1 l1 ps ys) /\
    exists rs2 l2 w2, run_lops l1 undos w1 = Ok (rs2, l2) w2 /\ Forall (eq ST_SUCCESS) rs2 /\ exists ps, lshows w2 l2 ps xs.
Proof. exact undo_list. Qed.
Print Assumptions c106_list.
Theorem c106_list_growable :
  forall (w : world cell) l xs ops undos ys,
    lreached None w l xs -> ~ fails w -> session lundo xs ops undos ys -> Forall (larg_ok (l_esz l)) (ops ++ undos) ->
    nlen xs + ldemands (ops ++ undos) < W64 ->
    exists rs l1 w1, run_lops l ops w = Ok (rs, l1) w1 /\ Forall (eq ST_SUCCESS) rs.
Proof. exact undo_list_growable. Qed.
Print Assumptions c106_list_growable.
Example c106_list_met : exists (w : world cell) l rs l1 w1 rs2 l2 w2,
  lreached None w l [[CByte 1];[CByte 2]] /\ ~ fails w /\
  run_lops l list_calls w = Ok (rs, l1) w1 /\ Forall (eq ST_SUCCESS) rs /\
  (exists ps, lshows w1 l1 ps [[CByte 7];[CByte 8];[CByte 9];[CByte 9]]) /\
  run_lops l1 list_undos w1 = Ok (rs2, l2) w2 /\ Forall (eq ST_SUCCESS) rs2 /\ exists ps, lshows w2 l2 ps [[CByte 1];[CByte 2]].
Proof.
  destruct calm_world as [A NF].
  destruct (lreached_calm 1 [[CByte 1];[CByte 2]]) with (5 := A) (6 := NF) as (w & l & R & FA & E);
    [lia|reflexivity|repeat constructor|reflexivity|]. exists w, l.
  assert (AO : Forall (larg_ok (l_esz l)) (list_calls ++ list_undos)). { rewrite E. repeat constructor. }
  destruct (c106_list_growable w l _ _ _ _ R FA list_session AO) as (rs & l1 & w1 & ER & OK); [reflexivity|].
  destruct (c106_list None w l _ _ _ _ _ _ _ R (fun _ => FA) list_session AO eq_refl ER OK) as (SH & rs2 & l2 & w2 & X).
  exists rs, l1, w1, rs2, l2, w2. tauto.
Qed.
