(** C108: converting both texts to lower case and comparing case-sensitively is the same as comparing case-insensitively. *)
From Verif Require Import Base Status VectorModel VectorDriver StringModel StringSpec StringDriver StringExamples CaseSpec CaseProofs Mem.

(** CompareI gives the status and the result that Compare gives for the texts in lower case.  Missing: other characters than
    digits, spaces, most punctuation and ASCII letters (c108_not_letters_refuted). *)
Theorem c108_compare_partial :
  forall (w : world N) v1 v2 u1 u2 a b,
    Forall plain a -> Forall plain b ->
    views w v1 a -> views w v2 b -> views w u1 (map to_lower a) -> views w u2 (map to_lower b) ->
    exists st r, scompare eq_ci v1 v2 w = Ok (st, r) w /\ scompare eq_cs u1 u2 w = Ok (st, r) w.
Proof. exact compare_lower. Qed.
Print Assumptions c108_compare_partial.
(** LPosIEx and RPosIEx give what LPosEx and RPosEx give for the texts in lower case. *)
Theorem c108_lpos_partial :
  forall (w : world N) hv nv hu nu hay needle index count,
    Forall plain hay -> Forall plain needle ->
    views w hv hay -> views w nv needle -> views w hu (map to_lower hay) -> views w nu (map to_lower needle) ->
    index + count < W64 ->
    exists st r, slpos_ex eq_ci hv nv index count w = Ok (st, r) w /\ slpos_ex eq_cs hu nu index count w = Ok (st, r) w.
Proof. exact lpos_lower. Qed.
Print Assumptions c108_lpos_partial.
Theorem c108_rpos_partial :
  forall (w : world N) hv nv hu nu hay needle index count,
    Forall plain hay -> Forall plain needle ->
    views_part w hv hay -> views_part w nv needle -> views_part w hu (map to_lower hay) -> views_part w nu (map to_lower needle) ->
    exists st r, srpos_ex eq_ci hv nv index count w = Ok (st, r) w /\ srpos_ex eq_cs hu nu index count w = Ok (st, r) w.
Proof. exact rpos_lower. Qed.
Print Assumptions c108_rpos_partial.
Example c108_met : exists w hv nv hu nu,
  Forall plain [72;105;32;104;73] /\ Forall plain [104;105] /\
  views w hv [72;105;32;104;73] /\ views w nv [104;105] /\
  views w hu (map to_lower [72;105;32;104;73]) /\ views w nu (map to_lower [104;105]) /\
  views_part w hv [72;105;32;104;73] /\ views_part w nv [104;105] /\
  views_part w hu (map to_lower [72;105;32;104;73]) /\ views_part w nu (map to_lower [104;105]) /\ 1 + 4 < W64 /\
  slpos_ex eq_ci hv nv 1 4 w = Ok (ST_TRUE, Some 3) w /\ slpos_ex eq_cs hu nu 1 4 w = Ok (ST_TRUE, Some 3) w.
Proof.
  exists (text_world [72;105;32;104;73;0;104;105;0;104;105;32;104;105;0]), (text_view 0 6), (text_view 6 3), (text_view 9 6), (text_view 6 3).
  split; [repeat constructor; unfold plain; lia|]. split; [repeat constructor; unfold plain; lia|].
  repeat (split; [now repeat split|]). repeat split.
Qed.
(** For two characters that differ in bit 5 and are no letters, such as '@' and '`', or '[' and '{', CompareI and LPosI say
    TRUE, but after the conversion the sensitive functions say FALSE. *)
Theorem c108_not_letters_refuted :
  forall (w : world N) v1 v2 u1 u2 c,
    c <> 0 -> c <> 32 -> to_lower c = c -> to_lower (N.lxor c 32) = N.lxor c 32 ->
    views w v1 [c] -> views w v2 [N.lxor c 32] -> views w u1 [to_lower c] -> views w u2 [to_lower (N.lxor c 32)] ->
    scompare eq_ci v1 v2 w = Ok (ST_TRUE, 0%Z) w /\ slpos eq_ci v1 v2 w = Ok (ST_TRUE, Some 0) w /\
    (exists r, scompare eq_cs u1 u2 w = Ok (ST_FALSE, r) w) /\ slpos eq_cs u1 u2 w = Ok (ST_FALSE, None) w.
Proof. exact not_letters. Qed.
Print Assumptions c108_not_letters_refuted.
Example c108_not_letters_met : exists w v1 v2,
  64 <> 0 /\ 64 <> 32 /\ to_lower 64 = 64 /\ to_lower (N.lxor 64 32) = N.lxor 64 32 /\
  views w v1 [64] /\ views w v2 [N.lxor 64 32].
Proof.
  exists (text_world [64;0;96;0]), (text_view 0 2), (text_view 2 2).
  split; [discriminate|]. split; [discriminate|]. split; [reflexivity|]. split; [reflexivity|]. split; now repeat split.
Qed.
(** Conversions of the whole string: all succeed, and only the last one counts. *)
Theorem c108_conversions :
  forall (w : world N) s cs l u,
    sreached w s cs -> sroom (nlen cs) ->
    exists rs s' w', run_sops s (map conversion (l ++ [u])) w = Ok (rs, s') w' /\ Forall (eq ST_SUCCESS) rs /\
      sshows w' s' (map (converted_char u) cs).
Proof. exact conversions. Qed.
Print Assumptions c108_conversions.
Example c108_conversions_met : exists (w : world N) s, sreached w s [72;105;33] /\ sroom (nlen [72;105;33]).
Proof. destruct (sreach_any [72;105;33]) as (w & s & H); [reflexivity|]. exists w, s. split; [now left|reflexivity]. Qed.
