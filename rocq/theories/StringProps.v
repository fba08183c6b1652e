(** Property theorems of the strings (C13-C24, C56-C59).  Statements only; the counterexamples are in
    StringRefuted.v. *)
From Verif Require Import Base Status Mem VectorModel VectorDriver StringModel StringSpec StringDriver StringFinal
  StringFinal2 StringFinal3 StringExamples.
From Coq Require Import ZifyBool ZifyNat ZifyN.

(** C13.  Any history of calls on a growable string whose allocator works returns the statuses and leaves the
    contents that the character-list machine [sspecs] prescribes; the contents are followed by a 0 byte; nothing
    else in memory changes; no call faults. *)
Theorem c13_growable_string :
  forall (w0 : world N) cap g t ops,
    sinit_args_ok w0 cap g t -> Forall sums_ok ops -> sroom (sdemands ops) ->
    exists s0 w1 rs s w cs,
      sinit_ex cap true g t w0 = Ok (ST_SUCCESS, Some s0) w1 /\
      run_sops s0 ops w1 = Ok (rs, s) w /\ sspecs None ops [] rs cs /\ sshows w s cs /\
      (forall b x, heap w0 b = Some x -> heap w b = Some x).
Proof. exact growable_string. Qed.
Print Assumptions c13_growable_string.
(** ... and Destroy gives all of its memory back. *)
Theorem c13_destroy :
  forall (w0 : world N) cap g t s0 w1 ops rs s w,
    sinit_args_ok w0 cap g t -> Forall sums_ok ops -> sroom (sdemands ops) ->
    sinit_ex cap true g t w0 = Ok (ST_SUCCESS, Some s0) w1 -> run_sops s0 ops w1 = Ok (rs, s) w ->
    exists s' w', sdestroy s w = Ok (ST_SUCCESS, s') w' /\ forall b, heap w' b = heap w0 b.
Proof. exact growable_string_destroy. Qed.
Print Assumptions c13_destroy.
Example c13_hypotheses_met :
  sinit_args_ok (text_world [1;2;3]) 0 2 4 /\ Forall sums_ok c13_example_ops /\ sroom (sdemands c13_example_ops).
Proof.
  split; [apply sinit_args_example; [lia|lia|reflexivity]|]. split; [|reflexivity].
  repeat constructor.
Qed.

(** C14.  On a caller-supplied buffer of [cap] bytes the machine holds at most cap-1 characters; the string stays in
    the buffer, nothing outside the buffer changes, the allocator is not asked. *)
Theorem c14_fixed_string :
  forall (w0 : world N) cap b pre buf post ops,
    sbuffer_args_ok w0 cap b pre buf post -> Forall sums_ok ops -> sroom (sdemands ops) ->
    exists s0 w1 rs s w cs buf',
      sinit_custom (Some (mkptr b (nlen pre))) cap w0 = Ok (ST_SUCCESS, Some s0) w1 /\
      run_sops s0 ops w1 = Ok (rs, s) w /\ sspecs (Some (cap - 1)) ops [] rs cs /\ sshows w s cs /\
      nlen cs <= cap - 1 /\ sdata s = Some (mkptr b (nlen pre)) /\ tick w = tick w0 /\
      heap w b = Some (pre ++ buf' ++ post) /\ nlen buf' = cap /\
      (forall b', b' <> b -> heap w b' = heap w0 b').
Proof. exact fixed_string. Qed.
Print Assumptions c14_fixed_string.
Theorem c14_destroy :
  forall (w0 : world N) cap b pre buf post s0 w1 ops rs s w,
    sbuffer_args_ok w0 cap b pre buf post -> Forall sums_ok ops -> sroom (sdemands ops) ->
    sinit_custom (Some (mkptr b (nlen pre))) cap w0 = Ok (ST_SUCCESS, Some s0) w1 -> run_sops s0 ops w1 = Ok (rs, s) w ->
    sdestroy s w = Ok (ST_SUCCESS, s) w.
Proof. exact fixed_string_destroy. Qed.
Print Assumptions c14_destroy.
Example c14_hypotheses_met :
  sbuffer_args_ok (text_world ([1;2] ++ [7;7;7;7] ++ [3])) 4 0 [1;2] [7;7;7;7] [3] /\
  Forall sums_ok c13_example_ops /\ sroom (sdemands c13_example_ops).
Proof.
  split; [apply (sbuffer_args_example [1;2] [7;7;7;7] [3]); now split|]. split; [|reflexivity].
  repeat constructor.
Qed.

(** C15.  A view of a C string has its size, address and characters ... *)
Theorem c15_inside_buffer :
  forall (w : world N) old b a x z,
    heap w b = Some (a ++ x ++ 0 :: z) -> ~ In 0 x -> nlen x + 1 < W64 ->
    exists q, view_inside_buffer old (Some (mkptr b (nlen a))) w = Ok (ST_SUCCESS, q) w /\
      view_get_size q w = Ok (ST_SUCCESS, nlen x) w /\ view_get_data q = (ST_SUCCESS, Some (mkptr b (nlen a))) /\
      views w q x.
Proof. exact inside_buffer_ok. Qed.
Print Assumptions c15_inside_buffer.
(** ... and a view of the first [n >= 1] bytes of a buffer has those ... *)
Theorem c15_inside_buffer_ex :
  forall (w : world N) old b a x z,
    heap w b = Some (a ++ x ++ z) -> 1 <= nlen x -> nlen x + 1 < W64 ->
    exists q, view_inside_buffer_ex old (Some (mkptr b (nlen a))) (nlen x) = (ST_SUCCESS, q) /\
      view_get_size q w = Ok (ST_SUCCESS, nlen x) w /\ view_get_data q = (ST_SUCCESS, Some (mkptr b (nlen a))) /\
      views_part w q x.
Proof. exact inside_buffer_ex_ok. Qed.
Print Assumptions c15_inside_buffer_ex.
(** ... and GetChar on a view is right.  Missing: views in a struct whose element size is not already 1
    (c15_get_char_refuted). *)
Theorem c15_get_char_partial :
  forall (w : world N) q x i,
    views_part w q x -> v_esz (s_vec q) = 1 -> i < W64 ->
    sget_char q i w =
      Ok (match nnth i x with Some c => (ST_SUCCESS, Some c) | None => (ST_OUT_OF_RANGE, None) end) w.
Proof. exact get_char_view. Qed.
Print Assumptions c15_get_char_partial.
Example c15_hypotheses_met :
  heap (text_world ([9] ++ [97;98] ++ 0 :: [8])) 0 = Some ([9] ++ [97;98] ++ 0 :: [8]) /\ ~ In 0 [97;98] /\
  1 <= nlen [97;98] /\ nlen [97;98] + 1 < W64 /\
  views_part (text_world [9;97;98]) (text_view 1 3) [97;98] /\ v_esz (s_vec (text_view 1 3)) = 1.
Proof.
  split; [reflexivity|]. split; [intros [H|[H|[]]]; discriminate|]. split; [discriminate|]. split; [reflexivity|].
  split; [now repeat split|reflexivity].
Qed.

(** C16.  A view of a view shows the same characters ... *)
Theorem c16_inside_view :
  forall (w : world N) old q x,
    views w q x ->
    exists r, view_inside_view old q = (ST_SUCCESS, r) /\ views w r x /\ view_get_size r w = Ok (ST_SUCCESS, nlen x) w.
Proof. exact inside_view_ok. Qed.
Print Assumptions c16_inside_view.
(** ... and InsideViewEx checks the range and points at the right characters, but its size is one too small
    (c16_inside_view_ex_refuted).  Missing: the right size. *)
Theorem c16_inside_view_ex_partial :
  forall (w : world N) old q x i n,
    views w q x -> i + n < W64 ->
    exists st r, view_inside_view_ex old q i n = (st, r) /\
      if nlen x <? i + n then st = ST_OUT_OF_RANGE /\ r = old
      else st = ST_SUCCESS /\ mread (sdata r) n w = Ok (nsub i n x) w /\
           (1 <= n -> view_get_size r w = Ok (ST_SUCCESS, n - 1) w).
Proof. exact inside_view_ex_ok. Qed.
Print Assumptions c16_inside_view_ex_partial.
Example c16_hypotheses_met : views (text_world ([9] ++ ([97;98;99] ++ [0]) ++ [8])) (text_view 1 4) [97;98;99].
Proof. apply (text_views [9] [97;98;99] [8]). reflexivity. Qed.

(** C17.  LPosEx and LPos find the first occurrence inside the range.  An empty needle is never found. *)
Theorem c17_lpos_ex :
  forall (w : world N) hv nv hay needle index count,
    views w hv hay -> views w nv needle -> ~ In 0 needle -> index + count < W64 ->
    exists st r, slpos_ex eq_cs hv nv index count w = Ok (st, r) w /\ lpos_result eq hay needle index count st r.
Proof. exact lpos_ex_cs. Qed.
Print Assumptions c17_lpos_ex.
Theorem c17_lpos :
  forall (w : world N) hv nv hay needle,
    views w hv hay -> views w nv needle -> ~ In 0 needle ->
    exists st r, slpos eq_cs hv nv w = Ok (st, r) w /\ lpos_result eq hay needle 0 (nlen hay) st r.
Proof. exact lpos_cs. Qed.
Print Assumptions c17_lpos.
(** C18.  RPosEx and RPos find the last occurrence inside the range, also in views that are not NUL-terminated. *)
Theorem c18_rpos_ex :
  forall (w : world N) hv nv hay needle index count,
    views_part w hv hay -> views_part w nv needle ->
    exists st r, srpos_ex eq_cs hv nv index count w = Ok (st, r) w /\ rpos_result eq hay needle index count st r.
Proof. exact rpos_ex_cs. Qed.
Print Assumptions c18_rpos_ex.
Theorem c18_rpos :
  forall (w : world N) hv nv hay needle,
    views_part w hv hay -> views_part w nv needle ->
    exists st r, srpos eq_cs hv nv w = Ok (st, r) w /\ rpos_result eq hay needle (nlen hay) (nlen hay) st r.
Proof. exact rpos_cs. Qed.
Print Assumptions c18_rpos.
Example c17_hypotheses_met : exists w hv nv,
  views w hv [97;98;97;98;99] /\ views w nv [97;98] /\ views_part w hv [97;98;97;98;99] /\ views_part w nv [97;98] /\
  ~ In 0 [97;98] /\ Forall plain [97;98;97;98;99] /\ Forall bit5 [97;98] /\ 1 + 4 < W64.
Proof.
  exists (text_world [97;98;97;98;99;0;97;98;0]), (text_view 0 6), (text_view 6 3).
  repeat (split; [now repeat split|]). split; [intros [H|[H|[]]]; discriminate|].
  split; [repeat constructor; unfold plain; lia|]. split; [|reflexivity].
  repeat constructor.
Qed.
(** A string can be passed as its own view (ZYAN_STRING_TO_VIEW). *)
Theorem c17_string_as_view :
  forall (w : world N) s cs, sreached w s cs -> views w s cs.
Proof. exact string_views. Qed.
Print Assumptions c17_string_as_view.
Example c17_string_hypotheses_met : exists w s, sreached w s [97;98;99].
Proof. destruct (sreach_any [97;98;99]) as (w & s & H); [reflexivity|]. exists w, s. now left. Qed.

(** C19.  On digits, spaces, most punctuation and ASCII letters the I variants compare up to case.  Missing: control
    characters, '@' to '`' and '{' to DEL outside letters, and bytes above 127 (c19_case_insensitive_refuted). *)
Theorem c19_lpos_ex_partial :
  forall (w : world N) hv nv hay needle index count,
    Forall plain hay -> Forall plain needle -> views w hv hay -> views w nv needle -> index + count < W64 ->
    exists st r, slpos_ex eq_ci hv nv index count w = Ok (st, r) w /\
      lpos_result same_letter hay needle index count st r.
Proof. exact lpos_ex_ci. Qed.
Print Assumptions c19_lpos_ex_partial.
Theorem c19_rpos_ex_partial :
  forall (w : world N) hv nv hay needle index count,
    Forall plain hay -> Forall plain needle -> views_part w hv hay -> views_part w nv needle ->
    exists st r, srpos_ex eq_ci hv nv index count w = Ok (st, r) w /\
      rpos_result same_letter hay needle index count st r.
Proof. exact rpos_ex_ci. Qed.
Print Assumptions c19_rpos_ex_partial.
Theorem c19_compare_partial :
  forall (w : world N) v1 v2 a b,
    Forall plain a -> Forall plain b -> views w v1 a -> views w v2 b ->
    exists st r, scompare eq_ci v1 v2 w = Ok (st, r) w /\
      ((map to_lower a = map to_lower b /\ st = ST_TRUE /\ r = 0%Z) \/
       (map to_lower a <> map to_lower b /\ st = ST_FALSE /\ (r = 1 \/ r = -1)%Z)).
Proof. exact compare_ci. Qed.
Print Assumptions c19_compare_partial.
Example c19_hypotheses_met : exists (w : world N) u v,
  views w u [72;105;33] /\ views w v [104;73;33] /\ Forall plain [72;105;33] /\ Forall plain [104;73;33] /\ 0 + 3 < W64 /\
  scompare eq_ci u v w = Ok (ST_TRUE, 0%Z) w.
Proof.
  exists (text_world [72;105;33;0;104;73;33;0]), (text_view 0 4), (text_view 4 4).
  repeat (split; [now repeat split|]). split; [repeat constructor; unfold plain; lia|].
  split; [repeat constructor; unfold plain; lia|]. split; reflexivity.
Qed.
(** What the I variants do on all characters: they compare up to bit 5. *)
Theorem c19_lpos_ex_bit5_partial :
  forall (w : world N) hv nv hay needle index count,
    views w hv hay -> views w nv needle -> ~ In 0 needle -> index + count < W64 ->
    exists st r, slpos_ex eq_ci hv nv index count w = Ok (st, r) w /\
      lpos_result same_but_bit5 hay needle index count st r.
Proof. exact lpos_ex_bit5. Qed.
Print Assumptions c19_lpos_ex_bit5_partial.
Theorem c19_rpos_ex_bit5_partial :
  forall (w : world N) hv nv hay needle index count,
    views_part w hv hay -> views_part w nv needle ->
    exists st r, srpos_ex eq_ci hv nv index count w = Ok (st, r) w /\
      rpos_result same_but_bit5 hay needle index count st r.
Proof. exact rpos_ex_bit5. Qed.
Print Assumptions c19_rpos_ex_bit5_partial.
Theorem c19_compare_bit5_partial :
  forall (w : world N) v1 v2 a b,
    views w v1 a -> views w v2 b ->
    exists st r, scompare eq_ci v1 v2 w = Ok (st, r) w /\
      ((Forall2 same_but_bit5 a b /\ st = ST_TRUE /\ r = 0%Z) \/
       (~ Forall2 same_but_bit5 a b /\ st = ST_FALSE /\ (r = 1 \/ r = -1)%Z)).
Proof. exact compare_bit5. Qed.
Print Assumptions c19_compare_bit5_partial.
Example c19_bit5_hypotheses_met :
  exists (w : world N) u v, views w u [64;200;65] /\ views w v [96;232] /\ ~ In 0 [96;232] /\ 0 + 3 < W64.
Proof.
  exists (text_world [64;200;65;0;96;232;0]), (text_view 0 4), (text_view 4 3).
  split; [now repeat split|]. split; [now repeat split|]. split; [|reflexivity]. intros [H|[H|[]]]; discriminate H.
Qed.

(** C20.  Compare answers TRUE and 0 exactly for equal strings. *)
Theorem c20_compare :
  forall (w : world N) v1 v2 a b,
    views w v1 a -> views w v2 b ->
    exists st r, scompare eq_cs v1 v2 w = Ok (st, r) w /\
      ((a = b /\ st = ST_TRUE /\ r = 0%Z) \/ (a <> b /\ st = ST_FALSE /\ (r = 1 \/ r = -1)%Z)).
Proof. exact compare_correct. Qed.
Print Assumptions c20_compare.

(** C21.  CompareI is antisymmetric and transitive on all byte strings; Compare on strings of bytes with bit 5 set.
    Missing: Compare on strings with other characters, e.g. upper-case letters (c21_compare_refuted). *)
Theorem c21_compare_i_antisymmetric :
  forall (w : world N) v1 v2 a b,
    Forall (fun c => c < 256) a -> Forall (fun c => c < 256) b -> views w v1 a -> views w v2 b ->
    exists st st' r, scompare eq_ci v1 v2 w = Ok (st, r) w /\ scompare eq_ci v2 v1 w = Ok (st', (- r)%Z) w.
Proof. exact compare_ci_antisym. Qed.
Print Assumptions c21_compare_i_antisymmetric.
Theorem c21_compare_i_transitive :
  forall (w : world N) v1 v2 v3 a b c,
    Forall (fun c => c < 256) a -> Forall (fun c => c < 256) b -> Forall (fun c => c < 256) c ->
    views w v1 a -> views w v2 b -> views w v3 c ->
    exists st12 r12 st23 r23 st13 r13,
      scompare eq_ci v1 v2 w = Ok (st12, r12) w /\ scompare eq_ci v2 v3 w = Ok (st23, r23) w /\
      scompare eq_ci v1 v3 w = Ok (st13, r13) w /\ (r12 <= 0 -> r23 <= 0 -> r13 <= 0)%Z.
Proof. exact compare_ci_trans. Qed.
Print Assumptions c21_compare_i_transitive.
Theorem c21_compare_antisymmetric_partial :
  forall (w : world N) v1 v2 a b,
    Forall bit5 a -> Forall bit5 b -> views w v1 a -> views w v2 b ->
    exists st st' r, scompare eq_cs v1 v2 w = Ok (st, r) w /\ scompare eq_cs v2 v1 w = Ok (st', (- r)%Z) w.
Proof. exact compare_cs_antisym. Qed.
Print Assumptions c21_compare_antisymmetric_partial.
Theorem c21_compare_transitive_partial :
  forall (w : world N) v1 v2 v3 a b c,
    Forall bit5 a -> Forall bit5 b -> Forall bit5 c -> views w v1 a -> views w v2 b -> views w v3 c ->
    exists st12 r12 st23 r23 st13 r13,
      scompare eq_cs v1 v2 w = Ok (st12, r12) w /\ scompare eq_cs v2 v3 w = Ok (st23, r23) w /\
      scompare eq_cs v1 v3 w = Ok (st13, r13) w /\ (r12 <= 0 -> r23 <= 0 -> r13 <= 0)%Z.
Proof. exact compare_cs_trans. Qed.
Print Assumptions c21_compare_transitive_partial.
Example c21_hypotheses_met : exists (w : world N) u v x,
  views w u [97;98] /\ views w v [97;99] /\ views w x [98] /\ Forall bit5 [97;98] /\ Forall bit5 [97;99] /\ Forall bit5 [98] /\
  Forall (fun c => c < 256) [97;98] /\ Forall (fun c => c < 256) [97;99] /\ Forall (fun c => c < 256) [98] /\
  map (fun p => result (scompare eq_cs (fst p) (snd p) w)) [(u, u); (u, v); (v, u); (x, u)] =
    map (@inr fault _) [(ST_TRUE, 0%Z); (ST_FALSE, (-1)%Z); (ST_FALSE, 1%Z); (ST_FALSE, (-1)%Z)].
Proof.
  exists (text_world [97;98;0;97;99;0;98;0]), (text_view 0 3), (text_view 3 3), (text_view 6 2).
  repeat (split; [now repeat split|]). repeat (split; [repeat constructor|]). now vm_compute.
Qed.

(** C22.  Case conversion changes exactly the letters in the range. *)
Theorem c22_to_lower_ex :
  forall (w : world N) s cs i n,
    sreached w s cs -> i + n < W64 ->
    exists st w' s' cs', scase_ex lower_step s i n w = Ok (st, s') w' /\ sshows w' s' cs' /\
      if nlen cs <? i + n then st = ST_OUT_OF_RANGE /\ cs' = cs
      else st = ST_SUCCESS /\ converted to_lower i n cs cs'.
Proof. exact lower_range. Qed.
Print Assumptions c22_to_lower_ex.
Theorem c22_to_upper_ex :
  forall (w : world N) s cs i n,
    sreached w s cs -> i + n < W64 ->
    exists st w' s' cs', scase_ex upper_step s i n w = Ok (st, s') w' /\ sshows w' s' cs' /\
      if nlen cs <? i + n then st = ST_OUT_OF_RANGE /\ cs' = cs
      else st = ST_SUCCESS /\ converted to_upper i n cs cs'.
Proof. exact upper_range. Qed.
Print Assumptions c22_to_upper_ex.
Theorem c22_to_lower :
  forall (w : world N) s cs, sreached w s cs ->
    exists w' s', scase lower_step s w = Ok (ST_SUCCESS, s') w' /\ sshows w' s' (map to_lower cs).
Proof. exact lower_whole. Qed.
Print Assumptions c22_to_lower.
Theorem c22_to_upper :
  forall (w : world N) s cs, sreached w s cs ->
    exists w' s', scase upper_step s w = Ok (ST_SUCCESS, s') w' /\ sshows w' s' (map to_upper cs).
Proof. exact upper_whole. Qed.
Print Assumptions c22_to_upper.
Example c22_hypotheses_met : (exists w s, sreached w s [72;105;33]) /\ exists w s, sreached_buf w s [72;105;33].
Proof.
  split.
  - destruct (sreach_any [72;105;33]) as (w & s & H); [reflexivity|]. exists w, s. now left.
  - apply (sreach_buf_any [72;105;33] 5); [reflexivity|lia|reflexivity].
Qed.

(** C23.  GetCapacity is never below GetSize. *)
Theorem c23_capacity :
  forall (w : world N) s cs, sreached w s cs ->
    exists c, sget_capacity s w = Ok (ST_SUCCESS, c) w /\ nlen cs <= c.
Proof. exact capacity_bounds_size. Qed.
Print Assumptions c23_capacity.
(** After Reserve(n), GetCapacity reports at least n - 1: the terminator is counted (c23_reserve_refuted). *)
Theorem c23_reserve_partial :
  forall (w : world N) s cs n, sreached_own w s cs -> n < W64 ->
    exists w' s' c, sreserve s n w = Ok (ST_SUCCESS, s') w' /\ sshows w' s' cs /\
      sget_capacity s' w' = Ok (ST_SUCCESS, c) w' /\ n <= c + 1.
Proof. exact reserve_capacity. Qed.
Print Assumptions c23_reserve_partial.
(** With shrinking switched off, a string of up to n - 1 characters is then built without asking the allocator,
    whatever it would answer.  Missing: other shrink thresholds (c23_append_reallocates_refuted). *)
Theorem c23_no_allocation_partial :
  forall (w0 : world N) cap g s0 w1 ops rs s w cs n orc' x,
    sinit_args_ok w0 cap g 0 -> Forall sums_ok ops -> sroom (sdemands ops) ->
    sinit_ex cap true g 0 w0 = Ok (ST_SUCCESS, Some s0) w1 -> run_sops s0 ops w1 = Ok (rs, s) w -> sshows w s cs ->
    n < W64 -> nlen cs + nlen x + 1 <= n ->
    exists s1 w2 s2 w3,
      sreserve s n w = Ok (ST_SUCCESS, s1) w2 /\
      run_sop s1 (SAppend x) (with_oracle w2 orc') = Ok (ST_SUCCESS, s2) w3 /\
      sshows w3 s2 (cs ++ x) /\ tick w3 = tick w2 /\ sdata s2 = sdata s1.
Proof. exact reserve_then_append. Qed.
Print Assumptions c23_no_allocation_partial.
Example c23_hypotheses_met : exists s0 w1 rs s w,
  sinit_args_ok (text_world []) 0 2 0 /\ sinit_ex 0 true 2 0 (text_world []) = Ok (ST_SUCCESS, Some s0) w1 /\
  run_sops s0 [SAppend [97;98]] w1 = Ok (rs, s) w /\ sshows w s [97;98] /\ nlen [97;98] + nlen [99;100] + 1 <= 200.
Proof.
  assert (A : sinit_args_ok (text_world []) 0 2 0) by (apply sinit_args_example; [lia|lia|reflexivity]).
  destruct (growable_string (text_world []) 0 2 0 [SAppend [97;98]] A) as (s0 & w1 & rs & s & w & cs & E & E2 & K & SH & _).
  { repeat constructor. } { reflexivity. }
  apply sspecs_append in K; [|reflexivity]. subst cs. exists s0, w1, rs, s, w.
  split; [exact A|]. split; [exact E|]. split; [exact E2|]. split; [exact SH|]. discriminate.
Qed.

(** C24.  Duplicate and Concat make independent working strings; the custom buffer variants work inside the buffer
    and refuse buffers that are too small.  The capacity limit is in [sinit_args_ok]: capacity + 1 < 2^64
    (c24_capacity_wrap_refuted). *)
Theorem c24_duplicate :
  forall (w0 : world N) q x cap g t,
    sinit_args_ok w0 (N.max cap (nlen x)) g t -> views_part w0 q x ->
    exists d w c, sduplicate_ex q cap true g t w0 = Ok (ST_SUCCESS, Some d) w /\
      fresh_string None (fun _ => True) w0 w d x /\ sget_capacity d w = Ok (ST_SUCCESS, c) w /\
      N.max cap (nlen x) <= c.
Proof. exact duplicate_own. Qed.
Print Assumptions c24_duplicate.
Theorem c24_duplicate_custom_buffer :
  forall (w0 : world N) q x cap b pre buf post,
    sbuffer_args_ok w0 cap b pre buf post -> views_part w0 q x -> outside q b ->
    exists st od w, sduplicate_custom q (Some (mkptr b (nlen pre))) cap w0 = Ok (st, od) w /\
      if cap <? nlen x + 1 then st = ST_INSUFFICIENT_BUFFER_SIZE /\ od = None /\ w = w0
      else st = ST_SUCCESS /\ exists d buf', od = Some d /\
             fresh_string (Some (cap - 1)) (fun b' => b' <> b) w0 w d x /\
             sdata d = Some (mkptr b (nlen pre)) /\ heap w b = Some (pre ++ buf' ++ post) /\ nlen buf' = cap.
Proof. exact duplicate_buf. Qed.
Print Assumptions c24_duplicate_custom_buffer.
Theorem c24_concat :
  forall (w0 : world N) q1 q2 x y cap g t,
    sinit_args_ok w0 (N.max cap (nlen x + nlen y)) g t -> views_part w0 q1 x -> views_part w0 q2 y ->
    exists d w c, sconcat_ex q1 q2 cap true g t w0 = Ok (ST_SUCCESS, Some d) w /\
      fresh_string None (fun _ => True) w0 w d (x ++ y) /\ sget_capacity d w = Ok (ST_SUCCESS, c) w /\
      N.max cap (nlen x + nlen y) <= c.
Proof. exact concat_own. Qed.
Print Assumptions c24_concat.
Theorem c24_concat_custom_buffer :
  forall (w0 : world N) q1 q2 x y cap b pre buf post,
    sbuffer_args_ok w0 cap b pre buf post ->
    views_part w0 q1 x -> outside q1 b -> views_part w0 q2 y -> outside q2 b -> nlen x + nlen y + 1 < W64 ->
    exists st od w, sconcat_custom q1 q2 (Some (mkptr b (nlen pre))) cap w0 = Ok (st, od) w /\
      if cap <? nlen x + nlen y + 1 then st = ST_INSUFFICIENT_BUFFER_SIZE /\ od = None /\ w = w0
      else st = ST_SUCCESS /\ exists d buf', od = Some d /\
             fresh_string (Some (cap - 1)) (fun b' => b' <> b) w0 w d (x ++ y) /\
             sdata d = Some (mkptr b (nlen pre)) /\ heap w b = Some (pre ++ buf' ++ post) /\ nlen buf' = cap.
Proof. exact concat_buf. Qed.
Print Assumptions c24_concat_custom_buffer.
Example c24_hypotheses_met :
  sinit_args_ok (text_world [97;98;0;99;0]) (N.max 5 (2 + 1)) 2 4 /\
  views_part (text_world [97;98;0;99;0]) (text_view 0 3) [97;98] /\
  views_part (text_world [97;98;0;99;0]) (text_view 3 2) [99] /\
  exists w q b, sbuffer_args_ok w 4 b [] [7;7;7;7] [] /\ views_part w q [97;98] /\ outside q b.
Proof.
  split; [apply sinit_args_example; [lia|lia|reflexivity]|]. split; [now repeat split|]. split; [now repeat split|].
  exists (mkworld (fun b => if b =? 0 then Some [7;7;7;7] else if b =? 1 then Some [97;98] else None) 2
            (fun _ => AOk (fun _ => 170)) 0 []), (define_view (Some (mkptr 1 0)) 3), 0.
  split; [|split; [now repeat split|]].
  - split; [|split; [reflexivity|split; [reflexivity|split; [discriminate|reflexivity]]]].
    intros b L. change (2 <= b) in L. cbn [heap mkworld]. destruct (N.eqb_spec b 0); [lia|]. destruct (N.eqb_spec b 1); [lia|reflexivity].
  - intros p E. injection E as <-. discriminate.
Qed.

(** C56.  Appending a string to itself works when it is empty ... *)
Theorem c56_append_self_empty_partial :
  forall (w : world N) s, sreached w s [] ->
    exists w' s', sappend_self s w = Ok (ST_SUCCESS, s') w' /\ sshows w' s' [].
Proof. exact append_self_empty. Qed.
Print Assumptions c56_append_self_empty_partial.
(** ... and never otherwise: the source's size is read again after the destination was resized, so the copied ranges
    overlap. *)
Theorem c56_append_self_refuted :
  forall (w : world N) s cs, sreached_own w s cs -> sroom (2 * nlen cs) -> 1 <= nlen cs ->
    sappend_self s w = Fault Overlapping.
Proof. exact append_self_faults. Qed.
Print Assumptions c56_append_self_refuted.
Example c56_hypotheses_met : exists w s, sreached_own w s [97;98] /\ sroom (2 * nlen [97;98]) /\ 1 <= nlen [97;98].
Proof.
  destruct (sreach_any [97;98]) as (w & s & H); [reflexivity|]. exists w, s. split; [exact H|]. split; [reflexivity|discriminate].
Qed.
Example c56_empty_hypotheses_met : exists w s, sreached w s [].
Proof. destruct (sreach_any []) as (w & s & H); [reflexivity|]. exists w, s. now left. Qed.

(** C57.  RPos on views that are not NUL-terminated is c18_rpos; LPos and Compare are in c57_*_refuted.  GetChar:
    c15_get_char_partial. *)

(** C58.  An Append that needs memory and does not get it reports the allocator's status and leaves the string and
    all memory as they were.  Missing: the capacity (c58_append_failure_refuted). *)
Theorem c58_append_failure_partial :
  forall (w : world N) s cs x orc' st,
    sreached_own w s cs -> sroom (nlen cs + nlen x) ->
    (forall c, sget_capacity s w = Ok (ST_SUCCESS, c) w -> c < nlen cs + nlen x) -> orc' (tick w) = AFail st ->
    exists s' w', run_sop s (SAppend x) (with_oracle w orc') = Ok (err_status st, s') w' /\ sshows w' s' cs /\
      (forall b, heap w' b = heap w b).
Proof. exact append_fail. Qed.
Print Assumptions c58_append_failure_partial.
Example c58_hypotheses_met : exists s w,
  sinit_ex 0 true 2 4 (text_world []) = Ok (ST_SUCCESS, Some s) w /\ sreached_own w s [] /\
  sroom (nlen (@nil N) + nlen (repeat 97 33)) /\
  forall c, sget_capacity s w = Ok (ST_SUCCESS, c) w -> c < nlen (@nil N) + nlen (repeat 97 33).
Proof.
  assert (A : sinit_args_ok (text_world []) 0 2 4) by (apply sinit_args_example; [lia|lia|reflexivity]).
  destruct (growable_string (text_world []) 0 2 4 [] A) as (s0 & w1 & rs & s1 & w2 & cs & E1 & E2 & K & SH & _).
  { constructor. } { reflexivity. }
  inversion K; subst. cbn in E2. injection E2 as <- <-.
  exists s0, w1. split; [exact E1|]. split; [|split; [reflexivity|]].
  - exists (text_world []), 0, 2, 4, s0, w1, [], []. split; [exact A|]. split; [constructor|]. split; [reflexivity|].
    split; [exact E1|]. split; [reflexivity|exact SH].
  - intros c. vm_compute in E1. injection E1 as <- <-. vm_compute. intros X. now injection X as <-.
Qed.

(** C59.  Calls whose position or range is not inside the string report OUT_OF_RANGE and change nothing.  Missing:
    sums that wrap around (c59_delete_wrap_refuted) and Insert one position behind the terminator
    (c59_insert_past_end_refuted). *)
Theorem c59_range_checks_partial :
  forall (w : world N) s cs o,
    sreached w s cs -> sums_ok o -> sroom (nlen cs + sdemand o) -> bad_range o cs = true ->
    exists s' w', run_sop s o w = Ok (ST_OUT_OF_RANGE, s') w' /\ sshows w' s' cs.
Proof. exact range_checks. Qed.
Print Assumptions c59_range_checks_partial.
Example c59_hypotheses_met : exists w s, sreached w s [97;98] /\ sums_ok (SDelete 1 2) /\
  sroom (nlen [97;98] + sdemand (SDelete 1 2)) /\ bad_range (SDelete 1 2) [97;98] = true /\
  bad_range (SInsert 4 [99]) [97;98] = true.
Proof.
  destruct (sreach_any [97;98]) as (w & s & H); [reflexivity|]. exists w, s. split; [now left|]. now repeat split.
Qed.
