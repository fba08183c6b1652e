(** String properties that the code does not have: concrete programs, evaluated by the kernel. *)
From Verif Require Import Base Status Mem VectorModel VectorSpec VectorDriver VectorExamples StringModel StringSpec
  StringDriver StringExamples StringFinal3.

(** C15 is false for GetChar: the functions that create a view leave the element size of the caller's struct as it
    was, and GetChar uses it.  With a struct full of 2s, GetChar(1) of the view "abc" is 'c'; with a zeroed struct
    it trips an assertion in a debug build and is 'a' in a release build. *)
Theorem c15_get_char_refuted :
  exists (w : world N) (junk zero : view),
    heap w 0 = Some [97;98;99;100] /\
    result (sget_char (snd (view_inside_buffer_ex junk (Some (mkptr 0 0)) 3)) 1 w) = inr (ST_SUCCESS, Some 99) /\
    result (sget_char (snd (view_inside_buffer_ex zero (Some (mkptr 0 0)) 3)) 1 w) = inl AssertFailed /\
    result (sget_char (snd (view_inside_buffer_ex zero (Some (mkptr 0 0)) 3)) 1 (release w)) = inr (ST_SUCCESS, Some 97).
Proof.
  exists (text_world [97;98;99;100]), (mkstr 2 (mkvec false 2 2 2 2 2 None (Some (mkptr 2 2)))),
    (mkstr 0 (mkvec false 0 0 0 0 0 None None)).
  split; [reflexivity|]. repeat split; vm_compute; reflexivity.
Qed.

(** C16 is false for InsideViewEx: the view of characters 1 and 2 of "abcd" has size 1, and the empty view of no
    characters has no valid size at all: GetSize fails an assertion, or reports 2^64 - 1 in a release build. *)
Theorem c16_inside_view_ex_refuted :
  exists (w : world N) (source : view),
    views w source [97;98;99;100] /\
    result (view_get_size (snd (view_inside_view_ex source source 1 2)) w) = inr (ST_SUCCESS, 1) /\
    result (view_get_size (snd (view_inside_view_ex source source 1 0)) w) = inl AssertFailed /\
    result (view_get_size (snd (view_inside_view_ex source source 1 0)) (release w)) = inr (ST_SUCCESS, W64 - 1).
Proof.
  exists (text_world [97;98;99;100;0]), (text_view 0 5).
  split; [now repeat split|]. repeat split; vm_compute; reflexivity.
Qed.

(** C17 is false when [index + count] wraps around: the range is accepted. *)
Theorem c17_wrap_refuted :
  exists (w : world N) (hay needle : view) (index count : N),
    views w hay [97;98] /\ views w needle [98] /\ index < W64 /\ count < W64 /\ 2 < index + count /\
    result (slpos_ex eq_cs hay needle index count w) = inr (ST_FALSE, None).
Proof.
  exists (text_world [97;98;0;98;0]), (text_view 0 3), (text_view 3 2), 18446744073709551615, 2.
  repeat split; vm_compute; reflexivity.
Qed.

(** C19 is false outside letters: '[' and '{' (0x5B, 0x7B), '@' and '`' (0x40, 0x60) are treated as the same
    character. *)
Theorem c19_case_insensitive_refuted :
  exists (w : world N) (bracket brace at_sign backtick : view),
    views w bracket [91] /\ views w brace [123] /\ views w at_sign [64] /\ views w backtick [96] /\
    result (slpos eq_ci bracket brace w) = inr (ST_TRUE, Some 0) /\
    result (srpos eq_ci bracket brace w) = inr (ST_TRUE, Some 0) /\
    result (scompare eq_ci at_sign backtick w) = inr (ST_TRUE, 0%Z).
Proof.
  exists (text_world [91;0;123;0;64;0;96;0]), (text_view 0 2), (text_view 2 2), (text_view 4 2), (text_view 6 2).
  repeat split; vm_compute; reflexivity.
Qed.

(** ... and so is every other character and the one that differs from it in bit 5 only, letters or not. *)
Theorem c19_every_character_refuted :
  forall (w : world N) u v c, c <> 0 -> c <> 32 -> views w u [c] -> views w v [N.lxor c 32] ->
    slpos eq_ci u v w = Ok (ST_TRUE, Some 0) w /\ srpos eq_ci u v w = Ok (ST_TRUE, Some 0) w /\
    scompare eq_ci u v w = Ok (ST_TRUE, 0%Z) w.
Proof. exact bit5_confused. Qed.
Print Assumptions c19_every_character_refuted.
Example c19_every_character_instance : exists (w : world N) u v, views w u [200] /\ views w v [N.lxor 200 32].
Proof. exists (text_world [200;0;232;0]), (text_view 0 2), (text_view 2 2). split; now repeat split. Qed.

(** C21 is false for Compare: "A" is greater than "a" and "a" is greater than "A". *)
Theorem c21_compare_refuted :
  exists (w : world N) (u v : view),
    views w u [65] /\ views w v [97] /\
    result (scompare eq_cs u v w) = inr (ST_FALSE, 1%Z) /\ result (scompare eq_cs v u w) = inr (ST_FALSE, 1%Z).
Proof.
  exists (text_world [65;0;97;0]), (text_view 0 2), (text_view 2 2).
  repeat split; vm_compute; reflexivity.
Qed.

(** ... and so it is for any two strings of equal length whose first different characters differ in bit 5 only: each is
    greater than the other. *)
Theorem c21_compare_every_refuted :
  forall (w : world N) v1 v2 p x s s', nlen s = nlen s' ->
    views w v1 (p ++ [x] ++ s) -> views w v2 (p ++ [N.lxor x 32] ++ s') ->
    scompare eq_cs v1 v2 w = Ok (ST_FALSE, 1%Z) w /\ scompare eq_cs v2 v1 w = Ok (ST_FALSE, 1%Z) w.
Proof. exact bit5_both_greater. Qed.
Print Assumptions c21_compare_every_refuted.
Example c21_compare_every_instance :
  exists (w : world N) v1 v2, views w v1 ([97] ++ [66] ++ [99]) /\ views w v2 ([97] ++ [N.lxor 66 32] ++ [67]).
Proof. exists (text_world [97;66;99;0;97;98;67;0]), (text_view 0 4), (text_view 4 4). split; now repeat split. Qed.

(** C23 is false: after Reserve(100) GetCapacity reports 99. *)
Theorem c23_reserve_refuted :
  exists (w : world N),
    result ((let* (rs, s) := start_sops 0 2 4 [SReserve 100] in
             let* c := sget_capacity s in ret (rs, c)) w) = inr ([ST_SUCCESS], (ST_SUCCESS, 99)).
Proof. exists world0. vm_compute. reflexivity. Qed.
(** ... and with the default shrink threshold the reserved space is given back by the next Append, which needs the
    allocator for that: request number 2 is made, and if it fails, so does Append. *)
Theorem c23_append_reallocates_refuted :
  exists (w w' : world N),
    result ((let* (rs, s) := start_sops 0 2 4 [SReserve 100; SAppend [97]] in
             let* c := sget_capacity s in ret (rs, c)) w) = inr ([ST_SUCCESS; ST_SUCCESS], (ST_SUCCESS, 3)) /\
    result ((let* (rs, s) := start_sops 0 2 4 [SReserve 100; SAppend [97]] in ret rs) w')
      = inr [ST_SUCCESS; err_status 7].
Proof. exists world0, (world_failing [2]). split; vm_compute; reflexivity. Qed.

(** C24 is false for the capacity 2^64 - 1: the capacity for the terminator wraps around, the string has room for no
    character, and Duplicate fails an assertion or, in a release build, writes outside the storage. *)
Theorem c24_capacity_wrap_refuted :
  exists (w : world N) (source : view),
    views w source [97;98] /\
    result (sduplicate source 18446744073709551615 w) = inl AssertFailed /\
    result (sduplicate source 18446744073709551615 (release w)) = inl OutOfBounds /\
    result ((let* (rs, s) := start_sops 18446744073709551615 2 4 [] in sget_capacity s) w) = inr (ST_SUCCESS, 0).
Proof.
  exists (text_world [97;98;0]), (text_view 0 3). split; [now repeat split|]. repeat split; vm_compute; reflexivity.
Qed.

(** C57 is false: LPos reads the byte after the haystack ... *)
Theorem c57_lpos_haystack_refuted :
  exists (w : world N) (hay needle : view),
    views_part w hay [97;98] /\ views w needle [98;99] /\ result (slpos eq_cs hay needle w) = inl OutOfBounds.
Proof.
  exists (mkworld (fun b => if b =? 0 then Some [97;98] else if b =? 1 then Some [98;99;0] else None) 2
            (fun _ => AOk (fun _ => 170)) 0 []), (text_view 0 3), (define_view (Some (mkptr 1 0)) 3).
  repeat split; vm_compute; reflexivity.
Qed.
(** ... and goes on matching after the end of the needle: "b" is not found in "ab" ... *)
Theorem c57_lpos_needle_refuted :
  exists (w : world N) (hay needle : view),
    views w hay [97;98] /\ views_part w needle [98] /\ result (slpos eq_cs hay needle w) = inr (ST_FALSE, None).
Proof.
  exists (text_world [97;98;0;98;99]), (text_view 0 3), (text_view 3 2).
  repeat split; vm_compute; reflexivity.
Qed.
(** ... and Compare takes the bytes after the strings into account: "ab" and "ab" differ. *)
Theorem c57_compare_refuted :
  exists (w : world N) (u v : view),
    views_part w u [97;98] /\ views_part w v [97;98] /\ result (scompare eq_cs u v w) = inr (ST_FALSE, (-1)%Z).
Proof.
  exists (text_world [97;98;99;97;98;100]), (text_view 0 3), (text_view 3 3).
  repeat split; vm_compute; reflexivity.
Qed.

(** C58 is false: after an Append whose allocation failed, GetCapacity reports the storage it did not get, and the
    next Append writes outside the storage. *)
Theorem c58_append_failure_refuted :
  exists (w : world N) (x : list N),
    result ((let* (rs, s) := start_sops 0 2 4 [SAppend x] in
             let* c := sget_capacity s in ret (rs, c)) w) = inr ([err_status 7], (ST_SUCCESS, 67)) /\
    result (start_sops 0 2 4 [SAppend x; SAppend x] w) = inl OutOfBounds.
Proof. exists (world_failing [1]), (repeat 97 33). split; vm_compute; reflexivity. Qed.

(** C59 is false when [index + count] wraps around: Delete(1, 2^64 - 1) of "abc" is accepted and the string grows to
    "aabc". *)
Theorem c59_delete_wrap_refuted :
  exists (w : world N) (i n : N), i < W64 /\ n < W64 /\ 3 < i + n /\
    result ((let* (rs, s) := start_sops 0 2 4 [SAppend [97;98;99]; SDelete i n] in
             let* c := sget_size s in let* d := mread (snd (sget_data s)) (snd c + 1) in ret (rs, c, d)) w)
    = inr ([ST_SUCCESS; ST_SUCCESS], (ST_SUCCESS, 4), [97;97;98;99;0]).
Proof.
  exists world0, 1, 18446744073709551615. repeat (split; [reflexivity|]). vm_compute. reflexivity.
Qed.
(** ... and Insert at a position behind the terminator is accepted, as an Append. *)
Theorem c59_insert_past_end_refuted :
  exists (w : world N) (i : N), 3 < i /\
    result ((let* (rs, s) := start_sops 0 2 4 [SAppend [97;98;99]; SInsert i [120]] in
             let* c := sget_size s in let* d := mread (snd (sget_data s)) (snd c + 1) in ret (rs, c, d)) w)
    = inr ([ST_SUCCESS; ST_SUCCESS], (ST_SUCCESS, 4), [97;98;99;120;0]).
Proof. exists world0, 4. split; [reflexivity|]. vm_compute. reflexivity. Qed.
