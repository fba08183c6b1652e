(** Properties the code does not have, refuted for every vector, string and memory rather than for one run. *)
From Verif Require Import Base NListFacts Status VectorModel VectorSpec VectorDriver VectorFinal2 VectorExamples StringModel StringSpec
  StringDriver StringFinal StringFinal3 StringExamples LibCModel LibCSpec EveryProofs EveryProofs2 EveryProofs3 Mem.
From Coq Require Import ZifyBool ZifyNat ZifyN.

(** C07: an empty range at the end of any vector is refused, and so is every search in an empty vector. *)
Theorem c07_find_end_refuted :
  forall (C : Type) (w : world C) v xs p cmp, reached w v xs ->
    vfind_ex v p cmp (nlen xs) 0 w = Ok (ST_OUT_OF_RANGE, None) w.
Proof. exact @find_at_end. Qed.
Print Assumptions c07_find_end_refuted.
Theorem c07_find_nothing_refuted :
  forall (C : Type) (w : world C) v p cmp, reached w v [] -> vfind v p cmp w = Ok (ST_OUT_OF_RANGE, None) w.
Proof. exact @find_nothing. Qed.
Print Assumptions c07_find_nothing_refuted.
Example c07_find_met : exists w v, @reached N w v [].
Proof.
  destruct (reach_any 2 2 4 None [] 1) as (w & v & H & _); try lia; try exact I; try reflexivity; try (now constructor).
  exists w, v. now left.
Qed.

(** C10: a range whose end wraps around 2^64 is deleted "successfully", and the vector gets longer by what is
    missing to 2^64. *)
Theorem c10_delete_range_every_refuted :
  forall (C : Type) (w : world C) v xs i n r v' w', reached w v xs -> i < W64 -> nlen xs < n < W64 ->
    W64 <= i + n <= W64 + nlen xs -> vdelete_range v i n w = Ok (r, v') w' ->
    vget_size v' = (ST_SUCCESS, nlen xs + (W64 - n)).
Proof. exact @delete_range_wraps. Qed.
Print Assumptions c10_delete_range_every_refuted.
Example c10_delete_range_every_met : exists w v, @reached N w v [[1];[2];[3]] /\
  match vdelete_range v 1 (W64 - 1) w with Ok (r, v') _ => r = ST_SUCCESS /\ vget_size v' = (ST_SUCCESS, 4) | _ => False end.
Proof.
  eexists _, _. split; [left|].
  { exists world0, 1, 4, None, 2, 4. eexists _, _, [OPushBack [1]; OPushBack [2]; OPushBack [3]], _.
  split; [|split; [repeat constructor|split; [reflexivity|split; [vm_compute; reflexivity|split; [vm_compute; reflexivity|]]]]].
  + apply init_args_world0; try lia; [exact I|reflexivity].
  + split; [reflexivity|]. intros i. destruct i as [|p]; [now vm_compute|].
    destruct (N.lt_ge_cases (N.pos p) 3) as [L|L].
    * destruct p as [[p|p|]|[p|p|]|]; try lia; now vm_compute.
    * rewrite nnth_ge by exact L. destruct p as [[p|p|]|[p|p|]|]; try lia; reflexivity. }
  vm_compute. split; reflexivity.
Qed.
(** Inserting so many elements that the new size wraps around never gives an error: memory outside the storage is
    touched (or a debug assertion fails). *)
Theorem c10_insert_range_every_refuted :
  forall (C : Type) (w : world C) v xs i n p, reached_own w v xs -> i <= nlen xs -> W64 - nlen xs <= n < W64 ->
    snd (vget_capacity v) * v_esz v * 2 < W64 -> exists f, vinsert_range v i (Some p) n w = Fault f.
Proof. exact @insert_range_wraps. Qed.
Print Assumptions c10_insert_range_every_refuted.
Example c10_insert_range_every_met : exists w v, @reached_own N w v [[1;2];[3;4];[5;6]] /\
  snd (vget_capacity v) * v_esz v * 2 < W64.
Proof.
  destruct ex_reached as (w & v & H & E & _ & CP). exists w, v. split; [exact H|]. rewrite E, CP. reflexivity.
Qed.

(** C11: a failing constructor given to EmplaceEx in front of an element: the size stays, the last element is gone,
    what the constructor left is an element, and no destructor is called. *)
Theorem c11_emplace_ex_every_refuted :
  forall (C : Type) (w : world C) v xs f i,
    reached w v xs -> (nlen xs < snd (vget_capacity v) \/ reached_own w v xs) -> room (nlen xs + 1) (v_esz v) ->
    i < nlen xs -> (forall x, nlen x = v_esz v -> st_success (fst (f x)) = false /\ nlen (snd (f x)) = v_esz v) ->
    exists old v' w' p, nlen old = v_esz v /\ vemplace_ex v i (Some f) w = Ok (fst (f old), v', p) w' /\
      shows w' v' (nfirst (nlen xs) (nfirst i xs ++ [snd (f old)] ++ nskip i xs)) /\ dlog w' = dlog w.
Proof. exact @emplace_inside_fail. Qed.
Print Assumptions c11_emplace_ex_every_refuted.
Example c11_emplace_ex_every_met : exists w v, @reached N w v [[1;2];[3;4];[5;6]] /\ 3 < snd (vget_capacity v) /\
  room 4 (v_esz v) /\ (forall x : list N, nlen x = v_esz v -> st_success ST_FAILED = false /\ nlen [7;7] = v_esz v).
Proof.
  destruct ex_reached as (w & v & H & E & _ & CP). exists w, v. rewrite E, CP. split; [now left|].
  split; [reflexivity|]. split; [reflexivity|]. intros x _. split; reflexivity.
Qed.

(** C15: in a view whose struct holds the element size e, GetChar(i) is the character at i * e; with the element size
    0 an assertion fails, and without assertions every character is the first. *)
Theorem c15_get_char_scaled_refuted :
  forall (w : world N) (q : view) x i e c, views_part w q x -> v_esz (s_vec q) = e -> 1 <= e -> i < nlen x ->
    nnth (i * e) x = Some c -> sget_char q i w = Ok (ST_SUCCESS, Some c) w.
Proof. exact get_char_scaled. Qed.
Print Assumptions c15_get_char_scaled_refuted.
Theorem c15_get_char_zero_refuted :
  forall (w : world N) (q : view) x i, views_part w q x -> v_esz (s_vec q) = 0 -> i < nlen x ->
    sget_char q i w = if checked w then Fault AssertFailed else Ok (ST_SUCCESS, nnth 0 x) w.
Proof. exact get_char_zero. Qed.
Print Assumptions c15_get_char_zero_refuted.
Example c15_get_char_met : exists (w : world N) (q z : view), views_part w q [97;98;99] /\ v_esz (s_vec q) = 2 /\
  views_part w z [97;98;99] /\ v_esz (s_vec z) = 0.
Proof.
  exists (text_world [97;98;99;0]), (mkstr 0 (mkvec false 0 0 4 4 2 None (Some (mkptr 0 0)))),
    (mkstr 0 (mkvec false 0 0 4 4 0 None (Some (mkptr 0 0)))).
  repeat split.
Qed.

(** C17: a search range whose end wraps around 2^64 is taken for a valid range, and nothing is found. *)
Theorem c17_wrap_every_refuted :
  forall eqc (w : world N) hv nv hay needle index count, views w hv hay -> views w nv needle ->
    nlen hay < index < W64 -> count < W64 -> W64 <= index + count <= W64 + nlen hay ->
    slpos_ex eqc hv nv index count w = Ok (ST_FALSE, None) w.
Proof. exact lpos_wraps. Qed.
Print Assumptions c17_wrap_every_refuted.
Example c17_wrap_every_met : exists w hv nv, views w hv [97;98] /\ views w nv [98] /\
  nlen [97;98] < W64 - 1 < W64 /\ W64 <= W64 - 1 + 2 <= W64 + nlen [97;98].
Proof.
  exists (text_world [97;98;0;98;0]), (text_view 0 3), (text_view 3 2). repeat split; try (vm_compute; reflexivity); vm_compute; discriminate.
Qed.

(** C24: duplicating any nonempty string with the capacity 2^64 - 1 asks for no bytes and copies outside the storage. *)
Theorem c24_duplicate_every_refuted :
  forall (w : world N) q x, world_ok w -> allocator_ok w -> views w q x -> 1 <= nlen x ->
    sduplicate q (W64 - 1) w = Fault (if checked w then AssertFailed else OutOfBounds).
Proof. exact duplicate_wraps. Qed.
Print Assumptions c24_duplicate_every_refuted.
Example c24_duplicate_every_met : exists w q, world_ok w /\ allocator_ok w /\ views w q [97;98].
Proof.
  exists (text_world [97;98;0]), (text_view 0 3). destruct (text_world_ok [97;98;0]). split; [assumption|]. split; [assumption|]. repeat split.
Qed.

(** C48: two equal strings differ for strncmp if the bytes behind their terminators differ within the given length, and
    memory outside them is read when it ends before. *)
Theorem c48_strncmp_behind_refuted :
  forall m p q s c a b n, bytes_at m p (s ++ 0 :: c ++ [a]) -> bytes_at m q (s ++ 0 :: c ++ [b]) -> a <> b ->
    nlen (s ++ 0 :: c) < n -> strncmp p q n m = LOk (Z.of_N a - Z.of_N b)%Z m.
Proof. exact strncmp_behind. Qed.
Print Assumptions c48_strncmp_behind_refuted.
Example c48_strncmp_behind_met : let m := image 100 [97;0;5;1;97;0;5;2] in
  bytes_at m 100 ([97] ++ 0 :: [5] ++ [1]) /\ bytes_at m 104 ([97] ++ 0 :: [5] ++ [2]).
Proof. cbv zeta. repeat split; reflexivity. Qed.
Theorem c48_strncmp_outside_refuted :
  forall m p q s c n, bytes_at m p (s ++ 0 :: c) -> bytes_at m q (s ++ 0 :: c) -> m (p + nlen (s ++ 0 :: c)) = None ->
    nlen (s ++ 0 :: c) < n -> strncmp p q n m = LOob.
Proof. exact strncmp_outside. Qed.
Print Assumptions c48_strncmp_outside_refuted.
Example c48_strncmp_outside_met : let m := image 100 [97;0;97;0] in
  bytes_at m 102 ([97] ++ 0 :: []) /\ m (102 + nlen ([97] ++ 0 :: [])) = None.
Proof. cbv zeta. repeat split; reflexivity. Qed.
(** The empty string is never found in an empty string. *)
Theorem c48_strstr_every_refuted :
  forall m p q f, cstr m p [] -> cstr m q [] -> strstr (S f) p q m = LOk None m.
Proof. exact strstr_nothing. Qed.
Print Assumptions c48_strstr_every_refuted.
Example c48_strstr_every_met : cstr (image 100 [0;0]) 100 [] /\ cstr (image 100 [0;0]) 101 [].
Proof. repeat split; auto. Qed.
(** Any two strings are equal for strcoll. *)
Theorem c48_strcoll_every_refuted :
  forall m p q, strcoll p q m = LOk 0%Z m.
Proof. exact strcoll_stub. Qed.
Print Assumptions c48_strcoll_every_refuted.

(** C59: inserting one position behind the end appends, and a deleted range whose end wraps around makes the string
    longer. *)
Theorem c59_insert_past_end_every_refuted :
  forall (w : world N) s cs q, sreached w s cs -> sinsert s (nlen cs + 1) q w = sappend s q w.
Proof. exact insert_past_end. Qed.
Print Assumptions c59_insert_past_end_every_refuted.
Theorem c59_delete_every_refuted :
  forall (w : world N) s cs i n s' w', sreached w s cs -> i < W64 -> nlen cs + 1 < n < W64 ->
    W64 <= i + n <= W64 + nlen cs -> sdelete s i n w = Ok (ST_SUCCESS, s') w' ->
    sget_size s' w' = Ok (ST_SUCCESS, nlen cs + (W64 - n)) w'.
Proof. exact delete_wraps. Qed.
Print Assumptions c59_delete_every_refuted.
Example c59_every_met : exists w s, sreached w s [97;98;99] /\
  match sdelete s 1 (W64 - 1) w with
  | Ok (r, s') w' => r = ST_SUCCESS /\ result (sget_size s' w') = inr (ST_SUCCESS, 4)
  | _ => False
  end.
Proof.
  assert (A : sinit_args_ok (text_world []) 0 2 4) by (apply sinit_args_example; [lia|lia|reflexivity]).
  destruct (growable_string (text_world []) 0 2 4 [SAppend [97;98;99]] A) as (s0 & w1 & rs & s & w & cs & E & E2 & K & SH & _);
    [repeat constructor|reflexivity|].
  apply sspecs_append in K; [|reflexivity]. subst cs. exists w, s. split.
  - left. exists (text_world []), 0, 2, 4, s0, w1, [SAppend [97;98;99]], rs.
    split; [exact A|]. split; [repeat constructor|]. split; [reflexivity|]. auto.
  - assert (X : match sinit_ex 0 true 2 4 (text_world []) with
                | Ok (_, Some s0) w1 =>
                  match run_sops s0 [SAppend [97;98;99]] w1 with
                  | Ok (_, s) w =>
                    match sdelete s 1 (W64 - 1) w with
                    | Ok (r, s') w' => r = ST_SUCCESS /\ result (sget_size s' w') = inr (ST_SUCCESS, 4)
                    | _ => False
                    end
                  | _ => True
                  end
                | _ => True
                end) by (vm_compute; split; reflexivity).
    rewrite E, E2 in X. exact X.
Qed.
