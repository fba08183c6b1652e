(** Property C102: the memory requests of lists, and what their answers lead to. *)
From Verif Require Import Base Status VectorModel VectorDriver ListModel ListSpec ListDriver ListExamples ListAskSpec ListAskProofs ListAskExamples Mem.

(** PushBack, PushFront, EmplaceBack and EmplaceFront of a growable list make exactly one request, whose answer is their answer:
    SUCCESS if it is granted, and then the element is in the list; otherwise the status of the refusal, and the list is as it was. *)
Theorem c102_add :
  forall (w : world cell) l ps xs o,
    lreached None w l xs -> lshows w l ps xs -> larg_ok (l_esz l) o -> nlen xs + 1 < W64 -> adds_one o = true ->
    exists r l' w' ps' xs' gone new, run_lop l o w = Ok (r, l') w' /\ tick w' = tick w + 1 /\
      ((grants w (tick w) /\ r = ST_SUCCESS) \/ (exists c, refuses w (tick w) c /\ r = err_status c)) /\
      lspec (l_esz l) None (fails w) o xs r xs' gone new /\ lshows w' l' ps' xs' /\ lnodes o r ps ps'.
Proof. exact ask_add. Qed.
Print Assumptions c102_add.
(** All other calls make no request and so depend on no answer: Pop, Clear, SetNodeData, Resize to fewer elements, and every
    call on a list in a caller's buffer. *)
Theorem c102_no_request :
  forall limit (w : world cell) l ps xs o,
    lreached limit w l xs -> lshows w l ps xs -> larg_ok (l_esz l) o -> nlen xs + ldemand o < W64 ->
    limit <> None \/ adds_some (nlen xs) o = false ->
    exists r l' w' ps' xs' gone new, run_lop l o w = Ok (r, l') w' /\ tick w' = tick w /\
      lspec (l_esz l) limit False o xs r xs' gone new /\ lshows w' l' ps' xs' /\ lnodes o r ps ps'.
Proof. exact ask_none. Qed.
Print Assumptions c102_no_request.
Example c102_add_met :
  exists (w : world cell) l ps, lreached None w l [el 1 2; el 3 4] /\ lshows w l ps [el 1 2; el 3 4] /\
    larg_ok (l_esz l) (LPushFront (el 5 6)) /\ adds_one (LPushFront (el 5 6)) = true /\
    larg_ok (l_esz l) (@LResize cell 1 None) /\ adds_some 2 (@LResize cell 1 None) = false.
Proof.
  destruct (lreached_any 2 [el 1 2; el 3 4]) as (w & l & ps & R & SH & E); [discriminate|reflexivity|repeat constructor|reflexivity|].
  exists w, l, ps. rewrite E. repeat split; auto; apply SH.
Qed.

(** Resize of a growable list to more elements makes one request for each, in order: it succeeds if all are granted ... *)
Theorem c102_resize_granted :
  forall (w : world cell) l ps xs n init,
    lreached None w l xs -> lshows w l ps xs -> size_ok (l_esz l) init -> nlen xs + n < W64 ->
    nlen xs < n -> grants_next w (n - nlen xs) ->
    exists l' w' qs new, run_lop l (LResize n init) w = Ok (ST_SUCCESS, l') w' /\ nlen (xs ++ new) = n /\
      lshows w' l' (ps ++ qs) (xs ++ new) /\ Forall (initialised (l_esz l) init) new /\ tick w' = tick w + (n - nlen xs).
Proof. exact resize_succeeds. Qed.
Print Assumptions c102_resize_granted.
(** ... and if [k] are granted and the next one is refused, it fails with the status of the refusal and leaves [k] more elements
    than before.  For [k] > 0 this refutes C63: for every list a Resize that fails late leaves a changed list. *)
Theorem c102_resize_refused_refuted :
  forall (w : world cell) l ps xs n init k c,
    lreached None w l xs -> lshows w l ps xs -> size_ok (l_esz l) init -> nlen xs + n < W64 ->
    nlen xs + k < n -> grants_next w k -> refuses w (tick w + k) c ->
    exists l' w' qs new, run_lop l (LResize n init) w = Ok (err_status c, l') w' /\ nlen new = k /\
      lshows w' l' (ps ++ qs) (xs ++ new) /\ Forall (initialised (l_esz l) init) new /\ tick w' = tick w + k + 1.
Proof. exact resize_fails. Qed.
Print Assumptions c102_resize_refused_refuted.
(** In a caller's buffer a Resize to more elements than fit fails, and fills the buffer. *)
Theorem c102_resize_full_refuted :
  forall k (w : world cell) l ps xs n init,
    lreached (Some k) w l xs -> lshows w l ps xs -> size_ok (l_esz l) init -> nlen xs + n < W64 -> k < n ->
    exists l' w' qs new, run_lop l (LResize n init) w = Ok (ST_INSUFFICIENT_BUFFER_SIZE, l') w' /\ nlen (xs ++ new) = k /\
      lshows w' l' (ps ++ qs) (xs ++ new) /\ Forall (initialised (l_esz l) init) new /\ tick w' = tick w.
Proof. exact resize_full. Qed.
Print Assumptions c102_resize_full_refuted.
Example c102_resize_met :
  (exists (w : world cell) l ps, lreached None w l [el 1 1] /\ lshows w l ps [el 1 1] /\ l_esz l = 2 /\
     grants_next w 2 /\ refuses w (tick w + 2) 7) /\
  (exists (w : world cell) l ps, lreached (Some 3) w l [el 1 1] /\ lshows w l ps [el 1 1] /\ l_esz l = 2).
Proof. split; [exact list_refusing|exact list_in_buffer]. Qed.
