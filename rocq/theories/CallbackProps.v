(** C91: how the searches call the client's comparison function. *)
From Verif Require Import Base NListFacts Status VectorModel VectorSpec VectorDriver VectorRefine VectorFinal VectorExamples
  CallbackModel CallbackSpec CallbackProofs Mem.

(** C91, Find.  The comparison sees the elements of the range one after the other, from the first one on,
    each once, with the element on the left and the key on the right, and the search stops at the first
    answer "equal". *)
Theorem c91_find_calls :
  forall (C A : Type) (w : world C) v xs y cmp (f : A -> list C -> list C -> bool * A) i n a,
    reached w v xs -> nlen y = v_esz v -> looks (v_esz v) cmp f -> i + n <= nlen xs -> i < nlen xs ->
    exists r k a' js rs w', with_arg y (fun p => vfind_ex_by v p cmp i n a) w = Ok (r, k, a') w' /\
      called f xs y a js rs a' /\ (forall t j, nnth t js = Some j -> j = i + t) /\
      match k with
      | Some k => r = ST_TRUE /\ k = i + nlen js - 1 /\ nlen js <= n /\
                  exists rs0, rs = rs0 ++ [true] /\ Forall (eq false) rs0
      | None => r = ST_FALSE /\ nlen js = n /\ Forall (eq false) rs
      end /\ (forall b, heap w' b = heap w b) /\ dlog w' = dlog w.
Proof. exact @find_calls. Qed.
Print Assumptions c91_find_calls.
Theorem c91_find_all_calls :
  forall (C A : Type) (w : world C) v xs y cmp (f : A -> list C -> list C -> bool * A) a,
    reached w v xs -> nlen y = v_esz v -> looks (v_esz v) cmp f -> xs <> [] ->
    exists r k a' js rs w', with_arg y (fun p => vfind_by v p cmp a) w = Ok (r, k, a') w' /\
      called f xs y a js rs a' /\ (forall t j, nnth t js = Some j -> j = t) /\
      match k with
      | Some k => r = ST_TRUE /\ k = nlen js - 1 /\ nlen js <= nlen xs /\
                  exists rs0, rs = rs0 ++ [true] /\ Forall (eq false) rs0
      | None => r = ST_FALSE /\ nlen js = nlen xs /\ Forall (eq false) rs
      end /\ (forall b, heap w' b = heap w b) /\ dlog w' = dlog w.
Proof. exact @find_all_calls. Qed.
Print Assumptions c91_find_all_calls.
Example c91_find_met : exists (w : world N) v,
  reached w v [[1;2];[3;4];[5;6]] /\ nlen [3;4] = v_esz v /\
  looks (v_esz v) (logging (fun x y => hd 0 x =? hd 0 y)) (logs (fun x y => hd 0 x =? hd 0 y)).
Proof.
  destruct ex_reached as (w & v & R & E & _). exists w, v. rewrite E.
  split; [left; exact R|]. split; [reflexivity|apply logging_looks].
Qed.
(** A search for [3;4] that writes down what the comparison was shown. *)
Example c91_find_example :
  answer_of (search_log (fun v p => vfind_by v p (logging (fun x y => hd 0 x =? hd 0 y)) [])) =
    Some (ST_TRUE, Some 1, [([1;2],[3;4]); ([3;4],[3;4])]).
Proof. vm_compute. reflexivity. Qed.

(** C91, BinarySearch, for any range, sorted or not, and any answers, consistent or not.  The comparison
    sees distinct elements of the range, with the element on the left and the key on the right, between
    floor(log2(n + 1)) and ceil(log2(n + 1)) of them; the status says whether one answer was "equal", and
    the index separates the elements that were said to be smaller than the key from the other ones. *)
Theorem c91_binary_search_calls :
  forall (C A : Type) (w : world C) v xs y cmp (f : A -> list C -> list C -> Z * A) i n a,
    reached w v xs -> nlen y = v_esz v -> looks (v_esz v) cmp f -> i + n <= nlen xs ->
    exists r k a' js rs w', with_arg y (fun p => vbinary_search_ex_by v p cmp i n a) w = Ok (r, Some k, a') w' /\
      called f xs y a js rs a' /\ NoDup js /\ Forall (fun j => i <= j < i + n) js /\
      N.log2 (n + 1) <= nlen js <= N.log2_up (n + 1) /\
      (r = ST_TRUE /\ In 0%Z rs \/ r = ST_FALSE /\ ~ In 0%Z rs) /\
      i <= k <= i + n /\ Forall2 (fun j c => (c < 0)%Z <-> j < k) js rs /\
      (k = i \/ In (k - 1) js) /\ (k = i + n \/ In k js) /\
      (forall b, heap w' b = heap w b) /\ dlog w' = dlog w.
Proof. exact @bsearch_calls. Qed.
Print Assumptions c91_binary_search_calls.
Theorem c91_binary_search_all_calls :
  forall (C A : Type) (w : world C) v xs y cmp (f : A -> list C -> list C -> Z * A) a,
    reached w v xs -> nlen y = v_esz v -> looks (v_esz v) cmp f ->
    exists r k a' js rs w', with_arg y (fun p => vbinary_search_by v p cmp a) w = Ok (r, Some k, a') w' /\
      called f xs y a js rs a' /\ NoDup js /\ Forall (fun j => j < nlen xs) js /\
      N.log2 (nlen xs + 1) <= nlen js <= N.log2_up (nlen xs + 1) /\
      (r = ST_TRUE /\ In 0%Z rs \/ r = ST_FALSE /\ ~ In 0%Z rs) /\
      k <= nlen xs /\ Forall2 (fun j c => (c < 0)%Z <-> j < k) js rs /\
      (k = 0 \/ In (k - 1) js) /\ (k = nlen xs \/ In k js) /\
      (forall b, heap w' b = heap w b) /\ dlog w' = dlog w.
Proof. exact @bsearch_all_calls. Qed.
Print Assumptions c91_binary_search_all_calls.
Example c91_binary_search_met : exists (w : world N) v,
  reached w v [[1;2];[3;4];[5;6]] /\ nlen [4;0] = v_esz v /\
  looks (v_esz v) (logging first_byte_cmp) (logs first_byte_cmp).
Proof.
  destruct ex_reached as (w & v & R & E & _). exists w, v. rewrite E.
  split; [left; exact R|]. split; [reflexivity|apply logging_looks].
Qed.
Example c91_binary_search_example :
  answer_of (search_log (fun v p => vbinary_search_by v p (logging first_byte_cmp) [])) =
    Some (ST_TRUE, Some 1, [([3;4],[3;4]); ([1;2],[3;4])]).
Proof. vm_compute. reflexivity. Qed.

(** C91.  For a range that is refused, the comparison, whatever it does, is not called. *)
Theorem c91_refused_ranges :
  forall (C A : Type) (w : world C) v xs y i n (a : A),
    reached w v xs -> i + n < W64 ->
    (forall cmp : callback bool, nlen xs < i + n \/ i = nlen xs ->
       exists w', with_arg y (fun p => vfind_ex_by v p cmp i n a) w = Ok (ST_OUT_OF_RANGE, None, a) w' /\
         (forall b, heap w' b = heap w b) /\ dlog w' = dlog w) /\
    (forall cmp : callback Z, nlen xs < i + n ->
       exists w', with_arg y (fun p => vbinary_search_ex_by v p cmp i n a) w = Ok (ST_OUT_OF_RANGE, None, a) w' /\
         (forall b, heap w' b = heap w b) /\ dlog w' = dlog w).
Proof. exact @refused_calls. Qed.
Print Assumptions c91_refused_ranges.
Example c91_refused_met : exists (w : world N) v, reached w v [[1;2];[3;4];[5;6]] /\ 2 + 2 < W64 /\ 3 < 2 + 2.
Proof. destruct ex_reached as (w & v & R & _). exists w, v. split; [left; exact R|]. split; reflexivity. Qed.

(** C91.  A comparison that only reads its arguments makes the searches of VectorModel.v, about which
    C07 and C08 speak. *)
Theorem c91_models_agree :
  forall (C A : Type) v p (w : world C) (a : A) i n,
    (forall g, vfind_ex_by v p (reading (v_esz v) g) i n a w =
       (let* (r, k) := vfind_ex v p g i n in ret (r, k, a)) w) /\
    (forall g, vbinary_search_ex_by v p (reading (v_esz v) g) i n a w =
       (let* (r, k) := vbinary_search_ex v p g i n in ret (r, k, a)) w).
Proof. exact @callbacks_agree. Qed.
Print Assumptions c91_models_agree.
