(** Property C100: searching and comparing views of parts of larger texts, exactly. *)
From Verif Require Import Base Status VectorModel StringModel StringSpec StringDriver StringExamples ViewSpec ViewProofs Mem.

(** Compare and CompareI of two views, each followed by a byte that can be read: the shorter text is the smaller one; of
    texts of equal length the first pair of characters that are not alike decides, and if there is none, the bytes behind the
    texts do. *)
Theorem c100_compare :
  forall (w : world N) (v1 v2 : view) x y c d, views_next w v1 x c -> views_next w v2 y d ->
    scompare eq_cs v1 v2 w = Ok (views_order same x y c d) w.
Proof. exact compare_cs_next. Qed.
Print Assumptions c100_compare.
Theorem c100_compare_i :
  forall (w : world N) (v1 v2 : view) x y c d, views_next w v1 x c -> views_next w v2 y d ->
    scompare eq_ci v1 v2 w = Ok (views_order same5 x y c d) w.
Proof. exact compare_ci_next. Qed.
Print Assumptions c100_compare_i.
Example c100_compare_met : exists (w : world N) (u v : view), views_next w u [97;98] 99 /\ views_next w v [97;98] 100 /\
  views_order same [97;98] [97;98] 99 100 = (ST_FALSE, (-1)%Z) /\ views_order same [97;98] [97;90] 0 0 = (ST_FALSE, (-1)%Z) /\
  views_order same5 [97;98] [65;66] 0 0 = (ST_TRUE, 0%Z).
Proof.
  exists (text_world [97;98;99;97;98;100]), (text_view 0 3), (text_view 3 3). repeat split.
Qed.

(** Hence equal texts followed by different bytes are always reported as different ... *)
Theorem c100_compare_refuted :
  forall (w : world N) (v1 v2 : view) x c d, c <> d -> views_next w v1 x c -> views_next w v2 x d ->
    exists r, scompare eq_cs v1 v2 w = Ok (ST_FALSE, r) w /\ (r = 1 \/ r = -1)%Z.
Proof. exact compare_same_next. Qed.
Print Assumptions c100_compare_refuted.
Example c100_compare_refuted_met : exists (w : world N) (u v : view), views_next w u [97;98] 99 /\ views_next w v [97;98] 100.
Proof. exists (text_world [97;98;99;97;98;100]), (text_view 0 3), (text_view 3 3). repeat split. Qed.
(** ... and comparing equal texts reads outside the memory if the memory ends with the first one. *)
Theorem c100_compare_outside_refuted :
  forall (w : world N) (v1 v2 : view) x, views_end w v1 x -> views_part w v2 x -> scompare eq_cs v1 v2 w = Fault OutOfBounds.
Proof. exact compare_cs_end. Qed.
Print Assumptions c100_compare_outside_refuted.
Theorem c100_compare_i_outside_refuted :
  forall (w : world N) (v1 v2 : view) x y, views_end w v1 x -> views_part w v2 y ->
    Forall2 (fun a b => same5 a b = true) x y -> scompare eq_ci v1 v2 w = Fault OutOfBounds.
Proof. exact compare_ci_end. Qed.
Print Assumptions c100_compare_i_outside_refuted.
Example c100_compare_outside_met : exists (w : world N) (u v : view), views_end w u [97;98] /\ views_part w v [97;98] /\
  Forall2 (fun a b => same5 a b = true) [97;98] [65;66].
Proof.
  exists (text_world [97;98;99;97;98]), (text_view 3 3), (text_view 0 3). split; [|split; [now repeat split|now repeat constructor]].
  split; [reflexivity|]. split; [reflexivity|]. now exists 0, [97;98;99].
Qed.

(** LPosEx and LPosExI find the first occurrence not of the characters the needle shows but of the characters that lie between
    its address and the next NUL character; the size of the needle only matters for the answer FALSE when it exceeds the
    haystack's.  The haystack may be followed by any byte that can be read. *)
Theorem c100_lpos_ex :
  forall (w : world N) (hay needle : view) n x c z index count,
    views_next w hay x c -> views_text w needle n z -> 1 <= n -> 1 <= nlen z -> index + count < W64 ->
    exists st r, slpos_ex eq_cs hay needle index count w = Ok (st, r) w /\
      (nlen x < index + count -> st = ST_OUT_OF_RANGE /\ r = None) /\
      (index + count <= nlen x -> nlen x < n -> st = ST_FALSE /\ r = None) /\
      (index + count <= nlen x -> n <= nlen x -> found st r /\ first_occurrence eq x z index (index + count) r).
Proof. exact lpos_cs_next. Qed.
Print Assumptions c100_lpos_ex.
Theorem c100_lpos_ex_i :
  forall (w : world N) (hay needle : view) n x c z index count,
    views_next w hay x c -> views_text w needle n z -> 1 <= n -> 1 <= nlen z -> index + count < W64 ->
    exists st r, slpos_ex eq_ci hay needle index count w = Ok (st, r) w /\
      (nlen x < index + count -> st = ST_OUT_OF_RANGE /\ r = None) /\
      (index + count <= nlen x -> nlen x < n -> st = ST_FALSE /\ r = None) /\
      (index + count <= nlen x -> n <= nlen x -> found st r /\ first_occurrence same_but_bit5 x z index (index + count) r).
Proof. exact lpos_ci_next. Qed.
Print Assumptions c100_lpos_ex_i.
Example c100_lpos_ex_met : exists (w : world N) (hay needle : view), views_next w hay [97;98;99] 100 /\ views_text w needle 1 [98;99] /\
  1 <= nlen [98;99] /\ 0 + 3 < W64.
Proof.
  exists (text_world [97;98;99;100;98;99;0]), (text_view 0 4), (text_view 4 2). split; [now repeat split|].
  split; [|now split]. split; [reflexivity|]. split; [reflexivity|]. split; [|reflexivity]. intros [|[|[]]]; discriminate.
Qed.

(** Hence a needle that is the beginning of a longer text is not even found in the haystack that equals it ... *)
Theorem c100_lpos_continued_refuted :
  forall (w : world N) (hay needle : view) y t c, views_next w hay y c -> views_text w needle (nlen y) (y ++ t) ->
    1 <= nlen y -> 1 <= nlen t -> slpos eq_cs hay needle w = Ok (ST_FALSE, None) w.
Proof. exact lpos_continued. Qed.
Print Assumptions c100_lpos_continued_refuted.
Example c100_lpos_continued_met : exists (w : world N) (hay needle : view), views_next w hay [97;98] 0 /\ views_text w needle 2 ([97;98] ++ [99]).
Proof.
  exists (text_world [97;98;0;97;98;99;0]), (text_view 0 3), (text_view 3 3). split; [now repeat split|].
  split; [reflexivity|]. split; [reflexivity|]. split; [|reflexivity]. intros [|[|[|[]]]]; discriminate.
Qed.
(** ... a needle with an embedded NUL character is found wherever the characters before that one are ... *)
Theorem c100_lpos_embedded_refuted :
  forall (w : world N) (hay needle : view) y t u c, views_next w hay (y ++ u) c -> views_text w needle (nlen (y ++ [0] ++ t)) y ->
    1 <= nlen y -> nlen t + 1 <= nlen u -> slpos eq_cs hay needle w = Ok (ST_TRUE, Some 0) w.
Proof. exact lpos_embedded. Qed.
Print Assumptions c100_lpos_embedded_refuted.
Example c100_lpos_embedded_met : exists (w : world N) (hay needle : view), views_next w hay ([97] ++ [98;99]) 0 /\
  views_text w needle (nlen ([97] ++ [0] ++ [100])) [97] /\ nlen [100] + 1 <= nlen [98;99] /\ ~ occurs eq [97;98;99] [97;0;100] 0.
Proof.
  exists (text_world [97;98;99;0;97;0;100;0]), (text_view 0 4), (text_view 4 4). split; [now repeat split|].
  split; [split; [reflexivity|]; split; [reflexivity|]; split; [|reflexivity]; intros [|[]]; discriminate|]. split; [discriminate|].
  intros [_ O]. cbn in O. inversion O as [|? ? ? ? _ O1]. inversion O1. discriminate.
Qed.
(** ... and if the memory ends with the haystack, the search reads outside it whenever the haystack ends within a possible
    occurrence of the needle. *)
Theorem c100_lpos_outside_refuted :
  forall (w : world N) (hay needle : view) n x z i,
    views_end w hay x -> views_text w needle n z -> 1 <= n <= nlen x ->
    i < nlen x -> nlen x - i < nlen z -> ends_inside same x z i -> (forall j, j < i -> ~ occurs eq x z j) ->
    slpos eq_cs hay needle w = Fault OutOfBounds.
Proof. exact lpos_cs_end. Qed.
Print Assumptions c100_lpos_outside_refuted.
Example c100_lpos_outside_met : exists (w : world N) (hay needle : view), views_end w hay [97;98] /\ views_text w needle 2 [98;99] /\
  ends_inside same [97;98] [98;99] 1 /\ (forall j, j < 1 -> ~ occurs eq [97;98] [98;99] j).
Proof.
  exists (text_world [98;99;0;97;98]), (text_view 3 3), (text_view 0 3).
  split; [split; [reflexivity|]; split; [reflexivity|]; now exists 0, [98;99;0]|].
  split; [split; [reflexivity|]; split; [reflexivity|]; split; [|reflexivity]; intros [|[|[]]]; discriminate|].
  split; [now repeat constructor|]. intros j J [_ O]. assert (j = 0) as -> by (destruct j; [reflexivity|destruct p; discriminate J]).
  cbn in O. inversion O. discriminate.
Qed.
