(** Proofs about views defined by the macro ZYAN_DEFINE_STRING_VIEW. *)
From Verif Require Import Base NListFacts Status Mem MemFacts VectorModel VectorDriver StringModel StringSpec StringDriver StringProofs StringFinal StringFinal2
  DefinedModel.
From Coq Require Import ZifyBool ZifyNat ZifyN.
Import ListNotations.

Lemma defined_size k p w : 1 <= sizeof_source k -> sizeof_source k < W64 ->
  view_get_size (defined_view k p) w = Ok (ST_SUCCESS, sizeof_source k - 1) w.
Proof.
  intros L U. unfold view_get_size, defined_view, define_view, ssize. cbn [s_vec v_size]. unfold bind, assert, ret.
  destruct (N.leb_spec 1 (sizeof_source k)); [|lia]. now rewrite wsub_small by lia.
Qed.
Lemma defined_part w k b a x z : heap w b = Some (a ++ x ++ z) -> sizeof_source k = nlen x + 1 -> nlen x + 1 < W64 ->
  views_part w (defined_view k (Some (mkptr b (nlen a)))) x.
Proof.
  intros H E L. split; [exact E|]. split; [exact L|].
  apply (mread_mid w b (nlen a) (nlen x) a x z H); reflexivity.
Qed.
Lemma defined_char w k b a x z i : heap w b = Some (a ++ x ++ z) -> sizeof_source k = nlen x + 1 -> nlen x + 1 < W64 -> i < W64 ->
  sget_char (defined_view k (Some (mkptr b (nlen a)))) i w =
  Ok (match nnth i x with Some c => (ST_SUCCESS, Some c) | None => (ST_OUT_OF_RANGE, None) end) w.
Proof. intros H E L LI. apply get_char_view; [|reflexivity|exact LI]. now apply (defined_part w k b a x z). Qed.
Lemma defined_array w b a x z : heap w b = Some (a ++ x ++ 0 :: z) -> nlen x + 1 < W64 ->
  let q := defined_view (AnArray (nlen x + 1)) (Some (mkptr b (nlen a))) in
  views w q x /\ view_get_size q w = Ok (ST_SUCCESS, nlen x) w /\ view_get_data q = (ST_SUCCESS, Some (mkptr b (nlen a))) /\
  forall i, i < W64 ->
    sget_char q i w = Ok (match nnth i x with Some c => (ST_SUCCESS, Some c) | None => (ST_OUT_OF_RANGE, None) end) w.
Proof.
  intros H L q. split; [|split; [|split]].
  - split; [reflexivity|]. split; [exact L|]. apply (mread_mid w b (nlen a) (nlen x + 1) a (x ++ [0]) z).
    + rewrite H. now rewrite <- app_assoc.
    + reflexivity.
    + now rewrite nlen_app.
  - unfold q. rewrite defined_size by (cbn; lia). cbn [sizeof_source]. do 2 f_equal. f_equal. lia.
  - reflexivity.
  - intros i LI. now apply (defined_char w _ b a x (0 :: z)).
Qed.

Lemma defined_pointer w b a x z : heap w b = Some (a ++ x ++ 0 :: z) ->
  let q := defined_view APointer (Some (mkptr b (nlen a))) in
  view_get_size q w = Ok (ST_SUCCESS, 7) w /\
  (forall i, 7 <= i -> i < W64 -> sget_char q i w = Ok (ST_OUT_OF_RANGE, None) w) /\
  (forall i, nlen x < i -> i < 7 -> z = [] -> sget_char q i w = Fault OutOfBounds).
Proof.
  intros H q. split; [|split].
  - unfold q. rewrite defined_size by (unfold W64; cbn; lia). reflexivity.
  - intros i LI U. unfold sget_char. change (ssize q) with 8.
    destruct (N.eq_dec i (W64 - 1)) as [->|NE].
    + vm_compute. reflexivity.
    + rewrite wadd_small by lia. destruct (N.leb_spec 8 (i + 1)); [reflexivity|lia].
  - intros i L U ->. unfold sget_char. change (ssize q) with 8.
    rewrite wadd_small by (unfold W64; lia). destruct (N.leb_spec 8 (i + 1)); [lia|].
    unfold vget_pointer. change (v_size (s_vec q)) with 8. destruct (N.leb_spec 8 i); [lia|].
    unfold assert_valid, offset. cbn [q s_vec defined_view define_view v_data v_esz]. unfold bind, assert, ret. cbn [nonnull].
    change (negb (1 =? 0)) with true. cbv iota. rewrite wmul_small by (unfold W64; lia).
    change (negb (st_success ST_SUCCESS)) with false. cbv iota.
    unfold mread1, bind, mread. cbn [padd pb po]. rewrite H.
    rewrite !nlen_app. change (nlen [0]) with 1.
    match goal with |- context [?u <=? ?v] => destruct (N.leb_spec u v); [lia|] end. reflexivity.
Qed.
