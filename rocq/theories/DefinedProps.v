(** C15, for views defined by the macro ZYAN_DEFINE_STRING_VIEW. *)
From Verif Require Import Base Status Mem VectorModel StringModel StringSpec StringDriver StringExamples DefinedModel DefinedProofs.
From Coq Require Import ZifyBool ZifyNat ZifyN.
Import ListNotations.

(** C15.  The view that the macro makes of an array holding a text and its NUL (a string literal, say; the text may
    contain further NUL characters) shows that text: GetSize, GetData and GetChar at every index answer accordingly. *)
Theorem c15_defined_view :
  forall w b a x z, heap w b = Some (a ++ x ++ 0 :: z) -> nlen x + 1 < W64 ->
  let q := defined_view (AnArray (nlen x + 1)) (Some (mkptr b (nlen a))) in
  views w q x /\ view_get_size q w = Ok (ST_SUCCESS, nlen x) w /\ view_get_data q = (ST_SUCCESS, Some (mkptr b (nlen a))) /\
  forall i, i < W64 ->
    sget_char q i w = Ok (match nnth i x with Some c => (ST_SUCCESS, Some c) | None => (ST_OUT_OF_RANGE, None) end) w.
Proof. exact defined_array. Qed.
Print Assumptions c15_defined_view.

Example c15_defined_view_met :
  exists (w : world N), heap w 0 = Some ([7] ++ [65; 0; 66] ++ 0 :: [9]) /\ nlen [65; 0; 66] + 1 < W64.
Proof. exists (mkbuild (fun b => if b =? 0 then Some [7; 65; 0; 66; 0; 9] else None) 1 (fun _ => AFail 0) 0 [] false). now vm_compute. Qed.

(** C15, the documented parameter ("The C-style string") taken literally: for a pointer to a C string the macro makes a
    view of seven characters, whatever the text.  The characters of a longer text from the eighth on are out of range;
    with a shorter one at the end of its memory, GetChar at an index below the size leaves that memory. *)
Theorem c15_defined_pointer_refuted :
  forall w b a x z, heap w b = Some (a ++ x ++ 0 :: z) ->
  let q := defined_view APointer (Some (mkptr b (nlen a))) in
  view_get_size q w = Ok (ST_SUCCESS, 7) w /\
  (forall i, 7 <= i -> i < W64 -> sget_char q i w = Ok (ST_OUT_OF_RANGE, None) w) /\
  (forall i, nlen x < i -> i < 7 -> z = [] -> sget_char q i w = Fault OutOfBounds).
Proof. exact defined_pointer. Qed.
Print Assumptions c15_defined_pointer_refuted.

Example c15_defined_pointer_refuted_met :
  exists (w : world N), heap w 0 = Some ([] ++ [65; 66] ++ 0 :: []) /\ nlen [65; 66] < 3 /\ nlen [65; 66] <> 7.
Proof. exists (mkbuild (fun b => if b =? 0 then Some [65; 66; 0] else None) 1 (fun _ => AFail 0) 0 [] false). repeat split; vm_compute; congruence. Qed.
