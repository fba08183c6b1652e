(** Sessions used in examples.  No model code here. *)
From Verif Require Import Base NListFacts Status Mem MemFacts VectorModel VectorSpec VectorDriver StringModel StringSpec
  StringDriver BitsetModel BitsetSpec BitsetDriver ListModel ListSpec ListDriver ListExamples UndoSpec.
From Coq Require Import ZifyBool ZifyNat ZifyN.

Definition vector_calls : list (vop N) :=
  [OPushBack [7;8]; OInsert 1 [9;9]; ODelete 0; OSet 2 [0;0]; OResizeEx 6 [1;1]; OReserve 20; ODeleteRange 1 2; OClear].
Definition vector_undos : list (vop N) :=
  [OInsertRange 0 [[9;9];[7;8];[1;1];[1;1]]; OInsertRange 1 [[3;4];[0;0]]; OShrinkToFit; OResize 4; OSet 2 [5;6]; OInsert 0 [1;2]; ODelete 1; OPopBack].
Lemma vector_session : session vundo [[1;2];[3;4];[5;6]] vector_calls vector_undos [].
Proof.
  refine (session_cons _ _ _ _ _ _ (_ :: _ :: _ :: _ :: _ :: _ :: _ :: []) _ (vundo_push _ _) _).
  refine (session_cons _ _ _ _ _ _ (_ :: _ :: _ :: _ :: _ :: _ :: []) _ (vundo_insert [[1;2]] _ _) _).
  refine (session_cons _ _ _ _ _ _ (_ :: _ :: _ :: _ :: _ :: []) _ (vundo_delete [] _ _) _).
  refine (session_cons _ _ _ _ _ _ (_ :: _ :: _ :: _ :: []) _ (vundo_set [[9;9];[3;4]] _ _ _) _).
  refine (session_cons _ _ _ _ _ _ (_ :: _ :: _ :: []) _ (vundo_longer [[9;9];[3;4];[0;0];[7;8]] _ 2 eq_refl) _).
  refine (session_cons _ _ _ _ _ _ (_ :: _ :: []) _ (vundo_reserve _ _) _).
  refine (session_cons _ _ _ _ _ _ (_ :: []) _ (vundo_delete_range [[9;9]] [[3;4];[0;0]] _ _) _); [discriminate|].
  refine (session_cons _ _ _ _ _ _ [] _ (vundo_clear _ _) _); [discriminate|].
  constructor.
Qed.

Definition string_calls : list sop :=
  [SAppend [100]; SInsert 1 [120;121]; SDelete 0 2; SSetChar 0 90; STruncate 2; SReserve 50; SClear].
Definition string_undos : list sop :=
  [SAppend [90;98]; SShrinkToFit; SAppend [99;100]; SSetChar 0 121; SInsert 0 [97;120]; SDelete 1 2; STruncate 3].
Lemma string_session : session sundo [97;98;99] string_calls string_undos [].
Proof.
  refine (session_cons _ _ _ _ _ _ (_ :: _ :: _ :: _ :: _ :: _ :: []) _ (sundo_append _ _ _) _); [discriminate|].
  refine (session_cons _ _ _ _ _ _ (_ :: _ :: _ :: _ :: _ :: []) _ (sundo_insert [97] _ _ _) _); [discriminate|].
  refine (session_cons _ _ _ _ _ _ (_ :: _ :: _ :: _ :: []) _ (sundo_delete [] [97;120] _ _) _); [discriminate|].
  refine (session_cons _ _ _ _ _ _ (_ :: _ :: _ :: []) _ (sundo_set [] _ _ _) _).
  refine (session_cons _ _ _ _ _ _ (_ :: _ :: []) _ (sundo_truncate [90;98] [99;100] _) _); [discriminate|].
  refine (session_cons _ _ _ _ _ _ (_ :: []) _ (sundo_reserve _ _) _).
  refine (session_cons _ _ _ _ _ _ [] _ (sundo_clear _) _).
  constructor.
Qed.

Definition bitset_calls : list bitop := [BPush true; BToggle 1; BPop; BFlip; BSet 0; BReserve 64].
Definition bitset_undos : list bitop := [BShrinkToFit; BAssign 0 false; BFlip; BPush true; BToggle 1; BPop].
Lemma bitset_session : session bundo [true;false;true] bitset_calls bitset_undos [true;false;false].
Proof.
  refine (session_cons _ _ _ _ _ _ (_ :: _ :: _ :: _ :: _ :: []) _ (bundo_push _ _) _).
  refine (session_cons _ _ _ _ _ _ (_ :: _ :: _ :: _ :: []) _ (bundo_toggle [true] false [true;true]) _).
  refine (session_cons _ _ _ _ _ _ (_ :: _ :: _ :: []) _ (bundo_pop [true;true;true] true) _).
  refine (session_cons _ _ _ _ _ _ (_ :: _ :: []) _ (bundo_flip [true;true;true]) _).
  refine (session_cons _ _ _ _ _ _ (_ :: []) _ (bundo_set [] false [false;false]) _).
  refine (session_cons _ _ _ _ _ _ [] _ (bundo_reserve _ _) _).
  constructor.
Qed.

Definition list_calls : list (lop cell) := [LPushFront [CByte 7]; LPopBack; LSet 1 [CByte 8]; LResize 4 (Some [CByte 9])].
Definition list_undos : list (lop cell) := [LResize 2 None; LSet 1 [CByte 1]; LPushBack [CByte 2]; LPopFront].
Lemma list_session : session lundo [[CByte 1];[CByte 2]] list_calls list_undos [[CByte 7];[CByte 8];[CByte 9];[CByte 9]].
Proof.
  refine (session_cons _ _ _ _ _ _ (_ :: _ :: _ :: []) _ (lundo_push_front _ _) _).
  refine (session_cons _ _ _ _ _ _ (_ :: _ :: []) _ (lundo_pop_back [[CByte 7];[CByte 1]] _) _).
  refine (session_cons _ _ _ _ _ _ (_ :: []) _ (lundo_set [[CByte 7]] [CByte 1] _ []) _).
  refine (session_cons _ _ _ _ _ _ [] _ (lundo_longer [[CByte 7];[CByte 8]] _ 2 eq_refl) _).
  constructor.
Qed.
Lemma calm_world : linit_args_ok lworld 1 None /\ ~ fails lworld.
Proof. split; [apply lworld_args; [lia|reflexivity|exact Logic.I]|]. intros (t & st & H). discriminate. Qed.
