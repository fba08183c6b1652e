(** Property C85: a vector that is searched with BinarySearch and changed at the index it returns is an ordered set. *)
From Coq Require Import Permutation.
From Verif Require Import Base NListFacts Status Mem VectorModel VectorSpec VectorDriver VectorExamples ComparisonModel MiscProofs SortedSpec SortedProofs.

Theorem c85_ordered_set :
  forall (C : Type) (w0 : world C) e cap d g s cmp cs,
    init_args_ok w0 e cap d g s -> cmp_order e cmp ->
    Forall (fun c => nlen (key c) = e) cs -> room (nlen cs) e ->
    exists v0 w1 bs v w xs,
      vinit_ex e cap d true g s w0 = Ok (ST_SUCCESS, Some v0) w1 /\
      set_run cmp v0 cs w1 = Ok (bs, v) w /\
      shows w v xs /\ ascending cmp xs /\
      set_steps cmp cs (fun _ => False) bs (fun x => In x xs).
Proof. exact @ordered_set. Qed.
Print Assumptions c85_ordered_set.

(** Inserting elements at the index that BinarySearch returns sorts them. *)
Theorem c85_insertion_sort :
  forall (C : Type) (w0 : world C) e cap d g s cmp ys,
    init_args_ok w0 e cap d g s -> cmp_order e cmp ->
    Forall (fun y => nlen y = e) ys -> room (nlen ys) e ->
    exists v0 w1 v w xs,
      vinit_ex e cap d true g s w0 = Ok (ST_SUCCESS, Some v0) w1 /\
      puts_run cmp v0 ys w1 = Ok (map (fun _ => ST_SUCCESS) ys, v) w /\
      shows w v xs /\ Permutation ys xs /\ sorted_range cmp xs 0 (nlen xs).
Proof. exact @insertion_sort. Qed.
Print Assumptions c85_insertion_sort.

(** 16-bit numbers, compared by ZyanCompareNumeric16. *)
Example c85_hypotheses_met :
  let cs := [Add [3;1]; Add [2;0]; Add [3;1]; Has [2;0]; Remove [2;0]; Has [2;0]; Add [0;7]; Add [1;0]] in
  init_args_ok world0 2 0 None 2 4 /\ cmp_order 2 compare_numeric16 /\
  Forall (fun c => nlen (key c) = 2) cs /\ room (nlen cs) 2 /\
  match vinit_ex 2 0 None true 2 4 world0 with
  | Ok (_, Some v0) w1 =>
      match set_run compare_numeric16 v0 cs w1 with
      | Ok (bs, v) w => Some (bs, v_size v, map (fun i => match read_elem v i w with Ok x _ => x | Fault _ => None end) [0; 1; 2])
      | Fault _ => None
      end
  | _ => None
  end = Some ([true; true; false; true; true; false; true; true], 3, [Some [1;0]; Some [3;1]; Some [0;7]]).
Proof.
  intros cs. split; [|split; [apply compare_order|split; [repeat constructor|split; [reflexivity|vm_compute; reflexivity]]]].
  apply init_args_world0; try lia; try reflexivity; exact I.
Qed.
