(** Concrete threads for the examples of C90. *)
From Verif Require Import Base Status VectorModel VectorSpec VectorDriver StringModel StringSpec StringDriver BitsetModel
  BitsetSpec BitsetDriver ProgSpec ThreadSpec ThreadCode Mem.

(** Thread 0 uses a vector, thread 1 a string and a bitset; the other threads do nothing. *)
Definition ex_programs (t : N) : list pstep :=
  if t =? 0 then [PVec 2 1 None 2 1; PVecCall 0 (OPushBack [7; 8]); PVecCall 0 (OPushBack [1; 2]); PVecCall 0 (ODelete 0)]
  else if t =? 1 then [PStr 0 2 1; PStrCall 0 (SAppend [72; 105]); PBits 8 2 1; PBitCall 1 (BSet 3); PDestroy 0; PDestroy 1]
  else [].
(** Every thread gets its blocks from names of its own. *)
Definition ex_world (t : N) : world N := mkworld (fun _ => None) (t * 1000) (fun _ => AOk (fun i => 170 + i + t)) 0 [].
Definition ex_last (t : N) : N := t * 1000 + 1000.
Definition ex_codes (t : N) : code N (list status * objs) := tree (coded_run_prog [] (ex_programs t)).
(** Somebody else's memory. *)
Definition ex_memory (b : N) : option (list N) := None.
(** Schedules: taking turns, one after the other, and a third in which thread 1 overtakes. *)
Fixpoint take_turns (n : nat) : list N := match n with O => [] | S n => 0 :: 1 :: take_turns n end.
Definition ex_schedules : list (list N) :=
  [take_turns 20; repeat 0 20 ++ repeat 1 20; repeat 0 7 ++ repeat 1 15 ++ take_turns 10].
(** What the threads find at the end. *)
Definition ex_results (schedule : list N) : option (list status * list status * list (option (list N)) * list (option (list N))) :=
  match play schedule (start ex_memory ex_codes ex_world) with
  | Some m =>
      match todo (threads m 0), todo (threads m 1) with
      | Done (r0, os0), Done (r1, os1) =>
          Some (r0, r1, map (memory m) [0; 1; 2; 3; 4; 5], map (memory m) [1000; 1001; 1002; 1003; 1004; 1005])
      | _, _ => None
      end
  | None => None
  end.

(** Threads that share a vector of which one only reads: the other destroys it. *)
Definition shared_vector : vector N := mkvec true 2 1 1 1 2 None (Some (mkptr 5 0)).
Definition shared_world : world N := mkworld (fun b => if b =? 5 then Some [7; 8] else None) 10 (fun _ => AFail 1) 0 [].
Definition reader_and_destroyer (t : N) : M N (option (list N)) :=
  if t =? 0 then read_elem shared_vector 0 else let* _ := vdestroy shared_vector in ret None.
Definition two_readers (t : N) : M N (option (list N)) := read_elem shared_vector t.
