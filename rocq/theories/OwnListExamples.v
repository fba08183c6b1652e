(** Examples for C116: elements of two cells whose first cell names the block. *)
From Verif Require Import Base Status Mem VectorModel ListModel ListSpec ListDriver ListExamples OwnDriver OwnListModel OwnListDriver.
From Coq Require Import ZifyBool ZifyNat ZifyN.

Definition ex_lname (b : N) : list cell := [CByte b; CByte 7].
Definition ex_lown (x : list cell) : N := match x with CByte b :: _ => b | _ => 0 end.
Lemma ex_lnames : names_ok 2 ex_lname ex_lown.
Proof. split; reflexivity. Qed.

Definition bytes_of (l : list N) : list cell := map CByte l.
Definition ex_qops : list qop :=
  [QPushBack (bytes_of [1]); QPushFront (bytes_of [2; 2]); QPushBack (bytes_of [3]); QSet 1 (bytes_of [4; 4; 4]); QPopBack;
   QPushBack (bytes_of [5]); QPushFront (bytes_of [6]); QPopFront; QSet 7 (bytes_of [8]); QShorten 2;
   QEmplaceBack (bytes_of [9]); QEmplaceFront (bytes_of [10; 10]); QPopBack].
(** The calls and the contents afterwards, read through the list. *)
Definition read_all (l : zlist) : M (list (option (list cell))) :=
  let* xs := elements_of l in
  fun w => Ok (map (fun x => heap w (ex_lown x)) xs) w.
Lemma ex_qops_run : exists l0 rs l w, linit_ex 2 None true lworld = Ok (ST_SUCCESS, Some l0) lworld /\
  run_qops 2 ex_lname ex_lown l0 ex_qops lworld = Ok (rs, l) w /\
  rs = [ST_SUCCESS; ST_SUCCESS; ST_SUCCESS; ST_SUCCESS; ST_SUCCESS; ST_SUCCESS; ST_SUCCESS; ST_SUCCESS; ST_INVALID_ARGUMENT; ST_SUCCESS;
        ST_SUCCESS; ST_SUCCESS; ST_SUCCESS] /\
  read_all l w = Ok [Some (bytes_of [10; 10]); Some (bytes_of [2; 2]); Some (bytes_of [4; 4; 4])] w.
Proof. eexists _, _, _, _. split; [vm_compute; reflexivity|]. split; [vm_compute; reflexivity|]. split; vm_compute; reflexivity. Qed.
(** An allocator that refuses the second request; a buffer with room for three nodes, so that the second PushFront and EmplaceFront are refused. *)
Lemma ex_qops_refused : exists l0 rs l w, linit_ex 2 None true (lworld_failing [1]) = Ok (ST_SUCCESS, Some l0) (lworld_failing [1]) /\
  run_qops 2 ex_lname ex_lown l0 ex_qops (lworld_failing [1]) = Ok (rs, l) w /\ st_success (nth 1 rs ST_SUCCESS) = false /\
  read_all l w = Ok [Some (bytes_of [10; 10]); Some (bytes_of [1]); Some (bytes_of [5])] w.
Proof. eexists _, _, _, _. split; [vm_compute; reflexivity|]. split; [vm_compute; reflexivity|]. split; vm_compute; reflexivity. Qed.
Lemma ex_qops_buffer : exists l0 rs l w, linit_custom 2 None (Some (mkptr 0 1)) 54 (lworld_buf 54) = Ok (ST_SUCCESS, Some l0) (lworld_buf 54) /\
  run_qops 2 ex_lname ex_lown l0 ex_qops (lworld_buf 54) = Ok (rs, l) w /\
  read_all l w = Ok [Some (bytes_of [4; 4; 4]); Some (bytes_of [5])] w.
Proof. eexists _, _, _, _. split; [vm_compute; reflexivity|]. split; vm_compute; reflexivity. Qed.
