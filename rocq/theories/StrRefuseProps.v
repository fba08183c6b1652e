(** C82: growable strings with an allocator that refuses requests. *)
From Verif Require Import Base Status Mem VectorModel VectorSpec VectorDriver RefuseSpec StringModel StringSpec StringDriver
  StrRefuseSpec StrRefuseProofs StrRefuseProofs2 VectorExamples.

(** A growable string with an allocator that may refuse any request.  The history runs like the specification of strings until
    the first refused request that leaves a capacity the storage does not have ([susable] fails); that call returns the
    allocator's error.  At both points the characters, the terminator and the capacity can be read, and Destroy gives all
    memory back. *)
Theorem c82_any_allocator :
  forall w0 cap g t ops fill,
    sinit_params_ok w0 cap g t -> Forall sums_ok ops -> sroom (sdemands ops) -> orc w0 (tick w0) = AOk fill ->
    exists s0 w1 ops1 ops2 rs s w st,
      sinit_ex cap true g t w0 = Ok (ST_SUCCESS, Some s0) w1 /\
      ops = ops1 ++ ops2 /\ run_sops s0 ops1 w1 = Ok (rs, s) w /\
      scalls g t (orc w0) (tick w0 + 1) ops1 (mksst [] (N.max 32 cap)) rs st (tick w) /\
      sstate_shown w s st /\ sdestroys_back w0 w s /\
      (ops2 = [] \/ exists o rest r s2 w2 st2,
         ops2 = o :: rest /\ run_sop s o w = Ok (r, s2) w2 /\
         srefuses g t (orc w0 (tick w)) o st /\ scall g t (orc w0 (tick w)) o st r st2 /\ ~ susable st st2 /\
         sstate_shown w2 s2 st2 /\ sdestroys_back w0 w2 s2).
Proof. exact string_any_allocator. Qed.
Print Assumptions c82_any_allocator.

(** Requests 1 and 2 are refused: Delete (which shrinks) reports the refusal but has deleted; the string goes on; then Append
    reports the refusal of a larger block and the history ends, with a capacity that is a lie. *)
Example c82_hypotheses_met :
  let w0 := world_failing [1; 2] in
  let ops := [SAppend [72; 101; 108; 108; 111; 32; 121; 111; 117]; SDelete 1 6; SAppend [33]; SAppend (repeat 46 9); SAppend [63]] in
  sinit_params_ok w0 9 2 4 /\ Forall sums_ok ops /\ sroom (sdemands ops) /\ orc w0 (tick w0) = AOk (fun _ => 170) /\
  match sinit_ex 9 true 2 4 w0 with
  | Ok (_, Some s0) w1 =>
      match run_sops s0 (firstn 4 ops) w1 with
      | Ok (rs, s) w => Some (rs, tick w, match sget_capacity s w with Ok (_, c) _ => Some c | _ => None end,
          match mread (snd (sget_data s)) 8 w with Ok x _ => Some x | _ => None end)
      | _ => None
      end
  | _ => None
  end = Some ([ST_SUCCESS; err_status 7; ST_SUCCESS; err_status 7], 3, Some 27, Some [72; 111; 117; 33; 0; 32; 121; 111]).
Proof.
  cbv zeta. split; [|split; [|split; [reflexivity|split; [reflexivity|]]]].
  - split; [intros b _; reflexivity|]. split; [lia|]. split; [lia|reflexivity].
  - repeat constructor.
  - vm_compute. reflexivity.
Qed.

(** A refused request of Delete, Truncate or ShrinkToFit leaves a usable string, if the growth factor is at most the shrink
    threshold. *)
Theorem c82_refused_trim_usable :
  forall g t ans o a r b,
    strims o = true -> nlen (ss_chars a) <= ss_cap a -> 1 <= g -> g <= t ->
    srefuses g t ans o a -> scall g t ans o a r b -> susable a b.
Proof. exact srefused_trim. Qed.
Print Assumptions c82_refused_trim_usable.
(** A refused request of a call that puts in [n] characters does so exactly if there was room for them (the request was one
    to shrink). *)
Theorem c82_refused_addition :
  forall g t ans o n a r b,
    sadds o n -> nlen (ss_chars a) <= ss_cap a -> 1 <= g -> g <= t ->
    srefuses g t ans o a -> scall g t ans o a r b -> (susable a b <-> nlen (ss_chars a) + n <= ss_cap a).
Proof. exact srefused_add. Qed.
Print Assumptions c82_refused_addition.
(** A refused request of Resize: exactly if the size asked for was within the capacity and the characters, which all stay, are
    within the capacity asked for. *)
Theorem c82_refused_resize :
  forall g t ans n a r b,
    nlen (ss_chars a) <= ss_cap a -> 1 <= g -> g <= t ->
    srefuses g t ans (SResize n) a -> scall g t ans (SResize n) a r b ->
    (susable a b <-> n <= ss_cap a /\ nlen (ss_chars a) < (n + 1) * g).
Proof. exact srefused_resize. Qed.
Print Assumptions c82_refused_resize.
(** A refused request of Clear: exactly if the string was empty. *)
Theorem c82_refused_clear :
  forall g t ans a r b,
    srefuses g t ans SClear a -> scall g t ans SClear a r b -> (susable a b <-> ss_chars a = []).
Proof. exact srefused_clear. Qed.
Print Assumptions c82_refused_clear.
(** A refused request of Reserve: never. *)
Theorem c82_refused_reserve :
  forall g t ans n a r b,
    srefuses g t ans (SReserve n) a -> scall g t ans (SReserve n) a r b -> ~ susable a b.
Proof. exact srefused_reserve. Qed.
Print Assumptions c82_refused_reserve.
(** Each kind of refusal occurs: a string of 9 characters and capacity 32, growth factor 2, shrink threshold 4. *)
Example c82_refusals_occur :
  let a := mksst (repeat 97 9) 32 in let small := mksst (repeat 97 3) 32 in
  srefuses 2 4 (AFail 7) (SDelete 1 6) a /\ scall 2 4 (AFail 7) (SDelete 1 6) a (err_status 7) (mksst (repeat 97 3) 7) /\
  srefuses 2 4 (AFail 7) (SAppend (repeat 98 30)) a /\
  scall 2 4 (AFail 7) (SAppend (repeat 98 30)) a (err_status 7) (mksst (repeat 97 9) 79) /\
  srefuses 2 4 (AFail 7) (SAppend [98]) small /\ scall 2 4 (AFail 7) (SAppend [98]) small (err_status 7) (mksst (repeat 97 3) 9) /\
  srefuses 2 4 (AFail 7) (SResize 2) a /\ scall 2 4 (AFail 7) (SResize 2) a (err_status 7) (mksst (repeat 97 9) 5) /\
  srefuses 2 4 (AFail 7) SClear a /\ scall 2 4 (AFail 7) SClear a (err_status 7) (mksst (repeat 97 9) 0) /\
  srefuses 2 4 (AFail 7) (SReserve 99) a /\ scall 2 4 (AFail 7) (SReserve 99) a (err_status 7) (mksst (repeat 97 9) 98).
Proof. cbv zeta. unfold srefuses, scall. repeat match goal with |- _ /\ _ => split end; first [discriminate | reflexivity | now vm_compute]. Qed.

(** A refused initialisation returns the allocator's error; nothing is left allocated. *)
Theorem c82_init_refused :
  forall (w : world N) cap g t st, 1 <= g -> orc w (tick w) = AFail st ->
    exists s w', sinit_ex cap true g t w = Ok (err_status st, s) w' /\
      (forall k, heap w' k = heap w k) /\ tick w' = tick w + 1 /\ dlog w' = dlog w.
Proof. exact sinit_refusal. Qed.
Print Assumptions c82_init_refused.
Example c82_init_met : orc (world_failing [0]) (tick (world_failing [0])) = AFail 7.
Proof. reflexivity. Qed.
