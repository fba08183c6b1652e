(** C83: growable bitsets with an allocator that refuses requests.  C61: what follows a refused Push. *)
From Verif Require Import Base Status Mem VectorModel VectorSpec VectorDriver RefuseSpec BitsetModel BitsetSpec BitsetDriver
  BitRefuseSpec BitRefuseProofs BitRefuseProofs2 VectorExamples BitsetExamples BitsetFinal.

(** A growable bitset with an allocator that may refuse any request after the first.  The history runs like the specification
    of bitsets (a refused Pop or ShrinkToFit returns the allocator's error but has done its work) until the first refused
    request that leaves the bitset out of order ([busable] fails); that call returns the allocator's error.  At both points
    the size, the bits, the bytes and the capacity can be read, and Destroy gives all memory back. *)
Theorem c83_any_allocator :
  forall w0 n g t ops fill,
    bitinit_params_ok w0 n g t -> n mod 8 = 0 -> legal None ops (zeros n) -> bitroom (n + pushes ops) ->
    orc w0 (tick w0) = AOk fill ->
    exists b0 w1 ops1 ops2 rs b w bs cap,
      with_zero (fun z => bs_init_ex z n true g t) w0 = Ok (ST_SUCCESS, Some b0) w1 /\
      ops = ops1 ++ ops2 /\ run_bitops b0 ops1 w1 = Ok (rs, b) w /\
      bcalls g t (orc w0) (tick w0 + 1) ops1 (zeros n) (N.max 1 (n / 8)) rs bs cap (tick w) /\
      bs = snd (bitsteps None ops1 (zeros n)) /\
      bstate_shown w b (whole bs cap) /\ bdestroys_back w0 w b /\
      (ops2 = [] \/ exists o rest r b2 w2 s2,
         ops2 = o :: rest /\ run_bitop b o w = Ok (r, b2) w2 /\
         brefuses g t (orc w0 (tick w)) o bs cap /\ bcall g t (orc w0 (tick w)) o bs cap r s2 /\ ~ busable cap s2 /\
         bstate_shown w2 b2 s2 /\ bdestroys_back w0 w2 b2).
Proof. exact bitset_any_allocator. Qed.
Print Assumptions c83_any_allocator.

(** Requests 2 and 3 are refused: Pop (which shrinks) reports the refusal but has popped; the bitset goes on; then a Push that
    needs a larger block reports the refusal and the history ends with a size of 17 for 16 bits. *)
Example c83_hypotheses_met :
  let w0 := world_failing [2; 3] in
  let ops := [BReserve 80; BPush true; BPop; BPush true; BPush false] ++ repeat (BPush true) 6 ++ [BPush true; BPush false] in
  bitinit_params_ok w0 8 2 4 /\ 8 mod 8 = 0 /\ legal None ops (zeros 8) /\ bitroom (8 + pushes ops) /\
  orc w0 (tick w0) = AOk (fun _ => 170) /\
  match with_zero (fun z => bs_init_ex z 8 true 2 4) w0 with
  | Ok (_, Some b0) w1 =>
      match run_bitops b0 (firstn 12 ops) w1 with
      | Ok (rs, b) w => Some (rs, tick w, bs_get_size b, bs_get_size_bytes b, bs_get_capacity_bytes b)
      | _ => None
      end
  | _ => None
  end = Some ([ST_SUCCESS; ST_SUCCESS; err_status 7; ST_SUCCESS; ST_SUCCESS; ST_SUCCESS; ST_SUCCESS; ST_SUCCESS; ST_SUCCESS; ST_SUCCESS;
               ST_SUCCESS; err_status 7], 4, (ST_SUCCESS, 17), (ST_SUCCESS, 2), (ST_SUCCESS, 6)).
Proof.
  cbv zeta. split; [|split; [reflexivity|split; [|split; [reflexivity|split; [reflexivity|]]]]].
  - split; [intros b _; reflexivity|]. split; [lia|]. split; [lia|reflexivity].
  - vm_compute. repeat split; discriminate.
  - vm_compute. reflexivity.
Qed.

(** A refused request leaves a usable bitset exactly if the call is Pop or ShrinkToFit, if the growth factor is at most the
    shrink threshold. *)
Theorem c83_refused_usable :
  forall g t ans o bs cap r s',
    legal_op None o bs -> (nlen bs + 7) / 8 <= cap -> 1 <= g -> g <= t ->
    brefuses g t ans o bs cap -> bcall g t ans o bs cap r s' ->
    (busable cap s' <-> match o with BPop | BShrinkToFit => True | _ => False end).
Proof. exact brefused_usable. Qed.
Print Assumptions c83_refused_usable.
(** Each kind of refusal occurs: a bitset of 9 bits and 9 bytes of capacity (8 bits and 1 byte for Push). *)
Example c83_refusals_occur :
  let bs := repeat true 9 in let full := repeat true 8 in
  brefuses 2 4 (AFail 7) BPop bs 9 /\ bcall 2 4 (AFail 7) BPop bs 9 (err_status 7) (whole full 2) /\
  brefuses 2 4 (AFail 7) BShrinkToFit bs 9 /\ bcall 2 4 (AFail 7) BShrinkToFit bs 9 (err_status 7) (whole bs 2) /\
  brefuses 2 4 (AFail 7) (BPush true) full 1 /\ bcall 2 4 (AFail 7) (BPush true) full 1 (err_status 7) (mkbst 9 full 1 4) /\
  brefuses 2 4 (AFail 7) BClear bs 9 /\ bcall 2 4 (AFail 7) BClear bs 9 (err_status 7) (mkbst 0 [] 2 1) /\
  brefuses 2 4 (AFail 7) (BReserve 800) bs 9 /\ bcall 2 4 (AFail 7) (BReserve 800) bs 9 (err_status 7) (mkbst 9 bs 2 100).
Proof. cbv zeta. unfold brefuses, bcall. repeat match goal with |- _ /\ _ => split end; first [discriminate | reflexivity | now vm_compute]. Qed.

(** C61.  Whenever Push on a growable bitset whose bytes are all in use fails for want of memory, the next seven calls of Push
    fail with "out of range" although nothing is full, each adding one to the size, and the one after them writes behind the
    storage. *)
Theorem c61_push_after_refusal_refuted :
  forall w b bs x ys z orc' st,
    bitreached None w b bs -> nlen bs mod 8 = 0 -> bs_get_capacity_bytes b = (ST_SUCCESS, nlen bs / 8) -> bitroom (nlen bs + 8) ->
    length ys = 7%nat -> orc' (tick w) = AFail st ->
    exists b1 w1 b2 w2, run_bitop b (BPush x) (with_oracle w orc') = Ok (err_status st, b1) w1 /\
      run_bitops b1 (map BPush ys) w1 = Ok (repeat ST_OUT_OF_RANGE 7, b2) w2 /\
      bs_get_size b2 = (ST_SUCCESS, nlen bs + 8) /\
      run_bitop b2 (BPush z) w2 = Fault OutOfBounds.
Proof. exact second_byte. Qed.
Print Assumptions c61_push_after_refusal_refuted.
Example c61_push_after_refusal_hypotheses_met : exists (w : world N) b,
  let bs := repeat true 8 in
  bitreached None w b bs /\ nlen bs mod 8 = 0 /\ bs_get_capacity_bytes b = (ST_SUCCESS, nlen bs / 8) /\ bitroom (nlen bs + 8).
Proof.
  assert (I : bitinit_args_ok world0 0 2 4) by (repeat split; try apply world0_ok; lia).
  destruct (pushed_steps None (repeat true 8) (zeros 0) eq_refl) as (L & T & S & P).
  destruct (growable_bitset world0 0 2 4 (pushed (repeat true 8)) I eq_refl L eq_refl) as (b0 & w1 & b & w & E1 & E2 & _).
  exists w, b. cbv zeta. split; [|split; [reflexivity|split; [|reflexivity]]].
  - exists world0, 0, (pushed (repeat true 8)), b0, w1, (fst (bitsteps None (pushed (repeat true 8)) (zeros 0))).
    split; [exists 2, 4; split; [exact I|exact E1]|]. split; [reflexivity|]. split; [exact L|]. split; [exact Logic.I|]. split; [reflexivity|]. now split.
  - assert (K : match with_zero (fun z => bs_init_ex z 0 true 2 4) world0 with
      | Ok (_, Some b0) w1 => match run_bitops b0 (pushed (repeat true 8)) w1 with Ok (_, b) _ => bs_get_capacity_bytes b | _ => (ST_FAILED, 0) end
      | _ => (ST_FAILED, 0) end = (ST_SUCCESS, 1)) by (vm_compute; reflexivity).
    now rewrite E1, E2 in K.
Qed.

(** A refused initialisation returns the allocator's error; nothing is left allocated. *)
Theorem c83_init_refused :
  forall (w : world N) n g t st, bitinit_params_ok w n g t -> orc w (tick w) = AFail st ->
    exists b w', with_zero (fun z => bs_init_ex z n true g t) w = Ok (err_status st, b) w' /\
      (forall k, heap w' k = heap w k) /\ tick w' = tick w + 1 /\ dlog w' = dlog w.
Proof. exact bitinit_refusal. Qed.
Print Assumptions c83_init_refused.
Example c83_init_met : bitinit_params_ok (world_failing [0]) 16 2 4 /\ orc (world_failing [0]) (tick (world_failing [0])) = AFail 7.
Proof. split; [|reflexivity]. split; [intros b _; reflexivity|]. repeat split; lia. Qed.
