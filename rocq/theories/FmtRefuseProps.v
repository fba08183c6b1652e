(** C94: formatting a number into a growable string with an allocator that may refuse any request. *)
From Verif Require Import Base Status VectorModel VectorDriver VectorExamples StringModel StringSpec StringDriver FormatModel FormatSpec FormatDriver
  FormatExamples FmtRefuseSpec FmtRefuseProofs FmtRefuseProofs2 Mem.

(** Whatever the allocator answers, the call runs to its end with a few requests at most.  If all of them are granted the number
    has been appended.  Otherwise the last of its requests is the only one that was refused, its error is returned, and the
    string shows one of the texts of [refused_text]: parts that were complete, or empty room for the padding. *)
Theorem c94_number_or_error :
  forall is64 w s cs o orc',
    freached is64 None w s cs -> formats_number o -> fargs_ok o -> sroom (nlen cs + fdemand o) ->
    exists r s' w' cs', run_fop is64 s o (with_oracle w orc') = Ok (r, s') w' /\ sshows w' s' cs' /\
      tick w <= tick w' <= tick w + max_requests o /\
      ((fspec None o cs r cs' /\ all_granted orc' (tick w) (tick w')) \/
       (exists e, tick w < tick w' /\ all_granted orc' (tick w) (tick w' - 1) /\ orc' (tick w' - 1) = AFail e /\
          r = err_status e /\ refused_text o cs cs')).
Proof. exact number_any. Qed.
Print Assumptions c94_number_or_error.
Example c94_hypotheses_met : exists w s,
  let o := FHexS (-300) 2 true true (Some [48; 120]) in
  freached true None w s [97; 98] /\ formats_number o /\ fargs_ok o /\ sroom (nlen [97; 98] + fdemand o).
Proof.
  destruct (freach_any true [97; 98]) as (w & s & H); [reflexivity|]. exists w, s. cbv zeta. split; [exact H|]. split; [exact I|].
  split; [|reflexivity]. cbn. lia.
Qed.
(** The four outcomes of one call with sign, prefix and padding: number 0 is the request of Init; requests 1, 2 and 3 are those
    for the prefix, the padding and the digits. *)
Example c94_outcomes :
  let run refused :=
    match after_thirty_one (world_failing refused) [FHexS (-74565) 2 true true (Some [48; 120])] with
    | Some (Ok (rs, s) w) => Some (rs, tick w, size_of s w, bytes_from 31 s w)
    | _ => None
    end in
  map run [[]; [1]; [2]; [3]] =
    [Some ([ST_SUCCESS; ST_SUCCESS], 4, Some 39, Some [45; 48; 120; 49; 50; 51; 52; 53; 0]);
     Some ([ST_SUCCESS; err_status 7], 2, Some 32, Some [45; 0]);
     Some ([ST_SUCCESS; err_status 7], 3, Some 34, Some [45; 48; 120; 0]);
     Some ([ST_SUCCESS; err_status 7], 4, Some 36, Some [45; 48; 120; 0; 170; 0])].
Proof. vm_compute. reflexivity. Qed.

(** Destroy afterwards gives the memory of the string back, and nothing else has changed. *)
Theorem c94_destroy_gives_back :
  forall is64 w s cs o orc' r s' w',
    freached is64 None w s cs -> formats_number o -> fargs_ok o -> sroom (nlen cs + fdemand o) ->
    run_fop is64 s o (with_oracle w orc') = Ok (r, s') w' ->
    exists p s2 w2, snd (sget_data s) = Some p /\ sdestroy s' w' = Ok (ST_SUCCESS, s2) w2 /\
      forall b, heap w2 b = if b =? pb p then None else heap w b.
Proof. exact number_destroyed. Qed.
Print Assumptions c94_destroy_gives_back.
Example c94_destroy_met : exists w s r s' w',
  freached true None w s [97; 98] /\ formats_number (FDecU 10 99) /\ fargs_ok (FDecU 10 99) /\ sroom (nlen [97; 98] + fdemand (FDecU 10 99)) /\
  run_fop true s (FDecU 10 99) (with_oracle w (fun _ => AFail 9)) = Ok (r, s') w'.
Proof.
  destruct (freach_any true [97; 98]) as (w & s & H); [reflexivity|].
  destruct (c94_number_or_error true w s [97; 98] (FDecU 10 99) (fun _ => AFail 9) H I (conj eq_refl eq_refl) eq_refl)
    as (r & s' & w' & cs' & E & _).
  exists w, s, r, s', w'. repeat split; auto.
Qed.

(** A number that fits into the capacity is appended without a request. *)
Theorem c94_room_suffices :
  forall is64 w s cs o v pad ds orc',
    freached is64 None w s cs -> fargs_ok o -> sroom (nlen cs + fdemand o) ->
    o = FDecU v pad /\ numeral 10 false v ds \/ (exists upper, o = FHexU v pad upper /\ numeral 16 upper v ds) ->
    nlen (cs ++ padded pad ds) + 1 <= v_cap (s_vec s) ->
    exists s' w', run_fop is64 s o (with_oracle w orc') = Ok (ST_SUCCESS, s') w' /\ tick w' = tick w /\
      sshows w' s' (cs ++ padded pad ds).
Proof. exact fits_quiet. Qed.
Print Assumptions c94_room_suffices.
(** Every request after that of Init is refused: 32 characters fit, 33 do not. *)
Example c94_room_suffices_met :
  let w0 := mkworld (fun _ => None) 0 (fun t => if t =? 0 then AOk (fun _ => 170) else AFail 7) 0 [] in
  match after_thirty_one w0 [FHexU 11 1 true] with Some (Ok (rs, s) w) => Some (rs, tick w, v_cap (s_vec s), bytes_from 31 s w) | _ => None end
    = Some ([ST_SUCCESS; ST_SUCCESS], 1, 33, Some [66; 0]) /\
  match after_thirty_one w0 [FHexU 27 1 true] with Some (Ok (rs, s) w) => Some (rs, tick w, bytes_from 31 s w) | _ => None end
    = Some ([ST_SUCCESS; err_status 7], 2, Some [0]).
Proof. vm_compute. auto. Qed.

(** Not all or nothing: a refused request of a hexadecimal number that is longer than its padding leaves a longer string, of
    which one character is a byte that was never written. *)
Theorem c94_all_or_nothing_refuted :
  exists w0 o,
    match after_thirty_one w0 [o] with
    | Some (Ok (rs, s) w) => rs = [ST_SUCCESS; err_status 7] /\ size_of s w = Some 33 /\ sget_char s 32 w = Ok (ST_SUCCESS, Some 170) w
    | _ => False
    end /\ formats_number o /\ fargs_ok o.
Proof. exists (world_failing [2]), (FHexU 74565 2 true). vm_compute. auto. Qed.
Print Assumptions c94_all_or_nothing_refuted.

(** The string must not be used again: its capacity field holds the size that was refused. *)
Theorem c94_use_after_refusal_refuted :
  exists w0 o,
    match after_thirty_one w0 [o] with Some (Ok (rs, _) _) => rs = [ST_SUCCESS; err_status 7] | _ => False end /\
    match after_thirty_one w0 [o; o] with Some (Fault f) => f = OutOfBounds | _ => False end /\ formats_number o /\ fargs_ok o.
Proof. exists (world_failing [1]), (FDecU 12345 0). vm_compute. auto. Qed.
Print Assumptions c94_use_after_refusal_refuted.
