(** Argument parser: its requests for memory. *)
From Verif Require Import Base NListFacts Status Mem MemFacts VectorModel VectorSpec VectorRep VectorDriver VectorProofs VectorProofs2
  VectorProofs3 VectorRefine StringModel StringDriver ArgModel ArgSpec ArgDriver ArgText ArgVec ArgProofs ArgFinal.
From Coq Require Import ZifyBool ZifyNat ZifyN.
Implicit Types (w : world acell) (v : avec).

Lemma requests_granted tw cfg prog ts ds w es stop :
  config_is tw cfg prog ts ds -> names_ok ds -> ac_min cfg <= ac_max cfg -> world_ok w -> arg_room ts -> scan ds actual true ts es stop ->
  granted w (parser_requests ts (entries_made (ac_max cfg) es stop)) ->
  exists o r w', judged ds (ac_min cfg) (ac_max cfg) es stop o /\ argparse_ex tw cfg true w = Ok r w' /\ delivered tw w w' r o /\
    tick w' = tick w + parser_requests ts (entries_made (ac_max cfg) es stop).
Proof.
  intros C N M W R S G. destruct (argparse_any tw cfg prog ts ds w C N M W R) as (es' & stop' & r & w' & S' & E & X).
  destruct (scan_det _ _ _ _ _ _ S _ _ S') as [<- <-]. cbv zeta in X.
  destruct X as [(o & J & D & _ & T & _)|(_ & i & st & LI & _ & O & _)].
  - exists o, r, w'. auto.
  - destruct (G i LI) as (fill & G'). congruence.
Qed.
Lemma request_refused tw cfg prog ts ds w es stop i st :
  config_is tw cfg prog ts ds -> names_ok ds -> ac_min cfg <= ac_max cfg -> world_ok w -> arg_room ts -> scan ds actual true ts es stop ->
  i < parser_requests ts (entries_made (ac_max cfg) es stop) -> granted w i -> orc w (tick w + i) = AFail st ->
  exists v w', argparse_ex tw cfg true w = Ok (err_status st, Some v, None) w' /\ tick w' = tick w + i + 1 /\
    out_of_memory w (err_status st, Some v, None) w'.
Proof.
  intros C N M W R S LI G O. destruct (argparse_any tw cfg prog ts ds w C N M W R) as (es' & stop' & r & w' & S' & E & X).
  destruct (scan_det _ _ _ _ _ _ S _ _ S') as [<- <-]. cbv zeta in X.
  destruct X as [(o & _ & _ & _ & _ & G')|(OM & j & st' & LJ & GJ & OJ & RS & T)].
  - destruct (G' i LI) as (fill & G''). congruence.
  - assert (i = j).
    { destruct (N.lt_trichotomy i j) as [L|[->|L]]; [|reflexivity|].
      - destruct (GJ i L) as (fill & X). congruence.
      - destruct (G j L) as (fill & X). congruence. }
    subst j. assert (st' = st) by congruence. subst st'.
    pose proof OM as (st' & t & v & _ & -> & _). cbn [fst] in RS.
    exists v, w'. rewrite RS in *. auto.
Qed.

Lemma grown_fits room n : N.of_nat n <= room -> grown room n = 0 /\ room_after room n = room.
Proof.
  induction n as [|n IH]; intros L; [split; reflexivity|]. destruct IH as [I1 I2]; [lia|]. cbn [grown room_after]. rewrite I1, I2.
  destruct (N.ltb_spec room (N.of_nat (S n))); [lia|]. split; reflexivity.
Qed.
Lemma one_request ts n : n <= nlen ts + 1 -> parser_requests ts n = 1.
Proof. intros L. unfold parser_requests. destruct (grown_fits (nlen ts + 1) (N.to_nat n)) as [-> _]; lia. Qed.
Lemma made_le hi es stop : entries_made hi es stop <= nlen es + match stop with Some _ => 1 | None => 0 end.
Proof.
  revert hi. induction es as [|e es IH]; intros hi; cbn [entries_made]; [destruct stop; vm_compute; discriminate|]. rewrite nlen_cons.
  pose proof (IH hi). pose proof (IH (hi - 1)). destruct (e_def e), (e_value e); try lia. destruct (hi =? 0); lia.
Qed.
Lemma scan_few ds bf a ts es stop : scan ds bf a ts es stop -> Forall (fun t => ~ short t) ts ->
  nlen es + match stop with Some _ => 1 | None => 0 end <= nlen ts.
Proof.
  induction 1 as [a|ts es s _ IH|a t ts es s UN _ IH|t d ts es s LG NM _ IH|t d x ts es s LG NM _ IH|t d LG NM|t ts LG UK|
      t fl fs ts es s SHT ET FLS _ IH|t fl c x fs d ts es s SHT ET NX FLS NM _ IH|t fl c fs d x ts es s SHT ET FLS NM _ IH|
      t fl c fs d SHT ET FLS NM|t fl c y fs ts SHT ET FLS UK]; intros F; rewrite ?nlen_cons, ?nlen_nil; try lia;
    inversion F as [|? ? NS F']; subst; try (destruct (NS SHT)); try (specialize (IH F'); lia).
  - vm_compute. discriminate.
  - inversion F' as [|? ? _ F'']; subst. specialize (IH F''). lia.
Qed.
Lemma no_options_one ds ts es stop hi : scan ds actual true ts es stop -> Forall (fun t => ~ short t) ts ->
  parser_requests ts (entries_made hi es stop) = 1.
Proof.
  intros S F. apply one_request. pose proof (made_le hi es stop). pose proof (scan_few _ _ _ _ _ _ S F). lia.
Qed.

Lemma grown_room room n : 1 <= room -> room * 2 ^ grown room n <= room_after room n.
Proof.
  intros R. induction n as [|n IH]; cbn [grown room_after]; [rewrite N.pow_0_r; lia|].
  destruct (N.ltb_spec (room_after room n) (N.of_nat (S n))) as [L|L]; [|now rewrite N.add_0_r].
  rewrite N.add_1_r, N.pow_succ_r'. lia.
Qed.
Lemma grown_pow room n : 1 <= room -> 1 <= grown room n -> room * 2 ^ (grown room n - 1) < N.of_nat n.
Proof.
  intros R. induction n as [|n IH]; cbn [grown]; [lia|]. intros G.
  destruct (N.ltb_spec (room_after room n) (N.of_nat (S n))) as [L|L].
  - replace (grown room n + 1 - 1) with (grown room n) by lia. pose proof (grown_room room n R). lia.
  - rewrite N.add_0_r in *. specialize (IH G). lia.
Qed.
Lemma few_requests ts n : 2 <= parser_requests ts n -> (nlen ts + 1) * 2 ^ (parser_requests ts n - 2) < n.
Proof.
  unfold parser_requests. intros G. replace (1 + grown (nlen ts + 1) (N.to_nat n) - 2) with (grown (nlen ts + 1) (N.to_nat n) - 1) by lia.
  pose proof (grown_pow (nlen ts + 1) (N.to_nat n)). lia.
Qed.
