(** ZyanBitsetReserve for every count (property C62). *)
From Coq Require Import ZifyBool ZifyNat ZifyN.
From Verif Require Import Base NListFacts Status Mem MemFacts VectorModel VectorSpec VectorDriver
  VectorRep VectorProofs VectorProofs2 VectorProofs3 VectorRefine VectorFail StringModel StringBytes StringProofs
  BitsetModel BitsetSpec BitsetDriver BitsetBits BitsetProofs BitsetRun BitsetQuery BitsetFinal ExactSpec ExactProofs.

Theorem bit_reserve_exact limit (w : Mem.world N) b bs n c0 :
  bitreached limit w b bs -> bs_get_capacity_bytes b = (ST_SUCCESS, c0) ->
  let r := match limit with Some _ => if whole_bytes n <=? c0 then ST_SUCCESS else ST_INSUFFICIENT_BUFFER_SIZE | None => ST_SUCCESS end in
  let c := match limit with Some _ => c0 | None => N.max c0 (whole_bytes n) end in
  exists b' w', bs_reserve b n w = Ok (r, b') w' /\ bitbehaves_as limit w' b' bs /\ bs_get_capacity_bytes b' = (ST_SUCCESS, c).
Proof.
  intros H C. apply bitreached_rep in H as (pre & l & post & X & NF & LM & RM). pose proof X as [R B S0 L HB].
  cbv zeta. unfold bs_reserve. rewrite whole_ok.
  assert (NW : whole_bytes n < W64) by (eapply N.lt_trans; [apply whole_lt|reflexivity]).
  destruct (breserve_ok w (bs_bits b) pre l post (whole_bytes n) R (nofail_grants _ _ NF) NW) as (r & w' & v' & E & G & ER & EC).
  exists (mkbitset (bs_size b) v'), w'. unfold bs_get_capacity_bytes, vget_capacity in *. cbn [bs_bits]. injection C as C. rewrite C in EC.
  rewrite (bind_ok _ _ _ _ _ E). unfold bholds in ER. rewrite C in ER.
  assert (BH : bitbehaves_as limit w' (mkbitset (bs_size b) v') bs).
  { rewrite <- LM. assert (XX : xrep w' (mkbitset (bs_size b) v') pre l post bs) by (split; auto; apply G).
    rewrite <- (bitlimit_good w b w' (mkbitset (bs_size b) v') _ _ _ G). eapply xrep_behaves; [exact XX|].
    exact (bnofail _ _ _ _ _ _ _ NF G). }
  unfold bitlimit in LM.
  destruct (v_alloc (bs_bits b)).
  - subst limit. cbn [orb] in ER. subst r. split; [reflexivity|]. split; [exact BH|]. rewrite EC. f_equal. lia.
  - subst limit. cbn [orb] in ER. subst r. split; [reflexivity|]. split; [exact BH|]. now rewrite EC.
Qed.

Theorem bit_reserve_enough (w : Mem.world N) b bs n c0 :
  bitreached None w b bs -> bs_get_capacity_bytes b = (ST_SUCCESS, c0) ->
  exists b' w' c, bs_reserve b n w = Ok (ST_SUCCESS, b') w' /\ bs_get_capacity_bytes b' = (ST_SUCCESS, c) /\
    (n <= 8 * c <-> n <= 8 * c0 \/ n mod 8 = 0 /\ n / 8 < W32).
Proof.
  intros H C. destruct (bit_reserve_exact None w b bs n c0 H C) as (b' & w' & E & _ & K). exists b', w', (N.max c0 (whole_bytes n)).
  split; [exact E|]. split; [exact K|]. unfold whole_bytes. pose proof (N.div_mod n 8 ltac:(discriminate)) as D.
  pose proof (N.mod_lt n 8 ltac:(discriminate)). destruct (N.ltb_spec (n / 8) W32) as [L|L]; [lia|].
  assert (M : (n / 8 + 1) mod W32 < W32) by (apply N.mod_lt; discriminate). lia.
Qed.
