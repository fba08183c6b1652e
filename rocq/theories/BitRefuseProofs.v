(** Bitsets with an allocator that refuses requests: the requests of a call, refused calls, histories. *)
From Coq Require Import ZifyBool ZifyNat ZifyN.
From Verif Require Import Base NListFacts Status Mem MemFacts VectorModel VectorSpec VectorDriver RefuseSpec
  VectorRep VectorProofs VectorProofs2 VectorProofs3 VectorRefine VectorFail VectorMore OracleProofs OracleProofs2 RefuseProofs
  StringModel StringSpec StringDriver StringBytes StringProofs StrRefuseProofs StrRefuseProofs2
  BitsetModel BitsetSpec BitsetDriver BitsetBits BitsetProofs BitsetRun BitRefuseSpec.

(** ** Requests and capacity *)
Lemma caps_push_back {C} (v : vector C) len p : v_alloc v = true -> v_size v = len -> len + 1 < W64 -> (len + 1) * v_growth v < W64 -> 1 <= v_growth v ->
  caps (if v_cap v <? len + 1 then (len + 1) * v_growth v else v_cap v) (vpush_back v (Some p)).
Proof.
  intros A S L LG G1. unfold vpush_back. cbn [nonnull negb]. apply caps_then. intros _.
  apply caps_bind; [apply caps_vgrow; auto; lia|]. intros r v' K. destruct (negb _); [now apply caps_ret|].
  apply caps_then. intros _. now apply caps_ret.
Qed.
Lemma asks_push_back {C} (v : vector C) len p : v_alloc v = true -> v_size v = len -> len + 1 < W64 ->
  asks (if v_cap v <? len + 1 then 1 else 0) (vpush_back v (Some p)).
Proof.
  intros A S L. unfold vpush_back. cbn [nonnull negb]. apply asks_then; [apply asks_assert_valid|intros _].
  apply asks_bind0; [now apply asks_vgrow|]. intros [r v']. quiet.
Qed.
Lemma caps_pop_back {C} (v : vector C) len : v_alloc v = true -> v_size v = len -> len < W64 -> len * v_shrink v < W64 -> len * v_growth v < W64 ->
  caps (if 0 <? len then if negb (v_shrink v =? 0) && ((len - 1) * v_shrink v <? v_cap v) then N.max 1 ((len - 1) * v_growth v) else v_cap v else v_cap v) (vpop_back v).
Proof.
  intros A S L LS LG. unfold vpop_back. rewrite S. destruct (N.eqb_spec len 0).
  { rewrite e. now apply caps_ret. }
  replace (0 <? len) with true by lia. apply caps_then. intros _. rewrite wsub_small by lia.
  apply (caps_maybe_shrink (set_size v (len - 1)) (len - 1)); auto; cbn [set_size v_shrink v_growth]; nia.
Qed.

(** [m] requests [a] for the bitset [b], and has that capacity afterwards, granted or not. *)
Definition bdoes (a : option N) (b : bitset) (m : Mem.M N (status * bitset)) : Prop := forall w r b' w', m w = Ok (r, b') w' ->
  tick w' = tick w + (match a with None => 0 | Some _ => 1 end) /\
  v_cap (bs_bits b') = match a with None => v_cap (bs_bits b) | Some k => k end.
Lemma bdoes_vec a b n (m : Mem.M N (status * vector N)) : vdoes a (bs_bits b) m ->
  bdoes a b (let* (st, v) := m in ret (st, mkbitset n v)).
Proof. intros M w r b' w' H. apply bind_inv in H as ([r1 v1] & w1 & E & H). injection H as <- <- <-. exact (M _ _ _ _ E). Qed.
Lemma bdoes_keep b (m : Mem.M N status) : asks 0 m -> bdoes None b (keep b m).
Proof. intros M w r b' w' H. unfold keep in H. apply bind_inv in H as (r1 & w1 & E & H). injection H as <- <- <-. split; [exact (M _ _ _ E)|reflexivity]. Qed.
Lemma bdoes_with_arg a b x k : (forall p, bdoes a b (k (Some p))) -> bdoes a b (with_arg x k).
Proof.
  intros K w r s' w' H. unfold with_arg in H.
  match type of H with match k ?p ?w1 with _ => _ end = _ => destruct (k p w1) as [[r1 s1] w2|] eqn:F; [|discriminate H]; apply K in F end.
  injection H as <- <- <-. exact F.
Qed.
Lemma asks_get_pointer {C} (v : vector C) i : asks 0 (vget_pointer v i).
Proof. unfold vget_pointer. quiet. Qed.
Lemma asks_bs_change f b i : asks 0 (bs_change f b i).
Proof.
  unfold bs_change. destruct (_ <=? _); [apply asks_ret|]. apply asks_then; [apply asks_get_pointer|]. intros [st p].
  destruct (negb _); [apply asks_ret|]. apply asks_then; [apply asks_mread1|]. intros x. apply asks_then; [apply asks_mwrite|]. intros _. apply asks_ret.
Qed.
Lemma asks_each f b n : forall i, asks 0 (each_byte f b i n).
Proof.
  induction n as [|n IH]; intros i; cbn [each_byte]; [apply asks_ret|]. apply asks_then; [apply asks_get_pointer|]. intros [st p].
  destruct (negb _); [apply asks_ret|]. apply asks_then; [apply asks_mread1|]. intros x. apply asks_then; [apply asks_mwrite|]. intros _. apply IH.
Qed.
Lemma asks_bs_assign b i x : asks 0 (bs_assign b i x).
Proof. unfold bs_assign. destruct x; apply asks_bs_change. Qed.

Section Does.
  Variables (w0 : Mem.world N) (b : bitset) (l : list N) (bs : list bool).
  Notation v := (bs_bits b).
  Hypothesis (X : xrep w0 b [] l [] bs) (A : v_alloc v = true) (RM : bitroom (nlen bs)).
  Notation ask o := (basked (v_growth v) (v_shrink v) o bs (v_cap v)).

  Let GB : 1 <= v_growth v < 256 /\ v_shrink v < 256.
  Proof. destruct (growth_bounds _ _ _ _ _ (proj1 (x_rep _ _ _ _ _ _ X))) as [? ?]. lia. Qed.
  Let SZ : v_size v = (nlen bs + 7) / 8.
  Proof. rewrite (brep_size _ _ _ _ _ (x_rep _ _ _ _ _ _ X)). apply (x_len _ _ _ _ _ _ X). Qed.
  Let FIT : ((nlen bs + 7) / 8 + 1) * 256 < W64 + 256 /\ (nlen bs + 7) / 8 * 256 < W64.
  Proof. unfold bitroom in RM. lia. Qed.

  Lemma run_bitop_does o : legal_op None o bs -> bdoes (ask o) b (run_bitop b o).
  Proof.
    intros LG. unfold basked. destruct o as [i|i|i value|i| | | |value| | |n|]; cbn [run_bitop bchange legal_op] in *.
    - apply bdoes_keep, asks_bs_change.
    - apply bdoes_keep, asks_bs_change.
    - apply bdoes_keep, asks_bs_assign.
    - apply bdoes_keep, asks_bs_change.
    - apply bdoes_keep, asks_each.
    - apply bdoes_keep, asks_each.
    - apply bdoes_keep, asks_each.
    - apply bdoes_with_arg. intros p w r b' w' H. unfold bs_push in H. rewrite (x_size _ _ _ _ _ _ X) in H. cbn [bs_bits bs_size] in H.
      apply bind_inv in H as ([r1 b1] & w1 & E & H).
      assert (K : tick w1 = tick w + (match (if nlen bs mod 8 =? 0 then asked (mkcfg false (v_growth v) (v_shrink v) 1 (@None (list N -> list N))) (OPushBack [0]) ((nlen bs + 7) / 8) (v_cap v) else None) with None => 0 | Some _ => 1 end) /\
        v_cap (bs_bits b1) = match (if nlen bs mod 8 =? 0 then asked (mkcfg false (v_growth v) (v_shrink v) 1 (@None (list N -> list N))) (OPushBack [0]) ((nlen bs + 7) / 8) (v_cap v) else None) with None => v_cap v | Some k => k end).
      { destruct (N.eqb_spec (nlen bs mod 8) 0).
        - apply bind_inv in E as ([r2 v2] & w2 & E & E'). injection E' as <- <- <-. cbn [bs_bits].
          assert (F1 : ((nlen bs + 7) / 8 + 1) * 256 < W64) by (unfold bitroom in RM; lia).
          rewrite (asks_push_back v _ p A SZ ltac:(lia) _ _ _ E), (caps_push_back v _ p A SZ ltac:(lia) ltac:(nia) ltac:(lia) _ _ _ _ E).
          cbn [asked c_growth]. now destruct (_ <? _).
        - injection E as <- <- <-. cbn [bs_bits]. split; [lia|reflexivity]. }
      destruct (nlen bs mod 8 =? 0); destruct (negb (st_success r1)).
      + injection H as <- <- <-. exact K.
      + apply bind_inv in H as (r2 & w2 & E2 & H). injection H as <- <- <-. rewrite (asks_bs_assign _ _ _ _ _ _ E2), N.add_0_r. exact K.
      + injection H as <- <- <-. exact K.
      + apply bind_inv in H as (r2 & w2 & E2 & H). injection H as <- <- <-. rewrite (asks_bs_assign _ _ _ _ _ _ E2), N.add_0_r. exact K.
    - unfold bs_pop. rewrite (x_size _ _ _ _ _ _ X). cbn [bs_bits bs_size].
      assert (LS : nlen bs < W64). { unfold bitroom in RM. change W64 with 18446744073709551616 in *. lia. }
      rewrite wsub_small by lia.
      destruct (N.eqb_spec ((nlen bs - 1) mod 8) 0); destruct (N.eqb_spec (nlen bs mod 8) 1); try lia.
      + apply bdoes_vec. apply (vdoes_of _ _ _ _ _ (asks_pop_back v _ A SZ ltac:(lia) ltac:(nia)) (caps_pop_back v _ A SZ ltac:(lia) ltac:(nia) ltac:(nia)));
          cbn [asked c_growth c_shrink]; destruct (_ <? _); try reflexivity; now destruct (_ && _).
      + intros w r b' w' H. injection H as <- <- <-. cbn [bs_bits]. split; [lia|reflexivity].
    - apply bdoes_vec. unfold vclear.
      apply (vdoes_of _ _ _ _ _ (asks_resize v _ 0 None A ltac:(lia) SZ ltac:(lia) ltac:(lia)) (caps_resize v _ 0 None A SZ ltac:(lia) ltac:(lia)));
        cbn [asked c_growth c_shrink]; unfold fit, fitcap;
      repeat match goal with |- context [if ?b then _ else _] => destruct b end; reflexivity.
    - unfold bs_reserve. apply bdoes_vec. rewrite bits_to_bytes_small by exact LG. unfold vreserve, asked. destruct (N.ltb_spec (v_cap v) (n / 8)).
      + apply (vdoes_of _ _ _ _ _ (asks_vreallocate v _ A) (caps_vreallocate v _ A)); unfold fit, fitcap; destruct (N.leb_spec 1 (n / 8)); lia.
      + intros w r v' w' E. injection E as <- <- <-. split; [lia|reflexivity].
    - unfold bs_shrink_to_fit. apply bdoes_vec. unfold vshrink_to_fit, asked. cbv zeta. rewrite SZ.
      apply (vdoes_of _ _ _ _ _ (asks_vreallocate v _ A) (caps_vreallocate v _ A)); unfold fit, fitcap;
        repeat match goal with |- context [if ?b then _ else _] => destruct b end; reflexivity.
  Qed.
End Does.

(** ** Refused requests *)
Lemma bs_test_cap n v c i w : bs_test (mkbitset n (set_cap v c)) i w = bs_test (mkbitset n v) i w.
Proof. reflexivity. Qed.
Lemma shown_any w b c l bits n : brep w (set_cap (bs_bits b) c) [] l [] -> Forall isbyte l -> bs_size b = n -> nlen bits <= n ->
  nlen bits <= 8 * nlen l -> (forall i, nlen bits <= i < n -> nlen l <= i / 8) -> (forall i, i < nlen bits -> nnth i bits = Some (bitat l i)) ->
  bstate_shown w b (mkbst n bits (nlen l) (v_cap (bs_bits b))).
Proof.
  intros R B S0 LE L8 OUT H. split; [unfold bs_get_size; now rewrite S0|]. cbn [bt_bits bt_bytes bt_cap]. split; [|split].
  - intros i _. destruct b as [sz v]. cbn [bs_size bs_bits] in *. subst sz. rewrite <- (bs_test_cap n v c).
    unfold bs_test. cbn [bs_size bs_bits]. destruct (N.leb_spec n i) as [GE|LT].
    { now rewrite nnth_ge by lia. }
    destruct (N.lt_ge_cases i (nlen bits)) as [IN|NI].
    + rewrite (H _ IN). assert (LI : i / 8 < nlen l) by lia. destruct (nsplit1 _ _ LI) as (a & x & d & -> & LA).
      rewrite <- LA. rewrite (bind_ok _ _ _ _ _ (bptr _ _ _ _ _ (nlen a) R ltac:(rewrite LA; exact LI))). sst.
      rewrite (bind_ok _ _ _ _ _ (bread1 _ _ _ _ _ _ _ R)). rewrite bitat_mid by congruence.
      apply Forall_app in B as [B1 B2]. inversion_clear B2. rewrite test_bit by (auto using bit_offset_lt).
      now destruct (N.testbit x (bit_offset i)).
    + rewrite (bind_ok _ _ _ _ _ (bptr_out _ _ _ _ _ (i / 8) R (OUT i (conj NI LT)))). now rewrite nnth_ge by lia.
  - unfold bs_get_size_bytes, vget_size. pose proof (brep_size _ _ _ _ _ R) as E. cbn [set_cap v_size] in E. now rewrite E.
  - reflexivity.
Qed.

Section Refused.
  Variables (w : Mem.world N) (b : bitset) (l : list N) (bs : list bool) (e : N).
  Notation v := (bs_bits b).
  Hypothesis (X : xrep w b [] l [] bs) (A : v_alloc v = true) (RM : bitroom (nlen bs)) (O : orc w (tick w) = AFail e).
  Notation ask o := (basked (v_growth v) (v_shrink v) o bs (v_cap v)).

  Let GB : 1 <= v_growth v < 256 /\ v_shrink v < 256.
  Proof. destruct (growth_bounds _ _ _ _ _ (proj1 (x_rep _ _ _ _ _ _ X))) as [? ?]. lia. Qed.
  Let R : vrep w v [] (cells l) [].
  Proof. apply X. Qed.
  Let E1 : v_esz v = 1.
  Proof. apply X. Qed.
  Let D0 : v_dtor v = None.
  Proof. apply X. Qed.
  Let LL : nlen (cells l) = (nlen bs + 7) / 8.
  Proof. rewrite nlen_cells. apply X. Qed.
  Let FIT : (nlen bs + 7) / 8 * 256 < W64.
  Proof. unfold bitroom in RM. lia. Qed.

  Lemma push_refused x : nlen bs mod 8 = 0 -> v_cap v < (nlen bs + 7) / 8 + 1 ->
    run_bitop b (BPush x) w =
      Ok (err_status e, mkbitset (nlen bs + 1) (set_cap v (((nlen bs + 7) / 8 + 1) * v_growth v))) (dropw (ticked (argw w [0])) (nextb w)).
  Proof.
    intros M FULL. pose proof (x_size _ _ _ _ _ _ X) as S0.
    destruct (argw_rep _ _ _ _ _ [0] R) as (R1 & _ & _).
    assert (E : vpush_back v (Some (mkptr (nextb w) 0)) (argw w [0]) = Ok (err_status e, set_cap v (((nlen bs + 7) / 8 + 1) * v_growth v)) (ticked (argw w [0]))).
    { unfold vpush_back. cbn [nonnull negb]. rewrite (bind_ok _ _ _ _ _ (rep_assert_valid _ _ _ _ _ R1)).
      rewrite <- LL. rewrite (bind_ok _ _ _ _ _ (vgrow_refused _ _ _ _ _ 1 _ R1 A O ltac:(lia) ltac:(unfold fits, bitroom in *; lia) ltac:(lia))).
      now rewrite st_success_err. }
    cbn [run_bitop]. unfold with_zero, with_arg. unfold argw in E. unfold bs_push. cbn [bs_bits bs_size]. rewrite S0.
    destruct (N.eqb_spec (nlen bs mod 8) 0); [|lia].
    rewrite wadd_small by (unfold bitroom in RM; change W64 with 18446744073709551616 in *; lia).
    unfold bind at 1 2. rewrite E. unfold ret at 1. rewrite st_success_err. reflexivity.
  Qed.

  Lemma run_bitop_refused o k : legal_op None o bs -> ask o = Some k ->
    exists w' b' l', run_bitop b o w = Ok (err_status e, b') w' /\ overstated w v w' (bs_bits b') [] (cells l') [] k /\
      bs_size b' = bt_size (brefused o k bs) /\ nlen l' = bt_bytes (brefused o k bs) /\ Forall isbyte l' /\
      (forall i, i < nlen (bt_bits (brefused o k bs)) -> nnth i (bt_bits (brefused o k bs)) = Some (bitat l' i)).
  Proof.
    intros LG AK. destruct X as [BR B S0 L H]. unfold basked in AK.
    assert (KEEP : forall n (m : Mem.M N (status * vector N)), m w = Ok (err_status e, set_cap v k) (ticked w) ->
      exists w' b' l', (let* (st, v) := m in ret (st, mkbitset n v)) w = Ok (err_status e, b') w' /\
        overstated w v w' (bs_bits b') [] (cells l') [] k /\ bs_size b' = n /\ l' = l).
    { intros n m E. rewrite (bind_ok _ _ _ _ _ E). eexists _, _, l. split; [reflexivity|]. split; [|now split].
      apply overstated_same; [exact A|now apply good_refl]. }
    destruct o as [i|i|i value|i| | | |value| | |n|]; cbn [run_bitop bchange legal_op brefused] in *; try discriminate AK.
    - destruct (N.eqb_spec (nlen bs mod 8) 0); [|discriminate AK]. cbn [asked c_growth] in AK.
      destruct (N.ltb_spec (v_cap v) ((nlen bs + 7) / 8 + 1)) as [FULL|]; [|discriminate AK]. injection AK as <-.
      exists (dropw (ticked (argw w [0])) (nextb w)), (mkbitset (nlen bs + 1) (set_cap v (((nlen bs + 7) / 8 + 1) * v_growth v))), l. split.
      + now apply push_refused.
      + cbn [bs_bits bs_size bt_size bt_bytes bt_bits]. split; [|auto]. split; [reflexivity|]. rewrite set_cap_back. apply (dropw_good w v [] _ [] _ _ _ [0] R).
        apply good_ticked; [exact A|]. apply good_refl. exact (proj1 (argw_rep _ _ _ _ _ [0] R)).
    - destruct (N.eqb_spec (nlen bs mod 8) 1); [|discriminate AK]. cbn [asked c_growth c_shrink] in AK.
      destruct (N.ltb_spec 0 ((nlen bs + 7) / 8)); [|discriminate AK]. destruct (_ && _) eqn:BT; [|discriminate AK]. injection AK as <-.
      destruct (pop_back_refused w v [] (cells l) [] e R A O) as (w' & v' & E & OV & _).
      { rewrite E1, LL. unfold fits. lia. } { lia. } { now rewrite LL. }
      rewrite LL in OV. exists w', (mkbitset (nlen bs - 1) v'), (nfirst (nlen l - 1) l). split.
      + unfold bs_pop. rewrite S0. cbn [bs_bits bs_size]. rewrite wsub_small by (apply bitroom_le with (m := nlen bs) in RM; unfold bitroom in RM; change W64 with 18446744073709551616 in *; lia).
        destruct (N.eqb_spec ((nlen bs - 1) mod 8) 0); [|lia]. now rewrite (bind_ok _ _ _ _ _ E).
      + cbn [bs_bits bs_size whole bt_size bt_bytes bt_bits]. split; [|split; [now rewrite nlen_cut|split; [rewrite nlen_cut, nlen_nfirst; lia|split]]].
        * destruct OV as [OC OG]. split; [exact OC|]. replace (cells (nfirst (nlen l - 1) l)) with (ldelete ((nlen bs + 7) / 8 - 1) 1 (cells l)); [exact OG|].
          unfold ldelete. rewrite nfirst_cells, nskip_cells, <- cells_app. rewrite (nskip_all _ l), app_nil_r by lia. now rewrite L.
        * rewrite <- (nfirst_skip (nlen l - 1) l) in B. now apply Forall_app in B.
        * intros i LI. rewrite nlen_cut in LI. rewrite nnth_nfirst by lia. rewrite H by lia. f_equal.
          rewrite <- (nfirst_skip (nlen l - 1) l) at 1. apply bitat_app1. rewrite nlen_nfirst. lia.
    - destruct (resize_refused' w v [] (cells l) [] 0 None k e R A O) as (w' & v' & xs' & E & OV & XX).
      { unfold fits. lia. }
      { rewrite LL. exact AK. }
      exists w', (mkbitset 0 v'), l. split; [unfold bs_clear, vclear; now rewrite (bind_ok _ _ _ _ _ E)|].
      cbn [bs_bits bs_size bt_size bt_bytes bt_bits]. split; [|split; [reflexivity|split; [exact L|split; [exact B|]]]].
      + replace (cells l) with xs'; [exact OV|]. rewrite D0 in XX. destruct (0 <? _); injection XX as -> _; [|reflexivity]; rewrite ?nskip_0; reflexivity.
      + intros i LI. change (nlen (@nil bool)) with 0 in LI. lia.
    - cbn [asked] in AK. destruct (N.ltb_spec (v_cap v) (n / 8)); [|discriminate AK]. injection AK as <-.
      destruct (KEEP (bs_size b) (vreserve v (bits_to_bytes n))) as (w' & b' & l' & E & OV & SZ & ->).
      { rewrite bits_to_bytes_small by exact LG. unfold vreserve. destruct (N.ltb_spec (v_cap v) (n / 8)); [|lia].
        rewrite (vreallocate_refused w v [] _ [] (n / 8) e R A O) by lia. now replace (N.max 1 (n / 8)) with (n / 8) by lia. }
      exists w', b', l. cbn [bs_bits bs_size bt_size bt_bytes bt_bits]. split; [exact E|]. split; [exact OV|]. split; [congruence|auto].
    - destruct (KEEP (bs_size b) (vshrink_to_fit v)) as (w' & b' & l' & E & OV & SZ & ->).
      { unfold vshrink_to_fit. rewrite (brep_size _ _ _ _ _ BR), L. cbn [asked] in AK.
        rewrite (vreallocate_refused w v [] _ [] _ e R A O).
        - destruct (N.leb_spec 1 ((nlen bs + 7) / 8)); [injection AK as <-; now replace (N.max 1 ((nlen bs + 7) / 8)) with ((nlen bs + 7) / 8) by lia|].
          destruct (N.ltb_spec 1 (v_cap v)); [|discriminate AK]. injection AK as <-. now replace (N.max 1 ((nlen bs + 7) / 8)) with 1 by lia.
        - destruct (N.leb_spec 1 ((nlen bs + 7) / 8)); [now left|]. destruct (N.ltb_spec 1 (v_cap v)); [now right|discriminate AK]. }
      exists w', b', l. cbn [bs_bits bs_size bt_size bt_bytes bt_bits]. split; [exact E|]. split; [exact OV|]. split; [congruence|auto].
  Qed.
End Refused.

(** ** Granted requests, and calls that make none *)
Section Any.
  Variables (w : Mem.world N) (b : bitset) (l : list N) (bs : list bool).
  Notation v := (bs_bits b).
  Hypothesis (X : xrep w b [] l [] bs) (A : v_alloc v = true) (RM : bitroom (nlen bs)).
  Notation ask o := (basked (v_growth v) (v_shrink v) o bs (v_cap v)).

  Lemma run_bitop_granted o : legal_op None o bs -> (ask o = None \/ exists fill, orc w (tick w) = AOk fill) ->
    exists w' b' l', run_bitop b o w = Ok (fst (bitstep None o bs), b') w' /\
      xrep w' b' [] l' [] (snd (bitstep None o bs)) /\ bgood w v w' (bs_bits b') [] l' [].
  Proof.
    intros LG AK. assert (LM : bitlimit b = None) by (unfold bitlimit; now rewrite A). rewrite <- LM in *.
    destruct (orc w (tick w)) as [st|fill] eqn:O.
    2:{ destruct (run_bitop_ok o w b [] l [] bs X) as (w' & b' & l' & E & X' & G & _); auto.
        - intros _. eauto.
        - now exists w', b', l'. }
    destruct AK as [AK|[? AK]]; [|discriminate AK].
    pose (o' := fun t => if t =? tick w then AOk (fun _ => 0) else AFail 0).
    assert (X1 : xrep (with_oracle w o') b [] l [] bs).
    { destruct X as [[R RE] B S0 L H]. split; auto. split; [|exact RE]. apply rep_reorc; [exact R|]. intros NF.
      destruct (NF A (tick w + 1)) as [fill E]. cbn [orc with_oracle] in E. unfold o' in E.
      destruct (N.eqb_spec (tick w + 1) (tick w)); [lia|discriminate E]. }
    destruct (run_bitop_ok o (with_oracle w o') b [] l [] bs X1) as (w2 & b' & l' & E & X' & G & _); auto.
    { intros _. cbn [orc tick with_oracle]. unfold o'. rewrite N.eqb_refl. eauto. }
    rewrite LM in LG. destruct (run_bitop_does _ b l bs X1 A RM o LG _ _ _ _ E) as [T _]. rewrite AK, LM in T. cbn [tick with_oracle] in T.
    destruct (lo_run_bitop _ _ _ _ _ E) as (O2 & _ & LO). specialize (LO (orc w)). rewrite with_oracle_back in LO.
    assert (BG : bgood w v (with_oracle w2 (orc w)) (bs_bits b') [] l' []).
    { destruct G as [[GR GE] GC GF GK]. destruct GC as (A' & GC'). split.
      - split; [|exact GE]. apply rep_reorc; [exact GR|]. intros NF. destruct (NF ltac:(congruence) (tick w)) as [fill E'].
        cbn [orc with_oracle] in E'. congruence.
      - split; [exact A'|exact GC'].
      - destruct GF. split; auto.
      - exact GK. }
    exists (with_oracle w2 (orc w)), b', l'. split; [apply LO; intros; cbn [tick with_oracle] in *; lia|]. split; [|exact BG].
    destruct X'. split; auto. apply BG.
  Qed.

  Lemma basked_pos o k : legal_op None o bs -> ask o = Some k -> 1 <= k < W64.
  Proof.
    intros LG AK. pose proof (proj1 (x_rep _ _ _ _ _ _ X)) as R. pose proof (r_cap _ _ _ _ _ R) as CP. destruct (growth_bounds _ _ _ _ _ R) as [GB SB].
    unfold bitroom in RM. change W64 with 18446744073709551616 in *. unfold basked, bchange, asked in AK. cbn [c_growth c_shrink] in AK. cbv zeta in AK. destruct o; cbn [legal_op] in LG; change W32 with 4294967296 in *;
      repeat match type of AK with
      | (if ?b then _ else _) = _ => destruct b eqn:?
      | match (if ?b then _ else _) with _ => _ end = _ => destruct b eqn:?
      | None = Some _ => discriminate AK
      | Some _ = Some _ => injection AK as <-
      end; try discriminate AK; try nia.
  Qed.

  Theorem run_bitop_any o : legal_op None o bs ->
    let g := v_growth v in let t := v_shrink v in let ans := orc w (tick w) in
    exists r w' b' s', 
      run_bitop b o w = Ok (r, b') w' /\ bcall g t ans o bs (v_cap v) r s' /\ v_cap (bs_bits b') = bt_cap s' /\
      tick w' = tick w + brequests g t o bs (v_cap v) /\ orc w' = orc w /\
      (brefuses g t ans o bs (v_cap v) -> bstate_shown w' b' s' /\ 1 <= v_cap (bs_bits b') < W64 /\
         exists l', good w v w' (set_cap (bs_bits b') (v_cap v)) [] (cells l') []) /\
      ((brefuses g t ans o bs (v_cap v) -> busable (v_cap v) s') ->
         exists l', xrep w' b' [] l' [] (bt_bits s') /\ bgood w v w' (bs_bits b') [] l' []).
  Proof.
    intros LG g t ans. pose proof (run_bitop_does w b l bs X A RM o LG) as AS.
    assert (DONE : (ask o = None \/ exists fill, orc w (tick w) = AOk fill) -> exists r w' b' s', 
      run_bitop b o w = Ok (r, b') w' /\ bcall g t ans o bs (v_cap v) r s' /\ v_cap (bs_bits b') = bt_cap s' /\
      tick w' = tick w + brequests g t o bs (v_cap v) /\ orc w' = orc w /\
      (brefuses g t ans o bs (v_cap v) -> bstate_shown w' b' s' /\ 1 <= v_cap (bs_bits b') < W64 /\
         exists l', good w v w' (set_cap (bs_bits b') (v_cap v)) [] (cells l') []) /\
      ((brefuses g t ans o bs (v_cap v) -> busable (v_cap v) s') ->
         exists l', xrep w' b' [] l' [] (bt_bits s') /\ bgood w v w' (bs_bits b') [] l' [])).
    { intros AK. destruct (run_bitop_granted o LG AK) as (w' & b' & l' & E & X' & G).
      destruct (AS _ _ _ _ E) as [T K].
      exists (fst (bitstep None o bs)), w', b', (whole (snd (bitstep None o bs)) (v_cap (bs_bits b'))). split; [exact E|]. split.
      - unfold bcall, g, t, ans. rewrite K. destruct AK as [->|[fill ->]]; [auto|]. cbn [refusal]. now destruct (ask o).
      - split; [reflexivity|]. split; [exact T|]. split; [exact (fr_orc _ _ _ _ (b_frame _ _ _ _ _ _ _ G))|]. split; [|eauto].
        intros [Y Z]. exfalso. unfold ans in Z. destruct AK as [AK|[fill AK]]; [unfold g, t in Y; congruence|]. now rewrite AK in Z. }
    destruct (ask o) as [k|] eqn:AK; [|auto]. destruct (orc w (tick w)) as [e|fill] eqn:O; [|eauto]. clear DONE.
    destruct (run_bitop_refused w b l bs e X A RM O o k LG AK) as (w' & b' & l' & E & OV & SZ & LB & B & BITS). pose proof OV as [OC OG].
    destruct (AS _ _ _ _ E) as [T K]. assert (K1 : 1 <= k < W64) by (eapply basked_pos; eauto).
    assert (CE : bt_cap (brefused o k bs) = k) by now destruct o.
    exists (err_status e), w', b', (brefused o k bs). split; [exact E|]. split.
    { unfold bcall, g, t, ans. rewrite AK. now split. }
    split; [congruence|]. split; [unfold brequests, g, t; now rewrite AK|]. split; [apply (fr_orc _ _ _ _ (g_frame _ _ _ _ _ _ _ OG))|].
    assert (BX : forall u, good w v w' u [] (cells l') [] -> bgood w v w' u [] l' []).
    { intros u [GR GC GF]. destruct X as [(R & E1 & D1) _]. destruct GC as (A' & B' & C' & E' & D') eqn:EG.
      split; [|exact (conj A' (conj B' (conj C' (conj E' D'))))|exact GF|intros; congruence]. split; [exact GR|]. split; congruence. }
    split.
    - intros _. split; [|split; [lia|now exists l']].
      replace (brefused o k bs) with (mkbst (bt_size (brefused o k bs)) (bt_bits (brefused o k bs)) (nlen l') (v_cap (bs_bits b'))) by
        (rewrite LB, OC; now destruct o).
      pose proof (b_rep _ _ _ _ _ _ _ (BX _ OG)) as BR. destruct o; cbn [legal_op] in LG; try discriminate AK;
        (apply (shown_any w' b' (v_cap v) l'); auto; [| |]); try rewrite LB; cbn [brefused whole bt_size bt_bytes bt_bits]; rewrite ?nlen_cut; try lia;
        try (change (nlen (@nil bool)) with 0; lia).
      all: intros i; unfold basked, bchange in AK; destruct (N.eqb_spec (nlen bs mod 8) 0); try discriminate AK; lia.
    - intros US. destruct US as (U0 & U1 & U2); [split; [unfold g, t; now rewrite AK|discriminate]|]. rewrite CE in *. rewrite <- LB in U1.
      exists l'. assert (G2 : good w v w' (bs_bits b') [] (cells l') []).
      { eapply usable_rep; eauto; [lia|]. now rewrite nlen_cells. }
      split; [|now apply BX]. split; auto.
      + apply BX, G2.
      + rewrite SZ, U0. reflexivity.
      + rewrite LB, U0. reflexivity.
  Qed.
End Any.

(** ** A refused initialisation *)
Lemma bitinit_refusal (w : world) n g t st : bitinit_params_ok w n g t -> orc w (tick w) = AFail st ->
  exists b w', with_zero (fun z => bs_init_ex z n true g t) w = Ok (err_status st, b) w' /\
    (forall k, heap w' k = heap w k) /\ tick w' = tick w + 1 /\ dlog w' = dlog w.
Proof.
  intros (W & G & _) O. unfold with_zero, with_arg, bs_init_ex, vinit_ex, bind, alloc, VECTOR_MIN_CAPACITY. cbv zeta.
  destruct (N.ltb_spec g 1); [lia|]. change (1 =? 0) with false. cbn [v_esz v_cap tick orc negb orb andb].
  destruct (N.eqb_spec (N.max 1 (bits_to_bytes n)) 0); [lia|]. change (1 =? 0) with false. cbn [orb andb]. rewrite O. unfold ret at 1. rewrite st_success_err.
  cbn [negb]. unfold ret. eexists _, _. split; [reflexivity|]. cbn. split; [|auto].
  intros k. unfold hset. destruct (N.eqb_spec k (nextb w)) as [->|]; [|reflexivity]. symmetry. apply W. lia.
Qed.
