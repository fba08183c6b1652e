(** Formatting a number with an allocator that may refuse any request: the unsigned functions. *)
From Verif Require Import Base NListFacts Status Mem MemFacts VectorModel VectorSpec VectorDriver VectorRep VectorProofs VectorProofs2
  VectorRefine VectorFail VectorMore StringModel StringSpec StringDriver StringBytes StringProofs StringFinal StringFinal2 FormatModel FormatSpec
  FormatDigits FormatDriver FormatProofs FormatRun
  OracleProofs RefuseSpec RefuseProofs StrRefuseSpec StrRefuseProofs StrRefuseProofs2 ProgSpec ProgProofs ExhaustSpec ExhaustProofs ExhaustProofs2 FmtRefuseSpec.
From Coq Require Import ZifyBool ZifyNat ZifyN.

Implicit Types (w : world) (s : str).

(** A string whose capacity field is wrong: with the true one it would be a good string. *)
Definition sleft w s w' s' cs' : Prop :=
  exists c, sgood w s w' (with_vec s' (set_cap (s_vec s') c)) [] cs' [] /\ 1 <= v_cap (s_vec s').
(** A computation that makes at most [n] requests: all are granted, with the outcome [S], or the last one is refused, which leaves
    a text as in [L]. *)
Definition outcome w s (L : list N -> Prop) (S : status -> list N -> Prop) (n : N) (x : res N (status * str)) : Prop :=
  exists r s' w' cs', x = Ok (r, s') w' /\ tick w <= tick w' <= tick w + n /\ orc w' = orc w /\
    ((sgood w s w' s' [] cs' [] /\ S r cs' /\ all_granted (orc w) (tick w) (tick w')) \/
     (exists e, tick w < tick w' /\ all_granted (orc w) (tick w) (tick w' - 1) /\ orc w (tick w' - 1) = AFail e /\ r = err_status e /\
        sleft w s w' s' cs' /\ L cs')).

Lemma outcome_good w s L (S : status -> list N -> Prop) n r s' w' cs' : sgood w s w' s' [] cs' [] -> S r cs' -> all_granted (orc w) (tick w) (tick w') ->
  tick w <= tick w' <= tick w + n -> outcome w s L S n (Ok (r, s') w').
Proof. intros G H A T. exists r, s', w', cs'. split; [reflexivity|]. split; [exact T|]. split; [apply G|]. left. auto. Qed.
Lemma outcome_weaken w s (L : list N -> Prop) (S : status -> list N -> Prop) n x (L' : list N -> Prop) (S' : status -> list N -> Prop) n' : outcome w s L S n x ->
  (forall c, L c -> L' c) -> (forall r c, S r c -> S' r c) -> n <= n' -> outcome w s L' S' n' x.
Proof.
  intros (r & s' & w' & cs' & E & T & O & H) HL HS LE. exists r, s', w', cs'. split; [exact E|]. split; [lia|]. split; [exact O|].
  destruct H as [(G & Q & A)|(e & T1 & A & OF & R & SL & Q)]; [left|right]; eauto 10.
Qed.
Lemma all_granted_nil (ans : N -> aresp N) t : all_granted ans t t.
Proof. intros u L. lia. Qed.
Lemma all_granted_app (ans : N -> aresp N) t u t' : all_granted ans t u -> all_granted ans u t' -> all_granted ans t t'.
Proof. intros A B x L. destruct (N.lt_ge_cases x u); [apply A|apply B]; lia. Qed.
Lemma sleft_trans w s w1 s1 cs cs1 w2 s2 cs2 : srep w s [] cs [] -> sgood w s w1 s1 [] cs1 [] -> sleft w1 s1 w2 s2 cs2 -> sleft w s w2 s2 cs2.
Proof.
  intros R G (c & G2 & C). exists c. split; [|exact C]. eapply sgood_trans; [exact G|eapply brep_wf; apply R|exact G2].
Qed.
(** One computation after another; [x2] starts in the state that the first one leaves when it succeeds. *)
Lemma outcome_bind w s cs (L : list N -> Prop) (S1 S : status -> list N -> Prop) n1 n2 n (m : Mem.M N (status * str)) (k : status * str -> Mem.M N (status * str)) :
  srep w s [] cs [] -> outcome w s L S1 n1 (m w) -> n1 + n2 <= n ->
  (forall r c, S1 r c -> r = ST_SUCCESS) ->
  (forall e s1, k (err_status e, s1) = ret (err_status e, s1)) ->
  (forall w1 s1 cs1, sgood w s w1 s1 [] cs1 [] -> S1 ST_SUCCESS cs1 -> tick w <= tick w1 -> outcome w1 s1 L S n2 (k (ST_SUCCESS, s1) w1)) ->
  outcome w s L S n (bind m k w).
Proof.
  intros R (r & s1 & w1 & c1 & E & T & O & H) LE SU KE KO. rewrite (bind_ok _ _ _ _ _ E).
  destruct H as [(G & Q & A)|(e & T1 & A & OF & -> & SL & Q)].
  - pose proof (SU _ _ Q) as ->. destruct (KO w1 s1 c1 G Q ltac:(lia)) as (r2 & s2 & w2 & c2 & E2 & T2 & O2 & H2).
    exists r2, s2, w2, c2. split; [exact E2|]. split; [lia|]. split; [congruence|]. rewrite O in H2.
    destruct H2 as [(G2 & Q2 & A2)|(e & T3 & A2 & OF & -> & SL & Q2)]; [left|right].
    + split; [eapply sgood_trans; [exact G|eapply brep_wf; apply R|exact G2]|]. split; [exact Q2|eapply all_granted_app; eauto].
    + exists e. split; [lia|]. split; [eapply all_granted_app; eauto|]. split; [exact OF|]. split; [reflexivity|]. split; [|exact Q2].
      eapply sleft_trans; eauto.
  - rewrite KE. exists (err_status e), s1, w1, c1. split; [reflexivity|]. split; [lia|]. split; [exact O|]. right. exists e. auto 10.
Qed.

(** ** Resize to at least the present length *)
Lemma grow_granted w s cs n : srep w s [] cs [] -> sgrants w s -> v_alloc (s_vec s) = true -> nlen cs <= n -> (n + 1) * 256 < W64 ->
  exists r w1 s1 cs1, sresize s n w = Ok (r, s1) w1 /\ sgood w s w1 s1 [] cs1 [] /\
    (r = ST_SUCCESS /\ exists junk, cs1 = cs ++ junk /\ nlen cs + nlen junk = n /\ begins_with_nul junk).
Proof.
  intros [R FL] GR A LE F. pose proof (brep_cap _ _ _ _ _ R) as CAP. unfold sresize. rewrite wadd_small by lia.
  destruct (bresize_ok w (s_vec s) [] (cs ++ [0]) [] (n + 1) R GR) as (r & w1 & v1 & l1 & E1 & G1 & K).
  { rewrite nlen_app. change (nlen [0]) with 1. lia. } { lia. }
  rewrite (bind_ok _ _ _ _ _ E1). rewrite nlen_app in K. change (nlen [0]) with 1 in K.
  assert (C : r = ST_SUCCESS /\ exists new, l1 = cs ++ [0] ++ new /\ nlen cs + nlen new = n).
  { destruct (N.leb_spec (n + 1) (nlen cs + 1)).
    - destruct K as [-> ->]. split; [reflexivity|]. exists []. cbn [app]. split; [apply nfirst_all; rewrite nlen_app; change (nlen [0]) with 1; lia|].
      change (nlen (@nil N)) with 0. lia.
    - unfold bholds in K. rewrite A in K. cbn [orb] in K. destruct K as [-> (new & -> & LN)]. split; [reflexivity|].
      exists new. rewrite app_assoc. split; [reflexivity|]. lia. }
  destruct C as (-> & new & -> & LN). sst. set (l' := [0] ++ new) in *. assert (LL : nlen l' = nlen new + 1) by (unfold l'; rewrite nlen_app; change (nlen [0]) with 1; lia).
  destruct (nlast l' (nlen l' - 1)) as [z Z]; [lia|].
  assert (G1' : bgood w (s_vec s) w1 v1 [] ((cs ++ nfirst (nlen l' - 1) l') ++ [z]) [])
    by (rewrite <- app_assoc, <- Z; exact G1).
  destruct (nullterminate_ok w1 (with_vec s v1) [] _ z [] (b_rep _ _ _ _ _ _ _ G1')) as (w2 & E2 & G2).
  rewrite (bind_ok _ _ _ _ _ E2). exists ST_SUCCESS, w2, (with_vec s v1), (cs ++ nfirst (nlen l' - 1) l'). split; [reflexivity|]. split.
  - split; [|reflexivity]. eapply bgood_trans; [exact G1'|eapply brep_wf; exact R|exact G2].
  - split; [reflexivity|]. eexists. split; [reflexivity|]. split; [rewrite nlen_nfirst; lia|].
    destruct new as [|y new]; [exact I|]. rewrite nlen_cons in LL. unfold l' at 2. unfold begins_with_nul. cbn [app].
    unfold nfirst. destruct (N.to_nat (nlen l' - 1)) eqn:Z0; [lia|reflexivity].
Qed.
Lemma sleft_refused w s cs k : srep w s [] cs [] -> v_alloc (s_vec s) = true -> 1 <= k ->
  sleft w s (ticked w) (with_vec s (set_cap (s_vec s) k)) cs.
Proof.
  intros R A K. exists (v_cap (s_vec s)). split; [|exact K]. destruct R as [[R [E D]] FL].
  destruct (overstated_same w (s_vec s) w [] (cells (cs ++ [0])) [] k A (good_refl _ _ _ _ _ R)) as (_ & [GR GC GF]).
  split; [|reflexivity]. split; auto. split; [exact GR|]. cbn. auto.
Qed.
Lemma resize_any w s cs n : srep w s [] cs [] -> v_alloc (s_vec s) = true -> nlen cs <= n -> (n + 1) * 256 < W64 ->
  outcome w s (fun c => c = cs) (fun r c => r = ST_SUCCESS /\ exists junk, c = cs ++ junk /\ nlen cs + nlen junk = n /\ begins_with_nul junk) 1 (sresize s n w).
Proof.
  intros R A LE F. pose proof (srep_size _ _ _ _ _ R) as SZ. pose proof R as [[V _] _]. destruct (growth_bounds _ _ _ _ _ V) as [GB SB].
  pose proof (r_cap _ _ _ _ _ V) as C1.
  pose (a := asked (mkcfg false (v_growth (s_vec s)) (v_shrink (s_vec s)) 1 (@None (list N -> list N))) (OResize (n + 1)) (nlen cs + 1) (v_cap (s_vec s))).
  assert (DO : sdoes a s (sresize s n)).
  { unfold sresize. rewrite wadd_small by lia. apply after_does.
    - apply (resize_does _ _ s cs A SZ C1 eq_refl eq_refl GB SB); lia.
    - intros v'. unfold nullterminate. quiet.
    - intros v' u r' s' u' E. unfold bind, ret in E. destruct (nullterminate _ u); [|discriminate]. now injection E as <- <- <-. }
  destruct a as [k|] eqn:AK; [destruct (orc w (tick w)) as [e|fill] eqn:O|].
  - subst a. exists (err_status e), (with_vec s (set_cap (s_vec s) k)), (ticked w), cs.
    split; [|split; [cbn; lia|split; [reflexivity|right]]].
    + unfold sresize. rewrite wadd_small by lia. apply refused_fail.
      apply (grown_refused w s cs e R A w (n + 1) k V O); [lia|lia|exact AK].
    + exists e. cbn [tick ticked]. replace (tick w + 1 - 1) with (tick w) by lia. split; [lia|]. split; [apply all_granted_nil|].
      split; [exact O|]. split; [reflexivity|]. split; [|reflexivity]. apply sleft_refused; auto.
      cbn [asked c_shrink c_growth] in AK. destruct (_ =? _); [discriminate AK|]. destruct (_ || _); [|discriminate AK].
      destruct (N.leb_spec 1 ((n + 1) * v_growth (s_vec s))); [injection AK as <-; lia|]. destruct (_ <? _); [|discriminate AK]. injection AK as <-. lia.
  - destruct (from_granted w s cs R A (sresize s n) _ (Some k) (fun w' R' G _ => grow_granted w' s cs n R' G A LE F) DO (lo_sresize s n)) as (r & w2 & s' & cs' & E & G & H & T).
    { right. eauto. }
    rewrite E. eapply outcome_good; eauto; [|lia]. intros u L. replace u with (tick w) by lia. eauto.
  - destruct (from_granted w s cs R A (sresize s n) _ None (fun w' R' G _ => grow_granted w' s cs n R' G A LE F) DO (lo_sresize s n)) as (r & w2 & s' & cs' & E & G & H & T).
    { now left. }
    rewrite E. eapply outcome_good; eauto; [|lia]. intros u L. lia.
Qed.

(** ** Decimal *)
Lemma outcome_quiet w s (L : list N -> Prop) (S : status -> list N -> Prop) (m : Mem.M N (status * str)) r s' w' cs' : asks 0 m -> m w = Ok (r, s') w' ->
  sgood w s w' s' [] cs' [] -> S r cs' -> outcome w s L S 0 (m w).
Proof. intros A E G H. pose proof (A _ _ _ E) as T. rewrite E. eapply outcome_good; eauto; [|lia]. intros u LU. lia. Qed.
Lemma sgood_alloc w s w' s' cs' : sgood w s w' s' [] cs' [] -> v_alloc (s_vec s') = v_alloc (s_vec s).
Proof. intros [[_ [H _] _ _] _]. exact H. Qed.
Lemma dec_any w s cs max v pad ds : srep w s [] cs [] -> v_alloc (s_vec s) = true ->
  N.even max = true -> 2 <= max <= 20 -> v < 10 ^ max -> pad < 256 -> (nlen cs + pad + 20 + 1) * 256 < W64 -> numeral 10 false v ds ->
  outcome w s (fun c => c = cs) (fun r c => r = ST_SUCCESS /\ c = cs ++ padded pad ds)
    (if v_cap (s_vec s) <? nlen cs + N.max (nlen ds) pad + 1 then 1 else 0) (sappend_dec max s v pad w).
Proof.
  intros SR A EM M V P F NU. pose proof SR as [R FL]. pose proof (brep_cap _ _ _ _ _ R) as CAP.
  destruct (dec_digits_ok w max v EM) as (v' & buf & buf2 & ds' & E1 & E2 & NU' & LB & LB2 & LD & DD); [lia|exact V|].
  pose proof (numeral_unique 10 false v ds ds' ltac:(lia) NU NU') as <-. clear NU'.
  unfold sappend_dec. rewrite (bind_ok _ _ _ _ _ E1). cbv beta iota.
  rewrite (bind_ok _ _ _ _ _ E2). cbv zeta. rewrite (srep_size _ _ _ _ _ SR).
  set (odd := if v' <? 10 then 1 else 0) in *. assert (odd <= 1) by (subst odd; destruct (v' <? 10); lia).
  rewrite (wsub_small (nlen buf2)) by lia. rewrite <- LD.
  set (k := N.max (nlen ds) pad).
  rewrite (wadd_small (nlen cs + 1) k) by lia. rewrite (wsub_small (nlen cs + 1 + k) 1) by lia.
  replace (nlen cs + 1 + k - 1) with (nlen cs + k) by lia.
  rewrite (wsub_small (nlen cs + 1) 1) by lia. replace (nlen cs + 1 - 1) with (nlen cs) by lia. rewrite <- DD.
  set (tail := fun s1 : str => (if nlen ds <? pad then mwrite (padd (sdata s1) (nlen cs)) (nrepeat 48 (if nlen ds <? pad then wsub pad (nlen ds) else 0)) else ret tt) ;;;
    mwrite (padd (sdata s1) (wsub (wadd (nlen cs + 1) (if nlen ds <? pad then wsub pad (nlen ds) else 0)) 1)) ds ;;;
    nullterminate (with_vec s1 (set_size (s_vec s1) (nlen cs + 1 + k))) ;;;
    ret (ST_SUCCESS, with_vec s1 (set_size (s_vec s1) (nlen cs + 1 + k)))).
  assert (TAIL : forall w1 s1 l, srep w1 s1 [] (cs ++ l) [] -> nlen cs + k + 1 <= v_cap (s_vec s1) ->
    outcome w1 s1 (fun c => c = cs) (fun r c => r = ST_SUCCESS /\ c = cs ++ padded pad ds) 0 (tail s1 w1)).
  { intros w1 s1 l [R1 FL1] CP. rewrite <- app_assoc in R1. set (zs := nrepeat 48 (pad - nlen ds)).
    assert (LZ : nlen zs = pad - nlen ds) by apply nlen_nrepeat.
    destruct (finish_ok w1 s1 [] cs (l ++ [0]) [] zs ds
      (if nlen ds <? pad then mwrite (padd (sdata s1) (nlen cs)) zs else ret tt) k R1) as (w2 & EF & GF).
    { lia. } { exact CP. }
    { destruct (N.ltb_spec (nlen ds) pad); [now left|right]. split; [reflexivity|]. unfold zs.
      now replace (pad - nlen ds) with 0 by lia. }
    assert (ET : tail s1 w1 = Ok (ST_SUCCESS, with_vec s1 (set_size (s_vec s1) (nlen cs + 1 + k))) w2).
    { etransitivity; [|exact EF]. unfold tail. destruct (N.ltb_spec (nlen ds) pad) as [LP|LP].
      + rewrite (wsub_small pad (nlen ds)) by lia. rewrite (wadd_small (nlen cs + 1)) by lia.
        rewrite wsub_small by lia. replace (nlen cs + 1 + (pad - nlen ds) - 1) with (nlen cs + nlen zs) by lia. reflexivity.
      + rewrite (wadd_small (nlen cs + 1) 0) by lia. rewrite wsub_small by lia.
        replace (nlen cs + 1 + 0 - 1) with (nlen cs + nlen zs) by lia. reflexivity. }
    eapply outcome_quiet; [|exact ET| |].
    - unfold tail, nullterminate. quiet.
    - split; [exact GF|reflexivity].
    - now split. }
  replace (nlen cs + k + 1) with (nlen cs + 1 + k) by lia. destruct (v_cap (s_vec s) <? nlen cs + 1 + k) eqn:C.
  - eapply outcome_bind with (n2 := 0); [exact SR|apply resize_any; [exact SR|exact A|lia|lia]|lia|now intros ? ? [HH _]| |].
    + intros e s1. now rewrite st_success_err.
    + intros w1 s1 cs1 G (_ & junk & -> & LJ & _) T. pose proof (sgood_rep _ _ _ _ _ _ _ _ SR G) as R1. apply (TAIL w1 s1 junk R1).
      pose proof (brep_le _ _ _ _ _ (proj1 R1)) as LE. rewrite !nlen_app in LE. change (nlen [0]) with 1 in LE. lia.
  - unfold bind at 1, ret at 1. apply (outcome_weaken _ _ (fun c => c = cs) (fun r c => r = ST_SUCCESS /\ c = cs ++ padded pad ds) 0); auto; [|lia].
    apply (TAIL w s []); [now rewrite app_nil_r|lia].
Qed.

(** ** Hexadecimal *)
Lemma hex_quiet v p u l r s b : forall k n, 1 <= n -> n + N.of_nat k < 256 -> asks 0 (hex_loop k v p u l r s n b).
Proof.
  induction k as [|k IH]; intros n N1 B; cbn [hex_loop]; [quiet|]. destruct (N.eqb_spec n 0); [lia|].
  unfold hex_char. apply asks_bind0; [quiet|]. intros ?. apply asks_bind0; [destruct (nnth _ _); [quiet|intros ? ? ? E; discriminate]|].
  intros c. apply asks_bind0; [quiet|]. intros ?. rewrite N.mod_small by (change W8 with 256; lia). apply IH; lia.
Qed.
(** The digits, once there is room. *)
Definition hex_rest (i : nat) v pad upper len rem (s : str) : M (status * str * N) :=
  let put n :=
    assert (nonnull (padd (sdata s) (wsub len 1))) ;;;
    let* c := hex_char upper (N.land (N.shiftr v (N.of_nat i * 4)) 15) in
    mwrite (padd (padd (sdata s) (wsub len 1)) n) [c] ;;;
    hex_loop i v pad upper len rem s ((n + 1) mod W8) (padd (sdata s) (wsub len 1)) in
  if N.of_nat i <? pad then mwrite (padd (sdata s) (wsub len 1)) (nrepeat 48 (pad - N.of_nat i - 1)) ;;; put (pad - N.of_nat i - 1) else put 0.
Lemma hex_rest_quiet i v pad upper len rem s : pad < 256 -> (i <= 15)%nat -> asks 0 (hex_rest i v pad upper len rem s).
Proof.
  intros P I15. unfold hex_rest, hex_char. cbv zeta.
  assert (PUT : forall n, n + 1 + N.of_nat i < 256 -> asks 0 (assert (nonnull (padd (sdata s) (wsub len 1))) ;;;
    let* c := match nnth (N.land (N.shiftr v (N.of_nat i * 4)) 15) (if upper then HEX_UPPER else HEX_LOWER) with Some c => ret c | None => fail OutOfBounds end in
    mwrite (padd (padd (sdata s) (wsub len 1)) n) [c] ;;;
    hex_loop i v pad upper len rem s ((n + 1) mod W8) (padd (sdata s) (wsub len 1)))).
  { intros n B. apply asks_bind0; [quiet|]. intros ?. apply asks_bind0; [destruct (nnth _ _); [quiet|intros ? ? ? E; discriminate]|].
    intros c. apply asks_bind0; [quiet|]. intros ?. rewrite N.mod_small by (change W8 with 256; lia). apply hex_quiet; lia. }
  destruct (N.ltb_spec (N.of_nat i) pad); [apply asks_bind0; [quiet|intros ?]|]; apply PUT; lia.
Qed.
Lemma hex_rest_ok w s cs l i v pad upper rem ds : brep w (s_vec s) [] (cs ++ l) [] -> numeral 16 upper v ds ->
  (i <= 15)%nat -> pad < 256 -> (nlen cs + pad + 20 + 1) * 256 < W64 ->
  N.land (N.shiftr v (N.of_nat i * 4)) 15 = v / 16 ^ N.of_nat i -> 1 <= v / 16 ^ N.of_nat i < 16 ->
  nlen cs + N.max (nlen ds) pad + 1 <= v_cap (s_vec s) -> nlen ds = N.of_nat i + 1 ->
  exists w' z, hex_rest i v pad upper (nlen cs + 1) rem s w = Ok (ST_SUCCESS, s, N.max (nlen ds) pad) w' /\
    bgood w (s_vec s) w' (set_size (s_vec s) (nlen cs + N.max (nlen ds) pad + 1)) [] ((cs ++ padded pad ds) ++ [z]) [].
Proof.
  intros R NU IB P F NB DB CP LD. unfold hex_rest. rewrite NB. set (T := N.max (nlen ds) pad) in *. set (d := v / 16 ^ N.of_nat i) in *.
  pose proof (pow16_pos (N.of_nat i)) as PP. assert (DM : v = 16 ^ N.of_nat i * d + v mod 16 ^ N.of_nat i) by (apply N.div_mod').
  rewrite (wsub_small (nlen cs + 1) 1) by lia. replace (nlen cs + 1 - 1) with (nlen cs) by lia. cbv zeta.
  destruct (bresized w (s_vec s) [] cs l [] (T + 1) R) as (mid & LMID & GM); [lia|].
  rewrite N.add_assoc in GM. set (v2 := set_size (s_vec s) (nlen cs + T + 1)) in *.
  change (sdata s) with (v_data v2).
  set (zs := nrepeat 48 (pad - nlen ds)). assert (LZ : nlen zs = pad - nlen ds) by apply nlen_nrepeat.
  destruct (nsplit (nlen zs) mid) as (b & c0 & -> & LB); [lia|]. rewrite nlen_app in LMID.
  destruct c0 as [|x rest]; [change (nlen (@nil N)) with 0 in LMID; lia|]. rewrite nlen_cons in LMID.
  assert (PUT : forall w3, brep w3 v2 [] (cs ++ zs ++ x :: rest) [] ->
    exists w4 z, (assert (nonnull (padd (v_data v2) (nlen cs))) ;;;
      let* c := hex_char upper d in
      mwrite (padd (padd (v_data v2) (nlen cs)) (nlen zs)) [c] ;;;
      hex_loop i v pad upper (nlen cs + 1) rem s ((nlen zs + 1) mod W8) (padd (v_data v2) (nlen cs))) w3
      = Ok (ST_SUCCESS, s, T) w4 /\ bgood w3 v2 w4 v2 [] ((cs ++ padded pad ds) ++ [z]) []).
  { intros w3 R3. assert (NN : nonnull (padd (v_data v2) (nlen cs)) = true) by now rewrite (brep_at _ _ _ _ _ _ R3).
    rewrite NN. unfold bind at 1, assert at 1, ret at 1.
    rewrite (bind_ok _ _ _ _ _ (hex_char_ok upper d w3 (proj2 DB))).
    destruct (bwrite_ok w3 v2 [] (cs ++ zs) [x] [digit_char upper d] rest []) as (w4 & E4 & G4).
    { rewrite <- !app_assoc. exact R3. } { reflexivity. }
    assert (PA : padd (padd (v_data v2) (nlen cs)) (nlen zs) = padd (v_data v2) (nlen (cs ++ zs))).
    { rewrite nlen_app, (brep_data _ _ _ _ _ R3). cbn. f_equal; f_equal; lia. }
    rewrite PA, (bind_ok _ _ _ _ _ E4). rewrite N.mod_small by (change W8 with 256; lia).
    replace (nlen zs + 1) with (nlen (zs ++ [digit_char upper d])) by (rewrite nlen_app; reflexivity).
    assert (LZ1 : nlen (zs ++ [digit_char upper d]) = pad - nlen ds + 1) by (rewrite nlen_app, LZ; reflexivity).
    destruct (hex_write_ok v pad upper (nlen cs + 1) rem [] cs [] v2 i w4 s (zs ++ [digit_char upper d]) rest)
      as (dd & z & w5 & E5 & LDD & FDD & VDD & G5); [rewrite <- !app_assoc in *; apply G4|lia..|].
    exists w5, z. split; [rewrite E5; do 2 f_equal; lia|].
    assert (DS : ds = map (digit_char upper) (d :: dd)).
    { apply (numeral_unique 16 upper v); [lia|exact NU|]. exists (d :: dd). split; [reflexivity|].
      split; [constructor; [lia|exact FDD]|]. split; [rewrite value_cons, LDD, VDD; lia|].
      cbn. destruct dd; [exact I|lia]. }
    assert (TX : (cs ++ padded pad ds) ++ [z] = cs ++ (zs ++ [digit_char upper d]) ++ map (digit_char upper) dd ++ [z]).
    { unfold padded. fold zs. rewrite DS at 1. cbn [map]. rewrite <- !app_assoc. reflexivity. }
    rewrite TX. eapply bgood_trans; [exact G4|eapply brep_wf; exact R3|exact G5]. }
  destruct (N.ltb_spec (N.of_nat i) pad) as [LP|LP].
  - replace (pad - N.of_nat i - 1) with (nlen zs) by lia.
    destruct (bwrite_ok w v2 [] cs b zs (x :: rest) [] (b_rep _ _ _ _ _ _ _ GM)) as (w3 & E3 & G3); [now symmetry|].
    assert (ZE : nrepeat 48 (nlen zs) = zs) by (rewrite LZ; reflexivity).
    rewrite ZE, (bind_ok _ _ _ _ _ E3). destruct (PUT w3 (b_rep _ _ _ _ _ _ _ G3)) as (w4 & z & E4 & G4).
    exists w4, z. split; [exact E4|]. eapply bgood_trans; [exact GM|eapply brep_wf; exact R|]. eapply bgood_trans; [exact G3|eapply brep_wf; apply GM|exact G4].
  - assert (Z0 : zs = []). { unfold zs. now replace (pad - nlen ds) with 0 by lia. }
    rewrite Z0 in PUT, LB. change (nlen (@nil N)) with 0 in PUT, LB. destruct b; [|rewrite nlen_cons in LB; lia].
    destruct (PUT w (b_rep _ _ _ _ _ _ _ GM)) as (w4 & z & E4 & G4). exists w4, z. split; [exact E4|].
    eapply bgood_trans; [exact GM|eapply brep_wf; exact R|exact G4].
Qed.
Lemma bind_assoc {A B D} (m : M A) (f : A -> M B) (g : B -> M D) w : bind (bind m f) g w = bind m (fun x => bind (f x) g) w.
Proof. unfold bind. now destruct (m w). Qed.

Lemma bind_same {A B} (m : M A) (f g : A -> M B) w : (forall a w', f a w' = g a w') -> bind m f w = bind m g w.
Proof. intros H. unfold bind. destruct (m w); auto. Qed.
(** What follows the first Resize. *)
Definition hex_stage (k : nat) v pad upper len rem (s : str) : M (status * str) :=
  if v =? 0 then
    let n := if pad =? 0 then 1 else pad in
    let* (st, s) := if rem <? n then sresize s (wsub (wadd (ssize s) n) 1) else ret (ST_SUCCESS, s) in
    if negb (st_success st) then ret (st, s) else
    mwrite (padd (sdata s) (wsub len 1)) (nrepeat 48 n) ;;;
    nullterminate (with_vec s (set_size (s_vec s) (wadd len n))) ;;;
    ret (ST_SUCCESS, with_vec s (set_size (s_vec s) (wadd len n)))
  else
    let* (st, s, n) := hex_loop k v pad upper len rem s 0 None in
    if negb (st_success st) then ret (st, s) else
    nullterminate (with_vec s (set_size (s_vec s) (wadd len n))) ;;;
    ret (ST_SUCCESS, with_vec s (set_size (s_vec s) (wadd len n))).
Lemma outcome_split w s cs (L : list N -> Prop) (S : status -> list N -> Prop) (c : bool) n (k : str -> M (status * str)) m n0 :
  srep w s [] cs [] -> v_alloc (s_vec s) = true -> (c = true -> nlen cs <= n /\ (n + 1) * 256 < W64) -> (c = true -> L cs) ->
  (forall w1 s1 l, c = true -> sgood w s w1 s1 [] (cs ++ l) [] -> nlen cs + nlen l = n -> begins_with_nul l -> outcome w1 s1 L S m (k s1 w1)) ->
  (c = true -> m + 1 <= n0) -> (c = false -> outcome w s L S n0 (k s w)) ->
  outcome w s L S n0 ((let* (st, s1) := if c then sresize s n else ret (ST_SUCCESS, s) in if negb (st_success st) then ret (st, s1) else k s1) w).
Proof.
  intros R A B LC H1 B0 H2. destruct c.
  - destruct (B eq_refl) as [B1 B2]. specialize (B0 eq_refl). eapply outcome_bind with (n1 := 1) (n2 := m); [exact R| |lia| | |].
    + eapply outcome_weaken; [apply resize_any; [exact R|exact A|exact B1|exact B2]| |intros ? ? HH; exact HH|lia]. intros c ->. now apply LC.
    + now intros ? ? [HH _].
    + intros e s1. now rewrite st_success_err.
    + intros w1 s1 cs1 G (_ & junk & -> & LJ & BJ) T. sst. now apply H1 with junk.
  - unfold bind, ret. sst. now apply H2.
Qed.
Lemma hex_stage_any w s cs l k v pad upper ds rem : srep w s [] (cs ++ l) [] -> v_alloc (s_vec s) = true ->
  (k <= 16)%nat -> v < 16 ^ N.of_nat k -> pad < 256 -> (nlen cs + pad + 20 + 1) * 256 < W64 -> numeral 16 upper v ds ->
  nlen l <= pad -> pad <= rem -> nlen cs + rem + 1 <= v_cap (s_vec s) ->
  outcome w s (fun c => c = cs ++ l /\ pad < nlen ds) (fun r c => r = ST_SUCCESS /\ c = cs ++ padded pad ds) (if rem <? nlen ds then 1 else 0)
    (hex_stage k v pad upper (nlen cs + 1) rem s w).
Proof.
  intros SR A K16 V P F NU LL PR RC. pose proof (srep_size _ _ _ _ _ SR) as SZ. rewrite nlen_app in SZ.
  set (T := N.max (nlen ds) pad). assert (LT : nlen (padded pad ds) = T) by apply nlen_padded.
  unfold hex_stage. destruct (N.eqb_spec v 0) as [->|NZ].
  - assert (D0 : ds = [48]).
    { apply (numeral_unique 16 upper 0); [lia|exact NU|]. exists [0]. now repeat split; repeat constructor. }
    subst ds. change (nlen [48]) with 1 in *. cbv zeta. set (n := if pad =? 0 then 1 else pad).
    assert (NT : n = T) by (subst n T; destruct (N.eqb_spec pad 0); lia).
    rewrite (wadd_small (ssize s) n), wsub_small by lia.
    rewrite (wadd_small (nlen cs + 1) n), (wsub_small (nlen cs + 1) 1) by lia. replace (nlen cs + 1 - 1) with (nlen cs) by lia.
    assert (PT : nrepeat 48 n = padded pad [48]).
    { unfold padded. change [48] with (nrepeat 48 1). rewrite nlen_nrepeat. unfold nrepeat. rewrite <- repeat_app.
      f_equal. lia. }
    rewrite PT.
    set (tail := fun s : str => mwrite (padd (sdata s) (nlen cs)) (padded pad [48]) ;;;
      nullterminate (with_vec s (set_size (s_vec s) (nlen cs + 1 + n))) ;;; ret (ST_SUCCESS, with_vec s (set_size (s_vec s) (nlen cs + 1 + n)))).
    assert (TAIL : forall w1 s1 l1, srep w1 s1 [] (cs ++ l1) [] -> nlen cs + n + 1 <= v_cap (s_vec s1) ->
      outcome w1 s1 (fun c => c = cs ++ l /\ pad < 1) (fun r c => r = ST_SUCCESS /\ c = cs ++ padded pad [48]) 0 (tail s1 w1)).
    { intros w1 s1 l1 [R1 F1] C1. rewrite <- app_assoc in R1.
      destruct (finish_ok w1 s1 [] cs (l1 ++ [0]) [] [] (padded pad [48]) (ret tt) n R1) as (w3 & E3 & G3).
      { rewrite LT, NT. reflexivity. } { exact C1. } { now right. }
      change (nlen (@nil N)) with 0 in E3. rewrite N.add_0_r in E3. unfold bind at 1, ret at 1 in E3.
      eapply outcome_quiet; [|exact E3|split; [exact G3|reflexivity]|now split]. unfold tail, nullterminate. quiet. }
    apply (outcome_split w s (cs ++ l) _ _ (rem <? n) _ tail 0); [exact SR|exact A| | | | |].
    + intros C. rewrite nlen_app. lia.
    + intros C. split; [reflexivity|]. destruct (N.eqb_spec pad 0); lia.
    + intros w1 s1 l1 C G LN _. pose proof (sgood_rep _ _ _ _ _ _ _ _ SR G) as R1. rewrite <- app_assoc in R1.
      apply (TAIL w1 s1 (l ++ l1) R1). pose proof (brep_le _ _ _ _ _ (proj1 R1)) as LE. rewrite !nlen_app in LE. rewrite !nlen_app in LN. change (nlen [0]) with 1 in LE. lia.
    + intros C. destruct (N.ltb_spec rem 1); [lia|]. destruct (N.eqb_spec pad 0); lia.
    + intros C. eapply outcome_weaken; [apply (TAIL w s l SR)| | |]; auto; lia.
  - destruct (hex_skip v pad upper (nlen cs + 1) rem s None w k NZ V) as (i & LI & NB & DB & EH).
    assert (IB : (i <= 15)%nat) by lia. pose proof (pow16_pos (N.of_nat i)) as PP.
    assert (DM : v = 16 ^ N.of_nat i * (v / 16 ^ N.of_nat i) + v mod 16 ^ N.of_nat i) by (apply N.div_mod').
    pose proof (N.mod_lt v (16 ^ N.of_nat i) ltac:(lia)) as ML.
    assert (LD : nlen ds = N.of_nat i + 1).
    { apply (numeral_length 16 upper v); [lia|exact NU|]. rewrite N.pow_add_r, N.pow_1_r. nia. }
    set (fin := fun x : status * str * N => let '(st, s, n) := x in
      if negb (st_success st) then ret (st, s) else
      nullterminate (with_vec s (set_size (s_vec s) (wadd (nlen cs + 1) n))) ;;;
      ret (ST_SUCCESS, with_vec s (set_size (s_vec s) (wadd (nlen cs + 1) n)))).
    assert (EQ : bind (hex_loop k v pad upper (nlen cs + 1) rem s 0 None) fin w =
      (let* (st, s1) := if rem <=? N.of_nat i then sresize s (wadd (ssize s) (N.of_nat i)) else ret (ST_SUCCESS, s) in
       if negb (st_success st) then ret (st, s1) else bind (hex_rest i v pad upper (nlen cs + 1) rem s1) fin) w).
    { transitivity (bind (hex_loop (S i) v pad upper (nlen cs + 1) rem s 0 None) fin w); [unfold bind; now rewrite EH|]. cbn [hex_loop]. rewrite NB. change (0 =? 0) with true. cbv iota.
      destruct (N.eqb_spec (v / 16 ^ N.of_nat i) 0); [lia|].
      rewrite bind_assoc. apply bind_same. intros [st s1] w1. unfold hex_rest. rewrite NB.
      destruct (st_success st) eqn:ST; cbn [negb].
      - cbv zeta. destruct (N.of_nat i <? pad); reflexivity.
      - unfold bind, ret, fin. rewrite ST. reflexivity. }
    change (outcome w s (fun c => c = cs ++ l /\ pad < nlen ds) (fun r c => r = ST_SUCCESS /\ c = cs ++ padded pad ds) (if rem <? nlen ds then 1 else 0)
      (bind (hex_loop k v pad upper (nlen cs + 1) rem s 0 None) fin w)).
    rewrite EQ, (wadd_small (ssize s)) by lia.
    assert (TAIL : forall w1 s1 l1, srep w1 s1 [] (cs ++ l1) [] -> nlen cs + T + 1 <= v_cap (s_vec s1) ->
      outcome w1 s1 (fun c => c = cs ++ l /\ pad < nlen ds) (fun r c => r = ST_SUCCESS /\ c = cs ++ padded pad ds) 0
        (bind (hex_rest i v pad upper (nlen cs + 1) rem s1) fin w1)).
    { intros w1 s1 l1 [R1 F1] C1. rewrite <- app_assoc in R1.
      destruct (hex_rest_ok w1 s1 cs (l1 ++ [0]) i v pad upper rem ds R1 NU IB P F NB DB C1 LD) as (w2 & z & E2 & G2). fold T in E2, G2.
      replace (nlen cs + T + 1) with (nlen (cs ++ padded pad ds) + 1) in G2 by (rewrite nlen_app, LT; lia).
      destruct (close_ok w2 s1 [] (cs ++ padded pad ds) z [] (b_rep _ _ _ _ _ _ _ G2)) as (w3 & E3 & G3).
      eapply outcome_quiet with (w' := w3) (cs' := cs ++ padded pad ds) (r := ST_SUCCESS).
      - apply asks_bind0; [now apply hex_rest_quiet|]. intros [[st s2] n]. unfold fin, nullterminate. quiet.
      - rewrite (bind_ok _ _ _ _ _ E2). unfold fin. sst. rewrite wadd_small by lia.
        replace (nlen cs + 1 + T) with (nlen (cs ++ padded pad ds) + 1) by (rewrite nlen_app, LT; lia). exact E3.
      - split; [|reflexivity]. eapply bgood_trans; [exact G2|eapply brep_wf; exact R1|exact G3].
      - now split. }
    apply (outcome_split w s (cs ++ l) _ _ (rem <=? N.of_nat i) _ (fun s1 => bind (hex_rest i v pad upper (nlen cs + 1) rem s1) fin) 0); [exact SR|exact A| | | | |].
    + intros C. rewrite nlen_app. lia.
    + intros C. split; [reflexivity|]. lia.
    + intros w1 s1 l1 C G LN _. pose proof (sgood_rep _ _ _ _ _ _ _ _ SR G) as R1. rewrite <- app_assoc in R1.
      apply (TAIL w1 s1 (l ++ l1) R1). pose proof (brep_le _ _ _ _ _ (proj1 R1)) as LE. rewrite !nlen_app in LE. rewrite !nlen_app in LN. change (nlen [0]) with 1 in LE. unfold T. lia.
    + intros C. destruct (N.ltb_spec rem (nlen ds)); lia.
    + intros C. eapply outcome_weaken; [apply (TAIL w s l SR)| | |]; auto; lia.
Qed.
Lemma hex_any w s cs k v pad upper ds : srep w s [] cs [] -> v_alloc (s_vec s) = true ->
  (k <= 16)%nat -> v < 16 ^ N.of_nat k -> pad < 256 -> (nlen cs + pad + 20 + 1) * 256 < W64 -> numeral 16 upper v ds ->
  outcome w s (fun c => c = cs \/ exists junk, c = cs ++ junk /\ nlen junk = pad /\ begins_with_nul junk /\ pad < nlen ds)
    (fun r c => r = ST_SUCCESS /\ c = cs ++ padded pad ds) (if v_cap (s_vec s) <? nlen cs + N.max (nlen ds) pad + 1 then 2 else 0)
    (sappend_hex k s v pad upper w).
Proof.
  intros SR A K16 V P F NU. pose proof SR as [R FL].
  pose proof (brep_le _ _ _ _ _ R) as LE. rewrite nlen_app in LE. change (nlen [0]) with 1 in LE. pose proof (brep_cap _ _ _ _ _ R) as CAP.
  set (rem := if v_cap (s_vec s) - (nlen cs + 1) <? pad then pad else v_cap (s_vec s) - (nlen cs + 1)).
  assert (EQ : sappend_hex k s v pad upper w = (let* (st, s1) := if v_cap (s_vec s) - (nlen cs + 1) <? pad then sresize s (nlen cs + pad) else ret (ST_SUCCESS, s) in
    if negb (st_success st) then ret (st, s1) else hex_stage k v pad upper (nlen cs + 1) rem s1) w).
  { unfold sappend_hex. rewrite (srep_size _ _ _ _ _ SR). rewrite (wsub_small (v_cap (s_vec s))) by lia.
    rewrite (wadd_small (nlen cs + 1) pad) by lia. rewrite (wsub_small (nlen cs + 1 + pad) 1) by lia.
    now replace (nlen cs + 1 + pad - 1) with (nlen cs + pad) by lia. }
  rewrite EQ. apply (outcome_split w s cs _ _ _ _ _ 1); [exact SR|exact A| | | | |].
  - intros C. lia.
  - now left.
  - intros w1 s1 l C G LN B. pose proof (sgood_rep _ _ _ _ _ _ _ _ SR G) as R1.
    eapply outcome_weaken; [apply (hex_stage_any w1 s1 cs l k v pad upper ds rem R1); auto| |auto|destruct (_ <? nlen ds); lia].
    + now rewrite (sgood_alloc _ _ _ _ _ G).
    + lia.
    + unfold rem. rewrite C. lia.
    + unfold rem. rewrite C. pose proof (brep_le _ _ _ _ _ (proj1 R1)) as LE1. rewrite !nlen_app in LE1. change (nlen [0]) with 1 in LE1. lia.
    + intros c [-> PD]. right. exists l. repeat split; auto. lia.
  - intros C. destruct (N.ltb_spec (v_cap (s_vec s)) (nlen cs + N.max (nlen ds) pad + 1)); lia.
  - intros C. eapply outcome_weaken; [apply (hex_stage_any w s cs [] k v pad upper ds rem); auto; try (rewrite app_nil_r; exact SR)| |auto|].
    + change (nlen (@nil N)) with 0. lia.
    + unfold rem. rewrite C. lia.
    + unfold rem. rewrite C. lia.
    + intros c [-> PD]. left. apply app_nil_r.
    + unfold rem. rewrite C. destruct (N.ltb_spec (v_cap (s_vec s) - (nlen cs + 1)) (nlen ds)); destruct (N.ltb_spec (v_cap (s_vec s)) (nlen cs + N.max (nlen ds) pad + 1)); lia.
Qed.
