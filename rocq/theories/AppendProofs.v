(** Every outcome of AppendFormat. *)
From Verif Require Import Base NListFacts Status Mem MemFacts VectorModel VectorSpec VectorDriver
  VectorRep VectorProofs VectorProofs2 VectorProofs3 VectorRefine VectorFail StringModel StringSpec StringDriver StringBytes
  StringProofs StringSearch StringFinal StringFinal2 FormatModel FormatSpec FormatDriver FormatDigits FormatProofs
  FormatRun FormatFinal AppendSpec.
From Coq Require Import ZifyBool ZifyNat ZifyN.

Implicit Types (w : world) (s : str).

(** A call of the formatter. *)
Lemma print_at w v pre cs l post f room : brep w v pre (cs ++ l) post -> nlen cs + room + 1 <= v_cap v ->
  exists w1 rest, vsnprintf f (padd (v_data v) (nlen cs)) (room + 1) w = Ok (answer f) w1 /\
    nlen cs + nlen (printed f room) + nlen rest = v_cap v /\
    bgood w v w1 (set_size v (v_cap v)) pre (cs ++ printed f room ++ rest) post /\ checked w1 = checked w /\
    nextb w1 = nextb w /\ tick w1 = tick w /\ (printed f room = [] -> forall b, heap w1 b = heap w b).
Proof.
  intros R LE.
  destruct (bresized w v pre cs l post (v_cap v - nlen cs) R) as (mid & LM & G); [lia|].
  replace (nlen cs + (v_cap v - nlen cs)) with (v_cap v) in G by lia.
  set (v2 := set_size v (v_cap v)) in *.
  set (y := printed f room).
  assert (LY : nlen y <= nlen mid).
  { unfold y, printed. destruct f; rewrite ?nlen_app, nlen_nfirst; change (nlen [0]) with 1; lia. }
  destruct (nsplit (nlen y) mid LY) as (a & c & -> & LA).
  destruct (bwrite_ok w v2 pre cs a y c post (b_rep _ _ _ _ _ _ _ G)) as (w1 & E & G1); [now symmetry|].
  exists w1, c. split; [|split; [|split]].
  - unfold vsnprintf. replace (room + 1 - 1) with room by lia.
    change (v_data v) with (v_data v2). unfold y, printed in E. destruct f; rewrite (bind_ok _ _ _ _ _ E); reflexivity.
  - rewrite nlen_app in LM. lia.
  - eapply bgood_trans; [exact G|eapply brep_wf; exact R|exact G1].
  - unfold mwrite in E. destruct (padd _ _) as [p|]; [|discriminate]. destruct (heap w (pb p)) as [d|] eqn:ED; [|discriminate].
    destruct (_ <=? _); [|discriminate]. injection E as <-. repeat split. intros Y0 b. cbn [heap set_heap]. unfold hset.
    destruct (N.eqb_spec b (pb p)) as [->|]; [|reflexivity]. rewrite ED. f_equal. fold y in Y0. rewrite Y0. unfold nsplice.
    change (nlen (@nil N)) with 0. rewrite N.add_0_r. cbn [app]. apply nfirst_skip.
Qed.
(** What the caller sees while the descriptor's size does not follow the bytes. *)
Lemma seen_of w s pre n post bs rest : brep w (set_size (s_vec s) (v_cap (s_vec s))) pre (bs ++ rest) post ->
  ssize s = n + 1 -> n + 1 < W64 -> v_cap (s_vec s) < W64 -> seen w s n (v_cap (s_vec s) - 1) bs.
Proof.
  intros R SZ NL CW. pose proof (brep_cap _ _ _ _ _ R) as C. cbn [v_cap set_size] in C. split; [|split].
  - unfold sget_size, bind, assert, ret. rewrite SZ. destruct (N.leb_spec 1 (n + 1)); [|lia]. rewrite wsub_small by lia.
    do 2 f_equal. lia.
  - unfold sget_capacity, bind, assert, ret. destruct (N.leb_spec 1 (v_cap (s_vec s))); [|lia]. now rewrite wsub_small by lia.
  - pose proof (bread_ok w _ pre [] bs rest post R) as E. change (nlen (@nil N)) with 0 in E.
    cbn [set_size v_data] in E. unfold padd in E. cbn [snd sget_data]. change (sdata s) with (v_data (s_vec s)).
    destruct (v_data (s_vec s)) as [[b o]|]; [|exact E]. cbn [pb po] in E. rewrite N.add_0_r in E. exact E.
Qed.
Lemma kept_of w w' v v' s pre l post : brep w v pre l post -> frame w w' v v' -> snd (sget_data s) = v_data v ->
  others_kept w w' s.
Proof.
  intros R F D b L N0. assert (b <> blk v).
  { intros ->. eapply N0; [rewrite D; apply (brep_data _ _ _ _ _ R)|reflexivity]. }
  apply (fr_heap _ _ _ _ F); [assumption|]. intros ->. destruct (N.eq_dec (blk v') (blk v)) as [E|E]; [congruence|].
  destruct (fr_old _ _ _ _ F E) as (_ & _ & X). lia.
Qed.
(** Nothing is shown when the byte behind the characters is not a terminator. *)
Lemma seen_no_text w s cs c x bs : seen w s (nlen cs) c (cs ++ x :: bs) -> x <> 0 -> shows_no_text w s.
Proof.
  intros (S1 & _ & S3) NZ cs' (T1 & _ & T3). rewrite S1 in T1. injection T1 as LE. rewrite <- LE in T3.
  unfold mread in *. destruct (snd (sget_data s)) as [p|]; [|discriminate]. destruct (heap w (pb p)) as [d|]; [|discriminate].
  destruct (N.leb_spec (po p + nlen (cs ++ x :: bs)) (nlen d)) as [L1|]; [|discriminate].
  destruct (N.leb_spec (po p + (nlen cs + 1)) (nlen d)) as [L2|]; [|discriminate].
  injection S3 as S3. injection T3 as T3. rewrite nlen_app, nlen_cons in *.
  assert (E1 : nnth (nlen cs) (nsub (po p) (nlen cs + (1 + nlen bs)) d) = Some x)
    by (rewrite S3, nnth_app2 by lia; now rewrite N.sub_diag).
  assert (E2 : nnth (nlen cs) (nsub (po p) (nlen cs + 1) d) = Some 0)
    by (rewrite T3, nnth_app2 by lia; rewrite LE, N.sub_diag; reflexivity).
  rewrite nnth_nsub in E1, E2 by lia. congruence.
Qed.
(** What is shown depends on the memory only. *)
Lemma sshows_heap w s w' cs : sshows w s cs -> (forall b, heap w' b = heap w b) -> checked w' = checked w -> sshows w' s cs.
Proof.
  intros (S1 & S2 & S3) H K.
  assert (AS : forall q, assert q w = Ok tt w -> assert q w' = Ok tt w').
  { intros q. unfold assert, ret. destruct q; [reflexivity|]. rewrite K. destruct (checked w); [discriminate|reflexivity]. }
  assert (RD : forall p n x, mread p n w = Ok x w -> mread p n w' = Ok x w').
  { intros p n x. unfold mread. destruct p as [p|]; [|discriminate]. rewrite H.
    destruct (heap w (pb p)); [|discriminate]. destruct (_ <=? _); [|discriminate]. intros X. now injection X as <-. }
  split; [|split].
  - unfold sget_size, bind, ret, ssize in *.
    destruct (assert_cases (1 <=? v_size (s_vec s)) w) as [E|E]; rewrite E in S1; [|discriminate].
    rewrite (AS _ E). now injection S1 as ->.
  - intros i LI. specialize (S2 i LI). unfold sget_char, ssize in *.
    destruct (v_size (s_vec s) <=? wadd i 1); [unfold ret in *; congruence|].
    unfold vget_pointer, assert_valid, offset, bind, ret in *.
    destruct (v_size (s_vec s) <=? i).
    { change (negb (st_success ST_OUT_OF_RANGE)) with true in *. cbv beta iota in *.
      destruct (nnth i cs); [discriminate S2|reflexivity]. }
    destruct (assert_cases (negb (v_esz (s_vec s) =? 0)) w) as [E|E]; rewrite E in S2; [|discriminate]. rewrite (AS _ E).
    destruct (assert_cases (nonnull (v_data (s_vec s))) w) as [E'|E']; rewrite E' in S2; [|discriminate]. rewrite (AS _ E').
    change (negb (st_success ST_SUCCESS)) with false in *. cbv beta iota in *. unfold mread1, bind, ret in *.
    match goal with |- context [mread ?p 1 w'] => destruct (mread p 1 w) as [l wl|] eqn:EM; [|discriminate] end.
    assert (wl = w) as ->.
    { clear -EM. unfold mread in EM. destruct (padd _ _) as [p|]; [|discriminate].
      destruct (heap w (pb p)); [|discriminate]. destruct (_ <=? _); [|discriminate]. now injection EM. }
    rewrite (RD _ _ _ EM). destruct l as [|c0 [|]]; try discriminate. congruence.
  - now apply RD.
Qed.

Definition append_rest (f1 f2 : formatted) (s : str) : M (status * str) :=
  let a := answer f1 in
  if (a <? 0)%Z then ret (ST_FAILED, s) else
  if (a <=? to_i32 (v_cap (s_vec s) - ssize s))%Z
  then ret (ST_SUCCESS, with_vec s (set_size (s_vec s) (wadd (ssize s) (Z.to_N a)))) else
  let* (st, s2) := sresize s (wsub (wadd (ssize s) (Z.to_N a)) 1) in
  if negb (st_success st) then ret (st, s2) else
  let* a2 := vsnprintf f2 (padd (sdata s2) (ssize s - 1)) (wadd (wsub (v_cap (s_vec s2)) (ssize s2)) 1) in
  if (a2 <? 0)%Z then ret (ST_FAILED, s2) else
  assert (a2 <=? to_i32 (wsub (v_cap (s_vec s2)) (ssize s2)))%Z ;;; ret (ST_SUCCESS, s2).
Lemma append_start w s pre cs post f1 : srep w s pre cs post -> v_cap (s_vec s) < W64 ->
  exists w1 rest, (forall f2, sappend_format f1 f2 s w = append_rest f1 f2 s w1) /\ ssize s = nlen cs + 1 /\ nlen cs + 1 <= v_cap (s_vec s) /\
    nlen cs + nlen (printed f1 (v_cap (s_vec s) - 1 - nlen cs)) + nlen rest = v_cap (s_vec s) /\
    bgood w (s_vec s) w1 (set_size (s_vec s) (v_cap (s_vec s))) pre
      (cs ++ printed f1 (v_cap (s_vec s) - 1 - nlen cs) ++ rest) post /\ checked w1 = checked w /\ nextb w1 = nextb w /\
    tick w1 = tick w /\
    (printed f1 (v_cap (s_vec s) - 1 - nlen cs) = [] -> forall b, heap w1 b = heap w b).
Proof.
  intros R CW. pose proof (srep_size _ _ _ _ _ R) as SZ.
  assert (LE : nlen cs + 1 <= v_cap (s_vec s)).
  { destruct R as [BR _]. pose proof (brep_le _ _ _ _ _ BR) as LE. rewrite nlen_app in LE. change (nlen [0]) with 1 in LE. lia. }
  destruct (print_at w (s_vec s) pre cs [0] post f1 (v_cap (s_vec s) - 1 - nlen cs) (proj1 R)) as (w1 & rest & E & H); [lia|].
  exists w1, rest. split; [|tauto]. intros f2. unfold sappend_format, append_rest.
  rewrite SZ, (wsub_small (v_cap (s_vec s))), (wsub_small (nlen cs + 1)) by lia.
  rewrite (wadd_small (v_cap (s_vec s) - (nlen cs + 1)) 1) by lia. replace (nlen cs + 1 - 1) with (nlen cs) by lia.
  replace (v_cap (s_vec s) - (nlen cs + 1) + 1) with (v_cap (s_vec s) - 1 - nlen cs + 1) by lia.
  change (sdata s) with (v_data (s_vec s)). rewrite (bind_ok _ _ _ _ _ E). reflexivity.
Qed.
Lemma capacity_of w s c : sget_capacity s w = Ok (ST_SUCCESS, c) w -> v_cap (s_vec s) < W64 -> 1 <= v_cap (s_vec s) ->
  c = v_cap (s_vec s) - 1.
Proof.
  unfold sget_capacity, bind, assert, ret. intros E L1 L2. destruct (N.leb_spec 1 (v_cap (s_vec s))); [|lia].
  injection E as <-. now rewrite wsub_small by lia.
Qed.

Lemma srep_cap w s pre cs post : srep w s pre cs post -> v_cap (s_vec s) < W64.
Proof. intros [(VR & E & _) _]. pose proof (r_mem _ _ _ _ _ VR). rewrite E in H. lia. Qed.

(** ** The formatter fails *)
Lemma format_error is64 limit w s cs c t f2 : freached is64 limit w s cs -> sget_capacity s w = Ok (ST_SUCCESS, c) w ->
  exists w', sappend_format (FError t) f2 s w = Ok (ST_FAILED, s) w' /\
    seen w' s (nlen cs) c (cs ++ nfirst (c - nlen cs) t) /\ others_kept w w' s /\
    (nfirst (c - nlen cs) t = [] -> sshows w' s cs) /\
    (forall x y, nfirst (c - nlen cs) t = x :: y -> x <> 0 -> shows_no_text w' s).
Proof.
  intros RE CE. destruct (freached_rep _ _ _ _ _ RE) as (pre & post & R & NF & LM). pose proof (srep_cap _ _ _ _ _ R) as CW.
  destruct (append_start w s pre cs post (FError t) R CW) as (w1 & rest & E & SZ & LE & LR & G & CK & NX & TK & HK).
  rewrite (capacity_of _ _ _ CE CW) by lia. cbn [printed] in *. set (x := nfirst _ t) in *.
  assert (SE : seen w1 s (nlen cs) (v_cap (s_vec s) - 1) (cs ++ x)).
  { eapply seen_of with (rest := rest); [rewrite <- app_assoc; apply G|exact SZ|lia|lia]. }
  exists w1. split; [rewrite E; reflexivity|]. split; [exact SE|]. split; [|split].
  - eapply kept_of; [apply R|apply G|reflexivity].
  - intros X. eapply sshows_heap; [eapply srep_shows; exact R|now apply HK|exact CK].
  - intros a b X NZ. rewrite X in SE. eapply seen_no_text; eauto.
Qed.

(** ** The text does not fit *)
Lemma grow_step t s w : nlen t < 2147483648 -> ssize s <= v_cap (s_vec s) -> v_cap (s_vec s) - ssize s < 2147483648 ->
  v_cap (s_vec s) < ssize s + nlen t -> 1 <= ssize s -> ssize s + nlen t < W64 -> forall f2,
  append_rest (FText t) f2 s w =
  (let* (st, s2) := sresize s (ssize s + nlen t - 1) in
  if negb (st_success st) then ret (st, s2) else
  let* a2 := vsnprintf f2 (padd (sdata s2) (ssize s - 1)) (wadd (wsub (v_cap (s_vec s2)) (ssize s2)) 1) in
  if (a2 <? 0)%Z then ret (ST_FAILED, s2) else
  assert (a2 <=? to_i32 (wsub (v_cap (s_vec s2)) (ssize s2)))%Z ;;; ret (ST_SUCCESS, s2)) w.
Proof.
  intros T1 L1 L2 L3 L4 L5 f2. unfold append_rest. cbn [answer]. rewrite to_i32_small by lia.
  destruct (Z.ltb_spec (Z.of_N (nlen t)) 0); [lia|].
  destruct (Z.leb_spec (Z.of_N (nlen t)) (Z.of_N (v_cap (s_vec s) - ssize s))); [lia|].
  now rewrite N2Z.id, wadd_small, wsub_small by lia.
Qed.
Lemma fixed_refuses w v n : v_alloc v = false -> v_cap v < n -> v_size v < n -> 1 <= v_cap v -> v_growth v = 1 -> n < W64 ->
  v_esz v = 1 -> nonnull (v_data v) = true -> vresize v n w = Ok (ST_INSUFFICIENT_BUFFER_SIZE, v) w.
Proof.
  intros A C Z C1 G NW E D. unfold vresize, vresize_ex. destruct (N.eqb_spec n (v_size v)); [lia|].
  destruct (N.ltb_spec n (v_size v)); [lia|]. unfold should_grow. destruct (N.ltb_spec (v_cap v) n); [|lia]. cbn [orb].
  rewrite G, wmul_small by lia. rewrite N.mul_1_r. unfold vreallocate, assert_valid, VECTOR_MIN_CAPACITY.
  rewrite A, E, D. cbn [negb]. unfold bind, assert, ret. destruct (N.leb_spec 1 (v_cap v)); [|lia].
  destruct (N.ltb_spec (v_cap v) n); [|lia]. reflexivity.
Qed.
Lemma format_short is64 k w s cs t f2 : freached is64 (Some k) w s cs -> k < nlen cs + nlen t -> int_text t ->
  k - nlen cs < 2147483648 -> sroom (nlen cs + nlen t) ->
  exists w', sappend_format (FText t) f2 s w = Ok (ST_INSUFFICIENT_BUFFER_SIZE, s) w' /\
    seen w' s (nlen cs) k (cs ++ nfirst (k - nlen cs) t ++ [0]) /\ others_kept w w' s /\
    (nlen cs = k -> sshows w' s cs) /\
    (forall x y, t = x :: y -> nlen cs < k -> x <> 0 -> shows_no_text w' s).
Proof.
  intros RE L T KL RM. unfold sroom, int_text in *. destruct (freached_rep _ _ _ _ _ RE) as (pre & post & R & NF & LM).
  pose proof (srep_size _ _ _ _ _ R) as SZ0.
  assert (LE0 : nlen cs + 1 <= v_cap (s_vec s)).
  { destruct R as [BR _]. pose proof (brep_le _ _ _ _ _ BR) as LE. rewrite nlen_app in LE. change (nlen [0]) with 1 in LE. lia. }
  assert (AL : v_alloc (s_vec s) = false /\ v_cap (s_vec s) = k + 1).
  { unfold limit_of in LM. destruct (v_alloc (s_vec s)); [discriminate|]. injection LM as LM. split; [reflexivity|lia]. }
  destruct AL as [AL CP]. assert (CW : v_cap (s_vec s) < W64) by lia.
  destruct (append_start w s pre cs post (FText t) R CW) as (w1 & rest & E & SZ & LE & LR & G & CK & NX & TK & HK).
  cbn [printed] in *. rewrite CP in LR, G. replace (k + 1 - 1 - nlen cs) with (k - nlen cs) in * by lia.
  set (x := nfirst (k - nlen cs) t ++ [0]) in *.
  assert (SE : seen w1 s (nlen cs) k (cs ++ x)).
  { replace k with (v_cap (s_vec s) - 1) at 1 by lia.
    eapply seen_of with (rest := rest); [rewrite CP, <- app_assoc; apply G|exact SZ|lia|lia]. }
  pose proof R as [BR _]. pose proof BR as (VR & ES & DT).
  pose proof (r_alloc _ _ _ _ _ VR) as RA. rewrite AL in RA. destruct RA as [GR SHK].
  exists w1. split; [|split; [exact SE|split; [|split]]].
  - rewrite E, grow_step by lia. unfold sresize. rewrite wadd_small by lia.
    rewrite (bind_ok _ _ w1 (ST_INSUFFICIENT_BUFFER_SIZE, s) w1); [reflexivity|].
    rewrite (bind_ok _ _ w1 (ST_INSUFFICIENT_BUFFER_SIZE, s_vec s) w1); [cbn; destruct s; reflexivity|].
    apply fixed_refuses; auto; try (change (v_size (s_vec s)) with (ssize s); lia); try lia.
    now rewrite (brep_data _ _ _ _ _ BR).
  - eapply kept_of; [apply R|apply G|reflexivity].
  - intros LK. assert (X0 : x = [0]). { unfold x. now replace (k - nlen cs) with 0 by lia. }
    rewrite X0 in G. assert (G1' : srep w1 s pre cs post).
    { split; [|apply R]. assert (RR : brep w1 (set_size (s_vec s) (k + 1)) pre ((cs ++ [0]) ++ rest) post)
        by (rewrite <- app_assoc; apply G).
      apply bcut_size in RR. apply b_rep in RR. rewrite nlen_app in RR. change (nlen [0]) with 1 in RR. rewrite <- SZ in RR.
      destruct s as [fl v]. destruct v. exact RR. }
    eapply srep_shows; exact G1'.
  - intros a y -> LK NZ. unfold x in SE. 
    assert (nfirst (k - nlen cs) (a :: y) = a :: nfirst (k - nlen cs - 1) y) as NFE.
    { unfold nfirst. replace (N.to_nat (k - nlen cs)) with (S (N.to_nat (k - nlen cs - 1))) by lia. reflexivity. }
    rewrite NFE in SE. eapply seen_no_text; [exact SE|exact NZ].
Qed.

(** ** The memory for the text is refused *)
Lemma nfirst_pos {A} n (a : A) y : 0 < n -> nfirst n (a :: y) = a :: nfirst (n - 1) y.
Proof. intros H. unfold nfirst. replace (N.to_nat n) with (S (N.to_nat (n - 1))) by lia. reflexivity. Qed.
Lemma format_refused is64 w s cs c t f2 o e : freached is64 None w s cs -> sget_capacity s w = Ok (ST_SUCCESS, c) w ->
  c < nlen cs + nlen t -> int_text t -> sroom (nlen cs + nlen t) -> c - nlen cs < 2147483648 ->
  o (tick w) = AFail e ->
  exists s' w', sappend_format (FText t) f2 s (with_oracle w o) = Ok (err_status e, s') w' /\
    seen w' s' (nlen cs) ((nlen cs + nlen t + 1) * v_growth (s_vec s) - 1) (cs ++ nfirst (c - nlen cs) t ++ [0]) /\
    others_kept w w' s /\
    (nlen cs = c -> sshows w' s' cs) /\
    (forall x y, t = x :: y -> nlen cs < c -> x <> 0 -> shows_no_text w' s').
Proof.
  intros RE CE L T RM KL O. unfold sroom, int_text in *. destruct (freached_rep _ _ _ _ _ RE) as (pre & post & R & NF & LM).
  pose proof (srep_size _ _ _ _ _ R) as SZ0.
  assert (LE0 : nlen cs + 1 <= v_cap (s_vec s)).
  { destruct R as [BR _]. pose proof (brep_le _ _ _ _ _ BR) as LE. rewrite nlen_app in LE. change (nlen [0]) with 1 in LE. lia. }
  assert (AL : v_alloc (s_vec s) = true). { unfold limit_of in LM. destruct (v_alloc (s_vec s)); [reflexivity|discriminate]. }
  assert (CW : v_cap (s_vec s) < W64).
  { eapply srep_cap; exact R. }
  assert (CC : c = v_cap (s_vec s) - 1) by (eapply capacity_of; eauto; lia). rewrite CC in *. clear c CC CE.
  assert (R2 : srep (with_oracle w o) s pre cs post).
  { destruct R as [R2 FL2]. split; [|exact FL2]. destruct R2 as (R2a & R2b). split; [|exact R2b]. now apply rep_with_oracle. }
  destruct (append_start (with_oracle w o) s pre cs post (FText t) R2 CW) as (w1 & rest & E & SZ & LE & LR & G & CK & NX & TK & HK).
  cbn [printed] in *. set (room := v_cap (s_vec s) - 1 - nlen cs) in *.
  set (x := nfirst room t ++ [0]) in *.
  pose proof R2 as [BR _]. pose proof BR as (VR & ES & DT).
  pose proof (r_alloc _ _ _ _ _ VR) as RA. rewrite AL in RA. destruct RA as (_ & _ & GR & _).
  (* the string with its last byte overwritten *)
  assert (exists c0 y', x = c0 :: y') as (c0 & y' & YE). { unfold x. destruct (nfirst _ t); cbn; eauto. }
  assert (RB : brep w1 (s_vec s) pre (cs ++ [c0]) post).
  { assert (RR : brep w1 (set_size (s_vec s) (v_cap (s_vec s))) pre ((cs ++ [c0]) ++ (y' ++ rest)) post).
    { rewrite YE in G. rewrite <- app_assoc. cbn [app]. apply G. }
    apply bcut_size in RR. apply b_rep in RR. rewrite nlen_app in RR. change (nlen [c0]) with 1 in RR. rewrite <- SZ in RR.
    destruct s as [fl v]. destruct v. exact RR. }
  assert (OR1 : orc w1 (tick w1) = AFail e).
  { rewrite TK. rewrite (fr_orc _ _ _ _ (b_frame _ _ _ _ _ _ _ G)). exact O. }
  destruct (bresize_fail w1 (s_vec s) pre (cs ++ [c0]) post (nlen cs + nlen t + 1) e RB AL OR1) as (v' & w' & EV & OC); [lia|lia|].
  pose proof OC as ((c1 & VE & C1) & HE & _ & OE & TE & NE & CE).
  assert (GL : (nlen cs + nlen t + 1) * v_growth (s_vec s) < W64) by nia.
  pose proof EV as EC. apply resize_cap in EC; [|lia|change (v_size (s_vec s)) with (ssize s); lia|exact AL|nia|exact GL].
  exists (with_vec s v'), w'.
  assert (SE1 : seen w1 s (nlen cs) (v_cap (s_vec s) - 1) (cs ++ x)).
  { eapply seen_of with (rest := rest); [rewrite <- app_assoc; apply G|exact SZ|lia|lia]. }
  assert (SE : seen w' (with_vec s v') (nlen cs) ((nlen cs + nlen t + 1) * v_growth (s_vec s) - 1) (cs ++ x)).
  { destruct SE1 as (_ & _ & S3). split; [|split].
    - unfold sget_size, bind, assert, ret, ssize. rewrite VE. cbn [s_vec with_vec set_cap v_size].
      change (v_size (s_vec s)) with (ssize s). rewrite SZ. destruct (N.leb_spec 1 (nlen cs + 1)); [|lia]. rewrite wsub_small by lia.
      do 2 f_equal. lia.
    - unfold sget_capacity, bind, assert, ret. cbn [s_vec with_vec]. rewrite EC.
      destruct (N.leb_spec 1 ((nlen cs + nlen t + 1) * v_growth (s_vec s))); [|nia]. now rewrite wsub_small by lia.
    - cbn [snd sget_data] in *. unfold sdata in *. rewrite VE. cbn [s_vec with_vec set_cap v_data].
      unfold mread in *. destruct (v_data (s_vec s)) as [p|]; [|discriminate]. rewrite HE. destruct (heap w1 (pb p)); [|discriminate].
      destruct (_ <=? _); [|discriminate]. injection S3 as ->. reflexivity. }
  split; [|split; [exact SE|split; [|split]]].
  - rewrite E, grow_step by lia. unfold sresize. rewrite SZ. rewrite wadd_small by lia.
    replace (nlen cs + 1 + nlen t - 1 + 1) with (nlen cs + nlen t + 1) by lia.
    assert (EF : st_success (err_status e) = false) by apply st_success_err.
    rewrite (bind_ok _ _ w1 (err_status e, with_vec s v') w'); [now rewrite EF|].
    rewrite (bind_ok _ _ w1 (err_status e, v') w' EV). now rewrite EF.
  - intros b LB NP. rewrite HE. assert (K := kept_of _ _ _ _ s _ _ _ BR (b_frame _ _ _ _ _ _ _ G) eq_refl). apply K; assumption.
  - intros LK. assert (X0 : x = [0]). { unfold x, room. now replace (v_cap (s_vec s) - 1 - nlen cs) with 0 by lia. }
    assert (c0 = 0) as -> by (rewrite X0 in YE; congruence).
    eapply sshows_only_cap; [|exact OC]. eapply srep_shows. split; [exact RB|apply R].
  - intros a y -> LK NZ. unfold x in SE. rewrite nfirst_pos in SE by (unfold room; lia).
    eapply seen_no_text; [exact SE|exact NZ].
Qed.

(** ** The second call *)
Lemma resize_checked w (v : vector N) n r v' w' : v_size v < n -> vresize v n w = Ok (r, v') w' -> checked w' = checked w.
Proof.
  intros Z. unfold vresize, vresize_ex. destruct (N.eqb_spec n (v_size v)); [lia|]. destruct (N.ltb_spec n (v_size v)); [lia|].
  cbn [nonnull andb]. unfold vreallocate, vreallocate_to, assert_valid, bind, assert, ret, realloc.
  intros E.
  repeat match type of E with
  | context [if ?b then _ else _] => destruct b eqn:?; try discriminate E
  | context [match v_data ?x with _ => _ end] => destruct (v_data x); try discriminate E
  | context [match heap w ?x with _ => _ end] => destruct (heap w x); try discriminate E
  | context [match orc w ?x with _ => _ end] => destruct (orc w x); try discriminate E
  end; inversion E; subst; cbn; congruence.
Qed.
Lemma nullterminate_checked s w w' : nullterminate s w = Ok tt w' -> checked w' = checked w.
Proof.
  unfold nullterminate, bind, assert, ret, mwrite. intros E.
  repeat match type of E with
  | context [if ?b then _ else _] => destruct b eqn:?; try discriminate E
  | context [match ?x with Some _ => _ | None => _ end] => destruct x; try discriminate E
  end; inversion E; subst; cbn; congruence.
Qed.
Lemma format_second is64 w s cs c t : freached is64 None w s cs -> sget_capacity s w = Ok (ST_SUCCESS, c) w ->
  c < nlen cs + nlen t -> int_text t -> sroom (nlen cs + nlen t) -> c - nlen cs < 2147483648 ->
  let n := nlen cs + nlen t + 1 in let cap := n * v_growth (s_vec s) in cap - n < 2147483648 ->
  exists s', 
    (forall t2, checked w = false \/ nlen t2 <= cap - n -> exists w',
       sappend_format (FText t) (FText t2) s w = Ok (ST_SUCCESS, s') w' /\
       seen w' s' (nlen cs + nlen t) (cap - 1) (cs ++ nfirst (cap - n) t2 ++ [0]) /\ others_kept w w' s) /\
    (forall t2, checked w = true -> cap - n < nlen t2 -> sappend_format (FText t) (FText t2) s w = Fault AssertFailed) /\
    (forall t2, exists w',
       sappend_format (FText t) (FError t2) s w = Ok (ST_FAILED, s') w' /\
       seen w' s' (nlen cs + nlen t) (cap - 1) (cs ++ nfirst (cap - n) t2) /\ others_kept w w' s).
Proof.
  intros RE CE L T RM KL n cap CL. unfold sroom, int_text in *. destruct (freached_rep _ _ _ _ _ RE) as (pre & post & R & NF & LM).
  pose proof (srep_size _ _ _ _ _ R) as SZ0. pose proof (srep_cap _ _ _ _ _ R) as CW.
  assert (LE0 : nlen cs + 1 <= v_cap (s_vec s)).
  { destruct R as [BR _]. pose proof (brep_le _ _ _ _ _ BR) as LE. rewrite nlen_app in LE. change (nlen [0]) with 1 in LE. lia. }
  assert (AL : v_alloc (s_vec s) = true). { unfold limit_of in LM. destruct (v_alloc (s_vec s)); [reflexivity|discriminate]. }
  assert (CC : c = v_cap (s_vec s) - 1) by (eapply capacity_of; eauto; lia). rewrite CC in *. clear c CC CE.
  destruct (append_start w s pre cs post (FText t) R CW) as (w1 & rest & E & SZ & LE & LR & G & CK & NX & TK & HK).
  cbn [printed] in *. set (room := v_cap (s_vec s) - 1 - nlen cs) in *.
  set (x := nfirst room t ++ [0]) in *.
  pose proof R as [BR _]. pose proof BR as (VR & ES & DT).
  pose proof (r_alloc _ _ _ _ _ VR) as RA. rewrite AL in RA. destruct RA as (_ & _ & GR & _).
  assert (exists c0 y', x = c0 :: y') as (c0 & y' & YE). { unfold x. destruct (nfirst _ t); cbn; eauto. }
  assert (G1 : bgood w (s_vec s) w1 (s_vec s) pre (cs ++ [c0]) post).
  { eapply bgood_trans; [exact G|eapply brep_wf; exact BR|].
    assert (RR : brep w1 (set_size (s_vec s) (v_cap (s_vec s))) pre ((cs ++ [c0]) ++ (y' ++ rest)) post).
    { rewrite YE in G. rewrite <- app_assoc. cbn [app]. apply G. }
    apply bcut_size in RR. rewrite nlen_app in RR. change (nlen [c0]) with 1 in RR. rewrite <- SZ in RR.
    destruct s as [fl v]. destruct v. exact RR. }
  assert (NF1 : snofail w1 s) by (eapply bnofail; [exact NF|apply G1]).
  destruct (bgrow_ok w1 s pre cs [c0] post (nlen cs + nlen t) (b_rep _ _ _ _ _ _ _ G1) NF1) as (r & w2 & s2 & E2 & FL2 & K2).
  { reflexivity. } { change (nlen [c0]) with 1. lia. } { exact RM. }
  unfold bholds in K2. rewrite AL in K2. cbn [orb] in K2. destruct K2 as [-> (l' & LL & G2)].
  assert (GL : cap < W64) by (unfold cap; nia). assert (GN : n <= cap) by (unfold cap; nia).
  assert (CP : v_cap (s_vec s2) = cap /\ checked w2 = checked w1).
  { unfold sresize in E2. rewrite wadd_small in E2 by lia. unfold bind at 1 in E2.
    destruct (vresize (s_vec s) (nlen cs + nlen t + 1) w1) as [[st v] w3|] eqn:EV; [|discriminate].
    pose proof EV as EC. apply resize_checked in EC; [|change (v_size (s_vec s)) with (ssize s); lia].
    apply resize_cap in EV; [|lia|change (v_size (s_vec s)) with (ssize s); lia|exact AL|unfold cap, n in *; nia|exact GL].
    rewrite <- EC. fold n cap in EV. destruct (st_success st); cbn [negb] in E2; unfold bind, ret in E2.
    - destruct (nullterminate _ _) as [[] w4|] eqn:EN; [|discriminate]. apply nullterminate_checked in EN.
      injection E2 as <- <-. split; [exact EV|exact EN].
    - injection E2 as _ <- <-. now split. }
  destruct CP as [CP CK2]. pose proof (b_rep _ _ _ _ _ _ _ G2) as R2.
  assert (SZ2 : ssize s2 = n).
  { change (ssize s2) with (v_size (s_vec s2)). rewrite (brep_size _ _ _ _ _ R2), nlen_app. exact LL. }
  assert (GT : bgood w (s_vec s) w2 (s_vec s2) pre (cs ++ l') post).
  { eapply bgood_trans; [exact G1|eapply brep_wf; exact BR|exact G2]. }
  assert (ALL : forall f2, exists w3, 
     seen w3 s2 (nlen cs + nlen t) (cap - 1) (cs ++ printed f2 (cap - n)) /\ others_kept w w3 s /\ checked w3 = checked w /\
     sappend_format (FText t) f2 s w = (if (answer f2 <? 0)%Z then ret (ST_FAILED, s2) else
       assert (answer f2 <=? Z.of_N (cap - n))%Z ;;; ret (ST_SUCCESS, s2)) w3).
  { intros f2. destruct (print_at w2 (s_vec s2) pre cs l' post f2 (cap - n) R2) as (w3 & rest3 & E3 & LR3 & G3 & CK3 & _).
    { rewrite CP. unfold n in *. lia. }
    exists w3. split; [|split; [|split]].
    - rewrite <- CP in G3 |- *. eapply seen_of with (rest := rest3); [rewrite <- app_assoc; apply G3|exact SZ2|unfold n in *; lia|lia].
    - eapply kept_of; [exact BR| |reflexivity]. eapply b_frame. eapply bgood_trans; [exact GT|eapply brep_wf; exact BR|exact G3].
    - congruence.
    - unfold room in KL. rewrite E, grow_step by lia. rewrite SZ. replace (nlen cs + 1 + nlen t - 1) with (nlen cs + nlen t) by lia.
      rewrite (bind_ok _ _ _ _ _ E2). change (negb (st_success ST_SUCCESS)) with false. cbv beta iota.
      rewrite SZ2, CP. rewrite (wsub_small cap) by lia. rewrite (wadd_small (cap - n) 1) by (unfold n in *; lia).
      replace (nlen cs + 1 - 1) with (nlen cs) by lia. change (sdata s2) with (v_data (s_vec s2)).
      rewrite (bind_ok _ _ _ _ _ E3). rewrite to_i32_small by lia. reflexivity. }
  exists s2. split; [|split].
  - intros t2 H. destruct (ALL (FText t2)) as (w3 & S3 & K3 & C3 & F3). cbn [printed answer] in *. exists w3.
    split; [|split; assumption]. rewrite F3. destruct (Z.ltb_spec (Z.of_N (nlen t2)) 0); [lia|]. unfold bind, assert, ret.
    destruct (Z.leb_spec (Z.of_N (nlen t2)) (Z.of_N (cap - n))); [reflexivity|]. rewrite C3. destruct H as [->|H]; [reflexivity|lia].
  - intros t2 H1 H2. destruct (ALL (FText t2)) as (w3 & S3 & K3 & C3 & F3). cbn [printed answer] in *. rewrite F3.
    destruct (Z.ltb_spec (Z.of_N (nlen t2)) 0); [lia|]. unfold bind, assert, ret.
    destruct (Z.leb_spec (Z.of_N (nlen t2)) (Z.of_N (cap - n))); [lia|]. now rewrite C3, H1.
  - intros t2. destruct (ALL (FError t2)) as (w3 & S3 & K3 & C3 & F3). cbn [printed answer] in *. exists w3.
    split; [|split; assumption]. now rewrite F3.
Qed.

(** ** Consequences *)
Lemma append_one is64 w s cs c x y : freached is64 None w s cs -> sget_capacity s w = Ok (ST_SUCCESS, c) w ->
  let t := x :: y in
  c < nlen cs + nlen t -> int_text t -> sroom (nlen cs + nlen t) -> c - nlen cs < 2147483648 -> v_growth (s_vec s) = 1 ->
  (forall t2, checked w = true -> 1 <= nlen t2 -> sappend_format (FText t) (FText t2) s w = Fault AssertFailed) /\
  (forall t2, checked w = false -> exists w' s',
     sappend_format (FText t) (FText t2) s w = Ok (ST_SUCCESS, s') w' /\
     seen w' s' (nlen cs + nlen t) (nlen cs + nlen t) (cs ++ [0]) /\ (x <> 0 -> ~ sshows w' s' (cs ++ t))).
Proof.
  intros RE CE t L T RM KL G1.
  destruct (format_second is64 w s cs c t RE CE L T RM KL) as (s' & A & B & _); [rewrite G1; lia|].
  rewrite G1, N.mul_1_r, N.sub_diag in *. replace (nlen cs + nlen t + 1 - 1) with (nlen cs + nlen t) in * by lia. split.
  - intros t2 H1 H2. apply B; [exact H1|lia].
  - intros t2 H1. destruct (A t2 (or_introl H1)) as (w' & E & SE & _). exists w', s'. split; [exact E|].
    change (nfirst 0 t2 ++ [0]) with [0] in SE. split; [exact SE|]. intros NZ (_ & _ & T3). destruct SE as (_ & _ & S3).
    unfold mread in *. destruct (snd (sget_data s')) as [p|]; [|discriminate]. destruct (heap w' (pb p)) as [d|]; [|discriminate].
    destruct (N.leb_spec (po p + nlen (cs ++ [0])) (nlen d)) as [L1|]; [|discriminate].
    destruct (N.leb_spec (po p + (nlen (cs ++ t) + 1)) (nlen d)) as [L2|]; [|discriminate].
    injection S3 as S3. injection T3 as T3. unfold t in *. rewrite nlen_app in *. change (nlen [0]) with 1 in *.
    rewrite nlen_cons in *.
    assert (E1 : nnth (nlen cs) (nsub (po p) (nlen cs + 1) d) = Some 0)
      by (rewrite S3, nnth_app2 by lia; now rewrite N.sub_diag).
    assert (E2 : nnth (nlen cs) (nsub (po p) (nlen cs + (1 + nlen y) + 1) d) = Some x)
      by (rewrite T3, <- app_assoc, nnth_app2 by lia; now rewrite N.sub_diag).
    rewrite nnth_nsub in E1, E2 by lia. congruence.
Qed.
(** The signed functions on a fixed buffer. *)
Lemma signed_left is64 k w s cs v pad force prefix : freached is64 (Some k) w s cs ->
  (-9223372036854775808 <= v < 9223372036854775808)%Z -> pad < 256 ->
  sroom (nlen cs + (1 + nlen (prefix_text prefix) + pad + 20)) ->
  let head := cs ++ sign_text v force ++ prefix_text prefix in nlen head <= k ->
  (forall ds, numeral 10 false (Z.abs_N v) ds -> k < nlen (head ++ padded pad ds) ->
     exists w' s', run_fop is64 s (FDecS v pad force prefix) w = Ok (ST_INSUFFICIENT_BUFFER_SIZE, s') w' /\ sshows w' s' head) /\
  (forall upper ds, numeral 16 upper (Z.abs_N v) ds -> k < nlen (head ++ padded pad ds) ->
     exists w' s', run_fop is64 s (FHexS v pad upper force prefix) w = Ok (ST_INSUFFICIENT_BUFFER_SIZE, s') w' /\ sshows w' s' head).
Proof.
  intros RE V P F head HL.
  assert (PARTS : forall d r cs', k < nlen (head ++ d) ->
    append_parts (Some k) [sign_text v force; prefix_text prefix; d] cs r cs' -> r = ST_INSUFFICIENT_BUFFER_SIZE /\ cs' = head).
  { intros d r cs' LD A. unfold head in *. cbn [append_parts] in A. unfold holds_chars in A.
    rewrite !nlen_app in *. destruct (N.leb_spec (nlen cs + nlen (sign_text v force)) k); [|lia].
    destruct (N.leb_spec (nlen cs + nlen (sign_text v force) + nlen (prefix_text prefix)) k); [|lia].
    destruct (N.leb_spec (nlen cs + nlen (sign_text v force) + nlen (prefix_text prefix) + nlen d) k); [lia|].
    now rewrite <- app_assoc in A. }
  split.
  - intros ds NU H.
    destruct (call_ok is64 (Some k) w s cs (FDecS v pad force prefix) RE (conj V P) F) as (r & w' & s' & cs' & E & (ds' & NU' & B) & SH & BE).
    rewrite (numeral_unique 10 false _ ds' ds ltac:(lia) NU' NU) in B. apply PARTS in B; [|exact H]. destruct B as [-> ->].
    now exists w', s'.
  - intros upper ds NU H.
    destruct (call_ok is64 (Some k) w s cs (FHexS v pad upper force prefix) RE (conj V P) F) as (r & w' & s' & cs' & E & (ds' & NU' & B) & SH & BE).
    rewrite (numeral_unique 16 upper _ ds' ds ltac:(lia) NU' NU) in B. apply PARTS in B; [|exact H]. destruct B as [-> ->].
    now exists w', s'.
Qed.
