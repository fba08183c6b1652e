(** The number formatting functions append the numeral. *)
From Verif Require Import Base NListFacts Status Mem MemFacts VectorModel VectorSpec VectorDriver VectorRep
  VectorProofs VectorProofs2 VectorProofs3 VectorRefine StringModel StringSpec StringDriver StringBytes StringProofs StringFinal2
  FormatModel FormatSpec FormatDigits.
From Coq Require Import ZifyBool ZifyNat ZifyN.

Implicit Types (w : world) (s : str).

Lemma nlen_nrepeat {A} (x : A) n : nlen (nrepeat x n) = n.
Proof. unfold nlen, nrepeat. rewrite repeat_length. lia. Qed.
Lemma nlen_padded pad ds : nlen (padded pad ds) = N.max (nlen ds) pad.
Proof. unfold padded. rewrite nlen_app, nlen_nrepeat. lia. Qed.

(** ZyanStringResize on a string whose last byte need not be 0. *)
Lemma bgrow_ok w s pre cs l post n : brep w (s_vec s) pre (cs ++ l) post -> snofail w s -> 1 <= nlen l ->
  nlen cs + nlen l <= n + 1 -> (n + 1) * 256 < W64 ->
  exists r w1 s1, sresize s n w = Ok (r, s1) w1 /\ s_flags s1 = s_flags s /\
    if bholds (s_vec s) (n + 1)
    then r = ST_SUCCESS /\ exists l', nlen cs + nlen l' = n + 1 /\ bgood w (s_vec s) w1 (s_vec s1) pre (cs ++ l') post
    else r = ST_INSUFFICIENT_BUFFER_SIZE /\ bgood w (s_vec s) w1 (s_vec s1) pre (cs ++ l) post.
Proof.
  intros R NF L1 L2 F. pose proof (brep_cap _ _ _ _ _ R) as CAP. unfold sresize. rewrite wadd_small by lia.
  destruct (bresize_ok w (s_vec s) pre (cs ++ l) post (n + 1) R (nofail_grants _ _ NF)) as (r & w1 & v1 & l1 & E1 & G1 & K).
  { rewrite nlen_app. lia. } { lia. }
  rewrite (bind_ok _ _ _ _ _ E1). rewrite nlen_app in K.
  assert (C : (r = ST_SUCCESS /\ bholds (s_vec s) (n + 1) = true /\ exists l', l1 = cs ++ l' /\ nlen cs + nlen l' = n + 1) \/
              (r = ST_INSUFFICIENT_BUFFER_SIZE /\ bholds (s_vec s) (n + 1) = false /\ l1 = cs ++ l)).
  { destruct (N.leb_spec (n + 1) (nlen cs + nlen l)).
    - left. destruct K as [-> ->]. split; [reflexivity|]. split.
      + unfold bholds. pose proof (brep_le _ _ _ _ _ R) as LE. rewrite nlen_app in LE. lia.
      + exists l. split; [apply nfirst_all; rewrite nlen_app; lia|lia].
    - destruct (bholds (s_vec s) (n + 1)).
      + left. destruct K as [-> (new & -> & LN)]. split; [reflexivity|]. split; [reflexivity|].
        exists (l ++ new). rewrite app_assoc. split; [reflexivity|]. rewrite nlen_app. lia.
      + right. destruct K as [-> ->]. now repeat split. }
  destruct C as [(-> & -> & l' & -> & LL)|(-> & -> & ->)]; sst.
  - destruct (nlast l' (nlen l' - 1)) as [z Z]; [lia|].
    assert (G1' : bgood w (s_vec s) w1 v1 pre ((cs ++ nfirst (nlen l' - 1) l') ++ [z]) post)
      by (rewrite <- app_assoc, <- Z; exact G1).
    destruct (nullterminate_ok w1 (with_vec s v1) pre _ z post (b_rep _ _ _ _ _ _ _ G1')) as (w2 & E2 & G2).
    rewrite (bind_ok _ _ _ _ _ E2). exists ST_SUCCESS, w2, (with_vec s v1). split; [reflexivity|]. split; [reflexivity|].
    split; [reflexivity|]. exists (nfirst (nlen l' - 1) l' ++ [0]). split.
    + rewrite nlen_app, nlen_nfirst. change (nlen [0]) with 1. lia.
    + eapply bgood_trans; [exact G1'|eapply brep_wf; exact R|]. rewrite app_assoc. exact G2.
  - exists ST_INSUFFICIENT_BUFFER_SIZE, w1, (with_vec s v1). split; [reflexivity|]. split; [reflexivity|]. now split.
Qed.
(** The size field set to another value within the capacity. *)
Lemma bresized w v pre cs l post t : brep w v pre (cs ++ l) post -> nlen cs + t <= v_cap v ->
  exists mid, nlen mid = t /\ bgood w v w (set_size v (nlen cs + t)) pre (cs ++ mid) post.
Proof.
  intros R L. destruct (N.le_gt_cases (nlen l) t) as [G|G].
  - destruct (bset_size w v pre (cs ++ l) post (nlen cs + t) R) as (more & LM & B).
    { rewrite nlen_app. lia. } { exact L. }
    exists (l ++ more). rewrite nlen_app in *. split; [lia|]. rewrite app_assoc. exact B.
  - destruct (nsplit t l) as (a & c & -> & LA); [lia|]. rewrite app_assoc in R.
    exists a. split; [exact LA|]. pose proof (bcut_size _ _ _ _ _ _ R) as B. rewrite nlen_app, LA in B. exact B.
Qed.

(** Room for [k] more characters, if it is there or can be had. *)
Lemma room_ok (c : bool) w s pre cs post k : srep w s pre cs post -> snofail w s ->
  (nlen cs + k + 1) * 256 < W64 -> (c = false -> nlen cs + k + 1 <= v_cap (s_vec s)) ->
  exists r w1 s1, (if c then sresize s (nlen cs + k) else ret (ST_SUCCESS, s)) w = Ok (r, s1) w1 /\
    s_flags s1 = s_flags s /\
    if holds_chars (limit_of s) (nlen cs + k)
    then r = ST_SUCCESS /\ (exists l, 1 <= nlen l /\ bgood w (s_vec s) w1 (s_vec s1) pre (cs ++ l) post) /\
         nlen cs + k + 1 <= v_cap (s_vec s1)
    else r = ST_INSUFFICIENT_BUFFER_SIZE /\ bgood w (s_vec s) w1 (s_vec s1) pre (cs ++ [0]) post.
Proof.
  intros SR NF F C. pose proof SR as [R FL]. pose proof (brep_cap _ _ _ _ _ R) as CAP.
  destruct c.
  - rewrite <- bholds_limit by lia.
    destruct (bgrow_ok w s pre cs [0] post (nlen cs + k) R NF) as (r & w1 & s1 & E & FS & K).
    { discriminate. } { change (nlen [0]) with 1. lia. } { lia. }
    exists r, w1, s1. split; [exact E|]. split; [exact FS|].
    destruct (bholds (s_vec s) (nlen cs + k + 1)); [|exact K].
    destruct K as [-> (l' & LL & G)]. split; [reflexivity|]. split.
    + exists l'. split; [lia|exact G].
    + pose proof (brep_le _ _ _ _ _ (b_rep _ _ _ _ _ _ _ G)) as LE. rewrite nlen_app in LE. lia.
  - specialize (C eq_refl). exists ST_SUCCESS, w, s. split; [reflexivity|]. split; [reflexivity|].
    rewrite <- bholds_limit by lia.
    replace (bholds (s_vec s) (nlen cs + k + 1)) with true by (unfold bholds; lia).
    split; [reflexivity|]. split; [|exact C]. exists [0]. split; [discriminate|]. now apply bgood_refl.
Qed.

(** Writing the text [y1 ++ y2] behind the characters, then the terminator. *)
Lemma finish_ok w s1 pre cs l post y1 y2 m1 k : brep w (s_vec s1) pre (cs ++ l) post ->
  k = nlen y1 + nlen y2 -> nlen cs + k + 1 <= v_cap (s_vec s1) ->
  (m1 = mwrite (padd (sdata s1) (nlen cs)) y1 \/ m1 = ret tt /\ y1 = []) ->
  exists w2, (m1 ;;; mwrite (padd (sdata s1) (nlen cs + nlen y1)) y2 ;;;
     nullterminate (with_vec s1 (set_size (s_vec s1) (nlen cs + 1 + k))) ;;;
     ret (ST_SUCCESS, with_vec s1 (set_size (s_vec s1) (nlen cs + 1 + k)))) w
    = Ok (ST_SUCCESS, with_vec s1 (set_size (s_vec s1) (nlen cs + 1 + k))) w2 /\
    bgood w (s_vec s1) w2 (set_size (s_vec s1) (nlen cs + 1 + k)) pre ((cs ++ y1 ++ y2) ++ [0]) post.
Proof.
  intros R KK L M1. destruct (bresized w (s_vec s1) pre cs l post (1 + k) R) as (mid & LM & G); [lia|].
  rewrite N.add_assoc in G. set (v2 := set_size (s_vec s1) (nlen cs + 1 + k)) in *.
  destruct (nsplit (nlen y1) mid) as (b & c & -> & LB); [lia|]. rewrite nlen_app in LM.
  destruct (nsplit (nlen y2) c) as (b2 & c2 & -> & LB2); [lia|]. rewrite nlen_app in LM.
  destruct (nlen_1 c2) as [z ->]; [lia|].
  change (sdata s1) with (v_data v2) in *.
  assert (S1 : exists w1, m1 w = Ok tt w1 /\ bgood w v2 w1 v2 pre (cs ++ y1 ++ b2 ++ [z]) post).
  { destruct M1 as [->|[-> ->]].
    - apply (bwrite_ok w v2 pre cs b y1 (b2 ++ [z]) post (b_rep _ _ _ _ _ _ _ G)). now symmetry.
    - exists w. split; [reflexivity|]. destruct b; [|rewrite nlen_cons in LB; change (nlen (@nil N)) with 0 in LB; lia].
      apply bgood_refl. apply G. }
  destruct S1 as (w1 & E1 & G1). rewrite (bind_ok _ _ _ _ _ E1).
  destruct (bwrite_ok w1 v2 pre (cs ++ y1) b2 y2 [z] post) as (w2 & E2 & G2).
  { rewrite <- app_assoc. apply G1. } { now symmetry. }
  rewrite nlen_app in E2. rewrite (bind_ok _ _ _ _ _ E2).
  destruct (nullterminate_ok w2 (with_vec s1 v2) pre (cs ++ y1 ++ y2) z post) as (w3 & E3 & G3).
  { cbn [s_vec with_vec]. rewrite <- !app_assoc in G2. rewrite <- !app_assoc. apply G2. }
  rewrite (bind_ok _ _ _ _ _ E3). exists w3. split; [reflexivity|].
  eapply bgood_trans; [exact G|eapply brep_wf; exact R|]. eapply bgood_trans; [exact G1|eapply brep_wf; apply G|].
  eapply bgood_trans; [exact G2|eapply brep_wf; apply G1|exact G3].
Qed.

(** ** Decimal *)
Lemma dec_ok w s pre cs post max v pad : srep w s pre cs post -> snofail w s ->
  N.even max = true -> 2 <= max <= 20 -> v < 10 ^ max -> pad < 256 -> (nlen cs + pad + 20 + 1) * 256 < W64 ->
  exists ds, numeral 10 false v ds /\
  exists r w' s' cs', sappend_dec max s v pad w = Ok (r, s') w' /\ sgood w s w' s' pre cs' post /\
    become (limit_of s) (cs ++ padded pad ds) cs r cs'.
Proof.
  intros SR NF EM M V P F. pose proof SR as [R FL]. pose proof (brep_cap _ _ _ _ _ R) as CAP.
  destruct (dec_digits_ok w max v EM) as (v' & buf & buf2 & ds & E1 & E2 & NU & LB & LB2 & LD & DD); [lia|exact V|].
  exists ds. split; [exact NU|]. unfold sappend_dec. rewrite (bind_ok _ _ _ _ _ E1). cbv beta iota.
  rewrite (bind_ok _ _ _ _ _ E2). cbv zeta. rewrite (srep_size _ _ _ _ _ SR).
  set (odd := if v' <? 10 then 1 else 0) in *. assert (odd <= 1) by (subst odd; destruct (v' <? 10); lia).
  rewrite (wsub_small (nlen buf2)) by lia. rewrite <- LD.
  set (k := N.max (nlen ds) pad).
  assert (LT : nlen (padded pad ds) = k) by apply nlen_padded.
  rewrite (wadd_small (nlen cs + 1) k) by lia. rewrite (wsub_small (nlen cs + 1 + k) 1) by lia.
  replace (nlen cs + 1 + k - 1) with (nlen cs + k) by lia.
  destruct (room_ok (v_cap (s_vec s) <? nlen cs + 1 + k) w s pre cs post k SR NF) as (r & w1 & s1 & ER & FS & K).
  { lia. } { intros C. lia. }
  rewrite (bind_ok _ _ _ _ _ ER).
  assert (HL : holds_chars (limit_of s) (nlen (cs ++ padded pad ds)) = holds_chars (limit_of s) (nlen cs + k))
    by now rewrite nlen_app, LT.
  unfold become. rewrite HL. destruct (holds_chars (limit_of s) (nlen cs + k)).
  2: { destruct K as [-> G]. sst. exists ST_INSUFFICIENT_BUFFER_SIZE, w1, s1, cs. split; [reflexivity|].
       split; [split; [exact G|exact FS]|now split]. }
  destruct K as [-> ((l & LL & G) & CP)]. sst.
  rewrite (wsub_small (nlen cs + 1) 1) by lia. replace (nlen cs + 1 - 1) with (nlen cs) by lia. rewrite <- DD.
  set (zs := nrepeat 48 (pad - nlen ds)).
  assert (LZ : nlen zs = pad - nlen ds) by apply nlen_nrepeat.
  destruct (finish_ok w1 s1 pre cs l post zs ds
    (if nlen ds <? pad then mwrite (padd (sdata s1) (nlen cs)) zs else ret tt) k (b_rep _ _ _ _ _ _ _ G)) as (w2 & EF & GF).
  { lia. } { exact CP. }
  { destruct (N.ltb_spec (nlen ds) pad); [now left|right]. split; [reflexivity|]. unfold zs.
    now replace (pad - nlen ds) with 0 by lia. }
  exists ST_SUCCESS, w2, (with_vec s1 (set_size (s_vec s1) (nlen cs + 1 + k))), (cs ++ padded pad ds).
  split; [|split; [|now split]].
  - etransitivity; [|exact EF]. destruct (N.ltb_spec (nlen ds) pad) as [LP|LP].
    + rewrite (wsub_small pad (nlen ds)) by lia. rewrite (wadd_small (nlen cs + 1)) by lia.
      rewrite wsub_small by lia. replace (nlen cs + 1 + (pad - nlen ds) - 1) with (nlen cs + nlen zs) by lia. reflexivity.
    + rewrite (wadd_small (nlen cs + 1) 0) by lia. rewrite wsub_small by lia.
      replace (nlen cs + 1 + 0 - 1) with (nlen cs + nlen zs) by lia. reflexivity.
  - split; [|exact FS]. cbn [s_vec with_vec]. eapply bgood_trans; [exact G|eapply brep_wf; exact R|exact GF].
Qed.

(** ** Hexadecimal *)
Lemma pow16_pos k : 1 <= 16 ^ k.
Proof. pose proof (N.pow_nonzero 16 k). lia. Qed.
(** Leading zeros are skipped. *)
Lemma hex_skip value pad upper len rem s b (w : world) : forall k, value <> 0 -> value < 16 ^ N.of_nat k ->
  exists i, (i < k)%nat /\ N.land (N.shiftr value (N.of_nat i * 4)) 15 = value / 16 ^ N.of_nat i /\
    1 <= value / 16 ^ N.of_nat i < 16 /\
    hex_loop k value pad upper len rem s 0 b w = hex_loop (S i) value pad upper len rem s 0 b w.
Proof.
  induction k as [|k IH]; intros NZ B.
  - change (16 ^ N.of_nat 0) with 1 in B. lia.
  - pose proof (nibble_ok value (N.of_nat k)) as NB. pose proof (pow16_pos (N.of_nat k)) as PP.
    assert (B2 : value / 16 ^ N.of_nat k < 16).
    { apply N.div_lt_upper_bound; [lia|]. replace (N.of_nat (S k)) with (N.of_nat k + 1) in B by lia.
      rewrite N.pow_add_r, N.pow_1_r in B. lia. }
    rewrite N.mod_small in NB by exact B2.
    destruct (N.eq_dec (value / 16 ^ N.of_nat k) 0) as [Z|NZ2].
    + destruct IH as (i & LI & A & C & E); auto. { apply N.div_small_iff in Z; [exact Z|lia]. }
      exists i. split; [lia|]. split; [exact A|]. split; [exact C|]. rewrite <- E. cbn [hex_loop]. rewrite NB, Z. reflexivity.
    + exists k. split; [lia|]. split; [exact NB|]. split; [lia|reflexivity].
Qed.
(** The digits behind the first one. *)
Lemma hex_write_ok value pad upper len rem pre cs post v2 : forall k w s front rest,
  brep w v2 pre (cs ++ front ++ rest) post -> 1 <= nlen front -> nlen front + N.of_nat k < 256 ->
  nlen rest = N.of_nat k + 1 ->
  exists ds z w', hex_loop k value pad upper len rem s (nlen front) (padd (v_data v2) (nlen cs)) w
      = Ok (ST_SUCCESS, s, nlen front + N.of_nat k) w' /\
    nlen ds = N.of_nat k /\ Forall (fun d => d < 16) ds /\ value_of 16 ds = value mod 16 ^ N.of_nat k /\
    bgood w v2 w' v2 pre (cs ++ front ++ map (digit_char upper) ds ++ [z]) post.
Proof.
  induction k as [|k IH]; intros w s front rest R LF B LR.
  - destruct (nlen_1 rest) as [z ->]; [exact LR|]. exists [], z, w. change (N.of_nat 0) with 0. rewrite N.add_0_r.
    split; [reflexivity|]. split; [reflexivity|]. split; [constructor|]. split; [|now apply bgood_refl].
    rewrite N.pow_0_r, N.mod_1_r. reflexivity.
  - cbn [hex_loop]. destruct (N.eqb_spec (nlen front) 0); [lia|]. pose proof (nibble_lt value (N.of_nat k)) as NL.
    pose proof (nibble_ok value (N.of_nat k)) as NB. set (d := N.land (N.shiftr value (N.of_nat k * 4)) 15) in *.
    assert (NN : nonnull (padd (v_data v2) (nlen cs)) = true) by now rewrite (brep_at _ _ _ _ _ _ R).
    rewrite NN. unfold bind at 1, assert at 1, ret at 1.
    rewrite (bind_ok _ _ _ _ _ (hex_char_ok upper d w NL)).
    destruct rest as [|x rest]; [change (nlen (@nil N)) with 0 in LR; lia|]. rewrite nlen_cons in LR.
    destruct (bwrite_ok w v2 pre (cs ++ front) [x] [digit_char upper d] rest post) as (w1 & E1 & G1).
    { rewrite <- !app_assoc. exact R. } { reflexivity. }
    assert (PA : padd (padd (v_data v2) (nlen cs)) (nlen front) = padd (v_data v2) (nlen (cs ++ front))).
    { rewrite nlen_app, (brep_data _ _ _ _ _ R). cbn. f_equal. f_equal. lia. }
    rewrite PA, (bind_ok _ _ _ _ _ E1). rewrite N.mod_small by (change W8 with 256; lia).
    replace (nlen front + 1) with (nlen (front ++ [digit_char upper d])) by (rewrite nlen_app; reflexivity).
    assert (R1 : brep w1 v2 pre (cs ++ (front ++ [digit_char upper d]) ++ rest) post).
    { rewrite <- !app_assoc in *. apply G1. }
    destruct (IH w1 s (front ++ [digit_char upper d]) rest R1) as (ds & z & w' & E & LD & FD & VD & G2).
    { rewrite nlen_app. lia. } { rewrite nlen_app. change (nlen [digit_char upper d]) with 1. lia. } { lia. }
    exists (d :: ds), z, w'. split; [|split; [|split; [|split]]].
    + rewrite E. rewrite nlen_app. change (nlen [digit_char upper d]) with 1. do 2 f_equal. lia.
    + rewrite nlen_cons. lia.
    + now constructor.
    + rewrite value_cons, LD, VD, NB. replace (N.of_nat (S k)) with (N.of_nat k + 1) by lia.
      rewrite N.pow_add_r, N.pow_1_r. rewrite N.mod_mul_r by (pose proof (pow16_pos (N.of_nat k)); lia). lia.
    + eapply bgood_trans; [exact G1|eapply brep_wf; exact R|]. rewrite <- !app_assoc in *. exact G2.
Qed.
Lemma bgood_limit w v w' v' pre l post n : bgood w v w' v' pre l post -> bholds v' n = bholds v n.
Proof.
  intros [B C _ K]. unfold bholds. destruct C as [-> _]. destruct (v_alloc v); [reflexivity|]. now rewrite K.
Qed.

(** The terminator at the end. *)
Lemma close_ok w s1 pre a z post : brep w (set_size (s_vec s1) (nlen a + 1)) pre (a ++ [z]) post ->
  exists w2, (nullterminate (with_vec s1 (set_size (s_vec s1) (nlen a + 1))) ;;;
     ret (ST_SUCCESS, with_vec s1 (set_size (s_vec s1) (nlen a + 1)))) w
    = Ok (ST_SUCCESS, with_vec s1 (set_size (s_vec s1) (nlen a + 1))) w2 /\
    bgood w (set_size (s_vec s1) (nlen a + 1)) w2 (set_size (s_vec s1) (nlen a + 1)) pre (a ++ [0]) post.
Proof.
  intros R. destruct (nullterminate_ok w (with_vec s1 (set_size (s_vec s1) (nlen a + 1))) pre a z post R) as (w2 & E & G).
  rewrite (bind_ok _ _ _ _ _ E). exists w2. split; [reflexivity|exact G].
Qed.

Lemma numeral_length base upper v ds i : 2 <= base -> numeral base upper v ds -> base ^ i <= v < base ^ (i + 1) ->
  nlen ds = i + 1.
Proof.
  intros B NU [L U]. destruct (numeral_value base upper v ds B NU) as (A1 & A2 & A3).
  assert (i < nlen ds) by (apply (N.pow_lt_mono_r_iff base); lia).
  destruct (N.eq_dec (nlen ds) 1); [lia|]. specialize (A2 ltac:(lia)).
  assert (nlen ds - 1 < i + 1) by (apply (N.pow_lt_mono_r_iff base); lia). lia.
Qed.
Lemma hex_ok w s pre cs post k v pad upper : srep w s pre cs post -> snofail w s ->
  (k <= 16)%nat -> v < 16 ^ N.of_nat k -> pad < 256 -> (nlen cs + pad + 20 + 1) * 256 < W64 ->
  exists ds, numeral 16 upper v ds /\
  exists r w' s' cs', sappend_hex k s v pad upper w = Ok (r, s') w' /\ sgood w s w' s' pre cs' post /\
    become (limit_of s) (cs ++ padded pad ds) cs r cs'.
Proof.
  intros SR NF K16 V P F. pose proof SR as [R FL]. pose proof (brep_cap _ _ _ _ _ R) as CAP.
  pose proof (brep_le _ _ _ _ _ R) as LE. rewrite nlen_app in LE. change (nlen [0]) with 1 in LE.
  destruct (numeral_exists 16 upper v) as (ds & NU); [lia|]. exists ds. split; [exact NU|].
  unfold sappend_hex. rewrite (srep_size _ _ _ _ _ SR). rewrite (wsub_small (v_cap (s_vec s))) by lia.
  rewrite (wadd_small (nlen cs + 1) pad) by lia. rewrite (wsub_small (nlen cs + 1 + pad) 1) by lia.
  replace (nlen cs + 1 + pad - 1) with (nlen cs + pad) by lia. cbv zeta.
  set (c := v_cap (s_vec s) - (nlen cs + 1) <? pad).
  destruct (room_ok c w s pre cs post pad SR NF) as (r & w1 & s1 & ER & FS & K).
  { lia. } { intros C. lia. }
  rewrite (bind_ok _ _ _ _ _ ER).
  set (T := N.max (nlen ds) pad). assert (LT : nlen (padded pad ds) = T) by apply nlen_padded.
  assert (FAIL : forall w' s', s_flags s' = s_flags s -> holds_chars (limit_of s) (nlen cs + T) = false ->
    bgood w (s_vec s) w' (s_vec s') pre (cs ++ [0]) post ->
    exists r w0 s0 cs', Ok (ST_INSUFFICIENT_BUFFER_SIZE, s') w' = Ok (r, s0) w0 /\ sgood w s w0 s0 pre cs' post /\
      become (limit_of s) (cs ++ padded pad ds) cs r cs').
  { intros w' s' F' H G. exists ST_INSUFFICIENT_BUFFER_SIZE, w', s', cs. split; [reflexivity|]. split; [now split|].
    unfold become. rewrite nlen_app, LT, H. now split. }
  assert (SUCC : forall w' s', s_flags s' = s_flags s -> holds_chars (limit_of s) (nlen cs + T) = true ->
    bgood w (s_vec s) w' (s_vec s') pre ((cs ++ padded pad ds) ++ [0]) post ->
    exists r w0 s0 cs', Ok (ST_SUCCESS, s') w' = Ok (r, s0) w0 /\ sgood w s w0 s0 pre cs' post /\
      become (limit_of s) (cs ++ padded pad ds) cs r cs').
  { intros w' s' F' H G. exists ST_SUCCESS, w', s', (cs ++ padded pad ds). split; [reflexivity|]. split; [now split|].
    unfold become. rewrite nlen_app, LT, H. now split. }
  (* the first Resize failed *)
  destruct (holds_chars (limit_of s) (nlen cs + pad)) eqn:HP.
  2: { destruct K as [-> G]. sst. apply FAIL; auto. unfold holds_chars in *. destruct (limit_of s); [lia|discriminate]. }
  destruct K as [-> ((l & LL & G) & CP)]. sst.
  set (rem := if c then pad else v_cap (s_vec s) - (nlen cs + 1)).
  assert (REM : nlen cs + rem + 1 <= v_cap (s_vec s1)).
  { subst rem. destruct c eqn:CC; [lia|]. unfold ret in ER. injection ER as <- <-. lia. }
  assert (REMP : pad <= rem) by (subst rem c; destruct (N.ltb_spec (v_cap (s_vec s) - (nlen cs + 1)) pad); lia).
  assert (NF1 : snofail w1 s1) by (eapply bnofail; [exact NF|exact G]).
  assert (LM : forall n, bholds (s_vec s1) (n + 1) = holds_chars (limit_of s) n).
  { intros n. rewrite (bgood_limit _ _ _ _ _ _ _ _ G). apply bholds_limit. lia. }
  (* a second Resize, asking for room for m more characters at least *)
  assert (ROOM2 : forall (c2 : bool) n m, (c2 = false -> m <= rem) ->
      n = ssize s1 - 1 + m -> (c2 = true -> rem < m <= 16) ->
      exists r2 w2 s2, (if c2 then sresize s1 n else ret (ST_SUCCESS, s1)) w1 = Ok (r2, s2) w2 /\
        s_flags s2 = s_flags s /\
        ((r2 = ST_SUCCESS /\ holds_chars (limit_of s) (nlen cs + N.max m pad) = true /\
          nlen cs + N.max m pad + 1 <= v_cap (s_vec s2) /\
          exists l2, bgood w (s_vec s) w2 (s_vec s2) pre (cs ++ l2) post) \/
         (r2 = ST_INSUFFICIENT_BUFFER_SIZE /\ holds_chars (limit_of s) (nlen cs + N.max m pad) = false /\
          bgood w (s_vec s) w2 (s_vec s2) pre (cs ++ [0]) post))).
  { intros c2 n m A1 A3 A4. pose proof (b_rep _ _ _ _ _ _ _ G) as R1. destruct c2.
    - specialize (A4 eq_refl). destruct c eqn:CC.
      + (* both: only a growable string gets here *)
        assert (AL : limit_of s = None).
        { unfold limit_of in *. destruct (v_alloc (s_vec s)); [reflexivity|]. cbn in HP. subst c. lia. }
        destruct (bgrow_ok w s pre cs [0] post (nlen cs + pad) R NF) as (r & w1' & s1' & E' & _ & K').
        { discriminate. } { change (nlen [0]) with 1. lia. } { lia. }
        rewrite ER in E'. injection E' as <- <- <-. rewrite bholds_limit, HP in K' by lia.
        destruct K' as [_ (l' & LL' & G')]. pose proof (brep_size _ _ _ _ _ (b_rep _ _ _ _ _ _ _ G')) as SZ'.
        rewrite nlen_app in SZ'. change (v_size (s_vec s1)) with (ssize s1) in SZ'.
        assert (nlen l' = pad + 1) by lia.
        destruct (bgrow_ok w1 s1 pre cs l' post n (b_rep _ _ _ _ _ _ _ G') NF1) as (r2 & w2 & s2 & E2 & F2 & K2); [lia|lia|lia|].
        exists r2, w2, s2. split; [exact E2|]. split; [congruence|]. rewrite LM, AL in K2. cbn [holds_chars] in K2.
        left. destruct K2 as [-> (l2 & LL2 & G2)]. split; [reflexivity|]. split; [now rewrite AL|].
        pose proof (brep_le _ _ _ _ _ (b_rep _ _ _ _ _ _ _ G2)) as LE2. rewrite nlen_app in LE2. split; [lia|].
        exists l2. eapply bgood_trans; [exact G'|eapply brep_wf; exact R|exact G2].
      + unfold ret in ER. injection ER as <- <-. rewrite (srep_size _ _ _ _ _ SR) in A3.
        replace (N.max m pad) with m by lia.
        destruct (bgrow_ok w s pre cs [0] post n R NF) as (r2 & w2 & s2 & E2 & F2 & K2).
        { discriminate. } { change (nlen [0]) with 1. lia. } { lia. }
        exists r2, w2, s2. split; [exact E2|]. split; [exact F2|]. rewrite LM in K2.
        replace n with (nlen cs + m) in * by lia. destruct (holds_chars (limit_of s) (nlen cs + m)).
        * left. destruct K2 as [-> (l2 & LL2 & G2)]. split; [reflexivity|]. split; [reflexivity|].
          pose proof (brep_le _ _ _ _ _ (b_rep _ _ _ _ _ _ _ G2)) as LE2. rewrite nlen_app in LE2. split; [lia|].
          now exists l2.
        * right. destruct K2 as [-> G2]. split; [reflexivity|]. split; [reflexivity|exact G2].
    - exists ST_SUCCESS, w1, s1. split; [reflexivity|]. split; [exact FS|]. left. split; [reflexivity|].
      specialize (A1 eq_refl). split; [|split; [lia|now exists l]].
      rewrite <- LM. unfold bholds. lia. }
  assert (SZ1 : 1 <= ssize s1 <= nlen cs + pad + 1).
  { destruct c eqn:CC.
    - destruct (bgrow_ok w s pre cs [0] post (nlen cs + pad) R NF) as (r & w1' & s1' & E' & _ & K').
      { discriminate. } { change (nlen [0]) with 1. lia. } { lia. }
      rewrite ER in E'. injection E' as <- <- <-. rewrite bholds_limit, HP in K' by lia.
      destruct K' as [_ (l' & LL' & G')]. pose proof (brep_size _ _ _ _ _ (b_rep _ _ _ _ _ _ _ G')) as SZ'.
      rewrite nlen_app in SZ'. change (v_size (s_vec s1)) with (ssize s1) in SZ'. lia.
    - unfold ret in ER. injection ER as <- <-. rewrite (srep_size _ _ _ _ _ SR). lia. }
  rewrite (wsub_small (nlen cs + 1) 1) by lia. replace (nlen cs + 1 - 1) with (nlen cs) by lia.
  destruct (N.eqb_spec v 0) as [->|NZ].
  - (* zero *)
    assert (D0 : ds = [48]).
    { apply (numeral_unique 16 upper 0); [lia|exact NU|]. exists [0]. now repeat split; repeat constructor. }
    subst ds. change (nlen [48]) with 1 in *. set (n := if pad =? 0 then 1 else pad).
    assert (NT : n = T) by (subst n T; destruct (N.eqb_spec pad 0); lia).
    rewrite (wadd_small (ssize s1) n), wsub_small by lia.
    destruct (ROOM2 (rem <? n) (ssize s1 + n - 1) n) as (r2 & w2 & s2 & E2 & F2 & K2); [lia|lia| |].
    { intros C. destruct (N.eqb_spec pad 0); lia. }
    rewrite (bind_ok _ _ _ _ _ E2). replace (N.max n pad) with T in K2 by lia.
    destruct K2 as [(-> & HH & CP2 & l2 & G2)|(-> & HH & G2)]; sst; [|now apply FAIL].
    assert (PT : nrepeat 48 n = padded pad [48]).
    { unfold padded. change [48] with (nrepeat 48 1). rewrite nlen_nrepeat. unfold nrepeat. rewrite <- repeat_app.
      f_equal. lia. }
    rewrite PT, (wadd_small (nlen cs + 1) n) by lia.
    destruct (finish_ok w2 s2 pre cs l2 post [] (padded pad [48]) (ret tt) n (b_rep _ _ _ _ _ _ _ G2)) as (w3 & E3 & G3).
    { rewrite LT, NT. reflexivity. } { rewrite NT. exact CP2. } { now right. }
    change (nlen (@nil N)) with 0 in E3. rewrite N.add_0_r in E3.
    unfold bind at 1, ret at 1 in E3. rewrite E3. apply SUCC; [exact F2|exact HH|].
    eapply bgood_trans; [exact G2|eapply brep_wf; exact R|exact G3].
  - (* a number with i+1 digits *)
    destruct (hex_skip v pad upper (nlen cs + 1) rem s1 None w1 k NZ V) as (i & LI & NB & DB & EH).
    assert (IB : N.of_nat i <= 15) by lia. set (d := v / 16 ^ N.of_nat i) in *.
    pose proof (pow16_pos (N.of_nat i)) as PP.
    assert (DM : v = 16 ^ N.of_nat i * d + v mod 16 ^ N.of_nat i) by (apply N.div_mod').
    pose proof (N.mod_lt v (16 ^ N.of_nat i) ltac:(lia)) as ML.
    assert (LD : nlen ds = N.of_nat i + 1).
    { apply (numeral_length 16 upper v); [lia|exact NU|]. rewrite N.pow_add_r, N.pow_1_r. nia. }
    assert (HL : exists r2 w2 s2 n2, hex_loop k v pad upper (nlen cs + 1) rem s1 0 None w1 = Ok (r2, s2, n2) w2 /\
      s_flags s2 = s_flags s /\
      ((r2 = ST_SUCCESS /\ holds_chars (limit_of s) (nlen cs + T) = true /\ n2 = T /\
        exists z, bgood w (s_vec s) w2 (set_size (s_vec s2) (nlen cs + T + 1)) pre ((cs ++ padded pad ds) ++ [z]) post) \/
       (r2 = ST_INSUFFICIENT_BUFFER_SIZE /\ holds_chars (limit_of s) (nlen cs + T) = false /\
        bgood w (s_vec s) w2 (s_vec s2) pre (cs ++ [0]) post))).
    { rewrite EH. cbn [hex_loop]. rewrite NB. change (0 =? 0) with true. cbv iota.
      destruct (N.eqb_spec d 0); [lia|]. rewrite (wadd_small (ssize s1) (N.of_nat i)) by lia.
      destruct (ROOM2 (rem <=? N.of_nat i) (ssize s1 + N.of_nat i) (N.of_nat i + 1)) as (r2 & w2 & s2 & E2 & F2 & K2); [lia|lia|lia|].
      rewrite <- LD in K2. fold T in K2. rewrite (bind_ok _ _ _ _ _ E2).
      destruct K2 as [(-> & HH & CP2 & l2 & G2)|(-> & HH & G2)]; sst.
      2: { exists ST_INSUFFICIENT_BUFFER_SIZE, w2, s2, 0. split; [reflexivity|]. split; [exact F2|]. right. now split. }
      rewrite (wsub_small (nlen cs + 1) 1) by lia. replace (nlen cs + 1 - 1) with (nlen cs) by lia.
      destruct (bresized w2 (s_vec s2) pre cs l2 post (T + 1) (b_rep _ _ _ _ _ _ _ G2)) as (mid & LMID & GM); [lia|].
      rewrite N.add_assoc in GM. set (v2 := set_size (s_vec s2) (nlen cs + T + 1)) in *.
      change (sdata s2) with (v_data v2).
      set (zs := nrepeat 48 (pad - nlen ds)). assert (LZ : nlen zs = pad - nlen ds) by apply nlen_nrepeat.
      destruct (nsplit (nlen zs) mid) as (b & c0 & -> & LB); [lia|]. rewrite nlen_app in LMID.
      destruct c0 as [|x rest]; [change (nlen (@nil N)) with 0 in LMID; lia|]. rewrite nlen_cons in LMID.
      assert (PUT : forall w3, brep w3 v2 pre (cs ++ zs ++ x :: rest) post ->
        exists w4 z, (assert (nonnull (padd (v_data v2) (nlen cs))) ;;;
          let* c := hex_char upper d in
          mwrite (padd (padd (v_data v2) (nlen cs)) (nlen zs)) [c] ;;;
          hex_loop i v pad upper (nlen cs + 1) rem s2 ((nlen zs + 1) mod W8) (padd (v_data v2) (nlen cs))) w3
          = Ok (ST_SUCCESS, s2, T) w4 /\ bgood w3 v2 w4 v2 pre ((cs ++ padded pad ds) ++ [z]) post).
      { intros w3 R3. assert (NN : nonnull (padd (v_data v2) (nlen cs)) = true) by now rewrite (brep_at _ _ _ _ _ _ R3).
        rewrite NN. unfold bind at 1, assert at 1, ret at 1.
        rewrite (bind_ok _ _ _ _ _ (hex_char_ok upper d w3 (proj2 DB))).
        destruct (bwrite_ok w3 v2 pre (cs ++ zs) [x] [digit_char upper d] rest post) as (w4 & E4 & G4).
        { rewrite <- !app_assoc. exact R3. } { reflexivity. }
        assert (PA : padd (padd (v_data v2) (nlen cs)) (nlen zs) = padd (v_data v2) (nlen (cs ++ zs))).
        { rewrite nlen_app, (brep_data _ _ _ _ _ R3). cbn. f_equal. f_equal. lia. }
        rewrite PA, (bind_ok _ _ _ _ _ E4). rewrite N.mod_small by (change W8 with 256; lia).
        replace (nlen zs + 1) with (nlen (zs ++ [digit_char upper d])) by (rewrite nlen_app; reflexivity).
        assert (LZ1 : nlen (zs ++ [digit_char upper d]) = pad - nlen ds + 1) by (rewrite nlen_app, LZ; reflexivity).
        destruct (hex_write_ok v pad upper (nlen cs + 1) rem pre cs post v2 i w4 s2 (zs ++ [digit_char upper d]) rest)
          as (dd & z & w5 & E5 & LDD & FDD & VDD & G5).
        { rewrite <- !app_assoc in *. apply G4. } { lia. } { lia. } { lia. }
        exists w5, z. split; [rewrite E5; do 2 f_equal; lia|].
        assert (DS : ds = map (digit_char upper) (d :: dd)).
        { apply (numeral_unique 16 upper v); [lia|exact NU|]. exists (d :: dd). split; [reflexivity|].
          split; [constructor; [lia|exact FDD]|]. split; [rewrite value_cons, LDD, VDD; lia|].
          cbn. destruct dd; [exact I|lia]. }
        assert (TX : (cs ++ padded pad ds) ++ [z] = cs ++ (zs ++ [digit_char upper d]) ++ map (digit_char upper) dd ++ [z]).
        { unfold padded. fold zs. rewrite DS at 1. cbn [map]. rewrite <- !app_assoc. reflexivity. }
        rewrite TX. eapply bgood_trans; [exact G4|eapply brep_wf; exact R3|exact G5]. }
      assert (DONE : forall w3, bgood w2 v2 w3 v2 pre (cs ++ zs ++ x :: rest) post ->
        exists r0 w4 s0 n2, (assert (nonnull (padd (v_data v2) (nlen cs))) ;;;
          let* c := hex_char upper d in
          mwrite (padd (padd (v_data v2) (nlen cs)) (nlen zs)) [c] ;;;
          hex_loop i v pad upper (nlen cs + 1) rem s2 ((nlen zs + 1) mod W8) (padd (v_data v2) (nlen cs))) w3
          = Ok (r0, s0, n2) w4 /\ s_flags s0 = s_flags s /\
          ((r0 = ST_SUCCESS /\ holds_chars (limit_of s) (nlen cs + T) = true /\ n2 = T /\
            exists z, bgood w (s_vec s) w4 (set_size (s_vec s0) (nlen cs + T + 1)) pre ((cs ++ padded pad ds) ++ [z]) post) \/
           (r0 = ST_INSUFFICIENT_BUFFER_SIZE /\ holds_chars (limit_of s) (nlen cs + T) = false /\
            bgood w (s_vec s) w4 (s_vec s0) pre (cs ++ [0]) post))).
      { intros w3 G3. destruct (PUT w3 (b_rep _ _ _ _ _ _ _ G3)) as (w4 & z & E4 & G4).
        exists ST_SUCCESS, w4, s2, T. split; [exact E4|]. split; [exact F2|]. left. split; [reflexivity|].
        split; [exact HH|]. split; [reflexivity|]. exists z.
        eapply bgood_trans; [exact G2|eapply brep_wf; exact R|]. eapply bgood_trans; [exact GM|eapply brep_wf; apply G2|].
        eapply bgood_trans; [exact G3|eapply brep_wf; apply GM|exact G4]. }
      destruct (N.ltb_spec (N.of_nat i) pad) as [LP|LP].
      - replace (pad - N.of_nat i - 1) with (nlen zs) by lia.
        destruct (bwrite_ok w2 v2 pre cs b zs (x :: rest) post (b_rep _ _ _ _ _ _ _ GM)) as (w3 & E3 & G3); [now symmetry|].
        assert (ZE : nrepeat 48 (nlen zs) = zs) by (rewrite LZ; reflexivity).
        rewrite ZE, (bind_ok _ _ _ _ _ E3). now apply DONE.
      - assert (Z0 : zs = []). { unfold zs. now replace (pad - nlen ds) with 0 by lia. }
        rewrite Z0 in DONE, LB. change (nlen (@nil N)) with 0 in DONE, LB. apply DONE.
        destruct b; [|rewrite nlen_cons in LB; lia]. apply bgood_refl. apply GM. }
    destruct HL as (r2 & w2 & s2 & n2 & E2 & F2 & K2). rewrite (bind_ok _ _ _ _ _ E2). cbv beta iota.
    destruct K2 as [(-> & HH & -> & z & G2)|(-> & HH & G2)]; sst; [|now apply FAIL].
    rewrite (wadd_small (nlen cs + 1) T) by lia. replace (nlen cs + 1 + T) with (nlen (cs ++ padded pad ds) + 1) in * by (rewrite nlen_app, LT; lia).
    replace (nlen cs + T + 1) with (nlen (cs ++ padded pad ds) + 1) in G2 by (rewrite nlen_app, LT; lia).
    destruct (close_ok w2 s2 pre (cs ++ padded pad ds) z post (b_rep _ _ _ _ _ _ _ G2)) as (w3 & E3 & G3).
    rewrite E3. apply SUCC; [exact F2|exact HH|]. eapply bgood_trans; [exact G2|eapply brep_wf; exact R|exact G3].
Qed.
