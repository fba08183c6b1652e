(** The lemmas the bitset property theorems are closed with. *)
From Verif Require Import Base NListFacts Status Mem MemFacts VectorModel VectorSpec VectorDriver
  VectorRep VectorProofs VectorProofs2 VectorProofs3 VectorRefine VectorFail StringModel StringBytes StringProofs
  BitsetModel BitsetSpec BitsetDriver BitsetBits BitsetProofs BitsetRun BitsetQuery.
From Coq Require Import ZifyBool ZifyNat ZifyN.

Implicit Types (w : world) (b : bitset) (v : vector N).

Lemma bitroom_lt n : bitroom n -> n < W64 /\ 8 * ((n + 7) / 8) < W64.
Proof. unfold bitroom. change W64 with 18446744073709551616. lia. Qed.
Lemma limit_none b : v_alloc (bs_bits b) = true -> bitlimit b = None.
Proof. unfold bitlimit. now intros ->. Qed.
Lemma limit_some b cap : v_alloc (bs_bits b) = false -> v_cap (bs_bits b) = cap -> bitlimit b = Some (8 * cap).
Proof. unfold bitlimit. now intros -> ->. Qed.
Lemma nlen_zeros n : nlen (zeros n) = n.
Proof. apply nlen_repeat. Qed.

(** ** C34 *)
Lemma growable_bitset w0 n g s ops :
  bitinit_args_ok w0 n g s -> n mod 8 = 0 -> legal None ops (zeros n) -> bitroom (n + pushes ops) ->
  exists b0 w1 b w,
    with_zero (fun z => bs_init_ex z n true g s) w0 = Ok (ST_SUCCESS, Some b0) w1 /\
    run_bitops b0 ops w1 = Ok (fst (bitsteps None ops (zeros n)), b) w /\
    bitshows w b (snd (bitsteps None ops (zeros n))) /\
    (forall k x, heap w0 k = Some x -> heap w k = Some x).
Proof.
  intros A Z LG RM. destruct (bitinit_ok w0 n g s A) as (w1 & v & E & R & NF & AL & B1 & B2 & OR & HP).
  pose proof (xrep_zeros w1 v [] [] n R Z) as X. set (b0 := mkbitset n v) in *.
  assert (LM : bitlimit b0 = None) by now apply limit_none.
  destruct (run_bitops_ok ops w1 b0 _ _ _ _ X NF) as (w & b & l & E2 & X2 & G & LE & _).
  { now rewrite LM. } { now rewrite nlen_zeros. }
  rewrite LM, nlen_zeros in *. exists b0, w1, b, w. split; [exact E|]. split; [exact E2|]. split.
  { eapply xrep_shows; [exact X2|]. apply bitroom_lt in RM. lia. }
  intros k x H. assert (LT : k < nextb w0) by (eapply live_lt; [apply A|eauto]).
  destruct G as [GR GC GF GK]. cbn [b0 bs_bits] in GF. rewrite (fr_heap _ _ _ _ GF).
  - rewrite HP by lia. exact H.
  - lia.
  - destruct (N.eq_dec (blk (bs_bits b)) (blk v)) as [->|NE]; [lia|].
    destruct (fr_old _ _ _ _ GF NE) as (_ & _ & L). lia.
Qed.
Lemma growable_bitset_destroy w0 n g s ops b0 w1 rs b w :
  bitinit_args_ok w0 n g s -> n mod 8 = 0 -> legal None ops (zeros n) -> bitroom (n + pushes ops) ->
  with_zero (fun z => bs_init_ex z n true g s) w0 = Ok (ST_SUCCESS, Some b0) w1 ->
  run_bitops b0 ops w1 = Ok (rs, b) w ->
  exists b' w', bs_destroy b w = Ok (ST_SUCCESS, b') w' /\ forall k, heap w' k = heap w0 k.
Proof.
  intros A Z LG RM IE RE. destruct (bitinit_ok w0 n g s A) as (w1' & v & E & R & NF & AL & B1 & B2 & OR & HP).
  rewrite E in IE. injection IE as <- <-. pose proof (xrep_zeros w1' v [] [] n R Z) as X. set (b0 := mkbitset n v) in *.
  assert (LM : bitlimit b0 = None) by now apply limit_none.
  destruct (run_bitops_ok ops w1' b0 _ _ _ _ X NF) as (w2 & b2 & l & E2 & X2 & G & LE & _).
  { now rewrite LM. } { now rewrite nlen_zeros. }
  rewrite RE in E2. injection E2 as -> -> ->. destruct G as [GR GC GF GK]. cbn [b0 bs_bits] in *.
  assert (AL' : v_alloc (bs_bits b2) = true) by (destruct GC; congruence).
  destruct (destroy_ok w2 (bs_bits b2) [] (cells l) [] (proj1 GR)) as (w3 & D & _ & D1 & _ & D2).
  unfold bs_destroy. rewrite (bind_ok _ _ _ _ _ D). eexists _, w3. split; [reflexivity|]. intros k.
  pose proof (proj1 A) as W. destruct (N.eq_dec k (blk (bs_bits b2))) as [->|NE].
  - rewrite (D1 AL'). symmetry. apply W. destruct (N.eq_dec (blk (bs_bits b2)) (blk v)) as [->|NE]; [lia|].
    destruct (fr_old _ _ _ _ GF NE) as (_ & _ & L). lia.
  - rewrite (D2 _ NE). destruct (N.eq_dec k (blk v)) as [->|NE0].
    + destruct (fr_old _ _ _ _ GF ltac:(congruence)) as (_ & -> & _). symmetry. apply W. lia.
    + rewrite (fr_heap _ _ _ _ GF) by assumption. now apply HP.
Qed.
Lemma fixed_bitset w0 n cap blk0 pre buf post ops :
  bitbuffer_args_ok w0 n cap blk0 pre buf post -> n mod 8 = 0 -> legal (Some (8 * cap)) ops (zeros n) ->
  bitroom (n + pushes ops) ->
  exists b0 w1 b w buf',
    with_zero (fun z => bs_init_buffer z n (Some (mkptr blk0 (nlen pre))) cap) w0 = Ok (ST_SUCCESS, Some b0) w1 /\
    run_bitops b0 ops w1 = Ok (fst (bitsteps (Some (8 * cap)) ops (zeros n)), b) w /\
    bitshows w b (snd (bitsteps (Some (8 * cap)) ops (zeros n))) /\
    heap w blk0 = Some (pre ++ buf' ++ post) /\ nlen buf' = cap /\ tick w = tick w0 /\
    (forall k, k <> blk0 -> heap w k = heap w0 k).
Proof.
  intros A Z LG RM. destruct (bitbuffer_ok w0 n cap blk0 pre buf post A) as (w1 & v & E & R & NF & AL & CP & BK & B2 & TK & OR & HP).
  pose proof (xrep_zeros w1 v pre post n R Z) as X. set (b0 := mkbitset n v) in *.
  assert (LM : bitlimit b0 = Some (8 * cap)) by now apply limit_some.
  destruct (run_bitops_ok ops w1 b0 _ _ _ _ X NF) as (w & b & l & E2 & X2 & G & LE & _).
  { now rewrite LM. } { now rewrite nlen_zeros. }
  rewrite LM, nlen_zeros in *. destruct G as [GR GC GF GK]. cbn [b0 bs_bits] in *. specialize (GK AL).
  assert (BK' : blk (bs_bits b) = blk0).
  { destruct (N.eq_dec (blk (bs_bits b)) (blk v)) as [->|NE]; [exact BK|].
    destruct (fr_old _ _ _ _ GF NE) as (Y & _). congruence. }
  destruct (brep_heap _ _ _ _ _ GR) as (sl & SL & HH). apply spare_exact in SL; [|destruct GC as (GA & _); intros ?; congruence]. pose proof (brep_le _ _ _ _ _ GR) as LC.
  exists b0, w1, b, w, (l ++ sl). split; [exact E|]. split; [exact E2|]. split.
  { eapply xrep_shows; [exact X2|]. apply bitroom_lt in RM. lia. }
  split; [rewrite <- BK', HH; now rewrite <- app_assoc|]. split; [rewrite nlen_app; lia|].
  split; [rewrite (fr_tick _ _ _ _ GF AL); exact TK|].
  intros k NK. rewrite (fr_heap _ _ _ _ GF) by congruence. now apply HP.
Qed.
Lemma fixed_bitset_destroy w0 n cap blk0 pre buf post ops b0 w1 rs b w :
  bitbuffer_args_ok w0 n cap blk0 pre buf post -> n mod 8 = 0 -> legal (Some (8 * cap)) ops (zeros n) ->
  bitroom (n + pushes ops) ->
  with_zero (fun z => bs_init_buffer z n (Some (mkptr blk0 (nlen pre))) cap) w0 = Ok (ST_SUCCESS, Some b0) w1 ->
  run_bitops b0 ops w1 = Ok (rs, b) w ->
  exists b', bs_destroy b w = Ok (ST_SUCCESS, b') w.
Proof.
  intros A Z LG RM IE RE.
  destruct (bitbuffer_ok w0 n cap blk0 pre buf post A) as (w1' & v & E & R & NF & AL & CP & BK & B2 & TK & OR & HP).
  rewrite E in IE. injection IE as <- <-. pose proof (xrep_zeros w1' v pre post n R Z) as X. set (b0 := mkbitset n v) in *.
  assert (LM : bitlimit b0 = Some (8 * cap)) by now apply limit_some.
  destruct (run_bitops_ok ops w1' b0 _ _ _ _ X NF) as (w2 & b2 & l & E2 & X2 & G & LE & _).
  { now rewrite LM. } { now rewrite nlen_zeros. }
  rewrite RE in E2. injection E2 as -> -> ->. destruct G as [GR GC GF GK]. cbn [b0 bs_bits] in *.
  assert (AL' : v_alloc (bs_bits b2) = false) by (destruct GC; congruence).
  unfold bs_destroy, vdestroy, destroy_range. rewrite (proj2 (proj2 GR)), AL'. cbn [andb]. eexists.
  unfold bind at 1. rewrite (bind_ok _ _ _ _ _ (rep_assert_valid _ _ _ _ _ (proj1 GR))). reflexivity.
Qed.

(** A reached bitset is represented. *)
Lemma bitbuilt_rep good limit w0 w b bs : bitbuilt_by good limit w0 w b bs ->
  exists pre l post, xrep w b pre l post bs /\ nofail w (bs_bits b) /\ bitlimit b = limit /\ bitroom (nlen bs) /\
    orc w = orc w0 /\ nextb w0 <= nextb w /\ wfw w0 /\
    (forall k, k < nextb w0 -> k <> blk (bs_bits b) -> heap w k = heap w0 k) /\
    (limit = None -> nextb w0 <= blk (bs_bits b)) /\
    ((forall ops zs, good limit ops zs -> tidy limit ops zs) -> xclean l bs).
Proof.
  intros (n & ops & b0 & w1 & rs & I & Z & LG & GD & RM & RE & ->).
  assert (K : exists pre l post, xrep w1 b0 pre l post (zeros n) /\ nofail w1 (bs_bits b0) /\ bitlimit b0 = limit /\
     orc w1 = orc w0 /\ nextb w0 <= nextb w1 /\ wfw w0 /\ (v_alloc (bs_bits b0) = true -> nextb w0 <= blk (bs_bits b0)) /\
     (forall k, k <> blk (bs_bits b0) -> heap w1 k = heap w0 k) /\ xclean l (zeros n)).
  { destruct limit as [k|].
    - destruct I as (cap & blk0 & pre & buf & post & -> & A & IE).
      destruct (bitbuffer_ok w0 n cap blk0 pre buf post A) as (w1' & v & E & R & NF & AL & CP & BK & B2 & TK & OR & HP).
      rewrite E in IE. injection IE as <- <-. exists pre, (repeat 0 (N.to_nat (n / 8))), post.
      split; [now apply xrep_zeros|]. split; [exact NF|]. split; [now apply limit_some|]. split; [exact OR|].
      split; [exact B2|]. split; [apply A|]. split; [cbn; congruence|]. split; [cbn; now rewrite BK|]. apply clean_zeros.
    - destruct I as (g & s & A & IE). destruct (bitinit_ok w0 n g s A) as (w1' & v & E & R & NF & AL & B1 & B2 & OR & HP).
      rewrite E in IE. injection IE as <- <-. exists [], (repeat 0 (N.to_nat (n / 8))), [].
      split; [now apply xrep_zeros|]. split; [exact NF|]. split; [now apply limit_none|]. split; [exact OR|].
      split; [exact B2|]. split; [apply A|]. split; [auto|]. split; [exact HP|]. apply clean_zeros. }
  destruct K as (pre & l & post & X & NF & LM & OR & NX & W0 & OW & HP & CL).
  destruct (run_bitops_ok ops w1 b0 _ _ _ _ X NF) as (w2 & b2 & l2 & E2 & X2 & G & LE & C2).
  { now rewrite LM. } { now rewrite nlen_zeros. }
  rewrite RE in E2. injection E2 as -> -> ->. rewrite LM, nlen_zeros in *. exists pre, l2, post.
  split; [exact X2|]. split; [eapply bnofail; eauto|]. split; [rewrite <- LM; eapply bitlimit_good; eauto|].
  split; [eapply bitroom_le; [exact LE|exact RM]|]. pose proof G as [GR GC GF GK].
  split; [rewrite (fr_orc _ _ _ _ GF); exact OR|]. split; [pose proof (fr_next _ _ _ _ GF); lia|]. split; [exact W0|].
  split; [|split; [|auto]].
  2:{ intros ->. unfold bitlimit in LM. destruct (v_alloc (bs_bits b0)) eqn:AL0; [|discriminate]. specialize (OW eq_refl).
    destruct (N.eq_dec (blk (bs_bits b2)) (blk (bs_bits b0))) as [EQ|NE]; [congruence|].
    destruct (fr_old _ _ _ _ GF NE) as (_ & _ & L). lia. }
  intros k LK NK. destruct (N.eq_dec k (blk (bs_bits b0))) as [->|NE].
  - destruct (N.eq_dec (blk (bs_bits b2)) (blk (bs_bits b0))) as [EQ|NE]; [congruence|].
    destruct (fr_old _ _ _ _ GF NE) as (AL & _ & _). specialize (OW AL). lia.
  - rewrite (fr_heap _ _ _ _ GF) by assumption. now apply HP.
Qed.
Lemma bitreached_rep limit w b bs : bitreached limit w b bs ->
  exists pre l post, xrep w b pre l post bs /\ nofail w (bs_bits b) /\ bitlimit b = limit /\ bitroom (nlen bs).
Proof. intros (w0 & H). apply bitbuilt_rep in H as (pre & l & post & X & NF & LM & RM & _). now exists pre, l, post. Qed.
Lemma bitreached_tidy_rep limit w b bs : bitreached_tidy limit w b bs ->
  exists pre l post, xrep w b pre l post bs /\ nofail w (bs_bits b) /\ bitlimit b = limit /\ bitroom (nlen bs) /\ xclean l bs.
Proof.
  intros (w0 & H). apply bitbuilt_rep in H as (pre & l & post & X & NF & LM & RM & _ & _ & _ & _ & _ & C).
  exists pre, l, post. auto 6.
Qed.
Lemma xrep_behaves w b pre l post bs : xrep w b pre l post bs -> nofail w (bs_bits b) -> bitbehaves_as (bitlimit b) w b bs.
Proof.
  intros X NF ops LG RM. destruct (run_bitops_ok ops w b pre l post bs X NF LG RM) as (w' & b' & l' & E & X' & _ & LE & _).
  exists b', w'. split; [exact E|]. eapply xrep_shows; [exact X'|]. apply bitroom_lt in RM. lia.
Qed.

(** ** C35 *)
Lemma init_zero w0 n g s : bitinit_args_ok w0 n g s -> n mod 8 = 0 ->
  exists b w, with_zero (fun z => bs_init_ex z n true g s) w0 = Ok (ST_SUCCESS, Some b) w /\
    bitshows w b (zeros n) /\ bitbehaves_as None w b (zeros n).
Proof.
  intros A Z. destruct (bitinit_ok w0 n g s A) as (w1 & v & E & R & NF & AL & _).
  pose proof (xrep_zeros w1 v [] [] n R Z) as X. exists (mkbitset n v), w1. split; [exact E|]. split.
  - eapply xrep_shows; [exact X|]. rewrite nlen_zeros. destruct A as (_ & _ & _ & _ & C).
    change W32 with 4294967296 in C. change W64 with 18446744073709551616. lia.
  - rewrite <- (limit_none (mkbitset n v) AL). eapply xrep_behaves; eauto.
Qed.
Lemma init_buffer_zero w0 n cap blk0 pre buf post : bitbuffer_args_ok w0 n cap blk0 pre buf post -> n mod 8 = 0 ->
  exists b w, with_zero (fun z => bs_init_buffer z n (Some (mkptr blk0 (nlen pre))) cap) w0 = Ok (ST_SUCCESS, Some b) w /\
    bitshows w b (zeros n) /\ bitbehaves_as (Some (8 * cap)) w b (zeros n).
Proof.
  intros A Z. destruct (bitbuffer_ok w0 n cap blk0 pre buf post A) as (w1 & v & E & R & NF & AL & CP & _).
  pose proof (xrep_zeros w1 v pre post n R Z) as X. exists (mkbitset n v), w1. split; [exact E|]. split.
  - eapply xrep_shows; [exact X|]. rewrite nlen_zeros. destruct A as (_ & _ & _ & _ & C & _).
    change W32 with 4294967296 in C. change W64 with 18446744073709551616. lia.
  - rewrite <- (limit_some (mkbitset n v) cap AL CP). eapply xrep_behaves; eauto.
Qed.
(** The last bits of a bitset whose size is not a multiple of 8 do not exist. *)
Lemma init_tail w0 n g s : bitinit_args_ok w0 n g s -> n mod 8 <> 0 ->
  exists b w, with_zero (fun z => bs_init_ex z n true g s) w0 = Ok (ST_SUCCESS, Some b) w /\
    bs_get_size b = (ST_SUCCESS, n) /\ n - 1 < n /\
    forall i, n / 8 * 8 <= i -> bs_test b i w = Ok ST_OUT_OF_RANGE w /\ bs_set b i w = Ok ST_OUT_OF_RANGE w.
Proof.
  intros A Z. destruct (bitinit_ok w0 n g s A) as (w1 & v & E & R & NF & AL & _).
  exists (mkbitset n v), w1. split; [exact E|]. split; [reflexivity|]. split; [lia|]. intros i LI.
  unfold bs_test, bs_set, bs_change. cbn [bs_size bs_bits]. destruct (n <=? i); [now split|].
  assert (LL : nlen (repeat 0 (N.to_nat (n / 8))) <= i / 8) by (unfold nlen; rewrite repeat_length; lia).
  rewrite !(bind_ok _ _ _ _ _ (bptr_out _ _ _ _ _ _ R LL)). now split.
Qed.

(** ** C36, C37 *)
Lemma any_none_tidy limit w b bs : bitreached_tidy limit w b bs -> bs = [] \/ nlen bs mod 8 <> 0 ->
  bs_any b w = Ok (yes_no (existsb id_bool bs)) w /\ bs_none b w = Ok (yes_no (negb (existsb id_bool bs))) w.
Proof.
  intros H K. apply bitreached_tidy_rep in H as (pre & l & post & X & _ & _ & _ & C). eapply any_ok; [exact X|].
  destruct K as [->|K]; [now left|]. right. right. now split.
Qed.
Lemma queries_7 limit w b bs : bitreached limit w b bs -> bs = [] \/ nlen bs mod 8 = 7 ->
  bs_all b w = Ok (yes_no (forallb id_bool bs)) w /\
  bs_any b w = Ok (yes_no (existsb id_bool bs)) w /\ bs_none b w = Ok (yes_no (negb (existsb id_bool bs))) w.
Proof.
  intros H K. apply bitreached_rep in H as (pre & l & post & X & _).
  assert (K' : nlen bs = 0 \/ nlen bs mod 8 = 7) by (destruct K as [->|K]; [now left|now right]).
  split; [eapply all_ok; eauto|]. eapply any_ok; [exact X|]. tauto.
Qed.
Lemma queries_full limit w b bs : bitreached limit w b bs -> bs <> [] -> nlen bs mod 8 = 0 ->
  bs_all b w = Ok (yes_no (forallb id_bool (all_but (nlen bs - 4) bs))) w /\
  bs_any b w = Ok (yes_no (existsb id_bool (all_but (nlen bs - 4) bs))) w /\
  bs_none b w = Ok (yes_no (negb (existsb id_bool (all_but (nlen bs - 4) bs)))) w.
Proof. intros H NE K. apply bitreached_rep in H as (pre & l & post & X & _). eapply full_bytes_ok; eauto. Qed.
Lemma all_unused limit w b bs : bitreached_tidy limit w b bs -> 1 <= nlen bs mod 8 <= 6 -> bs_all b w = Ok ST_FALSE w.
Proof. intros H K. apply bitreached_tidy_rep in H as (pre & l & post & X & _ & _ & _ & C). eapply all_never; eauto. Qed.
Lemma count_full limit w b bs : bitreached limit w b bs -> nlen bs mod 8 = 0 -> bs_count b w = Ok (ST_SUCCESS, ones bs) w.
Proof.
  intros H Z. apply bitreached_rep in H as (pre & l & post & X & _ & _ & RM).
  rewrite (bs_count_ok _ _ _ _ _ _ X).
  2:{ rewrite (x_len _ _ _ _ _ _ X). now apply bitroom_lt. }
  rewrite (xrep_prefix _ _ _ _ _ _ X). rewrite nskip_all.
  - rewrite app_nil_r. do 2 f_equal. pose proof (ones_le bs). lia.
  - rewrite nlen_bits_of, (x_len _ _ _ _ _ _ X). lia.
Qed.
Lemma count_tidy limit w b bs : bitreached_tidy limit w b bs -> bs_count b w = Ok (ST_SUCCESS, ones bs) w.
Proof.
  intros H. apply bitreached_tidy_rep in H as (pre & l & post & X & _ & _ & RM & C).
  rewrite (bs_count_ok _ _ _ _ _ _ X).
  2:{ rewrite (x_len _ _ _ _ _ _ X). now apply bitroom_lt. }
  rewrite (clean_suffix _ _ _ _ _ _ X C), ones_app. unfold nrepeat. rewrite ones_false. do 2 f_equal. pose proof (ones_le bs). lia.
Qed.
(** Any history: never less than the number of set bits, never more than the size. *)
Lemma count_bounds limit w b bs : bitreached limit w b bs ->
  exists n, bs_count b w = Ok (ST_SUCCESS, n) w /\ ones bs <= n <= nlen bs.
Proof.
  intros H. apply bitreached_rep in H as (pre & l & post & X & _ & _ & RM).
  eexists. split; [apply (bs_count_ok _ _ _ _ _ _ X)|].
  { rewrite (x_len _ _ _ _ _ _ X). now apply bitroom_lt. }
  rewrite (xrep_prefix _ _ _ _ _ _ X), ones_app. pose proof (ones_le bs). lia.
Qed.

(** ** C38 *)
Definition bytewise (op : N -> N -> status * N) (f : bool -> bool -> bool) : Prop :=
  forall x y, x < 256 -> y < 256 -> fst (op x y) = ST_SUCCESS /\ snd (op x y) < 256 /\
    forall k, N.testbit (snd (op x y)) k = f (N.testbit x k) (N.testbit y k).
Lemma byte_lt x : (forall k, 8 <= k -> N.testbit x k = false) -> x < 256.
Proof.
  intros H. destruct (N.lt_ge_cases x 256) as [|GE]; [assumption|exfalso].
  assert (L8 : 8 <= N.log2 x) by (apply N.log2_le_pow2; lia). assert (NZ : x <> 0) by lia.
  pose proof (N.bit_log2 x NZ) as B. rewrite (H _ L8) in B. discriminate.
Qed.
Lemma byte_high x k : x < 256 -> 8 <= k -> N.testbit x k = false.
Proof. intros L K. now apply (BitFacts.testbit_high x 8 k). Qed.
Lemma and_bytewise : bytewise op_and andb.
Proof.
  intros x y X Y. cbn. split; [reflexivity|]. split; [|intros; apply N.land_spec].
  apply byte_lt. intros k K. now rewrite N.land_spec, (byte_high x k X K).
Qed.
Lemma or_bytewise : bytewise op_or orb.
Proof.
  intros x y X Y. cbn. split; [reflexivity|]. split; [|intros; apply N.lor_spec].
  apply byte_lt. intros k K. now rewrite N.lor_spec, (byte_high x k X K), (byte_high y k Y K).
Qed.
Lemma xor_bytewise : bytewise op_xor xorb.
Proof.
  intros x y X Y. cbn. split; [reflexivity|]. split; [|intros; apply N.lxor_spec].
  apply byte_lt. intros k K. now rewrite N.lxor_spec, (byte_high x k X K), (byte_high y k Y K).
Qed.
Fixpoint zip (op : N -> N -> status * N) (l m : list N) : list N :=
  match l, m with x :: l, y :: m => snd (op x y) :: zip op l m | _, _ => l end.
Lemma brep_other w v pre l post vd w' vd' pre' l' post' : brep w v pre l post -> blk v <> blk vd ->
  bgood w vd w' vd' pre' l' post' -> brep w' v pre l post /\ blk v <> blk vd'.
Proof.
  intros R NB [GR GC GF GK]. assert (NB' : blk v <> blk vd').
  { destruct (N.eq_dec (blk vd') (blk vd)) as [->|NE]; [exact NB|]. destruct (fr_old _ _ _ _ GF NE) as (_ & _ & L).
    pose proof (brep_lt _ _ _ _ _ R). lia. }
  split; [|exact NB']. eapply brep_heap_eq; [exact R|eapply brep_wf; eauto|apply GF|]. now apply (fr_heap _ _ _ _ GF).
Qed.
Lemma bnonnull w v pre l post i : brep w v pre l post -> assert (nonnull (padd (v_data v) i)) w = Ok tt w.
Proof. intros R. rewrite (brep_data _ _ _ _ _ R). reflexivity. Qed.
Lemma zip_loop op f d s pred posd pres poss : bytewise op f -> blk (bs_bits s) <> blk (bs_bits d) ->
  forall c e w a a', nlen a = nlen a' ->
  brep w (bs_bits d) pred (a ++ c) posd -> brep w (bs_bits s) pres (a' ++ e) poss -> Forall isbyte c -> Forall isbyte e ->
  exists w', byte_op_loop op d s (nlen a) (Nat.min (length c) (length e)) w = Ok ST_SUCCESS w' /\
    bgood w (bs_bits d) w' (bs_bits d) pred (a ++ zip op c e) posd.
Proof.
  intros OP NB. induction c as [|x c IH]; intros e w a a' LA RD RS BC BE.
  { exists w. split; [reflexivity|]. now apply bgood_refl. }
  destruct e as [|y e]. { exists w. split; [reflexivity|]. now apply bgood_refl. }
  cbn [length Nat.min byte_op_loop zip]. inversion_clear BC. inversion_clear BE.
  pose proof (brep_le _ _ _ _ _ RD) as LE. pose proof (brep_cap _ _ _ _ _ RD) as CP. rewrite nlen_app, nlen_cons in LE.
  rewrite (bind_ok _ _ _ _ _ (bptr _ _ _ _ _ (nlen a) RD ltac:(rewrite nlen_app, nlen_cons; lia))). sst.
  rewrite (bind_ok _ _ _ _ _ (bptr _ _ _ _ _ (nlen a) RS ltac:(rewrite nlen_app, nlen_cons; lia))). sst.
  rewrite (bind_ok _ _ _ _ _ (bnonnull _ _ _ _ _ (nlen a) RD)).
  rewrite (bind_ok _ _ _ _ _ (bnonnull _ _ _ _ _ (nlen a) RS)).
  rewrite (bind_ok _ _ _ _ _ (bread1 _ _ _ _ _ _ _ RD)).
  pose proof (bread1 _ _ _ _ _ _ _ RS) as RY. rewrite <- LA in RY. rewrite (bind_ok _ _ _ _ _ RY).
  destruct (OP x y) as (O1 & O2 & O3); auto. destruct (op x y) as [st z]. cbn [fst snd] in *. subst st.
  destruct (bwrite1 _ _ _ _ _ z _ _ RD) as (w1 & E1 & G1). rewrite (bind_ok _ _ _ _ _ E1). sst.
  rewrite wadd_small by lia.
  destruct (brep_other _ _ _ _ _ _ _ _ _ _ _ RS NB G1) as [RS1 _]. pose proof (b_rep _ _ _ _ _ _ _ G1) as RD1.
  change (a ++ z :: c) with (a ++ [z] ++ c) in RD1. change (a' ++ y :: e) with (a' ++ [y] ++ e) in RS1.
  rewrite app_assoc in RD1, RS1.
  destruct (IH e w1 (a ++ [z]) (a' ++ [y])) as (w2 & E2 & G2); auto.
  { rewrite !nlen_app, LA. reflexivity. }
  rewrite (nlen_app a [z]) in E2. change (nlen [z]) with 1 in E2. exists w2. split; [exact E2|].
  rewrite <- app_assoc in G2. eapply bgood_trans; [exact G1|eapply brep_wf; eauto|exact G2].
Qed.
Lemma zip_nth op l : forall m i, nnth i (zip op l m) =
  match nnth i l, nnth i m with Some x, Some y => Some (snd (op x y)) | r, _ => r end.
Proof.
  assert (G : forall l m n, nth_error (zip op l m) n =
    match nth_error l n, nth_error m n with Some x, Some y => Some (snd (op x y)) | r, _ => r end).
  { clear. induction l as [|x l IH]; intros m n; [destruct m, n; reflexivity|]. destruct m as [|y m], n as [|n]; try reflexivity.
    - cbn. now destruct (nth_error l n).
    - cbn. apply IH. }
  intros. apply G.
Qed.
Lemma zip_len op l : forall m, nlen (zip op l m) = nlen l.
Proof.
  induction l as [|x l IH]; intros [|y m]; try reflexivity. cbn [zip]. rewrite !nlen_cons. now rewrite IH.
Qed.
Lemma zip_bytes op f l : bytewise op f -> forall m, Forall isbyte l -> Forall isbyte m -> Forall isbyte (zip op l m).
Proof.
  intros OP. induction l as [|x l IH]; intros [|y m] BL BM; auto. cbn [zip]. inversion_clear BL. inversion_clear BM.
  constructor; [|now apply IH]. now apply OP.
Qed.
Lemma zip_bits op f l m i : bytewise op f -> Forall isbyte l -> Forall isbyte m ->
  bitat (zip op l m) i = if i / 8 <? N.min (nlen l) (nlen m) then f (bitat l i) (bitat m i) else bitat l i.
Proof.
  intros OP BL BM. unfold bitat. rewrite zip_nth. rewrite Forall_forall in BL, BM.
  destruct (nnth (i / 8) l) as [x|] eqn:EX; [|destruct (N.ltb_spec (i / 8) (N.min (nlen l) (nlen m))) as [L|L]; [|reflexivity]].
  2:{ exfalso. destruct (nnth_exists (i / 8) l ltac:(lia)). congruence. }
  pose proof (nnth_lt _ _ _ EX) as LX.
  destruct (nnth (i / 8) m) as [y|] eqn:EY.
  - pose proof (nnth_lt _ _ _ EY) as LY. destruct (N.ltb_spec (i / 8) (N.min (nlen l) (nlen m))); [|lia].
    apply OP; [apply BL|apply BM]; unfold nnth in *; eapply nth_error_In; eauto.
  - destruct (N.ltb_spec (i / 8) (N.min (nlen l) (nlen m))) as [L|L]; [|reflexivity].
    exfalso. destruct (nnth_exists (i / 8) m ltac:(lia)). congruence.
Qed.
Lemma logic_ok op f limd w d xs lims w1 s ys : bytewise op f ->
  bitreached limd w d xs -> bitbuilt lims w w1 s ys -> apart d s ->
  exists w2 zs, bs_byte_op op d s w1 = Ok ST_SUCCESS w2 /\ nlen zs = nlen xs /\
    bitbehaves_as limd w2 d zs /\ bitbehaves_as lims w2 s ys /\
    (forall i x y, nnth i xs = Some x -> nnth i ys = Some y -> nnth i zs = Some (f x y)) /\
    (forall i, 8 * ((nlen ys + 7) / 8) <= i -> nnth i zs = nnth i xs).
Proof.
  intros OP HD HS AP. apply bitreached_rep in HD as (pd & ld & qd & XD & ND & LD & RD).
  apply bitbuilt_rep in HS as (ps & ls & qs & XS & NS & LS & RS & OR & NX & _ & HP & _).
  assert (NB : blk (bs_bits s) <> blk (bs_bits d)).
  { pose proof (brep_data _ _ _ _ _ (x_rep _ _ _ _ _ _ XD)) as E1. pose proof (brep_data _ _ _ _ _ (x_rep _ _ _ _ _ _ XS)) as E2.
    specialize (AP _ _ E1 E2). cbn in AP. congruence. }
  assert (RD1 : brep w1 (bs_bits d) pd ld qd).
  { eapply brep_heap_eq; [apply XD|eapply brep_wf, XS|exact OR|]. apply HP; [|congruence]. eapply brep_lt, XD. }
  pose proof XS as [RS0 BS SS LLS HS]. pose proof XD as [_ BD SD LLD HD].
  destruct (zip_loop op f d s pd qd ps qs OP NB ld ls w1 [] [] eq_refl RD1 RS0 BD BS) as (w2 & E & G).
  unfold bs_byte_op. rewrite (brep_size _ _ _ _ _ RD1), (brep_size _ _ _ _ _ RS0).
  replace (N.to_nat (N.min (nlen ld) (nlen ls))) with (Nat.min (length ld) (length ls)) by (unfold nlen; lia).
  cbn [app] in *. set (zs := nfirst (nlen xs) (bits_of (zip op ld ls))).
  assert (LZ : nlen zs = nlen xs).
  { unfold zs. rewrite nlen_nfirst, nlen_bits_of, zip_len. lia. }
  assert (NZ : forall i, i < nlen xs -> nnth i zs = Some (bitat (zip op ld ls) i)).
  { intros i LI. unfold zs. rewrite nnth_nfirst by exact LI. apply nnth_bits_of. rewrite zip_len. lia. }
  assert (XD2 : xrep w2 d pd (zip op ld ls) qd zs).
  { split; [apply G|eapply zip_bytes; eauto|congruence|rewrite zip_len, LZ; exact LLD|]. now rewrite LZ. }
  destruct (brep_other _ _ _ _ _ _ _ _ _ _ _ RS0 NB G) as [RS2 _].
  assert (XS2 : xrep w2 s ps ls qs ys) by now split.
  exists w2, zs. split; [exact E|]. split; [exact LZ|]. split; [|split; [|split]].
  - rewrite <- LD. eapply xrep_behaves; [exact XD2|]. intros A t. destruct G as [_ _ GF _].
    rewrite (fr_orc _ _ _ _ GF), OR. now apply ND.
  - rewrite <- LS. eapply xrep_behaves; [exact XS2|]. intros A t. destruct G as [_ _ GF _].
    rewrite (fr_orc _ _ _ _ GF). now apply NS.
  - intros i x y EX EY. pose proof (nnth_lt _ _ _ EX). pose proof (nnth_lt _ _ _ EY).
    rewrite NZ by assumption. rewrite (zip_bits op f) by assumption. rewrite HD in EX by assumption. rewrite HS in EY by assumption.
    injection EX as <-. injection EY as <-. destruct (N.ltb_spec (i / 8) (N.min (nlen ld) (nlen ls))); [reflexivity|lia].
  - intros i LI. destruct (N.lt_ge_cases i (nlen xs)) as [L|L].
    + rewrite NZ, HD by exact L. rewrite (zip_bits op f) by assumption.
      destruct (N.ltb_spec (i / 8) (N.min (nlen ld) (nlen ls))); [lia|reflexivity].
    + rewrite !nnth_ge; [reflexivity|exact L|lia].
Qed.
(** A growable bitset built later is apart. *)
Lemma built_apart limd w d xs w1 s ys : bitreached limd w d xs -> bitbuilt None w w1 s ys -> apart d s.
Proof.
  intros HD HS. apply bitreached_rep in HD as (pd & ld & qd & XD & _).
  apply bitbuilt_rep in HS as (ps & ls & qs & XS & _ & _ & _ & _ & _ & _ & _ & FR & _).
  pose proof (brep_data _ _ _ _ _ (x_rep _ _ _ _ _ _ XD)) as E1. pose proof (brep_data _ _ _ _ _ (x_rep _ _ _ _ _ _ XS)) as E2.
  pose proof (brep_lt _ _ _ _ _ (x_rep _ _ _ _ _ _ XD)). specialize (FR eq_refl).
  intros p q EP EQ. rewrite E1 in EP. rewrite E2 in EQ. injection EP as <-. injection EQ as <-. cbn. lia.
Qed.
(** The world after building a bitset is again one with a working allocator. *)
Lemma built_world limit w0 w b bs : bitbuilt limit w0 w b bs -> allocator_ok w0 -> world_ok w /\ allocator_ok w.
Proof.
  intros H A. apply bitbuilt_rep in H as (pre & l & post & X & _ & _ & _ & OR & _).
  split; [exact (brep_wf _ _ _ _ _ (x_rep _ _ _ _ _ _ X))|]. unfold allocator_ok. now rewrite OR.
Qed.
(** The destination is its own source. *)
Lemma self_loop op f d pre post : bytewise op f -> forall c w a,
  brep w (bs_bits d) pre (a ++ c) post -> Forall isbyte c ->
  exists w', byte_op_loop op d d (nlen a) (length c) w = Ok ST_SUCCESS w' /\
    bgood w (bs_bits d) w' (bs_bits d) pre (a ++ map (fun x => snd (op x x)) c) post.
Proof.
  intros OP. induction c as [|x c IH]; intros w a RD BC.
  { exists w. split; [reflexivity|]. now apply bgood_refl. }
  cbn [length byte_op_loop map]. inversion_clear BC.
  pose proof (brep_le _ _ _ _ _ RD) as LE. pose proof (brep_cap _ _ _ _ _ RD) as CP. rewrite nlen_app, nlen_cons in LE.
  pose proof (bptr _ _ _ _ _ (nlen a) RD ltac:(rewrite nlen_app, nlen_cons; lia)) as P.
  rewrite (bind_ok _ _ _ _ _ P). sst. rewrite (bind_ok _ _ _ _ _ P). sst.
  rewrite (bind_ok _ _ _ _ _ (bnonnull _ _ _ _ _ (nlen a) RD)).
  rewrite (bind_ok _ _ _ _ _ (bnonnull _ _ _ _ _ (nlen a) RD)).
  rewrite (bind_ok _ _ _ _ _ (bread1 _ _ _ _ _ _ _ RD)). rewrite (bind_ok _ _ _ _ _ (bread1 _ _ _ _ _ _ _ RD)).
  destruct (OP x x) as (O1 & O2 & O3); auto. destruct (op x x) as [st z]. cbn [fst snd] in *. subst st.
  destruct (bwrite1 _ _ _ _ _ z _ _ RD) as (w1 & E1 & G1). rewrite (bind_ok _ _ _ _ _ E1). sst.
  rewrite wadd_small by lia. pose proof (b_rep _ _ _ _ _ _ _ G1) as RD1.
  change (a ++ z :: c) with (a ++ [z] ++ c) in RD1. rewrite app_assoc in RD1.
  destruct (IH w1 (a ++ [z])) as (w2 & E2 & G2); auto.
  rewrite (nlen_app a [z]) in E2. change (nlen [z]) with 1 in E2. exists w2. split; [exact E2|].
  rewrite <- app_assoc in G2. eapply bgood_trans; [exact G1|eapply brep_wf; eauto|exact G2].
Qed.
Lemma logic_self op f limit w b bs : bytewise op f -> bitreached limit w b bs ->
  exists w', bs_byte_op op b b w = Ok ST_SUCCESS w' /\ bitbehaves_as limit w' b (map (fun x => f x x) bs).
Proof.
  intros OP H. apply bitreached_rep in H as (pre & l & post & X & NF & LM & RM). destruct X as [R B S0 L HB].
  destruct (self_loop op f b pre post OP l w [] R B) as (w' & E & G). unfold bs_byte_op.
  rewrite (brep_size _ _ _ _ _ R). replace (N.to_nat (N.min (nlen l) (nlen l))) with (length l) by (unfold nlen; lia).
  exists w'. split; [exact E|]. rewrite <- LM. cbn [app] in G. eapply xrep_behaves; [split|].
  - apply G.
  - apply Forall_forall. intros y IY. apply in_map_iff in IY as (x & <- & IX). rewrite Forall_forall in B.
    specialize (B _ IX). now apply OP.
  - now rewrite nlen_map.
  - now rewrite !nlen_map.
  - intros i LI. rewrite nlen_map in LI. rewrite nnth_map, HB by exact LI. cbn [option_map]. f_equal. symmetry.
    apply (bitat_map _ (fun x => f x x)); [lia|exact B|]. intros x BX. now apply OP.
  - intros A t. destruct G as [_ _ GF _]. rewrite (fr_orc _ _ _ _ GF). now apply NF.
Qed.

(** ** C39, C61 *)
Lemma pop_empty limit w b : bitreached limit w b [] ->
  exists b', bs_pop b w = Ok (ST_SUCCESS, b') w /\ bs_get_size b' = (ST_SUCCESS, W64 - 1).
Proof.
  intros H. apply bitreached_rep in H as (pre & l & post & X & _). destruct X as [R B S0 L HB].
  unfold bs_pop. rewrite S0. change (wsub (nlen (@nil bool)) 1) with (W64 - 1). cbn [bs_size].
  change ((W64 - 1) mod 8 =? 0) with false. cbv iota. eexists. split; reflexivity.
Qed.
Lemma pop_nonempty limit w b bs : bitreached limit w b bs -> bs <> [] ->
  exists b' w', bs_pop b w = Ok (ST_SUCCESS, b') w' /\ bitbehaves_as limit w' b' (nfirst (nlen bs - 1) bs).
Proof.
  intros H NE. apply bitreached_rep in H as (pre & l & post & X & NF & LM & RM).
  destruct (pop_ok w b pre l post bs X (nofail_grants _ _ NF) RM) as (w' & b' & l' & E & X' & G & _).
  { intros Z. apply nlen_0 in Z. contradiction. }
  exists b', w'. split; [exact E|]. rewrite <- LM, <- (bitlimit_good _ _ _ _ _ _ _ G). eapply xrep_behaves; [exact X'|].
  eapply bnofail; eauto.
Qed.
(** Push into a full buffer: the right status, but the size has grown. *)
Lemma push_full k w b bs value : bitreached (Some k) w b bs -> nlen bs = k ->
  exists b' w', with_zero (fun z => bs_push z b value) w = Ok (ST_INSUFFICIENT_BUFFER_SIZE, b') w' /\
    bs_get_size b' = (ST_SUCCESS, nlen bs + 1) /\ bs_test b' (nlen bs) w' = Ok ST_OUT_OF_RANGE w' /\
    (forall i, i < nlen bs -> bs_test b' i w' = Ok (verdict (nnth i bs)) w').
Proof.
  intros H LK. apply bitreached_rep in H as (pre & l & post & X & NF & LM & RM). pose proof X as [R B S0 L HB].
  unfold bitlimit in LM. destruct (v_alloc (bs_bits b)) eqn:AL; [discriminate|]. injection LM as LM.
  destruct (bargw w (bs_bits b) pre l post [0] R) as (R1 & Q & NB).
  destruct (bpush_ok (argw w [0]) (bs_bits b) pre l post 0 (mkptr (nextb w) 0) R1) as (r & w' & v' & l' & E & G & K); auto.
  { now apply nofail_grants. } { unfold bitroom in RM. lia. }
  assert (HV : bholds (bs_bits b) (nlen l + 1) = false) by (unfold bholds; rewrite AL; cbn [orb]; lia).
  rewrite HV in K. destruct K as [-> ->]. pose proof (bdropw _ _ _ _ _ _ _ _ _ R G) as G'.
  exists (mkbitset (nlen bs + 1) v'), (dropw w' (nextb w)).
  assert (LT : nlen bs + 1 < W64). { unfold bitroom in RM. change W64 with 18446744073709551616 in *. lia. }
  split.
  { unfold with_zero, with_arg. unfold argw in E. unfold bs_push. cbn [bs_bits bs_size]. rewrite S0.
    destruct (N.eqb_spec (nlen bs mod 8) 0); [|lia]. rewrite wadd_small by lia. unfold bind at 1 2. rewrite E. reflexivity. }
  split; [reflexivity|]. split.
  - unfold bs_test. cbn [bs_bits bs_size]. destruct (N.leb_spec (nlen bs + 1) (nlen bs)); [lia|].
    assert (LO : nlen l <= nlen bs / 8) by lia. pose proof (bptr_out _ _ _ _ _ (nlen bs / 8) (b_rep _ _ _ _ _ _ _ G') LO) as PO.
    rewrite (bind_ok _ _ _ _ _ PO). reflexivity.
  - intros i LI. rewrite HB by exact LI. unfold bs_test. cbn [bs_bits bs_size].
    destruct (N.leb_spec (nlen bs + 1) i); [lia|].
    assert (XX : xrep (dropw w' (nextb w)) (mkbitset (nlen bs) v') pre l post bs) by (split; auto; apply G').
    pose proof (test_ok _ _ _ _ _ _ i XX) as T. rewrite HB in T by exact LI. unfold bs_test in T. cbn [bs_bits bs_size] in T.
    destruct (N.leb_spec (nlen bs) i); [lia|]. exact T.
Qed.

(** ** C62 *)
Lemma reserve_capacity limit w b bs n : bitreached limit w b bs -> n mod 8 = 0 -> n / 8 < W32 ->
  exists r b' w', bs_reserve b n w = Ok (r, b') w' /\ bitbehaves_as limit w' b' bs /\
    (r = ST_SUCCESS -> exists c, bs_get_capacity_bytes b' = (ST_SUCCESS, c) /\ n <= 8 * c).
Proof.
  intros H M8 LG. apply bitreached_rep in H as (pre & l & post & X & NF & LM & RM). pose proof X as [R B S0 L HB].
  unfold bs_reserve. rewrite bits_to_bytes_small by exact LG.
  assert (NW : n / 8 < W64) by (eapply N.lt_trans; [exact LG|now vm_compute]).
  destruct (breserve_ok w (bs_bits b) pre l post (n / 8) R (nofail_grants _ _ NF) NW) as (r & w' & v' & E & G & ER & EC).
  exists r, (mkbitset (bs_size b) v'), w'. split; [now rewrite (bind_ok _ _ _ _ _ E)|]. split.
  - rewrite <- LM. assert (XX : xrep w' (mkbitset (bs_size b) v') pre l post bs) by (split; auto; apply G).
    rewrite <- (bitlimit_good w b w' (mkbitset (bs_size b) v') _ _ _ G). eapply xrep_behaves; [exact XX|].
    exact (bnofail _ _ _ _ _ _ _ NF G).
  - intros RS. exists (v_cap v'). split; [reflexivity|]. rewrite EC. rewrite RS in ER. unfold bholds in ER.
    destruct (v_alloc (bs_bits b)); [lia|]. cbn [orb] in ER. destruct (N.leb_spec (n / 8) (v_cap (bs_bits b))); [lia|discriminate].
Qed.

(** Reserve never gives room for a last, incomplete byte. *)
Lemma reserve_short w b bs n c0 : bitreached None w b bs -> bs_get_capacity_bytes b = (ST_SUCCESS, c0) ->
  c0 <= n / 8 -> n mod 8 <> 0 -> n / 8 < W32 ->
  exists b' w', bs_reserve b n w = Ok (ST_SUCCESS, b') w' /\ bs_get_capacity_bytes b' = (ST_SUCCESS, n / 8) /\
    8 * (n / 8) < n.
Proof.
  intros H C LC M8 LG. apply bitreached_rep in H as (pre & l & post & X & NF & LM & RM). pose proof X as [R B S0 L HB].
  unfold bs_reserve. rewrite bits_to_bytes_small by exact LG.
  assert (NW : n / 8 < W64) by (eapply N.lt_trans; [exact LG|now vm_compute]).
  destruct (breserve_ok w (bs_bits b) pre l post (n / 8) R (nofail_grants _ _ NF) NW) as (r & w' & v' & E & G & ER & EC).
  unfold bitlimit in LM. unfold bholds in ER. destruct (v_alloc (bs_bits b)); [|discriminate LM]. cbn [orb] in ER. subst r.
  exists (mkbitset (bs_size b) v'), w'. split; [now rewrite (bind_ok _ _ _ _ _ E)|].
  unfold bs_get_capacity_bytes, vget_capacity in *. cbn [bs_bits]. injection C as C. rewrite C in EC.
  split; [rewrite EC; f_equal; lia|]. clear - M8. lia.
Qed.
