(** The lemmas the formatting property theorems are closed with. *)
From Verif Require Import Base NListFacts Status Mem MemFacts VectorModel VectorSpec VectorDriver
  VectorRep VectorProofs VectorProofs2 VectorProofs3 VectorRefine VectorFail StringModel StringSpec StringDriver StringBytes
  StringProofs StringSearch StringFinal StringFinal2 FormatModel FormatSpec FormatDriver FormatDigits FormatProofs
  FormatRun.
From Coq Require Import ZifyBool ZifyNat ZifyN.

Implicit Types (w : world) (s : str).

Lemma growable_format is64 w0 cap g t ops :
  sinit_args_ok w0 cap g t -> Forall fargs_ok ops -> sroom (fdemands ops) ->
  exists s0 w1 rs s w cs,
    sinit_ex cap true g t w0 = Ok (ST_SUCCESS, Some s0) w1 /\
    run_fops is64 s0 ops w1 = Ok (rs, s) w /\ fspecs None ops [] rs cs /\ sshows w s cs /\
    (forall b x, heap w0 b = Some x -> heap w b = Some x).
Proof.
  intros A SO F. destruct (sinit_ok w0 cap g t A) as (w1 & s0 & E & R & NF & AL & CP & B1 & B2 & OR & _ & _ & HP).
  destruct (run_fops_ok is64 ops w1 s0 [] [] [] R NF SO F) as (rs & w' & s' & cs' & E2 & G & K & _).
  rewrite (limit_own _ AL) in K. exists s0, w1, rs, s', w', cs'. split; [exact E|]. split; [exact E2|].
  split; [exact K|]. split; [eapply srep_shows, sgood_rep; eauto|].
  intros b x H. destruct A as (W & _). assert (LT : b < nextb w0) by (eapply live_lt; eauto).
  destruct G as [[GR GC GF GK] GFl]. rewrite (fr_heap _ _ _ _ GF).
  - rewrite HP by lia. exact H.
  - lia.
  - destruct (N.eq_dec (blk (s_vec s')) (blk (s_vec s0))) as [->|NE]; [lia|].
    destruct (fr_old _ _ _ _ GF NE) as (_ & _ & L). lia.
Qed.
Lemma fixed_format is64 w0 cap b pre buf post ops :
  sbuffer_args_ok w0 cap b pre buf post -> Forall fargs_ok ops -> sroom (fdemands ops) ->
  exists s0 w1 rs s w cs buf',
    sinit_custom (Some (mkptr b (nlen pre))) cap w0 = Ok (ST_SUCCESS, Some s0) w1 /\
    run_fops is64 s0 ops w1 = Ok (rs, s) w /\ fspecs (Some (cap - 1)) ops [] rs cs /\ sshows w s cs /\
    heap w b = Some (pre ++ buf' ++ post) /\ nlen buf' = cap /\
    (forall b', b' <> b -> heap w b' = heap w0 b').
Proof.
  intros A SO F. destruct (sinit_custom_ok w0 cap b pre buf post A) as (w1 & s0 & E & R & NF & AL & CP & BK & NX & OR & HP).
  destruct (run_fops_ok is64 ops w1 s0 pre [] post R NF SO F) as (rs & w' & s' & cs' & E2 & G & K & _).
  rewrite (limit_fixed _ _ AL CP) in K. pose proof (sgood_rep _ _ _ _ _ _ _ _ R G) as R'.
  pose proof G as [[GR GC GF GK] GFl]. specialize (GK AL).
  destruct (brep_heap _ _ _ _ _ GR) as (sl & SL & HH). apply spare_exact in SL; [|destruct GC as (GA & _); intros ?; congruence]. pose proof (brep_le _ _ _ _ _ GR) as LE.
  assert (BK' : blk (s_vec s') = b).
  { destruct (N.eq_dec (blk (s_vec s')) (blk (s_vec s0))) as [->|NE]; [exact BK|].
    destruct (fr_old _ _ _ _ GF NE) as (X & _). congruence. }
  exists s0, w1, rs, s', w', cs', (cs' ++ [0] ++ sl). split; [exact E|]. split; [exact E2|]. split; [exact K|].
  split; [eapply srep_shows; exact R'|]. rewrite nlen_app in LE. change (nlen [0]) with 1 in LE.
  split; [rewrite <- BK', HH; now rewrite <- !app_assoc|].
  split; [rewrite !nlen_app; rewrite nlen_app in SL; change (nlen [0]) with 1 in *; lia|].
  intros b' NB. rewrite (fr_heap _ _ _ _ GF) by congruence. now apply HP.
Qed.

Lemma freached_rep is64 limit w s cs : freached is64 limit w s cs ->
  exists pre post, srep w s pre cs post /\ snofail w s /\ limit_of s = limit.
Proof.
  intros (w0 & s0 & w1 & ops & rs & I & FA & RM & E & SH). destruct limit as [k|].
  - destruct I as (b & pre & buf & post & A & IE).
    destruct (sinit_custom_ok w0 (k + 1) b pre buf post A) as (w1' & s0' & E' & R & NF & AL & CP & _).
    rewrite E' in IE. injection IE as -> ->.
    destruct (run_fops_ok is64 ops w1 s0 pre [] post R NF FA RM) as (rs' & w' & s' & cs' & E2 & G & K & _).
    rewrite E in E2. injection E2 as -> -> ->. pose proof (sgood_rep _ _ _ _ _ _ _ _ R G) as R'.
    rewrite (sshows_inj _ _ _ _ SH (srep_shows _ _ _ _ _ R')). exists pre, post. split; [exact R'|].
    split; [eapply bnofail; [exact NF|apply G]|]. rewrite (sgood_limit _ _ _ _ _ _ _ G), (limit_fixed _ _ AL CP). f_equal. lia.
  - destruct I as (cap & g & t & A & IE).
    destruct (sinit_ok w0 cap g t A) as (w1' & s0' & E' & R & NF & AL & _).
    rewrite E' in IE. injection IE as -> ->.
    destruct (run_fops_ok is64 ops w1 s0 [] [] [] R NF FA RM) as (rs' & w' & s' & cs' & E2 & G & K & _).
    rewrite E in E2. injection E2 as -> -> ->. pose proof (sgood_rep _ _ _ _ _ _ _ _ R G) as R'.
    rewrite (sshows_inj _ _ _ _ SH (srep_shows _ _ _ _ _ R')). exists [], []. split; [exact R'|].
    split; [eapply bnofail; [exact NF|apply G]|]. now rewrite (sgood_limit _ _ _ _ _ _ _ G), (limit_own _ AL).
Qed.

(** ** Single calls *)
Lemma call_ok is64 limit w s cs o : freached is64 limit w s cs -> fargs_ok o -> sroom (nlen cs + fdemand o) ->
  exists r w' s' cs', run_fop is64 s o w = Ok (r, s') w' /\ fspec limit o cs r cs' /\ sshows w' s' cs' /\
    behaves_as limit w' s' cs'.
Proof.
  intros RE A F. destruct (freached_rep _ _ _ _ _ RE) as (pre & post & R & NF & L).
  destruct (run_fop_ok is64 w s pre cs post o R NF A F) as (r & w' & s' & cs' & E & G & K).
  pose proof (sgood_rep _ _ _ _ _ _ _ _ R G) as R'. rewrite L in K.
  exists r, w', s', cs'. split; [exact E|]. split; [exact K|]. split; [eapply srep_shows; exact R'|].
  rewrite <- L, <- (sgood_limit _ _ _ _ _ _ _ G). eapply srep_behaves; [exact R'|]. eapply bnofail; [exact NF|apply G].
Qed.
Lemma append_decu is64 limit w s cs v pad ds : freached is64 limit w s cs -> v < W64 -> pad < 256 ->
  sroom (nlen cs + (pad + 20)) -> numeral 10 false v ds -> holds_chars limit (nlen (cs ++ padded pad ds)) = true ->
  exists w' s', sappend_decu is64 s v pad w = Ok (ST_SUCCESS, s') w' /\ sshows w' s' (cs ++ padded pad ds) /\
    behaves_as limit w' s' (cs ++ padded pad ds).
Proof.
  intros RE V P F NU H.
  destruct (call_ok is64 limit w s cs (FDecU v pad) RE (conj V P) F) as (r & w' & s' & cs' & E & (ds' & NU' & B) & SH & BE).
  rewrite (numeral_unique 10 false v ds' ds ltac:(lia) NU' NU) in B. unfold become in B. rewrite H in B. destruct B as [-> ->].
  now exists w', s'.
Qed.
Lemma append_hexu is64 limit w s cs v pad upper ds : freached is64 limit w s cs -> v < W64 -> pad < 256 ->
  sroom (nlen cs + (pad + 20)) -> numeral 16 upper v ds -> holds_chars limit (nlen (cs ++ padded pad ds)) = true ->
  exists w' s', sappend_hexu is64 s v pad upper w = Ok (ST_SUCCESS, s') w' /\ sshows w' s' (cs ++ padded pad ds) /\
    behaves_as limit w' s' (cs ++ padded pad ds).
Proof.
  intros RE V P F NU H.
  destruct (call_ok is64 limit w s cs (FHexU v pad upper) RE (conj V P) F) as (r & w' & s' & cs' & E & (ds' & NU' & B) & SH & BE).
  rewrite (numeral_unique 16 upper v ds' ds ltac:(lia) NU' NU) in B. unfold become in B. rewrite H in B. destruct B as [-> ->].
  now exists w', s'.
Qed.
Lemma append_unsigned_full is64 limit w s cs v pad : freached is64 limit w s cs -> v < W64 -> pad < 256 ->
  sroom (nlen cs + (pad + 20)) ->
  (forall ds, numeral 10 false v ds -> holds_chars limit (nlen (cs ++ padded pad ds)) = false ->
     exists w' s', sappend_decu is64 s v pad w = Ok (ST_INSUFFICIENT_BUFFER_SIZE, s') w' /\ sshows w' s' cs /\
       behaves_as limit w' s' cs) /\
  (forall upper ds, numeral 16 upper v ds -> holds_chars limit (nlen (cs ++ padded pad ds)) = false ->
     exists w' s', sappend_hexu is64 s v pad upper w = Ok (ST_INSUFFICIENT_BUFFER_SIZE, s') w' /\ sshows w' s' cs /\
       behaves_as limit w' s' cs).
Proof.
  intros RE V P F. split.
  - intros ds NU H.
    destruct (call_ok is64 limit w s cs (FDecU v pad) RE (conj V P) F) as (r & w' & s' & cs' & E & (ds' & NU' & B) & SH & BE).
    rewrite (numeral_unique 10 false v ds' ds ltac:(lia) NU' NU) in B. unfold become in B. rewrite H in B. destruct B as [-> ->].
    now exists w', s'.
  - intros upper ds NU H.
    destruct (call_ok is64 limit w s cs (FHexU v pad upper) RE (conj V P) F) as (r & w' & s' & cs' & E & (ds' & NU' & B) & SH & BE).
    rewrite (numeral_unique 16 upper v ds' ds ltac:(lia) NU' NU) in B. unfold become in B. rewrite H in B. destruct B as [-> ->].
    now exists w', s'.
Qed.

Lemma holds_le limit a b : a <= b -> holds_chars limit b = true -> holds_chars limit a = true.
Proof. unfold holds_chars. destruct limit; lia. Qed.
Lemma append_parts_all limit : forall parts cs r cs', holds_chars limit (nlen (cs ++ concat parts)) = true ->
  append_parts limit parts cs r cs' -> r = ST_SUCCESS /\ cs' = cs ++ concat parts.
Proof.
  induction parts as [|p parts IH]; intros cs r cs' H; cbn [append_parts concat] in *.
  - now rewrite app_nil_r.
  - rewrite (holds_le limit (nlen (cs ++ p)) _) with (2 := H) by (rewrite !nlen_app; lia).
    intros A. apply IH in A; [|now rewrite <- app_assoc]. now rewrite <- app_assoc in A.
Qed.
Lemma append_signed is64 limit w s cs v pad force prefix : freached is64 limit w s cs ->
  (-9223372036854775808 <= v < 9223372036854775808)%Z -> pad < 256 ->
  sroom (nlen cs + (1 + nlen (prefix_text prefix) + pad + 20)) ->
  (forall ds, numeral 10 false (Z.abs_N v) ds ->
     let text := cs ++ sign_text v force ++ prefix_text prefix ++ padded pad ds in
     holds_chars limit (nlen text) = true ->
     exists w' s', run_fop is64 s (FDecS v pad force prefix) w = Ok (ST_SUCCESS, s') w' /\ sshows w' s' text /\
       behaves_as limit w' s' text) /\
  (forall upper ds, numeral 16 upper (Z.abs_N v) ds ->
     let text := cs ++ sign_text v force ++ prefix_text prefix ++ padded pad ds in
     holds_chars limit (nlen text) = true ->
     exists w' s', run_fop is64 s (FHexS v pad upper force prefix) w = Ok (ST_SUCCESS, s') w' /\ sshows w' s' text /\
       behaves_as limit w' s' text).
Proof.
  intros RE V P F. split.
  - intros ds NU text H.
    destruct (call_ok is64 limit w s cs (FDecS v pad force prefix) RE (conj V P) F) as (r & w' & s' & cs' & E & (ds' & NU' & B) & SH & BE).
    rewrite (numeral_unique 10 false _ ds' ds ltac:(lia) NU' NU) in B.
    apply append_parts_all in B; cbn [concat] in *; rewrite app_nil_r in *; [|exact H].
    destruct B as [-> ->]. now exists w', s'.
  - intros upper ds NU text H.
    destruct (call_ok is64 limit w s cs (FHexS v pad upper force prefix) RE (conj V P) F) as (r & w' & s' & cs' & E & (ds' & NU' & B) & SH & BE).
    rewrite (numeral_unique 16 upper _ ds' ds ltac:(lia) NU' NU) in B.
    apply append_parts_all in B; cbn [concat] in *; rewrite app_nil_r in *; [|exact H].
    destruct B as [-> ->]. now exists w', s'.
Qed.

(** ** ZyanStringAppendFormat *)
Lemma to_i32_small x : x < 2147483648 -> to_i32 x = Z.of_N x.
Proof.
  intros L. unfold to_i32. rewrite N.mod_small by (change W32 with 4294967296; lia).
  destruct (N.ltb_spec x 2147483648); [reflexivity|lia].
Qed.
(** The first call of the formatter. *)
Lemma print_ok w s pre cs post t : srep w s pre cs post ->
  exists w1, vsnprintf (FText t) (padd (sdata s) (nlen cs)) (v_cap (s_vec s) - nlen cs) w = Ok (Z.of_N (nlen t)) w1 /\
    exists rest, bgood w (s_vec s) w1 (set_size (s_vec s) (v_cap (s_vec s))) pre
      (cs ++ (nfirst (v_cap (s_vec s) - nlen cs - 1) t ++ [0]) ++ rest) post.
Proof.
  intros [R FL]. pose proof (brep_le _ _ _ _ _ R) as LE. rewrite nlen_app in LE. change (nlen [0]) with 1 in LE.
  destruct (bresized w (s_vec s) pre cs [0] post (v_cap (s_vec s) - nlen cs) R) as (mid & LM & G); [lia|].
  replace (nlen cs + (v_cap (s_vec s) - nlen cs)) with (v_cap (s_vec s)) in G by lia.
  set (v2 := set_size (s_vec s) (v_cap (s_vec s))) in *.
  set (y := nfirst (v_cap (s_vec s) - nlen cs - 1) t ++ [0]).
  assert (LY : nlen y <= nlen mid).
  { unfold y. rewrite nlen_app, nlen_nfirst. change (nlen [0]) with 1. lia. }
  destruct (nsplit (nlen y) mid LY) as (a & c & -> & LA).
  destruct (bwrite_ok w v2 pre cs a y c post (b_rep _ _ _ _ _ _ _ G)) as (w1 & E & G1); [now symmetry|].
  exists w1. split.
  - unfold vsnprintf. change (sdata s) with (v_data v2). fold y. rewrite (bind_ok _ _ _ _ _ E). reflexivity.
  - exists c. eapply bgood_trans; [exact G|eapply brep_wf; exact R|exact G1].
Qed.
Lemma format_fits is64 limit w s cs t f2 : freached is64 limit w s cs ->
  v_cap (s_vec s) < 2147483648 -> nlen cs + nlen t < v_cap (s_vec s) ->
  exists w' s', sappend_format (FText t) f2 s w = Ok (ST_SUCCESS, s') w' /\ sshows w' s' (cs ++ t) /\
    behaves_as limit w' s' (cs ++ t).
Proof.
  intros RE C L. destruct (freached_rep _ _ _ _ _ RE) as (pre & post & R & NF & LM).
  assert (CW : v_cap (s_vec s) < W64) by (change W64 with 18446744073709551616; lia).
  pose proof (srep_size _ _ _ _ _ R) as SZ.
  destruct (print_ok w s pre cs post t R) as (w1 & E1 & rest & G1).
  unfold sappend_format. rewrite SZ, (wsub_small (v_cap (s_vec s))), (wsub_small (nlen cs + 1)) by lia.
  rewrite (wadd_small (v_cap (s_vec s) - (nlen cs + 1)) 1) by lia. replace (nlen cs + 1 - 1) with (nlen cs) by lia.
  replace (v_cap (s_vec s) - (nlen cs + 1) + 1) with (v_cap (s_vec s) - nlen cs) by lia.
  rewrite (bind_ok _ _ _ _ _ E1). rewrite to_i32_small by lia.
  destruct (Z.ltb_spec (Z.of_N (nlen t)) 0); [lia|]. destruct (Z.leb_spec (Z.of_N (nlen t)) (Z.of_N (v_cap (s_vec s) - (nlen cs + 1)))); [|lia].
  rewrite N2Z.id, wadd_small by lia. rewrite nfirst_all in G1 by lia.
  assert (G2 : bgood w (s_vec s) w1 (set_size (s_vec s) (nlen (cs ++ t) + 1)) pre ((cs ++ t) ++ [0]) post).
  { eapply bgood_trans; [exact G1|eapply brep_wf; apply R|].
    assert (RR : brep w1 (set_size (s_vec s) (v_cap (s_vec s))) pre (((cs ++ t) ++ [0]) ++ rest) post)
      by (rewrite <- !app_assoc in *; apply G1).
    apply bcut_size in RR. rewrite nlen_app in RR. exact RR. }
  replace (nlen cs + 1 + nlen t) with (nlen (cs ++ t) + 1) by (rewrite nlen_app; lia).
  set (s' := with_vec s (set_size (s_vec s) (nlen (cs ++ t) + 1))).
  assert (SG : sgood w s w1 s' pre (cs ++ t) post) by (split; [exact G2|reflexivity]).
  pose proof (sgood_rep _ _ _ _ _ _ _ _ R SG) as R'. exists w1, s'. split; [reflexivity|].
  split; [eapply srep_shows; exact R'|]. rewrite <- LM, <- (sgood_limit _ _ _ _ _ _ _ SG).
  eapply srep_behaves; [exact R'|]. eapply bnofail; [exact NF|apply SG].
Qed.
Lemma resize_cap (w : world) (v : vector N) n v' w' r : v_cap v < n -> v_size v < n -> v_alloc v = true -> 1 <= n * v_growth v ->
  n * v_growth v < W64 -> vresize v n w = Ok (r, v') w' -> v_cap v' = n * v_growth v.
Proof.
  intros C Z A G1 G2. unfold vresize, vresize_ex. destruct (N.eqb_spec n (v_size v)); [lia|].
  destruct (N.ltb_spec n (v_size v)); [lia|]. unfold should_grow at 1. destruct (N.ltb_spec (v_cap v) n); [|lia]. cbn [orb].
  unfold bind at 1, ret at 1. rewrite wmul_small by exact G2. unfold vreallocate, assert_valid, VECTOR_MIN_CAPACITY.
  rewrite A. cbn [negb]. destruct (N.ltb_spec (n * v_growth v) 1); [lia|]. unfold vreallocate_to. unfold bind, assert, ret.
  intros E. cbn [andb nonnull] in E.
  repeat match type of E with
  | context [if ?b then _ else _] => destruct b; try discriminate E
  | context [match realloc ?a ?b ?c ?d with _ => _ end] => destruct (realloc a b c d) as [[? ?] ?|?]; try discriminate E
  end; inversion E; reflexivity.
Qed.
Lemma format_grows is64 w s cs t : freached is64 None w s cs ->
  v_cap (s_vec s) <= nlen cs + nlen t -> 2 <= v_growth (s_vec s) ->
  (nlen cs + nlen t + 1) * v_growth (s_vec s) < 2147483648 -> sroom (nlen cs + nlen t) ->
  exists w' s', sappend_format (FText t) (FText t) s w = Ok (ST_SUCCESS, s') w' /\ sshows w' s' (cs ++ t) /\
    behaves_as None w' s' (cs ++ t).
Proof.
  intros RE C G L RM. unfold sroom in RM. destruct (freached_rep _ _ _ _ _ RE) as (pre & post & R & NF & LM).
  assert (AL : v_alloc (s_vec s) = true). { unfold limit_of in LM. destruct (v_alloc (s_vec s)); [reflexivity|discriminate]. }
  set (g := v_growth (s_vec s)) in *. assert (GL : nlen cs + nlen t + 1 < 2147483648) by nia.
  pose proof (srep_size _ _ _ _ _ R) as SZ.
  assert (LE : nlen cs + 1 <= v_cap (s_vec s)).
  { destruct R as [BR _]. pose proof (brep_le _ _ _ _ _ BR) as LE. rewrite nlen_app in LE. change (nlen [0]) with 1 in LE. lia. }
  destruct (print_ok w s pre cs post t R) as (w1 & E1 & rest & G1).
  unfold sappend_format. rewrite SZ, (wsub_small (v_cap (s_vec s))), (wsub_small (nlen cs + 1)) by lia.
  rewrite (wadd_small (v_cap (s_vec s) - (nlen cs + 1)) 1) by lia. replace (nlen cs + 1 - 1) with (nlen cs) by lia.
  replace (v_cap (s_vec s) - (nlen cs + 1) + 1) with (v_cap (s_vec s) - nlen cs) by lia.
  rewrite (bind_ok _ _ _ _ _ E1). rewrite to_i32_small by lia.
  destruct (Z.ltb_spec (Z.of_N (nlen t)) 0); [lia|]. destruct (Z.leb_spec (Z.of_N (nlen t)) (Z.of_N (v_cap (s_vec s) - (nlen cs + 1)))); [lia|].
  rewrite N2Z.id, (wadd_small (nlen cs + 1)), (wsub_small (nlen cs + 1 + nlen t)) by lia.
  replace (nlen cs + 1 + nlen t - 1) with (nlen cs + nlen t) by lia.
  assert (TP : 1 <= nlen t) by lia.
  (* the string with its last byte overwritten *)
  set (y := nfirst (v_cap (s_vec s) - nlen cs - 1) t ++ [0]) in *.
  assert (exists c y', y = c :: y') as (c & y' & YE). { unfold y. destruct (nfirst _ t); cbn; eauto. }
  assert (G1' : bgood w (s_vec s) w1 (s_vec s) pre (cs ++ [c]) post).
  { eapply bgood_trans; [exact G1|eapply brep_wf; apply R|].
    assert (RR : brep w1 (set_size (s_vec s) (v_cap (s_vec s))) pre ((cs ++ [c]) ++ (y' ++ rest)) post).
    { rewrite YE in G1. rewrite <- app_assoc. cbn [app]. apply G1. }
    apply bcut_size in RR. rewrite nlen_app in RR. change (nlen [c]) with 1 in RR. rewrite <- SZ in RR.
    destruct s as [fl v]. destruct v. exact RR. }
  assert (NF1 : snofail w1 s) by (eapply bnofail; [exact NF|apply G1']).
  destruct (bgrow_ok w1 s pre cs [c] post (nlen cs + nlen t) (b_rep _ _ _ _ _ _ _ G1') NF1) as (r & w2 & s2 & E2 & FL2 & K2).
  { reflexivity. } { change (nlen [c]) with 1. lia. } { exact RM. }
  unfold bholds in K2. rewrite AL in K2. cbn [orb] in K2. destruct K2 as [-> (l' & LL & G2)].
  rewrite (bind_ok _ _ _ _ _ E2). sst.
  assert (CP : v_cap (s_vec s2) = (nlen cs + nlen t + 1) * g).
  { unfold sresize in E2. rewrite wadd_small in E2 by lia. unfold bind at 1 in E2.
    destruct (vresize (s_vec s) (nlen cs + nlen t + 1) w1) as [[st v] w3|] eqn:EV; [|discriminate].
    apply resize_cap in EV; [|lia|change (v_size (s_vec s)) with (ssize s); lia|exact AL|fold g; nia|
      fold g; change W64 with 18446744073709551616; lia].
    fold g in EV. rewrite <- EV. destruct (st_success st); cbn [negb] in E2; unfold bind, ret in E2.
    - destruct (nullterminate _ _); [|discriminate]. now inversion E2.
    - now inversion E2. }
  assert (SZ2 : ssize s2 = nlen cs + nlen l').
  { change (ssize s2) with (v_size (s_vec s2)). destruct (b_rep _ _ _ _ _ _ _ G2) as (VR & ES & _).
    rewrite (brep_size _ _ _ _ _ (b_rep _ _ _ _ _ _ _ G2)). now rewrite nlen_app. }
  rewrite SZ2. rewrite LL, CP.
  assert (GG : 2 * (nlen cs + nlen t + 1) <= (nlen cs + nlen t + 1) * g) by nia.
  set (cap' := (nlen cs + nlen t + 1) * g) in *.
  rewrite (wsub_small cap') by (change W64 with 18446744073709551616; lia).
  rewrite (wadd_small (cap' - _) 1) by (change W64 with 18446744073709551616; lia).
  rewrite to_i32_small by lia.
  destruct (bwrite_ok w2 (s_vec s2) pre cs l' (t ++ [0]) [] post) as (w3 & E3 & G3).
  { rewrite app_nil_r. apply G2. } { rewrite nlen_app. change (nlen [0]) with 1. lia. }
  unfold vsnprintf. rewrite nfirst_all by lia. change (sdata s2) with (v_data (s_vec s2)).
  unfold bind at 1. rewrite (bind_ok _ _ _ _ _ E3). unfold ret at 1.
  destruct (Z.ltb_spec (Z.of_N (nlen t)) 0); [lia|]. unfold bind at 1, assert at 1, ret at 1.
  destruct (Z.leb_spec (Z.of_N (nlen t)) (Z.of_N (cap' - (nlen cs + nlen t + 1)))); [|lia].
  assert (SG : sgood w s w3 s2 pre (cs ++ t) post).
  { split; [|exact FL2]. rewrite app_nil_r in G3. rewrite <- app_assoc.
    eapply bgood_trans; [exact G1'|eapply brep_wf; apply R|]. eapply bgood_trans; [exact G2|eapply brep_wf; apply G1'|exact G3]. }
  pose proof (sgood_rep _ _ _ _ _ _ _ _ R SG) as R'. exists w3, s2. split; [reflexivity|].
  split; [eapply srep_shows; exact R'|]. rewrite <- LM, <- (sgood_limit _ _ _ _ _ _ _ SG).
  eapply srep_behaves; [exact R'|]. eapply bnofail; [exact NF|apply SG].
Qed.
(** A full fixed buffer. *)
Lemma format_full is64 k w s cs t f2 : freached is64 (Some k) w s cs ->
  nlen cs = k -> 1 <= nlen t -> nlen t < 2147483648 -> sroom (k + nlen t) ->
  exists w' s', sappend_format (FText t) f2 s w = Ok (ST_INSUFFICIENT_BUFFER_SIZE, s') w' /\ sshows w' s' cs /\
    behaves_as (Some k) w' s' cs.
Proof.
  intros RE LK T1 T2 RM. unfold sroom in RM. destruct (freached_rep _ _ _ _ _ RE) as (pre & post & R & NF & LM).
  pose proof (srep_size _ _ _ _ _ R) as SZ.
  assert (LE : nlen cs + 1 <= v_cap (s_vec s)).
  { destruct R as [BR _]. pose proof (brep_le _ _ _ _ _ BR) as LE. rewrite nlen_app in LE. change (nlen [0]) with 1 in LE. lia. }
  assert (AL : v_alloc (s_vec s) = false /\ v_cap (s_vec s) = nlen cs + 1).
  { unfold limit_of in LM. destruct (v_alloc (s_vec s)); [discriminate|]. injection LM as LM. split; [reflexivity|lia]. }
  destruct AL as [AL CP].
  destruct (print_ok w s pre cs post t R) as (w1 & E1 & rest & G1). rewrite CP in *.
  unfold sappend_format. rewrite SZ, CP, (wsub_small (nlen cs + 1) 1) by lia. rewrite (wsub_small (nlen cs + 1) (nlen cs + 1)) by lia.
  replace (nlen cs + 1 - (nlen cs + 1)) with 0 by lia. replace (nlen cs + 1 - 1) with (nlen cs) by lia.
  change (wadd 0 1) with 1. replace (nlen cs + 1 - nlen cs) with 1 in * by lia. rewrite (bind_ok _ _ _ _ _ E1).
  change (1 - 1) with 0 in G1. change (to_i32 0) with 0%Z.
  destruct (Z.ltb_spec (Z.of_N (nlen t)) 0); [lia|]. destruct (Z.leb_spec (Z.of_N (nlen t)) 0); [lia|].
  rewrite N2Z.id, (wadd_small (nlen cs + 1)), (wsub_small (nlen cs + 1 + nlen t)) by lia.
  replace (nlen cs + 1 + nlen t - 1) with (nlen cs + nlen t) by lia.
  assert (G1' : bgood w (s_vec s) w1 (s_vec s) pre (cs ++ [0]) post).
  { eapply bgood_trans; [exact G1|eapply brep_wf; apply R|].
    assert (RR : brep w1 (set_size (s_vec s) (nlen cs + 1)) pre ((cs ++ [0]) ++ rest) post)
      by (rewrite <- app_assoc; apply G1).
    apply bcut_size in RR. rewrite nlen_app in RR. change (nlen [0]) with 1 in RR. rewrite <- SZ in RR.
    destruct s as [fl v]. destruct v. rewrite <- SZ. exact RR. }
  assert (NF1 : snofail w1 s) by (eapply bnofail; [exact NF|apply G1']).
  destruct (bgrow_ok w1 s pre cs [0] post (nlen cs + nlen t) (b_rep _ _ _ _ _ _ _ G1') NF1) as (r & w2 & s2 & E2 & FL2 & K2).
  { reflexivity. } { change (nlen [0]) with 1. lia. } { lia. }
  unfold bholds in K2. rewrite AL, CP in K2. cbn [orb] in K2. destruct (N.leb_spec (nlen cs + nlen t + 1) (nlen cs + 1)); [lia|].
  destruct K2 as [-> G2]. rewrite (bind_ok _ _ _ _ _ E2). sst.
  assert (SG : sgood w s w2 s2 pre cs post).
  { split; [|exact FL2]. eapply bgood_trans; [exact G1'|eapply brep_wf; apply R|exact G2]. }
  pose proof (sgood_rep _ _ _ _ _ _ _ _ R SG) as R'. exists w2, s2. split; [reflexivity|].
  split; [eapply srep_shows; exact R'|]. rewrite <- LM, <- (sgood_limit _ _ _ _ _ _ _ SG).
  eapply srep_behaves; [exact R'|]. eapply bnofail; [exact NF|apply SG].
Qed.

(** ** Failing allocations *)
Lemma dec_fail w s pre cs post max v pad ds st : srep w s pre cs post -> v_alloc (s_vec s) = true ->
  orc w (tick w) = AFail st -> N.even max = true -> 2 <= max <= 20 -> v < 10 ^ max -> pad < 256 -> numeral 10 false v ds ->
  (nlen cs + pad + 20 + 1) * 256 < W64 -> v_cap (s_vec s) <= nlen (cs ++ padded pad ds) ->
  exists s' w', sappend_dec max s v pad w = Ok (err_status st, s') w' /\ sshows w' s' cs /\ (forall b, heap w' b = heap w b).
Proof.
  intros SR AL O EM M V P NU F CL. pose proof SR as [R FL].
  destruct (dec_digits_ok w max v EM) as (v' & buf & buf2 & ds' & E1 & E2 & NU' & LB & LB2 & LD & DD); [lia|exact V|].
  assert (ds' = ds) as -> by exact (numeral_unique 10 false v ds' ds ltac:(lia) NU' NU).
  unfold sappend_dec. rewrite (bind_ok _ _ _ _ _ E1). cbv beta iota.
  rewrite (bind_ok _ _ _ _ _ E2). cbv zeta. rewrite (srep_size _ _ _ _ _ SR).
  set (odd := if v' <? 10 then 1 else 0) in *. assert (odd <= 1) by (subst odd; destruct (v' <? 10); lia).
  rewrite (wsub_small (nlen buf2)) by lia. rewrite <- LD.
  set (k := N.max (nlen ds) pad).
  assert (LT : nlen (padded pad ds) = k) by apply nlen_padded. rewrite nlen_app, LT in CL.
  rewrite (wadd_small (nlen cs + 1) k) by lia. rewrite (wsub_small (nlen cs + 1 + k) 1) by lia.
  replace (nlen cs + 1 + k - 1) with (nlen cs + k) by lia.
  destruct (N.ltb_spec (v_cap (s_vec s)) (nlen cs + 1 + k)); [|lia].
  destruct (bresize_fail w (s_vec s) pre (cs ++ [0]) post (nlen cs + k + 1) st R AL O) as (vf & w' & E & OC); [lia|lia|].
  assert (ES : sresize s (nlen cs + k) w = Ok (err_status st, with_vec s vf) w').
  { unfold sresize. rewrite wadd_small by lia. rewrite (bind_ok _ _ _ _ _ E). now rewrite st_success_err. }
  rewrite (bind_ok _ _ _ _ _ ES). rewrite st_success_err. exists (with_vec s vf), w'. split; [reflexivity|].
  split; [eapply sshows_only_cap; [eapply srep_shows; exact SR|exact OC]|]. apply OC.
Qed.
Lemma decu_fail is64 w s cs v pad ds orc' st : freached is64 None w s cs -> v < W64 -> pad < 256 ->
  sroom (nlen cs + (pad + 20)) -> numeral 10 false v ds ->
  (forall c, sget_capacity s w = Ok (ST_SUCCESS, c) w -> c < nlen (cs ++ padded pad ds)) -> orc' (tick w) = AFail st ->
  exists s' w', sappend_decu is64 s v pad (with_oracle w orc') = Ok (err_status st, s') w' /\ sshows w' s' cs /\
    (forall b, heap w' b = heap w b).
Proof.
  intros RE V P F NU CP O. destruct (freached_rep _ _ _ _ _ RE) as (pre & post & R & NF & LM).
  assert (AL : v_alloc (s_vec s) = true). { unfold limit_of in LM. destruct (v_alloc (s_vec s)); [reflexivity|discriminate]. }
  destruct (srep_capacity _ _ _ _ _ R) as [C1 _]. specialize (CP _ C1). unfold sroom in F.
  assert (R3 : srep (with_oracle w orc') s pre cs post).
  { destruct R as [R2 FL2]. split; [|exact FL2]. destruct R2 as (R2a & R2b). split; [|exact R2b]. now apply rep_with_oracle. }
  assert (C2 : v_cap (s_vec s) <= nlen (cs ++ padded pad ds)) by lia.
  unfold sappend_decu. destruct (is64 || high_bits v) eqn:HB.
  - apply (dec_fail (with_oracle w orc') s pre cs post MAXCHARS_DEC_64 v pad ds st); auto; try (unfold MAXCHARS_DEC_64; lia).
    { eapply N.lt_le_trans; [exact V|]. now vm_compute. }
  - apply orb_false_iff in HB. destruct HB as [_ HB]. apply (proj1 (high_bits_ok v V)) in HB. rewrite N.mod_small by exact HB.
    apply (dec_fail (with_oracle w orc') s pre cs post MAXCHARS_DEC_32 v pad ds st); auto; try (unfold MAXCHARS_DEC_32; lia).
    { eapply N.lt_le_trans; [exact HB|]. now vm_compute. }
Qed.
