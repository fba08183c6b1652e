(** Duplicates, concatenations and numbers as steps of a program with many objects. *)
From Verif Require Import Base NListFacts Status Mem MemFacts VectorModel VectorSpec VectorDriver VectorRep VectorProofs VectorProofs2
  VectorRefine VectorSearch StringModel StringSpec StringDriver StringBytes StringProofs StringFinal StringFinal2
  FormatModel FormatSpec FormatDriver FormatDigits FormatProofs FormatRun OracleProofs LogProofs RefuseProofs StrRefuseProofs StrRefuseProofs2.
From Coq Require Import ZifyBool ZifyNat ZifyN.

Notation world := (Mem.world N).

(** ** Copies; only the first answer of the allocator matters *)
Lemma vcopy_ok (w : world) v xs cap g s fill : vrep w v [] xs [] -> orc w (tick w) = AOk fill ->
  N.max 1 (N.max cap (nlen xs)) * v_esz v < W64 -> 1 <= g < 256 -> s < 256 ->
  exists w' d, vduplicate_ex v cap true g s w = Ok (ST_SUCCESS, Some d) w' /\ vrep w' d [] xs [] /\
    v_cap d = N.max 1 (N.max cap (nlen xs)) /\ v_alloc d = true /\ cfg_of d = mkcfg false g s (v_esz v) (v_dtor v) /\
    dlog w' = dlog w /\ orc w' = orc w /\ tick w' = tick w + 1 /\
    nextb w <= blk d /\ nextb w <= nextb w' /\ (forall b, b <> blk d -> heap w' b = heap w b).
Proof.
  intros R O MM GB SB. unfold vduplicate_ex. rewrite (r_size _ _ _ _ _ R).
  destruct (init_ok w (v_esz v) (N.max cap (nlen xs)) (v_dtor v) g s fill) as
    (w1 & d & E & D & DC & DE & DA & CF & L1 & O1 & B1 & N1 & H1); auto; try apply R.
  pose proof (init_asks _ _ _ _ _ _ _ _ E) as TI.
  rewrite (bind_ok _ _ _ _ _ E). change (st_success ST_SUCCESS) with true. cbn [negb].
  unfold bind at 1. rewrite DC. destruct (N.leb_spec (nlen xs) (N.max 1 (N.max cap (nlen xs)))); [|lia].
  cbn [assert]. unfold ret at 1.
  pose proof (rep_blk_lt _ _ _ _ _ R) as BL.
  assert (R1 : vrep w1 v [] xs []).
  { destruct R. split; auto.
    - apply D.
    - destruct r_heap as (sl & SL & HH). exists sl.
      split; [eapply spare_orc, SL; exact O1|]. rewrite H1; [exact HH|lia]. }
  destruct (fill_copy w1 v [] xs [] d [] [] R1 D ltac:(lia) DE ltac:(lia)) as
    (w2 & E2 & D2 & R2 & L2 & O2 & N2 & H2).
  rewrite (r_size _ _ _ _ _ R) in E2. rewrite (bind_ok _ _ _ _ _ E2). unfold ret.
  apply (asks_memcpy _ _ _ _ _ _) in E2.
  exists w2, (set_size d (nlen xs)). split; [reflexivity|].
  split; [exact D2|]. split; [exact DC|]. split; [exact DA|]. split; [exact CF|]. split; [congruence|]. split; [congruence|].
  split; [lia|]. rewrite blk_set_size. split; [exact B1|]. split; [lia|].
  intros b Hb. rewrite H2, H1 by assumption. reflexivity.
Qed.

(** A string of the program as the source of a copy into a fresh block. *)
Lemma srep_view_new (w w1 : world) s x b : srep w s [] x [] -> nextb w <= b -> (forall b', b' <> b -> heap w1 b' = heap w b') ->
  is_view w1 s x b.
Proof.
  intros R L H. pose proof (srep_size _ _ _ _ _ R) as SZ. destruct R as [R _]. exists (mkptr (blk (s_vec s)) 0).
  split; [exact (brep_data _ _ _ _ _ R)|]. split; [exact SZ|]. destruct R as [R _]. pose proof (rep_blk_lt _ _ _ _ _ R).
  cbn [pb]. split; [|lia]. destruct (r_heap _ _ _ _ _ R) as (sl & _ & HH). exists [], ([0] ++ sl ++ []).
  split; [|reflexivity]. cbn [pb]. rewrite H by lia. rewrite HH. cbn [app]. rewrite concat_cells. now rewrite <- !app_assoc.
Qed.
Lemma asks_copy_into n q r : asks 0 (sduplicate_into n q r).
Proof.
  destruct r as [r [d|]]; cbn [sduplicate_into]; destruct (negb _); try (intros w a w' E; discriminate E); try apply asks_ret.
  apply asks_bind0; [apply asks_assert|intros _]. apply asks_bind0; [apply asks_memcpy|intros _].
  apply asks_bind0; [apply asks_nullterminate|intros _]. apply asks_ret.
Qed.
Lemma asks_concat_into n q1 q2 r : asks 0 (sconcat_into n q1 q2 r).
Proof.
  destruct r as [r [d|]]; cbn [sconcat_into]; destruct (negb _); try (intros w a w' E; discriminate E); try apply asks_ret.
  apply asks_bind0; [apply asks_assert|intros _]. apply asks_bind0; [apply asks_memcpy|intros _].
  apply asks_bind0; [apply asks_memcpy|intros _]. apply asks_bind0; [apply asks_nullterminate|intros _]. apply asks_ret.
Qed.
Lemma si_copy_into n q r : bare r -> silent (sduplicate_into n q r).
Proof. go sduplicate_into. Qed.
Lemma si_concat_into n q1 q2 r : bare r -> silent (sconcat_into n q1 q2 r).
Proof. go sconcat_into. Qed.
#[local] Hint Resolve si_sinit_ex si_copy_into si_concat_into : silent.
Lemma si_sduplicate_ex q c a g t : silent (sduplicate_ex q c a g t).
Proof. go sduplicate_ex. Qed.
Lemma si_sconcat_ex q1 q2 c a g t : silent (sconcat_ex q1 q2 c a g t).
Proof. go sconcat_ex. Qed.

Lemma sfresh_ok (w w1 w2 : world) d0 d x : nextb w <= blk (s_vec d0) -> nextb w <= nextb w1 -> orc w1 = orc w ->
  v_alloc (s_vec d0) = true -> srep w1 d0 [] [] [] -> blk (s_vec d) = blk (s_vec d0) ->
  (forall b, b <> blk (s_vec d0) -> heap w1 b = heap w b) -> sgood w1 d0 w2 d [] x [] ->
  srep w2 d [] x [] /\ v_alloc (s_vec d) = true /\ orc w2 = orc w /\ nextb w <= blk (s_vec d) /\ nextb w <= nextb w2 /\
  (forall b, b <> blk (s_vec d) -> heap w2 b = heap w b).
Proof.
  intros B N1 O A R BD H G. pose proof (sgood_rep _ _ _ _ _ _ _ _ R G) as R2. destruct G as [[_ GC GF _] _].
  split; [exact R2|]. split; [destruct GC; congruence|]. split; [rewrite (fr_orc _ _ _ _ GF); exact O|].
  pose proof (fr_next _ _ _ _ GF). split; [lia|]. split; [lia|]. intros b NB. rewrite (fr_heap _ _ _ _ GF) by congruence. apply H. congruence.
Qed.

Lemma scopy_ok (w : world) s x cap g t fill : srep w s [] x [] -> orc w (tick w) = AOk fill ->
  N.max 32 (N.max cap (nlen x)) + 1 < W64 -> 1 <= g < 256 -> t < 256 ->
  exists w' d, sduplicate_ex s cap true g t w = Ok (ST_SUCCESS, Some d) w' /\ srep w' d [] x [] /\
    v_alloc (s_vec d) = true /\ dlog w' = dlog w /\ orc w' = orc w /\ tick w' = tick w + 1 /\
    nextb w <= blk (s_vec d) /\ nextb w <= nextb w' /\ (forall b, b <> blk (s_vec d) -> heap w' b = heap w b).
Proof.
  intros R O MM GB SB. pose proof (srep_size _ _ _ _ _ R) as SZ.
  destruct (sinit_first_ok w (N.max cap (nlen x)) g t fill) as (w1 & d0 & E1 & R1 & A1 & C1 & B1 & N1 & O1 & T1 & _ & _ & H1).
  { repeat split; try lia. eapply brep_wf. apply R. } { exact O. }
  destruct (fill_ok w1 d0 [] [] s x _ R1 ltac:(lia) (srep_view_new w w1 s x _ R B1 H1) eq_refl) as (w2 & E2 & G2).
  assert (E : sduplicate_ex s cap true g t w = Ok (ST_SUCCESS, Some (with_vec d0 (set_size (s_vec d0) (nlen x + 1)))) w2).
  { unfold sduplicate_ex. rewrite SZ. destruct (N.eqb_spec (nlen x + 1) 0); [lia|]. cbv zeta.
    rewrite wsub_small by (change W64 with 18446744073709551616 in *; lia).
    replace (nlen x + 1 - 1) with (nlen x) by lia. now rewrite (bind_ok _ _ _ _ _ E1). }
  destruct (sfresh_ok w w1 w2 d0 (with_vec d0 (set_size (s_vec d0) (nlen x + 1))) x B1 N1 O1 A1 R1 eq_refl H1 G2) as (X1 & X2 & X3 & X4 & X5 & X6).
  eexists w2, _. split; [exact E|]. split; [exact X1|]. split; [exact X2|].
  split; [exact (proj1 (si_sduplicate_ex _ _ _ _ _ _ _ _ E))|]. split; [exact X3|].
  split; [apply asks_copy_into in E2; lia|]. auto.
Qed.

Lemma sjoin_ok (w : world) s1 x s2 y cap g t fill : srep w s1 [] x [] -> srep w s2 [] y [] -> orc w (tick w) = AOk fill ->
  N.max 32 (N.max cap (nlen x + nlen y)) + 1 < W64 -> 1 <= g < 256 -> t < 256 ->
  exists w' d, sconcat_ex s1 s2 cap true g t w = Ok (ST_SUCCESS, Some d) w' /\ srep w' d [] (x ++ y) [] /\
    v_alloc (s_vec d) = true /\ dlog w' = dlog w /\ orc w' = orc w /\ tick w' = tick w + 1 /\
    nextb w <= blk (s_vec d) /\ nextb w <= nextb w' /\ (forall b, b <> blk (s_vec d) -> heap w' b = heap w b).
Proof.
  intros R RY O MM GB SB. pose proof (srep_size _ _ _ _ _ R) as SZ. pose proof (srep_size _ _ _ _ _ RY) as SY.
  destruct (sinit_first_ok w (N.max cap (nlen x + nlen y)) g t fill) as (w1 & d0 & E1 & R1 & A1 & C1 & B1 & N1 & O1 & T1 & _ & _ & H1).
  { repeat split; try lia. eapply brep_wf. apply R. } { exact O. }
  destruct (concat_fill_ok w1 d0 [] [] s1 s2 x y R1 ltac:(lia) (srep_view_new w w1 s1 x _ R B1 H1) (srep_view_new w w1 s2 y _ RY B1 H1)) as (w2 & E2 & G2).
  assert (E : sconcat_ex s1 s2 cap true g t w = Ok (ST_SUCCESS, Some (with_vec d0 (set_size (s_vec d0) (nlen x + nlen y + 1)))) w2).
  { unfold sconcat_ex. rewrite SZ, SY. destruct (N.eqb_spec (nlen x + 1) 0); [lia|]. destruct (N.eqb_spec (nlen y + 1) 0); [lia|].
    cbn [orb]. cbv zeta. replace (wsub (wadd (nlen x + 1) (nlen y + 1)) 1) with (nlen x + nlen y + 1).
    2:{ unfold wsub, wadd. change W64 with 18446744073709551616 in *.
        destruct (N.eq_dec (nlen x + nlen y + 2) 18446744073709551616) as [EQ|NE].
        - replace (nlen x + 1 + (nlen y + 1)) with 18446744073709551616 by lia. cbn. lia.
        - rewrite (N.mod_small (nlen x + 1 + _)) by lia. destruct (N.leb_spec 1 (nlen x + 1 + (nlen y + 1))); lia. }
    rewrite wsub_small by (change W64 with 18446744073709551616 in *; lia).
    replace (nlen x + nlen y + 1 - 1) with (nlen x + nlen y) by lia. now rewrite (bind_ok _ _ _ _ _ E1). }
  destruct (sfresh_ok w w1 w2 d0 (with_vec d0 (set_size (s_vec d0) (nlen x + nlen y + 1))) (x ++ y) B1 N1 O1 A1 R1 eq_refl H1 G2) as (X1 & X2 & X3 & X4 & X5 & X6).
  eexists w2, _. split; [exact E|]. split; [exact X1|]. split; [exact X2|].
  split; [exact (proj1 (si_sconcat_ex _ _ _ _ _ _ _ _ _ E))|]. split; [exact X3|].
  split; [apply asks_concat_into in E2; lia|]. auto.
Qed.

(** ** Formatting calls no destructor *)
#[local] Hint Resolve si_ret : silent.
Lemma si_dec_push m d buf : silent (dec_push m d buf).
Proof. go dec_push. Qed.
#[local] Hint Resolve si_dec_push : silent.
Lemma si_dec_loop f : forall m v buf, silent (dec_loop f m v buf).
Proof. induction f; intros; cbn [dec_loop]; si. Qed.
#[local] Hint Resolve si_dec_loop : silent.
Lemma si_sappend_dec m s v p : bare s -> silent (sappend_dec m s v p).
Proof. go sappend_dec. Qed.
Lemma si_hex_char u v : silent (hex_char u v).
Proof. go hex_char. Qed.
#[local] Hint Resolve si_sappend_dec si_hex_char : silent.
Lemma si_hex_loop f : forall v p u l r s n q, bare s -> silent (hex_loop f v p u l r s n q).
Proof. induction f; intros; cbn [hex_loop]; si. Qed.
#[local] Hint Resolve si_hex_loop : silent.
Lemma si_sappend_hex k s v p u : bare s -> silent (sappend_hex k s v p u).
Proof. go sappend_hex. Qed.
#[local] Hint Resolve si_sappend_hex : silent.
Lemma si_decu is64 s v p : bare s -> silent (sappend_decu is64 s v p).
Proof. go sappend_decu. Qed.
Lemma si_hexu is64 s v p u : bare s -> silent (sappend_hexu is64 s v p u).
Proof. intros. unfold sappend_hexu, sappend_hex64. si. Qed.
#[local] Hint Resolve si_decu si_hexu : silent.
Lemma si_signed sub add s v f p (k : str -> N -> Mem.M N (status * str)) : (forall s v, bare s -> silent (k s v)) ->
  bare s -> silent (sappend_signed sub add s v f p k).
Proof. intros K B. unfold sappend_signed. si. Qed.
Lemma si_run_fop is64 s o : bare s -> silent (run_fop is64 s o).
Proof.
  intros B. destruct o as [o|v pad|v pad upper|v pad force prefix|v pad upper force prefix]; cbn [run_fop].
  - now apply si_run_sop.
  - now apply si_decu.
  - now apply si_hexu.
  - unfold with_signs, with_prefix, with_view, sappend_decs. repeat (apply si_with_arg; intros).
    destruct prefix; [apply si_with_arg; intros|]; apply si_signed; intros; auto using si_decu.
  - unfold with_signs, with_prefix, with_view, sappend_hexs. repeat (apply si_with_arg; intros).
    destruct prefix; [apply si_with_arg; intros|]; apply si_signed; intros; auto using si_hexu.
Qed.
