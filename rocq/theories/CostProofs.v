(** Amortised cost of vector calls. *)
From Verif Require Import Base NListFacts Status Mem MemFacts VectorModel VectorSpec VectorDriver RefuseSpec
  VectorRep VectorProofs VectorProofs2 VectorProofs3 VectorRefine VectorFail VectorMore VectorFinal OracleProofs RefuseProofs
  ForeachProofs2 CostSpec.
From Coq Require Import ZifyBool ZifyNat ZifyN.

Definition pot (g s c : N) : N := g * distance (g * s) c.

Lemma pot_move g s s' c : pot g s' c <= g * g * distance s s' + pot g s c.
Proof.
  unfold pot. assert (distance (g * s') c <= g * distance s s' + distance (g * s) c).
  { unfold distance. destruct (N.le_ge_cases s s') as [L|L].
    - replace s' with (s + (s' - s)) by lia. set (k := s' - s). replace (g * (s + k)) with (g * s + g * k) by lia.
      replace (s - (s + k) + (s + k - s)) with k by lia. lia.
    - replace s with (s' + (s - s')) by lia. set (k := s - s'). replace (g * (s' + k)) with (g * s' + g * k) by lia.
      replace (s' + k - s' + (s' - (s' + k))) with k by lia. lia. }
  nia.
Qed.
Lemma pot_exact g s : pot g s (s * g) = 0.
Proof. unfold pot, distance. nia. Qed.

(** The vector grows by [k] elements and gets a block of [g] times the new size. *)
Lemma pot_grow g s k c : 2 <= g -> s <= c -> c < s + k -> (s + k) * g + pot g (s + k) ((s + k) * g) <= g * g * k + pot g s c.
Proof.
  intros G L L2. rewrite pot_exact. unfold pot. set (d := distance (g * s) c).
  assert (s + k <= 2 * k + d). { unfold d, distance. assert (2 * s <= g * s) by nia. lia. }
  assert (2 * (g * k) <= g * (g * k)) by nia. nia.
Qed.
(** It comes to have [m] elements and gets a block for [g] times as many, because that is far less. *)
Lemma pot_shrink g t s m c : 2 <= g -> g < t -> m * t < c -> m <> s ->
  N.max 1 (m * g) + pot g m (N.max 1 (m * g)) <= g * g * distance s m + pot g s c.
Proof.
  intros G T L NE. assert (L2 : m * g + m + 1 <= c) by nia.
  assert (D1 : 1 <= distance s m) by (unfold distance; lia).
  destruct (N.eq_dec m 0) as [->|M0].
  - change (0 * g) with 0. change (N.max 1 0) with 1. unfold pot. replace (distance (g * 0) 1) with 1 by (unfold distance; nia). nia.
  - replace (N.max 1 (m * g)) with (m * g) by nia. rewrite pot_exact. unfold pot.
    assert (m <= g * distance s m + distance (g * s) c).
    { unfold distance. destruct (N.le_ge_cases s m) as [K|K].
      - assert (g * s <= g * m) by nia. lia.
      - replace s with (m + (s - m)) by lia. set (k := s - m). replace (m + k - m + (m - (m + k))) with k by lia.
        replace (g * (m + k)) with (m * g + g * k) by lia. lia. }
    nia.
Qed.

Section Step.
  Context {C : Type}.

  Lemma cost_step (c : vcfg C) o s r s' : c_fixed c = false -> 2 <= c_growth c ->
    c_shrink c = 0 \/ c_growth c < c_shrink c -> automatic o = true -> nlen (s_elems s) <= s_cap s ->
    vspec c o s r s' ->
    requests c o s * s_cap s' + pot (c_growth c) (nlen (s_elems s')) (s_cap s') <=
      c_growth c * c_growth c * distance (nlen (s_elems s)) (nlen (s_elems s')) +
      pot (c_growth c) (nlen (s_elems s)) (s_cap s).
  Proof.
    intros FX G T A L. set (g := c_growth c) in *. set (len := nlen (s_elems s)) in *.
    assert (SAME : forall q, q = 0 -> q * s_cap s + pot g len (s_cap s) <= g * g * distance len len + pot g len (s_cap s))
      by (intros; lia).
    assert (INS : forall i xs, spec_insert c i xs s r s' -> 1 <= nlen xs ->
      (match (if i <=? len then if s_cap s <? len + nlen xs then Some ((len + nlen xs) * g) else None else None) with None => 0 | Some _ => 1 end) * s_cap s' +
      pot g (nlen (s_elems s')) (s_cap s') <= g * g * distance len (nlen (s_elems s')) + pot g len (s_cap s)).
    { intros i xs. unfold spec_insert. fold len. destruct (N.ltb_spec len i).
      - intros [_ ->] _. fold len. replace (i <=? len) with false by lia. now apply SAME.
      - replace (i <=? len) with true by lia. unfold regrow. rewrite FX. fold g.
        assert (LL : nlen (linsert i xs (s_elems s)) = len + nlen xs) by (unfold linsert; nl; rewrite nlen_nfirst, nlen_nskip; fold len; lia).
        assert (DD : distance len (len + nlen xs) = nlen xs) by (unfold distance; lia).
        destruct (N.leb_spec (len + nlen xs) (s_cap s)); intros [_ ->] X1; cbn [s_cap s_elems]; rewrite LL.
        + replace (s_cap s <? len + nlen xs) with false by lia. apply pot_move.
        + replace (s_cap s <? len + nlen xs) with true by lia. rewrite N.mul_1_l, DD. now apply pot_grow. }
    assert (DEL : forall i n, spec_delete c i n s r s' -> 
      (match (if (0 <? n) && (i + n <=? len) then if negb (c_shrink c =? 0) && ((len - n) * c_shrink c <? s_cap s) then Some (N.max 1 ((len - n) * g)) else None else None) with None => 0 | Some _ => 1 end) * s_cap s' +
      pot g (nlen (s_elems s')) (s_cap s') <= g * g * distance len (nlen (s_elems s')) + pot g len (s_cap s)).
    { intros i n. unfold spec_delete. fold len. destruct (N.eqb_spec n 0) as [->|N0].
      - intros [_ ->]. fold len. now apply SAME.
      - destruct (N.ltb_spec len (i + n)); intros [_ ->].
        + fold len. replace ((0 <? n) && (i + n <=? len)) with false by lia. now apply SAME.
        + replace ((0 <? n) && (i + n <=? len)) with true by lia. cbn [s_elems s_cap]. rewrite nlen_ldelete by (fold len; lia). fold len.
          unfold reshrink. rewrite FX. fold g. cbn [orb].
          destruct (N.eqb_spec (c_shrink c) 0) as [Z|Z]; cbn [orb negb andb]; [apply pot_move|].
          destruct (N.leb_spec (s_cap s) ((len - n) * c_shrink c)).
          * replace ((len - n) * c_shrink c <? s_cap s) with false by lia. apply pot_move.
          * replace ((len - n) * c_shrink c <? s_cap s) with true by lia. rewrite N.mul_1_l.
            apply (pot_shrink g (c_shrink c)); auto; lia. }
    assert (RES : forall n new, spec_resize c n new s r s' -> nlen new = n - len ->
      (match (let too_big n := negb (c_shrink c =? 0) && (n * c_shrink c <? s_cap s) in
              let fit k := if 1 <=? k then Some k else if 1 <? s_cap s then Some 1 else None in
              if n =? len then None else if (s_cap s <? n) || too_big n then fit (n * g) else None) with None => 0 | Some _ => 1 end) * s_cap s' +
      pot g (nlen (s_elems s')) (s_cap s') <= g * g * distance len (nlen (s_elems s')) + pot g len (s_cap s)).
    { intros n new. unfold spec_resize. cbv zeta. fold len. destruct (N.eqb_spec n len) as [->|NE].
      - intros [_ ->] _. now apply SAME.
      - destruct (N.ltb_spec n len).
        + intros [_ ->] _. cbn [s_elems s_cap]. rewrite nlen_nfirst. fold len. replace (N.min n len) with n by lia.
          replace (s_cap s <? n) with false by lia. cbn [orb]. unfold reshrink. rewrite FX. fold g. cbn [orb].
          destruct (N.eqb_spec (c_shrink c) 0) as [Z|Z]; cbn [orb negb andb]; [apply pot_move|].
          destruct (N.leb_spec (s_cap s) (n * c_shrink c)).
          * replace (n * c_shrink c <? s_cap s) with false by lia. apply pot_move.
          * replace (n * c_shrink c <? s_cap s) with true by lia.
            pose proof (pot_shrink g (c_shrink c) len n (s_cap s) G ltac:(lia) ltac:(lia) ltac:(lia)) as P.
            destruct (1 <=? n * g); [lia|]. destruct (1 <? s_cap s); lia.
        + unfold regrow. rewrite FX. fold g. intros S LN.
          assert (DD : distance len n = n - len) by (unfold distance; lia).
          assert (NG : 1 <= n * g) by nia.
          destruct (N.leb_spec n (s_cap s)); destruct S as [_ ->]; cbn [s_elems s_cap]; nl; rewrite LN;
            fold len; replace (len + (n - len)) with n by lia.
          * replace (s_cap s <? n) with false by lia. cbn [orb]. unfold reshrink. rewrite FX. fold g. cbn [orb].
            destruct (N.eqb_spec (c_shrink c) 0) as [Z|Z]; cbn [orb negb andb]; [apply pot_move|].
            destruct (N.leb_spec (s_cap s) (n * c_shrink c)).
            -- replace (n * c_shrink c <? s_cap s) with false by lia. apply pot_move.
            -- replace (n * c_shrink c <? s_cap s) with true by lia. replace (1 <=? n * g) with true by lia.
               rewrite N.mul_1_l. apply (pot_shrink g (c_shrink c)); auto; lia.
          * replace (s_cap s <? n) with true by lia. cbn [orb]. replace (1 <=? n * g) with true by lia. rewrite N.mul_1_l.
            replace (reshrink c (n * g) n) with (n * g).
            -- rewrite DD. pose proof (pot_grow g len (n - len) (s_cap s) G L ltac:(lia)) as P. replace (len + (n - len)) with n in P by lia. exact P.
            -- unfold reshrink. rewrite FX. cbn [orb]. destruct (N.eqb_spec (c_shrink c) 0); [reflexivity|].
               cbn [orb]. destruct (N.leb_spec (n * g) (n * c_shrink c)); [reflexivity|]. destruct T as [T|T]; [lia|nia]. }
    destruct o; cbn [vspec]; unfold requests, asked; fold len g; intros S; try discriminate A.
    - specialize (INS _ _ S). replace (len <=? len) with true in INS by lia. apply INS. reflexivity.
    - apply (INS _ _ S). reflexivity.
    - destruct xs as [|x xs]; [destruct S as [_ ->]; now apply SAME|]. specialize (INS _ _ S).
      replace (0 <? nlen (x :: xs)) with true by (rewrite nlen_cons; lia). cbn [andb]. apply INS. rewrite nlen_cons. lia.
    - destruct S as (? & y & _ & _ & _ & S). specialize (INS _ _ S). fold len in INS. replace (len <=? len) with true in INS by lia. apply INS. reflexivity.
    - destruct S as (? & y & _ & _ & _ & S). apply (INS _ _ S). reflexivity.
    - rewrite N.mul_0_l. destruct (nnth i (s_elems s)) eqn:E; destruct S as [_ ->]; [|fold len; lia].
      cbn [s_elems s_cap]. rewrite nlen_lset; [fold len; lia|]. eapply nnth_lt, E.
    - rewrite N.mul_0_l. fold len in S. destruct ((len <=? i) || (len <=? j)) eqn:B; [destruct S as [_ ->]; fold len; lia|].
      destruct (len =? s_cap s); destruct S as [_ ->]; [fold len; lia|]. cbn [s_elems s_cap].
      replace (nlen (lswap i j (s_elems s))) with len; [lia|]. unfold lswap.
      destruct (nnth i _) eqn:E1; [|reflexivity]. destruct (nnth j _) eqn:E2; [|reflexivity].
      rewrite nlen_lset; rewrite nlen_lset; fold len; lia.
    - exact (DEL _ _ S).
    - exact (DEL _ _ S).
    - fold len in S. destruct (N.eqb_spec len 0) as [Z|Z].
      + destruct S as [_ ->]. fold len. replace (0 <? len) with false by lia. now apply SAME.
      + specialize (DEL _ _ S). replace (len - 1 + 1 <=? len) with true in DEL by lia. cbn [andb N.ltb N.compare] in DEL.
        replace (0 <? len) with true by lia. exact DEL.
    - apply (RES _ _ S). reflexivity.
    - destruct S as (new & LN & _ & S). exact (RES _ _ S LN).
    - apply (RES _ _ S). fold len. unfold nlen, nrepeat. rewrite repeat_length. lia.
  Qed.
End Step.

Section Run.
  Context {C : Type}.
  Notation vec := (vector C).
  Implicit Types (w : Mem.world C) (v : vec).

  (** One call with a working allocator. *)
  Lemma run_op_works w v xs o : vrep w v [] xs [] -> v_alloc v = true -> (forall t, exists fill, orc w t = AOk fill) ->
    arg_ok (v_esz v) o -> fits (nlen xs + demand o) (v_esz v) ->
    exists r w' v' xs', let s := mkst xs (v_cap v) (dlog w) in let s' := mkst xs' (v_cap v') (dlog w') in
      run_op v o w = Ok (r, v') w' /\ vspec (cfg_of v) o s r s' /\ tick w' = tick w + requests (cfg_of v) o s /\
      vrep w' v' [] xs' [] /\ v_alloc v' = true /\ cfg_of v' = cfg_of v /\ (forall t, exists fill, orc w' t = AOk fill).
  Proof.
    intros R A O AO F. destruct (run_op_any w v xs o R A AO F) as (r & w' & v' & xs' & E & V & T & OR & _ & G).
    cbv zeta in *. exists r, w', v', xs'. split; [exact E|].
    assert (NR : ~ refuses (cfg_of v) (orc w (tick w)) o (mkst xs (v_cap v) (dlog w))).
    { intros [_ X]. destruct (O (tick w)) as [fill OF]. rewrite OF in X. now apply X. }
    split.
    { unfold vcall in V. destruct (O (tick w)) as [fill OF]. rewrite OF in V. cbn [refusal] in V. now destruct (asked _ _ _ _). }
    split; [exact T|]. assert (GD : good w v w' v' [] xs' []) by (apply G; intros X; contradiction).
    split; [apply GD|]. destruct (g_cfg _ _ _ _ _ _ _ GD) as (A' & G' & S' & E' & D').
    split; [congruence|]. split; [unfold cfg_of; congruence|]. now rewrite OR.
  Qed.

  Lemma cost_run : forall ops w v xs, vrep w v [] xs [] -> v_alloc v = true -> (forall t, exists fill, orc w t = AOk fill) ->
    2 <= v_growth v -> v_shrink v = 0 \/ v_growth v < v_shrink v ->
    Forall (arg_ok (v_esz v)) ops -> forallb automatic ops = true -> fits (nlen xs + demands ops) (v_esz v) ->
    exists blocks changes v' w', run_cost v ops w = Ok (blocks, changes, v') w' /\
      blocks <= v_growth v * v_growth v * changes + pot (v_growth v) (nlen xs) (v_cap v).
  Proof.
    induction ops as [|o ops IH]; intros w v xs R A O G T AO AU F.
    - exists 0, 0, v, w. split; [reflexivity|]. lia.
    - inv AO. cbn [forallb] in AU. apply andb_prop in AU as [AU1 AU2]. cbn [demands] in F.
      destruct (run_op_works w v xs o R A O H1) as (r & w1 & v1 & xs1 & E & V & TK & R1 & A1 & CF & O1).
      { eapply fits_le; [|exact F]. lia. }
      cbv zeta in *.
      assert (CG : v_growth v1 = v_growth v) by (now inversion CF). assert (CS : v_shrink v1 = v_shrink v) by (now inversion CF).
      assert (CE : v_esz v1 = v_esz v) by (now inversion CF).
      pose proof (vspec_len _ _ _ _ _ V) as VL. cbn [s_elems] in VL.
      destruct (IH w1 v1 xs1 R1 A1 O1) as (bl & ch & v2 & w2 & E2 & B); rewrite ?CG, ?CS, ?CE; auto.
      { eapply fits_le; [|exact F]. lia. }
      do 4 eexists. split.
      { cbn [run_cost]. rewrite E, E2. reflexivity. }
      pose proof (cost_step (cfg_of v) o (mkst xs (v_cap v) (dlog w)) _ _ ltac:(cbn [cfg_of c_fixed]; now rewrite A) G T AU1 (r_le _ _ _ _ _ R) V) as ST.
      cbn [cfg_of c_growth s_elems s_cap] in ST. cbn [vget_capacity vget_size snd].
      rewrite (r_size _ _ _ _ _ R), (r_size _ _ _ _ _ R1). rewrite CG in B.
      replace (tick w1 - tick w) with (requests (cfg_of v) o {| s_elems := xs; s_cap := v_cap v; s_log := dlog w |}) by lia.
      rewrite N.mul_add_distr_l. unfold cfg_of in *. lia.
  Qed.

  Lemma amortised w v xs ops : reached_own w v xs -> 2 <= v_growth v -> v_shrink v = 0 \/ v_growth v < v_shrink v ->
    Forall (arg_ok (v_esz v)) ops -> forallb automatic ops = true -> room (nlen xs + demands ops) (v_esz v) ->
    exists blocks changes v' w', run_cost v ops w = Ok (blocks, changes, v') w' /\
      blocks <= v_growth v * v_growth v * changes + v_growth v * distance (v_growth v * nlen xs) (snd (vget_capacity v)).
  Proof.
    intros H G T AO AU RM. destruct (reached_own_rep _ _ _ H) as (R & F & A & O). now apply (cost_run ops w v xs).
  Qed.
End Run.
