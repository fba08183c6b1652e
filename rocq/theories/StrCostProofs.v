(** Amortised cost of strings and bitsets. *)
From Verif Require Import Base NListFacts Status Mem MemFacts VectorModel VectorSpec VectorDriver VectorRep VectorProofs VectorProofs2 RefuseSpec CostSpec CostProofs
  StringModel StringSpec StringDriver StringBytes StringProofs StringFinal StrRefuseSpec StrRefuseProofs StrRefuseProofs2
  BitsetModel BitsetSpec BitsetDriver BitsetProofs BitsetRun BitsetFinal BitRefuseSpec BitRefuseProofs BitRefuseProofs2 StrCostSpec.
From Coq Require Import ZifyBool ZifyNat ZifyN.

(** The number of elements after a vector call that succeeds. *)
Definition after {C} (o : vop C) (len : N) : N :=
  match o with
  | OPushBack _ | OEmplace _ => len + 1
  | OInsert i _ | OEmplaceEx i _ => if i <=? len then len + 1 else len
  | OInsertRange i xs => if (0 <? nlen xs) && (i <=? len) then len + nlen xs else len
  | ODelete i => if i + 1 <=? len then len - 1 else len
  | ODeleteRange i n => if (0 <? n) && (i + n <=? len) then len - n else len
  | OPopBack => if 0 <? len then len - 1 else len
  | OClear => 0
  | OResize n | OResizeEx n _ => n
  | _ => len
  end.
Lemma asked_cost {C} (c : vcfg C) o len cap : 2 <= c_growth c -> c_shrink c = 0 \/ c_growth c < c_shrink c -> automatic o = true -> len <= cap -> 1 <= cap ->
  match asked c o len cap with
  | Some k => 1 <= k /\ k + pot (c_growth c) (after o len) k <= c_growth c * c_growth c * distance len (after o len) + pot (c_growth c) len cap
  | None => True
  end.
Proof.
  intros G T A L C1. set (g := c_growth c) in *. set (t := c_shrink c) in *.
  assert (GROW : forall n, 1 <= n -> cap < len + n -> 1 <= (len + n) * g /\ (len + n) * g + pot g (len + n) ((len + n) * g) <= g * g * distance len (len + n) + pot g len cap).
  { intros n N1 LT. split; [nia|]. replace (distance len (len + n)) with n by (unfold distance; lia). now apply pot_grow. }
  assert (SHR : forall m, negb (t =? 0) && (m * t <? cap) = true -> m <> len -> 1 <= N.max 1 (m * g) /\ N.max 1 (m * g) + pot g m (N.max 1 (m * g)) <= g * g * distance len m + pot g len cap).
  { intros m B NE. split; [lia|]. apply pot_shrink with t; lia. }
  assert (RES : forall m, match (if m =? len then None else if (cap <? m) || (negb (t =? 0) && (m * t <? cap)) then
      if 1 <=? m * g then Some (m * g) else if 1 <? cap then Some 1 else None else None) with
    | Some k => 1 <= k /\ k + pot g m k <= g * g * distance len m + pot g len cap | None => True end).
  { intros m. destruct (N.eqb_spec m len) as [|NE]; [exact I|]. destruct (N.ltb_spec cap m) as [LT|GE]; cbn [orb].
    - replace (1 <=? m * g) with true by nia. replace m with (len + (m - len)) by lia. apply GROW; lia.
    - destruct (negb (t =? 0) && (m * t <? cap)) eqn:B; [|exact I]. specialize (SHR m B NE). destruct (N.leb_spec 1 (m * g)) as [M1|M0].
      + replace (N.max 1 (m * g)) with (m * g) in SHR by lia. exact SHR.
      + replace (N.max 1 (m * g)) with 1 in SHR by lia. destruct (1 <? cap); [exact SHR|exact I]. }
  destruct o; try discriminate A; unfold asked, after; fold g t; cbv zeta; try exact I.
  - destruct (N.ltb_spec cap (len + 1)); [apply GROW; lia|exact I].
  - destruct (i <=? len); [|exact I]. destruct (N.ltb_spec cap (len + 1)); [apply GROW; lia|exact I].
  - destruct (N.ltb_spec 0 (nlen xs)); cbn [andb]; [|exact I]. destruct (i <=? len); [|exact I]. destruct (N.ltb_spec cap (len + nlen xs)); [apply GROW; lia|exact I].
  - destruct (N.ltb_spec cap (len + 1)); [apply GROW; lia|exact I].
  - destruct (i <=? len); [|exact I]. destruct (N.ltb_spec cap (len + 1)); [apply GROW; lia|exact I].
  - destruct (N.leb_spec (i + 1) len); [|exact I]. match goal with |- context [if ?b then Some _ else None] => destruct b eqn:B end; [apply SHR; [exact B|lia]|exact I].
  - destruct (N.ltb_spec 0 n); cbn [andb]; [|exact I]. destruct (N.leb_spec (i + n) len); [|exact I].
    match goal with |- context [if ?b then Some _ else None] => destruct b eqn:B end; [apply SHR; [exact B|lia]|exact I].
  - destruct (N.ltb_spec 0 len); [|exact I]. match goal with |- context [if ?b then Some _ else None] => destruct b eqn:B end; [apply SHR; [exact B|lia]|exact I].
  - apply (RES 0).
  - apply RES.
  - apply RES.
Qed.

(** ** Strings *)
Lemma change_len o cs r cs' : sspec None o cs r cs' -> sautomatic o = true -> sums_ok o ->
  match change_of o (nlen cs) with
  | Some v => automatic v = true /\ (o <> SClear -> nlen cs' + 1 = after v (nlen cs + 1))
  | None => nlen cs' = nlen cs
  end.
Proof.
  intros S A SO.
  assert (BE : forall new, become None new cs r cs' -> cs' = new) by (intros new [_ E]; exact E).
  assert (SUB : forall j n (x : list N), j + n <= nlen x -> nlen (nsub j n x) = n) by (intros; apply nlen_nsub; lia).
  assert (AP : forall j n x, sspec_append None x j n cs r cs' ->
    match (if nlen x <? j + n then None else Some (@OResize N (nlen cs + 1 + n))) with
    | Some v => automatic v = true /\ nlen cs' + 1 = after v (nlen cs + 1) | None => nlen cs' = nlen cs end).
  { intros j n x. unfold sspec_append. destruct (N.ltb_spec (nlen x) (j + n)); [now intros [_ ->]|]. intros H1. apply BE in H1. subst cs'. split; [reflexivity|].
    cbn [after]. rewrite nlen_app, SUB by lia. lia. }
  assert (IN : forall i j n x, sspec_insert None i x j n cs r cs' ->
    match (if nlen x <? j + n then None else if i =? nlen cs + 1 then Some (OResize (nlen cs + 1 + nlen (nsub j n x))) else if nlen cs <? i then None else Some (OInsertRange i (map (fun c : N => [c]) (nsub j n x)))) with
    | Some v => automatic v = true /\ nlen cs' + 1 = after v (nlen cs + 1) | None => nlen cs' = nlen cs end).
  { intros i j n x. unfold sspec_insert. destruct (N.eqb_spec i (nlen cs + 1)) as [->|NE].
    - intros H. apply AP in H. destruct (N.ltb_spec (nlen x) (j + n)); [exact H|]. rewrite SUB by lia. exact H.
    - destruct (N.ltb_spec (nlen cs) i); [intros [_ ->]; now destruct (nlen x <? j + n)|]. destruct (N.ltb_spec (nlen x) (j + n)); [now intros [_ ->]|].
      assert (LM : nlen (map (fun c : N => [c]) (nsub j n x)) = n) by (rewrite nlen_map; now apply SUB).
      destruct (N.eqb_spec n 0) as [->|N0].
      + intros [_ ->]. split; [reflexivity|]. cbn [after]. rewrite LM. cbn [N.ltb andb]. reflexivity.
      + intros H1. apply BE in H1. subst cs'. split; [reflexivity|]. cbn [after]. rewrite LM. replace (0 <? n) with true by lia. replace (i <=? nlen cs + 1) with true by lia. cbn [andb].
        rewrite !nlen_app, SUB, nlen_nfirst, nlen_nskip by lia. lia. }
  assert (DE : forall i n, sspec_delete i n cs r cs' -> i + n <= nlen cs -> nlen cs' + 1 = after (@ODeleteRange N i n) (nlen cs + 1)).
  { intros i n. unfold sspec_delete. cbn [after]. intros H LE. replace (nlen cs <? i + n) with false in H by lia. replace (i + n <=? nlen cs + 1) with true by lia.
    destruct (n =? 0) eqn:N0; [destruct H as [_ ->]; replace n with 0 by lia; reflexivity|]. destruct H as [_ ->]. replace (0 <? n) with true by lia. cbn [andb]. rewrite nlen_app, nlen_nfirst, nlen_nskip. lia. }
  assert (CASE : forall f i n, sspec_case f i n cs r cs' -> nlen cs' = nlen cs).
  { intros f i n. unfold sspec_case. destruct (N.ltb_spec (nlen cs) (i + n)); [now intros [_ ->]|]. intros [_ ->]. unfold map_range. rewrite !nlen_app, nlen_map, nlen_nfirst, nlen_nskip, SUB by lia. lia. }
  destruct o; try discriminate A; cbn [change_of sspec] in *; cbv zeta.
  - split; [reflexivity|]. intros _. apply BE in S. subst cs'. cbn [after]. rewrite nlen_app. lia.
  - specialize (AP _ _ _ S). destruct (nlen x <? j + n); tauto.
  - specialize (IN _ _ _ _ S). replace (nlen x <? 0 + nlen x) with false in IN by lia. replace (nsub 0 (nlen x) x) with x in IN by (unfold nsub; now rewrite nskip_0, nfirst_all by lia).
    destruct (i =? nlen cs + 1); [tauto|]. destruct (nlen cs <? i); tauto.
  - specialize (IN _ _ _ _ S). destruct (nlen x <? j + n); [tauto|]. destruct (i =? nlen cs + 1); [tauto|]. destruct (nlen cs <? i); tauto.
  - destruct (N.ltb_spec (nlen cs) (i + n)) as [LT|LE].
    + unfold sspec_delete in S. replace (nlen cs <? i + n) with true in S by lia. now destruct S as [_ ->].
    + split; [reflexivity|]. intros _. now apply DE.
  - destruct (N.ltb_spec (nlen cs) i) as [LT|LE]; [now destruct S as [_ ->]|]. split; [reflexivity|]. intros _. apply DE; [exact S|lia].
  - split; [reflexivity|]. congruence.
  - split; [reflexivity|]. intros _. cbn [after]. destruct (N.leb_spec n (nlen cs)).
    + destruct S as [_ ->]. rewrite nlen_nfirst. lia.
    + destruct S as (new & LN & S). apply BE in S. subst cs'. rewrite nlen_app. lia.
  - destruct (N.leb_spec (nlen cs) i); [now destruct S as [_ ->]|]. destruct S as [_ ->]. rewrite !nlen_app, nlen_nfirst, nlen_nskip. change (nlen [c]) with 1. lia.
  - destruct S as [_ ->]. apply nlen_map.
  - eapply CASE; eauto.
  - destruct S as [_ ->]. apply nlen_map.
  - eapply CASE; eauto.
Qed.

Lemma distance_succ a b : distance (a + 1) (b + 1) = distance a b.
Proof. unfold distance. lia. Qed.
Lemma sclear_len cs r cs' : sspec None SClear cs r cs' -> cs' = [].
Proof. now intros [_ ->]. Qed.
Lemma scost_step g t fill o a r b : 2 <= g -> t = 0 \/ g < t -> sautomatic o = true -> sums_ok o -> nlen (ss_chars a) <= ss_cap a ->
  scall g t (AOk fill) o a r b ->
  srequests g t o a * (ss_cap b + 1) + pot g (nlen (ss_chars b) + 1) (ss_cap b + 1) <=
    g * g * (clears [o] + distance (nlen (ss_chars a)) (nlen (ss_chars b))) + pot g (nlen (ss_chars a) + 1) (ss_cap a + 1).
Proof.
  intros G T A SO LE [K S]. unfold srequests. cbn [refusal] in S. assert (SS : sspec None o (ss_chars a) r (ss_chars b)) by (destruct (sasked g t o a); exact S). clear S.
  pose proof (change_len o _ _ _ SS A SO) as CL. unfold sasked in *.
  set (n := nlen (ss_chars a)) in *. set (n' := nlen (ss_chars b)) in *.
  pose proof (pot_move g (n + 1) (n' + 1) (ss_cap a + 1)) as PM. rewrite distance_succ in PM.
  destruct (change_of o n) as [v|] eqn:CO; [|rewrite K; lia]. destruct CL as [AU CL].
  pose proof (asked_cost (mkcfg false g t 1 None) v (n + 1) (ss_cap a + 1) G T AU ltac:(lia) ltac:(lia)) as AC.
  destruct (asked _ v (n + 1) (ss_cap a + 1)) as [k|] eqn:EK; [|rewrite K; lia]. cbn [c_growth] in AC. destruct AC as [K1 AC].
  replace (ss_cap b + 1) with k by lia. rewrite N.mul_1_l.
  assert (D : o = SClear \/ o <> SClear) by (destruct o; (left; reflexivity) || (right; discriminate)). destruct D as [->|NC].
  - apply sclear_len in SS. unfold n'. rewrite SS. change (nlen (@nil N)) with 0.
    injection CO as <-. assert (KE : k = 1).
    { revert EK. unfold asked. cbn [c_growth c_shrink]. replace (0 =? n + 1) with false by lia. replace (0 * g) with 0 by lia. change (1 <=? 0) with false. cbv zeta iota.
      destruct (_ || _); [|discriminate]. destruct (1 <? ss_cap a + 1); [|discriminate]. now injection 1 as <-. }
    rewrite KE. replace (pot g (0 + 1) 1) with (g * (g - 1)) by (unfold pot, distance; nia). replace (distance n 0) with n by (unfold distance; lia).
    change (clears [SClear]) with 1. enough (1 + g * (g - 1) <= g * g * (1 + n)) by lia. clear - G. nia.
  - rewrite (CL NC), <- (distance_succ n n'), (CL NC). lia.
Qed.

Lemma clears_cons o ops : clears (o :: ops) = clears [o] + clears ops.
Proof. destruct o; reflexivity. Qed.
Lemma got_capacity w s cs : srep w s [] cs [] -> gotten (sget_capacity s w) + 1 = v_cap (s_vec s) /\ nlen cs + 1 <= v_cap (s_vec s) < W64.
Proof.
  intros [[R B] _]. pose proof (r_cap _ _ _ _ _ R) as C. pose proof (r_le _ _ _ _ _ R) as L. pose proof (r_mem _ _ _ _ _ R) as M. rewrite (proj1 B) in M.
  assert (SZ : nlen (cells (cs ++ [0])) = nlen cs + 1) by now rewrite nlen_cells, nlen_app.
  unfold sget_capacity, bind, assert, ret. replace (1 <=? v_cap (s_vec s)) with true by lia. cbn [gotten].
  rewrite wsub_small by lia. lia.
Qed.
Lemma got_size w s cs : srep w s [] cs [] -> gotten (sget_size s w) = nlen cs.
Proof.
  intros R. pose proof (srep_size _ _ _ _ _ R) as E. pose proof (got_capacity _ _ _ R).
  unfold sget_size, bind, assert, ret. rewrite E. replace (1 <=? nlen cs + 1) with true by lia. cbn [gotten]. rewrite wsub_small by lia. lia.
Qed.

Theorem scost_run : forall ops w s cs,
  srep w s [] cs [] -> snofail w s -> v_alloc (s_vec s) = true -> Forall sums_ok ops -> forallb sautomatic ops = true ->
  (nlen cs + sdemands ops + 1) * 256 < W64 ->
  let g := v_growth (s_vec s) in let t := v_shrink (s_vec s) in 2 <= g -> t = 0 \/ g < t ->
  exists blocks changes s' w', run_scost s ops w = Ok (blocks, changes, s') w' /\
    blocks <= g * g * (clears ops + changes) + pot g (nlen cs + 1) (v_cap (s_vec s)).
Proof.
  induction ops as [|o ops IH]; intros w s cs R NF A SO AU F g t G T.
  - exists 0, 0, s, w. split; [reflexivity|]. lia.
  - inv SO. cbn [forallb] in AU. apply andb_prop in AU as [AU AU2]. cbn [sdemands] in F.
    destruct (run_sop_any w s cs R A o H1) as (r & w1 & s1 & cs1 & E & V & TK & O1 & _ & GU); [lia|]. cbv zeta in *. fold g t in V, TK, GU.
    destruct (NF A (tick w)) as [fill OF]. rewrite OF in *.
    assert (GD : sgood w s w1 s1 [] cs1 []) by (apply GU; intros [_ X]; now destruct X).
    destruct (got_capacity _ _ _ R) as [GC CB]. pose proof (sgood_rep _ _ _ _ _ _ _ _ R GD) as R1. destruct (got_capacity _ _ _ R1) as [GC1 CB1].
    pose proof (scall_len _ _ _ _ _ _ _ V) as L. cbn [ss_chars] in L.
    destruct (b_cfg _ _ _ _ _ _ _ (sg_bytes _ _ _ _ _ _ _ GD)) as (CA & CG & CS & CE & CD).
    assert (LC : nlen (ss_chars (mksst cs (v_cap (s_vec s) - 1))) <= ss_cap (mksst cs (v_cap (s_vec s) - 1))) by (cbn [ss_chars ss_cap]; lia).
    pose proof (scost_step g t fill o _ _ _ G T AU H1 LC V) as ST. cbn [ss_chars ss_cap] in ST.
    replace (v_cap (s_vec s) - 1 + 1) with (v_cap (s_vec s)) in ST by lia. replace (v_cap (s_vec s1) - 1 + 1) with (v_cap (s_vec s1)) in ST by lia.
    destruct (IH w1 s1 cs1) as (bl & ch & s2 & w2 & E2 & B); try congruence; auto.
    { unfold snofail, nofail in *. intros _ k. rewrite O1. now apply NF. } { lia. } { rewrite CG. exact G. }
    { rewrite CS, CG. exact T. }
    exists ((tick w1 - tick w) * v_cap (s_vec s1) + bl), (distance (nlen cs) (nlen cs1) + ch), s2, w2. split.
    { cbn [run_scost]. rewrite E, E2, GC1, (got_size _ _ _ R), (got_size _ _ _ R1). reflexivity. }
    rewrite CG in B. fold g in B. rewrite clears_cons. replace (tick w1 - tick w) with (srequests g t o (mksst cs (v_cap (s_vec s) - 1))) by lia.
    nia.
Qed.

Theorem samortised w s cs ops : sreached_own w s cs -> 2 <= v_growth (s_vec s) -> v_shrink (s_vec s) = 0 \/ v_growth (s_vec s) < v_shrink (s_vec s) ->
  Forall sums_ok ops -> forallb sautomatic ops = true -> sroom (nlen cs + sdemands ops) ->
  exists blocks changes s' w', run_scost s ops w = Ok (blocks, changes, s') w' /\
    blocks <= v_growth (s_vec s) * v_growth (s_vec s) * (clears ops + changes) +
              v_growth (s_vec s) * distance (v_growth (s_vec s) * (nlen cs + 1)) (gotten (sget_capacity s w) + 1).
Proof.
  intros H G T SO AU RM. apply sreached_own_rep in H as (R & NF & A). destruct (got_capacity _ _ _ R) as [-> _]. now apply (scost_run ops w s cs R NF A SO AU).
Qed.
Theorem samortised_new w cap ops : sinit_args_ok w cap STRING_DEFAULT_GROWTH STRING_DEFAULT_SHRINK ->
  Forall sums_ok ops -> forallb sautomatic ops = true -> sroom (sdemands ops) ->
  exists s w1 blocks changes s' w', sinit cap w = Ok (ST_SUCCESS, Some s) w1 /\
    run_scost s ops w1 = Ok (blocks, changes, s') w' /\ blocks <= 4 * (clears ops + changes) + 2 * (N.max 32 cap - 1).
Proof.
  intros I SO AU RM. pose proof I as (W & AO & GB & SB & CB). destruct (AO (tick w)) as [fill O].
  destruct (sinit_first_ok w cap _ _ fill (conj W (conj GB (conj SB CB))) O) as (w1 & s & E & R & A & CP & _ & _ & OR & TK & CG & CS & _).
  assert (NF : snofail w1 s) by (intros _ k; rewrite OR; apply AO).
  destruct (scost_run ops w1 s [] R NF A SO AU) as (bl & ch & s' & w' & E2 & B).
  { exact RM. } { rewrite CG. vm_compute. discriminate. } { rewrite CG, CS. now right. }
  exists s, w1, bl, ch, s', w'. split; [exact E|]. split; [exact E2|]. rewrite CG, CP in B. change STRING_DEFAULT_GROWTH with 2 in B. unfold pot in B.
  change (nlen (@nil N) + 1) with 1 in B. unfold distance in B. lia.
Qed.

(** ** Bitsets *)
Lemma bcost_step g t o (bs : list bool) cap : 2 <= g -> t = 0 \/ g < t -> bautomatic o = true -> legal_op None o bs ->
  let bytes n := (n + 7) / 8 in let bs' := snd (bitstep None o bs) in
  let cap' := match basked g t o bs cap with Some k => k | None => cap end in
  bytes (nlen bs) <= cap -> 1 <= cap ->
  brequests g t o bs cap * cap' + pot g (bytes (nlen bs')) cap' <= g * g * distance (nlen bs) (nlen bs') + pot g (bytes (nlen bs)) cap.
Proof.
  intros G T A LG bytes bs' cap' LE C1. unfold cap', brequests, basked in *. fold (bytes (nlen bs)) in *. clear cap'.
  set (n := nlen bs) in *. set (n' := nlen bs').
  assert (DB : distance (bytes n) (bytes n') <= distance n n') by (unfold bytes, distance; lia).
  assert (DB2 : g * g * distance (bytes n) (bytes n') <= g * g * distance n n') by nia. clear DB.
  pose proof (pot_move g (bytes n) (bytes n') cap) as PM.
  assert (CH : match bchange o n with Some v => automatic v = true /\ bytes n' = after v (bytes n) | None => True end).
  { destruct o; cbn [bchange]; try exact Logic.I; try discriminate A.
    - destruct (N.eqb_spec (n mod 8) 0) as [M|]; [|exact Logic.I]. split; [reflexivity|]. cbn [after]. unfold bytes, n', bs'. cbn [bitstep].
      cbn [holds_bits snd]. rewrite nlen_app. change (nlen [value]) with 1. fold n. lia.
    - destruct (N.eqb_spec (n mod 8) 1) as [M|]; [|exact Logic.I]. split; [reflexivity|]. cbn [after]. unfold bytes, n', bs'. cbn [bitstep].
      destruct (N.eqb_spec (nlen bs) 0); [contradiction|]. cbn [snd]. rewrite nlen_nfirst. fold n. replace (0 <? (n + 7) / 8) with true by lia. lia.
    - split; [reflexivity|]. reflexivity. }
  destruct (bchange o n) as [v|]; [|lia]. destruct CH as [AU CH].
  pose proof (asked_cost (mkcfg false g t 1 None) v (bytes n) cap G T AU LE C1) as AC. cbn [c_growth] in AC.
  destruct (asked _ v (bytes n) cap) as [k|]; [|lia]. destruct AC as [_ AC]. rewrite <- CH in AC. lia.
Qed.

Theorem bcost_run : forall ops w b l bs,
  xrep w b [] l [] bs -> nofail w (bs_bits b) -> v_alloc (bs_bits b) = true -> legal None ops bs -> forallb bautomatic ops = true ->
  bitroom (nlen bs + pushes ops) ->
  let g := v_growth (bs_bits b) in let t := v_shrink (bs_bits b) in 2 <= g -> t = 0 \/ g < t ->
  exists blocks changes b' w', run_bcost b ops w = Ok (blocks, changes, b') w' /\
    blocks <= g * g * changes + pot g ((nlen bs + 7) / 8) (v_cap (bs_bits b)).
Proof.
  induction ops as [|o ops IH]; intros w b l bs X NF A LG AU F g t G T.
  - exists 0, 0, b, w. split; [reflexivity|]. lia.
  - destruct LG as [LO LG]. rewrite pushes_cons in F. cbn [forallb] in AU. apply andb_prop in AU as [AU AU2].
    assert (RM0 : bitroom (nlen bs)) by (eapply bitroom_le; [|exact F]; lia).
    destruct (run_bitop_any w b l bs X A RM0 o LO) as (r & w1 & b1 & s1 & E & V & K & TK & O1 & _ & GU). cbv zeta in *. fold g t in V, TK, GU.
    destruct (NF A (tick w)) as [fill OF]. rewrite OF in *.
    destruct GU as (l1 & X1 & G1); [intros [_ Y]; now destruct Y|].
    assert (V2 : r = fst (bitstep None o bs) /\ s1 = whole (snd (bitstep None o bs)) (match basked g t o bs (v_cap (bs_bits b)) with Some k => k | None => v_cap (bs_bits b) end)).
    { unfold bcall in V. cbn [refusal] in V. destruct (basked g t o bs (v_cap (bs_bits b))); exact V. }
    destruct V2 as [_ ->]. cbn [whole bt_bits bt_cap] in *. clear V.
    pose proof (x_len _ _ _ _ _ _ X) as XL. pose proof (proj1 (x_rep _ _ _ _ _ _ X)) as R0.
    pose proof (r_le _ _ _ _ _ R0) as LE. rewrite nlen_cells in LE. pose proof (r_cap _ _ _ _ _ R0) as C1.
    pose proof (bcost_step g t o bs (v_cap (bs_bits b)) G T AU LO ltac:(cbv beta zeta; rewrite <- XL; exact LE) C1) as ST. cbv zeta in ST. rewrite <- K in ST.
    pose proof (step_len None o bs) as SL.
    destruct (b_cfg _ _ _ _ _ _ _ G1) as (CA & CG & CS & CE & CD).
    destruct (IH w1 b1 l1 (snd (bitstep None o bs))) as (bl & ch & b2 & w2 & E2 & B); try congruence; auto.
    { intros _ k. rewrite O1. now apply NF. } { eapply bitroom_le; [|exact F]. lia. } { rewrite CG. exact G. } { rewrite CS, CG. exact T. }
    exists ((tick w1 - tick w) * v_cap (bs_bits b1) + bl), (distance (nlen bs) (nlen (snd (bitstep None o bs))) + ch), b2, w2. split.
    { cbn [run_bcost]. rewrite E, E2. cbn [bs_get_size bs_get_capacity_bytes vget_capacity snd]. rewrite (x_size _ _ _ _ _ _ X), (x_size _ _ _ _ _ _ X1). reflexivity. }
    rewrite CG in B. fold g in B. replace (tick w1 - tick w) with (brequests g t o bs (v_cap (bs_bits b))) by lia.
    nia.
Qed.
Theorem bamortised w b bs ops : bitreached None w b bs -> 2 <= v_growth (bs_bits b) -> v_shrink (bs_bits b) = 0 \/ v_growth (bs_bits b) < v_shrink (bs_bits b) ->
  legal None ops bs -> forallb bautomatic ops = true -> bitroom (nlen bs + pushes ops) ->
  exists blocks changes b' w', run_bcost b ops w = Ok (blocks, changes, b') w' /\
    blocks <= v_growth (bs_bits b) * v_growth (bs_bits b) * changes +
              v_growth (bs_bits b) * distance (v_growth (bs_bits b) * snd (bs_get_size_bytes b)) (snd (bs_get_capacity_bytes b)).
Proof.
  intros H G T LG AU RM. apply bitreached_rep in H as (pre & l & post & X & NF & LM & _).
  assert (A : v_alloc (bs_bits b) = true) by (unfold bitlimit in LM; destruct (v_alloc (bs_bits b)); [reflexivity|discriminate]).
  pose proof (proj1 (x_rep _ _ _ _ _ _ X)) as R. pose proof (r_alloc _ _ _ _ _ R) as RA. rewrite A in RA. destruct RA as (-> & -> & _).
  pose proof (r_size _ _ _ _ _ R) as SZ. rewrite nlen_cells, (x_len _ _ _ _ _ _ X) in SZ.
  cbn [bs_get_size_bytes bs_get_capacity_bytes vget_size vget_capacity snd]. rewrite SZ. now apply (bcost_run ops w b l bs X NF A LG AU).
Qed.
