(** Careful programs survive an allocator that refuses requests: the steps. *)
From Verif Require Import Base NListFacts Status Mem MemFacts VectorModel VectorSpec VectorDriver VectorRep VectorProofs VectorProofs2
  VectorRefine VectorFail VectorMore StringModel StringSpec StringDriver StringBytes StringProofs StringFinal StringFinal2 BitsetModel BitsetSpec BitsetDriver
  BitsetBits BitsetProofs BitsetRun BitsetQuery BitsetFinal OracleProofs LogProofs RefuseSpec RefuseProofs StrRefuseSpec StrRefuseProofs StrRefuseProofs2
  BitRefuseSpec BitRefuseProofs BitRefuseProofs2 ProgSpec ProgProofs ExhaustSpec ExhaustProofs.
From Coq Require Import ZifyBool ZifyNat ZifyN.

(** ** A string added to another *)
Definition sask (s : str) (cs : list N) (o : sop) : option N :=
  sasked (v_growth (s_vec s)) (v_shrink (s_vec s)) o (mksst cs (v_cap (s_vec s) - 1)).
Section FromString.
  Variables (w : world) (s : str) (cs : list N).
  Notation v := (s_vec s).
  Hypothesis (SR : srep w s [] cs []) (A : v_alloc v = true).

  Lemma one_ok_srep : srep (with_oracle w (one_ok w)) s [] cs [].
  Proof. destruct SR as [[R B] FL]. split; [|exact FL]. split; [|exact B]. now apply one_ok_rep. Qed.
  Lemma sask_vec o : sask s cs o = match change_of o (nlen cs) with
    | Some x => asked (mkcfg false (v_growth v) (v_shrink v) 1 (@None (list N -> list N))) x (nlen cs + 1) (v_cap v)
    | None => None end.
  Proof.
    destruct SR as [[R _] _]. pose proof (r_cap _ _ _ _ _ R) as C1.
    unfold sask, sasked. cbn [ss_chars ss_cap]. now replace (v_cap v - 1 + 1) with (v_cap v) by lia.
  Qed.
  Lemma append_from_does q x : is_view w q x (blk v) -> (nlen cs + nlen x + 1) * 256 < W64 -> sdoes (sask s cs (SAppend x)) s (sappend s q).
  Proof.
    intros (p & D & Q & _) F. rewrite sask_vec. cbn [change_of]. pose proof SR as [[R _] _].
    destruct (growth_bounds _ _ _ _ _ R) as [GB SB]. pose proof (r_cap _ _ _ _ _ R) as C1.
    apply (append_does _ _ s cs A (srep_size _ _ _ _ _ SR) C1 eq_refl eq_refl GB SB q x (nlen x) p D eq_refl Q F).
  Qed.
  Lemma insert_from_does i q x : is_view w q x (blk v) -> (nlen cs + nlen x + 1) * 256 < W64 -> sdoes (sask s cs (SInsert i x)) s (sinsert s i q).
  Proof.
    intros (p & D & Q & _) F. rewrite sask_vec. pose proof SR as [[R _] _].
    destruct (growth_bounds _ _ _ _ _ R) as [GB SB]. pose proof (r_cap _ _ _ _ _ R) as C1.
    apply (sinsert_does _ _ s cs A (srep_size _ _ _ _ _ SR) C1 eq_refl eq_refl GB SB q x i p D Q F).
  Qed.
  Lemma from_granted (m : Mem.M N (status * str)) (S : status -> list N -> Prop) (a : option N) :
    (forall w', srep w' s [] cs [] -> sgrants w' s -> heap w' = heap w ->
       exists r w2 s' cs', m w' = Ok (r, s') w2 /\ sgood w' s w2 s' [] cs' [] /\ S r cs') ->
    sdoes a s m -> local m m -> (a = None \/ exists fill, orc w (tick w) = AOk fill) ->
    exists r w2 s' cs', m w = Ok (r, s') w2 /\ sgood w s w2 s' [] cs' [] /\ S r cs' /\ tick w2 = tick w + match a with None => 0 | Some _ => 1 end.
  Proof.
    intros OK AS LO AK. destruct (orc w (tick w)) as [e|fill] eqn:O.
    2:{ destruct (OK w SR) as (r & w2 & s' & cs' & E & G & H); [intros _; eauto|reflexivity|]. destruct (AS _ _ _ _ E) as [T _]. exists r, w2, s', cs'. auto. }
    destruct AK as [->|[? AK]]; [|discriminate AK].
    destruct (OK (with_oracle w (one_ok w)) one_ok_srep (one_ok_grants w v) eq_refl) as (r & w2 & s' & cs' & E & G & H).
    destruct (AS _ _ _ _ E) as [T _]. cbn [tick with_oracle] in T.
    destruct (LO _ _ _ E) as (O2 & _ & L). specialize (L (orc w)). rewrite with_oracle_back in L.
    exists r, (with_oracle w2 (orc w)), s', cs'. split; [apply L; intros; cbn [tick with_oracle] in *; lia|]. split; [eapply sgood_reorc; eauto|].
    split; [exact H|exact T].
  Qed.
  Lemma view_heap w' q x b : heap w' = heap w -> is_view w q x b -> is_view w' q x b.
  Proof. intros H (p & D & Q & (a & c & HH & L) & NB). exists p. split; [exact D|]. split; [exact Q|]. split; [|exact NB]. exists a, c. now rewrite H. Qed.
  Lemma append_from_granted q x : is_view w q x (blk v) -> (nlen cs + nlen x + 1) * 256 < W64 ->
    (sask s cs (SAppend x) = None \/ exists fill, orc w (tick w) = AOk fill) ->
    exists r w2 s' cs', sappend s q w = Ok (r, s') w2 /\ sgood w s w2 s' [] cs' [] /\ sspec None (SAppend x) cs r cs' /\
      tick w2 = tick w + match sask s cs (SAppend x) with None => 0 | Some _ => 1 end.
  Proof.
    intros Q F AK. apply from_granted; [|now apply append_from_does|apply lo_sappend|exact AK]. intros w' R' G H.
    destruct (append_ok w' s [] cs [] q x R' G F (view_heap _ _ _ _ H Q)) as (r & w2 & s' & cs' & E & SG & S).
    rewrite (limit_own _ A) in S. exists r, w2, s', cs'. auto.
  Qed.
  Lemma insert_from_granted i q x : is_view w q x (blk v) -> (nlen cs + nlen x + 1) * 256 < W64 ->
    (sask s cs (SInsert i x) = None \/ exists fill, orc w (tick w) = AOk fill) ->
    exists r w2 s' cs', sinsert s i q w = Ok (r, s') w2 /\ sgood w s w2 s' [] cs' [] /\ sspec None (SInsert i x) cs r cs' /\
      tick w2 = tick w + match sask s cs (SInsert i x) with None => 0 | Some _ => 1 end.
  Proof.
    intros Q F AK. apply from_granted; [|now apply insert_from_does|apply lo_sinsert|exact AK]. intros w' R' G H.
    destruct (insert_ok w' s [] cs [] i q x R' G F (view_heap _ _ _ _ H Q)) as (r & w2 & s' & cs' & E & SG & S).
    rewrite (limit_own _ A) in S. exists r, w2, s', cs'. auto.
  Qed.
  Variable (e : N).
  Hypothesis O : orc w (tick w) = AFail e.
  Lemma append_from_refused q x k : is_view w q x (blk v) -> (nlen cs + nlen x + 1) * 256 < W64 -> sask s cs (SAppend x) = Some k ->
    sappend s q w = Ok (err_status e, with_vec s (set_cap v k)) (ticked w).
  Proof.
    intros (p & D & Q & _) F AK. rewrite sask_vec in AK. apply (sappend_refused w s cs e SR A w q x); auto; apply SR.
  Qed.
  Lemma insert_from_refused i q x k : is_view w q x (blk v) -> (nlen cs + nlen x + 1) * 256 < W64 -> sask s cs (SInsert i x) = Some k ->
    sinsert s i q w = Ok (err_status e, with_vec s (set_cap v k)) (ticked w).
  Proof.
    intros (p & D & Q & _) F AK. rewrite sask_vec in AK. cbn [change_of] in AK. pose proof (srep_size _ _ _ _ _ SR) as SZ.
    unfold sinsert. rewrite Q, SZ, D. destruct (N.eqb_spec (nlen x + 1) 0); [lia|]. destruct (i =? nlen cs + 1).
    - apply (sappend_refused w s cs e SR A w q x); auto; apply SR.
    - destruct (N.ltb_spec (nlen cs) i); [discriminate AK|]. destruct (N.leb_spec (nlen cs + 1) i); [lia|].
      rewrite wsub_small by lia. replace (nlen x + 1 - 1) with (nlen x) by lia. cbv zeta. apply refused_fail.
      eapply sinserted_refused; eauto. apply SR.
  Qed.
End FromString.

(** ** Creations that are refused *)
Lemma vinit_refused (w : world) e cap d g s st : orc w (tick w) = AFail st -> 1 <= e -> 1 <= g ->
  exists v, vinit_ex e cap d true g s w = Ok (err_status st, Some v) (ticked w).
Proof.
  intros O E G. unfold vinit_ex. destruct (N.eqb_spec e 0); [lia|]. destruct (N.ltb_spec g 1); [lia|]. cbn [negb orb].
  unfold bind, alloc. cbn [v_esz v_cap]. destruct (N.eqb_spec e 0); [lia|]. unfold VECTOR_MIN_CAPACITY.
  destruct (N.eqb_spec (N.max 1 cap) 0); [lia|]. cbn [orb andb]. rewrite O. eexists. reflexivity.
Qed.
Lemma sinit_refused w cap g s st : orc w (tick w) = AFail st -> 1 <= g ->
  exists x, sinit_ex cap true g s w = Ok (err_status st, Some x) (ticked w).
Proof.
  intros O G. unfold sinit_ex. cbv zeta. edestruct vinit_refused as [v E]; [exact O|apply N.le_refl|exact G|]. rewrite (bind_ok _ _ _ _ _ E).
  rewrite st_success_err. cbn [negb]. eexists. reflexivity.
Qed.
Lemma bitinit_refused w n g s st : wfw w -> orc w (tick w) = AFail st -> 1 <= g ->
  exists b w', with_zero (fun z => bs_init_ex z n true g s) w = Ok (err_status st, Some b) w' /\ wfw w' /\ nextb w <= nextb w' /\
    orc w' = orc w /\ tick w' = tick w + 1 /\ dlog w' = dlog w /\ forall k, heap w' k = heap w k.
Proof.
  intros W O G. unfold with_zero, with_arg.
  destruct (vinit_refused (mkbuild (hset (heap w) (nextb w) (Some [0])) (nextb w + 1) (orc w) (tick w) (dlog w) (checked w))
    1 (bits_to_bytes n) None g s st O (N.le_refl 1) G) as [v E].
  unfold bs_init_ex. cbv zeta. rewrite (bind_ok _ _ _ _ _ E). rewrite st_success_err. cbn [negb option_map]. unfold ret.
  eexists _, _. split; [reflexivity|]. cbn [nextb orc tick dlog ticked heap].
  assert (H : forall k, hset (hset (heap w) (nextb w) (Some [0])) (nextb w) None k = heap w k).
  { intros k. unfold hset. destruct (N.eqb_spec k (nextb w)) as [->|]; [|reflexivity]. symmetry. apply W. lia. }
  split; [|split; [cbn; lia|]; split; [reflexivity|]; split; [reflexivity|]; split; [reflexivity|exact H]].
  intros k L. cbn in *. rewrite H. apply W. lia.
Qed.

(** ** One step *)
Lemma frame_cap (w w' : world) v v' c : frame w w' v (set_cap v' c) -> frame w w' v v'.
Proof. intros []. split; auto. Qed.

Lemma try_ok os p w r os' w' : run_step os p w = Ok (r, os') w' ->
  try_step os p w = Ok (r, match target p with None => if st_success r then os' else os ++ [None] | Some _ => os' end) w'.
Proof. intros E. unfold try_step. now rewrite (bind_ok _ _ _ _ _ E). Qed.

Lemma spoiled_good w v w' x' xs' : v_alloc v = true -> good w v w' (set_cap (core x') (v_cap v)) [] xs' [] ->
  1 <= v_cap (core x') -> 1 <= tick w' -> match x' with OS s => s_flags s = 0 | _ => True end ->
  frame w w' v (core x') /\ spoiled w' x' (destroyed (cfg_of v) xs').
Proof.
  intros A [GR GC GF] C1 T FL. split; [eapply frame_cap; exact GF|]. exists (v_cap v), xs'. split; [exact GR|]. split; [exact C1|].
  pose proof (cfg_of_same _ _ GC) as CF. destruct GC as (GA & _). cbn [set_cap v_alloc] in GA. split; [congruence|]. split; [exact T|].
  split; [|exact FL]. change (cfg_of (set_cap (core x') (v_cap v))) with (cfg_of (core x')) in CF. now rewrite CF.
Qed.

Lemma filter_in (sp : spoils) i j words : In (j, words) (filter (fun x => negb (fst x =? i)) sp) <-> In (j, words) sp /\ j <> i.
Proof. rewrite filter_In. cbn [fst]. destruct (N.eqb_spec j i); cbn [negb]; intuition congruence. Qed.
