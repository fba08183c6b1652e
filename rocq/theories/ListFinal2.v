(** Proofs about the list: the closed statements. *)
From Coq Require Import Permutation.
From Verif Require Import Base NListFacts Status Mem MemFacts VectorModel VectorDriver ListModel ListSpec ListDriver ListHeap ListRep ListProofs ListProofs2 ListFinal.
From Coq Require Import ZifyBool ZifyNat ZifyN.
Implicit Types (w : world) (p q : ptr).

Lemma NoDup_app_remove_r {A} (a b : list A) : NoDup (a ++ b) -> NoDup a.
Proof.
  induction a as [|x a IH]; intros H; [constructor|]. cbn in H. apply NoDup_cons_iff in H as [NI H]. constructor; [|now apply IH].
  intros I. apply NI. apply in_or_app. now left.
Qed.
Lemma init_rep w e d : linit_args_ok w e d ->
  exists l, linit_ex e d true w = Ok (ST_SUCCESS, Some l) w /\ lrep e d Grow (heap w) w l [] [] [].
Proof.
  intros (WO & E1 & NW & DO). unfold linit_ex. replace ((e =? 0) || negb true) with false by lia.
  eexists. split; [reflexivity|]. split; [exact WO|]. split; [split; [reflexivity|]; split; [reflexivity|]; split; [exact DO|]; split; [exact E1|]; split; [reflexivity|exact NW]|].
  split; [reflexivity|]. split; [reflexivity|]. split; [reflexivity|]. split; [reflexivity|]. split; [exact I|].
  split; [reflexivity|]. split; [reflexivity|]. split; [constructor|]. split; [intros p []|]. auto.
Qed.
Lemma init_buffer_rep w e d cap b pre buf post : lbuffer_args_ok w e d cap b pre buf post ->
  exists l, linit_custom e d (Some (mkptr b (nlen pre))) cap w = Ok (ST_SUCCESS, Some l) w /\
    lrep e d (Fixed b pre post cap) (heap w) w l [] [] [].
Proof.
  intros (WO & E1 & DO & HB & LB & C1 & CW). unfold linit_custom. cbn [nonnull negb]. replace ((e =? 0) || false || (cap =? 0)) with false by lia.
  eexists. split; [reflexivity|]. split; [exact WO|].
  split; [split; [reflexivity|]; split; [reflexivity|]; split; [exact DO|]; split; [exact E1|]; split; [reflexivity|]; split; [reflexivity|]; split; [reflexivity|exact CW]|].
  split; [reflexivity|]. split; [reflexivity|]. split; [reflexivity|]. split; [reflexivity|]. split; [exact I|].
  split; [reflexivity|]. split; [now exists buf|]. split; [exists 0%nat; split; [lia|constructor]|]. split; [exact I|]. auto.
Qed.

(** ** Histories *)
Lemma growable_history w0 e d : linit_args_ok w0 e d ->
  exists l0, linit_ex e d true w0 = Ok (ST_SUCCESS, Some l0) w0 /\ lshows w0 l0 [] [] /\
    forall ops, Forall (larg_ok e) ops -> ldemands ops < W64 ->
    exists rs l w ps xs gone new, run_lops l0 ops w0 = Ok (rs, l) w /\ lspecs e None (fails w0) ops [] rs xs gone new /\
      lshows w l ps xs /\ dlog w = dlog w0 ++ seen d gone /\ (forall k, heap w0 k <> None -> heap w k = heap w0 k).
Proof.
  intros A. destruct (init_rep w0 e d A) as (l0 & E & REP). exists l0. split; [exact E|]. split; [eapply lrep_shows; eauto|].
  intros ops AO DW. destruct (run_lops_ok e d Grow (heap w0) ops w0 l0 [] [] [] REP AO) as (w & l & rs & ps & us & xs & gone & new & R & SP & REP' & S); [exact DW|].
  exists rs, l, w, ps, xs, gone, new. split; [exact R|]. split; [exact SP|]. split; [eapply lrep_shows; eauto|]. split; [apply S|].
  intros k NK. destruct REP' as (_ & _ & _ & _ & _ & _ & _ & P). destruct P as (_ & _ & _ & D & P). apply P.
  intros I. apply in_map_iff in I as (q & EQ & I). destruct (D q I) as (_ & X & _). congruence.
Qed.
(** A list in a fixed buffer does not depend on the allocator. *)
Lemma lspecs_fixed e k (f : Prop) (ops : list op) xs rs xs' gone new : lspecs e (Some k) f ops xs rs xs' gone new ->
  lspecs e (Some k) False ops xs rs xs' gone new.
Proof.
  induction 1 as [|o ops xs r xs1 g1 n1 rs xs2 g2 n2 SP _ IH]; [constructor|]. econstructor; [|exact IH]. clear - SP.
  assert (RF : forall n r, refusal (Some k) f n r -> refusal (Some k) False n r).
  { intros n r0. unfold refusal. destruct (full _ _); [auto|]. intros (X & _). discriminate. }
  assert (AD : forall (xs ys : list (list cell)) x r xs' new, added (Some k) f xs ys x r xs' new -> added (Some k) False xs ys x r xs' new).
  { intros. unfold added in *. destruct H as [H|(H & H')]; [left; exact H|right; split; [now apply RF|exact H']]. }
  destruct o; cbn [lspec] in *; auto.
  - destruct SP. auto.
  - destruct SP. auto.
  - destruct SP as (? & x & ? & ?). eauto.
  - destruct SP as (? & x & ? & ?). eauto.
  - destruct (n =? 0); [auto|]. destruct (n <=? nlen xs); [auto|]. destruct SP as (? & ? & ? & [X|(X & Y)]); eauto 10.
Qed.
Lemma fixed_history w0 e d cap b pre buf post : lbuffer_args_ok w0 e d cap b pre buf post ->
  exists l0, linit_custom e d (Some (mkptr b (nlen pre))) cap w0 = Ok (ST_SUCCESS, Some l0) w0 /\ lshows w0 l0 [] [] /\
    forall ops, Forall (larg_ok e) ops -> ldemands ops < W64 ->
    exists rs l w ps xs gone new buf', run_lops l0 ops w0 = Ok (rs, l) w /\
      lspecs e (Some (nodes_in cap e)) False ops [] rs xs gone new /\
      lshows w l ps xs /\ dlog w = dlog w0 ++ seen d gone /\ tick w = tick w0 /\
      heap w b = Some (pre ++ buf' ++ post) /\ nlen buf' = cap /\ (forall k, k <> b -> heap w k = heap w0 k).
Proof.
  intros A. destruct (init_buffer_rep _ _ _ _ _ _ _ _ A) as (l0 & E & REP). exists l0. split; [exact E|]. split; [eapply lrep_shows; eauto|].
  intros ops AO DW. destruct (run_lops_ok e d _ (heap w0) ops w0 l0 [] [] [] REP AO) as (w & l & rs & ps & us & xs & gone & new & R & SP & REP' & S); [exact DW|].
  pose proof REP' as (_ & _ & _ & _ & _ & _ & _ & P). destruct P as (_ & (buf' & B1 & B2) & _ & _ & P).
  exists rs, l, w, ps, xs, gone, new, buf'. split; [exact R|]. split; [exact (lspecs_fixed _ _ _ _ _ _ _ _ _ SP)|].
  split; [eapply lrep_shows; eauto|]. split; [apply S|]. split; [apply S; discriminate|]. auto.
Qed.

Lemma reached_rep limit w l xs : lreached limit w l xs -> exists e d m base ps us, limit = limit_of e m /\ lrep e d m base w l ps xs us.
Proof.
  intros (w0 & e & d & l0 & w1 & ops & rs & ps & INIT & AO & DW & R & SH).
  assert (X : exists m base, limit = limit_of e m /\ lrep e d m base w1 l0 [] [] []).
  { destruct limit as [k|].
    - destruct INIT as (cap & b & pre & buf & post & -> & A & E). destruct (init_buffer_rep _ _ _ _ _ _ _ _ A) as (l1 & E1 & REP).
      rewrite E in E1. injection E1 as -> ->. exists (Fixed b pre post cap), (heap w0). now split.
    - destruct INIT as (A & E). destruct (init_rep _ _ _ A) as (l1 & E1 & REP).
      rewrite E in E1. injection E1 as -> ->. exists Grow, (heap w0). now split. }
  destruct X as (m & base & -> & REP).
  destruct (run_lops_ok e d m base ops w1 l0 [] [] [] REP AO) as (w' & l' & rs' & ps' & us & xs' & gone & new & R' & SP & REP' & S); [exact DW|].
  rewrite R in R'. injection R' as _ -> ->. destruct (shows_unique _ _ _ _ _ _ SH (lrep_shows _ _ _ _ _ _ _ _ _ REP')) as [-> ->].
  exists e, d, m, base, ps', us. now split.
Qed.
Lemma reached_step limit w l ps xs o : lreached limit w l xs -> lshows w l ps xs -> larg_ok (l_esz l) o -> nlen xs + ldemand o < W64 ->
  exists r l' w' ps' xs' gone new, run_lop l o w = Ok (r, l') w' /\ lspec (l_esz l) limit (fails w) o xs r xs' gone new /\
    lshows w' l' ps' xs' /\ lnodes o r ps ps' /\ NoDup ps'.
Proof.
  intros RE SH AO DW. destruct (reached_rep _ _ _ _ RE) as (e & d & m & base & ps0 & us & -> & REP).
  destruct (shows_unique _ _ _ _ _ _ SH (lrep_shows _ _ _ _ _ _ _ _ _ REP)) as [-> _].
  assert (EE : l_esz l = e) by apply REP. rewrite EE in *.
  destruct (run_lop_ok e d m base w l ps0 xs us o REP AO DW) as (w' & l' & r & ps' & us' & xs' & gone & new & R & SP & REP' & S & ND).
  exists r, l', w', ps', xs', gone, new. split; [exact R|]. split; [exact SP|]. split; [eapply lrep_shows; eauto|]. split; [exact ND|].
  destruct REP' as (_ & _ & _ & _ & _ & _ & _ & P). apply pool_nodup in P. now apply NoDup_app_remove_r in P.
Qed.

(** ** Failed calls *)
Lemma lspec_failed (C : Type) (e : N) limit (f : Prop) (o : lop C) xs r xs' gone new : lspec e limit f o xs r xs' gone new -> st_success r = false ->
  (forall n init, o <> LResize n init) -> xs' = xs /\ gone = [] /\ new = [].
Proof.
  intros SP ST NR. destruct o as [x|x|g s|g s| | | |n init|i x]; cbn [lspec] in SP.
  - destruct SP as ([(_ & -> & _)|(_ & -> & ->)] & ->); [discriminate|auto].
  - destruct SP as ([(_ & -> & _)|(_ & -> & ->)] & ->); [discriminate|auto].
  - destruct SP as (-> & x & _ & [(_ & -> & _)|(_ & -> & ->)]); [discriminate|auto].
  - destruct SP as (-> & x & _ & [(_ & -> & _)|(_ & -> & ->)]); [discriminate|auto].
  - destruct SP as (-> & [(-> & _ & -> & ->)|(x & _ & -> & _)]); [auto|discriminate].
  - destruct SP as (-> & [(-> & _ & -> & ->)|(x & _ & -> & _)]); [auto|discriminate].
  - destruct SP as (-> & _). discriminate.
  - now specialize (NR n init).
  - destruct (nnth i xs); destruct SP as (-> & SP); [discriminate|]. destruct SP as (-> & -> & ->). auto.
Qed.
Lemma failed_unchanged limit w l ps xs o r l' w' : lreached limit w l xs -> lshows w l ps xs -> larg_ok (l_esz l) o ->
  nlen xs + ldemand o < W64 -> (forall n init, o <> LResize n init) -> run_lop l o w = Ok (r, l') w' -> st_success r = false ->
  lshows w' l' ps xs.
Proof.
  intros RE SH AO DW NR R ST. destruct (reached_step _ _ _ _ _ _ RE SH AO DW) as (r1 & l1 & w1 & ps' & xs' & gone & new & R1 & SP & SH' & ND & _).
  rewrite R in R1. injection R1 as <- <- <-. destruct (lspec_failed _ _ _ _ _ _ _ _ _ _ SP ST NR) as (-> & _).
  destruct o; cbn [lnodes] in ND; rewrite ?ST in ND; try now subst ps'.
  - cbn [lspec] in SP. destruct SP as (-> & _). discriminate.
  - now specialize (NR n init).
Qed.

(** ** Fixed buffers *)
Lemma fixed_slots w0 e d cap b pre buf post l0 w1 ops rs l w ps xs : lbuffer_args_ok w0 e d cap b pre buf post ->
  linit_custom e d (Some (mkptr b (nlen pre))) cap w0 = Ok (ST_SUCCESS, Some l0) w1 ->
  Forall (larg_ok e) ops -> ldemands ops < W64 -> run_lops l0 ops w1 = Ok (rs, l) w -> lshows w l ps xs ->
  NoDup ps /\
  Forall (fun p => exists i, i < nodes_in cap e /\ p = slot b (nlen pre) e i /\ po p + (NODE_SIZE + e) <= nlen pre + cap) ps /\
  nlen xs <= nodes_in cap e /\
  forall x, nlen x = e -> exists r l' w', run_lop l (LPushBack x) w = Ok (r, l') w' /\
    ((nlen xs < nodes_in cap e /\ r = ST_SUCCESS /\ exists p, lshows w' l' (ps ++ [p]) (xs ++ [x])) \/
     (nlen xs = nodes_in cap e /\ r = ST_INSUFFICIENT_BUFFER_SIZE /\ lshows w' l' ps xs)).
Proof.
  intros A E AO DW R SH. destruct (init_buffer_rep _ _ _ _ _ _ _ _ A) as (l1 & E1 & REP). rewrite E in E1. injection E1 as -> ->.
  destruct (run_lops_ok e d _ _ ops w0 l1 [] [] [] REP AO) as (w' & l' & rs' & ps' & us & xs' & gone & new & R' & SP & REP' & S); [exact DW|].
  rewrite R in R'. injection R' as _ -> ->. destruct (shows_unique _ _ _ _ _ _ SH (lrep_shows _ _ _ _ _ _ _ _ _ REP')) as [-> ->].
  pose proof REP' as (_ & _ & _ & _ & _ & _ & CH & P). pose proof (pool_nodup _ _ _ _ _ _ _ P) as ND. destruct P as (_ & _ & (k & K & C) & _ & _).
  assert (KN : N.of_nat k <= nodes_in cap e). { unfold nodes_in, NODE_SIZE. apply N.div_le_lower_bound; lia. }
  pose proof (Permutation_length C) as LC. rewrite app_length, slots_len in LC. pose proof (chain_length _ _ _ _ _ _ CH) as LP.
  assert (LX : nlen xs' <= nodes_in cap e) by (unfold nlen; lia).
  split; [now apply NoDup_app_remove_r in ND|]. split.
  { apply Forall_forall. intros p I. assert (IS : In p (slots e b pre k)). { eapply Permutation_in; [exact C|]. apply in_or_app. now left. }
    destruct (slot_inside _ _ _ _ _ _ IS K) as (_ & _ & S3). unfold slots in IS. apply in_map_iff in IS as (i & <- & IS). apply in_seq in IS.
    exists (N.of_nat i). split; [lia|]. split; [reflexivity|exact S3]. }
  split; [exact LX|]. intros x LE. destruct A as (_ & E1 & _ & _ & _ & _ & CW).
  assert (NC : nodes_in cap e <= cap). { unfold nodes_in, NODE_SIZE. apply N.div_le_upper_bound; nia. }
  assert (SW : nlen xs' + ldemand (LPushBack x) < W64) by (cbn [ldemand]; lia).
  destruct (run_lop_ok e d _ _ w' l' ps' xs' us (LPushBack x) REP' LE SW) as (w2 & l2 & r & ps2 & us2 & xs2 & gone2 & new2 & R2 & SP2 & REP2 & S2 & ND2).
  exists r, l2, w2. split; [exact R2|]. cbn [lspec lnodes limit_of] in SP2, ND2. pose proof (lrep_shows _ _ _ _ _ _ _ _ _ REP2) as SH2.
  destruct SP2 as ([(FU & -> & -> & _)|(RF & -> & _)] & _).
  - left. cbn in ND2. destruct ND2 as (p & ->). cbn in FU. split; [lia|]. split; [reflexivity|now exists p].
  - right. unfold refusal in RF. destruct (full (Some (nodes_in cap e)) (nlen xs')) eqn:FU; [|destruct RF as (X & _); discriminate].
    subst r. cbn in ND2, FU. subst ps2. split; [lia|]. now split.
Qed.

(** ** Destruction *)
Lemma growable_destroyed w0 e d l0 w1 ops : linit_args_ok w0 e d -> linit_ex e d true w0 = Ok (ST_SUCCESS, Some l0) w1 ->
  Forall (larg_ok e) ops -> ldemands ops < W64 ->
  exists rs l w xs gone new w', run_lops l0 ops w1 = Ok (rs, l) w /\ lspecs e None (fails w0) ops [] rs xs gone new /\
    Permutation new (gone ++ xs) /\ ldestroy l w = Ok (ST_SUCCESS, l) w' /\
    dlog w' = dlog w0 ++ seen d (gone ++ xs) /\ forall k, heap w' k = heap w0 k.
Proof.
  intros A E AO DW. destruct (init_rep w0 e d A) as (l1 & E1 & REP). rewrite E in E1. injection E1 as -> ->.
  destruct (run_lops_ok e d Grow (heap w0) ops w0 l1 [] [] [] REP AO) as (w & l & rs & ps & us & xs & gone & new & R & SP & REP' & S); [exact DW|].
  destruct (ldestroy_ok _ _ _ _ _ _ _ _ _ REP') as (w' & D & WO & P & S').
  exists rs, l, w, xs, gone, new, w'. split; [exact R|]. split; [exact SP|]. split; [exact (lspecs_balance e Grow _ _ _ _ _ _ _ SP)|].
  split; [exact D|]. split.
  { pose proof (step_trans _ _ _ _ _ _ S S') as (_ & X & _). now rewrite seen_app. }
  destruct P as (_ & _ & _ & _ & P). intros k. apply P. intros [].
Qed.
Lemma fixed_destroyed w0 e d cap b pre buf post l0 w1 ops : lbuffer_args_ok w0 e d cap b pre buf post ->
  linit_custom e d (Some (mkptr b (nlen pre))) cap w0 = Ok (ST_SUCCESS, Some l0) w1 ->
  Forall (larg_ok e) ops -> ldemands ops < W64 ->
  exists rs l w xs gone new w' buf', run_lops l0 ops w1 = Ok (rs, l) w /\ lspecs e (Some (nodes_in cap e)) False ops [] rs xs gone new /\
    Permutation new (gone ++ xs) /\ ldestroy l w = Ok (ST_SUCCESS, l) w' /\
    dlog w' = dlog w0 ++ seen d (gone ++ xs) /\ heap w' b = Some (pre ++ buf' ++ post) /\ nlen buf' = cap /\
    forall k, k <> b -> heap w' k = heap w0 k.
Proof.
  intros A E AO DW. destruct (init_buffer_rep _ _ _ _ _ _ _ _ A) as (l1 & E1 & REP). rewrite E in E1. injection E1 as -> ->.
  destruct (run_lops_ok e d _ (heap w0) ops w0 l1 [] [] [] REP AO) as (w & l & rs & ps & us & xs & gone & new & R & SP & REP' & S); [exact DW|].
  destruct (ldestroy_ok _ _ _ _ _ _ _ _ _ REP') as (w' & D & WO & P & S').
  destruct P as (_ & (buf' & B1 & B2) & _ & _ & P).
  exists rs, l, w, xs, gone, new, w', buf'. split; [exact R|]. split; [exact (lspecs_fixed _ _ _ _ _ _ _ _ _ SP)|].
  split; [exact (lspecs_balance e (Fixed b pre post cap) _ _ _ _ _ _ _ SP)|].
  split; [exact D|]. split.
  { pose proof (step_trans _ _ _ _ _ _ S S') as (_ & X & _). now rewrite seen_app. }
  auto.
Qed.

(** ** Remove *)
Lemma remove_keeps limit w l ps xs p q : lreached limit w l xs -> lshows w l ps xs -> In p ps ->
  (lremove l (Some p) w = Ok (ST_SUCCESS, l) w /\ lshows w l ps xs) /\
  (lremove_range l (Some p) (Some q) w = Ok (ST_SUCCESS, l) w /\ lshows w l ps xs).
Proof. intros _ SH _. now repeat split; try apply SH. Qed.

(** ** Element sizes for which the size of a node wraps *)
Lemma huge_element_faults (w : world) e dtor fill ctor :
  W64 - 16 <= e -> e < W64 -> orc w (tick w) = AOk fill ->
  exists l f, linit e dtor w = Ok (ST_SUCCESS, Some l) w /\ lemplace_back l ctor w = Fault f.
Proof.
  intros L U O. change W64 with 18446744073709551616 in L, U.
  exists (mklist true 0 e dtor None None None 0 None).
  assert (NS : wadd NODE_SIZE e < 16).
  { unfold wadd, NODE_SIZE. change W64 with 18446744073709551616.
    replace (16 + e) with (e - 18446744073709551600 + 1 * 18446744073709551616) by lia.
    rewrite N.mod_add by discriminate. rewrite N.mod_small; lia. }
  assert (I : linit e dtor w = Ok (ST_SUCCESS, Some (mklist true 0 e dtor None None None 0 None)) w).
  { unfold linit, linit_ex. destruct (N.eqb_spec e 0) as [->|_]; [lia|reflexivity]. }
  unfold lemplace_back, lalloc_node, lnode_size. cbn [l_alloc l_esz].
  set (s := wadd NODE_SIZE e) in *. clearbody s.
  assert (AL : alloc s 1 w = if (s =? 0) && checked w then Fault AssertFailed else
    Ok (ST_SUCCESS, Some (mkptr (nextb w) 0))
       (mkbuild (hset (heap w) (nextb w) (Some (fresh fill (wmul s 1)))) (nextb w + 1) (orc w) (tick w + 1) (dlog w) (checked w))).
  { unfold alloc. rewrite O. change (1 =? 0) with false. now rewrite orb_false_r. }
  destruct ((s =? 0) && checked w).
  { exists AssertFailed. split; [exact I|]. unfold bind. now rewrite AL. }
  exists OutOfBounds. split; [exact I|].
  assert (WM : wmul s 1 = s). { unfold wmul. rewrite N.mul_1_r. apply N.mod_small. change W64 with 18446744073709551616. lia. }
  rewrite WM in AL. unfold bind. rewrite AL. unfold ret, set_prev, set_next, store_ptr, mwrite.
  change (negb (st_success ST_SUCCESS)) with false. cbv iota beta. cbn [l_tail heap pb po padd].
  unfold hset at 1. rewrite N.eqb_refl. cbv iota beta. cbn [po].
  change (nlen (enc None)) with 8. rewrite nlen_fresh.
  destruct (N.leb_spec (0 + 8) s) as [GE|LT]; [|reflexivity].
  unfold set_heap. cbn [heap]. unfold hset at 1. rewrite N.eqb_refl. cbv iota beta.
  rewrite nlen_nsplice by (change (nlen (enc None)) with 8; rewrite nlen_fresh; lia). rewrite nlen_fresh.
  destruct (N.leb_spec (0 + 8 + 8) s); [lia|reflexivity].
Qed.
