(** Undoing calls on lists. *)
From Verif Require Import Base NListFacts Status Mem MemFacts VectorModel VectorSpec VectorDriver
  StringSpec BitsetSpec ListModel ListSpec ListDriver ListHeap ListRep ListProofs ListFinal ListFinal2 UndoSpec UndoProofs UndoProofs2.
From Coq Require Import ZifyBool ZifyNat ZifyN Permutation.

Definition lstep e limit (f : Prop) (o : op) (xs : list element) (r : status) (ys : list element) : Prop :=
  exists gone new, lspec e limit f o xs r ys gone new.
Lemma lspecs_steps e limit (f : Prop) (ops : list op) xs rs ys gone new : lspecs e limit f ops xs rs ys gone new ->
  steps (lstep e limit f) ops xs rs ys.
Proof. induction 1; cbn [steps]; [auto|]. unfold lstep. eauto 10. Qed.
Definition lholds (limit : option N) (n : N) : Prop := match limit with None => True | Some k => n <= k end.

Lemma refusal_not limit (f : Prop) n : refusal limit f n ST_SUCCESS -> False.
Proof.
  unfold refusal. destruct (full limit n); [discriminate|]. intros (_ & _ & st & E).
  pose proof (st_success_err st) as X. rewrite <- E in X. discriminate.
Qed.
Lemma added_ok limit (f : Prop) (xs ys : list element) x xs' new : added limit f xs ys x ST_SUCCESS xs' new ->
  xs' = ys /\ full limit (nlen xs) = false.
Proof. intros [(A & _ & -> & _)|(A & _)]; [auto|]. now apply refusal_not in A. Qed.
Lemma added_granted limit (f : Prop) (xs ys : list element) x r xs' new : (limit = None -> ~ f) -> full limit (nlen xs) = false ->
  added limit f xs ys x r xs' new -> r = ST_SUCCESS /\ xs' = ys.
Proof.
  intros NF FU [(_ & -> & -> & _)|(A & _)]; [auto|]. unfold refusal in A. rewrite FU in A. destruct A as (-> & A & _). now destruct (NF eq_refl).
Qed.
Lemma pop_back_ok e limit (f : Prop) xs x r ys : lstep e limit f LPopBack (xs ++ [x]) r ys -> r = ST_SUCCESS /\ ys = xs.
Proof.
  intros (gone & new & _ & [(A & _)|(y & A & -> & _)]).
  - now destruct xs.
  - apply app_inj_tail in A as [-> _]. auto.
Qed.
Lemma pop_front_ok e limit (f : Prop) xs x r ys : lstep e limit f LPopFront (x :: xs) r ys -> r = ST_SUCCESS /\ ys = xs.
Proof. intros (gone & new & _ & [(A & _)|(y & A & -> & _)]); [discriminate|]. now injection A as _ ->. Qed.
Lemma lset_ok e limit (f : Prop) a x y b r ys : lstep e limit f (LSet (nlen a) y) (a ++ [x] ++ b) r ys -> r = ST_SUCCESS /\ ys = a ++ [y] ++ b.
Proof.
  intros (gone & new & S). cbn [lspec] in S. cbn [app] in S. rewrite nnth_mid in S by reflexivity. destruct S as (-> & -> & _).
  split; [reflexivity|]. rewrite nfirst_app_l by reflexivity. change (a ++ x :: b) with (a ++ [x] ++ b). now rewrite nskip_add_app.
Qed.
Lemma all_same {A} (x : A) l : Forall (fun y => y = x) l -> l = nrepeat x (nlen l).
Proof.
  intros H. unfold nrepeat, nlen. rewrite Nat2N.id. induction H as [|y l -> H IH]; [reflexivity|]. cbn [length repeat]. now f_equal.
Qed.
Lemma longer_ok e limit (f : Prop) (xs : list element) x n ys : 0 < n -> lstep e limit f (LResize (nlen xs + n) (Some x)) xs ST_SUCCESS ys ->
  ys = xs ++ nrepeat x n /\ full limit (nlen xs + n - 1) = false.
Proof.
  intros L (gone & new & S). cbn [lspec] in S. replace (nlen xs + n =? 0) with false in S by lia.
  replace (nlen xs + n <=? nlen xs) with false in S by lia. destruct S as (_ & -> & F & [(LN & _ & FU)|(_ & R)]); [|now apply refusal_not in R].
  split; [|exact FU]. apply all_same in F. rewrite nlen_app in LN. replace (nlen new) with n in F by lia. now rewrite <- F.
Qed.
Lemma shorter_ok e limit (f : Prop) (xs ms : list element) r ys : lstep e limit f (LResize (nlen xs) None) (xs ++ ms) r ys -> r = ST_SUCCESS /\ ys = xs.
Proof.
  intros (gone & new & S). cbn [lspec] in S. destruct (N.eqb_spec (nlen xs) 0) as [Z|Z].
  - apply nlen_0 in Z as ->. destruct S as (-> & -> & _). auto.
  - rewrite nlen_app in S. replace (nlen xs <=? nlen xs + nlen ms) with true in S by lia. destruct S as (-> & -> & _).
    split; [reflexivity|]. now apply nfirst_app_l.
Qed.
Lemma full_holds limit n : full limit n = false -> lholds limit (n + 1).
Proof. destruct limit; cbn [full lholds]; [lia|auto]. Qed.
Lemma holds_full limit n : lholds limit (n + 1) -> full limit n = false.
Proof. destruct limit; cbn [full lholds]; [lia|auto]. Qed.
Lemma lholds_le limit n m : m <= n -> lholds limit n -> lholds limit m.
Proof. destruct limit; cbn [lholds]; [lia|auto]. Qed.

Lemma lundo_forth e limit (f : Prop) xs o u ys ys' : lundo xs o u ys -> lholds limit (nlen xs) -> lstep e limit f o xs ST_SUCCESS ys' ->
  ys' = ys /\ lholds limit (nlen ys).
Proof.
  assert (ONE : forall x : element, nlen [x] = 1) by reflexivity. intros U K S. destruct U.
  - destruct S as (gone & new & S & _). apply added_ok in S as [-> FU]. split; [reflexivity|]. rewrite nlen_app, ONE. now apply full_holds.
  - destruct S as (gone & new & S & _). apply added_ok in S as [-> FU]. split; [reflexivity|]. rewrite nlen_cons, N.add_comm. now apply full_holds.
  - apply pop_back_ok in S as [_ ->]. split; [reflexivity|]. eapply lholds_le; [|exact K]. rewrite nlen_app. lia.
  - apply pop_front_ok in S as [_ ->]. split; [reflexivity|]. eapply lholds_le; [|exact K]. rewrite nlen_cons. lia.
  - apply lset_ok in S as [_ ->]. split; [reflexivity|]. rewrite !nlen_app, !ONE in *. exact K.
  - apply longer_ok in S as [-> FU]; [|assumption]. split; [reflexivity|]. apply full_holds in FU. rewrite nlen_app, nlen_repeat.
    eapply lholds_le; [|exact FU]. lia.
Qed.
Lemma lundo_back e limit (f : Prop) xs o u ys r xs' : (limit = None -> ~ f) -> lundo xs o u ys -> lholds limit (nlen xs) ->
  lstep e limit f u ys r xs' -> r = ST_SUCCESS /\ xs' = xs.
Proof.
  assert (ONE : forall x : element, nlen [x] = 1) by reflexivity. intros NF U K S. destruct U.
  - now apply pop_back_ok in S.
  - now apply pop_front_ok in S.
  - destruct S as (gone & new & S & _). rewrite nlen_app, ONE in K. apply holds_full in K. eapply added_granted; eauto.
  - destruct S as (gone & new & S & _). rewrite nlen_cons, N.add_comm in K. apply holds_full in K. eapply added_granted; eauto.
  - now apply lset_ok in S.
  - now apply shorter_ok in S.
Qed.
Lemma ldemands_app (a b : list op) : ldemands (a ++ b) = ldemands a + ldemands b.
Proof. induction a as [|o a IH]; cbn [app ldemands]; [reflexivity|]. rewrite IH. lia. Qed.
Lemma lundo_len xs o u ys : @lundo cell xs o u ys -> nlen ys <= nlen xs + ldemand o.
Proof.
  intros U. assert (ONE : forall x : element, nlen [x] = 1) by reflexivity.
  destruct U; cbn [ldemand]; rewrite ?nlen_app, ?ONE, ?nlen_cons, ?nlen_repeat; lia.
Qed.
Lemma lsession_len xs ops us ys : session (@lundo cell) xs ops us ys -> nlen ys <= nlen xs + ldemands ops.
Proof.
  induction 1 as [|xs o u ys ops us zs U _ IH]; cbn [ldemands]; [lia|]. pose proof (lundo_len _ _ _ _ U). lia.
Qed.
Lemma lrep_holds e d m base w l ps xs us : lrep e d m base w l ps xs us -> lholds (limit_of e m) (nlen xs).
Proof.
  intros REP. pose proof (lrep_shows _ _ _ _ _ _ _ _ _ REP) as (LEN & _).
  destruct REP as (_ & _ & _ & _ & _ & _ & _ & P). destruct m as [|b pre post cap]; cbn [limit_of lholds]; [exact Logic.I|].
  destruct P as (_ & _ & (k & KC & PM) & _). apply Permutation_length in PM. rewrite app_length in PM. unfold slots in PM.
  rewrite map_length, seq_length in PM. unfold nodes_in, NODE_SIZE. unfold nlen. rewrite <- LEN.
  apply N.div_le_lower_bound; [lia|]. nia.
Qed.
Lemma undo_list limit w l xs ops us ys rs l1 w1 :
  lreached limit w l xs -> (limit = None -> ~ fails w) -> session lundo xs ops us ys -> Forall (larg_ok (l_esz l)) (ops ++ us) ->
  nlen xs + ldemands (ops ++ us) < W64 -> run_lops l ops w = Ok (rs, l1) w1 -> Forall (eq ST_SUCCESS) rs ->
  (exists ps, lshows w1 l1 ps ys) /\
  exists rs2 l2 w2, run_lops l1 us w1 = Ok (rs2, l2) w2 /\ Forall (eq ST_SUCCESS) rs2 /\ exists ps, lshows w2 l2 ps xs.
Proof.
  intros H NF X A RM ER OK. destruct (reached_rep _ _ _ _ H) as (e & d & m & base & ps & un & -> & REP).
  assert (EE : l_esz l = e) by apply REP. rewrite EE in *. apply Forall_app in A as [A1 A2]. rewrite ldemands_app in RM.
  pose proof (lsession_len _ _ _ _ X) as LY.
  destruct (run_lops_ok e d m base ops w l ps xs un REP A1) as (w' & l' & rs' & ps' & un' & xs' & gone & new & E & S & REP' & ST); [lia|].
  rewrite ER in E. injection E as <- <- <-.
  destruct (sessions lundo (lstep e (limit_of e m) (fails w)) (fun x => lholds (limit_of e m) (nlen x))
    (lundo_forth _ _ _) (fun x o u y r x' => lundo_back e (limit_of e m) (fails w) x o u y r x' NF) _ _ _ _ X (lrep_holds _ _ _ _ _ _ _ _ _ REP) _ _
    (lspecs_steps _ _ _ _ _ _ _ _ _ S) OK) as (-> & KD & B).
  split; [exists ps'; eapply lrep_shows; eauto|].
  destruct (run_lops_ok e d m base us w1 l1 ps' ys un' REP' A2) as (w2 & l2 & rs2 & ps2 & un2 & xs2 & gone2 & new2 & E2 & S2 & REP2 & ST2); [lia|].
  replace (fails w1) with (fails w) in S2 by (unfold fails; destruct ST as (-> & _); reflexivity).
  destruct (B _ _ (lspecs_steps _ _ _ _ _ _ _ _ _ S2)) as [B1 ->].
  exists rs2, l2, w2. split; [exact E2|]. split; [exact B1|]. exists ps2. eapply lrep_shows; eauto.
Qed.
Lemma lundo_granted e (f : Prop) xs o u ys r ys' : ~ f -> lundo xs o u ys -> lstep e None f o xs r ys' -> r = ST_SUCCESS.
Proof.
  intros NF U S. destruct U.
  - destruct S as (gone & new & S & _). now apply (added_granted None f xs _ x r ys' new (fun _ => NF) eq_refl) in S as [-> _].
  - destruct S as (gone & new & S & _). now apply (added_granted None f xs _ x r ys' new (fun _ => NF) eq_refl) in S as [-> _].
  - now apply pop_back_ok in S as [-> _].
  - now apply pop_front_ok in S as [-> _].
  - now apply lset_ok in S as [-> _].
  - destruct S as (gone & new & S). cbn [lspec] in S. replace (nlen xs + n =? 0) with false in S by lia.
    replace (nlen xs + n <=? nlen xs) with false in S by lia. destruct S as (_ & _ & _ & [(_ & -> & _)|(_ & R)]); [reflexivity|].
    destruct R as (_ & R & _). contradiction.
Qed.
Lemma lsession_granted e (f : Prop) xs ops us ys : ~ f -> session lundo xs ops us ys -> forall rs ys', steps (lstep e None f) ops xs rs ys' ->
  Forall (eq ST_SUCCESS) rs.
Proof.
  intros NF. induction 1 as [x|x o u y ops us z U _ IH]; intros rs ds' S; cbn [steps] in S; [destruct S as [-> _]; constructor|].
  destruct S as (r & y' & rs' & -> & S0 & S1). pose proof (lundo_granted _ _ _ _ _ _ _ _ NF U S0) as ->.
  destruct (lundo_forth e None f _ _ _ _ _ U Logic.I S0) as [-> _]. constructor; [reflexivity|]. eapply IH, S1.
Qed.
Lemma undo_list_growable w l xs ops us ys :
  lreached None w l xs -> ~ fails w -> session lundo xs ops us ys -> Forall (larg_ok (l_esz l)) (ops ++ us) ->
  nlen xs + ldemands (ops ++ us) < W64 -> exists rs l1 w1, run_lops l ops w = Ok (rs, l1) w1 /\ Forall (eq ST_SUCCESS) rs.
Proof.
  intros H NF X A RM. destruct (reached_rep _ _ _ _ H) as (e & d & m & base & ps & un & LM & REP).
  assert (EE : l_esz l = e) by apply REP. rewrite EE in *. apply Forall_app in A as [A1 A2]. rewrite ldemands_app in RM.
  destruct (run_lops_ok e d m base ops w l ps xs un REP A1) as (w' & l' & rs' & ps' & un' & xs' & gone & new & E & S & REP' & ST); [lia|].
  rewrite <- LM in S. exists rs', l', w'. split; [exact E|]. eapply lsession_granted; [exact NF|exact X|eapply lspecs_steps, S].
Qed.
Lemma lreached_calm e xs : 1 <= e -> NODE_SIZE + e < W64 -> Forall (fun x : element => nlen x = e) xs -> nlen xs < W64 ->
  forall w0, linit_args_ok w0 e None -> ~ fails w0 -> exists w l, lreached None w l xs /\ ~ fails w /\ l_esz l = e.
Proof.
  intros E1 EW K LW w0 A NF. destruct (init_rep _ _ _ A) as (l0 & EI & REP).
  assert (AO : Forall (larg_ok e) (map (@LPushBack cell) xs)). { clear - K. induction K; cbn; constructor; auto. }
  assert (DM : ldemands (map (@LPushBack cell) xs) = nlen xs).
  { clear. induction xs as [|x xs IH]; [reflexivity|]. cbn [map ldemands ldemand]. rewrite IH, nlen_cons. reflexivity. }
  destruct (run_lops_ok e None _ _ (map (@LPushBack cell) xs) _ l0 [] [] [] REP AO) as (w & l & rs & ps & un & ys & gone & new & E & S & REP' & ST).
  { rewrite DM. exact LW. }
  assert (FA : ~ fails w). { unfold fails in *. now destruct ST as (-> & _). }
  assert (ys = xs) as ->.
  { clear - S NF. cbn [limit_of] in S. apply lspecs_steps in S.
    assert (G : forall xs rs a, steps (lstep e None (fails w0)) (map (@LPushBack cell) xs) a rs ys -> ys = a ++ xs).
    { clear S. induction xs0 as [|x l IH]; intros rs0 a; cbn [map steps].
      - intros [_ ->]. now rewrite app_nil_r.
      - intros (r & y & rs' & -> & (g & n & S0 & _) & S1). apply (added_granted None (fails w0) a _ x r y n (fun _ => NF) eq_refl) in S0 as [_ ->].
        apply IH in S1. now rewrite <- app_assoc in S1. }
    now apply (G xs rs []). }
  exists w, l. split; [|split; [exact FA|apply REP']].
  exists w0, e, None, l0, w0, (map (@LPushBack cell) xs), rs, ps. split; [now split|]. split; [exact AO|]. split; [now rewrite DM|].
  split; [exact E|]. eapply lrep_shows; eauto.
Qed.
