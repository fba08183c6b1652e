(** Splitting strings from several source files. *)
From Verif Require Import Base NListFacts LibCModel LibCSpec LibCProofs LibCProofs2 TokDriver.
From Coq Require Import ZifyBool ZifyNat ZifyN.
Import ListNotations.

(** What is left to split for a file: nothing, or a string. *)
Definition left_at (m : N -> option N) (f : nat) (d : list N) (var : option N) (lo hi : N) (toks : list (list N)) : Prop :=
  match var with
  | None => toks = []
  | Some p => exists s, cstr m p s /\ Forall (fun b => b < 256) s /\ (length s < f)%nat /\ nlen s < W64 /\
                lo <= p /\ p + nlen s = hi /\ tokens d s = toks
  end.
Lemma left_ext m m' f d var lo hi toks : (forall x, lo <= x <= hi -> m' x = m x) -> left_at m f d var lo hi toks -> left_at m' f d var lo hi toks.
Proof.
  destruct var as [p|]; [|auto]. intros E (s & C & B & F & W & L & H & T). exists s. split; [|auto 10].
  apply (cstr_ext m); [|exact C]. intros x X. apply E. lia.
Qed.

(** One call. *)
Lemma call_ok m f q d var lo hi toks : cstr m q d -> (length d < f)%nat -> left_at m f d var lo hi toks ->
  exists r p' m', strtok f var None q m = LOk (r, p') m' /\
    (forall x, x < lo \/ hi <= x -> m' x = m x) /\
    match toks with
    | [] => r = None /\ p' = None
    | tok :: toks => exists a, r = Some a /\ lo <= a /\ a + nlen tok <= hi /\ cstr m' a tok /\
        left_at m' f d p' (a + nlen tok + 1) hi toks
    end.
Proof.
  intros HD FD L. destruct var as [p|].
  - destruct L as (s & C & B & F & W & LO & HI & T).
    destruct (strtok_step m p q s d f C HD B F FD W) as (r & p' & m1 & R & P). exists r, p', m1. split; [exact R|].
    unfold tok_post in P. rewrite T in P. destruct toks as [|tok toks].
    + destruct P as (-> & -> & ->). auto.
    + destruct P as (a & -> & PA & CT & LT & OUT & P'). split; [intros x X; apply OUT; lia|].
      exists a. split; [reflexivity|]. split; [lia|]. split; [lia|]. split; [exact CT|].
      destruct p' as [q'|]; [|exact P'].
      destruct P' as (s' & EQ & LQ & CS & BS & TS). exists s'. split; [exact CS|]. split; [exact BS|].
      split; [unfold nlen in *; lia|]. split; [lia|]. split; [lia|]. split; [lia|exact TS].
  - cbn in L. subst. exists None, None, m. split; [reflexivity|]. auto.
Qed.

Lemma eff_var f (vars : N -> option N) (begun : N -> bool) (str : N -> N) u q m :
  strtok f (vars u) (if begun u then None else Some (str u)) q m = strtok f (if begun u then vars u else Some (str u)) None q m.
Proof. destruct (begun u); reflexivity. Qed.

Section Files.
  Variables (f : nat) (str delim : N -> N) (chars : N -> list N).

  Lemma turns_ok (files : list N) : forall m (vars : N -> option N) (begun : N -> bool) (lo hi : N -> N) (toks : N -> list (list N)),
    (forall u, In u files -> cstr m (delim u) (chars u) /\ (length (chars u) < f)%nat /\
       left_at m f (chars u) (if begun u then vars u else Some (str u)) (lo u) (hi u) (toks u)) ->
    (forall u v, In u files -> In v files -> u <> v -> hi u < lo v \/ hi v < lo u) ->
    (forall u v, In u files -> In v files -> hi u < delim v \/ delim v + nlen (chars v) < lo u) ->
    exists rs m', tok_calls f vars (turns str delim begun files) m = LOk rs m' /\
      (forall u, In u files -> exists addrs,
         answers u files rs = map Some addrs ++ repeat None (turns_of u files - length addrs) /\
         Forall2 (cstr m') addrs (firstn (turns_of u files) (toks u)) /\
         Forall (fun a => lo u <= a) addrs) /\
      (forall x, (forall u, In u files -> x < lo u \/ hi u <= x) -> m' x = m x).
  Proof.
    induction files as [|u files IH]; intros m vars begun lo hi toks HU HS HD.
    - exists [], m. split; [reflexivity|]. split; [intros u []|auto].
    - destruct (HU u (or_introl eq_refl)) as (CD & FD & LE).
      destruct (call_ok m f (delim u) (chars u) _ (lo u) (hi u) (toks u) CD FD LE) as (r & p' & m1 & R & OUT & P).
      cbn [turns tok_calls t_file t_str t_delim]. unfold lbind at 1. rewrite eff_var, R.
      set (vars1 := fun v => if v =? u then p' else vars v). set (begun1 := fun v => if v =? u then true else begun v).
      set (lo1 := fun v => if v =? u then match r, toks u with Some a, tok :: _ => a + nlen tok + 1 | _, _ => lo u end else lo v).
      set (toks1 := fun v => if v =? u then tl (toks u) else toks v).
      assert (LO : forall v, In v (u :: files) -> lo v <= lo1 v).
      { intros v _. unfold lo1. destruct (N.eqb_spec v u) as [->|]; [|lia]. destruct (toks u) as [|tok ts]; [destruct P as [-> _]; lia|].
        destruct P as (a & -> & P & _). lia. }
      assert (OTHER : forall v x, In v (u :: files) -> v <> u -> lo v <= x <= hi v -> m1 x = m x).
      { intros v x IV NE X. apply OUT. destruct (HS u v (or_introl eq_refl) IV ltac:(congruence)); lia. }
      destruct (IH m1 vars1 begun1 lo1 hi toks1) as (rs & m' & RUN & RES & MEM).
      { intros v IV. destruct (HU v (or_intror IV)) as (CV & FV & LV). split; [|split; [exact FV|]].
        - apply (cstr_ext m); [|exact CV]. intros x X. apply OUT. destruct (HD u v (or_introl eq_refl) (or_intror IV)); lia.
        - unfold begun1, vars1, lo1, toks1. destruct (N.eqb_spec v u) as [->|NE].
          + destruct (toks u) as [|tok ts]; cbn [tl].
            * destruct P as [-> ->]. reflexivity.
            * destruct P as (a & -> & _ & _ & _ & P). exact P.
          + apply (left_ext m); [|exact LV]. intros x X. apply (OTHER v); auto. now right. }
      { intros v v' IV IV' NE. pose proof (LO v (or_intror IV)). pose proof (LO v' (or_intror IV')).
        destruct (HS v v' (or_intror IV) (or_intror IV') NE); lia. }
      { intros v v' IV IV'. pose proof (LO v (or_intror IV)). destruct (HD v v' (or_intror IV) (or_intror IV')); lia. }
      unfold lbind at 1. fold vars1. fold begun1. rewrite RUN. exists (r :: rs), m'. split; [reflexivity|]. split.
      + intros v IV. cbn [answers turns_of].
        assert (KEEP : forall a t, r = Some a -> cstr m1 a t -> lo u <= a -> a + nlen t <= hi u ->
                  (forall x, a <= x <= a + nlen t -> x < lo1 u) -> cstr m' a t).
        { intros a t E CA L1 L2 L3. apply (cstr_ext m1); [|exact CA]. intros x X. apply MEM. intros v' IV'.
          destruct (N.eq_dec v' u) as [->|NE]; [left; apply L3; lia|].
          pose proof (LO v' (or_intror IV')). destruct (HS u v' (or_introl eq_refl) (or_intror IV') ltac:(congruence)); lia. }
        destruct (N.eqb_spec u v) as [<-|NE].
        * (* the file that called *)
          assert (REST : exists addrs, answers u files rs = map Some addrs ++ repeat None (turns_of u files - length addrs) /\
                    Forall2 (cstr m') addrs (firstn (turns_of u files) (tl (toks u))) /\ Forall (fun a => lo u <= a) addrs).
          { destruct (in_dec N.eq_dec u files) as [IU|NU].
            - destruct (RES u IU) as (addrs & A & F2 & F1). exists addrs. split; [exact A|].
              unfold toks1 in F2. rewrite N.eqb_refl in F2. split; [exact F2|].
              eapply Forall_impl; [|exact F1]. intros a X. cbv beta in *. pose proof (LO u (or_introl eq_refl)). lia.
            - assert (Z : turns_of u files = O).
              { clear - NU. induction files as [|v files IH]; [reflexivity|]. cbn [turns_of].
                destruct (N.eqb_spec v u) as [->|]; [exfalso; apply NU; now left|]. apply IH. intros H. apply NU. now right. }
              assert (Z2 : forall rs', @answers (option N) u files rs' = []).
              { clear - NU. induction files as [|v files IH]; intros [|x rs']; try reflexivity. cbn [answers].
                destruct (N.eqb_spec v u) as [->|]; [exfalso; apply NU; now left|]. apply IH. intros H. apply NU. now right. }
              exists []. rewrite Z, Z2. split; [reflexivity|]. split; constructor. }
          destruct REST as (addrs & A & F2 & F1). destruct (toks u) as [|tok ts] eqn:ET; cbn [tl] in F2.
          -- destruct P as [-> ->]. rewrite firstn_nil in F2. inversion F2; subst. exists []. rewrite A. cbn [map app length].
             split; [now rewrite !Nat.sub_0_r|]. cbn [firstn]. split; constructor.
          -- destruct P as (a & -> & LA & HA & CA & _). exists (a :: addrs). rewrite A. cbn [map app length firstn].
             split; [reflexivity|]. split; [|constructor; [exact LA|exact F1]]. constructor; [|exact F2].
             apply KEEP; auto. intros x X. unfold lo1. rewrite N.eqb_refl. lia.
        * (* another file *)
          destruct IV as [E|IV]; [congruence|]. destruct (RES v IV) as (addrs & A & F2 & F1). exists addrs. split; [exact A|].
          unfold toks1 in F2. destruct (N.eqb_spec v u); [congruence|]. split; [exact F2|].
          unfold lo1 in F1. destruct (N.eqb_spec v u); [congruence|]. exact F1.
      + intros x X. rewrite MEM.
        * apply OUT. apply X. now left.
        * intros v IV. pose proof (LO v (or_intror IV)). destruct (X v (or_intror IV)); [left; lia|right; lia].
  Qed.
End Files.

Lemma files_split : forall m f vars str delim text chars files,
  apart m f str delim text chars files ->
  exists rs m', tok_calls f vars (turns str delim (fun _ => false) files) m = LOk rs m' /\
    (forall u, In u files -> exists addrs,
       answers u files rs = map Some addrs ++ repeat None (turns_of u files - length addrs) /\
       Forall2 (cstr m') addrs (firstn (turns_of u files) (tokens (chars u) (text u)))) /\
    (forall x, (forall u, In u files -> x < str u \/ str u + nlen (text u) <= x) -> m' x = m x).
Proof.
  intros m f vars str delim text chars files (HU & HS & HD).
  destruct (turns_ok f str delim chars files m vars (fun _ => false) str (fun u => str u + nlen (text u))
    (fun u => tokens (chars u) (text u))) as (rs & m' & RUN & RES & MEM).
  - intros u IU. destruct (HU u IU) as (C & CD & B & F & FD & W). split; [exact CD|]. split; [exact FD|]. cbn.
    exists (text u). split; [exact C|]. split; [exact B|]. split; [exact F|]. split; [exact W|]. split; [lia|]. split; reflexivity.
  - intros u v IU IV NE. specialize (HS u v IU IV NE). unfold disjoint in HS. lia.
  - intros u v IU IV. specialize (HD u v IU IV). unfold disjoint in HD. lia.
  - exists rs, m'. split; [exact RUN|]. split; [|exact MEM]. intros u IU. destruct (RES u IU) as (addrs & A & F2 & _).
    exists addrs. auto.
Qed.

(** Going on in another file. *)
Lemma other_file : forall m f vars u v p q s d t1 t2 ts,
  u <> v -> vars v = None -> cstr m p s -> cstr m q d -> Forall (fun b => b < 256) s ->
  (length s < f)%nat -> (length d < f)%nat -> nlen s < W64 -> tokens d s = t1 :: t2 :: ts ->
  exists a m', tok_calls f vars [mktcall u (Some p) q; mktcall v None q] m = LOk [Some a; None] m' /\ cstr m' a t1.
Proof.
  intros m f vars u v p q s d t1 t2 ts NE V C CD B F FD W T.
  destruct (strtok_step m p q s d f C CD B F FD W) as (r & p' & m1 & R & P). unfold tok_post in P. rewrite T in P.
  destruct P as (a & -> & _ & CA & _). exists a, m1. split; [|exact CA].
  cbn [tok_calls t_file t_str t_delim]. unfold lbind at 1.
  change (strtok f (vars u) (Some p) q m) with (strtok f (Some p) None q m). rewrite R.
  destruct (N.eqb_spec v u); [congruence|]. rewrite V. reflexivity.
Qed.

Lemma calls_ext f cs : forall vars vars' m, (forall u, vars u = vars' u) -> tok_calls f vars cs m = tok_calls f vars' cs m.
Proof.
  induction cs as [|c cs IH]; intros vars vars' m E; [reflexivity|]. cbn [tok_calls]. unfold lbind. rewrite E.
  destruct (strtok _ _ _ _ _) as [[r p] m1| |]; try reflexivity.
  rewrite (IH _ (fun u => if u =? t_file c then p else vars' u)); [reflexivity|]. intros u. cbv beta. now rewrite E.
Qed.
(** Splitting another string to its end in the same file. *)
Lemma rest_null f cs : forall vars m, (forall c, In c cs -> t_str c = None /\ vars (t_file c) = None) ->
  tok_calls f vars cs m = LOk (repeat None (length cs)) m.
Proof.
  induction cs as [|c cs IH]; intros vars m H; [reflexivity|]. cbn [tok_calls length repeat]. unfold lbind at 1.
  destruct (H c (or_introl eq_refl)) as [-> ->]. rewrite strtok_null. unfold lbind. rewrite IH; [reflexivity|].
  intros c' IC. destruct (H c' (or_intror IC)) as [E1 E2]. split; [exact E1|]. destruct (_ =? _); auto.
Qed.
Lemma inner_end f u q d : forall k m vars lo hi toks q0,
  cstr m q d -> (length d < f)%nat -> left_at m f d (vars u) lo hi toks -> hi < q \/ q + nlen d < lo ->
  (length toks < k)%nat ->
  exists rs m', tok_calls f vars (repeat (mktcall u None q) k ++ [mktcall u None q0]) m = LOk (rs ++ [None]) m'.
Proof.
  induction k as [|k IH]; intros m vars lo hi toks q0 CD FD L S0 K; [lia|].
  destruct (call_ok m f q d (vars u) lo hi toks CD FD L) as (r & p' & m1 & R & OUT & P).
  cbn [repeat app tok_calls t_file t_str t_delim]. unfold lbind at 1. rewrite R.
  destruct toks as [|tok toks].
  - destruct P as [-> ->]. unfold lbind. rewrite rest_null.
    + exists (None :: repeat None k), m1. rewrite app_length, repeat_length. cbn [length].
      replace (k + 1)%nat with (S k) by lia. cbn [app]. rewrite <- repeat_cons. reflexivity.
    + intros c IC. apply in_app_iff in IC as [IC|[<-|[]]]; [apply repeat_spec in IC; subst|]; cbn; rewrite N.eqb_refl; auto.
  - destruct P as (a & -> & LA & HA & CA & L1). cbn [length] in K.
    destruct (IH m1 (fun v => if v =? u then p' else vars v) (a + nlen tok + 1) hi toks q0) as (rs & m' & RUN).
    + apply (cstr_ext m); [|exact CD]. intros x X. apply OUT. lia.
    + exact FD.
    + cbv beta. rewrite N.eqb_refl. exact L1.
    + lia.
    + lia.
    + unfold lbind. rewrite RUN. exists (Some a :: rs), m'. reflexivity.
Qed.
Lemma nested : forall m f vars u p q s d p2 q2 s2 d2 t1 t2 ts k,
  cstr m p s -> cstr m q d -> Forall (fun b => b < 256) s -> (length s < f)%nat -> (length d < f)%nat -> nlen s < W64 ->
  cstr m p2 s2 -> cstr m q2 d2 -> Forall (fun b => b < 256) s2 -> (length s2 < f)%nat -> (length d2 < f)%nat -> nlen s2 < W64 ->
  disjoint p (nlen s + 1) p2 (nlen s2 + 1) -> disjoint p (nlen s + 1) q2 (nlen d2 + 1) -> disjoint p2 (nlen s2 + 1) q2 (nlen d2 + 1) ->
  tokens d s = t1 :: t2 :: ts -> (length (tokens d2 s2) < S k)%nat ->
  exists a rs m', tok_calls f vars
    (mktcall u (Some p) q :: mktcall u (Some p2) q2 :: repeat (mktcall u None q2) k ++ [mktcall u None q]) m = LOk (Some a :: rs ++ [None]) m'.
Proof.
  intros m f vars u p q s d p2 q2 s2 d2 t1 t2 ts k C CD B F FD W C2 CD2 B2 F2 FD2 W2 D1 D2 D3 T K.
  destruct (strtok_step m p q s d f C CD B F FD W) as (r & p' & m1 & R & P). unfold tok_post in P. rewrite T in P.
  destruct P as (a & -> & LA & CA & HA & OUT & _). unfold disjoint in *.
  destruct (inner_end f u q2 d2 (S k) m1 (fun v => if v =? u then Some p2 else vars v) p2 (p2 + nlen s2) (tokens d2 s2) q)
    as (rs & m' & RUN).
  - apply (cstr_ext m); [|exact CD2]. intros x X. apply OUT. lia.
  - exact FD2.
  - cbv beta. rewrite N.eqb_refl. exists s2. split; [|auto 10 using N.le_refl].
    apply (cstr_ext m); [|exact C2]. intros x X. apply OUT. lia.
  - lia.
  - exact K.
  - exists a, rs, m'. cbn [repeat app tok_calls t_file t_str t_delim] in RUN |- *. unfold lbind at 1.
    change (strtok f (vars u) (Some p) q m) with (strtok f (Some p) None q m). rewrite R.
    unfold lbind in RUN |- *. rewrite N.eqb_refl in RUN |- *.
    change (strtok f p' (Some p2) q2 m1) with (strtok f (Some p2) None q2 m1).
    destruct (strtok f (Some p2) None q2 m1) as [[r2 p2'] m2| |]; try discriminate.
    erewrite calls_ext; [|intros v; instantiate (1 := fun v => if v =? u then p2' else if v =? u then Some p2 else vars v);
      cbv beta; destruct (v =? u); reflexivity].
    destruct (tok_calls _ _ _ m2) as [rs2 m3| |]; try discriminate. injection RUN as E ->. rewrite E. reflexivity.
Qed.
