(** Argument parser: the main loop computes what the grammar says. *)
From Verif Require Import Base NListFacts Status Mem MemFacts VectorModel VectorSpec VectorRep VectorDriver VectorProofs VectorProofs2
  VectorProofs3 VectorRefine VectorFail StringModel StringDriver ArgModel ArgSpec ArgDriver ArgText ArgVec.
From Coq Require Import ZifyBool ZifyNat ZifyN.
Implicit Types (w : world acell) (v : avec) (q : ptr).

(** ** Facts about the specification *)
Lemma unnamed_app es fs : unnamed_of (es ++ fs) = unnamed_of es ++ unnamed_of fs.
Proof.
  induction es as [|e es IH]; [reflexivity|]. cbn [app unnamed_of]. destruct (e_def e), (e_value e); rewrite ?IH; reflexivity.
Qed.
Lemma unnamed_le es : nlen (unnamed_of es) <= nlen es.
Proof.
  induction es as [|e es IH]; [reflexivity|]. cbn [unnamed_of]. destruct (e_def e), (e_value e); rewrite ?nlen_cons; lia.
Qed.
Lemma flags_unnamed ds cs fs : flags ds cs fs -> unnamed_of fs = [].
Proof. induction 1; [reflexivity|]. exact IHflags. Qed.
Lemma flags_len ds cs fs : flags ds cs fs -> nlen fs = nlen cs.
Proof. induction 1; [reflexivity|]. rewrite !nlen_cons. lia. Qed.
Lemma named_det ds name d b r : named ds name d b -> result_of ds name 0 r -> r = Some d.
Proof.
  intros (x & E & N & _ & F) R. destruct r as [e|].
  - destruct R as (_ & y & E' & N' & F'). rewrite N.sub_0_r in *. f_equal.
    destruct (N.lt_trichotomy d e) as [L|[->|L]]; [|reflexivity|].
    + destruct (F' d x L E N).
    + destruct (F e y L E' N').
  - destruct (R d x E N).
Qed.
Lemma unknown_det ds name r : unknown ds name -> result_of ds name 0 r -> r = None.
Proof.
  intros U R. destruct r as [e|]; [|reflexivity]. destruct R as (_ & y & E' & N' & _). destruct (U _ _ E' N').
Qed.

Lemma f2_nlen {A B} {R : A -> B -> Prop} {l m} : Forall2 R l m -> nlen l = nlen m.
Proof. induction 1; [reflexivity|]. rewrite !nlen_cons. lia. Qed.

Lemma made_app e1 es stop : forall hi, nlen (unnamed_of e1) <= hi ->
  entries_made hi (e1 ++ es) stop = nlen e1 + entries_made (hi - nlen (unnamed_of e1)) es stop.
Proof.
  induction e1 as [|e e1 IH]; intros hi L; cbn [app unnamed_of entries_made] in *.
  - rewrite !nlen_nil, N.sub_0_r. reflexivity.
  - destruct (e_def e), (e_value e); rewrite ?nlen_cons in *; try (rewrite IH by lia; lia).
    destruct (N.eqb_spec hi 0); [lia|]. rewrite IH by lia. replace (hi - 1 - nlen (unnamed_of e1)) with (hi - (1 + nlen (unnamed_of e1))) by lia. lia.
Qed.

Section Loop.
  Variables (tw : world N) (cfg : aconfig) (ds : list sdef).
  Hypothesis DS : Forall2 (def_is tw) (ac_args cfg) ds.
  Hypothesis AC : argc cfg < W64.
  Notation cs := (cstring_at tw).
  Notation max := (ac_max cfg).

  (** An element represents an entry. *)
  Definition dw (e : entry) : word := match e_def e with Some d => WDef d | None => WZero end.
  Definition ent (e : entry) (x : list acell) : Prop :=
    match e_value e with
    | None => x = cells (dw e) 0 WZero WZero
    | Some t => exists q, cs q t /\ x = cells (dw e) 1 (WNum (nlen t + 1)) (WPtr q)
    end.
  (** An entry, one of the first [n], had no room and the request was refused. *)
  Definition lost w v (n : N) (st : N) v' w' : Prop :=
    exists wm vm xs, agood w v wm vm xs /\ only_cap wm vm w' v' /\ orc wm (tick wm) = AFail st /\ nlen xs < n /\ v_cap vm < nlen xs + 1.
  Definition ends w v (un : N) (es0 es : list entry) (stop : option (status * token)) (r : res acell (astep + (avec * N))) : Prop :=
    (exists st v' w', r = Ok (inl (AReturn (err_status st) v')) w' /\
       lost w v (nlen es0 + entries_made (max - un) es stop) st v' w') \/
    (max < un + nlen (unnamed_of es) /\ exists p t v' w' xs', r = Ok (inl (AFailure ST_TOO_MANY_ARGS p v')) w' /\
       nnth (max - un) (unnamed_of es) = Some t /\ cs p t /\ agood w v w' v' xs' /\ nlen xs' = nlen es0 + entries_made (max - un) es stop) \/
    (un + nlen (unnamed_of es) <= max /\ exists st t p v' w' xs', stop = Some (st, t) /\ r = Ok (inl (AFailure st p v')) w' /\ cs p t /\
       agood w v w' v' xs' /\ nlen xs' = nlen es0 + entries_made (max - un) es stop) \/
    (un + nlen (unnamed_of es) <= max /\ stop = None /\ exists v' w' xs', r = Ok (inr (v', un + nlen (unnamed_of es))) w' /\
       agood w v w' v' xs' /\ Forall2 ent (es0 ++ es) xs').

  Lemma lost_after w v w1 v1 xs n st v' w' : wfw w -> agood w v w1 v1 xs -> lost w1 v1 n st v' w' -> lost w v n st v' w'.
  Proof. intros W G (wm & vm & ys & G' & O). exists wm, vm, ys. split; [eapply agood_trans; eauto|exact O]. Qed.
  Lemma lost_le w v n m st v' w' : n <= m -> lost w v n st v' w' -> lost w v m st v' w'.
  Proof. intros L (wm & vm & ys & G & O & X & LY & LC). exists wm, vm, ys. repeat (split; [assumption|]). split; [lia|exact LC]. Qed.
  Lemma ends_after w v w1 v1 xs1 un un1 es0 es1 e1 es stop r :
    wfw w -> agood w v w1 v1 xs1 -> es1 = es0 ++ e1 -> un1 = un + nlen (unnamed_of e1) -> un1 <= max ->
    ends w1 v1 un1 es1 es stop r -> ends w v un es0 (e1 ++ es) stop r.
  Proof.
    intros W G -> -> L E. unfold ends. rewrite unnamed_app, nlen_app, N.add_assoc.
    replace (nlen es0 + entries_made (max - un) (e1 ++ es) stop) with (nlen (es0 ++ e1) + entries_made (max - (un + nlen (unnamed_of e1))) es stop)
      by (rewrite made_app by lia; rewrite nlen_app, N.sub_add_distr; lia).
    destruct E as [(st & v' & w' & -> & X)|[(H & p & t & v' & w' & xs' & -> & NN & C & X & LX)|
      [(H & st & t & p & v' & w' & xs' & SS & -> & C & X & LX)|(H & SS & v' & w' & xs' & -> & X & F)]]].
    - left. exists st, v', w'. split; [reflexivity|]. eapply lost_after; eauto.
    - right; left. split; [exact H|]. exists p, t, v', w', xs'. split; [reflexivity|]. split.
      { rewrite nnth_app2 by lia. rewrite <- NN. f_equal. lia. }
      split; [exact C|]. split; [eapply agood_trans; eauto|exact LX].
    - right; right; left. split; [exact H|]. exists st, t, p, v', w', xs'. split; [exact SS|]. split; [reflexivity|].
      split; [exact C|]. split; [eapply agood_trans; eauto|exact LX].
    - right; right; right. split; [exact H|]. split; [exact SS|]. exists v', w', xs'. split; [reflexivity|].
      split; [eapply agood_trans; eauto|]. now rewrite app_assoc.
  Qed.

  (** ** The pieces of an iteration *)
  Lemma is_boolean_ok w name d b : named ds name d b -> is_boolean cfg d w = Ok b w.
  Proof.
    intros (x & E & _ & B & _). unfold is_boolean.
    assert (X : forall (l : list adef) (m : list sdef), Forall2 (def_is tw) l m -> forall j, nnth j m = Some x -> exists a, nnth j l = Some a /\ def_is tw a x).
    { clear -x. induction 1 as [|a m l ms DI _ IH]; intros j E.
      - unfold nnth in E. destruct (N.to_nat j); discriminate E.
      - destruct (N.eq_dec j 0) as [->|].
        + rewrite nnth_0 in *. injection E as <-. now exists a.
        + rewrite nnth_S in E by lia. rewrite nnth_S by lia. exact (IH _ E). }
    destruct (X _ _ DS _ E) as (a & -> & _ & DB & _). now rewrite DB, B.
  Qed.
  Lemma long_named w cur t d b : cs cur t -> named ds t d b -> find_long tw (ac_args cfg) 0 cur w = Ok (Some d) w.
  Proof. intros C NM. destruct (find_long_ok tw w cur t C _ _ 0 DS) as (r & -> & R). now rewrite (named_det _ _ _ _ _ NM R). Qed.
  Lemma long_unknown w cur t : cs cur t -> unknown ds t -> find_long tw (ac_args cfg) 0 cur w = Ok None w.
  Proof. intros C NM. destruct (find_long_ok tw w cur t C _ _ 0 DS) as (r & -> & R). now rewrite (unknown_det _ _ _ NM R). Qed.
  Lemma short_named w c d b : named ds [dash; c] d b -> find_short tw (ac_args cfg) 0 c w = Ok (Some d) w.
  Proof. intros NM. destruct (find_short_ok tw w c _ _ 0 DS) as (r & -> & R). now rewrite (named_det _ _ _ _ _ NM R). Qed.
  Lemma short_unknown w c : unknown ds [dash; c] -> find_short tw (ac_args cfg) 0 c w = Ok None w.
  Proof. intros NM. destruct (find_short_ok tw w c _ _ 0 DS) as (r & -> & R). now rewrite (unknown_det _ _ _ NM R). Qed.

  Lemma argv_here ps1 p ps2 w : ac_argv cfg = ps1 ++ p :: ps2 -> argv_at cfg (nlen ps1) w = Ok p w.
  Proof. intros E. unfold argv_at. rewrite E, nnth_mid by reflexivity. reflexivity. Qed.
  Lemma argc_split ps1 ps2 : ac_argv cfg = ps1 ++ ps2 -> argc cfg = nlen ps1 + nlen ps2.
  Proof. intros E. unfold argc. now rewrite E, nlen_app. Qed.
  Lemma last_index ps1 ps2 : ac_argv cfg = ps1 ++ ps2 -> ps2 <> [] -> (nlen ps1 =? wsub (argc cfg) 1) = (nlen ps2 =? 1).
  Proof.
    intros E NE. pose proof (argc_split _ _ E) as L. destruct ps2 as [|p ps]; [congruence|]. rewrite nlen_cons in *.
    rewrite wsub_small by lia. lia.
  Qed.

  Lemma next_value_ok ps1 p q ps2 w v un d xs x : ac_argv cfg = ps1 ++ p :: q :: ps2 -> cs q x ->
    avrep w v (xs ++ [cells d 0 WZero WZero]) ->
    exists w', next_value tw cfg (nlen ps1) v un p (elem v (nlen xs) 0) w = Ok (ANext (nlen ps1 + 2) v true un) w' /\
      agood w v w' v (xs ++ [cells d 1 (WNum (nlen x + 1)) (WPtr q)]).
  Proof.
    intros E C R. unfold next_value. rewrite (last_index _ _ E) by congruence. rewrite !nlen_cons.
    destruct (N.eqb_spec (1 + (1 + nlen ps2)) 1); [lia|].
    replace (ps1 ++ p :: q :: ps2) with ((ps1 ++ [p]) ++ q :: ps2) in E by now rewrite <- app_assoc.
    pose proof (argv_here _ _ _ w E) as A. rewrite nlen_app in A. change (nlen [p]) with 1 in A.
    rewrite (bind_ok _ _ _ _ _ A). destruct (put_value_ok tw w v xs d q x R C) as (w' & E' & G). exists w'.
    rewrite (bind_ok _ _ _ _ _ E'). split; [reflexivity|exact G].
  Qed.
  Lemma next_value_missing ps1 p w v un arg : ac_argv cfg = ps1 ++ [p] ->
    next_value tw cfg (nlen ps1) v un p arg w = Ok (AFailure ST_ARG_MISSES_VALUE p v) w.
  Proof. intros E. unfold next_value. rewrite (last_index _ _ E) by congruence. reflexivity. Qed.

  (** A new element that refers to the definition found. *)
  Definition fw (found : option N) : word := match found with Some d => WDef d | None => WZero end.
  Lemma new_def_ok w v xs : avrep w v xs -> (nlen xs + 1) * 160 < W64 ->
    (exists w1 v1, new_arg v w = Ok (ST_SUCCESS, v1, elem v1 (nlen xs) 0) w1 /\
       forall found, exists w2, put_def (elem v1 (nlen xs) 0) found w1 = Ok found w2 /\
         agood w v w2 v1 (xs ++ [cells (fw found) 0 WZero WZero])) \/
    (exists st v' w' p, new_arg v w = Ok (err_status st, v', p) w' /\ lost w v (nlen xs + 1) st v' w').
  Proof.
    intros R B. destruct (new_arg_ok w v xs R B) as [(w1 & v1 & E & G)|(st & v' & w' & p & E & O & OC & LC)].
    - left. exists w1, v1. split; [exact E|]. intros found. rewrite cells_0 in G.
      destruct (put_def_ok w1 v1 xs 0 WZero WZero found (proj1 G)) as (w2 & E2 & G2). exists w2. split; [exact E2|].
      eapply agood_trans; [apply (avrep_wfw _ _ _ R)|exact G|exact G2].
    - right. exists st, v', w', p. split; [exact E|]. exists w, v, xs. split; [now apply agood_refl|]. repeat (split; [assumption|]). lia.
  Qed.

  (** The flags at the front of a single-dash argument. *)
  Lemma short_flags cur t i un fl fs : flags ds fl fs -> forall a rest r v w xs es0 fuel,
    t = a ++ fl ++ rest -> nlen a = r -> cs cur t -> avrep w v xs -> Forall2 ent es0 xs ->
    (nlen xs + nlen fl) * 160 < W64 ->
    (exists v' w' xs', short_loop tw cfg i v un cur r (length fl + fuel) w = short_loop tw cfg i v' un cur (r + nlen fl) fuel w' /\
       agood w v w' v' xs' /\ Forall2 ent (es0 ++ fs) xs') \/
    (exists st v' w', short_loop tw cfg i v un cur r (length fl + fuel) w = Ok (inl (AReturn (err_status st) v')) w' /\ lost w v (nlen xs + nlen fl) st v' w').
  Proof.
    induction 1 as [|c d fl fs NM _ IH]; intros a rest r v w xs es0 fuel ET LA C R F B.
    - left. exists v, w, xs. rewrite nlen_nil, N.add_0_r, app_nil_r. split; [reflexivity|]. split; [|exact F].
      now apply agood_refl.
    - cbn [length Nat.add short_loop]. rewrite nlen_cons in *.
      assert (NC : nnth r (t ++ [0]) = Some c).
      { rewrite ET. cbn [app]. rewrite <- !app_assoc. now apply nnth_mid. }
      rewrite (bind_ok _ _ _ _ _ (char_at_ok tw cur t r c w C NC)).
      assert (CZ : c <> 0).
      { pose proof (cs_nz tw _ _ C) as Z. rewrite ET in Z. apply Forall_app in Z as [_ Z]. cbn [app] in Z. now inversion Z. }
      destruct (N.eqb_spec c 0) as [|_]; [congruence|].
      destruct (new_def_ok w v xs R) as [(w1 & v1 & E1 & PD)|(st & v' & w' & p & E1 & LO)]; [lia| |].
      2:{ right. exists st, v', w'. rewrite (bind_ok _ _ _ _ _ E1). rewrite st_success_err. split; [reflexivity|]. eapply lost_le; [|exact LO]. lia. }
      rewrite (bind_ok _ _ _ _ _ E1). okst. cbv iota.
      rewrite (bind_ok _ _ _ _ _ (short_named w1 c d true NM)).
      destruct (PD (Some d)) as (w2 & E2 & G2). rewrite (bind_ok _ _ _ _ _ E2).
      rewrite (bind_ok _ _ _ _ _ (is_boolean_ok w2 _ _ _ NM)). cbv iota.
      destruct (IH (a ++ [c]) rest (r + 1) v1 w2 (xs ++ [cells (fw (Some d)) 0 WZero WZero]) (es0 ++ [flag d]) fuel)
        as [(v' & w' & xs' & E & G & F')|(st & v' & w' & E & LO)].
      + rewrite ET, <- app_assoc. reflexivity.
      + rewrite nlen_app. change (nlen [c]) with 1. lia.
      + exact C.
      + apply G2.
      + apply Forall2_app; [exact F|]. constructor; [reflexivity|constructor].
      + rewrite nlen_app. change (nlen [cells (fw (Some d)) 0 WZero WZero]) with 1. lia.
      + left. exists v', w', xs'. split; [rewrite E; now replace (r + 1 + nlen fl) with (r + (1 + nlen fl)) by lia|]. split.
        * eapply agood_trans; [apply (avrep_wfw _ _ _ R)|exact G2|exact G].
        * rewrite <- app_assoc in F'. exact F'.
      + right. exists st, v', w'. split; [exact E|]. eapply lost_after; [apply (avrep_wfw _ _ _ R)|exact G2|].
        eapply lost_le; [|exact LO]. rewrite nlen_app. change (nlen [cells (fw (Some d)) 0 WZero WZero]) with 1. lia.
  Qed.

  Lemma unnamed_ok w v xs es0 i a un cur t : avrep w v xs -> Forall2 ent es0 xs -> un = nlen (unnamed_of es0) -> cs cur t ->
    (nlen xs + 1) * 160 < W64 ->
    (max < un + 1 /\ unnamed_arg tw cfg i v a un cur w = Ok (AFailure ST_TOO_MANY_ARGS cur v) w) \/
    (un + 1 <= max /\ exists v' w' xs', unnamed_arg tw cfg i v a un cur w = Ok (ANext (i + 1) v' a (un + 1)) w' /\ agood w v w' v' xs' /\
       Forall2 ent (es0 ++ [unnamed t]) xs' /\ nlen xs' = nlen xs + 1) \/
    (un + 1 <= max /\ exists st v' w', unnamed_arg tw cfg i v a un cur w = Ok (AReturn (err_status st) v') w' /\ lost w v (nlen xs + 1) st v' w').
  Proof.
    intros R F U C B. pose proof (unnamed_le es0) as UL. pose proof (f2_nlen F) as FL.
    unfold unnamed_arg. rewrite wadd_small by lia.
    destruct (N.ltb_spec max (un + 1)) as [L|L].
    - left. split; [exact L|reflexivity].
    - right. destruct (new_arg_ok w v xs R B) as [(w1 & v1 & E & G)|(st & v' & w' & p & E & O & OC & LC)].
      + left. split; [exact L|]. rewrite (bind_ok _ _ _ _ _ E). okst. cbv iota. rewrite cells_0 in G.
        destruct (put_value_ok tw w1 v1 xs WZero cur t (proj1 G) C) as (w2 & E2 & G2). rewrite (bind_ok _ _ _ _ _ E2). okst.
        exists v1, w2, (xs ++ [cells WZero 1 (WNum (nlen t + 1)) (WPtr cur)]). split; [reflexivity|]. split.
        * eapply agood_trans; [apply (avrep_wfw _ _ _ R)|exact G|exact G2].
        * split; [|rewrite nlen_app; reflexivity]. apply Forall2_app; [exact F|]. constructor; [|constructor]. exists cur. now split.
      + right. split; [exact L|]. exists st, v', w'. rewrite (bind_ok _ _ _ _ _ E). rewrite st_success_err. split; [reflexivity|].
        exists w, v, xs. split; [now apply agood_refl|]. repeat (split; [assumption|]). lia.
  Qed.

  (** Which branch an iteration takes. *)
  Section Step.
    Variables (ps1 : list ptr) (p : ptr) (ps2 : list ptr) (t : token).
    Hypothesis E : ac_argv cfg = ps1 ++ p :: ps2.
    Hypothesis C : cs p t.
    Lemma read2 c0 c1 y w : t = c0 :: c1 :: y -> text tw (mread (Some p) 2) w = Ok [c0; c1] w.
    Proof.
      intros ->. apply text_ok. destruct C as (_ & _ & u & z & H & P). destruct p as [b o]. cbn [pb po] in *.
      apply (mread_mid tw b o 2 u [c0; c1] (y ++ [0] ++ z)); [|now symmetry|reflexivity]. rewrite H. cbn [app].
      now rewrite <- app_assoc.
    Qed.
    Lemma step_start v a un w : main_step tw cfg (nlen ps1) v a un w =
      (let* dd := (if a && (2 <=? nlen t)
                then let* x := text tw (mread (Some p) 2) in ret (text_eqb x [DASH; DASH]) else ret false) in
    if dd then
      if nlen t =? 2 then ret (ANext (nlen ps1 + 1) v false un)
      else long_arg tw cfg (nlen ps1) v un p
    else
      let* sd := (if a && (1 <? nlen t) then let* c := char_at tw p 0 in ret (c =? DASH) else ret false) in
      if sd then
        let* r := short_loop tw cfg (nlen ps1) v un p 1 (N.to_nat (nlen t)) in
        match r with
        | inl s => ret s
        | inr v => unnamed_arg tw cfg (nlen ps1) v a un p
        end
      else unnamed_arg tw cfg (nlen ps1) v a un p) w.
    Proof.
      unfold main_step. rewrite (bind_ok _ _ _ _ _ (argv_here _ _ _ w E)).
      now rewrite (bind_ok _ _ _ _ _ (astrlen_ok tw p t w C)).
    Qed.
    Lemma step_unnamed v a un w : a = false \/ plain t ->
      main_step tw cfg (nlen ps1) v a un w = unnamed_arg tw cfg (nlen ps1) v a un p w.
    Proof.
      intros H. rewrite step_start. destruct a; [|reflexivity]. destruct H as [H|H]; [discriminate H|].
      assert (TC : nlen t < 2 \/ exists c0 c1 y, t = c0 :: c1 :: y).
      { clear. destruct t as [|c0 [|c1 y]]; [left; reflexivity|left; reflexivity|right; now exists c0, c1, y]. }
      destruct TC as [TC|(c0 & c1 & y & ET)].
      { destruct (N.leb_spec 2 (nlen t)); [lia|]. destruct (N.ltb_spec 1 (nlen t)); [lia|]. reflexivity. }
      assert (N0 : c0 <> dash). { intros ->. apply H. now exists c1, y. }
      assert (LT : nlen t = 1 + (1 + nlen y)) by (rewrite ET, !nlen_cons; reflexivity).
      destruct (N.leb_spec 2 (nlen t)); [|lia]. destruct (N.ltb_spec 1 (nlen t)); [|lia].
      cbn [andb]. unfold bind at 1 2. rewrite (read2 c0 c1 y w ET). unfold ret at 1. cbv beta iota.
      destruct (text_eqb [c0; c1] [DASH; DASH]) eqn:DD.
      { apply text_eqb_spec in DD. injection DD as -> ->. now destruct N0. }
      unfold bind at 1 2. rewrite (char_at_ok tw p _ 0 c0 w C) by (rewrite ET; reflexivity). unfold ret at 1. cbv beta iota.
      destruct (N.eqb_spec c0 DASH) as [->|_]; [now destruct N0|reflexivity].
    Qed.
    Lemma step_dashes v un w : t = [dash; dash] ->
      main_step tw cfg (nlen ps1) v true un w = Ok (ANext (nlen ps1 + 1) v false un) w.
    Proof.
      intros ET. rewrite step_start. assert (LT : nlen t = 2) by (rewrite ET; reflexivity). rewrite LT.
      change (true && (2 <=? 2)) with true. cbv iota.
      unfold bind at 1 2. rewrite (read2 dash dash [] w ET). reflexivity.
    Qed.
    Lemma step_long v un w : long t ->
      main_step tw cfg (nlen ps1) v true un w = long_arg tw cfg (nlen ps1) v un p w.
    Proof.
      intros (c & y & ET). rewrite step_start.
      assert (LT : nlen t = 1 + (1 + (1 + nlen y))) by (rewrite ET, !nlen_cons; reflexivity). rewrite LT.
      destruct (N.leb_spec 2 (1 + (1 + (1 + nlen y)))); [|lia]. cbn [andb].
      unfold bind at 1 2. rewrite (read2 dash dash (c :: y) w ET). unfold ret at 1. cbv beta iota.
      change (text_eqb [dash; dash] [DASH; DASH]) with true. cbv iota.
      destruct (N.eqb_spec (1 + (1 + (1 + nlen y))) 2); [lia|reflexivity].
    Qed.
    Lemma step_short v un w : short t ->
      main_step tw cfg (nlen ps1) v true un w =
        (let* r := short_loop tw cfg (nlen ps1) v un p 1 (N.to_nat (nlen t)) in
         match r with inl s => ret s | inr v => unnamed_arg tw cfg (nlen ps1) v true un p end) w.
    Proof.
      intros (c & y & ET & NC). rewrite step_start.
      assert (LT : nlen t = 1 + (1 + nlen y)) by (rewrite ET, !nlen_cons; reflexivity).
      destruct (N.leb_spec 2 (nlen t)); [|lia]. destruct (N.ltb_spec 1 (nlen t)); [|lia]. cbn [andb].
      unfold bind at 1 2. rewrite (read2 dash c y w ET). unfold ret at 1. cbv beta iota.
      destruct (text_eqb [dash; c] [DASH; DASH]) eqn:DD.
      { apply text_eqb_spec in DD. injection DD as ->. now destruct NC. }
      unfold bind at 1 2. rewrite (char_at_ok tw p _ 0 dash w C) by (rewrite ET; reflexivity). reflexivity.
    Qed.
  End Step.

  (** ** The main loop *)
  Lemma loop_next ps1 p ps2 v a un fuel w i' v' a' un' w' : ac_argv cfg = ps1 ++ p :: ps2 ->
    main_step tw cfg (nlen ps1) v a un w = Ok (ANext i' v' a' un') w' ->
    main_loop tw cfg (nlen ps1) v a un (S fuel) w = main_loop tw cfg i' v' a' un' fuel w'.
  Proof.
    intros E H. pose proof (argc_split _ _ E) as L. rewrite nlen_cons in L. cbn [main_loop].
    destruct (N.ltb_spec (nlen ps1) (argc cfg)); [|lia]. cbn [negb]. now rewrite (bind_ok _ _ _ _ _ H).
  Qed.
  Lemma loop_stop ps1 p ps2 v a un fuel w s w' : ac_argv cfg = ps1 ++ p :: ps2 ->
    main_step tw cfg (nlen ps1) v a un w = Ok s w' -> match s with ANext _ _ _ _ => False | _ => True end ->
    main_loop tw cfg (nlen ps1) v a un (S fuel) w = Ok (inl s) w'.
  Proof.
    intros E H S. pose proof (argc_split _ _ E) as L. rewrite nlen_cons in L. cbn [main_loop].
    destruct (N.ltb_spec (nlen ps1) (argc cfg)); [|lia]. cbn [negb]. rewrite (bind_ok _ _ _ _ _ H). now destruct s.
  Qed.
  Lemma ends_lost w v un es0 es stop n st v' w' : n <= nlen es0 + entries_made (max - un) es stop -> lost w v n st v' w' ->
    ends w v un es0 es stop (Ok (inl (AReturn (err_status st) v')) w').
  Proof. intros LE L. left. exists st, v', w'. split; [reflexivity|]. eapply lost_le; eauto. Qed.
  Lemma ends_lost_at w v un es0 xs e1 es stop n st v' w' : Forall2 ent es0 xs -> nlen (unnamed_of e1) + un <= max -> n <= nlen xs + nlen e1 ->
    lost w v n st v' w' -> ends w v un es0 (e1 ++ es) stop (Ok (inl (AReturn (err_status st) v')) w').
  Proof. intros F U LE. apply ends_lost. rewrite made_app by lia. rewrite (f2_nlen F). lia. Qed.
  Lemma made_stop hi fs st : unnamed_of fs = [] -> entries_made hi fs (Some st) = nlen fs + 1.
  Proof. intros U. rewrite <- (app_nil_r fs) at 1. rewrite made_app by (rewrite U, nlen_nil; lia). reflexivity. Qed.
  Lemma ends_stop w v un es0 es st t p v' w' xs' : un <= max -> unnamed_of es = [] -> cs p t -> agood w v w' v' xs' ->
    nlen xs' = nlen es0 + nlen es + 1 ->
    ends w v un es0 es (Some (st, t)) (Ok (inl (AFailure st p v')) w').
  Proof.
    intros L U C G LX. right; right; left. rewrite made_stop by exact U. rewrite U, nlen_nil. split; [lia|]. exists st, t, p, v', w', xs'.
    repeat (split; [auto|]). lia.
  Qed.
  Lemma demand_pos ts : 1 <= arg_demand ts.
  Proof. induction ts; cbn [arg_demand]; lia. Qed.

  (** The rest of a single-dash argument behind its flags. *)
  Lemma short_rest cur t i un fl c rest fs v w xs es0 : flags ds fl fs -> t = dash :: fl ++ c :: rest -> cs cur t -> avrep w v xs ->
    Forall2 ent es0 xs -> (nlen xs + nlen t) * 160 < W64 ->
    (exists st v' w', short_loop tw cfg i v un cur 1 (N.to_nat (nlen t)) w = Ok (inl (AReturn (err_status st) v')) w' /\ lost w v (nlen xs + nlen fl + 1) st v' w') \/
    (exists v1 xs1, Forall2 ent (es0 ++ fs) xs1 /\ nlen xs1 = nlen xs + nlen fl /\
       (unknown ds [dash; c] -> exists w2 xs2, agood w v w2 v1 xs2 /\ nlen xs2 = nlen xs1 + 1 /\
          short_loop tw cfg i v un cur 1 (N.to_nat (nlen t)) w = Ok (inl (AFailure ST_ARG_NOT_UNDERSTOOD cur v1)) w2) /\
       (forall d, named ds [dash; c] d false -> exists w2, agood w v w2 v1 (xs1 ++ [cells (WDef d) 0 WZero WZero]) /\
          short_loop tw cfg i v un cur 1 (N.to_nat (nlen t)) w =
            (let* c' := char_at tw cur (1 + nlen fl + 1) in
             if negb (c' =? 0) then
               let* st := put_value tw (elem v1 (nlen xs1) 0) (mkptr (pb cur) (po cur + (1 + nlen fl + 1))) in
               if negb (st_success st) then ret (inl (AReturn st v1)) else
               ret (inl (ANext (i + 1) v1 true un))
             else
               let* s := next_value tw cfg i v1 un cur (elem v1 (nlen xs1) 0) in
               ret (inl s)) w2)).
  Proof.
    intros FL ET C R F B.
    assert (LT : nlen t = nlen fl + nlen rest + 2) by (rewrite ET, nlen_cons, nlen_app, nlen_cons; lia).
    set (fu := (length rest + 1)%nat). replace (N.to_nat (nlen t)) with (length fl + S fu)%nat by (unfold nlen in LT; unfold nlen, fu; lia).
    destruct (short_flags cur t i un fl fs FL [dash] (c :: rest) 1 v w xs es0 (S fu) ET eq_refl C R F) as [(v0 & w0 & xs0 & E & G & F0)|(st & v' & w' & X & LO)];
      [lia| |left; exists st, v', w'; split; [exact X|eapply lost_le; [|exact LO]; lia]].
    rewrite E. pose proof (f2_nlen F0) as L0. rewrite nlen_app, (f2_nlen F), (flags_len _ _ _ FL) in L0.
    assert (NC : nnth (1 + nlen fl) (t ++ [0]) = Some c).
    { rewrite ET. change (dash :: fl ++ c :: rest) with ((dash :: fl) ++ c :: rest). rewrite <- app_assoc. apply nnth_mid. rewrite nlen_cons. lia. }
    assert (CZ : c <> 0).
    { pose proof (cs_nz tw _ _ C) as Z. rewrite ET in Z. inversion Z as [|? ? _ Z']. apply Forall_app in Z' as [_ Z']. now inversion Z'. }
    cbn [short_loop]. rewrite (bind_ok _ _ _ _ _ (char_at_ok tw cur t (1 + nlen fl) c w0 C NC)).
    destruct (N.eqb_spec c 0) as [|_]; [congruence|].
    destruct (new_def_ok w0 v0 xs0 (proj1 G)) as [(w1 & v1 & E1 & PD)|(st & v' & w' & p & E1 & LO)]; [lia| |].
    2:{ left. exists st, v', w'. rewrite (bind_ok _ _ _ _ _ E1). rewrite st_success_err. split; [reflexivity|].
        eapply lost_after; [apply (avrep_wfw _ _ _ R)|exact G|]. eapply lost_le; [|exact LO]. lia. }
    right. rewrite (bind_ok _ _ _ _ _ E1). okst. cbv iota.
    exists v1, xs0. split; [exact F0|]. split; [lia|]. pose proof (avrep_wfw _ _ _ R) as WF. split.
    - intros U. destruct (PD None) as (w2 & E2 & G2). eexists w2, _. split; [eapply agood_trans; [exact WF|exact G|exact G2]|]. split; [rewrite nlen_app; reflexivity|].
      rewrite (bind_ok _ _ _ _ _ (short_unknown w1 c U)). rewrite (bind_ok _ _ _ _ _ E2). reflexivity.
    - intros d NM. destruct (PD (Some d)) as (w2 & E2 & G2). exists w2. split; [eapply agood_trans; [exact WF|exact G|exact G2]|].
      rewrite (bind_ok _ _ _ _ _ (short_named w1 c d false NM)). rewrite (bind_ok _ _ _ _ _ E2).
      rewrite (bind_ok _ _ _ _ _ (is_boolean_ok w2 _ _ _ NM)). reflexivity.
  Qed.

  Lemma main_loop_ok a ts es stop : scan ds actual a ts es stop -> forall ps1 ps2 v w un es0 xs fuel,
    ac_argv cfg = ps1 ++ ps2 -> Forall2 cs ps2 ts -> (length ts <= fuel)%nat -> avrep w v xs -> Forall2 ent es0 xs ->
    un = nlen (unnamed_of es0) -> un <= max -> (nlen xs + arg_demand ts) * 160 < W64 ->
    ends w v un es0 es stop (main_loop tw cfg (nlen ps1) v a un fuel w).
  Proof.
    assert (N1 : forall {A} (l : list A) x, nlen (l ++ [x]) = nlen l + 1) by (intros; rewrite nlen_app; reflexivity).
    assert (NF : forall e x es0 xs, Forall2 ent es0 xs -> ent e x -> Forall2 ent (es0 ++ [e]) (xs ++ [x])).
    { intros. apply Forall2_app; [assumption|]. constructor; [assumption|constructor]. }
    assert (SH : forall p t ps1 ps2, ac_argv cfg = ps1 ++ p :: ps2 -> cs p t -> ac_argv cfg = (ps1 ++ [p]) ++ ps2).
    { intros. rewrite <- app_assoc. assumption. }
    induction 1 as [a|ts es s _ IH|a t ts es s UN _ IH|t d ts es s LG NM _ IH|t d x ts es s LG NM _ IH|t d LG NM|t ts LG UK|
      t fl fs ts es s SHT ET FLS _ IH|t fl c x fs d ts es s SHT ET NX FLS NM _ IH|t fl c fs d x ts es s SHT ET FLS NM _ IH|
      t fl c fs d SHT ET FLS NM|t fl c y fs ts SHT ET FLS UK]; intros ps1 ps2 v w un es0 xs fuel E F2 LF R F U UM B;
      pose proof (avrep_wfw _ _ _ R) as WF.
    - (* the end *)
      inv F2. rewrite app_nil_r in E. right; right; right. cbn [unnamed_of]. rewrite nlen_nil, N.add_0_r, app_nil_r.
      split; [exact UM|]. split; [reflexivity|]. exists v, w, xs. split; [|split; [now apply agood_refl|exact F]].
      assert (AC0 : argc cfg = nlen ps1) by (unfold argc; now rewrite E).
      destruct fuel; cbn [main_loop]; rewrite AC0, N.ltb_irrefl; reflexivity.
    - (* "--" *)
      inversion F2 as [|p t0 ps ts0 C F2' EA EB]; subst. destruct fuel as [|fuel]; [cbn in LF; lia|]. cbn [arg_demand] in B.
      rewrite (loop_next _ _ _ _ _ _ _ _ _ _ _ _ _ E (step_dashes ps1 p ps _ E C v _ w eq_refl)).
      rewrite <- (N1 _ ps1 p). eapply IH; eauto; [cbn [length] in LF; lia|lia].
    - (* an unnamed argument *)
      inversion F2 as [|p t0 ps ts0 C F2' EA EB]; subst. destruct fuel as [|fuel]; [cbn in LF; lia|]. cbn [arg_demand] in B.
      pose proof (demand_pos ts) as DP.
      pose proof (step_unnamed ps1 p ps _ E C v a (nlen (unnamed_of es0)) w UN) as ST.
      destruct (unnamed_ok w v xs es0 (nlen ps1) a _ p t R F eq_refl C) as [(L & X)|[(L & v' & w' & xs' & X & G & F' & LX)|(L & st & v' & w' & X & LO)]];
        [lia| | |]; rewrite X in ST.
      + rewrite (loop_stop _ _ _ _ _ _ _ _ _ _ E ST I). right; left. cbn [unnamed_of unnamed e_def e_value]. rewrite nlen_cons.
        split; [lia|]. exists p, t, v, w, xs. split; [reflexivity|]. replace (max - nlen (unnamed_of es0)) with 0 by lia.
        split; [reflexivity|]. split; [exact C|]. split; [now apply agood_refl|]. change (unnamed t :: es) with ([unnamed t] ++ es). cbn [app entries_made unnamed e_def e_value]. rewrite (f2_nlen F), N.add_0_r. reflexivity.
      + rewrite (loop_next _ _ _ _ _ _ _ _ _ _ _ _ _ E ST). rewrite <- (N1 _ ps1 p).
        change (unnamed t :: es) with ([unnamed t] ++ es).
        eapply ends_after; [exact WF|exact G|reflexivity|reflexivity|exact L|].
        eapply IH; eauto; [cbn [length] in LF; lia|apply G|now rewrite unnamed_app, nlen_app|lia].
      + rewrite (loop_stop _ _ _ _ _ _ _ _ _ _ E ST I). eapply (ends_lost_at _ _ _ _ _ [unnamed t]); [exact F|change (nlen (unnamed_of [unnamed t])) with 1; lia|reflexivity|exact LO].
    - (* "--flag" *)
      inversion F2 as [|p t0 ps ts0 C F2' EA EB]; subst. destruct fuel as [|fuel]; [cbn in LF; lia|]. cbn [arg_demand] in B.
      pose proof (demand_pos ts) as DP.
      pose proof (step_long ps1 p ps _ E C v (nlen (unnamed_of es0)) w LG) as ST. unfold long_arg in ST.
      destruct (new_def_ok w v xs R) as [(w1 & v1 & E1 & PD)|(st & v' & w' & q & E1 & LO)]; [lia| |];
        rewrite (bind_ok _ _ _ _ _ E1) in ST.
      2:{ rewrite st_success_err in ST. rewrite (loop_stop _ _ _ _ _ _ _ _ _ _ E ST I). eapply (ends_lost_at _ _ _ _ _ [flag d]); [exact F|exact UM|reflexivity|exact LO]. }
      change (negb (st_success ST_SUCCESS)) with false in ST. cbv iota in ST.
      rewrite (bind_ok _ _ _ _ _ (long_named w1 p t d _ C NM)) in ST. destruct (PD (Some d)) as (w2 & E2 & G2).
      rewrite (bind_ok _ _ _ _ _ E2) in ST. rewrite (bind_ok _ _ _ _ _ (is_boolean_ok w2 _ _ _ NM)) in ST.
      rewrite (loop_next _ _ _ _ _ _ _ _ _ _ _ _ _ E ST). rewrite <- (N1 _ ps1 p).
      change (flag d :: es) with ([flag d] ++ es).
      eapply ends_after; [exact WF|exact G2|reflexivity|symmetry; apply N.add_0_r|exact UM|].
      eapply IH; eauto; [cbn [length] in LF; lia|apply G2|apply NF; [exact F|reflexivity]|rewrite unnamed_app, nlen_app; symmetry; apply N.add_0_r|rewrite N1; lia].
    - (* "--name value" *)
      inversion F2 as [|p t0 ps ts0 C F2' EA EB]; subst. inversion F2' as [|q x0 ps' ts0 CX F2'' EA EB]; subst.
      destruct fuel as [|fuel]; [cbn in LF; lia|]. cbn [arg_demand] in B. pose proof (demand_pos ts) as DP.
      pose proof (step_long ps1 p _ _ E C v (nlen (unnamed_of es0)) w LG) as ST. unfold long_arg in ST.
      destruct (new_def_ok w v xs R) as [(w1 & v1 & E1 & PD)|(st & v' & w' & z & E1 & LO)]; [lia| |];
        rewrite (bind_ok _ _ _ _ _ E1) in ST.
      2:{ rewrite st_success_err in ST. rewrite (loop_stop _ _ _ _ _ _ _ _ _ _ E ST I). eapply (ends_lost_at _ _ _ _ _ [valued d x]); [exact F|exact UM|reflexivity|exact LO]. }
      change (negb (st_success ST_SUCCESS)) with false in ST. cbv iota in ST.
      rewrite (bind_ok _ _ _ _ _ (long_named w1 p t d _ C NM)) in ST. destruct (PD (Some d)) as (w2 & E2 & G2).
      rewrite (bind_ok _ _ _ _ _ E2) in ST. rewrite (bind_ok _ _ _ _ _ (is_boolean_ok w2 _ _ _ NM)) in ST. cbv iota in ST.
      destruct (next_value_ok ps1 p q ps' w2 v1 (nlen (unnamed_of es0)) (WDef d) xs x E CX (proj1 G2)) as (w3 & E3 & G3).
      rewrite E3 in ST. rewrite (loop_next _ _ _ _ _ _ _ _ _ _ _ _ _ E ST).
      replace (nlen ps1 + 2) with (nlen ((ps1 ++ [p]) ++ [q])) by (rewrite !N1; lia).
      change (valued d x :: es) with ([valued d x] ++ es).
      eapply ends_after; [exact WF|eapply agood_trans; [exact WF|exact G2|exact G3]|reflexivity|symmetry; apply N.add_0_r|exact UM|].
      eapply IH; [rewrite <- !app_assoc; exact E|exact F2''|cbn [length] in LF; lia|apply G3|apply NF; [exact F|now exists q]| |exact UM|rewrite N1; lia].
      rewrite unnamed_app, nlen_app; symmetry; apply N.add_0_r.
    - (* "--name" without value *)
      inversion F2 as [|p t0 ps ts0 C F2' EA EB]; subst. inv F2'. destruct fuel as [|fuel]; [cbn in LF; lia|]. cbn [arg_demand] in B.
      pose proof (step_long ps1 p _ _ E C v (nlen (unnamed_of es0)) w LG) as ST. unfold long_arg in ST.
      destruct (new_def_ok w v xs R) as [(w1 & v1 & E1 & PD)|(st & v' & w' & z & E1 & LO)]; [lia| |];
        rewrite (bind_ok _ _ _ _ _ E1) in ST.
      2:{ rewrite st_success_err in ST. rewrite (loop_stop _ _ _ _ _ _ _ _ _ _ E ST I). eapply ends_lost; [|exact LO]. rewrite (f2_nlen F). reflexivity. }
      change (negb (st_success ST_SUCCESS)) with false in ST. cbv iota in ST.
      rewrite (bind_ok _ _ _ _ _ (long_named w1 p t d _ C NM)) in ST. destruct (PD (Some d)) as (w2 & E2 & G2).
      rewrite (bind_ok _ _ _ _ _ E2) in ST. rewrite (bind_ok _ _ _ _ _ (is_boolean_ok w2 _ _ _ NM)) in ST. cbv iota in ST.
      rewrite (next_value_missing _ _ w2 v1 _ _ E) in ST. rewrite (loop_stop _ _ _ _ _ _ _ _ _ _ E ST I).
      eapply ends_stop; [exact UM|reflexivity|exact C|exact G2|]. rewrite N1, (f2_nlen F), nlen_nil. lia.
    - (* "--unknown" *)
      inversion F2 as [|p t0 ps ts0 C F2' EA EB]; subst. destruct fuel as [|fuel]; [cbn in LF; lia|]. cbn [arg_demand] in B.
      pose proof (demand_pos ts) as DP.
      pose proof (step_long ps1 p _ _ E C v (nlen (unnamed_of es0)) w LG) as ST. unfold long_arg in ST.
      destruct (new_def_ok w v xs R) as [(w1 & v1 & E1 & PD)|(st & v' & w' & z & E1 & LO)]; [lia| |];
        rewrite (bind_ok _ _ _ _ _ E1) in ST.
      2:{ rewrite st_success_err in ST. rewrite (loop_stop _ _ _ _ _ _ _ _ _ _ E ST I). eapply ends_lost; [|exact LO]. rewrite (f2_nlen F). reflexivity. }
      change (negb (st_success ST_SUCCESS)) with false in ST. cbv iota in ST.
      rewrite (bind_ok _ _ _ _ _ (long_unknown w1 p t C UK)) in ST. destruct (PD None) as (w2 & E2 & G2).
      rewrite (bind_ok _ _ _ _ _ E2) in ST. rewrite (loop_stop _ _ _ _ _ _ _ _ _ _ E ST I).
      eapply ends_stop; [exact UM|reflexivity|exact C|exact G2|]. rewrite N1, (f2_nlen F), nlen_nil. lia.
    - (* "-flags" *)
      inversion F2 as [|p t0 ps ts0 C F2' EA EB]; subst. pose proof (demand_pos ts) as DP.
      destruct fuel as [|fuel]; [cbn in LF; lia|]. cbn [arg_demand] in B.
      set (t := dash :: fl) in *. assert (LT : nlen t = nlen fl + 1) by (unfold t; rewrite nlen_cons; lia).
      pose proof (step_short ps1 p _ _ E C v (nlen (unnamed_of es0)) w SHT) as ST.
      replace (N.to_nat (nlen t)) with (length fl + 1)%nat in ST by (rewrite LT; unfold nlen; lia).
      destruct (short_flags p t (nlen ps1) (nlen (unnamed_of es0)) fl fs FLS [dash] [] 1 v w xs es0 1%nat) as
        [(v1 & w1 & xs1 & X & G & F1)|(st & v' & w' & X & LO)]; [unfold t; now rewrite app_nil_r|reflexivity|exact C|exact R|exact F|lia| |].
      2:{ rewrite (bind_ok _ _ _ _ _ X) in ST. rewrite (loop_stop _ _ _ _ _ _ _ _ _ _ E ST I). eapply (ends_lost_at _ _ _ _ _ fs); [exact F|rewrite (flags_unnamed _ _ _ FLS); exact UM|rewrite (flags_len _ _ _ FLS); reflexivity|exact LO]. }
      assert (NC : nnth (1 + nlen fl) (t ++ [0]) = Some 0).
      { apply (nnth_mid _ t 0 []). lia. }
      assert (X1 : short_loop tw cfg (nlen ps1) v1 (nlen (unnamed_of es0)) p (1 + nlen fl) 1 w1 = Ok (inr v1) w1).
      { cbn [short_loop]. rewrite (bind_ok _ _ _ _ _ (char_at_ok tw p t _ 0 w1 C NC)). reflexivity. }
      rewrite X1 in X. rewrite (bind_ok _ _ _ _ _ X) in ST.
      pose proof (f2_nlen F1) as L1. rewrite nlen_app, (f2_nlen F), (flags_len _ _ _ FLS) in L1.
      assert (UE : nlen (unnamed_of (es0 ++ fs)) = nlen (unnamed_of es0)).
      { rewrite unnamed_app, (flags_unnamed _ _ _ FLS), app_nil_r. reflexivity. }
      eapply ends_after; [exact WF|exact G|reflexivity|rewrite (flags_unnamed _ _ _ FLS); symmetry; apply N.add_0_r|exact UM|].
      pose proof (avrep_wfw _ _ _ (proj1 G)) as WF1.
      destruct (unnamed_ok w1 v1 xs1 (es0 ++ fs) (nlen ps1) true _ p t (proj1 G) F1 (eq_sym UE) C) as
        [(L & Y)|[(L & v' & w' & xs' & Y & G' & F' & LX)|(L & st & v' & w' & Y & LO)]];
        [lia| | |]; rewrite Y in ST.
      + rewrite (loop_stop _ _ _ _ _ _ _ _ _ _ E ST I). right; left. cbn [app actual unnamed_of unnamed e_def e_value]. rewrite nlen_cons.
        split; [lia|]. exists p, t, v1, w1, xs1. split; [reflexivity|]. replace (max - nlen (unnamed_of es0)) with 0 by lia.
        split; [reflexivity|]. split; [exact C|]. split; [apply agood_refl, G|]. cbn [app entries_made unnamed e_def e_value]. rewrite (f2_nlen F1), N.add_0_r. reflexivity.
      + rewrite (loop_next _ _ _ _ _ _ _ _ _ _ _ _ _ E ST). rewrite <- (N1 _ ps1 p).
        eapply ends_after; [exact WF1|exact G'|reflexivity|reflexivity|exact L|].
        eapply IH; eauto; [cbn [length] in LF; lia|apply G'| |lia]. rewrite unnamed_app, nlen_app, UE. reflexivity.
      + rewrite (loop_stop _ _ _ _ _ _ _ _ _ _ E ST I). eapply (ends_lost_at _ _ _ _ _ [unnamed t]); [exact F1|change (nlen (unnamed_of [unnamed t])) with 1; lia|reflexivity|exact LO].
    - (* "-flagscvalue" *)
      inversion F2 as [|p t0 ps ts0 C F2' EA EB]; subst. pose proof (demand_pos ts) as DP.
      destruct fuel as [|fuel]; [cbn in LF; lia|]. cbn [arg_demand] in B.
      set (t := dash :: fl ++ c :: x) in *. assert (CT : t = dash :: fl ++ c :: x) by reflexivity.
      pose proof (step_short ps1 p _ _ E C v (nlen (unnamed_of es0)) w SHT) as ST.
      destruct (short_rest p t (nlen ps1) (nlen (unnamed_of es0)) fl c x fs v w xs es0 FLS eq_refl C R F) as [(st & v' & w' & X & LO)|
        (v1 & xs1 & F1 & L1 & _ & XN)]; [lia| |].
      { rewrite (bind_ok _ _ _ _ _ X) in ST. rewrite (loop_stop _ _ _ _ _ _ _ _ _ _ E ST I). replace (fs ++ valued d x :: es) with ((fs ++ [valued d x]) ++ es) by now rewrite <- app_assoc.
        eapply (ends_lost_at _ _ _ _ _ (fs ++ [valued d x])); cycle 3; [exact LO|exact F|rewrite unnamed_app, (flags_unnamed _ _ _ FLS); exact UM|rewrite N1, (flags_len _ _ _ FLS); lia]. }
      destruct (XN d NM) as (w2 & G2 & X). unfold bind at 1 in ST. rewrite X in ST. clear X XN.
      assert (LT : nlen t = nlen fl + nlen (x : token) + 2) by (rewrite CT, nlen_cons, nlen_app, nlen_cons; lia).
      assert (NC : exists c' x', x = c' :: x' /\ c' <> 0).
      { pose proof (cs_nz tw _ _ C) as Z. rewrite CT in Z. destruct x as [|c' x']; [congruence|]. exists c', x'. split; [reflexivity|].
        inversion Z as [|? ? _ Z']. apply Forall_app in Z' as [_ Z']. inversion Z' as [|? ? _ Z2]. now inversion Z2. }
      destruct NC as (c' & x' & EX & CZ).
      assert (NC : nnth (1 + nlen fl + 1) (t ++ [0]) = Some c').
      { rewrite CT, EX. replace ((dash :: fl ++ c :: c' :: x') ++ [0]) with ((dash :: fl ++ [c]) ++ c' :: x' ++ [0])
          by (cbn [app]; now rewrite <- !app_assoc).
        apply nnth_mid. rewrite nlen_cons, N1. lia. }
      rewrite (bind_ok _ _ _ _ _ (char_at_ok tw p t _ c' w2 C NC)) in ST. destruct (N.eqb_spec c' 0) as [|_]; [congruence|]. cbn [negb] in ST.
      assert (CX : cs (mkptr (pb p) (po p + (1 + nlen fl + 1))) x).
      { destruct p as [pb' po']. cbn [pb po]. replace (1 + nlen fl + 1) with (nlen (dash :: fl ++ [c])) by (rewrite nlen_cons, N1; lia).
        apply cs_skip. rewrite CT in C. cbn [app] in *. rewrite <- app_assoc. exact C. }
      destruct (put_value_ok tw w2 v1 xs1 (WDef d) _ x (proj1 G2) CX) as (w3 & E3 & G3).
      rewrite (bind_ok _ _ _ _ _ E3) in ST. change (negb (st_success ST_SUCCESS)) with false in ST. cbv iota in ST.
      unfold ret in ST. rewrite (loop_next _ _ _ _ _ _ _ _ _ _ _ _ _ E ST). rewrite <- (N1 _ ps1 p).
      replace (fs ++ valued d x :: es) with ((fs ++ [valued d x]) ++ es) by now rewrite <- app_assoc.
      assert (UE : nlen (unnamed_of (fs ++ [valued d x])) = 0) by (rewrite unnamed_app, (flags_unnamed _ _ _ FLS); reflexivity).
      eapply ends_after; [exact WF|eapply agood_trans; [exact WF|exact G2|exact G3]|reflexivity|rewrite UE; symmetry; apply N.add_0_r|exact UM|].
      eapply IH; [rewrite <- !app_assoc; exact E|exact F2'|cbn [length] in LF; lia|apply G3| | |exact UM|rewrite N1; lia].
      + rewrite app_assoc. apply NF; [exact F1|]. eexists. split; [exact CX|reflexivity].
      + rewrite unnamed_app, nlen_app, UE. symmetry; apply N.add_0_r.
    - (* "-flagsc" "value" *)
      inversion F2 as [|p t0 ps ts0 C F2' EA EB]; subst. inversion F2' as [|q x0 ps' ts0 CX F2'' EA EB]; subst. pose proof (demand_pos ts) as DP.
      destruct fuel as [|fuel]; [cbn in LF; lia|]. cbn [arg_demand] in B.
      set (t := dash :: fl ++ [c]) in *. assert (CT : t = dash :: fl ++ [c]) by reflexivity.
      pose proof (step_short ps1 p _ _ E C v (nlen (unnamed_of es0)) w SHT) as ST.
      destruct (short_rest p t (nlen ps1) (nlen (unnamed_of es0)) fl c [] fs v w xs es0 FLS eq_refl C R F) as [(st & v' & w' & X & LO)|
        (v1 & xs1 & F1 & L1 & _ & XN)]; [lia| |].
      { rewrite (bind_ok _ _ _ _ _ X) in ST. rewrite (loop_stop _ _ _ _ _ _ _ _ _ _ E ST I). replace (fs ++ valued d x :: es) with ((fs ++ [valued d x]) ++ es) by now rewrite <- app_assoc.
        eapply (ends_lost_at _ _ _ _ _ (fs ++ [valued d x])); cycle 3; [exact LO|exact F|rewrite unnamed_app, (flags_unnamed _ _ _ FLS); exact UM|rewrite N1, (flags_len _ _ _ FLS); lia]. }
      destruct (XN d NM) as (w2 & G2 & X). unfold bind at 1 in ST. rewrite X in ST. clear X XN.
      assert (LT : nlen t = nlen fl + nlen ([] : token) + 2) by (rewrite CT, nlen_cons, nlen_app, nlen_cons; lia).
      assert (NC : nnth (1 + nlen fl + 1) (t ++ [0]) = Some 0).
      { rewrite CT. apply (nnth_mid _ (dash :: fl ++ [c]) 0 []). rewrite nlen_cons, N1. lia. }
      rewrite (bind_ok _ _ _ _ _ (char_at_ok tw p t _ 0 w2 C NC)) in ST. change (negb (0 =? 0)) with false in ST. cbv iota in ST.
      destruct (next_value_ok ps1 p q ps' w2 v1 (nlen (unnamed_of es0)) (WDef d) xs1 x E CX (proj1 G2)) as (w3 & E3 & G3).
      rewrite (bind_ok _ _ _ _ _ E3) in ST. unfold ret in ST. rewrite (loop_next _ _ _ _ _ _ _ _ _ _ _ _ _ E ST).
      replace (nlen ps1 + 2) with (nlen ((ps1 ++ [p]) ++ [q])) by (rewrite !N1; lia).
      replace (fs ++ valued d x :: es) with ((fs ++ [valued d x]) ++ es) by now rewrite <- app_assoc.
      assert (UE : nlen (unnamed_of (fs ++ [valued d x])) = 0) by (rewrite unnamed_app, (flags_unnamed _ _ _ FLS); reflexivity).
      eapply ends_after; [exact WF|eapply agood_trans; [exact WF|exact G2|exact G3]|reflexivity|rewrite UE; symmetry; apply N.add_0_r|exact UM|].
      eapply IH; [rewrite <- !app_assoc; exact E|exact F2''|cbn [length] in LF; lia|apply G3| | |exact UM|rewrite N1; lia].
      + rewrite app_assoc. apply NF; [exact F1|]. eexists. split; [exact CX|reflexivity].
      + rewrite unnamed_app, nlen_app, UE. symmetry; apply N.add_0_r.
    - (* "-flagsc" without value *)
      inversion F2 as [|p t0 ps ts0 C F2' EA EB]; subst. inv F2'.
      destruct fuel as [|fuel]; [cbn in LF; lia|]. cbn [arg_demand] in B.
      set (t := dash :: fl ++ [c]) in *. assert (CT : t = dash :: fl ++ [c]) by reflexivity.
      pose proof (step_short ps1 p _ _ E C v (nlen (unnamed_of es0)) w SHT) as ST.
      destruct (short_rest p t (nlen ps1) (nlen (unnamed_of es0)) fl c [] fs v w xs es0 FLS eq_refl C R F) as [(st & v' & w' & X & LO)|
        (v1 & xs1 & F1 & L1 & _ & XN)]; [lia| |].
      { rewrite (bind_ok _ _ _ _ _ X) in ST. rewrite (loop_stop _ _ _ _ _ _ _ _ _ _ E ST I). eapply ends_lost; [|exact LO]. rewrite made_stop by exact (flags_unnamed _ _ _ FLS). rewrite (f2_nlen F), (flags_len _ _ _ FLS). lia. }
      destruct (XN d NM) as (w2 & G2 & X). unfold bind at 1 in ST. rewrite X in ST. clear X XN.
      assert (LT : nlen t = nlen fl + nlen ([] : token) + 2) by (rewrite CT, nlen_cons, nlen_app, nlen_cons; lia).
      assert (NC : nnth (1 + nlen fl + 1) (t ++ [0]) = Some 0).
      { rewrite CT. apply (nnth_mid _ (dash :: fl ++ [c]) 0 []). rewrite nlen_cons, N1. lia. }
      rewrite (bind_ok _ _ _ _ _ (char_at_ok tw p t _ 0 w2 C NC)) in ST. change (negb (0 =? 0)) with false in ST. cbv iota in ST.
      rewrite (bind_ok _ _ _ _ _ (next_value_missing _ _ w2 v1 _ _ E)) in ST. unfold ret in ST.
      rewrite (loop_stop _ _ _ _ _ _ _ _ _ _ E ST I).
      eapply ends_stop; [exact UM|exact (flags_unnamed _ _ _ FLS)|exact C|exact G2|]. rewrite N1, L1, (f2_nlen F), (flags_len _ _ _ FLS). lia.
    - (* "-flags?" *)
      inversion F2 as [|p t0 ps ts0 C F2' EA EB]; subst. destruct fuel as [|fuel]; [cbn in LF; lia|]. cbn [arg_demand] in B.
      pose proof (demand_pos ts) as DP. set (t := dash :: fl ++ c :: y) in *.
      pose proof (step_short ps1 p _ _ E C v (nlen (unnamed_of es0)) w SHT) as ST.
      destruct (short_rest p t (nlen ps1) (nlen (unnamed_of es0)) fl c y fs v w xs es0 FLS eq_refl C R F) as [(st & v' & w' & X & LO)|
        (v1 & xs1 & F1 & L1 & XU & _)]; [lia| |].
      + rewrite (bind_ok _ _ _ _ _ X) in ST. rewrite (loop_stop _ _ _ _ _ _ _ _ _ _ E ST I). eapply ends_lost; [|exact LO]. rewrite made_stop by exact (flags_unnamed _ _ _ FLS). rewrite (f2_nlen F), (flags_len _ _ _ FLS). lia.
      + destruct (XU UK) as (w2 & xs2 & G2 & LX2 & X). rewrite (bind_ok _ _ _ _ _ X) in ST. rewrite (loop_stop _ _ _ _ _ _ _ _ _ _ E ST I).
        eapply ends_stop; [exact UM|exact (flags_unnamed _ _ _ FLS)|exact C|exact G2|]. rewrite LX2, L1, (f2_nlen F), (flags_len _ _ _ FLS). lia.
  Qed.
End Loop.
