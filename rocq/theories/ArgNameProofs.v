(** The program name, argv[0], is not read. *)
From Verif Require Import Base NListFacts Status Mem MemFacts VectorModel VectorDriver StringModel StringDriver ArgModel ArgSpec ArgDriver ArgFinal2 ArgNameSpec.
From Coq Require Import ZifyBool ZifyNat ZifyN.
Import ListNotations.

Lemma bind_ext : forall {C A B} (m m' : Mem.M C A) (f g : A -> Mem.M C B),
  (forall w, m w = m' w) -> (forall a w, f a w = g a w) -> forall w, bind m f w = bind m' g w.
Proof. intros C A B m m' f g E H w. unfold bind. rewrite E. destruct (m' w); [apply H|reflexivity]. Qed.

Section Name.
  Variables (tw : Mem.world N) (c1 c2 : aconfig).
  Hypothesis Eargs : ac_args c1 = ac_args c2.
  Hypothesis Emin : ac_min c1 = ac_min c2.
  Hypothesis Emax : ac_max c1 = ac_max c2.
  Hypothesis Elen : nlen (ac_argv c1) = nlen (ac_argv c2).
  Hypothesis Enth : forall i, 1 <= i -> nnth i (ac_argv c1) = nnth i (ac_argv c2).

  Lemma argv_at_same i : 1 <= i -> argv_at c1 i = argv_at c2 i.
  Proof. intros H. unfold argv_at. now rewrite Enth. Qed.
  Lemma next_value_same i v u cur arg w : next_value tw c1 i v u cur arg w = next_value tw c2 i v u cur arg w.
  Proof. unfold next_value, argc. rewrite Elen. now rewrite argv_at_same by lia. Qed.
  Lemma long_arg_same i v u cur w : long_arg tw c1 i v u cur w = long_arg tw c2 i v u cur w.
  Proof.
    unfold long_arg, is_boolean. rewrite Eargs. apply bind_ext; [reflexivity|]. intros [[st v1] arg] w1.
    destruct (negb (st_success st)); [reflexivity|]. apply bind_ext; [reflexivity|]. intros f w2.
    apply bind_ext; [reflexivity|]. intros [d|] w3; [|reflexivity]. apply bind_ext; [reflexivity|].
    intros b w4. destruct b; [reflexivity|]. apply next_value_same.
  Qed.
  Lemma short_loop_same i u cur fuel : forall v r w, short_loop tw c1 i v u cur r fuel w = short_loop tw c2 i v u cur r fuel w.
  Proof.
    induction fuel as [|fuel IH]; intros v r w; [reflexivity|]. cbn [short_loop]. unfold is_boolean. rewrite Eargs.
    apply bind_ext; [reflexivity|]. intros c w1. destruct (c =? 0); [reflexivity|].
    apply bind_ext; [reflexivity|]. intros [[st v1] arg] w2. destruct (negb (st_success st)); [reflexivity|].
    apply bind_ext; [reflexivity|]. intros f w3. apply bind_ext; [reflexivity|]. intros [d|] w4; [|reflexivity].
    apply bind_ext; [reflexivity|]. intros b w5. destruct b; [apply IH|].
    apply bind_ext; [reflexivity|]. intros c' w6. destruct (negb (c' =? 0)); [reflexivity|].
    apply bind_ext; [intros; apply next_value_same|reflexivity].
  Qed.
  Lemma main_step_same i v a u w : 1 <= i -> main_step tw c1 i v a u w = main_step tw c2 i v a u w.
  Proof.
    intros H. unfold main_step, unnamed_arg. rewrite argv_at_same, Emax by assumption.
    apply bind_ext; [reflexivity|]. intros cur w1. apply bind_ext; [reflexivity|]. intros len w2.
    apply bind_ext; [reflexivity|]. intros dd w3. destruct dd.
    { destruct (len =? 2); [reflexivity|apply long_arg_same]. }
    apply bind_ext; [reflexivity|]. intros sd w4. destruct sd; [|reflexivity].
    apply bind_ext; [intros; apply short_loop_same|reflexivity].
  Qed.
  Lemma main_step_forward i v a u w i' v' a' u' w' : main_step tw c2 i v a u w = Ok (ANext i' v' a' u') w' -> i < i'.
  Proof.
    assert (NV : forall v u cur arg w v' a' u' w', next_value tw c2 i v u cur arg w = Ok (ANext i' v' a' u') w' -> i < i').
    { clear. intros v u cur arg w v' a' u' w'. unfold next_value. destruct (i =? _); [intros H; inversion H|].
      unfold bind. destruct (argv_at _ _ _); [|discriminate]. destruct (put_value _ _ _ _) as [st|]; [|discriminate].
      destruct (negb (st_success _)); intros H; inversion H; subst; lia. }
    assert (UN : forall v a u cur w v' a' u' w', unnamed_arg tw c2 i v a u cur w = Ok (ANext i' v' a' u') w' -> i < i').
    { clear. intros v a u cur w v' a' u' w'. unfold unnamed_arg. destruct (_ <? _); [intros H; inversion H|].
      unfold bind. destruct (new_arg _ _) as [[[st v1] arg] w1|]; [|discriminate].
      destruct (negb (st_success st)); [intros H; inversion H|]. destruct (put_value _ _ _ _) as [st'|]; [|discriminate].
      destruct (negb (st_success _)); intros H; inversion H; subst; lia. }
    assert (LA : forall v u cur w v' a' u' w', long_arg tw c2 i v u cur w = Ok (ANext i' v' a' u') w' -> i < i').
    { clear - NV. intros v u cur w v' a' u' w'. unfold long_arg, bind.
      destruct (new_arg _ _) as [[[st v1] arg] w1|]; [|discriminate].
      destruct (negb (st_success st)); [intros H; inversion H|].
      destruct (find_long _ _ _ _ _) as [f w2|]; [|discriminate]. destruct (put_def _ _ _) as [[d|] w3|]; [|intros H; inversion H|discriminate].
      destruct (is_boolean _ _ _) as [b w4|]; [|discriminate]. destruct b; [intros H; inversion H; lia|]. apply NV. }
    assert (SL : forall fuel v u cur r w v' a' u' w', short_loop tw c2 i v u cur r fuel w = Ok (inl (ANext i' v' a' u')) w' -> i < i').
    { clear - NV. induction fuel as [|fuel IH]; intros v u cur r w v' a' u' w'; cbn [short_loop]; unfold bind;
      (destruct (char_at _ _ _ _) as [c w1|]; [|discriminate]); (destruct (c =? 0); [intros H; inversion H|]); [discriminate|].
      destruct (new_arg _ _) as [[[st v1] arg] w2|]; [|discriminate].
      destruct (negb (st_success st)); [intros H; inversion H|].
      destruct (find_short _ _ _ _ _) as [f w3|]; [|discriminate]. destruct (put_def _ _ _) as [[d|] w4|]; [|intros H; inversion H|discriminate].
      destruct (is_boolean _ _ _) as [b w5|]; [|discriminate]. destruct b; [apply IH|].
      destruct (char_at _ _ _ _) as [c' w6|]; [|discriminate]. destruct (negb (c' =? 0)).
      - destruct (put_value _ _ _ _) as [st' w7|]; [|discriminate]. destruct (negb (st_success _)); intros H; inversion H; subst; lia.
      - destruct (next_value _ _ _ _ _ _ _ _) as [s w7|] eqn:E; [|discriminate]. intros H. inversion H. subst. eapply NV; exact E. }
    unfold main_step, bind. destruct (argv_at _ _ _) as [cur w1|]; [|discriminate].
    destruct (astrlen _ _ _) as [len w2|]; [|discriminate].
    match goal with |- context [match ?m with Ok _ _ => _ | Fault _ => _ end] => destruct m as [dd w3|]; [|discriminate] end.
    destruct dd. { destruct (len =? 2); [intros H; inversion H; lia|apply LA]. }
    match goal with |- context [match ?m with Ok _ _ => _ | Fault _ => _ end] => destruct m as [sd w4|]; [|discriminate] end.
    destruct sd; [|apply UN].
    destruct (short_loop _ _ _ _ _ _ _ _ _) as [[s|v1] w5|] eqn:E; [| |discriminate].
    - intros H. inversion H. subst. eapply SL; exact E.
    - apply UN.
  Qed.
  Lemma main_loop_same fuel : forall i v a u w, 1 <= i -> main_loop tw c1 i v a u fuel w = main_loop tw c2 i v a u fuel w.
  Proof.
    induction fuel as [|fuel IH]; intros i v a u w H; cbn [main_loop]; unfold argc; rewrite Elen;
      (destruct (negb _); [reflexivity|]); [reflexivity|]. unfold bind. rewrite main_step_same by assumption.
    destruct (main_step tw c2 i v a u w) as [s w1|] eqn:E; [|reflexivity]. destruct s; try reflexivity.
    apply IH. apply main_step_forward in E. lia.
  Qed.
  Lemma argparse_same al w : argparse_ex tw c1 al w = argparse_ex tw c2 al w.
  Proof.
    unfold argparse_ex, argc. rewrite Eargs, Emin, Emax, Elen. destruct (_ <? _); [reflexivity|].
    apply bind_ext; [reflexivity|]. intros ok w1. destruct (negb ok); [reflexivity|].
    apply bind_ext; [reflexivity|]. intros [st [v|]] w2; [|reflexivity]. destruct (negb _); [reflexivity|].
    apply bind_ext; [intros; apply main_loop_same; lia|]. intros [s|[v1 u]] w3; reflexivity.
  Qed.
End Name.

Lemma program_name_unread : forall tw p q argv lo hi args al w,
  argparse_ex tw (mkaconfig (p :: argv) lo hi args) al w = argparse_ex tw (mkaconfig (q :: argv) lo hi args) al w.
Proof.
  intros. apply argparse_same; try reflexivity. intros i H. cbn [ac_argv].
  replace i with (N.succ (i - 1)) by lia. unfold nnth. rewrite !Nnat.N2Nat.inj_succ. reflexivity.
Qed.
Lemma no_program_name : forall tw p lo hi args al w,
  argparse_ex tw (mkaconfig [] lo hi args) al w = argparse_ex tw (mkaconfig [p] lo hi args) al w.
Proof. intros. reflexivity. Qed.

(** In a configuration without tokens and definitions no text is read. *)
Lemma nothing_read : forall tw tw' p lo hi al w,
  argparse_ex tw (mkaconfig [p] lo hi []) al w = argparse_ex tw' (mkaconfig [p] lo hi []) al w.
Proof. intros. reflexivity. Qed.

Lemma any_name : forall tw cfg ts ds w,
  tokens_are tw cfg ts ds -> names_ok ds -> ac_min cfg <= ac_max cfg -> world_ok w -> allocator_ok w -> arg_room ts ->
  exists es stop o r w',
    scan ds actual true ts es stop /\ judged ds (ac_min cfg) (ac_max cfg) es stop o /\
    argparse tw cfg w = Ok r w' /\ delivered tw w w' r o.
Proof.
  intros tw [argv lo hi args] ts ds w [T D] NO MM WO AO AR. cbn [ac_argv ac_args ac_min ac_max] in *.
  (* a configuration with a good program name that does the same *)
  assert (HC : forall p prog, cstring_at tw p prog ->
    exists es stop o r w', scan ds actual true ts es stop /\ judged ds lo hi es stop o /\
      argparse tw (mkaconfig argv lo hi args) w = Ok r w' /\ delivered tw w w' r o).
  { intros p prog CP.
    assert (E : argparse tw (mkaconfig argv lo hi args) w = argparse tw (mkaconfig (p :: tl argv) lo hi args) w).
    { destruct argv as [|q argv]; [apply no_program_name|apply program_name_unread]. }
    rewrite E. apply (parse_ok tw (mkaconfig (p :: tl argv) lo hi args) prog ts ds w).
    split; [|auto 10]. split; [|exact D]. constructor; assumption. }
  inversion T as [ET ET'|p prog argv' ts' CP T' ET ET']; subst; [|exact (HC p prog CP)].
  inversion D as [|d x args' ds' (CP & _) D']; subst; [|exact (HC _ _ CP)].
  (* no text at all *)
  clear HC.
  set (tw' := mkbuild (fun b => if b =? 0 then Some [0] else None) 1 (fun _ => AFail ST_FAILED) 0 [] false : Mem.world N).
  assert (CP : cstring_at tw' (mkptr 0 0) []).
  { split; [constructor|]. split; [reflexivity|]. exists [], []. split; reflexivity. }
  destruct (parse_ok tw' (mkaconfig [mkptr 0 0] lo hi []) [] [] [] w) as (es & stop & o & r & w' & SC & J & RUN & DE).
  { split; [|auto 10]. split; constructor; auto. }
  exists es, stop, o, r, w'. split; [exact SC|]. split; [exact J|]. split.
  { rewrite <- RUN. unfold argparse. rewrite (nothing_read tw' tw).
    destruct argv as [|q argv]; [apply no_program_name|]. cbn [tl] in ET. subst. apply program_name_unread. }
  inversion SC; subst. destruct r as [[st ov] tok].
  assert (O : o = Accept [] \/ o = Reject ST_TOO_FEW_ARGS None).
  { destruct J as [(H1 & _)|[(_ & s & t & H1 & _)|[(_ & _ & _ & ->)|[(_ & _ & nm & (k & y & FM & _) & _)|(_ & _ & _ & ->)]]]]; auto.
    - cbn in H1. change (nlen []) with 0 in H1. lia.
    - discriminate.
    - destruct (N.to_nat k) eqn:EK; unfold nnth in FM; rewrite EK in FM; discriminate. }
  destruct O as [-> | ->]; cbn in DE |- *.
  - destruct DE as (-> & -> & v & -> & [S1 S2] & R). split; [reflexivity|]. split; [reflexivity|]. exists v. split; [reflexivity|].
    split; [|exact R]. split; [exact S1|]. intros i e NE. unfold nnth in NE. destruct (N.to_nat i); discriminate.
  - exact DE.
Qed.
