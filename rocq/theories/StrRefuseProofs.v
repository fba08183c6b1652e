(** Strings with an allocator that refuses requests: how many requests a call makes, and the capacity after it. *)
From Coq Require Import ZifyBool ZifyNat ZifyN.
From Verif Require Import Base NListFacts Status Mem MemFacts VectorModel VectorSpec VectorDriver RefuseSpec
  VectorRep VectorProofs VectorProofs2 VectorProofs3 VectorRefine VectorFail VectorMore OracleProofs RefuseProofs
  StringModel StringSpec StringDriver StringBytes StringProofs StrRefuseSpec.

(** ** The capacity after a vector call *)
Definition caps {C} (k : N) (m : Mem.M C (status * vector C)) : Prop := forall w r v w', m w = Ok (r, v) w' -> v_cap v = k.
Section Caps.
  Context {C : Type}.
  Notation vec := (vector C).
  Implicit Types (v : vec).
  Lemma caps_ret r v k : v_cap v = k -> caps k (ret (r, v)).
  Proof. intros E w r' v' w' H. injection H as <- <- <-. exact E. Qed.
  Lemma caps_then {A} (m : Mem.M C A) k f : (forall a, caps k (f a)) -> caps k (bind m f).
  Proof. intros F w r v w' H. unfold bind in H. destruct (m w) as [a w1|]; [|discriminate H]. exact (F a _ _ _ _ H). Qed.
  Lemma caps_bind (m : Mem.M C (status * vec)) k f : caps k m -> (forall r v, v_cap v = k -> caps k (f (r, v))) -> caps k (bind m f).
  Proof.
    intros M F w r v w' H. unfold bind in H. destruct (m w) as [[r1 v1] w1|] eqn:E; [|discriminate H].
    exact (F _ _ (M _ _ _ _ E) _ _ _ _ H).
  Qed.
  Lemma caps_eq (m : Mem.M C (status * vec)) k j : caps k m -> k = j -> caps j m.
  Proof. now intros H <-. Qed.

  Definition fitcap (cap k : N) : N := if 1 <=? k then k else if 1 <? cap then 1 else cap.
  Lemma caps_vreallocate v c : v_alloc v = true -> caps (fitcap (v_cap v) c) (vreallocate v c).
  Proof.
    intros A. unfold vreallocate, fitcap. apply caps_then. intros _. apply caps_then. intros _. rewrite A. cbn [negb].
    assert (T : forall c, caps c (vreallocate_to v c)).
    { intros k. unfold vreallocate_to. apply caps_then. intros [r p]. now apply caps_ret. }
    unfold VECTOR_MIN_CAPACITY. destruct (N.ltb_spec c 1); destruct (N.leb_spec 1 c); try lia; [|apply T].
    destruct (1 <? v_cap v); [apply T|now apply caps_ret].
  Qed.
  Lemma caps_vgrow v len n : v_alloc v = true -> v_size v = len -> len + n < W64 -> (len + n) * v_growth v < W64 -> 1 <= n -> 1 <= v_growth v ->
    caps (if v_cap v <? len + n then (len + n) * v_growth v else v_cap v) (vgrow v n).
  Proof.
    intros A <- L LG N1 G1. unfold vgrow, should_grow. rewrite wadd_small by assumption.
    destruct (_ <? _); [|now apply caps_ret]. rewrite wmul_small by assumption.
    eapply caps_eq; [now apply caps_vreallocate|]. unfold fitcap.
    assert (1 <= (v_size v + n) * v_growth v) by nia. destruct (N.leb_spec 1 (N.max 1 ((v_size v + n) * v_growth v))); lia.
  Qed.
  Lemma caps_maybe_shrink v len : v_alloc v = true -> v_size v = len -> len * v_shrink v < W64 -> len * v_growth v < W64 ->
    caps (if negb (v_shrink v =? 0) && (len * v_shrink v <? v_cap v) then N.max 1 (len * v_growth v) else v_cap v) (vmaybe_shrink v).
  Proof.
    intros A <- L LG. unfold vmaybe_shrink, should_shrink. rewrite !wmul_small by assumption.
    destruct (_ && _); [|now apply caps_ret]. eapply caps_eq; [now apply caps_vreallocate|]. unfold fitcap.
    destruct (N.leb_spec 1 (N.max 1 (v_size v * v_growth v))); lia.
  Qed.
  Lemma caps_insert_range v len i p n : v_alloc v = true -> v_size v = len -> len + n < W64 -> (len + n) * v_growth v < W64 -> 1 <= v_growth v ->
    caps (if (0 <? n) && (i <=? len) then if v_cap v <? len + n then (len + n) * v_growth v else v_cap v else v_cap v) (vinsert_range v i (Some p) n).
  Proof.
    intros A S L LG G1. unfold vinsert_range. cbn [nonnull negb orb]. destruct (N.eqb_spec n 0).
    { subst n. now apply caps_ret. }
    replace (0 <? n) with true by lia. cbn [andb]. rewrite S. destruct (N.ltb_spec len i).
    { replace (i <=? len) with false by lia. now apply caps_ret. }
    replace (i <=? len) with true by lia. apply caps_then. intros _. apply caps_bind; [apply caps_vgrow; auto; lia|].
    intros r v' K. destruct (negb _); [now apply caps_ret|]. apply caps_then. intros st. destruct (negb _); [now apply caps_ret|].
    apply caps_then. intros _. now apply caps_ret.
  Qed.
  Lemma caps_then_st r (m : Mem.M C status) k f : (forall w a w', m w = Ok a w' -> a = r) -> caps k (f r) -> caps k (bind m f).
  Proof.
    intros M F w r' v w' H. unfold bind in H. destruct (m w) as [a w1|] eqn:E; [|discriminate H]. apply M in E as ->. exact (F _ _ _ _ H).
  Qed.
  Lemma caps_delete v len i n : v_alloc v = true -> v_size v = len -> len < W64 -> len * v_shrink v < W64 -> len * v_growth v < W64 -> i + n < W64 ->
    caps (if (0 <? n) && (i + n <=? len)
          then if negb (v_shrink v =? 0) && ((len - n) * v_shrink v <? v_cap v) then N.max 1 ((len - n) * v_growth v) else v_cap v
          else v_cap v) (vdelete_range v i n).
  Proof.
    intros A S L LS LG IN. unfold vdelete_range. destruct (N.eqb_spec n 0).
    { subst n. now apply caps_ret. }
    replace (0 <? n) with true by lia. cbn [andb]. rewrite S, wadd_small by assumption. destruct (N.ltb_spec len (i + n)).
    { replace (i + n <=? len) with false by lia. now apply caps_ret. }
    replace (i + n <=? len) with true by lia. apply caps_then. intros _.
    apply (caps_then_st ST_SUCCESS).
    { intros w r w' H'. destruct (_ <? _); [|now injection H' as <-]. unfold vshift_left, bind in H'.
      destruct (assert_valid v w); [|discriminate H']. destruct (assert (0 <? n) w0); [|discriminate H'].
      destruct (memmove _ _ _ w1); [|discriminate H']. now injection H' as <-. }
    change (negb (st_success ST_SUCCESS)) with false. cbv iota. rewrite wsub_small by lia.
    apply (caps_maybe_shrink (set_size v (len - n)) (len - n)); auto; cbn [set_size v_shrink v_growth]; nia.
  Qed.
  Lemma caps_resize v len n p : v_alloc v = true -> v_size v = len -> n * v_shrink v < W64 -> n * v_growth v < W64 ->
    caps (if n =? len then v_cap v else if (v_cap v <? n) || (negb (v_shrink v =? 0) && (n * v_shrink v <? v_cap v))
          then fitcap (v_cap v) (n * v_growth v) else v_cap v) (vresize_ex v n p).
  Proof.
    intros A S LS LG. unfold vresize_ex. rewrite S. destruct (n =? len); [now apply caps_ret|].
    apply caps_then. intros _. unfold should_grow, should_shrink. rewrite !wmul_small by assumption. apply caps_bind.
    - destruct (_ || _); [|now apply caps_ret]. apply caps_then. intros _. now apply caps_vreallocate.
    - intros r v' K. destruct (negb (st_success r)); [now apply caps_ret|]. apply caps_then. intros _. now apply caps_ret.
  Qed.
End Caps.

(** ** Requests and capacity together *)
(** [m] requests [a] for the vector [v], and has that capacity afterwards, granted or not. *)
Definition vdoes {C} (a : option N) (v : vector C) (m : Mem.M C (status * vector C)) : Prop := forall w r v' w', m w = Ok (r, v') w' ->
  tick w' = tick w + (match a with None => 0 | Some _ => 1 end) /\ v_cap v' = match a with None => v_cap v | Some k => k end.
Definition sdoes (a : option N) (s : str) (m : Mem.M N (status * str)) : Prop := forall w r s' w', m w = Ok (r, s') w' ->
  tick w' = tick w + (match a with None => 0 | Some _ => 1 end) /\
  v_cap (s_vec s') = match a with None => v_cap (s_vec s) | Some k => k end.

Lemma vdoes_of {C} a (v : vector C) m n k : asks n m -> caps k m -> n = match a with None => 0 | Some _ => 1 end ->
  k = match a with None => v_cap v | Some k => k end -> vdoes a v m.
Proof. intros A K -> -> w r v' w' H. split; [exact (A _ _ _ H)|exact (K _ _ _ _ H)]. Qed.
Lemma sdoes_bind a s (m : Mem.M N (status * vector N)) f : vdoes a (s_vec s) m ->
  (forall r v, asks 0 (f (r, v)) /\ forall w r' s' w', f (r, v) w = Ok (r', s') w' -> v_cap (s_vec s') = v_cap v) -> sdoes a s (bind m f).
Proof.
  intros M F w r s' w' H. unfold bind in H. destruct (m w) as [[r1 v1] w1|] eqn:E; [|discriminate H].
  destruct (M _ _ _ _ E) as [T K]. destruct (F r1 v1) as [A B]. rewrite (A _ _ _ H), (B _ _ _ _ H). split; [lia|exact K].
Qed.
Lemma sdoes_none s (m : Mem.M N (status * str)) : asks 0 m -> (forall w r' s' w', m w = Ok (r', s') w' -> v_cap (s_vec s') = v_cap (s_vec s)) -> sdoes None s m.
Proof. intros A B w r s' w' H. split; [exact (A _ _ _ H)|exact (B _ _ _ _ H)]. Qed.
Lemma sdoes_ret s r : sdoes None s (ret (r, s)).
Proof. apply sdoes_none; [apply asks_ret|]. intros w r' s' w' H. now injection H as <- <- <-. Qed.
Lemma sdoes_with_arg a s x k : (forall p, sdoes a s (k (Some p))) -> sdoes a s (with_arg x k).
Proof.
  intros K w r s' w' H. unfold with_arg in H.
  match type of H with match k ?p ?w1 with _ => _ end = _ => destruct (k p w1) as [[r1 s1] w2|] eqn:F; [|discriminate H]; apply K in F end.
  injection H as <- <- <-. exact F.
Qed.
Lemma asks_nullterminate s : asks 0 (nullterminate s).
Proof. apply asks_mwrite. Qed.
Lemma asks_assert_null s : asks 0 (assert_nullterminated s).
Proof.
  intros w a w' H. unfold assert_nullterminated in H. destruct (checked w); [|injection H as <- <-; lia].
  refine (_ w a w' H). change (asks 0 (let* x := mread (padd (sdata s) (wsub (ssize s) 1)) 1 in
    assert (match x with [c] => c =? 0 | _ => false end))). quiet.
Qed.
Lemma asks_mread1 p : asks 0 (mread1 p).
Proof. unfold mread1. apply asks_bind0; [apply asks_mread|]. intros [|c [|d l]]; intros w a w' H; try discriminate H. injection H as <- <-. lia. Qed.
Ltac squiet := repeat first [apply asks_nullterminate | apply asks_assert_null | progress quiet].
(** Results of programs that end by returning a string. *)
Lemma bind_inv {A B} (m : Mem.M N A) (f : A -> Mem.M N B) w b w' : bind m f w = Ok b w' -> exists a w1, m w = Ok a w1 /\ f a w1 = Ok b w'.
Proof. unfold bind. destruct (m w) as [a w1|]; [eauto|discriminate]. Qed.
Ltac ends := let H := fresh in intros ? ? ? ? H;
  repeat match type of H with
  | (if ?b then _ else _) _ = _ => destruct b
  | bind _ _ _ = Ok _ _ => let a := fresh in let w := fresh in let E := fresh in apply bind_inv in H as (a & w & E & H)
  end; injection H as <- <- <-; reflexivity.

Lemma vset_keeps {C} (v : vector C) i p w r v' w' : vset v i p w = Ok (r, v') w' -> v' = v.
Proof.
  unfold vset. destruct (negb _); [now injection 1|]. destruct (_ <=? _); [now injection 1|]. intros H.
  unfold bind in H. repeat match type of H with match match ?m with _ => _ end with _ => _ end = _ => destruct m; [|discriminate H] end.
  all: repeat match type of H with match ?m with _ => _ end = _ => destruct m; [|discriminate H] end. now injection H.
Qed.
Section StringDoes.
  Variables (g t : N) (s : str) (cs : list N).
  Notation v := (s_vec s).
  Hypothesis (A : v_alloc v = true) (Sz : v_size v = nlen cs + 1) (Cap : 1 <= v_cap v) (G : v_growth v = g) (T : v_shrink v = t)
    (GB : 1 <= g < 256) (TB : t < 256).
  Notation st0 := (mksst cs (v_cap v - 1)).
  Notation ask o := (asked (mkcfg false g t 1 (@None (list N -> list N))) o (nlen cs + 1) (v_cap v)).

  Lemma resize_does n : (nlen cs + 1) * 256 < W64 -> n * 256 < W64 -> vdoes (ask (OResize n)) v (vresize v n).
  Proof.
    intros F1 F2. unfold vresize.
    apply (vdoes_of _ _ _ _ _ (asks_resize v (nlen cs + 1) n None A ltac:(lia) Sz ltac:(nia) ltac:(nia))
      (caps_resize v (nlen cs + 1) n None A Sz ltac:(nia) ltac:(nia))); cbn [asked c_shrink c_growth]; unfold fit, fitcap; rewrite ?G, ?T;
      repeat match goal with |- context [if ?b then _ else _] => destruct b end; reflexivity.
  Qed.
  Lemma insert_does i p (x : list N) : (nlen cs + 1 + nlen x) * 256 < W64 ->
    vdoes (ask (OInsertRange i (map (fun c => [c]) x))) v (vinsert_range v i (Some p) (nlen x)).
  Proof.
    intros F1.
    apply (vdoes_of _ _ _ _ _ (asks_insert_range v (nlen cs + 1) i p (nlen x) A Sz ltac:(lia))
      (caps_insert_range v (nlen cs + 1) i p (nlen x) A Sz ltac:(lia) ltac:(nia) ltac:(lia))); cbn [asked c_shrink c_growth]; rewrite ?nlen_map, ?G;
      repeat match goal with |- context [if ?b then _ else _] => destruct b end; reflexivity.
  Qed.
  Lemma delete_does i n : (nlen cs + 1) * 256 < W64 -> i + n < W64 -> vdoes (ask (ODeleteRange i n)) v (vdelete_range v i n).
  Proof.
    intros F1 F2.
    apply (vdoes_of _ _ _ _ _ (asks_delete v (nlen cs + 1) i n A Sz ltac:(lia) ltac:(nia) F2)
      (caps_delete v (nlen cs + 1) i n A Sz ltac:(lia) ltac:(nia) ltac:(nia) F2)); cbn [asked c_shrink c_growth]; rewrite ?G, ?T;
      repeat match goal with |- context [if ?b then _ else _] => destruct b end; reflexivity.
  Qed.
  Lemma reserve_does n : vdoes (ask (OReserve n)) v (vreserve v n).
  Proof.
    unfold vreserve, asked. destruct (N.ltb_spec (v_cap v) n).
    - apply (vdoes_of _ _ _ _ _ (asks_vreallocate v n A) (caps_vreallocate v n A)); unfold fit, fitcap; destruct (N.leb_spec 1 n); lia.
    - intros w r v' w' E. injection E as <- <- <-. split; [lia|reflexivity].
  Qed.
  Lemma shrink_does : vdoes (ask OShrinkToFit) v (vshrink_to_fit v).
  Proof.
    unfold vshrink_to_fit, asked. cbv zeta. rewrite Sz.
    apply (vdoes_of _ _ _ _ _ (asks_vreallocate v _ A) (caps_vreallocate v _ A)); unfold fit, fitcap; destruct (N.leb_spec 1 (nlen cs + 1)); lia.
  Qed.

  Lemma after_does (m : Mem.M N (status * vector N)) a f : vdoes a v m -> (forall v', asks 0 (f v')) ->
    (forall v' w r' s' w', f v' w = Ok (r', s') w' -> v_cap (s_vec s') = v_cap v') ->
    sdoes a s (let* (r, v1) := m in if negb (st_success r) then ret (r, with_vec s v1) else f v1).
  Proof.
    intros M F K. apply sdoes_bind; [exact M|]. intros r v'. split.
    - destruct (negb _); [apply asks_ret|apply F].
    - intros w r' s' w' H. destruct (negb _); [now injection H as <- <- <-|eapply K; eauto].
  Qed.

  Lemma sasked_unfold o : sasked g t o st0 = match change_of o (nlen cs) with
    | Some x => ask x | None => None end.
  Proof. unfold sasked. cbn [ss_chars ss_cap]. now replace (v_cap v - 1 + 1) with (v_cap v) by lia. Qed.

  Lemma append_does q (x : list N) n k : sdata q = Some k -> nlen x = n -> ssize q = n + 1 -> (nlen cs + n + 1) * 256 < W64 ->
    sdoes (ask (OResize (nlen cs + 1 + n))) s (sappend s q).
  Proof.
    intros D <- Q F. unfold sappend. rewrite Q. destruct (N.eqb_spec (nlen x + 1) 0); [lia|]. unfold ssize. rewrite Sz.
    rewrite wadd_small, wsub_small by lia. replace (nlen cs + 1 + (nlen x + 1) - 1) with (nlen cs + 1 + nlen x) by lia.
    apply after_does; [apply resize_does; lia| |].
    - intros v'. squiet.
    - intros v'. ends.
  Qed.
  Lemma append_ex_does q (x : list N) j n : ssize q = nlen x + 1 -> (nlen cs + nlen x + 1) * 256 < W64 -> j + n < W64 ->
    sdoes (if nlen x <? j + n then None else ask (OResize (nlen cs + 1 + n))) s (sappend_ex s q j n).
  Proof.
    intros Q F J. unfold sappend_ex. rewrite Q, wadd_small by lia. destruct (N.eqb_spec (nlen x + 1) 0); [lia|].
    destruct (N.leb_spec (nlen x + 1) (j + n)); destruct (N.ltb_spec (nlen x) (j + n)); try lia; [apply sdoes_ret|].
    unfold ssize. rewrite Sz, wadd_small by lia. apply after_does; [apply resize_does; lia| |].
    - intros v'. squiet.
    - intros v'. ends.
  Qed.

  Lemma sinsert_does q x i k : sdata q = Some k -> ssize q = nlen x + 1 -> (nlen cs + nlen x + 1) * 256 < W64 ->
    sdoes (match change_of (SInsert i x) (nlen cs) with Some o => ask o | None => None end) s (sinsert s i q).
  Proof.
    intros D Q F. cbn [change_of]. unfold sinsert. rewrite Q. destruct (N.eqb_spec (nlen x + 1) 0); [lia|]. unfold ssize. rewrite Sz.
    destruct (i =? nlen cs + 1); [now apply (append_does q x (nlen x) k)|].
    destruct (N.ltb_spec (nlen cs) i); destruct (N.leb_spec (nlen cs + 1) i); try lia; [apply sdoes_ret|].
    rewrite wsub_small by lia. replace (nlen x + 1 - 1) with (nlen x) by lia. rewrite D.
    apply after_does; [apply insert_does; lia| |].
    - intros v'. squiet.
    - intros v'. ends.
  Qed.
  Lemma sinsert_ex_does q x i j n k : sdata q = Some k -> ssize q = nlen x + 1 -> (nlen cs + nlen x + 1) * 256 < W64 -> j + n < W64 ->
    sdoes (match change_of (SInsertEx i x j n) (nlen cs) with Some o => ask o | None => None end) s (sinsert_ex s i q j n).
  Proof.
    intros D Q F J. cbn [change_of]. unfold sinsert_ex. rewrite Q. destruct (N.eqb_spec (nlen x + 1) 0); [lia|]. unfold ssize. rewrite Sz.
    rewrite wadd_small by lia.
    destruct (i =? nlen cs + 1).
    { pose proof (append_ex_does q x j n Q F J) as H. destruct (N.ltb_spec (nlen x) (j + n)); [exact H|].
      rewrite nlen_nsub by lia. exact H. }
    destruct (N.ltb_spec (nlen x) (j + n)).
    { destruct (nlen cs + 1 <=? i); [apply sdoes_ret|]. replace (nlen x + 1 <=? j + n) with true by lia. apply sdoes_ret. }
    destruct (N.ltb_spec (nlen cs) i); destruct (N.leb_spec (nlen cs + 1) i); try lia; [apply sdoes_ret|].
    replace (nlen x + 1 <=? j + n) with false by lia. rewrite D. cbn [padd].
    assert (EN : nlen (nsub j n x) = n) by (apply nlen_nsub; lia).
    apply after_does; [rewrite <- EN at 2; apply insert_does; lia| |].
    - intros v'. squiet.
    - intros v'. ends.
  Qed.
  Lemma asks_case_loop step n : forall i, asks 0 (case_loop step s i n).
  Proof. induction n as [|n IH]; intros i; cbn [case_loop]; [apply asks_ret|].
    apply asks_bind0; [apply asks_mread1|]. intros c. apply asks_then; [destruct (step c); squiet|intros _]. apply IH.
  Qed.
  Lemma scase_ex_does step i n : sdoes None s (scase_ex step s i n).
  Proof.
    unfold scase_ex. destruct (_ <=? _); [apply sdoes_ret|]. apply sdoes_none; [|ends]. apply asks_then; [apply asks_case_loop|]. intros _. apply asks_ret.
  Qed.

  Theorem run_sop_does o : sums_ok o -> (nlen cs + sdemand o + 1) * 256 < W64 -> sdoes (sasked g t o st0) s (run_sop s o).
  Proof.
    intros SO F. rewrite sasked_unfold. destruct o; cbn [run_sop sdemand sums_ok] in *.
    - apply sdoes_with_arg. intros p. eapply append_does; try reflexivity; cbn; lia.
    - apply sdoes_with_arg. intros p. cbn [change_of].
      pose proof (append_ex_does (define_view (Some p) (nlen x + 1)) x j n eq_refl ltac:(lia) SO) as H. now destruct (nlen x <? j + n).
    - apply sdoes_with_arg. intros p. eapply sinsert_does; try reflexivity; lia.
    - apply sdoes_with_arg. intros p. eapply sinsert_ex_does; try reflexivity; lia.
    - unfold sdelete, ssize. rewrite Sz. rewrite wadd_small by lia. cbn [change_of].
      destruct (N.ltb_spec (nlen cs) (i + n)); destruct (N.leb_spec (nlen cs + 1) (i + n)); try lia; [apply sdoes_ret|].
      apply after_does; [apply delete_does; lia| |].
      + intros v'. squiet.
      + intros v'. ends.
    - unfold struncate, ssize. rewrite Sz. cbn [change_of].
      destruct (N.ltb_spec (nlen cs) i); destruct (N.leb_spec (nlen cs + 1) i); try lia; [apply sdoes_ret|].
      rewrite !wsub_small by (try lia; rewrite ?wsub_small by lia; lia). replace (nlen cs + 1 - i - 1) with (nlen cs - i) by lia.
      apply after_does; [apply delete_does; lia| |].
      + intros v'. squiet.
      + intros v'. ends.
    - unfold sclear. cbn [change_of]. apply after_does; [exact (resize_does 0 ltac:(lia) ltac:(lia))| |].
      + intros v'. squiet.
      + intros v'. ends.
    - unfold sresize. cbn [change_of]. rewrite wadd_small by lia. apply after_does; [apply resize_does; lia| |].
      + intros v'. squiet.
      + intros v'. ends.
    - apply sdoes_with_arg. intros p. unfold sset_char. destruct (_ <=? _); [apply sdoes_ret|]. apply sdoes_none.
      + squiet. unfold vset. squiet.
      + intros w r' s' w' H. apply bind_inv in H as ([r1 v1] & w1 & H1 & H). apply vset_keeps in H1 as ->. now injection H as <- <- <-.
    - apply scase_ex_does.
    - apply scase_ex_does.
    - apply scase_ex_does.
    - apply scase_ex_does.
    - unfold sreserve. cbn [change_of]. apply sdoes_bind; [apply reserve_does|]. intros r v'. split; [apply asks_ret|].
      intros w r' s' w' H. now injection H as <- <- <-.
    - unfold sshrink_to_fit. cbn [change_of]. apply sdoes_bind; [apply shrink_does|]. intros r v'. split; [apply asks_ret|].
      intros w r' s' w' H. now injection H as <- <- <-.
  Qed.
End StringDoes.

(** ** A refused initialisation *)
Lemma sinit_refusal (w : world) cap g t st : 1 <= g -> orc w (tick w) = AFail st ->
  exists s w', sinit_ex cap true g t w = Ok (err_status st, s) w' /\
    (forall k, heap w' k = heap w k) /\ tick w' = tick w + 1 /\ dlog w' = dlog w.
Proof.
  intros G O. unfold sinit_ex, vinit_ex, bind, alloc, VECTOR_MIN_CAPACITY. cbv zeta.
  destruct (N.ltb_spec g 1); [lia|]. change (1 =? 0) with false. cbn [v_esz v_cap tick orc negb orb andb].
  match goal with |- context [N.max 1 ?x =? 0] => destruct (N.eqb_spec (N.max 1 x) 0); [lia|] end.
  change (1 =? 0) with false. cbn [orb andb]. rewrite O. unfold ret at 1. rewrite st_success_err. cbn [negb]. unfold ret. eexists _, _. split; [reflexivity|]. auto.
Qed.
