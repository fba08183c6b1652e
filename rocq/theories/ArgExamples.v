(** Concrete command lines for the theorems about argument parsing. *)
From Coq Require Import String Ascii.
From Verif Require Import Base NListFacts Status Mem MemFacts VectorModel VectorDriver StringModel StringDriver ArgModel ArgSpec ArgDriver.
From Coq Require Import ZifyBool ZifyNat ZifyN.
Import ListNotations.
Local Open Scope N_scope.

Fixpoint chars (s : string) : token :=
  match s with EmptyString => [] | String c s => N_of_ascii c :: chars s end.
(** A memory in which block [i] holds the [i]-th string. *)
Definition text_world (strs : list token) : world N :=
  mkworld (fun b => match nnth b strs with Some x => Some (x ++ [0]) | None => None end) (nlen strs) (fun _ => AFail 7) 0 [].
(** argv is the strings from 0 on, the names of the definitions follow. *)
Definition setup (prog : token) (ts : list token) (ds : list sdef) (lo hi : N) : world N * aconfig :=
  let strs := (prog :: ts) ++ map sd_name ds in
  let n := nlen (prog :: ts) in
  (text_world strs,
   mkaconfig (map (fun i => mkptr (N.of_nat i) 0) (seq 0 (length (prog :: ts)))) lo hi
     (map (fun ix => mkadef (mkptr (n + N.of_nat (fst ix)) 0) (sd_boolean (snd ix)) (sd_required (snd ix))) (combine (seq 0 (length ds)) ds))).
Definition aworld : world acell := mkworld (fun _ => None) 0 (fun _ => AOk (fun _ => AByte 170)) 0 [].
Definition aworld_failing (bad : list N) : world acell :=
  mkworld (fun _ => None) 0 (fun t => if existsb (N.eqb t) bad then AFail 7 else AOk (fun _ => AByte 170)) 0 [].

(** For evaluation: the entries of the vector, with the texts of the values. *)
Definition read_entry (tw : world N) (v : avec) (i : N) : M entry :=
  let* x := get_arg v i in
  let '(d, h, q) := x in
  if (h : bool) then
    let* t := text tw (mread (sdata q) (ssize q - 1)) in ret (mkentry d (Some t))
  else ret (mkentry d None).
Fixpoint read_entries (tw : world N) (v : avec) (i : N) (n : nat) : M (list entry) :=
  match n with
  | O => ret []
  | S n => let* e := read_entry tw v i in let* es := read_entries tw v (i + 1) n in ret (e :: es)
  end.
Definition read_token (tw : world N) (tok : option (option ptr)) : M (option token) :=
  match tok with
  | Some (Some p) => let* t := text tw (cstring p) in ret (Some t)
  | _ => ret None
  end.
Definition parse (prog : token) (ts : list token) (ds : list sdef) (lo hi : N) : M (status * list entry * option token) :=
  let '(tw, cfg) := setup prog ts ds lo hi in
  let* x := argparse tw cfg in
  let '(st, ov, tok) := x in
  let* es := match ov with
             | Some v => if st_success st then read_entries tw v 0 (N.to_nat (v_size v)) else ret []
             | None => ret []
             end in
  let* t := read_token tw tok in
  ret (st, es, t).
Definition outcome_of {C A} (r : res C A) : fault + A := match r with Ok a _ => inr a | Fault f => inl f end.

Definition defs : list sdef :=
  [mksdef (chars "-a") true false; mksdef (chars "-b") false false; mksdef (chars "--help") true false; mksdef (chars "--out") false true].
Definition line (l : list string) : list token := map chars l.

Example parse_mixed :
  outcome_of (parse (chars "prog") (line ["-abx"; "w1"; "--out"; "f"; "--help"; "-b"; "-v"; "--"; "-z"; "--out"]%string) defs 1 9 aworld)
  = inr (ST_SUCCESS,
         [flag 0; valued 1 (chars "x"); unnamed (chars "w1"); valued 3 (chars "f"); flag 2; valued 1 (chars "-v");
          unnamed (chars "-z"); unnamed (chars "--out")], None).
Proof. vm_compute. reflexivity. Qed.
Example parse_errors :
  outcome_of (parse (chars "prog") (line ["-ax"]%string) defs 0 9 aworld) = inr (ST_ARG_NOT_UNDERSTOOD, [], Some (chars "-ax")) /\
  outcome_of (parse (chars "prog") (line ["--nope"]%string) defs 0 9 aworld) = inr (ST_ARG_NOT_UNDERSTOOD, [], Some (chars "--nope")) /\
  outcome_of (parse (chars "prog") (line ["w"; "-ab"]%string) defs 0 9 aworld) = inr (ST_ARG_MISSES_VALUE, [], Some (chars "-ab")) /\
  outcome_of (parse (chars "prog") (line ["--out"]%string) defs 0 9 aworld) = inr (ST_ARG_MISSES_VALUE, [], Some (chars "--out")) /\
  outcome_of (parse (chars "prog") (line ["u"; "v"; "w"]%string) defs 0 1 aworld) = inr (ST_TOO_MANY_ARGS, [], Some (chars "v")) /\
  outcome_of (parse (chars "prog") (line ["--out"; "f"]%string) defs 1 1 aworld) = inr (ST_TOO_FEW_ARGS, [], None) /\
  outcome_of (parse (chars "prog") (line ["w"]%string) defs 1 1 aworld) = inr (ST_REQUIRED_ARG_MISSING, [], Some (chars "--out")) /\
  outcome_of (parse (chars "prog") [] [mksdef (chars "-ab") true true] 0 0 aworld) = inr (ST_INVALID_ARGUMENT, [], None).
Proof. repeat split; vm_compute; reflexivity. Qed.

(** The hypotheses hold for every list of texts without NUL. *)
Definition text_ok (x : token) : Prop := Forall (fun c => c <> 0) x /\ nlen x + 1 < W64.
Lemma text_world_at strs i x : nnth i strs = Some x -> text_ok x -> cstring_at (text_world strs) (mkptr i 0) x.
Proof.
  intros E (Z & L). split; [exact Z|]. split; [exact L|]. exists [], []. cbn [heap text_world mkworld pb po]. rewrite E, app_nil_r. split; reflexivity.
Qed.
Lemma forall2_seq (tw : world N) : forall (ts : list token) k, (forall i x, nth_error ts i = Some x -> cstring_at tw (mkptr (N.of_nat (k + i)) 0) x) ->
  Forall2 (cstring_at tw) (map (fun i => mkptr (N.of_nat i) 0) (seq k (length ts))) ts.
Proof.
  induction ts as [|t ts IH]; intros k H; [constructor|]. cbn [length seq map]. constructor.
  - specialize (H 0%nat t eq_refl). now rewrite Nat.add_0_r in H.
  - apply IH. intros i x E. specialize (H (S i) x E). replace (S k + i)%nat with (k + S i)%nat by lia. exact H.
Qed.
Lemma forall2_defs (tw : world N) n : forall (ds : list sdef) k, (forall i x, nth_error ds i = Some x -> cstring_at tw (mkptr (n + N.of_nat (k + i)) 0) (sd_name x)) ->
  Forall2 (def_is tw) (map (fun ix => mkadef (mkptr (n + N.of_nat (fst ix)) 0) (sd_boolean (snd ix)) (sd_required (snd ix))) (combine (seq k (length ds)) ds)) ds.
Proof.
  induction ds as [|t ds IH]; intros k H; [constructor|]. cbn [length seq combine map]. constructor.
  - split; [|split; reflexivity]. specialize (H 0%nat t eq_refl). rewrite Nat.add_0_r in H. exact H.
  - apply IH. intros i x E. specialize (H (S i) x E). replace (S k + i)%nat with (k + S i)%nat by lia. exact H.
Qed.
Lemma setup_is prog ts ds lo hi : Forall text_ok (prog :: ts) -> Forall (fun x => text_ok (sd_name x)) ds ->
  config_is (fst (setup prog ts ds lo hi)) (snd (setup prog ts ds lo hi)) prog ts ds.
Proof.
  intros FT FD. unfold setup. cbn [fst snd]. split; cbn [ac_argv ac_args].
  - apply (forall2_seq _ (prog :: ts) 0). intros i x E. apply text_world_at.
    + unfold nnth. rewrite Nnat.Nat2N.id. cbn [Nat.add]. assert (LT : (i < length (prog :: ts))%nat) by (apply nth_error_Some; intros X; congruence).
      rewrite nth_error_app1 by exact LT. exact E.
    + rewrite Forall_forall in FT. apply FT. eapply nth_error_In; eauto.
  - apply forall2_defs. intros i x E. cbn [Nat.add]. apply text_world_at.
    + unfold nnth, nlen. rewrite nth_error_app2 by lia. replace (N.to_nat (N.of_nat (length (prog :: ts)) + N.of_nat i) - length (prog :: ts))%nat with i by lia.
      now rewrite nth_error_map, E.
    + rewrite Forall_forall in FD. apply FD. eapply nth_error_In; eauto.
Qed.
Definition text_okb (x : token) : bool := forallb (fun c => negb (c =? 0)) x && (nlen x + 1 <? W64).
Lemma text_okb_ok x : text_okb x = true -> text_ok x.
Proof.
  unfold text_okb, text_ok. rewrite andb_true_iff, forallb_forall, N.ltb_lt, Forall_forall. intros (H & L). split; [|exact L].
  intros c I E. specialize (H c I). subst. discriminate H.
Qed.
Definition name_okb (x : token) : bool :=
  match x with [c0; c1] => c0 =? dash | c0 :: c1 :: _ => (c0 =? dash) && (c1 =? dash) | _ => false end.
Lemma name_okb_ok x : name_okb x = true -> name_ok x.
Proof.
  destruct x as [|c0 [|c1 [|c2 x]]]; cbn [name_okb]; try discriminate.
  - intros E. apply N.eqb_eq in E. subst. left. now exists c1.
  - rewrite andb_true_iff, !N.eqb_eq. intros (-> & ->). right. now exists (c2 :: x).
Qed.
Definition call_okb (prog : token) (ts : list token) (ds : list sdef) (lo hi : N) : bool :=
  forallb text_okb (prog :: ts) && forallb (fun x => text_okb (sd_name x)) ds && forallb (fun x => name_okb (sd_name x)) ds && (lo <=? hi) &&
  ((arg_demand ts + 1) * 160 <? W64).
Lemma call_ok prog ts ds lo hi : call_okb prog ts ds lo hi = true ->
  parse_args (fst (setup prog ts ds lo hi)) (snd (setup prog ts ds lo hi)) prog ts ds aworld.
Proof.
  unfold call_okb. rewrite !andb_true_iff, !forallb_forall, N.leb_le, N.ltb_lt. intros ((((T & D) & NM) & L) & B).
  split; [|split; [|split; [|split; [|split]]]].
  - apply setup_is; apply Forall_forall; intros x I; apply text_okb_ok; [now apply T|now apply D].
  - apply Forall_forall. intros x I. apply name_okb_ok. now apply NM.
  - exact L.
  - intros b _. reflexivity.
  - intros t. now eexists.
  - exact B.
Qed.
Definition words : list token := line ["-abx"; "w1"; "--out"; "f"; "--help"; "-b"; "-v"; "--"; "-z"; "--out"]%string.
Definition two_flags : list sdef := [mksdef (chars "-a") true true; mksdef (chars "-b") true false].
Definition twice : list sdef := [mksdef (chars "--in") false true; mksdef (chars "--in") false true].
