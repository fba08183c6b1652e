(** Proofs about the statuses of the system wrappers. *)
From Coq Require Import ZifyBool ZifyNat ZifyN.
From Verif Require Import Base Status SyncModel SyncSpec ApiModel ApiSpec ApiProofs WinModel WinProofs CodesSpec.

Ltac look := unfold reported, enter_codes, leave_codes, delete_codes, attribute_codes, mutex_codes, key_codes, store_codes,
  plain_codes, failure_codes; cbn [find].
Ltac tables :=
  look;
  repeat match goal with
  | |- context [if (?a =? ?b)%Z then _ else _] => destruct (Z.eqb_spec a b); try lia
  | |- context [if (?a =? ?b)%N then _ else _] => destruct (N.eqb_spec a b); try lia
  end; try reflexivity; try (exfalso; lia).

Lemma section_codes e :
  cs_enter e = reported enter_codes ST_BAD_SYSTEMCALL (Z.of_N e) /\
  cs_leave e = reported leave_codes ST_BAD_SYSTEMCALL (Z.of_N e) /\
  cs_delete e = reported delete_codes ST_BAD_SYSTEMCALL (Z.of_N e) /\
  cs_try_enter e = (e =? 0).
Proof.
  unfold cs_enter, cs_leave, cs_delete, cs_try_enter, EINVAL, EAGAIN, EPERM, EBUSY. repeat split.
  4: destruct (e =? 0); reflexivity.
  all: look;
    rewrite ?(Z.eqb_sym _ (Z.of_N e)); change 0%Z with (Z.of_N 0); change 22%Z with (Z.of_N 22);
    change 11%Z with (Z.of_N 11); change 16%Z with (Z.of_N 16); change 1%Z with (Z.of_N 1).
  all: repeat match goal with |- context [(Z.of_N ?a =? Z.of_N ?b)%Z] =>
         replace (Z.of_N a =? Z.of_N b)%Z with (a =? b) by lia end.
  all: destruct (e =? 0) eqn:E0, (e =? 22) eqn:E1, (e =? 11) eqn:E2, (e =? 16) eqn:E3, (e =? 1) eqn:E4; cbn [negb orb];
       try reflexivity; exfalso; lia.
Qed.
Lemma init_codes a t i :
  fst (cs_init a t i) =
    (if a =? 0 then reported mutex_codes ST_BAD_SYSTEMCALL (Z.of_N i)
     else reported attribute_codes ST_BAD_SYSTEMCALL (Z.of_N a)) /\
  (snd (cs_init a t i) = None <-> a <> 0 \/ i <> 0).
Proof.
  unfold cs_init, ENOMEM, EAGAIN, EPERM, EBUSY, EINVAL.
  destruct (N.eqb_spec a 0) as [->|A]; cbn [negb].
  - destruct (N.eqb_spec i 0) as [->|I]; cbn [negb fst snd].
    + split; [reflexivity|]. split; [discriminate|lia].
    + split; [|split; [intros _; now right|reflexivity]]. look.
      destruct (i =? 11) eqn:E1, (i =? 12) eqn:E2, (i =? 1) eqn:E3, (i =? 16) eqn:E4, (i =? 22) eqn:E5; cbn [orb];
      tables.
  - cbn [fst snd]. split; [|split; [intros _; now left|reflexivity]]. look.
    destruct (a =? 12) eqn:E1; tables.
Qed.
Lemma posix_codes s :
  (forall a n p, fst (virtual_protect a n p s) = reported plain_codes ST_BAD_SYSTEMCALL (answer s (Mprotect a n (prot_value p)))) /\
  (forall a n, fst (virtual_free a n s) = reported plain_codes ST_BAD_SYSTEMCALL (answer s (Munmap a n))) /\
  (forall a n, fst (flush_instruction_cache a n s) = reported plain_codes ST_BAD_SYSTEMCALL (answer s (Msync a n 6))) /\
  (forall old d, fst (fst (tls_alloc old d s)) = reported key_codes ST_BAD_SYSTEMCALL (answer s (Key_create d))) /\
  (forall k, fst (tls_free k s) = reported plain_codes ST_BAD_SYSTEMCALL (answer s (Key_delete k))) /\
  (forall k d, fst (tls_set_value k d s) = reported store_codes ST_BAD_SYSTEMCALL (answer s (Setspecific k d))).
Proof.
  repeat split; intros.
  - unfold virtual_protect. cbn [fst]. look. rewrite (Z.eqb_sym 0). now destruct (_ =? _)%Z.
  - unfold virtual_free. cbn [fst]. look. rewrite (Z.eqb_sym 0). now destruct (_ =? _)%Z.
  - unfold flush_instruction_cache. change (N.lor MS_SYNC MS_INVALIDATE) with 6. cbn [fst]. look. rewrite (Z.eqb_sym 0). now destruct (_ =? _)%Z.
  - unfold tls_alloc, EAGAIN, ENOMEM. cbv zeta. set (e := answer s _). look.
    rewrite (Z.eqb_sym 0), (Z.eqb_sym 11), (Z.eqb_sym 12).
    change (Z.of_N 11) with 11%Z. change (Z.of_N 12) with 12%Z.
    destruct (e =? 0)%Z, (e =? 11)%Z, (e =? 12)%Z; reflexivity.
  - unfold tls_free. cbn [fst]. look. rewrite (Z.eqb_sym 0). now destruct (_ =? _)%Z.
  - unfold tls_set_value, EINVAL. cbn [fst]. set (e := answer s _). look. rewrite (Z.eqb_sym 0), (Z.eqb_sym 22).
    change (Z.of_N 22) with 22%Z. destruct (e =? 0)%Z, (e =? 22)%Z; reflexivity.
Qed.
Lemma windows_codes s :
  (forall a n p, fst (win_virtual_protect a n p s) =
     reported failure_codes ST_SUCCESS (wanswer s (VirtualProtectCall a n (win_prot_value p)))) /\
  (forall a n, fst (win_virtual_free a n s) = reported failure_codes ST_SUCCESS (wanswer s (VirtualFreeCall a 0 32768))) /\
  (forall a n, fst (win_flush a n s) = reported failure_codes ST_SUCCESS (wanswer s (FlushCall a n))) /\
  (forall k, fst (win_tls_free k s) = reported failure_codes ST_SUCCESS (wanswer s (FlsFreeCall k))) /\
  (forall k d, fst (win_tls_set_value k d s) =
     if (wanswer s (FlsSetCall k d) =? 0)%Z
     then reported [(87%Z, ST_INVALID_ARGUMENT)] ST_BAD_SYSTEMCALL (Z.of_N (wlast_error s (FlsSetCall k d)))
     else ST_SUCCESS).
Proof.
  repeat split; intros.
  - unfold win_virtual_protect. cbn [fst]. look. rewrite (Z.eqb_sym 0). now destruct (_ =? _)%Z.
  - unfold win_virtual_free. change MEM_RELEASE with 32768. cbn [fst]. look. rewrite (Z.eqb_sym 0). now destruct (_ =? _)%Z.
  - unfold win_flush. cbn [fst]. look. rewrite (Z.eqb_sym 0). now destruct (_ =? _)%Z.
  - unfold win_tls_free. cbn [fst]. look. rewrite (Z.eqb_sym 0). now destruct (_ =? _)%Z.
  - unfold win_tls_set_value, ERROR_INVALID_PARAMETER. cbn [fst]. look.
    destruct (wanswer s (FlsSetCall k d) =? 0)%Z; [|reflexivity].
    destruct (N.eqb_spec (wlast_error s (FlsSetCall k d)) 87), (Z.eqb_spec 87 (Z.of_N (wlast_error s (FlsSetCall k d))));
      try reflexivity; exfalso; lia.
Qed.
(** EnableVT100 on Windows: the status tells which step failed. *)
Lemma vt100_codes stream s :
  let fd := wanswer s (FilenoCall stream) in let h := wanswer s (OsfhandleCall fd) in
  fst (win_enable_vt100 stream s) =
  if (stream =? 1) || (stream =? 2) then
    if (fd <? 0)%Z || (h =? -1)%Z || (wanswer s (GetConsoleModeCall h) =? 0)%Z then ST_INVALID_ARGUMENT
    else reported failure_codes ST_SUCCESS (wanswer s (SetConsoleModeCall h (N.lor (console_mode s h) 4)))
  else ST_INVALID_ARGUMENT.
Proof.
  cbv zeta. unfold win_enable_vt100, STDSTREAM_OUT, STDSTREAM_ERR, ENABLE_VT. cbv zeta. look. rewrite (Z.eqb_sym 0).
  destruct (stream =? 1), (stream =? 2); cbn [negb andb orb]; try reflexivity;
  destruct (_ <? 0)%Z; cbn [orb]; try reflexivity; destruct (_ =? -1)%Z; cbn [orb]; try reflexivity;
  destruct (wanswer s (GetConsoleModeCall _) =? 0)%Z; cbn [orb]; try reflexivity; destruct (_ =? 0)%Z; reflexivity.
Qed.

(** ** Thread-local storage *)
Lemma tls_codes cs m tr t c : tls_run no_tls cs = (m, tr) -> fst (fst (tls_step m t c)) = tls_status tr c.
Proof.
  intros E. assert (K : forall k, existsb (N.eqb k) (keys m) = key_live k tr false).
  { intros k. exact (tls_run_keys cs _ _ _ k E). }
  destruct c as [k e|k|k d e|k]; cbn [tls_step tls_status].
  - pose proof (proj1 (proj2 (proj2 (proj2 (posix_codes (tls_system m t k e))))) 0 0) as P.
    destruct (tls_alloc 0 0 (tls_system m t k e)) as [[st i] l]. cbn [fst] in *. rewrite P. reflexivity.
  - pose proof (proj1 (proj2 (proj2 (proj2 (proj2 (posix_codes (tls_system m t 0 0)))))) k) as P.
    destruct (tls_free k (tls_system m t 0 0)) as [st l]. cbn [fst] in *. rewrite P. cbn [tls_system answer].
    rewrite K. destruct (key_live k tr false); reflexivity.
  - pose proof (proj2 (proj2 (proj2 (proj2 (proj2 (posix_codes (tls_system m t 0 e)))))) k d) as P.
    destruct (tls_set_value k d (tls_system m t 0 e)) as [st l]. cbn [fst] in *. rewrite P. cbn [tls_system answer].
    rewrite K. destruct (N.eqb_spec e 0) as [->|NE]; cbn [negb andb]; [|reflexivity].
    destruct (key_live k tr false); reflexivity.
  - reflexivity.
Qed.
Lemma tls_index cs m tr t k e : tls_run no_tls cs = (m, tr) ->
  snd (fst (tls_step m t (TAlloc k e))) = if e =? 0 then Some k else None.
Proof.
  intros E. cbn [tls_step]. unfold tls_alloc. cbn [tls_system answer new_key]. cbv zeta.
  destruct (N.eqb_spec e 0) as [->|NE]; [reflexivity|].
  destruct (Z.eqb_spec (Z.of_N e) 0); [exfalso; lia|]. cbn [negb].
  destruct (_ =? _)%Z; [reflexivity|]. destruct (_ =? _)%Z; reflexivity.
Qed.
Lemma fls_codes cs m tr f c : fls_run no_tls cs = (m, tr) -> fst (fst (fls_step m f c)) = fls_status tr c.
Proof.
  intros E. assert (K : forall k, existsb (N.eqb k) (keys m) = key_live k tr false).
  { intros k. exact (proj1 (proj2 (fls_run_state cs _ _ _ E)) k). }
  destruct c as [k e|k|k d e|k]; cbn [fls_step fls_status].
  - unfold win_tls_alloc, FLS_OUT_OF_INDEXES. cbv zeta. cbn [fls_system wanswer]. unfold to_u32.
    assert (B : k mod W32 < 4294967296) by now apply N.mod_lt.
    destruct (N.eqb_spec e 0) as [->|NE]; cbn [andb].
    + rewrite Z.mod_small by lia. rewrite N2Z.id. change W32 with 4294967296. change W32 with 4294967296 in B.
      destruct (k mod 4294967296 =? 4294967295); reflexivity.
    + reflexivity.
  - pose proof (proj1 (proj2 (proj2 (proj2 (windows_codes (fls_system m f 0 0))))) k) as P.
    destruct (win_tls_free k (fls_system m f 0 0)) as [st l]. cbn [fst] in *. rewrite P. cbn [fls_system wanswer].
    rewrite K. destruct (key_live k tr false); reflexivity.
  - pose proof (proj2 (proj2 (proj2 (proj2 (windows_codes (fls_system m f 0 e))))) k d) as P.
    destruct (win_tls_set_value k d (fls_system m f 0 e)) as [st l]. cbn [fst] in *. rewrite P.
    cbn [fls_system wanswer wlast_error]. rewrite K. unfold ERROR_INVALID_PARAMETER.
    destruct (N.eqb_spec e 0) as [->|NE]; cbn [andb orb].
    + destruct (key_live k tr false); reflexivity.
    + change (0 =? 0)%Z with true. cbv iota. look.
      destruct (Z.eqb_spec 87 (Z.of_N e)), (N.eqb_spec e 87); try reflexivity; exfalso; lia.
  - reflexivity.
Qed.
Lemma fls_index cs m tr f k e : fls_run no_tls cs = (m, tr) -> k < 4294967295 ->
  snd (fst (fls_step m f (TAlloc k e))) = if e =? 0 then Some k else None.
Proof.
  intros E B. cbn [fls_step]. unfold win_tls_alloc, FLS_OUT_OF_INDEXES. cbv zeta. cbn [fls_system wanswer]. unfold to_u32.
  destruct (N.eqb_spec e 0) as [->|NE]; [|reflexivity].
  change W32 with 4294967296. rewrite (N.mod_small k) by lia. rewrite Z.mod_small by lia. rewrite N2Z.id.
  destruct (N.eqb_spec k 4294967295); [exfalso; lia|]. reflexivity.
Qed.
