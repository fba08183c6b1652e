(** The fallback implementations of the C library functions, include/Zycore/LibC.h:234-503
    (used when ZYAN_NO_LIBC is defined).

    Memory is a partial map from addresses to bytes; loading or storing at an address that is
    not mapped is undefined behaviour ([LOob]).  Addresses do not wrap (C objects do not cross the end
    of the address space).  Loops that the C code ends at a NUL byte take fuel; running out of fuel is
    the distinct outcome [LFuel].  Loops over a count [n] are recursions over that count.
    Characters are bytes [0..255]; conversions [(char)c] and [(ZyanU8)c] are reductions modulo 256,
    comparing two [char]s is comparing the bytes whatever the signedness of [char]. *)
From Verif Require Import Base.

Definition mem := N -> option N.
Inductive lres (A : Type) :=
| LOk (a : A) (m : mem)
| LOob
| LFuel.
Arguments LOk {A}. Arguments LOob {A}. Arguments LFuel {A}.
Definition LM (A : Type) := mem -> lres A.
Definition lret {A} (a : A) : LM A := fun m => LOk a m.
Definition lbind {A B} (x : LM A) (k : A -> LM B) : LM B := fun m =>
  match x m with LOk a m' => k a m' | LOob => LOob | LFuel => LFuel end.
Definition lfuel {A} : LM A := fun _ => LFuel.
Notation "'do' x <- m ; k" := (lbind m (fun x => k))
  (at level 200, x pattern, m at level 100, k at level 200, right associativity).

(** Load and store of one byte. *)
Definition ld (a : N) : LM N := fun m => match m a with Some b => LOk b m | None => LOob end.
Definition mset (m : mem) (a v : N) : mem := fun a' => if a' =? a then Some v else m a'.
Definition st (a v : N) : LM unit := fun m => match m a with Some _ => LOk tt (mset m a v) | None => LOob end.

(** ZYAN_MEMCHR, LibC.h:234-248. *)
Fixpoint memchr_loop (n : nat) (p c : N) : LM (option N) :=
  match n with
  | O => lret None
  | S n => do b <- ld p; if negb (b =? c mod 256) then memchr_loop n (p + 1) c else lret (Some p)
  end.
Definition memchr (str c n : N) : LM (option N) := memchr_loop (N.to_nat n) str c.

(** ZYAN_MEMCMP, LibC.h:250-262. *)
Fixpoint memcmp_loop (n : nat) (p1 p2 : N) : LM Z :=
  match n with
  | O => lret 0%Z
  | S n => do b1 <- ld p1; do b2 <- ld p2;
      if negb (b1 =? b2) then lret (Z.of_N b1 - Z.of_N b2)%Z else memcmp_loop n (p1 + 1) (p2 + 1)
  end.
Definition memcmp (s1 s2 n : N) : LM Z := memcmp_loop (N.to_nat n) s1 s2.

(** ZYAN_MEMCPY, LibC.h:264-273. *)
Fixpoint copy_up (n : nat) (dp sp : N) : LM unit :=
  match n with
  | O => lret tt
  | S n => do b <- ld sp; do _ <- st dp b; copy_up n (dp + 1) (sp + 1)
  end.
Definition memcpy (dst src n : N) : LM N := do _ <- copy_up (N.to_nat n) dst src; lret dst.

(** ZYAN_MEMMOVE, LibC.h:275-293. *)
Fixpoint copy_down (n : nat) (pd ps : N) : LM unit :=
  match n with
  | O => lret tt
  | S n => do b <- ld (ps - 1); do _ <- st (pd - 1) b; copy_down n (pd - 1) (ps - 1)
  end.
Definition memmove (dst src n : N) : LM N :=
  if src <? dst
  then do _ <- copy_down (N.to_nat n) (dst + n) (src + n); lret dst
  else do _ <- copy_up (N.to_nat n) dst src; lret dst.

(** ZYAN_MEMSET, LibC.h:295-303. *)
Fixpoint fill_loop (n : nat) (p v : N) : LM unit :=
  match n with
  | O => lret tt
  | S n => do _ <- st p v; fill_loop n (p + 1) v
  end.
Definition memset (dst val n : N) : LM N := do _ <- fill_loop (N.to_nat n) dst (val mod 256); lret dst.

(** [while ( *p) p++;], in ZYAN_STRCAT, ZYAN_STRLEN, ZYAN_STRNCAT. *)
Fixpoint to_end (fuel : nat) (p : N) : LM N :=
  match fuel with
  | O => lfuel
  | S f => do b <- ld p; if b =? 0 then lret p else to_end f (p + 1)
  end.
(** [while (( *dest++ = *src++));], in ZYAN_STRCAT and ZYAN_STRCPY. *)
Fixpoint copy_str (fuel : nat) (dest src : N) : LM unit :=
  match fuel with
  | O => lfuel
  | S f => do b <- ld src; do _ <- st dest b; if b =? 0 then lret tt else copy_str f (dest + 1) (src + 1)
  end.

(** ZYAN_STRCAT, LibC.h:305-314. *)
Definition strcat (fuel : nat) (dest src : N) : LM N :=
  do e <- to_end fuel dest; do _ <- copy_str fuel e src; lret dest.

(** ZYAN_STRCHR, LibC.h:316-326. *)
Fixpoint strchr_loop (fuel : nat) (s c : N) : LM (option N) :=
  match fuel with
  | O => lfuel
  | S f => do b <- ld s;
      if negb (b =? c mod 256) then (if b =? 0 then lret None else strchr_loop f (s + 1) c)
      else lret (Some s)
  end.
Definition strchr (fuel : nat) (s c : N) : LM (option N) := strchr_loop fuel s c.

(** ZYAN_STRCMP, LibC.h:328-335. *)
Fixpoint strcmp (fuel : nat) (s1 s2 : N) : LM Z :=
  match fuel with
  | O => lfuel
  | S f => do b1 <- ld s1;
      if b1 =? 0 then (do b2 <- ld s2; lret (Z.of_N b1 - Z.of_N b2)%Z)
      else do b2 <- ld s2;
        if b1 =? b2 then strcmp f (s1 + 1) (s2 + 1) else lret (Z.of_N b1 - Z.of_N b2)%Z
  end.

(** ZYAN_STRCOLL, LibC.h:337-345. *)
Definition strcoll (s1 s2 : N) : LM Z := lret 0%Z.

(** ZYAN_STRCPY, LibC.h:347-352. *)
Definition strcpy (fuel : nat) (dest src : N) : LM N := do _ <- copy_str fuel dest src; lret dest.

(** ZYAN_STRCSPN, LibC.h:354-366. *)
Fixpoint strcspn_loop (fuel fuel2 : nat) (s1 s2 r : N) : LM N :=
  match fuel with
  | O => lfuel
  | S f => do b <- ld s1;
      if b =? 0 then lret r
      else do q <- strchr fuel2 s2 b;
        match q with Some _ => lret r | None => strcspn_loop f fuel2 (s1 + 1) s2 (wadd r 1) end
  end.
Definition strcspn (fuel : nat) (s1 s2 : N) : LM N := strcspn_loop fuel fuel s1 s2 0.

(** ZYAN_STRLEN, LibC.h:368-376. *)
Definition strlen (fuel : nat) (str : N) : LM N := do e <- to_end fuel str; lret (e - str).

(** ZYAN_STRNCAT, LibC.h:378-394. *)
Fixpoint strncat_loop (n : nat) (dest src : N) : LM unit :=
  match n with
  | O => st dest 0
  | S n => do b <- ld src; do _ <- st dest b;
      if b =? 0 then lret tt else strncat_loop n (dest + 1) (src + 1)
  end.
Definition strncat (fuel : nat) (dest src n : N) : LM N :=
  do e <- to_end fuel dest; do _ <- strncat_loop (N.to_nat n) e src; lret dest.

(** ZYAN_STRNCMP, LibC.h:396-406: there is no test for the NUL byte. *)
Fixpoint strncmp_loop (n : nat) (s1 s2 : N) : LM Z :=
  match n with
  | O => lret 0%Z
  | S n => do b1 <- ld s1; do b2 <- ld s2;
      if negb (b1 =? b2) then lret (Z.of_N b1 - Z.of_N b2)%Z else strncmp_loop n (s1 + 1) (s2 + 1)
  end.
Definition strncmp (s1 s2 n : N) : LM Z := strncmp_loop (N.to_nat n) s1 s2.

(** ZYAN_STRNCPY, LibC.h:408-423. *)
Fixpoint strncpy_loop (n : nat) (dest src : N) : LM unit :=
  match n with
  | O => lret tt
  | S n => do b <- ld src; do _ <- st dest b;
      if b =? 0 then fill_loop n (dest + 1) 0 else strncpy_loop n (dest + 1) (src + 1)
  end.
Definition strncpy (dest src n : N) : LM N := do _ <- strncpy_loop (N.to_nat n) dest src; lret dest.

(** ZYAN_STRPBRK, LibC.h:425-435. *)
Fixpoint strpbrk_loop (fuel fuel2 : nat) (s1 s2 : N) : LM (option N) :=
  match fuel with
  | O => lfuel
  | S f => do b <- ld s1;
      if b =? 0 then lret None
      else do q <- strchr fuel2 s2 b;
        match q with Some _ => lret (Some s1) | None => strpbrk_loop f fuel2 (s1 + 1) s2 end
  end.
Definition strpbrk (fuel : nat) (s1 s2 : N) : LM (option N) := strpbrk_loop fuel fuel s1 s2.

(** ZYAN_STRRCHR, LibC.h:437-448. *)
Fixpoint strrchr_loop (fuel : nat) (s c : N) (r : option N) : LM (option N) :=
  match fuel with
  | O => lfuel
  | S f => do b <- ld s;
      let r' := if b =? c mod 256 then Some s else r in
      if b =? 0 then lret r' else strrchr_loop f (s + 1) c r'
  end.
Definition strrchr (fuel : nat) (s c : N) : LM (option N) := strrchr_loop fuel s c None.

(** ZYAN_STRSPN, LibC.h:450-458. *)
Fixpoint strspn_loop (fuel fuel2 : nat) (s1 s2 r : N) : LM N :=
  match fuel with
  | O => lfuel
  | S f => do b <- ld s1;
      if b =? 0 then lret r
      else do q <- strchr fuel2 s2 b;
        match q with Some _ => strspn_loop f fuel2 (s1 + 1) s2 (wadd r 1) | None => lret r end
  end.
Definition strspn (fuel : nat) (s1 s2 : N) : LM N := strspn_loop fuel fuel s1 s2 0.

(** ZYAN_STRSTR, LibC.h:460-471. *)
Fixpoint strstr_loop (fuel : nat) (s1 s2 n : N) : LM (option N) :=
  match fuel with
  | O => lfuel
  | S f => do b <- ld s1;
      if b =? 0 then lret None
      else do r <- memcmp s1 s2 n;
        if (r =? 0)%Z then lret (Some s1) else strstr_loop f (s1 + 1) s2 n
  end.
Definition strstr (fuel : nat) (s1 s2 : N) : LM (option N) :=
  do n <- strlen fuel s2; strstr_loop fuel s1 s2 n.

(** ZYAN_STRTOK, LibC.h:473-492.  The static variable [p] is passed in and returned; the result is
    the returned pointer and the new value of the variable. *)
Definition strtok (fuel : nat) (p : option N) (str : option N) (delim : N) : LM (option N * option N) :=
  match (match str with Some s => Some s | None => p end) with
  | None => lret (None, p)
  | Some p =>
      do a <- strspn fuel p delim;
      let str := p + a in
      do b <- strcspn fuel str delim;
      let p := str + b in
      if p =? str then lret (None, None)
      else do c <- ld p;
        if c =? 0 then lret (Some str, None)
        else do _ <- st p 0; lret (Some str, Some (p + 1))
  end.

(** ZYAN_STRXFRM, LibC.h:494-502. *)
Definition strxfrm (fuel : nat) (dest src n : N) : LM N :=
  do n2 <- strlen fuel src;
  if n2 <? n then (do _ <- strcpy fuel dest src; lret n2) else lret n2.

(** Not part of the library: [k] calls [ZYAN_STRTOK(NULL, delim)] in a row, and the usual way to split a
    string, [ZYAN_STRTOK(str, delim)] followed by [k] such calls.  The list of returned pointers. *)
Fixpoint strtok_next (fuel : nat) (k : nat) (p : option N) (delim : N) : LM (list (option N)) :=
  match k with
  | O => lret []
  | S k => do (r, p) <- strtok fuel p None delim; do rs <- strtok_next fuel k p delim; lret (r :: rs)
  end.
Definition strtok_run (fuel : nat) (k : nat) (p : option N) (str delim : N) : LM (list (option N)) :=
  do (r, p) <- strtok fuel p (Some str) delim; do rs <- strtok_next fuel k p delim; lret (r :: rs).
