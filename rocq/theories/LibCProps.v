(** Property theorems for the fallback C library functions (C47, C48).  Every theorem says that the call
    ends without touching an unmapped byte, what it returns, and what memory looks like afterwards: [LOk r m]
    with the memory [m] of the call means that nothing was changed.  Fuel: any bound above the string lengths. *)
From Verif Require Import Base LibCModel LibCSpec LibCProofs LibCProofs2.


(** C47. *)

Theorem c47_memcpy :
  forall m d s n l, bytes_at m s l -> nlen l = n -> mapped m d n -> disjoint d n s n ->
    exists m', memcpy d s n m = LOk d m' /\ forall a, m' a = put m d l a.
Proof. exact memcpy_ok. Qed.
Print Assumptions c47_memcpy.

Example c47_memcpy_met : let m := image 100 [1;2;3;0;0;0] in
  bytes_at m 100 [1;2;3] /\ mapped m 103 3 /\ disjoint 103 3 100 3.
Proof.
  cbv zeta. split; [|split].
  - repeat split; reflexivity.
  - intros i I. assert (D : i = 0 \/ i = 1 \/ i = 2) by lia. destruct D as [->|[->| ->]]; discriminate.
  - right. vm_compute. discriminate.
Qed.

Theorem c47_memmove :
  forall m d s n l, bytes_at m s l -> nlen l = n -> mapped m d n ->
    exists m', memmove d s n m = LOk d m' /\ forall a, m' a = put m d l a.
Proof. exact memmove_ok. Qed.
Print Assumptions c47_memmove.

Example c47_memmove_met : let m := image 100 [1;2;3;4;5] in bytes_at m 100 [1;2;3;4] /\ mapped m 101 4.
Proof.
  cbv zeta. split; [repeat split; reflexivity|].
  intros i I. assert (D : i = 0 \/ i = 1 \/ i = 2 \/ i = 3) by lia. destruct D as [->|[->|[->| ->]]]; discriminate.
Qed.

Theorem c47_memset :
  forall m d v n, mapped m d n ->
    exists m', memset d v n m = LOk d m' /\ forall a, m' a = put m d (nrepeat (v mod 256) n) a.
Proof. exact memset_ok. Qed.
Print Assumptions c47_memset.
Example c47_memset_met : let m := image 100 [1;2;3;4] in
  mapped m 101 2 /\ match memset 101 263 2 m with LOk r m' => r = 101 /\ map m' [100;101;102;103] = map Some [1;7;7;4] | _ => False end.
Proof.
  cbv zeta. split; [|now vm_compute]. intros i L. destruct (N.eq_dec i 0) as [->|]; [discriminate|].
  destruct (N.eq_dec i 1) as [->|]; [discriminate|]. lia.
Qed.

Theorem c47_memcmp :
  forall m p1 p2 n l1 l2, nlen l1 = n -> nlen l2 = n -> bytes_at m p1 l1 -> bytes_at m p2 l2 ->
    exists r, memcmp p1 p2 n m = LOk r m /\ cmp_result r l1 l2.
Proof. exact memcmp_ok. Qed.
Print Assumptions c47_memcmp.

Example c47_memcmp_met : let m := image 100 [1;2;1;3] in
  bytes_at m 100 [1;2] /\ bytes_at m 102 [1;3] /\ memcmp 100 102 2 m = LOk (-1)%Z m.
Proof. cbv zeta. repeat split; reflexivity. Qed.

Theorem c47_memchr :
  forall m p c n l, bytes_at m p l -> nlen l = n ->
    exists r, memchr p c n m = LOk r m /\ first_at (fun b => b =? c mod 256) p l r.
Proof. exact memchr_ok. Qed.
Print Assumptions c47_memchr.
Example c47_memchr_met : let m := image 100 [1;2;3;2] in
  bytes_at m 100 [1;2;3;2] /\ nlen [1;2;3;2] = 4 /\ memchr 100 258 4 m = LOk (Some 101) m.
Proof. cbv zeta. split; [repeat split; reflexivity|]. split; reflexivity. Qed.

(** C48. *)

Theorem c48_strlen :
  forall m p s f, cstr m p s -> (length s < f)%nat -> strlen f p m = LOk (nlen s) m.
Proof. exact strlen_ok. Qed.
Print Assumptions c48_strlen.

Example c48_strings_met : let m := image 100 ([104;105;0] ++ [105;0]) in
  cstr m 100 [104;105] /\ cstr m 103 [105] /\ strlen 9 100 m = LOk 2 m /\ strstr 9 100 103 m = LOk (Some 101) m /\
  cstr_n m 100 5 [104;105] /\ Forall (fun b => b < 256) [104;105].
Proof.
  cbv zeta. assert (A : cstr (image 100 ([104;105;0] ++ [105;0])) 100 [104;105]).
  { split; [repeat split; reflexivity|]. intros [E|[E|[]]]; discriminate. }
  split; [exact A|]. split.
  { split; [repeat split; reflexivity|]. intros [E|[]]; discriminate. }
  split; [reflexivity|]. split; [reflexivity|]. split; [left; split; [exact A|reflexivity]|].
  repeat constructor.
Qed.

Theorem c48_strcpy :
  forall m d p s f, cstr m p s -> mapped m d (nlen s + 1) ->
    disjoint d (nlen s + 1) p (nlen s + 1) -> (length s < f)%nat ->
    exists m', strcpy f d p m = LOk d m' /\ forall a, m' a = put m d (s ++ [0]) a.
Proof. exact strcpy_ok. Qed.
Print Assumptions c48_strcpy.

Theorem c48_strcat :
  forall m d p s t f, cstr m d s -> cstr m p t -> mapped m d (nlen s + nlen t + 1) ->
    disjoint d (nlen s + nlen t + 1) p (nlen t + 1) -> (length s < f)%nat -> (length t < f)%nat ->
    exists m', strcat f d p m = LOk d m' /\ forall a, m' a = put m (d + nlen s) (t ++ [0]) a.
Proof. exact strcat_ok. Qed.
Print Assumptions c48_strcat.

Theorem c48_strncpy :
  forall m d p s n, cstr_n m p n s -> mapped m d n -> disjoint d n p n ->
    exists m', strncpy d p n m = LOk d m' /\ forall a, m' a = put m d (s ++ nrepeat 0 (n - nlen s)) a.
Proof. exact strncpy_ok. Qed.
Print Assumptions c48_strncpy.

Theorem c48_strncat :
  forall m d p s t n f, cstr m d s -> cstr_n m p n t -> mapped m d (nlen s + nlen t + 1) ->
    disjoint d (nlen s + nlen t + 1) p n -> (length s < f)%nat ->
    exists m', strncat f d p n m = LOk d m' /\ forall a, m' a = put m (d + nlen s) (t ++ [0]) a.
Proof. exact strncat_ok. Qed.
Print Assumptions c48_strncat.
Example c48_copies_met : let m := image 100 ([104;105;0;0;0] ++ [97;98;0]) in
  cstr m 100 [104;105] /\ cstr m 105 [97;98] /\ mapped m 100 (2 + 2 + 1) /\ disjoint 100 5 105 3 /\ cstr_n m 105 2 [97;98] /\
  match strcat 9 100 105 m with LOk r m' => r = 100 /\ map m' [100;101;102;103;104] = map Some [104;105;97;98;0] | _ => False end.
Proof.
  cbv zeta. split; [split; [repeat split; reflexivity|intros [E|[E|[]]]; discriminate]|].
  split; [split; [repeat split; reflexivity|intros [E|[E|[]]]; discriminate]|].
  split; [|split; [|split; [|now vm_compute]]].
  - intros i L. destruct (N.eq_dec i 0) as [->|]; [discriminate|]. destruct (N.eq_dec i 1) as [->|]; [discriminate|].
    destruct (N.eq_dec i 2) as [->|]; [discriminate|]. destruct (N.eq_dec i 3) as [->|]; [discriminate|].
    destruct (N.eq_dec i 4) as [->|]; [discriminate|]. lia.
  - vm_compute. left. discriminate.
  - right. split; [repeat split; reflexivity|]. split; [intros [E|[E|[]]]; discriminate|reflexivity].
Qed.

Theorem c48_strcmp :
  forall m s t p q f, cstr m p s -> cstr m q t -> (length s < f)%nat ->
    exists r, strcmp f p q m = LOk r m /\ cmp_result r s t.
Proof. exact strcmp_ok. Qed.
Print Assumptions c48_strcmp.

(** Equal strings may only be compared up to their terminators. *)

Theorem c48_strncmp_partial :
  forall m s t p q n, cstr m p s -> cstr m q t -> (s = t -> n <= nlen s + 1) ->
    exists r, strncmp p q n m = LOk r m /\ cmp_result r (nfirst n s) (nfirst n t).
Proof. exact strncmp_ok. Qed.
Print Assumptions c48_strncmp_partial.

(** Otherwise the bytes behind the terminators decide ... *)
Theorem c48_strncmp_refuted :
  exists m s p q n r, cstr m p s /\ cstr m q s /\ strncmp p q n m = LOk r m /\ r <> 0%Z.
Proof.
  exists (image 100 [97;0;1;97;0;2]), [97], 100, 103, 3, (-1)%Z. repeat split; try reflexivity; try discriminate;
    intros [E|[]]; discriminate.
Qed.
Print Assumptions c48_strncmp_refuted.
(** ... or memory outside the two arrays is read. *)
Theorem c48_strncmp_overread_refuted :
  exists m s p q n, cstr m p s /\ cstr m q s /\ strncmp p q n m = LOob.
Proof.
  exists (image 100 [97;0;97;0]), [97], 100, 102, 5. repeat split; try reflexivity; intros [E|[]]; discriminate.
Qed.
Print Assumptions c48_strncmp_overread_refuted.

Theorem c48_strchr :
  forall m c s p f, cstr m p s -> (length s < f)%nat ->
    exists r, strchr f p c m = LOk r m /\ first_at (fun b => b =? c mod 256) p (s ++ [0]) r.
Proof. exact strchr_ok. Qed.
Print Assumptions c48_strchr.

Theorem c48_strrchr :
  forall m c s p f, cstr m p s -> (length s < f)%nat ->
    exists r, strrchr f p c m = LOk r m /\ last_at (fun b => b =? c mod 256) p (s ++ [0]) r.
Proof. exact strrchr_ok. Qed.
Print Assumptions c48_strrchr.

Theorem c48_strspn :
  forall m s t p q f, cstr m p s -> cstr m q t -> Forall (fun b => b < 256) s ->
    (length s < f)%nat -> (length t < f)%nat -> nlen s < W64 ->
    exists n, strspn f p q m = LOk n m /\ span (among t) s n.
Proof. exact strspn_ok. Qed.
Print Assumptions c48_strspn.

Theorem c48_strcspn :
  forall m s t p q f, cstr m p s -> cstr m q t -> Forall (fun b => b < 256) s ->
    (length s < f)%nat -> (length t < f)%nat -> nlen s < W64 ->
    exists n, strcspn f p q m = LOk n m /\ span (fun b => negb (among t b)) s n.
Proof. exact strcspn_ok. Qed.
Print Assumptions c48_strcspn.

Theorem c48_strpbrk :
  forall m s t p q f, cstr m p s -> cstr m q t -> Forall (fun b => b < 256) s ->
    (length s < f)%nat -> (length t < f)%nat ->
    exists r, strpbrk f p q m = LOk r m /\ first_at (among t) p s r.
Proof. exact (fun m s t p q f H HT B F FT => strpbrk_loop_ok m t q f HT FT s p f H B F). Qed.
Print Assumptions c48_strpbrk.

Theorem c48_strstr_partial :
  forall m s t p q f, cstr m p s -> cstr m q t -> (length s < f)%nat -> (length t < f)%nat ->
    s <> [] \/ t <> [] ->
    exists r, strstr f p q m = LOk r m /\ first_occ p s t r.
Proof. exact strstr_ok. Qed.
Print Assumptions c48_strstr_partial.

(** The empty string is not found in the empty string. *)
Theorem c48_strstr_empty_refuted :
  exists m p q f, cstr m p [] /\ cstr m q [] /\ strstr f p q m = LOk None m /\ ~ first_occ p [] [] None.
Proof.
  exists (image 100 [0;0]), 100, 101, 3%nat. repeat split; auto. intros H. now apply (H [] []).
Qed.
Print Assumptions c48_strstr_empty_refuted.
(** Splitting a string: [1 + k] calls return the tokens in order (as many as were asked for) and NULL
    afterwards; memory outside the string is unchanged. *)

Theorem c48_strtok :
  forall f k p0 m p q s d, cstr m p s -> cstr m q d -> Forall (fun b => b < 256) s ->
    (length s < f)%nat -> (length d < f)%nat -> nlen s < W64 ->
    disjoint p (nlen s + 1) q (nlen d + 1) ->
    exists addrs m', strtok_run f k p0 p q m = LOk (map Some addrs ++ repeat None (1 + k - length addrs)) m' /\
      Forall2 (cstr m') addrs (firstn (1 + k) (tokens d s)) /\
      (forall x, x < p \/ p + nlen s <= x -> m' x = m x).
Proof. exact (fun f k p0 m p q s d H HD B F FD W D => strtok_next_ok f q d FD (S k) m p s H HD B F W D). Qed.
Print Assumptions c48_strtok.

Example c48_strtok_met : let m := image 100 ([44;97;98;44;44;99;0] ++ [44;0]) in
  cstr m 100 [44;97;98;44;44;99] /\ cstr m 107 [44] /\ disjoint 100 7 107 2 /\
  tokens [44] [44;97;98;44;44;99] = [[97;98];[99]] /\
  match strtok_run 9 2 None 100 107 m with LOk r _ => r = [Some 101; Some 105; None] | _ => False end.
Proof.
  cbv zeta. repeat split; try reflexivity.
  - intros H. repeat (destruct H as [E|H]; [discriminate|]). exact H.
  - intros H. repeat (destruct H as [E|H]; [discriminate|]). exact H.
  - left. vm_compute. discriminate.
Qed.

Theorem c48_strxfrm :
  forall m d p s n f, cstr m p s -> (length s < f)%nat ->
    (nlen s < n -> mapped m d (nlen s + 1) /\ disjoint d (nlen s + 1) p (nlen s + 1)) ->
    exists m', strxfrm f d p n m = LOk (nlen s) m' /\
      forall a, m' a = (if nlen s <? n then put m d (s ++ [0]) a else m a).
Proof. exact strxfrm_ok. Qed.
Print Assumptions c48_strxfrm.
Example c48_strxfrm_met : let m := image 100 ([0;0;0] ++ [97;98;0]) in
  cstr m 103 [97;98] /\ mapped m 100 (2 + 1) /\ disjoint 100 3 103 3 /\
  match strxfrm 9 100 103 3 m with LOk r m' => r = 2 /\ map m' [100;101;102] = map Some [97;98;0] | _ => False end /\
  match strxfrm 9 100 103 2 m with LOk r m' => r = 2 /\ map m' [100;101;102] = map Some [0;0;0] | _ => False end.
Proof.
  cbv zeta. split; [split; [repeat split; reflexivity|intros [E|[E|[]]]; discriminate]|].
  split; [|split; [vm_compute; left; discriminate|split; now vm_compute]].
  intros i L. destruct (N.eq_dec i 0) as [->|]; [discriminate|]. destruct (N.eq_dec i 1) as [->|]; [discriminate|].
  destruct (N.eq_dec i 2) as [->|]; [discriminate|]. lia.
Qed.

(** ZYAN_STRCOLL is a stub: it calls any two strings equal. *)
Theorem c48_strcoll_refuted :
  exists m p q, cstr m p [97] /\ cstr m q [98] /\ strcoll p q m = LOk 0%Z m.
Proof.
  exists (image 100 [97;0;98;0]), 100, 102. repeat split; try reflexivity; intros [E|[]]; discriminate.
Qed.
Print Assumptions c48_strcoll_refuted.
