(** Property theorems about comparisons of signed numbers (C104). *)
From Verif Require Import Base NListFacts Status Mem VectorModel VectorSpec VectorDriver VectorExamples ComparisonModel ComparisonSpec
  SignedModel SignedSpec SignedProofs.
Import ListNotations.

(** C104.  A function declared for a signed type decides the order and the equality of the numbers, for every width. *)
Theorem c104_signed :
  forall k a b, (0 < k)%nat -> in_signed k a -> in_signed k b ->
    compare_signed (N.of_nat k) (signed_bytes k a) (signed_bytes k b) = sign_of a b /\
    (equals_signed (N.of_nat k) (signed_bytes k a) (signed_bytes k b) = true <-> a = b).
Proof. exact compare_signed_ok. Qed.
Print Assumptions c104_signed.
Example c104_signed_met : (0 < 4)%nat /\ in_signed 4 (-70000) /\ in_signed 4 5 /\ signed_bytes 4 (-70000) = [144; 238; 254; 255] /\
  sign_of (-70000) 5 = (-1)%Z.
Proof. split; [lia|]. split; [split; now vm_compute|]. split; [split; now vm_compute|]. split; reflexivity. Qed.
(** The same for a signed field of a structure, at every offset. *)
Theorem c104_signed_field :
  forall o k a b x y, (0 < k)%nat -> in_signed k a -> in_signed k b ->
    nsub o (N.of_nat k) x = signed_bytes k a -> nsub o (N.of_nat k) y = signed_bytes k b ->
    compare_signed_field o (N.of_nat k) x y = sign_of a b /\
    (equals_signed_field o (N.of_nat k) x y = true <-> a = b).
Proof. exact compare_signed_field_ok. Qed.
Print Assumptions c104_signed_field.
Example c104_signed_field_met : (0 < 2)%nat /\ in_signed 2 (-2) /\ in_signed 2 3 /\
  nsub 4 2 [9;9;9;9;254;255] = signed_bytes 2 (-2) /\ nsub 4 2 [7;7;7;7;3;0] = signed_bytes 2 3.
Proof. split; [lia|]. split; [split; now vm_compute|]. split; [split; now vm_compute|]. split; reflexivity. Qed.
(** They are what BinarySearch requires. *)
Theorem c104_signed_order : forall o k e, cmp_order e (compare_signed k) /\ cmp_order e (compare_signed_field o k).
Proof. exact (fun o k e => conj (signed_order k e) (signed_field_order o k e)). Qed.
Print Assumptions c104_signed_order.
(** BinarySearch with such a function in a vector of ascending signed numbers: found exactly if the number is there, and
    the index is the number of smaller elements. *)
Theorem c104_signed_search :
  forall (w : world N) v k zs a,
    reached w v (map (signed_bytes k) zs) -> v_esz v = N.of_nat k -> (0 < k)%nat ->
    Forall (in_signed k) zs -> in_signed k a -> ascending zs ->
    exists r w',
      with_arg (signed_bytes k a) (fun p => vbinary_search v p (compare_signed (N.of_nat k))) w = Ok (r, Some (smaller a zs)) w' /\
      (r = ST_TRUE /\ In a zs \/ r = ST_FALSE /\ ~ In a zs) /\ (forall b, heap w' b = heap w b).
Proof. exact signed_search. Qed.
Print Assumptions c104_signed_search.
(** The default functions (ZyanCompareNumeric8 to 64) agree with that for numbers of the same sign ... *)
Theorem c104_default_same_sign :
  forall k a b, (0 < k)%nat -> in_signed k a -> in_signed k b -> ((a < 0)%Z <-> (b < 0)%Z) ->
    compare (N.of_nat k) (signed_bytes k a) (signed_bytes k b) = sign_of a b.
Proof. exact default_same. Qed.
Print Assumptions c104_default_same_sign.
Example c104_default_same_sign_met : (0 < 2)%nat /\ in_signed 2 (-2) /\ in_signed 2 (-300) /\ ((-2 < 0)%Z <-> (-300 < 0)%Z).
Proof. split; [lia|]. split; [split; now vm_compute|]. split; [split; now vm_compute|]. split; reflexivity. Qed.
(** ... and take every negative number for greater than every other one, ... *)
Theorem c104_default_mixed_refuted :
  forall k a b, (0 < k)%nat -> in_signed k a -> in_signed k b -> (a < 0 <= b)%Z ->
    compare (N.of_nat k) (signed_bytes k a) (signed_bytes k b) = 1%Z /\
    compare (N.of_nat k) (signed_bytes k b) (signed_bytes k a) = (-1)%Z.
Proof. exact default_mixed. Qed.
Print Assumptions c104_default_mixed_refuted.
(** ... so that in an ascending vector whose middle element is negative no number from 0 on is found, even if it is there. *)
Theorem c104_default_search_refuted :
  forall (w : world N) v k zs a m,
    reached w v (map (signed_bytes k) zs) -> v_esz v = N.of_nat k -> (0 < k)%nat ->
    Forall (in_signed k) zs -> in_signed k a -> ascending zs ->
    nnth ((nlen zs - 1) / 2) zs = Some m -> (m < 0 <= a)%Z ->
    exists w', with_arg (signed_bytes k a) (fun p => vbinary_search v p (compare (N.of_nat k))) w = Ok (ST_FALSE, Some 0) w'.
Proof. exact default_search. Qed.
Print Assumptions c104_default_search_refuted.
Example c104_search_met : exists (w : world N) v, let zs := [-7; -2; 5]%Z in
  reached w v (map (signed_bytes 2) zs) /\ v_esz v = N.of_nat 2 /\ (0 < 2)%nat /\
  Forall (in_signed 2) zs /\ in_signed 2 5 /\ ascending zs /\
  nnth ((nlen zs - 1) / 2) zs = Some (-2)%Z /\ (-2 < 0 <= 5)%Z /\ In 5%Z zs /\ smaller 5 zs = 2.
Proof.
  destruct (reach_any 2 2 4 None (map (signed_bytes 2) [-7; -2; 5]%Z) 1) as (w & v & H & E & D & CP);
    [lia|exact Logic.I|lia|lia|repeat constructor|reflexivity|reflexivity|].
  exists w, v. cbv zeta. split; [left; exact H|]. split; [exact E|]. split; [lia|].
  split; [repeat constructor; now vm_compute|]. split; [split; now vm_compute|]. split.
  { intros i j a b IJ NA NB. assert (L : j < 3) by (change 3 with (nlen [-7; -2; 5]%Z); eapply nnth_lt; exact NB).
    assert (D' : (i = 0 /\ (j = 1 \/ j = 2)) \/ (i = 1 /\ j = 2)) by lia.
    destruct D' as [[-> [-> | ->]]|[-> ->]]; injection NA as <-; injection NB as <-; lia. }
  split; [reflexivity|]. split; [lia|]. split; [right; right; left; reflexivity|reflexivity].
Qed.
