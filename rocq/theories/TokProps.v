(** Property theorems about splitting several strings with ZYAN_STRTOK (C105). *)
From Verif Require Import Base NListFacts LibCModel LibCSpec TokDriver TokProofs.
Import ListNotations.

(** C105.  Source files that split a string each, in any interleaving: every file gets the tokens of its own string in order,
    as many as it asked for, and NULL afterwards; the tokens are still there at the end, and memory outside the strings is
    unchanged.  Whatever was split before. *)
Theorem c105_files_partial :
  forall m f vars str delim text chars files,
    apart m f str delim text chars files ->
    exists rs m', tok_calls f vars (turns str delim (fun _ => false) files) m = LOk rs m' /\
      (forall u, In u files -> exists addrs,
         answers u files rs = map Some addrs ++ repeat None (turns_of u files - length addrs) /\
         Forall2 (cstr m') addrs (firstn (turns_of u files) (tokens (chars u) (text u)))) /\
      (forall x, (forall u, In u files -> x < str u \/ str u + nlen (text u) <= x) -> m' x = m x).
Proof. exact files_split. Qed.
Print Assumptions c105_files_partial.
(** "a,b" in file 0 and "c;d" in file 1, turn by turn. *)
Example c105_files_met :
  let m := image 100 ([97;44;98;0] ++ [99;59;100;0] ++ [44;0] ++ [59;0]) in
  let str := fun u => if u =? 0 then 100 else 104 in let delim := fun u => if u =? 0 then 108 else 110 in
  let text := fun u => if u =? 0 then [97;44;98] else [99;59;100] in let chars := fun u => if u =? 0 then [44] else [59] in
  apart m 9 str delim text chars [0;1;0;1;0] /\ turns_of 0 [0;1;0;1;0] = 3%nat /\
  tokens (chars 0) (text 0) = [[97];[98]] /\
  match tok_calls 9 (fun _ => None) (turns str delim (fun _ => false) [0;1;0;1;0]) m with
  | LOk rs _ => rs = [Some 100; Some 104; Some 102; Some 106; None] | _ => False end.
Proof.
  cbv zeta. split; [|split; [reflexivity|split; [reflexivity|vm_compute; reflexivity]]].
  assert (U : forall u, In u [0;1;0;1;0] -> u = 0 \/ u = 1) by (intros u [<-|[<-|[<-|[<-|[<-|[]]]]]]; auto).
  split; [|split].
  - intros u IU. destruct (U u IU) as [-> | ->].
    + split; [split; [repeat split; reflexivity|intros [E|[E|[E|[]]]]; discriminate]|].
      split; [split; [repeat split; reflexivity|intros [E|[]]; discriminate]|].
      split; [apply Forall_forall; intros b [<-|[<-|[<-|[]]]]; reflexivity|]. split; [vm_compute; repeat constructor|]. split; [vm_compute; repeat constructor|reflexivity].
    + split; [split; [repeat split; reflexivity|intros [E|[E|[E|[]]]]; discriminate]|].
      split; [split; [repeat split; reflexivity|intros [E|[]]; discriminate]|].
      split; [apply Forall_forall; intros b [<-|[<-|[<-|[]]]]; reflexivity|]. split; [vm_compute; repeat constructor|]. split; [vm_compute; repeat constructor|reflexivity].
  - intros u v IU IV NE. destruct (U u IU) as [-> | ->], (U v IV) as [-> | ->]; try congruence; cbn [N.eqb]; vm_compute; [left|right]; discriminate.
  - intros u v IU IV. destruct (U u IU) as [-> | ->], (U v IV) as [-> | ->]; vm_compute; left; discriminate.
Qed.
(** A split cannot be continued in another source file, although ISO C allows it: the call there returns NULL, whatever is left
    of the string. *)
Theorem c105_other_file_refuted :
  forall m f vars u v p q s d t1 t2 ts,
    u <> v -> vars v = None -> cstr m p s -> cstr m q d -> Forall (fun b => b < 256) s ->
    (length s < f)%nat -> (length d < f)%nat -> nlen s < W64 -> tokens d s = t1 :: t2 :: ts ->
    exists a m', tok_calls f vars [mktcall u (Some p) q; mktcall v None q] m = LOk [Some a; None] m' /\ cstr m' a t1.
Proof. exact other_file. Qed.
Print Assumptions c105_other_file_refuted.
Example c105_other_file_refuted_met :
  let m := image 100 ([97;44;98;0] ++ [44;0]) in
  0 <> 1 /\ cstr m 100 [97;44;98] /\ cstr m 104 [44] /\ Forall (fun b => b < 256) [97;44;98] /\ (length [97;44;98] < 9)%nat /\
  (length [44] < 9)%nat /\ nlen [97;44;98] < W64 /\ tokens [44] [97;44;98] = [[97];[98]].
Proof.
  cbv zeta. split; [discriminate|]. split; [split; [repeat split; reflexivity|intros [E|[E|[E|[]]]]; discriminate]|].
  split; [split; [repeat split; reflexivity|intros [E|[]]; discriminate]|]. split; [repeat constructor|].
  split; [cbn; lia|]. split; [cbn; lia|]. split; reflexivity.
Qed.
(** In one file only one split is under way: after another string has been split to its end the first one is over, as in
    ISO C. *)
Theorem c105_one_at_a_time :
  forall m f vars u p q s d p2 q2 s2 d2 t1 t2 ts k,
    cstr m p s -> cstr m q d -> Forall (fun b => b < 256) s -> (length s < f)%nat -> (length d < f)%nat -> nlen s < W64 ->
    cstr m p2 s2 -> cstr m q2 d2 -> Forall (fun b => b < 256) s2 -> (length s2 < f)%nat -> (length d2 < f)%nat -> nlen s2 < W64 ->
    disjoint p (nlen s + 1) p2 (nlen s2 + 1) -> disjoint p (nlen s + 1) q2 (nlen d2 + 1) -> disjoint p2 (nlen s2 + 1) q2 (nlen d2 + 1) ->
    tokens d s = t1 :: t2 :: ts -> (length (tokens d2 s2) < S k)%nat ->
    exists a rs m', tok_calls f vars
      (mktcall u (Some p) q :: mktcall u (Some p2) q2 :: repeat (mktcall u None q2) k ++ [mktcall u None q]) m = LOk (Some a :: rs ++ [None]) m'.
Proof. exact nested. Qed.
Print Assumptions c105_one_at_a_time.
Example c105_one_at_a_time_met :
  let m := image 100 ([97;44;98;0] ++ [99;59;100;0] ++ [44;0] ++ [59;0]) in
  cstr m 100 [97;44;98] /\ cstr m 108 [44] /\ cstr m 104 [99;59;100] /\ cstr m 110 [59] /\
  disjoint 100 4 104 4 /\ disjoint 100 4 110 2 /\ disjoint 104 4 110 2 /\
  tokens [44] [97;44;98] = [[97];[98]] /\ tokens [59] [99;59;100] = [[99];[100]] /\
  match tok_calls 9 (fun _ => None) (mktcall 0 (Some 100) 108 :: mktcall 0 (Some 104) 110 :: repeat (mktcall 0 None 110) 2 ++ [mktcall 0 None 108]) m with
  | LOk rs _ => rs = [Some 100; Some 104; Some 106; None; None] | _ => False end.
Proof.
  cbv zeta. split; [split; [repeat split; reflexivity|intros [E|[E|[E|[]]]]; discriminate]|].
  split; [split; [repeat split; reflexivity|intros [E|[]]; discriminate]|].
  split; [split; [repeat split; reflexivity|intros [E|[E|[E|[]]]]; discriminate]|].
  split; [split; [repeat split; reflexivity|intros [E|[]]; discriminate]|].
  split; [vm_compute; left; discriminate|]. split; [vm_compute; left; discriminate|]. split; [vm_compute; left; discriminate|].
  split; [reflexivity|]. split; [reflexivity|]. vm_compute. reflexivity.
Qed.
