(** A command line for the theorems about written command lines. *)
From Coq Require Import String Permutation.
From Verif Require Import Base NListFacts Status Mem VectorModel StringModel ArgModel ArgSpec ArgDriver ArgExamples WrittenSpec WrittenProofs.
From Coq Require Import ZifyBool ZifyNat ZifyN.
Import ListNotations.
Local Open Scope N_scope.

Lemma named_at ds1 x ds2 : Forall (fun y => sd_name y <> sd_name x) ds1 ->
  named (ds1 ++ x :: ds2) (sd_name x) (nlen ds1) (sd_boolean x).
Proof.
  intros F. exists x. split; [now apply nnth_mid|]. split; [reflexivity|]. split; [reflexivity|]. intros j y L NY.
  rewrite nnth_app1 in NY by exact L. rewrite Forall_forall in F. apply F. apply nnth_some in NY as (a & e & -> & _). apply in_elt.
Qed.
(** prog -abx w1 --out f --help -b -v -- -z --out *)
Definition some_items : list item :=
  [IAttached [(97, 0)] 1 98 (chars "x"); IArgument (chars "w1"); ILong 3 (chars "--out") (chars "f"); IFlag 2 (chars "--help");
   IShort [] 1 98 (chars "-v")].
Definition some_rest : option (list token) := Some [chars "-z"; chars "--out"].
Lemma named_a : named defs [dash; 97] 0 true.
Proof. apply (named_at [] (mksdef (chars "-a") true false) (skipn 1 defs)). constructor. Qed.
Lemma named_b : named defs [dash; 98] 1 false.
Proof. apply (named_at (firstn 1 defs) (mksdef (chars "-b") false false) (skipn 2 defs)). repeat constructor; discriminate. Qed.
Lemma named_help : named defs (chars "--help") 2 true.
Proof. apply (named_at (firstn 2 defs) (mksdef (chars "--help") true false) (skipn 3 defs)). repeat constructor; discriminate. Qed.
Lemma named_out : named defs (chars "--out") 3 false.
Proof. apply (named_at (firstn 3 defs) (mksdef (chars "--out") false true) (skipn 4 defs)). repeat constructor; discriminate. Qed.
Lemma some_items_ok : Forall (item_ok defs) some_items.
Proof.
  constructor; [|constructor; [|constructor; [|constructor; [|constructor; [|constructor]]]]]; cbn [item_ok].
  - split; [exists 97, [98; 120]; split; [reflexivity|discriminate]|]. split; [repeat constructor; exact named_a|]. split; [exact named_b|discriminate].
  - intros (c & y & X). discriminate X.
  - split; [now exists 111, (chars "ut")|exact named_out].
  - split; [now exists 104, (chars "elp")|exact named_help].
  - split; [exists 98, []; split; [reflexivity|discriminate]|]. split; [constructor|exact named_b].
Qed.
Lemma some_required : required_present defs (meant some_items some_rest).
Proof.
  intros d x X R. unfold nnth, defs in X. destruct (N.to_nat d) as [|[|[|[|k]]]] eqn:D; cbn in X; try (injection X as <-; discriminate R).
  - exists (valued 3 (chars "f")). split; [cbn; tauto|]. cbn. f_equal. lia.
  - destruct k; discriminate X.
Qed.
