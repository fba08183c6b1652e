(** What it means that compiling the assertions out changes nothing.  No proofs here. *)
From Verif Require Import Base Status Mem.

(** Whatever the call does without a fault in a build with assertions (or any other), it does in the release build: the
    same answer, the same memory, the same allocator requests and destructor calls. *)
Definition same_in_release {C A} (m : M C A) : Prop :=
  forall w a w', m w = Ok a w' -> m (release w) = Ok a (release w').
(** ... and a release build has undefined behaviour only where the other build has a fault, too. *)
Definition no_new_faults {C A} (m : M C A) : Prop :=
  forall w f, m (release w) = Fault f -> exists g, m w = Fault g.
