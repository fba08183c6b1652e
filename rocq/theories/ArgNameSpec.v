(** Command lines of which the program name may be missing or anything at all.  No proofs here. *)
From Verif Require Import Base Status Mem VectorModel VectorDriver StringModel StringDriver ArgModel ArgSpec ArgDriver.

(** The configuration says: tokens [ts], definitions [ds].  There may be no program name (argc = 0), and its pointer may be
    any pointer. *)
Definition tokens_are (tw : Mem.world N) (cfg : aconfig) (ts : list token) (ds : list sdef) : Prop :=
  Forall2 (cstring_at tw) (tl (ac_argv cfg)) ts /\ Forall2 (def_is tw) (ac_args cfg) ds.
