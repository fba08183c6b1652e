(** A program with three lists, two growable ones and one in a buffer. *)
From Coq Require Import ZifyBool ZifyNat ZifyN.
From Verif Require Import Base NListFacts Status Mem VectorModel VectorDriver ListModel ListSpec ListDriver ListExamples ListsSpec.

(** Block 0 holds 40 bytes; the third request is refused. *)
Definition lists_world : Mem.world cell :=
  mkworld (fun b => if b =? 0 then Some (lbuf 40) else None) 1
    (fun t => if t =? 2 then AFail 7 else AOk (fun _ => CByte 170)) 0 [].
Definition lists_program : list lcmd :=
  [CInit 1 2 (Some (fun x => x)); CInitBuffer 5 2 None 0 2 36; CCall 1 (LPushBack (el 1 1)); CCall 5 (LPushBack (el 9 9));
   CInit 2 1 None; CCall 2 (LPushFront [CByte 7]); CCall 5 (LPushFront (el 8 8)); CCall 1 (LPushBack (el 2 2));
   CCall 5 (LPushBack (el 6 6)); CCall 2 (LPushFront [CByte 3]); CCall 1 LPopFront; CDestroy 5; CInitBuffer 1000 1 None 0 0 40;
   CCall 2 (LResize 3 (Some [CByte 4]))].
Lemma lists_world_ok : world_ok lists_world.
Proof. intros b L. change (1 <= b) in L. unfold lists_world. cbn [heap mkworld]. destruct (N.eqb_spec b 0); [lia|reflexivity]. Qed.
Lemma lists_program_ok : cmds_ok lists_world empty lists_program /\ cmds_demand lists_program < W64.
Proof.
  split; [|reflexivity]. unfold lists_program.
  assert (B : exists x, heap lists_world 0 = Some x /\ nlen x = 40) by (exists (lbuf 40); split; reflexivity).
  destruct B as (x & HX & LX).
  repeat match goal with |- cmds_ok _ _ [] => exact I | |- cmds_ok _ _ (_ :: _) => split end.
  all: cbn [cmd_ok].
  all: match goal with
       | |- exists e b, _ => eexists _, _; split; [reflexivity|]; first [exact I|reflexivity]
       | |- _ /\ _ => idtac
       | |- _ <> None => discriminate
       end.
  all: split; [reflexivity|]; split; [lia|].
  all: try (split; [reflexivity|]; first [exact I|intros y L; reflexivity]).
  all: split; [exact I|]; split; [lia|]; split; [reflexivity|]; split; [exists x; split; [exact HX|lia]|].
  all: intros j e; unfold live_after, put, empty;
       repeat match goal with |- context [if ?c then _ else _] => destruct c; [discriminate|] end; discriminate.
Qed.
