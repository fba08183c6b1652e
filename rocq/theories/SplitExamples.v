(** An empty string beside the literals "a,,bc" and ",". *)
From Verif Require Import Base NListFacts Status MemFacts VectorModel VectorSpec VectorDriver VectorRep StringModel StringSpec StringDriver
  StringBytes StringProofs StringFinal StringFinal2 StringExamples ReplaceDriver SplitDriver SplitProofs Mem.
From Coq Require Import ZifyBool ZifyNat ZifyN.

Lemma split_state : exists w s, sreached_own w s [] /\ views w (text_view 0 6) [97;44;44;98;99] /\ views w (text_view 6 2) [44] /\
  beside (text_view 0 6) s /\ beside (text_view 6 2) s.
Proof.
  set (lit := [97;44;44;98;99;0;44;0]).
  assert (A : sinit_args_ok (text_world lit) 0 2 4) by (apply sinit_args_example; [lia|lia|reflexivity]).
  destruct (sinit_ok (text_world lit) 0 2 4 A) as (w & s & E & R & NF & AL & CP & B1 & B2 & OR & _ & _ & HP).
  assert (H : heap w 0 = Some lit).
  { rewrite HP; [reflexivity|]. change (nextb (text_world lit)) with 1 in B1. lia. }
  assert (B : forall d, snd (sget_data s) = Some d -> 0 <> pb d).
  { intros d D Z. pose proof (proj1 (proj1 R)) as VR. pose proof (r_data _ _ _ _ _ VR) as RD.
    change (snd (sget_data s)) with (v_data (s_vec s)) in D. rewrite RD in D. injection D as <-. cbn [pb] in Z.
    change (nextb (text_world lit)) with 1 in B1. lia. }
  exists w, s. split; [|split; [|split; [|split]]].
  - exists (text_world lit), 0, 2, 4, s, w, [], []. split; [exact A|]. split; [constructor|]. split; [reflexivity|]. split; [exact E|].
    split; [reflexivity|]. eapply srep_shows; eauto.
  - split; [reflexivity|]. split; [reflexivity|]. unfold mread. cbn [sdata text_view define_view s_vec v_data pb po]. rewrite H. reflexivity.
  - split; [reflexivity|]. split; [reflexivity|]. unfold mread. cbn [sdata text_view define_view s_vec v_data pb po]. rewrite H. reflexivity.
  - intros p d P D. injection P as <-. now apply B.
  - intros p d P D. injection P as <-. now apply B.
Qed.
Lemma split_example : pieces [44] [97;44;44;98;99] [[97]; []; [98;99]].
Proof.
  apply (pieces_first [44] [97] [44;98;99]).
  - intros i I. change (nlen [97]) with 1 in I. assert (i = 0) as -> by lia. intros [_ F]. inversion F as [|? ? ? ? X]. discriminate.
  - apply (pieces_first [44] [] [98;99]); [intros i I; change (nlen (@nil N)) with 0 in I; lia|].
    apply pieces_last. intros i [L F]. change (nlen [44]) with 1 in *. change (nlen [98;99]) with 2 in *.
    assert (i = 0 \/ i = 1) as [-> | ->] by lia; inversion F as [|? ? ? ? X]; discriminate.
Qed.
