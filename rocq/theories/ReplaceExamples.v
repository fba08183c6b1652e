(** A string "abba" beside the literals "b" and "xy". *)
From Verif Require Import Base NListFacts Status MemFacts VectorModel VectorSpec VectorDriver StringModel StringSpec StringDriver StringProofs StringFinal StringFinal2
  StringExamples ReplaceDriver ReplaceProofs Mem.
From Coq Require Import ZifyBool ZifyNat ZifyN.

Lemma replace_state : exists w s, sreached_own w s [97;98;98;97] /\ views w (text_view 0 2) [98] /\ views_part w (text_view 2 3) [120;121] /\
  beside (text_view 0 2) s /\ beside (text_view 2 3) s.
Proof.
  set (lit := [98;0;120;121;0]). set (x := [97;98;98;97]).
  assert (A : sinit_args_ok (text_world lit) 0 2 4) by (apply sinit_args_example; [lia|lia|reflexivity]).
  destruct (growable_string (text_world lit) 0 2 4 [SAppend x] A) as (s0 & w1 & rs & s & w & cs & E & E2 & K & SH & H).
  { repeat constructor. } { reflexivity. }
  apply sspecs_append in K; [|reflexivity]. subst cs. exists w, s.
  specialize (H 0 lit eq_refl).
  assert (B : forall d, snd (sget_data s) = Some d -> 0 <> pb d).
  { intros d D Z. destruct SH as (_ & _ & R). rewrite D in R. unfold mread in R. rewrite <- Z, H in R.
    change (nlen x + 1) with 5 in R. change (nlen lit) with 5 in R. destruct (N.leb_spec (po d + 5) 5) as [L|]; [|discriminate].
    replace (po d) with 0 in R by lia. discriminate. }
  split; [|split; [|split; [|split]]].
  - exists (text_world lit), 0, 2, 4, s0, w1, [SAppend x], rs. split; [exact A|]. split; [repeat constructor|]. split; [reflexivity|auto].
  - split; [reflexivity|]. split; [reflexivity|]. unfold mread. cbn [sdata text_view define_view s_vec v_data pb po]. rewrite H. reflexivity.
  - split; [reflexivity|]. split; [reflexivity|]. unfold mread. cbn [sdata text_view define_view s_vec v_data pb po]. rewrite H. reflexivity.
  - intros p d P D. injection P as <-. now apply B.
  - intros p d P D. injection P as <-. now apply B.
Qed.
Lemma replaced_example : replaced [98] [120;121] [97;98;98;97] [97;120;121;120;121;97].
Proof.
  apply (replaced_first [98] [120;121] [97] [98;97] [120;121;97]).
  - intros i I. change (nlen [97]) with 1 in I. assert (i = 0) as -> by lia. intros [_ F]. inversion F as [|? ? ? ? X]. discriminate.
  - apply (replaced_first [98] [120;121] [] [97] [97]); [intros i I; change (nlen (@nil N)) with 0 in I; lia|].
    apply replaced_none. intros i [L F]. change (nlen [98]) with 1 in *. change (nlen [97]) with 1 in *. assert (i = 0) as -> by lia.
    inversion F as [|? ? ? ? X]. discriminate.
Qed.
(** The same with a buffer of 6 characters. *)
Definition replace_world : world N :=
  mkworld (fun b => if b =? 0 then Some [98;0;120;121;0] else if b =? 1 then Some [7;7;7;7;7;7] else None) 2 (fun _ => AOk (fun _ => 170)) 0 [].
Lemma replace_state_buf : exists w s c, sreached_buf w s [97;98;98;97] /\ sget_capacity s w = Ok (ST_SUCCESS, c) w /\
  views w (text_view 0 2) [98] /\ views_part w (text_view 2 3) [120;121] /\ beside (text_view 0 2) s /\ beside (text_view 2 3) s.
Proof.
  set (x := [97;98;98;97]).
  assert (A : sbuffer_args_ok replace_world 6 1 [] [7;7;7;7;7;7] []).
  { split; [|repeat split; discriminate]. intros b B. cbn [replace_world nextb heap mkworld] in *.
    destruct (N.eqb_spec b 0); [lia|]. destruct (N.eqb_spec b 1); [lia|reflexivity]. }
  destruct (fixed_string _ _ _ _ _ _ [SAppend x] A) as (s0 & w1 & rs & s & w & cs & buf' & E & E2 & K & SH & _ & D & _ & _ & _ & H).
  { repeat constructor. } { reflexivity. }
  apply sspecs_append in K; [|reflexivity]. subst cs.
  assert (R : sreached_buf w s x).
  { exists replace_world, 6, 1, [], [7;7;7;7;7;7], [], s0, w1, [SAppend x], rs. split; [exact A|]. split; [repeat constructor|]. split; [reflexivity|auto]. }
  destruct (StringFinal2.capacity_bounds_size w s x (or_intror R)) as (c & C & _).
  exists w, s, c. specialize (H 0 ltac:(discriminate)). cbn [heap replace_world mkworld] in H. change (0 =? 0) with true in H. cbv iota in H.
  split; [exact R|]. split; [exact C|]. split; [|split; [|split]].
  - split; [reflexivity|]. split; [reflexivity|]. unfold mread. cbn [sdata text_view define_view s_vec v_data pb po]. rewrite H. reflexivity.
  - split; [reflexivity|]. split; [reflexivity|]. unfold mread. cbn [sdata text_view define_view s_vec v_data pb po]. rewrite H. reflexivity.
  - intros p d P Q. injection P as <-. cbn [sget_data snd] in Q. rewrite D in Q. injection Q as <-. discriminate.
  - intros p d P Q. injection P as <-. cbn [sget_data snd] in Q. rewrite D in Q. injection Q as <-. discriminate.
Qed.
