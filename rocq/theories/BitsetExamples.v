(** Concrete bitsets for the bitset theorems. *)
From Verif Require Import Base NListFacts Status Mem MemFacts VectorModel VectorDriver VectorExamples StringModel
  StringExamples BitsetModel BitsetSpec BitsetDriver BitsetFinal.
From Coq Require Import ZifyBool ZifyNat ZifyN.

Definition pushed (bs : list bool) : list bitop := map BPush bs.
Lemma pushed_steps limit bs : forall xs, holds_bits limit (nlen xs + nlen bs) = true ->
  legal limit (pushed bs) xs /\ tidy limit (pushed bs) xs /\ snd (bitsteps limit (pushed bs) xs) = xs ++ bs /\
  pushes (pushed bs) = nlen bs.
Proof.
  induction bs as [|x bs IH]; intros xs H; [cbn; rewrite app_nil_r; auto|].
  assert (H1 : holds_bits limit (nlen xs + 1) = true).
  { rewrite nlen_cons in H. destruct limit; [|reflexivity]. cbn [holds_bits] in *. lia. }
  destruct (IH (xs ++ [x])) as (A & B & C & D).
  { rewrite nlen_app. change (nlen [x]) with 1. rewrite nlen_cons in H. now replace (nlen xs + 1 + nlen bs) with (nlen xs + (1 + nlen bs)) by lia. }
  cbn [pushed map legal tidy legal_op tidy_op bitsteps bitstep pushes]. rewrite H1. cbn [snd]. fold (pushed bs).
  split; [now split|]. split; [now split|]. split.
  - destruct (bitsteps limit (pushed bs) (xs ++ [x])) as [rs zs]. cbn [snd] in *. rewrite C, <- app_assoc. reflexivity.
  - rewrite nlen_cons. lia.
Qed.
(** In every world with a working allocator every list of bits is the contents of a reachable bitset. *)
Lemma bitbuilt_any (w0 : world N) bs : world_ok w0 -> allocator_ok w0 -> bitroom (nlen bs) ->
  exists w b, bitbuilt None w0 w b bs /\ bitbuilt_by tidy None w0 w b bs.
Proof.
  intros W A F. destruct (pushed_steps None bs (zeros 0) eq_refl) as (L & T & S & P).
  assert (I : bitinit_args_ok w0 0 2 4) by (repeat split; auto; lia).
  assert (F' : bitroom (0 + pushes (pushed bs))) by (rewrite P; exact F).
  destruct (growable_bitset w0 0 2 4 (pushed bs) I eq_refl L F') as (b0 & w1 & b & w & E1 & E2 & _).
  exists w, b. split; exists 0, (pushed bs), b0, w1, (fst (bitsteps None (pushed bs) (zeros 0)));
    (split; [exists 2, 4; split; [exact I|exact E1]|]); (split; [reflexivity|]); (split; [exact L|]); auto.
Qed.
Lemma bitreach_any bs : bitroom (nlen bs) -> exists (w : world N) b, bitreached None w b bs /\ bitreached_tidy None w b bs.
Proof.
  intros F. destruct (bitbuilt_any world0 bs) as (w & b & H1 & H2); [apply world0_ok|apply world0_ok|exact F|].
  exists w, b. split; exists world0; assumption.
Qed.
(** The same in a buffer of [cap] bytes. *)
Lemma bitreach_buf_any bs cap : bitroom (nlen bs) -> nlen bs <= 8 * cap -> 1 <= cap < W64 ->
  exists (w : world N) b, bitreached (Some (8 * cap)) w b bs.
Proof.
  intros F L C. set (buf := repeat 7 (N.to_nat cap)).
  assert (LB : nlen buf = cap). { unfold buf, nlen. rewrite repeat_length. lia. }
  destruct (pushed_steps (Some (8 * cap)) bs (zeros 0)) as (LG & _ & S & P).
  { cbn [holds_bits]. change (nlen (zeros 0)) with 0. lia. }
  assert (A : bitbuffer_args_ok (text_world ([1;2] ++ buf ++ [3])) 0 cap 0 [1;2] buf [3]).
  { split; [apply text_world_ok|]. split; [reflexivity|]. repeat split; auto; try lia. }
  assert (F' : bitroom (0 + pushes (pushed bs))) by (rewrite P; exact F).
  destruct (fixed_bitset _ _ _ _ _ _ _ (pushed bs) A eq_refl LG F') as (b0 & w1 & b & w & buf' & E1 & E2 & _).
  exists w, b, (text_world ([1;2] ++ buf ++ [3])), 0, (pushed bs), b0, w1, (fst (bitsteps (Some (8 * cap)) (pushed bs) (zeros 0))).
  split; [exists cap, 0, [1;2], buf, [3]; split; [reflexivity|]; split; [exact A|exact E1]|]. split; [reflexivity|].
  split; [exact LG|]. auto.
Qed.

(** Initialise and run, for the evaluated counterexamples. *)
Definition start_bits (n : N) (ops : list bitop) : M (list status * bitset) :=
  let* (st, ob) := with_zero (fun z => bs_init_ex z n true 2 4) in
  match ob with
  | Some b => run_bitops b ops
  | None => ret ([st], mkbitset 0 (mkvec true 0 0 0 0 0 None None))
  end.
(** The bits as the API shows them: GetSize and Test of the first [n] indices. *)
Definition show_bits (b : bitset) (n : nat) : M (N * list status) :=
  let* ss := (fix go (n : nat) (i : N) : M (list status) :=
    match n with O => ret [] | S n => let* s := bs_test b i in let* ss := go n (i + 1) in ret (s :: ss) end) n 0 in
  ret (snd (bs_get_size b), ss).
(** Two bitsets with memory of their own: the second is built after the first. *)
Lemma two_bitsets : exists limd (w : world N) d xs lims w1 s ys,
  bitreached limd w d xs /\ bitbuilt lims w w1 s ys /\ apart d s /\ xs = [true;false;true;true] /\ ys = [true;true;false].
Proof.
  destruct (bitbuilt_any world0 [true;false;true;true]) as (w & d & H1 & _); [apply world0_ok|apply world0_ok|reflexivity|].
  destruct (built_world _ _ _ _ _ H1) as [W A]; [apply world0_ok|].
  destruct (bitbuilt_any w [true;true;false] W A) as (w1 & s & H2 & _); [reflexivity|].
  assert (R : bitreached None w d [true;false;true;true]) by now exists world0.
  exists None, w, d, [true;false;true;true], None, w1, s, [true;true;false].
  split; [exact R|]. split; [exact H2|]. split; [exact (built_apart _ _ _ _ _ _ _ R H2)|now split].
Qed.
Definition bit_history : list bitop :=
  [BPush true; BPush false; BPush true; BToggle 1; BFlip; BPop; BSet 0; BAssign 9 true; BSetAll; BReset 1; BReserve 40; BShrinkToFit].
