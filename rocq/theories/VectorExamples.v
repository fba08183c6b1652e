(** Concrete worlds and reachable vectors, used to show that hypotheses of the property theorems can be
    met. *)
From Verif Require Import Base NListFacts Status Mem MemFacts VectorModel VectorSpec VectorDriver
  VectorRep VectorProofs VectorProofs2 VectorProofs3 VectorRefine VectorSearch VectorFail VectorMore
  VectorFinal VectorFinal2.
From Coq Require Import ZifyBool ZifyNat ZifyN.

(** Empty memory of byte cells, an allocator that always succeeds and hands out memory filled with
    170. *)
Definition world0 : world N := mkworld (fun _ => None) 0 (fun _ => AOk (fun _ => 170)) 0 [].
(** The same with the requests numbered in [bad] failing. *)
Definition world_failing (bad : list N) : world N :=
  mkworld (fun _ => None) 0
    (fun t => if existsb (N.eqb t) bad then AFail 7 else AOk (fun _ => 170)) 0 [].
(** A caller-supplied block 0 of ten bytes. *)
Definition world_buf : world N :=
  mkworld (fun b => if b =? 0 then Some [1;1;2;2;2;2;2;2;3;3] else None) 1
    (fun _ => AOk (fun _ => 170)) 0 [].

Lemma world0_ok : world_ok world0 /\ allocator_ok world0.
Proof. split; [intros b _; reflexivity|]. intros t. exists (fun _ => 170). reflexivity. Qed.

(** The worlds of the theorems include release builds. *)
Example release_worlds (w : world N) : world_ok w -> allocator_ok w -> world_ok (release w) /\ allocator_ok (release w).
Proof. intros H A. split; [exact H|exact A]. Qed.

Lemma init_args_world0 e cap d g s :
  1 <= e -> dtor_ok e d -> 1 <= g < 256 -> s < 256 -> N.max 1 cap * e < W64 ->
  init_args_ok world0 e cap d g s.
Proof. destruct world0_ok. unfold init_args_ok. tauto. Qed.

Lemma buffer_args_world : buffer_args_ok world_buf 2 3 None 0 [1;1] [2;2;2;2;2;2] [3;3].
Proof.
  unfold buffer_args_ok. repeat split; try reflexivity; try lia; try exact I.
  - intros b L. change (1 <= b) in L. unfold world_buf. cbn [heap mkworld]. destruct (N.eqb_spec b 0); [lia|reflexivity].
Qed.

(** Every list of elements is the contents of some reachable growable vector. *)
Lemma reach_any (e g s : N) (d : option (list N -> list N)) ys extra :
  1 <= e -> dtor_ok e d -> 1 <= g < 256 -> s < 256 -> Forall (fun y => nlen y = e) ys ->
  room (nlen ys) e -> N.max 1 (nlen ys + extra) * e < W64 ->
  exists w v, reached_own w v ys /\ v_esz v = e /\ v_dtor v = d /\
    snd (vget_capacity v) = N.max 1 (nlen ys + extra).
Proof.
  intros E1 DK GB SB K RM MM.
  assert (I : init_args_ok world0 e (nlen ys + extra) d g s) by now apply init_args_world0.
  destruct (init_ok world0 e (nlen ys + extra) d g s (fun _ => 170)) as
    (w1 & v0 & E & R & CP & ES & AL & CF & _); auto; try reflexivity.
  { apply world0_ok. }
  destruct (pushes_room ys w1 v0 [] [] [] R) as (v & w & E2 & _ & _ & CP2 & R2).
  { now rewrite ES. } { rewrite CP, nlen_nil. lia. }
  assert (DM : forall zs : list (list N), demands (map OPushBack zs) = nlen zs).
  { induction zs as [|z zs IH]; [reflexivity|]. cbn [map demands demand]. rewrite IH, nlen_cons. reflexivity. }
  assert (RO : reached_own w v ys).
  { exists world0, e, (nlen ys + extra), d, g, s, v0, w1, (map OPushBack ys), (map (fun _ => ST_SUCCESS) ys).
    split; [exact I|]. split; [|split; [now rewrite DM|split; [exact E|split; [exact E2|eapply rep_shows; eauto]]]].
    clear -K. induction K as [|y ys H K IH]; cbn [map]; constructor; auto. }
  exists w, v. split; [exact RO|].
  destruct (own_run world0 e (nlen ys + extra) d g s (map OPushBack ys) I) as
    (v0' & w1' & rs' & v' & w' & xs' & E' & ER' & _ & _ & _ & CF' & _).
  { clear -K. induction K as [|y ys H K IH]; cbn [map]; constructor; auto. }
  { now rewrite DM. }
  rewrite E in E'. inv E'. rewrite E2 in ER'. inv ER'. unfold cfg_of in CF'. inv CF'.
  cbn [vget_capacity snd]. rewrite CP2, CP. auto.
Qed.

(** A two-byte-element vector with three elements and room for a fourth. *)
Lemma ex_reached : exists w v, reached_own w v [[1;2];[3;4];[5;6]] /\ v_esz v = 2 /\ v_dtor v = None /\
  snd (vget_capacity v) = 4.
Proof.
  destruct (reach_any 2 2 4 None [[1;2];[3;4];[5;6]] 1) as (w & v & H & E & D & CP).
  - lia.
  - exact I.
  - lia.
  - lia.
  - repeat constructor.
  - reflexivity.
  - reflexivity.
  - exists w, v. auto.
Qed.
(** The same with no room left. *)
Lemma ex_reached_full : exists w v, reached_own w v [[1;2];[3;4];[5;6]] /\ v_esz v = 2 /\ v_dtor v = None /\
  snd (vget_capacity v) = 3.
Proof.
  destruct (reach_any 2 2 4 None [[1;2];[3;4];[5;6]] 0) as (w & v & H & E & D & CP).
  - lia.
  - exact I.
  - lia.
  - lia.
  - repeat constructor.
  - reflexivity.
  - reflexivity.
  - exists w, v. auto.
Qed.
(** Elements ordered by their first byte. *)
Definition first_byte_cmp (x y : list N) : Z := (Z.of_N (hd 0%N x) - Z.of_N (hd 0%N y))%Z.
(** A vector beside the caller-supplied block of [world_buf]. *)
Lemma ex_reached_beside : exists w v, reached_own w v [[1;2];[3;4];[5;6]] /\ v_esz v = 2 /\ v_data v = Some (mkptr 1 0) /\
  heap w 0 = Some ([1;1] ++ [2;2;2;2;2;2] ++ [3;3]).
Proof.
  eexists _, _. split; [|repeat split].
  - exists world_buf, 2, 3, None, 2, 4. eexists _, _, [OPushBack [1;2]; OPushBack [3;4]; OPushBack [5;6]], _.
    split; [|split; [repeat constructor|split; [reflexivity|split; [vm_compute; reflexivity|split; [vm_compute; reflexivity|]]]]].
    + split; [apply buffer_args_world|]. split; [intros t; now eexists|]. repeat split; try lia; reflexivity.
    + split; [reflexivity|]. intros i. destruct i as [|p]; [now vm_compute|].
      destruct (N.lt_ge_cases (N.pos p) 3) as [L|L].
      * destruct p as [[p|p|]|[p|p|]|]; try lia; now vm_compute.
      * rewrite nnth_ge by exact L. destruct p as [[p|p|]|[p|p|]|]; try lia; reflexivity.
  - vm_compute. reflexivity.
  - vm_compute. reflexivity.
  - vm_compute. reflexivity.
Qed.
