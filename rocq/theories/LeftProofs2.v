(** Lists on a buffer with wrapping node sizes: every call that touches the element leaves the memory. *)
From Verif Require Import Base NListFacts Status MemFacts VectorModel ListModel Mem.
From Coq Require Import ZifyBool ZifyNat ZifyN.

Definition size_at (w : Mem.world cell) (b n : N) : Prop := exists x, heap w b = Some x /\ nlen x = n.

Lemma write_size p x (w : Mem.world cell) : match mwrite p x w with Ok _ w' => forall b n, size_at w b n -> size_at w' b n | Fault _ => True end.
Proof.
  unfold mwrite. destruct p as [p|]; [|exact Logic.I]. destruct (heap w (pb p)) as [buf|] eqn:E; [|exact Logic.I].
  destruct (N.leb_spec (po p + nlen x) (nlen buf)) as [L|L]; [|exact Logic.I]. intros b n (y & H & LY). unfold size_at, set_heap, hset. cbn [heap].
  destruct (N.eqb_spec b (pb p)) as [->|NE].
  - assert (y = buf) as -> by congruence. eexists. split; [reflexivity|]. rewrite nlen_nsplice by exact L. exact LY.
  - exists y. auto.
Qed.
Lemma read_big (w : Mem.world cell) b o e n : size_at w b n -> n < o + e -> mread (Some (mkptr b o)) e w = Fault OutOfBounds.
Proof. intros (x & H & <-) L. unfold mread. cbn [pb po]. rewrite H. now destruct (N.leb_spec (o + e) (nlen x)); [lia|]. Qed.
Lemma copy_big (w : Mem.world cell) b o e n q : size_at w b n -> n < o + e -> exists f, memcpy (Some (mkptr b o)) q e w = Fault f.
Proof.
  intros S L. unfold memcpy. destruct (overlap _ _ _); [eexists; reflexivity|]. unfold memmove.
  destruct S as (x & H & <-). unfold bind. destruct (mread q e w) as [y w1|f] eqn:E; [|eexists; reflexivity].
  unfold mread in E. destruct q as [q|]; [|discriminate]. destruct (heap w (pb q)) as [z|] eqn:HZ; [|discriminate].
  destruct (N.leb_spec (po q + e) (nlen z)); [|discriminate]. injection E as <- <-. unfold mwrite. cbn [pb po]. rewrite H.
  rewrite nlen_nsub by lia. destruct (N.leb_spec (o + e) (nlen x)); [lia|]. eexists; reflexivity.
Qed.
Lemma ctor_big (w : Mem.world cell) b o e n c : size_at w b n -> n < o + e -> exists f, call_ctor (Some c) (Some (mkptr b o)) e w = Fault f.
Proof. intros S L. unfold call_ctor, bind. rewrite (read_big _ _ _ _ _ S L). eexists; reflexivity. Qed.

(** Two stores and then a step that faults in every world that keeps the sizes. *)
Lemma stores_then {A} p1 x1 p2 x2 (m : ListModel.M unit) (k : unit -> ListModel.M A) (w : Mem.world cell) b n :
  size_at w b n -> (forall w', size_at w' b n -> exists f, m w' = Fault f) ->
  exists f, (mwrite p1 x1 ;;; mwrite p2 x2 ;;; (let* u := m in k u)) w = Fault f.
Proof.
  intros S F. unfold bind at 1. pose proof (write_size p1 x1 w) as W1. destruct (mwrite p1 x1 w) as [u w1|f]; [|eexists; reflexivity].
  unfold bind at 1. pose proof (write_size p2 x2 w1) as W2. destruct (mwrite p2 x2 w1) as [u' w2|f]; [|eexists; reflexivity].
  unfold bind at 1. destruct (F w2 (W2 _ _ (W1 _ _ S))) as [f ->]. eexists; reflexivity.
Qed.

Lemma wrapping_any (w : Mem.world cell) e dtor b pre buf post : W64 - 16 <= e -> e < W64 -> heap w b = Some (pre ++ buf ++ post) ->
  nlen pre + nlen buf + nlen post < W64 -> 1 <= nlen buf -> e + 16 - W64 <= nlen buf ->
  exists l, linit_custom e dtor (Some (mkptr b (nlen pre))) (nlen buf) w = Ok (ST_SUCCESS, Some l) w /\
    (forall q, exists f, lpush_back l (Some q) w = Fault f) /\ (forall q, exists f, lpush_front l (Some q) w = Fault f) /\
    (forall c, exists f, lemplace_back l (Some c) w = Fault f) /\ (forall c, exists f, lemplace_front l (Some c) w = Fault f).
Proof.
  intros L U H T B1 B2. exists (mklist false 0 e dtor None None (Some (mkptr b (nlen pre))) (nlen buf) None). split.
  { unfold linit_custom. unfold W64 in L. replace (e =? 0) with false by lia. replace (nlen buf =? 0) with false by lia. reflexivity. }
  assert (S0 : size_at w b (nlen (pre ++ buf ++ post))) by (eexists; split; [exact H|reflexivity]).
  assert (NS : wadd NODE_SIZE e = e + 16 - W64).
  { unfold wadd, NODE_SIZE. replace (16 + e) with (e + 16 - W64 + 1 * W64) by (unfold W64 in *; lia). rewrite N.mod_add by discriminate.
    apply N.mod_small. unfold W64 in *. lia. }
  assert (BG : nlen (pre ++ buf ++ post) < nlen pre + 16 + e) by (rewrite !nlen_app; unfold W64 in *; lia).
  assert (AL : lalloc_node (mklist false 0 e dtor None None (Some (mkptr b (nlen pre))) (nlen buf) None) w =
    Ok (ST_SUCCESS, mklist false 0 e dtor None None (Some (mkptr b (nlen pre))) (nlen buf) None, Some (mkptr b (nlen pre))) w).
  { unfold lalloc_node, lnode_size. cbn [l_alloc l_unused nonnull l_esz l_size l_cap l_buffer]. rewrite NS.
    change (wmul 0 (e + 16 - W64)) with 0. replace (wadd 0 (e + 16 - W64)) with (e + 16 - W64) by (unfold wadd; rewrite N.add_0_l, N.mod_small; unfold W64 in *; lia).
    destruct (N.ltb_spec (nlen buf) (e + 16 - W64)); [lia|]. cbn [padd pb po]. now rewrite N.add_0_r. }
  assert (CP : forall q w', size_at w' b (nlen (pre ++ buf ++ post)) -> exists f, memcpy (node_data (Some (mkptr b (nlen pre)))) q e w' = Fault f).
  { intros q w' S. exact (copy_big w' b (nlen pre + 16) e _ q S BG). }
  assert (CT : forall c w', size_at w' b (nlen (pre ++ buf ++ post)) -> exists f, call_ctor (Some c) (node_data (Some (mkptr b (nlen pre)))) e w' = Fault f).
  { intros c w' S. exact (ctor_big w' b (nlen pre + 16) e _ c S BG). }
  repeat split; intros x.
  - unfold lpush_back. cbn [nonnull negb]. rewrite (bind_ok _ _ _ _ _ AL). cbn [st_success negb l_esz].
    change (negb (st_success ST_SUCCESS)) with false. cbv iota beta. eapply stores_then; [exact S0|]. intros w' S. apply CP, S.
  - unfold lpush_front. cbn [nonnull negb]. rewrite (bind_ok _ _ _ _ _ AL). cbn [l_esz].
    change (negb (st_success ST_SUCCESS)) with false. cbv iota beta. eapply stores_then; [exact S0|]. intros w' S. apply CP, S.
  - unfold lemplace_back. rewrite (bind_ok _ _ _ _ _ AL). cbn [l_esz].
    change (negb (st_success ST_SUCCESS)) with false. cbv iota beta. eapply stores_then; [exact S0|]. intros w' S. apply CT, S.
  - unfold lemplace_front. rewrite (bind_ok _ _ _ _ _ AL). cbn [l_esz].
    change (negb (st_success ST_SUCCESS)) with false. cbv iota beta. eapply stores_then; [exact S0|]. intros w' S. apply CT, S.
Qed.
