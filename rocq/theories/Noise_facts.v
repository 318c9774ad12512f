(** Lemmas on what noise leaves in the receive buffer of a client. *)
From Coq Require Import List ZArith Bool Lia.
From Verif Require Import Py Common Sal Cal Packet Text Mqtt Buffered Client Server Base Spec Spec_client Spec_server
  Spec_system Spec_noise Common_facts Sal_facts Packet_facts Packet_roundtrip Packet_decode Packet_total Buffer_facts
  Client_facts Client_steps Client_send Client_calls Client_dispatch Server_facts System_facts System_reply.
Import ListNotations.
Open Scope Z_scope.

(** ** The shape of a telegram *)

Lemma telegram_line w ps : telegram w ps ->
  exists digits, w = digits ++ [13; 10] /\ Forall hex_char digits /\ digits <> [].
Proof.
  intros [p [C [E K]]].
  assert (H : hex_packet p).
  { destruct C; try contradiction; try exact Logic.I. cbn [hex_packet]. eapply Forall_impl; [|exact H2].
    intros [] V; cbn in *; auto. }
  unfold serialize_packet in E. destruct (encode_packet p) as [d|e] eqn:D; [|destruct p; discriminate].
  exists d. split; [|split; [exact (encode_hex p d H D)|exact (encode_nonempty p d H D)]].
  destruct p; try contradiction; injection E as <-; reflexivity.
Qed.

(** ** How far the decoder reads *)

Lemma from_pci_consumed data ck strict ws r n : decode_packet data ck strict true = (ws, Ok (r, n)) ->
  n = 0%nat \/ (n = 1%nat /\ exists c rest, data = c :: rest /\ (c = 43 \/ c = 33))
  \/ (exists c x rest, is_code c /\ data = c :: x :: rest /\ n = 2%nat)
  \/ exists line rest, data = line ++ 13 :: 10 :: rest /\ n = (length line + 2)%nat.
Proof.
  intros H. destruct data as [|c0 tl]; [inversion H; now left|]. unfold decode_packet in H.
  destruct (c0 =? 43) eqn:E43; [inversion H; right; left; split; [reflexivity|]; exists c0, tl; split; [reflexivity|lia]|].
  destruct (c0 =? 33) eqn:E33; [inversion H; right; left; split; [reflexivity|]; exists c0, tl; split; [reflexivity|lia]|].
  destruct tl as [|c1 tl]; [inversion H; now left|].
  destruct (mem c0 CONFIRMATION_CODES) eqn:Ec.
  { inversion H. right. right. left. exists c0, c1, tl. split; [apply code_spec, mem_spec, Ec|]. now split. }
  destruct (find END_RESPONSE (c0 :: c1 :: tl)) as [e|] eqn:F; [|inversion H; now left].
  assert (G := find_some _ _ _ F). destruct G as [G1 [G2 G3]]. right. right. right.
  exists (firstn e (c0 :: c1 :: tl)), (skipn (e + length END_RESPONSE) (c0 :: c1 :: tl)). split; [exact G2|].
  rewrite firstn_length_le by lia.
  destruct (firstn e (c0 :: c1 :: tl)) as [|x line] eqn:L.
  - inversion H. reflexivity.
  - cbn [decode_line] in H. apply decode_hex_position in H.
    destruct H as [p [-> [[-> _]|[D _]]]]; [reflexivity|discriminate].
Qed.

(** ** What the client's handler keeps *)

Section Handler.
  Variable now : nat -> clockval.

  Lemma packet_working p c : working now c ->
    exists c1 ev, handle_cbus_packet now p c = (c1, ev, Ok tt) /\ working now c1.
  Proof.
    intros [N [T I]]. unfold working. destruct p; cbn [handle_cbus_packet]; try (exists c; eexists; split; [reflexivity|auto]).
    destruct (dispatch_list now (h_source h) sals N c I T) as [ev2 [E2 _]]. eexists. exists ev2. split; [exact E2|].
    destruct (after_fields c (answered c sals)) as [_ [F2 [_ [_ [_ [_ [F7 _]]]]]]]. split; [exact N|]. split; [congruence|exact F7].
  Qed.

  Lemma data_working c buf c' ev r : working now c -> handle_data now c buf = (c', ev, r) ->
    working now c' /\ (forall e, r = Raise e -> pci_raises true true buf)
    /\ (r = Ok 0 -> buf <> [] -> ~ pci_complete buf)
    /\ (forall n, r = Ok n -> 0 <= n).
  Proof.
    intros W H. unfold handle_data in H.
    destruct (decode_packet buf true true true) as [ws [[p n]|e]] eqn:D.
    - assert (Z0 : n = 0%nat -> buf <> [] -> ~ pci_complete buf).
      { intros -> N C. pose proof (complete_position buf true true true ws p 0 C D). lia. }
      destruct p as [p|].
      + destruct (packet_working p c W) as [c1 [ev1 [E W1]]]. rewrite E in H. inversion H; subst.
        split; [exact W1|]. split; [discriminate|]. split; [intros Q; apply Z0; injection Q; lia|].
        intros m Q. injection Q as <-. lia.
      + inversion H; subst. split; [exact W|]. split; [discriminate|]. split; [intros Q; apply Z0; injection Q; lia|].
        intros m Q. injection Q as <-. lia.
    - inversion H; subst. split; [exact W|]. split; [|split; discriminate]. intros e0 _. apply raises_from_pci. eauto.
  Qed.

  (** A buffer that ends with a line, or is empty. *)
  Definition ended (buf : bytes) : Prop :=
    buf = [] \/ buf = [13; 10] \/ exists y d, buf = y ++ [d; 13; 10] /\ hex_char d.

  Lemma ended_skip k buf : ended buf -> ended (skipn k buf) \/ skipn k buf = [10].
  Proof.
    intros [->|[->|[y [d [-> H]]]]].
    - left. left. now destruct k.
    - destruct k as [|[|k]]; [left; right; now left|now right|left; left; now destruct k].
    - rewrite skipn_app. destruct (Nat.le_gt_cases k (length y)) as [L|L].
      + left. right. right. replace (k - length y)%nat with 0%nat by lia. exists (skipn k y), d. now split.
      + rewrite skipn_all2 by lia. cbn [app].
        destruct (k - length y)%nat as [|[|[|j]]] eqn:J; [lia|left; right; now left|now right|left; left; now destruct j].
  Qed.

  Lemma data_ended c buf c' ev r : handle_data now c buf = (c', ev, Ok r) -> 0 < r -> ended buf ->
    ended (skipn (Z.to_nat r) buf).
  Proof.
    intros H R E. destruct (ended_skip (Z.to_nat r) buf E) as [K|K]; [exact K|exfalso].
    unfold handle_data in H. destruct (decode_packet buf true true true) as [ws [[p n]|e]] eqn:D; [|discriminate].
    assert (N : Z.to_nat r = n).
    { destruct p as [p|]; [destruct (handle_cbus_packet now p c) as [[c2 ev2] [[]|e]]|]; inversion H; subst; lia. }
    rewrite N in K. apply from_pci_consumed in D.
    destruct D as [D|[[D [x [rest [Eb Q]]]]|[[x [z [rest [C [Eb D]]]]]|[line [rest [Eb D]]]]]].
    - lia.
    - rewrite Eb, D in K. cbn in K. rewrite Eb, K in E. destruct E as [E|[E|[y [d [E _]]]]].
      + discriminate.
      + injection E. lia.
      + apply (f_equal (@length Z)) in E. cbn [app length] in E. rewrite ?app_length in E. cbn [length] in E. lia.
    - rewrite Eb, D in K. cbn in K. rewrite Eb, K in E. destruct E as [E|[E|[y [d [E Hd]]]]]; try discriminate.
      destruct y as [|y0 y].
      + injection E as -> _. unfold is_code in C. unfold hex_char in Hd. lia.
      + apply (f_equal (@length Z)) in E. cbn [app length] in E. rewrite ?app_length in E. cbn [length] in E. lia.
    - rewrite Eb, D in K. replace (length line + 2)%nat with (length (line ++ [13; 10])) in K by (rewrite app_length; reflexivity).
      change (line ++ 13 :: 10 :: rest) with (line ++ [13; 10] ++ rest) in *. rewrite app_assoc, skipn_app, skipn_all, Nat.sub_diag in K.
      cbn [app skipn] in K. subst rest. destruct E as [E|[E|[y [d [E _]]]]]; rewrite Eb in E.
      + destruct line; discriminate.
      + apply (f_equal (@length Z)) in E. rewrite !app_length in E. cbn [length] in E. lia.
      + change (line ++ [13; 10] ++ [10]) with (line ++ [13; 10; 10]) in E.
        apply (f_equal (@rev Z)) in E. rewrite !rev_app_distr in E. discriminate.
  Qed.

  Lemma left_over st buf calls st' buf' ev out :
    processes (handle_data now) st buf calls st' buf' ev out -> working now st -> ended buf ->
    working now st' /\ match out with Ok _ => buf' = [] | Raise _ => pci_raises true true buf' end.
  Proof.
    induction 1 as [st|st buf st' ev e N H|st buf st' ev N H|st buf st' ev N H
                   |st buf st' ev r N H R|st buf st' ev r calls st'' buf' ev' out N H R P IH]; intros W E.
    - now split.
    - destruct (data_working _ _ _ _ _ W H) as [W1 [D _]]. split; [exact W1|]. now apply (D e).
    - destruct (data_working _ _ _ _ _ W H) as [W1 [_ [D _]]]. split; [exact W1|].
      destruct E as [E|E]; [exact E|exfalso]. apply (D eq_refl N). right. right. right.
      destruct E as [E|[y [d [E _]]]]; [now exists [], []|]. exists (y ++ [d]), []. rewrite E, <- app_assoc. reflexivity.
    - destruct (data_working _ _ _ _ _ W H) as [_ [_ [_ D]]]. specialize (D _ eq_refl). lia.
    - destruct (data_working _ _ _ _ _ W H) as [_ [_ [_ D]]]. specialize (D _ eq_refl). lia.
    - destruct (data_working _ _ _ _ _ W H) as [W1 _]. apply IH; [exact W1|]. now apply (data_ended _ _ _ _ _ H).
  Qed.

  Lemma telegram_ended w ps b : telegram w ps -> ended (b ++ w).
  Proof.
    intros T. destruct (telegram_line w ps T) as [d [-> [X N]]]. destruct (@exists_last _ d N) as [y [x ->]].
    right. right. exists (b ++ y), x. split; [now rewrite <- !app_assoc|]. apply Forall_app in X. destruct X as [_ X].
    now inversion X.
  Qed.
End Handler.
