(** C102: what decoding any bytes gives. *)
From Coq Require Import List ZArith QArith Bool Lia.
From Verif Require Import Py Common Sal Cal Packet Buffered Client Base Spec Spec_wire Spec_reading Spec_server Spec_client Spec_listen
  Spec_whole Common_facts Packet_facts Packet_decode Packet_total Reading_facts Prop_packet Prop_control Prop_reading Prop_listen.
Import ListNotations.
Open Scope Z_scope.

Lemma payload_data ck fp dm_cal conf src n dat prio dp body ws p m :
  decode_payload ck fp dm_cal conf src n dat prio dp body = (ws, Ok (p, m)) -> data_packet p.
Proof.
  unfold decode_payload. destruct dp.
  { destruct (dm_decode body ck prio) as [q|] eqn:D; cbn; intros H; inversion H.
    apply dm_decode_not_cal in D. destruct D as [h [x [y ->]]]. exact Logic.I. }
  destruct dm_cal.
  { destruct (decode_cal body) as [[c k]|] eqn:D; cbn; intros H; inversion H. exact Logic.I. }
  destruct (dat =? DAT_PP).
  { destruct (pp_decode body ck prio) as [q|] eqn:D; cbn; intros H; inversion H.
    apply pp_decode_not_cal in D. destruct D as [h [x [y [z ->]]]]. exact Logic.I. }
  destruct (dat =? DAT_PM).
  { destruct (pm_decode body ck prio) as [w [q|e]] eqn:D; cbn; intros H; inversion H.
    apply pm_decode_not_cal in D. destruct D as [h [x [y ->]]]. exact Logic.I. }
  discriminate.
Qed.
Lemma frame_kinds ck fp dm_cal conf n fl data ws p m :
  decode_frame ck fp dm_cal conf n fl data = (ws, Ok (p, m)) ->
  data_packet p \/ exists d e, p = PktInvalid d e /\ m = n.
Proof.
  unfold decode_frame. destruct (destination_address_type (Z.land fl 7)) as [t|e]; [|intros H; inversion H; eauto].
  assert (T : forall src body, wtry (decode_payload ck fp dm_cal conf src n t (Z.land (Z.shiftr fl 6) 3) (Z.land fl 32 =? 32) body)
     (fun e => (PktInvalid body e, n)) = (ws, Ok (p, m)) -> data_packet p \/ exists d e, p = PktInvalid d e /\ m = n).
  { intros src body. destruct (decode_payload _ _ _ _ _ _ _ _ _ body) as [v [[q k]|e]] eqn:D; cbn [wtry]; intros H; inversion H; subst.
    - left. eapply payload_data, D.
    - eauto. }
  destruct fp.
  - destruct (skipn 1 data) as [|s body]; [intros H; inversion H; eauto|apply T].
  - apply T.
Qed.
Lemma hex_kind ck strict fp dm_cal conf n digits ws r m :
  decode_hex ck strict fp dm_cal conf n digits = (ws, Ok (r, m)) ->
  exists p, r = Some p /\ (data_packet p \/ exists d e, p = PktInvalid d e /\ m = n).
Proof.
  intros E. assert (O := decode_hex_outcome ck strict fp dm_cal conf n digits). rewrite E in O.
  remember (ws, Ok (r, m)) as R eqn:ER in O.
  destruct O as [N|F Odd|Nil|raw F D NE Hc Hs K|ws' raw F D L1 Hc Q W|ws' raw msg fl body F D B M C K W];
    try discriminate; try (injection ER as <- <- <-; eauto 10; fail).
  destruct (decode_frame ck fp dm_cal conf n fl msg) as [v [[q k]|e]] eqn:Df; cbn in ER; [|discriminate].
  injection ER as <- <- <-. apply frame_kinds in Df. eauto.
Qed.
Lemma line_kind ck strict fp n line ws r m : line <> [] -> decode_line ck strict fp n line = (ws, Ok (r, m)) ->
  exists p, r = Some p /\ (data_packet p \/ exists d e, p = PktInvalid d e /\ m = n).
Proof.
  intros NE H. destruct fp.
  - destruct line; [congruence|]. now apply hex_kind in H.
  - destruct (decode_line_outcome ck strict n line NE) as [prefix [body [_ [_ [_ O]]]]]. rewrite H in O.
    remember (ws, Ok (r, m)) as R eqn:ER in O.
    destruct O as [Nb|i l Hb Hl|i l Hb Hl|i l Hb Hl1 Hl2 Hs|i l Hb Hl1 Hl2 Hs].
    + discriminate.
    + now apply hex_kind in ER.
    + now apply hex_kind in ER.
    + injection ER as <- <- <-. eauto 10.
    + apply wwarn_inv in ER. destruct ER as [ws' [_ ER]]. now apply hex_kind in ER.
Qed.

Lemma means_data p n ws : data_packet p -> outcome_of (ws, Ok (Some p, n)) = Means p n ws.
Proof. destruct p; cbn; intros []; reflexivity. Qed.

(** A line is what it says, fatal, or invalid. *)
Lemma whole_line ck strict fp data n line : line <> [] ->
  decode_packet data ck strict fp = decode_line ck strict fp n line ->
  let says := if fp then reply_line_says ck strict data else order_line_says ck strict data in
  let fails := if fp then pci_raises ck strict data else command_raises ck strict data in
  (exists p m ws, says p m ws /\ outcome_of (decode_packet data ck strict fp) = Means p m ws)
  \/ (fails /\ outcome_of (decode_packet data ck strict fp) = Fails)
  \/ (~ fails /\ (forall p m ws, ~ says p m ws) /\ outcome_of (decode_packet data ck strict fp) = Invalid n).
Proof.
  intros NE E says fails.
  assert (Says : forall p m ws, data_packet p -> (decode_packet data ck strict fp = (ws, Ok (Some p, m)) <-> says p m ws))
    by (intros; unfold says; destruct fp; [now apply C100_from_pci|now apply C100_to_pci]).
  assert (SD : forall p m ws, says p m ws -> data_packet p)
    by (unfold says; destruct fp; [apply reply_line_data|apply order_line_data]).
  assert (Fl : (exists ws e, decode_packet data ck strict fp = (ws, Raise e)) <-> fails)
    by (unfold fails; destruct fp; [apply C21_raises_from_pci|apply C21_raises_to_pci]).
  destruct (decode_packet data ck strict fp) as [ws [[r m]|e]] eqn:D.
  - symmetry in E. apply line_kind in E; [|exact NE]. destruct E as [p [-> [K|[d [e [-> ->]]]]]].
    + left. exists p, m, ws. split; [now apply Says|now apply means_data].
    + right; right. split; [intros F; apply Fl in F; destruct F as [v [x F]]; discriminate|]. split; [|reflexivity].
      intros p k v H. assert (Dp := SD _ _ _ H). apply (Says p k v Dp) in H. injection H as _ <- _. exact Dp.
  - right; left. split; [apply Fl; eauto|reflexivity].
Qed.

(** From a PCI. *)
Lemma heard_total data ck strict : heard_as ck strict data (outcome_of (decode_packet data ck strict true)).
Proof.
  destruct (from_pci_cases data ck strict) as [[-> N]|[C _]]; [now apply heard_part|].
  destruct data as [|c tl]; [exfalso; destruct C as [[? C]|[[? C]|[[? [? [? [_ C]]]]|[[|? ?] [? C]]]]]; discriminate|].
  destruct (Z.eq_dec c 43) as [->|N43]; [apply heard_power|].
  destruct (Z.eq_dec c 33) as [->|N33]; [apply heard_error|].
  assert (Dc : is_code c \/ ~ is_code c) by (unfold is_code; lia). destruct Dc as [Cc|Cc].
  { destruct tl as [|x tl].
    - exfalso. destruct C as [[? C]|[[? C]|[[? [? [? [_ C]]]]|[[|? [|? ?]] [? C]]]]]; try discriminate; injection C; congruence.
    - destruct (proj2 (proj2 (C57_from_pci tl ck strict)) c Cc) as [Y N].
      destruct (Z.eq_dec x 46) as [->|Nx]; [rewrite Y; now apply heard_confirmed|rewrite (N x Nx); now apply heard_refused]. }
  assert (L : exists line rest, c :: tl = line ++ [13; 10] ++ rest /\ forall a b, c :: tl = a ++ [13; 10] ++ b -> (length line <= length a)%nat).
  { destruct C as [[? C]|[[? C]|[[? [? [? [K C]]]]|[l [rest C]]]]]; try (injection C; congruence).
    destruct (find [13; 10] (c :: tl)) as [e|] eqn:F; [|exfalso; apply find_none_iff with (a := l) (b := rest) in F; congruence].
    apply find_some in F. destruct F as [F1 [F2 F3]]. exists (firstn e (c :: tl)), (skipn (e + length [13; 10]) (c :: tl)).
    split; [exact F2|]. intros a b E. apply F3 in E. rewrite firstn_length. lia. }
  destruct L as [w [rest [E M]]].
  assert (S : line_start w) by (destruct w as [|x w]; [exact Logic.I|injection E as <- _; cbn; auto]).
  assert (O : one_line w).
  { intros a b Q. apply (M a (b ++ rest)). rewrite E, !app_assoc, Q, <- !app_assoc. reflexivity. }
  rewrite E. assert (D : decode_packet (w ++ [13; 10] ++ rest) ck strict true = decode_line ck strict true (length w + 2) w)
    by (apply from_pci_line; [now apply one_line_rest|exact S]).
  destruct w as [|x w]; [rewrite D; apply heard_blank|].
  destruct (whole_line ck strict true _ _ (x :: w) ltac:(discriminate) D) as [[p [m [ws [H ->]]]]|[[H ->]|[H1 [H2 ->]]]].
  - now apply heard_line.
  - now apply heard_fatal.
  - apply heard_other; auto. discriminate.
Qed.
Lemma heard_function data ck strict o : heard_as ck strict data o -> outcome_of (decode_packet data ck strict true) = o.
Proof.
  destruct 1 as [data N|rest|rest|c rest C|c x rest C X|rest|data p n ws H|data H|w rest NE S O Nf Ns].
  - destruct (from_pci_cases data ck strict) as [[-> _]|[C _]]; [reflexivity|contradiction].
  - reflexivity.
  - reflexivity.
  - now rewrite (proj1 (proj2 (proj2 (C57_from_pci rest ck strict)) c C)).
  - now rewrite (proj2 (proj2 (proj2 (C57_from_pci rest ck strict)) c C) x X).
  - change ([13; 10] ++ rest) with ([] ++ 13 :: 10 :: rest).
    rewrite from_pci_line; [reflexivity|intros; cbn; lia|exact Logic.I].
  - assert (Dp := reply_line_data _ _ _ _ _ _ H). apply C100_from_pci in H; [|exact Dp]. rewrite H. now apply means_data.
  - apply C21_raises_from_pci in H. destruct H as [ws [e ->]]. reflexivity.
  - assert (D : decode_packet (w ++ [13; 10] ++ rest) ck strict true = decode_line ck strict true (length w + 2) w)
      by (apply from_pci_line; [now apply one_line_rest|exact S]).
    destruct (whole_line ck strict true _ _ w NE D) as [[p [m [ws [H _]]]]|[[H _]|[_ [_ H]]]]; [now apply Ns in H|contradiction|exact H].
Qed.
Theorem C102_from_pci : forall data checksum strict o,
  outcome_of (decode_packet data checksum strict true) = o <-> heard_as checksum strict data o.
Proof. intros. split; [intros <-; apply heard_total|apply heard_function]. Qed.
Print Assumptions C102_from_pci.

(** To a PCI. *)
Lemma first_of (x : Z) (l : bytes) : In x l -> exists a b, l = a ++ x :: b /\ ~ In x a.
Proof.
  induction l as [|y l IH]; intros []; subst.
  - exists [], l. split; [reflexivity|intros []].
  - destruct (Z.eq_dec y x) as [->|N]; [exists [], l; split; [reflexivity|intros []]|].
    destruct (IH H) as [a [b [-> Na]]]. exists (y :: a), b. split; [reflexivity|]. intros [E|E]; auto.
Qed.
Lemma plain_open w : opens w -> w <> [124] -> w <> [124; 124] -> plain_line w.
Proof.
  intros [A B] C D. repeat split; auto.
  - destruct w as [|x w]; [discriminate|]. cbn. intros E. injection E as ->. now apply (A w).
  - destruct (starts_with [110; 117; 108; 108] w) eqn:E; [|reflexivity]. apply starts_with_spec in E. destruct E as [r E].
    exfalso. now apply (B r).
Qed.
Lemma sent_total data ck strict : sent_as ck strict data (outcome_of (decode_packet data ck strict false)).
Proof.
  destruct (to_pci_cases data ck strict) as [[-> N]|[C _]]; [now apply sent_part|].
  assert (D126 : (exists r, data = 126 :: r) \/ forall r, data <> 126 :: r).
  { destruct data as [|c tl]; [right; discriminate|]. destruct (Z.eq_dec c 126) as [->|N]; [left; eauto|right; congruence]. }
  destruct D126 as [[r ->]|N126]; [apply sent_reset|].
  assert (Dn : (exists r, data = [110; 117; 108; 108] ++ r) \/ forall r, data <> [110; 117; 108; 108] ++ r).
  { destruct (starts_with [110; 117; 108; 108] data) eqn:E.
    - apply starts_with_spec in E. now left.
    - right. intros r ->. now rewrite starts_with_app in E. }
  destruct Dn as [[r ->]|Nn]; [apply sent_null|].
  destruct C as [[r C]|[[r C]|[l [r C]]]]; [now apply N126 in C|now apply Nn in C|].
  assert (I : In 13 data) by (rewrite C; apply in_or_app; right; now left).
  destruct (first_of 13 data I) as [w [rest [E N13]]]. clear l r C I. subst data.
  assert (Op : opens w).
  { split; intros t ->; [now apply (N126 (t ++ 13 :: rest))|apply (Nn (t ++ 13 :: rest)); now rewrite <- app_assoc]. }
  destruct (in_dec Z.eq_dec 63 w) as [I|N63].
  { destruct (first_of 63 w I) as [before [after [-> Nb]]].
    assert (D : decode_packet ((before ++ 63 :: after) ++ 13 :: rest) ck strict false = ([], Ok (None, S (length before)))).
    { rewrite <- app_assoc. apply C57_cancelled; auto.
      - intros X. apply N13, in_or_app. now left.
      - intros X. apply N13, in_or_app. right. now right.
      - destruct before as [|b before]; [discriminate|]. cbn. intros ->. now apply (N126 ((before ++ 63 :: after) ++ 13 :: rest)).
      - intros r ->. apply (Nn ((r ++ 63 :: after) ++ 13 :: rest)). now rewrite <- !app_assoc. }
    rewrite D. cbn [outcome_of]. rewrite <- app_assoc. cbn [app]. replace (S (length before)) with (length before + 1)%nat by lia.
    apply (sent_cancelled ck strict before after rest); auto.
    - split; intros t Q.
      + destruct before as [|b before]; [discriminate|]. injection Q as -> Q. now apply (proj1 Op (before ++ 63 :: after)).
      + destruct (list_snoc_case t) as [->|[i [x ->]]].
        * change ([110; 117; 108; 108] ++ []) with ([110; 117; 108] ++ [108]) in Q. apply app_inj_tail in Q. destruct Q; discriminate.
        * rewrite app_assoc in Q. apply app_inj_tail in Q. destruct Q as [-> _]. apply (proj2 Op (i ++ 63 :: after)). now rewrite <- app_assoc.
    - intros X. apply N13, in_or_app. now left.
    - intros X. apply N13, in_or_app. right. now right. }
  destruct (list_eq_dec Z.eq_dec w [124]) as [->|N1]; [apply sent_smart|].
  destruct (list_eq_dec Z.eq_dec w [124; 124]) as [->|N2]; [apply sent_smart2|].
  assert (D := to_pci_line w rest ck strict N13 N63 (plain_open w Op N1 N2)).
  destruct w as [|x w]; [rewrite D; apply sent_blank|].
  destruct (whole_line ck strict false _ _ (x :: w) ltac:(discriminate) D) as [[p [m [ws [H ->]]]]|[[H ->]|[H1 [H2 ->]]]].
  - now apply sent_line.
  - now apply sent_fatal.
  - apply (sent_other ck strict (x :: w) rest); auto. discriminate.
Qed.
Lemma sent_function data ck strict o : sent_as ck strict data o -> outcome_of (decode_packet data ck strict false) = o.
Proof.
  destruct 1 as [data N|rest|rest|before after rest O Q C1 C2|rest|rest|rest|data p n ws H|data H|w rest NE N1 N2 O N13 N63 Nf Ns].
  - destruct (to_pci_cases data ck strict) as [[-> _]|[C _]]; [reflexivity|contradiction].
  - reflexivity.
  - reflexivity.
  - cbn [app]. rewrite C57_cancelled; auto.
    + cbn [outcome_of]. now rewrite Nat.add_1_r.
    + destruct before as [|b before]; [discriminate|]. cbn. intros ->. now apply (proj1 O (before ++ [63])).
    + intros r ->. apply (proj2 O (r ++ [63])). now rewrite app_assoc.
  - change (13 :: rest) with ([] ++ 13 :: rest). rewrite to_pci_line; [reflexivity|intros []|intros []|].
    repeat split; discriminate.
  - reflexivity.
  - reflexivity.
  - assert (Dp := order_line_data _ _ _ _ _ _ H). apply C100_to_pci in H; [|exact Dp]. rewrite H. now apply means_data.
  - apply C21_raises_to_pci in H. destruct H as [ws [e ->]]. reflexivity.
  - assert (D := to_pci_line w rest ck strict N13 N63 (plain_open w O N1 N2)).
    destruct (whole_line ck strict false _ _ w NE D) as [[p [m [ws [H _]]]]|[[H _]|[_ [_ H]]]]; [now apply Ns in H|contradiction|exact H].
Qed.
Theorem C102_to_pci : forall data checksum strict o,
  outcome_of (decode_packet data checksum strict false) = o <-> sent_as checksum strict data o.
Proof. intros. split; [intros <-; apply sent_total|apply sent_function]. Qed.
Print Assumptions C102_to_pci.

(** The same bytes from and to a PCI; a lamp switched on, a wrong checksum, an
    odd number of digits. *)
Example C102_case :
  let on := [48;53;48;52;51;56;48;48;55;57;48;65;51;67] in
  heard_as true true (on ++ [13; 10]) (Means (PktPM (mkHdr true 0 (Some 4) None) (Some 0x38) [LightOn 10]) 16 [])
  /\ heard_as true true (on ++ [13]) Waits
  /\ heard_as true true (48 :: on ++ [13; 10]) Fails
  /\ heard_as true true ([48; 48] ++ on ++ [13; 10]) (Invalid 18)
  /\ sent_as true true (on ++ [13; 10]) (Invalid 15)
  /\ sent_as true true (on ++ [63; 13; 10]) (Skips 15)
  /\ sent_as true true ([92; 48;53;51;56;48;48;55;57;48;65;52;48;103] ++ [13; 10])
       (Means (PktPM (mkHdr true 0 None (Some 103)) (Some 0x38) [LightOn 10]) 15 [])
  /\ sent_as true true ([103] ++ [13]) Fails.
Proof.
  repeat split; first [apply C102_from_pci; vm_compute; reflexivity|apply C102_to_pci; vm_compute; reflexivity].
Qed.
