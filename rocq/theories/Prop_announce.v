(** What the lighting methods of the emulator send: C72. *)
From Coq Require Import String List ZArith QArith Bool Lia.
From Verif Require Import Py Text Common Sal Cal Packet Buffered Server Base Spec Spec_server Common_facts Sal_facts
  Packet_facts Packet_roundtrip Packet_decode Packet_total Buffer_facts Server_facts Prop_server Client Spec_client
  Prop_client.
Import ListNotations.
Notation length := List.length.
Open Scope Z_scope.

Lemma hex_unique a : forall b raw, b16decode a = Ok raw -> b16decode b = Ok raw -> a = b.
Proof.
  induction a as [|x|x y a IH] using list_ind2; intros b raw A B.
  - inversion A; subst. destruct b as [|u [|v b]]; [reflexivity|discriminate|]. cbn [b16decode] in B.
    destruct (nibble_of_hex u); [|discriminate]. destruct (nibble_of_hex v); [|discriminate].
    destruct (b16decode b); discriminate.
  - discriminate.
  - cbn [b16decode] in A.
    destruct (nibble_of_hex x) as [nx|] eqn:X; [|discriminate]. destruct (nibble_of_hex y) as [ny|] eqn:Y; [|discriminate].
    destruct (b16decode a) as [ra|] eqn:RA; [|discriminate]. cbn [rbind] in A. apply Ok_inj in A. subst raw.
    destruct b as [|u [|v b]]; [discriminate|discriminate|]. cbn [b16decode] in B.
    destruct (nibble_of_hex u) as [nu|] eqn:U; [|discriminate]. destruct (nibble_of_hex v) as [nv|] eqn:V; [|discriminate].
    destruct (b16decode b) as [rb|] eqn:RB; [|discriminate]. cbn [rbind] in B. apply Ok_inj in B.
    pose proof (f_equal (hd 0) B) as B1. pose proof (f_equal (@tl Z) B) as B2. cbn [hd tl] in B1, B2. subst rb.
    pose proof (nibble_some _ _ X). pose proof (nibble_some _ _ Y). pose proof (nibble_some _ _ U). pose proof (nibble_some _ _ V).
    assert (nu = nx) by lia. assert (nv = ny) by lia. subst.
    rewrite (nibble_inj x u nx X U), (nibble_inj y v ny Y V), (IH b ra eq_refl RB). reflexivity.
Qed.
Lemma unit_line_unique ck src body w1 w2 : unit_line ck src body w1 -> unit_line ck src body w2 -> w1 = w2.
Proof.
  intros [t1 [[d1 [-> [_ D1]]] T1]] [t2 [[d2 [-> [_ D2]]] T2]].
  assert (t1 = t2).
  { destruct ck; [|congruence]. destruct T1 as [c1 [-> [B1 S1]]], T2 as [c2 [-> [B2 S2]]].
    rewrite !sum_app in *. cbn [sum fold_right] in *. unfold byte in *.
    assert (c1 = c2) by lia. congruence. }
  subst t2. now rewrite (hex_unique d1 d2 _ D1 D2).
Qed.

Lemma rate_unique r r' d : is_ramp_rate r d -> is_ramp_rate r' d -> r = r'.
Proof.
  intros X Y. apply rate_to_duration_ok in X, Y. destruct quantisation as [_ [_ [_ Q]]]. exact (Q r r' d X Y).
Qed.
Lemma round_unique s d d' : rounds_to s d -> rounds_to s d' -> d = d'.
Proof. intros X Y. destruct (rounding_total s) as [[x [_ U]] _]. rewrite (U d), (U d'); auto. Qed.

Lemma reached_live rnd s buf : randint_works rnd -> reached rnd (s, buf) -> live s.
Proof.
  intros R [ops [tr E]]. destruct (session_of rnd ops _ tr R E) as [_ [_ [_ [_ [_ [_ [_ [_ [_ [_ [_ L]]]]]]]]]]]. exact L.
Qed.

(** A call on a connected emulator either writes the announced message followed
    by all that was deferred, or raises and changes nothing. *)
Theorem C72_calls : forall rnd s buf o st ev r, randint_works rnd -> reached rnd (s, buf) ->
  (forall data, o <> SOpData data) -> server_step rnd (s, buf) o = (st, ev, r) ->
  (exists w, announces (sv_checksum s) o w /\ r = Ok tt /\ ev = map SWrite (w :: sv_queue s)
     /\ st = (set_queue s [], buf))
  \/ exists e, declines o e /\ r = Raise e /\ ev = [] /\ st = (s, buf).
Proof.
  intros rnd s buf o st ev r R H N E.
  assert (Q : server_step rnd (s, buf) o = match s_api o s with (s, ev, r) => ((s, buf), ev, r) end).
  { destruct o; try reflexivity. now destruct (N b). }
  rewrite Q in E.
  destruct (api_calls o s (reached_live rnd s buf R H) N) as [[w [A K]]|[e [A K]]]; rewrite K in E; inversion E; subst.
  - left. exists w. auto.
  - right. exists e. auto.
Qed.
Print Assumptions C72_calls.

(** Which of the two, and with which message or exception, depends on the
    arguments and the checksum mode alone. *)
Theorem C72_determined : forall ck o,
  (forall w e, announces ck o w -> ~ declines o e)
  /\ (forall w w', announces ck o w -> announces ck o w' -> w = w')
  /\ (forall e e', declines o e -> declines o e' -> e = e').
Proof.
  intros ck o. split; [|split].
  - intros w e A D. destruct D as [o src ga G C|src ga d lv S|src ga d lv G S F|c rest ok C].
    + destruct C as [->|[->|[->|[x [y ->]]]]]; inversion A; subst; auto.
    + inversion A; subst. cbn in S. lia.
    + inversion A; subst. now apply (F level).
    + inversion A; subst; auto.
  - intros w w' A B. destruct A; inversion B; subst; try reflexivity;
      try (eapply unit_line_unique; eassumption).
    assert (d0 = d) by (eapply round_unique; eassumption). subst d0.
    assert (rate0 = rate) by (eapply rate_unique; eassumption). subst. eapply unit_line_unique; eassumption.
  - intros e e' D D'.
    assert (K : forall e, declines o e -> e = TypeError -> exists src ga d lv, o = SOpRamp src ga d lv /\ 0 <= ga <= 255 /\ ~ off_scale lv).
    { intros x X Y. destruct X; try discriminate. eauto 10. }
    assert (V : forall e, declines o e -> e = ValueError \/ e = TypeError) by (intros x X; destruct X; auto).
    assert (W : declines o ValueError -> declines o TypeError -> False).
    { intros X Y. destruct (K _ Y eq_refl) as [src [ga [d [lv [-> [G S]]]]]].
      inversion X as [o' src' ga' G' C| | |]; subst; [|auto].
      destruct C as [C|[C|[C|[x [y C]]]]]; inversion C; subst. auto. }
    destruct (V e D), (V e' D'); subst; try reflexivity; exfalso; auto.
Qed.
Print Assumptions C72_determined.

(** The command in an announced line. *)
Lemma announced_command ck o w src e : announces ck o w -> event o src e ->
  exists s body, valid_light s /\ light_received s e /\ sal_encode s = Ok body /\ is_bytes body
    /\ unit_line ck (src mod 256) body w.
Proof.
  intros A E. destruct E as [src ga|src ga|src ga|src ga sec d level R]; inversion A; subst.
  - exists (LightOn ga), [0x79; ga]. split; [cbn; lia|]. split; [constructor|]. split; [|split; [bytes_in|assumption]].
    cbn [sal_encode]. unfold light_simple_encode. rewrite ga_spec. unfold mk_bytes. cbn [forallb].
    replace ((0 <=? ga) && (ga <=? 255)) with true by lia. reflexivity.
  - exists (LightOff ga), [0x01; ga]. split; [cbn; lia|]. split; [constructor|]. split; [|split; [bytes_in|assumption]].
    cbn [sal_encode]. unfold light_simple_encode. rewrite ga_spec. unfold mk_bytes. cbn [forallb].
    replace ((0 <=? ga) && (ga <=? 255)) with true by lia. reflexivity.
  - exists (LightTerminate ga), [0x09; ga]. split; [cbn; lia|]. split; [constructor|]. split; [|split; [bytes_in|assumption]].
    cbn [sal_encode]. unfold light_simple_encode. rewrite ga_spec. unfold mk_bytes. cbn [forallb].
    replace ((0 <=? ga) && (ga <=? 255)) with true by lia. reflexivity.
  - exists (LightRamp ga sec (PInt level)), [rate; ga; level]. split; [cbn; lia|]. split; [now constructor|].
    assert (d0 = d) by (eapply round_unique; eassumption). subst d0.
    assert (Q : duration_to_ramp_rate sec = rate) by (eapply rate_unique; [apply duration_to_rate_spec|]; eassumption).
    split; [|split; [|assumption]].
    + cbn [sal_encode]. rewrite ramp_encode_ok by lia. now rewrite Q.
    + match goal with X : is_ramp_rate rate d |- _ => destruct X as [i [I [-> _]]] end. unfold ramp_rate_code. bytes_in.
Qed.

Lemma src_byte src : byte (src mod 256).
Proof. unfold byte. pose proof (Z.mod_pos_bound src 256). lia. Qed.

(** With checksums on, the strict decoder of a client takes the line, whatever
    follows it, for exactly that event of that unit. *)
Theorem C72_decoded : forall o src e w rest, announces true o w -> event o src e ->
  decode_packet (w ++ rest) true true true
  = ([], Ok (Some (PktPM (mkHdr true 0 (source_of src) None) (Some 0x38) [e]), length w)).
Proof.
  intros o src e w rest A E. destruct (announced_command true o w src e A E) as [s [body [V [R [B [IB U]]]]]].
  destruct (pm_from_pci true true 0 (src mod 256) 0x38 [s] [e] rest) as [x [X D]].
  - now left.
  - constructor; [now apply recv_lighting|constructor].
  - lia.
  - apply src_byte.
  - assert (S : sal_application s = 0x38) by (destruct s; cbn in V; try contradiction; reflexivity).
    destruct (unit_packet_any true (src mod 256) s body IB S B) as [p [w' [P [W U']]]].
    rewrite Z.mod_mod in U' by lia. rewrite (unit_line_unique _ _ _ _ _ U U').
    unfold unit_packet, new_pm, append_sals, append_sal in P. cbn [rbind fst snd] in P. rewrite S in P. cbn [rbind] in P.
    apply Ok_inj in P. subst p. unfold serialize_packet in W. cbn [h_checksum h_priority h_confirm app] in W.
    change CLASS_4 with 0 in W. rewrite X in W. cbn [rbind] in W. apply Ok_inj in W. subst w'.
    change END_RESPONSE with [13; 10]. rewrite <- app_assoc, D, app_length. reflexivity.
Qed.
Print Assumptions C72_decoded.

(** So a client whose buffer begins with the line makes exactly one callback. *)
Theorem C72_heard : forall now c o src e w rest, clock_works now -> cl_transport c = true -> counter_ok c ->
  announces true o w -> event o src e ->
  exists c' ev, handle_data now c (w ++ rest) = (c', ev, Ok (Z.of_nat (length w)))
    /\ callbacks ev = callback_of (source_of src) e.
Proof.
  intros now c o src e w rest N T I A E.
  destruct (C31_complete now c (w ++ rest) _ _ _ T I N (C72_decoded o src e w rest A E)) as [c' [ev [H [_ [_ C]]]]].
  exists c', ev. split; [exact H|]. rewrite C. cbn [callbacks_of flat_map h_source]. apply app_nil_r.
Qed.
Print Assumptions C72_heard.

(** Without its last byte a lighting command is nothing. *)
Lemma truncated_command s body : valid_light s -> sal_encode s = Ok body ->
  exists init last ws, body = init ++ [last] /\ app_decode_sals (app_handler 0x38) init = (ws, Ok []).
Proof.
  intros V E. destruct s as [ga d [level|q| |b]|ga|ga|ga|v| |ga t|a b|l ga ch]; cbn in V; try contradiction.
  - cbn [sal_encode] in E. rewrite ramp_encode_ok in E by lia. apply Ok_inj in E. subst body.
    exists [duration_to_ramp_rate d; ga], level.
    destruct (rounding_total d) as [[d' [D _]] _]. destruct (duration_to_rate_spec d d' D) as [i [I [R _]]]. rewrite R.
    eexists. split; [reflexivity|].
    do 16 (destruct i as [|i]; [reflexivity|]). lia.
  - cbn [sal_encode] in E. unfold light_simple_encode, mk_bytes in E. rewrite ga_spec in E. cbn [forallb] in E.
    replace ((0 <=? ga) && (ga <=? 255)) with true in E by lia. cbn in E. apply Ok_inj in E. subst body.
    exists [0x79], ga. eexists. split; reflexivity.
  - cbn [sal_encode] in E. unfold light_simple_encode, mk_bytes in E. rewrite ga_spec in E. cbn [forallb] in E.
    replace ((0 <=? ga) && (ga <=? 255)) with true in E by lia. cbn in E. apply Ok_inj in E. subst body.
    exists [0x01], ga. eexists. split; reflexivity.
  - cbn [sal_encode] in E. unfold light_simple_encode, mk_bytes in E. rewrite ga_spec in E. cbn [forallb] in E.
    replace ((0 <=? ga) && (ga <=? 255)) with true in E by lia. cbn in E. apply Ok_inj in E. subst body.
    exists [0x09], ga. eexists. split; reflexivity.
Qed.

Lemma unheard_line o src e w : announces false o w -> event o src e ->
  exists p, callbacks_of p = [] /\ forall rest, exists ws, decode_packet (w ++ rest) true true true = (ws, Ok (Some p, length w)).
Proof.
  intros A E.
  assert (K : forall rest, exists ws p, decode_packet (w ++ rest) true true true = (ws, Ok (Some p, length w)) /\ callbacks_of p = []).
  { intros rest. destruct (announced_command false o w src e A E) as [s [body [V [R [B [IB [tail [[digits [-> [H D]]] ->]]]]]]]].
    rewrite app_nil_r in D. rewrite <- app_assoc, app_length.
    destruct (Z.eq_dec (sum ([5; src mod 256; 56; 0] ++ body) mod 256) 0) as [Z0|Z0].
    - destruct (truncated_command s body V B) as [init [last [ws [-> T0]]]].
      apply is_bytes_app in IB. destruct IB as [I1 I2]. apply is_bytes_cons in I2. destruct I2 as [I2 _].
      set (raw := 5 :: src mod 256 :: 0x38 :: 0 :: init).
      assert (R0 : is_bytes raw) by (unfold raw; byte_list; try assumption; try apply src_byte; unfold byte; lia).
      assert (L0 : cbus_checksum raw = last).
      { rewrite cbus_checksum_eq. unfold byte in I2. rewrite app_assoc, sum_app in Z0. unfold raw. cbn [app] in Z0.
        cbn [sum fold_right] in *. fold (sum init) in *. lia. }
      assert (W : digits = wire true raw).
      { apply hex_unique with ([5; src mod 256; 56; 0] ++ init ++ [last]); [exact D|].
        unfold wire. rewrite b16_roundtrip by (apply add_checksum_bytes; exact R0).
        cbn [with_checksum]. unfold add_cbus_checksum. rewrite L0. reflexivity. }
      pose proof (line_from_pci true true DAT_PM false 0 (src mod 256) (0x38 :: 0 :: init) rest) as L.
      change (flags DAT_PM 0 false 0 :: src mod 256 :: 0x38 :: 0 :: init) with raw in L. cbv zeta in L. rewrite <- W in L.
      cbn [app] in L |- *. rewrite L; [|right; left; reflexivity|lia|apply src_byte|].
      + unfold decode_payload. cbn [DAT_PM DAT_PP Z.eqb Pos.eqb]. unfold pm_decode. cbn [py_index nth_error rbind].
        change (application_enum 56) with (Ok 56).
        rewrite !wbind_lift_ok. cbn [Z.eqb negb skipn]. change (get_application 56) with (Ok (app_handler 56)). rewrite wbind_lift_ok.
        rewrite T0. unfold wbind, new_pm. cbn [append_sals rbind wlift]. cbn [wmap wtry lift_packet].
        eexists. eexists. split; [reflexivity|]. reflexivity.
      + apply is_bytes_cons. split; [unfold byte; lia|]. apply is_bytes_cons. split; [unfold byte; lia|exact I1].
    - rewrite (bad_sum_from_pci digits _ rest H D Z0). eexists. eexists. split; reflexivity. }
  destruct (K []) as [ws [p [D C]]]. exists p. split; [exact C|]. intros rest.
  destruct (K rest) as [ws' [p' [D' C']]]. exists ws'. rewrite D'. rewrite app_nil_r in D.
  destruct (from_pci_cases w true true) as [[X _]|[Y _]]; [unfold wret in X; congruence|].
  rewrite (from_pci_stable _ _ _ _ Y), D in D'. congruence.
Qed.

(** With checksums off no client hears any of it. *)
Theorem C72_unheard : forall now c o src e w rest, clock_works now -> cl_transport c = true -> counter_ok c ->
  announces false o w -> event o src e ->
  exists c' ev, handle_data now c (w ++ rest) = (c', ev, Ok (Z.of_nat (length w))) /\ callbacks ev = [].
Proof.
  intros now c o src e w rest N T I A E.
  destruct (unheard_line o src e w A E) as [p [C0 K]]. destruct (K rest) as [ws D].
  destruct (C31_complete now c (w ++ rest) _ _ _ T I N D) as [c' [ev [H [_ [_ C]]]]].
  exists c', ev. split; [exact H|]. now rewrite C.
Qed.
Print Assumptions C72_unheard.

(** Group 3 is switched on by unit 5, with and without checksums; a level that
    is a fraction; the answer to the last call carries what was deferred. *)
Example C72_case :
  let ops := map SOpData [txt "A3300059h" ++ [13]; txt "\05DF000D010A141E00D2" ++ [13]]
    ++ [SOpOn 5 3; SOpRamp 261 3 5 (PInt 255); SOpRamp 5 3 0 (PFloat (1 # 2)); SOpOn 5 256; SOpConfirm [] true] in
  let tr := snd (server_run die (new_server, []) (SOpConnect :: ops)) in
  map (fun x => (swrites (fst x), snd x)) (skipn 3 tr)
  = [(map (fun s => txt s ++ [13; 10]) ["05053800790342"; "05023800790147"; "050438000103BB"]%string, Ok tt);
     ([txt "050538001203FFAA" ++ [13; 10]], Ok tt); ([], Raise TypeError); ([], Raise ValueError); ([txt "."], Ok tt)]
  /\ swrites (fst (nth 1 (snd (server_run die (new_server, []) [SOpConnect; SOpOn 5 3])) ([], Ok tt)))
     = [txt "050538007903" ++ [13; 10]]
  /\ event (SOpRamp 261 3 5 (PInt 255)) 261 (LightRamp 3 8 (PInt 255)) /\ source_of 261 = Some 5.
Proof.
  split; [vm_compute; reflexivity|]. split; [vm_compute; reflexivity|]. split; [|reflexivity].
  constructor. split; [cbn; auto|]. left. split; [lia|]. intros d I L. cbn in I. lia.
Qed.
