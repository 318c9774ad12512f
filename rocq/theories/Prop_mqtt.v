(** C40-C43 and C51: the MQTT daemon. *)
From Coq Require Import String List ZArith QArith Bool Lia ZifyBool ZifyNat.
From Verif Require Import Py Common Sal Packet Text Mqtt Client Cmqttd Base Spec Spec_client Spec_sound Spec_mqtt
  Client_calls Client_dispatch Packet_sound Mqtt_facts Prop_client.
Import ListNotations.
Open Scope Z_scope.

(** ** C40 *)

(** The form of the topics, for every integer. *)
Theorem C40_form : forall k ga, is_topic k ga (topic_function k ga).
Proof. exact topic_is. Qed.
Print Assumptions C40_form.

Theorem C40_distinct : forall k k' ga ga', topic_function k ga = topic_function k' ga' -> k = k' /\ ga = ga'.
Proof.
  intros k k' ga ga' E. eapply topic_distinct; [apply topic_is|]. rewrite E. apply topic_is.
Qed.
Print Assumptions C40_distinct.

Theorem C40_inverse : forall u k ga, is_light k ->
  (group_address ga -> get_topic_group_address u (topic_function k ga) = Ok ga)
  /\ (~ group_address ga -> get_topic_group_address u (topic_function k ga) = Raise ValueError).
Proof.
  intros u k ga L. destruct (topic_address u (topic_function k ga)) as [A [_ B]].
  assert (T := topic_addresses u k ga _ L (topic_is k ga)). split.
  - intros G. now apply A.
  - intros G. apply B. intros n N. now rewrite (addresses_fun u _ n ga N T).
Qed.
Print Assumptions C40_inverse.

(** Every topic: it has the address its number says, and is refused otherwise. *)
Theorem C40_every_topic : forall u topic,
  (forall ga, get_topic_group_address u topic = Ok ga <-> addresses u topic ga /\ group_address ga)
  /\ ((forall ga, addresses u topic ga -> ~ group_address ga) -> get_topic_group_address u topic = Raise ValueError).
Proof.
  intros u topic. destruct (topic_address u topic) as [A [B C]]. split; [|exact C].
  intros ga. split; [apply B|]. intros [H G]. now apply A.
Qed.
Print Assumptions C40_every_topic.

Definition plain_unicode : unicode := mkUnicode (fun _ => false) (fun _ => None).
Example C40_case :
  topic_function LightSet 17 = txt "homeassistant/light/cbus_17/set"
  /\ topic_function SensorConfig (-256) = txt "homeassistant/binary_sensor/cbus_-256/config"
  /\ map (fun s => get_topic_group_address plain_unicode (txt "homeassistant/light/cbus_" ++ txt s))
       ["17/set"; " +2_5_5 /x/set"; "256/set"; "-1/set"; "0x1/set"; "1__2/set"; ""]%string
     = [Ok 17; Ok 255; Raise ValueError; Raise ValueError; Raise ValueError; Raise ValueError; Raise ValueError].
Proof. vm_compute. repeat split. Qed.

(** ** C41 *)

Lemma reports_on ga src : reports ga src true (PInt 255) 0 true (relay_on src ga).
Proof. exists (state_topic ga), (bin_sensor_state_topic ga). split; [apply (topic_is LightState)|]. split; [apply (topic_is SensorState)|]. reflexivity. Qed.
Lemma reports_off ga src : reports ga src false (PInt 0) 0 false (relay_off src ga).
Proof. exists (state_topic ga), (bin_sensor_state_topic ga). split; [apply (topic_is LightState)|]. split; [apply (topic_is SensorState)|]. reflexivity. Qed.
Lemma reports_ramp ga src d v : reports ga src true (PInt v) d (0 <? v) (relay_ramp src ga d (PInt v)).
Proof.
  exists (state_topic ga), (bin_sensor_state_topic ga). split; [apply (topic_is LightState)|].
  split; [apply (topic_is SensorState)|]. unfold relay_ramp, publish, publish_binary_sensor. cbn [num_gtb]. reflexivity.
Qed.

Lemma message_topic u topic ga : commands u topic ga ->
  starts_with LIGHT_TOPIC_PREFIX topic && ends_with TOPIC_SET_SUFFIX topic = true
  /\ get_topic_group_address u topic = Ok ga.
Proof.
  intros [A [G S]]. split.
  - apply andb_true_intro. split.
    + apply starts_with_spec. destruct A as [s [rest [T _]]]. exists (s ++ rest). exact T.
    + apply ends_with_spec. exact S.
  - destruct (topic_address u topic) as [H _]. now apply H.
Qed.
Lemma message_object u topic ga l c : commands u topic ga ->
  on_message u topic (Some (JObj l)) c =
  mbind (mlift (payload_state (JObj l))) (fun light_on =>
  mbind (mlift (payload_int u (JObj l) (txt "brightness") 255)) (fun b =>
  mbind (mlift (payload_int u (JObj l) (txt "transition") 0)) (fun t =>
  apply_light ga light_on (clamp_brightness b) (clamp_transition t)))) c.
Proof.
  intros H. destruct (message_topic u topic ga H) as [A B]. unfold on_message. rewrite A, B. reflexivity.
Qed.
Lemma state_on l s : has l (txt "state") (JStr s) ->
  payload_state (JObj l) = Ok (text_eqb (py_upper s) (txt "ON")).
Proof. intros H. apply jlookup_has in H. unfold payload_state. now rewrite H. Qed.
Lemma message_asks u topic ga l on b t c : commands u topic ga -> asks u l on b t ->
  on_message u topic (Some (JObj l)) c = apply_light ga on (clamp_brightness b) (clamp_transition t) c.
Proof.
  intros H [s [S [O [B T]]]]. rewrite (message_object u topic ga l c H), (state_on l s S).
  apply payload_int_field in B, T. rewrite B, T.
  assert (Q : text_eqb (py_upper s) (txt "ON") = on).
  { pose proof (upper_on s) as U. destruct (text_eqb (py_upper s) (txt "ON")), on; intuition congruence. }
  rewrite Q. unfold mbind, mlift.
  destruct (apply_light ga on (clamp_brightness b) (clamp_transition t) c) as [[c' ev] r]. reflexivity.
Qed.

(** What [apply_light] is, by wish. *)
Lemma light_wish ga on b t w : wishes on b t w ->
  apply_light ga on (clamp_brightness b) (clamp_transition t) =
  match w with
  | WishOn => mseq (lighting_group_on [ga]) (memit_all (map CPublish (relay_on None ga)))
  | WishOff => mseq (lighting_group_off [ga]) (memit_all (map CPublish (relay_off None ga)))
  | WishRamp v s => mseq (lighting_group_ramp ga s (PInt v)) (memit_all (map CPublish (relay_ramp None ga s (PInt v))))
  end.
Proof.
  intros W. inversion W as [b' t'|b' t' H1 H2|b' t' H1 H2]; subst; unfold apply_light.
  - reflexivity.
  - replace (clamp_brightness b) with (PInt 255).
    2:{ unfold clamp_brightness. destruct (b <? 0) eqn:X; [lia|]. destruct (255 <? b) eqn:Y; [reflexivity|]. f_equal. lia. }
    replace (clamp_transition t) with 0 by (unfold clamp_transition; destruct (t <? 0) eqn:X; lia). reflexivity.
  - replace (clamp_brightness b) with (PInt (Z.min b 255)).
    2:{ unfold clamp_brightness. destruct (b <? 0) eqn:X; [lia|]. destruct (255 <? b) eqn:Y; f_equal; lia. }
    replace (clamp_transition t) with (Z.max t 0) by (unfold clamp_transition; destruct (t <? 0) eqn:X; lia).
    cbn [num_eqb]. replace ((Z.min b 255 =? 255) && (Z.max t 0 =? 0)) with false by lia. reflexivity.
Qed.

Theorem C41_command : forall u topic ga l on b t w c,
  commands u topic ga -> asks u l on b t -> wishes on b t w ->
  cl_transport c = true -> counter_ok c ->
  exists line code command messages,
    on_message u topic (Some (JObj l)) c
      = (set_index c ((cl_index c + 1) mod 20), CWrite line :: map CPublish messages, Ok tt)
    /\ code = code_at (cl_index c) 0 /\ command_line line code
    /\ wish_command ga w command
    /\ (forall strict rest, decode_packet (line ++ rest) true strict false
          = ([], Ok (Some (PktPM (mkHdr true 0 None (Some code)) (Some 0x38) [command]), length line)))
    /\ wish_report ga w messages.
Proof.
  intros u topic ga l on b t w c H A W T I.
  rewrite (message_asks u topic ga l on b t c H A), (light_wish ga on b t w W).
  destruct H as [_ [G _]].
  destruct w as [| |v s]; unfold mseq, mbind.
  - destruct (groups_outcome _ _ [ga] c group_on I) as [_ [_ [_ B]]].
    destruct B as [line [E [L D]]]; [cbn; lia|constructor; [exact G|constructor]|exact T|discriminate|].
    unfold lighting_group_on. rewrite E, memit_all_run. cbn [app].
    exists line, (code_at (cl_index c) 0), (LightOn ga), (relay_on None ga).
    split; [reflexivity|]. split; [reflexivity|]. split; [exact L|]. split; [reflexivity|]. split; [exact D|apply reports_on].
  - destruct (groups_outcome _ _ [ga] c group_off I) as [_ [_ [_ B]]].
    destruct B as [line [E [L D]]]; [cbn; lia|constructor; [exact G|constructor]|exact T|discriminate|].
    unfold lighting_group_off. rewrite E, memit_all_run. cbn [app].
    exists line, (code_at (cl_index c) 0), (LightOff ga), (relay_off None ga).
    split; [reflexivity|]. split; [reflexivity|]. split; [exact L|]. split; [reflexivity|]. split; [exact D|apply reports_off].
  - destruct (ramp_outcome ga s (PInt v) c I) as [_ [_ [_ B]]].
    destruct B as [line [d [E [L [R D]]]]]; [exact G|exact T| |].
    { exists v. split; [reflexivity|]. inversion W; subst. lia. }
    rewrite E, memit_all_run. cbn [app].
    exists line, (code_at (cl_index c) 0), (LightRamp ga d (PInt v)), (relay_ramp None ga s (PInt v)).
    split; [reflexivity|]. split; [reflexivity|]. split; [exact L|]. split; [exists d; now split|].
    split; [exact D|apply reports_ramp].
Qed.
Print Assumptions C41_command.

(** Without a connection the call raises and nothing is published. *)
Theorem C41_disconnected : forall u topic ga l on b t c,
  commands u topic ga -> asks u l on b t -> cl_transport c = false -> counter_ok c ->
  on_message u topic (Some (JObj l)) c = (c, [], Raise OSError).
Proof.
  intros u topic ga l on b t c H A T I. rewrite (message_asks u topic ga l on b t c H A). destruct H as [_ [G _]].
  assert (GS : forall new k, group_command new k -> forall n : M unit,
    mseq (send_groups new [ga]) n c = (c, [], Raise OSError)).
  { intros new k C n. destruct (groups_outcome new k [ga] c C I) as [_ [B _]].
    unfold mseq, mbind. rewrite B; [reflexivity|cbn; lia|constructor; [exact G|constructor]|exact T]. }
  assert (RS : forall d v (n : M unit), mseq (lighting_group_ramp ga d v) n c = (c, [], Raise OSError)).
  { intros d v n. destruct (ramp_outcome ga d v c I) as [_ [B _]]. unfold mseq, mbind. now rewrite B. }
  unfold apply_light. destruct on; [|apply (GS _ _ group_off)].
  destruct (num_eqb (clamp_brightness b) 255 && (clamp_transition t =? 0)); [apply (GS _ _ group_on)|apply RS].
Qed.
Print Assumptions C41_disconnected.

(** A payload gets at most one reading, and every one gets a wish unless it is
    ON with a negative brightness. *)
Theorem C41_unambiguous : forall u l on b t on' b' t',
  asks u l on b t -> asks u l on' b' t' -> on = on' /\ b = b' /\ t = t'.
Proof.
  intros u l on b t on' b' t' [s [S [O [B T]]]] [s' [S' [O' [B' T']]]].
  assert (E := has_fun _ _ _ _ S S'). inversion E; subst s'.
  split; [destruct on, on'; intuition congruence|].
  split; [exact (field_fun _ _ _ _ _ _ B B')|exact (field_fun _ _ _ _ _ _ T T')].
Qed.
Print Assumptions C41_unambiguous.
Theorem C41_wish : forall on b t, (exists w, wishes on b t w) <-> ~ (on = true /\ b < 0).
Proof.
  intros on b t. split.
  - intros [w W] [O N]. subst on. inversion W; lia.
  - intros N. destruct on; [|eexists; constructor].
    assert (0 <= b) by (destruct (Z_lt_le_dec b 0); [exfalso; auto|assumption]).
    destruct (Z_le_dec 255 b); [destruct (Z_le_dec t 0)|]; eexists; [apply wish_on|apply wish_ramp|apply wish_ramp]; lia.
Qed.
Print Assumptions C41_wish.

Definition body (on : text) (rest : list (text * json)) : option json := Some (JObj ((txt "state", JStr on) :: rest)).
Example C41_case : let c := mkClient ClassHandler true 3 0 true Pending true 0 0 in
  let run on rest := snd (fst (on_message plain_unicode (txt "homeassistant/light/cbus_7/set") (body (txt on) rest) c)) in
  run "oN"%string [] = CWrite (txt "\053800790743k" ++ [13]) :: map CPublish (relay_on None 7)
  /\ run "ON"%string [(txt "brightness", JStr (txt "1_00")); (txt "transition", JNum (PFloat (19 # 2)))]
     = CWrite (txt "\0538001A07643Ek" ++ [13]) :: map CPublish (relay_ramp None 7 9 (PInt 100))
  /\ run "x"%string [] = CWrite (txt "\0538000107BBk" ++ [13]) :: map CPublish (relay_off None 7).
Proof. vm_compute. repeat split. Qed.

(** ** C42 *)

Theorem C42_ignored : forall u topic body c,
  (forall ga, ~ commands u topic ga) \/ body = None -> on_message u topic body c = (c, [], Ok tt).
Proof.
  intros u topic body c H. unfold on_message.
  destruct (starts_with LIGHT_TOPIC_PREFIX topic && ends_with TOPIC_SET_SUFFIX topic) eqn:E; cbn [negb]; [|reflexivity].
  apply andb_prop in E. destruct E as [_ E]. apply ends_with_spec in E.
  destruct (get_topic_group_address u topic) as [ga|e] eqn:G.
  - destruct H as [H| ->]; [|reflexivity]. destruct (topic_address u topic) as [_ [B _]]. apply B in G.
    destruct G as [G1 G2]. exfalso. apply (H ga). split; [exact G1|]. split; [exact G2|exact E].
  - destruct (topic_address u topic) as [A [_ C]].
    assert (X : e = ValueError).
    { rewrite C in G; [congruence|]. intros n N K. rewrite (A n N K) in G. discriminate G. }
    subst e. reflexivity.
Qed.
Print Assumptions C42_ignored.

(** A light command with a payload that is no command raises. *)
Theorem C42_not_an_object : forall u topic ga j c, commands u topic ga -> (forall l, j <> JObj l) ->
  on_message u topic (Some j) c = (c, [], Raise TypeError).
Proof.
  intros u topic ga j c H N. destruct (message_topic u topic ga H) as [A B]. unfold on_message. rewrite A, B. cbn [negb].
  destruct j as [| | | | |l]; try reflexivity. exfalso. now apply (N l).
Qed.
Print Assumptions C42_not_an_object.
Theorem C42_no_state : forall u topic ga l c, commands u topic ga ->
  (lacks l (txt "state") -> on_message u topic (Some (JObj l)) c = (c, [], Raise KeyError))
  /\ (forall j, has l (txt "state") j -> (forall s, j <> JStr s) ->
      on_message u topic (Some (JObj l)) c = (c, [], Raise AttributeError)).
Proof.
  intros u topic ga l c H. split.
  - intros N. apply jlookup_lacks in N. rewrite (message_object u topic ga l c H).
    unfold payload_state. rewrite N. reflexivity.
  - intros j S N. apply jlookup_has in S. rewrite (message_object u topic ga l c H).
    unfold payload_state. rewrite S. destruct j; try reflexivity. exfalso. now apply (N s).
Qed.
Print Assumptions C42_no_state.
Theorem C42_not_a_number : forall u topic ga l s c, commands u topic ga ->
  has l (txt "state") (JStr s) ->
  field_bad u l (txt "brightness") \/ field_bad u l (txt "transition") ->
  exists e, on_message u topic (Some (JObj l)) c = (c, [], Raise e)
    /\ (e = TypeError \/ e = ValueError \/ e = OverflowError).
Proof.
  intros u topic ga l s c H S F. rewrite (message_object u topic ga l c H), (state_on l s S).
  destruct (field_cases u l (txt "brightness") 255) as [[b B]|B].
  - destruct F as [F|F]; [exfalso; eapply field_not_bad; eassumption|].
    destruct (payload_int_bad u l (txt "transition") 0 F) as [e [E Q]].
    apply payload_int_field in B. exists e. split; [|exact Q]. unfold mbind, mlift. now rewrite B, E.
  - destruct (payload_int_bad u l (txt "brightness") 255 B) as [e [E Q]].
    exists e. split; [|exact Q]. unfold mbind, mlift. now rewrite E.
Qed.
Print Assumptions C42_not_a_number.
Theorem C42_negative : forall u topic ga l b t c, commands u topic ga -> asks u l true b t -> b < 0 ->
  cl_transport c = true -> counter_ok c ->
  on_message u topic (Some (JObj l)) c = (c, [], Raise TypeError).
Proof.
  intros u topic ga l b t c H A N T I. rewrite (message_asks u topic ga l true b t c H A). destruct H as [_ [G _]].
  unfold apply_light, clamp_brightness. replace (b <? 0) with true by lia.
  change (num_eqb (PFloat 0) 255) with false. cbn [andb].
  assert (E : lighting_group_ramp ga (clamp_transition t) (PFloat 0) c = (c, [], Raise TypeError)).
  { unfold lighting_group_ramp, mbind, mlift, new_light_ramp. rewrite Sal_facts.check_ga_ok by exact G. cbn [rbind].
    unfold new_pm, send. cbn [append_sals append_sal fst snd sal_application rbind app]. rewrite T.
    cbn [negb is_base_packet encode_packet is_special_client]. unfold pm_encode. cbn [concat_res sal_encode].
    assert (X : light_ramp_encode ga (clamp_transition t) (PFloat 0) = Raise TypeError).
    { unfold light_ramp_encode. rewrite Sal_facts.check_ga_ok by exact G.
      change (num_ltb (PFloat 0) 0 || num_gtb (PFloat 0) 255) with false. cbn [rbind mk_bytes_num].
      destruct (Common_facts.first_rate_cases (clamp_transition t)) as [d [_ R]].
      assert (R' : 0 <= duration_to_ramp_rate (clamp_transition t) <= 255).
      { generalize dependent (duration_to_ramp_rate (clamp_transition t)). clear. intros z R. cbn in R.
        repeat (destruct R as [R|R]; [injection R as <- _; lia|]). destruct R. }
      cbn [byte_of_num]. unfold group_address, byte in G.
      rewrite !(proj2 (andb_true_iff _ _)) by (split; apply Z.leb_le; lia). reflexivity. }
    rewrite X. reflexivity. }
  unfold mseq, mbind. rewrite E. reflexivity.
Qed.
Print Assumptions C42_negative.

(** Nothing else has an effect. *)
Theorem C42_only : forall u topic body c c' ev r, counter_ok c ->
  on_message u topic body c = (c', ev, r) -> ev <> [] \/ c' <> c ->
  exists ga l on b t w, commands u topic ga /\ body = Some (JObj l) /\ asks u l on b t /\ wishes on b t w
    /\ cl_transport c = true /\ r = Ok tt.
Proof.
  intros u topic body c c' ev r I E X.
  assert (NO : forall r', (c', ev, r) = (c, [], r') -> False).
  { intros r' H. inversion H. subst. destruct X; congruence. }
  destruct body as [j|].
  2:{ exfalso. eapply NO. rewrite <- E. apply C42_ignored. now right. }
  destruct (get_topic_group_address u topic) as [ga|e] eqn:G.
  2:{ exfalso. eapply NO. rewrite <- E. apply C42_ignored. left. intros ga H.
      destruct (message_topic u topic ga H) as [_ B]. congruence. }
  destruct (topic_address u topic) as [_ [B _]]. apply B in G. destruct G as [G1 G2].
  destruct (ends_with TOPIC_SET_SUFFIX topic) eqn:S.
  2:{ exfalso. eapply NO. rewrite <- E. apply C42_ignored. left. intros ga' [_ [_ H]]. apply ends_with_spec in H.
      change (txt "/set") with TOPIC_SET_SUFFIX in H. congruence. }
  apply ends_with_spec in S.
  assert (H : commands u topic ga) by (split; [exact G1|split; [exact G2|exact S]]).
  destruct j as [| | | | |l];
    try (exfalso; eapply NO; rewrite <- E; eapply C42_not_an_object; [exact H|discriminate]).
  destruct (C42_no_state u topic ga l c H) as [N1 N2].
  destruct (has_or_lacks l (txt "state")) as [[j HS]|L]; [|exfalso; eapply NO; rewrite <- E; now apply N1].
  destruct j as [| | |s| |]; try (exfalso; eapply NO; rewrite <- E; eapply N2; [exact HS|discriminate]).
  destruct (field_cases u l (txt "brightness") 255) as [[b HB]|F].
  2:{ exfalso. destruct (C42_not_a_number u topic ga l s c H HS (or_introl F)) as [e [Q _]]. eapply NO. rewrite <- E. exact Q. }
  destruct (field_cases u l (txt "transition") 0) as [[t HT]|F].
  2:{ exfalso. destruct (C42_not_a_number u topic ga l s c H HS (or_intror F)) as [e [Q _]]. eapply NO. rewrite <- E. exact Q. }
  set (on := text_eqb (py_upper s) (txt "ON")).
  assert (A : asks u l on b t).
  { exists s. split; [exact HS|]. split; [apply upper_on|]. now split. }
  destruct (cl_transport c) eqn:T.
  2:{ exfalso. eapply NO. rewrite <- E. eapply C41_disconnected; eassumption. }
  assert (D : on = true /\ b < 0 \/ ~ (on = true /\ b < 0)).
  { destruct on; [destruct (Z_lt_le_dec b 0); [left; auto|right; lia]|right; intros [Q _]; discriminate Q]. }
  destruct D as [[O N]|D].
  { exfalso. eapply NO. rewrite <- E. rewrite O in A. eapply C42_negative; eassumption. }
  apply (proj2 (C41_wish on b t)) in D. destruct D as [w W]. exists ga, l, on, b, t, w.
  destruct (C41_command u topic ga l on b t w c H A W T I) as [line [code [cmd [ms [E1 _]]]]].
  rewrite E1 in E. inversion E; subst. repeat (split; [assumption || reflexivity|]). reflexivity.
Qed.
Print Assumptions C42_only.

Example C42_case : let c := mkClient ClassHandler true 3 0 true Pending true 0 0 in
  map (fun p => on_message plain_unicode (txt "homeassistant/light/cbus_" ++ txt (fst p)) (snd p) c)
    [("7/state"%string, body (txt "ON") []); ("256/set"%string, body (txt "ON") []); ("7/set"%string, None);
     ("7/set"%string, Some (JArr [])); ("7/set"%string, Some (JObj []));
     ("7/set"%string, body (txt "ON") [(txt "brightness", JNull)]);
     ("7/set"%string, body (txt "ON") [(txt "brightness", JNum (PInt (-1)))])]
  = map (fun r => (c, [], r)) [Ok tt; Ok tt; Ok tt; Raise TypeError; Raise KeyError; Raise TypeError; Raise TypeError].
Proof. vm_compute. reflexivity. Qed.

(** ** C43 *)

Lemma relayed_report src s : sound_sal s -> event_report src s (relayed src s).
Proof.
  intros S. destruct s as [ga d lv|ga|ga|ga|v| |ga t|vr vl|lvl ga ch]; cbn [relayed];
    try (apply report_none; [intros x; split; discriminate|intros x y z; discriminate]).
  - destruct S as [_ [_ [z [-> _]]]]. constructor. apply reports_ramp.
  - constructor. apply reports_on.
  - constructor. apply reports_off.
Qed.
Lemma relayed_reports src sals : Forall sound_sal sals -> event_reports src sals (flat_map (relayed src) sals).
Proof. induction 1; [constructor|]. cbn [flat_map]. constructor; [now apply relayed_report|assumption]. Qed.

Theorem C43_relay : forall now c buf ws h a sals size,
  cl_transport c = true -> counter_ok c -> clock_works now ->
  decode_packet buf true true true = (ws, Ok (Some (PktPM h a sals), size)) ->
  exists c' ev, handle_data now c buf = (c', ev, Ok (Z.of_nat size))
    /\ (cl_class c = ClassHandler -> cl_mqtt c = true -> event_reports (h_source h) sals (published ev))
    /\ (cl_class c = ClassPCI \/ cl_mqtt c = false -> published ev = []).
Proof.
  intros now c buf ws h a sals size T I N D.
  assert (S := decode_sound _ _ _ _ _ _ _ D). destruct S as [_ [_ S]].
  unfold handle_data. rewrite D. cbn [handle_cbus_packet].
  destruct (dispatch_list now (h_source h) sals N c I T) as [ev [E [_ [_ P]]]]. rewrite E.
  eexists. eexists. split; [reflexivity|]. rewrite published_app.
  assert (W : published (map CWarn ws) = []) by (clear; induction ws; auto). rewrite W. cbn [app]. rewrite P.
  unfold attached. split.
  - intros -> ->. now apply relayed_reports.
  - intros [->| ->]; [reflexivity|]. destruct (cl_class c); reflexivity.
Qed.
Print Assumptions C43_relay.

(** No other packet is relayed. *)
Theorem C43_only : forall now c buf ws p size c' ev r,
  decode_packet buf true true true = (ws, Ok (p, size)) ->
  match p with Some (PktPM _ _ _) => False | _ => True end ->
  handle_data now c buf = (c', ev, r) -> published ev = [].
Proof.
  intros now c buf ws p size c' ev r D P E.
  assert (W : published (map CWarn ws) = []) by (clear; induction ws; auto).
  unfold handle_data in E. rewrite D in E. destruct p as [p|]; [|inversion E; subst; exact W].
  destruct p; try contradiction; cbn in E; inversion E; subst; rewrite ?published_app, W; reflexivity.
Qed.
Print Assumptions C43_only.

(** The light and the sensor agree after every event except a ramp to 0. *)
Definition light_says (l : list message) (on : bool) : Prop :=
  exists m rest fields, l = m :: rest /\ m_payload m = PJson (JObj fields)
    /\ has fields (txt "state") (JStr (txt (if on then "ON" else "OFF"))).
Definition sensor_says (l : list message) (on : bool) : Prop :=
  exists m m', l = [m; m'] /\ m_payload m' = PRaw (txt (if on then "ON" else "OFF")).
Lemma reports_says ga src on b t sensor l : reports ga src on b t sensor l -> light_says l on /\ sensor_says l sensor.
Proof.
  intros [x [y [_ [_ ->]]]]. split.
  - eexists. eexists. eexists. split; [reflexivity|]. split; [reflexivity|]. exists []. eexists. split; [reflexivity|]. intros v [].
  - eexists. eexists. split; reflexivity.
Qed.
Theorem C43_agreement : forall src s l, event_report src s l -> l <> [] ->
  exists on sensor, light_says l on /\ sensor_says l sensor
    /\ (on <> sensor -> exists ga d level, s = LightRamp ga d (PInt level) /\ level <= 0).
Proof.
  intros src s l R N. inversion R as [ga l' H|ga l' H|ga d level l' H|s' H1 H2]; subst.
  - destruct (reports_says _ _ _ _ _ _ _ H) as [A B]. exists true, true. repeat split; auto. congruence.
  - destruct (reports_says _ _ _ _ _ _ _ H) as [A B]. exists false, false. repeat split; auto. congruence.
  - destruct (reports_says _ _ _ _ _ _ _ H) as [A B]. exists true, (0 <? level). repeat split; auto.
    intros Q. exists ga, d, level. split; [reflexivity|]. destruct (0 <? level) eqn:X; [congruence|lia].
  - congruence.
Qed.
Print Assumptions C43_agreement.

(** A ramp to level 0 is reported as ON by the light and OFF by the sensor. *)
Theorem C43_states_agree_refuted : ~ forall now c buf c' ev n,
  cl_transport c = true -> counter_ok c -> clock_works now -> cl_class c = ClassHandler -> cl_mqtt c = true ->
  handle_data now c buf = (c', ev, Ok n) -> published ev <> [] ->
  exists on, light_says (published ev) on /\ sensor_says (published ev) on.
Proof.
  intros H.
  specialize (H noon (mkClient ClassHandler true 0 0 false NoFuture true 0 0) (txt "05053800020A00B2" ++ [13; 10])).
  destruct (handle_data noon (mkClient ClassHandler true 0 0 false NoFuture true 0 0) (txt "05053800020A00B2" ++ [13; 10]))
    as [[c' ev] r] eqn:E.
  assert (X : published ev = relay_ramp (Some 5) 10 0 (PInt 0) /\ r = Ok 18).
  { vm_compute in E. inversion E; subst. split; reflexivity. }
  destruct X as [P R]. subst r.
  destruct (H c' ev 18) as [on [A B]]; try reflexivity.
  { apply Nat.lt_0_succ. } { apply noon_works. } { rewrite P. discriminate. }
  rewrite P in A, B. destruct (reports_says _ _ _ _ _ _ _ (reports_ramp 10 (Some 5) 0 0)) as [_ [m [m' [E1 E2]]]].
  destruct A as [m1 [rest [fields [A1 [A2 A3]]]]]. destruct B as [m2 [m3 [B1 B2]]].
  destruct on.
  - rewrite E1 in B1. inversion B1; subst. rewrite E2 in B2. discriminate B2.
  - unfold relay_ramp in A1. inversion A1; subst m1. cbn in A2. inversion A2; subst fields.
    apply jlookup_has in A3. vm_compute in A3. discriminate A3.
Qed.
Print Assumptions C43_states_agree_refuted.

Example C43_case : let c := mkClient ClassHandler true 0 0 false NoFuture true 0 0 in
  published (snd (fst (handle_data noon c (txt "0505380079012A028098" ++ [13; 10]))))
  = relay_on (Some 5) 1 ++ relay_ramp (Some 5) 2 30 (PInt 128)
  /\ published (snd (fst (handle_data noon (set_mqtt c false) (txt "0505380079012A028098" ++ [13; 10])))) = [].
Proof. vm_compute. split; reflexivity. Qed.
