(** C61-C63: histories of the running MQTT daemon. *)
From Coq Require Import String List ZArith QArith Bool Lia ZifyBool ZifyNat.
From Verif Require Import Py Common Sal Packet Text Mqtt Buffered Client Cmqttd Daemon Base Spec Spec_client Spec_sound Spec_mqtt
  Spec_daemon Buffer_facts Client_facts Client_steps Client_send Client_calls Client_dispatch Packet_sound Mqtt_facts
  Prop_client Prop_sound Prop_mqtt Prop_discovery.
Import ListNotations.
Open Scope Z_scope.
Notation length := List.length.

(** ** One step *)

(** What the calls of a history leave alone. *)
Definition stays (c c' : client) : Prop :=
  cl_class c' = cl_class c /\ cl_mqtt c' = cl_mqtt c /\ cl_transport c' = cl_transport c
  /\ (counter_ok c -> counter_ok c').
Lemma stays_refl c : stays c c.
Proof. repeat split; auto. Qed.
Lemma stays_trans a b c : stays a b -> stays b c -> stays a c.
Proof. unfold stays. intuition congruence. Qed.
Lemma send_stays p k b : keeps (fun c _ c' => stays c c') (send p k b).
Proof.
  intros c c' ev r E. unfold send in E.
  destruct (negb (cl_transport c)); [inversion E; apply stays_refl|].
  destruct (negb (is_base_packet p)); [inversion E; apply stays_refl|].
  destruct (encode_packet p); [|inversion E; apply stays_refl].
  destruct (k && negb (is_special_client p)).
  - unfold mbind, get_confirmation_code in E.
    destruct (nth_error CONFIRMATION_CODES (cl_index c)); [|inversion E; apply stays_refl].
    apply (f_equal (fun x => fst (fst x))) in E. cbn [fst mseq mbind memit mret] in E. subst c'.
    repeat split. intros _. unfold counter_ok. cbn [cl_index set_index]. apply Nat.mod_upper_bound. discriminate.
  - inversion E. apply stays_refl.
Qed.
Lemma clock_stays now w : keeps (fun c _ c' => stays c c') (clock_datetime now w).
Proof.
  apply keeps_clock.
  - intros; apply stays_refl.
  - intros c e1 c1 e2 c2; apply stays_trans.
  - intros; repeat split; auto.
  - intros; apply send_stays.
Qed.
Lemma step_stays now st o st' ev r : steady o -> client_step now st o = (st', ev, r) -> stays (fst st) (fst st').
Proof.
  intros S E. apply (keeps_step (fun c _ c' => stays c c')) with (now := now) (o := o) (ev := ev) (r := r); auto.
  - intros; apply stays_refl.
  - intros c e1 c1 e2 c2; apply stays_trans.
  - intros; repeat split; auto.
  - intros; apply stays_refl.
  - intros; apply send_stays.
  - intros; repeat split; auto.
Qed.

(** The messages for one callback. *)
Definition told (e : cev) : list message :=
  match e with
  | COn source ga => relay_on source ga
  | COff source ga => relay_off source ga
  | CRamp source ga seconds level => relay_ramp source ga seconds level
  | _ => []
  end.
(** Effects of a call on the bus side: reports for the callbacks, no lighting
    command. *)
Definition quiet (mqtt : bool) (ev : list cev) : Prop :=
  published ev = (if mqtt then flat_map told ev else []) /\ commanded ev = [] /\ subscriptions ev = [].
Lemma commanded_app a b : commanded (a ++ b) = commanded a ++ commanded b.
Proof. unfold commanded. rewrite writes_app. apply flat_map_app. Qed.
Lemma subscriptions_app a b : subscriptions (a ++ b) = subscriptions a ++ subscriptions b.
Proof. apply flat_map_app. Qed.
Lemma subscriptions_publishes l : subscriptions (map CPublish l) = [].
Proof. induction l; auto. Qed.
Lemma quiet_app m a b : quiet m a -> quiet m b -> quiet m (a ++ b).
Proof.
  intros [A1 [A2 A3]] [B1 [B2 B3]]. split; [|split].
  - rewrite published_app, A1, B1. destruct m; [|reflexivity]. symmetry. apply flat_map_app.
  - now rewrite commanded_app, A2, B2.
  - now rewrite subscriptions_app, A3, B3.
Qed.
Lemma quiet_nil m : quiet m [].
Proof. split; [|split; reflexivity]. now destruct m. Qed.
Lemma quiet_other m e : is_write e = false -> told e = [] -> (forall x, e <> CPublish x) -> (forall x, e <> CSubscribe x) ->
  quiet m [e].
Proof.
  intros W T P S. destruct e; try discriminate W; try discriminate T; try (exfalso; eapply P; reflexivity);
    try (exfalso; eapply S; reflexivity); (split; [now destruct m|split; reflexivity]).
Qed.
Lemma quiet_warns m ws : quiet m (map CWarn ws).
Proof.
  induction ws as [|w ws IH]; [apply quiet_nil|]. apply (quiet_app m [CWarn w]); [|exact IH].
  apply quiet_other; easy.
Qed.
Lemma quiet_line m w : (forall h s n ws, decode_packet w true true false <> (ws, Ok (Some (PktPM h (Some 0x38) s), n))) ->
  quiet m [CWrite w].
Proof.
  intros H. split; [now destruct m|]. split; [|reflexivity]. unfold commanded. cbn [writes flat_map app].
  destruct (decode_packet w true true false) as [ws [[[p|] n]|e]]; try reflexivity.
  destruct p as [| |co su| | |pl ex|h a sals|h u hops cals|h a v|ch bl st ck|c]; try reflexivity.
  destruct a as [a|]; [|reflexivity]. destruct (a =? 0x38) eqn:Q; [|reflexivity].
  apply Z.eqb_eq in Q. subst a. exfalso. eapply H. reflexivity.
Qed.

Lemma quiet_clock now m c c' ev r : clock_works now -> counter_ok c ->
  clock_datetime now None c = (c', ev, r) -> quiet m ev.
Proof.
  intros N I E. destruct (clock_outcome now None c I) as [_ [A B]]; [discriminate|exact N|].
  assert (V : now (cl_reads c) <> COther).
  { destruct (N (cl_reads c)) as [y [mo [d [h [mi [s [us [-> _]]]]]]]]. discriminate. }
  destruct (cl_transport c) eqn:T.
  - destruct (B V eq_refl) as [b [F [_ D]]]. rewrite F in E. inversion E; subst. apply quiet_line.
    intros h s n ws. specialize (D true []). rewrite app_nil_r in D. rewrite D. intros Q. inversion Q.
  - rewrite (A V eq_refl) in E. inversion E; subst. apply quiet_nil.
Qed.

Lemma dispatch_quiet now src s c c' ev r : clock_works now -> counter_ok c -> cl_class c = ClassHandler ->
  dispatch_sal now src s c = (c', ev, r) -> quiet (cl_mqtt c) ev /\ stays c c'.
Proof.
  intros N I H E.
  assert (P : forall l, published (if cl_mqtt c then map CPublish l else []) = (if cl_mqtt c then l else [])).
  { intros l. destruct (cl_mqtt c); [apply publishes_filters|reflexivity]. }
  assert (R : forall e ms, told e = ms -> is_write e = false -> (forall x, e <> CPublish x) -> (forall x, e <> CSubscribe x) ->
    mseq (memit e) (relay ms) c = (c', ev, r) -> quiet (cl_mqtt c) ev /\ stays c c').
  { intros e ms T W X Y F. unfold mseq, mbind, memit in F. rewrite relay_run in F. unfold attached in F. rewrite H in F.
    inversion F; subst. split; [|apply stays_refl].
    split; [|split].
    - unfold published. cbn [app flat_map]. fold (published (if cl_mqtt c' then map CPublish (told e) else [])).
      rewrite P. assert (Y' : flat_map told (map CPublish (told e)) = []) by (clear; induction (told e); auto).
      destruct (cl_mqtt c'); destruct e; try (exfalso; eapply X; reflexivity); try reflexivity;
        rewrite Y', app_nil_r; reflexivity.
    - change (commanded ([e] ++ (if cl_mqtt c' then map CPublish (told e) else [])) = []).
      rewrite commanded_app. destruct e; try discriminate W; try (exfalso; eapply X; reflexivity);
        unfold commanded; cbn [writes flat_map app];
        destruct (cl_mqtt c'); try reflexivity; rewrite (proj1 (proj2 (publishes_filters _))); reflexivity.
    - change (subscriptions ([e] ++ (if cl_mqtt c' then map CPublish (told e) else [])) = []).
      rewrite subscriptions_app. destruct e; try (exfalso; eapply Y; reflexivity);
        destruct (cl_mqtt c'); rewrite ?subscriptions_publishes; reflexivity. }
  destruct s as [ga d lv|ga|ga|ga|v| |ga t|vr vl|lvl ga ch]; cbn [dispatch_sal] in E;
    try (inversion E; subst; split; [apply quiet_nil|apply stays_refl]);
    try (inversion E; subst; split; [apply quiet_other; easy|apply stays_refl]).
  - eapply R; [| | | |exact E]; easy.
  - eapply R; [| | | |exact E]; easy.
  - eapply R; [| | | |exact E]; easy.
  - unfold on_clock_request, mseq, mbind, memit in E. rewrite H in E.
    destruct (clock_datetime now None c) as [[c1 ev1] r1] eqn:D.
    assert (Q := quiet_clock now (cl_mqtt c) _ _ _ _ N I D). assert (S := clock_stays now None _ _ _ _ D).
    destruct r1; inversion E; subst; rewrite ?app_nil_r; (split; [|exact S]);
      apply (quiet_app _ [_]); auto; apply quiet_other; easy.
Qed.
Lemma dispatch_all_quiet now src sals : clock_works now -> forall c c' ev r, counter_ok c -> cl_class c = ClassHandler ->
  dispatch_sals now src sals c = (c', ev, r) -> quiet (cl_mqtt c) ev /\ stays c c'.
Proof.
  intros N. induction sals as [|s sals IH]; intros c c' ev r I H E; cbn [dispatch_sals] in E.
  - inversion E; subst. split; [apply quiet_nil|apply stays_refl].
  - unfold mseq, mbind in E. destruct (dispatch_sal now src s c) as [[c1 e1] [a|e]] eqn:D;
      destruct (dispatch_quiet now src s _ _ _ _ N I H D) as [Q S].
    + destruct (dispatch_sals now src sals c1) as [[c2 e2] r2] eqn:D2. inversion E; subst.
      destruct S as [S1 [S2 [S3 S4]]]. destruct (IH _ _ _ _ (S4 I) (eq_trans S1 H) D2) as [Q2 T].
      rewrite S2 in Q2. split; [now apply quiet_app|]. eapply stays_trans; [|exact T]. repeat split; auto.
    + inversion E; subst. now split.
Qed.
Lemma handle_quiet now c buf c' ev r : clock_works now -> counter_ok c -> cl_class c = ClassHandler ->
  handle_data now c buf = (c', ev, r) -> quiet (cl_mqtt c) ev /\ stays c c'.
Proof.
  intros N I H E. unfold handle_data in E.
  destruct (decode_packet buf true true true) as [ws [[p n]|e]];
    [|inversion E; subst; split; [apply quiet_warns|apply stays_refl]].
  destruct p as [p|]; [|inversion E; subst; split; [apply quiet_warns|apply stays_refl]].
  destruct (handle_cbus_packet now p c) as [[c2 ev2] r2] eqn:D.
  assert (X : quiet (cl_mqtt c) ev2 /\ stays c c2).
  { destruct p; cbn [handle_cbus_packet] in D;
      try (inversion D; subst; split; [apply quiet_nil|apply stays_refl]);
      try (inversion D; subst; split; [apply quiet_other; easy|apply stays_refl]).
    eapply dispatch_all_quiet; eassumption. }
  destruct X as [X1 X2]. destruct r2 as [[]|]; inversion E; subst;
    (split; [apply quiet_app; [apply quiet_warns|exact X1]|exact X2]).
Qed.
Lemma process_quiet now c buf calls c' buf' ev out : clock_works now ->
  processes (handle_data now) c buf calls c' buf' ev out -> counter_ok c -> cl_class c = ClassHandler ->
  quiet (cl_mqtt c) ev /\ stays c c'.
Proof.
  intros N. induction 1 as [st|st b st' ev e B E|st b st' ev B E|st b st' ev B E
                   |st b st' ev r B E R|st b st' ev r calls st'' b' ev' out B E R P IH]; intros I H;
    try (eapply handle_quiet; eassumption).
  - split; [apply quiet_nil|apply stays_refl].
  - destruct (handle_quiet _ _ _ _ _ _ N I H E) as [Q [S1 [S2 [S3 S4]]]].
    destruct (IH (S4 I) (eq_trans S1 H)) as [Q2 T]. rewrite S2 in Q2.
    split; [now apply quiet_app|]. eapply stays_trans; [|exact T]. repeat split; auto.
Qed.

(** A call on the bus side. *)
Lemma bus_step u now labels st o st' ev r : clock_works now -> counter_ok (fst st) -> cl_class (fst st) = ClassHandler ->
  bus_call o -> daemon_step u now labels st o = (st', ev, r) ->
  quiet (cl_mqtt (fst st)) ev /\ Forall sound_callback ev
  /\ counter_ok (fst st') /\ cl_class (fst st') = ClassHandler /\ cl_mqtt (fst st') = cl_mqtt (fst st)
  /\ cl_transport (fst st') = connected_after o (cl_transport (fst st)).
Proof.
  intros N I H B E.
  assert (SC : forall o' r', client_step now st o' = (st', ev, r') -> Forall sound_callback ev).
  { intros o' r' F. assert (C := C59_callbacks now [o'] st st' [(ev, r')]). cbn [client_run] in C. rewrite F in C.
    specialize (C eq_refl). cbn in C. now rewrite app_nil_r in C. }
  destruct o as [| |b| | |topic payload]; try contradiction; cbn [daemon_step] in E.
  - destruct (client_step now st OpConnect) as [[s1 e1] r1] eqn:F. inversion E; subst. split; [|split; [eapply SC; exact F|]];
      cbn [client_step api] in F; unfold mseq, mbind in F; rewrite (connect_outcome (fst st) I) in F; cbn zeta in F;
      assert (F1 := f_equal (fun x => fst (fst x)) F); assert (F2 := f_equal (fun x => snd (fst x)) F);
      cbn [fst snd mret] in F1, F2; clear F; [rewrite <- F2|rewrite <- F1].
    + rewrite app_nil_r. apply quiet_app; [|destruct (cl_frequency (fst st) =? 0); [apply quiet_nil|apply quiet_other; easy]].
      assert (D : forall d k, d = txt "A3210038" \/ d = txt "A342000E" \/ d = txt "A3300059" -> quiet (cl_mqtt (fst st)) [CWrite (d ++ [code_at (cl_index (fst st)) k; 13])]).
      { intros d k Hd. apply quiet_line. intros h s n ws. unfold code_at.
        assert (K : ((cl_index (fst st) + k) mod 20 < 20)%nat) by (apply Nat.mod_upper_bound; discriminate).
        revert K. generalize ((cl_index (fst st) + k) mod 20)%nat. intros i K.
        do 20 (destruct i as [|i]; [destruct Hd as [ -> |[ -> | -> ]]; vm_compute; discriminate|]). lia. }
      assert (R : quiet (cl_mqtt (fst st)) [CWrite (txt "~" ++ [13])]) by (apply quiet_line; intros h s n ws; vm_compute; discriminate).
      apply (quiet_app _ [_]); [exact R|]. apply (quiet_app _ [_]); [exact R|]. apply (quiet_app _ [_]); [exact R|].
      apply (quiet_app _ [_]); [apply D; auto|]. apply (quiet_app _ [_]); [apply D; auto|]. apply D; auto.
    + assert (K : ((cl_index (fst st) + 3) mod 20 < 20)%nat) by (apply Nat.mod_upper_bound; discriminate).
      destruct (cl_frequency (fst st) =? 0); (split; [exact K|cbn; auto]).
  - destruct (client_step now st OpLost) as [[s1 e1] r1] eqn:F. inversion E; subst. split; [|split; [eapply SC; exact F|]];
      cbn [client_step api] in F; unfold mseq, mbind, connection_lost in F;
      destruct (cl_future (set_transport (fst st) false)); inversion F; subst; cbn;
      try (split; [exact I|now auto]); try apply quiet_nil; apply quiet_other; easy.
  - destruct (client_step now st (OpData b)) as [[s1 e1] r1] eqn:F. inversion E; subst.
    assert (S : stays (fst st) (fst st')) by (eapply step_stays; [|exact F]; split; discriminate).
    destruct S as [S1 [S2 [S3 S4]]]. split; [|split; [eapply SC; exact F|cbn; rewrite S1; auto]].
    cbn [client_step] in F.
    destruct (data_received (handle_data now) MAX_BUFFER_SIZE (fst st) (snd st) b) as [[[c1 b1] ev1] o1] eqn:D.
    assert (Q : ev = ev1) by (destruct o1 as [[]|e]; inversion F; reflexivity). subst ev1.
    unfold data_received in D. destruct (Nat.ltb _ (length b)); [inversion D; apply quiet_nil|].
    destruct (Nat.ltb _ (length (snd st) + length b)); [inversion D; apply quiet_nil|].
    apply process_buffer_spec in D. destruct D as [calls D].
    exact (proj1 (process_quiet now _ _ _ _ _ _ _ N D I H)).
  - destruct (client_step now st OpTimesync) as [[s1 e1] r1] eqn:F. inversion E; subst.
    assert (S : stays (fst st) (fst st')) by (eapply step_stays; [|exact F]; split; discriminate).
    destruct S as [S1 [S2 [S3 S4]]]. split; [|split; [eapply SC; exact F|cbn; rewrite S1; auto]].
    cbn [client_step api] in F. unfold mseq, mbind, timesync_step in F.
    destruct (Nat.eqb (cl_tasks (fst st)) 0); [inversion F; apply quiet_nil|].
    destruct (cl_frequency (fst st) <=? 0); [inversion F; apply quiet_nil|].
    destruct (clock_datetime now None (fst st)) as [[c1 e1] [a|e]] eqn:D; inversion F; subst; rewrite ?app_nil_r;
      eapply quiet_clock; eassumption.
Qed.

(** ** C61 *)

Lemma seen_reports ev : Forall sound_callback ev -> exists ls,
  Forall2 entry_report (flat_map seen ev) ls /\ flat_map told ev = concat ls.
Proof.
  induction 1 as [|e ev S _ [ls [A B]]]; [exists []; split; [constructor|reflexivity]|].
  cbn [flat_map]. rewrite B.
  destruct e as [b|w| |co su|src ga d lv|src ga|src ga|src ga|src|src v|m|tp| |];
    try (exists ls; split; [exact A|reflexivity]); cbn [seen told].
  - exists (relay_ramp src ga d lv :: ls). split; [|reflexivity]. constructor; [|exact A].
    apply (relayed_report src (LightRamp ga d lv)). exact (proj1 S).
  - exists (relay_on src ga :: ls). split; [|reflexivity]. constructor; [|exact A]. constructor. apply reports_on.
  - exists (relay_off src ga :: ls). split; [|reflexivity]. constructor; [|exact A]. constructor. apply reports_off.
Qed.

(** A step of the MQTT side. *)
Lemma order_step u now labels st topic payload ga w : counter_ok (fst st) -> cl_transport (fst st) = true ->
  orders u topic payload ga w ->
  exists line command messages,
    daemon_step u now labels st (DMqttMessage topic payload)
      = ((set_index (fst st) ((cl_index (fst st) + 1) mod 20), snd st), CWrite line :: map CPublish messages, Ok tt)
    /\ wish_command ga w command /\ wish_report ga w messages
    /\ commanded (CWrite line :: map CPublish messages) = [command].
Proof.
  intros I T [l [on [b [t [A [-> [B W]]]]]]].
  destruct (C41_command u topic ga l on b t w (fst st) A B W T I) as [line [code [command [messages [E [_ [_ [C [D R]]]]]]]]].
  exists line, command, messages. cbn [daemon_step]. rewrite E. split; [reflexivity|]. split; [exact C|]. split; [exact R|].
  change (CWrite line :: map CPublish messages) with ([CWrite line] ++ map CPublish messages).
  rewrite commanded_app. unfold commanded at 2. rewrite (proj1 (proj2 (publishes_filters messages))).
  unfold commanded. cbn [writes flat_map app]. specialize (D true []). rewrite app_nil_r in D. rewrite D. reflexivity.
Qed.
Lemma ignored_step u now labels st topic payload : counter_ok (fst st) ->
  (cl_transport (fst st) = true -> forall ga w, ~ orders u topic payload ga w) ->
  exists r, daemon_step u now labels st (DMqttMessage topic payload) = (st, [], r).
Proof.
  intros I N. cbn [daemon_step]. destruct (on_message u topic payload (fst st)) as [[c ev] r] eqn:E. exists r.
  assert (X : ~ (ev <> [] \/ c <> fst st)).
  { intros X. destruct (C42_only u topic payload (fst st) c ev r I E X) as [ga [l [on [b [t [w [A [B [C [D [T _]]]]]]]]]]].
    apply (N T ga w). exists l, on, b, t. auto. }
  assert (ev = []) by (destruct ev; [reflexivity|exfalso; apply X; left; discriminate]). subst ev.
  assert (Y : c = fst st \/ c <> fst st).
  { revert E. clear. intros E. destruct c as [k1 t1 i1 f1 h1 u1 m1 r1 n1], (fst st) as [k2 t2 i2 f2 h2 u2 m2 r2 n2].
    assert (D : {mkClient k1 t1 i1 f1 h1 u1 m1 r1 n1 = mkClient k2 t2 i2 f2 h2 u2 m2 r2 n2}
              + {mkClient k1 t1 i1 f1 h1 u1 m1 r1 n1 <> mkClient k2 t2 i2 f2 h2 u2 m2 r2 n2}).
    { repeat decide equality. }
    destruct D; [now left|now right]. }
  destruct Y as [Y|Y]; [|exfalso; apply X; now right]. subst c. now destruct st.
Qed.
Lemma order_dec u topic payload bus :
  (bus = true /\ exists ga w, orders u topic payload ga w) \/ (bus = true -> forall ga w, ~ orders u topic payload ga w).
Proof.
  destruct bus; [|right; discriminate].
  destruct (on_message u topic payload (mkClient ClassHandler true 0 0 true Pending true 0 0)) as [[c ev] r] eqn:E.
  assert (I : counter_ok (mkClient ClassHandler true 0 0 true Pending true 0 0)) by (unfold counter_ok; cbn; lia).
  destruct ev as [|e ev].
  - right. intros _ ga w O.
    destruct (order_step u noon [] (mkClient ClassHandler true 0 0 true Pending true 0 0, []) topic payload ga w I eq_refl O)
      as [line [command [messages [F _]]]]. cbn [daemon_step fst] in F. rewrite E in F. discriminate F.
  - left. split; [reflexivity|].
    destruct (C42_only u topic payload _ c (e :: ev) r I E) as [ga [l [on [b [t [w [A [B [C [D _]]]]]]]]]]; [left; discriminate|].
    exists ga, w, l, on, b, t. auto.
Qed.

Lemma state_topic_ends k ga t : is_topic k ga t -> topic_after k = txt "/state" \/ topic_after k = txt "/config" ->
  (if list_eq_dec Z.eq_dec (skipn (length t - 6) t) (txt "/state") then true else false)
  = (match k with LightState | SensorState => true | _ => false end).
Proof.
  intros [d [_ ->]] K. rewrite app_assoc.
  assert (S : forall (a b : text), length b = 6%nat -> skipn (length (a ++ b) - 6) (a ++ b) = b).
  { intros a b L. rewrite app_length, L, Nat.add_sub. apply skipn_prefix. }
  assert (S' : forall (a : text), skipn (length (a ++ txt "/config") - 6) (a ++ txt "/config") = txt "config").
  { intros a. change (txt "/config") with ([47] ++ txt "config"). rewrite app_assoc. apply S. reflexivity. }
  destruct k; cbn [topic_after] in *; try (rewrite S by reflexivity; reflexivity); try (rewrite S'; reflexivity).
  destruct K; discriminate.
Qed.
Lemma reports_messages ga src on b t s l : reports ga src on b t s l -> exists light binary,
  l = [light; binary] /\ is_topic LightState ga (m_topic light) /\ is_topic SensorState ga (m_topic binary)
  /\ state_messages l = l /\ Forall (fun m => m_qos m = 1 /\ m_retain m = true) l.
Proof.
  intros [x [y [X [Y ->]]]]. eexists. eexists. split; [reflexivity|]. split; [exact X|]. split; [exact Y|]. split.
  - unfold state_messages, on_state_topic. cbn [filter m_topic].
    rewrite (state_topic_ends LightState ga x X) by now left. rewrite (state_topic_ends SensorState ga y Y) by now left. reflexivity.
  - repeat constructor.
Qed.
Lemma entry_messages e l : entry_report e l -> l = [] /\ entry_group e = None \/ exists ga light binary,
  entry_group e = Some ga /\ l = [light; binary]
  /\ is_topic LightState ga (m_topic light) /\ is_topic SensorState ga (m_topic binary)
  /\ state_messages l = l /\ Forall (fun m => m_qos m = 1 /\ m_retain m = true) l.
Proof.
  destruct e as [src s|ga w]; cbn [entry_report].
  - intros R. inversion R as [ga l' H|ga l' H|ga d level l' H|s' H1 H2]; subst;
      try (right; destruct (reports_messages _ _ _ _ _ _ _ H) as [x [y Q]]; exists ga, x, y; now split).
    left. split; [reflexivity|]. destruct s as [ga d lv|ga|ga|ga|v| |ga t|vr vl|lvl ga ch]; try reflexivity; exfalso;
      [now apply (H2 ga d lv)|now apply (proj1 (H1 ga))|now apply (proj2 (H1 ga))].
  - intros R. right. destruct w; cbn [wish_report] in R; destruct (reports_messages _ _ _ _ _ _ _ R) as [x [y Q]]; exists ga, x, y; now split.
Qed.
Lemma reports_state log ls : Forall2 entry_report log ls -> state_messages (concat ls) = concat ls.
Proof.
  induction 1 as [|e l log ls R _ IH]; [reflexivity|]. cbn [concat]. unfold state_messages in *.
  rewrite filter_app, IH. f_equal. destruct (entry_messages e l R) as [[-> _]|[ga [x [y [_ [_ [_ [_ [S _]]]]]]]]]; [reflexivity|exact S].
Qed.
Lemma configs_state labels : state_messages (publish_all_lights labels) = [].
Proof.
  assert (F : forall l, Forall (fun m => on_state_topic m = false) l -> filter on_state_topic l = []).
  { induction 1 as [|m l H _ IH]; [reflexivity|]. cbn [filter]. now rewrite H. }
  apply F. unfold publish_all_lights. constructor; [reflexivity|]. apply Forall_forall. intros m M.
  apply in_flat_map in M. destruct M as [ga [_ [<-|[<-|[]]]]]; unfold on_state_topic.
  - exact (state_topic_ends LightConfig ga _ (topic_is LightConfig ga) (or_intror eq_refl)).
  - exact (state_topic_ends SensorConfig ga _ (topic_is SensorConfig ga) (or_intror eq_refl)).
Qed.

(** The invariant along a history. *)
Lemma history u now labels ops : clock_works now -> forall st st' tr, counter_ok (fst st) -> cl_class (fst st) = ClassHandler ->
  daemon_run u now labels st ops = (st', tr) ->
  exists log ls, chronicle u (cl_mqtt (fst st)) (cl_transport (fst st)) ops tr log
    /\ Forall2 entry_report log ls /\ state_messages (published (effects tr)) = concat ls
    /\ Forall2 (fun o s => wish_command (fst o) (snd o) s) (ordered log) (commanded (effects tr)).
Proof.
  intros N. induction ops as [|o ops IH]; intros st st' tr I H E; cbn [daemon_run] in E.
  - inversion E; subst. exists [], []. repeat constructor.
  - destruct (daemon_step u now labels st o) as [[st1 ev] r] eqn:S.
    destruct (daemon_run u now labels st1 ops) as [st2 tr2] eqn:T. inversion E; subst.
    cbn [effects flat_map fst]. fold (effects tr2). rewrite published_app, commanded_app.
    assert (B : bus_call o \/ o = DMqttConnected \/ exists topic payload, o = DMqttMessage topic payload).
    { destruct o; try (left; exact Logic.I); right; [left; reflexivity|right; eauto]. }
    destruct B as [B|[ -> |[topic [payload -> ]]]].
    + destruct (bus_step u now labels st o st1 ev r N I H B S) as [[Q1 [Q2 _]] [SC [I1 [H1 [M1 T1]]]]].
      destruct (IH st1 st' tr2 I1 H1 T) as [log [ls [C [F [P O]]]]]. rewrite M1, T1 in C.
      destruct (seen_reports ev SC) as [ls1 [F1 P1]].
      exists ((if cl_mqtt (fst st) then flat_map seen ev else []) ++ log), ((if cl_mqtt (fst st) then ls1 else []) ++ ls).
      assert (F2 : Forall2 entry_report (if cl_mqtt (fst st) then flat_map seen ev else []) (if cl_mqtt (fst st) then ls1 else []))
        by (destruct (cl_mqtt (fst st)); [exact F1|constructor]).
      split; [now constructor|]. split; [now apply Forall2_app|]. split.
      * unfold state_messages in *. rewrite filter_app, P, concat_app. f_equal. rewrite Q1.
        destruct (cl_mqtt (fst st)); [|reflexivity]. rewrite P1. exact (reports_state _ _ F1).
      * rewrite Q2. unfold ordered. rewrite flat_map_app. fold (ordered log).
        assert (Z : ordered (if cl_mqtt (fst st) then flat_map seen ev else []) = []).
        { destruct (cl_mqtt (fst st)); [|reflexivity]. clear. induction ev as [|e ev IH]; [reflexivity|].
          unfold ordered in *. cbn [flat_map]. rewrite flat_map_app, IH. now destruct e. }
        unfold ordered in Z. rewrite Z. exact O.
    + cbn [daemon_step] in S. unfold on_connect, mseq, mbind, memit in S. rewrite memit_all_run in S.
      assert (S1 := f_equal (fun x => fst (fst x)) S). assert (S2 := f_equal (fun x => snd (fst x)) S). cbn [fst snd] in S1, S2.
      clear S. subst st1. destruct (IH (set_mqtt (fst st) true, snd st) st' tr2 I H T) as [log [ls [C [F [P O]]]]]. exists log, ls.
      split; [constructor; exact C|]. split; [exact F|].
      assert (V : ev = [CSubscribe (map (fun ga => (set_topic ga, 2)) ga_range)] ++ map CPublish (publish_all_lights labels)) by (symmetry; exact S2).
      rewrite V, published_app, commanded_app, (proj2 (proj2 (publishes_filters _))). unfold commanded at 1 2.
      rewrite (proj1 (proj2 (publishes_filters _))). split.
      * unfold state_messages in *. rewrite !filter_app, P. fold (state_messages (publish_all_lights labels)).
        rewrite configs_state. reflexivity.
      * exact O.
    + destruct (order_dec u topic payload (cl_transport (fst st))) as [[B [ga [w O]]]|B].
      * destruct (order_step u now labels st topic payload ga w I B O) as [line [command [messages [D [W [R K]]]]]].
        rewrite S in D. assert (D1 := f_equal (fun x => fst (fst x)) D). assert (D2 := f_equal (fun x => snd (fst x)) D).
        cbn [fst snd] in D1, D2. clear D. subst st1 ev.
        assert (I1 : counter_ok (set_index (fst st) ((cl_index (fst st) + 1) mod 20))) by (apply Nat.mod_upper_bound; discriminate).
        destruct (IH (set_index (fst st) ((cl_index (fst st) + 1) mod 20), snd st) st' tr2 I1 H T) as [log [ls [C [F [P L]]]]].
        exists (Asked ga w :: log), (messages :: ls). cbn [fst] in C. split; [rewrite B; econstructor; [exact O|]|].
        { cbn [cl_mqtt cl_transport set_index] in C. rewrite B in C. exact C. }
        split; [constructor; [exact R|exact F]|]. split.
        -- unfold published at 1. cbn [flat_map app]. fold (published (map CPublish messages)).
           rewrite (proj2 (proj2 (publishes_filters _))). unfold state_messages in *. rewrite filter_app, P. cbn [concat]. f_equal.
           destruct (entry_messages (Asked ga w) messages R) as [[-> _]|[g [x [y [_ [_ [_ [_ [X _]]]]]]]]]; [reflexivity|exact X].
        -- rewrite K. constructor; [exact W|exact L].
      * destruct (ignored_step u now labels st topic payload I B) as [r' D]. rewrite S in D. inversion D; subst.
        destruct (IH st st' tr2 I H T) as [log [ls [C [F [P L]]]]]. exists log, ls.
        split; [now apply chr_ignored|]. split; [exact F|]. split; [exact P|exact L].
Qed.

(** Every message on a state topic belongs to the chronicle, and the other way
    round, in order. *)
Theorem C61_reports : forall u now labels timesync no_clock ops st tr, clock_works now ->
  daemon_run u now labels (new_daemon timesync no_clock) ops = (st, tr) ->
  exists log ls, chronicle u false false ops tr log
    /\ Forall2 entry_report log ls /\ state_messages (published (effects tr)) = concat ls.
Proof.
  intros u now labels timesync no_clock ops st tr N E.
  destruct (history u now labels ops N (new_daemon timesync no_clock) st tr) as [log [ls [A [B [C _]]]]]; auto.
  { unfold counter_ok. cbn. lia. }
  exists log, ls. auto.
Qed.
Print Assumptions C61_reports.
(** There is only one chronicle. *)
Lemma orders_fun u topic payload ga w ga' w' : orders u topic payload ga w -> orders u topic payload ga' w' -> ga = ga' /\ w = w'.
Proof.
  intros [l [on [b [t [[A _] [-> [B W]]]]]]] [l' [on' [b' [t' [[A' _] [E [B' W']]]]]]]. inversion E; subst l'.
  split; [exact (addresses_fun u topic ga ga' A A')|].
  destruct (C41_unambiguous u l on b t on' b' t' B B') as [<- [<- <-]].
  inversion W; subst; inversion W'; subst; try reflexivity; lia.
Qed.
Theorem C61_one_chronicle : forall u mqtt bus ops tr log log',
  chronicle u mqtt bus ops tr log -> chronicle u mqtt bus ops tr log' -> log = log'.
Proof.
  intros u mqtt bus ops tr log log' C. revert log'.
  induction C as [m b|m b o ops ev r tr log B C IH|m b ops ev r tr log C IH|m topic payload ga w ops ev r tr log O C IH
                 |m b topic payload ops ev r tr log O C IH]; intros log' D; inversion D; subst; try contradiction; try reflexivity.
  - f_equal. now apply IH.
  - now apply IH.
  - match goal with Q : orders _ _ _ _ _ |- _ => destruct (orders_fun _ _ _ _ _ _ _ O Q) as [-> ->] end. f_equal. now apply IH.
  - exfalso. match goal with Q : true = true -> _ |- _ => exact (Q eq_refl _ _ O) end.
  - exfalso. match goal with Q : orders _ _ _ _ _ |- _ => exact (O eq_refl _ _ Q) end.
  - now apply IH.
Qed.
Print Assumptions C61_one_chronicle.

Lemma filter_split {A} (f : A -> bool) l : forall x m y, filter f l = x ++ m :: y ->
  exists a b, l = a ++ m :: b /\ filter f b = y.
Proof.
  induction l as [|h l IH]; intros x m y E; [destruct x; discriminate E|]. cbn [filter] in E.
  destruct (f h) eqn:F.
  - destruct x as [|h' x]; cbn [app] in E; inversion E; subst.
    + exists [], l. now split.
    + destruct (IH _ _ _ H1) as [a [b [-> B]]]. exists (h' :: a), b. now split.
  - destruct (IH _ _ _ E) as [a [b [-> B]]]. exists (h :: a), b. now split.
Qed.
Lemma state_retained l x m y : state_messages l = x ++ m :: y -> on_state_topic m = true ->
  (forall m', In m' y -> m_topic m' <> m_topic m) -> retained l m.
Proof.
  intros E S N. destruct (filter_split _ _ _ _ _ E) as [a [b [-> B]]]. exists a, b. split; [reflexivity|].
  intros m' I Q. apply (N m'); [|exact Q]. rewrite <- B. apply filter_In. split; [exact I|].
  unfold on_state_topic in *. now rewrite Q.
Qed.
Lemma entries_topics log ls m : Forall2 entry_report log ls -> In m (concat ls) ->
  exists e ga, In e log /\ entry_group e = Some ga
    /\ (is_topic LightState ga (m_topic m) \/ is_topic SensorState ga (m_topic m)).
Proof.
  induction 1 as [|e l log ls R _ IH]; intros I; [destruct I|]. cbn [concat] in I. apply in_app_iff in I. destruct I as [I|I].
  - destruct (entry_messages e l R) as [[-> _]|[ga [x [y [G [-> [X [Y _]]]]]]]]; [destruct I|].
    exists e, ga. split; [now left|]. split; [exact G|]. destruct I as [<-|[<-|[]]]; auto.
  - destruct (IH I) as [e' [ga [A B]]]. exists e', ga. split; [now right|exact B].
Qed.

(** What the broker keeps for a light and its sensor is the report of the latest
    entry of the group, and there is nothing if there is no entry. *)
Theorem C61_retained : forall u now labels timesync no_clock ops st tr log, clock_works now ->
  daemon_run u now labels (new_daemon timesync no_clock) ops = (st, tr) ->
  chronicle u false false ops tr log ->
  forall ga,
    (forall e, latest log ga e -> exists light binary, entry_report e [light; binary]
       /\ is_topic LightState ga (m_topic light) /\ retained (published (effects tr)) light
       /\ is_topic SensorState ga (m_topic binary) /\ retained (published (effects tr)) binary)
    /\ ((forall e, In e log -> entry_group e <> Some ga) -> forall m, In m (published (effects tr)) ->
        ~ is_topic LightState ga (m_topic m) /\ ~ is_topic SensorState ga (m_topic m)).
Proof.
  intros u now labels timesync no_clock ops st tr log N E C ga.
  destruct (C61_reports u now labels timesync no_clock ops st tr N E) as [log' [ls [C' [F P]]]].
  rewrite <- (C61_one_chronicle _ _ _ _ _ _ _ C C') in F. clear C'.
  split.
  - intros e [a [b [-> [G L]]]]. apply Forall2_app_inv_l in F. destruct F as [la [lb [FA [FB ->]]]].
    inversion FB as [|e' l b' lb' R FB' X Y]; subst.
    destruct (entry_messages e l R) as [[_ Q]|[g [light [binary [Q [-> [TL [TS _]]]]]]]]; [congruence|].
    rewrite G in Q. inversion Q; subst g. exists light, binary. split; [exact R|].
    rewrite concat_app in P. cbn [concat app] in P.
    assert (O : forall m', In m' (concat lb') -> ~ is_topic LightState ga (m_topic m') /\ ~ is_topic SensorState ga (m_topic m')).
    { intros m' I. destruct (entries_topics _ _ _ FB' I) as [e2 [g2 [I2 [G2 T2]]]].
      assert (NE : g2 <> ga) by (intros ->; exact (L e2 I2 G2)).
      split; intros T3; destruct T2 as [T2|T2]; destruct (topic_distinct _ _ _ _ _ T2 T3); congruence. }
    assert (ST : forall k, k = LightState \/ k = SensorState -> forall m, is_topic k ga (m_topic m) -> on_state_topic m = true).
    { intros k [->| ->] m T; unfold on_state_topic;
        [rewrite (state_topic_ends LightState ga) by auto|rewrite (state_topic_ends SensorState ga) by auto]; reflexivity. }
    split; [exact TL|]. split; [|split; [exact TS|]].
    + eapply state_retained; [exact P|eapply ST; [|exact TL]; auto|]. intros m' [<-|I] Q2.
      * rewrite Q2 in TS. destruct (topic_distinct _ _ _ _ _ TL TS). discriminate.
      * destruct (O m' I) as [O1 _]. rewrite Q2 in O1. auto.
    + eapply (state_retained _ (concat la ++ [light])); [rewrite P, <- app_assoc; reflexivity|eapply ST; [|exact TS]; auto|].
      intros m' I Q2. destruct (O m' I) as [_ O1]. rewrite Q2 in O1. auto.
  - intros NE m I. 
    assert (K : forall k, k = LightState \/ k = SensorState -> ~ is_topic k ga (m_topic m)).
    { intros k HK T. assert (S : on_state_topic m = true).
      { unfold on_state_topic. rewrite (state_topic_ends k ga) by (try exact T; destruct HK; subst; auto).
        destruct HK; subst; reflexivity. }
      assert (J : In m (concat ls)) by (rewrite <- P; apply filter_In; auto).
      destruct (entries_topics _ _ _ F J) as [e [g [Ie [Ge Te]]]].
      assert (g = ga) by (destruct Te as [Te|Te]; destruct (topic_distinct _ _ _ _ _ Te T); auto). subst g.
      exact (NE e Ie Ge). }
    split; apply K; auto.
Qed.
Print Assumptions C61_retained.

(** In what is retained, the sensor is ON exactly if the brightness is positive. *)
Definition brightness_of (m : message) (v : Z) : Prop :=
  exists l, m_payload m = PJson (JObj l) /\ has l (txt "brightness") (JNum (PInt v)).
Lemma retained_fun l m m' : retained l m -> retained l m' -> m_topic m = m_topic m' -> m = m'.
Proof.
  intros [a [b [-> A]]] [a' [b' [E B]]] T. revert a' E. induction a as [|x a IH]; intros a' E.
  - destruct a' as [|x' a']; cbn [app] in E; inversion E; [reflexivity|]. subst.
    exfalso. apply (A m'); [apply in_app_iff; right; now left|now symmetry].
  - destruct a' as [|x' a']; cbn [app] in E; inversion E; subst; [|now apply IH with a'].
    exfalso. apply (B m); [apply in_app_iff; right; now left|exact T].
Qed.
Theorem C61_agree : forall u now labels timesync no_clock ops st tr ga light, clock_works now ->
  daemon_run u now labels (new_daemon timesync no_clock) ops = (st, tr) ->
  is_topic LightState ga (m_topic light) -> retained (published (effects tr)) light ->
  exists binary v, is_topic SensorState ga (m_topic binary) /\ retained (published (effects tr)) binary
    /\ brightness_of light v /\ m_payload binary = PRaw (txt (if 0 <? v then "ON" else "OFF")).
Proof.
  intros u now labels timesync no_clock ops st tr ga light N E T R.
  destruct (C61_reports u now labels timesync no_clock ops st tr N E) as [log [ls [C _]]].
  destruct (C61_retained u now labels timesync no_clock ops st tr log N E C ga) as [A B].
  assert (X : (exists e, latest log ga e) \/ forall e, In e log -> entry_group e <> Some ga).
  { clear. induction log as [|e log [[e' [a [b [-> [G L]]]]]|IH]]; [right; intros e []| |].
    - left. exists e', (e :: a), b. auto.
    - assert (D : entry_group e = Some ga \/ entry_group e <> Some ga).
      { destruct (entry_group e) as [g|]; [|right; discriminate]. destruct (Z.eq_dec g ga); [left; congruence|right; congruence]. }
      destruct D as [D|D]; [left; exists e, [], log; auto|right; intros x [<-|I]; auto]. }
  destruct X as [[e L]|X].
  - destruct (A e L) as [l2 [binary [RE [T2 [R2 [T3 R3]]]]]].
    assert (l2 = light).
    { apply (retained_fun _ _ _ R2 R). rewrite (is_topic_function _ _ _ T2), (is_topic_function _ _ _ T). reflexivity. }
    subst l2. exists binary.
    assert (K : forall src on b t s, reports ga src on b t s [light; binary] -> forall v, b = PInt v -> s = (0 <? v) ->
      exists v, is_topic SensorState ga (m_topic binary) /\ retained (published (effects tr)) binary
        /\ brightness_of light v /\ m_payload binary = PRaw (txt (if 0 <? v then "ON" else "OFF"))).
    { intros src on b t s [x [y [_ [_ Q]]]] v -> ->. inversion Q; subst. exists v. split; [exact T3|]. split; [exact R3|].
      split; [|reflexivity]. eexists. split; [reflexivity|]. apply jlookup_has. reflexivity. }
    destruct L as [_ [_ [_ [G _]]]].
    destruct e as [src s|g w]; cbn [entry_report entry_group] in *.
    + inversion RE as [g l' H|g l' H|g d level l' H|s' H1 H2]; subst; inversion G; subst;
        eapply K; try exact H; reflexivity.
    + inversion G; subst g. destruct w; cbn [wish_report] in RE; (eapply K; [exact RE|reflexivity|reflexivity]).
  - exfalso. destruct R as [a [b [Q _]]]. destruct (B X light) as [O _]; [|exact (O T)].
    rewrite Q. apply in_app_iff. right. now left.
Qed.
Print Assumptions C61_agree.

(** ** C62 *)

Definition own_topic (m : message) : Prop :=
  m_qos m = 1 /\ m_retain m = true
  /\ (m_topic m = txt "homeassistant/binary_sensor/cbus_cmqttd/config"
      \/ exists k ga, k <> LightSet /\ group_address ga /\ is_topic k ga (m_topic m)).
Lemma entry_own e l ga : entry_report e l -> entry_group e = Some ga -> group_address ga -> Forall own_topic l.
Proof.
  intros R G A. destruct (entry_messages e l R) as [[_ Q]|[g [x [y [Q [-> [X [Y [_ F]]]]]]]]]; [congruence|].
  rewrite G in Q. inversion Q; subst g. apply Forall_cons_iff in F. destruct F as [[F1 F2] F].
  apply Forall_cons_iff in F. destruct F as [[F3 F4] _].
  constructor; [|constructor; [|constructor]]; (split; [assumption|split; [assumption|right]]);
    [exists LightState, ga|exists SensorState, ga]; (split; [discriminate|auto]).
Qed.
Lemma step_own u now labels st o st' ev r : clock_works now -> counter_ok (fst st) -> cl_class (fst st) = ClassHandler ->
  daemon_step u now labels st o = (st', ev, r) ->
  Forall own_topic (published ev) /\ counter_ok (fst st') /\ cl_class (fst st') = ClassHandler.
Proof.
  intros N I H S.
  assert (B : bus_call o \/ o = DMqttConnected \/ exists topic payload, o = DMqttMessage topic payload).
  { destruct o; try (left; exact Logic.I); right; [left; reflexivity|right; eauto]. }
  destruct B as [B|[ -> |[topic [payload -> ]]]].
  - destruct (bus_step u now labels st o st' ev r N I H B S) as [[Q1 _] [SC [I1 [H1 _]]]]. split; [|auto]. rewrite Q1.
    destruct (cl_mqtt (fst st)); [|constructor]. clear -SC. induction SC as [|e ev S _ IH]; [constructor|].
    cbn [flat_map]. apply Forall_app. split; [|exact IH].
    destruct e as [b|w| |co su|src ga d lv|src ga|src ga|src ga|src|src v|m|tp| |]; cbn [told]; try exact (Forall_nil _).
    + apply entry_own with (e := Seen src (LightRamp ga d lv)) (ga := ga); [|reflexivity|exact (proj1 (proj1 S))].
      apply (relayed_report src (LightRamp ga d lv)). exact (proj1 S).
    + apply entry_own with (e := Seen src (LightOn ga)) (ga := ga); [|reflexivity|exact (proj1 S)].
      constructor. apply reports_on.
    + apply entry_own with (e := Seen src (LightOff ga)) (ga := ga); [|reflexivity|exact (proj1 S)].
      constructor. apply reports_off.
  - cbn [daemon_step] in S. destruct (C51_connect labels (fst st)) as [topics [ms [E [_ [_ [_ [M _]]]]]]]. rewrite E in S.
    assert (S1 := f_equal (fun x => fst (fst x)) S). assert (S2 := f_equal (fun x => snd (fst x)) S). cbn [fst snd] in S1, S2.
    clear S E. subst st' ev. split; [|split; [exact I|exact H]].
    unfold published. cbn [flat_map app]. fold (published (map CPublish ms)). rewrite (proj2 (proj2 (publishes_filters ms))).
    apply Forall_forall. intros m J. destruct (M m J) as [[T [Q [R _]]]|[ga [G [[T [Q [R _]]]|[T [Q [R _]]]]]]];
      (split; [exact Q|split; [exact R|]]); [now left|right..]; [exists LightConfig, ga|exists SensorConfig, ga]; (split; [discriminate|auto]).
  - destruct (order_dec u topic payload (cl_transport (fst st))) as [[B [ga [w O]]]|B].
    + destruct (order_step u now labels st topic payload ga w I B O) as [line [command [messages [D [_ [R _]]]]]].
      rewrite S in D. assert (D1 := f_equal (fun x => fst (fst x)) D). assert (D2 := f_equal (fun x => snd (fst x)) D).
      cbn [fst snd] in D1, D2. clear D. subst st' ev. split; [|split; [apply Nat.mod_upper_bound; discriminate|exact H]].
      unfold published. cbn [flat_map app]. fold (published (map CPublish messages)). rewrite (proj2 (proj2 (publishes_filters messages))).
      apply entry_own with (e := Asked ga w) (ga := ga); [exact R|reflexivity|].
      destruct O as [l [on [b [t [[_ [G _]] _]]]]]. exact G.
    + destruct (ignored_step u now labels st topic payload I B) as [r' D]. rewrite S in D. inversion D; subst.
      split; [constructor|auto].
Qed.
Lemma run_own u now labels ops : clock_works now -> forall st st' tr, counter_ok (fst st) -> cl_class (fst st) = ClassHandler ->
  daemon_run u now labels st ops = (st', tr) -> Forall own_topic (published (effects tr)).
Proof.
  intros N. induction ops as [|o ops IH]; intros st st' tr I H E; cbn [daemon_run] in E; [inversion E; constructor|].
  destruct (daemon_step u now labels st o) as [[st1 ev] r] eqn:S.
  destruct (daemon_run u now labels st1 ops) as [st2 tr2] eqn:T. inversion E; subst.
  cbn [effects flat_map fst]. fold (effects tr2). rewrite published_app.
  destruct (step_own u now labels st o st1 ev r N I H S) as [A [B C]]. apply Forall_app. split; [exact A|].
  eapply IH; eassumption.
Qed.

(** Everything published is retained, at QoS 1, on one of the daemon's own 1025
    topics, and none of them is a command topic. *)
Theorem C62_published : forall u now labels timesync no_clock ops st tr m, clock_works now ->
  daemon_run u now labels (new_daemon timesync no_clock) ops = (st, tr) ->
  In m (published (effects tr)) ->
  m_qos m = 1 /\ m_retain m = true
  /\ (m_topic m = txt "homeassistant/binary_sensor/cbus_cmqttd/config"
      \/ exists k ga, k <> LightSet /\ group_address ga /\ is_topic k ga (m_topic m)).
Proof.
  intros u now labels timesync no_clock ops st tr m N E.
  assert (F : Forall own_topic (published (effects tr))).
  { eapply run_own; [exact N| | |exact E]; [unfold counter_ok; cbn; lia|reflexivity]. }
  rewrite Forall_forall in F. apply F.
Qed.
Print Assumptions C62_published.
Theorem C62_no_loop : forall u now labels timesync no_clock ops st tr m, clock_works now ->
  daemon_run u now labels (new_daemon timesync no_clock) ops = (st, tr) ->
  In m (published (effects tr)) ->
  forall u' payload c, on_message u' (m_topic m) payload c = (c, [], Ok tt).
Proof.
  intros u now labels timesync no_clock ops st tr m N E I u' payload c. apply C42_ignored. left. intros ga.
  destruct (C62_published u now labels timesync no_clock ops st tr m N E I) as [_ [_ [T|[k [ga' [K [_ T]]]]]]].
  - rewrite T. intros [[s [rest [Q _]]] _]. vm_compute in Q. discriminate Q.
  - apply (proj2 (C51_command_topics u' k ga' _ T) K).
Qed.
Print Assumptions C62_no_loop.

(** The state topic the daemon announces for itself, "~/state", stays empty. *)
Theorem C62_own_state : forall u now labels timesync no_clock ops st tr m, clock_works now ->
  daemon_run u now labels (new_daemon timesync no_clock) ops = (st, tr) ->
  In m (published (effects tr)) ->
  m_topic m <> txt "homeassistant/binary_sensor/cbus_cmqttd" ++ txt "/state".
Proof.
  intros u now labels timesync no_clock ops st tr m N E I T.
  destruct (C62_published u now labels timesync no_clock ops st tr m N E I) as [_ [_ [P|[k [ga [_ [_ P]]]]]]];
    [rewrite T in P; discriminate P|].
  rewrite T in P. destruct P as [d [D P]].
  change (txt "homeassistant/binary_sensor/cbus_cmqttd" ++ txt "/state")
    with (txt "homeassistant/binary_sensor/cbus_" ++ txt "cmqttd/state") in P.
  assert (H : exists c t, d = c :: t /\ c <> 99).
  { destruct D as [[_ X]|[_ [t [-> _]]]]; [|exists 45, t; split; [reflexivity|lia]].
    destruct X as [X [F _]]. destruct d as [|c t]; [congruence|]. exists c, t. split; [reflexivity|].
    apply Forall_cons_iff in F. destruct F as [F _]. unfold digit in F. lia. }
  destruct H as [c [t [-> C]]]. destruct k; cbn in P; inversion P; congruence.
Qed.
Print Assumptions C62_own_state.

(** The subscriptions are made on every connection to the broker, and only
    then; they are the 256 command topics at QoS 2. *)
Theorem C62_subscribed : forall u now labels timesync no_clock ops st tr, clock_works now ->
  daemon_run u now labels (new_daemon timesync no_clock) ops = (st, tr) ->
  length (subscriptions (effects tr)) = broker_connections ops
  /\ Forall (fun l => Forall2 (fun t ga => is_topic LightSet ga (fst t) /\ snd t = 2) l (map Z.of_nat (seq 0 256)))
       (subscriptions (effects tr)).
Proof.
  intros u now labels timesync no_clock ops st tr N E.
  assert (I : counter_ok (fst (new_daemon timesync no_clock))) by (unfold counter_ok; cbn; lia).
  assert (H : cl_class (fst (new_daemon timesync no_clock)) = ClassHandler) by reflexivity.
  revert I H E. generalize (new_daemon timesync no_clock). intros st0 I H E. revert st0 tr I H E.
  induction ops as [|o ops IH]; intros st0 tr I H E; cbn [daemon_run] in E; [inversion E; split; [reflexivity|constructor]|].
  destruct (daemon_step u now labels st0 o) as [[st1 ev] r] eqn:S.
  destruct (daemon_run u now labels st1 ops) as [st2 tr2] eqn:T. inversion E; subst.
  destruct (step_own u now labels st0 o st1 ev r N I H S) as [_ [I1 H1]].
  destruct (IH st1 tr2 I1 H1 T) as [A B].
  cbn [effects flat_map fst]. fold (effects tr2). rewrite subscriptions_app, app_length, A.
  assert (Q : bus_call o \/ o = DMqttConnected \/ exists topic payload, o = DMqttMessage topic payload).
  { destruct o; try (left; exact Logic.I); right; [left; reflexivity|right; eauto]. }
  destruct Q as [Q|[ -> |[topic [payload -> ]]]].
  - destruct (bus_step u now labels st0 o st1 ev r N I H Q S) as [[_ [_ X]] _]. rewrite X. split; [|exact B].
    destruct o; try contradiction; reflexivity.
  - cbn [daemon_step] in S. destruct (C51_connect labels (fst st0)) as [topics [ms [F [M _]]]]. rewrite F in S.
    assert (S2 := f_equal (fun x => snd (fst x)) S). cbn [fst snd] in S2. clear S F.
    rewrite <- S2. change (CSubscribe topics :: map CPublish ms) with ([CSubscribe topics] ++ map CPublish ms).
    rewrite subscriptions_app, subscriptions_publishes. cbn [subscriptions flat_map app length].
    split; [reflexivity|]. constructor; [exact M|exact B].
  - assert (X : subscriptions ev = []).
    { destruct (order_dec u topic payload (cl_transport (fst st0))) as [[K [ga [w O]]]|K].
      - destruct (order_step u now labels st0 topic payload ga w I K O) as [line [command [messages [D _]]]].
        rewrite S in D. assert (D2 := f_equal (fun x => snd (fst x)) D). cbn [fst snd] in D2. rewrite D2.
        change (CWrite line :: map CPublish messages) with ([CWrite line] ++ map CPublish messages).
        rewrite subscriptions_app, subscriptions_publishes. reflexivity.
      - destruct (ignored_step u now labels st0 topic payload I K) as [r' D]. rewrite S in D. inversion D; reflexivity. }
    rewrite X. split; [reflexivity|exact B].
Qed.
Print Assumptions C62_subscribed.

(** ** C63 *)

(** The lighting commands written to the C-Bus are exactly the orders received
    over MQTT, in order: nothing seen on the C-Bus and nothing else leads to
    one. *)
Theorem C63_orders : forall u now labels timesync no_clock ops st tr log, clock_works now ->
  daemon_run u now labels (new_daemon timesync no_clock) ops = (st, tr) ->
  chronicle u false false ops tr log ->
  Forall2 (fun o s => wish_command (fst o) (snd o) s) (ordered log) (commanded (effects tr)).
Proof.
  intros u now labels timesync no_clock ops st tr log N E C.
  destruct (history u now labels ops N (new_daemon timesync no_clock) st tr) as [log' [ls [C' [_ [_ O]]]]]; auto.
  { unfold counter_ok. cbn. lia. }
  rewrite (C61_one_chronicle _ _ _ _ _ _ _ C C'). exact O.
Qed.
Print Assumptions C63_orders.

(** A history: connected to both sides, a switch is pressed, an MQTT client asks
    for a ramp, something is not a command, the C-Bus goes away. *)
Definition day : list dop :=
  [DConnected; DData (txt "0505380079012A028098" ++ [13; 10]); DMqttConnected; DData (txt "05053800790144");
   DData ([13; 10] ++ txt "0505DF00110303" ++ [13; 10]);
   DMqttMessage (txt "homeassistant/light/cbus_2/set") (body (txt "on") [(txt "brightness", JNum (PInt 0))]);
   DMqttMessage (txt "homeassistant/light/cbus_2/set") (body (txt "ON") [(txt "brightness", JNull)]);
   DTimesync; DLost; DMqttMessage (txt "homeassistant/light/cbus_1/set") (body (txt "off") [])].
Example C61_case :
  let tr := snd (daemon_run plain_unicode noon [] (new_daemon 300 false) day) in
  state_messages (published (effects tr)) = relay_on (Some 5) 1 ++ relay_ramp None 2 0 (PInt 0)
  /\ length (published (effects tr)) = 517%nat.
Proof. vm_compute. split; reflexivity. Qed.
Example C62_case : let tr := snd (daemon_run plain_unicode noon [] (new_daemon 300 false) day) in
  map (@length _) (subscriptions (effects tr)) = [256%nat] /\ broker_connections day = 1%nat.
Proof. vm_compute. split; reflexivity. Qed.
Example C63_case : let tr := snd (daemon_run plain_unicode noon [] (new_daemon 300 false) day) in
  commanded (effects tr) = [LightRamp 2 0 (PInt 0)] /\ length (writes (effects tr)) = 9%nat
  /\ map snd tr = [Ok tt; Ok tt; Ok tt; Ok tt; Ok tt; Ok tt; Raise TypeError; Ok tt; Ok tt; Raise OSError].
Proof. vm_compute. repeat split. Qed.
