(** C79 and C80: the bytes of the MQTT messages. *)
From Coq Require Import String List ZArith QArith Bool Lia.
From Verif Require Import Py Common Sal Packet Text Mqtt Buffered Client Cmqttd Daemon Json Base Spec Spec_client Spec_sound
  Spec_mqtt Spec_daemon Spec_json Client_dispatch Client_facts Mqtt_facts Json_facts Utf_facts Prop_client Prop_sound Prop_mqtt Prop_discovery Prop_daemon.
Import ListNotations.
Open Scope Z_scope.
Notation length := List.length.

(** ** C79 *)

Lemma loads_states lib d b v : is_bytes b -> (loads lib d b = Got v <-> states lib d b v).
Proof.
  intros B. unfold loads. split.
  - destruct (decoded b) as [s'|] eqn:D; [|discriminate]. intros E. apply decode_document in E.
    apply (decoded_encoded b s' B (document_head _ _ _ _ E)) in D. destruct D as (e & s & N & U). exists e, s, s'. auto.
  - intros (e & s & s' & N & U & D). rewrite (proj2 (decoded_encoded b s' B (document_head _ _ _ _ D))); [|eauto].
    apply decode_document. exact D.
Qed.

(** The parser reads exactly the JSON documents, and nothing else. *)
Theorem C79_reads : forall lib d b v, is_bytes b -> (loads lib d b = Got v <-> states lib d b v).
Proof. exact loads_states. Qed.
Print Assumptions C79_reads.
(** What bytes stand for is unambiguous. *)
Theorem C79_unambiguous : forall lib d b v v', is_bytes b -> states lib d b v -> states lib d b v' -> v = v'.
Proof. intros lib d b v v' N A B. apply loads_states in A, B; auto. congruence. Qed.
Print Assumptions C79_unambiguous.

(** In the dict of an object the value of a field is the last one given for it. *)
Lemma last_value_app k v a b : last_value k v (a ++ b) = last_value k (last_value k v a) b.
Proof. apply fold_left_app. Qed.
Lemma last_value_none k v l : ~ In k (map fst l) -> last_value k v l = v.
Proof.
  induction l as [|[a w] l IH]; intros N; [reflexivity|]. unfold last_value in *. cbn [fold_left fst snd map In] in *.
  destruct (list_eq_dec Z.eq_dec a k) as [->|_]; [exfalso; apply N; now left|]. apply IH. intros I. apply N. now right.
Qed.
Lemma last_value_last k v w a b : ~ In k (map fst b) -> last_value k v (a ++ (k, w) :: b) = w.
Proof.
  intros B. rewrite last_value_app. change ((k, w) :: b) with ([(k, w)] ++ b). rewrite last_value_app.
  unfold last_value at 2. cbn [fold_left fst snd]. destruct (list_eq_dec Z.eq_dec k k); [|contradiction]. now apply last_value_none.
Qed.
Lemma dict_of_in l : NoDup (map fst (dict_of l)) /\ (forall k, In k (map fst (dict_of l)) <-> In k (map fst l))
  /\ forall k v, In (k, v) (dict_of l) <-> exists a b, l = a ++ (k, v) :: b /\ ~ In k (map fst b).
Proof.
  induction l as [|[k0 v0] l [N [K IH]]]; [split; [constructor|split]|].
  - intros k. reflexivity.
  - intros k v. split; [intros []|intros [[|] [b [E _]]]; discriminate E].
  - cbn [dict_of]. unfold without.
    assert (IW : forall e, In e (filter (fun e : text * json => if list_eq_dec Z.eq_dec (fst e) k0 then false else true) (dict_of l))
      <-> In e (dict_of l) /\ fst e <> k0).
    { intros e. rewrite filter_In. destruct (list_eq_dec Z.eq_dec (fst e) k0); intuition discriminate. }
    assert (KW : forall k, In k (map fst (filter (fun e : text * json => if list_eq_dec Z.eq_dec (fst e) k0 then false else true) (dict_of l)))
      <-> In k (map fst l) /\ k <> k0).
    { intros k. rewrite <- K, !in_map_iff. split.
      - intros [e [<- I]]. apply IW in I. destruct I as [I1 I2]. split; [exists e; auto|exact I2].
      - intros [[e [<- I]] D]. exists e. split; [reflexivity|]. apply IW. auto. }
    split; [|split].
    + cbn [map fst]. constructor; [intros I; apply KW in I; now destruct I|].
      clear -N. induction (dict_of l) as [|[a w] d IHd]; [constructor|]. cbn [map fst] in N. inversion N as [|x y N1 N2]; subst.
      cbn [filter fst]. destruct (list_eq_dec Z.eq_dec a k0); [now apply IHd|]. cbn [map fst]. constructor; [|now apply IHd].
      intros I. apply N1. apply in_map_iff in I. destruct I as [e [<- I]]. apply filter_In in I. apply in_map, I.
    + intros k. cbn [map fst In]. rewrite KW. destruct (list_eq_dec Z.eq_dec k0 k); intuition congruence.
    + intros k v. cbn [In]. rewrite IW. cbn [fst]. rewrite IH. split.
      * intros [E|[[a [b [-> B]]] D]]; [|exists ((k0, v0) :: a), b; auto]. inversion E; subst.
        destruct (in_dec (list_eq_dec Z.eq_dec) k (map fst l)) as [I|I].
        -- rewrite <- K in I. apply in_map_iff in I. destruct I as [[k' w] [F I]]. cbn [fst] in F. subst k'. apply IH in I.
           destruct I as [a [b [-> B]]]. exists ((k, v0) :: a), b. split; [|exact B].
           rewrite (last_value_last k v0 w a b B). reflexivity.
        -- exists [], l. rewrite (last_value_none k v0 l I). auto.
      * intros [[|e a] [b [E B]]]; cbn [app] in E; inversion E; subst.
        -- left. now rewrite (last_value_none k v b B).
        -- destruct (list_eq_dec Z.eq_dec k k0) as [->|D]; [|right; split; [exists a, b; auto|exact D]]. left.
           now rewrite (last_value_last k0 v0 v a b B).
Qed.
Theorem C79_repeated : forall l k v,
  has (dict_of l) k v <-> exists a b, l = a ++ (k, v) :: b /\ ~ In k (map fst b).
Proof.
  intros l k v. destruct (dict_of_in l) as [N [_ I]]. rewrite <- I. split.
  - intros [a [b [-> _]]]. apply in_app_iff. right. now left.
  - intros J. apply in_split in J. destruct J as [a [b E]]. exists a, b. split; [exact E|]. intros v' Q.
    rewrite E, map_app in N. cbn [map fst] in N. apply NoDup_remove_2 in N. apply N, in_app_iff. left. exact (in_map fst _ _ Q).
Qed.
Print Assumptions C79_repeated.

(** A message with a command payload is carried out, whatever its spelling:
    white space, escapes, order of the fields, repeated fields, fields that are
    not known. *)
Theorem C79_command : forall u lib d topic ga b l on br t w c,
  commands u topic ga -> is_bytes b -> states lib d b (JObj l) -> asks u l on br t -> wishes on br t w ->
  cl_transport c = true -> counter_ok c ->
  exists line code command messages,
    on_payload u lib d topic b c
      = (set_index c ((cl_index c + 1) mod 20), CWrite line :: map CPublish messages, Ok tt)
    /\ code = code_at (cl_index c) 0 /\ command_line line code
    /\ wish_command ga w command
    /\ (forall strict rest, decode_packet (line ++ rest) true strict false
          = ([], Ok (Some (PktPM (mkHdr true 0 None (Some code)) (Some 0x38) [command]), length line)))
    /\ wish_report ga w messages.
Proof.
  intros u lib d topic ga b l on br t w c H N S A W T I. unfold on_payload.
  rewrite (proj2 (loads_states lib d b (JObj l) N) S). exact (C41_command u topic ga l on br t w c H A W T I).
Qed.
Print Assumptions C79_command.
(** Anything else is dropped without a trace. *)
Theorem C79_ignored : forall u lib d topic b c, is_bytes b -> (forall v, ~ states lib d b v) ->
  on_payload u lib d topic b c = (c, [], Ok tt).
Proof.
  intros u lib d topic b c N F. unfold on_payload. destruct (loads lib d b) as [v| | |] eqn:E;
    [|apply C42_ignored; auto..]. apply loads_states in E; [|exact N]. destruct (F v E).
Qed.
Print Assumptions C79_ignored.
(** Whatever bytes arrive, an effect means that they were a command. *)
Theorem C79_only : forall u lib d topic b c c' ev r, counter_ok c -> is_bytes b ->
  on_payload u lib d topic b c = (c', ev, r) -> ev <> [] \/ c' <> c ->
  exists ga l on br t w, commands u topic ga /\ states lib d b (JObj l) /\ asks u l on br t /\ wishes on br t w
    /\ cl_transport c = true /\ r = Ok tt.
Proof.
  intros u lib d topic b c c' ev r I N E X. unfold on_payload in E.
  destruct (C42_only u topic _ c c' ev r I E X) as (ga & l & on & br & t & w & A & B & C & D & T & R).
  exists ga, l, on, br, t, w. split; [exact A|]. split; [|auto].
  apply loads_states; [exact N|]. destruct (loads lib d b); congruence.
Qed.
Print Assumptions C79_only.

(** ** C80 *)

Lemma printable_whole s : printable s -> whole s.
Proof.
  intros P. split.
  - eapply Forall_impl; [|exact P]. cbv beta. lia.
  - intros a h l b -> H. apply Forall_app in P. destruct P as (_ & P). inversion P as [|? ? Q _]; subst. unfold high in H. lia.
Qed.
Lemma whole_text s : forallb (fun c => (32 <=? c) && (c <=? 126)) s = true -> whole s.
Proof. intros H. apply printable_whole, printable_test, H. Qed.
Lemma whole_app s t : whole s -> (forall c, hd 0 t = c -> ~ low c) -> whole t -> whole (s ++ t).
Proof.
  intros (A & B) H (C & D). split; [apply Forall_app; auto|].
  intros a h l b E Hi. revert s E A B. induction a as [|x a IH]; intros s E A B.
  - destruct s as [|x [|y s]]; cbn [app] in E.
    + apply (D [] h l b E Hi).
    + inversion E; subst. apply H. reflexivity.
    + inversion E; subst. apply (B [] h l s eq_refl Hi).
  - destruct s as [|y s]; cbn [app] in E; [apply (D (x :: a) h l b E Hi)|]. inversion E; subst.
    apply (IH s); [assumption|inversion A; assumption|]. intros a' h' l' b' ->. apply (B (x :: a') h' l' b'). reflexivity.
Qed.
Lemma whole_printable s t : whole s -> printable t -> whole (s ++ t).
Proof.
  intros W P. apply whole_app; [exact W| |apply printable_whole, P]. intros c <-.
  destruct P; cbn; unfold low; lia.
Qed.

Lemma printable_bytes s : printable s -> is_bytes s.
Proof. intros Q. unfold is_bytes. eapply Forall_impl; [|exact Q]. unfold byte. cbv beta. lia. Qed.
Lemma printable_narrow s : printable s -> narrow s.
Proof.
  intros Q. assert (R : forall c, In c s -> 32 <= c <= 126) by (apply Forall_forall; exact Q).
  split; [|split; [|split]].
  - now apply printable_bytes.
  - intros Z. specialize (R 0 Z). lia.
  - intros r E0. specialize (R 0xfe). rewrite E0 in R. specialize (R (or_introl eq_refl)). lia.
  - intros r E0. specialize (R 0xff). rewrite E0 in R. specialize (R (or_introl eq_refl)). lia.
Qed.
(** A message of the daemon. *)
Definition proper (m : message) : Prop :=
  match m_payload m with PJson j => publishable 4 j | PRaw s => s = txt "ON" \/ s = txt "OFF" end.

Ltac keys := repeat constructor; cbn; intuition discriminate.
Ltac each := intros ? ?; cbn [In]; intros I; repeat (destruct I as [I|I]; [inversion I; subst; clear I|]); [..|contradiction].
Ltac key := intros ?; cbn [In map fst]; intros I; repeat (destruct I as [I|I]; [subst; apply whole_text; reflexivity|]); contradiction.
Lemma state_publishable s level transition source :
  s = txt "ON" \/ s = txt "OFF" ->
  publishable 4 (JObj [(txt "state", JStr s); (txt "brightness", JNum (PInt level));
                       (txt "transition", JNum (PInt transition)); (txt "cbus_source_addr", jsource source)]).
Proof.
  intros S. apply p_obj; [keys|key|]. each.
  - constructor. destruct S as [-> | ->]; apply whole_text; reflexivity.
  - constructor.
  - constructor.
  - destruct source; constructor.
Qed.
Lemma text_whole s n : printable s -> whole (s ++ py_str n).
Proof. intros P. apply printable_whole, printable_app; [exact P|apply decimal_printable]. Qed.
Lemma digits_printable n : 0 <= n -> printable (py_03d n).
Proof.
  intros H. assert (D : printable (py_digits n)).
  { destruct (py_digits_natural n H) as (_ & F & _). eapply Forall_impl; [|exact F]. unfold digit. cbv beta. lia. }
  unfold py_03d. apply printable_app; [|exact D]. apply Forall_forall. intros c I. apply repeat_spec in I. lia.
Qed.
Lemma default_printable ga : 0 <= ga -> printable (default_name ga).
Proof. intros H. apply printable_app; [apply printable_test; reflexivity|apply digits_printable, H]. Qed.
Lemma device_publishable kind ga : printable kind -> 0 <= ga -> publishable 3 (device_json kind ga).
Proof.
  intros K G. unfold device_json. apply p_obj; [keys|key|]. each.
  - apply p_arr. intros v [<-|[]]. constructor. apply text_whole, K.
  - apply p_arr. intros v [<-|[]]. apply p_arr. intros v [<-|[<-|[]]]; constructor.
    + apply whole_text. reflexivity.
    + apply printable_whole, decimal_printable.
  - constructor. apply whole_text. reflexivity.
  - constructor. apply printable_whole, default_printable, G.
  - constructor. apply whole_text. reflexivity.
  - constructor. apply whole_text. reflexivity.
  - constructor. apply whole_text. reflexivity.
Qed.
Lemma name_whole labels ga : Forall (fun e => whole (snd e)) labels -> 0 <= ga -> whole (light_name labels ga).
Proof.
  intros F G. unfold light_name. destruct (label_get labels ga) as [t|] eqn:E; [|apply printable_whole, default_printable, G].
  induction F as [|[a n] l W _ IH]; cbn [label_get] in E; [discriminate|]. destruct (a =? ga); [inversion E; subst; exact W|auto].
Qed.
Lemma topic_whole a n z : printable a -> printable z -> whole (a ++ py_str n ++ z).
Proof. intros A Z. apply printable_whole. repeat apply printable_app; auto. apply decimal_printable. Qed.
Ltac plain := apply printable_test; reflexivity.
Lemma configs_proper labels : Forall (fun e => whole (snd e)) labels -> Forall proper (publish_all_lights labels).
Proof.
  intros F. unfold publish_all_lights. apply Forall_cons.
  - unfold proper, meta_config. cbn [m_payload publish]. apply p_obj; [keys|key|]. each.
    1-4: constructor; apply whole_text; reflexivity.
    apply p_obj; [keys|key|]. each; try (constructor; apply whole_text; reflexivity).
    apply p_arr. intros v [<-|[]]. constructor. apply whole_text. reflexivity.
  - apply Forall_forall. intros m I. apply in_flat_map in I. destruct I as (ga & G & I).
    assert (0 <= ga) as G0.
    { unfold ga_range in G. apply in_map_iff in G. destruct G as (k & <- & _). lia. }
    destruct I as [<-|[<-|[]]]; unfold proper.
    + unfold light_config. cbn [m_payload publish]. apply p_obj; [keys|key|]. each.
      * constructor. apply name_whole; assumption.
      * constructor. apply (text_whole (txt "cbus_light_") ga). plain.
      * constructor. apply (topic_whole LIGHT_TOPIC_PREFIX ga TOPIC_SET_SUFFIX); plain.
      * constructor. apply (topic_whole LIGHT_TOPIC_PREFIX ga TOPIC_STATE_SUFFIX); plain.
      * constructor. apply whole_text. reflexivity.
      * constructor.
      * apply (device_publishable (txt "cbus_light_") ga); [plain|assumption].
    + unfold sensor_config. cbn [m_payload publish]. apply p_obj; [keys|key|]. each.
      * constructor. apply (whole_printable (light_name labels ga)); [apply name_whole; assumption|plain].
      * constructor. apply (text_whole (txt "cbus_bin_sensor_") ga). plain.
      * constructor. apply (topic_whole BINSENSOR_TOPIC_PREFIX ga TOPIC_STATE_SUFFIX); plain.
      * apply (device_publishable (txt "cbus_bin_sensor_") ga); [plain|assumption].
Qed.
Lemma reports_proper ga source on level transition sensor l :
  reports ga source on (PInt level) transition sensor l -> Forall proper l.
Proof.
  intros (light & binary & _ & _ & ->). apply Forall_cons; [|apply Forall_cons; [|constructor]]; unfold proper; cbn [m_payload].
  - apply (state_publishable _ level transition source). destruct on; auto.
  - destruct sensor; auto.
Qed.
Lemma entry_proper e l : entry_report e l -> Forall proper l.
Proof.
  destruct e as [source s|ga w]; cbn [entry_report].
  - intros [? ? H|? ? H|? ? ? ? H|]; [..|constructor]; eapply reports_proper; exact H.
  - destruct w; apply reports_proper.
Qed.
Lemma step_proper u now labels st o st' ev r : Forall (fun e => whole (snd e)) labels ->
  clock_works now -> counter_ok (fst st) -> cl_class (fst st) = ClassHandler ->
  daemon_step u now labels st o = (st', ev, r) -> Forall proper (published ev).
Proof.
  intros F N I H S.
  assert (B : bus_call o \/ o = DMqttConnected \/ exists topic payload, o = DMqttMessage topic payload).
  { destruct o; try (left; exact Logic.I); right; [left; reflexivity|right; eauto]. }
  destruct B as [B|[ -> |[topic [payload -> ]]]].
  - destruct (bus_step u now labels st o st' ev r N I H B S) as ((Q1 & _) & SC & _). rewrite Q1.
    destruct (cl_mqtt (fst st)); [|constructor]. clear -SC. induction SC as [|e ev S _ IH]; [constructor|].
    cbn [flat_map]. apply Forall_app. split; [|exact IH].
    destruct e as [b|w| |co su|src ga d lv|src ga|src ga|src ga|src|src v|m|tp| |]; cbn [told]; try exact (Forall_nil _).
    + apply entry_proper with (e := Seen src (LightRamp ga d lv)).
      apply (relayed_report src (LightRamp ga d lv)). exact (proj1 S).
    + apply entry_proper with (e := Seen src (LightOn ga)). constructor. apply reports_on.
    + apply entry_proper with (e := Seen src (LightOff ga)). constructor. apply reports_off.
  - cbn [daemon_step] in S. unfold on_connect, mseq, mbind, memit in S.
    assert (E : forall l c, memit_all l c = (c, l, Ok tt)).
    { clear. induction l as [|e l IH]; intros c; [reflexivity|]. cbn [memit_all]. unfold mseq, mbind, memit. rewrite IH. reflexivity. }
    rewrite E in S. assert (S2 := f_equal (fun x => snd (fst x)) S). cbn [fst snd] in S2. clear S. subst ev.
    unfold published. cbn [flat_map app].
    fold (published (map CPublish (publish_all_lights labels))). rewrite (proj2 (proj2 (publishes_filters _))).
    apply configs_proper, F.
  - destruct (order_dec u topic payload (cl_transport (fst st))) as [[B [ga [w O]]]|B].
    + destruct (order_step u now labels st topic payload ga w I B O) as [line [command [messages [D [_ [R _]]]]]].
      rewrite S in D. assert (D2 := f_equal (fun x => snd (fst x)) D). cbn [fst snd] in D2. clear D. subst ev.
      unfold published. cbn [flat_map app]. fold (published (map CPublish messages)). rewrite (proj2 (proj2 (publishes_filters messages))).
      apply entry_proper with (e := Asked ga w). exact R.
    + destruct (ignored_step u now labels st topic payload I B) as [r' D]. rewrite S in D. inversion D; subst. constructor.
Qed.
Lemma run_proper u now labels ops : Forall (fun e => whole (snd e)) labels -> clock_works now ->
  forall st st' tr, counter_ok (fst st) -> cl_class (fst st) = ClassHandler ->
  daemon_run u now labels st ops = (st', tr) -> Forall proper (published (effects tr)).
Proof.
  intros F N. induction ops as [|o ops IH]; intros st st' tr I H E; cbn [daemon_run] in E; [inversion E; constructor|].
  destruct (daemon_step u now labels st o) as [[st1 ev] r] eqn:S.
  destruct (daemon_run u now labels st1 ops) as [st2 tr2] eqn:T. inversion E; subst.
  cbn [effects flat_map fst]. fold (effects tr2). rewrite published_app.
  destruct (step_own u now labels st o st1 ev r N I H S) as [_ [B C]]. apply Forall_app.
  split; [exact (step_proper u now labels st o st1 ev r F N I H S)|]. exact (IH st1 st' tr2 B C T).
Qed.

(** The bytes of a published message. *)
Theorem C80_published : forall u now labels timesync no_clock ops st tr m lib,
  clock_works now -> Forall (fun e => whole (snd e)) labels ->
  daemon_run u now labels (new_daemon timesync no_clock) ops = (st, tr) -> In m (published (effects tr)) ->
  Forall (fun c => 32 <= c <= 126) (payload_text lib (m_payload m))
  /\ match m_payload m with
     | PJson j => forall d, (4 <= d)%nat -> states lib d (payload_text lib (m_payload m)) j
                                       /\ loads lib d (payload_text lib (m_payload m)) = Got j
     | PRaw s => payload_text lib (m_payload m) = s /\ (s = txt "ON" \/ s = txt "OFF")
     end.
Proof.
  intros u now labels timesync no_clock ops st tr m lib N F E I.
  assert (P : Forall proper (published (effects tr))).
  { eapply run_proper; [exact F|exact N| | |exact E]; [unfold counter_ok; cbn; lia|reflexivity]. }
  rewrite Forall_forall in P. specialize (P m I). unfold proper in P. destruct (m_payload m) as [j|s]; cbn [payload_text].
  2:{ split; [|auto]. destruct P as [-> | ->]; plain. }
  assert (Q := dumps_printable lib 4 j P). split; [exact Q|]. intros d Hd.
  assert (W : forall n d j, publishable n j -> (n <= d)%nat -> publishable d j).
  { clear. intros n d j P. revert d. induction P as [d|d b|d n|d s W|d l _ IH|d l N W _ IH]; intros [|d'] L; try lia; try (constructor; assumption).
    - apply p_arr. intros v I. apply IH; [exact I|lia].
    - apply p_obj; [exact N|exact W|]. intros k v I. apply (IH k v I). lia. }
  assert (Nr := printable_bytes _ Q).
  assert (S : states lib d (dumps lib j) j).
  { exists InUtf8, (dumps lib j), (dumps lib j). split; [|split].
    - apply ascii_utf8. eapply Forall_impl; [|exact Q]. cbv beta. lia.
    - right. split; [|reflexivity]. destruct Q; cbn; lia.
    - exists [], (dumps lib j), []. rewrite app_nil_r. repeat split; try apply spaces_nil. apply dumps_denotes. eapply W; eassumption. }
  split; [exact S|]. apply loads_states; assumption.
Qed.
Print Assumptions C80_published.

(** Two commands in different spellings, the second with a repeated field and an
    escape, and a text that is not JSON. *)
Definition some_library : json_library := mkJsonLibrary (fun _ => PInt 0) (fun _ => []).
Definition light_5 : client := mkClient ClassHandler true 0 0 true NoFuture true 0 0.
Example C79_case :
  loads some_library 4 (txt "{""state"": ""ON"", ""brightness"": 128}")
    = Got (JObj [(txt "state", JStr (txt "ON")); (txt "brightness", JNum (PInt 128))])
  /\ loads some_library 4 (239 :: 187 :: 191 :: txt " { ""brightness"":1,""st\u0061te"" :""ON"",""brightness"":128}")
    = Got (JObj [(txt "brightness", JNum (PInt 128)); (txt "state", JStr (txt "ON"))])
  /\ loads some_library 4 (txt "{""state"": ""ON"", }") = Wrong
  /\ loads some_library 2 (txt "[[[]]]") = TooDeep
  /\ length (writes (snd (fst (on_payload plain_unicode some_library 4 (txt "homeassistant/light/cbus_5/set")
       (txt "{""state"": ""ON"", ""brightness"": 128}") light_5)))) = 1%nat.
Proof. vm_compute. repeat split. Qed.
Example C79_states : is_bytes (txt "{""state"": ""ON""}")
  /\ states some_library 4 (txt "{""state"": ""ON""}") (JObj [(txt "state", JStr (txt "ON"))]).
Proof.
  assert (N : is_bytes (txt "{""state"": ""ON""}")) by (apply printable_bytes; plain).
  split; [exact N|]. apply loads_states; [exact N|]. vm_compute. reflexivity.
Qed.
(** One string, in five of the spellings. *)
Example C79_wide : Forall (fun b => is_bytes b /\ states some_library 4 b (JStr [0x1f4a1; 0xe9]))
  [ [34; 0xf0; 0x9f; 0x92; 0xa1; 0xc3; 0xa9; 34];
    [0; 34; 0xd8; 0x3d; 0xdc; 0xa1; 0; 0xe9; 0; 34];
    [0xff; 0xfe; 34; 0; 0x3d; 0xd8; 0xa1; 0xdc; 0xe9; 0; 34; 0];
    [34; 0; 0; 0; 0xa1; 0xf4; 1; 0; 0xe9; 0; 0; 0; 34; 0; 0; 0];
    [0; 0; 0xfe; 0xff; 0; 0; 0; 34; 0; 1; 0xf4; 0xa1; 0; 0; 0; 0xe9; 0; 0; 0; 34] ].
Proof.
  repeat (apply Forall_cons; [match goal with |- is_bytes ?b /\ _ =>
    assert (N : is_bytes b) by (repeat (apply Forall_cons; [unfold byte; lia|]); constructor);
    split; [exact N|]; apply loads_states; [exact N|vm_compute; reflexivity] end|]). constructor.
Qed.
(** A label with a character beyond the basic plane, a quote and a control
    character. *)
Example C80_case : let name := [0x1f4a1; 34; 10; 0xe9] in
  whole name /\ dumps some_library (JStr name) = txt """\ud83d\udca1\""\n\u00e9"""
  /\ loads some_library 4 (dumps some_library (JStr name)) = Got (JStr name).
Proof.
  split; [|vm_compute; repeat split]. split; [repeat (apply Forall_cons; [lia|]); constructor|].
  intros a h l b E H. assert (I : In h [0x1f4a1; 34; 10; 0xe9]) by (rewrite E; apply in_or_app; right; left; reflexivity).
  unfold high in H. cbn [In] in I. lia.
Qed.
