(** C49 and C51: project labels and Home Assistant discovery. *)
From Coq Require Import String List ZArith Bool Lia ZifyBool ZifyNat FinFun.
From Verif Require Import Py Common Sal Packet Text Project Mqtt Client Cmqttd Base Spec Spec_client Spec_mqtt
  Client_dispatch Mqtt_facts Prop_mqtt.
Import ListNotations.
Open Scope Z_scope.

(** ** C51 *)

Lemma digits_03 n : 0 <= n -> three_digits n (py_03d n).
Proof.
  intros H. destruct (py_digits_natural n H) as [N [D [Z V]]]. unfold py_03d, three_digits.
  set (d := py_digits n) in *. rewrite app_length, repeat_length.
  assert (L : (List.length d <> 0)%nat) by (intros E; apply N; now apply length_zero_iff_nil).
  split; [lia|]. split.
  { apply Forall_app. split; [|exact D]. apply Forall_forall. intros c I. apply repeat_spec in I. rewrite I. unfold digit. lia. }
  split.
  - assert (X : forall k, value (repeat 48 k ++ d) = value d).
    { intros k. unfold value. induction k; [reflexivity|]. cbn [repeat app fold_left]. exact IHk. }
    rewrite X. exact V.
  - intros G. replace (3 - List.length d)%nat with 0%nat by lia. cbn [repeat app]. intros E.
    apply Z in E. rewrite E in G. cbn in G. lia.
Qed.
Lemma label_in labels ga : match label_get labels ga with
  | Some t => exists a b, labels = a ++ (ga, t) :: b /\ forall n, ~ In (ga, n) a
  | None => forall n, ~ In (ga, n) labels end.
Proof.
  induction labels as [|[a t] l IH]; [intros n []|]. cbn [label_get]. destruct (a =? ga) eqn:E.
  - assert (a = ga) by lia. subst. exists [], l. split; [reflexivity|]. intros n [].
  - destruct (label_get l ga) as [t'|].
    + destruct IH as [x [y [-> N]]]. exists ((a, t) :: x), y. split; [reflexivity|].
      intros n [I|I]; [inversion I; lia|now apply (N n)].
    + intros n [I|I]; [inversion I; lia|now apply (IH n)].
Qed.
Lemma name_is labels ga : 0 <= ga -> named labels ga (light_name labels ga).
Proof.
  intros H. unfold light_name. assert (L := label_in labels ga). destruct (label_get labels ga) as [t|]; [now left|].
  right. split; [exact L|]. exists (py_03d ga). split; [now apply digits_03|reflexivity].
Qed.
Ltac at_key := eexists; split; [reflexivity|]; apply jlookup_has; reflexivity.
Lemma device_is kind ga l : 0 <= ga -> jlookup (txt "device") l = Some (device_json kind ga) ->
  is_device (kind ++ py_str ga) ga (JObj l).
Proof.
  intros H L. exists (device_json kind ga), (py_str ga), (py_03d ga).
  split; [exists l; split; [reflexivity|now apply jlookup_has]|]. split; [apply py_str_decimal|]. split; [now apply digits_03|].
  repeat (split; [at_key|]). at_key.
Qed.
Lemma light_config_is labels ga : 0 <= ga -> is_light_config labels ga (light_config labels ga).
Proof.
  intros H. split; [apply (topic_is LightConfig)|]. split; [reflexivity|]. split; [reflexivity|].
  eexists. exists (light_name labels ga), (py_str ga), (set_topic ga), (state_topic ga). split; [reflexivity|].
  split; [now apply name_is|]. split; [apply py_str_decimal|]. split; [apply (topic_is LightSet)|].
  split; [apply (topic_is LightState)|]. do 6 (split; [at_key|]). now apply device_is.
Qed.
Lemma sensor_config_is labels ga : 0 <= ga -> is_sensor_config labels ga (sensor_config labels ga).
Proof.
  intros H. split; [apply (topic_is SensorConfig)|]. split; [reflexivity|]. split; [reflexivity|].
  eexists. exists (light_name labels ga), (py_str ga), (bin_sensor_state_topic ga). split; [reflexivity|].
  split; [now apply name_is|]. split; [apply py_str_decimal|].
  split; [apply (topic_is SensorState)|]. do 3 (split; [at_key|]). now apply device_is.
Qed.
Lemma daemon_config_is : is_daemon_config meta_config.
Proof. split; [reflexivity|]. split; [reflexivity|]. split; [reflexivity|]. eexists. eexists. split; [reflexivity|].
  repeat (split; [at_key|]). at_key. Qed.
Lemma range_in ga : In ga ga_range <-> group_address ga.
Proof.
  unfold ga_range. rewrite in_map_iff. unfold group_address, byte. split.
  - intros [n [<- I]]. apply in_seq in I. lia.
  - intros H. exists (Z.to_nat ga). split; [lia|]. apply in_seq. lia.
Qed.
Lemma range_nodup : NoDup ga_range.
Proof. unfold ga_range. apply FinFun.Injective_map_NoDup; [intros a b; lia|apply seq_NoDup]. Qed.
Lemma daemon_topic k ga : ~ is_topic k ga (m_topic meta_config).
Proof.
  intros [d [D E]]. change (m_topic meta_config) with (txt "homeassistant/binary_sensor/cbus_" ++ txt "cmqttd/config") in E.
  assert (H : exists c t, d = c :: t /\ c <> 99).
  { destruct D as [[_ N]|[_ [t [-> _]]]]; [|exists 45, t; split; [reflexivity|lia]].
    destruct N as [N [F _]]. destruct d as [|c t]; [congruence|]. exists c, t. split; [reflexivity|].
    apply Forall_cons_iff in F. destruct F as [F _]. unfold digit in F. lia. }
  destruct H as [c [t [-> C]]]. destruct k; cbn in E; inversion E; congruence.
Qed.
Lemma topics_distinct labels l : NoDup l ->
  NoDup (map m_topic (flat_map (fun ga => [light_config labels ga; sensor_config labels ga]) l)).
Proof.
  intros N. rewrite flat_map_concat_map, concat_map, map_map. cbn [map].
  change (fun x => [m_topic (light_config labels x); m_topic (sensor_config labels x)])
    with (fun x => [topic_function LightConfig x; topic_function SensorConfig x]).
  induction N as [|a l I N IH]; [constructor|]. cbn [map concat app].
  assert (O : forall k, k = LightConfig \/ k = SensorConfig ->
    ~ In (topic_function k a) (concat (map (fun x => [topic_function LightConfig x; topic_function SensorConfig x]) l))).
  { intros k _ J. apply in_concat in J. destruct J as [x [X Y]]. apply in_map_iff in X. destruct X as [b [<- B]].
    destruct Y as [Y|[Y|[]]]; apply C40_distinct in Y; destruct Y as [_ ->]; contradiction. }
  constructor.
  - intros [J|J]; [apply C40_distinct in J; destruct J; congruence|revert J; apply O; auto].
  - constructor; [apply O; auto|exact IH].
Qed.

Theorem C51_connect : forall labels c, exists topics messages,
  on_connect labels c = (set_mqtt c true, CSubscribe topics :: map CPublish messages, Ok tt)
  (* exactly the 256 set topics, each once, at QoS 2 *)
  /\ Forall2 (fun t ga => is_topic LightSet ga (fst t) /\ snd t = 2) topics (map Z.of_nat (seq 0 256))
  (* one configuration for the daemon and two for each address, on distinct topics *)
  /\ (exists m, In m messages /\ is_daemon_config m)
  /\ (forall ga, group_address ga ->
       (exists m, In m messages /\ is_light_config labels ga m) /\ (exists m, In m messages /\ is_sensor_config labels ga m))
  /\ (forall m, In m messages -> is_daemon_config m \/ exists ga, group_address ga
       /\ (is_light_config labels ga m \/ is_sensor_config labels ga m))
  /\ NoDup (map m_topic messages) /\ List.length messages = 513%nat.
Proof.
  intros labels c. exists (map (fun ga => (set_topic ga, 2)) ga_range), (publish_all_lights labels).
  split; [|split; [|split; [|split; [|split; [|split]]]]].
  - unfold on_connect, mseq, mbind. cbn [memit]. rewrite memit_all_run. reflexivity.
  - unfold ga_range. induction (map Z.of_nat (seq 0 256)) as [|ga l IH]; [constructor|]. cbn [map]. constructor; [|exact IH].
    split; [apply (topic_is LightSet)|reflexivity].
  - exists meta_config. split; [now left|apply daemon_config_is].
  - intros ga G. assert (R := proj2 (range_in ga) G). assert (P : 0 <= ga) by (unfold group_address, byte in G; lia). split.
    + exists (light_config labels ga). split; [|now apply light_config_is]. right. apply in_flat_map. exists ga. split; [exact R|now left].
    + exists (sensor_config labels ga). split; [|now apply sensor_config_is]. right. apply in_flat_map. exists ga.
      split; [exact R|right; now left].
  - intros m [<-|I]; [left; apply daemon_config_is|]. right. apply in_flat_map in I. destruct I as [ga [R I]].
    apply range_in in R. assert (P : 0 <= ga) by (unfold group_address, byte in R; lia).
    exists ga. split; [exact R|]. destruct I as [<-|[<-|[]]]; [left; now apply light_config_is|right; now apply sensor_config_is].
  - unfold publish_all_lights. cbn [map]. constructor; [|apply topics_distinct, range_nodup].
    intros I. apply in_map_iff in I. destruct I as [m [E I]]. apply in_flat_map in I. destruct I as [ga [_ [<-|[<-|[]]]]].
    + apply (daemon_topic LightConfig ga). rewrite <- E. apply (topic_is LightConfig).
    + apply (daemon_topic SensorConfig ga). rewrite <- E. apply (topic_is SensorConfig).
  - reflexivity.
Qed.
Print Assumptions C51_connect.

(** No two announcements are for the same entity or the same device. *)
Theorem C51_identities : forall labels c c' topics messages,
  on_connect labels c = (c', CSubscribe topics :: map CPublish messages, Ok tt) ->
  exists ids, Forall2 known_by messages ids /\ NoDup ids.
Proof.
  intros labels c c' topics messages E.
  assert (M : messages = publish_all_lights labels).
  { unfold on_connect, mseq, mbind in E. cbn [memit] in E. rewrite memit_all_run in E. cbn [app] in E.
    injection E as _ _ E. symmetry in E. rewrite <- (map_id messages), <- (map_id (publish_all_lights labels)).
    apply (f_equal (map (fun e => match e with CPublish m => m | _ => meta_config end))) in E. now rewrite !map_map in E. }
  subst messages. clear E.
  exists (txt "cmqttd" :: flat_map (fun ga => [txt "cbus_light_" ++ py_str ga; txt "cbus_bin_sensor_" ++ py_str ga]) ga_range).
  split.
  - unfold publish_all_lights. constructor; [eexists; eexists; split; [reflexivity|]; repeat (split; [at_key|]); at_key|].
    induction ga_range as [|ga l IH]; [constructor|]. cbn [flat_map app].
    constructor; [|constructor; [|exact IH]]; eexists; eexists; (split; [reflexivity|]); repeat (split; [at_key|]); at_key.
  - assert (N := range_nodup). constructor.
    + intros I. apply in_flat_map in I. destruct I as [ga [_ [I|[I|[]]]]]; cbn in I; inversion I.
    + induction N as [|a l I N IH]; [constructor|]. cbn [flat_map app].
      assert (Q : forall b, py_str a = py_str b -> a = b).
      { intros b X. apply (decimal_inj a b (py_str a)); [apply py_str_decimal|rewrite X; apply py_str_decimal]. }
      constructor; [|constructor; [|exact IH]].
      * intros [J|J]; [cbn in J; inversion J|]. apply in_flat_map in J. destruct J as [b [B [J|[J|[]]]]]; [|cbn in J; inversion J].
        apply app_inv_head in J. symmetry in J. apply Q in J. subst. contradiction.
      * intros J. apply in_flat_map in J. destruct J as [b [B [J|[J|[]]]]]; [cbn in J; inversion J|].
        apply app_inv_head in J. symmetry in J. apply Q in J. subst. contradiction.
Qed.
Print Assumptions C51_identities.

(** The command topic of a configuration is one on_message obeys, and nothing
    else published there or by the relays is taken for a command. *)
Theorem C51_command_topics : forall u k ga t, is_topic k ga t ->
  (k = LightSet -> group_address ga -> commands u t ga)
  /\ (k <> LightSet -> forall ga', ~ commands u t ga').
Proof.
  intros u k ga t T. split.
  - intros -> G. split; [apply (topic_addresses u LightSet ga t); [reflexivity|exact T]|]. split; [exact G|].
    destruct T as [d [_ ->]]. exists (topic_before LightSet ++ d). now rewrite <- app_assoc.
  - intros N ga' [_ [_ [a E]]]. destruct T as [d [_ ->]].
    assert (X : forall x y : text, x ++ topic_after k = y ++ txt "/set" -> False).
    { intros x y Q. apply (f_equal (@rev Z)) in Q. rewrite !rev_app_distr in Q.
      destruct k; try congruence; cbn in Q; inversion Q. }
    apply (X (topic_before k ++ d) a). now rewrite <- app_assoc.
Qed.
Print Assumptions C51_command_topics.

Example C51_case : let c := mkClient ClassHandler true 3 0 true Pending false 0 0 in
  match on_connect [(7, txt "Hall")] c with
  | (c', CSubscribe t :: ev, Ok tt) =>
      cl_mqtt c' = true /\ nth 7 t (txt "", 0) = (txt "homeassistant/light/cbus_7/set", 2)
      /\ map (fun i => match nth i ev CCannotAccept with
           | CPublish (mkMessage t (PJson (JObj ((_, JStr n) :: _))) _ _) => (t, n) | _ => ([], []) end) [15; 16; 17]%nat
         = [(txt "homeassistant/light/cbus_7/config", txt "Hall");
            (txt "homeassistant/binary_sensor/cbus_7/config", txt "Hall (as binary sensor)");
            (txt "homeassistant/light/cbus_8/config", txt "C-Bus Light 008")]
  | _ => False
  end.
Proof. vm_compute. repeat split. Qed.

(** ** C49 *)

Lemma white_spec u c : str_space u c = true <-> white u c.
Proof. unfold str_space, white. destruct (c <? 127) eqn:L; [split; lia|]. split; [intros; right; split; [lia|assumption]|]. intros [H|H]; [lia|tauto]. Qed.
Lemma white_false u c : str_space u c = false <-> ~ white u c.
Proof. rewrite <- white_spec. destruct (str_space u c); split; congruence. Qed.
Lemma white_all u l : Forall (fun c => str_space u c = true) l <-> Forall (white u) l.
Proof. split; intros H; eapply Forall_impl; try exact H; intros; now apply white_spec. Qed.
Lemma strip_trimmed u t name : trimmed u t name <-> name = py_strip u t.
Proof.
  unfold py_strip. split.
  - intros [a [b [-> [A [B C]]]]]. symmetry. apply strip_is; [now apply white_all|now apply white_all|].
    destruct C as [->|[C1 C2]]; [now left|right]. split; now apply white_false.
  - intros ->. destruct (strip_split (str_space u) t) as [a [b [E [A [B C]]]]]. exists a, b. split; [exact E|].
    split; [now apply white_all|]. split; [now apply white_all|].
    destruct C as [->|[C1 C2]]; [now left|right]. split; now apply white_false.
Qed.
Definition default_label (name : text) (a : option Z) : bool :=
  text_eqb name [] || text_eqb name (txt "<Unused>") || text_eqb name (txt "Group " ++ key_str a).
Lemma default_spec name a : default_label name a = false <-> chosen a name.
Proof.
  unfold default_label, chosen. rewrite !orb_false_iff, !text_eqb_neq. split.
  - intros [[A B] C]. split; [exact A|]. split; [exact B|]. intros [d [D E]]. apply C. rewrite E.
    destruct a as [a|]; cbn [written key_str] in *; [|now rewrite D].
    now rewrite (decimal_unique a d (py_str a) D (py_str_decimal a)).
  - intros [A [B C]]. split; [split; assumption|]. intros E. apply C. exists (key_str a). split; [|exact E].
    destruct a; [apply py_str_decimal|reflexivity].
Qed.
Lemma named_spec u g a name : group_named u g a name <->
  exists t, g_address g = a /\ g_tag_name g = Some t /\ name = py_strip u t /\ default_label name a = false.
Proof.
  unfold group_named. split; intros [t [A [B [C D]]]]; exists t; split; [exact A| |exact A|];
    (split; [exact B|]); (split; [now apply strip_trimmed|now apply default_spec]).
Qed.

Lemma key_eqb_spec a b : key_eqb a b = true <-> a = b.
Proof.
  destruct a as [x|], b as [y|]; cbn [key_eqb]; split; intros E; try discriminate; try reflexivity.
  - f_equal. lia.
  - inversion E. lia.
Qed.
Lemma dict_set_in {V} k (v : V) l : NoDup (map fst l) ->
  NoDup (map fst (dict_set k v l))
  /\ forall a t, In (a, t) (dict_set k v l) <-> (a = k /\ t = v) \/ (a <> k /\ In (a, t) l).
Proof.
  induction l as [|[b s] l IH]; intros N; cbn [dict_set map fst] in *.
  - split; [repeat constructor; intros []|]. intros a t. cbn. split.
    + intros [E|[]]. inversion E. auto.
    + intros [[-> ->]|[_ []]]. now left.
  - apply NoDup_cons_iff in N. destruct N as [N1 N2]. destruct (IH N2) as [I1 I2].
    destruct (key_eqb b k) eqn:E.
    + apply key_eqb_spec in E. subst b. cbn [map fst]. split; [now constructor|]. intros a t. cbn [In]. split.
      * intros [Q|Q]; [inversion Q; auto|]. right. split; [|auto]. intros ->. apply N1. apply in_map_iff. now exists (k, t).
      * intros [[-> ->]|[Q [R|R]]]; [now left|inversion R; congruence|now right].
    + assert (E' : b <> k) by (intros X; apply key_eqb_spec in X; congruence). cbn [map fst]. split.
      * constructor; [|exact I1]. intros J. apply in_map_iff in J. destruct J as [[b' t'] [X J]]. cbn in X. subst b'.
        apply I2 in J. destruct J as [[J _]|[_ J]]; [congruence|]. apply N1. apply in_map_iff. now exists (b, t').
      * intros a t. cbn [In]. rewrite I2. split.
        -- intros [Q|[Q|[Q R]]]; [inversion Q; subst; right; split; [exact E'|now left]|now left|right; split; [exact Q|now right]].
        -- intros [Q|[Q [R|R]]]; auto.
Qed.

Lemma label_groups_spec u : forall gs labels, NoDup (map fst labels) ->
  (Forall (fun g => g_tag_name g <> None) gs ->
    exists labels', label_groups u gs labels = Ok labels' /\ NoDup (map fst labels')
      /\ forall a name, In (a, name) labels' <->
           last_named u gs a name \/ (In (a, name) labels /\ forall g n, In g gs -> ~ group_named u g a n))
  /\ (Exists (fun g => g_tag_name g = None) gs -> label_groups u gs labels = Raise AttributeError).
Proof.
  induction gs as [|g gs IH]; intros labels N.
  - split.
    + intros _. exists labels. split; [reflexivity|]. split; [exact N|]. intros a name. split.
      * intros I. right. split; [exact I|]. intros g n [].
      * intros [[b [g [x [E _]]]]|[I _]]; [destruct b; discriminate E|exact I].
    + intros X. inversion X.
  - cbn [label_groups]. destruct (g_tag_name g) as [t|] eqn:T.
    2:{ split; [intros F; apply Forall_cons_iff in F; destruct F; congruence|reflexivity]. }
    change (text_eqb (py_strip u t) [] || text_eqb (py_strip u t) (txt "<Unused>")
      || text_eqb (py_strip u t) (txt "Group " ++ key_str (g_address g))) with (default_label (py_strip u t) (g_address g)).
    assert (X : forall n a, group_named u g a n <-> g_address g = a /\ n = py_strip u t /\ default_label (py_strip u t) a = false).
    { intros n a. rewrite named_spec. split.
      - intros [t' [A [B [C D]]]]. assert (t' = t) by congruence. subst. auto.
      - intros [A [B C]]. exists t. split; [exact A|]. split; [exact T|]. split; [exact B|]. now rewrite B. }
    assert (LN : forall a n, last_named u (g :: gs) a n <->
      last_named u gs a n \/ (group_named u g a n /\ forall g' n', In g' gs -> ~ group_named u g' a n')).
    { intros a n. split.
      - intros [b [g' [x [E [G L]]]]]. destruct b as [|b0 b]; inversion E; subst.
        + right. split; [exact G|]. exact L.
        + left. exists b, g', x. split; [reflexivity|]. split; assumption.
      - intros [[b [g' [x [E [G L]]]]]|[G L]].
        + exists (g :: b), g', x. split; [now rewrite E|]. split; assumption.
        + exists [], g, gs. split; [reflexivity|]. split; assumption. }
    destruct (default_label (py_strip u t) (g_address g)) eqn:D.
    + destruct (IH labels N) as [I1 I2]. split.
      * intros F. apply Forall_cons_iff in F. destruct F as [_ F]. destruct (I1 F) as [l' [E [N' H]]].
        exists l'. split; [exact E|]. split; [exact N'|]. intros a name. rewrite H, LN.
        assert (Q : forall n, ~ group_named u g a n) by (intros n G; apply X in G; destruct G as [<- [_ G]]; congruence).
        split.
        -- intros [L|[I L]]; [auto|]. right. split; [exact I|]. intros g' n [<-|J]; [apply Q|now apply L].
        -- intros [[L|[G _]]|[I L]]; [auto|destruct (Q _ G)|]. right. split; [exact I|]. intros g' n J. apply L. now right.
      * intros F. apply I2. inversion F; subst; [congruence|assumption].
    + destruct (dict_set_in (g_address g) (py_strip u t) labels N) as [N1 N2].
      destruct (IH _ N1) as [I1 I2]. split.
      * intros F. apply Forall_cons_iff in F. destruct F as [_ F]. destruct (I1 F) as [l' [E [N' H]]].
        exists l'. split; [exact E|]. split; [exact N'|]. intros a name. rewrite H, LN, N2. split.
        -- intros [L|[[[-> ->]|[Q I]] L]]; [auto| |].
           ++ left. right. split; [|exact L]. apply X. auto.
           ++ right. split; [exact I|]. intros g' n [<-|J]; [|now apply L]. intros G. apply X in G. destruct G; congruence.
        -- intros [[L|[G L]]|[I L]]; [auto| |].
           ++ right. split; [|exact L]. left. apply X in G. destruct G as [<- [-> _]]. auto.
           ++ right. split; [|intros g' n J; apply L; now right]. right. split; [|exact I].
              intros ->. apply (L g (py_strip u t) (or_introl eq_refl)). apply X. auto.
      * intros F. apply I2. inversion F; subst; [congruence|assumption].
Qed.

Lemma only_filter {A} (P : A -> Prop) (f : A -> bool) l : (forall x, f x = true <-> P x) ->
  forall x, only P l x <-> filter f l = [x].
Proof.
  intros S. assert (E : forall l, Forall (fun y => ~ P y) l <-> filter f l = []).
  { clear l. intros l. induction l as [|y l IH]; [split; constructor|]. cbn [filter]. rewrite Forall_cons_iff, IH, <- S.
    destruct (f y); split; [intros [H _]; congruence|discriminate|tauto|]. intros ->. split; [discriminate|reflexivity]. }
  intros x. split.
  - intros [a [b [-> [X F]]]]. apply Forall_app in F. destruct F as [F1 F2]. apply E in F1, F2. apply S in X.
    rewrite filter_app. cbn [filter]. now rewrite F1, F2, X.
  - induction l as [|y l IH]; [discriminate|]. cbn [filter]. destruct (f y) eqn:Y.
    + intros Q. inversion Q; subst. exists [], l. split; [reflexivity|]. split; [now apply S|]. cbn [app]. apply E. assumption.
    + intros Q. destruct (IH Q) as [a [b [-> [X F]]]]. exists (y :: a), b. split; [reflexivity|]. split; [exact X|].
      cbn [app]. constructor; [|exact F]. rewrite <- S. congruence.
Qed.
Definition direct (n : network) : bool := match n_interface n with Some (Some t) => negb (text_eqb t (txt "bridge")) | _ => true end.
Lemma direct_spec n : direct n = true <-> ~ bridge n.
Proof.
  unfold direct, bridge. destruct (n_interface n) as [[t|]|]; try (split; [discriminate|reflexivity]).
  rewrite negb_true_iff, text_eqb_neq. split; congruence.
Qed.
Lemma networks_spec l :
  (Forall (fun n => n_interface n <> None) l -> filter_res not_bridge l = Ok (filter direct l))
  /\ (Exists (fun n => n_interface n = None) l -> filter_res not_bridge l = Raise AttributeError).
Proof.
  induction l as [|n l [I1 I2]].
  - split; [reflexivity|]. intros X. inversion X.
  - cbn [filter_res filter]. unfold not_bridge at 1 3, direct at 1. split.
    + intros F. apply Forall_cons_iff in F. destruct F as [F1 F2]. rewrite (I1 F2).
      destruct (n_interface n) as [[t|]|]; [cbn [rbind]|cbn [rbind]|congruence]; reflexivity.
    + intros X. destruct (n_interface n) as [[t|]|] eqn:E; [| |reflexivity];
        (inversion X; subst; [congruence|]); rewrite I2 by assumption; reflexivity.
Qed.
Lemma lighting_spec networks gs : lighting_groups networks gs <->
  exists n a, filter direct networks = [n] /\ filter (fun a => key_eqb (a_address a) (Some APP_LIGHTING)) (n_applications n) = [a] /\ gs = a_groups a.
Proof.
  unfold lighting_groups.
  split; intros [n [a [N [A G]]]]; exists n, a.
  - split; [apply (only_filter _ direct networks direct_spec n); exact N|]. split; [|exact G].
    apply (only_filter (fun a => a_address a = Some 0x38)); [|exact A]. intros x. apply key_eqb_spec.
  - split; [apply (only_filter _ direct networks direct_spec n); exact N|]. split; [|exact G].
    apply (only_filter _ (fun a => key_eqb (a_address a) (Some APP_LIGHTING))); [|exact A]. intros x. apply key_eqb_spec.
Qed.

(** A well-formed project: every network has an interface element, every
    lighting group a name. *)
Theorem C49_labels : forall u networks gs, Forall (fun n => n_interface n <> None) networks ->
  lighting_groups networks gs -> Forall (fun g => g_tag_name g <> None) gs ->
  exists labels, read_cbz_labels u networks = Ok labels /\ NoDup (map fst labels)
    /\ forall a name, In (a, name) labels <-> last_named u gs a name.
Proof.
  intros u networks gs F L G. apply lighting_spec in L. destruct L as [n [a [N [A ->]]]].
  unfold read_cbz_labels. rewrite (proj1 (networks_spec networks) F). cbn [rbind]. rewrite N, A.
  destruct (label_groups_spec u (a_groups a) [] (NoDup_nil _)) as [H _].
  destruct (H G) as [l [E [U I]]]. exists l. split; [exact E|]. split; [exact U|]. intros b name. rewrite I.
  split; [|auto]. intros [X|[[] _]]. exact X.
Qed.
Print Assumptions C49_labels.
Theorem C49_unavailable : forall u networks, Forall (fun n => n_interface n <> None) networks ->
  (forall gs, ~ lighting_groups networks gs) -> read_cbz_labels u networks = Ok [].
Proof.
  intros u networks F L. unfold read_cbz_labels. rewrite (proj1 (networks_spec networks) F). cbn [rbind].
  destruct (filter direct networks) as [|n [|m ns]] eqn:N; [reflexivity| |reflexivity].
  destruct (filter (fun a => key_eqb (a_address a) (Some APP_LIGHTING)) (n_applications n)) as [|a [|b l]] eqn:A; [reflexivity| |reflexivity].
  exfalso. apply (L (a_groups a)). apply lighting_spec. now exists n, a.
Qed.
Print Assumptions C49_unavailable.
Theorem C49_malformed : forall u networks,
  Exists (fun n => n_interface n = None) networks
  \/ (Forall (fun n => n_interface n <> None) networks /\ exists gs, lighting_groups networks gs
      /\ Exists (fun g => g_tag_name g = None) gs) ->
  read_cbz_labels u networks = Raise AttributeError.
Proof.
  intros u networks [X|[F [gs [L X]]]]; unfold read_cbz_labels.
  - rewrite (proj2 (networks_spec networks) X). reflexivity.
  - rewrite (proj1 (networks_spec networks) F). cbn [rbind]. apply lighting_spec in L. destruct L as [n [a [N [A ->]]]].
    rewrite N, A. now apply (label_groups_spec u (a_groups a) [] (NoDup_nil _)).
Qed.
Print Assumptions C49_malformed.

Example C49_case :
  let group a t := mkGroup (Some a) (Some (txt t)) in
  let groups := [group 1 " Hall "; group 2 "Group 2"; group 3 "<Unused>"; group 4 "Group 5"; group 1 "Porch"; group 1 " ";
                 mkGroup None (Some (txt "Group None"))]%string in
  let lighting := [mkApplication (Some 0x38) None None groups; mkApplication (Some 0x30) None None [mkGroup (Some 9) None];
                   mkApplication None None None []] in
  let net i l := mkNetwork (Some 254) None None i l [] in
  let direct := net (Some (Some (txt "cni"))) lighting in
  let bridge := net (Some (Some (txt "bridge"))) lighting in
  read_cbz_labels plain_unicode [bridge; direct] = Ok [(Some 1, txt "Porch"); (Some 4, txt "Group 5")]
  /\ read_cbz_labels plain_unicode [direct; direct] = Ok []
  /\ read_cbz_labels plain_unicode [direct; net None []] = Raise AttributeError.
Proof. vm_compute. repeat split. Qed.
