(** C93: the daemon stopped anywhere and started again. *)
From Coq Require Import String List ZArith Bool Lia ZifyBool ZifyNat.
From Verif Require Import Py Common Sal Packet Text Mqtt Buffered Client Cmqttd Daemon Base Spec Spec_client Spec_sound Spec_mqtt
  Spec_daemon Restart Spec_restart Client_facts Client_steps Client_dispatch Mqtt_facts Prop_client Prop_mqtt Prop_discovery
  Prop_daemon Restart_facts.
Import ListNotations.
Open Scope Z_scope.
Notation length := List.length.

(** Wherever a life ends, the broker knows the beginning of its chronicle, with
    at most one entry of which it has the message for the light only.  The
    lighting commands written are the orders of the beginning of the chronicle,
    and include those of all entries the broker has heard of; if no message was
    lost, at most one more.  Without a stop nothing is missing. *)
Theorem C93_life : forall l, clock_works (l_clock l) ->
  exists known half rest orders ahead later,
    life_log l (known ++ half ++ rest) /\ known_of l known half
    /\ Forall2 (fun o s => wish_command (fst o) (snd o) s) orders (commanded (did l))
    /\ ordered (known ++ half ++ rest) = orders ++ later
    /\ orders = ordered (known ++ half) ++ ahead
    /\ ((length (published (did l)) <= l_received l)%nat -> (length ahead <= 1)%nat)
    /\ (undisturbed l -> half = [] /\ rest = []).
Proof.
  intros l N. unfold undisturbed, known_of, life_log, received, life_trace. unfold life_trace in *.
  destruct (daemon_run (l_unicode l) (l_clock l) (l_labels l) (new_daemon (l_timesync l) (l_no_clock l)) (l_calls l)) as [st tr] eqn:E.
  assert (DD : did l = firstn (l_done l) (effects tr)) by (unfold did, life_trace; now rewrite E).
  cbn [snd].
  assert (CK : counter_ok (fst (new_daemon (l_timesync l) (l_no_clock l)))) by (unfold counter_ok; cbn; lia).
  destruct (stream _ _ _ _ N _ _ _ CK eq_refl E) as [log [gs [C [F P]]]].
  cbn [fst new_daemon new_client cl_mqtt cl_transport] in C.
  destruct (prefix_published (l_received l) (did l)) as [a [b [AB [Q L]]]].
  assert (X : exists y, filter marked a ++ y = concat gs /\ (b = [] -> (length (effects tr) <= l_done l)%nat -> y = [])).
  { exists (filter marked b ++ filter marked (skipn (l_done l) (effects tr))). split.
    - rewrite <- P, app_assoc, <- !marked_app, <- AB, DD, firstn_skipn. reflexivity.
    - intros -> H. rewrite (skipn_all2 _ H). reflexivity. }
  destruct X as [y [X Y]].
  destruct (stream_cut _ _ _ _ F X) as [known [half [rest [ls [lights [-> [H1 [R1 [R2 [PU [CO EN]]]]]]]]]]].
  rewrite published_marked in PU. rewrite commanded_marked in CO.
  assert (O := acted_orders _ _ F). rewrite <- P, commanded_marked in O.
  rewrite <- (firstn_skipn (l_done l) (effects tr)), <- DD, commanded_app in O.
  destruct (Forall2_app_inv_r _ _ O) as [orders [later [O1 [O2 OE]]]].
  assert (LO := same_length _ _ _ O1). rewrite AB, commanded_app, app_length in LO.
  assert (PF : exists ahead, orders = ordered (known ++ half) ++ ahead).
  { unfold ordered in OE, CO |- *. rewrite app_assoc, flat_map_app in OE.
    destruct (app_eq_app _ _ _ _ OE) as [m [[Z1 Z2]|[Z1 Z2]]]; [|now exists m].
    rewrite Z1, app_length in CO. assert (m = []) by (destruct m; [reflexivity|cbn in CO; lia]). subst m.
    exists []. rewrite Z1, !app_nil_r. reflexivity. }
  destruct PF as [ahead PF].
  exists known, half, rest, orders, ahead, later.
  split; [exact C|]. split.
  { split; [now exists rest|]. split; [exact H1|]. exists ls, lights. rewrite Q. auto. }
  split; [exact O1|]. split; [exact OE|]. split; [exact PF|]. split.
  - intros H. rewrite (L H) in LO. rewrite PF, app_length in LO. cbn in LO. lia.
  - intros [U1 U2]. apply EN, Y; [exact (L U2)|exact U1].
Qed.
Print Assumptions C93_life.

(** *** What the broker keeps *)

(** The message of an entry on its first and on its second topic. *)
Definition light_of (e : entry) (m : message) : Prop := exists binary, entry_report e [m; binary].
Definition sensor_of (e : entry) (m : message) : Prop := exists light, entry_report e [light; m].
Definition on_kind (k : topic_kind) (ga : Z) (m : message) : bool :=
  if list_eq_dec Z.eq_dec (m_topic m) (topic_function k ga) then true else false.
Definition of_group (ga : Z) (e : entry) : bool :=
  match entry_group e with Some g => g =? ga | None => false end.
Lemma on_kind_is k ga m : on_kind k ga m = true <-> is_topic k ga (m_topic m).
Proof.
  unfold on_kind. destruct (list_eq_dec _ _ _) as [E|E]; split; intros H; try discriminate; try reflexivity.
  - rewrite E. apply topic_is.
  - exfalso. apply E. now apply is_topic_function.
Qed.
Lemma on_kind_other k ga k' ga' m : is_topic k ga (m_topic m) -> (k <> k' \/ ga <> ga') -> on_kind k' ga' m = false.
Proof.
  intros T D. destruct (on_kind k' ga' m) eqn:E; [|reflexivity]. apply on_kind_is in E.
  destruct (topic_distinct _ _ _ _ _ T E). destruct D; contradiction.
Qed.
Lemma of_group_is ga e : of_group ga e = true <-> entry_group e = Some ga.
Proof.
  unfold of_group. destruct (entry_group e) as [g|]; [|split; discriminate]. rewrite Z.eqb_eq. split; congruence.
Qed.
Lemma entry_kinds e l ga : entry_report e l ->
  Forall2 light_of (filter (of_group ga) [e]) (filter (on_kind LightState ga) l)
  /\ Forall2 sensor_of (filter (of_group ga) [e]) (filter (on_kind SensorState ga) l).
Proof.
  intros R. destruct (entry_messages e l R) as [[-> G]|[g [light [binary [G [-> [L [S _]]]]]]]]; cbn [filter]; unfold of_group; rewrite G.
  - split; constructor.
  - destruct (Z.eqb_spec g ga) as [->|D].
    + rewrite (proj2 (on_kind_is _ _ _) L), (proj2 (on_kind_is _ _ _) S).
      rewrite (on_kind_other _ _ SensorState ga _ L), (on_kind_other _ _ LightState ga _ S) by (left; discriminate).
      split; repeat constructor; [now exists binary|now exists light].
    + rewrite !(on_kind_other _ _ _ ga _ L), !(on_kind_other _ _ _ ga _ S) by now right. split; constructor.
Qed.
Lemma half_kinds e m binary ga : entry_report e [m; binary] ->
  Forall2 light_of (filter (of_group ga) [e]) (filter (on_kind LightState ga) [m]) /\ filter (on_kind SensorState ga) [m] = [].
Proof.
  intros R. destruct (entry_messages e _ R) as [[Q _]|[g [l [b [G [Q [L [S _]]]]]]]]; [discriminate Q|]. inversion Q; subst l b.
  split.
  - assert (X := proj1 (entry_kinds e _ ga R)). cbn [filter] in *.
    rewrite (on_kind_other _ _ LightState ga binary S) in X by (left; discriminate). exact X.
  - cbn [filter]. rewrite (on_kind_other _ _ SensorState ga _ L) by (left; discriminate). reflexivity.
Qed.
Lemma filter_cons {A} (f : A -> bool) x l : filter f (x :: l) = filter f [x] ++ filter f l.
Proof. exact (filter_app f [x] l). Qed.
Lemma known_kinds log ls ga : Forall2 entry_report log ls ->
  Forall2 light_of (filter (of_group ga) log) (filter (on_kind LightState ga) (concat ls))
  /\ Forall2 sensor_of (filter (of_group ga) log) (filter (on_kind SensorState ga) (concat ls)).
Proof.
  induction 1 as [|e l log ls R _ [IH1 IH2]]; [split; constructor|].
  destruct (entry_kinds e l ga R) as [A B]. cbn [concat]. rewrite (filter_cons (of_group ga) e log), !filter_app.
  split; apply Forall2_app; assumption.
Qed.
Lemma halves_kinds log ms ga : Forall2 (fun e m => exists binary, entry_report e [m; binary]) log ms ->
  Forall2 light_of (filter (of_group ga) log) (filter (on_kind LightState ga) ms) /\ filter (on_kind SensorState ga) ms = [].
Proof.
  induction 1 as [|e m log ms [binary R] _ [IH1 IH2]]; [split; constructor|].
  destruct (half_kinds e m binary ga R) as [A B].
  rewrite (filter_cons (of_group ga) e log), (filter_cons (on_kind LightState ga) m ms), (filter_cons (on_kind SensorState ga) m ms), B, IH2.
  split; [now apply Forall2_app|reflexivity].
Qed.
Lemma kind_state k ga l : k = LightState \/ k = SensorState -> filter (on_kind k ga) (state_messages l) = filter (on_kind k ga) l.
Proof.
  intros K. induction l as [|m l IH]; [reflexivity|]. unfold state_messages in *. cbn [filter].
  destruct (on_kind k ga m) eqn:E.
  - assert (T := proj1 (on_kind_is _ _ _) E).
    assert (X : on_state_topic m = true).
    { unfold on_state_topic. rewrite (state_topic_ends k ga) by (try exact T; destruct K; subst; auto). destruct K; subst; reflexivity. }
    rewrite X. cbn [filter]. rewrite E, IH. reflexivity.
  - destruct (on_state_topic m); [cbn [filter]; rewrite E|]; exact IH.
Qed.
Lemma heard_kinds lives k ga : Forall2 (fun l x => known_of l (fst x) (snd x)) lives k ->
  Forall2 light_of (filter (of_group ga) (light_log k)) (filter (on_kind LightState ga) (heard lives))
  /\ Forall2 sensor_of (filter (of_group ga) (sensor_log k)) (filter (on_kind SensorState ga) (heard lives)).
Proof.
  induction 1 as [|l [known half] lives k [_ [_ [ls [lights [A [B C]]]]]] _ [IH1 IH2]]; [split; constructor|].
  cbn [fst snd] in A, B. unfold light_log, sensor_log, heard in *. cbn [map concat fst snd]. rewrite !filter_app.
  destruct (known_kinds _ _ ga A) as [A1 A2]. destruct (halves_kinds _ _ ga B) as [B1 B2].
  split; (apply Forall2_app; [|assumption]); rewrite <- kind_state, C, filter_app by auto.
  - now apply Forall2_app.
  - rewrite B2, app_nil_r. exact A2.
Qed.
Lemma filter_last {A} (f : A -> bool) a e b : f e = true -> (forall x, In x b -> f x = false) ->
  filter f (a ++ e :: b) = filter f a ++ [e].
Proof.
  intros E B. rewrite filter_app. cbn [filter]. rewrite E. do 2 f_equal.
  induction b as [|x b IH]; [reflexivity|]. cbn [filter]. rewrite (B x (or_introl eq_refl)). apply IH. intros y I. apply B. now right.
Qed.
Lemma last_filter {A} (f : A -> bool) l x m : filter f l = x ++ [m] ->
  exists a b, l = a ++ m :: b /\ f m = true /\ forall m', In m' b -> f m' = false.
Proof.
  intros E. assert (I : In m (filter f l)) by (rewrite E; apply in_app_iff; right; now left).
  apply filter_In in I. destruct I as [_ I].
  destruct (filter_split f l _ _ _ E) as [a [b [-> B]]]. exists a, b. split; [reflexivity|]. split; [exact I|].
  intros m' J. destruct (f m') eqn:F; [|reflexivity]. exfalso.
  assert (X : In m' (filter f b)) by (apply filter_In; auto). rewrite B in X. destruct X.
Qed.
Lemma kind_retained k ga l x m : filter (on_kind k ga) l = x ++ [m] -> is_topic k ga (m_topic m) /\ retained l m.
Proof.
  intros E. destruct (last_filter _ _ _ _ E) as [a [b [-> [M B]]]]. apply on_kind_is in M. split; [exact M|].
  exists a, b. split; [reflexivity|]. intros m' I Q. assert (X := B m' I).
  rewrite (proj2 (on_kind_is k ga m')) in X; [discriminate|]. now rewrite Q.
Qed.
Lemma related_latest (R : entry -> message -> Prop) k ga log ms e :
  Forall2 R (filter (of_group ga) log) (filter (on_kind k ga) ms) -> latest log ga e ->
  exists m, R e m /\ is_topic k ga (m_topic m) /\ retained ms m.
Proof.
  intros F [a [b [-> [G L]]]]. rewrite (filter_last (of_group ga) a e b) in F.
  - destruct (Forall2_app_inv_l _ _ F) as [x [y [_ [Y E]]]].
    inversion Y as [|e' m l l' RM N]; subst. inversion N; subst. exists m. split; [exact RM|]. exact (kind_retained _ _ _ _ _ E).
  - now apply of_group_is.
  - intros x I. destruct (of_group ga x) eqn:Q; [|reflexivity]. apply of_group_is in Q. exfalso. exact (L x I Q).
Qed.
Lemma related_none (R : entry -> message -> Prop) k ga log ms :
  Forall2 R (filter (of_group ga) log) (filter (on_kind k ga) ms) -> untouched ga log ->
  forall m, In m ms -> ~ is_topic k ga (m_topic m).
Proof.
  intros F U m I T.
  assert (X : filter (of_group ga) log = []).
  { clear F. induction log as [|e log IH]; [reflexivity|]. cbn [filter].
    destruct (of_group ga e) eqn:Q; [exfalso; apply of_group_is in Q; exact (U e (or_introl eq_refl) Q)|].
    apply IH. intros e' J. apply U. now right. }
  rewrite X in F. assert (J : In m (filter (on_kind k ga) ms)).
  { apply filter_In. split; [exact I|]. now apply on_kind_is. }
  destruct (filter (on_kind k ga) ms); [destruct J|inversion F].
Qed.

(** Over any number of lives: what is retained for a light is the message of the
    latest entry of its group among those the broker has heard of, and what is
    retained for the sensor that of the latest entry heard of in full.  There is
    nothing if there is no such entry. *)
Theorem C93_retained : forall lives k, Forall2 (fun l x => known_of l (fst x) (snd x)) lives k ->
  forall ga,
    (forall e, latest (light_log k) ga e -> exists light binary, entry_report e [light; binary]
       /\ is_topic LightState ga (m_topic light) /\ retained (heard lives) light)
    /\ (forall e, latest (sensor_log k) ga e -> exists light binary, entry_report e [light; binary]
       /\ is_topic SensorState ga (m_topic binary) /\ retained (heard lives) binary)
    /\ (untouched ga (light_log k) -> forall m, In m (heard lives) -> ~ is_topic LightState ga (m_topic m))
    /\ (untouched ga (sensor_log k) -> forall m, In m (heard lives) -> ~ is_topic SensorState ga (m_topic m)).
Proof.
  intros lives k F ga. destruct (heard_kinds lives k ga F) as [L S]. repeat split.
  - intros e E. destruct (related_latest _ _ _ _ _ _ L E) as [m [[binary R] Q]]. exists m, binary. auto.
  - intros e E. destruct (related_latest _ _ _ _ _ _ S E) as [m [[light R] Q]]. exists light, m. auto.
  - exact (related_none _ _ _ _ _ L).
  - exact (related_none _ _ _ _ _ S).
Qed.
Print Assumptions C93_retained.

(** If the broker has not been left with half a report of the group, or has
    heard of the group in full in the last life, light and sensor agree. *)
Lemma latest_or log ga : (exists e, latest log ga e) \/ untouched ga log.
Proof.
  induction log as [|e log [[e' [a [b [-> [G L]]]]]|IH]]; [right; intros e []| |].
  - left. exists e', (e :: a), b. auto.
  - destruct (of_group ga e) eqn:D.
    + apply of_group_is in D. left. exists e, [], log. auto.
    + right. intros x [<-|I]; [|auto]. intros Q. apply of_group_is in Q. congruence.
Qed.
Lemma latest_app a b ga e : latest b ga e -> latest (a ++ b) ga e.
Proof. intros [x [y [-> Q]]]. exists (a ++ x), y. split; [apply app_assoc|exact Q]. Qed.
Lemma latest_untouched a b ga e : untouched ga b -> latest a ga e -> latest (a ++ b) ga e.
Proof.
  intros U [x [y [-> [G Q]]]]. exists x, (y ++ b). split; [rewrite <- app_assoc; reflexivity|]. split; [exact G|].
  intros e' I. apply in_app_iff in I. destruct I; auto.
Qed.
Lemma untouched_app ga a b : untouched ga (a ++ b) <-> untouched ga a /\ untouched ga b.
Proof.
  split; [intros U; split; intros e I; apply U, in_app_iff; auto|].
  intros [A B] e I. apply in_app_iff in I. destruct I; [now apply A|now apply B].
Qed.
Lemma latest_fun log ga e e' : latest log ga e -> latest log ga e' -> e = e'.
Proof.
  intros [a [b [E [G N]]]] [a' [b' [E' [G' N']]]]. rewrite E in E'. clear E. revert a' E'.
  induction a as [|z a IH]; intros [|z' a'] E'; cbn [app] in E'; inversion E'; subst; auto.
  - exfalso. apply (N e'); [apply in_app_iff; right; now left|exact G'].
  - exfalso. apply (N' e); [apply in_app_iff; right; now left|exact G].
  - now apply IH with a'.
Qed.
Lemma latest_in log ga e : latest log ga e -> ~ untouched ga log.
Proof. intros [a [b [-> [G _]]]] U. apply (U e); [apply in_app_iff; right; now left|exact G]. Qed.
Lemma logs_untouched k ga : untouched ga (light_log k) -> untouched ga (sensor_log k).
Proof.
  induction k as [|[known half] q IH]; intros U; [exact U|]. unfold light_log, sensor_log in *. cbn [map concat fst snd] in *.
  rewrite !untouched_app in U. apply untouched_app. split; [apply U|]. apply IH, U.
Qed.
Lemma logs_touched k ga : (forall x, In x k -> untouched ga (snd x)) -> untouched ga (sensor_log k) -> untouched ga (light_log k).
Proof.
  induction k as [|[known half] q IH]; intros W U; [exact U|]. unfold light_log, sensor_log in *. cbn [map concat fst snd] in *.
  rewrite untouched_app in U. rewrite !untouched_app. split; [split; [apply U|exact (W _ (or_introl eq_refl))]|].
  apply IH; [|apply U]. intros x I. apply W. now right.
Qed.
Lemma whole_logs k ga e : (forall x, In x k -> untouched ga (snd x)) ->
  latest (sensor_log k) ga e -> latest (light_log k) ga e.
Proof.
  induction k as [|[known half] k IH]; intros W L; [exact L|].
  assert (W' : forall x, In x k -> untouched ga (snd x)) by (intros x I; apply W; now right).
  assert (WH := W (known, half) (or_introl eq_refl)). cbn [snd] in WH.
  change (light_log ((known, half) :: k)) with ((known ++ half) ++ light_log k).
  change (sensor_log ((known, half) :: k)) with (known ++ sensor_log k) in L.
  destruct (latest_or (sensor_log k) ga) as [[e' L']|U].
  - assert (Q := latest_fun _ _ _ _ (latest_app known _ _ _ L') L). subst e'. apply latest_app. now apply IH.
  - destruct (latest_or known ga) as [[e' L']|U'].
    + assert (Q := latest_fun _ _ _ _ (latest_untouched _ _ _ _ U L') L). subst e'.
      apply latest_untouched; [now apply logs_touched|]. now apply latest_untouched.
    + exfalso. apply (latest_in _ _ _ L). apply untouched_app. auto.
Qed.

(** The broker was not left with half a report for the group, or has since had a
    whole one. *)
Definition settled (ga : Z) (k : list (list entry * list entry)) : Prop :=
  exists k1 k2, k = k1 ++ k2 /\ (forall x, In x k2 -> untouched ga (snd x))
    /\ (k1 = [] \/ ~ untouched ga (sensor_log k2)).
Lemma reported_agree e light binary : entry_report e [light; binary] ->
  exists v, brightness_of light v /\ m_payload binary = PRaw (txt (if 0 <? v then "ON" else "OFF")).
Proof.
  intros R.
  assert (K : forall ga src on b t s, reports ga src on b t s [light; binary] -> forall v, b = PInt v -> s = (0 <? v) ->
    exists v, brightness_of light v /\ m_payload binary = PRaw (txt (if 0 <? v then "ON" else "OFF"))).
  { intros ga src on b t s [x [y [_ [_ Q]]]] v -> ->. inversion Q; subst. exists v.
    split; [|reflexivity]. eexists. split; [reflexivity|]. apply jlookup_has. reflexivity. }
  destruct e as [src s|g w]; cbn [entry_report] in R.
  - inversion R as [g l' H|g l' H|g d level l' H|s' H1 H2]; subst; eapply K; try exact H; reflexivity.
  - destruct w; cbn [wish_report] in R; (eapply K; [exact R|reflexivity|reflexivity]).
Qed.
Theorem C93_agree : forall lives k ga light, Forall2 (fun l x => known_of l (fst x) (snd x)) lives k ->
  settled ga k -> is_topic LightState ga (m_topic light) -> retained (heard lives) light ->
  exists binary v, is_topic SensorState ga (m_topic binary) /\ retained (heard lives) binary
    /\ brightness_of light v /\ m_payload binary = PRaw (txt (if 0 <? v then "ON" else "OFF")).
Proof.
  intros lives k ga light F [k1 [k2 [-> [W T]]]] TL RL.
  destruct (heard_kinds lives _ ga F) as [L S].
  assert (D : forall a b, light_log (a ++ b) = light_log a ++ light_log b /\ sensor_log (a ++ b) = sensor_log a ++ sensor_log b).
  { intros a b. unfold light_log, sensor_log. rewrite !map_app, !concat_app. auto. }
  assert (X : exists e, latest (sensor_log k2) ga e).
  { destruct (latest_or (sensor_log k2) ga) as [E|U]; [exact E|]. exfalso.
    destruct T as [-> |T]; [|contradiction]. cbn [app] in L.
    apply (related_none _ _ _ _ _ L (logs_touched _ _ W U) light); [|exact TL].
    destruct RL as [a [b [-> _]]]. apply in_app_iff. right. now left. }
  destruct X as [e E]. assert (E' := whole_logs _ _ _ W E).
  apply (latest_app (sensor_log k1)) in E. apply (latest_app (light_log k1)) in E'.
  rewrite <- (proj1 (D k1 k2)) in E'. rewrite <- (proj2 (D k1 k2)) in E.
  destruct (related_latest _ _ _ _ _ _ L E') as [m [[b1 R1] [T1 Q1]]].
  destruct (related_latest _ _ _ _ _ _ S E) as [b [[m2 R2] [T2 Q2]]].
  assert (m = light).
  { apply (retained_fun _ _ _ Q1 RL). now rewrite (is_topic_function _ _ _ T1), (is_topic_function _ _ _ TL). }
  subst m. destruct (reported_agree e light b1 R1) as [v [B1 P1]].
  assert (M : b = b1).
  { clear -R1 R2. destruct e as [src s|g w]; cbn [entry_report] in R1, R2.
    - inversion R1 as [g l H|g l H|g d level l H|s' H1 H2]; subst; inversion R2 as [g' l' H'|g' l' H'|g' d' level' l' H'|]; subst;
        destruct H as [x [y [_ [Y Q]]]], H' as [x' [y' [_ [Y' Q']]]]; inversion Q; inversion Q'; subst;
        now rewrite (is_topic_function _ _ _ Y), (is_topic_function _ _ _ Y').
    - destruct w; cbn [wish_report] in R1, R2; destruct R1 as [x [y [_ [Y Q]]]], R2 as [x' [y' [_ [Y' Q']]]];
        inversion Q; inversion Q'; subst; now rewrite (is_topic_function _ _ _ Y), (is_topic_function _ _ _ Y'). }
  subst b1. exists b, v. auto.
Qed.
Print Assumptions C93_agree.

(** A life in which nothing happens to the lights changes nothing of what is
    retained for them: the daemon does not ask the C-Bus for the state. *)
Theorem C93_silent : forall lives l k ga m, clock_works (l_clock l) -> life_log l [] ->
  k = LightState \/ k = SensorState -> is_topic k ga (m_topic m) ->
  (retained (heard (lives ++ [l])) m <-> retained (heard lives) m).
Proof.
  intros lives l k ga m N C K T.
  assert (X : forall m', In m' (received l) -> m_topic m' <> m_topic m).
  { destruct (C93_life l N) as [known [half [rest [orders [ahead [later [C' [[_ [_ [ls [lights [R1 [R2 P]]]]]] _]]]]]]]].
    unfold life_log in C, C'. assert (Q := C61_one_chronicle _ _ _ _ _ _ _ C C').
    symmetry in Q. apply app_eq_nil in Q. destruct Q as [-> Q]. apply app_eq_nil in Q. destruct Q as [-> _].
    inversion R1; subst. inversion R2; subst. cbn [concat app] in P.
    intros m' I E. assert (J : In m' (filter (on_kind k ga) (received l))).
    { apply filter_In. split; [exact I|]. apply on_kind_is. now rewrite E. }
    rewrite <- kind_state, P in J by exact K. destruct J. }
  unfold heard. rewrite map_app, concat_app. cbn [map concat]. rewrite app_nil_r. fold (heard lives). split.
  - intros [a [b [E B]]]. destruct (app_eq_app _ _ _ _ E) as [x [[Q1 Q2]|[Q1 Q2]]].
    + destruct x as [|y x]; cbn [app] in Q2.
      * exfalso. apply (X m); [rewrite <- Q2; now left|reflexivity].
      * inversion Q2; subst y. exists a, x. split; [exact Q1|]. intros m' I. apply B. rewrite H1. apply in_app_iff. now left.
    + exfalso. apply (X m); [rewrite Q2; apply in_app_iff; right; now left|reflexivity].
  - intros [a [b [E B]]]. exists a, (b ++ received l). rewrite E, <- app_assoc. split; [reflexivity|].
    intros m' I. apply in_app_iff in I. destruct I as [I|I]; [now apply B|now apply X].
Qed.
Print Assumptions C93_silent.

(** Three lives: group 1 is switched off; then on, and the process is stopped
    once the order is written to the C-Bus ([n] more effects are carried out);
    then it is started again and connects to both sides. *)
Definition order_1 (state : text) : dop := DMqttMessage (txt "homeassistant/light/cbus_1/set") (body state []).
Definition life_1 (calls : list dop) (n : nat) : life :=
  mkLife plain_unicode noon [] 0 false (DConnected :: DMqttConnected :: calls) n 5000.
Definition outage (n : nat) : list life :=
  [life_1 [order_1 (txt "off")] 5000; life_1 [order_1 (txt "on")] (521 + n); life_1 [] 5000].
Lemma outage_effects : length (effects (life_trace (life_1 [order_1 (txt "on")] 0))) = 523%nat.
Proof. vm_compute. reflexivity. Qed.
Example C93_case :
  (* the broker gets everything: on and on *)
  map state_messages (map received (outage 2)) = [relay_off None 1; relay_on None 1; []]
  (* only the message for the light *)
  /\ map state_messages (map received (outage 1)) = [relay_off None 1; firstn 1 (relay_on None 1); []]
  (* the order is carried out, nothing is reported *)
  /\ map state_messages (map received (outage 0)) = [relay_off None 1; []; []]
  /\ map commanded (map did (outage 0)) = [[LightOff 1]; [LightOn 1]; []].
Proof. vm_compute. repeat split. Qed.

(** After all that, the retained state is not what the C-Bus was told last, and
    an undisturbed life does not put it right: *)
Theorem C93_current_refuted : exists lives l, Forall (fun l => clock_works (l_clock l)) (lives ++ [l])
  /\ commanded (flat_map did (lives ++ [l])) = [LightOff 1; LightOn 1] /\ undisturbed l
  /\ exists light, is_topic LightState 1 (m_topic light) /\ retained (heard (lives ++ [l])) light /\ brightness_of light 0.
Proof.
  exists (firstn 2 (outage 0)), (life_1 [] 5000).
  change (firstn 2 (outage 0) ++ [life_1 [] 5000]) with (outage 0).
  split; [repeat constructor; exact noon_works|]. split; [vm_compute; reflexivity|].
  split; [split; apply Nat.leb_le; vm_compute; reflexivity|].
  assert (E : filter (on_kind LightState 1) (heard (outage 0)) = [] ++ firstn 1 (relay_off None 1)) by (vm_compute; reflexivity).
  destruct (kind_retained _ _ _ _ _ E) as [T R]. eexists. split; [exact T|]. split; [exact R|].
  eexists. split; [reflexivity|]. apply jlookup_has. reflexivity.
Qed.
Print Assumptions C93_current_refuted.
(** and light and sensor may contradict each other until the group is next
    heard of: *)
Theorem C93_agree_refuted : exists lives l, Forall (fun l => clock_works (l_clock l)) (lives ++ [l]) /\ undisturbed l
  /\ exists light binary, is_topic LightState 1 (m_topic light) /\ retained (heard (lives ++ [l])) light /\ brightness_of light 255
     /\ is_topic SensorState 1 (m_topic binary) /\ retained (heard (lives ++ [l])) binary /\ m_payload binary = PRaw (txt "OFF").
Proof.
  exists (firstn 2 (outage 1)), (life_1 [] 5000).
  change (firstn 2 (outage 1) ++ [life_1 [] 5000]) with (outage 1).
  split; [repeat constructor; exact noon_works|]. split; [split; apply Nat.leb_le; vm_compute; reflexivity|].
  assert (E : filter (on_kind LightState 1) (heard (outage 1)) = firstn 1 (relay_off None 1) ++ firstn 1 (relay_on None 1)) by (vm_compute; reflexivity).
  assert (E2 : filter (on_kind SensorState 1) (heard (outage 1)) = [] ++ skipn 1 (relay_off None 1)) by (vm_compute; reflexivity).
  destruct (kind_retained _ _ _ _ _ E) as [T R]. destruct (kind_retained _ _ _ _ _ E2) as [T2 R2].
  eexists. eexists. split; [exact T|]. split; [exact R|]. split; [|split; [exact T2|split; [exact R2|reflexivity]]].
  eexists. split; [reflexivity|]. apply jlookup_has. reflexivity.
Qed.
Print Assumptions C93_agree_refuted.
