(** Lemmas about the daemon connected to an emulator: apart from what it
    publishes, it is a client whose program makes the calls MQTT clients ask
    for. *)
From Coq Require Import String List ZArith QArith Bool Lia.
From Verif Require Import Py Common Sal Cal Packet Text Mqtt Buffered Client Cmqttd Daemon Server Base Spec Spec_client
  Spec_mqtt Spec_daemon Spec_server Spec_system Common_facts Buffer_facts Client_facts Client_steps Client_send Client_calls
  Client_dispatch Prop_client Mqtt_facts Prop_mqtt Prop_daemon Server_facts Prop_server System_facts System_client
  Prop_system Prop_announce Loop Spec_loop Loop_facts Prop_loop House Spec_house.
Import ListNotations.
Notation length := List.length.
Open Scope Z_scope.

(** ** The effects other than on MQTT *)

Definition off_mqtt (e : cev) : bool := match e with CPublish _ | CSubscribe _ => false | _ => true end.
Definition strip (ev : list cev) : list cev := filter off_mqtt ev.
Lemma strip_app a b : strip (a ++ b) = strip a ++ strip b.
Proof. apply filter_app. Qed.
Lemma strip_publishes l : strip (map CPublish l) = [].
Proof. induction l; auto. Qed.
Lemma strip_writes ev : writes (strip ev) = writes ev.
Proof. induction ev as [|e ev IH]; [reflexivity|]. destruct e; cbn; first [exact IH|f_equal; exact IH]. Qed.
Lemma strip_callbacks ev : callbacks (strip ev) = callbacks ev.
Proof. induction ev as [|e ev IH]; [reflexivity|]. destruct e; cbn; first [exact IH|f_equal; exact IH]. Qed.
Lemma strip_seen ev : flat_map Spec_daemon.seen (callbacks ev) = flat_map Spec_daemon.seen ev.
Proof. induction ev as [|e ev IH]; [reflexivity|]. destruct e; cbn; first [exact IH|f_equal; exact IH]. Qed.

Lemma emit_all l c : memit_all l c = (c, l, Ok tt).
Proof. induction l as [|e l IH]; [reflexivity|]. cbn [memit_all]. unfold mseq, mbind, memit. now rewrite IH. Qed.

(** ** Whether MQTT is attached makes no other difference *)

Definition same {A} (m : M A) : Prop := forall c b c1 e1 r, m c = (c1, e1, r) ->
  exists e2, m (set_mqtt c b) = (set_mqtt c1 b, e2, r) /\ strip e2 = strip e1.
Lemma same_lift {A} (r : res A) : same (mlift r).
Proof. intros c b c1 e1 r1 E. inversion E; subst. exists []. auto. Qed.
Lemma same_ret {A} (a : A) : same (mret a).
Proof. intros c b c1 e1 r1 E. inversion E; subst. exists []. auto. Qed.
Lemma same_raise {A} (e : exn) : same (mraise (A := A) e).
Proof. intros c b c1 e1 r1 E. inversion E; subst. exists []. auto. Qed.
Lemma same_emit e : same (memit e).
Proof. intros c b c1 e1 r1 E. inversion E; subst. exists [e]. auto. Qed.
Lemma same_bind {A B} (m : M A) (f : A -> M B) : same m -> (forall a, same (f a)) -> same (mbind m f).
Proof.
  intros Hm Hf c b c1 e1 r1 E. unfold mbind in *.
  destruct (m c) as [[cm em] [a|e]] eqn:Em; destruct (Hm _ b _ _ _ Em) as [e2 [Q S]]; rewrite Q.
  - destruct (f a cm) as [[cf ef] rf] eqn:Ef. inversion E; subst. destruct (Hf a _ b _ _ _ Ef) as [e3 [Q3 S3]]. rewrite Q3.
    exists (e2 ++ e3). split; [reflexivity|]. rewrite !strip_app. congruence.
  - inversion E; subst. exists e2. auto.
Qed.
Lemma same_seq {A B} (m : M A) (k : M B) : same m -> same k -> same (mseq m k).
Proof. intros H K. apply same_bind; auto. Qed.
Lemma same_relay l : same (relay l).
Proof.
  intros c b c1 e1 r1 E. unfold relay in *. cbn [cl_class cl_mqtt set_mqtt].
  destruct (cl_class c); [inversion E; subst; exists []; auto|].
  exists (if b then map CPublish l else []).
  assert (X : c1 = c /\ r1 = Ok tt /\ strip e1 = []).
  { destruct (cl_mqtt c); [rewrite emit_all in E|]; inversion E; subst; auto using strip_publishes. }
  destruct X as [-> [-> ->]].
  destruct b; [rewrite emit_all|]; auto using strip_publishes.
Qed.
Lemma same_send p k x : same (send p k x).
Proof.
  intros c b c1 e1 r1 E. unfold send in *. cbn [cl_transport set_mqtt].
  destruct (negb (cl_transport c)); [inversion E; subst; exists []; auto|].
  destruct (negb (is_base_packet p)); [inversion E; subst; exists []; auto|].
  destruct (encode_packet p) as [w|e]; [|inversion E; subst; exists []; auto].
  destruct (k && negb (is_special_client p)).
  - unfold mbind, get_confirmation_code in *. cbn [cl_index set_mqtt].
    destruct (nth_error CONFIRMATION_CODES (cl_index c)); [|inversion E; subst; exists []; auto].
    unfold mseq, mbind, memit, mret in *. inversion E; subst. eexists. split; reflexivity.
  - inversion E; subst. eexists. split; reflexivity.
Qed.
Lemma same_clock now w : same (clock_datetime now w).
Proof.
  unfold clock_datetime. apply same_bind.
  - intros c b c1 e1 r1 E. destruct w; inversion E; subst; exists []; auto.
  - intros v. apply same_bind; [apply same_lift|]. intros s. apply same_bind; [apply same_lift|]. intros p. apply same_send.
Qed.
Lemma same_groups new gas : same (send_groups new gas).
Proof.
  unfold send_groups. destruct (Nat.ltb 9 (length gas)); [apply same_raise|].
  apply same_bind; [apply same_lift|]. intros s. apply same_bind; [apply same_lift|]. intros p. apply same_send.
Qed.
Lemma same_ramp ga d v : same (lighting_group_ramp ga d v).
Proof.
  apply same_bind; [apply same_lift|]. intros s. apply same_bind; [apply same_lift|]. intros p. apply same_send.
Qed.
Lemma same_reset : same pci_reset.
Proof. unfold pci_reset. repeat (apply same_seq; [apply same_send|]). apply same_ret. Qed.
Lemma same_connect : same connection_made.
Proof.
  intros c b c1 e1 r1 E. unfold connection_made in *.
  change (set_transport (set_mqtt c b) true) with (set_mqtt (set_transport c true) b).
  revert E. apply same_seq; [apply same_reset|]. intros c' b' c1' e1' r1' E. cbn [cl_frequency set_mqtt].
  destruct (cl_frequency c' =? 0); inversion E; subst; eexists; split; reflexivity.
Qed.
Lemma same_timesync now : same (timesync_step now).
Proof.
  intros c b c1 e1 r1 E. unfold timesync_step in *. cbn [cl_tasks cl_frequency set_mqtt].
  destruct (Nat.eqb (cl_tasks c) 0); [inversion E; subst; exists []; auto|].
  destruct (cl_frequency c <=? 0); [inversion E; subst; exists []; auto|].
  destruct (clock_datetime now None c) as [[cc ee] [x|x]] eqn:C; destruct (same_clock now None _ b _ _ _ C) as [e2 [Q S]]; rewrite Q;
    inversion E; subst; exists e2; auto.
Qed.
Lemma same_dispatch now src s : same (dispatch_sal now src s).
Proof.
  destruct s; cbn [dispatch_sal]; try apply same_ret; try apply same_emit;
    try (apply same_seq; [apply same_emit|]; apply same_relay).
  apply same_seq; [apply same_emit|]. intros c b c1 e1 r1 E. cbn [cl_class cl_handle_clock set_mqtt].
  destruct (cl_class c); [destruct (cl_handle_clock c)|]; revert E;
    try apply (same_ret tt); apply same_seq; try apply same_clock; apply same_ret.
Qed.
Lemma same_dispatch_all now src sals : same (dispatch_sals now src sals).
Proof. induction sals; cbn [dispatch_sals]; [apply same_ret|]. apply same_seq; [apply same_dispatch|assumption]. Qed.
Lemma same_handle now p : same (handle_cbus_packet now p).
Proof. destruct p; cbn [handle_cbus_packet]; try apply same_ret; try apply same_emit. apply same_dispatch_all. Qed.
Lemma same_data now c b buf c1 e1 r : handle_data now c buf = (c1, e1, r) ->
  exists e2, handle_data now (set_mqtt c b) buf = (set_mqtt c1 b, e2, r) /\ strip e2 = strip e1.
Proof.
  unfold handle_data. destruct (decode_packet buf true true true) as [ws [[[p|] n]|e]]; intros E;
    try (inversion E; subst; eexists; split; reflexivity).
  destruct (handle_cbus_packet now p c) as [[cc ee] rr] eqn:H. destruct (same_handle now p _ b _ _ _ H) as [e2 [Q S]]. rewrite Q.
  destruct rr as [[]|x]; inversion E; subst; exists (map CWarn ws ++ e2); rewrite !strip_app, S; auto.
Qed.
Lemma same_processes now b c buf calls c1 buf1 e1 r : processes (handle_data now) c buf calls c1 buf1 e1 r ->
  exists e2, processes (handle_data now) (set_mqtt c b) buf calls (set_mqtt c1 b) buf1 e2 r /\ strip e2 = strip e1.
Proof.
  induction 1 as [st|st buf st' ev e N H|st buf st' ev N H|st buf st' ev N H
                 |st buf st' ev r N H R|st buf st' ev r calls st'' buf' ev' out N H R P [e3 [P3 S3]]].
  - exists []. split; [constructor|reflexivity].
  - destruct (same_data _ _ b _ _ _ _ H) as [e2 [Q S]]. exists e2. split; [now apply pr_raise|exact S].
  - destruct (same_data _ _ b _ _ _ _ H) as [e2 [Q S]]. exists e2. split; [now apply pr_wait|exact S].
  - destruct (same_data _ _ b _ _ _ _ H) as [e2 [Q S]]. exists e2. split; [now apply pr_clear|exact S].
  - destruct (same_data _ _ b _ _ _ _ H) as [e2 [Q S]]. exists e2. split; [now apply pr_invalid with r|exact S].
  - destruct (same_data _ _ b _ _ _ _ H) as [e2 [Q S]]. exists (e2 ++ e3). split; [now eapply pr_next; eauto|].
    rewrite !strip_app. congruence.
Qed.
Lemma same_received now b c buf d c1 buf1 e1 r :
  data_received (handle_data now) MAX_BUFFER_SIZE c buf d = (c1, buf1, e1, r) ->
  exists e2, data_received (handle_data now) MAX_BUFFER_SIZE (set_mqtt c b) buf d = (set_mqtt c1 b, buf1, e2, r)
    /\ strip e2 = strip e1.
Proof.
  unfold data_received. destruct (Nat.ltb MAX_BUFFER_SIZE (length d)); [intros E; inversion E; subst; exists []; auto|].
  destruct (Nat.ltb MAX_BUFFER_SIZE (length buf + length d)); [intros E; inversion E; subst; exists []; auto|].
  intros E. destruct (process_buffer_spec _ _ _ _ _ _ _ E) as [calls P].
  destruct (same_processes now b _ _ _ _ _ _ _ P) as [e2 [P2 S]]. exists e2. split; [|exact S].
  destruct (process_buffer (handle_data now) (set_mqtt c b) (buf ++ d)) as [[[c3 b3] e3] r3] eqn:E3.
  destruct (process_buffer_spec _ _ _ _ _ _ _ E3) as [calls3 P3].
  destruct (processes_unique _ _ _ _ _ _ _ _ P2 _ _ _ _ _ P3) as [_ [-> [-> [-> ->]]]]. reflexivity.
Qed.

(** The state without MQTT. *)
Definition bare (st : client * bytes) : client * bytes := (set_mqtt (fst st) false, snd st).

(** The call of the client for a call of asyncio on the daemon. *)
Inductive bus_counterpart : dop -> cop -> Prop :=
| bc_connected : bus_counterpart DConnected OpConnect
| bc_data b : bus_counterpart (DData b) (OpData b)
| bc_timesync : bus_counterpart DTimesync OpTimesync.
(** The call an order causes. *)
Definition order_call (ga : Z) (w : wish) : cop :=
  match w with WishOn => OpOn [ga] | WishOff => OpOff [ga] | WishRamp v s => OpRamp ga s (PInt v) end.

Lemma bare_bus u now labels st o o' st' ev r : bus_counterpart o o' ->
  daemon_step u now labels st o = (st', ev, r) ->
  exists ev' r', client_step now (bare st) o' = (bare st', ev', r') /\ strip ev' = strip ev /\ r = rbind r' (fun _ => Ok tt).
Proof.
  intros B E. destruct B; cbn [daemon_step client_step] in *; unfold bare in *.
  - cbn [api fst snd] in *. destruct (mseq connection_made (mret None) (fst st)) as [[c1 e1] r1] eqn:C. inversion E; subst.
    destruct (same_seq _ _ same_connect (same_ret None) _ false _ _ _ C) as [e2 [Q S]]. rewrite Q. eexists e2, _. auto.
  - cbn [fst snd].
    destruct (data_received (handle_data now) MAX_BUFFER_SIZE (fst st) (snd st) b) as [[[c1 b1] e1] r1] eqn:C.
    destruct (same_received now false _ _ _ _ _ _ _ C) as [e2 [Q S]]. rewrite Q.
    destruct r1 as [[]|x]; inversion E; subst; eexists e2, _; auto.
  - cbn [api fst snd] in *. destruct (mseq (timesync_step now) (mret None) (fst st)) as [[c1 e1] r1] eqn:C. inversion E; subst.
    destruct (same_seq _ _ (same_timesync now) (same_ret None) _ false _ _ _ C) as [e2 [Q S]]. rewrite Q. eexists e2, _. auto.
Qed.

Lemma same_api_order now ga w : same (api now (order_call ga w)).
Proof. destruct w; cbn [order_call api]; [apply same_groups|apply same_groups|apply same_ramp]. Qed.
Lemma order_client now st o : client_step now st (order_call (fst o) (snd o)) =
  match api now (order_call (fst o) (snd o)) (fst st) with (c, ev, r) => ((c, snd st), ev, r) end.
Proof. now destruct o as [ga [| |]]. Qed.

Lemma bare_order u now labels st topic payload ga w st' ev r : ready (fst st) -> orders u topic payload ga w ->
  daemon_step u now labels st (DMqttMessage topic payload) = (st', ev, r) ->
  r = Ok tt /\ ready (fst st') /\ cl_class (fst st') = cl_class (fst st)
  /\ exists ev' x, client_step now (bare st) (order_call ga w) = (bare st', ev', Ok x) /\ strip ev' = strip ev.
Proof.
  intros [T I] O E.
  destruct (order_step u now labels st topic payload ga w I T O) as [line [command [messages [E' _]]]].
  rewrite E in E'. inversion E'. split; [reflexivity|]. subst.
  split. { split; [exact T|]. unfold counter_ok. cbn [cl_index set_index fst]. exact (Nat.mod_upper_bound _ 20 ltac:(discriminate)). }
  split; [reflexivity|].
  destruct O as [l [on [b [t [A [-> [B W]]]]]]].
  cbn [daemon_step] in E. rewrite (message_asks u topic ga l on b t (fst st) A B), (light_wish ga on b t w W) in E.
  assert (X : exists rel, (match w with
    | WishOn => mseq (lighting_group_on [ga]) (memit_all (map CPublish (relay_on None ga)))
    | WishOff => mseq (lighting_group_off [ga]) (memit_all (map CPublish (relay_off None ga)))
    | WishRamp v s => mseq (lighting_group_ramp ga s (PInt v)) (memit_all (map CPublish (relay_ramp None ga s (PInt v))))
    end) = mseq (api now (order_call ga w)) (memit_all (map CPublish rel))) by (destruct w; eexists; reflexivity).
  destruct X as [rel X]. rewrite X in E. clear X.
  pose proof (order_client now (bare st) (ga, w)) as OC. cbn [fst snd] in OC. rewrite OC. clear OC. cbn [bare fst snd].
  unfold mseq, mbind in E. destruct (api now (order_call ga w) (fst st)) as [[c1 e1] [rr|x]] eqn:F; [|inversion E].
  rewrite emit_all in E. destruct (same_api_order now ga w _ false _ _ _ F) as [e2 [Q S]]. rewrite Q.
  exists e2, rr. split; [inversion E; subst; reflexivity|].
  rewrite S. inversion E; subst. rewrite strip_app, strip_publishes, app_nil_r. reflexivity.
Qed.

(** ** The history of the client *)

Inductive tracks (u : unicode) : list hseen -> list Loop.seen -> Prop :=
| tk_end : tracks u [] []
| tk_pci o ev r tr tr' : tracks u tr tr' -> tracks u (SeenPci o ev r :: tr) (SeenServer o ev r :: tr')
| tk_bus o o' ev ev' r r' tr tr' : bus_counterpart o o' -> strip ev' = strip ev -> r = rbind r' (fun _ => Ok tt) ->
    tracks u tr tr' -> tracks u (SeenDaemon o ev r :: tr) (SeenClient o' ev' r' :: tr')
| tk_order topic payload ga w ev ev' r x tr tr' : orders u topic payload ga w -> strip ev' = strip ev ->
    tracks u tr tr' -> tracks u (SeenDaemon (DMqttMessage topic payload) ev r :: tr) (SeenClient (order_call ga w) ev' (Ok x) :: tr')
| tk_ignored topic payload r tr tr' : (forall ga w, ~ orders u topic payload ga w) ->
    tracks u tr tr' -> tracks u (SeenDaemon (DMqttMessage topic payload) [] r :: tr) tr'
| tk_mqtt ev r tr tr' : strip ev = [] ->
    tracks u tr tr' -> tracks u (SeenDaemon DMqttConnected ev r :: tr) tr'.

(** What both histories have in common. *)
Lemma tracks_pci u tr tr' : tracks u tr tr' ->
  server_calls tr' = pci_calls tr /\ server_trace tr' = pci_trace tr
  /\ (forall o ev r, In (SeenServer o ev r) tr' <-> In (SeenPci o ev r) tr).
Proof.
  induction 1 as [|o ev r tr tr' T [A [B C]]|o o' ev ev' r r' tr tr' Bc S R T [A [B C]]
    |topic payload ga w ev ev' r x tr tr' O S T [A [B C]]|topic payload r tr tr' O T [A [B C]]|ev r tr tr' S T [A [B C]]];
    cbn [server_calls server_trace pci_calls pci_trace flat_map app] in *.
  - repeat split; intros [].
  - unfold server_calls, server_trace, pci_calls, pci_trace in *. rewrite A, B. repeat split; auto;
      (intros [X|X]; [inversion X; left; reflexivity|right; apply C; exact X]).
  - repeat split; auto; (intros [X|X]; [discriminate X|right; apply C; exact X]).
  - repeat split; auto; (intros [X|X]; [discriminate X|right; apply C; exact X]).
  - repeat split; auto; [intros X; right; apply C; exact X|intros [X|X]; [discriminate X|apply C; exact X]].
  - repeat split; auto; [intros X; right; apply C; exact X|intros [X|X]; [discriminate X|apply C; exact X]].
Qed.
Lemma tracks_strip u tr tr' : tracks u tr tr' -> strip (effects (client_trace tr')) = strip (effects (daemon_trace tr)).
Proof.
  assert (C : forall o ev r t, effects (client_trace (SeenClient o ev r :: t)) = ev ++ effects (client_trace t)) by reflexivity.
  assert (D : forall o ev r t, effects (daemon_trace (SeenDaemon o ev r :: t)) = ev ++ effects (daemon_trace t)) by reflexivity.
  induction 1 as [|o ev r tr tr' T IH|o o' ev ev' r r' tr tr' Bc S R T IH
    |topic payload ga w ev ev' r x tr tr' O S T IH|topic payload r tr tr' O T IH|ev r tr tr' S T IH];
    rewrite ?C, ?D, ?strip_app; try congruence; try exact IH.
  - reflexivity.
  - now rewrite S.
Qed.
Lemma tracks_dropped u tr tr' : tracks u tr tr' -> nothing_lost tr -> nothing_dropped tr'.
Proof.
  intros T N d ev I. revert N. induction T as [|o ev1 r tr tr' T IH|o o' ev1 ev' r r' tr tr' Bc S R T IH
    |topic payload ga w ev1 ev' r x tr tr' O S T IH|topic payload r tr tr' O T IH|ev1 r tr tr' S T IH]; intros N; cbn [In] in I.
  - exact I.
  - destruct I as [I|I]; [discriminate I|]. apply IH; auto. intros d' e' J. now apply (N d' e'); right.
  - destruct I as [I|I].
    + inversion I; subst. inversion Bc; subst. now apply (N d ev1); left.
    + apply IH; auto. intros d' e' J. now apply (N d' e'); right.
  - destruct I as [I|I]; [discriminate I|]. apply IH; auto. intros d' e' J. now apply (N d' e'); right.
  - apply IH; auto. intros d' e' J. now apply (N d' e'); right.
  - apply IH; auto. intros d' e' J. now apply (N d' e'); right.
Qed.

(** Steps that are permitted but for the size of a piece; the emulator refused
    no piece. *)
Definition lax (o : hop) : Prop := match o with Rise _ => True | _ => permitted o end.
Definition none_refused (tr : list hseen) : Prop :=
  forall data ev, ~ In (SeenPci (SOpData data) ev (Raise ValueError)) tr.
Lemma permitted_lax o : permitted o -> lax o.
Proof. now destruct o. Qed.
Lemma tracks_refused u tr tr' : tracks u tr tr' -> none_refused tr -> nothing_refused tr'.
Proof. intros T N d ev I. apply (N d ev). now apply (tracks_pci _ _ _ T). Qed.

(** The link without MQTT. *)
Definition plain (k : link) : link := mkLink (bare (k_client k)) (k_up k) (k_server k) (k_down k).
Definition well (k : link) : Prop := ready (fst (k_client k)) /\ cl_class (fst (k_client k)) = ClassHandler.

Lemma bare_ready st : ready (fst (bare st)) <-> ready (fst st).
Proof. reflexivity. Qed.

Lemma well_bus u now labels st o st' ev r : clock_works now -> bus_counterpart o OpTimesync \/ (exists b, o = DData b) ->
  ready (fst st) -> cl_class (fst st) = ClassHandler -> daemon_step u now labels st o = (st', ev, r) ->
  ready (fst st') /\ cl_class (fst st') = ClassHandler.
Proof.
  intros W O [T I] C E.
  assert (B : bus_call o) by (destruct O as [O|[b ->]]; [inversion O|]; exact Logic.I).
  destruct (bus_step u now labels st o st' ev r W I C B E) as [_ [_ [I' [C' [_ T']]]]].
  split; [|exact C']. split; [|exact I']. rewrite T', T. now destruct O as [O|[b ->]]; [inversion O|].
Qed.

Lemma house_step_tracks u now labels rnd k o k1 x : clock_works now -> well k -> lax o ->
  house_step u now labels rnd k o = (k1, x) ->
  well k1 /\ exists l tr, Forall lenient l /\ (permitted o -> Forall lawful l) /\ link_run now rnd (plain k) l = (plain k1, tr) /\ (forall r r', tracks u r r' -> tracks u (x :: r) (tr ++ r')).
Proof.
  intros W [K1 K2] P E.
  destruct o as [d|o|n|n]; cbn [house_step lax permitted] in *.
  - unfold at_daemon in E. destruct (daemon_step u now labels (k_client k) d) as [[st ev] r] eqn:S. inversion E; subst; clear E.
    destruct d as [| |b| | |topic payload]; try contradiction.
    + destruct (well_bus _ _ _ _ _ _ _ _ W (or_introl bc_timesync) K1 K2 S) as [K1' K2'].
      split; [split; assumption|].
      destruct (bare_bus _ _ _ _ _ _ _ _ _ bc_timesync S) as [ev' [r' [Q [X R]]]].
      exists [AtClient OpTimesync], [SeenClient OpTimesync ev' r']. split; [repeat constructor|]. split; [repeat constructor|]. split.
      * cbn [link_run link_step]. unfold at_client. cbn [plain k_client k_up k_server k_down]. rewrite Q.
        rewrite <- (strip_writes ev'), X, strip_writes. reflexivity.
      * intros t t' T. cbn [app]. now apply (tk_bus u DTimesync OpTimesync); [constructor| | |].
    + cbn [daemon_step] in S. destruct (on_connect labels (fst (k_client k))) as [[c e] rr] eqn:C. inversion S; subst; clear S.
      unfold on_connect, mseq, mbind, memit in C. rewrite emit_all in C. inversion C; subst; clear C.
      split; [split; assumption|]. exists [], []. split; [constructor|]. split; [constructor|]. split.
      * cbn [link_run]. unfold plain, bare. cbn [k_client k_up k_server k_down fst snd]. f_equal. f_equal.
        assert (Z : forall l, writes (map CPublish l) = []) by (induction l; auto).
        change (k_up k = k_up k ++ concat (writes (map CPublish (publish_all_lights labels)))). rewrite Z. now rewrite app_nil_r.
      * intros t t' T. cbn [app]. apply tk_mqtt; [|exact T]. cbn [strip filter off_mqtt app].
        apply (strip_publishes (publish_all_lights labels)).
    + destruct (order_dec u topic payload true) as [[_ [ga [w O]]]|N].
      * destruct (bare_order _ _ _ _ _ _ _ _ _ _ _ K1 O S) as [-> [K1' [K2' [ev' [y [Q X]]]]]].
        split; [split; [exact K1'|cbn [k_client]; congruence]|].
        exists [AtClient (order_call ga w)], [SeenClient (order_call ga w) ev' (Ok y)].
        split; [constructor; [|constructor]; destruct w; repeat split|].
        split; [intros _; constructor; [|constructor]; destruct w; repeat split|]. split.
        -- cbn [link_run link_step]. unfold at_client. cbn [plain k_client k_up k_server k_down]. rewrite Q.
           rewrite <- (strip_writes ev'), X, strip_writes. reflexivity.
        -- intros t t' T. cbn [app]. now apply tk_order.
      * destruct (ignored_step u now labels (k_client k) topic payload (proj2 K1) (fun _ => N eq_refl)) as [r' E]. rewrite S in E.
        inversion E; subst; clear E. split; [split; assumption|]. exists [], []. split; [constructor|]. split; [constructor|]. split.
        -- cbn [link_run]. unfold plain. cbn [k_client k_up k_server k_down writes flat_map concat]. now rewrite app_nil_r.
        -- intros t t' T. cbn [app]. apply tk_ignored; [apply N; reflexivity|exact T].
  - unfold at_pci in E. destruct (server_step rnd (k_server k) o) as [[st ev] r] eqn:S. inversion E; subst; clear E.
    split; [split; assumption|]. exists [AtServer o], [SeenServer o ev r]. split; [constructor; [exact P|constructor]|]. split; [intros P'; constructor; [exact P'|constructor]|]. split.
    + cbn [link_run link_step]. unfold at_server. cbn [plain k_client k_up k_server k_down]. now rewrite S.
    + intros t t' T. now apply tk_pci.
  - unfold at_pci in E. cbn [k_server k_client k_up k_down] in E.
    destruct (server_step rnd (k_server k) (SOpData (firstn n (k_up k)))) as [[st ev] r] eqn:S. inversion E; subst; clear E.
    split; [split; assumption|]. exists [Up n], [SeenServer (SOpData (firstn n (k_up k))) ev r].
    split; [constructor; [exact P|constructor]|]. split; [intros P'; constructor; [exact P'|constructor]|]. split.
    + cbn [link_run link_step]. unfold at_server. cbn [plain k_client k_up k_server k_down]. now rewrite S.
    + intros t t' T. now apply tk_pci.
  - unfold at_daemon in E. cbn [k_server k_client k_up k_down] in E.
    destruct (daemon_step u now labels (k_client k) (DData (firstn n (k_down k)))) as [[st ev] r] eqn:S. inversion E; subst; clear E.
    destruct (well_bus _ _ _ _ _ _ _ _ W (or_intror (ex_intro _ _ eq_refl)) K1 K2 S) as [K1' K2'].
    split; [split; assumption|].
    destruct (bare_bus _ _ _ _ _ _ _ _ _ (bc_data _) S) as [ev' [r' [Q [X R]]]].
    exists [Down n], [SeenClient (OpData (firstn n (k_down k))) ev' r']. split; [repeat constructor|]. split; [repeat constructor|]. split.
    + cbn [link_run link_step]. unfold at_client. cbn [plain k_client k_up k_server k_down]. rewrite Q.
      rewrite <- (strip_writes ev'), X, strip_writes. reflexivity.
    + intros t t' T. cbn [app]. now apply (tk_bus u (DData _) (OpData _)); [constructor| | |].
Qed.
Lemma link_run_app now rnd l1 : forall l2 k k1 k2 tr1 tr2, link_run now rnd k l1 = (k1, tr1) -> link_run now rnd k1 l2 = (k2, tr2) ->
  link_run now rnd k (l1 ++ l2) = (k2, tr1 ++ tr2).
Proof.
  induction l1 as [|o l1 IH]; intros l2 k k1 k2 tr1 tr2 A B; cbn [link_run app] in *.
  - inversion A; subst. exact B.
  - destruct (link_step now rnd k o) as [ka x]. destruct (link_run now rnd ka l1) as [kb tb] eqn:Q. inversion A; subst.
    now rewrite (IH _ _ _ _ _ _ Q B).
Qed.
Lemma house_run_tracks u now labels rnd l : clock_works now -> Forall lax l -> forall k k1 tr, well k ->
  house_run u now labels rnd k l = (k1, tr) ->
  exists l' tr', Forall lenient l' /\ (Forall permitted l -> Forall lawful l') /\ link_run now rnd (plain k) l' = (plain k1, tr') /\ tracks u tr tr'.
Proof.
  intros W. induction 1 as [|o l P F IH]; intros k k1 tr K E; cbn [house_run] in E.
  - inversion E; subst. exists [], []. repeat constructor.
  - destruct (house_step u now labels rnd k o) as [ka x] eqn:S. destruct (house_run u now labels rnd ka l) as [kb tb] eqn:Q.
    inversion E; subst. destruct (house_step_tracks _ _ _ _ _ _ _ _ W K P S) as [Ka [l1 [t1 [L1 [M1 [R1 T1]]]]]].
    destruct (IH _ _ _ Ka Q) as [l2 [t2 [L2 [M2 [R2 T2]]]]]. exists (l1 ++ l2), (t1 ++ t2).
    split; [apply Forall_app; auto|]. split; [intros X; inversion X; subst; apply Forall_app; auto|]. split; [now apply link_run_app with (plain ka)|now apply T1].
Qed.

(** The daemon and its emulator are a client and an emulator in conversation. *)
Lemma house_talk u now labels rnd timesync no_clock l k tr : clock_works now -> Forall lax l ->
  house u now labels rnd timesync no_clock l = (k, tr) ->
  exists l' tr', Forall lenient l' /\ (Forall permitted l -> Forall lawful l')
    /\ talk now rnd (new_client ClassHandler timesync (negb no_clock) Pending) l' = (plain k, tr') /\ tracks u tr tr'
    /\ exists e1 r1 e2 r2 tr1, tr = SeenPci SOpConnect e1 r1 :: SeenDaemon DConnected e2 r2 :: tr1.
Proof.
  intros W F E. unfold house in E. cbn [house_run] in E.
  set (k0 := mkLink (new_daemon timesync no_clock) [] (new_server, []) []) in *.
  destruct (house_step u now labels rnd k0 (AtPci SOpConnect)) as [k1 x1] eqn:E1.
  destruct (house_step u now labels rnd k1 (AtDaemon DConnected)) as [k2 x2] eqn:E2.
  destruct (house_run u now labels rnd k2 l) as [k3 tr3] eqn:E3. inversion E; subst; clear E.
  cbn [house_step] in E1, E2. unfold at_pci in E1. cbn [k_server k0] in E1.
  destruct (server_step rnd (new_server, []) SOpConnect) as [[s1 v1] r1] eqn:S1. inversion E1; subst; clear E1.
  unfold at_daemon in E2. cbn [k_client k_up k_server k_down] in E2.
  destruct (daemon_step u now labels (new_daemon timesync no_clock) DConnected) as [[s2 v2] r2] eqn:S2. inversion E2; subst; clear E2.
  assert (K : well (mkLink s2 (k_up k0 ++ concat (writes v2)) s1 (k_down k0 ++ concat (swrites v1)))).
  { destruct (bus_step u now labels (new_daemon timesync no_clock) DConnected s2 v2 r2 W) as [_ [_ [I' [C' [_ T']]]]]; auto;
      [unfold counter_ok; cbn; lia|exact Logic.I|]. split; [split; assumption|assumption]. }
  destruct (house_run_tracks u now labels rnd l W F _ _ _ K E3) as [l' [tr' [L [M [R T]]]]].
  destruct (bare_bus _ _ _ _ _ _ _ _ _ bc_connected S2) as [ev' [r' [Q [X Y]]]].
  exists l', (SeenServer SOpConnect v1 r1 :: SeenClient OpConnect ev' r' :: tr'). split; [exact L|]. split; [exact M|]. split; [|split].
  - unfold talk. cbn [link_run link_step]. unfold at_server at 1. cbn [new_link k_server k_client k_up k_down]. rewrite S1.
    unfold at_client. cbn [k_server k_client k_up k_down].
    change (new_client ClassHandler timesync (negb no_clock) Pending, []) with (bare (new_daemon timesync no_clock)). rewrite Q.
    rewrite <- (strip_writes ev'), X, strip_writes. unfold plain in R at 1. cbn [k_server k_client k_up k_down k0] in R.
    now rewrite R.
  - apply tk_pci. apply (tk_bus u DConnected OpConnect); [constructor|exact X|exact Y|exact T].
  - eauto 10.
Qed.
