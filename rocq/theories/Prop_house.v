(** The MQTT daemon connected to an emulated PCI, under every schedule of MQTT
    events, calls and deliveries: C75. *)
From Coq Require Import String List ZArith QArith Bool Lia.
From Verif Require Import Py Common Sal Cal Packet Text Mqtt Buffered Client Cmqttd Daemon Server Base Spec Spec_client
  Spec_mqtt Spec_daemon Spec_server Spec_system Common_facts Buffer_facts Client_facts Client_steps Client_send Client_calls
  Client_dispatch Prop_client Mqtt_facts Prop_mqtt Prop_daemon Server_facts Prop_server System_facts System_client
  Prop_system Prop_announce Loop Spec_loop Loop_facts Prop_loop House Spec_house House_facts.
Import ListNotations.
Notation length := List.length.
Open Scope Z_scope.

(** ** The two histories *)

Lemma house_daemon u now labels rnd l : forall k k1 tr, house_run u now labels rnd k l = (k1, tr) ->
  daemon_run u now labels (k_client k) (daemon_calls tr) = (k_client k1, daemon_trace tr).
Proof.
  assert (D : forall k d k1 x, at_daemon u now labels k d = (k1, x) -> exists ev r,
    x = SeenDaemon d ev r /\ daemon_step u now labels (k_client k) d = (k_client k1, ev, r)).
  { intros k d k1 x E. unfold at_daemon in E. destruct (daemon_step u now labels (k_client k) d) as [[st ev] r].
    inversion E; subst. eauto. }
  assert (P : forall k d k1 x, at_pci rnd k d = (k1, x) -> exists ev r, x = SeenPci d ev r /\ k_client k1 = k_client k).
  { intros k d k1 x E. unfold at_pci in E. destruct (server_step rnd (k_server k) d) as [[st ev] r]. inversion E; subst. eauto. }
  induction l as [|o l IH]; intros k k1 tr E; cbn [house_run] in E; [inversion E; reflexivity|].
  destruct (house_step u now labels rnd k o) as [ka x] eqn:S. destruct (house_run u now labels rnd ka l) as [kb tb] eqn:Q.
  inversion E; subst; clear E. specialize (IH _ _ _ Q).
  destruct o as [d|o|n|n]; cbn [house_step] in S.
  - destruct (D _ _ _ _ S) as [ev [r [-> F]]]. cbn [daemon_calls daemon_trace flat_map app daemon_run]. rewrite F. unfold daemon_calls, daemon_trace in IH. now rewrite IH.
  - destruct (P _ _ _ _ S) as [ev [r [-> F]]]. rewrite F in IH. exact IH.
  - destruct (P _ _ _ _ S) as [ev [r [-> F]]]. cbn [k_client] in F. rewrite F in IH. exact IH.
  - destruct (D _ _ _ _ S) as [ev [r [-> F]]]. cbn [k_client] in F. cbn [daemon_calls daemon_trace flat_map app daemon_run]. rewrite F. unfold daemon_calls, daemon_trace in IH. now rewrite IH.
Qed.
Lemma tracks_chunks u tr tr' : tracks u tr tr' ->
  flat_map (fun o => match o with OpData b => [b] | _ => [] end) (client_calls tr')
  = flat_map (fun o => match o with DData b => [b] | _ => [] end) (daemon_calls tr).
Proof.
  induction 1 as [|o ev r tr tr' T IH|o o' ev ev' r r' tr tr' Bc S R T IH
    |topic payload ga w ev ev' r x tr tr' O S T IH|topic payload r tr tr' O T IH|ev r tr tr' S T IH]; try exact IH.
  - reflexivity.
  - destruct Bc; cbn; first [exact IH|f_equal; exact IH].
  - destruct w; exact IH.
Qed.

Lemma sizes u l l' tr tr' : (Forall permitted l -> Forall lawful l') -> tracks u tr tr' ->
  Forall permitted l \/ none_refused tr -> Forall lawful l' \/ nothing_refused tr'.
Proof. intros M K [B|B]; [left; auto|right; now apply tracks_refused with u tr]. Qed.

Lemma house_ends : forall u now labels rnd timesync no_clock l k tr,
  clock_works now -> randint_works rnd -> Forall lax l -> Forall permitted l \/ none_refused tr ->
  house u now labels rnd timesync no_clock l = (k, tr) ->
  daemon_run u now labels (new_daemon timesync no_clock) (daemon_calls tr) = (k_client k, daemon_trace tr)
  /\ server_run rnd (new_server, []) (pci_calls tr) = (k_server k, pci_trace tr)
  /\ concat (writes (effects (daemon_trace tr))) = concat (chunks_of (pci_calls tr)) ++ k_up k
  /\ concat (written (pci_trace tr))
     = concat (flat_map (fun o => match o with DData b => [b] | _ => [] end) (daemon_calls tr)) ++ k_down k.
Proof.
  intros u now labels rnd timesync no_clock l k tr W R F B0 E.
  destruct (house_talk _ _ _ _ _ _ _ _ _ W F E) as [l' [tr' [L [M [T [K _]]]]]].
  destruct (talk_ends _ _ _ _ _ _ _ _ _ W R L T (sizes _ _ _ _ _ M K B0)) as [_ [B [C D]]].
  destruct (tracks_pci _ _ _ K) as [P1 [P2 _]]. rewrite P1, P2 in *. cbn [plain k_server k_up k_down] in *.
  split; [exact (house_daemon _ _ _ _ _ _ _ _ E)|]. split; [exact B|]. split.
  - rewrite <- C, <- (strip_writes (effects (client_trace tr'))), (tracks_strip _ _ _ K), strip_writes. reflexivity.
  - rewrite D, (tracks_chunks _ _ _ K). reflexivity.
Qed.

(** Daemon and emulator are related by the streams only: each history is one of
    that object alone, and what one of them wrote is what the other was given
    followed by what is still under way. *)
Theorem C75_ends : forall u now labels rnd timesync no_clock l k tr,
  clock_works now -> randint_works rnd -> Forall permitted l ->
  house u now labels rnd timesync no_clock l = (k, tr) ->
  daemon_run u now labels (new_daemon timesync no_clock) (daemon_calls tr) = (k_client k, daemon_trace tr)
  /\ server_run rnd (new_server, []) (pci_calls tr) = (k_server k, pci_trace tr)
  /\ concat (writes (effects (daemon_trace tr))) = concat (chunks_of (pci_calls tr)) ++ k_up k
  /\ concat (written (pci_trace tr))
     = concat (flat_map (fun o => match o with DData b => [b] | _ => [] end) (daemon_calls tr)) ++ k_down k.
Proof.
  intros u now labels rnd timesync no_clock l k tr W R F E.
  exact (house_ends _ _ _ _ _ _ _ _ _ W R (Forall_impl _ permitted_lax F) (or_introl F) E).
Qed.
Print Assumptions C75_ends.

(** ** From MQTT to the emulator *)

Lemma ordered_app a b : ordered (a ++ b) = ordered a ++ ordered b.
Proof. apply flat_map_app. Qed.
Lemma ordered_seen ev : ordered (flat_map Spec_daemon.seen ev) = [].
Proof. induction ev as [|e ev IH]; [reflexivity|]. destruct e; exact IH. Qed.

Definition lights_of (p : packet) : list sev := filter is_lighting (scallbacks_of p).
Lemma clock_lights now pks ws : Forall2 (reported now) pks ws -> flat_map lights_of pks = [].
Proof. induction 1 as [|p x pks ws [[code [n [_ ->]]] _] F IH]; [reflexivity|]. cbn [flat_map]. rewrite IH. now destruct (now n). Qed.

Lemma bus_lights now c ws d o r pks : bus_counterpart d o -> Spec_system.asks now c ws o r pks -> flat_map lights_of pks = [].
Proof.
  intros B A. inversion A as [o' O E1 E2 E3|o' code app cmds Q|v a code|o' e Q|r'|o' r' pks' Q F]; subst.
  - reflexivity.
  - inversion B; subst; inversion Q.
  - inversion B.
  - reflexivity.
  - reflexivity.
  - now apply clock_lights with now ws.
Qed.
Lemma order_lights now c ws ga w x pks : Spec_system.asks now c ws (order_call ga w) (Ok x) pks ->
  exists e, flat_map lights_of pks = [e] /\ carried_out ga w e.
Proof.
  intros A. inversion A as [o' O E1 E2 E3|o' code app cmds Q|v a code|o' e Q|r'|o' r' pks' Q F]; subst.
  - destruct O as [O|O]; destruct w; discriminate O.
  - destruct w as [| |v s]; cbn [order_call] in Q; inversion Q as [| | |? ? d ? RT| |]; subst; eexists; (split; [reflexivity|]); cbn; eauto.
  - destruct w; discriminate.
  - destruct w; discriminate.
  - destruct Q as [Q|[b Q]]; destruct w; discriminate Q.
Qed.

Lemma tracks_lights u now tr tr' : tracks u tr tr' -> forall st st' pks mqtt log,
  client_run now st (client_calls tr') = (st', client_trace tr') -> asked now st (client_calls tr') pks ->
  chronicle u mqtt true (daemon_calls tr) (daemon_trace tr) log ->
  Forall2 (fun o e => carried_out (fst o) (snd o) e) (ordered log) (flat_map lights_of pks).
Proof.
  induction 1 as [|o ev r tr tr' T IH|o o' ev ev' r r' tr tr' Bc S R T IH
    |topic payload ga w ev ev' r x tr tr' O S T IH|topic payload r tr tr' O T IH|ev r tr tr' S T IH];
    intros st st' pks mqtt log E A C.
  - inversion C; subst. inversion A; subst. constructor.
  - exact (IH _ _ _ _ _ E A C).
  - cbn in E, A, C. inversion A as [|? ? ? st1 ev1 r1 p1 p2 E1 K A1]; subst. rewrite E1 in E.
    fold (client_calls tr') in *. fold (client_trace tr') in *. fold (daemon_calls tr) in *. fold (daemon_trace tr) in *.
    destruct (client_run now st1 (client_calls tr')) as [s2 t2] eqn:Q. inversion E; subst.
    rewrite flat_map_app, (bus_lights _ _ _ _ _ _ _ Bc K). cbn [app].
    inversion C as [|? ? ? ? ? ? ? log' B C'|? ? ? ? ? ? ? C'|? ? ? ? ? ? ? ? ? ? O C'|? ? ? ? ? ? ? ? ? O C']; subst; try (inversion Bc; fail).
    rewrite ordered_app. assert (Z : ordered (if mqtt then flat_map Spec_daemon.seen ev else []) = []).
    { destruct mqtt; [apply ordered_seen|reflexivity]. }
    rewrite Z. cbn [app]. eapply IH; eauto. replace (connected_after o true) with true in C' by (now inversion Bc). exact C'.
  - cbn in E, A, C. inversion A as [|? ? ? st1 ev1 r1 p1 p2 E1 K A1]; subst. rewrite E1 in E.
    fold (client_calls tr') in *. fold (client_trace tr') in *. fold (daemon_calls tr) in *. fold (daemon_trace tr) in *.
    destruct (client_run now st1 (client_calls tr')) as [s2 t2] eqn:Q. inversion E; subst.
    rewrite flat_map_app. destruct (order_lights _ _ _ _ _ _ _ K) as [e [-> CO]]. cbn [app].
    inversion C as [|? ? ? ? ? ? ? log' B C'|? ? ? ? ? ? ? C'|? ? ? ga' w' ? ? ? ? log' O' C'|? ? ? ? ? ? ? ? ? O' C']; subst.
    + destruct B.
    + destruct (orders_fun _ _ _ _ _ _ _ O O') as [<- <-]. cbn [ordered flat_map app].
      constructor; [exact CO|]. eapply IH; eauto.
    + now destruct (O' eq_refl _ _ O).
  - cbn in C. fold (daemon_calls tr) in *. fold (daemon_trace tr) in *.
    inversion C as [|? ? ? ? ? ? ? log' B C'|? ? ? ? ? ? ? C'|? ? ? ga' w' ? ? ? ? log' O' C'|? ? ? ? ? ? ? ? ? O' C']; subst.
    + destruct B.
    + now destruct (O _ _ O').
    + eapply IH; eauto.
  - cbn in C. fold (daemon_calls tr) in *. fold (daemon_trace tr) in *.
    inversion C as [|? ? ? ? ? ? ? log' B C'|? ? ? ? ? ? ? C'|? ? ? ? ? ? ? ? ? ? O' C'|? ? ? ? ? ? ? ? ? O' C']; subst.
    + destruct B.
    + eapply IH; eauto.
Qed.
Lemma filter_flat {A B} (f : B -> bool) (g : A -> list B) l : filter f (flat_map g l) = flat_map (fun x => filter f (g x)) l.
Proof. induction l as [|a l IH]; [reflexivity|]. cbn [flat_map]. now rewrite filter_app, IH. Qed.

Lemma house_up : forall u now labels rnd timesync no_clock l k tr log,
  clock_works now -> randint_works rnd -> Forall lax l -> Forall permitted l \/ none_refused tr ->
  house u now labels rnd timesync no_clock l = (k, tr) ->
  chronicle u false false (daemon_calls tr) (daemon_trace tr) log ->
  exists done todo, ordered log = done ++ todo
    /\ Forall2 (fun o e => carried_out (fst o) (snd o) e) done (lighting (pci_trace tr))
    /\ (forall data ev r, In (SeenPci (SOpData data) ev r) tr -> r = Ok tt)
    /\ (k_up k = [] -> todo = []).
Proof.
  intros u now labels rnd timesync no_clock l k tr log W R F B0 E C.
  destruct (house_talk _ _ _ _ _ _ _ _ _ W F E) as [l' [tr' [L [M [T [K [e1 [r1 [e2 [r2 [tr1 ->]]]]]]]]]]].
  pose proof (sizes _ _ _ _ _ M K B0) as B1.
  destruct (talk_ends _ _ _ _ _ _ _ _ _ W R L T B1) as [CR _].
  destruct (talk_up _ _ _ _ _ _ _ _ _ W R L T B1) as [received [todo [A [G [D [_ [_ Z]]]]]]].
  destruct (tracks_pci _ _ _ K) as [P1 [P2 P3]].
  assert (X : Forall2 (fun o e => carried_out (fst o) (snd o) e) (ordered log) (flat_map lights_of (received ++ todo))).
  { cbn in C. fold (daemon_calls tr1) in C. fold (daemon_trace tr1) in C.
    inversion C as [|? ? ? ? ? ? ? log' B C'| | |]; subst. cbn [connected_after] in C'.
    refine (tracks_lights u now _ _ K _ _ _ false _ CR A _).
    exact (chr_bus u false true DConnected (daemon_calls tr1) e2 r2 (daemon_trace tr1) log' Logic.I C'). }
  rewrite flat_map_app in X. apply Forall2_app_inv_r in X. destruct X as [d1 [d2 [X1 [X2 Q]]]].
  exists d1, d2. split; [exact Q|]. split; [|split].
  - unfold lighting. rewrite <- P2, G, filter_flat. exact X1.
  - intros data ev r I. apply (D data ev r). apply P3. exact I.
  - intros U. destruct (Z U) as [-> _]. cbn in X2. now inversion X2.
Qed.

(** What MQTT clients ask for is done by the emulator, in order and once, and
    nothing else is done; the rest is still under way.  The emulator accepts
    every piece. *)
Theorem C75_up : forall u now labels rnd timesync no_clock l k tr log,
  clock_works now -> randint_works rnd -> Forall permitted l ->
  house u now labels rnd timesync no_clock l = (k, tr) ->
  chronicle u false false (daemon_calls tr) (daemon_trace tr) log ->
  exists done todo, ordered log = done ++ todo
    /\ Forall2 (fun o e => carried_out (fst o) (snd o) e) done (lighting (pci_trace tr))
    /\ (forall data ev r, In (SeenPci (SOpData data) ev r) tr -> r = Ok tt)
    /\ (k_up k = [] -> todo = []).
Proof.
  intros u now labels rnd timesync no_clock l k tr log W R F E C.
  exact (house_up _ _ _ _ _ _ _ _ _ _ W R (Forall_impl _ permitted_lax F) (or_introl F) E C).
Qed.
Print Assumptions C75_up.

(** ** From the emulator to MQTT *)

Lemma house_down : forall u now labels rnd timesync no_clock l k tr,
  clock_works now -> randint_works rnd -> Forall lax l -> Forall permitted l \/ none_refused tr ->
  house u now labels rnd timesync no_clock l = (k, tr) -> nothing_lost tr ->
  exists clear rest,
    hears true (written (pci_trace tr)) clear (callbacks (effects (daemon_trace tr)) ++ rest)
    /\ (k_down k = [] -> rest = []).
Proof.
  intros u now labels rnd timesync no_clock l k tr W R F B0 E N.
  destruct (house_talk _ _ _ _ _ _ _ _ _ W F E) as [l' [tr' [L [M [T [K _]]]]]].
  destruct (talk_down _ _ _ _ _ _ _ _ _ W R L T (sizes _ _ _ _ _ M K B0) (tracks_dropped _ _ _ K N)) as [clear [rest [H Z]]].
  destruct (tracks_pci _ _ _ K) as [_ [P2 _]].
  exists clear, rest. rewrite <- P2. split; [|exact Z].
  now rewrite <- (strip_callbacks (effects (daemon_trace tr))), <- (tracks_strip _ _ _ K), strip_callbacks.
Qed.

(** The daemon is told what the messages of the emulator say, in order, unless
    it dropped something. *)
Theorem C75_down : forall u now labels rnd timesync no_clock l k tr,
  clock_works now -> randint_works rnd -> Forall permitted l ->
  house u now labels rnd timesync no_clock l = (k, tr) -> nothing_lost tr ->
  exists clear rest,
    hears true (written (pci_trace tr)) clear (callbacks (effects (daemon_trace tr)) ++ rest)
    /\ (k_down k = [] -> rest = []).
Proof.
  intros u now labels rnd timesync no_clock l k tr W R F E N.
  exact (house_down _ _ _ _ _ _ _ _ _ W R (Forall_impl _ permitted_lax F) (or_introl F) E N).
Qed.
Print Assumptions C75_down.

(** A piece that does not overflow the emulator's buffer is taken. *)
Lemma house_takes : forall u now labels rnd timesync no_clock l k tr d later,
  clock_works now -> randint_works rnd -> Forall lax l -> Forall permitted l \/ none_refused tr ->
  house u now labels rnd timesync no_clock l = (k, tr) ->
  k_up k = d ++ later -> (length d <= 210 \/ length (snd (k_server k)) + length d <= 256)%nat ->
  exists st ev, server_step rnd (k_server k) (SOpData d) = (st, ev, Ok tt).
Proof.
  intros u now labels rnd timesync no_clock l k tr d later W R F B0 E D L0.
  destruct (house_talk _ _ _ _ _ _ _ _ _ W F E) as [l' [tr' [L [M [T [K _]]]]]].
  exact (talk_takes _ _ _ _ _ _ _ _ _ d later W R L T (sizes _ _ _ _ _ M K B0) D L0).
Qed.
(** A piece that does not overflow the daemon's buffer is taken. *)
Lemma house_fine : forall u now labels rnd timesync no_clock l k tr d later,
  clock_works now -> randint_works rnd -> Forall lax l -> Forall permitted l \/ none_refused tr ->
  house u now labels rnd timesync no_clock l = (k, tr) -> nothing_lost tr ->
  k_down k = d ++ later -> (length (snd (k_client k)) + length d <= 256)%nat ->
  exists st ev, daemon_step u now labels (k_client k) (DData d) = (st, ev, Ok tt).
Proof.
  intros u now labels rnd timesync no_clock l k tr d later W R F B0 E N D L0.
  destruct (house_talk _ _ _ _ _ _ _ _ _ W F E) as [l' [tr' [L [M [T [K _]]]]]].
  destruct (talk_fine _ _ _ _ _ _ _ _ _ d later W R L T (sizes _ _ _ _ _ M K B0) (tracks_dropped _ _ _ K N) D L0)
    as [st [ev X]].
  destruct (daemon_step u now labels (k_client k) (DData d)) as [[st' ev'] r] eqn:S.
  destruct (bare_bus _ _ _ _ _ _ _ _ _ (bc_data d) S) as [ev2 [r2 [Q [_ Z]]]].
  change (k_client (plain k)) with (bare (k_client k)) in X. rewrite Q in X. inversion X; subst. eauto.
Qed.

Lemma news_app a b : news (a ++ b) = news a ++ news b.
Proof. apply flat_map_app. Qed.
Lemma news_seen ev : news (flat_map Spec_daemon.seen ev) = flat_map Spec_daemon.seen ev.
Proof. induction ev as [|e ev IH]; [reflexivity|]. destruct e; cbn; first [exact IH|f_equal; exact IH]. Qed.
Lemma seen_publishes l : flat_map Spec_daemon.seen (map CPublish l) = [].
Proof. induction l; auto. Qed.
Lemma seen_connect x l : flat_map Spec_daemon.seen ([CSubscribe x] ++ map CPublish l) = [].
Proof. exact (seen_publishes l). Qed.
Lemma connect_step u now labels st st1 ev r : daemon_step u now labels st DMqttConnected = (st1, ev, r) ->
  st1 = (set_mqtt (fst st) true, snd st) /\ flat_map Spec_daemon.seen ev = [].
Proof.
  cbn [daemon_step]. unfold on_connect, mseq, mbind, memit. rewrite emit_all. intros E.
  pose proof (f_equal (fun x => fst (fst x)) E) as A. pose proof (f_equal (fun x => snd (fst x)) E) as B.
  cbn [fst snd] in A, B. subst st1 ev. split; [reflexivity|apply seen_connect].
Qed.
Lemma seen_order w l : flat_map Spec_daemon.seen (CWrite w :: map CPublish l) = [].
Proof. exact (seen_publishes l). Qed.
Lemma daemon_news u now labels ops : clock_works now -> forall st st' tr bus log, counter_ok (fst st) ->
  cl_class (fst st) = ClassHandler -> cl_transport (fst st) = bus -> daemon_run u now labels st ops = (st', tr) ->
  chronicle u true bus ops tr log -> news log = flat_map Spec_daemon.seen (effects tr).
Proof.
  intros W. induction ops as [|o ops IH]; intros st st' tr bus log I H B E C; cbn [daemon_run] in E.
  { inversion E; subst. inversion C. reflexivity. }
  destruct (daemon_step u now labels st o) as [[st1 ev] r] eqn:S. destruct (daemon_run u now labels st1 ops) as [st2 tr2] eqn:Q.
  inversion E; subst; clear E.
  change (effects ((ev, r) :: tr2)) with (ev ++ effects tr2). rewrite flat_map_app.
  inversion C as [|? ? ? ? ? ? ? log' O C'|? ? ? ? ? ? ? C'|? ? ? ga w ? ? ? ? log' O C'|? ? ? ? ? ? ? ? ? O C']; subst.
  - destruct (bus_step _ _ _ _ _ _ _ _ W I H O S) as [_ [_ [I1 [H1 [_ T1]]]]].
    rewrite news_app, news_seen. f_equal. eapply IH; eauto.
  - destruct (connect_step _ _ _ _ _ _ _ S) as [-> ->]. cbn [app]. eapply IH; [| | |exact Q|exact C']; auto.
  - match goal with Q : true = cl_transport _ |- _ => symmetry in Q; rename Q into T end.
    destruct (order_step u now labels st _ _ ga w I T O) as [line [command [messages [E _]]]]. rewrite S in E.
    pose proof (f_equal (fun x => fst (fst x)) E) as A1. pose proof (f_equal (fun x => snd (fst x)) E) as A2.
    cbn [fst snd] in A1, A2. subst st1 ev. clear E S.
    rewrite seen_order. change (news (Asked ga w :: log')) with (news log').
    eapply IH; [| | |exact Q|exact C']; auto.
    unfold counter_ok. cbn [fst cl_index set_index]. exact (Nat.mod_upper_bound _ 20 ltac:(discriminate)).
  - destruct (ignored_step u now labels st _ _ I O) as [r' E]. rewrite S in E. inversion E; subst; clear E.
    cbn [flat_map app]. eapply IH; eauto.
Qed.

Lemma house_news : forall u now labels rnd timesync no_clock l k tr log,
  clock_works now -> randint_works rnd -> Forall lax l -> Forall permitted l \/ none_refused tr ->
  house u now labels rnd timesync no_clock (AtDaemon DMqttConnected :: l) = (k, tr) -> nothing_lost tr ->
  chronicle u false false (daemon_calls tr) (daemon_trace tr) log ->
  exists clear told rest,
    hears true (written (pci_trace tr)) clear told
    /\ flat_map Spec_daemon.seen told = news log ++ rest
    /\ (k_down k = [] -> rest = []).
Proof.
  intros u now labels rnd timesync no_clock l k tr log W R F B0 E N C.
  assert (F' : Forall lax (AtDaemon DMqttConnected :: l)) by (constructor; [exact Logic.I|exact F]).
  assert (B' : Forall permitted (AtDaemon DMqttConnected :: l) \/ none_refused tr)
    by (destruct B0 as [B0|B0]; [left; constructor; [exact Logic.I|exact B0]|now right]).
  destruct (house_down _ _ _ _ _ _ _ _ _ W R F' B' E N) as [clear [rest [H Z]]].
  exists clear, (callbacks (effects (daemon_trace tr)) ++ rest), (flat_map Spec_daemon.seen rest).
  split; [exact H|]. split; [|intros U; now rewrite (Z U)].
  rewrite flat_map_app, strip_seen. f_equal. clear H Z N B0 B'.
  pose proof (house_daemon _ _ _ _ _ _ _ _ E) as D.
  assert (X : exists e1 r1 e2 r2 e3 r3 tr1,
    tr = SeenPci SOpConnect e1 r1 :: SeenDaemon DConnected e2 r2 :: SeenDaemon DMqttConnected e3 r3 :: tr1).
  { assert (PS : forall k o, exists k1 ev r, at_pci rnd k o = (k1, SeenPci o ev r)).
    { intros k' o. unfold at_pci. destruct (server_step rnd (k_server k') o) as [[? ?] ?]. eauto. }
    assert (DS : forall k o, exists k1 ev r, at_daemon u now labels k o = (k1, SeenDaemon o ev r)).
    { intros k' o. unfold at_daemon. destruct (daemon_step u now labels (k_client k') o) as [[? ?] ?]. eauto. }
    unfold house in E. cbn [house_run house_step] in E.
    match type of E with context [at_pci rnd ?a ?b] => destruct (PS a b) as [k1 [a1 [b1 Q1]]] end. rewrite Q1 in E.
    destruct (DS k1 DConnected) as [k2 [a2 [b2 Q2]]]. rewrite Q2 in E.
    destruct (DS k2 DMqttConnected) as [k3 [a3 [b3 Q3]]]. rewrite Q3 in E.
    destruct (house_run u now labels rnd k3 l) as [k4 t4]. inversion E; subst. do 7 eexists. reflexivity. }
  destruct X as [e1 [r1 [e2 [r2 [e3 [r3 [tr1 ->]]]]]]]. clear E.
  cbn [daemon_calls daemon_trace flat_map app k_client] in D, C. fold (daemon_calls tr1) in *. fold (daemon_trace tr1) in *.
  cbn [daemon_run] in D.
  destruct (daemon_step u now labels (new_daemon timesync no_clock) DConnected) as [[s1 v1] x1] eqn:S1.
  destruct (daemon_step u now labels s1 DMqttConnected) as [[s2 v2] x2] eqn:S2.
  destruct (daemon_run u now labels s2 (daemon_calls tr1)) as [s3 t3] eqn:Q. 
  pose proof (f_equal snd D) as D'. cbn [snd] in D'. inversion D'; subst; clear D D'.
  assert (I0 : counter_ok (fst (new_daemon timesync no_clock))) by (unfold counter_ok; cbn; lia).
  destruct (bus_step u now labels _ DConnected _ _ _ W I0 eq_refl Logic.I S1) as [_ [_ [I1 [H1 [_ T1]]]]].
  inversion C as [|? ? ? ? ? ? ? log' O C'| | |]; subst. cbn [app].
  inversion C' as [| |? ? ? ? ? ? ? C''| |]; subst. { match goal with B : bus_call DMqttConnected |- _ => destruct B end. }
  match goal with |- flat_map _ ?x = _ => change x with (e2 ++ e3 ++ effects (daemon_trace tr1)) end.
  rewrite !flat_map_app.
  assert (Z2 : flat_map Spec_daemon.seen e2 = []).
  { cbn [daemon_step client_step api] in S1. unfold mseq, mbind in S1.
    rewrite (connect_outcome (fst (new_daemon timesync no_clock)) I0) in S1. cbn zeta in S1.
    destruct (cl_frequency (fst (new_daemon timesync no_clock)) =? 0); inversion S1; subst; reflexivity. }
  destruct (connect_step _ _ _ _ _ _ _ S2) as [-> Z3]. rewrite Z2, Z3. cbn [app].
  symmetry. apply (daemon_news u now labels (daemon_calls tr1) W (set_mqtt (fst s1) true, snd s1) s3 _ true); auto.
Qed.

(** With MQTT connected from the start, what the chronicle says of the C-Bus is
    what the emulator's messages say, in order; the rest is still under way. *)
Theorem C75_news : forall u now labels rnd timesync no_clock l k tr log,
  clock_works now -> randint_works rnd -> Forall permitted l ->
  house u now labels rnd timesync no_clock (AtDaemon DMqttConnected :: l) = (k, tr) -> nothing_lost tr ->
  chronicle u false false (daemon_calls tr) (daemon_trace tr) log ->
  exists clear told rest,
    hears true (written (pci_trace tr)) clear told
    /\ flat_map Spec_daemon.seen told = news log ++ rest
    /\ (k_down k = [] -> rest = []).
Proof.
  intros u now labels rnd timesync no_clock l k tr log W R F E N C.
  exact (house_news _ _ _ _ _ _ _ _ _ _ W R (Forall_impl _ permitted_lax F) (or_introl F) E N C).
Qed.
Print Assumptions C75_news.

Lemma house_settled : forall u now labels rnd timesync no_clock l k tr,
  clock_works now -> randint_works rnd -> Forall lax l -> Forall permitted l \/ none_refused tr ->
  house u now labels rnd timesync no_clock (AtDaemon DMqttConnected :: l) = (k, tr) -> nothing_lost tr ->
  k_up k = [] -> k_down k = [] ->
  exists log clear told, chronicle u false false (daemon_calls tr) (daemon_trace tr) log
    /\ Forall2 (fun o e => carried_out (fst o) (snd o) e) (ordered log) (lighting (pci_trace tr))
    /\ hears true (written (pci_trace tr)) clear told /\ news log = flat_map Spec_daemon.seen told
    /\ forall ga e, Spec_daemon.latest log ga e -> exists light binary, entry_report e [light; binary]
         /\ is_topic LightState ga (m_topic light) /\ retained (published (effects (daemon_trace tr))) light
         /\ is_topic SensorState ga (m_topic binary) /\ retained (published (effects (daemon_trace tr))) binary.
Proof.
  intros u now labels rnd timesync no_clock l k tr W R F B0 E N U D.
  assert (F' : Forall lax (AtDaemon DMqttConnected :: l)) by (constructor; [exact Logic.I|exact F]).
  assert (B' : Forall permitted (AtDaemon DMqttConnected :: l) \/ none_refused tr)
    by (destruct B0 as [B0|B0]; [left; constructor; [exact Logic.I|exact B0]|now right]).
  destruct (house_ends _ _ _ _ _ _ _ _ _ W R F' B' E) as [DR _].
  destruct (C61_reports _ _ _ _ _ _ _ _ W DR) as [log [_ [C _]]].
  destruct (house_up _ _ _ _ _ _ _ _ _ _ W R F' B' E C) as [done [todo [Q [X [_ Z]]]]].
  rewrite (Z U), app_nil_r in Q. subst done.
  destruct (house_news _ _ _ _ _ _ _ _ _ _ W R F B0 E N C) as [clear [told [rest [H [S Y]]]]].
  rewrite (Y D), app_nil_r in S.
  exists log, clear, told. split; [exact C|]. split; [exact X|]. split; [exact H|]. split; [now symmetry|].
  intros ga e. apply (C61_retained _ _ _ _ _ _ _ _ _ W DR C ga).
Qed.

(** Once nothing is under way, both sides agree: every order was carried out,
    everything said was told, and for each light the broker retains the report
    of the last thing that happened to it, if any. *)
Theorem C75_settled : forall u now labels rnd timesync no_clock l k tr,
  clock_works now -> randint_works rnd -> Forall permitted l ->
  house u now labels rnd timesync no_clock (AtDaemon DMqttConnected :: l) = (k, tr) -> nothing_lost tr ->
  k_up k = [] -> k_down k = [] ->
  exists log clear told, chronicle u false false (daemon_calls tr) (daemon_trace tr) log
    /\ Forall2 (fun o e => carried_out (fst o) (snd o) e) (ordered log) (lighting (pci_trace tr))
    /\ hears true (written (pci_trace tr)) clear told /\ news log = flat_map Spec_daemon.seen told
    /\ forall ga e, Spec_daemon.latest log ga e -> exists light binary, entry_report e [light; binary]
         /\ is_topic LightState ga (m_topic light) /\ retained (published (effects (daemon_trace tr))) light
         /\ is_topic SensorState ga (m_topic binary) /\ retained (published (effects (daemon_trace tr))) binary.
Proof.
  intros u now labels rnd timesync no_clock l k tr W R F E N U D.
  exact (house_settled _ _ _ _ _ _ _ _ _ W R (Forall_impl _ permitted_lax F) (or_introl F) E N U D).
Qed.
Print Assumptions C75_settled.

(** A session: MQTT connects, an order is given while the handshake is under
    way, units announce themselves before and after, a message is no command,
    everything is delivered in pieces. *)
Definition lostlist (tr : list hseen) : bool :=
  existsb (fun x => match x with SeenDaemon (DData _) _ (Raise ValueError) => true | _ => false end) tr.
Lemma lostlist_spec tr : lostlist tr = false -> nothing_lost tr.
Proof.
  intros B d ev I. assert (lostlist tr = true); [|congruence]. apply existsb_exists. eexists. split; [exact I|reflexivity].
Qed.
Definition session : list hop :=
  [Rise 10; AtDaemon (DMqttMessage (txt "homeassistant/light/cbus_1/set") (body (txt "on") []));
   AtPci (SOpOn 9 4); Rise 60; Rise 200; Fall 3; AtPci (SOpOff 9 4); Fall 200; Fall 200;
   AtDaemon (DMqttMessage (txt "homeassistant/light/cbus_3/state") (body (txt "on") []));
   AtDaemon (DMqttMessage (txt "homeassistant/light/cbus_3/set")
     (body (txt "ON") [(txt "brightness", JNum (PInt 128)); (txt "transition", JNum (PInt 3))]));
   Rise 5; AtPci (SOpRamp 7 3 0 (PInt 0)); Rise 200; Fall 31; Fall 200; AtDaemon DTimesync; Rise 200; Fall 20; Fall 200].
Definition outcome : link * list hseen :=
  house plain_unicode noon [] die 300 false (AtDaemon DMqttConnected :: session).
Lemma outcome_facts :
  (lostlist (snd outcome), k_up (fst outcome), k_down (fst outcome)) = (false, [], [])
  /\ lighting (pci_trace (snd outcome)) = [SOn 1; SRamp 3 4 (PInt 128)]
  /\ callbacks (effects (daemon_trace (snd outcome)))
     = [CRamp (Some 7) 3 0 (PInt 0); CConfirmation [108] true; CConfirmation [109] true; COn (Some 2) 1; COff (Some 4) 3;
        COn (Some 6) 5; COff (Some 8) 7]
  /\ state_messages (published (effects (daemon_trace (snd outcome))))
     = relay_on None 1 ++ relay_ramp None 3 3 (PInt 128) ++ relay_ramp (Some 7) 3 0 (PInt 0)
       ++ relay_on (Some 2) 1 ++ relay_off (Some 4) 3 ++ relay_on (Some 6) 5 ++ relay_off (Some 8) 7.
Proof. vm_compute. repeat split. Qed.
Example C75_case : Forall permitted session /\ nothing_lost (snd outcome) /\ k_up (fst outcome) = [] /\ k_down (fst outcome) = [].
Proof.
  destruct outcome_facts as [A _]. split; [repeat constructor; cbn; lia|].
  split; [|split; [exact (f_equal (fun x => snd (fst x)) A)|exact (f_equal snd A)]].
  apply lostlist_spec. exact (f_equal (fun x => fst (fst x)) A).
Qed.
