(** The MQTT daemon behind the redirector: C106. *)
From Coq Require Import String List ZArith QArith Bool Lia.
From Verif Require Import Py Common Sal Cal Packet Text Mqtt Buffered Client Cmqttd Daemon Server Base Spec Spec_client
  Spec_mqtt Spec_daemon Spec_server Spec_system Prop_client Prop_mqtt Prop_server Prop_system Prop_announce Redirect Redirect_facts RedirectLink RedirectLink_facts
  Loop Spec_loop House Spec_house House_facts Prop_house RedirectHouse RedirectHouse_facts Spec_redirecthouse.
Import ListNotations.
Notation length := List.length.
Open Scope Z_scope.

(** What the daemon and a PCI at the two ends of the redirector can see of each
    other is exactly what they can see at the two ends of one connection. *)
Theorem C106_transparent : forall u now labels rnd timesync no_clock tr,
  (exists l, snd (house_through u now labels rnd timesync no_clock l) = tr)
  <-> (exists l, snd (house u now labels rnd timesync no_clock l) = tr).
Proof.
  intros u now labels rnd ts nc tr.
  assert (T : forall l, Forall (kind_t (fun _ => True) (fun _ => True) (fun _ => True)) l) by (intro l; apply Forall_forall; intros [| | | | |] _; exact Logic.I).
  assert (T' : forall l, Forall (kind_o (fun _ => True) (fun _ => True) (fun _ => True)) l) by (intro l; apply Forall_forall; intros [| | |] _; exact Logic.I).
  split; intros (l & <-).
  - destruct (house_through u now labels rnd ts nc l) as [k tr] eqn:E.
    destruct (t_carry u now labels rnd ts nc _ _ (fun _ => True) (fun _ _ _ x => x) l k tr (T l) E) as (l' & c & _ & _ & H).
    exists l'. now rewrite H.
  - destruct (t_start u now labels rnd ts nc) as (k & c & V & H1 & H2).
    destruct (t_backward u now labels rnd _ _ _ l k c V (T' l)) as (l' & _ & E). exists l'. now rewrite (H1 l'), (H2 l), <- E.
Qed.
Print Assumptions C106_transparent.

Lemma kinds l : Forall permitted_through l ->
  Forall (kind_t (fun o => permitted (AtDaemon o)) (fun o => permitted (AtPci o)) (fun n => (n <= 210)%nat)) l.
Proof. apply Forall_impl. intros [o|o|n|n|n|n]; auto. Qed.
Lemma kinds_back l : Forall (kind_o (fun o => permitted (AtDaemon o)) (fun o => permitted (AtPci o)) (fun n => (n <= 210)%nat)) l ->
  Forall permitted l.
Proof. apply Forall_impl. intros [o|o|n|n]; auto. Qed.
Lemma smaller n m : (m <= n)%nat -> (n <= 210)%nat -> (m <= 210)%nat.
Proof. lia. Qed.
Lemma quiet_flat k c : serving (h_prog k) c -> all_quiet k -> k_up (flat k c) = [] /\ k_down (flat k c) = [].
Proof.
  intros (E & _) (A & B & C & D). destruct (D c) as (N & W & R); [rewrite E; now left|].
  unfold flat, kept, hold. cbn [k_up k_down]. rewrite A, B, C, N.
  destruct (c_writer c) as [| |d| |] eqn:W'; destruct (c_reader c) as [| |d'|] eqn:R'; cbn;
    try rewrite (W _ eq_refl); try rewrite (R _ eq_refl); auto.
Qed.

(** So what command messages ask for reaches the PCI through the redirector, in
    order, once each, and nothing else does (compare C75). *)
Theorem C106_up : forall u now labels rnd timesync no_clock l k tr log,
  clock_works now -> randint_works rnd -> Forall permitted_through l ->
  house_through u now labels rnd timesync no_clock l = (k, tr) ->
  chronicle u false false (daemon_calls tr) (daemon_trace tr) log ->
  exists done todo, ordered log = done ++ todo
    /\ Forall2 (fun o e => carried_out (fst o) (snd o) e) done (lighting (pci_trace tr))
    /\ (forall data ev r, In (SeenPci (SOpData data) ev r) tr -> r = Ok tt)
    /\ (all_quiet k -> todo = []).
Proof.
  intros u now labels rnd ts nc l k tr log W R F E C.
  destruct (t_carry _ _ _ _ _ _ _ _ _ smaller l k tr (kinds _ F) E) as (l' & c & F' & S & E').
  destruct (C75_up _ _ _ _ _ _ _ _ _ _ W R (kinds_back _ F') E' C) as (done & todo & H1 & H2 & H3 & H4).
  exists done, todo. split; [exact H1|]. split; [exact H2|]. split; [exact H3|].
  intro Q. apply H4. now apply (quiet_flat k c S Q).
Qed.
Print Assumptions C106_up.

(** Once nothing is under way, every command message was carried out, and for
    each light the retained states are those of the latest that happened to it. *)
Theorem C106_settled : forall u now labels rnd timesync no_clock l k tr,
  clock_works now -> randint_works rnd -> Forall permitted_through l ->
  house_through u now labels rnd timesync no_clock (TDaemon DMqttConnected :: l) = (k, tr) -> nothing_lost tr -> all_quiet k ->
  exists log clear told, chronicle u false false (daemon_calls tr) (daemon_trace tr) log
    /\ Forall2 (fun o e => carried_out (fst o) (snd o) e) (ordered log) (lighting (pci_trace tr))
    /\ hears true (written (pci_trace tr)) clear told /\ news log = flat_map Spec_daemon.seen told
    /\ forall ga e, Spec_daemon.latest log ga e -> exists light binary, entry_report e [light; binary]
         /\ is_topic LightState ga (m_topic light) /\ retained (published (effects (daemon_trace tr))) light
         /\ is_topic SensorState ga (m_topic binary) /\ retained (published (effects (daemon_trace tr))) binary.
Proof.
  intros u now labels rnd ts nc l k tr W R F E N Q.
  destruct (t_carry_first _ _ _ _ _ _ _ _ _ _ smaller l k tr (kinds _ F) E) as (l' & c & F' & S & E').
  destruct (quiet_flat k c S Q) as [U D].
  exact (C75_settled _ _ _ _ _ _ _ _ _ W R (kinds_back _ F') E' N U D).
Qed.
Print Assumptions C106_settled.

(** A session: MQTT connects, an order is given while the handshake is under
    way, units announce themselves, everything passes the redirector in pieces. *)
Definition up_through : list top := [TWriter 0; TWriter 1024; TWriter 0; TRise 210].
Definition down_through : list top := [TReader 40; TReader 40; TReader 40; TFall 200].
Definition session_through : list top :=
  up_through ++ [TDaemon (DMqttMessage (txt "homeassistant/light/cbus_1/set") (body (txt "on") [])); TWriter 0; TWriter 3]
  ++ down_through ++ [TWriter 0; TRise 2] ++ up_through ++ up_through ++ down_through
  ++ [TPci (SOpOff 9 4)] ++ concat (repeat down_through 6)
  ++ [TPci (SOpOn 9 4); TReader 5; TReader 5; TReader 5] ++ concat (repeat down_through 3).
Definition outcome_through : chain * list hseen :=
  house_through plain_unicode noon [] die 300 false (TDaemon DMqttConnected :: session_through).
Example C106_case : Forall permitted_through session_through /\ nothing_lost (snd outcome_through) /\ all_quiet (fst outcome_through)
  /\ lighting (pci_trace (snd outcome_through)) = [SOn 1]
  /\ In (COn (Some 9) 4) (callbacks (effects (daemon_trace (snd outcome_through)))).
Proof.
  split; [repeat constructor; cbn; lia|]. split; [apply lostlist_spec; vm_compute; reflexivity|].
  split; [|split; vm_compute; auto].
  split; [vm_compute; reflexivity|]. split; [vm_compute; reflexivity|]. split; [vm_compute; reflexivity|].
  assert (E : map (fun c => (c_net c, c_writer c, c_reader c)) (p_conns (h_prog (fst outcome_through))) = [([], WRecv, RRead)]) by (vm_compute; reflexivity).
  intros c I. apply (in_map (fun c => (c_net c, c_writer c, c_reader c))) in I. rewrite E in I. destruct I as [I|[]].
  injection I as A B C. split; [now symmetry|]. split; intros d X; congruence.
Qed.
