(** The daemon on a TCP connection after it has ended: C95. *)
From Coq Require Import String List ZArith Bool Lia Arith.
From Verif Require Import Py Common Sal Cal Packet Text Mqtt Buffered Client Cmqttd Daemon Base Spec Spec_client
  Spec_mqtt Spec_daemon Common_facts Client_facts Prop_client Mqtt_facts Prop_daemon
  Transport Spec_transport Transport_facts Prop_transport Prop_mqtt Line_facts.
Import ListNotations.
Notation length := List.length.
Open Scope Z_scope.

Lemma run_counter u now labels ops : clock_works now -> forall st st' tr, counter_ok (fst st) -> cl_class (fst st) = ClassHandler ->
  daemon_run u now labels st ops = (st', tr) -> counter_ok (fst st') /\ cl_class (fst st') = ClassHandler.
Proof.
  intros N. induction ops as [|o ops IH]; intros st st' tr I H E; cbn [daemon_run] in E; [inversion E; subst; auto|].
  destruct (daemon_step u now labels st o) as [[st1 ev] r] eqn:S.
  destruct (daemon_run u now labels st1 ops) as [st2 tr2] eqn:T. inversion E; subst.
  destruct (step_own u now labels st o st1 ev r N I H S) as [_ [B C]]. eapply IH; eassumption.
Qed.

Lemma I0 timesync no_clock : counter_ok (fst (new_daemon timesync no_clock)).
Proof. unfold counter_ok. cbn. lia. Qed.

(** Without a connection nothing is written, called back or remembered. *)
Lemma off_run u now labels ops : clock_works now -> Forall outside ops -> forall st st' tr m,
  counter_ok (fst st) -> cl_class (fst st) = ClassHandler -> cl_transport (fst st) = false ->
  daemon_run u now labels st ops = (st', tr) ->
  writes (effects tr) = [] /\ forall log, chronicle u m false ops tr log -> log = [].
Proof.
  intros N F. induction F as [|o ops O F IH]; intros st st' tr m I H T E; cbn [daemon_run] in E.
  - inversion E; subst. split; [reflexivity|]. intros log C. now inversion C.
  - destruct (daemon_step u now labels st o) as [[st1 ev] r] eqn:S.
    destruct (daemon_run u now labels st1 ops) as [st2 tr2] eqn:D. inversion E; subst. clear E.
    destruct (off_step _ _ _ _ _ _ _ _ I T O S) as [W [CB T1]].
    destruct (step_own u now labels st o st1 ev r N I H S) as [_ [I1 H1]].
    split.
    + cbn [effects flat_map fst]. fold (effects tr2). unfold writes in *. rewrite flat_map_app, W.
      destruct (IH st1 st' tr2 m I1 H1 T1 D) as [W2 _]. exact W2.
    + intros log C. inversion C; subst.
      * destruct o; try contradiction.
        match goal with K : chronicle _ _ _ _ _ ?l |- _ => cbn [connected_after] in K;
          destruct (IH st1 st' tr2 m I1 H1 T1 D) as [_ L]; rewrite (L _ K) end.
        rewrite (no_news _ CB). now destruct m.
      * destruct (IH st1 st' tr2 true I1 H1 T1 D) as [_ L]. now apply L.
      * destruct (IH st1 st' tr2 m I1 H1 T1 D) as [_ L]. now apply L.
Qed.

(** After the daemon has been told that the connection is lost, it writes nothing
    and publishes no state of a light or sensor, whatever the broker sends. *)
Theorem C95_after_daemon : forall u now labels net timesync no_clock l w' a ev r z, clock_works now -> daemon_calls l ->
  net_run (daemon_party u now labels) net (new_daemon timesync no_clock, new_tcp) (NCall DConnected :: l)
    = (w', a ++ SLost ev r :: z) ->
  writes (emitted z) = [] /\ state_messages (published (emitted z)) = [].
Proof.
  intros u now labels net timesync no_clock l w' a ev r z N DC E.
  destruct (C95_once _ _ _ _ _ _ _ _ _ _ E) as [_ O]. destruct (O a ev r z eq_refl) as [_ [LZ [HZ _]]]. clear O.
  destruct (run_split net _ _ _ _ a _ z E) as [l1 [o [l2 [w1 [w2 [L [E1 [E2 E3]]]]]]]].
  pose proof (C95_history_daemon _ _ _ _ _ _ _ _ E1) as H1. pose proof (C95_history_daemon _ _ _ _ _ _ _ _ E3) as H3. cbn [fst] in H1.
  destruct (run_counter u now labels _ N _ _ _ (I0 timesync no_clock) eq_refl H1) as [I1 K1].
  destruct (step_history _ _ _ _ _ _ E2) as [[X _]|[s [X [F _]]]]; [discriminate|]. inversion X; subst s. clear X.
  change (p_call (daemon_party u now labels) (fst w1) (p_lost (daemon_party u now labels)))
    with (daemon_step u now labels (fst w1) DLost) in F. cbn [seen_effects seen_result] in F.
  destruct (lost_step _ _ _ _ _ _ _ F) as [_ [_ T2]].
  destruct (step_own u now labels _ _ _ _ _ N I1 K1 F) as [_ [I2 K2]].
  assert (SUB : forall x, In (NCall x) l2 -> In (NCall x) l).
  { destruct l1 as [|x0 l1]; cbn in L; inversion L; subst.
    - destruct w1 as [st1 t1]. cbn in E1. inversion E1; subst. cbn [net_step] in E2.
      destruct (p_call _ _ DConnected) as [[? ?] ?]. discriminate.
    - intros x X. apply in_or_app. right. now right. }
  assert (OUT : Forall outside (map as_dop z)).
  { apply Forall_forall. intros x X. apply in_map_iff in X. destruct X as [s [S1 S2]]. destruct s as [o1 e1 r2|b e1 r2|e1 r2].
    - cbn in S1. subst o1. apply (calls_made _ _ _ _ _ _ _ _ _ E3) in S2. apply SUB in S2. specialize (DC _ S2). destruct x; try contradiction; exact Logic.I.
    - exfalso. apply in_split in S2. destruct S2 as [z1 [z2 ->]]. unfold handed in HZ. rewrite flat_map_app in HZ.
      destruct (flat_map _ z1); discriminate.
    - exfalso. apply in_split in S2. destruct S2 as [z1 [z2 ->]]. rewrite losses_app in LZ. cbn in LZ. lia. }
  destruct (off_run u now labels _ N OUT _ _ _ (cl_mqtt (fst (fst w2))) I2 K2 T2 H3) as [W C].
  destruct (history u now labels _ N _ _ _ I2 K2 H3) as [log [ls [CH [F2 [SM _]]]]]. rewrite T2 in CH.
  specialize (C _ CH). subst log. inversion F2; subst ls. rewrite effects_entries in *. split; [exact W|exact SM].
Qed.
Print Assumptions C95_after_daemon.

(** A piece that does not fit the buffer ends the daemon's connection. *)
Theorem C95_large_daemon : forall u now labels net st l w tr b, net_run (daemon_party u now labels) net (st, new_tcp) l = (w, tr) ->
  ~ ended_connection w -> (256 < length (snd (fst w)) + length b)%nat -> b <> [] ->
  exists w', net_step (daemon_party u now labels) net w (NArrives b) = (w', [SData b [] (Raise ValueError)])
    /\ ended_connection w' /\ wire w' = wire w.
Proof.
  intros u now labels net st l [st1 t] tr b E Q L N. cbn [fst snd] in *.
  assert (Q0 : t_closing t = false) by (unfold ended_connection in Q; cbn in Q; now destruct (t_closing t)).
  destruct (run_facts net _ l _ _ _ 0%nat (sound_fresh st) E) as [[S1 _] _]. cbn [snd] in S1.
  destruct (daemon_overflow u now labels st1 b L) as [buf' D]. destruct b as [|x b]; [congruence|]. cbn [net_step]. rewrite Q0.
  change (p_call (daemon_party u now labels) st1 (p_data (daemon_party u now labels) (x :: b)))
    with (daemon_step u now labels st1 (DData (x :: b))). rewrite D. cbn [p_out daemon_party transport_writes write_all fold_left].
  eexists. split; [reflexivity|]. unfold ended_connection, wire. cbn [snd]. unfold force_close.
  destruct (t_lost t) eqn:L1; cbn; [|auto]. destruct (S1 eq_refl). congruence.
Qed.
Print Assumptions C95_large_daemon.

(** A daemon that is told of the loss while an order comes in before and after. *)
Definition hangup : list (net_op dop) :=
  let order := NCall (DMqttMessage (txt "homeassistant/light/cbus_9/set") (body (txt "ON") [])) in
  [NCall DMqttConnected; order; NReadFails; order; NTurn; order; NCall DTimesync; NCall DMqttConnected].
Example C95_after_daemon_case : daemon_calls hangup
  /\ let r := net_run (daemon_party plain_unicode noon []) (fun _ => Takes 1000) (new_daemon 300 false, new_tcp) (NCall DConnected :: hangup) in
     let tr := snd r in
     losses tr = 1%nat /\ length tr = 8%nat /\ losses (firstn 4 tr) = 0%nat /\ losses (firstn 5 tr) = 1%nat
     /\ length (state_messages (published (emitted (firstn 4 tr)))) = 4%nat
     /\ state_messages (published (emitted (skipn 5 tr))) = [] /\ length (published (emitted (skipn 5 tr))) = 513%nat
     /\ map seen_result (skipn 5 tr) = [Raise OSError; Raise OSError; Ok tt].
Proof.
  split; [|vm_compute; repeat split].
  intros o X. unfold hangup in X. cbn zeta in X.
  repeat (destruct X as [X|X]; [first [discriminate X|injection X as <-; exact Logic.I]|]). destruct X.
Qed.
(** A piece that does not fit. *)
Example C95_large_daemon_case :
  let r := net_run (daemon_party plain_unicode noon []) (fun _ => Takes 1000) (new_daemon 300 false, new_tcp)
             [NCall DConnected; NArrives (repeat 48 200)] in
  t_closing (snd (fst r)) = false /\ length (snd (fst (fst r))) = 200%nat
  /\ length (snd (net_step (daemon_party plain_unicode noon []) (fun _ => Takes 1000) (fst r) (NArrives (repeat 48 57)))) = 1%nat.
Proof. vm_compute. repeat split. Qed.
