(** Relations kept by every step of a client. *)
From Coq Require Import List ZArith Bool Lia.
From Verif Require Import Py Common Sal Cal Packet Text Mqtt Buffered Client Base Spec Spec_client Common_facts
  Sal_facts Packet_facts Packet_roundtrip Packet_decode Packet_total Buffer_facts Client_facts.
Import ListNotations.
Open Scope Z_scope.

Definition keeps (R : client -> list cev -> client -> Prop) {A} (m : M A) : Prop :=
  forall c c' ev r, m c = (c', ev, r) -> R c ev c'.

(** What the client sends: resets and base16 packets. *)
Definition sendable (p : packet) : Prop := p = PktReset \/ hex_packet p.

Section Steps.
  Variable R : client -> list cev -> client -> Prop.
  Hypothesis R_refl : forall c, R c [] c.
  Hypothesis R_trans : forall c e1 c1 e2 c2, R c e1 c1 -> R c1 e2 c2 -> R c (e1 ++ e2) c2.
  Hypothesis R_reads : forall c n, R c [] (set_reads c n).
  Hypothesis R_emit : forall c e, is_write e = false -> e <> CFutureDone -> e <> CSpawnTimesync -> R c [e] c.
  Hypothesis R_send : forall p b, sendable p -> keeps R (send p true b).

  Lemma keeps_ret {A} (a : A) : keeps R (mret a).
  Proof. intros c c' ev r E. inversion E. apply R_refl. Qed.
  Lemma keeps_lift {A} (a : res A) : keeps R (mlift a).
  Proof. intros c c' ev r E. inversion E. apply R_refl. Qed.
  Lemma keeps_raise {A} e : keeps R (@mraise A e).
  Proof. intros c c' ev r E. inversion E. apply R_refl. Qed.
  Lemma keeps_bind {A B} (m : M A) (f : A -> M B) : keeps R m ->
    (forall c c' ev a, m c = (c', ev, Ok a) -> keeps R (f a)) -> keeps R (mbind m f).
  Proof.
    intros Hm Hf c c' ev r E. unfold mbind in E.
    destruct (m c) as [[c1 ev1] [a|e]] eqn:Em.
    - destruct (f a c1) as [[c2 ev2] r2] eqn:Ef. inversion E; subst.
      apply R_trans with c1; [exact (Hm _ _ _ _ Em)|]. exact (Hf _ _ _ _ Em _ _ _ _ Ef).
    - inversion E; subst. exact (Hm _ _ _ _ Em).
  Qed.
  Lemma keeps_seq {A B} (m : M A) (k : M B) : keeps R m -> keeps R k -> keeps R (mseq m k).
  Proof. intros Hm Hk. apply keeps_bind; auto. Qed.
  Lemma keeps_emit e : is_write e = false -> e <> CFutureDone -> e <> CSpawnTimesync -> keeps R (memit e).
  Proof. intros A B C c c' ev r E. inversion E; subst. now apply R_emit. Qed.
  Lemma keeps_emit_all l : (forall e, In e l -> is_write e = false /\ e <> CFutureDone /\ e <> CSpawnTimesync) ->
    keeps R (memit_all l).
  Proof.
    induction l as [|e l IH]; intros H; cbn [memit_all]; [apply keeps_ret|].
    apply keeps_seq; [|apply IH; intros; apply H; now right].
    destruct (H e (or_introl eq_refl)) as [? [? ?]]. now apply keeps_emit.
  Qed.

  Lemma pm_sendable ck prio a sals p : new_pm ck prio a sals = Ok p -> sendable p.
  Proof. intros E. apply new_pm_spec in E. destruct E as [a' [-> _]]. right. exact I. Qed.

  Lemma keeps_groups new gas : keeps R (send_groups new gas).
  Proof.
    unfold send_groups. destruct (Nat.ltb 9 (length gas)); [apply keeps_raise|].
    apply keeps_bind; [apply keeps_lift|]. intros _ _ _ sals _.
    apply keeps_bind; [apply keeps_lift|]. intros c c' ev p E. inversion E.
    apply R_send. now apply (pm_sendable true CLASS_4 None sals).
  Qed.
  Lemma keeps_ramp ga d l : keeps R (lighting_group_ramp ga d l).
  Proof.
    unfold lighting_group_ramp. apply keeps_bind; [apply keeps_lift|]. intros _ _ _ s _.
    apply keeps_bind; [apply keeps_lift|]. intros c c' ev p E. inversion E.
    apply R_send. now apply (pm_sendable true CLASS_4 None [s]).
  Qed.
  Lemma keeps_identify u a : keeps R (identify u a).
  Proof.
    unfold identify. apply keeps_bind; [apply keeps_lift|]. intros c c' ev p E.
    cbn in E. inversion E; subst. apply R_send. right. cbn. repeat constructor.
  Qed.
  Lemma keeps_clock now w : keeps R (clock_datetime now w).
  Proof.
    unfold clock_datetime. apply keeps_bind.
    - intros c c' ev r E. destruct w; inversion E; [apply R_refl|apply R_reads].
    - intros _ _ _ v _. apply keeps_bind; [apply keeps_lift|]. intros _ _ _ sals _.
      apply keeps_bind; [apply keeps_lift|]. intros c c' ev p E. inversion E.
      apply R_send. now apply (pm_sendable true CLASS_4 None sals).
  Qed.
  Lemma keeps_reset : keeps R pci_reset.
  Proof.
    assert (A : keeps R (send PktReset true false)) by (apply R_send; now left).
    assert (B : forall p v, keeps R (send (dm_command p v) true true)) by (intros; apply R_send; right; exact I).
    unfold pci_reset. repeat (apply keeps_seq; [auto|]). apply keeps_ret.
  Qed.

  Lemma keeps_clock_request now src : keeps R (on_clock_request now src).
  Proof.
    unfold on_clock_request. apply keeps_seq; [apply keeps_emit; easy|].
    intros c c' ev r E. destruct (cl_class c).
    - destruct (cl_handle_clock c).
      + eapply keeps_seq; [apply keeps_clock|apply keeps_ret|exact E].
      + eapply keeps_ret; exact E.
    - eapply keeps_seq; [apply keeps_clock|apply keeps_ret|exact E].
  Qed.
  Lemma keeps_relay ms : keeps R (relay ms).
  Proof.
    intros c c' ev r E. unfold relay in E. destruct (cl_class c).
    - eapply keeps_ret; exact E.
    - destruct (cl_mqtt c); [|eapply keeps_ret; exact E].
      eapply keeps_emit_all; [|exact E]. intros e I. apply in_map_iff in I. destruct I as [m [<- _]].
      repeat split; discriminate.
  Qed.
  Lemma keeps_dispatch now src s : keeps R (dispatch_sal now src s).
  Proof.
    destruct s; cbn [dispatch_sal]; try apply keeps_ret; try (apply keeps_emit; easy);
      try apply keeps_clock_request;
      unfold on_lighting_group_ramp, on_lighting_group_on, on_lighting_group_off;
      (apply keeps_seq; [apply keeps_emit; easy|apply keeps_relay]).
  Qed.
  Lemma keeps_dispatch_all now src l : keeps R (dispatch_sals now src l).
  Proof.
    induction l as [|s l IH]; cbn [dispatch_sals]; [apply keeps_ret|].
    apply keeps_seq; [apply keeps_dispatch|exact IH].
  Qed.
  Lemma keeps_packet now p : keeps R (handle_cbus_packet now p).
  Proof.
    destruct p; cbn [handle_cbus_packet]; try apply keeps_ret; try (apply keeps_emit; easy).
    apply keeps_dispatch_all.
  Qed.
  Lemma keeps_warns ws c : R c (map CWarn ws) c.
  Proof.
    induction ws as [|w ws IH]; cbn [map]; [apply R_refl|].
    change (CWarn w :: map CWarn ws) with ([CWarn w] ++ map CWarn ws).
    apply R_trans with c; [apply R_emit; easy|exact IH].
  Qed.
  Lemma keeps_handle_data now c buf c' ev r : handle_data now c buf = (c', ev, r) -> R c ev c'.
  Proof.
    unfold handle_data. intros E.
    destruct (decode_packet buf true true true) as [ws [[p n]|e]]; [|inversion E; apply keeps_warns].
    destruct p as [p|]; [|inversion E; apply keeps_warns].
    destruct (handle_cbus_packet now p c) as [[c2 ev2] [[]|e]] eqn:H; inversion E; subst;
      (apply R_trans with c; [apply keeps_warns|exact (keeps_packet now p _ _ _ _ H)]).
  Qed.
  Lemma keeps_processes now c buf calls c' buf' ev out :
    processes (handle_data now) c buf calls c' buf' ev out -> R c ev c'.
  Proof.
    induction 1; try apply R_refl; try (eapply keeps_handle_data; eassumption).
    eapply R_trans; [eapply keeps_handle_data; eassumption|assumption].
  Qed.
  Lemma keeps_data_received now c buf d c' buf' ev out :
    data_received (handle_data now) MAX_BUFFER_SIZE c buf d = (c', buf', ev, out) -> R c ev c'.
  Proof.
    unfold data_received. intros E.
    destruct (Nat.ltb _ (length d)); [inversion E; apply R_refl|].
    destruct (Nat.ltb _ (length buf + length d)); [inversion E; apply R_refl|].
    apply process_buffer_spec in E. destruct E as [calls E]. now apply keeps_processes in E.
  Qed.

  Hypothesis R_tasks : forall c n, R c [] (set_tasks c n).

  Lemma keeps_timesync now : keeps R (timesync_step now).
  Proof.
    intros c c' ev r E. unfold timesync_step in E.
    destruct (Nat.eqb (cl_tasks c) 0); [inversion E; apply R_refl|].
    destruct (cl_frequency c <=? 0); [inversion E; apply R_tasks|].
    destruct (clock_datetime now None c) as [[c1 ev1] [a|e]] eqn:D; inversion E; subst.
    - exact (keeps_clock now None _ _ _ _ D).
    - rewrite <- (app_nil_r ev). eapply R_trans; [exact (keeps_clock now None _ _ _ _ D)|apply R_tasks].
  Qed.

  (** Every call except connecting and losing the connection. *)
  Definition steady (o : cop) : Prop := o <> OpConnect /\ o <> OpLost.
  Lemma keeps_step now st o st' ev r : steady o ->
    client_step now st o = (st', ev, r) -> R (fst st) ev (fst st').
  Proof.
    intros [NC NL] E.
    assert (K : forall m : M (option Z), keeps R m ->
      match m (fst st) with (c, ev, r) => ((c, snd st), ev, r) end = (st', ev, r) -> R (fst st) ev (fst st')).
    { intros m Hm F. destruct (m (fst st)) as [[c1 ev1] r1] eqn:Em. inversion F; subst.
      exact (Hm _ _ _ _ Em). }
    destruct o; try congruence; cbn [client_step] in E.
    - destruct (data_received (handle_data now) MAX_BUFFER_SIZE (fst st) (snd st) b) as [[[c1 b1] ev1] [[]|e]] eqn:D;
        inversion E; subst; exact (keeps_data_received now _ _ _ _ _ _ _ D).
    - exact (K _ (keeps_groups _ _) E).
    - exact (K _ (keeps_groups _ _) E).
    - exact (K _ (keeps_groups _ _) E).
    - exact (K _ (keeps_ramp _ _ _) E).
    - exact (K _ (keeps_identify _ _) E).
    - exact (K _ (keeps_clock _ _) E).
    - exact (K _ (keeps_seq _ _ keeps_reset (keeps_ret None)) E).
    - exact (K _ (keeps_seq _ _ (keeps_timesync now) (keeps_ret None)) E).
  Qed.
  Lemma keeps_run now ops : forall st st' tr, Forall steady ops ->
    client_run now st ops = (st', tr) -> R (fst st) (effects tr) (fst st').
  Proof.
    induction ops as [|o ops IH]; intros st st' tr F E; cbn [client_run] in E.
    - inversion E; subst. apply R_refl.
    - apply Forall_cons_iff in F. destruct F as [F1 F2].
      destruct (client_step now st o) as [[st1 ev] r] eqn:S.
      destruct (client_run now st1 ops) as [st2 tr2] eqn:T. inversion E; subst.
      cbn [effects flat_map fst]. fold (effects tr2).
      apply R_trans with (fst st1); [exact (keeps_step now _ _ _ _ _ F1 S)|exact (IH _ _ _ F2 T)].
  Qed.

  (** Connecting and losing the connection. *)
  Hypothesis R_transport : forall c b, R c [] (set_transport c b).
  Hypothesis R_spawn : forall c n, R c [CSpawnTimesync] (set_tasks c n).
  Hypothesis R_future : forall c, R c [CFutureDone] (set_future c Done).

  Lemma keeps_connect : keeps R connection_made.
  Proof.
    intros c c' ev r E. unfold connection_made in E.
    change ev with ([] ++ ev). apply R_trans with (set_transport c true); [apply R_transport|].
    revert E. apply (keeps_seq pci_reset (fun c0 => if cl_frequency c0 =? 0 then (c0, [], Ok tt)
              else (set_tasks c0 (S (cl_tasks c0)), [CSpawnTimesync], Ok tt))).
    - exact keeps_reset.
    - intros c0 c1 e1 r1 F. destruct (cl_frequency c0 =? 0); inversion F; [apply R_refl|apply R_spawn].
  Qed.
  Lemma keeps_lost : keeps R connection_lost.
  Proof.
    intros c c' ev r E. unfold connection_lost in E.
    change ev with ([] ++ ev). apply R_trans with (set_transport c false); [apply R_transport|].
    destruct (cl_future (set_transport c false)); inversion E; try apply R_refl. apply R_future.
  Qed.
  Lemma keeps_any_step now st o st' ev r :
    client_step now st o = (st', ev, r) -> R (fst st) ev (fst st').
  Proof.
    intros E.
    assert (K : forall m : M (option Z), keeps R m ->
      match m (fst st) with (c, ev, r) => ((c, snd st), ev, r) end = (st', ev, r) -> R (fst st) ev (fst st')).
    { intros m Hm F. destruct (m (fst st)) as [[c1 ev1] r1] eqn:Em. inversion F; subst.
      exact (Hm _ _ _ _ Em). }
    destruct o; try (apply (keeps_step now) in E; [exact E|split; discriminate]); cbn [client_step] in E.
    - exact (K _ (keeps_seq _ _ keeps_connect (keeps_ret None)) E).
    - exact (K _ (keeps_seq _ _ keeps_lost (keeps_ret None)) E).
  Qed.
  Lemma keeps_any_run now ops : forall st st' tr,
    client_run now st ops = (st', tr) -> R (fst st) (effects tr) (fst st').
  Proof.
    induction ops as [|o ops IH]; intros st st' tr E; cbn [client_run] in E.
    - inversion E; subst. apply R_refl.
    - destruct (client_step now st o) as [[st1 ev] r] eqn:S.
      destruct (client_run now st1 ops) as [st2 tr2] eqn:T. inversion E; subst.
      cbn [effects flat_map fst]. fold (effects tr2).
      apply R_trans with (fst st1); [exact (keeps_any_step now _ _ _ _ _ S)|exact (IH _ _ _ T)].
  Qed.
End Steps.
