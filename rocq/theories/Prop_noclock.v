(** C39: the option --no-clock makes no difference to the daemon. *)
From Coq Require Import String List ZArith QArith Bool Lia.
From Verif Require Import Py Common Sal Cal Packet Text Mqtt Buffered Client Project Cmqttd Daemon Base Spec_mqtt
  Buffer_facts Client_facts Prop_client.
Import ListNotations.
Notation length := List.length.
Open Scope Z_scope.

(** The same handler with another setting for clock requests. *)
Definition flip (b : bool) (c : client) : client :=
  mkClient (cl_class c) (cl_transport c) (cl_index c) (cl_frequency c) b (cl_future c) (cl_mqtt c) (cl_reads c) (cl_tasks c).
Definition handler_class (c : client) : Prop := cl_class c = ClassHandler.
(** [m] does not look at the setting. *)
Definition blind {A} (m : M A) : Prop := forall b c c1 e r, handler_class c -> m c = (c1, e, r) ->
  handler_class c1 /\ m (flip b c) = (flip b c1, e, r).

Lemma blind_lift {A} (r : res A) : blind (mlift r).
Proof. intros b c c1 e r1 H E. inversion E; subst. auto. Qed.
Lemma blind_ret {A} (a : A) : blind (mret a).
Proof. intros b c c1 e r1 H E. inversion E; subst. auto. Qed.
Lemma blind_raise {A} (x : exn) : blind (mraise (A := A) x).
Proof. intros b c c1 e r1 H E. inversion E; subst. auto. Qed.
Lemma blind_emit x : blind (memit x).
Proof. intros b c c1 e r1 H E. inversion E; subst. auto. Qed.
Lemma blind_bind {A B} (m : M A) (f : A -> M B) : blind m -> (forall a, blind (f a)) -> blind (mbind m f).
Proof.
  intros Hm Hf b c c1 e r H E. unfold mbind in *. destruct (m c) as [[cm em] [a|x]] eqn:Em;
    destruct (Hm b _ _ _ _ H Em) as [H1 Q]; rewrite Q.
  - destruct (f a cm) as [[cf ef] rf] eqn:Ef. inversion E; subst. destruct (Hf a b _ _ _ _ H1 Ef) as [H2 Q2].
    rewrite Q2. auto.
  - inversion E; subst. auto.
Qed.
Lemma blind_seq {A B} (m : M A) (k : M B) : blind m -> blind k -> blind (mseq m k).
Proof. intros H K. apply blind_bind; auto. Qed.
Lemma blind_emit_all l : blind (memit_all l).
Proof. induction l; cbn [memit_all]; [apply blind_ret|]. apply blind_seq; [apply blind_emit|assumption]. Qed.
Lemma blind_code : blind get_confirmation_code.
Proof.
  intros b c c1 e r H E. unfold get_confirmation_code in *. cbn [cl_index flip].
  destruct (nth_error CONFIRMATION_CODES (cl_index c)); inversion E; subst; auto.
Qed.
Lemma blind_send p k x : blind (send p k x).
Proof.
  intros b c c1 e r H E. unfold send in *. cbn [cl_transport flip].
  destruct (negb (cl_transport c)); [inversion E; subst; auto|].
  destruct (negb (is_base_packet p)); [inversion E; subst; auto|].
  destruct (encode_packet p) as [w|y]; [|inversion E; subst; auto]. cbv zeta in *.
  destruct (k && negb (is_special_client p)); revert E; revert c1 e r.
  - intros c1 e r. apply blind_bind; [apply blind_code| |exact H]. intros a.
    apply blind_seq; [apply blind_emit|apply blind_ret].
  - intros c1 e r. apply blind_seq; [apply blind_emit|apply blind_ret|exact H].
Qed.
Lemma blind_clock now w : blind (clock_datetime now w).
Proof.
  unfold clock_datetime. apply blind_bind.
  - intros b c c1 e r H E. destruct w; inversion E; subst; auto.
  - intros v. apply blind_bind; [apply blind_lift|]. intros s. apply blind_bind; [apply blind_lift|].
    intros p. apply blind_send.
Qed.
Lemma blind_groups new gas : blind (send_groups new gas).
Proof.
  unfold send_groups. destruct (Nat.ltb 9 (length gas)); [apply blind_raise|].
  apply blind_bind; [apply blind_lift|]. intros s. apply blind_bind; [apply blind_lift|]. intros p. apply blind_send.
Qed.
Lemma blind_ramp ga d v : blind (lighting_group_ramp ga d v).
Proof.
  apply blind_bind; [apply blind_lift|]. intros s. apply blind_bind; [apply blind_lift|]. intros p. apply blind_send.
Qed.
Lemma blind_reset : blind pci_reset.
Proof. unfold pci_reset. repeat (apply blind_seq; [apply blind_send|]). apply blind_ret. Qed.
Lemma blind_connect : blind connection_made.
Proof.
  intros b c c1 e r H E. unfold connection_made in *.
  change (set_transport (flip b c) true) with (flip b (set_transport c true)).
  revert E. apply blind_seq; [apply blind_reset| |exact H]. clear. intros b c c1 e r H E. cbn [cl_frequency flip].
  destruct (cl_frequency c =? 0); inversion E; subst; auto.
Qed.
Lemma blind_lost : blind connection_lost.
Proof.
  intros b c c1 e r H E. unfold connection_lost in *. cbn [cl_future set_transport flip] in *.
  destruct (cl_future c); inversion E; subst; auto.
Qed.
Lemma blind_timesync now : blind (timesync_step now).
Proof.
  intros b c c1 e r H E. unfold timesync_step in *. cbn [cl_tasks cl_frequency flip].
  destruct (Nat.eqb (cl_tasks c) 0); [inversion E; subst; auto|].
  destruct (cl_frequency c <=? 0); [inversion E; subst; auto|].
  destruct (clock_datetime now None c) as [[cc ee] [x|x]] eqn:C; destruct (blind_clock now None b _ _ _ _ H C) as [H1 Q];
    rewrite Q; inversion E; subst; auto.
Qed.
Lemma blind_relay l : blind (relay l).
Proof.
  intros b c c1 e r H E. unfold relay in *. cbn [cl_class cl_mqtt flip]. rewrite H in *.
  destruct (cl_mqtt c); revert E; [apply blind_emit_all|apply blind_ret]; exact H.
Qed.
Lemma blind_dispatch now src s : blind (dispatch_sal now src s).
Proof.
  destruct s; cbn [dispatch_sal]; try apply blind_ret; try apply blind_emit;
    try (apply blind_seq; [apply blind_emit|]; apply blind_relay).
  apply blind_seq; [apply blind_emit|]. intros b c c1 e r H E. cbn [cl_class flip]. rewrite H in *.
  revert E. apply blind_seq; [apply blind_clock|apply blind_ret|exact H].
Qed.
Lemma blind_dispatch_all now src sals : blind (dispatch_sals now src sals).
Proof. induction sals; cbn [dispatch_sals]; [apply blind_ret|]. apply blind_seq; [apply blind_dispatch|assumption]. Qed.
Lemma blind_handle now p : blind (handle_cbus_packet now p).
Proof. destruct p; cbn [handle_cbus_packet]; try apply blind_ret; try apply blind_emit. apply blind_dispatch_all. Qed.
Lemma blind_data now buf : blind (fun c => handle_data now c buf).
Proof.
  intros b c c1 e r H E. unfold handle_data in *.
  destruct (decode_packet buf true true true) as [ws [[[p|] n]|x]]; try (inversion E; subst; auto; fail).
  destruct (handle_cbus_packet now p c) as [[cc ee] rr] eqn:Hc. destruct (blind_handle now p b _ _ _ _ H Hc) as [H1 Q].
  rewrite Q. destruct rr as [[]|x]; inversion E; subst; auto.
Qed.
Lemma blind_process now b fuel : forall c buf c1 buf1 e r, handler_class c ->
  process_fuel (handle_data now) fuel c buf = (c1, buf1, e, r) ->
  handler_class c1 /\ process_fuel (handle_data now) fuel (flip b c) buf = (flip b c1, buf1, e, r).
Proof.
  induction fuel as [|fuel IH]; intros c buf c1 buf1 e r H E; destruct buf as [|x buf]; cbn [process_fuel] in *;
    try (inversion E; subst; auto; fail).
  destruct (handle_data now c (x :: buf)) as [[ch eh] rh] eqn:Hd.
  destruct (blind_data now (x :: buf) b _ _ _ _ H Hd) as [H1 Q]. rewrite Q.
  destruct rh as [n|y]; [|inversion E; subst; auto].
  destruct (n <? 0); [inversion E; subst; auto|]. destruct (0 <? n); [|inversion E; subst; auto].
  destruct (process_fuel (handle_data now) fuel ch (skipn (Z.to_nat n) (x :: buf))) as [[[c2 b2] e2] r2] eqn:P.
  destruct (IH _ _ _ _ _ _ H1 P) as [H2 Q2]. rewrite Q2. inversion E; subst. auto.
Qed.
Lemma blind_received now b c buf d c1 buf1 e r : handler_class c ->
  data_received (handle_data now) MAX_BUFFER_SIZE c buf d = (c1, buf1, e, r) ->
  handler_class c1 /\ data_received (handle_data now) MAX_BUFFER_SIZE (flip b c) buf d = (flip b c1, buf1, e, r).
Proof.
  intros H. unfold data_received. destruct (Nat.ltb MAX_BUFFER_SIZE (length d)); [intros E; inversion E; subst; auto|].
  destruct (Nat.ltb MAX_BUFFER_SIZE (length buf + length d)); [intros E; inversion E; subst; auto|].
  apply blind_process. exact H.
Qed.
Lemma blind_on_connect labels : blind (on_connect labels).
Proof.
  intros b c c1 e r H E. unfold on_connect in *.
  change (set_mqtt (flip b c) true) with (flip b (set_mqtt c true)). revert E.
  apply blind_seq; [apply blind_emit|apply blind_emit_all|exact H].
Qed.
Lemma blind_light ga on b t : blind (apply_light ga on b t).
Proof.
  unfold apply_light. destruct on; [destruct (num_eqb b 255 && (t =? 0))|];
    apply blind_seq; try apply blind_emit_all; first [apply blind_groups|apply blind_ramp].
Qed.
Lemma blind_message u topic body : blind (on_message u topic body).
Proof.
  unfold on_message. destruct (negb _); [apply blind_ret|].
  destruct (get_topic_group_address u topic) as [ga|x]; [|destruct x; try apply blind_ret; apply blind_raise].
  destruct body as [j|]; [|apply blind_ret].
  apply blind_bind; [apply blind_lift|]. intros on. apply blind_bind; [apply blind_lift|]. intros br.
  apply blind_bind; [apply blind_lift|]. intros t. apply blind_light.
Qed.

Lemma blind_step u now labels b st o st' ev r : handler_class (fst st) ->
  daemon_step u now labels st o = (st', ev, r) ->
  handler_class (fst st')
  /\ daemon_step u now labels (flip b (fst st), snd st) o = ((flip b (fst st'), snd st'), ev, r).
Proof.
  intros H E. destruct st as [c buf]. cbn [fst snd] in *.
  destruct o as [| |d| | |topic payload]; cbn [daemon_step client_step fst snd] in *.
  - destruct (api now OpConnect c) as [[c1 e1] r1] eqn:A. cbn [api] in *.
    destruct (blind_seq _ _ blind_connect (blind_ret None) b _ _ _ _ H A) as [H1 Q]. rewrite Q.
    inversion E; subst. auto.
  - destruct (api now OpLost c) as [[c1 e1] r1] eqn:A. cbn [api] in *.
    destruct (blind_seq _ _ blind_lost (blind_ret None) b _ _ _ _ H A) as [H1 Q]. rewrite Q.
    inversion E; subst. auto.
  - destruct (data_received (handle_data now) MAX_BUFFER_SIZE c buf d) as [[[c1 b1] e1] r1] eqn:D.
    destruct (blind_received now b _ _ _ _ _ _ _ H D) as [H1 Q]. rewrite Q.
    destruct r1 as [[]|x]; inversion E; subst; auto.
  - destruct (api now OpTimesync c) as [[c1 e1] r1] eqn:A. cbn [api] in *.
    destruct (blind_seq _ _ (blind_timesync now) (blind_ret None) b _ _ _ _ H A) as [H1 Q]. rewrite Q.
    inversion E; subst. auto.
  - destruct (on_connect labels c) as [[c1 e1] r1] eqn:A.
    destruct (blind_on_connect labels b _ _ _ _ H A) as [H1 Q]. rewrite Q. inversion E; subst. auto.
  - destruct (on_message u topic payload c) as [[c1 e1] r1] eqn:A.
    destruct (blind_message u topic payload b _ _ _ _ H A) as [H1 Q]. rewrite Q. inversion E; subst. auto.
Qed.
Lemma blind_run u now labels b ops : forall st st' tr, handler_class (fst st) ->
  daemon_run u now labels st ops = (st', tr) ->
  daemon_run u now labels (flip b (fst st), snd st) ops = ((flip b (fst st'), snd st'), tr).
Proof.
  induction ops as [|o ops IH]; intros st st' tr H E; cbn [daemon_run] in *; [inversion E; subst; reflexivity|].
  destruct (daemon_step u now labels st o) as [[s1 e1] r1] eqn:D.
  destruct (blind_step u now labels b _ _ _ _ _ H D) as [H1 Q]. rewrite Q.
  destruct (daemon_run u now labels s1 ops) as [s2 t2] eqn:R. rewrite (IH _ _ _ H1 R). inversion E; subst. reflexivity.
Qed.

(** C39.  Two daemons that differ only in the option do and return the same,
    whatever is called on them. *)
Theorem C39_no_clock : forall u now labels timesync ops,
  snd (daemon_run u now labels (new_daemon timesync true) ops)
  = snd (daemon_run u now labels (new_daemon timesync false) ops).
Proof.
  intros u now labels timesync ops.
  destruct (daemon_run u now labels (new_daemon timesync false) ops) as [st tr] eqn:E.
  pose proof (blind_run u now labels false ops (new_daemon timesync false) _ _ eq_refl E) as Q.
  change (flip false (fst (new_daemon timesync false)), snd (new_daemon timesync false))
    with (new_daemon timesync true) in Q. rewrite Q. reflexivity.
Qed.
Print Assumptions C39_no_clock.

(** A daemon told not to answer clock requests answers one. *)
Example C39_no_clock_case :
  let tr := snd (daemon_run (mkUnicode (fun _ => false) (fun _ => None)) noon [] (new_daemon 0 true)
                   [DConnected; DData (txt "0505DF00110303" ++ [13; 10])]) in
  exists w, nth_error tr 1 = Some ([CClockRequest (Some 5); CWrite w], Ok tt).
Proof. eexists. vm_compute. reflexivity. Qed.
