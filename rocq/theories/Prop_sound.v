(** C59: whatever bytes arrive, decoded packets have valid fields. *)
From Coq Require Import String List ZArith QArith Bool.
From Verif Require Import Py Common Sal Cal Packet Text Mqtt Buffered Client Base Spec Spec_sound Spec_client Packet_sound Buffer_facts.
Import ListNotations.
Open Scope Z_scope.

Theorem C59_sound : forall data checksum strict from_pci ws p n,
  decode_packet data checksum strict from_pci = (ws, Ok (Some p, n)) -> sound_packet strict from_pci p.
Proof. intros. eapply decode_sound; eassumption. Qed.
Print Assumptions C59_sound.

(** The arguments of the callbacks of the client are valid. *)
Definition sound_callback (e : cev) : Prop :=
  match e with
  | CRamp source ga seconds level =>
      sound_sal (LightRamp ga seconds level) /\ match source with Some a => 1 <= a <= 255 | None => True end
  | COn source ga | COff source ga | CTerminate source ga =>
      byte ga /\ match source with Some a => 1 <= a <= 255 | None => True end
  | CClockUpdate source v =>
      sound_sal (ClockUpdate v) /\ match source with Some a => 1 <= a <= 255 | None => True end
  | CClockRequest source => match source with Some a => 1 <= a <= 255 | None => True end
  | CConfirmation code _ => exists c, code = [c] /\ is_code c
  | _ => True
  end.

(** Every event a method causes satisfies [sound_callback]. *)
Definition sounds {A} (m : M A) : Prop := forall c c' ev r, m c = (c', ev, r) -> Forall sound_callback ev.
Lemma sounds_lift {A} (r : res A) : sounds (mlift r).
Proof. intros c c' ev r' E. inversion E. constructor. Qed.
Lemma sounds_ret {A} (a : A) : sounds (mret a).
Proof. intros c c' ev r E. inversion E. constructor. Qed.
Lemma sounds_bind {A B} (m : M A) (f : A -> M B) : sounds m -> (forall a, sounds (f a)) -> sounds (mbind m f).
Proof.
  intros Hm Hf c c' ev r E. unfold mbind in E. destruct (m c) as [[c1 ev1] [a|e]] eqn:Em.
  - destruct (f a c1) as [[c2 ev2] r2] eqn:Ef. inversion E; subst. apply Forall_app. split; [eapply Hm|eapply Hf]; eassumption.
  - inversion E; subst. eapply Hm; eassumption.
Qed.
Lemma sounds_seq {A B} (m : M A) (k : M B) : sounds m -> sounds k -> sounds (mseq m k).
Proof. intros. now apply sounds_bind. Qed.
Lemma sounds_emit e : sound_callback e -> sounds (memit e).
Proof. intros H c c' ev r E. inversion E; subst. now repeat constructor. Qed.
Lemma sounds_send p cf bm : sounds (send p cf bm).
Proof.
  intros c c' ev r E. unfold send in E.
  destruct (negb (cl_transport c)); [inversion E; constructor|].
  destruct (negb (is_base_packet p)); [inversion E; constructor|].
  destruct (encode_packet p) as [b|e]; [|inversion E; constructor].
  destruct (cf && negb (is_special_client p)).
  - revert E. apply sounds_bind.
    + intros x x' ev' r' E. unfold get_confirmation_code in E. destruct (nth_error _ _); inversion E; constructor.
    + intros a. apply sounds_seq; [now apply sounds_emit|apply sounds_ret].
  - revert E. apply sounds_seq; [now apply sounds_emit|apply sounds_ret].
Qed.
Lemma sounds_groups new gas : sounds (send_groups new gas).
Proof.
  unfold send_groups. destruct (Nat.ltb 9 (length gas)); [intros c c' ev r E; inversion E; constructor|].
  apply sounds_bind; [apply sounds_lift|]. intros s. apply sounds_bind; [apply sounds_lift|]. intros p. apply sounds_send.
Qed.
Lemma sounds_clock now w : sounds (clock_datetime now w).
Proof.
  unfold clock_datetime. apply sounds_bind.
  - intros c c' ev r E. destruct w; inversion E; constructor.
  - intros v. apply sounds_bind; [apply sounds_lift|]. intros s. apply sounds_bind; [apply sounds_lift|].
    intros p. apply sounds_send.
Qed.
Lemma sounds_reset : sounds pci_reset.
Proof. unfold pci_reset. repeat (apply sounds_seq; [apply sounds_send|]). apply sounds_ret. Qed.
Lemma sounds_api now o : sounds (api now o).
Proof.
  destruct o as [| |b|gas|gas|gas|ga d l|u a|w| |]; cbn [api]; try apply sounds_groups; try apply sounds_clock; try apply sounds_ret;
    try (apply sounds_seq; [|apply sounds_ret]).
  - intros c c' ev r. unfold connection_made. apply sounds_seq; [apply sounds_reset|].
    intros x x' ev' r' E. destruct (cl_frequency x =? 0); inversion E; repeat constructor.
  - intros c c' ev r E. unfold connection_lost in E. cbv zeta in E.
    destruct (cl_future (set_transport c false)); inversion E; repeat constructor.
  - unfold lighting_group_ramp. apply sounds_bind; [apply sounds_lift|]. intros s.
    apply sounds_bind; [apply sounds_lift|]. intros p. apply sounds_send.
  - unfold identify. apply sounds_bind; [apply sounds_lift|]. intros p. apply sounds_send.
  - apply sounds_reset.
  - intros c c' ev r E. unfold timesync_step in E. destruct (Nat.eqb (cl_tasks c) 0); [inversion E; constructor|].
    destruct (cl_frequency c <=? 0); [inversion E; constructor|].
    destruct (clock_datetime now None c) as [[c1 ev1] [x|e]] eqn:D; inversion E; subst; eapply sounds_clock; exact D.
Qed.
Definition sound_source (a : option Z) : Prop := match a with Some a => 1 <= a <= 255 | None => True end.
Lemma sounds_relay ms : sounds (relay ms).
Proof.
  assert (A : forall l, sounds (memit_all (map CPublish l))).
  { induction l as [|m l IH]; cbn [map memit_all]; [apply sounds_ret|]. apply sounds_seq; [now apply sounds_emit|exact IH]. }
  intros c c' ev r E. unfold relay in E. destruct (cl_class c); [eapply sounds_ret; exact E|].
  destruct (cl_mqtt c); [eapply A; exact E|eapply sounds_ret; exact E].
Qed.
Lemma sounds_sal now src s : sound_source src -> sound_sal s -> sounds (dispatch_sal now src s).
Proof.
  intros S H. destruct s as [ga d lv|ga|ga|ga|v| |ga t|vr vl|lvl ga ch]; cbn [dispatch_sal]; try apply sounds_ret;
    try (apply sounds_seq; [apply sounds_emit; split; assumption|apply sounds_relay]);
    try (apply sounds_emit; split; assumption).
  unfold on_clock_request. apply sounds_seq; [now apply sounds_emit|].
  assert (K : sounds (mseq (clock_datetime now None) (mret tt))) by (apply sounds_seq; [apply sounds_clock|apply sounds_ret]).
  intros c c' ev r E. destruct (cl_class c); [destruct (cl_handle_clock c)|];
    first [eapply K; exact E|eapply sounds_ret; exact E].
Qed.
Lemma sounds_packet now strict p : sound_packet strict true p -> sounds (handle_cbus_packet now p).
Proof.
  destruct p as [| |co su| | |pl ex|h a sals|h u hops cals|h a v|ch bl st ck|c]; cbn [handle_cbus_packet sound_packet]; intros S;
    try apply sounds_ret; try (apply sounds_emit; exact Logic.I); try (apply sounds_emit; exact (proj2 S)).
  - destruct S as [[_ [_ S]] [_ L]]. induction L as [|s sals H L IH]; cbn [dispatch_sals]; [apply sounds_ret|].
    apply sounds_seq; [now apply sounds_sal|exact IH].
Qed.
Lemma sound_warns ws : Forall sound_callback (map CWarn ws).
Proof. induction ws; constructor; [exact Logic.I|assumption]. Qed.
Lemma sound_data now c buf c' ev r : handle_data now c buf = (c', ev, r) -> Forall sound_callback ev.
Proof.
  unfold handle_data. intros E. destruct (decode_packet buf true true true) as [ws [[p n]|e]] eqn:D;
    [|inversion E; apply sound_warns].
  destruct p as [p|]; [|inversion E; apply sound_warns].
  apply decode_sound in D. assert (S := sounds_packet now _ _ D c).
  destruct (handle_cbus_packet now p c) as [[c2 ev2] [[]|e]]; inversion E; subst;
    apply Forall_app; (split; [apply sound_warns|eapply S; reflexivity]).
Qed.

(** Over any history of any client, from any state, with any clock. *)
Theorem C59_callbacks : forall now ops st st' tr,
  client_run now st ops = (st', tr) -> Forall sound_callback (effects tr).
Proof.
  intros now ops. induction ops as [|o ops IH]; intros st st' tr E; cbn [client_run] in E; [inversion E; constructor|].
  destruct (client_step now st o) as [[st1 ev] r] eqn:S.
  destruct (client_run now st1 ops) as [st2 tr2] eqn:T. inversion E; subst.
  cbn [effects flat_map fst]. fold (effects tr2). apply Forall_app. split; [|eapply IH; exact T].
  assert (K : match api now o (fst st) with (c, ev, r) => ((c, snd st), ev, r) end = (st1, ev, r) -> Forall sound_callback ev).
  { intros F. destruct (api now o (fst st)) as [[c1 ev1] r1] eqn:A. inversion F; subst. eapply sounds_api; exact A. }
  destruct o; cbn [client_step] in S; try (apply K; exact S). clear K.
  assert (P : forall c buf calls c' buf' ev out, processes (handle_data now) c buf calls c' buf' ev out -> Forall sound_callback ev).
  { induction 1; try constructor; try (eapply sound_data; eassumption).
    apply Forall_app. split; [eapply sound_data; eassumption|assumption]. }
  destruct (data_received (handle_data now) MAX_BUFFER_SIZE (fst st) (snd st) b) as [[[c1 b1] ev1] o1] eqn:D.
  assert (Q : ev = ev1) by (destruct o1 as [[]|e]; inversion S; reflexivity). subst ev1.
  unfold data_received in D. destruct (Nat.ltb _ (length b)); [inversion D; constructor|].
  destruct (Nat.ltb _ (length (snd st) + length b)); [inversion D; constructor|].
  apply process_buffer_spec in D. destruct D as [calls D]. eapply P; exact D.
Qed.
Print Assumptions C59_callbacks.

(** A ramp over 30 s to level 128 from unit 5, and its callback. *)
Example C59_case :
  let data := txt "0505380079012A028098" ++ [13; 10] in
  decode_packet data true true true
  = ([], Ok (Some (PktPM (mkHdr true 0 (Some 5) None) (Some 0x38) [LightOn 1; LightRamp 2 30 (PInt 128)]), 22%nat))
  /\ callbacks (effects (snd (client_run (fun _ => CTime 0 0 0 0) (new_client ClassPCI 0 true Pending, []) [OpConnect; OpData data])))
     = [COn (Some 5) 1; CRamp (Some 5) 2 30 (PInt 128)].
Proof. vm_compute. split; reflexivity. Qed.
