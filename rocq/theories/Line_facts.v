(** Lemmas on the daemon and the emulator at the two ends of a TCP connection:
    what the two objects do is what they do in [House], up to the end. *)
From Coq Require Import String List ZArith Bool Lia Arith.
From Verif Require Import Py Common Sal Cal Packet Text Mqtt Buffered Client Cmqttd Daemon Server Base Spec Spec_client
  Spec_mqtt Spec_daemon Spec_server Common_facts Client_facts Client_steps Client_send Client_calls Prop_client Prop_daemon
  Loop Spec_loop Loop_facts House Spec_house House_facts Prop_house Transport Spec_transport Transport_facts Line Spec_line.
Import ListNotations.
Notation length := List.length.
Open Scope Z_scope.

(** ** Chronicles *)

Definition mqtt_after (m : bool) (ops : list dop) : bool :=
  fold_left (fun m o => match o with DMqttConnected => true | _ => m end) ops m.
Definition bus_after (b : bool) (ops : list dop) : bool := fold_left (fun b o => connected_after o b) ops b.
Lemma mqtt_after_app m a b : mqtt_after m (a ++ b) = mqtt_after (mqtt_after m a) b.
Proof. apply fold_left_app. Qed.
Lemma bus_after_app m a b : bus_after m (a ++ b) = bus_after (bus_after m a) b.
Proof. apply fold_left_app. Qed.

Lemma chronicle_app u m b ops tr log : chronicle u m b ops tr log -> forall ops2 tr2 log2,
  chronicle u (mqtt_after m ops) (bus_after b ops) ops2 tr2 log2 -> chronicle u m b (ops ++ ops2) (tr ++ tr2) (log ++ log2).
Proof.
  induction 1 as [m b|m b o ops ev r tr log B C IH|m b ops ev r tr log C IH|m topic payload ga w ops ev r tr log O C IH
                 |m b topic payload ops ev r tr log O C IH]; intros ops2 tr2 log2 D; cbn [app].
  - exact D.
  - rewrite <- app_assoc. constructor; [exact B|]. apply IH. destruct o; try contradiction; exact D.
  - constructor. apply IH. exact D.
  - econstructor; [exact O|]. apply IH. exact D.
  - apply chr_ignored; [exact O|]. apply IH. exact D.
Qed.
Lemma chronicle_one u m b o ev r : exists log, chronicle u m b [o] [(ev, r)] log.
Proof.
  destruct o as [| |d| | |topic payload]; try (eexists; apply chr_bus; [exact Logic.I|constructor]).
  - eexists. apply chr_mqtt. constructor.
  - destruct (order_dec u topic payload b) as [[-> [ga [w O]]]|O].
    + eexists. eapply chr_order; [exact O|constructor].
    + eexists. apply chr_ignored; [exact O|constructor].
Qed.
Lemma chronicle_still u m b o ev r : flat_map Spec_daemon.seen ev = [] ->
  match o with DMqttMessage _ _ => b = false | _ => True end -> chronicle u m b [o] [(ev, r)] [].
Proof.
  intros E B. assert (N : (if m then flat_map Spec_daemon.seen ev else []) ++ [] = []) by (rewrite E; now destruct m).
  destruct o as [| |d| | |topic payload]; try (rewrite <- N; apply chr_bus; [exact Logic.I|constructor]).
  - apply chr_mqtt. constructor.
  - subst b. apply chr_ignored; [discriminate|constructor].
Qed.

Lemma no_news ev : callbacks ev = [] -> flat_map Spec_daemon.seen ev = [].
Proof. intros H. now rewrite <- strip_seen, H. Qed.

(** ** Steps of the two objects *)

(** The calls made by the program of the daemon. *)
Definition outside (o : dop) : Prop := match o with DTimesync | DMqttConnected | DMqttMessage _ _ => True | _ => False end.

Lemma publishes_silent l : writes (map CPublish l) = [] /\ callbacks (map CPublish l) = [].
Proof. induction l as [|m l [IH1 IH2]]; [split; reflexivity|]. split; [exact IH1|exact IH2]. Qed.

Lemma off_step u now labels st o st' ev r : counter_ok (fst st) -> cl_transport (fst st) = false -> outside o ->
  daemon_step u now labels st o = (st', ev, r) ->
  writes ev = [] /\ callbacks ev = [] /\ cl_transport (fst st') = false.
Proof.
  intros I T O E. destruct o as [| |d| | |topic payload]; try contradiction.
  - cbn [daemon_step] in E. destruct (client_step now st OpTimesync) as [[s1 e1] r1] eqn:F. inversion E; subst; clear E.
    assert (C := C52_silent now [OpTimesync] st st' [(ev, r1)]). cbn [client_run] in C. rewrite F in C.
    destruct C as [C1 [C2 _]]; [intros [X|[]]; discriminate|exact T|reflexivity|].
    unfold effects in C1. cbn [flat_map fst] in C1. rewrite app_nil_r in C1.
    cbn [client_step] in F. destruct (api now OpTimesync (fst st)) as [[c2 e2] r2] eqn:G. inversion F; subst.
    destruct (calls_silently now OpTimesync _ _ _ _ G Logic.I) as [C3 _]. auto.
  - destruct (connect_step _ _ _ _ _ _ _ E) as [-> _]. cbn [daemon_step] in E. unfold on_connect, mseq, mbind, memit in E.
    rewrite emit_all in E. pose proof (f_equal (fun x => snd (fst x)) E) as B. cbn [fst snd] in B. subst ev.
    destruct (publishes_silent (publish_all_lights labels)) as [A1 A2]. split; [exact A1|]. split; [exact A2|exact T].
  - destruct (ignored_step u now labels st topic payload I) as [r' E']; [rewrite T; discriminate|].
    rewrite E in E'. inversion E'; subst. auto.
Qed.
Lemma lost_step u now labels st st' ev r : daemon_step u now labels st DLost = (st', ev, r) ->
  writes ev = [] /\ callbacks ev = [] /\ cl_transport (fst st') = false.
Proof.
  intros E. cbn [daemon_step client_step api] in E. destruct (C52_lost (fst st)) as [c [v [x [F [T [_ M]]]]]].
  unfold mseq, mbind in E. rewrite F in E. destruct (cl_future (fst st)); destruct M as [-> [-> _]]; inversion E; subst; auto.
Qed.

Lemma daemon_buffer u now labels c b1 b2 o c' b' ev r : (forall d, o <> DData d) ->
  daemon_step u now labels (c, b1) o = ((c', b'), ev, r) -> b' = b1 /\ daemon_step u now labels (c, b2) o = ((c', b2), ev, r).
Proof.
  intros N E. destruct o as [| |d| | |topic payload]; cbn [daemon_step client_step fst snd] in *.
  - destruct (api now OpConnect c) as [[x y] z]. inversion E; subst. auto.
  - destruct (api now OpLost c) as [[x y] z]. inversion E; subst. auto.
  - now destruct (N d).
  - destruct (api now OpTimesync c) as [[x y] z]. inversion E; subst. auto.
  - destruct (on_connect labels c) as [[x y] z]. inversion E; subst. auto.
  - destruct (on_message u topic payload c) as [[x y] z]. inversion E; subst. auto.
Qed.
Lemma server_buffer rnd c b1 b2 o c' b' ev r : (forall d, o <> SOpData d) ->
  server_step rnd (c, b1) o = ((c', b'), ev, r) -> b' = b1 /\ server_step rnd (c, b2) o = ((c', b2), ev, r).
Proof.
  intros N E.
  assert (X : (match s_api o c with (s, e, x) => ((s, b1), e, x) end) = ((c', b'), ev, r)
              /\ server_step rnd (c, b2) o = (match s_api o c with (s, e, x) => ((s, b2), e, x) end)).
  { destruct o; try (split; [exact E|reflexivity]). now destruct (N b). }
  destruct X as [X1 X2]. rewrite X2. destruct (s_api o c) as [[x y] z]. inversion X1; subst. auto.
Qed.
Lemma daemon_overflow u now labels st d : (256 < length (snd st) + length d)%nat ->
  exists b, daemon_step u now labels st (DData d) = ((fst st, b), [], Raise ValueError).
Proof.
  intros H. cbn [daemon_step client_step]. unfold data_received.
  destruct (Nat.ltb MAX_BUFFER_SIZE (length d)); [eexists; reflexivity|].
  match goal with |- context [Nat.ltb MAX_BUFFER_SIZE ?n] => destruct (Nat.ltb MAX_BUFFER_SIZE n) eqn:L end; [eexists; reflexivity|].
  exfalso. apply Nat.ltb_ge in L. exact (Nat.lt_irrefl _ (Nat.lt_le_trans _ _ _ H L)).
Qed.
Lemma server_overflow rnd st d : (256 < length (snd st) + length d)%nat ->
  exists b, server_step rnd st (SOpData d) = ((fst st, b), [], Raise ValueError).
Proof.
  intros H. cbn [server_step]. unfold data_received.
  destruct (Nat.ltb MAX_BUFFER_SIZE (length d)); [eexists; reflexivity|].
  match goal with |- context [Nat.ltb MAX_BUFFER_SIZE ?n] => destruct (Nat.ltb MAX_BUFFER_SIZE n) eqn:L end; [eexists; reflexivity|].
  exfalso. apply Nat.ltb_ge in L. exact (Nat.lt_irrefl _ (Nat.lt_le_trans _ _ _ H L)).
Qed.

(** ** The socket only takes more *)

Lemma write_grows net t d : exists z, t_wire (write net t d) = t_wire t ++ z.
Proof.
  assert (N : exists z, t_wire t = t_wire t ++ z) by (exists []; now rewrite app_nil_r).
  assert (F : forall x, t_wire (force_close x) = t_wire x) by (intros x; unfold force_close; now destruct (t_lost x)).
  unfold write. destruct d as [|x d]; [exact N|]. destruct (t_lost t || t_gone t); [exact N|].
  destruct (t_out t); [|exact N]. unfold try_send. destruct (net (t_sends t)); cbn [set_out t_wire]; rewrite ?F; cbn [t_wire]; eauto.
Qed.
Lemma writes_grow net l : forall t, exists z, t_wire (write_all net t l) = t_wire t ++ z.
Proof.
  induction l as [|d l IH]; intros t; [exists []; now rewrite app_nil_r|].
  change (write_all net t (d :: l)) with (write_all net (write net t d) l).
  destruct (IH (write net t d)) as [z E]. destruct (write_grows net t d) as [y F]. rewrite E, F, <- app_assoc. eauto.
Qed.
Lemma step_grows {St Op Ev R} (p : party St Op Ev R) net w o w' tr : net_step p net w o = (w', tr) ->
  exists z, t_wire (snd w') = t_wire (snd w) ++ z.
Proof.
  destruct w as [st t]. intros H. cbn [snd].
  assert (N : exists z, t_wire t = t_wire t ++ z) by (exists []; now rewrite app_nil_r).
  assert (F : forall x, t_wire (force_close x) = t_wire x) by (intros x; unfold force_close; now destruct (t_lost x)).
  assert (CL : forall t1, (exists z, t_wire t1 = t_wire t ++ z) -> call_lost p net st t1 = (w', tr) -> exists z, t_wire (snd w') = t_wire t ++ z).
  { intros t1 G C. destruct (call_lost_facts net p _ _ _ _ C) as [ev [r [_ [_ ->]]]]. exact G. }
  destruct o as [o|b| | |]; cbn [net_step] in H.
  - destruct (p_call p st o) as [[st' ev] r]. inversion H; subst. apply writes_grow.
  - destruct (t_closing t); [inversion H; subst; exact N|]. destruct b as [|x b].
    + inversion H; subst. cbn [snd]. unfold close. destruct (t_closing t); [exact N|]. destruct (t_out t); exact N.
    + destruct (p_call p st _) as [[st' ev] r]. inversion H; subst. cbn [snd]. destruct r; rewrite ?F; apply writes_grow.
  - destruct (t_closing t); inversion H; subst; cbn [snd]; rewrite ?F; exact N.
  - destruct (t_lost t); [inversion H; subst; exact N|]. destruct (t_out t) as [|x out] eqn:O; [inversion H; subst; exact N|].
    unfold try_send in H. destruct (net (t_sends t)) as [k| |].
    + destruct (skipn k (x :: out)).
      * destruct (t_closing t); [apply CL in H; [exact H|cbn; eauto]|inversion H; subst; cbn; eauto].
      * inversion H; subst. cbn. eauto.
    + inversion H; subst. exact N.
    + inversion H; subst. cbn [snd]. rewrite F. exact N.
  - destruct (t_due t); [inversion H; subst; exact N|]. apply CL in H; [exact H|exact N].
Qed.

Lemma firstn_more {A} n (l z : list A) : (n <= length l)%nat -> firstn n (l ++ z) = firstn n l.
Proof. intros H. rewrite firstn_app. replace (n - length l)%nat with 0%nat by lia. cbn. apply app_nil_r. Qed.

(** ** One end *)

(** The daemon's end: [d] with the history [s] does what a daemon in the state
    [kc] with the history [hc], [ht] does, up to the loss of the connection. *)
Record daemon_end (u : unicode) (d : (client * bytes) * tcp) (s : list (Transport.seen dop cev unit)) (kc : client * bytes)
    (hc : list dop) (ht : list (list cev * res unit)) : Prop := mkDaemonEnd
  { de_sound : sound (snd d) (losses s);
    de_wire : exists rest, t_wire (snd d) ++ t_out (snd d) ++ rest = concat (writes (effects ht))
      /\ (t_lost (snd d) || t_gone (snd d) = false -> rest = []);
    de_state : t_gone (snd d) = false -> fst (fst d) = fst kc /\ (t_closing (snd d) = false -> snd (fst d) = snd kc);
    de_gone : t_gone (snd d) = true -> cl_transport (fst (fst d)) = false /\ bus_after false (map as_dop s) = false;
    de_ok : counter_ok (fst (fst d)) /\ cl_class (fst (fst d)) = ClassHandler;
    de_effects : t_gone (snd d) = false -> effects (map entry s) = effects ht
      /\ mqtt_after false (map as_dop s) = mqtt_after false hc /\ bus_after false (map as_dop s) = bus_after false hc;
    de_callbacks : writes (effects (map entry s)) = writes (effects ht) /\ callbacks (effects (map entry s)) = callbacks (effects ht);
    de_log : exists log, chronicle u false false (map as_dop s) (map entry s) log /\ chronicle u false false hc ht log;
    de_data : forall b ev r, In (SData b ev r) s -> r = Ok tt \/ ev = [] /\ r = Raise ValueError }.

(** The emulator's end. *)
Record pci_end (p : (server * bytes) * tcp) (s : list (Transport.seen pop sev unit)) (ks : server * bytes)
    (ht : list (list sev * res unit)) : Prop := mkPciEnd
  { pe_sound : sound (snd p) (losses s);
    pe_wire : exists rest, t_wire (snd p) ++ t_out (snd p) ++ rest = concat (written ht)
      /\ (t_lost (snd p) || t_gone (snd p) = false -> rest = []);
    pe_state : fst (fst p) = fst ks /\ (t_closing (snd p) = false -> snd (fst p) = snd ks);
    pe_effects : effects (map entry s) = effects ht;
    pe_data : forall b ev r, In (SData b ev r) s -> r = Ok tt \/ ev = [] /\ r = Raise ValueError /\ (210 < length b)%nat }.

Lemma effects_app {Ev A} (a b : list (list Ev * res A)) : effects (a ++ b) = effects a ++ effects b.
Proof. apply flat_map_app. Qed.
Lemma written_effects (l : list (list sev * res unit)) : written l = swrites (effects l).
Proof. induction l as [|x l IH]; [reflexivity|]. unfold written, effects, swrites in *. cbn [flat_map]. now rewrite IH, flat_map_app. Qed.
Lemma called_effects (l : list (list sev * res unit)) : called l = scallbacks (effects l).
Proof. induction l as [|x l IH]; [reflexivity|]. unfold called, effects, scallbacks in *. cbn [flat_map]. now rewrite IH, filter_app. Qed.

Lemma losses_one {Op Ev R} (s : list (Transport.seen Op Ev R)) x : losses (s ++ [x]) = (losses s + match x with SLost _ _ => 1 | _ => 0 end)%nat.
Proof. rewrite losses_app. destruct x; reflexivity. Qed.
Lemma writes_one ev : transport_writes ev = writes ev.
Proof. apply transport_writes_spec. Qed.

  (** The new wire when the writes of [ev] are added. *)
  Lemma wire_step {St Op Ev R} (p : party St Op Ev R) net w o w' tr n (x : bytes) : sound (snd w) n -> net_step p net w o = (w', tr) ->
    (exists rest, t_wire (snd w) ++ t_out (snd w) ++ rest = x /\ (t_lost (snd w) || t_gone (snd w) = false -> rest = [])) ->
    exists rest, t_wire (snd w') ++ t_out (snd w') ++ rest = x ++ concat (given p tr)
      /\ (t_lost (snd w') || t_gone (snd w') = false -> rest = []).
  Proof.
    intros S E [rest [A B]]. destruct (step_facts net p w o w' tr n S E) as [S1 [_ [L1 [G1 [_ [_ [r1 [W1 Z1]]]]]]]].
    destruct (t_lost (snd w) || t_gone (snd w)) eqn:Q.
    - assert (K : (t_lost (snd w') || t_gone (snd w') = true) /\ t_wire (snd w') = t_wire (snd w)).
      { apply orb_true_iff in Q. destruct Q as [Q|Q]; [destruct (L1 Q) as [X Y]|destruct (G1 Q) as [X Y]]; rewrite X; split; auto.
        apply orb_true_r. }
      destruct K as [K1 K2].
      assert (O' : t_out (snd w') = []).
      { destruct S1 as [X [Y _]]. apply orb_true_iff in K1. destruct K1 as [K1|K1]; [now destruct (X K1)|now destruct (Y K1)]. }
      assert (O : t_out (snd w) = []).
      { destruct S as [X [Y _]]. apply orb_true_iff in Q. destruct Q as [Q|Q]; [now destruct (X Q)|now destruct (Y Q)]. }
      exists (rest ++ concat (given p tr)). split; [|congruence]. rewrite <- A, O', O, K2. cbn [app]. now rewrite <- app_assoc.
    - rewrite (B eq_refl), app_nil_r in A. exists r1. split; [|exact Z1]. rewrite <- W1, <- A. now rewrite <- app_assoc.
  Qed.
  Lemma quiet_gone {St Op Ev R} (p : party St Op Ev R) net w o w' tr n : sound (snd w) n -> net_step p net w o = (w', tr) ->
    t_gone (snd w') = t_gone (snd w) || negb (Nat.eqb (losses tr) 0).
  Proof.
    intros S E. destruct (step_facts net p w o w' tr n S E) as [[_ [_ [X _]]] _]. destruct S as [_ [_ [Y _]]].
    destruct (t_gone (snd w)), (t_gone (snd w')); destruct (losses tr) as [|k]; cbn; lia.
  Qed.
  Lemma quiet_open {St Op Ev R} (p : party St Op Ev R) net w o w' tr n : sound (snd w) n -> net_step p net w o = (w', tr) ->
    t_closing (snd w') = false -> t_closing (snd w) = false.
  Proof.
    intros S E. destruct (step_facts net p w o w' tr n S E) as [_ [X _]]. destruct (t_closing (snd w)); [|auto].
    destruct (X eq_refl). congruence.
  Qed.

Section Ends.
  Variables (u : unicode) (now : nat -> clockval) (labels : list (Z * text)) (rnd : nat -> Z).
  Hypothesis W : clock_works now.

  (** *** The daemon's end *)

  Let dp := daemon_party u now labels.

  Lemma daemon_quiet net d o d' s kc hc ht : net_step dp net d o = (d', []) ->
    daemon_end u d s kc hc ht -> daemon_end u d' s kc hc ht.
  Proof.
    intros E [A1 A2 A3 A4 A5 A6 A7 A8 A9].
    destruct (step_facts net dp d o d' [] _ A1 E) as [S1 _]. rewrite <- losses_app, app_nil_r in S1.
    pose proof (quiet_gone dp net d o d' [] _ A1 E) as G. cbn in G. rewrite orb_false_r in G.
    pose proof (quiet_open dp net d o d' [] _ A1 E) as C.
    pose proof (wire_step dp net d o d' [] _ _ A1 E A2) as X. cbn [given flat_map concat] in X. rewrite app_nil_r in X.
    destruct (step_history dp net d o d' [] E) as [[_ F]|[s0 [Q _]]]; [|discriminate].
    rewrite G in X. constructor; rewrite ?G, ?F; auto. intros Q. destruct (A3 Q). auto.
  Qed.

  Lemma daemon_grows net d o d' x s kc hc ht kc' : net_step dp net d o = (d', [x]) ->
    match x with SLost _ _ => False | SData _ _ v => v = Ok tt | SCall o _ _ => o <> DLost end -> t_gone (snd d) = false ->
    daemon_end u d s kc hc ht ->
    fst (fst d') = fst kc' -> (t_closing (snd d') = false -> snd (fst d') = snd kc') ->
    daemon_end u d' (s ++ [x]) kc' (hc ++ [as_dop x]) (ht ++ [entry x]).
  Proof.
    intros E NX NG [A1 A2 A3 A4 A5 A6 A7 A8 A9] K1 K2.
    destruct (step_facts net dp d o d' [x] _ A1 E) as [S1 _]. rewrite <- losses_app in S1.
    assert (LX : losses [x] = 0%nat) by (destruct x; [reflexivity|reflexivity|contradiction]).
    pose proof (quiet_gone dp net d o d' [x] _ A1 E) as G. rewrite LX, NG in G. cbn in G.
    pose proof (wire_step dp net d o d' [x] _ _ A1 E A2) as X. unfold given in X. cbn [flat_map] in X.
    change (p_out dp (seen_effects x)) with (transport_writes (seen_effects x)) in X. rewrite app_nil_r, writes_one in X.
    destruct (step_history dp net d o d' [x] E) as [[Q _]|[s0 [Q [F _]]]]; [discriminate|]. injection Q as <-.
    assert (F' : daemon_step u now labels (fst d) (as_dop x) = (fst d', seen_effects x, seen_result x))
      by (destruct x; [exact F|exact F|contradiction]).
    destruct A5 as [I H]. destruct (step_own u now labels (fst d) (as_dop x) (fst d') _ _ W I H F') as [_ [I' H']].
    destruct (A6 NG) as [B1 [B2 B3]]. destruct A7 as [C1 C2].
    assert (EX : forall y : list (list cev * res unit), effects (y ++ [entry x]) = effects y ++ seen_effects x).
    { intros y. rewrite effects_app. unfold effects at 2. cbn [flat_map entry fst]. now rewrite app_nil_r. }
    rewrite G in X. constructor; rewrite ?map_app, ?G; cbn [map]; rewrite ?EX; auto; try discriminate.
    - destruct X as [rest [X1 X2]]. exists rest. unfold writes in *. now rewrite flat_map_app, concat_app.
    - intros _. rewrite !mqtt_after_app, !bus_after_app, B1, B2, B3. auto.
    - unfold writes, callbacks in *. now rewrite !flat_map_app, !filter_app, C1, C2.
    - destruct A8 as [log [L1 L2]].
      destruct (chronicle_one u (mqtt_after false hc) (bus_after false hc) (as_dop x) (seen_effects x) (seen_result x)) as [l1 L].
      exists (log ++ l1). split; apply chronicle_app; auto. now rewrite B2, B3.
    - intros b ev r J. apply in_app_or in J. destruct J as [J|[J|[]]]; [now apply A9 in J|]. subst x. left. exact NX.
  Qed.

  Lemma daemon_call net d o d' tr s kc hc ht : net_step dp net d (NCall o) = (d', tr) ->
    outside o \/ o = DConnected -> t_gone (snd d) = false -> daemon_end u d s kc hc ht ->
    exists ev r kc', tr = [SCall o ev r] /\ daemon_step u now labels kc o = (kc', ev, r)
      /\ daemon_end u d' (s ++ tr) kc' (hc ++ [o]) (ht ++ [(ev, r)]).
  Proof.
    intros E O NG H. pose proof E as E0. destruct (step_history dp net d _ d' tr E) as [[Q _]|[x [Q [F M]]]].
    { subst tr. destruct d as [st t]. cbn [net_step] in E. destruct (p_call dp st o) as [[? ?] ?]. inversion E. }
    subst tr. assert (X : exists ev r, x = SCall o ev r).
    { destruct d as [st t]. cbn [net_step] in E. destruct (p_call dp st o) as [[? ev] r]. inversion E. eauto. }
    destruct X as [ev [r ->]]. cbn [seen_effects seen_result] in F. change (p_call dp) with (daemon_step u now labels) in F.
    destruct (de_state _ _ _ _ _ _ H NG) as [B1 B2].
    assert (ND : forall b, o <> DData b) by (intros b ->; destruct O; [contradiction|discriminate]).
    destruct (fst d) as [c b] eqn:Fd. destruct (fst d') as [c' b'] eqn:Fd'. destruct kc as [c2 b2]. cbn [fst snd] in *. subst c2.
    destruct (daemon_buffer _ _ _ _ _ b2 _ _ _ _ _ ND F) as [-> Y].
    exists ev, r, (c', b2). split; [reflexivity|]. split; [exact Y|].
    refine (daemon_grows net d _ d' (SCall o ev r) s (c, b2) hc ht (c', b2) E _ NG H _ _).
    - intros ->. destruct O; [contradiction|discriminate].
    - now rewrite Fd'.
    - rewrite Fd'. cbn [snd]. intros C. apply B2. exact (quiet_open dp net d _ d' _ _ (de_sound _ _ _ _ _ _ H) E C).
  Qed.

  Lemma daemon_taken net d b d' s kc hc ht kc' ev : b <> [] -> t_closing (snd d) = false -> daemon_end u d s kc hc ht ->
    daemon_step u now labels kc (DData b) = (kc', ev, Ok tt) -> net_step dp net d (NArrives b) = (d', [SData b ev (Ok tt)]) ->
    daemon_end u d' (s ++ [SData b ev (Ok tt)]) kc' (hc ++ [DData b]) (ht ++ [(ev, Ok tt)]).
  Proof.
    intros NB C H K E.
    assert (NG : t_gone (snd d) = false).
    { pose proof (de_sound _ _ _ _ _ _ H) as [_ [X _]]. destruct (t_gone (snd d)); [|reflexivity]. destruct (X eq_refl). congruence. }
    destruct (de_state _ _ _ _ _ _ H NG) as [B1 B2]. specialize (B2 C).
    assert (Q : fst d = kc) by (destruct (fst d), kc; cbn in *; congruence).
    destruct (step_history dp net d _ d' _ E) as [[Y _]|[x [Y [F _]]]]; [discriminate|]. injection Y as <-.
    cbn [seen_effects seen_result] in F. change (p_call dp) with (daemon_step u now labels) in F. change (p_data dp b) with (DData b) in F.
    rewrite Q, K in F. assert (F1 := f_equal (fun x => fst (fst x)) F). cbn [fst] in F1.
    refine (daemon_grows net d _ d' (SData b ev (Ok tt)) s kc hc ht kc' E eq_refl NG H _ _); now rewrite <- F1.
  Qed.

  (** What the house does not see: what happens to the daemon after the loss, the
      loss, a piece that does not fit. *)
  Lemma daemon_aside net d o d' x s kc hc ht : net_step dp net d o = (d', [x]) -> daemon_end u d s kc hc ht ->
    writes (seen_effects x) = [] -> callbacks (seen_effects x) = [] ->
    match x with
    | SCall o _ _ => outside o /\ t_gone (snd d) = true
    | SData b ev r => ev = [] /\ r = Raise ValueError /\ fst (fst d') = fst (fst d)
    | SLost _ _ => True
    end ->
    cl_transport (fst (fst d')) = false \/ t_gone (snd d') = false ->
    daemon_end u d' (s ++ [x]) kc hc ht.
  Proof.
    intros E [A1 A2 A3 A4 A5 A6 A7 A8 A9] WX CX M T.
    destruct (step_facts net dp d o d' [x] _ A1 E) as [S1 [Cl [_ [_ [_ [Cr _]]]]]]. rewrite <- losses_app in S1.
    pose proof (quiet_gone dp net d o d' [x] _ A1 E) as G.
    pose proof (quiet_open dp net d o d' [x] _ A1 E) as C.
    pose proof (wire_step dp net d o d' [x] _ _ A1 E A2) as X. unfold given in X. cbn [flat_map] in X.
    change (p_out dp (seen_effects x)) with (transport_writes (seen_effects x)) in X. rewrite app_nil_r, writes_one, WX, app_nil_r in X.
    destruct (step_history dp net d o d' [x] E) as [[Q _]|[s0 [Q [F _]]]]; [discriminate|]. injection Q as <-.
    assert (F' : daemon_step u now labels (fst d) (as_dop x) = (fst d', seen_effects x, seen_result x)) by (destruct x; exact F).
    destruct A5 as [I H]. destruct (step_own u now labels (fst d) (as_dop x) (fst d') _ _ W I H F') as [_ [I' H']].
    assert (EX : forall y : list (list cev * res unit), effects (y ++ [entry x]) = effects y ++ seen_effects x).
    { intros y. rewrite effects_app. unfold effects at 2. cbn [flat_map entry fst]. now rewrite app_nil_r. }
    destruct A7 as [C1 C2].
    constructor; rewrite ?map_app; cbn [map]; rewrite ?EX; auto.
    - intros Q. rewrite Q in G. symmetry in G. apply orb_false_iff in G. destruct G as [G G'].
      destruct (A3 G) as [B1 B2]. destruct x as [o' ev r|b ev r|ev r]; [destruct M; congruence| |discriminate G'].
      destruct M as [_ [-> M]]. split; [congruence|]. intros Q'.
      assert (t_lost (snd d') = true) by (apply (Cr ValueError ev b); now left).
      destruct S1 as [Y _]. destruct (Y H0). congruence.
    - intros Q. destruct T as [T|T]; [|congruence]. split; [exact T|]. rewrite bus_after_app.
      destruct x as [o' ev r|b ev r|ev r].
      + destruct M as [M1 M2]. destruct (A4 M2) as [_ B]. rewrite B. cbn [as_dop]. destruct o'; try contradiction; reflexivity.
      + cbn in G. rewrite orb_false_r in G. rewrite Q in G. symmetry in G. destruct (A4 G) as [_ B]. now rewrite B.
      + reflexivity.
    - intros Q. rewrite Q in G. symmetry in G. apply orb_false_iff in G. destruct G as [G G'].
      destruct (A6 G) as [B1 [B2 B3]]. destruct x as [o' ev r|b ev r|ev r]; [destruct M; congruence| |discriminate G'].
      destruct M as [-> _]. cbn [seen_effects]. rewrite app_nil_r, mqtt_after_app, bus_after_app. auto.
    - unfold writes, callbacks in *. now rewrite !flat_map_app, !filter_app, WX, CX, C1, C2, !app_nil_r.
    - destruct A8 as [log [L1 L2]]. exists log. split; [|exact L2]. rewrite <- (app_nil_r log). apply chronicle_app; [exact L1|].
      apply chronicle_still; [now apply no_news|]. destruct x as [o' ev r|b ev r|ev r]; cbn [as_dop]; auto.
      destruct o'; auto. destruct M as [_ M]. now destruct (A4 M).
    - intros b ev r J. apply in_app_or in J. destruct J as [J|[J|[]]]; [now apply A9 in J|]. subst x. right. tauto.
  Qed.

  (** *** The emulator's end *)

  Let pp := pci_party rnd.

  Lemma pci_quiet net p o p' s ks ht : net_step pp net p o = (p', []) -> pci_end p s ks ht -> pci_end p' s ks ht.
  Proof.
    intros E [A1 A2 [A3 A4] A5 A6].
    destruct (step_facts net pp p o p' [] _ A1 E) as [S1 _]. rewrite <- losses_app, app_nil_r in S1.
    pose proof (quiet_open pp net p o p' [] _ A1 E) as C.
    pose proof (wire_step pp net p o p' [] _ _ A1 E A2) as X. cbn [given flat_map concat] in X. rewrite app_nil_r in X.
    destruct (step_history pp net p o p' [] E) as [[_ F]|[s0 [Q _]]]; [|discriminate].
    constructor; rewrite ?F; auto.
  Qed.

  Lemma pci_grows net p o p' x s ks ht ks' : net_step pp net p o = (p', [x]) -> pci_end p s ks ht ->
    (forall b ev v, x = SData b ev v -> v = Ok tt) ->
    fst (fst p') = fst ks' -> (t_closing (snd p') = false -> snd (fst p') = snd ks') ->
    pci_end p' (s ++ [x]) ks' (ht ++ [entry x]).
  Proof.
    intros E [A1 A2 A3 A5 A6] NX K1 K2.
    destruct (step_facts net pp p o p' [x] _ A1 E) as [S1 _]. rewrite <- losses_app in S1.
    pose proof (wire_step pp net p o p' [x] _ _ A1 E A2) as X. unfold given in X. cbn [flat_map] in X.
    change (p_out pp (seen_effects x)) with (swrites (seen_effects x)) in X. rewrite app_nil_r in X.
    assert (EX : forall y : list (list sev * res unit), effects (y ++ [entry x]) = effects y ++ seen_effects x).
    { intros y. rewrite effects_app. unfold effects at 2. cbn [flat_map entry fst]. now rewrite app_nil_r. }
    constructor; rewrite ?map_app; cbn [map]; rewrite ?EX, ?A5; auto.
    - rewrite written_effects in *. rewrite EX. unfold swrites in *. now rewrite flat_map_app, concat_app.
    - intros b ev r J. apply in_app_or in J. destruct J as [J|[J|[]]]; [now apply A6 in J|]. subst x. left. eapply NX. reflexivity.
  Qed.

  Lemma pci_call net p o p' tr s ks ht : net_step pp net p (NCall (PciCall o)) = (p', tr) ->
    (forall b, o <> SOpData b) -> pci_end p s ks ht ->
    exists ev r ks', tr = [SCall (PciCall o) ev r] /\ server_step rnd ks o = (ks', ev, r)
      /\ pci_end p' (s ++ tr) ks' (ht ++ [(ev, r)]).
  Proof.
    intros E ND H. pose proof E as E0. destruct (step_history pp net p _ p' tr E) as [[Q _]|[x [Q [F M]]]].
    { subst tr. destruct p as [st t]. cbn [net_step] in E. destruct (p_call pp st _) as [[? ?] ?]. inversion E. }
    subst tr. assert (X : exists ev r, x = SCall (PciCall o) ev r).
    { destruct p as [st t]. cbn [net_step] in E. destruct (p_call pp st _) as [[? ev] r]. inversion E. eauto. }
    destruct X as [ev [r ->]]. cbn [seen_effects seen_result] in F. change (p_call pp (fst p) (PciCall o)) with (server_step rnd (fst p) o) in F.
    destruct (pe_state _ _ _ _ H) as [B1 B2].
    destruct (fst p) as [c b] eqn:Fd. destruct (fst p') as [c' b'] eqn:Fd'. destruct ks as [c2 b2]. cbn [fst snd] in *. subst c2.
    destruct (server_buffer _ _ _ b2 _ _ _ _ _ ND F) as [-> Y].
    exists ev, r, (c', b2). split; [reflexivity|]. split; [exact Y|].
    refine (pci_grows net p _ p' (SCall (PciCall o) ev r) s (c, b2) ht (c', b2) E H _ _ _).
    - discriminate.
    - now rewrite Fd'.
    - rewrite Fd'. cbn [snd]. intros C. apply B2. exact (quiet_open pp net p _ p' _ _ (pe_sound _ _ _ _ H) E C).
  Qed.

  Lemma pci_taken net p b p' s ks ht ks' ev : b <> [] -> t_closing (snd p) = false -> pci_end p s ks ht ->
    server_step rnd ks (SOpData b) = (ks', ev, Ok tt) -> net_step pp net p (NArrives b) = (p', [SData b ev (Ok tt)]) ->
    pci_end p' (s ++ [SData b ev (Ok tt)]) ks' (ht ++ [(ev, Ok tt)]).
  Proof.
    intros NB C H K E. destruct (pe_state _ _ _ _ H) as [B1 B2]. specialize (B2 C).
    assert (Q : fst p = ks) by (destruct (fst p), ks; cbn in *; congruence).
    destruct (step_history pp net p _ p' _ E) as [[Y _]|[x [Y [F _]]]]; [discriminate|]. injection Y as <-.
    cbn [seen_effects seen_result] in F. change (p_call pp (fst p) (p_data pp b)) with (server_step rnd (fst p) (SOpData b)) in F.
    rewrite Q, K in F. assert (F1 := f_equal (fun x => fst (fst x)) F). cbn [fst] in F1.
    refine (pci_grows net p _ p' (SData b ev (Ok tt)) s ks ht ks' E H _ _ _); try (now rewrite <- F1).
    intros ? ? ? Y. now inversion Y.
  Qed.

  Lemma pci_aside net p o p' x s ks ht : net_step pp net p o = (p', [x]) -> pci_end p s ks ht ->
    match x with
    | SCall _ _ _ => False
    | SData b ev r => ev = [] /\ r = Raise ValueError /\ (210 < length b)%nat /\ fst (fst p') = fst (fst p)
    | SLost _ _ => True
    end ->
    pci_end p' (s ++ [x]) ks ht.
  Proof.
    intros E [A1 A2 [A3 A4] A5 A6] M.
    destruct (step_facts net pp p o p' [x] _ A1 E) as [S1 [_ [_ [_ [_ [Cr _]]]]]]. rewrite <- losses_app in S1.
    pose proof (quiet_open pp net p o p' [x] _ A1 E) as C.
    pose proof (wire_step pp net p o p' [x] _ _ A1 E A2) as X. unfold given in X. cbn [flat_map] in X.
    change (p_out pp (seen_effects x)) with (swrites (seen_effects x)) in X. rewrite app_nil_r in X.
    destruct (step_history pp net p o p' [x] E) as [[Q _]|[s0 [Q [F _]]]]; [discriminate|]. injection Q as <-.
    assert (EV : seen_effects x = [] /\ fst (fst p') = fst (fst p) /\ (t_closing (snd p') = false -> fst p' = fst p)).
    { destruct x as [o' ev r|b ev r|ev r]; [contradiction| |].
      - destruct M as [-> [-> [_ M]]]. split; [reflexivity|]. split; [exact M|]. intros Q.
        assert (Lo : t_lost (snd p') = true) by (apply (Cr ValueError [] b); now left).
        destruct S1 as [Y _]. destruct (Y Lo). congruence.
      - change (p_call pp (fst p) (p_lost pp)) with (fst p, @nil sev, @Ok unit tt) in F.
        assert (F1 := f_equal (fun x => fst (fst x)) F). assert (F2 := f_equal (fun x => snd (fst x)) F). cbn [fst snd] in F1, F2.
        rewrite <- F1, <- F2. auto. }
    destruct EV as [E1 [E2 E3]]. rewrite E1 in X. cbn [swrites flat_map concat] in X. rewrite app_nil_r in X.
    constructor; rewrite ?map_app; cbn [map]; auto.
    - split; [congruence|]. intros Q. rewrite (E3 Q). auto.
    - rewrite effects_app. unfold effects at 2. cbn [flat_map entry fst]. now rewrite E1, !app_nil_r.
    - intros b ev r J. apply in_app_or in J. destruct J as [J|[J|[]]]; [now apply A6 in J|]. subst x. right. tauto.
  Qed.
End Ends.

(** ** Both ends *)

Definition given_daemon_pieces (l : list dop) : list bytes := flat_map (fun o => match o with DData b => [b] | _ => [] end) l.

Section Both.
  Variables (u : unicode) (now : nat -> clockval) (labels : list (Z * text)) (rnd : nat -> Z) (timesync : Z) (no_clock : bool)
    (netd netp : nat -> reply).
  Hypothesis W : clock_works now.
  Hypothesis Rnd : randint_works rnd.
  Let H0 := house u now labels rnd timesync no_clock.

  Lemma house_snoc l k htr o k1 x : H0 l = (k, htr) -> house_step u now labels rnd k o = (k1, x) ->
    H0 (l ++ [o]) = (k1, htr ++ [x]).
  Proof.
    unfold H0, house. rewrite !app_comm_cons. generalize (AtPci SOpConnect :: AtDaemon DConnected :: l). clear l.
    generalize (mkLink (new_daemon timesync no_clock) [] (new_server, []) []). intros k0 l. revert k0 htr.
    induction l as [|y l IH]; intros k0 htr E S; cbn [house_run app] in *.
    - inversion E; subst. rewrite S. reflexivity.
    - destruct (house_step u now labels rnd k0 y) as [ka xa]. destruct (house_run u now labels rnd ka l) as [kb tb] eqn:Q.
      inversion E; subst. rewrite (IH _ _ Q S). reflexivity.
  Qed.

  (** The line in state [w] after [tr] is as a house after the schedule [l]. *)
  Record mirrored (l : list hop) (w : line) (tr : list nseen) (k : link) (htr : list hseen) : Prop := mkMirrored
    { mi_house : H0 l = (k, htr);
      mi_lax : Forall lax l;
      mi_refused : none_refused htr;
      mi_lost : nothing_lost htr;
      mi_daemon : daemon_end u (n_daemon w) (daemon_saw tr) (k_client k) (House.daemon_calls htr) (daemon_trace htr);
      mi_pci : pci_end (n_pci w) (pci_saw tr) (k_server k) (pci_trace htr);
      mi_up : (n_up w <= length (t_wire (snd (n_daemon w))))%nat
        /\ (t_closing (snd (n_pci w)) = false -> concat (chunks_of (pci_calls htr)) = firstn (n_up w) (t_wire (snd (n_daemon w))));
      mi_down : (n_down w <= length (t_wire (snd (n_pci w))))%nat
        /\ (t_closing (snd (n_daemon w)) = false ->
            concat (given_daemon_pieces (House.daemon_calls htr)) = firstn (n_down w) (t_wire (snd (n_pci w)))) }.

  Lemma saw_daemon tr t : daemon_saw (tr ++ map ByDaemon t) = daemon_saw tr ++ t /\ pci_saw (tr ++ map ByDaemon t) = pci_saw tr.
  Proof.
    unfold daemon_saw, pci_saw. rewrite !flat_map_app. split; [f_equal|rewrite <- app_nil_r; f_equal]; induction t as [|x t IH]; cbn; congruence.
  Qed.
  Lemma saw_pci tr t : pci_saw (tr ++ map ByPci t) = pci_saw tr ++ t /\ daemon_saw (tr ++ map ByPci t) = daemon_saw tr.
  Proof.
    unfold daemon_saw, pci_saw. rewrite !flat_map_app. split; [f_equal|rewrite <- app_nil_r; f_equal]; induction t as [|x t IH]; cbn; congruence.
  Qed.
  Lemma house_saw_daemon htr o ev r : House.daemon_calls (htr ++ [SeenDaemon o ev r]) = House.daemon_calls htr ++ [o]
    /\ daemon_trace (htr ++ [SeenDaemon o ev r]) = daemon_trace htr ++ [(ev, r)]
    /\ pci_calls (htr ++ [SeenDaemon o ev r]) = pci_calls htr /\ pci_trace (htr ++ [SeenDaemon o ev r]) = pci_trace htr.
  Proof. unfold House.daemon_calls, daemon_trace, pci_calls, pci_trace. rewrite !flat_map_app. cbn. now rewrite !app_nil_r. Qed.
  Lemma house_saw_pci htr o ev r : House.daemon_calls (htr ++ [SeenPci o ev r]) = House.daemon_calls htr
    /\ daemon_trace (htr ++ [SeenPci o ev r]) = daemon_trace htr
    /\ pci_calls (htr ++ [SeenPci o ev r]) = pci_calls htr ++ [o] /\ pci_trace (htr ++ [SeenPci o ev r]) = pci_trace htr ++ [(ev, r)].
  Proof. unfold House.daemon_calls, daemon_trace, pci_calls, pci_trace. rewrite !flat_map_app. cbn. now rewrite !app_nil_r. Qed.

  (** An event at the daemon's end, the house unchanged. *)
  Lemma mirror_daemon l w tr k htr o d' t n : mirrored l w tr k htr -> (n <= length (t_wire (snd (n_pci w))))%nat ->
    net_step (daemon_party u now labels) netd (n_daemon w) o = (d', t) ->
    daemon_end u d' (daemon_saw tr ++ t) (k_client k) (House.daemon_calls htr) (daemon_trace htr) ->
    t_closing (snd d') = true \/ n = n_down w ->
    mirrored l (mkLine d' (n_pci w) (n_up w) n) (tr ++ map ByDaemon t) k htr.
  Proof.
    intros [M1 M2 M3 M4 M5 M6 [M7 M7'] [M8 M8']] N E D B. destruct (saw_daemon tr t) as [S1 S2].
    destruct (step_grows _ _ _ _ _ _ E) as [z Z].
    constructor; cbn [n_daemon n_pci n_up n_down]; rewrite ?S1, ?S2; auto.
    - rewrite Z, app_length. split; [lia|]. intros C. now rewrite firstn_more by lia; auto.
    - split; [exact N|]. intros C. destruct B as [B|B]; [congruence|]. subst n. apply M8'.
      exact (quiet_open _ netd _ _ _ _ _ (de_sound _ _ _ _ _ _ M5) E C).
  Qed.
  Lemma mirror_pci l w tr k htr o p' t n : mirrored l w tr k htr -> (n <= length (t_wire (snd (n_daemon w))))%nat ->
    net_step (pci_party rnd) netp (n_pci w) o = (p', t) ->
    pci_end p' (pci_saw tr ++ t) (k_server k) (pci_trace htr) ->
    t_closing (snd p') = true \/ n = n_up w ->
    mirrored l (mkLine (n_daemon w) p' n (n_down w)) (tr ++ map ByPci t) k htr.
  Proof.
    intros [M1 M2 M3 M4 M5 M6 [M7 M7'] [M8 M8']] N E D B. destruct (saw_pci tr t) as [S1 S2].
    destruct (step_grows _ _ _ _ _ _ E) as [z Z].
    constructor; cbn [n_daemon n_pci n_up n_down]; rewrite ?S1, ?S2; auto.
    - split; [exact N|]. intros C. destruct B as [B|B]; [congruence|]. subst n. apply M7'.
      exact (quiet_open _ netp _ _ _ _ _ (pe_sound _ _ _ _ M6) E C).
    - rewrite Z, app_length. split; [lia|]. intros C. now rewrite firstn_more by lia; auto.
  Qed.

  (** A call on the daemon. *)
  Lemma mirror_call l w tr k htr o d' t : mirrored l w tr k htr -> outside o -> t_gone (snd (n_daemon w)) = false ->
    net_step (daemon_party u now labels) netd (n_daemon w) (NCall o) = (d', t) ->
    exists k' htr', mirrored (l ++ [AtDaemon o]) (mkLine d' (n_pci w) (n_up w) (n_down w)) (tr ++ map ByDaemon t) k' htr'.
  Proof.
    intros [M1 M2 M3 M4 M5 M6 [M7 M7'] [M8 M8']] O G E. destruct (saw_daemon tr t) as [S1 S2].
    destruct (step_grows _ _ _ _ _ _ E) as [z Z].
    destruct (daemon_call u now labels W netd _ o d' t _ _ _ _ E (or_introl O) G M5) as [ev [r [kc' [_ [K D]]]]].
    destruct (house_saw_daemon htr o ev r) as [T1 [T2 [T3 T4]]].
    exists (mkLink kc' (k_up k ++ concat (writes ev)) (k_server k) (k_down k)), (htr ++ [SeenDaemon o ev r]).
    constructor; cbn [n_daemon n_pci n_up n_down k_client k_server]; rewrite ?S1, ?S2, ?T1, ?T2, ?T3, ?T4; auto.
    - apply house_snoc with k; [exact M1|]. cbn [house_step]. unfold at_daemon. now rewrite K.
    - apply Forall_app. split; [exact M2|]. constructor; [|constructor]. destruct o; try contradiction; exact Logic.I.
    - intros d v J. apply in_app_or in J. destruct J as [J|[J|[]]]; [now apply (M3 d v)|discriminate].
    - intros d v J. apply in_app_or in J. destruct J as [J|[J|[]]]; [now apply (M4 d v)|]. inversion J; subst. contradiction.
    - rewrite Z, app_length. split; [lia|]. intros C. now rewrite firstn_more by lia; auto.
    - split; [exact M8|]. intros C. unfold given_daemon_pieces in *. rewrite flat_map_app.
      replace (flat_map _ [o]) with (@nil bytes) by (destruct o; try contradiction; reflexivity). rewrite app_nil_r. apply M8'.
      exact (quiet_open _ netd _ _ _ _ _ (de_sound _ _ _ _ _ _ M5) E C).
  Qed.
  Lemma mirror_pcall l w tr k htr o p' t : mirrored l w tr k htr -> (forall b, o <> SOpData b) ->
    net_step (pci_party rnd) netp (n_pci w) (NCall (PciCall o)) = (p', t) ->
    exists k' htr', mirrored (l ++ [AtPci o]) (mkLine (n_daemon w) p' (n_up w) (n_down w)) (tr ++ map ByPci t) k' htr'.
  Proof.
    intros [M1 M2 M3 M4 M5 M6 [M7 M7'] [M8 M8']] O E. destruct (saw_pci tr t) as [S1 S2].
    destruct (step_grows _ _ _ _ _ _ E) as [z Z].
    destruct (pci_call rnd netp _ o p' t _ _ _ E O M6) as [ev [r [ks' [_ [K D]]]]].
    destruct (house_saw_pci htr o ev r) as [T1 [T2 [T3 T4]]].
    exists (mkLink (k_client k) (k_up k) ks' (k_down k ++ concat (swrites ev))), (htr ++ [SeenPci o ev r]).
    constructor; cbn [n_daemon n_pci n_up n_down k_client k_server]; rewrite ?S1, ?S2, ?T1, ?T2, ?T3, ?T4; auto.
    - apply house_snoc with k; [exact M1|]. cbn [house_step]. unfold at_pci. now rewrite K.
    - apply Forall_app. split; [exact M2|]. constructor; [|constructor]. destruct o; try exact Logic.I. now destruct (O b).
    - intros d v J. apply in_app_or in J. destruct J as [J|[J|[]]]; [now apply (M3 d v)|]. inversion J; subst. now destruct (O d).
    - intros d v J. apply in_app_or in J. destruct J as [J|[J|[]]]; [now apply (M4 d v)|discriminate].
    - split; [exact M7|]. intros C. unfold chunks_of in *. rewrite flat_map_app.
      replace (flat_map _ [o]) with (@nil bytes) by (destruct o; try reflexivity; now destruct (O b)). rewrite app_nil_r. apply M7'.
      exact (quiet_open _ netp _ _ _ _ _ (pe_sound _ _ _ _ M6) E C).
    - rewrite Z, app_length. split; [lia|]. intros C. now rewrite firstn_more by lia; auto.
  Qed.

  (** What is under way. *)
  Lemma under_way_up l w tr k htr : mirrored l w tr k htr -> t_closing (snd (n_pci w)) = false ->
    exists rest, k_up k = skipn (n_up w) (t_wire (snd (n_daemon w))) ++ t_out (snd (n_daemon w)) ++ rest
      /\ (t_lost (snd (n_daemon w)) || t_gone (snd (n_daemon w)) = false -> rest = []).
  Proof.
    intros [M1 M2 M3 M4 M5 M6 [M7 M7'] [M8 M8']] C.
    destruct (house_ends _ _ _ _ _ _ _ _ _ W Rnd M2 (or_intror M3) M1) as [_ [_ [X _]]].
    destruct (de_wire _ _ _ _ _ _ M5) as [rest [Y Z]]. exists rest. split; [|exact Z].
    rewrite (M7' C), <- Y in X.
    rewrite <- (firstn_skipn (n_up w) (t_wire (snd (n_daemon w)))) in X at 1. rewrite <- app_assoc in X.
    now apply app_inv_head in X.
  Qed.
  Lemma under_way_down l w tr k htr : mirrored l w tr k htr -> t_closing (snd (n_daemon w)) = false ->
    exists rest, k_down k = skipn (n_down w) (t_wire (snd (n_pci w))) ++ t_out (snd (n_pci w)) ++ rest
      /\ (t_lost (snd (n_pci w)) || t_gone (snd (n_pci w)) = false -> rest = []).
  Proof.
    intros [M1 M2 M3 M4 M5 M6 [M7 M7'] [M8 M8']] C.
    destruct (house_ends _ _ _ _ _ _ _ _ _ W Rnd M2 (or_intror M3) M1) as [_ [_ [_ X]]].
    destruct (pe_wire _ _ _ _ M6) as [rest [Y Z]]. exists rest. split; [|exact Z].
    fold (given_daemon_pieces (House.daemon_calls htr)) in X. rewrite (M8' C), <- Y in X.
    rewrite <- (firstn_skipn (n_down w) (t_wire (snd (n_pci w)))) in X at 1. rewrite <- app_assoc in X.
    now apply app_inv_head in X.
  Qed.

  Lemma piece {A} n m (l : list A) : (m <= length l)%nat -> let b := firstn n (skipn m l) in
    (m + length b <= length l)%nat /\ firstn (m + length b) l = firstn m l ++ b
    /\ skipn m l = b ++ skipn n (skipn m l).
  Proof.
    intros L. cbn zeta. assert (Q := firstn_le_length n (skipn m l)). rewrite firstn_length, skipn_length. split; [lia|].
    split; [|symmetry; apply firstn_skipn].
    transitivity (firstn (m + Nat.min n (length l - m)) (firstn m l ++ skipn m l)); [now rewrite firstn_skipn|].
    rewrite firstn_app, firstn_firstn, firstn_length.
    replace (Nat.min (m + Nat.min n (length l - m)) m) with m by lia.
    replace (m + Nat.min n (length l - m) - Nat.min m (length l))%nat with (Nat.min n (length l - m)) by lia. f_equal.
    rewrite <- (skipn_length m l). destruct (Nat.le_ge_cases n (length (skipn m l))) as [Q'|Q'].
    - now rewrite Nat.min_l.
    - rewrite Nat.min_r by exact Q'. now rewrite !firstn_all2 by lia.
  Qed.

  (** A piece goes up. *)
  Lemma mirror_up l w tr k htr n p' t : mirrored l w tr k htr ->
    let b := firstn n (skipn (n_up w) (t_wire (snd (n_daemon w)))) in b <> [] ->
    net_step (pci_party rnd) netp (n_pci w) (NArrives b) = (p', t) ->
    exists l2 k' htr', mirrored (l ++ l2) (mkLine (n_daemon w) p' (n_up w + length b) (n_down w)) (tr ++ map ByPci t) k' htr'.
  Proof.
    intros M b NB E. pose proof M as [M1 M2 M3 M4 M5 M6 [M7 M7'] [M8 M8']].
    destruct (piece n (n_up w) _ M7) as [P1 [P2 P3]]. fold b in P1, P2, P3.
    destruct (t_closing (snd (n_pci w))) eqn:C.
    { assert (X : t = [] /\ p' = n_pci w).
      { destruct (n_pci w) as [st q]. cbn [snd net_step] in *. rewrite C in E. inversion E. auto. }
      destruct X as [-> ->]. exists [], k, htr. rewrite app_nil_r. refine (mirror_pci l w tr k htr (NArrives b) (n_pci w) [] _ M P1 E _ (or_introl C)).
      now rewrite app_nil_r. }
    destruct (under_way_up _ _ _ _ _ M C) as [rest [U _]].
    destruct (pe_state _ _ _ _ M6) as [B1 B2]. specialize (B2 C).
    assert (Q : fst (n_pci w) = k_server k) by (destruct (fst (n_pci w)), (k_server k); cbn in *; congruence).
    assert (St : forall ks' ev r, server_step rnd (k_server k) (SOpData b) = (ks', ev, r) -> fst p' = ks' /\ t = [SData b ev r]).
    { intros ks' ev r S. destruct (n_pci w) as [st q]. cbn [fst snd net_step] in *. rewrite C in E. destruct b as [|x b']; [congruence|].
      subst st. change (p_call (pci_party rnd) (k_server k) (p_data (pci_party rnd) (x :: b'))) with (server_step rnd (k_server k) (SOpData (x :: b'))) in E.
      rewrite S in E. inversion E. auto. }
    assert (D : (length b <= 210 \/ length (snd (k_server k)) + length b <= 256)%nat
             \/ (210 < length b /\ 256 < length (snd (k_server k)) + length b)%nat) by lia.
    destruct D as [D|[D1 D2]].
    - rewrite P3, <- app_assoc in U.
      destruct (house_takes _ _ _ _ _ _ _ _ _ b _ W Rnd M2 (or_intror M3) M1 U D) as [ks' [ev S]].
      destruct (St _ _ _ S) as [F ->]. destruct (house_saw_pci htr (SOpData b) ev (Ok tt)) as [T1 [T2 [T3 T4]]].
      destruct (saw_pci tr [SData b ev (Ok tt)]) as [S1 S2]. destruct (step_grows _ _ _ _ _ _ E) as [z Z].
      exists [Rise (length b)], (mkLink (k_client k) (skipn (length b) (k_up k)) ks' (k_down k ++ concat (swrites ev))),
        (htr ++ [SeenPci (SOpData b) ev (Ok tt)]).
      constructor; cbn [n_daemon n_pci n_up n_down k_client k_server]; rewrite ?S1, ?S2, ?T1, ?T2, ?T3, ?T4; auto.
      + apply house_snoc with k; [exact M1|]. cbn [house_step]. unfold at_pci. cbn [k_server k_client k_up k_down].
        replace (firstn (length b) (k_up k)) with b; [now rewrite S|].
        rewrite U, firstn_app, Nat.sub_diag, firstn_all. cbn. now rewrite app_nil_r.
      + apply Forall_app. split; [exact M2|]. constructor; [exact Logic.I|constructor].
      + intros d v J. apply in_app_or in J. destruct J as [J|[J|[]]]; [now apply (M3 d v)|]. inversion J.
      + intros d v J. apply in_app_or in J. destruct J as [J|[J|[]]]; [now apply (M4 d v)|discriminate].
      + now apply (pci_taken rnd netp (n_pci w) b p' _ (k_server k) _ ks' ev).
      + split; [exact P1|]. intros C'. unfold chunks_of in *. rewrite flat_map_app, concat_app. cbn [flat_map concat app].
        rewrite app_nil_r, P2. f_equal. auto.
      + rewrite Z, app_length. split; [lia|]. intros C'. now rewrite firstn_more by lia; auto.
    - destruct (server_overflow rnd (k_server k) b D2) as [x S]. destruct (St _ _ _ S) as [F ->].
      assert (PE : pci_end p' (pci_saw tr ++ [SData b [] (Raise ValueError)]) (k_server k) (pci_trace htr)).
      { refine (pci_aside rnd netp _ _ _ _ _ _ _ E M6 _). split; [reflexivity|]. split; [reflexivity|]. split; [exact D1|].
        now rewrite F, Q. }
      exists [], k, htr. rewrite app_nil_r. refine (mirror_pci l w tr k htr _ p' _ _ M P1 E PE (or_introl _)).
      destruct (step_facts netp _ _ _ _ _ _ (pe_sound _ _ _ _ M6) E) as [_ [_ [_ [_ [X _]]]]].
      destruct (X C) as [_ Y]. apply (Y b ValueError). now left.
  Qed.
  (** A piece goes down. *)
  Lemma mirror_fall l w tr k htr n d' t : mirrored l w tr k htr ->
    let b := firstn n (skipn (n_down w) (t_wire (snd (n_pci w)))) in b <> [] ->
    net_step (daemon_party u now labels) netd (n_daemon w) (NArrives b) = (d', t) ->
    exists l2 k' htr', mirrored (l ++ l2) (mkLine d' (n_pci w) (n_up w) (n_down w + length b)) (tr ++ map ByDaemon t) k' htr'.
  Proof.
    intros M b NB E. pose proof M as [M1 M2 M3 M4 M5 M6 [M7 M7'] [M8 M8']].
    destruct (piece n (n_down w) _ M8) as [P1 [P2 P3]]. fold b in P1, P2, P3.
    destruct (t_closing (snd (n_daemon w))) eqn:C.
    { assert (X : t = [] /\ d' = n_daemon w).
      { destruct (n_daemon w) as [st q]. cbn [snd net_step] in *. rewrite C in E. inversion E. auto. }
      destruct X as [-> ->]. exists [], k, htr. rewrite app_nil_r.
      refine (mirror_daemon l w tr k htr (NArrives b) (n_daemon w) [] _ M P1 E _ (or_introl C)). now rewrite app_nil_r. }
    destruct (under_way_down _ _ _ _ _ M C) as [rest [U _]].
    assert (G : t_gone (snd (n_daemon w)) = false).
    { pose proof (de_sound _ _ _ _ _ _ M5) as [_ [X _]]. destruct (t_gone (snd (n_daemon w))); [|reflexivity]. destruct (X eq_refl). congruence. }
    destruct (de_state _ _ _ _ _ _ M5 G) as [B1 B2]. specialize (B2 C).
    assert (Q : fst (n_daemon w) = k_client k) by (destruct (fst (n_daemon w)), (k_client k); cbn in *; congruence).
    assert (St : forall kc' ev r, daemon_step u now labels (k_client k) (DData b) = (kc', ev, r) -> fst d' = kc' /\ t = [SData b ev r]).
    { intros kc' ev r S. destruct (n_daemon w) as [st q]. cbn [fst snd net_step] in *. rewrite C in E. destruct b as [|x b']; [congruence|].
      subst st. change (p_call (daemon_party u now labels) (k_client k) (p_data (daemon_party u now labels) (x :: b')))
        with (daemon_step u now labels (k_client k) (DData (x :: b'))) in E. rewrite S in E. inversion E. auto. }
    assert (D : (length (snd (k_client k)) + length b <= 256 \/ 256 < length (snd (k_client k)) + length b)%nat) by lia.
    destruct D as [D|D].
    - rewrite P3, <- app_assoc in U.
      destruct (house_fine _ _ _ _ _ _ _ _ _ b _ W Rnd M2 (or_intror M3) M1 M4 U D) as [kc' [ev S]].
      destruct (St _ _ _ S) as [F ->]. destruct (house_saw_daemon htr (DData b) ev (Ok tt)) as [T1 [T2 [T3 T4]]].
      destruct (saw_daemon tr [SData b ev (Ok tt)]) as [S1 S2]. destruct (step_grows _ _ _ _ _ _ E) as [z Z].
      exists [Fall (length b)], (mkLink kc' (k_up k ++ concat (writes ev)) (k_server k) (skipn (length b) (k_down k))),
        (htr ++ [SeenDaemon (DData b) ev (Ok tt)]).
      constructor; cbn [n_daemon n_pci n_up n_down k_client k_server]; rewrite ?S1, ?S2, ?T1, ?T2, ?T3, ?T4; auto.
      + apply house_snoc with k; [exact M1|]. cbn [house_step]. unfold at_daemon. cbn [k_server k_client k_up k_down].
        replace (firstn (length b) (k_down k)) with b; [now rewrite S|].
        rewrite U, firstn_app, Nat.sub_diag, firstn_all. cbn. now rewrite app_nil_r.
      + apply Forall_app. split; [exact M2|]. constructor; [exact Logic.I|constructor].
      + intros d v J. apply in_app_or in J. destruct J as [J|[J|[]]]; [now apply (M3 d v)|discriminate].
      + intros d v J. apply in_app_or in J. destruct J as [J|[J|[]]]; [now apply (M4 d v)|]. inversion J.
      + now apply (daemon_taken u now labels W netd (n_daemon w) b d' _ (k_client k) _ _ kc' ev).
      + rewrite Z, app_length. split; [lia|]. intros C'. now rewrite firstn_more by lia; auto.
      + split; [exact P1|]. intros C'. unfold given_daemon_pieces in *. rewrite flat_map_app, concat_app. cbn [flat_map concat app].
        rewrite app_nil_r, P2. f_equal. auto.
    - destruct (daemon_overflow u now labels (k_client k) b D) as [x S]. destruct (St _ _ _ S) as [F ->].
      destruct (step_facts netd _ _ _ _ _ _ (de_sound _ _ _ _ _ _ M5) E) as [_ [_ [_ [_ [X [Y _]]]]]].
      destruct (Y ValueError [] b (or_introl eq_refl)) as [_ G'].
      assert (DE : daemon_end u d' (daemon_saw tr ++ [SData b [] (Raise ValueError)]) (k_client k) (House.daemon_calls htr) (daemon_trace htr)).
      { refine (daemon_aside u now labels W netd _ _ _ _ _ _ _ _ E M5 eq_refl eq_refl _ (or_intror G')).
        split; [reflexivity|]. split; [reflexivity|]. now rewrite F, Q. }
      exists [], k, htr. rewrite app_nil_r. refine (mirror_daemon l w tr k htr _ d' _ _ M P1 E DE (or_introl _)).
      destruct (X C) as [_ Y']. apply (Y' b ValueError). now left.
  Qed.

  (** Any event. *)
  Lemma mirror_step l w tr k htr o w' t : mirrored l w tr k htr -> possible o ->
    line_step u now labels rnd netd netp w o = (w', t) ->
    exists l2 k' htr', mirrored (l ++ l2) w' (tr ++ t) k' htr'.
  Proof.
    intros M P E. pose proof M as [M1 M2 M3 M4 M5 M6 [M7 M7'] [M8 M8']]. destruct o as [o|o|n|n]; cbn [line_step] in E.
    - unfold on_daemon in E. destruct (net_step (daemon_party u now labels) netd (n_daemon w) o) as [d' t'] eqn:S. inversion E; subst; clear E.
      destruct (match o with NCall _ => negb (t_gone (snd (n_daemon w))) | _ => false end) eqn:B.
      { destruct o as [o|b| | |]; try discriminate B. apply negb_true_iff in B.
        assert (O : outside o) by (cbn [possible] in P; destruct o; try contradiction; exact Logic.I).
        exists [AtDaemon o]. exact (mirror_call l w tr k htr o d' t' M O B S). }
      exists [], k, htr. rewrite app_nil_r. refine (mirror_daemon l w tr k htr o d' t' _ M M8 S _ (or_intror eq_refl)).
      destruct (step_history _ _ _ _ _ _ S) as [[-> _]|[x [-> [F Q]]]]; [rewrite app_nil_r; now apply (daemon_quiet u now labels netd _ _ _ _ _ _ _ S)|].
      assert (F' : daemon_step u now labels (fst (n_daemon w)) (as_dop x) = (fst d', seen_effects x, seen_result x)) by (destruct x; exact F).
      destruct x as [o' ev r|b ev r|ev r]; cbn [as_dop seen_effects seen_result] in F'.
      + subst o. apply negb_false_iff in B.
        assert (O : outside o') by (cbn [possible] in P; destruct o'; try contradiction; exact Logic.I).
        destruct (de_gone _ _ _ _ _ _ M5 B) as [T _]. destruct (de_ok _ _ _ _ _ _ M5) as [I _].
        destruct (off_step _ _ _ _ _ _ _ _ I T O F') as [X1 [X2 X3]].
        apply (daemon_aside u now labels W netd _ _ _ _ _ _ _ _ S M5); auto.
      + subst o. destruct b as [|y b]; [|contradiction]. exfalso.
        destruct (n_daemon w) as [st q]. cbn [net_step] in S. destruct (t_closing q); inversion S.
      + destruct (lost_step _ _ _ _ _ _ _ F') as [X1 [X2 X3]].
        apply (daemon_aside u now labels W netd _ _ _ _ _ _ _ _ S M5); auto.
    - unfold on_pci in E. destruct (net_step (pci_party rnd) netp (n_pci w) o) as [p' t'] eqn:S. inversion E; subst; clear E.
      destruct (match o with NCall _ => true | _ => false end) eqn:B.
      { destruct o as [o|b| | |]; try discriminate B. cbn [possible] in P. destruct o as [o|]; [|contradiction].
        exists [AtPci o]. refine (mirror_pcall l w tr k htr o p' t' M _ S). intros b ->. exact P. }
      exists [], k, htr. rewrite app_nil_r. refine (mirror_pci l w tr k htr o p' t' _ M M7 S _ (or_intror eq_refl)).
      destruct (step_history _ _ _ _ _ _ S) as [[-> _]|[x [-> [F Q]]]]; [rewrite app_nil_r; now apply (pci_quiet rnd netp _ _ _ _ _ _ S)|].
      destruct x as [o' ev r|b ev r|ev r].
      + subst o. discriminate B.
      + subst o. destruct b as [|y b]; [|contradiction]. exfalso.
        destruct (n_pci w) as [st q]. cbn [net_step] in S. destruct (t_closing q); inversion S.
      + now apply (pci_aside rnd netp _ _ _ _ _ _ _ S M6).
    - pose proof (mirror_up l w tr k htr n) as X. cbn zeta in X.
      destruct (firstn n (skipn (n_up w) (t_wire (snd (n_daemon w))))) as [|y b].
      { inversion E; subst. exists [], k, htr. now rewrite !app_nil_r. }
      unfold on_pci in E. cbn [n_pci n_daemon n_up n_down] in E.
      destruct (net_step (pci_party rnd) netp (n_pci w) (NArrives (y :: b))) as [p' t'] eqn:S. inversion E; subst; clear E.
      apply (X p' t' M); [discriminate|reflexivity].
    - pose proof (mirror_fall l w tr k htr n) as X. cbn zeta in X.
      destruct (firstn n (skipn (n_down w) (t_wire (snd (n_pci w))))) as [|y b].
      { inversion E; subst. exists [], k, htr. now rewrite !app_nil_r. }
      unfold on_daemon in E. cbn [n_pci n_daemon n_up n_down] in E.
      destruct (net_step (daemon_party u now labels) netd (n_daemon w) (NArrives (y :: b))) as [d' t'] eqn:S. inversion E; subst; clear E.
      apply (X d' t' M); [discriminate|reflexivity].
  Qed.
  Lemma mirror_run nl : Forall possible nl -> forall l w tr k htr w' t, mirrored l w tr k htr ->
    line_run u now labels rnd netd netp w nl = (w', t) ->
    exists l2 k' htr', mirrored (l ++ l2) w' (tr ++ t) k' htr'.
  Proof.
    induction 1 as [|o nl P F IH]; intros l w tr k htr w' t M E; cbn [line_run] in E.
    - inversion E; subst. exists [], k, htr. now rewrite !app_nil_r.
    - destruct (line_step u now labels rnd netd netp w o) as [w1 t1] eqn:S.
      destruct (line_run u now labels rnd netd netp w1 nl) as [w2 t2] eqn:Q. inversion E; subst.
      destruct (mirror_step _ _ _ _ _ _ _ _ M P S) as [l2 [k1 [htr1 M1]]].
      destruct (IH _ _ _ _ _ _ _ M1 Q) as [l3 [k2 [htr2 M2]]]. exists (l2 ++ l3), k2, htr2. now rewrite !app_assoc.
  Qed.

  (** The start. *)
  Lemma mirror_start nl w' t : tcp_house u now labels rnd netd netp timesync no_clock nl = (w', t) ->
    exists w1 t1 t2 k htr, t = t1 ++ t2 /\ line_run u now labels rnd netd netp w1 nl = (w', t2) /\ mirrored [] w1 t1 k htr
      /\ t_gone (snd (n_daemon w1)) = false.
  Proof.
    intros E. unfold tcp_house in E. cbn [line_run line_step] in E. unfold on_pci in E. cbn [new_line n_daemon n_pci n_up n_down] in E.
    set (p0 := ((new_server, @nil Z), new_tcp)) in *. set (d0 := (new_daemon timesync no_clock, new_tcp)) in *.
    destruct (net_step (pci_party rnd) netp p0 (NCall (PciCall SOpConnect))) as [p1 tp] eqn:E1.
    unfold on_daemon in E. cbn [n_daemon n_pci n_up n_down] in E.
    destruct (net_step (daemon_party u now labels) netd d0 (NCall DConnected)) as [d1 td] eqn:E2.
    destruct (line_run u now labels rnd netd netp (mkLine d1 p1 0 0) nl) as [w2 t2] eqn:Q. inversion E; subst; clear E.
    assert (P0 : pci_end p0 [] (new_server, []) []).
    { constructor; cbn; auto; [exact sound_new|exists []; auto|contradiction]. }
    assert (D0 : daemon_end u d0 [] (new_daemon timesync no_clock) [] []).
    { constructor; cbn; auto; try discriminate; try contradiction; [exact sound_new|exists []; auto| |].
      - split; [|reflexivity]. unfold counter_ok. cbn. lia.
      - exists []. split; constructor. }
    destruct (pci_call rnd netp p0 SOpConnect p1 tp [] (new_server, []) [] E1) as [ev [r [ks [-> [K1 P1]]]]]; [discriminate|exact P0|].
    destruct (daemon_call u now labels W netd d0 DConnected d1 td [] (new_daemon timesync no_clock) [] [] E2) as [ev2 [r2 [kc [-> [K2 D1]]]]];
      [now right|reflexivity|exact D0|].
    exists (mkLine d1 p1 0 0), ([ByPci (SCall (PciCall SOpConnect) ev r)] ++ [ByDaemon (SCall DConnected ev2 r2)]), t2.
    exists (mkLink kc ([] ++ concat (writes ev2)) ks ([] ++ concat (swrites ev))), [SeenPci SOpConnect ev r; SeenDaemon DConnected ev2 r2].
    split; [reflexivity|]. split; [exact Q|]. split.
    - constructor; cbn [n_daemon n_pci n_up n_down k_client k_server]; auto.
      + unfold H0, house. cbn [house_run house_step]. unfold at_pci at 1. cbn [k_server k_client k_up k_down]. rewrite K1.
        unfold at_daemon. cbn [k_server k_client k_up k_down]. rewrite K2. reflexivity.
      + intros d v [J|[J|[]]]; discriminate.
      + intros d v [J|[J|[]]]; discriminate.
      + split; [lia|reflexivity].
      + split; [lia|reflexivity].
    - pose proof (quiet_gone _ netd _ _ _ _ _ (de_sound _ _ _ _ _ _ D0) E2) as G. exact G.
  Qed.
End Both.
