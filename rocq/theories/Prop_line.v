(** The daemon and the emulator at the two ends of a TCP connection, which may
    end at any time: C96. *)
From Coq Require Import String List ZArith Bool Lia Arith.
From Verif Require Import Py Common Sal Cal Packet Text Mqtt Buffered Client Cmqttd Daemon Server Base Spec Spec_client
  Spec_mqtt Spec_daemon Spec_server Common_facts Client_facts Prop_client Mqtt_facts Prop_mqtt Prop_daemon Prop_server
  Loop Spec_loop House Spec_house House_facts Prop_house Transport Spec_transport Transport_facts Line Spec_line Line_facts.
Import ListNotations.
Notation length := List.length.
Open Scope Z_scope.

(** ** Each end by itself *)

Lemma saw_app a b : daemon_saw (a ++ b) = daemon_saw a ++ daemon_saw b /\ pci_saw (a ++ b) = pci_saw a ++ pci_saw b.
Proof. split; apply flat_map_app. Qed.
Lemma net_run_one {St Op Ev R} (p : party St Op Ev R) net w o w' t : net_step p net w o = (w', t) -> net_run p net w [o] = (w', t).
Proof. intros E. cbn [net_run]. now rewrite E, app_nil_r. Qed.

(** What happened at one end, for the events [nl] on the line. *)
Definition from_line (nl : list nop) (ld : list (net_op dop)) (lp : list (net_op pop)) : Prop :=
  (forall o, In o ld -> In (OnDaemon o) nl \/ exists x b, o = NArrives (x :: b))
  /\ (forall o, In o lp -> In (OnPci o) nl \/ exists x b, o = NArrives (x :: b)).

Lemma line_end_step u now labels rnd netd netp w o w' t :
  (n_up w <= length (wire (n_daemon w)))%nat -> (n_down w <= length (wire (n_pci w)))%nat -> possible o ->
  line_step u now labels rnd netd netp w o = (w', t) ->
  exists ld lp,
    net_run (daemon_party u now labels) netd (n_daemon w) ld = (n_daemon w', daemon_saw t)
    /\ net_run (pci_party rnd) netp (n_pci w) lp = (n_pci w', pci_saw t)
    /\ firstn (n_down w) (wire (n_pci w)) ++ concat (arrived ld) = firstn (n_down w') (wire (n_pci w'))
    /\ firstn (n_up w) (wire (n_daemon w)) ++ concat (arrived lp) = firstn (n_up w') (wire (n_daemon w'))
    /\ (n_up w' <= length (wire (n_daemon w')))%nat /\ (n_down w' <= length (wire (n_pci w')))%nat
    /\ from_line [o] ld lp.
Proof.
  unfold wire. intros U D P E.
  assert (SD : forall t, daemon_saw (map ByDaemon t) = t /\ pci_saw (map ByDaemon t) = []).
  { intros y. destruct (saw_daemon [] y) as [A B]. exact (conj A B). }
  assert (SP : forall t, pci_saw (map ByPci t) = t /\ daemon_saw (map ByPci t) = []).
  { intros y. destruct (saw_pci [] y) as [A B]. exact (conj A B). }
  destruct o as [o|o|n|n]; cbn [line_step] in E.
  - unfold on_daemon in E. destruct (net_step (daemon_party u now labels) netd (n_daemon w) o) as [d1 t1] eqn:S.
    inversion E; subst; clear E. destruct (SD t1) as [S1 S2]. rewrite S1, S2. cbn [n_daemon n_pci n_up n_down].
    destruct (step_grows _ _ _ _ _ _ S) as [z Z]. rewrite Z, app_length, firstn_more by exact U.
    exists [o], []. split; [now apply net_run_one|]. split; [reflexivity|].
    split; [|split; [now rewrite app_nil_r|split; [lia|split; [exact D|split; [intros x [<-|[]]; left; now left|intros x []]]]]].
    replace (arrived [o]) with (@nil bytes) by (destruct o as [?|[|? ?]| | |]; cbn [possible] in P; try reflexivity; contradiction).
    now rewrite app_nil_r.
  - unfold on_pci in E. destruct (net_step (pci_party rnd) netp (n_pci w) o) as [p1 t1] eqn:S.
    inversion E; subst; clear E. destruct (SP t1) as [S1 S2]. rewrite S1, S2. cbn [n_daemon n_pci n_up n_down].
    destruct (step_grows _ _ _ _ _ _ S) as [z Z]. rewrite Z, app_length, firstn_more by exact D.
    exists [], [o]. split; [reflexivity|]. split; [now apply net_run_one|].
    split; [now rewrite app_nil_r|]. split; [|split; [exact U|split; [lia|split; [intros x []|intros x [<-|[]]; left; now left]]]].
    replace (arrived [o]) with (@nil bytes) by (destruct o as [[?|]|[|? ?]| | |]; cbn [possible] in P; try reflexivity; contradiction).
    now rewrite app_nil_r.
  - destruct (piece netd netp n (n_up w) _ U) as [P1 [P2 _]].
    destruct (firstn n (skipn (n_up w) (t_wire (snd (n_daemon w))))) as [|y b] eqn:B.
    { inversion E; subst. exists [], []. cbn. rewrite !app_nil_r.
      split; [reflexivity|]. split; [reflexivity|]. split; [reflexivity|]. split; [reflexivity|]. split; [exact U|]. split; [exact D|].
      split; intros x []. }
    unfold on_pci in E. cbn [n_daemon n_pci n_up n_down] in E.
    destruct (net_step (pci_party rnd) netp (n_pci w) (NArrives (y :: b))) as [p1 t1] eqn:S.
    inversion E; subst; clear E. destruct (SP t1) as [S1 S2]. rewrite S1, S2. cbn [n_daemon n_pci n_up n_down].
    destruct (step_grows _ _ _ _ _ _ S) as [z Z]. rewrite Z, app_length, firstn_more by exact D.
    exists [], [NArrives (y :: b)]. split; [reflexivity|]. split; [now apply net_run_one|].
    split; [now rewrite app_nil_r|].
    split; [etransitivity; [|symmetry; exact P2]; cbn [arrived flat_map app concat]; now rewrite app_nil_r|].
    split; [exact P1|]. split; [lia|]. split; [intros x []|intros x [<-|[]]; right; eauto].
  - destruct (piece netd netp n (n_down w) _ D) as [P1 [P2 _]].
    destruct (firstn n (skipn (n_down w) (t_wire (snd (n_pci w))))) as [|y b] eqn:B.
    { inversion E; subst. exists [], []. cbn. rewrite !app_nil_r.
      split; [reflexivity|]. split; [reflexivity|]. split; [reflexivity|]. split; [reflexivity|]. split; [exact U|]. split; [exact D|].
      split; intros x []. }
    unfold on_daemon in E. cbn [n_daemon n_pci n_up n_down] in E.
    destruct (net_step (daemon_party u now labels) netd (n_daemon w) (NArrives (y :: b))) as [d1 t1] eqn:S.
    inversion E; subst; clear E. destruct (SD t1) as [S1 S2]. rewrite S1, S2. cbn [n_daemon n_pci n_up n_down].
    destruct (step_grows _ _ _ _ _ _ S) as [z Z]. rewrite Z, app_length, firstn_more by exact U.
    exists [NArrives (y :: b)], []. split; [now apply net_run_one|]. split; [reflexivity|].
    split; [etransitivity; [|symmetry; exact P2]; cbn [arrived flat_map app concat]; now rewrite app_nil_r|].
    split; [now rewrite app_nil_r|].
    split; [lia|]. split; [exact P1|]. split; [intros x [<-|[]]; right; eauto|intros x []].
Qed.

Lemma line_ends u now labels rnd netd netp nl : Forall possible nl -> forall w w' t,
  (n_up w <= length (wire (n_daemon w)))%nat -> (n_down w <= length (wire (n_pci w)))%nat ->
  line_run u now labels rnd netd netp w nl = (w', t) ->
  exists ld lp,
    net_run (daemon_party u now labels) netd (n_daemon w) ld = (n_daemon w', daemon_saw t)
    /\ net_run (pci_party rnd) netp (n_pci w) lp = (n_pci w', pci_saw t)
    /\ firstn (n_down w) (wire (n_pci w)) ++ concat (arrived ld) = firstn (n_down w') (wire (n_pci w'))
    /\ firstn (n_up w) (wire (n_daemon w)) ++ concat (arrived lp) = firstn (n_up w') (wire (n_daemon w'))
    /\ from_line nl ld lp.
Proof.
  induction 1 as [|o nl P F IH]; intros w w' t U D E; cbn [line_run] in E.
  - inversion E; subst. exists [], []. cbn [arrived flat_map concat]. rewrite !app_nil_r.
    split; [reflexivity|]. split; [reflexivity|]. split; [reflexivity|]. split; [reflexivity|]. split; intros x [].
  - destruct (line_step u now labels rnd netd netp w o) as [w1 t1] eqn:S.
    destruct (line_run u now labels rnd netd netp w1 nl) as [w2 t2] eqn:Q. inversion E; subst; clear E.
    destruct (line_end_step _ _ _ _ _ _ _ _ _ _ U D P S) as [d1 [p1 [A1 [A2 [A3 [A4 [A5 [A6 [A7 A8]]]]]]]]].
    destruct (IH _ _ _ A5 A6 Q) as [d2 [p2 [B1 [B2 [B3 [B4 [B7 B8]]]]]]].
    destruct (saw_app t1 t2) as [S1 S2]. rewrite S1, S2. exists (d1 ++ d2), (p1 ++ p2).
    rewrite !net_run_app, A1, B1, A2, B2. split; [reflexivity|]. split; [reflexivity|].
    unfold arrived in *. rewrite !flat_map_app, !concat_app, !app_assoc, A3, A4. split; [exact B3|]. split; [exact B4|].
    split; intros x J; apply in_app_or in J; destruct J as [J|J].
    + destruct (A7 x J) as [[X|[]]|X]; [left; now left|now right].
    + destruct (B7 x J) as [X|X]; [left; now right|now right].
    + destruct (A8 x J) as [[X|[]]|X]; [left; now left|now right].
    + destruct (B8 x J) as [X|X]; [left; now right|now right].
Qed.

(** Each end is a daemon, or an emulator, on a TCP connection by itself, to
    which property C95 applies; the ends are related by the bytes only: what
    arrived at one of them is the beginning of what the socket of the other
    one has taken. *)
Theorem C96_ends : forall u now labels rnd netd netp timesync no_clock nl w tr,
  Forall possible nl -> tcp_house u now labels rnd netd netp timesync no_clock nl = (w, tr) ->
  exists ld lp,
    net_run (daemon_party u now labels) netd (new_daemon timesync no_clock, new_tcp) (NCall DConnected :: ld)
      = (n_daemon w, daemon_saw tr)
    /\ net_run (pci_party rnd) netp ((new_server, []), new_tcp) (NCall (PciCall SOpConnect) :: lp) = (n_pci w, pci_saw tr)
    /\ concat (arrived ld) = firstn (n_down w) (wire (n_pci w))
    /\ concat (arrived lp) = firstn (n_up w) (wire (n_daemon w))
    /\ from_line nl ld lp.
Proof.
  intros u now labels rnd netd netp timesync no_clock nl w tr F E. unfold tcp_house in E. cbn [line_run line_step] in E.
  unfold on_pci in E. cbn [new_line n_daemon n_pci n_up n_down] in E.
  destruct (net_step (pci_party rnd) netp _ (NCall (PciCall SOpConnect))) as [p1 tp] eqn:E1 in E.
  unfold on_daemon in E. cbn [n_daemon n_pci n_up n_down] in E.
  destruct (net_step (daemon_party u now labels) netd _ (NCall DConnected)) as [d1 td] eqn:E2 in E.
  destruct (line_run u now labels rnd netd netp (mkLine d1 p1 0 0) nl) as [w2 t2] eqn:Q. inversion E; subst; clear E.
  destruct (line_ends _ _ _ _ _ _ _ F (mkLine d1 p1 0 0) _ _ (Nat.le_0_l _) (Nat.le_0_l _) Q) as [ld [lp [A1 [A2 [A3 [A4 A5]]]]]].
  exists ld, lp. cbn [n_daemon n_pci n_up n_down] in *. destruct (saw_app (map ByPci tp) (map ByDaemon td ++ t2)) as [S1 S2].
  destruct (saw_app (map ByDaemon td) t2) as [S3 S4]. rewrite S1, S2, S3, S4.
  destruct (saw_daemon [] td) as [B1 B2]. destruct (saw_pci [] tp) as [B3 B4]. cbn [app] in B1, B2, B3, B4. rewrite B1, B2, B3, B4.
  cbn [net_run]. rewrite E2, A1, E1, A2. split; [reflexivity|]. split; [reflexivity|]. split; [exact A3|]. split; [exact A4|exact A5].
Qed.
Print Assumptions C96_ends.

(** ** From MQTT to the emulator *)

Lemma line_mirror u now labels rnd netd netp timesync no_clock nl w tr : clock_works now -> randint_works rnd ->
  Forall possible nl -> tcp_house u now labels rnd netd netp timesync no_clock nl = (w, tr) ->
  exists l k htr, mirrored u now labels rnd timesync no_clock l w tr k htr.
Proof.
  intros W R F E. destruct (mirror_start _ _ _ _ _ _ _ _ W _ _ _ E) as [w1 [t1 [t2 [k [htr [-> [Q [M _]]]]]]]].
  destruct (mirror_run _ _ _ _ _ _ _ _ W R _ F _ _ _ _ _ _ _ M Q) as [l [k' [htr' M']]]. exists l, k', htr'. exact M'.
Qed.
Lemma lasting_up u now labels rnd timesync no_clock l w tr k htr : clock_works now -> randint_works rnd ->
  mirrored u now labels rnd timesync no_clock l w tr k htr -> lasting w -> all_up w -> k_up k = [].
Proof.
  intros W R M [L1 L2] [O N]. unfold ended_connection in *.
  assert (C : t_closing (snd (n_pci w)) = false) by (now destruct (t_closing (snd (n_pci w)))).
  destruct (under_way_up _ _ _ _ _ _ W R _ _ _ _ _ M C) as [rest [U Z]]. rewrite O, N, skipn_all in U. rewrite U. cbn [app]. apply Z.
  pose proof (de_sound _ _ _ _ _ _ (mi_daemon _ _ _ _ _ _ _ _ _ _ _ M)) as [S1 [S2 _]].
  destruct (t_lost (snd (n_daemon w))); [now destruct (S1 eq_refl)|]. destruct (t_gone (snd (n_daemon w))); [now destruct (S2 eq_refl)|reflexivity].
Qed.
Lemma lasting_down u now labels rnd timesync no_clock l w tr k htr : clock_works now -> randint_works rnd ->
  mirrored u now labels rnd timesync no_clock l w tr k htr -> lasting w -> all_down w -> k_down k = [].
Proof.
  intros W R M [L1 L2] [O N]. unfold ended_connection in *.
  assert (C : t_closing (snd (n_daemon w)) = false) by (now destruct (t_closing (snd (n_daemon w)))).
  destruct (under_way_down _ _ _ _ _ _ W R _ _ _ _ _ M C) as [rest [U Z]]. rewrite O, N, skipn_all in U. rewrite U. cbn [app]. apply Z.
  pose proof (pe_sound _ _ _ _ (mi_pci _ _ _ _ _ _ _ _ _ _ _ M)) as [S1 [S2 _]].
  destruct (t_lost (snd (n_pci w))); [now destruct (S1 eq_refl)|]. destruct (t_gone (snd (n_pci w))); [now destruct (S2 eq_refl)|reflexivity].
Qed.
Lemma emulator_effects u now labels rnd timesync no_clock l w tr k htr : mirrored u now labels rnd timesync no_clock l w tr k htr ->
  lighting (emulator_trace tr) = lighting (pci_trace htr) /\ written (emulator_trace tr) = written (pci_trace htr).
Proof.
  intros M. pose proof (pe_effects _ _ _ _ (mi_pci _ _ _ _ _ _ _ _ _ _ _ M)) as E.
  unfold lighting. rewrite !called_effects, !written_effects. change (emulator_trace tr) with (map entry (pci_saw tr)). now rewrite E.
Qed.

(** What MQTT clients ask for is done by the emulator in order and once, and
    nothing else is done, whenever the connection ends and however: what is
    done is the beginning of what was asked for, and all of it once the bytes
    have arrived. *)
Theorem C96_up : forall u now labels rnd netd netp timesync no_clock nl w tr,
  clock_works now -> randint_works rnd -> Forall possible nl ->
  tcp_house u now labels rnd netd netp timesync no_clock nl = (w, tr) ->
  exists log done todo, chronicle u false false (line_calls tr) (line_trace tr) log /\ ordered log = done ++ todo
    /\ Forall2 (fun o e => carried_out (fst o) (snd o) e) done (lighting (emulator_trace tr))
    /\ (lasting w -> all_up w -> todo = []).
Proof.
  intros u now labels rnd netd netp timesync no_clock nl w tr W R F E.
  destruct (line_mirror _ _ _ _ _ _ _ _ _ _ _ W R F E) as [l [k [htr M]]].
  destruct (emulator_effects _ _ _ _ _ _ _ _ _ _ _ M) as [EL _]. rewrite EL.
  destruct (de_log _ _ _ _ _ _ (mi_daemon _ _ _ _ _ _ _ _ _ _ _ M)) as [log [L1 L2]].
  destruct (house_up _ _ _ _ _ _ _ _ _ _ W R (mi_lax _ _ _ _ _ _ _ _ _ _ _ M) (or_intror (mi_refused _ _ _ _ _ _ _ _ _ _ _ M))
    (mi_house _ _ _ _ _ _ _ _ _ _ _ M) L2) as [done [todo [A [B [_ Z]]]]].
  exists log, done, todo. split; [exact L1|]. split; [exact A|]. split; [exact B|].
  intros La Up. apply Z. now apply (lasting_up _ _ _ _ _ _ _ _ _ _ _ W R M).
Qed.
Print Assumptions C96_up.

(** ** From the emulator to MQTT *)

(** The daemon is told what the messages of the emulator say, in order, from the
    first one on and without a gap, whenever the connection ends and however. *)
Theorem C96_down : forall u now labels rnd netd netp timesync no_clock nl w tr,
  clock_works now -> randint_works rnd -> Forall possible nl ->
  tcp_house u now labels rnd netd netp timesync no_clock nl = (w, tr) ->
  exists clear rest,
    hears true (written (emulator_trace tr)) clear (callbacks (effects (line_trace tr)) ++ rest)
    /\ (lasting w -> all_down w -> rest = []).
Proof.
  intros u now labels rnd netd netp timesync no_clock nl w tr W R F E.
  destruct (line_mirror _ _ _ _ _ _ _ _ _ _ _ W R F E) as [l [k [htr M]]].
  destruct (emulator_effects _ _ _ _ _ _ _ _ _ _ _ M) as [_ EL]. rewrite EL.
  destruct (de_callbacks _ _ _ _ _ _ (mi_daemon _ _ _ _ _ _ _ _ _ _ _ M)) as [_ CB].
  change (line_trace tr) with (map entry (daemon_saw tr)). rewrite CB.
  destruct (house_down _ _ _ _ _ _ _ _ _ W R (mi_lax _ _ _ _ _ _ _ _ _ _ _ M) (or_intror (mi_refused _ _ _ _ _ _ _ _ _ _ _ M))
    (mi_house _ _ _ _ _ _ _ _ _ _ _ M) (mi_lost _ _ _ _ _ _ _ _ _ _ _ M)) as [clear [rest [H Z]]].
  exists clear, rest. split; [exact H|]. intros La Do. apply Z. now apply (lasting_down _ _ _ _ _ _ _ _ _ _ _ W R M).
Qed.
Print Assumptions C96_down.

(** ** What ends the connection *)

(** The only exception either of them raises when data arrives is the refusal of
    a piece that does not fit the buffer, and then nothing was done with it;
    the emulator never refuses a piece of at most 210 bytes. *)
Theorem C96_exceptions : forall u now labels rnd netd netp timesync no_clock nl w tr,
  clock_works now -> randint_works rnd -> Forall possible nl ->
  tcp_house u now labels rnd netd netp timesync no_clock nl = (w, tr) ->
  (forall b ev r, In (SData b ev r) (pci_saw tr) -> r = Ok tt \/ ev = [] /\ r = Raise ValueError /\ (210 < length b)%nat)
  /\ (forall b ev r, In (SData b ev r) (daemon_saw tr) -> r = Ok tt \/ ev = [] /\ r = Raise ValueError).
Proof.
  intros u now labels rnd netd netp timesync no_clock nl w tr W R F E.
  destruct (line_mirror _ _ _ _ _ _ _ _ _ _ _ W R F E) as [l [k [htr M]]]. split.
  - exact (pe_data _ _ _ _ (mi_pci _ _ _ _ _ _ _ _ _ _ _ M)).
  - exact (de_data _ _ _ _ _ _ (mi_daemon _ _ _ _ _ _ _ _ _ _ _ M)).
Qed.
Print Assumptions C96_exceptions.

Lemma calm_step {St Op Ev R} (p : party St Op Ev R) net w o w' t n : (forall i, net i <> Breaks) -> sound (snd w) n ->
  t_closing (snd w) = false -> o <> NReadFails -> o <> NArrives [] -> net_step p net w o = (w', t) ->
  (forall b ev e, ~ In (SData b ev (Raise e)) t) -> t_closing (snd w') = false.
Proof.
  intros NB S Q N1 N2 E NR. destruct w as [st q]. cbn [snd] in *.
  assert (L : t_lost q = false /\ t_gone q = false).
  { destruct S as [SA [SB _]]. split; [destruct (t_lost q); [destruct (SA eq_refl); congruence|reflexivity]|
      destruct (t_gone q); [destruct (SB eq_refl); congruence|reflexivity]]. }
  destruct L as [L G].
  destruct o as [o|b| | |]; cbn [net_step] in E.
  - destruct (p_call p st o) as [[st' ev] r]. inversion E; subst. cbn [snd].
    destruct (writes_facts net (p_out p ev) q n S) as [_ [_ [_ [_ [_ [K _]]]]]]. destruct (K NB) as [_ K2]. congruence.
  - rewrite Q in E. destruct b as [|x b]; [congruence|]. destruct (p_call p st (p_data p (x :: b))) as [[st' ev] r]. inversion E; subst. cbn [snd].
    destruct r as [v|e]; [|exfalso; apply (NR (x :: b) ev e); now left].
    destruct (writes_facts net (p_out p ev) q n S) as [_ [_ [_ [_ [_ [K _]]]]]]. destruct (K NB) as [_ K2]. congruence.
  - congruence.
  - rewrite L in E. destruct (t_out q) as [|y out]; [inversion E; subst; exact Q|]. unfold try_send in E. rewrite Q in E.
    destruct (net (t_sends q)) as [k| |] eqn:NN; [| |now destruct (NB (t_sends q))].
    + destruct (skipn k (y :: out)); inversion E; subst; reflexivity.
    + inversion E; subst. reflexivity.
  - destruct S as [_ [_ [_ SD]]]. rewrite L in SD. cbn in SD. rewrite SD in E. inversion E; subst. exact Q.
Qed.
Lemma calm_run {St Op Ev R} (p : party St Op Ev R) net l : (forall i, net i <> Breaks) -> forall w w' t n, sound (snd w) n ->
  t_closing (snd w) = false -> ~ In NReadFails l -> ~ In (NArrives []) l -> net_run p net w l = (w', t) ->
  (forall b ev e, ~ In (SData b ev (Raise e)) t) -> t_closing (snd w') = false.
Proof.
  intros NB. induction l as [|o l IH]; intros w w' t n S Q N1 N2 E NR; cbn [net_run] in E; [now inversion E; subst|].
  destruct (net_step p net w o) as [w1 t1] eqn:E1. destruct (net_run p net w1 l) as [w2 t2] eqn:E2. inversion E; subst.
  destruct (step_facts net p _ _ _ _ _ S E1) as [S1 _].
  apply (IH w1 w' t2 _ S1); auto.
  - apply (calm_step p net w o w1 t1 n); auto; [intros ->; apply N1; now left|intros ->; apply N2; now left|].
    intros b ev e I. apply (NR b ev e). apply in_or_app. now left.
  - intros X. apply N1. now right.
  - intros X. apply N2. now right.
  - intros b ev e I. apply (NR b ev e). apply in_or_app. now right.
Qed.

(** An end stops reading only when its network fails, when its stream ends or
    when it refuses a piece. *)
Theorem C96_lasts : forall u now labels rnd netd netp timesync no_clock nl w tr,
  clock_works now -> randint_works rnd -> Forall possible nl ->
  tcp_house u now labels rnd netd netp timesync no_clock nl = (w, tr) ->
  ((forall n, netd n <> Breaks) -> ~ In (OnDaemon NReadFails) nl -> ~ In (OnDaemon (NArrives [])) nl ->
   (forall b ev, ~ In (SData b ev (Raise ValueError)) (daemon_saw tr)) -> ~ ended_connection (n_daemon w))
  /\ ((forall n, netp n <> Breaks) -> ~ In (OnPci NReadFails) nl -> ~ In (OnPci (NArrives [])) nl ->
   (forall b ev, ~ In (SData b ev (Raise ValueError)) (pci_saw tr)) -> ~ ended_connection (n_pci w)).
Proof.
  intros u now labels rnd netd netp timesync no_clock nl w tr W R F E.
  destruct (C96_ends _ _ _ _ _ _ _ _ _ _ _ F E) as [ld [lp [A1 [A2 [_ [_ [A3 A4]]]]]]].
  destruct (C96_exceptions _ _ _ _ _ _ _ _ _ _ _ W R F E) as [XP XD]. unfold ended_connection. split; intros NB N1 N2 NR X.
  - assert (K : t_closing (snd (n_daemon w)) = false); [|congruence].
    apply (calm_run _ _ _ NB _ _ _ _ (sound_fresh (new_daemon timesync no_clock)) eq_refl) with (3 := A1).
    + intros [Y|Y]; [discriminate|]. destruct (A3 _ Y) as [V|[y [z V]]]; [contradiction|discriminate].
    + intros [Y|Y]; [discriminate|]. destruct (A3 _ Y) as [V|[y [z V]]]; [contradiction|discriminate].
    + intros b ev e I. destruct (XD _ _ _ I) as [Y|[_ Y]]; [discriminate|]. injection Y as ->. now apply (NR b ev).
  - assert (K : t_closing (snd (n_pci w)) = false); [|congruence].
    apply (calm_run _ _ _ NB _ _ _ _ (sound_fresh (new_server, @nil Z)) eq_refl) with (3 := A2).
    + intros [Y|Y]; [discriminate|]. destruct (A4 _ Y) as [V|[y [z V]]]; [contradiction|discriminate].
    + intros [Y|Y]; [discriminate|]. destruct (A4 _ Y) as [V|[y [z V]]]; [contradiction|discriminate].
    + intros b ev e I. destruct (XP _ _ _ I) as [Y|[_ [Y _]]]; [discriminate|]. injection Y as ->. now apply (NR b ev).
Qed.
Print Assumptions C96_lasts.

(** ** Agreement *)

(** While the connection lasts, once nothing is under way both sides agree, as
    in C75: every order was carried out, everything said was told, and for each
    light the broker retains the report of the last thing that happened to it. *)
Theorem C96_settled : forall u now labels rnd netd netp timesync no_clock nl w tr,
  clock_works now -> randint_works rnd -> Forall possible nl ->
  tcp_house u now labels rnd netd netp timesync no_clock (OnDaemon (NCall DMqttConnected) :: nl) = (w, tr) ->
  lasting w -> all_up w -> all_down w ->
  exists log clear told, chronicle u false false (line_calls tr) (line_trace tr) log
    /\ Forall2 (fun o e => carried_out (fst o) (snd o) e) (ordered log) (lighting (emulator_trace tr))
    /\ hears true (written (emulator_trace tr)) clear told /\ news log = flat_map Spec_daemon.seen told
    /\ forall ga e, Spec_daemon.latest log ga e -> exists light binary, entry_report e [light; binary]
         /\ is_topic LightState ga (m_topic light) /\ retained (published (effects (line_trace tr))) light
         /\ is_topic SensorState ga (m_topic binary) /\ retained (published (effects (line_trace tr))) binary.
Proof.
  intros u now labels rnd netd netp timesync no_clock nl w tr W R F E La Up Do.
  destruct (mirror_start _ _ _ _ _ _ _ _ W _ _ _ E) as [w1 [t1 [t2 [k1 [h1 [-> [Q [M G]]]]]]]].
  cbn [line_run line_step] in Q. unfold on_daemon in Q.
  destruct (net_step (daemon_party u now labels) netd (n_daemon w1) (NCall DMqttConnected)) as [d' t'] eqn:S.
  destruct (line_run u now labels rnd netd netp (mkLine d' (n_pci w1) (n_up w1) (n_down w1)) nl) as [w3 t3] eqn:Q3.
  inversion Q; subst; clear Q.
  destruct (mirror_call _ _ _ _ _ _ netd W _ _ _ _ _ DMqttConnected d' t' M Logic.I G S) as [k2 [h2 M2]].
  destruct (mirror_run _ _ _ _ _ _ _ _ W R _ F _ _ _ _ _ _ _ M2 Q3) as [l [k [htr M3]]].
  rewrite <- !app_assoc in M3. cbn [app] in M3. remember (t1 ++ map ByDaemon t' ++ t3) as tr eqn:X. clear X.
  destruct (emulator_effects _ _ _ _ _ _ _ _ _ _ _ M3) as [EL EW].
  pose proof (mi_daemon _ _ _ _ _ _ _ _ _ _ _ M3) as DE. destruct (de_log _ _ _ _ _ _ DE) as [log [L1 L2]].
  assert (G3 : t_gone (snd (n_daemon w)) = false).
  { pose proof (de_sound _ _ _ _ _ _ DE) as [_ [X _]]. destruct La as [La _]. unfold ended_connection in La.
    destruct (t_gone (snd (n_daemon w))); [|reflexivity]. now destruct (X eq_refl). }
  destruct (de_effects _ _ _ _ _ _ DE G3) as [EF _]. fold (line_trace tr) in EF.
  pose proof (mi_lax _ _ _ _ _ _ _ _ _ _ _ M3) as LX. apply Forall_inv_tail in LX.
  destruct (house_settled _ _ _ _ _ _ _ _ _ W R LX (or_intror (mi_refused _ _ _ _ _ _ _ _ _ _ _ M3)) (mi_house _ _ _ _ _ _ _ _ _ _ _ M3)
    (mi_lost _ _ _ _ _ _ _ _ _ _ _ M3) (lasting_up _ _ _ _ _ _ _ _ _ _ _ W R M3 La Up) (lasting_down _ _ _ _ _ _ _ _ _ _ _ W R M3 La Do))
    as [log' [clear [told [C [A [B [D H]]]]]]].
  pose proof (C61_one_chronicle _ _ _ _ _ _ _ C L2). subst log'.
  exists log, clear, told. rewrite EL, EW. split; [exact L1|]. split; [exact A|]. split; [exact B|]. split; [exact D|].
  intros ga e La'. destruct (H ga e La') as [light [binary X]]. exists light, binary.
  change (effects (line_trace tr)) with (effects (map entry (daemon_saw tr))). rewrite EF. exact X.
Qed.
Print Assumptions C96_settled.

(** The session of C75 on sockets that take little at a time. *)
Definition on_line (o : hop) : list nop :=
  match o with
  | AtDaemon o => [OnDaemon (NCall o); OnDaemon NWritable]
  | AtPci o => [OnPci (NCall (PciCall o)); OnPci NWritable]
  | Rise n => [OnDaemon NWritable; Climb n]
  | Fall n => [OnPci NWritable; OnPci NTurn; Sink n]
  end.
Definition line_session : list nop := flat_map on_line session.
Definition slow (n : nat) : reply := if Nat.eqb n 2 then Takes 7 else if Nat.eqb n 3 then Blocks else Takes 500.
Definition line_outcome : line * list nseen :=
  tcp_house plain_unicode noon [] die slow slow 300 false (OnDaemon (NCall DMqttConnected) :: line_session ++ flat_map on_line [Rise 200; Fall 200; Fall 200]).
Lemma line_outcome_facts :
  let w := fst line_outcome in let tr := snd line_outcome in
  (t_closing (snd (n_daemon w)), t_closing (snd (n_pci w)), t_out (snd (n_daemon w)), t_out (snd (n_pci w))) = (false, false, [], [])
  /\ (n_up w, n_down w) = (length (t_wire (snd (n_daemon w))), length (t_wire (snd (n_pci w))))
  /\ lighting (emulator_trace tr) = [SOn 1; SRamp 3 4 (PInt 128)]
  /\ callbacks (effects (line_trace tr)) = callbacks (effects (daemon_trace (snd outcome))).
Proof. vm_compute. repeat split. Qed.
(** The same, but the daemon sees an error when it reads for the last time, with
    an order under way; the emulator later sees the end of the stream. *)
Definition cut_outcome : line * list nseen :=
  tcp_house plain_unicode noon [] die slow slow 300 false (OnDaemon (NCall DMqttConnected) :: line_session
    ++ [OnDaemon (NCall (DMqttMessage (txt "homeassistant/light/cbus_9/set") (body (txt "ON") []))); OnDaemon NReadFails; OnDaemon NTurn;
        Climb 5; OnPci (NArrives []); OnPci NTurn; Climb 200; OnDaemon (NCall (DMqttMessage (txt "homeassistant/light/cbus_9/set") (body (txt "ON") [])))]).
Lemma cut_facts :
  let w := fst cut_outcome in let tr := snd cut_outcome in
  (t_gone (snd (n_daemon w)), t_gone (snd (n_pci w)), losses (daemon_saw tr), losses (pci_saw tr)) = (true, true, 1%nat, 1%nat)
  /\ lighting (emulator_trace tr) = [SOn 1; SRamp 3 4 (PInt 128)].
Proof. vm_compute. repeat split. Qed.
Example C96_case : Forall possible line_session /\ lasting (fst line_outcome) /\ all_up (fst line_outcome) /\ all_down (fst line_outcome)
  /\ ~ lasting (fst cut_outcome).
Proof.
  destruct line_outcome_facts as [A [B _]]. destruct cut_facts as [C _].
  split; [unfold line_session, session; cbn; repeat constructor|].
  unfold lasting, all_up, all_down, ended_connection.
  split; [split; intros X; [pose proof (f_equal (fun x => fst (fst (fst x))) A) as Y|pose proof (f_equal (fun x => snd (fst (fst x))) A) as Y];
    cbn [fst snd] in Y; congruence|].
  split; [split; [exact (f_equal (fun x => snd (fst x)) A)|exact (f_equal fst B)]|].
  split; [split; [exact (f_equal snd A)|exact (f_equal snd B)]|].
  intros [X _]. apply X. vm_compute. reflexivity.
Qed.

(** One might expect that what the broker is told of an order, the emulator was
    told too, at the latest when both ends know that the connection is lost.
    Not so: what is under way is lost, and the daemon reports when it writes. *)
Definition short_cut : list nop :=
  [OnDaemon (NCall DMqttConnected); OnDaemon NReadFails;
   OnDaemon (NCall (DMqttMessage (txt "homeassistant/light/cbus_9/set") (body (txt "ON") []))); OnDaemon NTurn;
   OnPci (NArrives []); OnPci NTurn].
Lemma short_cut_facts :
  let r := tcp_house plain_unicode noon [] die slow slow 300 false short_cut in
  (t_gone (snd (n_daemon (fst r))), t_gone (snd (n_pci (fst r))), lighting (emulator_trace (snd r)),
   state_messages (published (effects (line_trace (snd r))))) = (true, true, [], relay_on None 9).
Proof. vm_compute. reflexivity. Qed.
Theorem C96_reported_refuted : ~ forall u now labels rnd netd netp timesync no_clock nl w tr,
  clock_works now -> randint_works rnd -> Forall possible nl ->
  tcp_house u now labels rnd netd netp timesync no_clock nl = (w, tr) ->
  t_gone (snd (n_daemon w)) = true -> t_gone (snd (n_pci w)) = true ->
  forall m, In m (relay_on None 9) -> In m (state_messages (published (effects (line_trace tr)))) ->
  In (SOn 9) (lighting (emulator_trace tr)).
Proof.
  intros H. pose proof short_cut_facts as A. cbn zeta in A.
  destruct (tcp_house plain_unicode noon [] die slow slow 300 false short_cut) as [w tr] eqn:E. cbn [fst snd] in A.
  pose proof (f_equal (fun x => fst (fst (fst x))) A) as A1. pose proof (f_equal (fun x => snd (fst (fst x))) A) as A2.
  pose proof (f_equal (fun x => snd (fst x)) A) as A3. pose proof (f_equal snd A) as A4. cbn [fst snd] in A1, A2, A3, A4. clear A.
  assert (F : Forall possible short_cut) by (repeat constructor).
  destruct (relay_on None 9) as [|m ms] eqn:Q; [discriminate Q|].
  assert (X : In (SOn 9) (lighting (emulator_trace tr))).
  { apply (H _ _ _ _ _ _ _ _ _ _ _ noon_works die_works F E A1 A2 m); [|rewrite A4]; now left. }
  rewrite A3 in X. destruct X.
Qed.
Print Assumptions C96_reported_refuted.
