(** Lemmas: what a client writes is a script for an emulator. *)
From Coq Require Import String List ZArith Bool Lia.
From Verif Require Import Py Common Sal Cal Packet Text Mqtt Buffered Client Server Base Spec Spec_client Spec_server
  Spec_system Common_facts Sal_facts Packet_facts Packet_roundtrip Packet_decode Packet_total Buffer_facts
  Client_facts Client_steps Client_send Client_calls Client_dispatch Prop_packet Prop_client Server_facts System_facts.
Import ListNotations.
Open Scope Z_scope.

(** The writes [ws] are a stream from which packets [pks] are read. *)
Definition speaks (ps : list packet) (ws : list bytes) (pks : list packet) : Prop :=
  exists msgs, concat msgs = concat ws /\ script ps msgs pks
    /\ Forall (fun m => exists w, In w ws /\ (length m <= length w)%nat) msgs /\ Forall spoils msgs.

Lemma speaks_nil ps : speaks ps [] [].
Proof. exists []. repeat split; constructor. Qed.
Lemma speaks_app ps a pa b pb : speaks ps a pa -> speaks (rev pa ++ ps) b pb -> speaks ps (a ++ b) (pa ++ pb).
Proof.
  intros [m1 [E1 [S1 [F1 G1]]]] [m2 [E2 [S2 [F2 G2]]]]. exists (m1 ++ m2). split; [now rewrite !concat_app, E1, E2|].
  split; [now apply (script_app _ _ _ S1)|]. split; [|now apply Forall_app]. apply Forall_app. split.
  - eapply Forall_impl; [|exact F1]. intros m [w [I L]]. exists w. rewrite in_app_iff. auto.
  - eapply Forall_impl; [|exact F2]. intros m [w [I L]]. exists w. rewrite in_app_iff. auto.
Qed.
Lemma speaks_one ps w p : w <> [] -> spoils w ->
  (forall rest, decode_packet (w ++ rest) (m_checksum (latest ps)) true false = ([], Ok (Some p, length w))) ->
  (forall c, p <> PktCal c) -> existsb presence_request (heard (commands_of p)) = false ->
  speaks ps [w] [p].
Proof.
  intros N K D C R. exists [w]. split; [reflexivity|]. split; [apply sc_packet; auto; constructor|].
  split; [|constructor; auto]. constructor; [|constructor]. exists w. split; [now left|lia].
Qed.

(** Lines of commands spoil. *)
Lemma line_spoils head digits code : is_code code -> (head = [92] \/ head = [] /\ digits <> []) -> Forall hex_char digits ->
  spoils (head ++ digits ++ [code; 13]).
Proof.
  intros C H F. unfold is_code in C. split; [|split].
  - destruct H as [->|[-> N]]; [exists 92, (digits ++ [code; 13])|destruct digits as [|b digits]; [congruence|]; exists b, (digits ++ [code; 13])].
    + unfold is_code. split; [reflexivity|]. lia.
    + inversion F as [|? ? B _]; subst. unfold hex_char in B. unfold is_code. split; [reflexivity|]. lia.
  - intros I. rewrite !in_app_iff in I. rewrite Forall_forall in F. destruct I as [I|[I|I]].
    + destruct H as [->|[-> _]]; [destruct I as [I|[]]; lia|destruct I].
    + specialize (F _ I). unfold hex_char in F. lia.
    + destruct I as [I|[I|[]]]; lia.
  - exists 13. split; [|unfold hex_char; lia]. rewrite !in_app_iff. right. right. right. now left.
Qed.
Lemma command_spoils w code : command_line w code -> spoils w.
Proof. intros [digits [raw [-> [F [_ [_ [_ C]]]]]]]. apply line_spoils; auto. Qed.

(** ** The handshake *)

Lemma speaks_reset ps : speaks ps [[126; 13]] [PktReset].
Proof.
  exists [[126]; [13]]. split; [reflexivity|]. split.
  - apply sc_packet; [discriminate|reflexivity|discriminate|reflexivity|].
    apply sc_nothing; [discriminate| |constructor].
    intros rest. change ([13] ++ rest) with ([] ++ 13 :: rest). rewrite to_pci_line.
    + reflexivity.
    + intros [].
    + intros [].
    + repeat split; try discriminate; intros [].
  - split; [repeat constructor; exists [126; 13]; cbn; auto|]. repeat constructor.
    + exists 126, []. unfold is_code. split; [reflexivity|]. lia.
    + intros [I|[]]; lia.
    + exists 126. split; [now left|unfold hex_char; lia].
    + exists 13, []. unfold is_code. split; [reflexivity|]. lia.
    + intros [I|[]]; lia.
    + exists 13. split; [now left|unfold hex_char; lia].
Qed.

Lemma hex_all l : forallb (fun c => mem c HEX_CHARS) l = true -> Forall hex_char l.
Proof. rewrite forallb_forall, Forall_forall. intros H x I. apply hex_mem. auto. Qed.
Lemma dm_line ps digits code param v : is_code code -> m_checksum (latest ps) = false ->
  encode_packet (dm_command param v) = Ok digits -> Forall hex_char digits -> digits <> [] -> 0 <= param < 256 -> 0 <= v < 256 ->
  speaks ps [digits ++ [code; 13]] [PktDM (mkHdr false CLASS_2 None (Some code)) param v].
Proof.
  intros C K E H N P V. apply speaks_one.
  - destruct digits; discriminate.
  - apply (line_spoils []); auto.
  - intros rest. rewrite K.
    destruct (C17_dm_to_pci [] false true CLASS_2 param v (Some code) rest) as [w [E2 D]].
    + left. reflexivity.
    + cbv. split; discriminate.
    + exact C.
    + cbn [prefix_checksum] in E2, D.
      assert (E3 : encode_packet (dm_command param v) = encode_packet (PktDM (mkHdr false CLASS_2 None (Some code)) param v)) by reflexivity.
      assert (w = digits) by congruence. subst w. rewrite !Z.mod_small in D by assumption.
      rewrite <- app_assoc. cbn [app opt_code] in D |- *. exact D.
  - discriminate.
  - reflexivity.
Qed.

Lemma handshake_spoken ps c0 c1 c2 : is_code c0 -> is_code c1 -> is_code c2 ->
  speaks ps [txt "~" ++ [13]; txt "~" ++ [13]; txt "~" ++ [13]; txt "A3210038" ++ [c0; 13];
             txt "A342000E" ++ [c1; 13]; txt "A3300059" ++ [c2; 13]] (handshake c0 c1 c2)
  /\ latest (rev (handshake c0 c1 c2) ++ ps) = mkModes false true true false true.
Proof.
  intros H0 H1 H2. split; [|reflexivity].
  apply (speaks_app ps [_] [_]); [apply speaks_reset|].
  apply (speaks_app _ [_] [_]); [apply speaks_reset|].
  apply (speaks_app _ [_] [_]); [apply speaks_reset|].
  apply (speaks_app _ [_] [_]); [apply dm_line; auto; try reflexivity; try discriminate; [apply hex_all; reflexivity|lia|lia]|].
  apply (speaks_app _ [_] [_]); [apply dm_line; auto; try reflexivity; try discriminate; [apply hex_all; reflexivity|lia|lia]|].
  apply dm_line; auto; try reflexivity; try discriminate; [apply hex_all; reflexivity|lia|lia].
Qed.

(** ** Clock reports *)

Definition clock_line (now : nat -> clockval) (w : bytes) : Prop :=
  exists p, clock_report now p /\ w <> [] /\ spoils w
    /\ forall rest, decode_packet (w ++ rest) true true false = ([], Ok (Some p, length w)).

Lemma clock_commands_quiet v : existsb presence_request (heard (clock_commands v)) = false.
Proof. destruct v; reflexivity. Qed.

Lemma clock_lines_spoken now ws : forall ps, m_checksum (latest ps) = true -> Forall (clock_line now) ws ->
  exists pks, Forall2 (reported now) pks ws /\ speaks ps ws pks /\ m_checksum (latest (rev pks ++ ps)) = true.
Proof.
  induction ws as [|w ws IH]; intros ps K F.
  - exists []. split; [constructor|]. split; [apply speaks_nil|exact K].
  - inversion F as [|x y [p [R [N [G D]]]] F2]; subst.
    assert (Q : m_checksum (latest (p :: ps)) = true).
    { destruct R as [code [n [_ ->]]]. exact K. }
    destruct (IH (p :: ps) Q F2) as [pks [A [B C]]].
    exists (p :: pks). split; [constructor; [|exact A]|].
    { split; [exact R|]. specialize (D []). now rewrite app_nil_r in D. }
    split.
    + apply (speaks_app ps [w] [p] ws pks); [|exact B].
      apply speaks_one; [exact N|exact G|rewrite K; exact D| |].
      * destruct R as [code [n [_ ->]]]. discriminate.
      * destruct R as [code [n [_ ->]]]. apply clock_commands_quiet.
    + cbn [rev]. rewrite <- app_assoc. exact C.
Qed.

Lemma answers_lines now c n l : answers now c n l -> Forall (clock_line now) l.
Proof.
  intros [L A]. apply Forall_forall. intros w I. apply In_nth_error in I. destruct I as [i I].
  destruct (A i w I) as [C D]. eexists. split; [|split; [|split; [|intros rest; apply D]]].
  - eexists. eexists. split; [apply code_at_code|reflexivity].
  - destruct C as [digits [raw [-> _]]]. discriminate.
  - eapply command_spoils; eauto.
Qed.

Definition ready (c : client) : Prop := cl_transport c = true /\ counter_ok c.

Lemma writes_warns ws : writes (map CWarn ws) = [].
Proof. induction ws; auto. Qed.

Lemma data_lines now c buf c' ev r : clock_works now -> ready c -> handle_data now c buf = (c', ev, r) ->
  Forall (clock_line now) (writes ev) /\ ready c'.
Proof.
  intros N [T I] E. unfold handle_data in E.
  destruct (decode_packet buf true true true) as [ws [[[p|] n]|e]].
  - assert (S : forall e, is_write e = false -> memit e c = (c, [e], Ok tt)) by reflexivity.
    destruct p; cbn [handle_cbus_packet] in E;
      try (inversion E; subst; rewrite ?writes_app, writes_warns; split; [constructor|split; assumption]).
    destruct (dispatch_list now (h_source h) sals N c I T) as [ev2 [E2 [_ [A _]]]]. rewrite E2 in E.
    inversion E; subst. rewrite writes_app, writes_warns. split; [exact (answers_lines _ _ _ _ A)|].
    destruct (after_fields c (answered c sals)) as [_ [F2 [_ [_ [_ [_ [F7 _]]]]]]]. split; [congruence|exact F7].
  - inversion E; subst. rewrite writes_warns. split; [constructor|split; assumption].
  - inversion E; subst. rewrite writes_warns. split; [constructor|split; assumption].
Qed.

Lemma processes_lines now c buf calls c' buf' ev r : clock_works now ->
  processes (handle_data now) c buf calls c' buf' ev r -> ready c ->
  Forall (clock_line now) (writes ev) /\ ready c'.
Proof.
  intros N. induction 1 as [| | | | |st buf st' ev r calls st'' buf' ev' out Nb H Rr P IH]; intros R;
    try (eapply data_lines; eassumption).
  - split; [constructor|exact R].
  - destruct (data_lines _ _ _ _ _ _ N R H) as [A B]. destruct (IH B) as [A2 B2].
    rewrite writes_app. split; [now apply Forall_app|exact B2].
Qed.

Lemma received_lines now c buf d c' buf' ev r : clock_works now -> ready c ->
  data_received (handle_data now) MAX_BUFFER_SIZE c buf d = (c', buf', ev, r) ->
  Forall (clock_line now) (writes ev) /\ ready c'.
Proof.
  intros N R E. unfold data_received in E.
  destruct (Nat.ltb _ (length d)); [inversion E; subst; split; [constructor|exact R]|].
  destruct (Nat.ltb _ _); [inversion E; subst; split; [constructor|exact R]|].
  apply process_buffer_spec in E. destruct E as [calls E]. eapply processes_lines; eassumption.
Qed.

(** ** Steps *)

Lemma requests_quiet now c o app cmds : requests now c o app cmds ->
  existsb presence_request (heard cmds) = false /\ forallb understood cmds = true.
Proof.
  assert (G : forall (k : Z -> sal) gas, (forall g, presence_request (k g) = false) -> (forall g, understood (k g) = true) ->
     existsb presence_request (heard (map k gas)) = false /\ forallb understood (map k gas) = true).
  { intros k gas P U. induction gas as [|g gas [A B]]; [auto|]. cbn [map heard forallb]. rewrite U. cbn [existsb andb].
    rewrite P, A. auto. }
  destruct 1; try (apply G; reflexivity); try (destruct v; split; reflexivity); [split; reflexivity|].
  destruct (now (cl_reads c)); split; reflexivity.
Qed.

(** After the handshake the emulator expects checksums; before a connection
    nothing is written. *)
Definition aligned (c : client) (ps : list packet) : Prop := cl_transport c = true -> m_checksum (latest ps) = true.

Lemma step_spoken now st o st' ev r ps : clock_works now -> counter_ok (fst st) -> proper o ->
  aligned (fst st) ps -> client_step now st o = (st', ev, r) ->
  exists pks, asks now (fst st) (writes ev) o r pks /\ speaks ps (writes ev) pks
    /\ counter_ok (fst st') /\ aligned (fst st') (rev pks ++ ps).
Proof.
  intros N I [V A] K E.
  assert (I' : counter_ok (fst st')).
  { assert (X : client_run now st [o] = (st', [(ev, r)])) by (cbn [client_run]; now rewrite E).
    apply codes_run in X. now apply X. }
  assert (Quiet : forall o, o <> OpConnect -> client_step now st o = (st', ev, r) -> cl_transport (fst st) = false ->
      writes ev = [] /\ cl_transport (fst st') = false).
  { intros o0 NC E0 T. assert (X : client_run now st [o0] = (st', [(ev, r)])) by (cbn [client_run]; now rewrite E0).
    apply C52_silent in X; [|intros [H|[]]; congruence|exact T].
    unfold effects in X. cbn [flat_map fst] in X. rewrite app_nil_r in X. tauto. }
  assert (Cmd : is_command o -> (match o with OpOn _ | OpOff _ | OpTerminate _ | OpRamp _ _ _ | OpClock _ => True | _ => False end)
     \/ (exists u a, o = OpIdentify u a) \/ o = OpReset).
  { destruct o; cbn; try tauto; eauto. }
  assert (Step : is_command o -> exists c', api now o (fst st) = (c', ev, r) /\ st' = (c', snd st)).
  { intros C. destruct o; try contradiction; cbn [client_step] in E; destruct (api now _ (fst st)) as [[c' ev'] r'];
      inversion E; subst; eauto. }
  assert (Command : is_command o -> exists pks, asks now (fst st) (writes ev) o r pks /\ speaks ps (writes ev) pks
      /\ counter_ok (fst st') /\ aligned (fst st') (rev pks ++ ps)).
  { intros C. destruct (Step C) as [c' [Ea ->]]. cbn [fst] in *.
    destruct r as [r|e].
    - assert (T : cl_transport (fst st) = true).
      { destruct (C29_raises_iff now o _ _ _ _ C V N I Ea) as [Q _]. destruct (cl_transport (fst st)); [reflexivity|].
        destruct (proj2 Q (or_introl eq_refl)). discriminate. }
      assert (K1 := K T).
      destruct (Cmd C) as [L|[[u [a ->]]| ->]].
      + destruct (C30_commands now o _ _ _ _ L V N I Ea) as [w [code [ap [cmds [-> [-> [W [Rq [_ D]]]]]]]]].
        exists [PktPM (mkHdr true 0 None (Some code)) (Some ap) cmds].
        split; [now apply ask_command|]. split; [|split; [exact I'|intros _; exact K1]].
        cbn [writes flat_map app]. apply speaks_one.
        * destruct W as [digits [raw [-> _]]]. discriminate.
        * eapply command_spoils; eauto.
        * intros rest. rewrite K1. apply D.
        * discriminate.
        * exact (proj1 (requests_quiet _ _ _ _ _ Rq)).
      + destruct (C30_identify now u a _ _ _ _ I Ea) as [w [code [-> [-> [W D]]]]].
        eexists. split; [apply ask_identify|]. split; [|split; [exact I'|intros _; exact K1]].
        cbn [writes flat_map app]. apply speaks_one.
        * destruct W as [digits [raw [-> _]]]. discriminate.
        * eapply command_spoils; eauto.
        * intros rest. rewrite K1. now apply D.
        * discriminate.
        * reflexivity.
      + cbn [api] in Ea. unfold mseq, mbind in Ea. rewrite (reset_connected (fst st) T I) in Ea. inversion Ea; subst.
        eexists. split; [apply ask_handshake; now right|].
        destruct (handshake_spoken ps (code_at (cl_index (fst st)) 0) (code_at (cl_index (fst st)) 1) (code_at (cl_index (fst st)) 2))
          as [S L]; try apply code_at_code.
        split; [exact S|]. split; [exact I'|]. intros _. rewrite L. reflexivity.
    - destruct (C29_no_effect now o _ _ _ _ C V N I Ea) as [-> S]. exists []. split; [now apply ask_failed|].
      split; [apply speaks_nil|]. split; [exact I'|]. intros T. apply K. rewrite S in T. exact T. }
  assert (Lines : (o = OpTimesync \/ exists b, o = OpData b) -> cl_transport (fst st) = true ->
     Forall (clock_line now) (writes ev) -> exists pks, asks now (fst st) (writes ev) o r pks /\ speaks ps (writes ev) pks
      /\ counter_ok (fst st') /\ aligned (fst st') (rev pks ++ ps)).
  { intros O T F. destruct (clock_lines_spoken now (writes ev) ps (K T) F) as [pks [F1 [F2 F3]]].
    exists pks. split; [now apply ask_reports|]. split; [exact F2|]. split; [exact I'|]. intros _. exact F3. }
  assert (Silent : (o = OpTimesync \/ exists b, o = OpData b) -> cl_transport (fst st) = false ->
     exists pks, asks now (fst st) (writes ev) o r pks /\ speaks ps (writes ev) pks
      /\ counter_ok (fst st') /\ aligned (fst st') (rev pks ++ ps)).
  { intros O T. destruct (Quiet o ltac:(destruct O as [->|[b ->]]; discriminate) E T) as [W T'].
    exists []. split; [apply ask_reports; [exact O|rewrite W; constructor]|]. rewrite W. split; [apply speaks_nil|].
    split; [exact I'|]. unfold aligned. congruence. }
  destruct o as [ | |b|gas|gas|gas|ga d level|u a|w| |]; try (apply Command; exact Logic.I).
  - cbn [client_step api] in E. unfold mseq, mbind in E. rewrite (connect_outcome (fst st) I) in E. cbn zeta in E.
    inversion E; subst. clear E Quiet Step Command Lines Silent Cmd.
    eexists. split; [apply ask_handshake; now left|].
    destruct (handshake_spoken ps (code_at (cl_index (fst st)) 0) (code_at (cl_index (fst st)) 1) (code_at (cl_index (fst st)) 2))
      as [S L]; try apply code_at_code.
    split.
    + destruct (cl_frequency (fst st) =? 0); exact S.
    + split; [exact I'|]. intros _. rewrite L. reflexivity.
  - exists []. split; [constructor|].
    assert (W : writes ev = [] /\ cl_transport (fst st') = false).
    { cbn [client_step api] in E. unfold mseq, mbind, connection_lost, mret in E. cbn [cl_future set_transport] in E.
      destruct (cl_future (fst st)); inversion E; split; reflexivity. }
    destruct W as [W T]. rewrite W. split; [apply speaks_nil|]. split; [exact I'|]. unfold aligned. congruence.
  - destruct (cl_transport (fst st)) eqn:T; [|apply Silent; eauto].
    apply Lines; [eauto|reflexivity|]. cbn [client_step] in E.
    destruct (data_received _ _ _ _ b) as [[[c1 buf1] ev1] [[]|e]] eqn:D; inversion E; subst;
      (eapply received_lines; [exact N| |exact D]; split; assumption).
  - destruct (cl_transport (fst st)) eqn:T; [|apply Silent; eauto].
    apply Lines; [now left|reflexivity|]. cbn [client_step api] in E. unfold mseq, mbind, timesync_step in E.
    destruct (Nat.eqb (cl_tasks (fst st)) 0); [inversion E; constructor|].
    destruct (cl_frequency (fst st) <=? 0); [inversion E; constructor|].
    destruct (clock_answer now (fst st) I N T) as [w [Q An]]. rewrite Q in E. inversion E; subst.
    exact (answers_lines _ _ _ _ An).
Qed.

Lemma run_spoken now ops : clock_works now -> forall st st' tr ps, counter_ok (fst st) -> Forall proper ops ->
  aligned (fst st) ps -> client_run now st ops = (st', tr) ->
  exists pks, asked now st ops pks /\ speaks ps (writes (effects tr)) pks
    /\ aligned (fst st') (rev pks ++ ps).
Proof.
  intros N. induction ops as [|o ops IH]; intros st st' tr ps I F K E; cbn [client_run] in E.
  - inversion E; subst. exists []. split; [constructor|]. split; [apply speaks_nil|exact K].
  - destruct (client_step now st o) as [[st1 ev] r] eqn:S. destruct (client_run now st1 ops) as [st2 tr2] eqn:T.
    inversion E; subst. inversion F; subst.
    destruct (step_spoken now st o st1 ev r ps N I H1 K S) as [p1 [A1 [S1 [I1 K1]]]].
    destruct (IH st1 st' tr2 (rev p1 ++ ps) I1 H2 K1 T) as [p2 [A2 [S2 K2]]].
    exists (p1 ++ p2). split; [now apply (asked_call now st o ops st1 ev r)|].
    unfold effects. cbn [flat_map fst]. rewrite writes_app. split; [now apply speaks_app|].
    rewrite rev_app_distr, <- app_assoc. exact K2.
Qed.
