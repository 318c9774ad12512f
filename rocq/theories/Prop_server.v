(** The emulated PCI: C33 to C38 and C58. *)
From Coq Require Import String List ZArith Bool Lia.
From Verif Require Import Py Text Common Sal Cal Packet Buffered Server Base Spec Spec_server Common_facts Sal_facts
  Packet_facts Packet_roundtrip Packet_decode Packet_total Buffer_facts Server_facts.
Import ListNotations.
Open Scope Z_scope.

(** A generator of random numbers. *)
Definition die (n : nat) : Z := 1 + Z.of_nat (n mod 100).
Lemma die_works : randint_works die.
Proof. intros n. unfold die. assert (n mod 100 < 100)%nat by (apply Nat.mod_upper_bound; lia). lia. Qed.

(** ** C58 *)

Lemma session_of rnd ops st tr : randint_works rnd ->
  server_run rnd (new_server, []) (SOpConnect :: ops) = (st, tr) ->
  exists tr' log s', tr = ([SWrite [43; 43; 13; 10]], Ok tt) :: tr'
    /\ proceeds rnd fresh ops log s' /\ explains tr' log
    /\ past s' = rev (flat_map action_packet (actions log))
    /\ modes_of (fst st) = latest (past s') /\ snd st = pending s'
    /\ sv_queue (fst st) = queued s' /\ sv_draws (fst st) = drawn s' /\ live (fst st).
Proof.
  intros R E. cbn [server_run] in E.
  change (server_step rnd (new_server, []) SOpConnect)
    with ((mkServer true true false false false false 0xff 0xff [] 0, @nil Z), [SWrite [43; 43; 13; 10]], Ok tt) in E.
  cbn [fst snd] in E.
  destruct (server_run rnd _ ops) as [st2 tr2] eqn:T. inversion E; subst.
  assert (L0 : live (mkServer true true false false false false 0xff 0xff [] 0)) by (repeat split).
  destruct (proceeds_refines rnd ops R _ _ _ _ [] L0 eq_refl T)
    as [log [ps [P1 [P2 [P3 [P4 P5]]]]]].
  exists tr2, log. eexists. split; [reflexivity|]. split; [exact P1|]. split; [exact P5|].
  cbn [shows past pending queued drawn]. rewrite app_nil_r in P4.
  split; [exact P4|]. split; [exact P3|]. split; [reflexivity|]. split; [reflexivity|]. split; [reflexivity|exact P2].
Qed.

(** Whatever happens to a connected emulator, its answers, the methods it
    calls, the exceptions it raises and the bytes it keeps are those of the
    state machine [proceeds]. *)
Theorem C58_session : forall rnd ops st tr, randint_works rnd ->
  server_run rnd (new_server, []) (SOpConnect :: ops) = (st, tr) ->
  exists tr' log s', tr = ([SWrite [43; 43; 13; 10]], Ok tt) :: tr'
    /\ proceeds rnd fresh ops log s' /\ explains tr' log
    /\ snd st = pending s' /\ sv_queue (fst st) = queued s'.
Proof.
  intros rnd ops st tr R E. destruct (session_of rnd ops st tr R E) as [tr' [log [s' [H1 [H2 [H3 [_ [_ [H6 [H7 _]]]]]]]]]].
  exists tr', log, s'. auto.
Qed.
Print Assumptions C58_session.

(** ** C33 *)
Theorem C33_modes : forall rnd ops st tr, randint_works rnd ->
  server_run rnd (new_server, []) (SOpConnect :: ops) = (st, tr) ->
  exists tr' log s', tr = ([SWrite [43; 43; 13; 10]], Ok tt) :: tr'
    /\ proceeds rnd fresh ops log s' /\ explains tr' log
    /\ modes_of (fst st) = latest (rev (flat_map action_packet (actions log))).
Proof.
  intros rnd ops st tr R E. destruct (session_of rnd ops st tr R E) as [tr' [log [s' [H1 [H2 [H3 [H4 [H5 _]]]]]]]].
  exists tr', log, s'. rewrite H4 in H5. auto.
Qed.
Print Assumptions C33_modes.

(** Reading [latest]: the last option write decides, unless a reset followed. *)
Definition changes_modes (p : packet) : bool :=
  match p with
  | PktReset | PktSmartConnect => true
  | PktDM _ parameter _ => sets_options parameter
  | _ => false
  end.
Theorem C33_latest : forall newer older, Forall (fun p => changes_modes p = false) newer ->
  (forall h parameter v, sets_options parameter = true -> latest (newer ++ PktDM h parameter v :: older) = options v)
  /\ latest (newer ++ PktReset :: older) = defaults
  /\ latest (newer ++ PktSmartConnect :: older)
     = mkModes false true (m_checksum (latest older)) (m_monitor (latest older)) (m_idmon (latest older))
  /\ latest (newer ++ older) = latest older
  /\ latest newer = defaults.
Proof.
  intros newer older F.
  assert (K : forall l, latest (newer ++ l) = latest l).
  { intros l. induction F as [|p newer H F IH]; [reflexivity|]. cbn [app].
    destruct p; try discriminate; try exact IH. cbn [latest]. cbn in H. now rewrite H. }
  rewrite !K. split; [intros h prm v S; rewrite K; cbn [latest]; now rewrite S|].
  split; [reflexivity|]. split; [reflexivity|]. split; [reflexivity|].
  specialize (K []). now rewrite app_nil_r in K.
Qed.
Print Assumptions C33_latest.

(** Options 0x59, an echo of an unknown parameter, a reset, options 0x31. *)
Example C33_case :
  let st := fst (server_run die (new_server, []) [SOpConnect; SOpData (txt "@A3300059h"); SOpData [13]]) in
  modes_of (fst st) = mkModes false true true false true
  /\ modes_of (fst (fst (fst (server_step die st (SOpData (txt "~")))))) = defaults
  /\ let st' := fst (server_run die st [SOpData (txt "~@A3410031" ++ [13])]) in
     modes_of (fst st') = mkModes false true false true false.
Proof. repeat split. Qed.

(** ** C34 *)

Lemma explained_writes tr log : explains tr log -> written tr = flat_map action_writes (actions log).
Proof.
  intros X. unfold written, actions. induction X as [|x y tr log [H _] X IH]; [reflexivity|]. cbn [flat_map].
  rewrite flat_map_app, H, IH. reflexivity.
Qed.

Theorem C34_wire : forall rnd ops st tr, randint_works rnd -> data_only ops ->
  server_run rnd (new_server, []) (SOpConnect :: ops) = (st, tr) ->
  exists tr' log s', tr = ([SWrite [43; 43; 13; 10]], Ok tt) :: tr'
    /\ proceeds rnd fresh ops log s' /\ explains tr' log
    /\ filter is_confirmation (written tr) = map confirmation (flat_map confirmed (flat_map action_packet (actions log))).
Proof.
  intros rnd ops st tr R F E. destruct (session_of rnd ops st tr R E) as [tr' [log [s' [H1 [H2 [H3 _]]]]]].
  exists tr', log, s'. repeat split; try assumption. rewrite H1. unfold written. cbn [flat_map].
  fold (written tr'). rewrite (explained_writes _ _ H3).
  change (swrites (fst ([SWrite [43; 43; 13; 10]], Ok tt))) with [[43; 43; 13; 10]].
  cbn [app filter is_confirmation]. apply (proceeds_confirm rnd fresh ops log s' H2 F). constructor.
Qed.
Print Assumptions C34_wire.

(** Negative confirmations are never among them, and codes are valid. *)
Theorem C34_positive : forall rnd ops st tr, randint_works rnd -> data_only ops ->
  server_run rnd (new_server, []) (SOpConnect :: ops) = (st, tr) ->
  forall c r, In [c; r] (written tr) -> is_code c -> (r = 46 \/ r = 35) -> r = 46.
Proof.
  intros rnd ops st tr R F E c r I C D. destruct (C34_wire rnd ops st tr R F E) as [tr' [log [s' [_ [_ [_ W]]]]]].
  assert (K : In [c; r] (filter is_confirmation (written tr))).
  { apply filter_In. split; [exact I|]. unfold is_code in C. cbn. lia. }
  rewrite W in K. apply in_map_iff in K. destruct K as [x [K _]]. unfold confirmation in K. now inversion K.
Qed.
Print Assumptions C34_positive.

(** On, an unknown command on the clock application... *)
Example C34_case :
  let tr := snd (server_run die (new_server, []) (SOpConnect :: map SOpData
     [txt "\05380079" ++ txt "03g" ++ [13]; txt "\0538007903010" ++ txt "4h" ++ [13];
      txt "\05FF0079z" ++ [13]; txt "@A3990000i" ++ [13]; txt "@A3210000j" ++ [13]])) in
  filter is_confirmation (written tr) = [txt "g."; txt "h."; txt "j."].
Proof. vm_compute. reflexivity. Qed.

(** ** C35 *)
Theorem C35_message : forall rnd s buf data ws p n, randint_works rnd -> reached rnd (s, buf) ->
  decode_packet data (sv_checksum s) true false = (ws, Ok (p, n)) -> (0 < n)%nat ->
  exists s' ev r reply, s_handle_data rnd s data = (s', ev, r)
    /\ swrites ev = (if sv_basic s then [firstn n data] else []) ++ reply
    /\ (p = None -> reply = []).
Proof.
  intros rnd s buf data ws p n R [ops [tr E]] D N.
  destruct (session_of rnd ops _ tr R E) as [_ [_ [_ [_ [_ [_ [_ [_ [_ [_ [_ L]]]]]]]]]]]. cbn [fst] in L.
  change (if sv_basic s then [firstn n data] else []) with (echo_of (modes_of s) (firstn n data)).
  destruct p as [p|].
  - destruct (refused s p) eqn:F.
    + destruct (handle_data_refused rnd s data ws p n R L D F) as [pre [ga [post [ev [q [d [E0 [B [E1 [E2 [E3 E4]]]]]]]]]]].
      eexists. exists ev. eexists. exists []. split; [exact E1|]. rewrite E3. unfold echo_of. cbn [modes_of m_basic].
      rewrite B. split; [reflexivity|auto].
    + destruct (handle_data_packet rnd s data ws p n R L D F) as [s' [ev [out [E1 [E2 [E3 _]]]]]].
      exists s', ev. eexists. exists out. split; [exact E1|]. split; [exact E3|discriminate].
  - destruct (handle_data_nothing rnd s data ws n L D N) as [ev [E1 [E2 _]]].
    exists s, ev. eexists. exists []. split; [exact E1|]. rewrite app_nil_r. auto.
Qed.
Print Assumptions C35_message.

(** Over a whole stream, as long as no packet switches to smart mode and no
    data is dropped. *)
Theorem C35_stream : forall rnd ops st tr, randint_works rnd ->
  server_run rnd (new_server, []) (SOpConnect :: ops) = (st, tr) ->
  Forall (fun x => snd x <> Raise ValueError) tr ->
  exists tr' log s', tr = ([SWrite [43; 43; 13; 10]], Ok tt) :: tr'
    /\ proceeds rnd fresh ops log s' /\ explains tr' log
    /\ concat (chunks_of ops) = flat_map action_consumed (actions log) ++ snd st
    /\ (Forall (fun p => stays_basic p = true) (flat_map action_packet (actions log)) ->
        concat (flat_map action_echo (actions log)) ++ snd st = concat (chunks_of ops)).
Proof.
  intros rnd ops st tr R E F. destruct (session_of rnd ops st tr R E) as [tr' [log [s' [H1 [H2 [H3 [_ [_ [H6 _]]]]]]]]].
  exists tr', log, s'. split; [exact H1|]. split; [exact H2|]. split; [exact H3|].
  assert (F2 : Forall (fun x => snd x <> Raise ValueError) log).
  { rewrite H1 in F. inversion F as [|? ? _ F']; subst. clear - F' H3. unfold explains in H3.
    induction H3 as [|x y tr log [_ [_ K]] X IH]; [constructor|]. inversion F'; subst. constructor; [congruence|auto]. }
  assert (A := proceeds_account _ _ _ _ _ H2 F2). cbn [fresh pending app] in A. rewrite H6. split; [exact A|].
  intros S. rewrite (proceeds_echo _ _ _ _ _ H2 eq_refl S). now symmetry.
Qed.
Print Assumptions C35_stream.

(** Basic mode: a message and part of the next one; then in smart mode. *)
Example C35_case :
  let run := server_run die (new_server, []) (SOpConnect :: map SOpData [txt "\053800"; txt "7903g" ++ [13] ++ txt "null"]) in
  written (snd run) = [[43; 43; 13; 10]; txt "\0538007903g" ++ [13]; txt "g."; txt "null"]
  /\ written (snd (server_run die (fst run) (map SOpData [txt "|" ++ [13]; txt "\0538007903h" ++ [13]])))
     = [txt "|" ++ [13]; txt "h."].
Proof. split; vm_compute; reflexivity. Qed.

(** ** C36 *)
Theorem C36_deferred : forall rnd ops st tr, randint_works rnd ->
  server_run rnd (new_server, []) (SOpConnect :: ops) = (st, tr) ->
  exists tr' log s' bss later, tr = ([SWrite [43; 43; 13; 10]], Ok tt) :: tr'
    /\ proceeds rnd fresh ops log s' /\ explains tr' log
    /\ Forall2 arranged (actions log) bss
    /\ deferred rnd 0 later (4 * updates (actions log))
    /\ later = flat_map snd (concat bss) ++ sv_queue (fst st).
Proof.
  intros rnd ops st tr R E.
  destruct (session_of rnd ops st tr R E) as [tr' [log [s' [H1 [H2 [H3 [_ [_ [_ [H7 _]]]]]]]]]].
  destruct (proceeds_blocks _ _ _ _ _ H2) as [bss [new [B1 [B2 [B3 B4]]]]]. cbn [fresh queued drawn app Nat.add] in *.
  exists tr', log, s', bss, new. rewrite H7. rewrite <- B4. auto 10.
Qed.
Print Assumptions C36_deferred.

(** Two clock updates are flushed by the next confirmation, a third one stays. *)
Example C36_case :
  let run := server_run die (new_server, []) (SOpConnect :: map SOpData
    [txt "|" ++ [13]; txt "\05DF000D010A141E00" ++ [13]; txt "\05DF000D010A141E00" ++ [13];
     txt "\0538007903h" ++ [13]; txt "\05DF000D010A141E00" ++ [13]]) in
  (List.length (written (snd run)), List.length (sv_queue (fst (fst run)))) = (7, 2)%nat
  /\ skipn 2 (written (snd run))
     = txt "h." :: map (fun s => txt s ++ [13; 10]) ["050238007901"; "050438000103"; "050638007905"; "050838000107"]%string.
Proof. split; vm_compute; reflexivity. Qed.

(** ** C37 *)
Theorem C37_presence : forall rnd s buf data ws h a ga n, randint_works rnd -> reached rnd (s, buf) ->
  sv_basic s = true ->
  decode_packet data (sv_checksum s) true false = (ws, Ok (Some (PktPM h a [StatusRequest false ga 0xff]), n)) ->
  exists s' ev l0 l1 l2, s_handle_data rnd s data = (s', ev, Ok (Z.of_nat n))
    /\ presence_lines l0 l1 l2
    /\ swrites ev = [firstn n data] ++ [l0] ++ sv_queue s ++ [l1; l2] ++ map confirmation (opt_code (h_confirm h))
    /\ scallbacks ev = [SMasterStatus ga].
Proof.
  intros rnd s buf data ws h a ga n R [ops [tr E]] B D.
  destruct (session_of rnd ops _ tr R E) as [_ [_ [_ [_ [_ [_ [_ [_ [_ [_ [_ L]]]]]]]]]]]. cbn [fst] in L.
  destruct (handle_data_packet rnd s data ws _ n R L D) as [s' [ev [out [E1 [E2 [E3 [E4 _]]]]]]].
  { cbn. unfold refuses. now rewrite B. }
  exists s', ev. unfold echo_of in E3. cbn [modes_of m_basic] in E3. rewrite B in E3.
  assert (K : forall out1 q1 d1 q d, emits rnd (sv_checksum s) (heard [StatusRequest false ga 255]) q d out1 q1 d1 ->
    exists l0 l1 l2, presence_lines l0 l1 l2 /\ out1 = [l0] ++ q ++ [l1; l2] /\ q1 = []).
  { intros out1 q1 d1 q d M. change (heard [StatusRequest false ga 255]) with [StatusRequest false ga 255] in M.
    inversion M; subst; [contradiction|]. exists l0, l1, l2. split; [assumption|].
    match goal with H : emits _ _ [] _ _ _ _ _ |- _ => inversion H; subst end. split; reflexivity. }
  inversion E2 as [out1 q1 d1 c M C Q0 Q1 Q2|out1 q1 d1 M C Q0 Q1 Q2]; destruct (K _ _ _ _ _ M) as [l0 [l1 [l2 [P [W Q]]]]];
    exists l0, l1, l2; (split; [exact E1|]); (split; [exact P|]); (split; [|exact E4]); rewrite E3; subst; cbn [confirmed] in C;
    change (forallb understood [StatusRequest false ga 255]) with true in C; rewrite C; cbn [map app].
  - rewrite <- !app_assoc. reflexivity.
  - reflexivity.
Qed.
Print Assumptions C37_presence.

(** What the three lines say: the units 0 to 253 in order, then padding. *)
Theorem C37_lines : forall l0 l1 l2, presence_lines l0 l1 l2 ->
  exists h0 p0 c0 h1 p1 c1 h2 p2 c2,
    hex_line ([h0; 0xff; 0] ++ p0 ++ [c0]) l0 /\ hex_line ([h1; 0xff; 88] ++ p1 ++ [c1]) l1
    /\ hex_line ([h2; 0xff; 176] ++ p2 ++ [c2]) l2
    /\ flat_map unpack (p0 ++ p1 ++ p2) = presence ++ [0; 0]
    /\ presence = [0] ++ repeat 1 10 ++ repeat 0 242 ++ [1].
Proof.
  intros l0 l1 l2 [[h0 [p0 [c0 [A1 [A2 [A3 A4]]]]]] [[h1 [p1 [c1 [B1 [B2 [B3 B4]]]]]] [h2 [p2 [c2 [C1 [C2 [C3 C4]]]]]]]].
  exists h0, p0, c0, h1, p1, c1, h2, p2, c2. split; [exact A1|]. split; [exact B1|]. split; [exact C1|]. split; [|reflexivity].
  rewrite !flat_map_app, A4, B4, C4. vm_compute. reflexivity.
Qed.
Print Assumptions C37_lines.

Example C37_case :
  let run := server_run die (new_server, []) [SOpConnect; SOpData (txt "\05FF007AFF20g" ++ [13])] in
  decode_packet (txt "\05FF007AFF20g" ++ [13]) false true false
    = ([], Ok (Some (PktPM (mkHdr false 0 None (Some 103)) (Some 255) [StatusRequest false 32 255]), 15%nat))
  /\ List.length (written (snd run)) = 6%nat
  /\ nth 2 (written (snd run)) [] = txt "D9FF00545515000000000000000000000000000000000000006A" ++ [13; 10].
Proof. repeat split; vm_compute; reflexivity. Qed.

(** ** C38 *)
Theorem C38_wedge : forall rnd s buf ws p n chunks, randint_works rnd -> reached rnd (s, buf) ->
  sv_basic s = false ->
  decode_packet buf (sv_checksum s) true false = (ws, Ok (Some p, n)) ->
  existsb presence_request (heard (commands_of p)) = true ->
  (List.length buf + List.length (concat chunks) <= 256)%nat ->
  exists s' tr, server_run rnd (s, buf) (map SOpData chunks) = ((s', buf ++ concat chunks), tr)
    /\ List.length tr = List.length chunks
    /\ modes_of s' = modes_of s
    /\ Forall (fun x => snd x = Raise NotImplementedError /\ swrites (fst x) = []
         /\ scallbacks (fst x) = flat_map scallback_of (until_presence (heard (commands_of p)))) tr.
Proof.
  intros rnd s buf ws p n chunks R [ops [tr E]] B D P Len.
  destruct (session_of rnd ops _ tr R E) as [_ [_ [_ [_ [_ [_ [_ [_ [_ [_ [_ L]]]]]]]]]]]. cbn [fst] in L.
  assert (F : refused s p = true).
  { destruct p; try discriminate P. cbn [refused commands_of] in *. unfold refuses. now rewrite B, P. }
  destruct (wedge rnd p n ws R chunks s buf L F D Len) as [q [d [tr' [W1 [W2 W3]]]]].
  eexists. exists tr'. split; [exact W1|]. split; [exact W2|]. split; [reflexivity|exact W3].
Qed.
Print Assumptions C38_wedge.

(** How the state comes about: the request arrives while in smart mode. *)
Theorem C38_arrival : forall rnd s ws p n data, randint_works rnd -> reached rnd (s, []) ->
  sv_basic s = false -> (List.length data <= 256)%nat ->
  decode_packet data (sv_checksum s) true false = (ws, Ok (Some p, n)) ->
  existsb presence_request (heard (commands_of p)) = true ->
  exists s' ev, server_step rnd (s, []) (SOpData data) = ((s', data), ev, Raise NotImplementedError)
    /\ modes_of s' = modes_of s /\ reached rnd (s', data).
Proof.
  intros rnd s ws p n data R Re B Len D P.
  assert (Re2 := Re). destruct Re2 as [ops [tr E]].
  destruct (session_of rnd ops _ tr R E) as [_ [_ [_ [_ [_ [_ [_ [_ [_ [_ [_ L]]]]]]]]]]]. cbn [fst] in L.
  assert (F : refused s p = true).
  { destruct p; try discriminate P. cbn [refused commands_of] in *. unfold refuses. now rewrite B, P. }
  destruct (handle_data_refused rnd s data ws p n R L D F) as [pre [ga [post [ev [q [d [E0 [_ [E1 _]]]]]]]]].
  assert (PB : process_buffer (s_handle_data rnd) s data = (moved s q d, data, ev, Raise NotImplementedError)).
  { apply processes_buffer with [data]. apply pr_raise; [|exact E1]. destruct data; discriminate. }
  assert (S : server_step rnd (s, []) (SOpData data) = ((moved s q d, data), ev, Raise NotImplementedError)).
  { cbn [server_step fst snd app List.length Nat.add]. unfold data_received, MAX_BUFFER_SIZE. cbn [List.length Nat.add app].
    replace (Nat.ltb 256 (List.length data)) with false by (symmetry; apply Nat.ltb_ge; lia).
    rewrite PB. reflexivity. }
  exists (moved s q d), ev. split; [exact S|]. split; [reflexivity|].
  assert (RA : forall l1 l2 st st1 tr1 st2 tr2, server_run rnd st l1 = (st1, tr1) -> server_run rnd st1 l2 = (st2, tr2) ->
    server_run rnd st (l1 ++ l2) = (st2, tr1 ++ tr2)).
  { clear. induction l1 as [|o l1 IH]; intros l2 st st1 tr1 st2 tr2 A B; cbn [server_run app] in *.
    - inversion A; subst. exact B.
    - destruct (server_step rnd st o) as [[st' ev] r]. destruct (server_run rnd st' l1) as [st'' tr''] eqn:Q.
      inversion A; subst. rewrite (IH _ _ _ _ _ _ Q B). reflexivity. }
  exists (ops ++ [SOpData data]). eexists.
  change (SOpConnect :: ops ++ [SOpData data]) with ((SOpConnect :: ops) ++ [SOpData data]).
  eapply RA; [exact E|]. cbn [server_run]. rewrite S. reflexivity.
Qed.
Print Assumptions C38_arrival.

(** The naive expectation: a status request does not stop the emulator. *)
Theorem C38_request_is_answered_refuted : ~ forall rnd s buf data st ev r, randint_works rnd -> reached rnd (s, buf) ->
  server_step rnd (s, buf) (SOpData data) = (st, ev, r) -> (List.length buf + List.length data <= 256)%nat ->
  r = Ok tt \/ exists e, r = Raise e /\ e <> NotImplementedError.
Proof.
  intros H.
  assert (Re : reached die (fst (server_run die (new_server, []) [SOpConnect; SOpData (txt "|" ++ [13])]))).
  { exists [SOpData (txt "|" ++ [13])]. eexists. vm_compute. reflexivity. }
  destruct (fst (server_run die (new_server, []) [SOpConnect; SOpData (txt "|" ++ [13])])) as [s buf] eqn:E.
  destruct (server_step die (s, buf) (SOpData (txt "\05FF007AFF20g" ++ [13]))) as [[st ev] r] eqn:S.
  assert (K := H die s buf (txt "\05FF007AFF20g" ++ [13]) st ev r die_works Re S).
  vm_compute in E. inversion E; subst. vm_compute in S. inversion S; subst.
  destruct K as [K|[e [K N]]]; [vm_compute; lia|discriminate|congruence].
Qed.
Print Assumptions C38_request_is_answered_refuted.

(** Three chunks, two of them harmless. *)
Example C38_case :
  let tr := snd (server_run die (new_server, []) (SOpConnect :: map SOpData
    [txt "|" ++ [13]; txt "\05FF007AFF20g" ++ [13]; txt "\0538007903h" ++ [13]; txt "~"])) in
  map snd tr = [Ok tt; Ok tt; Raise NotImplementedError; Raise NotImplementedError; Raise NotImplementedError]
  /\ called tr = [SMasterStatus 32; SMasterStatus 32; SMasterStatus 32].
Proof. split; vm_compute; reflexivity. Qed.
