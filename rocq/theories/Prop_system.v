(** A client connected to an emulated PCI: C48 and C53 to C55. *)
From Coq Require Import String List ZArith Bool Lia.
From Verif Require Import Py Common Sal Cal Packet Text Mqtt Buffered Client Server Base Spec Spec_client Spec_server
  Spec_system Common_facts Sal_facts Packet_facts Packet_roundtrip Packet_decode Packet_total Buffer_facts
  Client_facts Client_steps Client_send Client_calls Client_dispatch Prop_packet Prop_client Server_facts Prop_server
  System_facts System_client System_reply Prop_length.
Import ListNotations.
Open Scope Z_scope.
Notation length := List.length.

(** ** C54 *)

Lemma asks_confirmed now c ws o r pks : asks now c ws o r pks -> Forall (fun p => confirmed p = due p) pks.
Proof.
  destruct 1 as [o O|o code a cmds R|u a code|o e C|r|o r pks O F].
  - repeat constructor.
  - constructor; [|constructor]. cbn [confirmed due]. apply requests_quiet in R. now destruct R as [_ ->].
  - repeat constructor.
  - constructor.
  - constructor.
  - induction F as [|p w pks ws [[code [n [_ ->]]] _] F IH]; [constructor|]. constructor; [|exact IH]. cbn [confirmed due].
    destruct (now n); reflexivity.
Qed.
Lemma asked_confirmed now st ops pks : asked now st ops pks -> flat_map confirmed pks = flat_map due pks.
Proof.
  induction 1 as [|st o ops st' ev r pks pks' S A R IH]; [reflexivity|]. rewrite !flat_map_app, IH. f_equal.
  apply asks_confirmed in A. induction A as [|p pks H A IH2]; [reflexivity|]. cbn [flat_map]. now rewrite H, IH2.
Qed.

Definition normal : modes := mkModes false true true false true.
Lemma asks_latest now c ws o r pks ps : asks now c ws o r pks -> (latest ps = normal \/ o = OpConnect) ->
  latest (rev pks ++ ps) = normal.
Proof.
  intros A [L|L].
  - destruct A as [o O|o code a cmds R|u a code|o e C|r|o r pks O F]; try exact L; [reflexivity|].
    revert ps L. induction F as [|p w pks ws [[code [n [_ ->]]] _] F IH]; intros ps L; [exact L|].
    cbn [rev]. rewrite <- app_assoc. now apply IH.
  - subst. inversion A as [o O|o code a cmds R|u a code|o e C|r0|o r0 pks0 O F]; subst.
    + reflexivity.
    + inversion R.
    + destruct C.
    + destruct O as [O|[b O]]; discriminate.
Qed.
Lemma asked_latest now st ops pks : asked now st ops pks -> forall ps, latest ps = normal ->
  latest (rev pks ++ ps) = normal.
Proof.
  induction 1 as [|st o ops st' ev r pks pks' S A R IH]; intros ps L; [exact L|].
  rewrite rev_app_distr, <- app_assoc. apply IH. eapply asks_latest; eauto.
Qed.

Lemma plays_callbacks rnd ps q d msgs acts ps' q' d' : plays rnd ps q d msgs acts ps' q' d' ->
  flat_map action_callbacks acts = flat_map scallbacks_of (flat_map action_packet acts).
Proof.
  induction 1; [reflexivity| |]; cbn [flat_map action_packet action_callbacks app]; [now rewrite IHplays|exact IHplays].
Qed.
Lemma explained_calls tr log : explains tr log -> called tr = flat_map action_callbacks (actions log).
Proof.
  intros X. unfold called, actions. induction X as [|x y tr log [_ [H _]] X IH]; [reflexivity|]. cbn [flat_map].
  rewrite flat_map_app, H, IH. reflexivity.
Qed.
Lemma explained_results (P : res unit -> Prop) tr log : explains tr log ->
  Forall (fun x => P (snd x)) tr <-> Forall (fun x => P (snd x)) log.
Proof.
  induction 1 as [|x y tr log [_ [_ H]] X IH]; [split; constructor|].
  split; intros F; inversion F; subst; constructor; try tauto; congruence.
Qed.
Lemma data_map chunks : data_only (map SOpData chunks).
Proof. apply Forall_forall. intros o I. apply in_map_iff in I. destruct I as [b [<- _]]. eauto. Qed.

(** What a client writes from the moment its connection is made, in whatever
    pieces it is delivered: the emulator reads exactly the requested packets,
    in order. *)
Theorem C54_recovered : forall now rnd class frequency handle_clock future ops cst ctr chunks sst str,
  clock_works now -> randint_works rnd -> Forall proper ops ->
  client_run now (new_client class frequency handle_clock future, []) (OpConnect :: ops) = (cst, ctr) ->
  delivered chunks (writes (effects ctr)) ->
  server_run rnd (new_server, []) (SOpConnect :: map SOpData chunks) = (sst, str) ->
  (Forall (fun x => snd x <> Raise ValueError) str \/ exists size, moderate size chunks (writes (effects ctr))) ->
  exists pks,
    asked now (new_client class frequency handle_clock future, []) (OpConnect :: ops) pks
    /\ Forall (fun x => snd x = Ok tt) str
    /\ called str = flat_map scallbacks_of pks
    /\ filter is_confirmation (written str) = map confirmation (flat_map due pks)
    /\ snd sst = [] /\ modes_of (fst sst) = normal
    /\ exists tr' log s', str = ([SWrite [43; 43; 13; 10]], Ok tt) :: tr'
         /\ proceeds rnd fresh (map SOpData chunks) log s' /\ explains tr' log
         /\ flat_map action_packet (actions log) = pks.
Proof.
  intros now rnd class frequency handle_clock future ops cst ctr chunks sst str N R P Ec D Es U.
  destruct (run_spoken now (OpConnect :: ops) N (new_client class frequency handle_clock future, []) cst ctr [])
    as [pks [A [[msgs [M1 [M2 [M3 _]]]] _]]].
  - cbn. unfold counter_ok. cbn. lia.
  - constructor; [split; exact Logic.I|exact P].
  - intros H. discriminate H.
  - exact Ec.
  - destruct (session_of rnd _ _ _ R Es) as [tr' [log [s' [H1 [H2 [H3 [H4 [H5 [H6 _]]]]]]]]].
    destruct (proceeds_script rnd chunks fresh log s' H2 msgs pks M2) as [Q1 [Q2 [Q3 [Q4 Q5]]]].
    + cbn [fresh pending app]. unfold delivered in D. congruence.
    + now left.
    + destruct U as [U|[size [U1 [U2 U3]]]].
      * left. rewrite H1 in U. inversion U; subst. now apply (explained_results (fun r => r <> Raise ValueError) _ _ H3).
      * right. exists size. split; [exact U1|]. split; [|exact U3].
        rewrite Forall_forall in U2 |- *. intros m I. rewrite Forall_forall in M3. destruct (M3 m I) as [w [I2 L]].
        specialize (U2 w I2). cbn beta in U2. lia.
    + exists pks. split; [exact A|]. split.
      { rewrite H1. constructor; [reflexivity|]. now apply (explained_results (fun r => r = Ok tt) _ _ H3). }
      split.
      { rewrite H1. unfold called. cbn [flat_map]. fold (called tr'). rewrite (explained_calls _ _ H3).
        rewrite (plays_callbacks _ _ _ _ _ _ _ _ _ Q5), Q2. reflexivity. }
      split.
      { rewrite <- (asked_confirmed _ _ _ _ A), <- Q2. rewrite H1. unfold written. cbn [flat_map].
        fold (written tr'). rewrite (explained_writes _ _ H3).
        change (swrites (fst ([SWrite [43; 43; 13; 10]], Ok tt))) with [[43; 43; 13; 10]].
        cbn [app filter is_confirmation]. apply (proceeds_confirm rnd fresh _ log s' H2 (data_map _)). constructor. }
      split; [congruence|]. split.
      { rewrite H5, Q4. cbn [fresh past]. inversion A as [|st o ops0 st' ev r p1 p2 S As Rest]; subst.
        rewrite rev_app_distr, <- app_assoc. eapply asked_latest; [exact Rest|].
        eapply asks_latest; [exact As|now right]. }
      exists tr', log, s'. auto.
Qed.
Print Assumptions C54_recovered.

(** Pieces of at most 210 bytes are never dropped (C60: 47 + 210 = 257). *)
Theorem C54_pieces : forall now rnd class frequency handle_clock future ops cst ctr chunks sst str,
  clock_works now -> randint_works rnd -> Forall proper ops ->
  client_run now (new_client class frequency handle_clock future, []) (OpConnect :: ops) = (cst, ctr) ->
  delivered chunks (writes (effects ctr)) -> Forall (fun d => (length d <= 210)%nat) chunks ->
  server_run rnd (new_server, []) (SOpConnect :: map SOpData chunks) = (sst, str) ->
  exists pks,
    asked now (new_client class frequency handle_clock future, []) (OpConnect :: ops) pks
    /\ Forall (fun x => snd x = Ok tt) str
    /\ called str = flat_map scallbacks_of pks
    /\ filter is_confirmation (written str) = map confirmation (flat_map due pks)
    /\ snd sst = [] /\ modes_of (fst sst) = normal.
Proof.
  intros now rnd class frequency handle_clock future ops cst ctr chunks sst str N R P Ec D L Es.
  destruct (C54_recovered now rnd class frequency handle_clock future ops cst ctr chunks sst str N R P Ec D Es)
    as [pks [H1 [H2 [H3 [H4 [H5 [H6 _]]]]]]].
  - right. exists 47%nat. split; [lia|]. split; [exact (C60_brief _ _ _ _ _ Ec)|].
    eapply Forall_impl; [|exact L]. cbn beta. intros d Q. lia.
  - exists pks. auto 10.
Qed.
Print Assumptions C54_pieces.

(** Identification requests are recovered, too, but not confirmed. *)
Theorem C54_identify_confirmed_refuted : ~ forall now rnd class frequency handle_clock future ops cst ctr chunks sst str,
  clock_works now -> randint_works rnd -> Forall proper ops ->
  client_run now (new_client class frequency handle_clock future, []) (OpConnect :: ops) = (cst, ctr) ->
  delivered chunks (writes (effects ctr)) -> Forall (fun d => (length d <= 210)%nat) chunks ->
  server_run rnd (new_server, []) (SOpConnect :: map SOpData chunks) = (sst, str) ->
  forall ev code, In (ev, Ok (Some code)) ctr -> In (confirmation code) (written str).
Proof.
  intros H.
  destruct (client_run noon (new_client ClassPCI 0 true Pending, []) [OpConnect; OpIdentify 7 1]) as [cst ctr] eqn:E.
  destruct (server_run die (new_server, []) (SOpConnect :: map SOpData (writes (effects ctr)))) as [sst str] eqn:S.
  assert (N : clock_works noon) by exact noon_works.
  assert (Q : Forall proper [OpIdentify 7 1]) by (repeat constructor; lia).
  assert (L : Forall (fun d => (length d <= 210)%nat) (writes (effects ctr))).
  { eapply Forall_impl; [|exact (C60_brief _ _ _ _ _ E)]. cbn beta. intros d X. lia. }
  assert (K := H noon die ClassPCI 0 true Pending [OpIdentify 7 1] cst ctr _ sst str N die_works Q E eq_refl L S). clear H N Q L.
  vm_compute in E. inversion E; subst. clear E. vm_compute in S. inversion S; subst. clear S.
  specialize (K [CWrite (txt "\0607002101D1k" ++ [13])] 107). vm_compute in K.
  destruct K as [K|K]; [tauto|discriminate K|].
  repeat destruct K as [K|K]; try discriminate K. destruct K.
Qed.
Print Assumptions C54_identify_confirmed_refuted.

(** ** C48 *)

(** The writes of the handshake, and what the emulator makes of them. *)
Definition hello : list bytes :=
  [[126; 13]; [126; 13]; [126; 13]; txt "A3210038h" ++ [13]; txt "A342000Ei" ++ [13]; txt "A3300059j" ++ [13]].
Lemma hello_written now class frequency handle_clock future cst ctr :
  client_run now (new_client class frequency handle_clock future, []) [OpConnect] = (cst, ctr) ->
  writes (effects ctr) = hello.
Proof.
  intros E. cbn [client_run client_step api] in E. unfold mseq at 1, mbind at 1 in E.
  rewrite connect_outcome in E by (unfold counter_ok; cbn; lia). cbn zeta in E.
  destruct (cl_frequency _ =? 0) in E; vm_compute in E; inversion E; reflexivity.
Qed.
Definition hello_messages : list bytes :=
  [[126]; [13]; [126]; [13]; [126]; [13]; txt "A3210038h" ++ [13]; txt "A342000Ei" ++ [13]; txt "A3300059j" ++ [13]].
Lemma hello_script : script [] hello_messages (handshake 104 105 106).
Proof.
  assert (CR : forall rest, decode_packet ([13] ++ rest) false true false = ([], Ok (None, 1%nat))).
  { intros rest. change ([13] ++ rest) with ([] ++ 13 :: rest). rewrite to_pci_line.
    - reflexivity.
    - intros [].
    - intros [].
    - repeat split; try discriminate; intros []. }
  assert (DM : forall code param v digits, is_code code -> encode_packet (dm_command param v) = Ok digits ->
     0 <= param < 256 -> 0 <= v < 256 -> forall rest, decode_packet ((digits ++ [code; 13]) ++ rest) false true false
     = ([], Ok (Some (PktDM (mkHdr false CLASS_2 None (Some code)) param v), length (digits ++ [code; 13])))).
  { intros code param v digits C E P V rest.
    destruct (C17_dm_to_pci [] false true CLASS_2 param v (Some code) rest) as [w [E2 D]].
    - left. reflexivity.
    - cbv. split; discriminate.
    - exact C.
    - cbn [prefix_checksum] in E2, D.
      assert (E3 : encode_packet (dm_command param v) = encode_packet (PktDM (mkHdr false CLASS_2 None (Some code)) param v)) by reflexivity.
      assert (w = digits) by congruence. subst w. rewrite !Z.mod_small in D by assumption.
      rewrite <- app_assoc. cbn [app opt_code] in D |- *. exact D. }
  unfold hello_messages, handshake.
  do 3 (apply sc_packet; [discriminate|reflexivity|discriminate|reflexivity|]; apply sc_nothing; [discriminate|exact CR|]).
  apply sc_packet; [discriminate|exact (DM 104 0x21 0x38 (txt "A3210038") ltac:(unfold is_code; lia) eq_refl ltac:(lia) ltac:(lia))
                   |discriminate|reflexivity|].
  apply sc_packet; [discriminate|exact (DM 105 0x42 0x0E (txt "A342000E") ltac:(unfold is_code; lia) eq_refl ltac:(lia) ltac:(lia))
                   |discriminate|reflexivity|].
  apply sc_packet; [discriminate|exact (DM 106 0x30 0x59 (txt "A3300059") ltac:(unfold is_code; lia) eq_refl ltac:(lia) ltac:(lia))
                   |discriminate|reflexivity|].
  constructor.
Qed.

Lemma plays_one rnd ps q d m msgs acts ps' q' d' op : plays rnd ps q d (m :: msgs) acts ps' q' d' ->
  decode_packet m (m_checksum (latest ps)) true false = ([], Ok (op, length m)) ->
  match op with
  | None => exists acts2, acts = Got m None (echo_of (latest ps) m) [] :: acts2 /\ plays rnd ps q d msgs acts2 ps' q' d'
  | Some p => exists out q1 d1 acts2, acts = Got m (Some p) (echo_of (latest ps) m) out :: acts2
      /\ replies rnd (m_checksum (latest ps)) p q d out q1 d1 /\ plays rnd (p :: ps) q1 d1 msgs acts2 ps' q' d'
  end.
Proof.
  intros P E. inversion P as [|? ? ? ? p out q1 d1 ? acts2 ? ? ? D _ R Pl|? ? ? ? ? acts2 ? ? ? D Pl]; subst;
    specialize (D []); rewrite app_nil_r, E in D; inversion D; subst.
  - exists out, q1, d1, acts2. auto.
  - exists acts2. auto.
Qed.
Lemma replies_dm rnd ck h prm v d out q1 d1 code : replies rnd ck (PktDM h prm v) [] d out q1 d1 ->
  known_parameter prm = true -> h_confirm h = Some code -> out = [confirmation code] /\ q1 = [] /\ d1 = d.
Proof.
  intros R K C. inversion R as [o1 q d' c M F|o1 q d' M F]; subst; inversion M; subst; cbn [confirmed] in F;
    rewrite K, C in F; inversion F; subst; auto.
Qed.
Lemma replies_reset rnd ck d out q1 d1 : replies rnd ck PktReset [] d out q1 d1 -> out = [] /\ q1 = [] /\ d1 = d.
Proof. intros R. inversion R as [o1 q d' c M F|o1 q d' M F]; subst; inversion M; subst; [discriminate|auto]. Qed.

(** What the emulator writes in answer to the handshake, echo included. *)
Definition hello_answer : list bytes :=
  [[126]; [13]; [126]; [13]; [126]; [13];
   txt "A3210038h" ++ [13]; txt "h."; txt "A342000Ei" ++ [13]; txt "i."; txt "A3300059j" ++ [13]; txt "j."].
Lemma hello_answered rnd acts ps' q' d' : plays rnd [] [] 0 hello_messages acts ps' q' d' ->
  flat_map action_writes acts = hello_answer /\ q' = [] /\ d' = 0%nat.
Proof.
  intros P. unfold hello_messages in P.
  do 3 (apply (plays_one _ _ _ _ _ _ _ _ _ _ (Some PktReset)) in P; [|reflexivity];
        destruct P as [out [q1 [d1 [acts2 [-> [R P]]]]]]; apply replies_reset in R; destruct R as [-> [-> ->]];
        apply (plays_one _ _ _ _ _ _ _ _ _ _ None) in P; [|reflexivity]; destruct P as [acts3 [-> P]]; rename acts3 into acts).
  apply (plays_one _ _ _ _ _ _ _ _ _ _ (Some (PktDM (mkHdr false CLASS_2 None (Some 104)) 0x21 0x38))) in P; [|reflexivity].
  destruct P as [out [q1 [d1 [a1 [-> [R P]]]]]]. eapply replies_dm in R; [|reflexivity|reflexivity]. destruct R as [-> [-> ->]].
  apply (plays_one _ _ _ _ _ _ _ _ _ _ (Some (PktDM (mkHdr false CLASS_2 None (Some 105)) 0x42 0x0E))) in P; [|reflexivity].
  destruct P as [out [q1 [d1 [a2 [-> [R P]]]]]]. eapply replies_dm in R; [|reflexivity|reflexivity]. destruct R as [-> [-> ->]].
  apply (plays_one _ _ _ _ _ _ _ _ _ _ (Some (PktDM (mkHdr false CLASS_2 None (Some 106)) 0x30 0x59))) in P; [|reflexivity].
  destruct P as [out [q1 [d1 [a3 [-> [R P]]]]]]. eapply replies_dm in R; [|reflexivity|reflexivity]. destruct R as [-> [-> ->]].
  inversion P; subst. auto.
Qed.

Lemma concat_piece (l : list bytes) d : In d l -> (length d <= length (concat l))%nat.
Proof.
  induction l as [|x l IH]; intros I; [destruct I|]. cbn [concat]. rewrite app_length. destruct I as [->|I]; [lia|].
  apply IH in I. lia.
Qed.

(** In whatever pieces the handshake arrives. *)
Theorem C48_handshake : forall now rnd class frequency handle_clock future cst ctr chunks sst str,
  randint_works rnd ->
  client_run now (new_client class frequency handle_clock future, []) [OpConnect] = (cst, ctr) ->
  delivered chunks (writes (effects ctr)) ->
  server_run rnd (new_server, []) (SOpConnect :: map SOpData chunks) = (sst, str) ->
  Forall (fun x => snd x = Ok tt) str
  /\ modes_of (fst sst) = mkModes (*basic*) false (*connect*) true (*checksum*) true (*monitor*) false (*idmon*) true
  /\ snd sst = [] /\ sv_queue (fst sst) = []
  /\ filter is_confirmation (written str) = [txt "h."; txt "i."; txt "j."]
  /\ written str = (txt "++" ++ [13; 10]) :: hello_answer.
Proof.
  intros now rnd class frequency handle_clock future cst ctr chunks sst str R Ec D Es.
  apply hello_written in Ec. rewrite Ec in D. unfold delivered in D.
  destruct (session_of rnd _ _ _ R Es) as [tr' [log [s' [H1 [H2 [H3 [H4 [H5 [H6 [H7 _]]]]]]]]]].
  destruct (proceeds_script rnd chunks fresh log s' H2 hello_messages _ hello_script) as [Q1 [Q2 [Q3 [Q4 Q5]]]].
  - cbn [fresh pending app]. rewrite D. reflexivity.
  - now left.
  - right. exists 10%nat. split; [lia|]. split; [repeat constructor; cbn; lia|].
    apply Forall_forall. intros d I. apply concat_piece in I. rewrite D in I.
    change (length (concat hello)) with 36%nat in I. lia.
  - destruct (hello_answered _ _ _ _ _ Q5) as [A1 [A2 A3]].
    assert (W : written str = (txt "++" ++ [13; 10]) :: hello_answer).
    { rewrite H1. unfold written. cbn [flat_map]. fold (written tr'). rewrite (explained_writes _ _ H3), A1. reflexivity. }
    split; [rewrite H1; constructor; [reflexivity|]; now apply (explained_results (fun r => r = Ok tt) _ _ H3)|].
    split; [rewrite H5, Q4; reflexivity|]. split; [congruence|]. split; [congruence|].
    split; [rewrite W; reflexivity|exact W].
Qed.
Print Assumptions C48_handshake.

(** The bytes one at a time, and all at once. *)
Example C48_case :
  let ws := writes (effects (snd (client_run noon (new_client ClassHandler 10 true Pending, []) [OpConnect]))) in
  let one := server_run die (new_server, []) (SOpConnect :: map SOpData (map (fun b => [b]) (concat ws))) in
  let all := server_run die (new_server, []) [SOpConnect; SOpData (concat ws)] in
  delivered (map (fun b => [b]) (concat ws)) ws /\ delivered [concat ws] ws
  /\ written (snd one) = written (snd all) /\ length (written (snd all)) = 13%nat
  /\ modes_of (fst (fst one)) = normal.
Proof. vm_compute. repeat split. Qed.

(** Five calls, delivered in pieces of seven bytes. *)
Fixpoint pieces (fuel n : nat) (l : bytes) : list bytes :=
  match fuel, l with
  | S f, _ :: _ => firstn n l :: pieces f n (skipn n l)
  | _, _ => []
  end.
Example C54_case :
  let ops := [OpOn [1; 2]; OpRamp 3 4 (PInt 128); OpOff [300]; OpClock (Some (CDate 2024 2 29)); OpIdentify 5 4;
              OpData (txt "0508DF00110300" ++ [13; 10])] in
  let ctr := snd (client_run noon (new_client ClassPCI 0 true Pending, []) (OpConnect :: ops)) in
  let chunks := pieces 1000 7 (concat (writes (effects ctr))) in
  let str := snd (server_run die (new_server, []) (SOpConnect :: map SOpData chunks)) in
  Forall proper ops /\ delivered chunks (writes (effects ctr)) /\ Forall (fun d => (length d <= 210)%nat) chunks
  /\ called str = [SReset; SReset; SReset; SOn 1; SOn 2; SRamp 3 4 (PInt 128); SClockUpdate (CDate 2024 2 29);
                   SClockUpdate (CDate 2024 2 29); SClockUpdate (CTime 12 0 0 0)]
  /\ filter is_confirmation (written str)
     = [txt "h."; txt "i."; txt "j."; txt "k."; txt "l."; txt "m."; txt "o."].
Proof.
  split.
  - destruct (noon_works 0%nat) as [y [m [d [h [mi [s [us [E [V _]]]]]]]]]. inversion E; subst.
    repeat (apply Forall_cons; [split; [exact Logic.I || exact V|exact Logic.I || lia]|]). constructor.
  - vm_compute. repeat split; repeat constructor.
Qed.

(** ** C53 *)

Lemma conveys_stream ps pss : Forall2 conveys ps pss -> forall ws, Forall2 (fun p w => serialize_packet p = Ok w) ps ws ->
  exists msgs, concat msgs = concat ws /\ reading msgs (concat pss)
    /\ Forall (fun m => exists w, In w ws /\ (length m <= length w)%nat) msgs.
Proof.
  induction 1 as [|p l ps pss C F IH]; intros ws S; inversion S as [|p0 w ps0 ws0 E S2]; subst.
  - exists []. repeat split; constructor.
  - destruct (conveys_reading p l C) as [w' [m1 [E1 [M1 [R1 L1]]]]]. assert (X : w' = w) by congruence. rewrite X in *. clear X.
    destruct (IH ws0 S2) as [m2 [M2 [R2 L2]]]. exists (m1 ++ m2). cbn [concat].
    split; [now rewrite concat_app, M1, M2|]. split; [now apply reading_app|]. apply Forall_app. split.
    + eapply Forall_impl; [|exact L1]. cbn beta. intros m L. exists w. split; [now left|exact L].
    + eapply Forall_impl; [|exact L2]. cbn beta. intros m [x [I L]]. exists x. split; [now right|exact L].
Qed.
Lemma moderate_parts size chunks ws msgs : moderate size chunks ws ->
  Forall (fun m => exists w, In w ws /\ (length m <= length w)%nat) msgs -> moderate size chunks msgs.
Proof.
  intros [A [B C]] F. split; [exact A|]. split; [|exact C]. eapply Forall_impl; [|exact F]. cbn beta.
  intros m [w [I L]]. rewrite Forall_forall in B. specialize (B w I). cbn beta in B. lia.
Qed.

(** Every such message can be sent. *)
Theorem C53_sent : forall p l, conveys p l -> exists w, serialize_packet p = Ok w.
Proof. intros p l C. destruct (conveys_reading p l C) as [w [_ [E _]]]. now exists w. Qed.
Print Assumptions C53_sent.

(** A stream of messages of an emulator, in whatever pieces it arrives, is
    understood as exactly those messages. *)
Theorem C53_recovered : forall ps pss ws chunks st buf log,
  Forall2 conveys ps pss -> Forall2 (fun p w => serialize_packet p = Ok w) ps ws -> delivered chunks ws ->
  receive notes MAX_BUFFER_SIZE tt [] chunks = (st, buf, log) ->
  (Forall (fun x => snd x <> Raise ValueError) log \/ exists size, moderate size chunks ws) ->
  effects log = concat pss /\ buf = [] /\ Forall (fun x => snd x = Ok tt) log.
Proof.
  intros ps pss ws chunks st buf log C S D R U. destruct (conveys_stream ps pss C ws S) as [msgs [M [Rd L]]].
  destruct (stream_delivered notes chunks tt msgs tt (concat pss) [] st buf log) as [_ [H1 [H2 H3]]]; auto.
  - now apply reading_notes.
  - now left.
  - cbn [app]. unfold delivered in D. congruence.
  - destruct U as [U|[size U]]; [now left|right]. exists size. now apply (moderate_parts size chunks ws).
Qed.
Print Assumptions C53_recovered.

(** The client does for the stream what it does for the messages one by one. *)
Theorem C53_client : forall now ps pss ws chunks c c1 ev c' buf log,
  Forall2 conveys ps pss -> Forall2 (fun p w => serialize_packet p = Ok w) ps ws -> delivered chunks ws ->
  treats now c (concat pss) c1 ev ->
  receive (handle_data now) MAX_BUFFER_SIZE c [] chunks = (c', buf, log) ->
  (Forall (fun x => snd x <> Raise ValueError) log \/ exists size, moderate size chunks ws) ->
  c' = c1 /\ effects log = ev /\ buf = [] /\ Forall (fun x => snd x = Ok tt) log.
Proof.
  intros now ps pss ws chunks c c1 ev c' buf log C S D T R U. destruct (conveys_stream ps pss C ws S) as [msgs [M [Rd L]]].
  destruct (stream_delivered (handle_data now) chunks c msgs c1 ev [] c' buf log) as [H0 [H1 [H2 H3]]]; auto.
  - now apply reading_treats with (concat pss).
  - now left.
  - cbn [app]. unfold delivered in D. congruence.
  - destruct U as [U|[size U]]; [now left|right]. exists size. now apply (moderate_parts size chunks ws).
Qed.
Print Assumptions C53_client.

(** Such a reaction always exists while the client is connected. *)
Theorem C53_treats : forall now ps c, clock_works now -> cl_transport c = true -> counter_ok c ->
  exists c' ev, treats now c ps c' ev.
Proof.
  intros now ps. induction ps as [|p ps IH]; intros c N T I; [exists c, []; constructor|].
  assert (K : exists c1 ev, handle_cbus_packet now p c = (c1, ev, Ok tt) /\ cl_transport c1 = true /\ counter_ok c1).
  { destruct p; cbn [handle_cbus_packet]; try (exists c; eexists; split; [reflexivity|auto]).
    destruct (dispatch_list now (h_source h) sals N c I T) as [ev2 [E2 _]]. eexists. exists ev2. split; [exact E2|].
    destruct (after_fields c (answered c sals)) as [_ [F2 [_ [_ [_ [_ [F7 _]]]]]]]. split; [congruence|exact F7]. }
  destruct K as [c1 [ev [E [T1 I1]]]]. destruct (IH c1 N T1 I1) as [c2 [ev2 Q]].
  exists c2, (ev ++ ev2). now apply tr_packet with c1.
Qed.
Print Assumptions C53_treats.

(** Six messages in pieces of five bytes. *)
Example C53_case :
  let pm cmds := PktPM (mkHdr true 0 (Some 5) None) (Some 0x38) cmds in
  let ps := [PktPowerOn; PktConfirm [104] true; pm [LightOn 3; LightOff 4]; PktError; PktConfirm [105] false;
             PktDM (mkHdr true 2 (Some 7) None) 0x21 0x38] in
  let ws := [txt "++" ++ [13; 10]; txt "h."; txt "05053800790301043D" ++ [13; 10]; txt "!" ++ [13; 10]; txt "i#";
             txt "A307210038FD" ++ [13; 10]] in
  let pss := [[PktPowerOn; PktPowerOn]] ++ map (fun p => [p]) (tl ps) in
  let r := receive notes MAX_BUFFER_SIZE tt [] (pieces 1000 5 (concat ws)) in
  Forall2 conveys ps pss /\ Forall2 (fun p w => serialize_packet p = Ok w) ps ws /\ delivered (pieces 1000 5 (concat ws)) ws
  /\ effects (snd r) = concat pss /\ snd (fst r) = [].
Proof.
  split; [|split].
  - repeat apply Forall2_cons; [apply cv_power|apply cv_confirm; unfold is_code; lia| |apply cv_error
      |apply cv_confirm; unfold is_code; lia|apply (cv_dm 2 7 0x21 0x38); lia|constructor].
    apply cv_pm; [lia|lia|now left|]. repeat constructor; cbn; lia.
  - repeat (apply Forall2_cons; [vm_compute; reflexivity|]); constructor.
  - vm_compute. repeat split.
Qed.

(** ** C55 *)

(** While there is no CR LF behind an echo, the client waits. *)
Theorem C55_waits : forall now c b data, b <> 43 -> b <> 33 -> ~ is_code b ->
  (forall x y, b :: data <> x ++ [13; 10] ++ y) ->
  handle_data now c (b :: data) = (c, [], Ok 0).
Proof.
  intros now c b data B1 B2 B3 N. unfold handle_data. rewrite from_pci_incomplete; [reflexivity|].
  intros [[r H]|[[r H]|[[k [r [x [K H]]]]|[l [r H]]]]].
  - inversion H. congruence.
  - inversion H. congruence.
  - inversion H. subst. tauto.
  - exact (N l r H).
Qed.
Print Assumptions C55_waits.

(** Everything up to the first CR LF is taken as one line; with a CR in it, it
    is not understood and the client does nothing. *)
Theorem C55_swallows : forall now c b line rest, b <> 43 -> b <> 33 -> ~ is_code b ->
  In 13 (b :: line) ->
  (forall x y, (b :: line) ++ [13; 10] ++ rest = x ++ [13; 10] ++ y -> (length (b :: line) <= length x)%nat) ->
  handle_data now c ((b :: line) ++ [13; 10] ++ rest) = (c, [], Ok (Z.of_nat (length (b :: line) + 2))).
Proof.
  intros now c b line rest B1 B2 B3 I F. unfold handle_data. cbn [app] in F |- *.
  change (b :: line ++ 13 :: 10 :: rest) with ((b :: line) ++ 13 :: 10 :: rest).
  rewrite from_pci_line; [|exact F|cbn; auto].
  unfold decode_line, decode_hex.
  replace (forallb (fun c => mem c HEX_CHARS) (b :: line)) with false; [reflexivity|].
  symmetry. apply not_true_iff_false. intros H. rewrite forallb_forall in H. specialize (H 13 I). discriminate H.
Qed.
Print Assumptions C55_swallows.

(** What comes from an emulator after a client has said hello, followed by
    anything: as long as there is no CR LF in it, the client sees nothing at
    all; otherwise it reacts as if only what follows the first CR LF had been
    sent. *)
Theorem C55_hello : forall now c more chunks c' buf log,
  concat chunks = txt "++" ++ [13; 10] ++ concat hello_answer ++ more ->
  receive (handle_data now) MAX_BUFFER_SIZE c [] chunks = (c', buf, log) -> no_raise log ->
  ((forall x y, concat hello_answer ++ more <> x ++ [13; 10] ++ y) ->
     effects log = [] /\ c' = c /\ buf = concat hello_answer ++ more)
  /\ (forall line rest, concat hello_answer ++ more = line ++ [13; 10] ++ rest ->
     (forall x y, concat hello_answer ++ more = x ++ [13; 10] ++ y -> (length line <= length x)%nat) ->
     process_buffer (handle_data now) c rest = (c', buf, effects log, Ok tt)).
Proof.
  intros now c more chunks c' buf log E R N.
  apply (receive_stream _ (handle_data_stable now)) in R; [|exact N|intros ->; discriminate E].
  cbn [app] in R. rewrite E in R. apply process_buffer_spec in R. destruct R as [calls R].
  assert (H1 : forall rest, handle_data now c (43 :: rest) = (c, [], Ok 1)) by reflexivity.
  assert (H2 : forall rest, handle_data now c (13 :: 10 :: rest) = (c, [], Ok 2)).
  { intros rest. unfold handle_data. assert (X := crlf_nothing rest). cbn [app] in X. now rewrite X. }
  assert (Step : forall x rest k calls, processes (handle_data now) c x calls c' buf (effects log) (Ok tt) -> x <> [] ->
     handle_data now c x = (c, [], Ok k) -> 0 < k -> skipn (Z.to_nat k) x = rest ->
     exists calls2, processes (handle_data now) c rest calls2 c' buf (effects log) (Ok tt)).
  { intros x rest k cs P Nx Hx K S. inversion P; subst; try congruence.
    - rewrite Hx in *. match goal with H : (_, _, _) = (_, _, _) |- _ => inversion H; subst end. lia.
    - rewrite Hx in *. match goal with H : (_, _, _) = (_, _, _) |- _ => inversion H; subst end. lia.
    - match goal with H : handle_data now c x = _ |- _ => rewrite Hx in H; inversion H; subst end. eexists. cbn [app]. eassumption. }
  apply (Step _ (43 :: 13 :: 10 :: concat hello_answer ++ more) 1) in R; [|discriminate|apply H1|lia|reflexivity].
  destruct R as [k2 R].
  apply (Step _ (13 :: 10 :: concat hello_answer ++ more) 1) in R; [|discriminate|apply H1|lia|reflexivity].
  destruct R as [k3 R].
  apply (Step _ (concat hello_answer ++ more) 2) in R; [|discriminate|apply H2|lia|reflexivity].
  destruct R as [k4 R]. set (tail := tl (concat hello_answer)).
  assert (Hd : concat hello_answer = 126 :: tail) by reflexivity.
  assert (NC : ~ is_code 126) by (unfold is_code; lia).
  split.
  - intros F. rewrite Hd in *. cbn [app] in *. apply (C55_waits now c) in F; [|lia|lia|exact NC].
    inversion R; subst; try (rewrite F in *; match goal with H : (_, _, _) = (_, _, _) |- _ => inversion H; subst end; try lia).
    auto.
  - intros line rest L F. destruct line as [|b line].
    { exfalso. rewrite Hd in L. discriminate L. }
    assert (b = 126) by (rewrite Hd in L; cbn [app] in L; now inversion L). subst b.
    assert (I13 : In 13 (126 :: line)).
    { destruct line as [|b line]; [discriminate L|]. inversion L. right. now left. }
    rewrite L in R. rewrite L in F.
    apply (Step _ rest (Z.of_nat (length (126 :: line) + 2))) in R.
    + destruct R as [k5 R]. now apply processes_buffer in R.
    + discriminate.
    + apply C55_swallows; auto; lia.
    + lia.
    + rewrite Nat2Z.id, app_assoc. replace (length (126%Z :: line) + 2)%nat with (length ((126%Z :: line) ++ [13; 10]%Z)).
      * now rewrite skipn_app, skipn_all, Nat.sub_diag.
      * rewrite app_length. reflexivity.
Qed.
Print Assumptions C55_hello.

(** In particular, however many confirmations follow, not one of them is ever
    reported before the next line; the three for the handshake never are. *)
Theorem C55_confirmations : forall now c codes chunks c' buf log, Forall is_code codes ->
  concat chunks = txt "++" ++ [13; 10] ++ concat hello_answer ++ flat_map confirmation codes ->
  receive (handle_data now) MAX_BUFFER_SIZE c [] chunks = (c', buf, log) -> no_raise log ->
  effects log = [] /\ buf = concat hello_answer ++ flat_map confirmation codes.
Proof.
  intros now c codes chunks c' buf log K E R N.
  destruct (C55_hello now c _ chunks c' buf log E R N) as [H _].
  destruct H as [H1 [_ H2]]; [|auto]. intros x y X.
  assert (L : In 10 (concat hello_answer ++ flat_map confirmation codes)).
  { rewrite X. apply in_or_app. right. right. now left. }
  apply in_app_or in L. destruct L as [L|L].
  - vm_compute in L. repeat destruct L as [L|L]; try discriminate L. exact L.
  - apply in_flat_map in L. destruct L as [k [I L]]. rewrite Forall_forall in K. specialize (K k I).
    unfold is_code in K. destruct L as [L|[L|[]]]; lia.
Qed.
Print Assumptions C55_confirmations.

(** The naive expectation: a client connected to the emulator is told that its
    handshake was confirmed. *)
Theorem C55_reported_refuted : ~ forall now c chunks c' buf log,
  concat chunks = concat ((txt "++" ++ [13; 10]) :: hello_answer) ->
  receive (handle_data now) MAX_BUFFER_SIZE c [] chunks = (c', buf, log) -> no_raise log ->
  In (CConfirmation [104] true) (effects log).
Proof.
  intros H.
  destruct (receive (handle_data noon) MAX_BUFFER_SIZE (new_client ClassPCI 0 true Pending) []
    [concat ((txt "++" ++ [13; 10]) :: hello_answer)]) as [[c' buf] log] eqn:E.
  assert (K := H noon _ [concat ((txt "++" ++ [13; 10]) :: hello_answer)] c' buf log (app_nil_r _) E). vm_compute in E. inversion E; subst.
  destruct K. repeat constructor. now exists tt.
Qed.
Print Assumptions C55_reported_refuted.

(** The emulator's answers to the handshake, a confirmation, an event, and
    another event: only the last one is seen. *)
Example C55_case :
  let r := receive (handle_data noon) MAX_BUFFER_SIZE (new_client ClassPCI 0 true Pending) []
    [txt "++" ++ [13; 10] ++ concat hello_answer ++ txt "k."; txt "05053800790342" ++ [13; 10];
     txt "05053800790441" ++ [13; 10]] in
  effects (snd r) = [COn (Some 5) 4] /\ snd (fst r) = [].
Proof. vm_compute. repeat split. Qed.
