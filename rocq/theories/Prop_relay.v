(** C104: what a client does about a stream of bytes. *)
From Coq Require Import String List ZArith QArith Bool Lia.
From Verif Require Import Py Common Sal Cal Packet Text Mqtt Buffered Client Server Base Spec Spec_wire Spec_reading
  Spec_client Spec_server Spec_system Spec_noise Spec_mqtt Spec_listen Spec_relay Common_facts Sal_facts Packet_facts
  Packet_roundtrip Packet_decode Packet_total Buffer_facts Client_facts Client_steps Client_send Client_calls
  Client_dispatch Packet_sound Server_facts System_facts System_reply Reading_facts Prop_reading Prop_client
  Prop_control Prop_system Prop_noise Mqtt_facts Prop_mqtt Prop_listen.
Import ListNotations.
Open Scope Z_scope.
Notation length := List.length.

Lemma brings_told m src commands : brings m src commands -> exists l, told m l.
Proof. destruct 1 as [w h a commands ws H|m l T N]; [|eauto]. eexists. eapply told_commands. exact H. Qed.
Lemma msgs_told ms : Forall right ms -> exists ls, Forall2 told (map msg_bytes ms) ls.
Proof.
  induction 1 as [|m ms M _ [ls IH]]; [exists []; constructor|]. destruct (brings_told _ _ _ M) as [l L].
  exists (l :: ls). now constructor.
Qed.
Lemma writes_warns ws : writes (map CWarn ws) = [].
Proof. induction ws; auto. Qed.
Lemma published_warns ws : published (map CWarn ws) = [].
Proof. induction ws; auto. Qed.

Lemma no_answer now c : answers now c 0 [].
Proof. split; [reflexivity|]. intros i w E. now destruct i. Qed.
Lemma answered_nil c : answered c [] = 0%nat.
Proof. unfold answered. destruct (cl_class c); [destruct (cl_handle_clock c)|]; reflexivity. Qed.
Lemma answered_app c a b : answered c (a ++ b) = (answered c a + answered c b)%nat.
Proof. unfold answered, clock_requests. rewrite filter_app, app_length. destruct (cl_class c); [destruct (cl_handle_clock c)|]; reflexivity. Qed.

Lemma relay_step now c m src commands rest : working now c -> brings m src commands -> exists ev l,
  handle_data now c (m ++ rest) = (after c (answered c commands), ev, Ok (Z.of_nat (length m)))
  /\ answers now c (answered c commands) (writes ev)
  /\ event_reports src commands l /\ published ev = (if attached c then l else []).
Proof.
  intros [Wn [Wt Wc]] B. destruct B as [w h a commands ws H|m l T N].
  - assert (D := H). apply C100_from_pci in D; [|exact Logic.I].
    assert (Cm : pci_complete (w ++ [13; 10])) by (do 3 right; exists w, []; reflexivity).
    rewrite <- (from_pci_stable _ rest true true Cm) in D.
    assert (S := decode_sound _ _ _ _ _ _ _ D). destruct S as [_ [_ S]].
    destruct (dispatch_list now (h_source h) commands Wn c Wc Wt) as [ev [E [_ [A P]]]].
    unfold handle_data. rewrite D. cbn [handle_cbus_packet]. rewrite E, app_length. cbn [length].
    exists (map CWarn ws ++ ev), (flat_map (relayed (h_source h)) commands). split; [reflexivity|].
    rewrite writes_app, writes_warns, published_app, published_warns. split; [exact A|].
    split; [now apply relayed_reports|exact P].
  - rewrite answered_nil, (after_0 c Wc).
    apply told_decode in T. destruct T as [Nm T]. destruct (T rest) as [ws [r [D _]]].
    assert (Np : match r with Some (PktPM _ _ _) => False | _ => True end).
    { destruct r as [[]|]; auto. destruct (T []) as [ws' [r' [D' _]]]. rewrite app_nil_r in D'.
      assert (Cm : pci_complete m).
      { destruct (from_pci_cases m true true) as [[E _]|[C _]]; [|exact C]. rewrite E in D'. injection D' as _ _ D'.
        destruct m; [congruence|discriminate]. }
      rewrite (from_pci_stable _ rest true true Cm) in D.
      apply C100_from_pci in D; [|exact Logic.I]. eapply N; eauto. }
    unfold handle_data. rewrite D.
    exists (map CWarn ws ++ match r with Some p => snd (fst (handle_cbus_packet now p c)) | None => [] end), [].
    destruct r as [p|].
    + rewrite writes_app, published_app, writes_warns, published_warns. destruct p; try contradiction; cbn;
        (split; [reflexivity|]; split; [apply no_answer|]; split; [constructor|now destruct (attached c)]).
    + rewrite app_nil_r, writes_warns, published_warns. split; [reflexivity|]. split; [apply no_answer|].
      split; [constructor|now destruct (attached c)].
Qed.

Lemma relay_all now rest : untold rest -> forall ms, Forall right ms -> forall c, working now c ->
  exists calls ev ls, let n := answered c (flat_map msg_commands ms) in
    processes (handle_data now) c (concat (map msg_bytes ms) ++ rest) calls (after c n) rest ev (Ok tt)
    /\ answers now c n (writes ev)
    /\ Forall2 (fun m l => event_reports (msg_from m) (msg_commands m) l) ms ls
    /\ published ev = (if attached c then concat ls else []).
Proof.
  intros U ms F. induction F as [|m ms M F IH]; intros c W; cbn [flat_map map concat].
  - rewrite answered_nil, (after_0 c) by apply W. cbn [app].
    assert (P : exists calls, processes (handle_data now) c rest calls c rest [] (Ok tt)).
    { destruct rest as [|x r]; eexists; [constructor|]. apply pr_wait; [discriminate|now apply untold_waits]. }
    destruct P as [calls P]. exists calls, [], []. split; [exact P|]. split; [apply no_answer|]. split; [constructor|now destruct (attached c)].
  - destruct (relay_step now c _ _ _ (concat (map msg_bytes ms) ++ rest) W M) as [e1 [l [H1 [H2 [H3 H4]]]]].
    destruct (after_fields c (answered c (msg_commands m))) as [F1 [F2 [F3 [F4 [_ [_ [F5 F6]]]]]]].
    destruct (IH (after c (answered c (msg_commands m)))) as [calls [e2 [ls [P [A [Q R]]]]]].
    { destruct W as [W1 [W2 W3]]. split; [exact W1|]. split; [congruence|exact F5]. }
    cbv zeta in *. rewrite F6 in *. rewrite after_after, <- answered_app in P.
    destruct (brings_told _ _ _ M) as [lt T]. apply told_decode in T. destruct T as [Nm _].
    exists ((msg_bytes m ++ concat (map msg_bytes ms) ++ rest) :: calls), (e1 ++ e2), (l :: ls). rewrite <- app_assoc.
    split.
    { apply pr_next with (after c (answered c (msg_commands m))) (Z.of_nat (length (msg_bytes m))).
      - intros X. apply app_eq_nil in X. tauto.
      - exact H1.
      - destruct (msg_bytes m); [congruence|cbn [length]; lia].
      - rewrite Nat2Z.id, skipn_app, skipn_all, Nat.sub_diag. exact P. }
    rewrite writes_app, published_app, answered_app. split; [apply answers_app; assumption|].
    split; [now constructor|]. rewrite H4, R, F4. destruct (attached c); reflexivity.
Qed.

(** A stream of messages in whatever pieces: what is written is exactly one
    answer for each clock request that is to be answered, and what is published
    is, if the object is the daemon's handler and a broker is connected, the
    reports of the commands, message by message, otherwise nothing. *)
Theorem C104_acts : forall now c ms rest chunks c' buf log,
  working now c -> Forall right ms -> untold rest -> concat chunks = concat (map msg_bytes ms) ++ rest ->
  receive (handle_data now) MAX_BUFFER_SIZE c [] chunks = (c', buf, log) ->
  (Forall (fun x => snd x <> Raise ValueError) log \/ exists size, gentle size chunks (map msg_bytes ms) rest) ->
  Forall (fun x => snd x = Ok tt) log /\ buf = rest
  /\ answers now c (answered c (flat_map msg_commands ms)) (writes (effects log))
  /\ exists reports, Forall2 (fun m l => event_reports (msg_from m) (msg_commands m) l) ms reports
     /\ (cl_class c = ClassHandler -> cl_mqtt c = true -> published (effects log) = concat reports)
     /\ (cl_class c = ClassPCI \/ cl_mqtt c = false -> published (effects log) = []).
Proof.
  intros now c ms rest chunks c' buf log W F U E R V.
  destruct (msgs_told ms F) as [cbs Tl].
  destruct (C101_told now c _ _ rest chunks c' buf log W Tl U E R V) as [_ [Eb [Ok1 _]]].
  split; [exact Ok1|]. split; [exact Eb|].
  destruct (relay_all now rest U ms F c W) as [calls [ev [ls [P [A [Q Pb]]]]]]. cbv zeta in *.
  assert (X : effects log = ev).
  { destruct chunks as [|d chunks].
    - injection R as <- <- <-. symmetry in E. apply app_eq_nil in E. destruct E as [E1 E2].
      cbn [effects flat_map]. rewrite E1, E2 in P. cbn [app] in P. apply processes_buffer in P.
      assert (H0 : processes (handle_data now) c [] [] c [] [] (Ok tt)) by constructor.
      apply processes_buffer in H0. rewrite H0 in P. now injection P.
    - assert (N : no_raise log) by (eapply Forall_impl; [|exact Ok1]; cbn; intros x ->; eauto).
      apply (receive_stream _ (handle_data_stable now)) in R; [|exact N|discriminate]. cbn [app] in R.
      rewrite E in R. apply processes_buffer in P. rewrite P in R. now injection R. }
  rewrite X. split; [exact A|]. exists ls. split; [exact Q|]. rewrite Pb. unfold attached. split.
  - now intros -> ->.
  - intros [->| ->]; [reflexivity|]. destruct (cl_class c); reflexivity.
Qed.
Print Assumptions C104_acts.

(** Whatever arrives without an exception is such a stream. *)
Theorem C104_any : forall now c chunks c' buf log,
  working now c -> receive (handle_data now) MAX_BUFFER_SIZE c [] chunks = (c', buf, log) -> no_raise log ->
  exists ms, concat chunks = concat (map msg_bytes ms) ++ buf /\ Forall right ms /\ untold buf.
Proof.
  intros now c chunks c' buf log W R N.
  destruct (C101_heard now c chunks c' buf log W R N) as [items [ls [E [F [U _]]]]].
  enough (H : exists ms, map msg_bytes ms = items /\ Forall right ms) by (destruct H as [ms [<- H]]; eauto).
  clear - F. induction F as [|m l items ls T F [ms [<- IH]]]; [exists []; split; [reflexivity|constructor]|].
  assert (G : exists src commands, brings m src commands).
  { assert (O : forall w p ws, reply_line_says true true (w ++ [13; 10]) p (length w + 2) ws ->
       (forall h a k, p <> PktPM h a k) -> forall h a k n v, ~ reply_line_says true true (w ++ [13; 10]) (PktPM h a k) n v).
    { intros w p ws H Np h a k n v H'. assert (Dp := reply_line_data _ _ _ _ _ _ H). apply C100_from_pci in H; [|exact Dp].
      apply C100_from_pci in H'; [|exact Logic.I]. rewrite H in H'. injection H' as _ -> _. now apply (Np h a k). }
    assert (O2 : forall m r n ws, decode_packet m true true true = (ws, Ok (Some r, n)) -> ~ data_packet r ->
       forall h a k n v, ~ reply_line_says true true m (PktPM h a k) n v).
    { intros m' r n ws D Nd h a k n' v H'. apply C100_from_pci in H'; [|exact Logic.I]. rewrite D in H'.
      injection H' as _ -> _. now apply Nd. }
    destruct T as [| |c1 C|c1 x C X|w h a commands ws H|w h par v ws H|w h u hops cals ws H|w L O1 Nf H].
    - exists None, []. eapply brings_none; [constructor|]. eapply O2; [apply (proj1 (C57_from_pci [] true true))|exact (fun x => x)].
    - exists None, []. eapply brings_none; [constructor|]. eapply O2; [apply (proj1 (proj2 (C57_from_pci [] true true)))|exact (fun x => x)].
    - exists None, []. eapply brings_none; [now constructor|].
      eapply O2; [apply (proj1 (proj2 (proj2 (C57_from_pci [] true true)) c1 C))|exact (fun x => x)].
    - exists None, []. eapply brings_none; [now constructor|].
      eapply O2; [now apply (proj2 (proj2 (proj2 (C57_from_pci [] true true)) c1 C))|exact (fun x => x)].
    - exists (h_source h), commands. econstructor; eauto.
    - exists None, []. eapply brings_none; [eapply told_device; eauto|]. eapply O; [eauto|discriminate].
    - exists None, []. eapply brings_none; [eapply told_reports; eauto|]. eapply O; [eauto|discriminate].
    - exists None, []. eapply brings_none; [now apply told_nothing|]. intros. apply H. }
  destruct G as [src [commands B]]. exists (mkMsg m src commands :: ms). split; [reflexivity|]. now constructor.
Qed.
Print Assumptions C104_any.

(** ** There is one reading *)

Lemma brings_once m src commands src' commands' :
  brings m src commands -> brings m src' commands' -> src = src' /\ commands = commands'.
Proof.
  intros B B'. destruct B as [w h a commands ws H|m l T N].
  - remember (w ++ [13; 10]) as m eqn:E. destruct B' as [w' h' a' commands' ws' H'|m l T N].
    + apply app_inv_tail in E. subst w'. destruct (proj1 (C100_one_meaning _ _ _ _ _ _ _ _ _) H H') as [P _]. inversion P; subst. auto.
    + exfalso. exact (N _ _ _ _ _ H).
  - destruct B' as [w' h' a' commands' ws' H'|m l' T' N']; [|auto]. exfalso. exact (N _ _ _ _ _ H').
Qed.
Lemma right_once : forall ms ms', Forall right ms -> Forall right ms' -> map msg_bytes ms = map msg_bytes ms' -> ms = ms'.
Proof.
  intros ms ms' F. revert ms'. induction F as [|[b s k] ms R _ IH]; intros [|[b' s' k'] ms'] F' E; try discriminate; auto.
  inversion F' as [|? ? R' F'']; subst. cbn in E. injection E as -> E. f_equal; [|now apply IH].
  unfold right in R, R'. cbn in R, R'. destruct (brings_once _ _ _ _ _ R R') as [-> ->]. reflexivity.
Qed.
Lemma reports_once ga source on b t sensor l l' : reports ga source on b t sensor l -> reports ga source on b t sensor l' -> l = l'.
Proof.
  intros (x & y & X & Y & ->) (x' & y' & X' & Y' & ->).
  apply is_topic_function in X, X', Y, Y'. now subst.
Qed.
Lemma event_reports_once source commands : forall l l', event_reports source commands l -> event_reports source commands l' -> l = l'.
Proof.
  induction commands as [|s commands IH]; intros l l' A B; inversion A as [|? ? a ra EA RA]; inversion B as [|? ? b rb EB RB]; subst; [reflexivity|].
  rewrite (IH _ _ RA RB). f_equal. clear -EA EB.
  inversion EA as [ga ? R|ga ? R|ga d level ? R|? N1 N2]; subst; inversion EB as [ga' ? R'|ga' ? R'|ga' d' level' ? R'|? N1' N2']; subst;
    try reflexivity; try (eapply reports_once; eassumption);
    exfalso; match goal with
    | N : forall ga, LightOn ?g <> LightOn ga /\ LightOn ?g <> LightOff ga |- _ => destruct (N g); congruence
    | N : forall ga, LightOff ?g <> LightOn ga /\ LightOff ?g <> LightOff ga |- _ => destruct (N g); congruence
    | N : forall ga d level, LightRamp ?g ?e ?x <> LightRamp ga d level |- _ => exact (N g e x eq_refl)
    end.
Qed.
Lemma all_reports_once ms : forall r r',
  Forall2 (fun m l => event_reports (msg_from m) (msg_commands m) l) ms r ->
  Forall2 (fun m l => event_reports (msg_from m) (msg_commands m) l) ms r' -> r = r'.
Proof.
  intros r r' A. revert r'. induction A as [|m l ms ls L A IH]; intros r' B; inversion B as [|? l' ? ? L' B']; subst; [reflexivity|].
  f_equal; [exact (event_reports_once _ _ _ _ L L')|now apply IH].
Qed.
(** The messages of a stream, their senders and commands, what is left over, and
    the reports due are determined by the bytes. *)
Theorem C104_one_reading : forall ms rest ms' rest',
  Forall right ms -> untold rest -> Forall right ms' -> untold rest' ->
  concat (map msg_bytes ms) ++ rest = concat (map msg_bytes ms') ++ rest' ->
  ms = ms' /\ rest = rest'
  /\ forall reports reports',
       Forall2 (fun m l => event_reports (msg_from m) (msg_commands m) l) ms reports ->
       Forall2 (fun m l => event_reports (msg_from m) (msg_commands m) l) ms' reports' -> reports = reports'.
Proof.
  intros ms rest ms' rest' F U F' U' E.
  destruct (msgs_told ms F) as [ls T]. destruct (msgs_told ms' F') as [ls' T'].
  destruct (C101_one_way _ _ _ _ _ _ T U T' U' E) as [Em [_ Er]].
  assert (ms = ms') by (apply right_once; assumption). subst ms'. split; [reflexivity|]. split; [exact Er|].
  intros r r' A B. exact (all_reports_once _ _ _ A B).
Qed.
Print Assumptions C104_one_reading.

Lemma brings_quiet w : (exists p, decode_packet (w ++ [13; 10]) true true true = ([], Ok (Some p, (length w + 2)%nat)) /\ ~ data_packet p) ->
  line_start w -> one_line w -> ~ fatal w -> brings (w ++ [13; 10]) None [].
Proof.
  intros [p [D Np]] L O Nf.
  assert (Q : forall q n ws, ~ reply_line_says true true (w ++ [13; 10]) q n ws).
  { intros q n ws H. assert (Dp := reply_line_data _ _ _ _ _ _ H). apply C100_from_pci in H; [|exact Dp].
    rewrite D in H. injection H as _ <- _. contradiction. }
  eapply brings_none; [now apply told_nothing|]. intros. apply Q.
Qed.

(** Unit 4 switches on lamp 10 and dims lamp 11 to nothing, then asks for the time
    between a confirmation and a line with a wrong checksum; the daemon, with a
    broker connected, reads all this in pieces of five bytes. *)
Example C104_case :
  let on := b16encode [0x05; 4; 0x38; 0; 0x79; 10; 0x0A; 11; 0; 0x27] in
  let ask := b16encode [0x05; 4; 0xDF; 0; 0x11; 0x03; 4] in
  let wrong := b16encode [0x05; 4; 0x38; 0; 0x79; 10; 0] in
  let ms := [mkMsg (on ++ [13; 10]) (Some 4) [LightOn 10; LightRamp 11 4 (PInt 0)]; mkMsg [103; 46] None [];
             mkMsg (ask ++ [13; 10]) (Some 4) [ClockRequest]; mkMsg (wrong ++ [13; 10]) None []] in
  let rest := [48; 53; 13] in
  let chunks := pieces 1000 5 (concat (map msg_bytes ms) ++ rest) in
  let r := receive (handle_data noon) MAX_BUFFER_SIZE (mkClient ClassHandler true 7 10 true Pending true 3 1) [] chunks in
  Forall right ms /\ untold rest /\ concat chunks = concat (map msg_bytes ms) ++ rest
  /\ gentle 22 chunks (map msg_bytes ms) rest
  /\ Forall (fun x => snd x = Ok tt) (snd r) /\ length (published (effects (snd r))) = 4%nat
  /\ length (writes (effects (snd r))) = 1%nat.
Proof.
  set (on := b16encode _). set (ask := b16encode _). set (wrong := b16encode _). cbv zeta.
  split; [|split; [|split; [vm_compute; reflexivity|split; [split; [|split]; vm_compute; repeat constructor|split; [vm_compute; repeat (apply Forall_cons; [reflexivity|]); apply Forall_nil|split; vm_compute; reflexivity]]]]].
  - apply Forall_cons.
    { apply (brings_commands on (mkHdr true 0 (Some 4) None) (Some 0x38) [LightOn 10; LightRamp 11 4 (PInt 0)] []).
      apply C100_from_pci; [exact Logic.I|vm_compute; reflexivity]. }
    apply Forall_cons.
    { eapply brings_none; [apply (told_confirmed 103); unfold is_code; lia|]. intros h a k n ws H.
      apply C100_from_pci in H; [|exact Logic.I]. vm_compute in H. discriminate. }
    apply Forall_cons.
    { apply (brings_commands ask (mkHdr true 0 (Some 4) None) (Some 0xDF) [ClockRequest] []).
      apply C100_from_pci; [exact Logic.I|vm_compute; reflexivity]. }
    apply Forall_cons; [|constructor]. apply brings_quiet.
    + eexists. split; [vm_compute; reflexivity|exact (fun x => x)].
    + cbn; unfold is_code; lia.
    + apply one_line_check; reflexivity.
    + intros [_ [_ [H|H]]]; vm_compute in H; discriminate.
  - right; right. split; [cbn; unfold is_code; lia|]. intros a b E. apply find_none_iff with (p := [13; 10]) (a := a) (b := b) in E; [exact E|reflexivity].
Qed.
