(** C103: the emulator does what the bytes it receives say. *)
From Coq Require Import String List ZArith QArith Bool Lia.
From Verif Require Import Py Common Sal Cal Packet Text Buffered Client Server Base Spec Spec_wire Spec_reading Spec_server Spec_whole
  Spec_session Common_facts Packet_facts Packet_decode Packet_total Prop_packet Prop_whole Prop_server Prop_system Reading_facts Prop_wire.
Import ListNotations.
Open Scope Z_scope.

Lemma handles_obeys rnd s acts r s' : handles rnd s acts r s' -> obeys rnd s acts r s'.
Proof.
  assert (R : forall ck buf ws p n, decode_packet buf ck true false = (ws, Ok (Some p, n)) -> reads ck buf p n).
  { intros ck buf ws p n D. assert (K := sent_total buf ck true). rewrite D in K.
    destruct p; try (left; exists ws; exact K). right. eauto. }
  induction 1 as [ps q d|ps buf q d N D|ps buf q d ws e D|ps buf q d ws p n pre ga post q' d' D B Hc Em
                 |ps buf q d ws p n out q' d' acts r s' D P B Rp H IH|ps buf q d ws n acts r s' D P H IH].
  - constructor.
  - apply ob_wait. apply C102_to_pci. now rewrite D.
  - apply ob_error; [apply C102_to_pci; now rewrite D|]. now apply C21_exceptions in D.
  - eapply ob_refused; eauto.
  - eapply ob_packet; eauto.
  - apply ob_nothing; auto. apply C102_to_pci. rewrite D. destruct n; [lia|reflexivity].
Qed.
Lemma proceeds_follows rnd s ops log s' : proceeds rnd s ops log s' -> follows rnd s ops log s'.
Proof.
  induction 1 as [s|s o ops acts r log s1 s2 P Q IH]; [constructor|].
  destruct P as [s data L|ps buf q d data L1 L2|ps buf q d data acts r s' L H|ps buf q d o b A|s o e D].
  - now apply fo_too_large.
  - now apply fo_overflow.
  - eapply fo_data; eauto. now apply handles_obeys.
  - now apply fo_send.
  - now apply fo_fail.
Qed.

(** Whatever is called and whatever arrives, in whatever pieces. *)
Theorem C103_session : forall rnd ops st tr, randint_works rnd ->
  server_run rnd (new_server, []) (SOpConnect :: ops) = (st, tr) ->
  exists tr' log s', tr = ([SWrite [43; 43; 13; 10]], Ok tt) :: tr'
    /\ follows rnd fresh ops log s' /\ explains tr' log
    /\ snd st = pending s' /\ sv_queue (fst st) = queued s'.
Proof.
  intros rnd ops st tr R H. destruct (C58_session rnd ops st tr R H) as [tr' [log [s' [E [P [X Y]]]]]].
  exists tr', log, s'. split; [exact E|]. split; [now apply proceeds_follows|auto].
Qed.
Print Assumptions C103_session.

(** ** There is only one session *)
Lemma decoded_once w w' l : b16decode w = Ok l -> b16decode w' = Ok l -> w = w'.
Proof.
  intros H H'. apply spelled_decode in H, H'. destruct (spelled_hex _ _ H) as (_ & B & _).
  apply (spelled_iff _ _ B) in H, H'. congruence.
Qed.
Lemma hex_line_once raw w w' : hex_line raw w -> hex_line raw w' -> w = w'.
Proof. intros (d & -> & _ & D) (d' & -> & _ & D'). now rewrite (decoded_once _ _ _ D D'). Qed.
Lemma hex_line_bytes raw w : hex_line raw w -> is_bytes raw.
Proof. intros (d & _ & _ & D). apply spelled_decode in D. apply (spelled_hex _ _ D). Qed.
Lemma sum_last l c c' : byte c -> byte c' -> sum (l ++ [c]) mod 256 = 0 -> sum (l ++ [c']) mod 256 = 0 -> c = c'.
Proof.
  rewrite !sum_app. change (sum [c]) with (c + 0). change (sum [c']) with (c' + 0). unfold byte. intros B B' H H'.
  apply Z.mod_divide in H, H'; try lia. destruct H as [x H], H' as [y H']. lia.
Qed.
Lemma unit_line_once ck src body w w' : unit_line ck src body w -> unit_line ck src body w' -> w = w'.
Proof.
  intros (t & L & T) (t' & L' & T'). destruct ck.
  - destruct T as (c & -> & B & S), T' as (c' & -> & B' & S'). rewrite app_assoc in L, L', S, S'.
    rewrite (sum_last _ _ _ B B' S S') in L. exact (hex_line_once _ _ _ L L').
  - subst t t'. exact (hex_line_once _ _ _ L L').
Qed.
Lemma unpack_once p p' : is_bytes p -> is_bytes p' -> flat_map unpack p = flat_map unpack p' -> p = p'.
Proof.
  intros B. revert p'. induction B as [|b p Hb _ IH]; intros [|b' p'] B' E; try discriminate; [reflexivity|].
  apply Forall_cons_iff in B'. destruct B' as [Hb' B']. cbn [flat_map unpack app] in E. injection E as E1 E2 E3 E4 E.
  rewrite (IH _ B' E). f_equal. unfold byte in Hb, Hb'.
  assert (F : forall x, x = x / 64 * 64 + (x / 16) mod 4 * 16 + (x / 4) mod 4 * 4 + x mod 4).
  { clear. intros x. assert (A := Z.div_mod x 4 ltac:(lia)). assert (A1 := Z.div_mod (x / 4) 4 ltac:(lia)).
    assert (A2 := Z.div_mod (x / 16) 4 ltac:(lia)).
    replace (x / 4 / 4) with (x / 16) in A1 by (now rewrite Z.div_div by lia).
    replace (x / 16 / 4) with (x / 64) in A2 by (now rewrite Z.div_div by lia). lia. }
  rewrite (F b), (F b'). congruence.
Qed.
Lemma status_line_once block states w w' : status_line block states w -> status_line block states w' -> w = w'.
Proof.
  intros (h & p & c & L & S & H & U) (h' & p' & c' & L' & S' & H' & U').
  assert (B := hex_line_bytes _ _ L). assert (B' := hex_line_bytes _ _ L').
  apply Forall_app in B, B'. destruct B as [_ B], B' as [_ B']. apply Forall_app in B, B'. destruct B as [B C], B' as [B' C'].
  apply Forall_inv in C, C'. assert (p = p') by (apply unpack_once; [exact B|exact B'|congruence]). subst p' h h'.
  rewrite app_assoc in L, L', S, S'. rewrite (sum_last _ _ _ C C' S S') in L. exact (hex_line_once _ _ _ L L').
Qed.
Lemma emits_once rnd ck l q d out q1 d1 out' q2 d2 :
  emits rnd ck l q d out q1 d1 -> emits rnd ck l q d out' q2 d2 -> out = out' /\ q1 = q2 /\ d1 = d2.
Proof.
  intros H. revert out' q2 d2.
  induction H as [q d|s l q d out q1 d1 Q H IH|v l on off q d out q1 d1 A B H IH|ga l l0 l1 l2 q d out q1 d1 P H IH]; intros out' q2 d2 H';
    inversion H'; subst; try contradiction; auto.
  - match goal with X : unit_line _ _ [121; _] ?x, Y : unit_line _ _ [1; _] ?y, Z : emits _ _ l (q ++ [?x; ?y]) _ _ _ _ |- _ =>
      rewrite <- (unit_line_once _ _ _ _ _ A X), <- (unit_line_once _ _ _ _ _ B Y) in Z; exact (IH _ _ _ Z) end.
  - match goal with X : presence_lines _ _ _ |- _ => destruct P as (P0 & P1 & P2), X as (X0 & X1 & X2) end.
    rewrite (status_line_once _ _ _ _ P0 X0), (status_line_once _ _ _ _ P1 X1), (status_line_once _ _ _ _ P2 X2).
    match goal with X : emits _ _ l [] d _ _ _ |- _ => destruct (IH _ _ _ X) as (-> & -> & ->) end. auto.
Qed.
Lemma sent_once ck strict buf o o' : sent_as ck strict buf o -> sent_as ck strict buf o' -> o = o'.
Proof. intros H H'. apply C102_to_pci in H, H'. congruence. Qed.
(** The same message; of invalid packets the contents do not matter. *)
Definition same (p p' : packet) : Prop :=
  p = p' \/ (exists d e, p = PktInvalid d e) /\ exists d e, p' = PktInvalid d e.
Lemma same_commands p p' : same p p' -> commands_of p = commands_of p' /\ confirmed p = confirmed p' /\ scallbacks_of p = scallbacks_of p'.
Proof. intros [->|((d & e & ->) & d' & e' & ->)]; auto. Qed.
Lemma same_latest ps ps' : Forall2 same ps ps' -> latest ps = latest ps'.
Proof.
  induction 1 as [|p p' ps ps' S _ IH]; [reflexivity|]. destruct S as [->|((d & e & ->) & d' & e' & ->)]; [|exact IH].
  destruct p'; cbn [latest]; try assumption; try reflexivity; now rewrite IH.
Qed.
Lemma reads_once ck buf p n p' n' : reads ck buf p n -> reads ck buf p' n' -> n = n' /\ same p p'.
Proof.
  intros [[ws H]|(d & e & -> & H)] [[ws' H']|(d' & e' & -> & H')]; assert (E := sent_once _ _ _ _ _ H H'); try discriminate.
  - injection E as -> -> _. split; [reflexivity|now left].
  - injection E as ->. split; [reflexivity|]. right. split; eauto.
Qed.
Lemma replies_once rnd ck p p' q d out q1 d1 out' q2 d2 : same p p' ->
  replies rnd ck p q d out q1 d1 -> replies rnd ck p' q d out' q2 d2 -> out = out' /\ q1 = q2 /\ d1 = d2.
Proof.
  intros S H H'. destruct (same_commands _ _ S) as (A & B & _).
  assert (G : forall p, match p with PktPM _ _ sals => heard sals | _ => [] end = heard (commands_of p)) by (intros []; reflexivity).
  destruct H as [out q1 d1 c E C|out q1 d1 E C]; destruct H' as [out' q2 d2 c' E' C'|out' q2 d2 E' C']; try congruence;
    rewrite G in E, E'; rewrite <- A in E'; destruct (emits_once _ _ _ _ _ _ _ _ _ _ _ E E') as (-> & -> & ->); [|auto].
  replace c' with c by congruence. auto.
Qed.
Lemma silent_prefix rnd ck pre q d q' d' : emits rnd ck pre q d [] q' d' -> existsb presence_request pre = false.
Proof.
  intros H. remember [] as out eqn:O. induction H as [q d|s l q d out q1 d1 Q H IH|v l on off q d out q1 d1 A B H IH|ga l l0 l1 l2 q d out q1 d1 P H IH].
  - reflexivity.
  - destruct s; try contradiction; cbn [existsb presence_request orb]; auto.
  - cbn [existsb presence_request orb]. auto.
  - discriminate.
Qed.
Lemma first_presence pre ga post pre' ga' post' : existsb presence_request pre = false -> existsb presence_request pre' = false ->
  pre ++ StatusRequest false ga 0xff :: post = pre' ++ StatusRequest false ga' 0xff :: post' -> pre = pre'.
Proof.
  revert pre'. induction pre as [|s pre IH]; intros [|s' pre'] N N' E; [reflexivity|..]; cbn [app] in E; injection E as E1 E2.
  - subst s'. discriminate N'.
  - subst s. discriminate N.
  - subst s'. cbn [existsb] in N, N'. apply orb_false_iff in N, N'. f_equal. apply (IH _ (proj2 N) (proj2 N') E2).
Qed.
Definition same_session (s s' : session) : Prop :=
  Forall2 same (past s) (past s') /\ pending s = pending s' /\ queued s = queued s' /\ drawn s = drawn s'.
Lemma sent_empty ck strict : sent_as ck strict [] Waits.
Proof. apply C102_to_pci. destruct ck, strict; reflexivity. Qed.
Ltac clash :=
  exfalso; repeat match goal with R : reads _ _ _ _ |- _ => destruct R as [[? R]|(? & ? & ? & R)] end;
  match goal with A : sent_as _ _ ?b _, B : sent_as _ _ ?b _ |- _ => discriminate (sent_once _ _ _ _ _ A B) end.
Lemma obeys_once rnd s acts r s1 : obeys rnd s acts r s1 -> forall s' acts' r' s1', same_session s s' -> obeys rnd s' acts' r' s1' ->
  flat_map action_writes acts = flat_map action_writes acts' /\ flat_map action_callbacks acts = flat_map action_callbacks acts'
  /\ same_result r r' /\ same_session s1 s1'.
Proof.
  induction 1 as [ps q d|ps buf q d W|ps buf q d e F X|ps buf q d p n pre ga post q' d' R B Hc Em
                 |ps buf q d p n out q' d' acts r s1 R N B Rp H IH|ps buf q d n acts r s1 K N H IH];
    intros s' acts' r' s1' (P & Pe & Qu & Dr) O'; cbn [past pending queued drawn] in *;
    assert (L := same_latest _ _ P);
    destruct O' as [ps2 q2 d2|ps2 buf2 q2 d2 W2|ps2 buf2 q2 d2 e2 F2 X2|ps2 buf2 q2 d2 p2 n2 pre2 ga2 post2 q2' d2' R2 B2 Hc2 Em2
                 |ps2 buf2 q2 d2 p2 n2 out2 q2' d2' acts2 r2 s2 R2 N2 B2 Rp2 H2|ps2 buf2 q2 d2 n2 acts2 r2 s2 K2 N2 H2];
    cbn [past pending queued drawn] in *; subst; try rewrite <- L in *; try (assert (SE := sent_empty (m_checksum (latest ps)) true)); try clash.
  - repeat split; auto. now left.
  - repeat split; auto. now left.
  - repeat split; auto. now left.
  - repeat split; auto. now left.
  - repeat split; auto. right. eauto 10.
  - destruct (reads_once _ _ _ _ _ _ R R2) as [-> Sp]. destruct (same_commands _ _ Sp) as (C & _ & _).
    rewrite C in Hc. rewrite Hc in Hc2.
    assert (pre = pre2) by (eapply first_presence; [eapply silent_prefix; eassumption..|exact Hc2]). subst pre2.
    destruct (emits_once _ _ _ _ _ _ _ _ _ _ _ Em Em2) as (_ & -> & ->).
    repeat split; auto; [cbn [flat_map action_callbacks app]; now rewrite C|now left].
  - destruct (reads_once _ _ _ _ _ _ R R2) as [-> Sp]. destruct (same_commands _ _ Sp) as (C & _ & _). exfalso.
    specialize (B2 B). rewrite <- C, Hc, existsb_app in B2. cbn in B2. rewrite orb_true_r in B2. discriminate.
  - destruct (reads_once _ _ _ _ _ _ R R2) as [-> Sp]. destruct (same_commands _ _ Sp) as (C & _ & _). exfalso.
    specialize (B B2). rewrite C, Hc2, existsb_app in B. cbn in B. rewrite orb_true_r in B. discriminate.
  - destruct (reads_once _ _ _ _ _ _ R R2) as [-> Sp]. destruct (same_commands _ _ Sp) as (C & _ & Cb).
    destruct (replies_once _ _ _ _ _ _ _ _ _ _ _ _ Sp Rp Rp2) as (-> & -> & ->).
    destruct (IH (mkSession (p2 :: ps2) (skipn n2 buf2) q2' d2') acts2 r2 s2) as (A1 & A2 & A3 & A4);
      [split; [constructor; [exact Sp|exact P]|auto]|exact H2|].
    cbn [flat_map action_writes action_callbacks]. now rewrite A1, A2, Cb.
  - assert (E := sent_once _ _ _ _ _ K K2). injection E as ->.
    destruct (IH (mkSession ps2 (skipn n2 buf2) q2 d2) acts2 r2 s2) as (A1 & A2 & A3 & A4); [split; [exact P|auto]|exact H2|].
    cbn [flat_map action_writes action_callbacks]. now rewrite A1, A2.
Qed.
Lemma announces_once ck o b b' : announces ck o b -> announces ck o b' -> b = b'.
Proof.
  intros H H'. destruct H; inversion H'; subst; try reflexivity; try (eapply unit_line_once; eassumption).
  match goal with A : rounds_to seconds ?x, B : rounds_to seconds ?y |- _ => assert (x = y) by (eapply rounds_to_unique; eassumption); subst end.
  match goal with A : is_ramp_rate ?x ?z, B : is_ramp_rate ?y ?z |- _ => assert (x = y) by (eapply rate_code_unique; eassumption); subst end.
  eapply unit_line_once; eassumption.
Qed.
Lemma declines_once o e e' : declines o e -> declines o e' -> e = e'.
Proof.
  intros H H'. destruct H as [o src ga G O|src ga sec level X|src ga sec level G X Y|c rest ok C];
    inversion H' as [o2 src2 ga2 G2 O2|src2 ga2 sec2 level2 X2|src2 ga2 sec2 level2 G2 X2 Y2|c2 rest2 ok2 C2]; subst; try reflexivity; try contradiction.
  - destruct O as [O|[O|[O|(a & b & O)]]]; try discriminate. congruence.
  - destruct O2 as [O2|[O2|[O2|(a & b & O2)]]]; try discriminate. congruence.
Qed.
Lemma announces_accepted ck o b e : announces ck o b -> declines o e -> False.
Proof.
  intros H H'. destruct H; inversion H'; subst; try contradiction;
    repeat match goal with O : _ \/ _ |- _ => destruct O as [O|O] | O : exists _, _ |- _ => destruct O as [? O] end; try discriminate;
    try (cbn [off_scale] in *; lia); try congruence.
Qed.
(** What is written, what is called, what is raised and what is kept does not
    leave a choice: two sessions with the same history say the same. *)
Theorem C103_one_session : forall rnd ops log s log' s',
  follows rnd fresh ops log s -> follows rnd fresh ops log' s' ->
  same_log log log' /\ pending s = pending s' /\ queued s = queued s' /\ latest (past s) = latest (past s').
Proof.
  assert (G : forall rnd s0 ops log s, follows rnd s0 ops log s -> forall s0' log' s', same_session s0 s0' ->
    follows rnd s0' ops log' s' -> same_log log log' /\ same_session s s').
  { intros rnd s0 ops log s H.
    induction H as [s|s data ops log s1 L H IH|ps buf q d data ops log s1 L1 L2 H IH|ps buf q d data acts r s1 ops log s2 L O H IH
                   |ps buf q d o b ops log s1 A H IH|s o e ops log s1 D H IH]; intros s0' log' s' S H'.
    - inversion H'; subst. split; [constructor|exact S].
    - destruct S as (S1 & S2 & S3 & S4).
      inversion H' as [|? ? ? ? ? L' F'|? ? ? ? ? ? ? ? L1' L2' F'|? ? ? ? ? ? ? ? ? ? ? L' O' F'|? ? ? ? ? ? ? ? ? A' F'|? ? ? ? ? ? D' F']; subst;
        try lia; try (inversion A'; fail); try (inversion D' as [? ? ? ? O2| | |]; subst; destruct O2 as [O2|[O2|[O2|(? & ? & O2)]]]; discriminate).
      destruct (IH _ _ _ (conj S1 (conj S2 (conj S3 S4))) F') as [I1 I2]. split; [constructor; [repeat split; now left|exact I1]|exact I2].
    - destruct S as (S1 & S2 & S3 & S4). cbn [past pending queued drawn] in *.
      inversion H' as [|? ? ? ? ? L' F'|? ? ? ? ? ? ? ? L1' L2' F'|? ? ? ? ? ? ? ? ? ? ? L' O' F'|? ? ? ? ? ? ? ? ? A' F'|? ? ? ? ? ? D' F']; subst;
        cbn [past pending queued drawn] in *; subst;
        try lia; try (inversion A'; fail); try (inversion D' as [? ? ? ? O2| | |]; subst; destruct O2 as [O2|[O2|[O2|(? & ? & O2)]]]; discriminate).
      edestruct IH as [I1 I2]; [|exact F'|]; [repeat split; assumption|]. split; [constructor; [repeat split; now left|exact I1]|exact I2].
    - destruct S as (S1 & S2 & S3 & S4). cbn [past pending queued drawn] in *.
      inversion H' as [|? ? ? ? ? L' F'|? ? ? ? ? ? ? ? L1' L2' F'|? ? ? ? ? ? ? ? ? ? ? L' O' F'|? ? ? ? ? ? ? ? ? A' F'|? ? ? ? ? ? D' F']; subst;
        cbn [past pending queued drawn] in *; subst;
        try lia; try (inversion A'; fail); try (inversion D' as [? ? ? ? O2| | |]; subst; destruct O2 as [O2|[O2|[O2|(? & ? & O2)]]]; discriminate).
      edestruct (obeys_once _ _ _ _ _ O) as (X1 & X2 & X3 & X4); [|exact O'|]; [repeat split; assumption|].
      destruct (IH _ _ _ X4 F') as [I1 I2]. split; [constructor; [auto|exact I1]|exact I2].
    - destruct S as (S1 & S2 & S3 & S4). cbn [past pending queued drawn] in *. assert (La := same_latest _ _ S1).
      inversion H' as [|? ? ? ? ? L' F'|? ? ? ? ? ? ? ? L1' L2' F'|? ? ? ? ? ? ? ? ? ? ? L' O' F'|? ? ? ? ? ? ? ? ? A' F'|? ? ? ? ? ? D' F']; subst;
        cbn [past pending queued drawn] in *; subst; try (inversion A; fail).
      + rewrite <- La in A'. rewrite (announces_once _ _ _ _ A A').
        edestruct IH as [I1 I2]; [|exact F'|]; [repeat split; assumption|]. split; [constructor; [repeat split; now left|exact I1]|exact I2].
      + destruct (announces_accepted _ _ _ _ A D').
    - assert (ND : forall data, o <> SOpData data).
      { intros data ->. inversion D as [? ? ? ? O2| | |]; subst. destruct O2 as [O2|[O2|[O2|(? & ? & O2)]]]; discriminate. }
      inversion H' as [|? ? ? ? ? L' F'|? ? ? ? ? ? ? ? L1' L2' F'|? ? ? ? ? ? ? ? ? ? ? L' O' F'|? ? ? ? ? ? ? ? ? A' F'|? ? ? ? ? ? D' F']; subst;
        try (destruct (ND _ eq_refl)).
      + destruct (announces_accepted _ _ _ _ A' D).
      + rewrite (declines_once _ _ _ D D'). destruct (IH _ _ _ S F') as [I1 I2].
        split; [constructor; [repeat split; now left|exact I1]|exact I2]. }
  intros rnd ops log s log' s' H H'. destruct (G _ _ _ _ _ H _ _ _ ltac:(repeat split; constructor) H') as [L (P & Q & R & _)].
  split; [exact L|]. split; [exact Q|]. split; [exact R|]. now apply same_latest.
Qed.
Print Assumptions C103_one_session.
(** So do the rules of C58, which are stated with the decoder. *)
Theorem C58_one_session : forall rnd ops log s log' s',
  proceeds rnd fresh ops log s -> proceeds rnd fresh ops log' s' ->
  same_log log log' /\ pending s = pending s' /\ queued s = queued s' /\ latest (past s) = latest (past s').
Proof. intros rnd ops log s log' s' H H'. eapply C103_one_session; apply proceeds_follows; eassumption. Qed.
Print Assumptions C58_one_session.

(** Checksums are off after the connection: a lamp is switched on with an odd
    letter and a right one, then a line is cancelled, in pieces of four bytes. *)
Example C103_case :
  let bad := txt "\05380079014" ++ [13] in
  let wrong := txt "\053800790A@" ++ [13] in
  let right := txt "\053800790Ag" ++ [13] in
  let cancelled := txt "\0538?" in
  let blank := [13] in
  let run := server_run die (new_server, []) (SOpConnect :: map SOpData (pieces 100 4 (wrong ++ right ++ cancelled ++ blank))) in
  m_checksum (latest []) = false
  /\ sent_as false true bad Fails
  /\ sent_as false true wrong (Invalid 13)
  /\ sent_as false true right (Means (PktPM (mkHdr false 0 None (Some 103)) (Some 0x38) [LightOn 10]) 13 [])
  /\ sent_as false true (cancelled ++ blank) (Skips 6)
  /\ sent_as false true blank (Skips 1)
  /\ called (snd run) = [SOn 10]
  /\ written (snd run) = [txt "++" ++ [13; 10]; wrong; right; txt "g."; cancelled; blank].
Proof.
  repeat split; try (vm_compute; reflexivity); apply C102_to_pci; vm_compute; reflexivity.
Qed.
