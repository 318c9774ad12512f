(** C101: a client is told exactly what the bytes from its PCI say. *)
From Coq Require Import String List ZArith QArith Bool Lia.
From Verif Require Import Py Common Sal Cal Packet Text Mqtt Buffered Client Server Base Spec Spec_wire Spec_reading
  Spec_client Spec_server Spec_system Spec_noise Spec_listen Common_facts Sal_facts Packet_facts Packet_roundtrip
  Packet_decode Packet_total Buffer_facts Client_facts Client_steps Client_send Client_calls Client_dispatch
  Server_facts System_facts System_reply Reading_facts Prop_reading Prop_client Prop_control Prop_system Prop_noise.
Import ListNotations.
Open Scope Z_scope.

Definition due_callbacks (r : option packet) : list cev := match r with Some p => callbacks_of p | None => [] end.

Lemma one_line_rest w rest : one_line w ->
  forall a b, w ++ [13; 10] ++ rest = a ++ [13; 10] ++ b -> (length w <= length a)%nat.
Proof.
  intros O a b E. destruct (Nat.le_gt_cases (length w) (length a)) as [|G]; [assumption|exfalso].
  assert (P : exists t, w ++ [13; 10] = (a ++ [13; 10]) ++ t).
  { exists (skipn (length a + 2) (w ++ [13; 10])).
    rewrite <- (firstn_skipn (length a + 2) (w ++ [13; 10])) at 1. f_equal.
    assert (X : firstn (length a + 2) ((w ++ [13; 10]) ++ rest) = a ++ [13; 10]).
    { rewrite <- app_assoc, E, app_assoc. replace (length a + 2)%nat with (length (a ++ [13; 10])) by (rewrite app_length; reflexivity).
      apply firstn_app_length. }
    rewrite firstn_app in X. replace (length a + 2 - length (w ++ [13; 10]%Z))%nat with 0%nat in X
      by (rewrite app_length; cbn [length]; lia). cbn [firstn] in X. now rewrite app_nil_r in X. }
  destruct P as [t P]. rewrite <- app_assoc in P. apply O in P. lia.
Qed.

Lemma line_decode w rest : line_start w -> one_line w ->
  decode_packet (w ++ [13; 10] ++ rest) true true true = decode_line true true true (length w + 2) w.
Proof. intros S O. apply from_pci_line; [now apply one_line_rest|exact S]. Qed.

Lemma hex_kinds n w ws p m : w <> [] -> decode_hex true true true false None n w = (ws, Ok (p, m)) ->
  n = m /\ exists q, p = Some q /\ (data_packet q \/ exists d e, q = PktInvalid d e).
Proof.
  intros N H. assert (H' := H). apply decode_hex_position in H'. destruct H' as [q [-> P]].
  assert (M : n = m) by (destruct P as [[P _]|[P _]]; [now symmetry|discriminate]). subst m.
  split; [reflexivity|]. exists q. split; [reflexivity|].
  assert (O := decode_hex_outcome true true true false None n w). rewrite H in O.
  remember (ws, Ok (Some q, n)) as R eqn:ER in O.
  destruct O as [Nh|Fh Odd|Nil|raw Fh D NE Hk Hs K|ws' raw Fh D L1 Hk Q W|ws' raw msg fl body Fh D B M C K W];
    try discriminate; try (injection ER as <- <-; eauto; fail).
  destruct (decode_frame true true false None n fl msg) as [v r] eqn:Df.
  assert (Bm : is_bytes (fl :: body)).
  { rewrite <- C, M. destruct (list_snoc_case raw) as [->|[i [l ->]]]; [exact B|].
    rewrite py_init_app. apply is_bytes_app in B. tauto. }
  apply is_bytes_cons in Bm. rewrite C in Df. apply frame_invalid in Df; [|tauto..].
  destruct Df as [q' [k [-> V]]]. cbn in ER. injection ER as <- <- <-. destruct V as [V|[d [e [-> _]]]]; eauto.
Qed.

Lemma fatal_iff w : fatal w <-> w <> [] /\ Forall hex_char w /\ bad_hex true true w.
Proof.
  unfold fatal, bad_hex. split.
  - intros [N [F [H| ->]]]; repeat split; auto 6.
  - intros [N [F [H|[H|[_ [_ [H|H]]]]]]]; [|congruence|discriminate|]; auto.
Qed.

(** What is told is what is decoded, whatever follows. *)
Lemma told_decode m l : told m l -> m <> [] /\ forall rest, exists ws r,
  decode_packet (m ++ rest) true true true = (ws, Ok (r, length m)) /\ due_callbacks r = l.
Proof.
  assert (Says : forall w p ws rest, reply_line_says true true (w ++ [13; 10]) p (length w + 2) ws ->
     decode_packet ((w ++ [13; 10]) ++ rest) true true true = (ws, Ok (Some p, length (w ++ [13; 10])))).
  { intros w p ws rest H. assert (Dp := reply_line_data _ _ _ _ _ _ H).
    apply C100_from_pci in H; [|exact Dp].
    assert (Cm : pci_complete (w ++ [13; 10])) by (do 3 right; exists w, []; reflexivity).
    now rewrite (from_pci_stable _ rest true true Cm), H, app_length. }
  assert (NE : forall w : bytes, w ++ [13; 10] <> []) by (intros [|]; discriminate).
  destruct 1 as [| |c C|c x C X|w h a commands ws H|w h par v ws H|w h u hops cals ws H|w L O Nf H].
  - split; [discriminate|]. intros rest. exists [], (Some PktPowerOn). split; [|reflexivity].
    apply (C57_from_pci rest true true).
  - split; [discriminate|]. intros rest. exists [], (Some PktError). split; [|reflexivity].
    apply (C57_from_pci rest true true).
  - split; [discriminate|]. intros rest. exists [], (Some (PktConfirm [c] true)). split; [|reflexivity].
    apply (proj2 (proj2 (C57_from_pci rest true true)) c C).
  - split; [discriminate|]. intros rest. exists [], (Some (PktConfirm [c] false)). split; [|reflexivity].
    now apply (proj2 (proj2 (C57_from_pci rest true true)) c C).
  - split; [apply NE|]. intros rest. rewrite (Says _ _ _ rest H). eexists _, _. split; reflexivity.
  - split; [apply NE|]. intros rest. rewrite (Says _ _ _ rest H). eexists _, _. split; reflexivity.
  - split; [apply NE|]. intros rest. rewrite (Says _ _ _ rest H). eexists _, _. split; reflexivity.
  - split; [apply NE|]. intros rest. rewrite <- app_assoc, line_decode by assumption. rewrite app_length. cbn [length].
    destruct w as [|x w]; [exists [], None; split; reflexivity|]. cbn [decode_line].
    destruct (decode_hex true true true false None (length (x :: w) + 2) (x :: w)) as [ws [[p m]|e]] eqn:D.
    + assert (G := D). apply hex_kinds in G; [|discriminate]. destruct G as [<- [q [-> [K|[d [e ->]]]]]].
      * exfalso. apply (H q (length (x :: w) + 2)%nat ws). apply C100_from_pci; [exact K|].
        change [13; 10] with ([13; 10] ++ []). now rewrite line_decode.
      * exists ws, (Some (PktInvalid d e)). split; reflexivity.
    + exfalso. apply Nf, fatal_iff. split; [discriminate|]. apply (decode_hex_raises true true true false None (length (x :: w) + 2)).
      eauto.
Qed.

(** What is decoded is told. *)
Lemma decode_told data ws r n : decode_packet data true true true = (ws, Ok (r, n)) -> pci_complete data ->
  exists m rest, data = m ++ rest /\ length m = n /\ told m (due_callbacks r).
Proof.
  intros D C. destruct data as [|c tl]; [exfalso; destruct C as [[? C]|[[? C]|[[? [? [? [_ C]]]]|[[|? ?] [? C]]]]]; discriminate|].
  destruct (Z.eq_dec c 43) as [->|N43].
  { rewrite (proj1 (C57_from_pci tl true true)) in D. injection D as <- <- <-. exists [43], tl. repeat split. constructor. }
  destruct (Z.eq_dec c 33) as [->|N33].
  { rewrite (proj1 (proj2 (C57_from_pci tl true true))) in D. injection D as <- <- <-. exists [33], tl. repeat split. constructor. }
  assert (Dc : is_code c \/ ~ is_code c) by (unfold is_code; lia). destruct Dc as [Cc|Cc].
  { destruct tl as [|x tl].
    - exfalso. destruct C as [[? C]|[[? C]|[[? [? [? [_ C]]]]|[[|? [|? ?]] [? C]]]]]; try discriminate; injection C; congruence.
    - destruct (proj2 (proj2 (C57_from_pci tl true true)) c Cc) as [Y N].
      destruct (Z.eq_dec x 46) as [->|Nx].
      + rewrite Y in D. injection D as <- <- <-. exists [c; 46], tl. repeat split. now constructor.
      + rewrite (N x Nx) in D. injection D as <- <- <-. exists [c; x], tl. repeat split. now constructor. }
  assert (L : exists line rest, c :: tl = line ++ [13; 10] ++ rest /\ forall a b, c :: tl = a ++ [13; 10] ++ b -> (length line <= length a)%nat).
  { destruct C as [[? C]|[[? C]|[[? [? [? [K C]]]]|[l [rest C]]]]]; try (injection C; congruence).
    destruct (find [13; 10] (c :: tl)) as [e|] eqn:F; [|exfalso; apply find_none_iff with (a := l) (b := rest) in F; congruence].
    apply find_some in F. destruct F as [F1 [F2 F3]]. exists (firstn e (c :: tl)), (skipn (e + length [13; 10]) (c :: tl)).
    split; [exact F2|]. intros a b E. apply F3 in E. rewrite firstn_length. lia. }
  destruct L as [w [rest [E M]]].
  assert (S : line_start w) by (destruct w as [|x w]; [exact Logic.I|injection E as <- _; cbn; auto]).
  assert (O : one_line w).
  { intros a b Q. apply (M a (b ++ rest)). rewrite E, !app_assoc, Q, <- !app_assoc. reflexivity. }
  rewrite E, line_decode in D by assumption. exists (w ++ [13; 10]), rest. rewrite <- app_assoc, app_length. split; [exact E|].
  assert (D0 : decode_packet (w ++ [13; 10]) true true true = (ws, Ok (r, n))).
  { change [13; 10] with ([13; 10] ++ []). now rewrite line_decode. }
  destruct w as [|x w].
  - injection D as <- <- <-. split; [reflexivity|]. cbn [due_callbacks]. apply told_nothing; auto.
    + intros [X _]. congruence.
    + intros p n ws H. apply C100_from_pci in H; [discriminate|]. now apply reply_line_data in H.
  - cbn [decode_line] in D. assert (G := D). apply hex_kinds in G; [|discriminate]. destruct G as [<- [q [-> K]]].
    split; [reflexivity|]. destruct K as [K|[d [e ->]]].
    + apply C100_from_pci in D0; [|exact K]. destruct q; try contradiction; cbn [due_callbacks callbacks_of];
        [eapply told_commands|eapply told_reports|eapply told_device|exfalso]; eauto.
      apply C100_from_pci in D0; [|exact K]. apply from_pci_position in D0. destruct D0 as [_ [_ D0]]. now apply (D0 c0).
    + cbn [due_callbacks callbacks_of]. apply told_nothing; auto.
      * intros X. apply fatal_iff in X. destruct X as [_ X].
        apply (decode_hex_raises true true true false None (length (x :: w) + 2)) in X. destruct X as [v [e' X]]. congruence.
      * intros p n' ws' H. assert (Dp := reply_line_data _ _ _ _ _ _ H). apply C100_from_pci in H; [|exact Dp].
        rewrite D0 in H. injection H as _ <- _. exact Dp.
Qed.

Lemma untold_waits now c buf : untold buf -> handle_data now c buf = (c, [], Ok 0).
Proof.
  intros U. unfold handle_data. destruct (from_pci_cases buf true true) as [[-> _]|[C _]]; [reflexivity|exfalso].
  destruct U as [->|[[x [X ->]]|[L N]]]; destruct C as [[r C]|[[r C]|[[k [y [r [K C]]]]|[l [r C]]]]]; subst; try discriminate.
  - destruct l; discriminate.
  - injection C as -> _. unfold is_code in X. lia.
  - injection C as -> _. unfold is_code in X. lia.
  - destruct l as [|? [|? ?]]; discriminate.
  - cbn in L. lia.
  - cbn in L. lia.
  - cbn in L. tauto.
  - now apply (N l r).
Qed.
Lemma waits_untold buf : ~ pci_complete buf -> untold buf.
Proof.
  intros N. destruct buf as [|c tl]; [now left|]. right.
  assert (Dc : is_code c \/ ~ is_code c) by (unfold is_code; lia). destruct Dc as [C|C].
  - left. exists c. split; [exact C|]. destruct tl as [|x tl]; [reflexivity|]. exfalso. apply N. right; right; left. eauto 6.
  - right. split.
    + cbn. split; [|split; [|exact C]]; intros ->; apply N; [left|right; left]; eauto.
    + intros a b E. apply N. right; right; right. eauto.
Qed.
Lemma untold_prefix x y : untold (x ++ y) -> untold x.
Proof.
  intros [E|[[c [C E]]|[L N]]].
  - apply app_eq_nil in E. left. tauto.
  - destruct x as [|a x]; [now left|]. injection E as -> E. apply app_eq_nil in E. destruct E as [-> _]. right; left; eauto.
  - right; right. split; [destruct x; [exact Logic.I|exact L]|]. intros a b ->. apply (N a (b ++ y)). now rewrite <- !app_assoc.
Qed.
Lemma told_prefix m l x t : told m l -> m = x ++ t -> t <> [] -> untold x.
Proof.
  intros T -> N. apply told_decode in T. destruct T as [_ T]. apply waits_untold. intros C.
  destruct (T []) as [ws [r [D _]]]. rewrite app_nil_r, (from_pci_stable _ _ _ _ C) in D.
  apply from_pci_position in D. destruct D as [D _]. rewrite app_length in D. destruct t; [congruence|cbn [length] in D; lia].
Qed.
Lemma callbacks_more a b : callbacks (a ++ b) = callbacks a ++ callbacks b.
Proof. apply filter_app. Qed.

Lemma told_step now c m l rest : working now c -> told m l -> exists c' ev,
  handle_data now c (m ++ rest) = (c', ev, Ok (Z.of_nat (length m))) /\ working now c' /\ callbacks ev = l.
Proof.
  intros [W1 [W2 W3]] T. apply told_decode in T. destruct T as [_ T]. destruct (T rest) as [ws [r [D <-]]].
  destruct (C31_complete now c _ ws r _ W2 W3 W1 D) as [c' [ev [H1 [H2 [H3 H4]]]]].
  exists c', ev. split; [exact H1|]. split; [split; auto|exact H4].
Qed.

(** Any part of a stream of such items. *)
Lemma told_part now items ls rest : Forall2 told items ls -> untold rest -> forall c x y, working now c ->
  x ++ y = concat items ++ rest -> exists calls c1 b1 ev items1 items2 ls1 ls2,
    processes (handle_data now) c x calls c1 b1 ev (Ok tt) /\ working now c1
    /\ callbacks ev = concat ls1 /\ ls = ls1 ++ ls2 /\ Forall2 told items2 ls2
    /\ b1 ++ y = concat items2 ++ rest /\ untold b1 /\ items = items1 ++ items2.
Proof.
  intros F U. induction F as [|m l items ls T F IH]; intros c x y W E; cbn [concat] in E.
  - cbn [app] in E. assert (Ux : untold x) by (apply untold_prefix with y; now rewrite E).
    destruct x as [|a x].
    + exists [], c, [], [], [], [], [], []. split; [constructor|]. auto 10.
    + exists [a :: x], c, (a :: x), [], [], [], [], []. split; [apply pr_wait; [discriminate|now apply untold_waits]|]. auto 10.
  - rewrite <- app_assoc in E. destruct (app_split _ _ _ _ E) as [[t [Nt Em]]|[t [-> Q]]].
    + assert (Ux : untold x) by (eapply told_prefix; eauto).
      destruct x as [|a x].
      * exists [], c, [], [], [], (m :: items), [], (l :: ls). split; [constructor|]. cbn [concat]. rewrite <- app_assoc. auto 10.
      * exists [a :: x], c, (a :: x), [], [], (m :: items), [], (l :: ls).
        split; [apply pr_wait; [discriminate|now apply untold_waits]|]. cbn [concat]. rewrite <- (app_assoc m). auto 10.
    + destruct (told_step now c m l t W T) as [c1 [ev [H1 [H2 H3]]]].
      destruct (IH c1 t y H2 (eq_sym Q)) as [calls [c2 [b1 [e2 [i1 [i2 [l1 [l2 [P [I1 [I2 [I3 [I4 [I5 [I6 I7]]]]]]]]]]]]]]].
      assert (Nm := proj1 (told_decode m l T)).
      exists ((m ++ t) :: calls), c2, b1, (ev ++ e2), (m :: i1), i2, (l :: l1), l2. split.
      { apply pr_next with c1 (Z.of_nat (length m)).
        - intros X. apply app_eq_nil in X. tauto.
        - exact H1.
        - destruct m; [congruence|cbn [length]; lia].
        - rewrite Nat2Z.id, skipn_app, skipn_all, Nat.sub_diag. exact P. }
      split; [exact I1|]. split; [now rewrite callbacks_more, H3, I2|]. split; [now rewrite I3|]. rewrite I7. auto.
Qed.

(** A stream of messages, in whatever pieces it arrives: for each message its
    callbacks, in order, and no exception but that of a full buffer. *)
Theorem C101_told : forall now c items ls rest chunks c' buf log,
  working now c -> Forall2 told items ls -> untold rest -> concat chunks = concat items ++ rest ->
  receive (handle_data now) MAX_BUFFER_SIZE c [] chunks = (c', buf, log) ->
  (Forall (fun x => snd x <> Raise ValueError) log \/ exists size, gentle size chunks items rest) ->
  callbacks (effects log) = concat ls /\ buf = rest /\ Forall (fun x => snd x = Ok tt) log /\ working now c'.
Proof.
  intros now c items ls rest chunks c' buf log W F U E R V.
  assert (G : forall chunks b c items ls c' buf log, working now c -> Forall2 told items ls -> untold b ->
     b ++ concat chunks = concat items ++ rest ->
     receive (handle_data now) MAX_BUFFER_SIZE c b chunks = (c', buf, log) ->
     (Forall (fun x => snd x <> Raise ValueError) log \/ exists size, gentle size chunks items rest) ->
     callbacks (effects log) = concat ls /\ buf = rest /\ Forall (fun x => snd x = Ok tt) log /\ working now c').
  2:{ apply (G chunks [] c items ls c' buf log); auto. now left. }
  clear c items ls chunks c' buf log W F E R V.
  induction chunks as [|d chunks IH]; intros b c items ls c' buf log W F Ub E R V; cbn [receive concat] in *.
  - rewrite app_nil_r in E. injection R as <- <- <-. destruct F as [|m l items ls T F]; cbn [concat app] in E.
    + subst b. split; [reflexivity|]. split; [reflexivity|]. split; [constructor|exact W].
    + exfalso. destruct (told_step now c m l (concat items ++ rest) W T) as [c1 [ev [H1 _]]].
      rewrite app_assoc, <- E, (untold_waits now c b Ub) in H1.
      assert (Nm := proj1 (told_decode m l T)). destruct m; [congruence|]. cbn [length] in H1. injection H1. lia.
  - destruct (data_received (handle_data now) MAX_BUFFER_SIZE c b d) as [[[s1 b1] e1] r1] eqn:D.
    destruct (receive (handle_data now) MAX_BUFFER_SIZE s1 b1 chunks) as [[s2 b2] log2] eqn:R2. injection R as <- <- <-.
    assert (Fit : (length b + length d <= MAX_BUFFER_SIZE)%nat).
    { destruct V as [V|[size [M1 [M2 M3]]]].
      - apply Forall_cons_iff in V. destruct V as [V1 _]. cbn [snd] in V1. unfold data_received in D.
        destruct (Nat.ltb MAX_BUFFER_SIZE (length d)); [injection D; congruence|].
        destruct (Nat.ltb MAX_BUFFER_SIZE (length b + length d)) eqn:L; [injection D; congruence|].
        now apply Nat.ltb_ge in L.
      - apply Forall_cons_iff in M3. destruct M3 as [M3 _]. change MAX_BUFFER_SIZE with 256%nat.
        enough (length b <= size)%nat by lia.
        destruct F as [|m l items ls T F]; cbn [concat app] in E.
        + apply (f_equal (@length Z)) in E. rewrite !app_length in E. lia.
        + apply Forall_inv in M1. rewrite <- app_assoc in E.
          destruct (app_split _ _ _ _ E) as [[t [_ Em]]|[t [Eb _]]].
          * subst m. rewrite app_length in M1. lia.
          * exfalso. destruct (told_step now c m l t W T) as [c1 [ev [H1 _]]].
            rewrite <- Eb, (untold_waits now c b Ub) in H1.
            assert (Nm := proj1 (told_decode m l T)). destruct m; [congruence|]. cbn [length] in H1. injection H1. lia. }
    rewrite fits_call in D by exact Fit.
    rewrite app_assoc in E.
    destruct (told_part now items ls rest F U c _ _ W E) as [calls [c2 [b3 [e2 [i1 [i2 [l1 [l2 [P [I1 [I2 [I3 [I4 [I5 [I6 I7]]]]]]]]]]]]]]].
    apply processes_buffer in P. rewrite P in D. injection D as <- <- <- <-.
    assert (V2 : Forall (fun x => snd x <> Raise ValueError) log2 \/ exists size, gentle size chunks i2 rest).
    { destruct V as [V|[size [M1 [M2 M3]]]]; [left; now apply Forall_cons_iff in V|right; exists size].
      rewrite I7, Forall_app in M1. apply Forall_cons_iff in M3. split; tauto. }
    destruct (IH b3 c2 i2 l2 s2 b2 log2 I1 I4 I6 I5 R2 V2) as [J1 [J2 [J3 J4]]].
    cbn [effects flat_map fst]. rewrite callbacks_more, I2. change (flat_map fst log2) with (effects log2).
    rewrite J1, I3, concat_app. auto.
Qed.
Print Assumptions C101_told.

Lemma processes_told now c buf calls c1 b1 ev out : processes (handle_data now) c buf calls c1 b1 ev out -> out = Ok tt ->
  working now c -> exists items ls, buf = concat items ++ b1 /\ Forall2 told items ls
    /\ callbacks ev = concat ls /\ untold b1.
Proof.
  induction 1 as [st|st buf st' ev e N H|st buf st' ev N H|st buf st' ev N H
                 |st buf st' ev r N H R|st buf st' ev r calls st'' buf' ev' out N H R P IH]; intros O W; try discriminate.
  - exists [], []. split; [reflexivity|]. split; [constructor|]. split; [reflexivity|now left].
  - assert (U : untold buf).
    { apply waits_untold. intros C. destruct (C31_dispatch _ _ _ _ _ _ H) as [ws [p [size [D [Z _]]]]].
      apply (complete_position _ _ _ true) in D; [lia|exact C]. }
    rewrite (untold_waits now st buf U) in H. injection H as <- <-. exists [], []. split; [reflexivity|]. split; [constructor|]. split; [reflexivity|exact U].
  - exfalso. destruct (C31_dispatch _ _ _ _ _ _ H) as [ws [p [size [D [Z _]]]]]. lia.
  - destruct (C31_dispatch _ _ _ _ _ _ H) as [ws [p [size [D [Zr Cb]]]]].
    assert (C : pci_complete buf).
    { destruct (from_pci_cases buf true true) as [[E _]|[C _]]; [|exact C]. rewrite E in D. injection D as _ _ <-. lia. }
    destruct W as [W1 [W2 W3]]. destruct (C31_complete now st _ ws p _ W2 W3 W1 D) as [c' [ev1 [H1 [H2 [H3 H4]]]]].
    rewrite H in H1. injection H1 as <- <- _.
    destruct (decode_told _ _ _ _ D C) as [m [rest [-> [Lm T]]]].
    rewrite Zr, Nat2Z.id, <- Lm, skipn_app, skipn_all, Nat.sub_diag in IH. cbn [app skipn] in IH.
    destruct (IH O) as [items [ls [I1 [I2 [I3 I4]]]]]; [split; auto|].
    exists (m :: items), (due_callbacks p :: ls). cbn [concat]. rewrite <- app_assoc, <- I1. split; [reflexivity|].
    split; [now constructor|]. split; [|exact I4]. rewrite callbacks_more, Cb, I3. reflexivity.
Qed.

(** Whatever arrives: without an exception it is such a stream. *)
Theorem C101_heard : forall now c chunks c' buf log,
  working now c -> receive (handle_data now) MAX_BUFFER_SIZE c [] chunks = (c', buf, log) -> no_raise log ->
  exists items ls, concat chunks = concat items ++ buf /\ Forall2 told items ls /\ untold buf
    /\ callbacks (effects log) = concat ls.
Proof.
  intros now c chunks c' buf log W R N. destruct chunks as [|d chunks].
  - injection R as <- <- <-. exists [], []. split; [reflexivity|]. split; [constructor|]. split; [now left|reflexivity].
  - apply (receive_stream _ (handle_data_stable now)) in R; [|exact N|discriminate]. cbn [app] in R.
    apply process_buffer_spec in R. destruct R as [calls P].
    destruct (processes_told _ _ _ _ _ _ _ _ P eq_refl W) as [items [ls [I1 [I2 [I3 I4]]]]]. exists items, ls. auto.
Qed.
Print Assumptions C101_heard.

(** No message says two things, and none begins with another: a stream can be
    taken apart in one way only. *)
Theorem C101_one_way : forall items ls rest items' ls' rest',
  Forall2 told items ls -> untold rest -> Forall2 told items' ls' -> untold rest' ->
  concat items ++ rest = concat items' ++ rest' -> items = items' /\ ls = ls' /\ rest = rest'.
Proof.
  intros items ls rest items' ls' rest' F U. revert items' ls'.
  assert (NU : forall m l r x, told m l -> untold x -> x <> m ++ r).
  { intros m l r x T Ux ->. apply told_decode in T. destruct T as [Nm T]. destruct (T r) as [ws [p [D _]]].
    assert (H := untold_waits (fun _ => COther) (new_client ClassPCI 0 true Pending) _ Ux). unfold handle_data in H. rewrite D in H.
    destruct p as [p|].
    - destruct (handle_cbus_packet _ p _) as [[? ?] [[]|?]]; [|discriminate]. injection H as _ _ H. destruct m; [congruence|cbn [length] in H; lia].
    - injection H as _ H. destruct m; [congruence|cbn [length] in H; lia]. }
  induction F as [|m l items ls T F IH]; intros items' ls' F' U' E.
  - destruct F' as [|m' l' items' ls' T' F']; [auto|exfalso]. cbn [concat app] in E. rewrite <- app_assoc in E.
    eapply NU in E; eauto.
  - destruct F' as [|m' l' items' ls' T' F'].
    + exfalso. cbn [concat app] in E. rewrite <- app_assoc in E. symmetry in E. eapply NU in E; eauto.
    + cbn [concat] in E. rewrite <- !app_assoc in E.
      destruct (proj2 (told_decode m l T) (concat items ++ rest)) as [ws [r [D <-]]].
      destruct (proj2 (told_decode m' l' T') (concat items' ++ rest')) as [ws' [r' [D' <-]]].
      rewrite E, D' in D. injection D as <- <- L.
      assert (m = m').
      { assert (X : firstn (length m) (m ++ concat items ++ rest) = firstn (length m') (m' ++ concat items' ++ rest')) by (rewrite E; congruence).
        now rewrite !firstn_app_length in X. }
      subst m'. apply app_inv_head in E. destruct (IH items' ls' F' U' E) as [-> [-> ->]]. auto.
Qed.
Print Assumptions C101_one_way.

Definition one_line_b (w : bytes) : bool := match find [13; 10] (w ++ [13; 10]) with Some e => Nat.eqb e (length w) | None => false end.
Lemma one_line_check w : one_line_b w = true -> one_line w.
Proof.
  unfold one_line_b. destruct (find [13; 10] (w ++ [13; 10])) as [e|] eqn:F; [|discriminate]. intros E a b Q.
  apply Nat.eqb_eq in E. apply find_some in F. destruct F as [_ [_ F]]. apply F in Q. lia.
Qed.

(** A power-on notice, an error, two confirmations, a lamp switched on and another
    dimmed by unit 4, a line with a wrong checksum, one that is no line of digits,
    and the beginning of the next, in pieces of five bytes. *)
Example C101_case :
  let on := b16encode [0x05; 4; 0x38; 0; 0x79; 10; 0x0A; 11; 128; 0xA7] in
  let wrong := b16encode [0x05; 4; 0x38; 0; 0x79; 10; 0] in
  let items := [[43]; [33]; [103; 46]; [104; 35]; on ++ [13; 10]; wrong ++ [13; 10]; [88; 13] ++ [13; 10]] in
  let ls := [[]; [CCannotAccept]; [CConfirmation [103] true]; [CConfirmation [104] false];
             [COn (Some 4) 10; CRamp (Some 4) 11 4 (PInt 128)]; []; []] in
  let rest := [48; 53; 13] in
  let chunks := pieces 1000 5 (concat items ++ rest) in
  let r := receive (handle_data noon) MAX_BUFFER_SIZE (mkClient ClassPCI true 7 10 true Pending false 3 1) [] chunks in
  Forall2 told items ls /\ untold rest /\ concat chunks = concat items ++ rest /\ gentle 22 chunks items rest
  /\ Forall (fun x => snd x = Ok tt) (snd r) /\ callbacks (effects (snd r)) = concat ls /\ snd (fst r) = rest.
Proof.
  set (on := b16encode _). set (wrong := b16encode _). cbv zeta.
  assert (Quiet : forall w p, decode_packet (w ++ [13; 10]) true true true = ([], Ok (Some p, (length w + 2)%nat)) ->
     ~ data_packet p -> forall q n ws, ~ reply_line_says true true (w ++ [13; 10]) q n ws).
  { intros w p D Np q n ws H. assert (Dp := reply_line_data _ _ _ _ _ _ H). apply C100_from_pci in H; [|exact Dp].
    rewrite D in H. injection H as _ <- _. contradiction. }
  split; [|split; [|split; [vm_compute; reflexivity|split; [split; [|split]; vm_compute; repeat constructor|split; [vm_compute; repeat (apply Forall_cons; [reflexivity|]); apply Forall_nil|split; vm_compute; reflexivity]]]]].
  - apply Forall2_cons; [constructor|]. apply Forall2_cons; [constructor|].
    apply Forall2_cons; [apply told_confirmed; unfold is_code; lia|]. apply Forall2_cons; [apply told_refused; unfold is_code; lia|].
    apply Forall2_cons.
    { apply (told_commands on (mkHdr true 0 (Some 4) None) (Some 0x38) [LightOn 10; LightRamp 11 4 (PInt 128)] []).
      apply C100_from_pci; [exact Logic.I|vm_compute; reflexivity]. }
    apply Forall2_cons.
    { apply told_nothing; [cbn; unfold is_code; lia|apply one_line_check; reflexivity| |].
      - intros [_ [_ [H|H]]]; vm_compute in H; discriminate.
      - eapply Quiet; [vm_compute; reflexivity|exact (fun x => x)]. }
    apply Forall2_cons; [|constructor]. apply told_nothing; [cbn; unfold is_code; lia|apply one_line_check; reflexivity| |].
    + intros [_ [H _]]. apply Forall_inv in H. unfold hex_char in H. lia.
    + eapply (Quiet [88; 13]); [vm_compute; reflexivity|exact (fun x => x)].
  - right; right. split; [cbn; unfold is_code; lia|]. intros a b E. apply find_none_iff with (p := [13; 10]) (a := a) (b := b) in E; [exact E|reflexivity].
Qed.
