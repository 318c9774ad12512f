(** Lemmas on the stream of messages from an emulator to a client. *)
From Coq Require Import String List ZArith Bool Lia.
From Verif Require Import Py Common Sal Cal Packet Text Mqtt Buffered Client Server Base Spec Spec_client Spec_server
  Spec_system Common_facts Sal_facts Packet_facts Packet_roundtrip Packet_decode Packet_total Buffer_facts
  Client_facts Client_steps Client_send Client_calls Client_dispatch Server_facts System_facts.
Import ListNotations.
Open Scope Z_scope.

(** ** What a client makes of a stream of replies *)

Inductive reading : list bytes -> list packet -> Prop :=
| rd_nil : reading [] []
| rd_packet m p msgs ps : m <> [] ->
    (forall rest, decode_packet (m ++ rest) true true true = ([], Ok (Some p, length m))) ->
    reading msgs ps -> reading (m :: msgs) (p :: ps)
| rd_nothing m msgs ps : m <> [] ->
    (forall rest, decode_packet (m ++ rest) true true true = ([], Ok (None, length m))) ->
    reading msgs ps -> reading (m :: msgs) ps.

Lemma reading_app a pa : reading a pa -> forall b pb, reading b pb -> reading (a ++ b) (pa ++ pb).
Proof. induction 1; intros b pb R; cbn [app]; [exact R|constructor; auto|apply rd_nothing; auto]. Qed.

(** A prefix of a message is not yet decoded. *)
Lemma reading_prefix m op q t :
  (forall rest, decode_packet (m ++ rest) true true true = ([], Ok (op, length m))) ->
  t <> [] -> m = q ++ t -> decode_packet q true true true = ([], Ok (None, 0%nat)).
Proof.
  intros D N ->. destruct (from_pci_cases q true true) as [[E _]|[C _]]; [exact E|exfalso].
  assert (X := D []). rewrite app_nil_r, (from_pci_stable _ _ _ _ C) in X.
  apply from_pci_position in X. destruct X as [X _]. rewrite app_length in X.
  destruct t; [congruence|cbn [length] in X; lia].
Qed.

Section Streams.
  Context {St Ev : Type} (h : handler St Ev).

  (** The handler takes [m] as one message, leads from [st] to [st'] by it, and
      waits while it is incomplete. *)
  Definition takes (st : St) (m : bytes) (st' : St) (ev : list Ev) : Prop :=
    m <> [] /\ (forall rest, h st (m ++ rest) = (st', ev, Ok (Z.of_nat (length m))))
    /\ forall q t, t <> [] -> m = q ++ t -> h st q = (st, [], Ok 0).
  Inductive stream : St -> list bytes -> St -> list Ev -> Prop :=
  | st_nil st : stream st [] st []
  | st_cons st m st1 ev msgs st2 ev2 : takes st m st1 ev -> stream st1 msgs st2 ev2 ->
      stream st (m :: msgs) st2 (ev ++ ev2).

  Lemma stream_nonempty st msgs st' ev : stream st msgs st' ev -> Forall (fun m => m <> []) msgs.
  Proof. induction 1 as [|st m st1 ev msgs st2 ev2 [N _]]; constructor; auto. Qed.

  Lemma stream_part st msgs st' ev : stream st msgs st' ev -> forall x rest, x ++ rest = concat msgs ->
    exists calls st1 x1 ev1 m1 m2 ev2, processes h st x calls st1 x1 ev1 (Ok tt)
      /\ msgs = m1 ++ m2 /\ ev = ev1 ++ ev2 /\ stream st1 m2 st' ev2
      /\ x1 ++ rest = concat m2 /\ partial x1 m2.
  Proof.
    induction 1 as [st|st m st1 ev msgs st2 ev2 [N [T1 T2]] S IH]; intros x rest E.
    - cbn in E. apply app_eq_nil in E. destruct E as [-> ->].
      exists [], st, [], [], [], [], []. split; [constructor|].
      split; [reflexivity|]. split; [reflexivity|]. split; [constructor|]. split; [reflexivity|now left].
    - cbn [concat] in E. destruct (app_split _ _ _ _ E) as [[t [Nt Em]]|[t [-> Q]]].
      + destruct x as [|b x].
        * exists [], st, [], [], [], (m :: msgs), (ev ++ ev2). split; [constructor|].
          split; [reflexivity|]. split; [reflexivity|]. split; [now apply st_cons with st1; [split; auto|]|].
          split; [exact E|now left].
        * exists [b :: x], st, (b :: x), [], [], (m :: msgs), (ev ++ ev2). split.
          { apply pr_wait; [discriminate|]. now apply (T2 _ t). }
          split; [reflexivity|]. split; [reflexivity|]. split; [now apply st_cons with st1; [split; auto|]|].
          split; [exact E|right; exists m, msgs, t; auto].
      + destruct (IH t rest (eq_sym Q)) as [calls [s1 [x1 [e1 [m1 [m2 [e2 [I1 [-> [-> [I4 [I5 I6]]]]]]]]]]]].
        exists ((m ++ t) :: calls), s1, x1, (ev ++ e1), (m :: m1), m2, e2. split.
        { apply pr_next with st1 (Z.of_nat (length m)).
          - intros X. apply app_eq_nil in X. tauto.
          - apply T1.
          - destruct m; [congruence|cbn [length]; lia].
          - rewrite Nat2Z.id, skipn_app, skipn_all, Nat.sub_diag. exact I1. }
        rewrite app_assoc. split; [reflexivity|]. auto.
  Qed.

  (** In whatever pieces a stream arrives, its messages are taken in order and
      nothing is left over. *)
  Lemma stream_delivered chunks : forall st msgs st' ev buf st2 buf2 log,
    stream st msgs st' ev -> partial buf msgs -> buf ++ concat chunks = concat msgs ->
    receive h MAX_BUFFER_SIZE st buf chunks = (st2, buf2, log) ->
    (Forall (fun x => snd x <> Raise ValueError) log \/ exists size, moderate size chunks msgs) ->
    st2 = st' /\ buf2 = [] /\ effects log = ev /\ Forall (fun x => snd x = Ok tt) log.
  Proof.
    induction chunks as [|d chunks IH]; intros st msgs st' ev buf st2 buf2 log S P E R U; cbn [receive concat] in *.
    - rewrite app_nil_r in E. destruct (partial_all _ _ P (stream_nonempty _ _ _ _ S) E) as [-> ->].
      inversion S; subst. inversion R; subst. repeat split; constructor.
    - destruct (data_received h MAX_BUFFER_SIZE st buf d) as [[[s1 b1] e1] r1] eqn:D.
      destruct (receive h MAX_BUFFER_SIZE s1 b1 chunks) as [[s2 b2] log2] eqn:R2. inversion R; subst.
      assert (W : (length buf + length d <= MAX_BUFFER_SIZE)%nat).
      { destruct U as [U|[size U]]; [|exact (moderate_bound _ _ _ _ _ U P)].
        inversion U; subst. cbn [snd] in *. unfold data_received in D.
        destruct (Nat.ltb MAX_BUFFER_SIZE (length d)) eqn:L1; [inversion D; congruence|].
        destruct (Nat.ltb MAX_BUFFER_SIZE (length buf + length d)) eqn:L2; [inversion D; congruence|].
        now apply Nat.ltb_ge in L2. }
      unfold data_received in D.
      replace (Nat.ltb MAX_BUFFER_SIZE (length d)) with false in D by (symmetry; apply Nat.ltb_ge; lia).
      replace (Nat.ltb MAX_BUFFER_SIZE (length buf + length d)) with false in D by (symmetry; apply Nat.ltb_ge; lia).
      rewrite app_assoc in E.
      destruct (stream_part _ _ _ _ S _ _ E) as [calls [s3 [x3 [e3 [m1 [m2 [e4 [I1 [-> [-> [I4 [I5 I6]]]]]]]]]]]].
      apply processes_buffer in I1. rewrite I1 in D. inversion D; subst.
      destruct (IH _ _ _ _ _ _ _ _ I4 I6 I5 R2) as [-> [-> [<- F]]].
      { destruct U as [U|[size U]]; [left; now inversion U|right; exists size; now apply moderate_app in U]. }
      repeat split; auto.
  Qed.
End Streams.

Lemma reading_notes msgs ps : reading msgs ps -> stream notes tt msgs tt ps.
Proof.
  induction 1 as [|m p msgs ps N D R IH|m msgs ps N D R IH]; [constructor| |].
  - apply (st_cons notes tt m tt [p] msgs tt ps); [|exact IH]. split; [exact N|]. split.
    + intros rest. unfold notes. now rewrite D.
    + intros q t T E. unfold notes. now rewrite (reading_prefix _ _ _ _ D T E).
  - apply (st_cons notes tt m tt [] msgs tt ps); [|exact IH]. split; [exact N|]. split.
    + intros rest. unfold notes. now rewrite D.
    + intros q t T E. unfold notes. now rewrite (reading_prefix _ _ _ _ D T E).
Qed.

Lemma reading_treats now msgs ps : reading msgs ps -> forall c c' ev, treats now c ps c' ev ->
  stream (handle_data now) c msgs c' ev.
Proof.
  induction 1 as [|m p msgs ps N D R IH|m msgs ps N D R IH]; intros c c' ev T.
  - inversion T; subst. constructor.
  - inversion T as [|c0 p0 c1 e1 ps0 c2 e2 H1 H2]; subst. apply st_cons with c1; [|now apply IH]. split; [exact N|]. split.
    + intros rest. unfold handle_data. rewrite D, H1. reflexivity.
    + intros q t Nt E. unfold handle_data. now rewrite (reading_prefix _ _ _ _ D Nt E).
  - apply (st_cons _ c m c [] msgs c' ev); [|now apply IH]. split; [exact N|]. split.
    + intros rest. unfold handle_data. rewrite D. reflexivity.
    + intros q t Nt E. unfold handle_data. now rewrite (reading_prefix _ _ _ _ D Nt E).
Qed.

(** The messages of an emulator. *)
Lemma crlf_nothing rest : decode_packet ([13; 10] ++ rest) true true true = ([], Ok (None, 2%nat)).
Proof.
  change ([13; 10] ++ rest) with ([] ++ 13 :: 10 :: rest). rewrite from_pci_line; [reflexivity| |exact I].
  intros a b _. cbn. lia.
Qed.

Lemma conveys_reading p ps : conveys p ps ->
  exists w msgs, serialize_packet p = Ok w /\ concat msgs = w /\ reading msgs ps
    /\ Forall (fun m => (length m <= length w)%nat) msgs.
Proof.
  assert (Line : forall p p', (exists w, encode_packet p = Ok w /\ forall rest,
       decode_packet (w ++ [13; 10] ++ rest) true true true = ([], Ok (Some p', (length w + 2)%nat))) ->
     (match p with PktConfirm _ _ => False | _ => True end) ->
     exists w msgs, serialize_packet p = Ok w /\ concat msgs = w /\ reading msgs [p']
       /\ Forall (fun m => (length m <= length w)%nat) msgs).
  { intros p0 p' [w [E D]] NC. exists (w ++ [13; 10]), [w ++ [13; 10]]. split.
    { unfold serialize_packet. rewrite E. destruct p0; try contradiction; reflexivity. }
    split; [cbn; now rewrite app_nil_r|]. split; [|constructor; [lia|constructor]].
    apply rd_packet; [destruct w; discriminate| |constructor].
    intros rest. rewrite <- app_assoc, D, app_length. reflexivity. }
  assert (Uni : forall pk w0, encode_packet pk = Ok w0 -> forall (Q : bytes -> bytes -> Prop),
     (forall rest, exists w, encode_packet pk = Ok w /\ Q w rest) -> forall rest, Q w0 rest).
  { intros pk w0 E0 Q F rest. destruct (F rest) as [w [E K]]. congruence. }
  destruct 1 as [c ok C| | |prio src a cmds cmds' P S A F|prio src q v P S|prio src u cals cals' P S U F1 F2].
  - exists [c; if ok then 46 else 35], [[c; if ok then 46 else 35]].
    split; [destruct ok; reflexivity|]. split; [reflexivity|]. split; [|constructor; [lia|constructor]].
    apply rd_packet; [discriminate| |constructor]. intros rest. unfold decode_packet. cbn [app].
    unfold is_code in C. replace (c =? 43) with false by lia. replace (c =? 33) with false by lia.
    replace (mem c CONFIRMATION_CODES) with true.
    + destruct ok; reflexivity.
    + symmetry. unfold mem. apply existsb_exists. exists c. split; [|lia]. now apply code_spec.
  - exists [43; 43; 13; 10], [[43]; [43]; [13; 10]]. repeat split; [|repeat constructor].
    apply rd_packet; [discriminate|reflexivity|]. apply rd_packet; [discriminate|reflexivity|].
    apply rd_nothing; [discriminate|exact crlf_nothing|constructor].
  - exists [33; 13; 10], [[33]; [13; 10]]. repeat split; [|repeat constructor].
    apply rd_packet; [discriminate|reflexivity|].
    apply rd_nothing; [discriminate|exact crlf_nothing|constructor].
  - apply Line; [|exact I].
    destruct (pm_from_pci true true prio src a cmds cmds' [] A F P ltac:(unfold byte; lia)) as [w [E _]].
    exists w. split; [exact E|]. intros rest.
    destruct (pm_from_pci true true prio src a cmds cmds' rest A F P ltac:(unfold byte; lia)) as [w' [E' D]].
    assert (w' = w) by congruence. subst w'. replace (src =? 0) with false in D by lia. exact D.
  - apply Line; [|exact I].
    destruct (dm_from_pci true true prio src q v [] P ltac:(unfold byte; lia)) as [w [E _]].
    exists w. split; [exact E|]. intros rest.
    destruct (dm_from_pci true true prio src q v rest P ltac:(unfold byte; lia)) as [w' [E' D]].
    assert (w' = w) by congruence. subst w'. replace (src =? 0) with false in D by lia. exact D.
  - apply Line; [|exact I].
    destruct (pp_from_pci true true prio src u cals cals' [] F1 F2 P ltac:(unfold byte; lia) U) as [w [E _]].
    exists w. split; [exact E|]. intros rest.
    destruct (pp_from_pci true true prio src u cals cals' rest F1 F2 P ltac:(unfold byte; lia) U) as [w' [E' D]].
    assert (w' = w) by congruence. subst w'. replace (src =? 0) with false in D by lia. exact D.
Qed.
