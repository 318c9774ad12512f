(** Lemmas on streams of messages between a client and an emulator. *)
From Coq Require Import String List ZArith Bool Lia.
From Verif Require Import Py Common Sal Cal Packet Text Mqtt Buffered Client Server Base Spec Spec_client Spec_server
  Spec_system Common_facts Sal_facts Packet_facts Packet_roundtrip Packet_decode Packet_total Buffer_facts
  Client_facts Client_steps Client_send Client_calls Client_dispatch Server_facts.
Import ListNotations.
Open Scope Z_scope.

(** ** Prefixes *)

Lemma app_split {A} (a b c d : list A) : a ++ b = c ++ d ->
  (exists t, t <> [] /\ c = a ++ t) \/ exists t, a = c ++ t /\ d = t ++ b.
Proof.
  revert c. induction a as [|x a IH]; intros c E.
  - destruct c as [|y c]; [right; exists []; auto|]. left. exists (y :: c). split; [discriminate|reflexivity].
  - destruct c as [|y c]; cbn [app] in E.
    + right. exists (x :: a). auto.
    + inversion E; subst. destruct (IH c H1) as [[t [N ->]]|[t [-> ->]]]; [left|right]; exists t; auto.
Qed.

(** [buf] is nothing or the beginning of the first of the messages. *)
Definition partial (buf : bytes) (msgs : list bytes) : Prop :=
  buf = [] \/ exists m msgs' t, msgs = m :: msgs' /\ t <> [] /\ m = buf ++ t.

Lemma partial_all buf msgs : partial buf msgs -> Forall (fun m => m <> []) msgs -> buf = concat msgs ->
  buf = [] /\ msgs = [].
Proof.
  intros P F E. destruct P as [->|[m [msgs' [t [-> [N ->]]]]]].
  - destruct F as [|m msgs N F]; [auto|]. cbn [concat] in E. symmetry in E. apply app_eq_nil in E. tauto.
  - exfalso. cbn [concat] in E. apply (f_equal (@length Z)) in E. rewrite !app_length in E.
    destruct t; [congruence|cbn [length] in E; lia].
Qed.

(** ** What an emulator makes of a stream of commands *)

Inductive script : list packet -> list bytes -> list packet -> Prop :=
| sc_nil ps : script ps [] []
| sc_packet ps m p msgs pks : m <> [] ->
    (forall rest, decode_packet (m ++ rest) (m_checksum (latest ps)) true false = ([], Ok (Some p, length m))) ->
    (forall c, p <> PktCal c) -> existsb presence_request (heard (commands_of p)) = false ->
    script (p :: ps) msgs pks -> script ps (m :: msgs) (p :: pks)
| sc_nothing ps m msgs pks : m <> [] ->
    (forall rest, decode_packet (m ++ rest) (m_checksum (latest ps)) true false = ([], Ok (None, length m))) ->
    script ps msgs pks -> script ps (m :: msgs) pks.

Lemma script_app ps a pa : script ps a pa -> forall b pb, script (rev pa ++ ps) b pb -> script ps (a ++ b) (pa ++ pb).
Proof.
  induction 1 as [ps|ps m p msgs pks N D C R S IH|ps m msgs pks N D S IH]; intros b pb T.
  - exact T.
  - cbn [app]. apply sc_packet; auto. apply IH. cbn [rev] in T. rewrite <- app_assoc in T. exact T.
  - cbn [app]. apply sc_nothing; auto.
Qed.
Lemma script_nonempty ps msgs pks : script ps msgs pks -> Forall (fun m => m <> []) msgs.
Proof. induction 1; constructor; auto. Qed.

(** The actions for a stream of commands. *)
Inductive plays (rnd : nat -> Z)
  : list packet -> list bytes -> nat -> list bytes -> list action -> list packet -> list bytes -> nat -> Prop :=
| pl_nil ps q d : plays rnd ps q d [] [] ps q d
| pl_packet ps q d m p out q1 d1 msgs acts ps2 q2 d2 :
    (forall rest, decode_packet (m ++ rest) (m_checksum (latest ps)) true false = ([], Ok (Some p, length m))) ->
    existsb presence_request (heard (commands_of p)) = false ->
    replies rnd (m_checksum (latest ps)) p q d out q1 d1 ->
    plays rnd (p :: ps) q1 d1 msgs acts ps2 q2 d2 ->
    plays rnd ps q d (m :: msgs) (Got m (Some p) (echo_of (latest ps) m) out :: acts) ps2 q2 d2
| pl_nothing ps q d m msgs acts ps2 q2 d2 :
    (forall rest, decode_packet (m ++ rest) (m_checksum (latest ps)) true false = ([], Ok (None, length m))) ->
    plays rnd ps q d msgs acts ps2 q2 d2 ->
    plays rnd ps q d (m :: msgs) (Got m None (echo_of (latest ps) m) [] :: acts) ps2 q2 d2.

Lemma plays_app rnd ps q d m1 a1 ps1 q1 d1 : plays rnd ps q d m1 a1 ps1 q1 d1 ->
  forall m2 a2 ps2 q2 d2, plays rnd ps1 q1 d1 m2 a2 ps2 q2 d2 -> plays rnd ps q d (m1 ++ m2) (a1 ++ a2) ps2 q2 d2.
Proof.
  induction 1; intros m2 a2 ps2' q2' d2' P; cbn [app]; [exact P| |].
  - eapply pl_packet; eauto.
  - eapply pl_nothing; eauto.
Qed.
Lemma plays_past rnd ps q d m a ps' q' d' : plays rnd ps q d m a ps' q' d' ->
  ps' = rev (flat_map action_packet a) ++ ps.
Proof.
  induction 1; cbn [flat_map action_packet app]; auto.
  rewrite IHplays. cbn [rev]. now rewrite <- app_assoc.
Qed.

(** At the start of a buffer that begins a stream, the decoder finds either
    nothing yet or the first message. *)
Lemma head_of_stream ck buf rest m msgs op ws r :
  (forall ext, decode_packet (m ++ ext) ck true false = ([], Ok (op, length m))) -> (forall c, op <> Some (PktCal c)) ->
  m <> [] -> buf ++ rest = concat (m :: msgs) -> decode_packet buf ck true false = (ws, r) ->
  (r = Ok (None, 0%nat) /\ exists t, t <> [] /\ m = buf ++ t)
  \/ (ws = [] /\ r = Ok (op, length m) /\ exists t, buf = m ++ t /\ concat msgs = t ++ rest).
Proof.
  intros D C N E B. cbn [concat] in E. destruct (app_split _ _ _ _ E) as [[t [T ->]]|[t [-> Q]]].
  - left. destruct (to_pci_cases buf ck true) as [[W _]|[K _]].
    + rewrite W in B. inversion B; subst. split; [reflexivity|]. now exists t.
    + exfalso. assert (X := D []). rewrite app_nil_r, (to_pci_stable _ _ _ _ K) in X.
      destruct (to_pci_position _ _ _ _ _ _ X) as [[L _]|[pr [dg [cf [rs [raw [c [k [_ [_ [_ [_ [_ [_ [_ [Y _]]]]]]]]]]]]]]]].
      * rewrite app_length in L. destruct t; [congruence|cbn [length] in L; lia].
      * exact (C _ Y).
  - right. rewrite D in B. inversion B; subst. split; [reflexivity|]. split; [reflexivity|]. now exists t.
Qed.

Lemma handles_script rnd s acts r s' : handles rnd s acts r s' ->
  forall msgs pks rest, script (past s) msgs pks -> pending s ++ rest = concat msgs ->
  r = Ok tt /\ exists m1 m2 p2, msgs = m1 ++ m2
    /\ pks = flat_map action_packet acts ++ p2 /\ script (past s') m2 p2
    /\ pending s' ++ rest = concat m2 /\ partial (pending s') m2
    /\ plays rnd (past s) (queued s) (drawn s) m1 acts (past s') (queued s') (drawn s').
Proof.
  induction 1 as [ps q d|ps buf q d B D|ps buf q d ws e D|ps buf q d ws p n pre ga post q' d' D Mb Hd Em
                 |ps buf q d ws p n out q' d' acts r s' D N Rf Rp H IH
                 |ps buf q d ws n acts r s' D N H IH];
    intros msgs pks rest S E; cbn [past pending queued drawn] in *.
  - split; [reflexivity|]. exists [], msgs, pks. repeat split; auto; [now left|constructor].
  - split; [reflexivity|]. exists [], msgs, pks. repeat split; auto; [|constructor].
    destruct S as [ps|ps m p msgs pks Nm Dm Cm Rm S|ps m msgs pks Nm Dm S].
    + cbn in E. apply app_eq_nil in E. tauto.
    + destruct (head_of_stream _ _ _ _ _ _ _ _ Dm ltac:(intros c X; inversion X; exact (Cm c H0)) Nm E D)
        as [[_ [t [T ->]]]|[_ [X _]]]; [|discriminate].
      right. exists (buf ++ t), msgs, t. auto.
    + destruct (head_of_stream _ _ _ _ _ _ _ _ Dm ltac:(discriminate) Nm E D) as [[_ [t [T ->]]]|[_ [X _]]].
      * right. exists (buf ++ t), msgs, t. auto.
      * inversion X. destruct m; [congruence|discriminate].
  - exfalso. destruct S as [ps|ps m p msgs pks Nm Dm Cm Rm S|ps m msgs pks Nm Dm S].
    + cbn in E. apply app_eq_nil in E. destruct E as [-> _]. discriminate D.
    + destruct (head_of_stream _ _ _ _ _ _ _ _ Dm ltac:(intros c X; inversion X; exact (Cm c H0)) Nm E D)
        as [[X _]|[_ [X _]]]; discriminate.
    + destruct (head_of_stream _ _ _ _ _ _ _ _ Dm ltac:(discriminate) Nm E D) as [[X _]|[_ [X _]]]; discriminate.
  - exfalso. destruct S as [ps|ps m p0 msgs pks Nm Dm Cm Rm S|ps m msgs pks Nm Dm S].
    + cbn in E. apply app_eq_nil in E. destruct E as [-> _]. discriminate D.
    + destruct (head_of_stream _ _ _ _ _ _ _ _ Dm ltac:(intros c X; inversion X; exact (Cm c H0)) Nm E D)
        as [[X _]|[_ [X _]]]; [discriminate|]. inversion X; subst.
      rewrite Hd, existsb_app in Rm. apply orb_false_iff in Rm. destruct Rm as [_ Rm].
      cbn [existsb presence_request negb andb Z.eqb Pos.eqb orb] in Rm. discriminate.
    + destruct (head_of_stream _ _ _ _ _ _ _ _ Dm ltac:(discriminate) Nm E D) as [[X _]|[_ [X _]]]; discriminate.
  - destruct S as [ps|ps m p0 msgs pks Nm Dm Cm Rm S|ps m msgs pks Nm Dm S].
    + cbn in E. apply app_eq_nil in E. destruct E as [-> _]. discriminate D.
    + destruct (head_of_stream _ _ _ _ _ _ _ _ Dm ltac:(intros c X; inversion X; exact (Cm c H1)) Nm E D)
        as [[X _]|[_ [X [t [-> T]]]]]; [discriminate|]. inversion X; subst.
      rewrite skipn_app, skipn_all, Nat.sub_diag in IH. cbn [app skipn] in IH.
      rewrite firstn_app, firstn_all, Nat.sub_diag. cbn [firstn]. rewrite app_nil_r.
      destruct (IH msgs pks rest S (eq_sym T)) as [-> [m1 [m2 [p2 [-> [-> [I3 [I4 [I5 I6]]]]]]]]].
      split; [reflexivity|]. exists (m :: m1), m2, p2. repeat split; auto. eapply pl_packet; eauto.
    + destruct (head_of_stream _ _ _ _ _ _ _ _ Dm ltac:(discriminate) Nm E D) as [[X _]|[_ [X _]]]; discriminate.
  - destruct S as [ps|ps m p0 msgs pks Nm Dm Cm Rm S|ps m msgs pks Nm Dm S].
    + cbn in E. apply app_eq_nil in E. destruct E as [-> _]. cbn in D. inversion D. lia.
    + destruct (head_of_stream _ _ _ _ _ _ _ _ Dm ltac:(intros c X; inversion X; exact (Cm c H1)) Nm E D)
        as [[X _]|[_ [X _]]]; inversion X; lia.
    + destruct (head_of_stream _ _ _ _ _ _ _ _ Dm ltac:(discriminate) Nm E D)
        as [[X _]|[_ [X [t [-> T]]]]]; [inversion X; lia|]. inversion X; subst.
      rewrite skipn_app, skipn_all, Nat.sub_diag in IH. cbn [app skipn] in IH.
      rewrite firstn_app, firstn_all, Nat.sub_diag. cbn [firstn]. rewrite app_nil_r.
      destruct (IH msgs pks rest S (eq_sym T)) as [-> [m1 [m2 [p2 [-> [-> [I3 [I4 [I5 I6]]]]]]]]].
      split; [reflexivity|]. exists (m :: m1), m2, p2. repeat split; auto. eapply pl_nothing; eauto.
Qed.

(** Either nothing was dropped, or nothing could be. *)
Definition undropped (log : list (list action * res unit)) (chunks msgs : list bytes) : Prop :=
  Forall (fun x => snd x <> Raise ValueError) log \/ exists size, moderate size chunks msgs.

Lemma moderate_app size chunks m1 m2 d : moderate size (d :: chunks) (m1 ++ m2) -> moderate size chunks m2.
Proof.
  intros [A [B C]]. apply Forall_app in B. inversion C; subst. repeat split; tauto.
Qed.
Lemma moderate_bound size chunks msgs d buf : moderate size (d :: chunks) msgs -> partial buf msgs ->
  (length buf + length d <= 256)%nat.
Proof.
  intros [A [B C]] P. inversion C; subst. destruct P as [->|[m [msgs' [t [-> [N ->]]]]]]; [cbn; lia|].
  inversion B; subst. rewrite app_length in *. destruct t; [congruence|cbn [length] in *; lia].
Qed.

Lemma proceeds_script rnd chunks : forall s log s', proceeds rnd s (map SOpData chunks) log s' ->
  forall msgs pks, script (past s) msgs pks -> pending s ++ concat chunks = concat msgs ->
  partial (pending s) msgs -> undropped log chunks msgs ->
  Forall (fun x => snd x = Ok tt) log /\ flat_map action_packet (actions log) = pks /\ pending s' = []
  /\ past s' = rev pks ++ past s
  /\ plays rnd (past s) (queued s) (drawn s) msgs (actions log) (past s') (queued s') (drawn s').
Proof.
  induction chunks as [|d chunks IH]; intros s log s' P msgs pks S E K U; cbn [map concat] in *.
  - inversion P; subst. rewrite app_nil_r in E. destruct (partial_all _ _ K (script_nonempty _ _ _ S) E) as [Z0 ->].
    inversion S; subst. split; [constructor|]. split; [reflexivity|]. split; [exact Z0|]. split; [reflexivity|constructor].
  - inversion P as [|s0 o ops acts r log2 s1 s2 Pf Pc]; subst.
    assert (W : (length (pending s) + length d <= 256)%nat).
    { destruct U as [U|[size U]]; [|now apply (moderate_bound size chunks msgs)].
      inversion U as [|x y U1 U2]; subst. inversion Pf; subst; cbn [snd pending] in *; try congruence; exfalso;
        (eapply announces_not_data; [eassumption|reflexivity]) || (eapply declines_not_data; [eassumption|reflexivity]). }
    inversion Pf as [? ? B|? ? ? ? ? B1 B2|ps buf q dr data acts' r' s'' B H|? ? ? ? ? ? B|? ? ? B]; subst;
      cbn [past pending queued drawn] in *; try lia;
      try (exfalso; exact (announces_not_data _ _ _ B d eq_refl) || exact (declines_not_data _ _ B d eq_refl)).
    rewrite app_assoc in E.
    destruct (handles_script _ _ _ _ _ H msgs pks (concat chunks) S E)
      as [-> [m1 [m2 [p2 [-> [-> [H3 [H4 [H5 H6]]]]]]]]]. cbn [past pending queued drawn] in *.
    destruct (IH _ _ _ Pc m2 p2 H3 H4 H5) as [I1 [I2 [I3 [I4 I5]]]].
    { destruct U as [U|[size U]]; [left; now inversion U|right; exists size; now apply moderate_app in U]. }
    unfold actions in *. cbn [flat_map fst]. rewrite flat_map_app, I2.
    split; [constructor; auto|]. split; [reflexivity|]. split; [exact I3|]. split.
    + rewrite I4. rewrite (plays_past _ _ _ _ _ _ _ _ _ H6), rev_app_distr, <- app_assoc. reflexivity.
    + eapply plays_app; eauto.
Qed.
