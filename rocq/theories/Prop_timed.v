(** Time synchronisation in time: C74. *)
From Coq Require Import String List ZArith Bool Lia.
From Verif Require Import Py Common Sal Cal Packet Buffered Client Base Spec Spec_client Common_facts
  Buffer_facts Client_facts Client_steps Client_send Client_calls Client_dispatch Prop_client Loop_facts Timed Spec_timed.
Import ListNotations.
Notation length := List.length.
Open Scope Z_scope.

(** Times are in microseconds. *)
Notation second := 1000000.

(** ** Single steps *)

Definition settled (c : client) (ev : list cev) (c' : client) : Prop :=
  cl_frequency c' = cl_frequency c /\ cl_transport c' = cl_transport c /\ cl_tasks c' = cl_tasks c
  /\ spawned ev = 0%nat /\ (counter_ok c -> counter_ok c').
Lemma spawned_app a b : spawned (a ++ b) = (spawned a + spawned b)%nat.
Proof. unfold spawned. now rewrite filter_app, app_length. Qed.

Lemma settled_refl c : settled c [] c. Proof. repeat split; auto. Qed.
Lemma settled_trans c e1 c1 e2 c2 : settled c e1 c1 -> settled c1 e2 c2 -> settled c (e1 ++ e2) c2.
Proof.
  intros [A1 [A2 [A3 [A4 A5]]]] [B1 [B2 [B3 [B4 B5]]]]. unfold settled. rewrite spawned_app, A4, B4.
  repeat split; try congruence. auto.
Qed.
Lemma settled_reads c n : settled c [] (set_reads c n). Proof. repeat split; auto. Qed.
Lemma settled_emit c e : is_write e = false -> e <> CFutureDone -> e <> CSpawnTimesync -> settled c [e] c.
Proof. intros _ _ H. repeat split; auto. destruct e; try reflexivity. congruence. Qed.
Lemma settled_send p b : sendable p -> keeps settled (send p true b).
Proof.
  intros _ c c1 ev1 r1 F. unfold send in F.
  destruct (negb (cl_transport c)); [inversion F; subst; apply settled_refl|].
  destruct (negb (is_base_packet p)); [inversion F; subst; apply settled_refl|].
  destruct (encode_packet p); [|inversion F; subst; apply settled_refl].
  destruct (true && negb (is_special_client p)).
  - unfold mbind, get_confirmation_code in F.
    destruct (nth_error CONFIRMATION_CODES (cl_index c)) eqn:E; inversion F; subst; repeat split; auto;
      intros _; exact (Nat.mod_upper_bound (S (cl_index c)) 20 ltac:(discriminate)).
  - inversion F; subst. repeat split; auto.
Qed.
Lemma settled_api now st o st' ev r : o <> OpConnect -> o <> OpLost -> o <> OpTimesync ->
  client_step now st o = (st', ev, r) -> settled (fst st) ev (fst st').
Proof.
  intros N1 N2 N3 E.
  assert (K : forall m : M (option Z), keeps settled m ->
      match m (fst st) with (c, ev, r) => ((c, snd st), ev, r) end = (st', ev, r) -> settled (fst st) ev (fst st')).
  { intros m Hm F. destruct (m (fst st)) as [[c1 ev1] r1] eqn:Em. inversion F; subst. exact (Hm _ _ _ _ Em). }
  pose proof settled_refl as RR. pose proof settled_trans as RT. pose proof settled_reads as RD.
  pose proof settled_emit as RE. pose proof settled_send as RS.
  destruct o; try congruence; cbn [client_step api] in E.
  - destruct (data_received (handle_data now) MAX_BUFFER_SIZE (fst st) (snd st) b) as [[[c1 b1] ev1] [[]|e]] eqn:D;
      inversion E; subst; eapply (keeps_data_received settled); eauto.
  - apply (fun H => K _ H E). now apply keeps_groups.
  - apply (fun H => K _ H E). now apply keeps_groups.
  - apply (fun H => K _ H E). now apply keeps_groups.
  - apply (fun H => K _ H E). now apply keeps_ramp.
  - apply (fun H => K _ H E). now apply keeps_identify.
  - apply (fun H => K _ H E). now apply keeps_clock.
  - apply (fun H => K _ H E). apply keeps_seq; auto. now apply keeps_reset. now apply keeps_ret.
Qed.
Lemma step_connect now st st' ev r : counter_ok (fst st) -> client_step now st OpConnect = (st', ev, r) ->
  cl_frequency (fst st') = cl_frequency (fst st) /\ cl_transport (fst st') = true /\ counter_ok (fst st')
  /\ spawned ev = (if cl_frequency (fst st) =? 0 then 0%nat else 1%nat)
  /\ cl_tasks (fst st') = (cl_tasks (fst st) + spawned ev)%nat.
Proof.
  intros I S. cbn [client_step api] in S. unfold mseq, mbind in S. rewrite (connect_outcome _ I) in S. cbn zeta in S.
  assert (K : forall n, counter_ok (set_index (set_transport (fst st) true) (n mod 20))).
  { intros n. unfold counter_ok. cbn [cl_index set_index]. apply Nat.mod_upper_bound. discriminate. }
  destruct (cl_frequency (fst st) =? 0) eqn:F; inversion S; subst; clear S.
  - split; [reflexivity|]. split; [reflexivity|]. split; [apply K|]. split; [reflexivity|].
    cbn. now rewrite Nat.add_0_r.
  - split; [reflexivity|]. split; [reflexivity|]. split; [apply K|]. split; [reflexivity|].
    cbn. now rewrite Nat.add_1_r.
Qed.
Lemma step_lost now st st' ev r : client_step now st OpLost = (st', ev, r) ->
  cl_frequency (fst st') = cl_frequency (fst st) /\ cl_transport (fst st') = false
  /\ (counter_ok (fst st) -> counter_ok (fst st')) /\ spawned ev = 0%nat /\ cl_tasks (fst st') = cl_tasks (fst st).
Proof.
  cbn [client_step api]. unfold mseq, mbind, connection_lost. cbn [cl_future set_transport]. intros S.
  destruct (cl_future (fst st)); inversion S; subst; cbn; auto.
Qed.
Lemma step_tick now st st' ev r : counter_ok (fst st) -> clock_works now -> (0 < cl_tasks (fst st))%nat ->
  client_step now st OpTimesync = (st', ev, r) ->
  cl_frequency (fst st') = cl_frequency (fst st) /\ cl_transport (fst st') = cl_transport (fst st) /\ counter_ok (fst st')
  /\ ((cl_frequency (fst st) <= 0 /\ ev = [] /\ r = Ok None /\ S (cl_tasks (fst st')) = cl_tasks (fst st))
      \/ (0 < cl_frequency (fst st) /\ cl_transport (fst st) = false /\ ev = [] /\ r = Raise OSError
          /\ S (cl_tasks (fst st')) = cl_tasks (fst st))
      \/ (0 < cl_frequency (fst st) /\ cl_transport (fst st) = true /\ r = Ok None /\ cl_tasks (fst st') = cl_tasks (fst st)
          /\ cl_reads (fst st') = S (cl_reads (fst st))
          /\ exists line, ev = [CWrite line] /\ tells_time (now (cl_reads (fst st))) line)).
Proof.
  intros I N T. cbn [client_step api]. unfold mseq, mbind, timesync_step.
  replace (Nat.eqb (cl_tasks (fst st)) 0) with false by (symmetry; apply Nat.eqb_neq; lia).
  destruct (cl_frequency (fst st) <=? 0) eqn:F; intros S.
  - apply Z.leb_le in F. inversion S; subst. cbn [fst cl_frequency cl_transport cl_tasks set_tasks].
    repeat split; auto. left. repeat split; auto. lia.
  - apply Z.leb_gt in F. destruct (clock_outcome now None (fst st) I) as [_ [H2 H3]]; [discriminate|exact N|].
    assert (V : now (cl_reads (fst st)) <> COther).
    { destruct (N (cl_reads (fst st))) as [y [m [d [h [mi [s [us [-> _]]]]]]]]. discriminate. }
    destruct (cl_transport (fst st)) eqn:C.
    + destruct (H3 V eq_refl) as [b [E [L D]]]. rewrite E in S. inversion S; subst.
      cbn [fst cl_frequency cl_transport cl_tasks cl_reads set_index set_reads].
      split; [reflexivity|]. split; [exact C|].
      split; [exact (Nat.mod_upper_bound (cl_index (fst st) + 1) 20 ltac:(discriminate))|].
      right. right. repeat split; auto. exists b. split; [reflexivity|]. exists (code_at (cl_index (fst st)) 0). auto.
    + rewrite (H2 V eq_refl) in S. inversion S; subst.
      cbn [fst cl_frequency cl_transport cl_tasks cl_reads set_index set_reads set_tasks].
      split; [reflexivity|]. split; [exact C|]. split; [exact I|]. right. left. repeat split; auto. lia.
Qed.

(** ** Histories *)

Lemma linked_app b tr x : linked_from b (tr ++ x) = linked_from (linked_from b tr) x.
Proof. revert b. induction tr as [|[t [[]|]] tr IH]; intros b0; cbn [app linked_from]; auto. Qed.
Lemma connections_app a b : connections (a ++ b) = (connections a + connections b)%nat.
Proof. unfold connections. now rewrite filter_app, app_length. Qed.
Lemma updates_app a b : updates (a ++ b) = updates a ++ updates b.
Proof. apply flat_map_app. Qed.
Lemma timed_run_app now l1 l2 : forall w, timed_run now w (l1 ++ l2) =
  match timed_run now w l1 with (w1, tr1) => match timed_run now w1 l2 with (w2, tr2) => (w2, tr1 ++ tr2) end end.
Proof.
  induction l1 as [|o l1 IH]; intros w; cbn [app timed_run].
  - now destruct (timed_run now w l2).
  - destruct (timed_step now w o) as [w1 x]. rewrite IH. destruct (timed_run now w1 l1) as [w2 tr2].
    destruct (timed_run now w2 l2) as [w3 tr3]. now rewrite app_assoc.
Qed.

Lemma NoDup_app_disjoint {A} (a b : list A) : NoDup a -> NoDup b -> (forall x, In x a -> In x b -> False) -> NoDup (a ++ b).
Proof.
  induction 1 as [|x a X H IH]; intros Hb D; cbn; [exact Hb|]. constructor.
  - intros I. apply in_app_or in I. destruct I as [I|I]; [auto|]. apply (D x); [now left|exact I].
  - apply IH; [exact Hb|]. intros y Y. apply D. now right.
Qed.

Section History.
  Context (now : nat -> clockval) (class : client_class) (f : Z) (handle : bool) (fut : future).
  Hypothesis N : clock_works now.
  Let c0 := new_client class f handle fut.

  (** What holds after every history [tr]. *)
  Record stands (w : world) (tr : list (Z * tseen)) : Prop := mkStands {
    sd_counter : counter_ok (fst (w_client w));
    sd_frequency : cl_frequency (fst (w_client w)) = f;
    sd_linked : cl_transport (fst (w_client w)) = linked tr;
    sd_tasks : cl_tasks (fst (w_client w)) = length (w_tasks w);
    sd_made : w_made w = (if f =? 0 then 0%nat else connections tr);
    sd_ids : Forall (fun x => (fst x < w_made w)%nat) (w_tasks w);
    sd_distinct : NoDup (map fst (w_tasks w));
    sd_run : client_run now (c0, []) (timed_calls tr) = (w_client w, timed_trace tr) }.

  Lemma stands_new : stands (new_world c0) [].
  Proof. constructor; try reflexivity; try constructor. - cbn. lia. - cbn. now destruct (f =? 0). Qed.

  Lemma stands_step w tr o w' x : forwards o -> stands w tr -> timed_step now w o = (w', x) -> stands w' (tr ++ x).
  Proof.
    intros Fw [S1 S2 S3 S4 S5 S6 S7 S8] E.
    assert (Sn : forall st' o ev r t z, client_step now (w_client w) o = (st', ev, r) ->
      (z = Called o ev r \/ (o = OpTimesync /\ exists i, z = Ticked i ev r)) ->
      client_run now (c0, []) (timed_calls (tr ++ [(t, z)])) = (st', timed_trace (tr ++ [(t, z)]))).
    { intros st' o' ev r t z C Hz. unfold timed_calls, timed_trace. rewrite !map_app. cbn [map snd].
      destruct Hz as [->|[-> [i ->]]]; eapply client_run_snoc; eauto. }
    destruct o as [d|o|i]; cbn [timed_step] in E.
    - inversion E; subst. rewrite app_nil_r. constructor; auto.
    - destruct (client_step now (w_client w) o) as [[st ev] r] eqn:C. inversion E; subst. clear E.
      assert (G : counter_ok (fst st) /\ cl_frequency (fst st) = f /\ cl_transport (fst st) = linked (tr ++ [(w_time w, Called o ev r)])
        /\ cl_tasks (fst st) = (cl_tasks (fst (w_client w)) + spawned ev)%nat
        /\ (w_made w + spawned ev)%nat = (if f =? 0 then 0%nat else connections (tr ++ [(w_time w, Called o ev r)]))).
      { unfold linked. rewrite linked_app, connections_app. fold (linked tr). rewrite S5.
        destruct o; try (destruct (fun n1 n2 n3 => settled_api now _ _ _ _ _ n1 n2 n3 C) as [A1 [A2 [A3 [A4 A5]]]]; [discriminate|discriminate|discriminate|];
          rewrite A1, A2, A3, A4; cbn; rewrite Nat.add_0_r; repeat split; auto; destruct (f =? 0); lia).
        - destruct (step_connect _ _ _ _ _ S1 C) as [A1 [A2 [A3 [A4 A5]]]]. rewrite A1, A2, A5, A4. cbn. rewrite S2.
          repeat split; auto. destruct (f =? 0); lia.
        - destruct (step_lost _ _ _ _ _ C) as [A1 [A2 [A3 [A4 A5]]]]. rewrite A1, A2, A5, A4. cbn.
          rewrite Nat.add_0_r. repeat split; auto. destruct (f =? 0); lia.
        - destruct Fw. }
      destruct G as [G1 [G2 [G3 [G4 G5]]]]. constructor; cbn [w_client w_tasks w_made w_time]; auto.
      + rewrite G4, S4, app_length. unfold start. now rewrite map_length, seq_length.
      + apply Forall_app. split; [eapply Forall_impl; [|exact S6]; cbn; intros; lia|].
        apply Forall_forall. intros y Y. unfold start in Y. apply in_map_iff in Y. destruct Y as [k [<- K]]. apply in_seq in K. cbn. lia.
      + rewrite map_app. unfold start. rewrite map_map. cbn [fst]. rewrite map_id. apply NoDup_app_disjoint; auto using seq_NoDup.
        intros a A B. apply in_map_iff in A. destruct A as [y [<- Y]]. rewrite Forall_forall in S6. apply S6 in Y.
        apply in_seq in B. lia.
      + eapply Sn; [exact C|now left].
    - destruct (nth_error (w_tasks w) i) as [[task from]|] eqn:Q; [|inversion E; subst; rewrite app_nil_r; constructor; auto].
      destruct (from <=? w_time w); [|inversion E; subst; rewrite app_nil_r; constructor; auto].
      destruct (client_step now (w_client w) OpTimesync) as [[st ev] r] eqn:C.
      pose proof (f_equal fst E) as E1. pose proof (f_equal snd E) as E2. clear E. cbn [fst snd] in E1, E2. subst w' x.
      apply nth_error_split in Q. destruct Q as [l1 [l2 [Q L]]].
      assert (T : (0 < cl_tasks (fst (w_client w)))%nat) by (rewrite S4, Q, app_length; cbn; lia).
      destruct (step_tick _ _ _ _ _ S1 N T C) as [A1 [A2 [A3 A4]]].
      assert (F1 : firstn i (w_tasks w) = l1) by (rewrite Q, <- L, firstn_app, Nat.sub_diag, firstn_all; apply app_nil_r).
      assert (F2 : skipn (S i) (w_tasks w) = l2).
      { rewrite Q. change ((task, from) :: l2) with ([(task, from)] ++ l2). rewrite app_assoc.
        rewrite skipn_app, app_length, L. cbn [length]. rewrite Nat.add_1_r, Nat.sub_diag.
        rewrite skipn_all2; [reflexivity|]. rewrite app_length. cbn. lia. }
      rewrite F1, F2. clear F1 F2.
      assert (U : length (map (fun t => (task, t)) (again (fst (w_client w)) (w_time w) r)) = (cl_tasks (fst st) + 1 - cl_tasks (fst (w_client w)))%nat
        /\ (cl_tasks (fst st) <= cl_tasks (fst (w_client w)) <= cl_tasks (fst st) + 1)%nat).
      { rewrite map_length. unfold again. destruct A4 as [[B1 [B2 [B3 B4]]]|[[B1 [B2 [B3 [B4 B5]]]]|[B1 [B2 [B3 [B4 _]]]]]].
        - replace (cl_frequency (fst (w_client w)) <=? 0) with true by (symmetry; apply Z.leb_le; lia). cbn. lia.
        - replace (cl_frequency (fst (w_client w)) <=? 0) with false by (symmetry; apply Z.leb_gt; lia). rewrite B4. cbn. lia.
        - replace (cl_frequency (fst (w_client w)) <=? 0) with false by (symmetry; apply Z.leb_gt; lia). rewrite B3. cbn. lia. }
      destruct U as [U1 U2]. rewrite Q in S6, S7, S4. rewrite map_app in S7. cbn [map fst] in S7. rewrite app_length in S4. cbn [length] in S4.
      apply Forall_app in S6. destruct S6 as [S61 S62]. inversion S62 as [|? ? S63 S64]; subst.
      set (new := map (fun t => (task, t)) (again (fst (w_client w)) (w_time w) r)) in *.
      assert (NW : Forall (fun x => fst x = task) new) by (apply Forall_forall; intros y Y; apply in_map_iff in Y; destruct Y as [t [<- _]]; reflexivity).
      constructor; cbn [w_client w_tasks w_made w_time]; auto; try congruence.
      + unfold linked. now rewrite linked_app, A2.
      + rewrite !app_length, U1. lia.
      + rewrite connections_app. cbn [connections filter length]. now rewrite Nat.add_0_r.
      + apply Forall_app. split; [exact S61|]. apply Forall_app. split; [|exact S64].
        eapply Forall_impl; [|exact NW]. intros y ->. exact S63.
      + rewrite !map_app. destruct new as [|n1 [|n2 new']].
        * cbn [map app]. exact (NoDup_remove_1 _ _ _ S7).
        * inversion NW; subst. cbn [map app]. exact S7.
        * cbn [length] in U1. lia.
      + eapply Sn; [exact C|]. right. split; [reflexivity|]. eexists. reflexivity.
  Qed.

  Lemma stands_run l : forall w tr w' tr', Forall forwards l -> stands w tr -> timed_run now w l = (w', tr') -> stands w' (tr ++ tr').
  Proof.
    induction l as [|o l IH]; intros w tr w' tr' Fl S E; cbn [timed_run] in E.
    - inversion E; subst. now rewrite app_nil_r.
    - destruct (timed_step now w o) as [w1 x] eqn:E1. destruct (timed_run now w1 l) as [w2 tr2] eqn:E2. inversion E; subst.
      inversion Fl; subst. rewrite app_assoc. eapply IH; eauto. eapply stands_step; eauto.
  Qed.

  (** What resuming a task does. *)
  Definition writes_update (w w' : world) (l1 l2 : list (nat * Z)) task (ev : list cev) (r : res (option Z)) : Prop :=
    0 < f /\ r = Ok None /\ w_tasks w' = l1 ++ (task, w_time w + f * second) :: l2
    /\ cl_reads (fst (w_client w')) = S (cl_reads (fst (w_client w)))
    /\ exists line, ev = [CWrite line] /\ tells_time (now (cl_reads (fst (w_client w)))) line.
  Definition ends (w w' : world) (l1 l2 : list (nat * Z)) (ev : list cev) (r : res (option Z)) : Prop :=
    ev = [] /\ w_tasks w' = l1 ++ l2 /\ (f <= 0 /\ r = Ok None \/ 0 < f /\ r = Raise OSError).

  Lemma tick_cases w tr i w' x : stands w tr -> timed_step now w (TTick i) = (w', x) ->
    (w' = w /\ x = [] /\ forall task from, nth_error (w_tasks w) i = Some (task, from) -> w_time w < from)
    \/ exists l1 task from l2 ev r, w_tasks w = l1 ++ (task, from) :: l2 /\ length l1 = i /\ from <= w_time w
       /\ x = [(w_time w, Ticked task ev r)] /\ w_time w' = w_time w /\ w_made w' = w_made w
       /\ (linked tr = true /\ 0 < f /\ writes_update w w' l1 l2 task ev r
           \/ (linked tr = false \/ f <= 0) /\ ends w w' l1 l2 ev r).
  Proof.
    intros [S1 S2 S3 S4 S5 S6 S7 S8] E. cbn [timed_step] in E.
    destruct (nth_error (w_tasks w) i) as [[task from]|] eqn:Q; [|left; inversion E; subst; repeat split; discriminate].
    destruct (from <=? w_time w) eqn:FT.
    2:{ left. inversion E; subst. repeat split. intros ? ? X. inversion X; subst. now apply Z.leb_gt in FT. }
    destruct (client_step now (w_client w) OpTimesync) as [[st ev] r] eqn:C.
    pose proof (f_equal fst E) as E1. pose proof (f_equal snd E) as E2. clear E. cbn [fst snd] in E1, E2.
    apply nth_error_split in Q. destruct Q as [l1 [l2 [Q L]]].
    assert (T : (0 < cl_tasks (fst (w_client w)))%nat) by (rewrite S4, Q, app_length; cbn; lia).
    destruct (step_tick _ _ _ _ _ S1 N T C) as [A1 [A2 [A3 A4]]].
    assert (F1 : firstn i (w_tasks w) = l1) by (rewrite Q, <- L, firstn_app, Nat.sub_diag, firstn_all; apply app_nil_r).
    assert (F2 : skipn (S i) (w_tasks w) = l2).
    { rewrite Q. change ((task, from) :: l2) with ([(task, from)] ++ l2). rewrite app_assoc.
      rewrite skipn_app, app_length, L. cbn [length]. rewrite Nat.add_1_r, Nat.sub_diag.
      rewrite skipn_all2; [reflexivity|]. rewrite app_length. cbn. lia. }
    rewrite F1, F2 in E1. right. exists l1, task, from, l2, ev, r. apply Z.leb_le in FT.
    rewrite <- E1. cbn [w_time w_made w_tasks w_client]. repeat (split; [auto; fail|]).
    unfold writes_update, ends. cbn [w_tasks w_client]. unfold again. rewrite S2 in *.
    destruct A4 as [[B1 [B2 [B3 B4]]]|[[B1 [B2 [B3 [B4 B5]]]]|[B1 [B2 [B3 [B4 [B5 B6]]]]]]].
    - right. replace (f <=? 0) with true by (symmetry; apply Z.leb_le; lia). cbn [map app]. auto 6.
    - right. replace (f <=? 0) with false by (symmetry; apply Z.leb_gt; lia). rewrite B4. cbn [map app].
      split; [left; congruence|]. auto 6.
    - left. replace (f <=? 0) with false by (symmetry; apply Z.leb_gt; lia). rewrite B3. cbn [map app].
      split; [congruence|]. auto 8.
  Qed.

  Lemma call_cases w tr o w' x : stands w tr -> forwards (TCall o) -> timed_step now w (TCall o) = (w', x) ->
    exists ev r, x = [(w_time w, Called o ev r)] /\ w_time w' = w_time w
      /\ w_tasks w' = w_tasks w ++ (match o with OpConnect => if f =? 0 then [] else [(w_made w, w_time w)] | _ => [] end)
      /\ (w_made w <= w_made w')%nat.
  Proof.
    intros [S1 S2 S3 S4 S5 S6 S7 S8] Fw E. cbn [timed_step] in E.
    destruct (client_step now (w_client w) o) as [[st ev] r] eqn:C. inversion E. subst w' x. clear E. exists ev, r.
    cbn [w_time w_tasks w_made]. repeat (split; [reflexivity|]). split; [|lia]. f_equal.
    assert (K : spawned ev = 0%nat -> start (w_made w) (w_time w) (spawned ev) = []) by (intros ->; reflexivity).
    destruct o; try (apply K; destruct (fun n1 n2 n3 => settled_api now _ _ _ _ _ n1 n2 n3 C) as [A1 [A2 [A3 [A4 A5]]]];
      [discriminate|discriminate|discriminate|exact A4]).
    - destruct (step_connect _ _ _ _ _ S1 C) as [_ [_ [_ [A4 _]]]]. rewrite A4. rewrite S2. now destruct (f =? 0).
    - apply K. now destruct (step_lost _ _ _ _ _ C) as [_ [_ [_ [A4 _]]]].
    - destruct Fw.
  Qed.

  (** *** No task writes too often *)

  Definition beats (id : nat) (tr : list (Z * tseen)) : list Z :=
    flat_map (fun x => match x with (t, Ticked i ev _) => if Nat.eqb i id then map (fun _ => t) (writes ev) else [] | _ => [] end) tr.
  Lemma beats_app id a b : beats id (a ++ b) = beats id a ++ beats id b.
  Proof. apply flat_map_app. Qed.
  Lemma beats_fresh id n tr : (forall t i ev r, In (t, Ticked i ev r) tr -> (i < n)%nat) -> (n <= id)%nat -> beats id tr = [].
  Proof.
    intros H L. induction tr as [|[t [o ev r|i ev r]] tr IH]; [reflexivity| |]; cbn [beats flat_map]; fold (beats id tr);
      rewrite IH by (intros t' i' ev' r' I; exact (H t' i' ev' r' (or_intror I))); [reflexivity|].
    assert (i < n)%nat by (eapply H; left; reflexivity). replace (Nat.eqb i id) with false; [reflexivity|]. symmetry. apply Nat.eqb_neq. lia.
  Qed.
  Lemma pairs_snoc {A} (R : A -> A -> Prop) l y : ForallOrdPairs R l -> Forall (fun x => R x y) l -> ForallOrdPairs R (l ++ [y]).
  Proof.
    induction 1 as [|x l X H IH]; intros Fl; cbn; [repeat constructor|]. inversion Fl; subst. constructor; [|auto].
    apply Forall_app. split; [exact X|]. repeat constructor. assumption.
  Qed.
  Let F := f * second.
  Record paced (w : world) (tr : list (Z * tseen)) : Prop := mkPaced {
    pc_task : forall id from, In (id, from) (w_tasks w) -> Forall (fun t => t + F <= from) (beats id tr);
    pc_spaced : forall id, ForallOrdPairs (fun x y => x + F <= y) (beats id tr);
    pc_ids : forall t i ev r, In (t, Ticked i ev r) tr -> (i < w_made w)%nat }.

  Lemma paced_step w tr o w' x : 0 < f -> forwards o -> stands w tr -> paced w tr -> timed_step now w o = (w', x) -> paced w' (tr ++ x).
  Proof.
    intros Fp Fw S [P1 P2 P3] E. assert (FP : 0 < F) by (unfold F, Timed.second; lia). destruct o as [d|o|i].
    - cbn in E. inversion E; subst. rewrite app_nil_r. constructor; auto.
    - destruct (call_cases _ _ _ _ _ S Fw E) as [ev [r [-> [T [K M]]]]].
      assert (B : forall id, beats id (tr ++ [(w_time w, Called o ev r)]) = beats id tr) by (intros; rewrite beats_app; cbn; apply app_nil_r).
      constructor; intros; try rewrite B.
      + rewrite K in H. apply in_app_or in H. destruct H as [H|H]; [auto|].
        destruct o; try destruct H. replace (f =? 0) with false in H by (symmetry; apply Z.eqb_neq; lia).
        destruct H as [H|[]]. inversion H; subst. rewrite (beats_fresh _ _ _ P3) by lia. constructor.
      + auto.
      + apply in_app_or in H. destruct H as [H|[H|[]]]; [|discriminate]. apply P3 in H. lia.
    - destruct (tick_cases _ _ _ _ _ S E) as [[-> [-> _]]|[l1 [task [from [l2 [ev [r [Q [L [FT [-> [T [M C]]]]]]]]]]]]].
      { rewrite app_nil_r. constructor; auto. }
      assert (IDS : forall t i ev' r', In (t, Ticked i ev' r') (tr ++ [(w_time w, Ticked task ev r)]) -> (i < w_made w)%nat).
      { intros t i' ev' r' I. apply in_app_or in I. destruct I as [I|[I|[]]]; [eauto|]. inversion I; subst.
        assert (A := sd_ids _ _ S). rewrite Q in A. apply Forall_app in A. destruct A as [_ A]. inversion A; subst. assumption. }
      assert (B : forall id, beats id (tr ++ [(w_time w, Ticked task ev r)]) = beats id tr ++ (if Nat.eqb task id then map (fun _ => w_time w) (writes ev) else [])).
      { intros id. rewrite beats_app. unfold beats at 2. cbn [flat_map]. now rewrite app_nil_r. }
      destruct C as [[_ [_ [_ [_ [K [_ [line [-> _]]]]]]]]|[_ [-> [K _]]]].
      + assert (old : Forall (fun t => t + F <= from) (beats task tr)) by (apply P1; rewrite Q; apply in_or_app; right; now left).
        assert (ND := sd_distinct _ _ S). rewrite Q, map_app in ND. cbn [map fst] in ND.
        constructor; [intros id from' I| intros id|].
        * rewrite B. rewrite K in I. destruct (Nat.eqb task id) eqn:EQ.
          -- apply Nat.eqb_eq in EQ. subst id. cbn [writes flat_map map app].
             assert (from' = w_time w + F).
             { apply in_app_or in I. apply NoDup_remove_2 in ND. destruct I as [I|[I|I]]; [destruct ND; apply in_or_app; left; apply in_map_iff; exists (task, from'); auto|now inversion I|destruct ND; apply in_or_app; right; apply in_map_iff; exists (task, from'); auto]. }
             subst from'. apply Forall_app. split; [|constructor; [lia|constructor]].
             eapply Forall_impl; [|exact old]. cbn. intros. lia.
          -- rewrite app_nil_r. apply P1. rewrite Q. apply in_app_or in I. apply in_or_app.
             destruct I as [I|[I|I]]; [now left|inversion I; subst; rewrite Nat.eqb_refl in EQ; discriminate|right; now right].
        * rewrite B. destruct (Nat.eqb task id) eqn:EQ; [|rewrite app_nil_r; apply P2].
          apply Nat.eqb_eq in EQ. subst id. apply pairs_snoc; [apply P2|].
          eapply Forall_impl; [|exact old]. cbn. intros. lia.
        * rewrite M. exact IDS.
      + assert (B' : forall id, beats id (tr ++ [(w_time w, Ticked task [] r)]) = beats id tr).
        { intros id. rewrite B. cbn. destruct (Nat.eqb task id); apply app_nil_r. }
        constructor; [intros id from' I; rewrite B'|intros id; rewrite B'; apply P2|rewrite M; exact IDS].
        apply P1. rewrite Q. rewrite K in I. apply in_app_or in I. apply in_or_app. destruct I; [now left|right; now right].
  Qed.
  Lemma paced_run l : 0 < f -> forall w tr w' tr', Forall forwards l -> stands w tr -> paced w tr -> timed_run now w l = (w', tr') -> paced w' (tr ++ tr').
  Proof.
    intros Fp. induction l as [|o l IH]; intros w tr w' tr' Fl S P E; cbn [timed_run] in E.
    - inversion E; subst. now rewrite app_nil_r.
    - destruct (timed_step now w o) as [w1 x] eqn:E1. destruct (timed_run now w1 l) as [w2 tr2] eqn:E2. inversion E; subst.
      inversion Fl; subst. rewrite app_assoc. eapply IH; eauto. eapply stands_step; eauto. eapply paced_step; eauto.
  Qed.
End History.

(** Counting. *)
Lemma spaced_count F a b l : 0 < F -> ForallOrdPairs (fun x y => x + F <= y) l -> a <= b ->
  Z.of_nat (length (between a b l)) <= (b - a) / F + 1.
Proof.
  intros Fp H L.
  assert (H2 : ForallOrdPairs (fun x y => x + F <= y) (between a b l)).
  { induction H as [|x l X H IH]; [constructor|]. unfold between. cbn [filter]. destruct (_ && _); [|exact IH].
    constructor; [|exact IH]. apply Forall_forall. intros y Y. apply filter_In in Y. rewrite Forall_forall in X. apply X. tauto. }
  assert (H3 : Forall (fun t => a <= t <= b) (between a b l)).
  { apply Forall_forall. intros t T. apply filter_In in T. destruct T as [_ T]. apply andb_prop in T. lia. }
  clear H. generalize dependent (between a b l). clear l. intros l H2 H3.
  assert (G : forall l x, ForallOrdPairs (fun x y => x + F <= y) (x :: l) -> Forall (fun t => a <= t <= b) (x :: l) ->
    x + Z.of_nat (length l) * F <= b).
  { clear l H2 H3. induction l as [|y l IH]; intros x P Q; inversion Q; subst; [cbn; lia|].
    inversion P as [|? ? P1 P2]; subst. specialize (IH _ P2 H2). inversion P1; subst.
    cbn [length]. rewrite Nat2Z.inj_succ. lia. }
  destruct l as [|x l]; [cbn; assert (0 <= (b - a) / F) by (apply Z.div_pos; lia); lia|].
  specialize (G _ _ H2 H3). inversion H3; subst. cbn [length]. rewrite Nat2Z.inj_succ.
  assert (Z.of_nat (length l) <= (b - a) / F) by (apply Z.div_le_lower_bound; lia). lia.
Qed.
Lemma sum_hit (g : nat -> nat) id k n : forall m, (m <= id < m + n)%nat ->
  list_sum (map (fun i => ((if Nat.eqb id i then k else 0) + g i)%nat) (seq m n)) = (k + list_sum (map g (seq m n)))%nat.
Proof.
  assert (Z : forall n m, (id < m)%nat -> list_sum (map (fun i => ((if Nat.eqb id i then k else 0) + g i)%nat) (seq m n)) = list_sum (map g (seq m n))).
  { clear. induction n as [|n IH]; intros m L; [reflexivity|]. cbn [seq map list_sum fold_right]. fold list_sum.
    change (fold_right Nat.add 0%nat) with list_sum. rewrite IH by lia. replace (Nat.eqb id m) with false; [reflexivity|]. symmetry. apply Nat.eqb_neq. lia. }
  induction n as [|n IH]; intros m L; [lia|]. cbn [seq map list_sum fold_right]. change (fold_right Nat.add 0%nat) with list_sum.
  destruct (Nat.eq_dec id m) as [->|D].
  - rewrite Nat.eqb_refl, Z by lia. lia.
  - rewrite IH by lia. replace (Nat.eqb id m) with false by (symmetry; apply Nat.eqb_neq; lia). lia.
Qed.
Lemma between_app a b l k : between a b (l ++ k) = between a b l ++ between a b k.
Proof. apply filter_app. Qed.
Lemma count_all a b n tr : (forall t i ev r, In (t, Ticked i ev r) tr -> (i < n)%nat) ->
  length (between a b (updates tr)) = list_sum (map (fun id => length (between a b (beats id tr))) (seq 0 n)).
Proof.
  induction tr as [|[t [o ev r|i ev r]] tr IH]; intros H.
  - cbn. induction (seq 0 n) as [|y l IHl]; [reflexivity|]. exact IHl.
  - exact (IH (fun t' i' ev' r' I => H t' i' ev' r' (or_intror I))).
  - specialize (IH (fun t' i' ev' r' I => H t' i' ev' r' (or_intror I))).
    cbn [updates flat_map]. fold (updates tr). rewrite between_app, app_length, IH.
    rewrite <- (sum_hit _ i) by (split; [lia|]; eapply H; left; reflexivity).
    f_equal. apply map_ext. intros id. cbn [beats flat_map]. fold (beats id tr). rewrite between_app, app_length.
    now destruct (Nat.eqb i id).
Qed.
Lemma sum_bound (g : nat -> nat) k l : (forall i, Z.of_nat (g i) <= k) -> Z.of_nat (list_sum (map g l)) <= Z.of_nat (length l) * k.
Proof.
  intros H. induction l as [|x l IH]; [cbn; lia|]. cbn [map list_sum fold_right length].
  change (fold_right Nat.add 0%nat) with list_sum. specialize (H x). lia.
Qed.

(** ** C74 *)

(** The client of a timed history is the client of a history of calls, so that
    every theorem on these applies; as many tasks are alive as it says. *)
Theorem C74_client : forall now class f handle fut l w tr, clock_works now -> Forall forwards l ->
  timed_run now (new_world (new_client class f handle fut)) l = (w, tr) ->
  client_run now (new_client class f handle fut, []) (timed_calls tr) = (w_client w, timed_trace tr)
  /\ cl_transport (fst (w_client w)) = linked tr
  /\ cl_tasks (fst (w_client w)) = length (w_tasks w)
  /\ (length (w_tasks w) <= if (f =? 0)%Z then 0 else connections tr)%nat.
Proof.
  intros now class f handle fut l w tr N Fl E.
  assert (S := stands_run now class f handle fut N l _ [] w tr Fl (stands_new now class f handle fut) E). cbn [app] in S.
  destruct S as [S1 S2 S3 S4 S5 S6 S7 S8]. repeat (split; [assumption|]). rewrite <- S5.
  rewrite <- (map_length fst), <- (seq_length (w_made w) 0). apply NoDup_incl_length; [exact S7|].
  intros i I. apply in_map_iff in I. destruct I as [y [<- Y]]. rewrite Forall_forall in S6. apply S6 in Y. apply in_seq. lia.
Qed.
Print Assumptions C74_client.

(** The rate: in any period every connection ever made accounts for at most one
    update per [f] seconds begun. *)
Theorem C74_rate : forall now class f handle fut l w tr a b, clock_works now -> Forall forwards l -> 0 < f ->
  timed_run now (new_world (new_client class f handle fut)) l = (w, tr) -> a <= b ->
  Z.of_nat (length (between a b (updates tr))) <= Z.of_nat (connections tr) * ((b - a) / (f * second) + 1).
Proof.
  intros now class f handle fut l w tr a b N Fl Fp E L.
  assert (S0 := stands_new now class f handle fut).
  assert (S := stands_run now class f handle fut N l _ [] w tr Fl S0 E).
  assert (P : paced f w ([] ++ tr)).
  { eapply paced_run; eauto. constructor; cbn; try contradiction. constructor. }
  cbn [app] in S, P. destruct P as [P1 P2 P3]. rewrite (count_all a b _ _ P3).
  assert (M := sd_made _ _ _ _ _ _ _ S). replace (f =? 0) with false in M by (symmetry; apply Z.eqb_neq; lia). rewrite M.
  rewrite <- (seq_length (connections tr) 0) at 2. apply sum_bound. intros i. apply spaced_count; auto. unfold Timed.second. lia.
Qed.
Print Assumptions C74_rate.

(** Without a positive frequency the tasks write nothing; with frequency 0
    there are none. *)
Theorem C74_off : forall now class f handle fut l w tr, clock_works now -> Forall forwards l -> f <= 0 ->
  timed_run now (new_world (new_client class f handle fut)) l = (w, tr) ->
  updates tr = [] /\ (f = 0 -> forall t task ev r, ~ In (t, Ticked task ev r) tr).
Proof.
  intros now class f handle fut l w tr N Fl Fp E.
  assert (G : forall l w0 tr0 w tr, Forall forwards l -> stands now class f handle fut w0 tr0 -> timed_run now w0 l = (w, tr) ->
    updates tr = [] /\ (f = 0 -> forall t task ev r, ~ In (t, Ticked task ev r) tr)).
  { clear l w tr Fl E. induction l as [|o l IH]; intros w0 tr0 w tr Fl S E; cbn [timed_run] in E.
    - inversion E; subst. split; [reflexivity|]. intros _ ? ? ? ? [].
    - destruct (timed_step now w0 o) as [w1 x] eqn:E1. destruct (timed_run now w1 l) as [w2 tr2] eqn:E2.
      inversion E. subst w tr. clear E. inversion Fl; subst.
      destruct (IH _ _ _ _ H2 (stands_step _ _ _ _ _ N _ _ _ _ _ H1 S E1) E2) as [I1 I2].
      rewrite updates_app, I1, app_nil_r.
      assert (X : updates x = [] /\ (f = 0 -> forall t task ev r, ~ In (t, Ticked task ev r) x)).
      { destruct o as [d|o|i].
        - cbn in E1. inversion E1; subst. split; [reflexivity|]. intros _ ? ? ? ? [].
        - destruct (call_cases _ _ _ _ _ _ _ _ _ _ S H1 E1) as [ev [r [-> _]]]. split; [reflexivity|].
          intros _ ? ? ? ? [X|[]]. discriminate X.
        - destruct (tick_cases _ _ _ _ _ N _ _ _ _ _ S E1) as [[_ [-> _]]|[l1 [task [from [l2 [ev [r [Q [_ [_ [-> [_ [_ C]]]]]]]]]]]]].
          + split; [reflexivity|]. intros _ ? ? ? ? [].
          + destruct C as [[_ [C _]]|[_ [-> _]]]; [lia|]. split; [reflexivity|]. intros Z.
            assert (M := sd_ids _ _ _ _ _ _ _ S). rewrite Q, (sd_made _ _ _ _ _ _ _ S), Z in M. cbn in M.
            apply Forall_app in M. destruct M as [_ M]. inversion M; subst. cbn in *. lia. }
      destruct X as [X1 X2]. split; [exact X1|]. intros Z t task ev r I. apply in_app_or in I.
      destruct I as [I|I]; [exact (X2 Z _ _ _ _ I)|exact (I2 Z _ _ _ _ I)]. }
  exact (G l _ [] w tr Fl (stands_new now class f handle fut) E).
Qed.
Print Assumptions C74_off.

(** One round of a task, after any history: with a connection (and a positive
    frequency) it writes one update, with the time read in that round, and
    sleeps; otherwise it writes nothing and the task is over. *)
Theorem C74_round : forall now class f handle fut l i w tr w' x, clock_works now -> Forall forwards l ->
  timed_run now (new_world (new_client class f handle fut)) l = (w, tr) ->
  timed_step now w (TTick i) = (w', x) ->
  match nth_error (w_tasks w) i with
  | Some (task, from) =>
      if from <=? w_time w then
        exists ev r, x = [(w_time w, Ticked task ev r)] /\
        if linked tr && (0 <? f)
        then r = Ok None /\ In (task, w_time w + f * second) (w_tasks w')
             /\ exists line, ev = [CWrite line] /\ tells_time (now (cl_reads (fst (w_client w)))) line
                /\ cl_reads (fst (w_client w')) = S (cl_reads (fst (w_client w)))
        else ev = [] /\ r = (if 0 <? f then Raise OSError else Ok None)
             /\ forall l2 w2 tr2, Forall forwards l2 -> timed_run now w' l2 = (w2, tr2) ->
                forall t ev2 r2, ~ In (t, Ticked task ev2 r2) tr2
      else x = [] /\ w' = w
  | None => x = [] /\ w' = w
  end.
Proof.
  intros now class f handle fut l i w tr w' x N Fl E E1.
  assert (S := stands_run now class f handle fut N l _ [] w tr Fl (stands_new now class f handle fut) E). cbn [app] in S.
  assert (S' := stands_step _ _ _ _ _ N _ _ _ _ _ (Logic.I : forwards (TTick i)) S E1).
  destruct (tick_cases _ _ _ _ _ N _ _ _ _ _ S E1) as [[-> [-> H]]|[l1 [task [from [l2 [ev [r [Q [L [FT [-> [T [M C]]]]]]]]]]]]].
  - destruct (nth_error (w_tasks w) i) as [[task from]|]; [|auto].
    specialize (H _ _ eq_refl). replace (from <=? w_time w) with false by (symmetry; apply Z.leb_gt; lia). auto.
  - assert (NE : nth_error (w_tasks w) i = Some (task, from)).
    { rewrite Q, nth_error_app2 by lia. now rewrite L, Nat.sub_diag. }
    rewrite NE. replace (from <=? w_time w) with true by (symmetry; apply Z.leb_le; lia).
    exists ev, r. split; [reflexivity|]. destruct C as [[C1 [C2 [_ [C3 [C4 [C5 [line [C6 C7]]]]]]]]|[C1 [C2 [C3 C4]]]].
    + rewrite C1. replace (0 <? f) with true by (symmetry; apply Z.ltb_lt; lia). cbn [andb].
      split; [exact C3|]. split; [rewrite C4; apply in_or_app; right; now left|]. eauto.
    + replace (linked tr && (0 <? f)) with false.
      2:{ symmetry. apply andb_false_iff. destruct C1 as [C1|C1]; [now left|right; apply Z.ltb_ge; lia]. }
      split; [exact C2|]. split.
      { destruct C4 as [[C4 ->]|[C4 ->]]; [replace (0 <? f) with false by (symmetry; apply Z.ltb_ge; lia)|
          replace (0 <? f) with true by (symmetry; apply Z.ltb_lt; lia)]; reflexivity. }
      assert (G : forall l2 w0 tr0 w2 tr2, Forall forwards l2 -> stands now class f handle fut w0 tr0 ->
        (task < w_made w0)%nat -> ~ In task (map fst (w_tasks w0)) -> timed_run now w0 l2 = (w2, tr2) ->
        forall t ev2 r2, ~ In (t, Ticked task ev2 r2) tr2).
      { clear - N. induction l2 as [|o l2 IH]; intros w0 tr0 w2 tr2 Fl S M D E; cbn [timed_run] in E.
        - inversion E; subst. intros ? ? ? [].
        - destruct (timed_step now w0 o) as [w1 x] eqn:E1. destruct (timed_run now w1 l2) as [w3 tr3] eqn:E2.
          inversion E. subst w2 tr2. clear E. inversion Fl; subst.
          assert (X : (w_made w0 <= w_made w1)%nat /\ ~ In task (map fst (w_tasks w1)) /\ forall t ev2 r2, ~ In (t, Ticked task ev2 r2) x).
          { destruct o as [d|o|i].
            - cbn in E1. inversion E1; subst. split; [cbn; lia|]. split; [exact D|]. intros ? ? ? [].
            - destruct (call_cases _ _ _ _ _ _ _ _ _ _ S H1 E1) as [ev [r [-> [_ [K1 K2]]]]]. split; [exact K2|]. split.
              + rewrite K1, map_app. intros I. apply in_app_or in I. destruct I as [I|I]; [now apply D|].
                destruct o; try destruct I. destruct (f =? 0); [destruct I|]. destruct I as [I|[]]. cbn in I. lia.
              + intros ? ? ? [X|[]]. discriminate X.
            - destruct (tick_cases _ _ _ _ _ N _ _ _ _ _ S E1) as [[-> [-> _]]|[l1 [task' [from [l3 [ev [r [Q [_ [_ [-> [_ [M2 C]]]]]]]]]]]]].
              + split; [lia|]. split; [exact D|]. intros ? ? ? [].
              + rewrite Q, map_app in D. cbn [map fst] in D. split; [lia|]. split.
                * destruct C as [[_ [_ [_ [_ [C _]]]]]|[_ [_ [C _]]]]; rewrite C, map_app; [exact D|].
                  intros I. apply D. apply in_app_or in I. apply in_or_app. destruct I; [now left|right; now right].
                * intros ? ? ? [X|[]]. inversion X; subst. apply D. apply in_or_app. right. now left. }
          destruct X as [X1 [X2 X3]]. intros t ev2 r2 I. apply in_app_or in I. destruct I as [I|I]; [exact (X3 _ _ _ I)|].
          eapply IH; [exact H2|eapply stands_step; eauto| |exact X2|exact E2|exact I]. lia. }
      intros l3 w2 tr2 Fl2 E2. eapply G; [exact Fl2|exact S'| | |exact E2].
      * rewrite M. assert (A := sd_ids _ _ _ _ _ _ _ S). rewrite Q in A. apply Forall_app in A. destruct A as [_ A]. now inversion A.
      * rewrite C3, map_app. assert (A := sd_distinct _ _ _ _ _ _ _ S). rewrite Q, map_app in A. cbn [map fst] in A.
        now apply NoDup_remove_2 in A.
Qed.
Print Assumptions C74_round.

(** Freshness: while a connection lasts and the event loop is late by at most
    [lag], the last update is never older than [f] seconds and [lag]. *)
Theorem C74_fresh : forall now class f handle fut l1 l2 w1 tr1 w2 tr2 lag, clock_works now -> 0 < f -> 0 <= lag ->
  Forall forwards (l1 ++ l2) -> ~ In (TCall OpLost) l2 ->
  timed_run now (new_world (new_client class f handle fut)) l1 = (w1, tr1) ->
  timed_run now w1 (TCall OpConnect :: l2) = (w2, tr2) -> prompt now lag w1 (TCall OpConnect :: l2) ->
  w_time w1 + lag < w_time w2 ->
  exists s task line n, In (s, Ticked task [CWrite line] (Ok None)) tr2 /\ tells_time (now n) line
    /\ w_time w1 <= s <= w_time w2 /\ w_time w2 - (f * second + lag) <= s.
Proof.
  intros now class f handle fut l1 l2 w1 tr1 w2 tr2 lag N Fp Lp Fl NL E1 E2 P T.
  apply Forall_app in Fl. destruct Fl as [Fl1 Fl2].
  assert (S := stands_run now class f handle fut N l1 _ [] w1 tr1 Fl1 (stands_new now class f handle fut) E1). cbn [app] in S.
  set (t0 := w_time w1) in *. set (F := f * second) in *. assert (FP : 0 < F) by (unfold F, Timed.second; lia).
  pose (J := fun (w : world) (tr : list (Z * tseen)) => exists task from, In (task, from) (w_tasks w) /\ w_time w <= from + lag
    /\ (from = t0 \/ exists s line n, In (s, Ticked task [CWrite line] (Ok None)) tr /\ tells_time (now n) line /\ t0 <= s <= w_time w /\ from = s + F)).
  assert (G : forall l w tr w' tr', Forall forwards l -> ~ In (TCall OpLost) l -> forall tr0, stands now class f handle fut w (tr0 ++ tr) ->
    linked (tr0 ++ tr) = true -> t0 <= w_time w -> J w tr -> prompt now lag w l -> timed_run now w l = (w', tr') -> J w' (tr ++ tr')).
  { clear - N Fp Lp FP. induction l as [|o l IH]; intros w tr w' tr' Fl NL tr0 S Lk Le Jw P E; cbn [timed_run] in E.
    - inversion E; subst. now rewrite app_nil_r.
    - destruct (timed_step now w o) as [w1' x] eqn:E1. destruct (timed_run now w1' l) as [w3 tr3] eqn:E2.
      inversion E. subst w' tr'. clear E. inversion Fl; subst. cbn [prompt] in P. rewrite E1 in P. cbn [fst] in P. destruct P as [P1 P2].
      assert (S' := stands_step _ _ _ _ _ N _ _ _ _ _ H1 S E1). rewrite <- app_assoc in S'.
      assert (X : t0 <= w_time w1' /\ linked (tr0 ++ tr ++ x) = true /\ J w1' (tr ++ x)).
      { unfold linked. rewrite app_assoc, linked_app. fold (linked (tr0 ++ tr)). rewrite Lk.
        destruct Jw as [task [from [J1 [J2 J3]]]]. destruct o as [d|o|i].
        - cbn in E1. inversion E1; subst. cbn [w_time linked_from]. cbn in H1. rewrite app_nil_r. split; [lia|]. split; [reflexivity|].
          exists task, from. cbn [w_tasks w_time]. split; [exact J1|]. split; [exact (P1 _ _ J1)|].
          destruct J3 as [J3|[s [line [n [K1 [K2 [K3 K4]]]]]]]; [now left|right]. exists s, line, n. repeat split; auto; lia.
        - destruct (call_cases _ _ _ _ _ _ _ _ _ _ S H1 E1) as [ev [r [-> [T [K _]]]]]. split; [lia|]. split.
          { cbn. destruct o; try reflexivity. destruct NL. now left. }
          exists task, from. rewrite K, T. split; [apply in_or_app; now left|]. split; [exact J2|].
          destruct J3 as [J3|[s [line [n [K1 [K2 [K3 K4]]]]]]]; [now left|right]. exists s, line, n.
          split; [apply in_or_app; now left|]. auto.
        - destruct (tick_cases _ _ _ _ _ N _ _ _ _ _ S E1) as [[-> [-> _]]|[l1 [task' [from' [l3 [ev [r [Q [_ [FT [-> [T [_ C]]]]]]]]]]]]].
          { rewrite app_nil_r. split; [exact Le|]. split; [reflexivity|]. exists task, from. auto. }
          split; [lia|]. split; [reflexivity|].
          destruct C as [[_ [_ [_ [-> [C [_ [line [-> TT]]]]]]]]|[[C|C] _]]; [|congruence|lia].
          rewrite Q in J1. apply in_app_or in J1.
          assert (D : (task, from) = (task', from') \/ In (task, from) l1 \/ In (task, from) l3) by (destruct J1 as [J1|[J1|J1]]; auto).
          destruct D as [D|D].
          + inversion D; subst task' from'. exists task, (w_time w + F). rewrite C, T. split; [apply in_or_app; right; now left|].
            split; [lia|]. right. exists (w_time w), line, (cl_reads (fst (w_client w))).
            split; [apply in_or_app; right; now left|]. split; [exact TT|]. split; [lia|reflexivity].
          + exists task, from. rewrite C, T. split; [apply in_or_app; destruct D; [now left|right; now right]|].
            split; [exact J2|]. destruct J3 as [J3|[s [li [n [K1 [K2 [K3 K4]]]]]]]; [now left|right]. exists s, li, n.
            split; [apply in_or_app; now left|]. auto. }
      destruct X as [X1 [X2 X3]]. rewrite app_assoc. eapply (IH w1' (tr ++ x) w3 tr3 H2 (fun I => NL (or_intror I)) tr0); eauto. }
  cbn [timed_run] in E2. destruct (timed_step now w1 (TCall OpConnect)) as [w3 x] eqn:E3.
  destruct (timed_run now w3 l2) as [w4 tr4] eqn:E4. inversion E2. subst w4 tr2. clear E2.
  cbn [prompt] in P. rewrite E3 in P. cbn [fst] in P. destruct P as [_ P].
  assert (S3 := stands_step _ _ _ _ _ N _ _ _ _ _ (Logic.I : forwards (TCall OpConnect)) S E3).
  destruct (call_cases _ _ _ _ _ _ _ _ _ _ S (Logic.I : forwards (TCall OpConnect)) E3) as [ev [r [-> [T3 [K3 _]]]]].
  replace (f =? 0) with false in K3 by (symmetry; apply Z.eqb_neq; lia).
  destruct (G l2 w3 [(w_time w1, Called OpConnect ev r)] w2 tr4 Fl2 NL tr1 S3) as [task [from [J1 [J2 J3]]]]; auto.
  - unfold linked. now rewrite linked_app.
  - unfold t0. lia.
  - exists (w_made w1), t0. rewrite K3, T3. fold t0. split; [apply in_or_app; right; now left|]. split; [lia|]. now left.
  - destruct J3 as [J3|[s [line [n [A1 [A2 [A3 A4]]]]]]]; [lia|]. exists s, task, line, n. repeat (split; [assumption|]). lia.
Qed.
Print Assumptions C74_fresh.

Lemma forallb_Forall {A} (p : A -> bool) (P : A -> Prop) l : (forall x, p x = true -> P x) -> forallb p l = true -> Forall P l.
Proof. intros H F. rewrite forallb_forall in F. apply Forall_forall. auto. Qed.

(** A connection that is lost and made again within the period leaves the first
    task alive: from then on there are two updates per period. *)
Definition reconnected : list top :=
  [TCall OpConnect; TTick 0; TWait (5 * second); TCall OpLost; TCall OpConnect; TTick 1; TWait (5 * second); TTick 0;
   TWait (5 * second); TTick 1; TWait (5 * second); TTick 0].
Theorem C74_one_per_period_refuted : ~ (forall now class f handle fut l w tr a b, clock_works now -> Forall forwards l -> 0 < f ->
  timed_run now (new_world (new_client class f handle fut)) l = (w, tr) -> b - a < f * second ->
  (forall t o ev r, In (t, Called o ev r) tr -> t < a) -> (length (between a b (updates tr)) <= 1)%nat).
Proof.
  intros H.
  assert (Fl : Forall forwards reconnected) by (repeat constructor; cbn; unfold Timed.second; lia).
  assert (C : length (between (15 * second) (20 * second) (updates (snd (timed_run noon
    (new_world (new_client ClassPCI 10 true Pending)) reconnected)))) = 2%nat) by (vm_compute; reflexivity).
  assert (B : Forall (fun x => match x with (t, Called _ _ _) => t < 15 * second | _ => True end)
    (snd (timed_run noon (new_world (new_client ClassPCI 10 true Pending)) reconnected))).
  { apply forallb_Forall with (p := fun x => match x with (t, Called _ _ _) => t <? 15 * second | _ => true end).
    - intros [t []]; [apply Z.ltb_lt|trivial].
    - vm_compute. reflexivity. }
  destruct (timed_run noon (new_world (new_client ClassPCI 10 true Pending)) reconnected) as [w tr] eqn:E. cbn [snd] in C, B.
  assert (X := H noon ClassPCI 10 true Pending reconnected w tr (15 * second) (20 * second) noon_works Fl eq_refl E eq_refl).
  rewrite C in X. assert (Y : (2 <= 1)%nat); [|lia]. apply X. intros t o ev r I. rewrite Forall_forall in B. exact (B _ I).
Qed.
Print Assumptions C74_one_per_period_refuted.

(** A connection of 35 seconds with a period of 10 and an event loop that is up to
    a tenth of a second late; lost, the task ends at its next round. *)
Definition late : list top :=
  [TWait 100000; TTick 0; TWait 10000000; TTick 0; TWait 3000000; TCall (OpOn [1]); TTick 0; TWait 7100000; TTick 0;
   TWait 10050000; TTick 0; TWait 4750000].
Example C74_case :
  let c := new_client ClassPCI 10 true Pending in
  let run := timed_run noon (new_world c) (TCall OpConnect :: late) in
  let more := timed_run noon (fst run) [TCall OpLost; TWait (20 * second); TTick 0; TCall OpConnect; TTick 0] in
  prompt noon 100000 (new_world c) (TCall OpConnect :: late) /\ w_time (fst run) = 35 * second
  /\ updates (snd run) = [100000; 10100000; 20200000; 30250000] /\ w_tasks (fst run) = [(0%nat, 40250000)]
  /\ updates (snd more) = [55 * second] /\ w_tasks (fst more) = [(1%nat, 65 * second)].
Proof.
  cbn zeta. split; [|vm_compute; auto 6].
  vm_compute. repeat split; intros task from I; repeat (destruct I as [I|I]; [inversion I; discriminate|]); destruct I.
Qed.
