(** Facts about the effects of the daemon up to any point. *)
From Coq Require Import String List ZArith Bool Lia ZifyBool ZifyNat.
From Verif Require Import Py Common Sal Packet Text Mqtt Buffered Client Cmqttd Daemon Base Spec Spec_client Spec_sound Spec_mqtt
  Spec_daemon Restart Spec_restart Client_facts Client_steps Client_dispatch Mqtt_facts Prop_client Prop_mqtt Prop_discovery Prop_daemon.
Import ListNotations.
Open Scope Z_scope.
Notation length := List.length.

(** The effects that count: messages on state topics, and lighting commands
    written to the C-Bus. *)
Definition marked (e : cev) : bool :=
  match e with
  | CPublish m => on_state_topic m
  | CWrite w => match commanded [CWrite w] with [] => false | _ => true end
  | _ => false
  end.
Lemma published_marked l : published (filter marked l) = state_messages (published l).
Proof.
  induction l as [|e l IH]; [reflexivity|].
  change (e :: l) with ([e] ++ l). rewrite filter_app, !published_app, IH. unfold state_messages. rewrite filter_app. f_equal.
  cbn [filter]. destruct (marked e) eqn:M; destruct e; try discriminate M; try reflexivity; cbn in *; rewrite M; reflexivity.
Qed.
Lemma commanded_marked l : commanded (filter marked l) = commanded l.
Proof.
  induction l as [|e l IH]; [reflexivity|].
  change (e :: l) with ([e] ++ l). rewrite filter_app, !commanded_app, IH. f_equal. cbn [filter].
  destruct (marked e) eqn:M; [reflexivity|]. destruct e; try reflexivity. cbn [marked] in M. symmetry.
  destruct (commanded [CWrite b]); [reflexivity|discriminate M].
Qed.
Lemma marked_app a b : filter marked (a ++ b) = filter marked a ++ filter marked b.
Proof. apply filter_app. Qed.
Lemma marked_quiet l : commanded l = [] -> filter marked l = map CPublish (state_messages (published l)).
Proof.
  induction l as [|e l IH]; [reflexivity|]. intros C.
  change (e :: l) with ([e] ++ l) in C |- *. rewrite commanded_app in C. apply app_eq_nil in C. destruct C as [C1 C2].
  rewrite filter_app, published_app. unfold state_messages. rewrite filter_app, map_app. unfold state_messages in IH. rewrite (IH C2). f_equal.
  cbn [filter]. destruct e; try reflexivity; cbn [marked].
  - rewrite C1. reflexivity.
  - cbn [published flat_map app filter]. destruct (on_state_topic m); reflexivity.
Qed.
Lemma marked_publishes l : state_messages l = l -> filter marked (map CPublish l) = map CPublish l.
Proof.
  intros E. rewrite marked_quiet.
  - rewrite (proj2 (proj2 (publishes_filters l))), E. reflexivity.
  - unfold commanded. now rewrite (proj1 (proj2 (publishes_filters l))).
Qed.

(** What is done about an entry. *)
Definition acted (e : entry) (g : list cev) : Prop :=
  match e with
  | Seen _ _ => exists l, entry_report e l /\ g = map CPublish l
  | Asked ga w => exists line command l, g = CWrite line :: map CPublish l /\ wish_command ga w command
      /\ commanded [CWrite line] = [command] /\ entry_report e l
  end.
Lemma acted_reports log ls : Forall2 entry_report log ls -> ordered log = [] -> Forall2 acted log (map (map CPublish) ls).
Proof.
  induction 1 as [|e l log ls R _ IH]; intros O; [constructor|].
  destruct e as [src s|ga w]; [|discriminate O]. constructor; [exists l; auto|exact (IH O)].
Qed.
Lemma seen_orders ev : ordered (flat_map seen ev) = [].
Proof.
  induction ev as [|e ev IH]; [reflexivity|]. unfold ordered in *. cbn [flat_map]. rewrite flat_map_app, IH. now destruct e.
Qed.
Lemma stream u now labels ops : clock_works now -> forall st st' tr, counter_ok (fst st) -> cl_class (fst st) = ClassHandler ->
  daemon_run u now labels st ops = (st', tr) ->
  exists log gs, chronicle u (cl_mqtt (fst st)) (cl_transport (fst st)) ops tr log
    /\ Forall2 acted log gs /\ filter marked (effects tr) = concat gs.
Proof.
  intros N. induction ops as [|o ops IH]; intros st st' tr I H E; cbn [daemon_run] in E.
  - inversion E; subst. exists [], []. repeat constructor.
  - destruct (daemon_step u now labels st o) as [[st1 ev] r] eqn:S.
    destruct (daemon_run u now labels st1 ops) as [st2 tr2] eqn:T. inversion E; subst.
    cbn [effects flat_map fst]. fold (effects tr2). rewrite filter_app.
    assert (B : bus_call o \/ o = DMqttConnected \/ exists topic payload, o = DMqttMessage topic payload).
    { destruct o; try (left; exact Logic.I); right; [left; reflexivity|right; eauto]. }
    destruct B as [B|[ -> |[topic [payload -> ]]]].
    + destruct (bus_step u now labels st o st1 ev r N I H B S) as [[Q1 [Q2 _]] [SC [I1 [H1 [M1 T1]]]]].
      destruct (IH st1 st' tr2 I1 H1 T) as [log [gs [C [F P]]]]. rewrite M1, T1 in C.
      destruct (seen_reports ev SC) as [ls1 [F1 P1]].
      exists ((if cl_mqtt (fst st) then flat_map seen ev else []) ++ log), ((if cl_mqtt (fst st) then map (map CPublish) ls1 else []) ++ gs).
      split; [now constructor|]. split.
      * apply Forall2_app; [|exact F]. destruct (cl_mqtt (fst st)); [|constructor]. apply acted_reports; [exact F1|apply seen_orders].
      * rewrite P, concat_app. f_equal. rewrite (marked_quiet _ Q2), Q1. destruct (cl_mqtt (fst st)); [|reflexivity].
        rewrite P1, (reports_state _ _ F1), concat_map. reflexivity.
    + cbn [daemon_step] in S. unfold on_connect, mseq, mbind, memit in S. rewrite memit_all_run in S.
      assert (S1 := f_equal (fun x => fst (fst x)) S). assert (S2 := f_equal (fun x => snd (fst x)) S). cbn [fst snd] in S1, S2.
      clear S. subst st1. destruct (IH (set_mqtt (fst st) true, snd st) st' tr2 I H T) as [log [gs [C [F P]]]]. exists log, gs.
      split; [constructor; exact C|]. split; [exact F|].
      assert (V : ev = [CSubscribe (map (fun ga => (set_topic ga, 2)) ga_range)] ++ map CPublish (publish_all_lights labels)) by (symmetry; exact S2).
      rewrite V, filter_app, P. cbn [filter marked app]. rewrite marked_quiet.
      * rewrite (proj2 (proj2 (publishes_filters _))), configs_state. reflexivity.
      * unfold commanded. now rewrite (proj1 (proj2 (publishes_filters _))).
    + destruct (order_dec u topic payload (cl_transport (fst st))) as [[B [ga [w O]]]|B].
      * destruct (order_step u now labels st topic payload ga w I B O) as [line [command [messages [D [W [R K]]]]]].
        rewrite S in D. assert (D1 := f_equal (fun x => fst (fst x)) D). assert (D2 := f_equal (fun x => snd (fst x)) D).
        cbn [fst snd] in D1, D2. clear D. subst st1 ev.
        assert (I1 : counter_ok (set_index (fst st) ((cl_index (fst st) + 1) mod 20))) by (apply Nat.mod_upper_bound; discriminate).
        destruct (IH (set_index (fst st) ((cl_index (fst st) + 1) mod 20), snd st) st' tr2 I1 H T) as [log [gs [C [F P]]]].
        change (CWrite line :: map CPublish messages) with ([CWrite line] ++ map CPublish messages) in K |- *.
        assert (K1 : commanded [CWrite line] = [command]).
        { rewrite commanded_app in K. unfold commanded at 2 in K. rewrite (proj1 (proj2 (publishes_filters messages))) in K.
          cbn [flat_map] in K. now rewrite app_nil_r in K. }
        exists (Asked ga w :: log), ((CWrite line :: map CPublish messages) :: gs). cbn [fst] in C. split; [rewrite B; econstructor; [exact O|]|].
        { cbn [cl_mqtt cl_transport set_index] in C. rewrite B in C. exact C. }
        split; [constructor; [|exact F]; exists line, command, messages; auto|].
        rewrite filter_app, P. cbn [concat]. f_equal. cbn [filter]. unfold marked at 1. rewrite K1. cbn [app]. f_equal.
        apply marked_publishes.
        destruct (entry_messages (Asked ga w) messages R) as [[-> _]|[g [x [y [_ [_ [_ [_ [X _]]]]]]]]]; [reflexivity|exact X].
      * destruct (ignored_step u now labels st topic payload I B) as [r' D]. rewrite S in D. inversion D; subst.
        destruct (IH st st' tr2 I H T) as [log [gs [C [F P]]]]. exists log, gs.
        split; [now apply chr_ignored|]. split; [exact F|exact P].
Qed.

Lemma same_length {A B} (R : A -> B -> Prop) l l' : Forall2 R l l' -> length l = length l'.
Proof. induction 1; [reflexivity|]. cbn [length]. now f_equal. Qed.
Lemma acted_orders log gs : Forall2 acted log gs ->
  Forall2 (fun o s => wish_command (fst o) (snd o) s) (ordered log) (commanded (concat gs)).
Proof.
  induction 1 as [|e g log gs A _ IH]; [constructor|]. cbn [concat]. rewrite commanded_app.
  replace (ordered (e :: log)) with (ordered [e] ++ ordered log) by (symmetry; exact (flat_map_app _ [e] log)). apply Forall2_app; [|exact IH].
  destruct e as [src s|ga w]; cbn [acted] in A.
  - destruct A as [l [_ ->]]. unfold commanded. rewrite (proj1 (proj2 (publishes_filters l))). constructor.
  - destruct A as [line [command [l [-> [W [C _]]]]]]. change (CWrite line :: map CPublish l) with ([CWrite line] ++ map CPublish l).
    rewrite commanded_app, C. unfold commanded. rewrite (proj1 (proj2 (publishes_filters l))). cbn. repeat constructor. exact W.
Qed.
Lemma acted_published log gs : Forall2 acted log gs ->
  exists ls, Forall2 entry_report log ls /\ published (concat gs) = concat ls.
Proof.
  induction 1 as [|e g log gs A _ [ls [F P]]]; [exists []; split; constructor|].
  assert (X : exists l, entry_report e l /\ published g = l).
  { destruct e as [src s|ga w]; cbn [acted] in A.
    - destruct A as [l [R ->]]. exists l. split; [exact R|apply publishes_filters].
    - destruct A as [line [command [l [-> [W [C R]]]]]]. exists l. split; [exact R|].
      unfold published. cbn [flat_map app]. apply publishes_filters. }
  destruct X as [l [R Q]]. exists (l :: ls). split; [now constructor|]. cbn [concat]. rewrite published_app, P, Q. reflexivity.
Qed.
Lemma prefix_concat {A} (gs : list (list A)) : forall x y, x ++ y = concat gs ->
  (exists g1 g2, gs = g1 ++ g2 /\ x = concat g1)
  \/ exists g1 p q g2, gs = g1 ++ (p ++ q) :: g2 /\ x = concat g1 ++ p /\ p <> [] /\ q <> [].
Proof.
  induction gs as [|g gs IH]; intros x y E; cbn [concat] in E.
  - apply app_eq_nil in E. destruct E as [-> _]. left. exists [], []. split; reflexivity.
  - destruct (app_eq_app _ _ _ _ E) as [l [[-> Q]|[-> Q]]].
    + destruct (IH l y (eq_sym Q)) as [[g1 [g2 [-> ->]]]|[g1 [p [q [g2 [-> [-> PQ]]]]]]].
      * left. exists (g :: g1), g2. split; reflexivity.
      * right. exists (g :: g1), p, q, g2. split; [reflexivity|]. split; [cbn [concat]; now rewrite app_assoc|exact PQ].
    + destruct x as [|a x]; [left; exists [], ((l) :: gs); split; reflexivity|].
      destruct l as [|b l]; [left; exists [(a :: x)], gs; rewrite ?app_nil_r; cbn [concat]; rewrite ?app_nil_r; split; reflexivity|].
      right. exists [], (a :: x), (b :: l), gs. repeat split; discriminate.
Qed.
Lemma prefix_filter {A} (f : A -> bool) (l : list A) n : exists y, filter f (firstn n l) ++ y = filter f l.
Proof.
  exists (filter f (skipn n l)). rewrite <- filter_app, firstn_skipn. reflexivity.
Qed.
Lemma prefix_published k l : exists a b, l = a ++ b /\ firstn k (published l) = published a
  /\ ((length (published l) <= k)%nat -> b = []).
Proof.
  revert k. induction l as [|e l IH]; intros k.
  - exists [], []. rewrite firstn_nil. auto.
  - assert (X : (exists m, e = CPublish m) \/ published [e] = []) by (destruct e; auto; left; eauto).
    change (e :: l) with ([e] ++ l). rewrite published_app.
    destruct X as [[m ->]|X].
    + destruct k as [|k].
      * exists [], ([CPublish m] ++ l). split; [reflexivity|]. split; [reflexivity|]. cbn. lia.
      * destruct (IH k) as [a [b [-> [Q L]]]]. exists (CPublish m :: a), b. split; [reflexivity|]. split.
        -- cbn. f_equal. exact Q.
        -- intros H. apply L. cbn [published flat_map app length] in H. apply le_S_n. exact H.
    + rewrite X. cbn [app]. destruct (IH k) as [a [b [-> [Q L]]]]. exists (e :: a), b. split; [reflexivity|]. split; [|exact L].
      change (e :: a) with ([e] ++ a). rewrite (published_app [e] a), X. exact Q.
Qed.

(** The entries done at a point of the stream. *)
Lemma stream_cut log gs x y : Forall2 acted log gs -> x ++ y = concat gs ->
  exists known half rest ls lights, log = known ++ half ++ rest /\ (length half <= 1)%nat
    /\ Forall2 entry_report known ls
    /\ Forall2 (fun e m => exists binary, entry_report e [m; binary]) half lights
    /\ published x = concat ls ++ lights
    /\ (length (ordered (known ++ half)) <= length (commanded x) <= S (length (ordered (known ++ half))))%nat
    /\ (y = [] -> half = [] /\ rest = []).
Proof.
  intros F E. destruct (prefix_concat gs x y E) as [[g1 [g2 [-> ->]]]|[g1 [p [q [g2 [-> [-> [NP NQ]]]]]]]].
  - destruct (Forall2_app_inv_r _ _ F) as [l1 [l2 [F1 [F2 ->]]]]. destruct (acted_published _ _ F1) as [ls [R P]].
    assert (O := same_length _ _ _ (acted_orders _ _ F1)).
    destruct y as [|c y].
    + destruct (acted_published _ _ F) as [ls' [R' P']]. exists (l1 ++ l2), [], [], ls', [].
      rewrite !app_nil_r. rewrite app_nil_r in E. rewrite <- E in P'.
      assert (O' := same_length _ _ _ (acted_orders _ _ F)). rewrite <- E in O'.
      repeat split; auto; try lia.
    + exists l1, [], l2, ls, []. rewrite !app_nil_r. repeat split; auto; try lia; discriminate.
  - destruct (Forall2_app_inv_r _ _ F) as [l1 [l2 [F1 [F2 ->]]]]. destruct (acted_published _ _ F1) as [ls [R P]].
    assert (O := same_length _ _ _ (acted_orders _ _ F1)).
    inversion F2 as [|e g l2' g2' A F3]; subst. clear F2.
    assert (Y : y <> []).
    { intros ->. rewrite app_nil_r, concat_app in E. apply app_inv_head in E. cbn [concat] in E.
      rewrite <- app_assoc in E. rewrite <- (app_nil_r p) in E at 1. apply app_inv_head in E.
      symmetry in E. apply app_eq_nil in E. now destruct E. }
    destruct e as [src s|ga w]; cbn [acted] in A.
    + destruct A as [l [RE Q]].
      destruct (entry_messages _ _ RE) as [[-> _]|[ga [light [binary [_ [-> _]]]]]]; cbn [map] in Q.
      { apply app_eq_nil in Q. destruct Q. contradiction. }
      assert (p = [CPublish light]).
      { destruct p as [|c p]; [contradiction|]. cbn [app] in Q. inversion Q; subst. destruct p as [|c p]; [reflexivity|].
        cbn [app] in H1. inversion H1; subst. apply app_eq_nil in H2. destruct H2. contradiction. }
      subst p. exists l1, [Seen src s], l2', ls, [light]. rewrite published_app, commanded_app, P, app_length, <- O.
      unfold ordered. rewrite flat_map_app, app_length. cbn [flat_map length app commanded writes].
      repeat split; auto; try lia; try contradiction. repeat constructor. now exists binary.
    + destruct A as [line [command [l [Q [W [C RE]]]]]].
      destruct (entry_messages _ _ RE) as [[_ Z]|[ga' [light [binary [_ [-> _]]]]]]; [discriminate Z|]. cbn [map] in Q.
      assert (p = [CWrite line] \/ p = [CWrite line; CPublish light]).
      { destruct p as [|c p]; [contradiction|]. cbn [app] in Q. inversion Q; subst. destruct p as [|c p]; [now left|].
        right. cbn [app] in H1. inversion H1; subst. destruct p as [|c p]; [reflexivity|].
        cbn [app] in H2. inversion H2; subst. apply app_eq_nil in H3. destruct H3. contradiction. }
      destruct H as [-> | ->].
      * exists l1, [], (Asked ga w :: l2'), ls, []. rewrite published_app, commanded_app, P, app_length, C, !app_nil_r, <- O.
        cbn [length]. repeat split; auto; try lia; try contradiction.
      * exists l1, [Asked ga w], l2', ls, [light].
        change [CWrite line; CPublish light] with ([CWrite line] ++ [CPublish light]).
        rewrite !published_app, !commanded_app, P, !app_length, C, <- O.
        unfold ordered. rewrite flat_map_app, app_length. cbn [flat_map length app commanded writes].
        repeat split; auto; try lia; try contradiction. repeat constructor. now exists binary.
Qed.
