(** Lemmas on the receive loop of buffered protocols. *)
From Coq Require Import List ZArith Bool Lia.
From Verif Require Import Py Common Packet Buffered Base Spec.
Import ListNotations.
Open Scope Z_scope.

Section Loop.
  Context {St Ev : Type} (h : handler St Ev).

  Lemma process_fuel_spec fuel : forall st buf st' buf' ev out, (length buf <= fuel)%nat ->
    process_fuel h fuel st buf = (st', buf', ev, out) ->
    exists calls, processes h st buf calls st' buf' ev out.
  Proof.
    induction fuel as [|fuel IH]; intros st buf st' buf' ev out L E; destruct buf as [|b buf].
    - inversion E; subst. exists []. constructor.
    - cbn in L. lia.
    - inversion E; subst. exists []. constructor.
    - cbn [process_fuel] in E. destruct (h st (b :: buf)) as [[st1 ev1] [r|e]] eqn:H.
      + destruct (r <? 0) eqn:R; [apply Z.ltb_lt in R|apply Z.ltb_ge in R].
        * inversion E; subst. exists [b :: buf]. destruct (r =? -1) eqn:Q; cbn [negb].
          -- apply Z.eqb_eq in Q. subst. now apply pr_clear.
          -- apply Z.eqb_neq in Q. apply pr_invalid with r; [discriminate|exact H|lia].
        * destruct (0 <? r) eqn:P; [apply Z.ltb_lt in P|apply Z.ltb_ge in P].
          -- destruct (process_fuel h fuel st1 (skipn (Z.to_nat r) (b :: buf))) as [[[st2 buf2] ev2] out2] eqn:F.
             inversion E; subst. apply IH in F.
             ++ destruct F as [calls F]. exists ((b :: buf) :: calls). now apply pr_next with st1 r.
             ++ rewrite skipn_length. cbn [length] in *. lia.
          -- assert (r = 0) by lia. subst. inversion E; subst. eexists. apply pr_wait; [discriminate|exact H].
      + inversion E; subst. eexists. apply pr_raise; [discriminate|exact H].
  Qed.

  Lemma process_buffer_spec st buf st' buf' ev out :
    process_buffer h st buf = (st', buf', ev, out) ->
    exists calls, processes h st buf calls st' buf' ev out.
  Proof. now apply process_fuel_spec. Qed.

  Lemma processes_unique st buf c1 st1 b1 e1 o1 : processes h st buf c1 st1 b1 e1 o1 ->
    forall c2 st2 b2 e2 o2, processes h st buf c2 st2 b2 e2 o2 ->
    c1 = c2 /\ st1 = st2 /\ b1 = b2 /\ e1 = e2 /\ o1 = o2.
  Proof.
    induction 1 as [st|st buf st' ev e N H|st buf st' ev N H|st buf st' ev N H
                   |st buf st' ev r N H R|st buf st' ev r calls st'' buf' ev' out N H R P IH];
      intros c2 st2 b2 e2 o2 Q; inversion Q; subst; try contradiction; try lia;
      try (match goal with A : h _ _ = _, B : h _ _ = _ |- _ => rewrite A in B; inversion B; subst end);
      try lia; try now auto 10.
    match goal with A : processes _ _ _ _ _ _ _ _ |- _ => apply IH in A end.
    intuition congruence.
  Qed.

  Lemma processes_buffer st buf calls st' buf' ev out :
    processes h st buf calls st' buf' ev out -> process_buffer h st buf = (st', buf', ev, out).
  Proof.
    intros P. destruct (process_buffer h st buf) as [[[st2 b2] e2] o2] eqn:E.
    apply process_buffer_spec in E. destruct E as [c2 E].
    destruct (processes_unique _ _ _ _ _ _ _ P _ _ _ _ _ E) as [_ [-> [-> [-> ->]]]]. reflexivity.
  Qed.

  Lemma processes_calls st buf calls st' buf' ev out :
    processes h st buf calls st' buf' ev out ->
    (length calls <= length buf)%nat /\ (exists k, buf' = skipn k buf)
    /\ chain proper_suffix calls /\ (forall c, In c calls -> c <> [])
    /\ (buf <> [] -> exists l, calls = buf :: l).
  Proof.
    assert (K : forall b : bytes, b <> [] -> (1 <= length b)%nat).
    { intros [|x b] N; [congruence|cbn; lia]. }
    induction 1 as [st|st buf st' ev e N H|st buf st' ev N H|st buf st' ev N H
                   |st buf st' ev r N H R|st buf st' ev r calls st'' buf' ev' out N H R P IH].
    - split; [cbn; lia|]. split; [now exists 0%nat|]. cbn. intuition.
    - pose proof (K _ N). split; [cbn; lia|]. split; [now exists 0%nat|].
      split; [exact I|]. split; [intros c [<-|[]]; exact N|intros _; now exists []].
    - pose proof (K _ N). split; [cbn; lia|]. split; [now exists 0%nat|].
      split; [exact I|]. split; [intros c [<-|[]]; exact N|intros _; now exists []].
    - pose proof (K _ N). split; [cbn; lia|]. split; [exists (length buf); now rewrite skipn_all|].
      split; [exact I|]. split; [intros c [<-|[]]; exact N|intros _; now exists []].
    - pose proof (K _ N). split; [cbn; lia|]. split; [exists (length buf); now rewrite skipn_all|].
      split; [exact I|]. split; [intros c [<-|[]]; exact N|intros _; now exists []].
    - pose proof (K _ N). destruct IH as [L [[k S] [C [Q F]]]].
      rewrite skipn_length in L.
      split; [cbn [length]; lia|].
      split. { exists (Z.to_nat r + k)%nat. rewrite S. rewrite skipn_skipn. f_equal. lia. }
      split; [|split; [intros c [<-|J]; [exact N|now apply Q]|intros _; now exists calls]].
      destruct calls as [|c calls]; [exact I|]. cbn [chain]. split; [|exact C].
      destruct (skipn (Z.to_nat r) buf) as [|x t] eqn:T.
      { inversion P; subst; congruence. }
      destruct F as [l F]; [discriminate|]. inversion F; subst.
      exists (firstn (Z.to_nat r) buf). split.
      + intros Z0. apply (f_equal (@length Z)) in Z0. rewrite firstn_length in Z0. cbn [length] in Z0. lia.
      + rewrite <- T. symmetry. apply firstn_skipn.
  Qed.

  Lemma data_received_bound limit st buf data st' buf' ev out :
    (length buf <= limit)%nat ->
    data_received h limit st buf data = (st', buf', ev, out) -> (length buf' <= limit)%nat.
  Proof.
    unfold data_received. intros L E.
    destruct (Nat.ltb limit (length data)) eqn:A; [inversion E; subst; exact L|].
    destruct (Nat.ltb limit (length buf + length data)) eqn:B; [inversion E; subst; cbn; lia|].
    apply Nat.ltb_ge in A. apply Nat.ltb_ge in B.
    apply process_buffer_spec in E. destruct E as [calls E]. apply processes_calls in E.
    destruct E as [_ [[k ->] _]]. rewrite skipn_length, app_length. lia.
  Qed.

  Lemma receive_bound limit chunks : forall st buf st' buf' log, (length buf <= limit)%nat ->
    receive h limit st buf chunks = (st', buf', log) ->
    (length buf' <= limit)%nat /\ length log = length chunks.
  Proof.
    induction chunks as [|d chunks IH]; intros st buf st' buf' log L E; cbn [receive] in E.
    - inversion E; subst. now split.
    - destruct (data_received h limit st buf d) as [[[st1 buf1] ev] out] eqn:D.
      destruct (receive h limit st1 buf1 chunks) as [[st2 buf2] log2] eqn:R.
      inversion E; subst. apply data_received_bound in D; [|exact L].
      destruct (IH _ _ _ _ _ D R) as [? ?]. split; [assumption|cbn; lia].
  Qed.

  (** A handler that waits without effect on an incomplete message and
      otherwise does not look past the message at the head. *)
  Definition prefix_stable : Prop := forall st buf ext,
    h st buf = (st, [], Ok 0)
    \/ (h st (buf ++ ext) = h st buf
        /\ forall st' ev r, h st buf = (st', ev, Ok r) -> 1 <= r <= Z.of_nat (length buf)).

  Lemma processes_app : prefix_stable -> forall st buf calls st1 buf1 ev1 out,
    processes h st buf calls st1 buf1 ev1 out -> out = Ok tt ->
    forall ext calls2 st2 buf2 ev2 out2,
    processes h st1 (buf1 ++ ext) calls2 st2 buf2 ev2 out2 ->
    exists calls3, processes h st (buf ++ ext) calls3 st2 buf2 (ev1 ++ ev2) out2.
  Proof.
    intros S st buf calls st1 buf1 ev1 out H.
    induction H as [st|st buf st' ev e N H|st buf st' ev N H|st buf st' ev N H
                   |st buf st' ev r N H R|st buf st' ev r calls st'' buf' ev' out N H R P IH];
      intros O ext calls2 st2 buf2 ev2 out2 Q; try discriminate.
    - cbn [app]. now exists calls2.
    - destruct (S st buf ext) as [W|[W V]].
      + rewrite H in W. inversion W; subst. now exists calls2.
      + apply V in H. lia.
    - destruct (S st buf ext) as [W|[W V]]; [congruence|]. apply V in H. lia.
    - destruct (S st buf ext) as [W|[W V]]; [rewrite W in H; inversion H; lia|].
      destruct (IH O ext calls2 st2 buf2 ev2 out2 Q) as [calls3 IH'].
      pose proof (V _ _ _ H) as V'.
      exists ((buf ++ ext) :: calls3). rewrite <- app_assoc. apply pr_next with st' r.
      + intros X. apply app_eq_nil in X. tauto.
      + congruence.
      + exact R.
      + rewrite skipn_app. replace (Z.to_nat r - length buf)%nat with 0%nat by lia. exact IH'.
  Qed.

  (** A history of chunks without exception has the effect of the whole stream
      given at once. *)
  Lemma receive_stream : prefix_stable -> forall limit chunks st buf st' buf' log,
    receive h limit st buf chunks = (st', buf', log) -> no_raise log -> chunks <> [] ->
    process_buffer h st (buf ++ concat chunks) = (st', buf', effects log, Ok tt).
  Proof.
    intros S limit chunks. induction chunks as [|d chunks IH]; intros st buf st' buf' log E N C;
      [congruence|]. clear C. cbn [receive] in E.
    destruct (data_received h limit st buf d) as [[[st1 buf1] ev] out] eqn:D.
    destruct (receive h limit st1 buf1 chunks) as [[st2 buf2] log2] eqn:R.
    inversion E; subst. clear E. apply Forall_cons_iff in N. destruct N as [[[] N1] N2]. cbn [snd] in N1. subst out.
    unfold data_received in D.
    destruct (Nat.ltb limit (length d)); [inversion D|].
    destruct (Nat.ltb limit (length buf + length d)); [inversion D|].
    apply process_buffer_spec in D. destruct D as [c1 D].
    cbn [concat effects flat_map fst]. fold (effects log2).
    destruct chunks as [|d2 chunks].
    - cbn [receive] in R. inversion R; subst. cbn [concat effects flat_map]. rewrite !app_nil_r.
      now apply processes_buffer in D.
    - specialize (IH _ _ _ _ _ R N2 ltac:(discriminate)).
      apply process_buffer_spec in IH. destruct IH as [c2 IH].
      destruct (processes_app S _ _ _ _ _ _ _ D eq_refl _ _ _ _ _ _ IH) as [c3 F].
      rewrite app_assoc. now apply processes_buffer in F.
  Qed.

  Lemma processes_raise_app : prefix_stable -> forall st buf calls st1 buf1 ev1 out,
    processes h st buf calls st1 buf1 ev1 out -> forall e ext, out = Raise e ->
    exists calls2, processes h st (buf ++ ext) calls2 st1 (buf1 ++ ext) ev1 (Raise e).
  Proof.
    intros S st buf calls st1 buf1 ev1 out H.
    induction H as [st|st buf st' ev e N H|st buf st' ev N H|st buf st' ev N H
                   |st buf st' ev r N H R|st buf st' ev r calls st'' buf' ev' out N H R P IH];
      intros e0 ext O; try discriminate.
    - inversion O; subst. destruct (S st buf ext) as [W|[W V]]; [congruence|].
      eexists. apply pr_raise; [|congruence]. intros X. apply app_eq_nil in X. tauto.
    - destruct (S st buf ext) as [W|[W V]]; [rewrite W in H; inversion H; lia|].
      apply V in H. lia.
    - destruct (S st buf ext) as [W|[W V]]; [rewrite W in H; inversion H; lia|].
      pose proof (V _ _ _ H) as V'. destruct (IH e0 ext O) as [calls2 IH'].
      exists ((buf ++ ext) :: calls2). apply pr_next with st' r.
      + intros X. apply app_eq_nil in X. tauto.
      + congruence.
      + exact R.
      + rewrite skipn_app. replace (Z.to_nat r - length buf)%nat with 0%nat by lia. exact IH'.
  Qed.

  (** A stream that fits the buffer and is processed without exception can be
      delivered in any chunks. *)
  Lemma stream_receive : prefix_stable -> forall limit chunks st buf st' buf' ev,
    chunks <> [] -> (length (buf ++ concat chunks) <= limit)%nat ->
    process_buffer h st (buf ++ concat chunks) = (st', buf', ev, Ok tt) ->
    exists log, receive h limit st buf chunks = (st', buf', log) /\ no_raise log /\ effects log = ev.
  Proof.
    intros S limit chunks. induction chunks as [|d chunks IH]; intros st buf st' buf' ev C L E; [congruence|].
    cbn [concat] in L, E. rewrite app_assoc in L, E. rewrite app_length in L. cbn [receive].
    assert (D : data_received h limit st buf d = process_buffer h st (buf ++ d)).
    { unfold data_received. rewrite app_length in L.
      replace (Nat.ltb limit (length d)) with false by (symmetry; apply Nat.ltb_ge; lia).
      now replace (Nat.ltb limit (length buf + length d)) with false by (symmetry; apply Nat.ltb_ge; lia). }
    rewrite D. clear D.
    destruct (process_buffer h st (buf ++ d)) as [[[st1 buf1] ev1] out] eqn:P.
    apply process_buffer_spec in P. destruct P as [c1 P].
    destruct out as [[]|e].
    - destruct chunks as [|d2 chunks].
      + cbn [concat] in E. rewrite app_nil_r in E. apply processes_buffer in P.
        rewrite P in E. inversion E; subst. cbn [receive]. eexists. split; [reflexivity|].
        split; [repeat constructor; now exists tt|]. cbn. apply app_nil_r.
      + destruct (process_buffer h st1 (buf1 ++ concat (d2 :: chunks))) as [[[st2 buf2] ev2] out2] eqn:Q.
        pose proof Q as Q'. apply process_buffer_spec in Q'. destruct Q' as [c2 Q'].
        destruct (processes_app S _ _ _ _ _ _ _ P eq_refl _ _ _ _ _ _ Q') as [c3 F].
        apply processes_buffer in F. rewrite F in E. inversion E; subst.
        apply processes_calls in P. destruct P as [_ [[k K] _]].
        destruct (IH st1 buf1 st' buf' ev2) as [log [R [N V]]].
        * discriminate.
        * rewrite app_length. rewrite K, skipn_length. lia.
        * exact Q.
        * rewrite R. eexists. split; [reflexivity|]. split; [constructor; [now exists tt|exact N]|].
          cbn [effects flat_map fst]. fold (effects log). now rewrite V.
    - destruct (processes_raise_app S _ _ _ _ _ _ _ P e (concat chunks) eq_refl) as [c2 Q].
      apply processes_buffer in Q. rewrite Q in E. discriminate.
  Qed.

End Loop.
