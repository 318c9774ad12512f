(** C71: the helper that runs the MQTT client in the event loop. *)
From Coq Require Import List Bool Arith Lia.
From Verif Require Import Py Helper.
Import ListNotations.
Open Scope nat_scope.

(** ** Specification, on what is observed *)

(** The last callback about opening or closing [s] opened it. *)
Definition listening (s : nat) (tr : list hev) : Prop :=
  exists a b, tr = a ++ Did (SockOpen s) :: b /\ ~ In (Did (SockClose s)) b.
(** The last callback about writing to [s] asked for it. *)
Definition waiting (s : nat) (tr : list hev) : Prop :=
  exists a b, tr = a ++ Did (RegisterWrite s) :: b /\ ~ In (Did (UnregisterWrite s)) b.

Definition is_open (e : hev) : bool := match e with Did (SockOpen _) => true | _ => false end.
Definition is_close (e : hev) : bool := match e with Did (SockClose _) => true | _ => false end.
Definition opens (tr : list hev) : nat := length (filter is_open tr).
(** A closing came while the opening number [i] (from 0) was the latest one. *)
Definition closed (i : nat) (tr : list hev) : Prop :=
  exists a s b, tr = a ++ Did (SockClose s) :: b /\ opens a = S i.
(** The maintenance loop that the opening number [i] started is due: nothing was
    closed between this opening and the next one, and no call of [loop_misc] in
    it has failed. *)
Definition due (i : nat) (tr : list hev) : Prop :=
  i < opens tr /\ ~ closed i tr /\ ~ In (LoopMisc i false) tr.

(** Openings and closings alternate, an opening first. *)
Fixpoint alternates (opened : bool) (tr : list hev) : Prop :=
  match tr with
  | [] => True
  | e :: tr' => if is_open e then opened = false /\ alternates true tr'
                else if is_close e then opened = true /\ alternates false tr'
                else alternates opened tr'
  end.
(** There is an open connection. *)
Fixpoint connected (opened : bool) (tr : list hev) : bool :=
  match tr with
  | [] => opened
  | e :: tr' => connected (if is_open e then true else if is_close e then false else opened) tr'
  end.

(** ** The state and the events *)

Lemma opens_app a b : opens (a ++ b) = opens a + opens b.
Proof. unfold opens. now rewrite filter_app, app_length. Qed.

Lemma snoc_cases {A} (a : list A) x b tr y : a ++ x :: b = tr ++ [y] ->
  (b = [] /\ x = y /\ a = tr) \/ exists b', b = b' ++ [y] /\ tr = a ++ x :: b'.
Proof.
  intros E. destruct b as [|z b] using rev_ind.
  - left. change (a ++ [x] = tr ++ [y]) in E. apply app_inj_tail in E. tauto.
  - clear IHb. right. exists b. replace (a ++ x :: b ++ [z]) with ((a ++ x :: b) ++ [z]) in E
      by (rewrite <- app_assoc; reflexivity).
    apply app_inj_tail in E. destruct E as [<- <-]. auto.
Qed.

(** The last event of kind [p] comes after the last one of kind [q]. *)
Definition after_last (p q : hev) (tr : list hev) : Prop := exists a b, tr = a ++ p :: b /\ ~ In q b.
Lemma after_last_snoc p q tr e : p <> q ->
  after_last p q (tr ++ [e]) <-> e = p \/ (e <> q /\ after_last p q tr).
Proof.
  intros N. split.
  - intros [a [b [E H]]]. symmetry in E. apply snoc_cases in E. destruct E as [[-> [-> ->]]|[b' [-> ->]]]; [now left|].
    right. split; [intros ->; apply H, in_or_app; right; now left|]. exists a, b'. split; [reflexivity|].
    intros X. apply H, in_or_app. now left.
  - intros [->|[H [a [b [-> K]]]]].
    + exists tr, []. auto.
    + exists a, (b ++ [e]). split; [now rewrite <- app_assoc|]. intros X. apply in_app_or in X.
      destruct X as [X|[X|[]]]; auto.
Qed.

Lemma closed_snoc i tr e : closed i (tr ++ [e]) <-> closed i tr \/ (opens tr = S i /\ exists s, e = Did (SockClose s)).
Proof.
  split.
  - intros [a [s [b [E H]]]]. symmetry in E. apply snoc_cases in E. destruct E as [[-> [<- ->]]|[b' [-> ->]]]; [right; eauto|].
    left. now exists a, s, b'.
  - intros [[a [s [b [-> H]]]]|[H [s ->]]].
    + exists a, s, (b ++ [e]). split; [now rewrite <- app_assoc|exact H].
    + now exists tr, s, [].
Qed.

Lemma update_length i f l : length (update i f l) = length l.
Proof. revert i. induction l as [|t l IH]; intros [|i]; cbn; auto. Qed.
Lemma update_nth i f l j : nth_error (update i f l) j
  = if Nat.eqb i j then option_map f (nth_error l j) else nth_error l j.
Proof.
  revert i j. induction l as [|t l IH]; intros [|i] [|j]; cbn; auto. now destruct (Nat.eqb i j).
Qed.

Lemma add_in s t l : In s (add t l) <-> s = t \/ In s l.
Proof.
  unfold add. cbn [In]. destruct (Nat.eq_dec s t) as [->|N]; [intuition|].
  split; [intros [E|H]; [auto|]|intros [E|H]; [congruence|]].
  - apply in_remove in H. tauto.
  - right. now apply in_in_remove.
Qed.
Lemma drop_in s t l : In s (drop t l) <-> s <> t /\ In s l.
Proof.
  unfold drop. split; [intros H; apply in_remove in H; tauto|intros [N H]; now apply in_in_remove].
Qed.

(** [x]: the task that is running. *)
Definition inv (x : option nat) (h : helper) (tr : list hev) : Prop :=
  (forall s, In s (h_readers h) <-> listening s tr) /\ (forall s, In s (h_writers h) <-> waiting s tr)
  /\ h_misc h = match opens tr with O => None | S i => Some i end /\ length (h_tasks h) = opens tr
  /\ (forall i t, nth_error (h_tasks h) i = Some t ->
        match t with
        | TDone => closed i tr \/ In (LoopMisc i false) tr
        | TReady c | TAsleep c => (c = true <-> closed i tr) /\ (x <> Some i -> ~ In (LoopMisc i false) tr)
        end)
  /\ (forall i b, In (LoopMisc i b) tr -> i < opens tr)
  /\ (forall i, closed i tr -> i < opens tr).

Lemma listening_snoc s tr e : listening s (tr ++ [e])
  <-> e = Did (SockOpen s) \/ (e <> Did (SockClose s) /\ listening s tr).
Proof. apply after_last_snoc. discriminate. Qed.
Lemma waiting_snoc s tr e : waiting s (tr ++ [e])
  <-> e = Did (RegisterWrite s) \/ (e <> Did (UnregisterWrite s) /\ waiting s tr).
Proof. apply after_last_snoc. discriminate. Qed.
Lemma misc_snoc i b tr e : In (LoopMisc i b) (tr ++ [e]) <-> In (LoopMisc i b) tr \/ e = LoopMisc i b.
Proof. rewrite in_app_iff. cbn. intuition. Qed.

Lemma inv_callback x h tr c h' r : inv x h tr -> on_callback c h = (h', r) ->
  inv x h' (tr ++ [Did c]) /\ (r = Ok tt <-> (opens tr <> 0 \/ forall s, c <> SockClose s)).
Proof.
  intros [R [W [M [L [T [B C]]]]]] E.
  assert (B' : forall i b, In (LoopMisc i b) (tr ++ [Did c]) <-> In (LoopMisc i b) tr).
  { intros i b. rewrite misc_snoc. intuition discriminate. }
  destruct c as [s|s|s|s]; cbn [on_callback] in E.
  - inversion E; subst. clear E. split; [|split; [right; discriminate|reflexivity]].
    assert (O : opens (tr ++ [Did (SockOpen s)]) = S (opens tr)) by (rewrite opens_app; cbn; lia).
    unfold inv. cbn [h_readers h_writers h_misc h_tasks]. rewrite O, app_length, L. cbn [length].
    split; [intros t; rewrite add_in, listening_snoc, R; intuition (try congruence; try discriminate)|].
    split; [intros t; rewrite waiting_snoc, W; intuition (try congruence; try discriminate)|].
    split; [reflexivity|]. split; [lia|].
    assert (CS : forall i, closed i (tr ++ [Did (SockOpen s)]) <-> closed i tr).
    { intros i. rewrite closed_snoc. split; [intros [H|[_ [t H]]]; [exact H|discriminate]|now left]. }
    split; [|split; [intros i b H; apply B' in H; apply B in H; lia|intros i H; apply CS in H; apply C in H; lia]].
    intros i t H. destruct (Nat.lt_ge_cases i (length (h_tasks h))) as [I|I].
    + rewrite nth_error_app1 in H by exact I. apply T in H. destruct t; rewrite B', CS; exact H.
    + rewrite nth_error_app2 in H by exact I. destruct (i - length (h_tasks h)) as [|k] eqn:Q; [|now destruct k].
      cbn in H. inversion H; subst. assert (i = opens tr) by lia. subst i. rewrite CS. split.
      * split; [discriminate|]. intros X. apply C in X. lia.
      * intros _ X. apply B' in X. apply B in X. lia.
  - assert (O : opens (tr ++ [Did (SockClose s)]) = opens tr) by (rewrite opens_app; cbn; lia).
    assert (RS : forall t, In t (drop s (h_readers h)) <-> listening t (tr ++ [Did (SockClose s)])).
    { intros t. rewrite drop_in, listening_snoc, R. intuition (try congruence; try discriminate). }
    assert (WS : forall t, In t (h_writers h) <-> waiting t (tr ++ [Did (SockClose s)])).
    { intros t. rewrite waiting_snoc, W. intuition (try congruence; try discriminate). }
    rewrite M in E. destruct (opens tr) as [|k] eqn:K; inversion E; subst; clear E.
    + split; [|split; [discriminate|]].
      2: { intros [H|H]; [congruence|]. now destruct (H s). }
      unfold inv. cbn [h_readers h_writers h_misc h_tasks]. rewrite O.
      split; [exact RS|]. split; [exact WS|]. split; [reflexivity|]. split; [exact L|].
      split; [intros i t H; assert (i < length (h_tasks h)) by (apply nth_error_Some; congruence); lia|].
      split; [intros i b H; apply B' in H; now apply B in H|].
      intros i H. apply closed_snoc in H. destruct H as [H|[H _]]; [now apply C|lia].
    + split; [|split; [intros _; left; lia|reflexivity]].
      unfold inv. cbn [h_readers h_writers h_misc h_tasks]. rewrite O, update_length.
      split; [exact RS|]. split; [exact WS|]. split; [reflexivity|]. split; [exact L|].
      assert (CS : forall i, closed i (tr ++ [Did (SockClose s)]) <-> closed i tr \/ i = k).
      { intros i. rewrite closed_snoc, K. split; [intros [H|[H _]]; [now left|right; lia]|].
        intros [H| ->]; [now left|right; split; [lia|eauto]]. }
      split; [|split; [intros i b H; apply B' in H; now apply B in H|]].
      2: { intros i H. apply CS in H. destruct H as [H| ->]; [now apply C|lia]. }
      intros i t H. rewrite update_nth in H. destruct (Nat.eqb k i) eqn:Q.
      * apply Nat.eqb_eq in Q. subst i. destruct (nth_error (h_tasks h) k) as [t0|] eqn:N; [|discriminate].
        cbn in H. inversion H; subst. apply T in N.
        destruct t0; cbn [cancel]; rewrite B', CS; [| |now left; right];
          (split; [split; auto|apply N]).
      * apply Nat.eqb_neq in Q. apply T in H. destruct t; rewrite B', CS; [| |tauto];
          (split; [|apply H]); destruct H as [H _]; (split; [intros X; left; now apply H|]);
          (intros [X| ->]; [now apply H|congruence]).
  - inversion E; subst. clear E. split; [|split; [right; discriminate|reflexivity]].
    assert (O : opens (tr ++ [Did (RegisterWrite s)]) = opens tr) by (rewrite opens_app; cbn; lia).
    assert (CS : forall i, closed i (tr ++ [Did (RegisterWrite s)]) <-> closed i tr).
    { intros i. rewrite closed_snoc. split; [intros [H|[_ [t H]]]; [exact H|discriminate]|now left]. }
    unfold inv. cbn [h_readers h_writers h_misc h_tasks]. rewrite O.
    split; [intros t; rewrite listening_snoc, R; intuition (try congruence; try discriminate)|].
    split; [intros t; rewrite add_in, waiting_snoc, W; intuition (try congruence; try discriminate)|].
    split; [exact M|]. split; [exact L|].
    split; [|split; [intros i b H; apply B' in H; now apply B in H|intros i H; apply CS in H; now apply C]].
    intros i t H. apply T in H. destruct t; rewrite B', CS; exact H.
  - inversion E; subst. clear E. split; [|split; [right; discriminate|reflexivity]].
    assert (O : opens (tr ++ [Did (UnregisterWrite s)]) = opens tr) by (rewrite opens_app; cbn; lia).
    assert (CS : forall i, closed i (tr ++ [Did (UnregisterWrite s)]) <-> closed i tr).
    { intros i. rewrite closed_snoc. split; [intros [H|[_ [t H]]]; [exact H|discriminate]|now left]. }
    unfold inv. cbn [h_readers h_writers h_misc h_tasks]. rewrite O.
    split; [intros t; rewrite listening_snoc, R; intuition (try congruence; try discriminate)|].
    split; [intros t; rewrite drop_in, waiting_snoc, W; intuition (try congruence; try discriminate)|].
    split; [exact M|]. split; [exact L|].
    split; [|split; [intros i b H; apply B' in H; now apply B in H|intros i H; apply CS in H; now apply C]].
    intros i t H. apply T in H. destruct t; rewrite B', CS; exact H.
Qed.

Lemma inv_callbacks x cbs : forall h tr h' ev r, inv x h tr -> on_callbacks cbs h = (h', ev, r) -> inv x h' (tr ++ ev).
Proof.
  induction cbs as [|c cbs IH]; intros h tr h' ev r I E; cbn [on_callbacks] in E.
  - inversion E; subst. now rewrite app_nil_r.
  - destruct (on_callback c h) as [h1 [[]|e]] eqn:C; destruct (inv_callback _ _ _ _ _ _ I C) as [I1 _].
    + destruct (on_callbacks cbs h1) as [[h2 ev2] r2] eqn:Q. inversion E; subst.
      apply (IH _ _ _ _ _ I1) in Q. now rewrite <- app_assoc in Q.
    + inversion E; subst. exact I1.
Qed.

(** Events that are not callbacks change little. *)
Lemma inv_event x h tr e : inv x h tr -> (forall c, e <> Did c) -> (forall i b, e = LoopMisc i b -> x = Some i /\ i < opens tr) ->
  inv x h (tr ++ [e]).
Proof.
  intros [R [W [M [L [T [B C]]]]]] N X.
  assert (O : opens (tr ++ [e]) = opens tr).
  { rewrite opens_app. destruct e as [c| | |]; cbn; try lia. now destruct (N c). }
  assert (CS : forall i, closed i (tr ++ [e]) <-> closed i tr).
  { intros i. rewrite closed_snoc. split; [intros [H|[_ [t H]]]; [exact H|now apply N in H]|now left]. }
  unfold inv. rewrite O.
  split; [intros t; rewrite listening_snoc, R; split; [intros H; right; split; [apply N|exact H]|intros [H|[_ H]]; [now apply N in H|exact H]]|].
  split; [intros t; rewrite waiting_snoc, W; split; [intros H; right; split; [apply N|exact H]|intros [H|[_ H]]; [now apply N in H|exact H]]|].
  split; [exact M|]. split; [exact L|].
  split; [|split; [intros i b H; apply misc_snoc in H; destruct H as [H|H]; [now apply B in H|now apply X in H]
                  |intros i H; apply CS in H; now apply C]].
  intros i t H. apply T in H. destruct t; rewrite CS.
  1-2: split; [apply H|]; intros Y Z; apply misc_snoc in Z; destruct Z as [Z|Z]; [now apply (proj2 H Y)|apply X in Z; tauto].
  destruct H as [H|H]; [now left|right; apply misc_snoc; now left].
Qed.

Definition set_task (i : nat) (f : task -> task) (h : helper) : helper :=
  mkHelper (h_readers h) (h_writers h) (h_misc h) (update i f (h_tasks h)).

Lemma inv_done x h tr i : inv x h tr -> closed i tr \/ In (LoopMisc i false) tr -> (x = None \/ x = Some i) ->
  inv None (set_task i (fun _ => TDone) h) tr.
Proof.
  intros [R [W [M [L [T [B C]]]]]] D X. unfold inv, set_task. cbn [h_readers h_writers h_misc h_tasks].
  rewrite update_length. repeat (split; [assumption|]). split; [|now split].
  intros j t H. rewrite update_nth in H. destruct (Nat.eqb i j) eqn:Q.
  - apply Nat.eqb_eq in Q. subst j. destruct (nth_error (h_tasks h) i); inversion H; subst. exact D.
  - apply Nat.eqb_neq in Q. apply T in H. destruct t; [| |exact H]; (split; [apply H|]); intros _; apply H;
      destruct X as [->| ->]; congruence.
Qed.

Lemma callbacks_only cbs : forall h h' ev r, on_callbacks cbs h = (h', ev, r) -> forall e, In e ev -> exists c, e = Did c.
Proof.
  induction cbs as [|c cbs IH]; intros h h' ev r E e X; cbn [on_callbacks] in E; [inversion E; subst; destruct X|].
  destruct (on_callback c h) as [h1 [[]|x]].
  - destruct (on_callbacks cbs h1) as [[h2 ev2] r2] eqn:Q. inversion E; subst. destruct X as [<-|X]; [eauto|].
    exact (IH _ _ _ _ Q _ X).
  - inversion E; subst. destruct X as [<-|[]]. eauto.
Qed.

(** One step: the invariant, and when a call is made. *)
Lemma inv_step h tr o h' ev : inv None h tr -> helper_step h o = (h', ev) ->
  inv None h' (tr ++ ev)
  /\ match o with
     | Call _ => True
     | Readable s _ => (listening s tr /\ hd_error ev = Some (LoopRead s)) \/ (~ listening s tr /\ ev = [])
     | Writable s _ => (waiting s tr /\ hd_error ev = Some (LoopWrite s)) \/ (~ waiting s tr /\ ev = [])
     | Step i _ _ => (due i tr /\ exists b, hd_error ev = Some (LoopMisc i b)) \/ (~ due i tr /\ ev = [])
     end.
Proof.
  intros I E. pose proof I as [R [W [M [L [T [B C]]]]]].
  assert (EX : forall s l, existsb (Nat.eqb s) l = true <-> In s l).
  { intros s l. rewrite existsb_exists. split.
    - intros [y [Y Q]]. apply Nat.eqb_eq in Q. now subst.
    - intros H. exists s. split; [exact H|apply Nat.eqb_refl]. }
  destruct o as [cbs|s cbs|s cbs|i cbs success]; cbn [helper_step] in E.
  - destruct (on_callbacks cbs h) as [[h1 ev1] r] eqn:Q. inversion E; subst. split; [|exact Logic.I].
    eapply inv_callbacks; eassumption.
  - destruct (existsb (Nat.eqb s) (h_readers h)) eqn:X.
    + apply EX in X. destruct (on_callbacks cbs h) as [[h1 ev1] r] eqn:Q. inversion E; subst. split; [|left; split; [now apply R|reflexivity]].
      change (LoopRead s :: ev1) with ([LoopRead s] ++ ev1). rewrite app_assoc.
      eapply inv_callbacks; [|eassumption]. apply inv_event; [exact I| |]; discriminate.
    + inversion E; subst. rewrite app_nil_r. split; [exact I|]. right. split; [|reflexivity].
      intros H. apply R in H. apply EX in H. congruence.
  - destruct (existsb (Nat.eqb s) (h_writers h)) eqn:X.
    + apply EX in X. destruct (on_callbacks cbs h) as [[h1 ev1] r] eqn:Q. inversion E; subst. split; [|left; split; [now apply W|reflexivity]].
      change (LoopWrite s :: ev1) with ([LoopWrite s] ++ ev1). rewrite app_assoc.
      eapply inv_callbacks; [|eassumption]. apply inv_event; [exact I| |]; discriminate.
    + inversion E; subst. rewrite app_nil_r. split; [exact I|]. right. split; [|reflexivity].
      intros H. apply W in H. apply EX in H. congruence.
  - change (fun f => mkHelper (h_readers h) (h_writers h) (h_misc h) (update i f (h_tasks h)))
      with (fun f => set_task i f h) in E.
    destruct (nth_error (h_tasks h) i) as [t|] eqn:N.
    2: { inversion E; subst. rewrite app_nil_r. split; [exact I|]. right. split; [|reflexivity].
         intros [D _]. apply nth_error_None in N. lia. }
    assert (LT : i < opens tr) by (rewrite <- L; apply nth_error_Some; congruence).
    pose proof (T _ _ N) as Q.
    assert (Run : t = TReady false \/ t = TAsleep false ->
      forall h1 ev1 r, on_callbacks cbs (set_task i (fun _ => TAsleep false) h) = (h1, ev1, r) ->
      forall b, inv (Some i) h1 (tr ++ LoopMisc i b :: ev1)).
    { intros K h1 ev1 r OC b. change (LoopMisc i b :: ev1) with ([LoopMisc i b] ++ ev1). rewrite app_assoc.
      eapply inv_callbacks; [|exact OC]. apply inv_event; [|discriminate|intros j c H; inversion H; subst; auto].
      unfold inv, set_task. cbn [h_readers h_writers h_misc h_tasks]. rewrite update_length.
      repeat (split; [assumption|]). split; [|now split].
      intros j t' H. rewrite update_nth in H. destruct (Nat.eqb i j) eqn:J.
      - apply Nat.eqb_eq in J. subst j. rewrite N in H. inversion H; subst. split; [|congruence].
        destruct K as [->| ->]; apply Q.
      - apply T in H. destruct t'; [| |exact H]; (split; [apply H|]); intros _; apply H; discriminate. }
    assert (Live : t = TReady false \/ t = TAsleep false -> due i tr).
    { intros K. split; [exact LT|]. destruct K as [->| ->]; destruct Q as [Q1 Q2]; (split; [|apply Q2; discriminate]);
        intros X; apply Q1 in X; discriminate. }
    assert (Dead : t = TDone \/ t = TReady true \/ t = TAsleep true -> closed i tr \/ In (LoopMisc i false) tr).
    { intros [->|[->| ->]]; [exact Q| |]; left; now apply Q. }
    assert (NotDue : closed i tr \/ In (LoopMisc i false) tr -> ~ due i tr).
    { intros X [_ [Y Z]]. tauto. }
    assert (Done : forall h1 tr1, inv (Some i) h1 (tr1) -> In (LoopMisc i false) tr1 ->
      inv None (set_task i (fun _ => TDone) h1) tr1).
    { intros h1 tr1 K J. eapply inv_done; [exact K|now right|now right]. }
    assert (Cont : forall h1 tr1, inv (Some i) h1 tr1 -> ~ In (LoopMisc i false) tr1 -> inv None h1 tr1).
    { intros h1 tr1 [R1 [W1 [M1 [L1 [T1 [B1 C1]]]]]] J. repeat (split; [assumption|]). split; [|now split].
      intros j t' H. apply T1 in H. destruct t'; [| |exact H]; (split; [apply H|]); intros _;
        (destruct (Nat.eq_dec i j) as [<-|D]; [exact J|apply H; congruence]). }
    assert (Main : t = TReady false \/ t = TAsleep false ->
      match on_callbacks cbs (set_task i (fun _ => TAsleep false) h) with
      | (h1, ev1, Ok _) => ((if success then h1 else set_task i (fun _ => TDone) h1), LoopMisc i success :: ev1)
      | (h1, ev1, Raise _) => (set_task i (fun _ => TDone) h1, LoopMisc i false :: ev1)
      end = (h', ev) ->
      inv None h' (tr ++ ev) /\ (due i tr /\ exists b, hd_error ev = Some (LoopMisc i b))).
    { intros K OC. destruct (on_callbacks cbs _) as [[h1 ev1] r] eqn:Z. specialize (Run K _ _ _ eq_refl).
      assert (NI : ~ In (LoopMisc i false) ev1).
      { intros X. destruct (callbacks_only _ _ _ _ _ Z _ X) as [c Y]. discriminate. }
      pose proof (Live K) as Du.
      destruct r as [[]|e].
      - inversion OC; subst. split; [|split; [exact Du|now exists success]].
        specialize (Run success). destruct success.
        + apply Cont; [exact Run|]. intros X. apply in_app_or in X. destruct X as [X|[X|X]]; [now apply Du|discriminate|contradiction].
        + apply Done; [exact Run|]. apply in_or_app. right. now left.
      - inversion OC; subst. split; [|split; [exact Du|now exists false]].
        apply Done; [apply Run|]. apply in_or_app. right. now left. }
    destruct t as [[]|[]|].
    + inversion E; subst. rewrite app_nil_r. split; [|right; split; [apply NotDue, Dead; auto|reflexivity]].
      eapply inv_done; [exact I|apply Dead; auto|now left].
    + destruct (Main (or_introl eq_refl) E) as [A D]. split; [exact A|now left].
    + inversion E; subst. rewrite app_nil_r. split; [|right; split; [apply NotDue, Dead; auto|reflexivity]].
      eapply inv_done; [exact I|apply Dead; auto|now left].
    + destruct (Main (or_intror eq_refl) E) as [A D]. split; [exact A|now left].
    + inversion E; subst. rewrite app_nil_r. split; [exact I|]. right. split; [apply NotDue, Dead; auto|reflexivity].
Qed.

Lemma inv_new : inv None new_helper [].
Proof.
  assert (X : forall (p : hev) a b, [] <> a ++ p :: b) by (intros p [|] b; discriminate).
  unfold inv, new_helper. cbn.
  split; [intros s; split; [contradiction|intros [a [b [E _]]]; now apply X in E]|].
  split; [intros s; split; [contradiction|intros [a [b [E _]]]; now apply X in E]|].
  split; [reflexivity|]. split; [reflexivity|]. split; [intros [|]; discriminate|].
  split; [contradiction|]. intros i [a [s [b [E _]]]]. now apply X in E.
Qed.

Lemma inv_run ops : forall h tr h' ev, inv None h tr -> helper_run h ops = (h', ev) -> inv None h' (tr ++ ev).
Proof.
  induction ops as [|o ops IH]; intros h tr h' ev I E; cbn [helper_run] in E.
  - inversion E; subst. now rewrite app_nil_r.
  - destruct (helper_step h o) as [h1 ev1] eqn:S. destruct (helper_run h1 ops) as [h2 ev2] eqn:Q. inversion E; subst.
    apply (inv_step _ _ _ _ _ I) in S. destruct S as [S _]. apply (IH _ _ _ _ S) in Q. now rewrite <- app_assoc in Q.
Qed.

(** ** C71 *)

(** After any history the event loop calls [loop_read] for a readable socket
    when, and only when, the last callback about it opened it. *)
Theorem C71_read : forall ops h tr s cbs h' ev, helper_run new_helper ops = (h, tr) ->
  helper_step h (Readable s cbs) = (h', ev) ->
  (listening s tr /\ hd_error ev = Some (LoopRead s)) \/ (~ listening s tr /\ ev = []).
Proof.
  intros ops h tr s cbs h' ev R S. apply (inv_run _ _ _ _ _ inv_new) in R. now apply (inv_step _ _ _ _ _ R) in S.
Qed.
Print Assumptions C71_read.

(** And [loop_write] for a writable one when the last callback about writing to
    it asked for that. *)
Theorem C71_write : forall ops h tr s cbs h' ev, helper_run new_helper ops = (h, tr) ->
  helper_step h (Writable s cbs) = (h', ev) ->
  (waiting s tr /\ hd_error ev = Some (LoopWrite s)) \/ (~ waiting s tr /\ ev = []).
Proof.
  intros ops h tr s cbs h' ev R S. apply (inv_run _ _ _ _ _ inv_new) in R. now apply (inv_step _ _ _ _ _ R) in S.
Qed.
Print Assumptions C71_write.

(** The maintenance loop of an opening calls [loop_misc] when, and only when, it
    is due. *)
Theorem C71_misc : forall ops h tr i cbs success h' ev, helper_run new_helper ops = (h, tr) ->
  helper_step h (Step i cbs success) = (h', ev) ->
  (due i tr /\ exists b, hd_error ev = Some (LoopMisc i b)) \/ (~ due i tr /\ ev = []).
Proof.
  intros ops h tr i cbs success h' ev R S. apply (inv_run _ _ _ _ _ inv_new) in R. now apply (inv_step _ _ _ _ _ R) in S.
Qed.
Print Assumptions C71_misc.

(** A client that closes a socket before it ever opened one gets an exception,
    and otherwise none. *)
Theorem C71_raise : forall ops h tr c h' r, helper_run new_helper ops = (h, tr) -> on_callback c h = (h', r) ->
  (r = Raise AttributeError /\ opens tr = 0 /\ exists s, c = SockClose s)
  \/ (r = Ok tt /\ (opens tr <> 0 \/ forall s, c <> SockClose s)).
Proof.
  intros ops h tr c h' r R S. apply (inv_run _ _ _ _ _ inv_new) in R. cbn [app] in R.
  pose proof (inv_callback _ _ _ _ _ _ R S) as [_ [A B]].
  destruct c as [s|s|s|s]; try (right; split; [apply B; right; discriminate|right; discriminate]).
  destruct (opens tr) as [|n] eqn:O.
  - left. destruct R as [_ [_ [M _]]]. rewrite O in M. cbn [on_callback] in S. rewrite M in S. inversion S. eauto.
  - right. split; [apply B|]; left; lia.
Qed.
Print Assumptions C71_raise.

(** A call of the client makes its callbacks one after the other; it fails with
    that exception at a closing before any opening, and otherwise not at all. *)
Theorem C71_calls : forall ops h tr cbs h' ev r, helper_run new_helper ops = (h, tr) -> on_callbacks cbs h = (h', ev, r) ->
  (r = Ok tt /\ ev = map Did cbs
   /\ forall pre s post, cbs = pre ++ SockClose s :: post -> opens (tr ++ map Did pre) <> 0)
  \/ (r = Raise AttributeError /\ exists pre s post, cbs = pre ++ SockClose s :: post
      /\ opens (tr ++ map Did pre) = 0 /\ ev = map Did pre ++ [Did (SockClose s)]).
Proof.
  intros ops h tr cbs h' ev r R E. apply (inv_run _ _ _ _ _ inv_new) in R. cbn [app] in R. revert h tr h' ev r R E.
  induction cbs as [|c cbs IH]; intros h tr h' ev r R E; cbn [on_callbacks] in E.
  - inversion E; subst. left. split; [reflexivity|]. split; [reflexivity|]. intros [|? ?] s post X; discriminate.
  - destruct (on_callback c h) as [h1 r1] eqn:C. destruct (inv_callback _ _ _ _ _ _ R C) as [I1 [A B]].
    destruct r1 as [[]|e].
    + destruct (on_callbacks cbs h1) as [[h2 ev2] r2] eqn:Q. inversion E; subst. clear E.
      destruct (IH _ _ _ _ _ I1 Q) as [[-> [-> N]]|[-> [pre [s [post [-> [O ->]]]]]]].
      * left. split; [reflexivity|]. split; [reflexivity|]. intros [|c0 pre] s post X; cbn [app map] in *.
        -- injection X as -> _. rewrite app_nil_r. destruct (A eq_refl) as [K|K]; [exact K|now destruct (K s)].
        -- injection X as -> X. specialize (N pre s post X). rewrite <- app_assoc in N. exact N.
      * right. split; [reflexivity|]. exists (c :: pre), s, post. split; [reflexivity|]. split; [|reflexivity].
        rewrite <- app_assoc in O. exact O.
    + inversion E; subst. clear E. right.
      assert (K : ~ (opens tr <> 0 \/ (forall s, c <> SockClose s))) by (intros K; apply B in K; discriminate).
      destruct c as [s|s|s|s]; try (destruct K; right; discriminate).
      split.
      { destruct R as [_ [_ [M _]]]. destruct (opens tr) as [|n]; [|destruct K; left; discriminate].
        cbn [on_callback] in C. rewrite M in C. inversion C. reflexivity. }
      exists [], s, cbs. split; [reflexivity|]. split; [|reflexivity]. cbn [map]. rewrite app_nil_r.
      destruct (opens tr) as [|n]; [reflexivity|destruct K; left; discriminate].
Qed.
Print Assumptions C71_calls.
Example C71_calls_case :
  on_callbacks [RegisterWrite 4; SockClose 4; SockOpen 5] new_helper
  = (fst (fst (on_callbacks [RegisterWrite 4; SockClose 4] new_helper)), [Did (RegisterWrite 4); Did (SockClose 4)], Raise AttributeError)
  /\ snd (on_callbacks [SockOpen 4; SockClose 4; SockClose 4] new_helper) = Ok tt.
Proof. split; reflexivity. Qed.

Lemma connected_snoc tr e : forall o, connected o (tr ++ [e])
  = if is_open e then true else if is_close e then false else connected o tr.
Proof. induction tr as [|x tr IH]; intros o; [reflexivity|]. cbn [app connected]. apply IH. Qed.
Lemma alternates_snoc tr e : forall o, alternates o (tr ++ [e]) <-> alternates o tr
  /\ (is_open e = true -> connected o tr = false) /\ (is_close e = true -> connected o tr = true).
Proof.
  induction tr as [|x tr IH]; intros o; cbn [app alternates connected].
  - destruct e as [[]| | |]; cbn; intuition discriminate.
  - destruct (is_open x); [rewrite IH; tauto|]. destruct (is_close x); rewrite IH; tauto.
Qed.

Lemma alternates_closed tr : alternates false tr ->
  (connected false tr = true -> opens tr <> 0) /\ forall i, i < opens tr -> closed i tr \/ (connected false tr = true /\ S i = opens tr).
Proof.
  induction tr as [|e tr IH] using rev_ind; intros A.
  - cbn. split; [discriminate|]. intros i H. inversion H.
  - apply alternates_snoc in A. destruct A as [A [A1 A2]]. destruct (IH A) as [H1 H2].
    rewrite connected_snoc, opens_app.
    destruct (is_open e) eqn:O.
    + assert (opens [e] = 1) by (unfold opens; cbn; now rewrite O). rewrite H.
      split; [lia|]. intros i I. destruct (Nat.eq_dec (S i) (opens tr + 1)) as [E|E]; [right; auto|left].
      apply closed_snoc. left. destruct (H2 i) as [K|[K _]]; [lia|exact K|]. rewrite A1 in K by reflexivity. discriminate.
    + assert (opens [e] = 0) by (unfold opens; cbn; now rewrite O). rewrite H, Nat.add_0_r.
      destruct (is_close e) eqn:C.
      * split; [discriminate|]. intros i I. left. apply closed_snoc. destruct (H2 i I) as [K|[_ K]]; [now left|right].
        split; [now symmetry|]. destruct e as [[]| | |]; try discriminate. eauto.
      * split; [exact H1|]. intros i I. destruct (H2 i I) as [K|K]; [left|now right]. apply closed_snoc. now left.
Qed.

(** When openings and closings alternate, as the client makes them, only the
    loop of the connection that is open calls [loop_misc]: never two loops, and
    none after the connection is closed. *)
Theorem C71_one : forall ops h tr i cbs success h' ev e, helper_run new_helper ops = (h, tr) -> alternates false tr ->
  helper_step h (Step i cbs success) = (h', e :: ev) ->
  connected false tr = true /\ S i = opens tr /\ exists b, e = LoopMisc i b.
Proof.
  intros ops h tr i cbs success h' ev e R A S.
  destruct (C71_misc _ _ _ _ _ _ _ _ R S) as [[[D1 [D2 _]] [b E]]|[_ E]]; [|discriminate].
  cbn in E. inversion E; subst.
  destruct (proj2 (alternates_closed tr A) i D1) as [K|[K1 K2]]; [contradiction|]. eauto.
Qed.
Print Assumptions C71_one.

(** Without it: after two openings two loops run, and one of them goes on when
    everything is closed. *)
Theorem C71_one_refuted : ~ forall ops h tr i cbs success h' ev e, helper_run new_helper ops = (h, tr) ->
  helper_step h (Step i cbs success) = (h', e :: ev) -> connected false tr = true.
Proof.
  intros H. pose (ops := [Call [SockOpen 1]; Call [SockOpen 2]; Call [SockClose 2; SockClose 1]]).
  specialize (H ops (fst (helper_run new_helper ops)) (snd (helper_run new_helper ops)) 0 [] true).
  specialize (H _ _ _ (surjective_pairing _) eq_refl). vm_compute in H. discriminate.
Qed.
Print Assumptions C71_one_refuted.

(** A connection that is opened, written to and maintained, and closed by its own
    maintenance call, and a second one. *)
Example C71_case :
  helper_run new_helper [Call [SockOpen 4; RegisterWrite 4]; Writable 4 [UnregisterWrite 4]; Writable 4 []; Step 0 [] true;
     Readable 4 []; Step 0 [SockClose 4] true; Step 0 [] true; Readable 4 []; Call [SockOpen 5]; Step 1 [] true; Step 0 [] true]
  = (mkHelper [5] [] (Some 1) [TDone; TAsleep false],
     [Did (SockOpen 4); Did (RegisterWrite 4); LoopWrite 4; Did (UnregisterWrite 4); LoopMisc 0 true; LoopRead 4;
      LoopMisc 0 true; Did (SockClose 4); Did (SockOpen 5); LoopMisc 1 true])
  /\ alternates false [Did (SockOpen 4); Did (RegisterWrite 4); LoopWrite 4; Did (UnregisterWrite 4); LoopMisc 0 true; LoopRead 4;
      LoopMisc 0 true; Did (SockClose 4); Did (SockOpen 5); LoopMisc 1 true].
Proof. vm_compute. auto 20. Qed.
