(** Lemmas on the receive buffer used by several threads: the parts of the calls follow one another. *)
From Coq Require Import List ZArith Bool Lia.
From Verif Require Import Py Common Buffered Base Spec Buffer_facts Threads Spec_threads Threads_facts.
Import ListNotations.
Open Scope Z_scope.

Definition part_thread (x : part) : nat := match x with Adding j _ | Dropping j _ | Working j _ => j end.

Lemma parts_of_snoc i l x :
  parts_of i (l ++ [x]) = parts_of i l ++ (if Nat.eqb (part_thread x) i then [x] else []).
Proof.
  unfold parts_of. rewrite filter_app. f_equal. cbn. now destruct x.
Qed.

Lemma returns_of_app {Ev} i (a b : list (note Ev)) : returns_of i (a ++ b) = returns_of i a ++ returns_of i b.
Proof. apply flat_map_app. Qed.

Lemma seen_app {Ev} (a b : list (note Ev)) : seen (a ++ b) = seen a ++ seen b.
Proof. apply flat_map_app. Qed.

Section Turn.
  Context {St Ev : Type} (h : handler St Ev) (limit : nat).

  Lemma dit_app l1 : forall st buf st1 buf1 ev1 l2 st2 buf2 ev2,
    done_in_turn h limit st buf l1 st1 buf1 ev1 -> done_in_turn h limit st1 buf1 l2 st2 buf2 ev2 ->
    done_in_turn h limit st buf (l1 ++ l2) st2 buf2 (ev1 ++ ev2).
  Proof.
    intros st buf st1 buf1 ev1 l2 st2 buf2 ev2 H. induction H; intros K; cbn [app].
    - exact K.
    - constructor; auto.
    - constructor; auto.
    - rewrite <- app_assoc. econstructor; eauto.
  Qed.

  (** What follows the effects [l] of a call of the handler that ends with [r]. *)
  Definition rest_of (st : St) (buf : bytes) (l : list Ev) (r : res Z) (st' : St) (buf' : bytes) (ev' : list Ev) (out : res unit) : Prop :=
    match r with
    | Raise e => st' = st /\ buf' = buf /\ ev' = l /\ out = Raise e
    | Ok r =>
        if r <? 0 then st' = st /\ buf' = [] /\ ev' = l /\ out = (if negb (r =? -1) then Raise ValueError else Ok tt)
        else if 0 <? r then exists calls ev2, processes h st (skipn (Z.to_nat r) buf) calls st' buf' ev2 out /\ ev' = l ++ ev2
        else st' = st /\ buf' = buf /\ ev' = l /\ out = Ok tt
    end.

  (** The buffer is being worked off, and what is left to do is [todo]. *)
  Definition leads (s : St) (b : bytes) (done : list Ev) (todo : St -> bytes -> list Ev -> res unit -> Prop) : Prop :=
    forall st' buf' ev' out, todo st' buf' ev' out -> exists calls, processes h s b calls st' buf' (done ++ ev') out.

  Definition centre (a : place Ev) (st : St) (buf : bytes) (eff : list Ev) (s : St) (b : bytes) (ev : list Ev) : Prop :=
    match a with
    | Loops => exists done, eff = ev ++ done /\
        leads s b done (fun st' buf' ev' out => exists calls, processes h st buf calls st' buf' ev' out)
    | Handles l r => exists done evs, eff = ev ++ done /\ l = map Does evs /\ leads s b done (rest_of st buf evs r)
    | _ => st = s /\ buf = b /\ eff = ev
    end.

  Definition holder_place (w : world St Ev) : place Ev :=
    match w_lock w with
    | Some i => match nth_error (w_threads w) i with Some t => t_at t | None => Away end
    | None => Away
    end.

  (** What thread [i], which was given [ds], has done so far. *)
  Definition account (i : nat) (ds : list bytes) (t : thread Ev) (o : list part) (outs : list (res unit)) : Prop :=
    match t_at t with
    | Away => exists past, ds = past ++ t_todo t /\ accounts limit i past o outs
    | Called d => exists past, ds = past ++ d :: t_todo t /\ accounts limit i past o outs
    | Wants d | Checks d | Drops d | Adds d =>
        exists past, ds = past ++ d :: t_todo t /\ accounts limit i past o outs /\ (length d <= limit)%nat
    | Added | Enters | Loops | Handles _ _ =>
        exists past o' d, ds = past ++ d :: t_todo t /\ o = o' ++ [Adding i d] /\ accounts limit i past o' outs
          /\ (length d <= limit)%nat
    | Leaves out => exists past d, ds = past ++ d :: t_todo t /\ accounts limit i (past ++ [d]) o (outs ++ [out])
    end.

  Definition lin (st0 : St) (parts : list (list bytes)) (w : world St Ev) (tr : list (note Ev)) : Prop :=
    exists ops s b ev, done_in_turn h limit st0 [] ops s b ev
    /\ centre (holder_place w) (w_st w) (w_buf w) (seen tr) s b ev
    /\ Forall (fun x => (part_thread x < length parts)%nat) ops
    /\ length (w_threads w) = length parts
    /\ forall i t ds, nth_error (w_threads w) i = Some t -> nth_error parts i = Some ds ->
         account i ds t (parts_of i ops) (returns_of i tr).

  Lemma hp_same st buf i t' ths t : nth_error ths i = Some t ->
    holder_place (mkWorld st buf (Some i) (put i t' ths)) = t_at t'.
  Proof. intros T. unfold holder_place. cbn [w_lock w_threads]. now rewrite (put_same _ _ _ _ T). Qed.

  Lemma hp_other w i st t' : w_lock w <> Some i ->
    holder_place (mkWorld st (w_buf w) (w_lock w) (put i t' (w_threads w))) = holder_place w.
  Proof.
    intros N. unfold holder_place. cbn [w_lock w_threads]. destruct (w_lock w) as [j|]; [|reflexivity].
    rewrite put_other; [reflexivity|congruence].
  Qed.

  (** A step without a part. *)
  Lemma lin_quiet st0 parts w tr i t t' st buf lock n : lin st0 parts w tr -> nth_error (w_threads w) i = Some t ->
    (forall j, j <> i -> returns_of j n = []) ->
    (forall s b ev, centre (holder_place w) (w_st w) (w_buf w) (seen tr) s b ev ->
       centre (holder_place (mkWorld st buf lock (put i t' (w_threads w)))) st buf (seen (tr ++ n)) s b ev) ->
    (forall ds o outs, account i ds t o outs -> account i ds t' o (outs ++ returns_of i n)) ->
    lin st0 parts (mkWorld st buf lock (put i t' (w_threads w))) (tr ++ n).
  Proof.
    intros [ops [s [b [ev [D [C [F [L A]]]]]]]] T N K1 K2. exists ops, s, b, ev. cbn [w_st w_buf w_threads].
    split; [exact D|]. split; [now apply K1|]. split; [exact F|]. split; [now rewrite put_length|].
    intros j u ds U P. rewrite returns_of_app. destruct (Nat.eq_dec i j) as [<-|X].
    - rewrite (put_same _ _ _ _ T) in U. inversion U; subst. apply K2. now apply A.
    - rewrite put_other in U by exact X. rewrite (N j) by congruence. rewrite app_nil_r. now apply A.
  Qed.

  (** A step that completes a part of thread [i]. *)
  Lemma lin_part st0 parts w tr i t t' st buf lock n x : lin st0 parts w tr -> nth_error (w_threads w) i = Some t ->
    (forall j, returns_of j n = []) -> part_thread x = i ->
    (forall s b ev, centre (holder_place w) (w_st w) (w_buf w) (seen tr) s b ev ->
       exists s' b' ev', done_in_turn h limit s b [x] s' b' ev'
         /\ centre (holder_place (mkWorld st buf lock (put i t' (w_threads w)))) st buf (seen (tr ++ n)) s' b' (ev ++ ev')) ->
    (forall ds o outs, account i ds t o outs -> account i ds t' (o ++ [x]) outs) ->
    lin st0 parts (mkWorld st buf lock (put i t' (w_threads w))) (tr ++ n).
  Proof.
    intros [ops [s [b [ev [D [C [F [L A]]]]]]]] T N X K1 K2.
    destruct (K1 _ _ _ C) as [s' [b' [ev' [D' C']]]].
    exists (ops ++ [x]), s', b', (ev ++ ev'). cbn [w_st w_buf w_threads].
    split; [eapply dit_app; eassumption|]. split; [exact C'|].
    split. { apply Forall_app. split; [exact F|]. constructor; [|constructor]. rewrite X, <- L. apply nth_error_Some. congruence. }
    split; [now rewrite put_length|].
    intros j u ds U P. rewrite returns_of_app, N, app_nil_r, parts_of_snoc, X. destruct (Nat.eqb_spec i j) as [<-|Y].
    - rewrite (put_same _ _ _ _ T) in U. inversion U; subst. apply K2. now apply A.
    - rewrite put_other in U by exact Y. rewrite app_nil_r. now apply A.
  Qed.

  Lemma working_account i ds todo at_ o outs out :
    match at_ with Loops | Handles _ _ => True | _ => False end ->
    account i ds (mkThread todo at_) o outs -> account i ds (mkThread todo (Leaves out)) (o ++ [Working i out]) outs.
  Proof.
    intros P H. assert (K : exists past o' d, ds = past ++ d :: todo /\ o = o' ++ [Adding i d] /\ accounts limit i past o' outs
          /\ (length d <= limit)%nat) by (destruct at_; try contradiction P; exact H).
    destruct K as [past [o' [d [E [-> [Q1 Q2]]]]]]. exists past, d. split; [exact E|].
    rewrite <- app_assoc. cbn [app]. now apply ac_done.
  Qed.

  Lemma centre_effect l r st buf eff s b ev e i :
    centre (Handles (Does e :: l) r) st buf eff s b ev -> centre (Handles l r) st buf (eff ++ seen [NEff i e]) s b ev.
  Proof.
    cbn [centre]. intros [done [evs [-> [M K]]]]. destruct evs as [|e' evs]; [discriminate|]. cbn [map] in M. inversion M; subst.
    exists (done ++ [e']), evs. split; [now rewrite <- app_assoc|]. split; [reflexivity|].
    intros st' buf' ev' out R. rewrite <- app_assoc. cbn [app]. apply K.
    unfold rest_of in *. destruct r as [r|x].
    - destruct (r <? 0); [|destruct (0 <? r)].
      + destruct R as [-> [-> [-> ->]]]. auto.
      + destruct R as [calls [ev2 [R ->]]]. now exists calls, ev2.
      + destruct R as [-> [-> [-> ->]]]. auto.
    - destruct R as [-> [-> [-> ->]]]. auto.
  Qed.

  Lemma rest_of_processes st z l sa ea ra st' buf' ev' out : h st (z :: l) = (sa, ea, ra) ->
    rest_of sa (z :: l) ea ra st' buf' ev' out -> exists calls, processes h st (z :: l) calls st' buf' ev' out.
  Proof.
    intros E R. unfold rest_of in R. destruct ra as [r|x].
    - destruct (Z.ltb_spec r 0); [|destruct (Z.ltb_spec 0 r)].
      + destruct R as [-> [-> [-> ->]]]. destruct (Z.eqb_spec r (-1)) as [->|N]; cbn [negb]; eexists.
        * apply pr_clear; [discriminate|exact E].
        * eapply pr_invalid; [discriminate|exact E|lia].
      + destruct R as [calls [ev2 [R ->]]]. eexists. eapply pr_next; [discriminate|exact E|lia|exact R].
      + destruct R as [-> [-> [-> ->]]]. assert (r = 0) by lia. subst. eexists. apply pr_wait; [discriminate|exact E].
    - destruct R as [-> [-> [-> ->]]]. eexists. apply pr_raise; [discriminate|exact E].
  Qed.

  Definition dropping (w : world St Ev) : Prop :=
    forall i t d, nth_error (w_threads w) i = Some t -> t_at t = Drops d -> (limit < length (w_buf w) + length d)%nat.

  Lemma dropping_step w i w' n : inv limit w -> dropping w -> step (plain h) limit w i = Some (w', n) -> dropping w'.
  Proof.
    intros V D S. pose proof V as [_ [H _]].
    assert (G : (forall t, nth_error (w_threads w) i = Some t ->
        exists st t' buf lock, w' = mkWorld st buf lock (put i t' (w_threads w))
        /\ (buf = w_buf w \/ holds (t_at t) = true)
        /\ (forall dd, t_at t' = Drops dd -> (limit < length buf + length dd)%nat))).
    { crack w i S; intros t Q; inversion Q; subst; do 4 eexists; (split; [reflexivity|]); cbn [t_at holds];
      (split; [now auto|]); intros dd E; try discriminate.
      inversion E; subst. now apply Nat.ltb_lt. }
    destruct (nth_error (w_threads w) i) as [t|] eqn:T; [|unfold step in S; rewrite T in S; discriminate].
    destruct (G _ eq_refl) as [st [t' [buf [lock [-> [C K]]]]]].
    intros j u dd U E. cbn [w_threads w_buf] in *. destruct (Nat.eq_dec i j) as [<-|N].
    - rewrite (put_same _ _ _ _ T) in U. inversion U; subst. now apply K.
    - rewrite put_other in U by exact N. destruct C as [->|C]; [now apply (D _ _ _ U)|].
      apply (H _ _ T) in C. pose proof (H _ _ U) as [HU _]. rewrite E in HU. specialize (HU eq_refl). congruence.
  Qed.

  Lemma lin_step st0 parts w tr i w' n : inv limit w -> dropping w -> lin st0 parts w tr ->
    step (plain h) limit w i = Some (w', n) -> lin st0 parts w' (tr ++ n).
  Proof.
    intros V DR L S. pose proof V as [B [H [_ AD]]].
    crack w i S; pose proof (H _ _ T) as HT; cbn [t_at holds] in HT.
    - (* Away *)
      eapply lin_quiet; [exact L|exact T|reflexivity| |].
      + intros s b' ev. rewrite app_nil_r, hp_other by (intros Q; destruct HT as [_ HT]; discriminate (HT Q)). auto.
      + unfold account. cbn [t_at t_todo returns_of flat_map]. intros ds o outs. now rewrite app_nil_r.
    - (* Called, refused *)
      eapply lin_quiet; [exact L|exact T| | |].
      + intros j J. cbn. destruct (Nat.eqb_spec i j); [congruence|reflexivity].
      + intros s b' ev. rewrite seen_app, app_nil_r, hp_other by (intros Q; destruct HT as [_ HT]; discriminate (HT Q)). auto.
      + unfold account. cbn [t_at t_todo returns_of flat_map]. rewrite Nat.eqb_refl. intros ds o outs [past [E A]].
        exists (past ++ [d]). split; [now rewrite <- app_assoc|]. apply ac_refused; [exact A|]. now apply Nat.ltb_lt.
    - eapply lin_quiet; [exact L|exact T|reflexivity| |].
      + intros s b' ev. rewrite app_nil_r, hp_other by (intros Q; destruct HT as [_ HT]; discriminate (HT Q)). auto.
      + unfold account. cbn [t_at t_todo returns_of flat_map]. intros ds o outs [past [E A]]. rewrite app_nil_r.
        exists past. split; [exact E|]. split; [exact A|]. now apply Nat.ltb_ge.
    - (* Wants *)
      destruct (w_lock w) eqn:LK; [discriminate|].
      eapply lin_quiet; [exact L|exact T|reflexivity| |].
      + intros s b' ev. rewrite app_nil_r, (hp_same _ _ _ _ _ _ T). unfold holder_place. rewrite LK. auto.
      + unfold account. cbn [t_at t_todo returns_of flat_map]. intros ds o outs. now rewrite app_nil_r.
    - (* Checks *)
      assert (LK : w_lock w = Some i) by now apply HT.
      eapply lin_quiet; [exact L|exact T|reflexivity| |].
      + intros s b' ev. rewrite app_nil_r, LK, (hp_same _ _ _ _ _ _ T). unfold holder_place. rewrite LK, T. auto.
      + unfold account. cbn [t_at t_todo returns_of flat_map]. intros ds o outs. now rewrite app_nil_r.
    - assert (LK : w_lock w = Some i) by now apply HT.
      eapply lin_quiet; [exact L|exact T|reflexivity| |].
      + intros s b' ev. rewrite app_nil_r, LK, (hp_same _ _ _ _ _ _ T). unfold holder_place. rewrite LK, T. auto.
      + unfold account. cbn [t_at t_todo returns_of flat_map]. intros ds o outs. now rewrite app_nil_r.
    - (* Drops *)
      assert (LK : w_lock w = Some i) by now apply HT.
      eapply lin_part with (x := Dropping i d); [exact L|exact T|reflexivity|reflexivity| |].
      + intros s b' ev. rewrite app_nil_r, LK, (hp_same _ _ _ _ _ _ T). unfold holder_place. rewrite LK, T.
        cbn [centre t_at]. intros [<- [<- ->]]. exists (w_st w), [], []. rewrite app_nil_r. split; [|auto].
        apply dit_drop; [exact (DR _ _ _ T eq_refl)|constructor].
      + unfold account. cbn [t_at t_todo]. intros ds o outs [past [E [Q1 Q2]]]. exists past, d. split; [exact E|].
        now apply ac_dropped.
    - (* Adds *)
      assert (LK : w_lock w = Some i) by now apply HT.
      eapply lin_part with (x := Adding i d); [exact L|exact T|reflexivity|reflexivity| |].
      + intros s b' ev. rewrite app_nil_r, LK, (hp_same _ _ _ _ _ _ T). unfold holder_place. rewrite LK, T.
        cbn [centre t_at]. intros [<- [<- ->]]. exists (w_st w), (w_buf w ++ d), []. rewrite app_nil_r. split; [|auto].
        apply dit_add; [exact (AD _ _ _ T eq_refl)|constructor].
      + unfold account. cbn [t_at t_todo]. intros ds o outs [past [E [Q1 Q2]]]. exists past, o, d. auto.
    - (* Added *)
      assert (LK : w_lock w = Some i) by now apply HT.
      eapply lin_quiet; [exact L|exact T|reflexivity| |].
      + intros s b' ev. rewrite app_nil_r. unfold holder_place. rewrite LK, T. auto.
      + unfold account. cbn [t_at t_todo returns_of flat_map]. intros ds o outs. now rewrite app_nil_r.
    - (* Enters *)
      destruct (w_lock w) eqn:LK; [discriminate|].
      eapply lin_quiet; [exact L|exact T|reflexivity| |].
      + intros s b' ev. rewrite app_nil_r, (hp_same _ _ _ _ _ _ T). unfold holder_place. rewrite LK. cbn [centre t_at].
        intros [-> [-> ->]]. exists []. split; [now rewrite app_nil_r|]. intros st' buf' ev' out Q. exact Q.
      + unfold account. cbn [t_at t_todo returns_of flat_map]. intros ds o outs. now rewrite app_nil_r.
    - (* Loops, empty *)
      assert (LK : w_lock w = Some i) by now apply HT.
      eapply lin_part with (x := Working i (Ok tt)); [exact L|exact T|reflexivity|reflexivity| |].
      + intros s b' ev. rewrite app_nil_r, LK, (hp_same _ _ _ _ _ _ T). unfold holder_place. rewrite LK, T.
        cbn [centre t_at]. intros [done [E K]].
        destruct (K (w_st w) [] [] (Ok tt)) as [calls Q]. { exists []. rewrite Heqb. constructor. }
        rewrite app_nil_r in Q. exists (w_st w), [], done. split; [|now rewrite E].
        rewrite <- (app_nil_r done). econstructor; [exact Q|constructor].
      + intros ds o outs; apply working_account; exact I.
    - (* Loops, call *)
      assert (LK : w_lock w = Some i) by now apply HT.
      eapply lin_quiet; [exact L|exact T|reflexivity| |].
      + intros s2 b' ev. rewrite seen_app, app_nil_r, LK, (hp_same _ _ _ _ _ _ T). unfold holder_place. rewrite LK, T.
        cbn [centre t_at]. intros [done [E K]].
        match goal with Q : plain h _ _ = _ |- _ => unfold plain in Q; destruct (h (w_st w) (z :: b)) as [[sa ea] ra] eqn:HH; inversion Q; subst end.
        exists done, ea. split; [exact E|]. split; [reflexivity|].
        intros st' buf' ev' out R. apply K. rewrite Heqb. eapply rest_of_processes; eassumption.
      + unfold account. cbn [t_at t_todo returns_of flat_map]. intros ds o outs. now rewrite app_nil_r.
    - (* Handles, negative *)
      assert (LK : w_lock w = Some i) by now apply HT.
      eapply lin_part with (x := Working i _); [exact L|exact T|reflexivity|reflexivity| |intros ds o outs; apply working_account; exact I].
      intros s b' ev. rewrite seen_app, app_nil_r, LK, (hp_same _ _ _ _ _ _ T). unfold holder_place. rewrite LK, T.
      cbn [centre t_at]. intros [done [evs [E [M K]]]]. destruct evs; [|discriminate].
      destruct (K (w_st w) [] [] (if negb (r =? -1) then Raise ValueError else Ok tt)) as [calls Q].
      { unfold rest_of. rewrite Heqb. auto. }
      rewrite app_nil_r in Q. exists (w_st w), [], done. split; [|now rewrite E].
      rewrite <- (app_nil_r done). econstructor; [exact Q|constructor].
    - (* Handles, positive *)
      assert (LK : w_lock w = Some i) by now apply HT.
      eapply lin_quiet; [exact L|exact T|reflexivity| |].
      + intros s b' ev. rewrite seen_app, app_nil_r, LK, (hp_same _ _ _ _ _ _ T). unfold holder_place. rewrite LK, T.
        cbn [centre t_at]. intros [done [evs [E [M K]]]]. destruct evs; [|discriminate]. exists done. split; [exact E|].
        intros st' buf' ev' out [calls R]. apply K. unfold rest_of. rewrite Heqb, Heqb0. now exists calls, ev'.
      + unfold account. cbn [t_at t_todo returns_of flat_map]. intros ds o outs. now rewrite app_nil_r.
    - (* Handles, zero *)
      assert (LK : w_lock w = Some i) by now apply HT.
      eapply lin_part with (x := Working i _); [exact L|exact T|reflexivity|reflexivity| |intros ds o outs; apply working_account; exact I].
      intros s b' ev. rewrite seen_app, app_nil_r, LK, (hp_same _ _ _ _ _ _ T). unfold holder_place. rewrite LK, T.
      cbn [centre t_at]. intros [done [evs [E [M K]]]]. destruct evs; [|discriminate].
      destruct (K (w_st w) (w_buf w) [] (Ok tt)) as [calls Q].
      { unfold rest_of. rewrite Heqb, Heqb0. auto. }
      rewrite app_nil_r in Q. exists (w_st w), (w_buf w), done. split; [|now rewrite E].
      rewrite <- (app_nil_r done). econstructor; [exact Q|constructor].
    - (* Handles, raises *)
      assert (LK : w_lock w = Some i) by now apply HT.
      eapply lin_part with (x := Working i _); [exact L|exact T|reflexivity|reflexivity| |intros ds o outs; apply working_account; exact I].
      intros s b' ev. rewrite seen_app, app_nil_r, LK, (hp_same _ _ _ _ _ _ T). unfold holder_place. rewrite LK, T.
      cbn [centre t_at]. intros [done [evs [E [M K]]]]. destruct evs; [|discriminate].
      destruct (K (w_st w) (w_buf w) [] (Raise x)) as [calls Q].
      { unfold rest_of. auto. }
      rewrite app_nil_r in Q. exists (w_st w), (w_buf w), done. split; [|now rewrite E].
      rewrite <- (app_nil_r done). econstructor; [exact Q|constructor].
    - (* an effect *)
      assert (LK : w_lock w = Some i) by now apply HT.
      eapply lin_quiet; [exact L|exact T|reflexivity| |].
      + intros s b' ev. rewrite seen_app, LK, (hp_same _ _ _ _ _ _ T). unfold holder_place. rewrite LK, T. apply centre_effect.
      + unfold account. cbn [t_at t_todo returns_of flat_map]. intros ds o outs. now rewrite app_nil_r.
    - assert (LK : w_lock w = Some i) by now apply HT.
      eapply lin_quiet; [exact L|exact T|reflexivity| |].
      + intros s b' ev. rewrite seen_app, LK, (hp_same _ _ _ _ _ _ T). unfold holder_place. rewrite LK, T. apply centre_effect.
      + unfold account. cbn [t_at t_todo returns_of flat_map]. intros ds o outs. now rewrite app_nil_r.
    - (* an inner call *)
      assert (LK : w_lock w = Some i) by now apply HT.
      destruct L as [ops [s [b' [ev [_ [C _]]]]]]. unfold holder_place in C. rewrite LK, T in C.
      cbn [centre t_at] in C. destruct C as [? [[|? ?] [_ [C _]]]]; discriminate C.
    - assert (LK : w_lock w = Some i) by now apply HT.
      destruct L as [ops [s [b' [ev [_ [C _]]]]]]. unfold holder_place in C. rewrite LK, T in C.
      cbn [centre t_at] in C. destruct C as [? [[|? ?] [_ [C _]]]]; discriminate C.
    - (* Leaves *)
      assert (LK : w_lock w = Some i) by now apply HT.
      eapply lin_quiet; [exact L|exact T| | |].
      + intros j J. cbn. destruct (Nat.eqb_spec i j); [congruence|reflexivity].
      + intros s b' ev. rewrite seen_app, app_nil_r. unfold holder_place. rewrite LK, T. auto.
      + unfold account. cbn [t_at t_todo returns_of flat_map]. rewrite Nat.eqb_refl. intros ds o outs [past [d [E Q]]].
        exists (past ++ [d]). split; [now rewrite <- app_assoc|exact Q].
  Qed.

  Lemma start_lin st parts : lin st parts (start st parts) [].
  Proof.
    exists [], st, [], []. split; [constructor|]. split; [cbn; auto|]. split; [constructor|].
    split; [unfold start; cbn [w_threads]; apply map_length|].
    intros i t ds T P. unfold start in T. cbn [w_threads] in T. rewrite (map_nth_error _ _ _ P) in T. inversion T; subst.
    unfold account. cbn [t_at t_todo parts_of filter returns_of flat_map]. exists []. split; [reflexivity|constructor].
  Qed.

  Lemma run_lin st parts l w tr : run (plain h) limit (start st parts) l = (w, tr) -> lin st parts w tr.
  Proof.
    intros R.
    refine (proj2 (proj2 (run_ind (plain h) limit (start st parts) (fun w tr => inv limit w /\ dropping w /\ lin st parts w tr) _ _ l w tr R))).
    - split; [apply start_inv|]. split; [|apply start_lin].
      intros i t d T. apply start_thread in T. destruct T as [ds [_ ->]]. discriminate.
    - intros w1 tr1 i w' n [V [D L]] S. split; [eapply inv_step; eassumption|].
      split; [eapply dropping_step; eassumption|eapply lin_step; eassumption].
  Qed.

  (** All calls are over: everything is accounted for. *)
  Lemma run_turn st parts l w tr : run (plain h) limit (start st parts) l = (w, tr) -> finished w ->
    exists ops, done_in_turn h limit st [] ops (w_st w) (w_buf w) (seen tr)
    /\ Forall (fun x => (part_thread x < length parts)%nat) ops
    /\ forall i ds, nth_error parts i = Some ds -> accounts limit i ds (parts_of i ops) (returns_of i tr).
  Proof.
    intros R F. destruct (run_lin _ _ _ _ _ R) as [ops [s [b [ev [D [C [O [L A]]]]]]]].
    unfold finished in F. rewrite Forall_forall in F.
    assert (HA : holder_place w = Away).
    { unfold holder_place. destruct (w_lock w); [|reflexivity].
      destruct (nth_error (w_threads w) n) eqn:T; [|reflexivity]. apply F. eapply nth_error_In; eassumption. }
    rewrite HA in C. destruct C as [<- [<- ->]]. exists ops. split; [exact D|]. split; [exact O|].
    intros i ds P. destruct (nth_error (w_threads w) i) as [t|] eqn:T.
    - pose proof (A _ _ _ T P) as Q. destruct (F t) as [E1 E2]; [eapply nth_error_In; eassumption|].
      unfold account in Q. rewrite E1, E2 in Q. destruct Q as [past [-> Q]]. now rewrite app_nil_r.
    - apply nth_error_None in T. assert (i < length parts)%nat by (apply nth_error_Some; congruence). lia.
  Qed.
End Turn.

(** * Without exceptions it is one stream of chunks *)
Definition added (l : list part) : list bytes := flat_map (fun x => match x with Adding _ d => [d] | _ => [] end) l.

Definition smooth (x : part) : Prop :=
  match x with Adding _ _ => True | Dropping _ _ => False | Working _ out => out = Ok tt end.

Definition settled (l : list part) : Prop := forall l' i d, l <> l' ++ [Adding i d].

Lemma added_app a b : added (a ++ b) = added a ++ added b.
Proof. apply flat_map_app. Qed.

Lemma settled_tail x l : settled (x :: l) -> settled l.
Proof. intros H l' i d ->. now apply (H (x :: l') i d). Qed.

Lemma accounts_smooth limit i ds l outs : accounts limit i ds l outs -> Forall (fun out => out = Ok tt) outs ->
  added l = ds /\ Forall smooth l.
Proof.
  induction 1 as [|ds l outs d A IH|ds l outs d A IH|ds l outs d out A IH]; intros F.
  - split; [reflexivity|constructor].
  - apply Forall_app in F. destruct F as [_ F]. inversion F; subst. discriminate.
  - apply Forall_app in F. destruct F as [_ F]. inversion F; subst. discriminate.
  - apply Forall_app in F. destruct F as [F G]. inversion G; subst. destruct (IH F) as [<- S].
    split; [apply added_app|]. apply Forall_app. split; [exact S|]. repeat constructor.
Qed.

Lemma accounts_settled limit i ds l outs : accounts limit i ds l outs -> settled l.
Proof.
  induction 1 as [|ds l outs d A IH|ds l outs d A IH|ds l outs d out A IH]; intros l' j e E.
  - now destruct l'.
  - now apply IH in E.
  - apply app_inj_tail in E. destruct E as [_ E]. discriminate.
  - change [Adding i d; Working i out] with ([Adding i d] ++ [Working i out]) in E. rewrite app_assoc in E.
    apply app_inj_tail in E. destruct E as [_ E]. discriminate.
Qed.

Lemma added_interleaves ops : forall parts,
  (forall i ds, nth_error parts i = Some ds -> added (parts_of i ops) = ds) ->
  Forall (fun x => (part_thread x < length parts)%nat) ops -> interleaves parts (added ops).
Proof.
  induction ops as [|x ops IH]; intros parts H F.
  - apply il_done. apply Forall_forall. intros ds I. apply In_nth_error in I. destruct I as [i I].
    apply H in I. now subst.
  - inversion F as [|? ? Fx Fl]; subst.
    assert (K : forall i, parts_of i (x :: ops) = (if Nat.eqb (part_thread x) i then [x] else []) ++ parts_of i ops).
    { intros i. unfold parts_of. cbn [filter]. destruct x; cbn [part_thread]; destruct (Nat.eqb _ i); reflexivity. }
    destruct x as [j d|j d|j out]; cbn [part_thread] in *.
    + cbn [added flat_map app]. destruct (nth_error parts j) as [ds|] eqn:P; [|apply nth_error_None in P; lia].
      pose proof (H _ _ P) as Q. rewrite K, Nat.eqb_refl in Q. cbn [app added flat_map] in Q.
      destruct (put_split _ _ _ (added (parts_of j ops)) P) as [be [af [E1 [E2 E3]]]].
      rewrite E1, <- Q. fold (added (parts_of j ops)); fold (added ops). apply il_next. rewrite <- E2. apply IH.
      * intros i ds' P'. destruct (Nat.eq_dec j i) as [<-|N].
        -- rewrite (put_same _ _ _ _ P) in P'. now inversion P'.
        -- rewrite put_other in P' by exact N. apply H in P'. rewrite K in P'.
           destruct (Nat.eqb_spec j i); [congruence|exact P'].
      * rewrite put_length. exact Fl.
    + cbn [added flat_map app]. apply IH; [|exact Fl]. intros i ds P. rewrite <- (H _ _ P), K.
      now destruct (Nat.eqb j i).
    + cbn [added flat_map app]. apply IH; [|exact Fl]. intros i ds P. rewrite <- (H _ _ P), K.
      now destruct (Nat.eqb j i).
Qed.

Section Stream.
  Context {St Ev : Type} (h : handler St Ev) (limit : nat) (PS : prefix_stable h).

  Lemma processes_rest st buf calls c b ev out : processes h st buf calls c b ev out -> out = Ok tt ->
    exists calls', processes h c b calls' c b [] (Ok tt).
  Proof.
    induction 1 as [st|st buf st' ev e N H|st buf st' ev N H|st buf st' ev N H
                   |st buf st' ev r N H R|st buf st' ev r calls st'' buf' ev' out N H R P IH]; intros O.
    - exists []. constructor.
    - discriminate.
    - destruct (PS st buf []) as [W|[_ W]]; [|apply W in H; lia]. rewrite W in H. inversion H; subst.
      exists [buf]. now apply pr_wait.
    - exists []. constructor.
    - discriminate.
    - now apply IH.
  Qed.

  Lemma turn_raises st buf l st' buf' ev : done_in_turn h limit st buf l st' buf' ev ->
    forall calls c b ev2 e, processes h st buf calls c b ev2 (Raise e) ->
    Forall smooth l -> settled l -> l <> [] -> False.
  Proof.
    induction 1 as [st buf|st buf i d l st' buf' ev L D IH|st buf i d l st' buf' ev L D IH
                   |st buf i calls st1 buf1 ev1 out l st' buf' ev P D IH]; intros calls0 c b ev2 e Q F S N.
    - congruence.
    - inversion F; subst. destruct (processes_raise_app h PS _ _ _ _ _ _ _ Q e d eq_refl) as [calls2 Q2].
      eapply IH; [exact Q2|assumption|eapply settled_tail; exact S|].
      intros ->. now apply (S [] i d).
    - inversion F; subst. contradiction.
    - inversion F as [|? ? F1 F2]; subst. cbn in F1. subst out.
      destruct (processes_unique h _ _ _ _ _ _ _ P _ _ _ _ _ Q) as [_ [_ [_ [_ X]]]]. discriminate.
  Qed.

  Lemma turn_receive st buf l st' buf' ev : done_in_turn h limit st buf l st' buf' ev ->
    forall calls c b ev2, processes h st buf calls c b ev2 (Ok tt) ->
    Forall smooth l -> settled l -> (l = [] -> st = c /\ buf = b /\ ev2 = []) ->
    exists log, receive h limit c b (added l) = (st', buf', log) /\ no_raise log /\ ev = ev2 ++ effects log.
  Proof.
    induction 1 as [st buf|st buf i d l st' buf' ev L D IH|st buf i d l st' buf' ev L D IH
                   |st buf i calls st1 buf1 ev1 out l st' buf' ev P D IH]; intros calls0 c b ev2 Q F S N.
    - destruct (N eq_refl) as [-> [-> ->]]. exists []. repeat split. constructor.
    - inversion F as [|? ? _ Fl]; subst.
      assert (NE : l <> []) by (intros ->; now apply (S [] i d)).
      assert (SL : settled l) by (eapply settled_tail; exact S).
      destruct (process_buffer h c (b ++ d)) as [[[c2 b2] e2] o2] eqn:E.
      apply process_buffer_spec in E. destruct E as [calls2 E].
      destruct (processes_app h PS _ _ _ _ _ _ _ Q eq_refl d _ _ _ _ _ E) as [calls3 E3].
      destruct o2 as [[]|x]; [|exfalso; eapply turn_raises; eassumption].
      destruct (IH _ _ _ _ E3 Fl SL) as [log [R [NR EF]]]; [congruence|].
      exists ((e2, Ok tt) :: log). cbn [added flat_map app receive]. fold (added l). unfold data_received.
      assert (LB : (length b <= length buf)%nat).
      { destruct (processes_calls h _ _ _ _ _ _ _ Q) as [_ [[k ->] _]]. rewrite skipn_length. lia. }
      destruct (Nat.ltb_spec limit (length d)); [lia|].
      destruct (Nat.ltb_spec limit (length b + length d)); [lia|].
      rewrite (processes_buffer h _ _ _ _ _ _ _ E), R. split; [reflexivity|]. split.
      + constructor; [now exists tt|exact NR].
      + rewrite EF. cbn [effects flat_map fst]. now rewrite <- app_assoc.
    - inversion F; subst. contradiction.
    - inversion F as [|? ? F1 Fl]; subst. cbn in F1. subst out.
      destruct (processes_unique h _ _ _ _ _ _ _ P _ _ _ _ _ Q) as [_ [-> [-> [-> _]]]].
      destruct (processes_rest _ _ _ _ _ _ _ Q eq_refl) as [calls1 Q1].
      destruct (IH _ _ _ _ Q1 Fl (settled_tail _ _ S)) as [log [R [NR EF]]]; [auto|].
      exists log. cbn [added flat_map app]. split; [exact R|]. split; [exact NR|]. now rewrite EF.
  Qed.

  Lemma run_stream st parts l w tr : run (plain h) limit (start st parts) l = (w, tr) -> finished w -> quiet tr ->
    exists chunks log, interleaves parts chunks /\ receive h limit st [] chunks = (w_st w, w_buf w, log)
      /\ no_raise log /\ effects log = seen tr.
  Proof.
    intros R F Qt. destruct (run_turn h limit _ _ _ _ _ R F) as [ops [D [O A]]].
    assert (OK : forall i, Forall (fun out => out = Ok tt) (returns_of i tr)).
    { intros i. apply Forall_forall. intros out I. apply in_flat_map in I. destruct I as [n [I J]].
      destruct n as [| | |j o]; try contradiction J. destruct (Nat.eqb j i); [|contradiction J]. destruct J as [<-|[]].
      now apply (Qt j). }
    assert (SM : Forall smooth ops).
    { apply Forall_forall. intros x I. rewrite Forall_forall in O. pose proof (O _ I) as X.
      destruct (nth_error parts (part_thread x)) as [ds|] eqn:P; [|apply nth_error_None in P; lia].
      destruct (accounts_smooth _ _ _ _ _ (A _ _ P) (OK _)) as [_ S]. rewrite Forall_forall in S. apply S.
      unfold parts_of. apply filter_In. split; [exact I|]. destruct x; apply Nat.eqb_refl. }
    assert (ST : settled ops).
    { intros l' i d ->. apply Forall_app in O. destruct O as [_ O]. inversion O as [|? ? X _]; subst. cbn in X.
      destruct (nth_error parts i) as [ds|] eqn:P; [|apply nth_error_None in P; lia].
      pose proof (accounts_settled _ _ _ _ _ (A _ _ P)) as S. rewrite parts_of_snoc in S. cbn [part_thread] in S.
      rewrite Nat.eqb_refl in S. now apply (S (parts_of i l') i d). }
    destruct (turn_receive _ _ _ _ _ _ D [] st [] []) as [log [E [NR EF]]]; auto; [constructor|].
    exists (added ops), log. split; [|auto].
    apply added_interleaves; [|exact O]. intros i ds P.
    now destruct (accounts_smooth _ _ _ _ _ (A _ _ P) (OK _)).
  Qed.
End Stream.
