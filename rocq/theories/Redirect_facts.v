(** Facts about the model of the redirector: its invariant and the conversion
    of newlines. *)
From Coq Require Import List ZArith Bool Lia Arith.
From Verif Require Import Py Redirect Spec_redirect.
Import ListNotations.
Open Scope Z_scope.

(** Lists. *)
Lemma set_nth_split {A} : forall (l : list A) i c, nth_error l i = Some c ->
  exists a b, l = a ++ c :: b /\ i = List.length a /\ forall x, set_nth i x l = a ++ x :: b.
Proof.
  induction l as [|h l IH]; intros [|i] c H; cbn in H; try discriminate.
  - injection H as ->. exists [], l. auto.
  - destruct (IH _ _ H) as (a & b & -> & -> & R). exists (h :: a), b. repeat split; auto.
    intro x. cbn. now rewrite R.
Qed.
Lemma set_nth_length {A} : forall (l : list A) i x, List.length (set_nth i x l) = List.length l.
Proof. induction l; intros [|i] x; cbn; auto. Qed.
Lemma nth_set_same {A} : forall (l : list A) i c x, nth_error l i = Some c -> nth_error (set_nth i x l) i = Some x.
Proof. induction l; intros [|i] c x H; cbn in *; try discriminate; eauto. Qed.
Lemma nth_set_other {A} : forall (l : list A) i j x, i <> j -> nth_error (set_nth i x l) j = nth_error l j.
Proof. induction l; intros [|i] [|j] x H; cbn; auto; try congruence. Qed.
Lemma set_nth_same {A} : forall (l : list A) i c, nth_error l i = Some c -> set_nth i c l = l.
Proof. induction l; intros [|i] c H; cbn in *; try discriminate; [congruence|]. f_equal; eauto. Qed.

Lemma last_split {A} (a : list A) x b y : a ++ [x] = b ++ [y] -> a = b /\ x = y.
Proof. apply app_inj_tail. Qed.

(** A connection that is over. *)
Definition gone (c : conn) : Prop := c_reader c = RGone /\ c_writer c = WGone.
(** All but the latest are over, and the latest is over once it is closed. *)
Definition tidy (l : list conn) : Prop :=
  l = [] \/ exists old c, l = old ++ [c] /\ Forall gone old /\ (c_writer c = WGone -> c_reader c = RGone).

Lemma tidy_at l i c : tidy l -> nth_error l i = Some c ->
  gone c \/ exists old, l = old ++ [c] /\ i = List.length old /\ Forall gone old /\ c_writer c <> WGone.
Proof.
  intros [->|(old & x & -> & G & W)] H; [destruct i; discriminate|].
  destruct (Nat.lt_ge_cases i (List.length old)) as [L|L].
  - rewrite nth_error_app1 in H by lia. left. rewrite Forall_forall in G. apply G. eapply nth_error_In; eauto.
  - rewrite nth_error_app2 in H by lia.
    destruct (i - List.length old)%nat as [|k] eqn:E; cbn in H; [|destruct k; discriminate].
    injection H as ->.
    destruct (c_writer c) eqn:Q; try (right; exists old; repeat split; auto; [lia|congruence]).
    left. split; auto.
Qed.
Lemma tidy_set l i c c' : tidy l -> nth_error l i = Some c ->
  (gone c -> gone c') -> (c_writer c' = WGone -> c_reader c' = RGone) -> tidy (set_nth i c' l).
Proof.
  intros T H K W. destruct T as [->|(old & x & -> & G & W')]; [destruct i; discriminate|].
  right. destruct (Nat.lt_ge_cases i (List.length old)) as [L|L].
  - rewrite nth_error_app1 in H by lia. destruct (set_nth_split _ _ _ H) as (a & b & -> & -> & R).
    exists (a ++ c' :: b), x. repeat split; auto.
    + clear -L. rewrite <- app_assoc. cbn. induction a; cbn; f_equal; auto.
      apply IHa. rewrite !app_length in *. cbn in *. lia.
    + apply Forall_app in G as [G1 G2]. inversion G2; subst. apply Forall_app; split; auto.
  - rewrite nth_error_app2 in H by lia.
    destruct (i - List.length old)%nat as [|k] eqn:E; cbn in H; [|destruct k; discriminate].
    injection H as ->. assert (i = List.length old) as -> by lia.
    exists old, c'. repeat split; auto. clear. induction old; cbn; f_equal; auto.
Qed.
Lemma tidy_all_back l : tidy l -> forallb back l = true -> Forall gone l.
Proof.
  intros [->|(old & x & -> & G & W)] B; [constructor|].
  rewrite forallb_app in B. apply andb_prop in B as [_ B]. cbn in B. rewrite andb_true_r in B.
  unfold back in B. destruct (c_writer x) eqn:Q; try discriminate.
  apply Forall_app; split; auto. repeat constructor; auto.
Qed.

(** The bytes in the hands of the two threads. *)
Definition hold (c : conn) : bytes := match c_reader c with RSend d => d | _ => [] end.
Definition held (l : list conn) : bytes := flat_map hold l.
Definition kept (c : conn) : bytes := match c_writer c with WWrite d => d | _ => [] end.

Lemma held_gone l : Forall gone l -> held l = [].
Proof. induction 1 as [|c l [R _] _ IH]; auto. cbn. unfold hold at 1. now rewrite R. Qed.
Lemma held_set l i c c' : nth_error l i = Some c -> hold c' = hold c -> held (set_nth i c' l) = held l.
Proof.
  intros H E. destruct (set_nth_split _ _ _ H) as (a & b & -> & -> & R). rewrite R.
  unfold held. rewrite !flat_map_app. cbn. now rewrite E.
Qed.
Lemma held_last old c : Forall gone old -> held (old ++ [c]) = hold c.
Proof. intro G. unfold held. rewrite flat_map_app. change (held old ++ flat_map hold [c] = hold c).
  rewrite held_gone by auto. cbn. apply app_nil_r. Qed.
Lemma set_last {A} (old : list A) c c' : set_nth (List.length old) c' (old ++ [c]) = old ++ [c'].
Proof. induction old; cbn; f_equal; auto. Qed.

(** A piece and what was passed on of it. *)
Definition part (calm : bool) (f : bytes -> bytes) (x : bytes * bytes) : Prop :=
  snd x = f (fst x) \/ (calm = false /\ exists k, snd x = firstn k (f (fst x))).
Definition allowed (calm : bool) (o : op) : Prop :=
  calm = true -> match o with Reader _ (Fault _) | Writer _ (Fault _) => False | _ => True end.
(** Without exceptions a connection ends only when its peer closed it and
    everything was received. *)
Definition finished (c : conn) : Prop :=
  (c_alive c = false -> c_writer c = WJoin \/ c_writer c = WGone) /\
  (c_writer c = WJoin \/ c_writer c = WGone -> c_closed c = true /\ c_net c = []).

Definition total (w : list (bytes * bytes)) : bytes := concat (map snd w).
Definition source (w : list (bytes * bytes)) : bytes := concat (map fst w).

Record inv (cv : conversion) (calm : bool) (p : prog) (tr : list ev)
  (cs : list (bytes * bytes)) (ws : list (list (bytes * bytes))) : Prop := {
  i_tidy : p_up p = true -> tidy (p_conns p);
  i_len : List.length ws = List.length (p_conns p);
  i_acc : accepted tr = List.length (p_conns p);
  i_in : from_serial tr = source cs ++ held (p_conns p) ++ p_serial p;
  i_sent : sent tr = total cs;
  i_cs : Forall (part calm (to_net cv)) cs;
  i_wr : written tr = concat (map total ws);
  i_net : forall i c w, nth_error (p_conns p) i = Some c -> nth_error ws i = Some w ->
            arrived i tr = source w ++ kept c ++ c_net c;
  i_none : forall i, (List.length (p_conns p) <= i)%nat -> arrived i tr = [];
  i_ws : Forall (Forall (part calm (to_serial cv))) ws;
  i_done : calm = true -> p_up p = true /\ Forall finished (p_conns p) }.

Lemma inv_start cv calm : inv cv calm listening [] [] [].
Proof.
  constructor; cbn; auto; try (intros; now left).
  intros [|i] c w H; discriminate.
Qed.

Lemma Forall_set {A} (P : A -> Prop) l i x : Forall P l -> P x -> Forall P (set_nth i x l).
Proof. intro F. revert i. induction F; intros [|i] X; cbn; constructor; auto. Qed.
Lemma Forall_nth {A} (P : A -> Prop) l i x : Forall P l -> nth_error l i = Some x -> P x.
Proof. intros F H. rewrite Forall_forall in F. apply F. eapply nth_error_In; eauto. Qed.

(** A change of one connection that keeps the bytes in its hands. *)
Lemma inv_silent cv calm p tr cs ws i c c' :
  inv cv calm p tr cs ws -> p_up p = true -> nth_error (p_conns p) i = Some c ->
  hold c' = hold c -> kept c' ++ c_net c' = kept c ++ c_net c ->
  (gone c -> gone c') -> (c_writer c' = WGone -> c_reader c' = RGone) ->
  (calm = true -> finished c -> finished c') ->
  inv cv calm (mkProg (p_serial p) (set_nth i c' (p_conns p)) true) tr cs ws.
Proof.
  intros [It Il Ia Ii Is Ic Iw In Io Iws Id] U H Eh Ek Eg Ew Ef.
  constructor; cbn [p_up p_conns p_serial]; auto; rewrite ?set_nth_length; auto.
  - intros _. eapply tidy_set; eauto.
  - now rewrite (held_set _ _ _ _ H Eh).
  - intros j d w Hj Hw. destruct (Nat.eq_dec i j) as [->|N].
    + rewrite (nth_set_same _ _ _ _ H) in Hj. injection Hj as <-. rewrite Ek. eauto.
    + rewrite nth_set_other in Hj by auto. eauto.
  - intro K. destruct (Id K) as [_ F]. split; auto. apply Forall_set; auto. apply Ef; auto.
    eapply Forall_nth; eauto.
Qed.

Lemma app_nil_events cv calm p tr cs ws : inv cv calm p tr cs ws -> inv cv calm p (tr ++ []) cs ws.
Proof. now rewrite app_nil_r. Qed.

Lemma fs_app a b : from_serial (a ++ b) = from_serial a ++ from_serial b. Proof. apply flat_map_app. Qed.
Lemma sent_app a b : sent (a ++ b) = sent a ++ sent b. Proof. apply flat_map_app. Qed.
Lemma written_app a b : written (a ++ b) = written a ++ written b. Proof. apply flat_map_app. Qed.
Lemma arrived_app i a b : arrived i (a ++ b) = arrived i a ++ arrived i b. Proof. apply flat_map_app. Qed.
Lemma accepted_app a b : accepted (a ++ b) = (accepted a + accepted b)%nat.
Proof. unfold accepted. rewrite flat_map_app. apply app_length. Qed.
Lemma source_snoc l x : source (l ++ [x]) = source l ++ fst x.
Proof. unfold source. rewrite map_app, concat_app. cbn. now rewrite app_nil_r. Qed.
Lemma total_snoc l x : total (l ++ [x]) = total l ++ snd x.
Proof. unfold total. rewrite map_app, concat_app. cbn. now rewrite app_nil_r. Qed.

(** Events that carry no bytes. *)
Definition quiet (e : ev) : Prop := match e with EEnd _ | EExit => True | _ => False end.
Lemma inv_quiet cv calm p tr cs ws e : quiet e -> inv cv calm p tr cs ws -> inv cv calm p (tr ++ [e]) cs ws.
Proof.
  intros Q [It Il Ia Ii Is Ic Iw In Io Iws Id].
  destruct e; try contradiction; constructor; auto;
    rewrite ?fs_app, ?sent_app, ?written_app, ?accepted_app, ?app_nil_r; cbn [from_serial sent written accepted flat_map List.length];
    rewrite ?app_nil_r, ?Nat.add_0_r; auto;
    intros; rewrite arrived_app; cbn [arrived flat_map]; rewrite app_nil_r; eauto.
Qed.

Ltac ev_simpl := rewrite ?fs_app, ?sent_app, ?written_app, ?accepted_app, ?arrived_app;
  cbn [from_serial sent written accepted arrived flat_map List.length app]; rewrite ?app_nil_r, ?Nat.add_0_r.

(** A piece goes out to the network. *)
Lemma inv_send cv calm p tr cs ws i c r d s al :
  inv cv calm p tr cs ws -> p_up p = true -> nth_error (p_conns p) i = Some c ->
  c_reader c = RSend d -> (r = RTop \/ r = RGone) -> part calm (to_net cv) (d, s) ->
  (calm = true -> al = c_alive c) ->
  inv cv calm (mkProg (p_serial p) (set_nth i (mkConn al r (c_writer c) (c_net c) (c_closed c)) (p_conns p)) true)
      (tr ++ [ESend i s]) (cs ++ [(d, s)]) ws.
Proof.
  intros [It Il Ia Ii Is Ic Iw In Io Iws Id] U H R Rn P Al.
  destruct (tidy_at _ _ _ (It U) H) as [[G _]|(old & E & -> & G & W)]; [congruence|].
  assert (Hd : held (p_conns p) = d) by (rewrite E, held_last by auto; unfold hold; now rewrite R).
  constructor; cbn [p_up p_conns p_serial]; ev_simpl; auto; rewrite ?set_nth_length; auto.
  - intros _. eapply tidy_set; eauto.
    + intros [G1 _]. congruence.
    + cbn. congruence.
  - rewrite Ii, Hd, source_snoc. cbn [fst]. rewrite E, set_last, held_last by auto. unfold hold; cbn.
    destruct Rn as [-> | ->]; cbn; now rewrite <- !app_assoc.
  - rewrite Is, total_snoc. reflexivity.
  - apply Forall_app; split; auto.
  - intros j e w Hj Hw. destruct (Nat.eq_dec (List.length old) j) as [<-|N].
    + rewrite (nth_set_same _ _ _ _ H) in Hj. injection Hj as <-. cbn. ev_simpl.
      change (kept _) with (kept c). eapply In; eauto.
    + rewrite nth_set_other in Hj by auto. ev_simpl. eauto.
  - intros. ev_simpl. auto.
  - intro K. destruct (Id K) as [_ F]. split; auto. apply Forall_set; auto.
    pose proof (Forall_nth _ _ _ _ F H) as [F1 F2]. rewrite (Al K). split; cbn; auto.
Qed.

(** A piece goes out to the serial port. *)
Lemma inv_write cv calm p tr cs ws i c d s up w' :
  inv cv calm p tr cs ws -> p_up p = true -> nth_error (p_conns p) i = Some c ->
  c_writer c = WWrite d -> (w' = WTop \/ (w' = WGone /\ up = false)) -> part calm (to_serial cv) (d, s) ->
  (calm = true -> up = true) ->
  exists ws', inv cv calm (mkProg (p_serial p) (set_nth i (mkConn (c_alive c) (c_reader c) w' (c_net c) (c_closed c)) (p_conns p)) up)
      (tr ++ [EWrite s]) cs ws'.
Proof.
  intros [It Il Ia Ii Is Ic Iw In Io Iws Id] U H R Rn P Al.
  destruct (tidy_at _ _ _ (It U) H) as [[_ G]|(old & E & -> & G & W)]; [congruence|].
  rewrite E, app_length in Il; cbn in Il.
  destruct (@exists_last _ ws) as (wo & w & ->); [intros ->; cbn in Il; lia|].
  rewrite app_length in Il; cbn in Il. assert (L : List.length wo = List.length old) by lia.
  exists (wo ++ [w ++ [(d, s)]]).
  constructor; cbn [p_up p_conns p_serial]; ev_simpl; auto; rewrite ?set_nth_length; auto.
  - intros ->. destruct Rn as [-> | [_ N]]; [|discriminate]. eapply tidy_set; eauto.
    + intros [_ G1]. congruence.
    + cbn. discriminate.
  - rewrite app_length, E, app_length. cbn. lia.
  - rewrite Ii. f_equal. f_equal. symmetry. eapply held_set; eauto.
  - rewrite Iw, !map_app, !concat_app. cbn. rewrite !app_nil_r, total_snoc. cbn. now rewrite app_assoc.
  - intros j e w0 Hj Hw. ev_simpl. destruct (Nat.eq_dec (List.length old) j) as [<-|N].
    + rewrite (nth_set_same _ _ _ _ H) in Hj. injection Hj as <-. cbn.
      rewrite <- L, nth_error_app2, Nat.sub_diag in Hw by lia. cbn in Hw. injection Hw as <-.
      rewrite source_snoc. cbn [fst].
      rewrite (In _ c w H). 2: { rewrite <- L, nth_error_app2, Nat.sub_diag by lia. reflexivity. }
      unfold kept at 1. rewrite R. unfold kept; cbn. destruct Rn as [-> | [-> _]]; cbn; now rewrite <- app_assoc.
    + rewrite nth_set_other in Hj by auto.
      assert (Lj : (j < List.length old)%nat).
      { assert (j < List.length (p_conns p))%nat by (apply nth_error_Some; congruence).
        rewrite E, app_length in *. cbn in *. lia. }
      rewrite nth_error_app1 in Hw by lia. apply In; auto. rewrite nth_error_app1 by lia. exact Hw.
  - intros. ev_simpl. auto.
  - apply Forall_app in Iws as [I1 I2]. inversion I2; subst. apply Forall_app; split; auto.
    constructor; auto. apply Forall_app; split; auto.
  - intro K. destruct (Id K) as [_ F]. split; auto. apply Forall_set; auto.
    pose proof (Forall_nth _ _ _ _ F H) as [F1 F2]. rewrite R in F1, F2. split; cbn.
    + intro A. destruct (F1 A); discriminate.
    + rewrite (Al K) in *. destruct Rn as [-> | [_ N]]; [|discriminate]. intros [X|X]; discriminate.
Qed.

Ltac silent := eapply inv_silent; [eassumption|eassumption|eassumption| | | | |];
  [ unfold hold; cbn [c_reader]; repeat match goal with Q : c_reader _ = _ |- _ => rewrite Q end; reflexivity
  | unfold kept; cbn [c_writer c_net]; repeat match goal with Q : c_writer _ = _ |- _ => rewrite Q | Q : c_net _ = _ |- _ => rewrite Q end; try reflexivity
  | unfold gone; cbn [c_reader c_writer]; try (now auto); intros [? ?]; congruence
  | cbn [c_reader c_writer]; try discriminate; try (now auto); try (intro; exfalso; intuition congruence)
  | ].

Lemma inv_step cv calm p o p' e tr cs ws :
  inv cv calm p tr cs ws -> allowed calm o -> step cv p o = (p', e) ->
  exists cs' ws', inv cv calm p' (tr ++ e) cs' ws'.
Proof.
  intros I A S. unfold step in S.
  destruct (p_up p) eqn:U; cbn [negb] in S; [|injection S as <- <-; exists cs, ws; now apply app_nil_events].
  destruct o as [b|i b|i| |i h|i h].
  - injection S as <- <-. exists cs, ws. destruct I as [It Il Ia Ii Is Ic Iw In Io Iws Id].
    constructor; cbn [p_up p_conns p_serial]; ev_simpl; auto.
    + rewrite Ii. now rewrite <- !app_assoc.
    + intros. ev_simpl. eauto.
    + intros. ev_simpl. eauto.
    + intro K. destruct (Id K). auto.
  - destruct (nth_error (p_conns p) i) as [c|] eqn:H; [|injection S as <- <-; exists cs, ws; now apply app_nil_events].
    destruct (c_closed c) eqn:C; injection S as <- <-; exists cs, ws; [now apply app_nil_events|].
    destruct I as [It Il Ia Ii Is Ic Iw In Io Iws Id].
    constructor; cbn [p_up p_conns p_serial]; ev_simpl; rewrite ?set_nth_length; auto.
    + intros _. eapply tidy_set; eauto.
      cbn. intro W. destruct (tidy_at _ _ _ (It U) H) as [[G _]|(old & _ & _ & _ & N)]; [auto|congruence].
    + rewrite Ii. f_equal. f_equal. symmetry. eapply held_set; eauto.
    + intros j d w Hj Hw. ev_simpl. destruct (Nat.eqb_spec j i) as [->|N].
      * rewrite (nth_set_same _ _ _ _ H) in Hj. injection Hj as <-. cbn. rewrite (In _ _ _ H Hw).
        change (kept (mkConn _ _ _ _ _)) with (kept c). now rewrite <- !app_assoc.
      * rewrite nth_set_other in Hj by auto. rewrite app_nil_r. eauto.
    + intros j Hj. ev_simpl. destruct (Nat.eqb_spec j i) as [->|N].
      * apply nth_error_None in Hj. congruence.
      * rewrite app_nil_r. auto.
    + intro K. destruct (Id K) as [_ F]. split; auto. apply Forall_set; auto.
      pose proof (Forall_nth _ _ _ _ F H) as [F1 F2]. split; cbn; auto.
      intro W. destruct (F2 W). congruence.
  - destruct (nth_error (p_conns p) i) as [c|] eqn:H; injection S as <- <-; exists cs, ws; apply app_nil_events; auto.
    eapply inv_silent; eauto.
    + cbn. intro W. destruct (tidy_at _ _ _ (i_tidy _ _ _ _ _ _ I U) H) as [[G _]|(old & _ & _ & _ & N)]; [auto|congruence].
    + intros _ [F1 F2]. split; cbn; auto. intro W. destruct (F2 W). auto.
  - destruct (forallb back (p_conns p)) eqn:B; injection S as <- <-; [|exists cs, ws; now apply app_nil_events].
    exists cs, (ws ++ [[]]). destruct I as [It Il Ia Ii Is Ic Iw In Io Iws Id].
    pose proof (tidy_all_back _ (It U) B) as G.
    constructor; cbn [p_up p_conns p_serial]; ev_simpl; rewrite ?app_length; auto.
    + intros _. right. exists (p_conns p), (mkConn true RTop WTop [] false). repeat split; auto. discriminate.
    + rewrite held_last by auto. rewrite Ii, held_gone by auto. reflexivity.
    + rewrite Iw, map_app, concat_app. cbn. now rewrite app_nil_r.
    + intros j c w Hj Hw. ev_simpl.
      destruct (Nat.lt_ge_cases j (List.length (p_conns p))) as [L|L].
      * rewrite nth_error_app1 in Hj by lia. rewrite nth_error_app1 in Hw by lia. eauto.
      * rewrite nth_error_app2 in Hj by lia. rewrite nth_error_app2 in Hw by lia.
        destruct (j - List.length (p_conns p))%nat as [|k] eqn:Q; [|destruct k; discriminate].
        rewrite Il, Q in Hw. cbn in Hj, Hw. injection Hj as <-. injection Hw as <-. cbn. auto.
    + intros j Hj. ev_simpl. apply Io. lia.
    + apply Forall_app; split; auto.
    + intro K. destruct (Id K) as [_ F]. split; auto. apply Forall_app; split; auto.
      repeat constructor; cbn; try discriminate. all: destruct H; discriminate.
  - destruct (nth_error (p_conns p) i) as [c|] eqn:H; [|injection S as <- <-; exists cs, ws; now apply app_nil_events].
    assert (WR : c_writer c = WGone -> c_reader c = RGone).
    { intro W. destruct (tidy_at _ _ _ (i_tidy _ _ _ _ _ _ I U) H) as [[G _]|(old & _ & _ & _ & N)]; [auto|congruence]. }
    unfold reader_step in S. destruct (c_reader c) as [| |d|] eqn:R.
    + destruct (c_alive c) eqn:Al; injection S as <- <-; exists cs, ws; apply app_nil_events.
      * silent. intros _ [F1 F2]. split; cbn; auto. discriminate.
      * silent. intros _ [F1 F2]. split; cbn; auto.
    + destruct h as [n|n].
      * destruct (firstn n (p_serial p)) as [|x xs] eqn:E; injection S as <- <-; exists cs, ws; apply app_nil_events.
        -- silent. intros _ [F1 F2]. split; cbn; auto.
        -- pose proof (i_tidy _ _ _ _ _ _ I U) as T.
           destruct (tidy_at _ _ _ T H) as [[G _]|(old & Ec & -> & G & W)]; [congruence|].
           destruct I as [It Il Ia Ii Is Ic Iw In Io Iws Id].
           constructor; cbn [p_up p_conns p_serial]; rewrite ?set_nth_length; auto.
           ++ intros _. eapply tidy_set; eauto; [now intros [G1 _]; congruence | cbn; intro X; specialize (WR X); congruence].
           ++ rewrite Ii, Ec, set_last, !held_last by auto. unfold hold; cbn. rewrite R. cbn. f_equal.
              change (p_serial p = (x :: xs) ++ skipn n (p_serial p)). rewrite <- E. now rewrite firstn_skipn.
           ++ intros j d w Hj Hw. destruct (Nat.eq_dec (List.length old) j) as [<-|N].
              ** rewrite (nth_set_same _ _ _ _ H) in Hj. injection Hj as <-. cbn.
                 change (kept (mkConn _ _ _ _ _)) with (kept c). eauto.
              ** rewrite nth_set_other in Hj by auto. eauto.
           ++ intro K. destruct (Id K) as [_ F]. split; auto. apply Forall_set; auto.
              pose proof (Forall_nth _ _ _ _ F H) as [F1 F2]. split; cbn; auto.
      * injection S as <- <-. exists cs, ws. apply app_nil_events.
        silent.
        intros _ [F1 F2]. split; cbn; auto.
    + destruct h as [n|n]; injection S as <- <-.
      * exists (cs ++ [(d, to_net cv d)]), ws. eapply inv_send; eauto. now left.
      * exists (cs ++ [(d, firstn n (to_net cv d))]), ws. eapply inv_send; eauto.
        -- right. split; [destruct calm; [exfalso; now apply A|reflexivity] | now exists n].
        -- intro K. exfalso. now apply A.
    + injection S as <- <-. exists cs, ws. apply app_nil_events.
      rewrite (set_nth_same _ _ _ H). destruct p; cbn in *; subst; auto.
  - destruct (nth_error (p_conns p) i) as [c|] eqn:H; [|injection S as <- <-; exists cs, ws; now apply app_nil_events].
    unfold writer_step in S. destruct (c_writer c) as [| |d| |] eqn:W.
    + destruct (c_alive c) eqn:Al; injection S as <- <-; exists cs, ws; apply app_nil_events.
      * silent. intros _ [F1 F2]. split; cbn; [discriminate|intros [X|X]; discriminate].
      * silent. intros _ [F1 F2]. rewrite W in F1. destruct (F1 Al); discriminate.
    + destruct h as [n|n].
      * destruct (c_net c) as [|x xs] eqn:N.
        -- destruct (c_closed c) eqn:C; injection S as <- <-; exists cs, ws; apply app_nil_events.
           ++ silent. intros _ [F1 F2]. split; cbn; auto.
           ++ rewrite (set_nth_same _ _ _ H). destruct p; cbn in *; subst; auto.
        -- injection S as <- <-. exists cs, ws. apply app_nil_events.
           silent.
           ++ now rewrite firstn_skipn.
           ++ intros _ [F1 F2]. rewrite W in F1. split; cbn; [|intros [X|X]; discriminate].
              intro Q. destruct (F1 Q); discriminate.
      * injection S as <- <-. exists cs, ws. apply app_nil_events.
        silent.
        intro K. exfalso. apply A; auto.
    + destruct h as [n|n]; injection S as <- <-; exists cs.
      * eapply inv_write; eauto. now left.
      * assert (K : calm = false) by (destruct calm; [exfalso; now apply A|reflexivity]).
        assert (P : part calm (to_serial cv) (d, firstn n (to_serial cv d))) by (right; split; [exact K|now exists n]).
        destruct (inv_write cv calm p tr cs ws i c d (firstn n (to_serial cv d)) false WGone I U H W
                    (or_intror (conj eq_refl eq_refl)) P ltac:(congruence)) as (ws' & I').
        exists ws'. change [EWrite (firstn n (to_serial cv d)); EExit] with ([EWrite (firstn n (to_serial cv d))] ++ [EExit]).
        rewrite app_assoc. apply inv_quiet; cbn; auto.
    + destruct (c_reader c) eqn:R; injection S as <- <-; exists cs, ws;
        try (apply app_nil_events; rewrite (set_nth_same _ _ _ H); destruct p; cbn in *; subst; auto; fail).
      apply inv_quiet; [exact Logic.I|].
      silent.
      intros _ [F1 F2]. split; cbn; auto.
    + injection S as <- <-. exists cs, ws. apply app_nil_events.
      rewrite (set_nth_same _ _ _ H). destruct p; cbn in *; subst; auto.
Qed.

Lemma inv_run cv calm : forall l p p' tr e cs ws,
  inv cv calm p tr cs ws -> Forall (allowed calm) l -> run cv p l = (p', e) ->
  exists cs' ws', inv cv calm p' (tr ++ e) cs' ws'.
Proof.
  induction l as [|o l IH]; intros p p' tr e cs ws I F R; cbn in R.
  - injection R as <- <-. exists cs, ws. now apply app_nil_events.
  - inversion F; subst. destruct (step cv p o) as [p1 e1] eqn:S. destruct (run cv p1 l) as [p2 e2] eqn:R2.
    injection R as <- <-. destruct (inv_step _ _ _ _ _ _ _ _ _ I H1 S) as (cs1 & ws1 & I1).
    destruct (IH _ _ _ _ _ _ I1 H2 R2) as (cs2 & ws2 & I2). exists cs2, ws2. now rewrite app_assoc.
Qed.

Lemma inv_of cv calm l p tr : Forall (allowed calm) l -> run cv listening l = (p, tr) ->
  exists cs ws, inv cv calm p tr cs ws.
Proof. intros F R. exact (inv_run _ _ _ _ _ [] _ _ _ (inv_start cv calm) F R). Qed.

Lemma faultless_allowed l : faultless l -> Forall (allowed true) l.
Proof.
  intro F. apply Forall_forall. intros o Ho _. destruct o as [| | | |i [n|n]|i [n|n]]; auto; destruct (F i n); contradiction.
Qed.
Lemma any_allowed l : Forall (allowed false) l.
Proof. apply Forall_forall. intros o _ K. discriminate. Qed.

(** Conversion of newlines. *)
Lemma begins_spec : forall sep s, begins sep s = true <-> exists r, s = sep ++ r.
Proof.
  induction sep as [|a sep IH]; intros s; cbn.
  - split; eauto.
  - destruct s as [|b s].
    + split; [discriminate|intros (r & E); discriminate].
    + rewrite andb_true_iff, Z.eqb_eq, IH. split.
      * intros (-> & r & ->). eauto.
      * intros (r & E). injection E as -> ->. eauto.
Qed.
Lemma split_acc : forall sep s acc k, exists h t, split_on sep [] k s = h :: t /\ split_on sep acc k s = (rev acc ++ h) :: t.
Proof.
  intros sep. induction s as [|c s IH]; intros acc k; cbn.
  - exists [], []. now rewrite app_nil_r.
  - destruct k as [|k]; [|apply IH].
    destruct (begins sep (c :: s)); [exists [], (split_on sep [] (List.length sep - 1) s); now rewrite app_nil_r|].
    destruct (IH [c] 0%nat) as (h & t & E1 & E2). destruct (IH (c :: acc) 0%nat) as (h' & t' & E3 & E4).
    rewrite E2, E4. rewrite E1 in E3. injection E3 as <- <-. exists (c :: h), t. split; auto.
    cbn. now rewrite <- app_assoc.
Qed.
Lemma join_acc sep new s acc k :
  join_with new (split_on sep acc k s) = rev acc ++ join_with new (split_on sep [] k s).
Proof.
  destruct (split_acc sep s acc k) as (h & t & -> & ->). destruct t; cbn; auto. now rewrite <- app_assoc.
Qed.
Lemma split_skip sep acc : forall a s, split_on sep acc (List.length a) (a ++ s) = split_on sep acc 0 s.
Proof. induction a; intro s; cbn; auto. Qed.
Lemma converts sep new : sep <> [] -> forall s, converted sep new s (join_with new (split_on sep [] 0 s)).
Proof.
  intros N s. remember (List.length s) as n eqn:L. revert s L.
  induction n as [n IH] using lt_wf_ind. intros s ->. destruct s as [|c s]; [constructor|].
  cbn [split_on]. destruct (begins sep (c :: s)) eqn:B.
  - apply begins_spec in B as (r & E). destruct sep as [|x sep]; [congruence|].
    cbn in E. injection E as <- ->. cbn [List.length]. replace (S (List.length sep) - 1)%nat with (List.length sep) by lia.
    rewrite split_skip.
    assert (J : join_with new (rev [] :: split_on (c :: sep) [] 0 r) = new ++ join_with new (split_on (c :: sep) [] 0 r)).
    { destruct (split_acc (c :: sep) r [] 0%nat) as (h & t & -> & _). reflexivity. }
    rewrite J. change (c :: sep ++ r) with ((c :: sep) ++ r). constructor.
    eapply IH; [|reflexivity]. cbn. rewrite app_length. lia.
  - rewrite join_acc. cbn. apply cv_other.
    + intros r E. assert (begins sep (c :: s) = true) by (apply begins_spec; eauto). congruence.
    + eapply IH; [|reflexivity]. cbn. lia.
Qed.
Lemma converted_one x new : forall a oa b ob,
  converted [x] new a oa -> converted [x] new b ob -> converted [x] new (a ++ b) (oa ++ ob).
Proof.
  intros a oa b ob A B. induction A as [|s o _ IH|c s o N _ IH]; auto.
  - rewrite <- !app_assoc. now constructor.
  - cbn. apply cv_other; auto. intros r E. cbn in E. injection E as -> _. apply (N s). reflexivity.
Qed.
Lemma converted_all_one x new l : forall outs,
  Forall2 (converted [x] new) l outs -> converted [x] new (concat l) (concat outs).
Proof. induction 1; cbn; [constructor|now apply converted_one]. Qed.
Lemma converted_two x y new : forall a oa b ob,
  ~ (exists u v, a = u ++ [x] /\ b = y :: v) ->
  converted [x; y] new a oa -> converted [x; y] new b ob -> converted [x; y] new (a ++ b) (oa ++ ob).
Proof.
  intros a oa b ob U A B. induction A as [|s o _ IH|c s o N _ IH]; auto.
  - rewrite <- !app_assoc. constructor. apply IH. intros (u & v & -> & E). apply U.
    exists (x :: y :: u), v. auto.
  - cbn. apply cv_other.
    + intros r E. destruct s as [|c' s].
      * cbn in E. injection E as -> E. apply U. exists [], r. auto.
      * cbn in E. injection E as -> -> E. apply (N s). reflexivity.
    + apply IH. intros (u & v & -> & E). apply U. exists (c :: u), v. auto.
Qed.
Lemma converted_all_two x y new l : forall outs, ~ cut x y l ->
  Forall2 (converted [x; y] new) l outs -> converted [x; y] new (concat l) (concat outs).
Proof.
  intros outs U F. induction F as [|a oa l outs A F IH]; [constructor|]. cbn. apply converted_two; auto.
  - intros (u & v & -> & E). apply U. exists [], u, l, v. auto.
  - apply IH. intros (l1 & u & l2 & v & -> & E). apply U. exists (a :: l1), u, l2, v. auto.
Qed.
Lemma converted_det sep new : sep <> [] -> forall s o o', converted sep new s o -> converted sep new s o' -> o = o'.
Proof.
  intros N s o o' A. revert o'. induction A as [|s o A IH|c s o M A IH]; intros o' B.
  - inversion B; subst; auto. destruct sep; [congruence|discriminate].
  - inversion B as [E|s1 o1 B1 E|c1 s1 o1 M1 B1 E].
    + destruct sep; [congruence|discriminate].
    + apply app_inv_head in E. subst. f_equal. auto.
    + subst. exfalso. eapply M1. symmetry in E. rewrite E. reflexivity.
  - inversion B as [E|s1 o1 B1 E|c1 s1 o1 M1 B1 E]; subst.
    + exfalso. eapply M. symmetry. exact E.
    + f_equal. auto.
Qed.

Lemma left_firstn : forall w k, left_of (firstn k w) w.
Proof.
  induction w; intros [|k]; cbn; constructor; auto.
  clear IHw. induction w; constructor; auto.
Qed.
Lemma left_refl w : left_of w w. Proof. induction w; constructor; auto. Qed.
Lemma left_nil_all : forall w, left_of [] w. Proof. induction w; constructor; auto. Qed.
Lemma left_app : forall a b c d, left_of a b -> left_of c d -> left_of (a ++ c) (b ++ d).
Proof. intros a b c d A C. induction A; cbn; try constructor; auto. Qed.

(** The order of events. *)
Definition orderly (tr : list ev) : Prop := forall a e z, tr = a ++ e :: z -> may_follow a e.
Lemma orderly_snoc tr e : orderly tr -> may_follow tr e -> orderly (tr ++ [e]).
Proof.
  intros O M a x z E. destruct z as [|y z _] using rev_ind.
  - apply last_split in E as [<- <-]. exact M.
  - rewrite app_comm_cons, app_assoc in E. apply last_split in E as [-> _]. eapply O. reflexivity.
Qed.

Record ord (p : prog) (tr : list ev) : Prop := {
  o_tidy : p_up p = true -> tidy (p_conns p);
  o_start : forall i, In (EStart i) tr <-> (i < List.length (p_conns p))%nat;
  o_end : forall i, In (EEnd i) tr -> exists c, nth_error (p_conns p) i = Some c /\ gone c;
  o_gone : p_up p = true -> forall i c, nth_error (p_conns p) i = Some c -> c_writer c = WGone -> In (EEnd i) tr;
  o_exit : In EExit tr <-> p_up p = false;
  o_join : forall i c, nth_error (p_conns p) i = Some c -> c_writer c = WJoin -> c_alive c = false;
  o_ord : orderly tr }.

Definition inert (e : ev) : Prop := match e with EStart _ | EEnd _ | EExit => False | _ => True end.

(** One connection changes without being closed. *)
Lemma ord_set p tr i c c' s e :
  ord p tr -> p_up p = true -> nth_error (p_conns p) i = Some c ->
  (gone c -> gone c') -> (c_writer c' = WGone -> c_writer c = WGone /\ c_reader c' = RGone) ->
  (c_writer c' = WJoin -> c_alive c' = false) ->
  Forall inert e -> orderly (tr ++ e) ->
  ord (mkProg s (set_nth i c' (p_conns p)) true) (tr ++ e).
Proof.
  intros [Ot Os Oe Og Ox Oj Oo] U H G W J In_ Or.
  assert (NI : forall x, ~ inert x -> (In x (tr ++ e) <-> In x tr)).
  { intros x X. rewrite in_app_iff. split; auto. intros [Y|Y]; auto. rewrite Forall_forall in In_. exfalso; auto. }
  constructor; cbn [p_up p_conns p_serial]; rewrite ?set_nth_length; auto.
  - intros _. eapply tidy_set; eauto. intro X. now apply W.
  - intros j. rewrite NI by (cbn; auto). auto.
  - intros j. rewrite NI by (cbn; auto). intro X. destruct (Oe _ X) as (d & D & Gd).
    destruct (Nat.eq_dec i j) as [->|N].
    + exists c'. split; [eapply nth_set_same; eauto|]. apply G. congruence.
    + exists d. now rewrite nth_set_other.
  - intros _ j d Hj Wd. rewrite NI by (cbn; auto). destruct (Nat.eq_dec i j) as [->|N].
    + rewrite (nth_set_same _ _ _ _ H) in Hj. injection Hj as <-. eapply Og; eauto. now apply W.
    + rewrite nth_set_other in Hj by auto. eauto.
  - rewrite NI by (cbn; auto). rewrite Ox, U. tauto.
  - intros j d Hj. destruct (Nat.eq_dec i j) as [->|N].
    + rewrite (nth_set_same _ _ _ _ H) in Hj. injection Hj as <-. auto.
    + rewrite nth_set_other in Hj by auto. eauto.
Qed.

Lemma ord_open p tr i c : ord p tr -> nth_error (p_conns p) i = Some c -> ~ gone c -> open tr i.
Proof.
  intros O H G. split.
  - apply (o_start _ _ O). apply nth_error_Some. congruence.
  - intro E. destruct (o_end _ _ O _ E) as (d & D & X). congruence.
Qed.

Ltac oset := eapply ord_set; [eassumption|eassumption|eassumption| | | | |];
  [ unfold gone; cbn [c_reader c_writer]; try (now auto); intros [? ?]; congruence
  | cbn [c_reader c_writer]; intro; first [discriminate | split; [assumption | first [reflexivity | exfalso; intuition congruence]]]
  | cbn [c_alive c_writer]; first [discriminate | now auto | congruence ]
  | repeat constructor
  | first [assumption | idtac] ].

Lemma ord_step cv p o p' e tr : ord p tr -> step cv p o = (p', e) -> ord p' (tr ++ e).
Proof.
  intros O S. unfold step in S.
  destruct (p_up p) eqn:U; cbn [negb] in S; [|injection S as <- <-; now rewrite app_nil_r].
  assert (NX : ~ In EExit tr) by (rewrite (o_exit _ _ O); congruence).
  assert (same : ord p (tr ++ [])) by (now rewrite app_nil_r).
  assert (plain : orderly (tr ++ [])) by (rewrite app_nil_r; apply O).
  destruct o as [b|i b|i| |i h|i h].
  - injection S as <- <-. destruct O as [Ot Os Oe Og Ox Oj Oo].
    constructor; cbn [p_up p_conns p_serial]; auto.
    + intro i. rewrite in_app_iff. rewrite <- Os. cbn. intuition discriminate.
    + intro i. rewrite in_app_iff. intros [X|[X|[]]]; [auto|discriminate].
    + intros _ i c H W. apply in_app_iff. eauto.
    + rewrite in_app_iff. cbn. split; [intros [X|[X|[]]]; [contradiction|discriminate]|discriminate].
    + apply orderly_snoc; cbn; auto. split; cbn; auto.
  - destruct (nth_error (p_conns p) i) as [c|] eqn:H; [|now injection S as <- <-].
    destruct (c_closed c) eqn:C; injection S as <- <-; auto.
    eapply ord_set; eauto.
    + cbn. intro W. split; auto. destruct (tidy_at _ _ _ (o_tidy _ _ O U) H) as [[G _]|(old & _ & _ & _ & N)]; [auto|congruence].
    + cbn. eapply o_join; eauto.
    + repeat constructor.
    + apply orderly_snoc; [apply O|]. split; auto. apply (o_start _ _ O). apply nth_error_Some. congruence.
  - destruct (nth_error (p_conns p) i) as [c|] eqn:H; injection S as <- <-; auto.
    eapply ord_set; eauto.
    + cbn. intro W. split; auto. destruct (tidy_at _ _ _ (o_tidy _ _ O U) H) as [[G _]|(old & _ & _ & _ & N)]; [auto|congruence].
    + cbn. eapply o_join; eauto.
  - destruct (forallb back (p_conns p)) eqn:B; injection S as <- <-; auto.
    pose proof (tidy_all_back _ (o_tidy _ _ O U) B) as G.
    destruct O as [Ot Os Oe Og Ox Oj Oo].
    assert (GE : forall j, In (EStart j) tr -> In (EEnd j) tr).
    { intros j X. apply Os in X. destruct (nth_error (p_conns p) j) as [d|] eqn:D.
      - eapply Og; eauto. apply (Forall_nth _ _ _ _ G D).
      - apply nth_error_None in D. lia. }
    constructor; cbn [p_up p_conns p_serial]; auto.
    + intros _. right. exists (p_conns p), (mkConn true RTop WTop [] false). repeat split; auto. discriminate.
    + intro i. rewrite in_app_iff, app_length. rewrite Os. cbn. split.
      * intros [X|[X|[]]]; [lia|injection X as <-; lia].
      * intro X. destruct (Nat.eq_dec i (List.length (p_conns p))) as [->|N]; [auto|left; lia].
    + intro i. rewrite in_app_iff. intros [X|[X|[]]]; [|discriminate]. destruct (Oe _ X) as (c & C & Gc).
      exists c. split; auto. rewrite nth_error_app1; auto. apply nth_error_Some. congruence.
    + intros _ i c H W. apply in_app_iff. left.
      destruct (Nat.lt_ge_cases i (List.length (p_conns p))) as [L|L].
      * rewrite nth_error_app1 in H by lia. eauto.
      * rewrite nth_error_app2 in H by lia. destruct (i - _)%nat as [|k]; [|destruct k; discriminate].
        cbn in H. injection H as <-. discriminate.
    + rewrite in_app_iff. cbn. split; [intros [X|[X|[]]]; [contradiction|discriminate]|discriminate].
    + intros i c H. destruct (Nat.lt_ge_cases i (List.length (p_conns p))) as [L|L].
      * rewrite nth_error_app1 in H by lia. eauto.
      * rewrite nth_error_app2 in H by lia. destruct (i - _)%nat as [|k]; [|destruct k; discriminate].
        cbn in H. injection H as <-. discriminate.
    + apply orderly_snoc; auto. split; auto. split.
      * rewrite Os. lia.
      * intros j [X Y]. auto.
  - destruct (nth_error (p_conns p) i) as [c|] eqn:H; [|now injection S as <- <-].
    assert (WR : c_writer c = WGone -> c_reader c = RGone).
    { intro W. destruct (tidy_at _ _ _ (o_tidy _ _ O U) H) as [[G _]|(old & _ & _ & _ & N)]; [auto|congruence]. }
    pose proof (o_join _ _ O _ _ H) as J.
    unfold reader_step in S. destruct (c_reader c) as [| |d|] eqn:R.
    + destruct (c_alive c) eqn:Al; injection S as <- <-; oset.
    + destruct h as [n|n].
      * destruct (firstn n (p_serial p)) as [|x xs] eqn:E; injection S as <- <-; oset.
      * injection S as <- <-. oset.
    + assert (OP : open tr i) by (eapply ord_open; eauto; intros [G _]; congruence).
      destruct h as [n|n]; injection S as <- <-.
      * oset.
        apply orderly_snoc; [apply O|]. now split.
      * oset.
        apply orderly_snoc; [apply O|]. now split.
    + injection S as <- <-. rewrite (set_nth_same _ _ _ H). destruct p; cbn in *; subst; auto.
  - destruct (nth_error (p_conns p) i) as [c|] eqn:H; [|now injection S as <- <-].
    unfold writer_step in S. destruct (c_writer c) as [| |d| |] eqn:W.
    + destruct (c_alive c) eqn:Al; injection S as <- <-;
        oset.
    + destruct h as [n|n].
      * destruct (c_net c) as [|x xs] eqn:N.
        -- destruct (c_closed c) eqn:C; injection S as <- <-.
           ++ oset.
           ++ rewrite (set_nth_same _ _ _ H). destruct p; cbn in *; subst; auto.
        -- injection S as <- <-. oset.
      * injection S as <- <-. oset.
    + assert (OP : open tr i) by (eapply ord_open; eauto; intros [_ G]; congruence).
      destruct h as [n|n]; injection S as <- <-.
      * oset.
        apply orderly_snoc; [apply O|]. split; eauto.
      * set (b := firstn n (to_serial cv d)). destruct O as [Ot Os Oe Og Ox Oj Oo].
        constructor; cbn [p_up p_conns p_serial]; rewrite ?set_nth_length; try discriminate.
        -- intro j. rewrite in_app_iff, <- Os. cbn. intuition discriminate.
        -- intros j. rewrite in_app_iff. intros [X|[X|[X|[]]]]; try discriminate.
           destruct (Oe _ X) as (e & E & Ge). destruct (Nat.eq_dec i j) as [->|N].
           ++ destruct Ge. congruence.
           ++ exists e. now rewrite nth_set_other.
        -- rewrite in_app_iff. cbn. tauto.
        -- intros j e Hj. destruct (Nat.eq_dec i j) as [->|N].
           ++ rewrite (nth_set_same _ _ _ _ H) in Hj. injection Hj as <-. discriminate.
           ++ rewrite nth_set_other in Hj by auto. eauto.
        -- change [EWrite b; EExit] with ([EWrite b] ++ [EExit]). rewrite app_assoc.
           apply orderly_snoc; [apply orderly_snoc; auto; split; eauto|]. split.
           ++ rewrite in_app_iff. intros [X|[X|[]]]; [contradiction|discriminate].
           ++ exists i. destruct OP as [P Q]. split; rewrite in_app_iff; auto. intros [X|[X|[]]]; [contradiction|discriminate].
    + destruct (c_reader c) eqn:R; injection S as <- <-;
        try (rewrite (set_nth_same _ _ _ H); destruct p; cbn in *; subst; auto; fail).
      assert (OP : open tr i) by (eapply ord_open; eauto; intros [_ G]; congruence).
      destruct O as [Ot Os Oe Og Ox Oj Oo].
      constructor; cbn [p_up p_conns p_serial]; rewrite ?set_nth_length.
      * intros _. eapply tidy_set; eauto. intros [_ G]. congruence.
      * intro j. rewrite in_app_iff, <- Os. cbn. intuition discriminate.
      * intros j. rewrite in_app_iff. intros [X|[X|[]]].
        -- destruct (Oe _ X) as (e & E & Ge). destruct (Nat.eq_dec i j) as [->|N].
           ++ destruct Ge. congruence.
           ++ exists e. now rewrite nth_set_other.
        -- injection X as <-. eexists. split; [eapply nth_set_same; eauto|]. split; reflexivity.
      * intros _ j e Hj We. apply in_app_iff. destruct (Nat.eq_dec i j) as [->|N].
        -- right. now left.
        -- left. rewrite nth_set_other in Hj by auto. eauto.
      * rewrite in_app_iff. cbn. split; [intros [X|[X|[]]]; [contradiction|discriminate]|discriminate].
      * intros j e Hj. destruct (Nat.eq_dec i j) as [->|N].
        -- rewrite (nth_set_same _ _ _ _ H) in Hj. injection Hj as <-. discriminate.
        -- rewrite nth_set_other in Hj by auto. eauto.
      * apply orderly_snoc; auto. now split.
    + injection S as <- <-. rewrite (set_nth_same _ _ _ H). destruct p; cbn in *; subst; auto.
Qed.

Lemma ord_run cv : forall l p p' tr e, ord p tr -> run cv p l = (p', e) -> ord p' (tr ++ e).
Proof.
  induction l as [|o l IH]; intros p p' tr e O R; cbn in R.
  - injection R as <- <-. now rewrite app_nil_r.
  - destruct (step cv p o) as [p1 e1] eqn:S. destruct (run cv p1 l) as [p2 e2] eqn:R2.
    injection R as <- <-. rewrite app_assoc. eapply IH; eauto. eapply ord_step; eauto.
Qed.
Lemma ord_start : ord listening [].
Proof.
  constructor; cbn; auto; try (intros; now left); try tauto.
  - intros. split; [tauto|lia].
  - intros _ [|i] c H; discriminate.
  - split; [tauto|discriminate].
  - intros [|i] c H; discriminate.
  - intros a e z H. destruct a; discriminate.
Qed.
Lemma ord_of cv l p tr : run cv listening l = (p, tr) -> ord p tr.
Proof. intro R. exact (ord_run _ _ _ _ [] _ ord_start R). Qed.

(** Runs in two parts. *)
Lemma run_app cv : forall a b p, run cv p (a ++ b) =
  (fst (run cv (fst (run cv p a)) b), snd (run cv p a) ++ snd (run cv (fst (run cv p a)) b)).
Proof.
  induction a as [|o a IH]; intros b p; cbn.
  - now destruct (run cv p b).
  - destruct (step cv p o) as [p1 e1]. rewrite IH. destruct (run cv p1 a) as [p2 e2]. cbn.
    destruct (run cv p2 b) as [p3 e3]. cbn. now rewrite app_assoc.
Qed.

(** What holds of every connection. *)
Lemma conns_run (P : nat -> conn -> Prop) (Q : op -> Prop) cv :
  (forall i, P i (mkConn true RTop WTop [] false)) ->
  (forall i c b, P i c -> c_closed c = false -> P i (mkConn (c_alive c) (c_reader c) (c_writer c) (c_net c ++ b) false)) ->
  (forall i c, Q (NetClose i) -> P i c -> P i (mkConn (c_alive c) (c_reader c) (c_writer c) (c_net c) true)) ->
  (forall i c s h, Q (Reader i h) -> P i c -> P i (fst (fst (reader_step cv c s h)))) ->
  (forall i c h, Q (Writer i h) -> P i c -> P i (fst (writer_step cv c h))) ->
  forall l p p' tr, Forall Q l -> run cv p l = (p', tr) ->
  (forall i c, nth_error (p_conns p) i = Some c -> P i c) ->
  forall i c, nth_error (p_conns p') i = Some c -> P i c.
Proof.
  intros Hn Hi Hc Hr Hw. induction l as [|o l IH]; intros p p' tr F R Hp; cbn in R; [now injection R as <- <-|].
  destruct (step cv p o) as [p1 e1] eqn:S. destruct (run cv p1 l) as [p2 e2] eqn:R2. injection R as <- <-.
  inversion F as [|? ? Fo Fl]; subst.
  apply (IH _ _ _ Fl R2). clear IH R2 p2 e2. unfold step in S.
  destruct (p_up p); cbn [negb] in S; [|now injection S as <- <-].
  assert (set : forall i c c', nth_error (p_conns p) i = Some c -> P i c' ->
    forall j d, nth_error (set_nth i c' (p_conns p)) j = Some d -> P j d).
  { intros i c c' H X j d D. destruct (Nat.eq_dec i j) as [->|N].
    - rewrite (nth_set_same _ _ _ _ H) in D. now injection D as <-.
    - rewrite nth_set_other in D by auto. eauto. }
  destruct o as [b|i b|i| |i h|i h].
  - now injection S as <- <-.
  - destruct (nth_error (p_conns p) i) as [c|] eqn:H; [|now injection S as <- <-].
    destruct (c_closed c) eqn:C; injection S as <- <-; auto. cbn [p_conns]. eapply set; eauto.
  - destruct (nth_error (p_conns p) i) as [c|] eqn:H; injection S as <- <-; auto. cbn [p_conns]. eapply set; eauto.
  - destruct (forallb back (p_conns p)); injection S as <- <-; auto. cbn [p_conns]. intros i c H.
    destruct (Nat.lt_ge_cases i (List.length (p_conns p))) as [L|L].
    + rewrite nth_error_app1 in H by lia. eauto.
    + rewrite nth_error_app2 in H by lia. destruct (i - _)%nat as [|k]; [|destruct k; discriminate].
      cbn in H. injection H as <-. auto.
  - destruct (nth_error (p_conns p) i) as [c|] eqn:H; [|now injection S as <- <-].
    specialize (Hr i c (p_serial p) h Fo (Hp _ _ H)).
    destruct (reader_step cv c (p_serial p) h) as [[c' s] x]. injection S as <- <-. cbn [p_conns]. eapply set; eauto.
  - destruct (nth_error (p_conns p) i) as [c|] eqn:H; [|now injection S as <- <-].
    specialize (Hw i c h Fo (Hp _ _ H)).
    destruct (writer_step cv c h) as [c' x]. destruct x; injection S as <- <-; cbn [p_conns]; eapply set; eauto.
Qed.

Lemma writer_keeps cv c h : let c' := fst (writer_step cv c h) in
  c_reader c' = c_reader c /\ (c_alive c' = c_alive c \/ c_alive c' = false) /\ c_closed c' = c_closed c.
Proof.
  destruct c as [al r w net cl]. unfold writer_step. cbn. destruct w; cbn.
  - destruct al; cbn; auto.
  - destruct h; cbn; auto. destruct net; [destruct cl|]; cbn; auto.
  - destruct h; cbn; auto.
  - destruct r; cbn; auto.
  - auto.
Qed.
Lemma closed_by cv l p tr : run cv listening l = (p, tr) ->
  forall i c, nth_error (p_conns p) i = Some c -> c_closed c = true -> In (NetClose i) l.
Proof.
  intro R. apply (conns_run (fun i c => c_closed c = true -> In (NetClose i) l) (fun o => In o l) cv) with (l := l) (p := listening) (tr := tr); auto.
  - discriminate.
  - cbn. discriminate.
  - intros i c s h _ H. unfold reader_step. destruct (c_reader c), h, (c_alive c); cbn; auto;
      destruct (firstn n s); cbn; auto.
  - intros i c h _ H. destruct (writer_keeps cv c h) as (_ & _ & ->); auto.
  - apply Forall_forall. auto.
  - cbn. intros [|i] c H; discriminate.
Qed.

Lemma reader_stays cv l p tr : faultless l -> run cv listening l = (p, tr) ->
  forall i c, nth_error (p_conns p) i = Some c -> c_reader c = RGone -> c_alive c = false.
Proof.
  intros F R. apply (conns_run (fun i c => c_reader c = RGone -> c_alive c = false) (allowed true) cv) with (l := l) (p := listening) (tr := tr); auto.
  - discriminate.
  - intros i c s h A H. unfold reader_step. destruct (c_reader c) eqn:E, h, (c_alive c) eqn:Al; cbn; try discriminate; auto;
      try (exfalso; now apply A); try (destruct (firstn n s); cbn; discriminate); intros; first [congruence | rewrite Al; now apply H].
  - intros i c h A H. destruct (writer_keeps cv c h) as (-> & [-> | ->] & _); auto.
  - now apply faultless_allowed.
  - cbn. intros [|i] c H; discriminate.
Qed.

(** Steps of the threads of the latest connection. *)
Lemma nth_last {A} (old : list A) c : nth_error (old ++ [c]) (List.length old) = Some c.
Proof. rewrite nth_error_app2, Nat.sub_diag by lia. reflexivity. Qed.
Lemma step_r cv s old c h : step cv (mkProg s (old ++ [c]) true) (Reader (List.length old) h) =
  let '(c', s', x) := reader_step cv c s h in
  (mkProg s' (old ++ [c']) true, match x with Some b => [ESend (List.length old) b] | None => [] end).
Proof.
  unfold step. cbn [p_up negb p_conns p_serial]. rewrite nth_last.
  destruct (reader_step cv c s h) as [[c' s'] x]. now rewrite set_last.
Qed.
Lemma step_w cv s old c h : step cv (mkProg s (old ++ [c]) true) (Writer (List.length old) h) =
  let '(c', a) := writer_step cv c h in
  match a with
  | WNothing => (mkProg s (old ++ [c']) true, [])
  | WWrote b => (mkProg s (old ++ [c']) true, [EWrite b])
  | WEnded => (mkProg s (old ++ [c']) true, [EEnd (List.length old)])
  | WDied b => (mkProg s (old ++ [c']) false, [EWrite b; EExit])
  end.
Proof.
  unfold step. cbn [p_up negb p_conns p_serial]. rewrite nth_last.
  destruct (writer_step cv c h) as [c' x]. destruct x; now rewrite set_last.
Qed.

(** [leads cv p G]: the threads can take the program from [p] to where [G] holds. *)
Definition leads (cv : conversion) (p : prog) (G : prog -> list ev -> Prop) : Prop :=
  exists l, Forall thread_step l /\ G (fst (run cv p l)) (snd (run cv p l)).
Lemma leads_step cv p o (G : prog -> list ev -> Prop) p' e : thread_step o -> step cv p o = (p', e) ->
  leads cv p' (fun q tr => G q (e ++ tr)) -> leads cv p G.
Proof.
  intros T S (l & F & H). exists (o :: l). split; [now constructor|]. cbn. rewrite S.
  destruct (run cv p' l) as [q tr]. exact H.
Qed.
Lemma leads_now cv p (G : prog -> list ev -> Prop) : G p [] -> leads cv p G.
Proof. intro H. exists []. split; auto. Qed.
Lemma leads_weaken cv p (G G' : prog -> list ev -> Prop) :
  (forall q tr, G q tr -> G' q tr) -> leads cv p G -> leads cv p G'.
Proof. intros W (l & F & H). exists l. split; auto. Qed.

Ltac thread_r n := eapply leads_step with (o := Reader _ (Fine n)); [exact Logic.I | rewrite step_r; unfold reader_step; cbn [c_reader c_alive c_writer c_net c_closed] | ].
Ltac thread_w n := eapply leads_step with (o := Writer _ (Fine n)); [exact Logic.I | rewrite step_w; unfold writer_step; cbn [c_reader c_alive c_writer c_net c_closed] | ].

(** The other thread ends once [self.alive] is false. *)
Lemma leads_join cv s old c : c_writer c = WJoin -> c_alive c = false ->
  leads cv (mkProg s (old ++ [c]) true) (fun _ tr => In (EEnd (List.length old)) tr).
Proof.
  destruct c as [al r w net cl]. cbn. intros -> ->.
  assert (A : forall s, leads cv (mkProg s (old ++ [mkConn false RGone WJoin net cl]) true) (fun _ tr => In (EEnd (List.length old)) tr)).
  { intro s0. thread_w 0%nat; [reflexivity|]. apply leads_now. cbn. auto. }
  assert (B : forall s, leads cv (mkProg s (old ++ [mkConn false RTop WJoin net cl]) true) (fun _ tr => In (EEnd (List.length old)) tr)).
  { intro s0. thread_r 0%nat; [reflexivity|]. apply A. }
  destruct r; auto.
  - thread_r 0%nat; [reflexivity|]. apply B.
  - thread_r 0%nat; [reflexivity|]. eapply leads_weaken; [|apply B]. intros q tr H. now right.
Qed.
(** A connection closed by the peer ends. *)
Lemma leads_end cv old : forall n c s, (List.length (c_net c) <= n)%nat -> c_closed c = true ->
  (c_writer c = WJoin -> c_alive c = false) -> c_writer c <> WGone ->
  leads cv (mkProg s (old ++ [c]) true) (fun _ tr => In (EEnd (List.length old)) tr).
Proof.
  set (G := fun (_ : prog) tr => In (EEnd (List.length old)) tr).
  assert (W : forall p e, leads cv p G -> leads cv p (fun q tr => G q (e ++ tr))).
  { intros p e. apply leads_weaken. intros q tr H. unfold G. apply in_app_iff. now right. }
  assert (top : forall m, (forall al r net s, (List.length net <= m)%nat -> leads cv (mkProg s (old ++ [mkConn al r WRecv net true]) true) G) ->
     forall al r net s, (List.length net <= m)%nat -> leads cv (mkProg s (old ++ [mkConn al r WTop net true]) true) G).
  { intros m IH al r net s L. destruct al; (thread_w 0%nat; [reflexivity|apply W]).
    - now apply IH.
    - apply leads_join; reflexivity. }
  assert (recv : forall m al r net s, (List.length net <= m)%nat -> leads cv (mkProg s (old ++ [mkConn al r WRecv net true]) true) G).
  { induction m as [|m IH]; intros al r net s L.
    - destruct net; [|cbn in L; lia]. thread_w 0%nat; [reflexivity|]. apply W, leads_join; reflexivity.
    - destruct net as [|x net]; [apply IH; cbn; lia|].
      thread_w 1%nat; [reflexivity|]. apply W. thread_w 0%nat; [reflexivity|]. apply W.
      eapply top; [exact IH|]. cbn in L |- *. lia. }
  intros n [al r w net cl] s L C J N. cbn in *. subst cl. destruct w.
  - eapply top; eauto.
  - eapply recv; eauto.
  - thread_w 0%nat; [reflexivity|]. apply W. eapply top; eauto.
  - apply leads_join; auto.
  - congruence.
Qed.

(** The bytes at the serial port go out. *)
Lemma leads_sent cv old s c : c_alive c = true -> c_reader c <> RGone ->
  leads cv (mkProg s (old ++ [c]) true)
    (fun q _ => p_serial q = [] /\ exists c', p_conns q = old ++ [c'] /\ hold c' = []).
Proof.
  destruct c as [al r w net cl]. cbn. intros -> N.
  set (G := fun q (_ : list ev) => p_serial q = [] /\ exists c', p_conns q = old ++ [c'] /\ hold c' = []).
  assert (rd : leads cv (mkProg s (old ++ [mkConn true RRead w net cl]) true) G).
  { destruct s as [|x s].
    - apply leads_now. split; auto. eexists. split; [reflexivity|]. reflexivity.
    - thread_r (List.length (x :: s)).
      { cbn [List.length firstn]. reflexivity. }
      thread_r 0%nat; [reflexivity|]. apply leads_now. cbn. split; [apply skipn_all|].
      eexists. split; [reflexivity|]. reflexivity. }
  assert (tp : leads cv (mkProg s (old ++ [mkConn true RTop w net cl]) true) G).
  { thread_r 0%nat; [reflexivity|]. exact rd. }
  destruct r; try congruence; auto. thread_r 0%nat; [reflexivity|]. exact tp.
Qed.
(** The bytes of a connection go out to the serial port. *)
Lemma leads_written cv old : forall n c s, (List.length (c_net c) <= n)%nat ->
  (c_alive c = true \/ c_net c = []) -> (c_writer c = WJoin \/ c_writer c = WGone -> c_net c = []) ->
  leads cv (mkProg s (old ++ [c]) true)
    (fun q _ => exists c', p_conns q = old ++ [c'] /\ kept c' = [] /\ c_net c' = []).
Proof.
  set (G := fun q (_ : list ev) => exists c', p_conns q = old ++ [c'] /\ kept c' = [] /\ c_net c' = []).
  assert (Dn : forall al r w cl s, (match w with WWrite _ => False | _ => True end) ->
    leads cv (mkProg s (old ++ [mkConn al r w [] cl]) true) G).
  { intros. apply leads_now. eexists. split; [reflexivity|]. unfold kept. cbn. destruct w; try contradiction; auto. }
  assert (recv : forall m r net cl s, (List.length net <= m)%nat -> leads cv (mkProg s (old ++ [mkConn true r WRecv net cl]) true) G).
  { induction m as [|m IH]; intros r net cl s L.
    - destruct net; [|cbn in L; lia]. now apply Dn.
    - destruct net as [|x net]; [now apply Dn|].
      thread_w 1%nat; [reflexivity|]. thread_w 0%nat; [reflexivity|]. thread_w 0%nat; [reflexivity|].
      eapply IH. cbn in L |- *. lia. }
  assert (top : forall al r net cl s, (al = true \/ net = []) -> leads cv (mkProg s (old ++ [mkConn al r WTop net cl]) true) G).
  { intros al r net cl s [-> | ->]; [|now apply Dn]. thread_w 0%nat; [reflexivity|]. eapply recv; eauto. }
  intros n [al r w net cl] s L A E. cbn in *. destruct w.
  - now apply top.
  - destruct A as [-> | ->]; [eapply recv; eauto|now apply Dn].
  - thread_w 0%nat; [reflexivity|]. now apply top.
  - rewrite E by auto. now apply Dn.
  - rewrite E by auto. now apply Dn.
Qed.
