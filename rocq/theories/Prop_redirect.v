(** C86-C89: what the redirector does with the bytes between its clients and the
    serial port. *)
From Coq Require Import List ZArith Bool Lia Arith.
From Verif Require Import Py Common Sal Packet Buffered Client Server Spec_client Spec_server Spec_system Prop_client Prop_server Prop_system Prop_announce Loop Spec_loop Prop_loop Redirect Spec_redirect Redirect_facts RedirectLink RedirectLink_facts.
Import ListNotations.
Open Scope Z_scope.

(** ** C86: without newline conversion bytes are copied unchanged *)

Lemma parts_all f cs : Forall (part true f) cs -> map snd cs = map f (map fst cs).
Proof. induction 1 as [|x l [E|[E _]] _ IH]; cbn; [reflexivity|congruence|discriminate]. Qed.
Lemma parts_id cs : Forall (part true (to_net None)) cs -> total cs = source cs.
Proof. intro F. unfold total, source. rewrite (parts_all _ _ F). now rewrite map_id. Qed.
Lemma parts_left cs : Forall (part false (to_net None)) cs -> left_of (total cs) (source cs).
Proof.
  induction 1 as [|[d s] l P _ IH]; [constructor|].
  unfold total, source. cbn. apply left_app; auto. destruct P as [E|[_ (k & E)]]; cbn in E; subst; [apply left_refl|apply left_firstn].
Qed.

(** If no call ends with an exception, the clients got, one after the other,
    exactly the first bytes that came from the serial port. *)
Theorem C86_to_clients : forall l p tr,
  faultless l -> run None listening l = (p, tr) ->
  exists rest, from_serial tr = sent tr ++ rest.
Proof.
  intros l p tr F R. destruct (inv_of _ true _ _ _ (faultless_allowed _ F) R) as (cs & ws & I).
  rewrite (i_in _ _ _ _ _ _ I), (i_sent _ _ _ _ _ _ I), parts_id by apply I. eauto.
Qed.
(** Nothing waits for ever: while the peer of a connection has not closed it,
    the threads can bring out the rest. *)
Theorem C86_all_to_clients : forall l p tr i,
  faultless l -> run None listening l = (p, tr) -> In (EStart i) tr -> ~ In (NetClose i) l ->
  exists l', Forall thread_step l' /\
    let tr' := snd (run None p l') in sent (tr ++ tr') = from_serial tr /\ from_serial tr' = [].
Proof.
  intros l p tr i F R Si NC.
  destruct (inv_of _ true _ _ _ (faultless_allowed _ F) R) as (cs & ws & I).
  pose proof (ord_of _ _ _ _ R) as O.
  destruct (i_done _ _ _ _ _ _ I eq_refl) as [U Fin].
  apply (o_start _ _ O) in Si. destruct (nth_error (p_conns p) i) as [c|] eqn:H; [|apply nth_error_None in H; lia].
  assert (C : c_closed c = false) by (destruct (c_closed c) eqn:Q; auto; exfalso; apply NC; eapply closed_by; eauto).
  pose proof (Forall_nth _ _ _ _ Fin H) as [F1 F2].
  assert (A : c_alive c = true). { destruct (c_alive c) eqn:Q; auto. destruct (F2 (F1 eq_refl)). congruence. }
  destruct (tidy_at _ _ _ (o_tidy _ _ O U) H) as [[_ G]|(old & E & -> & G & W)]; [exfalso; destruct (F2 (or_intror G)); congruence|].
  assert (RG : c_reader c <> RGone). { intro Q. pose proof (reader_stays _ _ _ _ F R _ _ H Q). congruence. }
  destruct (leads_sent None old (p_serial p) c A RG) as (l' & T & S0 & c' & Ec & Hc).
  replace (mkProg (p_serial p) (old ++ [c]) true) with p in * by (destruct p; cbn in *; subst; reflexivity).
  exists l'. split; auto. cbn zeta.
  assert (F' : faultless l').
  { intros j n. rewrite Forall_forall in T. split; intro X; apply T in X; exact X. }
  assert (N : from_serial (snd (run None p l')) = []).
  { clear - T. revert p. induction l' as [|o l' IH]; intro p; [reflexivity|]. inversion T; subst. cbn [run].
    destruct (step None p o) as [p1 e1] eqn:S. specialize (IH H2 p1). destruct (run None p1 l') as [p2 e2]. cbn [snd] in *.
    rewrite fs_app, IH, app_nil_r. unfold step in S. destruct (p_up p); cbn [negb] in S; [|now injection S as <- <-].
    destruct o as [| | | |i [n|n]|i [n|n]]; try contradiction;
      (destruct (nth_error (p_conns p) i) as [c|]; [|now injection S as <- <-]).
    - destruct (reader_step None c (p_serial p) (Fine n)) as [[c' s] [b|]]; now injection S as <- <-.
    - destruct (writer_step None c (Fine n)) as [c' [| | |]]; now injection S as <- <-. }
  split; auto.
  destruct (run None p l') as [q tr'] eqn:R'. cbn [fst snd] in *.
  destruct (inv_run None true l' p q tr tr' cs ws I (faultless_allowed _ F') R') as (cs' & ws' & I').
  pose proof (i_in _ _ _ _ _ _ I') as Hin. rewrite fs_app, N, app_nil_r in Hin.
  rewrite Hin, (i_sent _ _ _ _ _ _ I'), parts_id by apply I'.
  rewrite S0, Ec, held_last, Hc by auto. now rewrite !app_nil_r.
Qed.
(** Whatever fails, the clients got bytes of the serial port in their order,
    none twice and none that was not there. *)
Theorem C86_any : forall l p tr,
  run None listening l = (p, tr) -> left_of (sent tr) (from_serial tr).
Proof.
  intros l p tr R. destruct (inv_of _ false _ _ _ (any_allowed _) R) as (cs & ws & I).
  rewrite (i_in _ _ _ _ _ _ I), (i_sent _ _ _ _ _ _ I). rewrite <- (app_nil_r (total cs)).
  apply left_app; [apply parts_left, I|apply left_nil_all].
Qed.
(** The serial port got the bytes of the connections, one connection after the
    other: of each the first ones if no call failed, all if it was closed;
    otherwise some, in their order. *)
Theorem C86_to_serial : forall l p tr,
  run None listening l = (p, tr) ->
  exists parts,
    List.length parts = accepted tr /\ written tr = concat parts /\
    forall i b, nth_error parts i = Some b ->
      left_of b (arrived i tr) /\
      (faultless l -> exists rest, arrived i tr = b ++ rest) /\
      (faultless l -> In (EEnd i) tr -> arrived i tr = b).
Proof.
  intros l p tr R. pose proof (ord_of _ _ _ _ R) as O.
  assert (side : forall w, Forall (part false (to_serial None)) w -> left_of (total w) (source w)) by exact parts_left.
  destruct (inv_of _ false _ _ _ (any_allowed _) R) as (cs & ws & I).
  destruct (Forall_dec (allowed true)) with (l := l) as [F|F].
  { intro o. unfold allowed. destruct o as [| | | |i [n|n]|i [n|n]]; auto; right; intro X; now apply X. }
  - (* no fault *)
    destruct (inv_of _ true _ _ _ F R) as (cs1 & ws1 & I1).
    exists (map total ws1). repeat split.
    + now rewrite map_length, (i_len _ _ _ _ _ _ I1), (i_acc _ _ _ _ _ _ I1).
    + apply I1.
    + rewrite nth_error_map in H. destruct (nth_error ws1 i) as [w|] eqn:Hw; cbn in H; [|discriminate]. injection H as <-.
      destruct (nth_error (p_conns p) i) as [c|] eqn:Hc.
      2: { apply nth_error_None in Hc. rewrite <- (i_len _ _ _ _ _ _ I1) in Hc. apply nth_error_None in Hc. congruence. }
      rewrite (i_net _ _ _ _ _ _ I1 _ _ _ Hc Hw), (parts_id w) by (eapply Forall_nth; [apply I1|eauto]).
      rewrite <- (app_nil_r (source w)) at 1. apply left_app; [apply left_refl|apply left_nil_all].
    + intros _. rewrite nth_error_map in H. destruct (nth_error ws1 i) as [w|] eqn:Hw; cbn in H; [|discriminate]. injection H as <-.
      destruct (nth_error (p_conns p) i) as [c|] eqn:Hc.
      2: { apply nth_error_None in Hc. rewrite <- (i_len _ _ _ _ _ _ I1) in Hc. apply nth_error_None in Hc. congruence. }
      rewrite (i_net _ _ _ _ _ _ I1 _ _ _ Hc Hw), (parts_id w) by (eapply Forall_nth; [apply I1|eauto]). eauto.
    + intros _ E. rewrite nth_error_map in H. destruct (nth_error ws1 i) as [w|] eqn:Hw; cbn in H; [|discriminate]. injection H as <-.
      destruct (o_end _ _ O _ E) as (c & Hc & G1 & G2).
      rewrite (i_net _ _ _ _ _ _ I1 _ _ _ Hc Hw), (parts_id w) by (eapply Forall_nth; [apply I1|eauto]).
      destruct (i_done _ _ _ _ _ _ I1 eq_refl) as [_ Fin]. pose proof (Forall_nth _ _ _ _ Fin Hc) as [_ F2].
      destruct (F2 (or_intror G2)) as [_ ->]. unfold kept. rewrite G2. cbn. now rewrite app_nil_r.
  - exists (map total ws). repeat split.
    + now rewrite map_length, (i_len _ _ _ _ _ _ I), (i_acc _ _ _ _ _ _ I).
    + apply I.
    + rewrite nth_error_map in H. destruct (nth_error ws i) as [w|] eqn:Hw; cbn in H; [|discriminate]. injection H as <-.
      destruct (nth_error (p_conns p) i) as [c|] eqn:Hc.
      2: { apply nth_error_None in Hc. rewrite <- (i_len _ _ _ _ _ _ I) in Hc. apply nth_error_None in Hc. congruence. }
      rewrite (i_net _ _ _ _ _ _ I _ _ _ Hc Hw).
      rewrite <- (app_nil_r (total w)). apply left_app; [apply side; eapply Forall_nth; [apply I|eauto]|apply left_nil_all].
    + intro X. exfalso. apply F, faultless_allowed, X.
    + intro X. exfalso. apply F, faultless_allowed, X.
Qed.

(** One exception while the serial port is read ends the copying to the client,
    although the connection stays open and its bytes still go to the serial
    port: nothing is ever sent on it again. *)
Definition half : list op := [Accept; Reader 0 (Fine 0); Reader 0 (Fault 0); Writer 0 (Fine 0)].
Theorem C86_half_open_refuted :
  exists p tr, run None listening half = (p, tr) /\ open tr 0 /\ p_up p = true /\
    (forall l b, ~ In (ESend 0 b) (snd (run None p l))) /\
    exists l, In (EWrite [65]) (snd (run None p l)).
Proof.
  eexists. eexists. split; [vm_compute; reflexivity|]. split; [split; cbn; intuition discriminate|]. split; [reflexivity|]. split.
  - assert (K : forall l p, (exists c, nth_error (p_conns p) 0 = Some c /\ c_reader c = RGone) ->
      forall b, ~ In (ESend 0 b) (snd (run None p l))).
    { induction l as [|o l IH]; intros p (c & Hc & Rc) b; [intros []|]. cbn.
      destruct (step None p o) as [p1 e1] eqn:S.
      assert (X : (exists c', nth_error (p_conns p1) 0 = Some c' /\ c_reader c' = RGone) /\ ~ In (ESend 0 b) e1).
      { unfold step in S. destruct (p_up p); cbn [negb] in S; [|injection S as <- <-; split; eauto].
        assert (set : forall i d d', nth_error (p_conns p) i = Some d -> (c_reader d = RGone -> c_reader d' = RGone) ->
          exists c', nth_error (set_nth i d' (p_conns p)) 0 = Some c' /\ c_reader c' = RGone).
        { intros i d d' Hd Rd. destruct i as [|i].
          - exists d'. split; [eapply nth_set_same; eauto|]. apply Rd. congruence.
          - exists c. split; [rewrite nth_set_other; auto|auto]. }
        destruct o as [b0|i b0|i| |i h|i h].
        - injection S as <- <-. split; [eauto|]. intros [X|[]]; discriminate.
        - destruct (nth_error (p_conns p) i) as [d|] eqn:Hd; [|injection S as <- <-; split; eauto].
          destruct (c_closed d); injection S as <- <-; split; eauto. intros [X|[]]; discriminate.
        - destruct (nth_error (p_conns p) i) as [d|] eqn:Hd; injection S as <- <-; split; eauto.
        - destruct (forallb back (p_conns p)); injection S as <- <-; split; eauto.
          + cbn [p_conns]. exists c. split; auto. rewrite nth_error_app1; auto. apply nth_error_Some. congruence.
          + intros [X|[]]; discriminate.
        - destruct (nth_error (p_conns p) i) as [d|] eqn:Hd; [|injection S as <- <-; split; eauto].
          destruct i as [|i].
          + assert (d = c) as -> by congruence. unfold reader_step in S. rewrite Rc in S. injection S as <- <-. split; [exact (set 0%nat c c Hc (fun H => H))|intros []].
          + destruct (reader_step None d (p_serial p) h) as [[d' s] x]. injection S as <- <-. split.
            * exists c. cbn [p_conns]. split; auto. destruct (p_conns p); [discriminate|exact Hc].
            * destruct x; [intros [X|[]]; discriminate|intros []].
        - destruct (nth_error (p_conns p) i) as [d|] eqn:Hd; [|injection S as <- <-; split; eauto].
          pose proof (writer_keeps None d h) as (Wk & _). destruct (writer_step None d h) as [d' a]. cbn in Wk.
          destruct a; injection S as <- <-; (split; [eapply set; eauto; congruence|]); cbn; intuition discriminate. }
      destruct X as [X1 X2]. specialize (IH _ X1 b). destruct (run None p1 l) as [p2 e2]. cbn in *.
      rewrite in_app_iff. tauto. }
    intros l b. apply K. eexists. split; reflexivity.
  - exists [NetIn 0 [65]; Writer 0 (Fine 5); Writer 0 (Fine 0)]. vm_compute. auto.
Qed.

(** A client also gets what the PCI sent while nobody was connected. *)
Theorem C86_only_while_connected_refuted :
  exists l p a z b, run None listening l = (p, a ++ ESend 0 b :: z) /\ b <> [] /\
    exists a1 a2, a = a1 ++ EStart 0 :: a2 /\ from_serial a1 = b /\ from_serial a2 = [].
Proof.
  exists [SerialIn [46]; Accept; Reader 0 (Fine 0); Reader 0 (Fine 9); Reader 0 (Fine 0)].
  eexists. exists [EIn [46]; EStart 0], [], [46]. split; [vm_compute; reflexivity|]. split; [discriminate|].
  exists [EIn [46]], []. auto.
Qed.

(** Two clients in turn; each gets what came while it was there. *)
Definition two_clients : list op :=
  [Accept; SerialIn [1; 2; 3]; Reader 0 (Fine 0); Reader 0 (Fine 2); Reader 0 (Fine 0);
   NetIn 0 [13; 10]; Writer 0 (Fine 0); Writer 0 (Fine 1); Writer 0 (Fine 0); NetClose 0;
   Writer 0 (Fine 0); Writer 0 (Fine 1); Writer 0 (Fine 0); Writer 0 (Fine 0); Writer 0 (Fine 0);
   Reader 0 (Fine 0); Writer 0 (Fine 0); Accept; Reader 1 (Fine 0); Reader 1 (Fine 7)].
Example C86_case : snd (run None listening two_clients) =
  [EStart 0; EIn [1; 2; 3]; ESend 0 [1; 2]; ENet 0 [13; 10]; EWrite [13]; EWrite [10]; EEnd 0; EStart 1]
  /\ faultless two_clients.
Proof. split; [vm_compute; reflexivity|]. intros i n. split; cbn; intuition discriminate. Qed.

(** ** C87: one connection at a time *)

(** A new connection is accepted only after the last one was closed; bytes are
    sent only on the open connection and written to the serial port only while
    there is one; nothing happens after the end of the program. *)
Theorem C87_one_at_a_time : forall cv l p tr,
  run cv listening l = (p, tr) -> forall a e z, tr = a ++ e :: z -> may_follow a e.
Proof. intros cv l p tr R. exact (o_ord _ _ (ord_of _ _ _ _ R)). Qed.
(** Once the peer closed the connection, the threads can always bring it to its
    end, whatever happened before. *)
Theorem C87_ends : forall cv l i p tr,
  run cv listening (l ++ [NetClose i]) = (p, tr) -> open tr i -> ~ In EExit tr ->
  exists l', Forall thread_step l' /\ In (EEnd i) (snd (run cv p l')).
Proof.
  intros cv l i p tr R [Si Ei] NX. pose proof (ord_of _ _ _ _ R) as O.
  assert (U : p_up p = true) by (destruct (p_up p) eqn:Q; auto; exfalso; apply NX, (o_exit _ _ O), Q).
  apply (o_start _ _ O) in Si. destruct (nth_error (p_conns p) i) as [c|] eqn:H; [|apply nth_error_None in H; lia].
  destruct (tidy_at _ _ _ (o_tidy _ _ O U) H) as [[_ G]|(old & E & -> & G & W)]; [exfalso; apply Ei; eapply (o_gone _ _ O U); eauto|].
  assert (C : c_closed c = true).
  { rewrite run_app in R. injection R as Rp _. cbn in Rp.
    destruct (run cv listening l) as [p0 tr0]. cbn in Rp. unfold step in Rp.
    destruct (p_up p0) eqn:U0; cbn [negb] in Rp; [|cbn in Rp; subst; congruence].
    destruct (nth_error (p_conns p0) (List.length old)) as [d|] eqn:D; cbn in Rp; subst p.
    - cbn in H. rewrite (nth_set_same _ _ _ _ D) in H. injection H as <-. reflexivity.
    - congruence. }
  destruct (leads_end cv old (List.length (c_net c)) c (p_serial p) (le_n _) C (o_join _ _ O _ _ H) W) as (l' & T & X).
  exists l'. split; auto. replace p with (mkProg (p_serial p) (old ++ [c]) true); auto.
  destruct p; cbn in *; subst; reflexivity.
Qed.
Example C87_case : exists p tr, run None listening ([Accept; NetIn 0 [65]; Reader 0 (Fine 0)] ++ [NetClose 0]) = (p, tr) /\
  open tr 0 /\ ~ In EExit tr.
Proof. eexists. eexists. split; [vm_compute; reflexivity|]. split; [split|]; cbn; intuition discriminate. Qed.

(** ** C88: newline conversion *)

Lemma converted_pieces a b cs : a <> [] -> Forall (part true (fun d => join_with b (split_on a [] 0 d))) cs ->
  Forall2 (converted a b) (map fst cs) (map snd cs).
Proof.
  intros N P. induction P as [|[d s] cs [E|[E _]] _ IH]; cbn; constructor; auto; [|discriminate].
  cbn in E. subst s. now apply converts.
Qed.
(** What the clients get is made of pieces of what came from the serial port,
    each converted on its own. *)
Theorem C88_pieces : forall ser net l p tr,
  ser <> [] -> faultless l -> run (Some (ser, net)) listening l = (p, tr) ->
  exists pieces outs rest,
    from_serial tr = concat pieces ++ rest /\ Forall2 (converted ser net) pieces outs /\ sent tr = concat outs.
Proof.
  intros ser net l p tr N F R. destruct (inv_of _ true _ _ _ (faultless_allowed _ F) R) as (cs & ws & I).
  exists (map fst cs), (map snd cs), (held (p_conns p) ++ p_serial p). repeat split; [apply I| |apply I].
  apply converted_pieces; [exact N|apply I].
Qed.
(** If the newline of the serial port is one byte (CR or LF), the pieces do not
    matter: the clients get what came from the serial port, converted. *)
Theorem C88_one_byte : forall x net l p tr,
  faultless l -> run (Some ([x], net)) listening l = (p, tr) ->
  exists s rest, from_serial tr = s ++ rest /\ converted [x] net s (sent tr).
Proof.
  intros x net l p tr F R. destruct (C88_pieces [x] net l p tr ltac:(discriminate) F R) as (ps & os & rest & E & C & S).
  exists (concat ps), rest. split; auto. rewrite S. now apply converted_all_one.
Qed.
(** If it is two bytes (CR LF), that holds if no piece ends between them. *)
Theorem C88_two_bytes : forall x y net l p tr,
  faultless l -> run (Some ([x; y], net)) listening l = (p, tr) ->
  exists pieces rest, from_serial tr = concat pieces ++ rest /\
    (~ cut x y pieces -> converted [x; y] net (concat pieces) (sent tr)).
Proof.
  intros x y net l p tr F R. destruct (C88_pieces [x; y] net l p tr ltac:(discriminate) F R) as (ps & os & rest & E & C & S).
  exists ps, rest. split; auto. intro U. rewrite S. now apply converted_all_two.
Qed.
(** Otherwise not: with the default newlines of [--convert] (CR LF on the serial
    port, LF on the network) the same bytes give two different results. *)
Theorem C88_depends_on_pieces_refuted :
  exists l1 l2 p1 p2 tr1 tr2,
    faultless l1 /\ faultless l2 /\
    run (Some ([13; 10], [10])) listening l1 = (p1, tr1) /\ run (Some ([13; 10], [10])) listening l2 = (p2, tr2) /\
    from_serial tr1 = from_serial tr2 /\ sent tr1 = [65; 10] /\ sent tr2 = [65; 13; 10].
Proof.
  exists [Accept; SerialIn [65; 13; 10]; Reader 0 (Fine 0); Reader 0 (Fine 3); Reader 0 (Fine 0)].
  exists [Accept; SerialIn [65; 13]; Reader 0 (Fine 0); Reader 0 (Fine 3); Reader 0 (Fine 0); SerialIn [10]; Reader 0 (Fine 0); Reader 0 (Fine 3); Reader 0 (Fine 0)].
  do 4 eexists. split; [intros i n; split; cbn; intuition discriminate|]. split; [intros i n; split; cbn; intuition discriminate|].
  split; [vm_compute; reflexivity|]. split; [vm_compute; reflexivity|]. repeat split; reflexivity.
Qed.
(** The same on the way to the serial port: each connection contributes pieces
    of what arrived on it, each converted on its own. *)
Theorem C88_to_serial : forall ser net l p tr,
  net <> [] -> faultless l -> run (Some (ser, net)) listening l = (p, tr) ->
  exists parts,
    List.length parts = accepted tr /\ written tr = concat parts /\
    forall i b, nth_error parts i = Some b ->
      exists pieces outs rest,
        arrived i tr = concat pieces ++ rest /\ Forall2 (converted net ser) pieces outs /\ b = concat outs /\
        (In (EEnd i) tr -> rest = []).
Proof.
  intros ser net l p tr N F R. pose proof (ord_of _ _ _ _ R) as O.
  destruct (inv_of _ true _ _ _ (faultless_allowed _ F) R) as (cs & ws & I).
  exists (map total ws). repeat split.
  - now rewrite map_length, (i_len _ _ _ _ _ _ I), (i_acc _ _ _ _ _ _ I).
  - apply I.
  - intros i b H. rewrite nth_error_map in H. destruct (nth_error ws i) as [w|] eqn:Hw; cbn in H; [|discriminate]. injection H as <-.
    destruct (nth_error (p_conns p) i) as [c|] eqn:Hc.
    2: { apply nth_error_None in Hc. rewrite <- (i_len _ _ _ _ _ _ I) in Hc. apply nth_error_None in Hc. congruence. }
    exists (map fst w), (map snd w), (kept c ++ c_net c). repeat split.
    + now apply I.
    + pose proof (Forall_nth _ _ _ _ (i_ws _ _ _ _ _ _ I) Hw) as P. clear -P N.
      exact (converted_pieces net ser w N P).
    + intro E. destruct (o_end _ _ O _ E) as (c2 & Hc2 & G1 & G2). assert (c2 = c) as -> by congruence.
      destruct (i_done _ _ _ _ _ _ I eq_refl) as [_ Fin]. pose proof (Forall_nth _ _ _ _ Fin Hc) as [_ F2].
      destruct (F2 (or_intror G2)) as [_ ->]. unfold kept. now rewrite G2.
Qed.
(** If the newline of the network is one byte, the pieces do not matter there
    either. *)
Theorem C88_to_serial_one_byte : forall x ser l p tr,
  faultless l -> run (Some (ser, [x])) listening l = (p, tr) ->
  exists parts,
    List.length parts = accepted tr /\ written tr = concat parts /\
    forall i b, nth_error parts i = Some b ->
      exists s rest, arrived i tr = s ++ rest /\ converted [x] ser s b /\ (In (EEnd i) tr -> rest = []).
Proof.
  intros x ser l p tr F R. destruct (C88_to_serial ser [x] l p tr ltac:(discriminate) F R) as (parts & A & B & C).
  exists parts. split; [exact A|]. split; [exact B|]. intros i b H. destruct (C i b H) as (ps & os & rest & E & Q & -> & G).
  exists (concat ps), rest. split; [exact E|]. split; [now apply converted_all_one|exact G].
Qed.
Example C88_case : sent (snd (run (Some ([13; 10], [10])) listening
  [Accept; SerialIn [65; 13; 10; 66]; Reader 0 (Fine 0); Reader 0 (Fine 4); Reader 0 (Fine 0)])) = [65; 10; 66]
  /\ converted [13; 10] [10] [65; 13; 10; 66] [65; 10; 66].
Proof. split; [reflexivity|]. apply (converts [13; 10] [10] ltac:(discriminate) [65; 13; 10; 66]). Qed.

(** ** C89: a client behind the redirector *)

(** What a client and a PCI at the two ends of the redirector can see of each
    other is exactly what they can see at the two ends of one connection. *)
Theorem C89_transparent : forall now rnd c tr,
  (exists l, snd (talk_through now rnd c l) = tr) <-> (exists l, snd (talk now rnd c l) = tr).
Proof.
  intros now rnd c tr. destruct (start_same now rnd c) as (k & c' & V & H1 & H2).
  assert (T : forall l, Forall (kind_h (fun _ => True) (fun _ => True) (fun _ => True)) l) by (intro l; apply Forall_forall; intros [| | | | |] _; exact Logic.I).
  assert (T' : forall l, Forall (kind_l (fun _ => True) (fun _ => True) (fun _ => True)) l) by (intro l; apply Forall_forall; intros [| | |] _; exact Logic.I).
  split; intros (l & <-).
  - destruct (forward now rnd (fun _ => True) (fun _ => True) (fun _ => True) (fun _ _ _ x => x) l k c' V (T l)) as (l' & _ & E). exists l'. now rewrite (H1 l), (H2 l'), E.
  - destruct (backward now rnd _ _ _ l k c' V (T' l)) as (l' & _ & E). exists l'. now rewrite (H1 l'), (H2 l), E.
Qed.
(** So what is known of a direct connection holds through the redirector: what
    the client asks for is received and acted upon in order, and nothing else
    (compare C73). *)
Definition lawful_through (o : hop) : Prop :=
  match o with HClient o => lawful (AtClient o) | HServer o => lawful (AtServer o) | HUp n => lawful (Up n) | _ => True end.
Theorem C89_commands : forall now rnd class frequency handle_clock future l k tr,
  clock_works now -> randint_works rnd -> Forall lawful_through l ->
  talk_through now rnd (new_client class frequency handle_clock future) l = (k, tr) ->
  exists received todo,
    asked now (new_client class frequency handle_clock future, []) (client_calls tr) (received ++ todo)
    /\ called (server_trace tr) = flat_map scallbacks_of received
    /\ (forall data ev r, In (SeenServer (SOpData data) ev r) tr -> r = Ok tt)
    /\ (Forall (fun o => forall code ok, o <> SOpConfirm code ok) (server_calls tr) ->
        filter is_confirmation (Spec_server.written (server_trace tr)) = map confirmation (flat_map due received)).
Proof.
  intros now rnd class frequency handle_clock future l k tr W R F E.
  set (c := new_client class frequency handle_clock future) in *.
  destruct (start_same now rnd c) as (k0 & c' & V & H1 & H2).
  assert (PU : forall n m, (m <= n)%nat -> lawful (Up n) -> lawful (Up m)) by (intros n m Hm Hn; cbn in *; lia).
  assert (K : Forall (kind_h (fun o => lawful (AtClient o)) (fun o => lawful (AtServer o)) (fun n => lawful (Up n))) l).
  { apply Forall_forall. rewrite Forall_forall in F. intros [o|o|n|n|n|n] Ho; try exact Logic.I; exact (F _ Ho). }
  destruct (forward now rnd _ _ (fun n => lawful (Up n)) PU l k0 c' V K) as (l' & L' & E').
  assert (L : Forall lawful l').
  { apply Forall_forall. rewrite Forall_forall in L'. intros [o|o|n|n] Ho; try exact Logic.I; exact (L' _ Ho). }
  assert (T : snd (talk now rnd c l') = tr).
  { rewrite (H2 l'), E'. rewrite <- (H1 l). now rewrite E. }
  destruct (talk now rnd c l') as [k' tr'] eqn:Q. cbn in T. subst tr'.
  destruct (C73_up _ _ _ _ _ _ _ _ _ W R L Q) as (received & todo & A1 & A2 & A3 & A4 & _).
  exists received, todo. auto.
Qed.
(** The client's handshake and two commands, through the redirector. *)
Example C89_case :
  let pass := [HWriter 0; HWriter 1024; HWriter 0; HUp 210] in
  let l := pass ++ [HClient (OpOn [1; 2])] ++ pass ++ [HServer (SOpOn 9 4); HReader 0; HReader 300; HReader 0; HDown 300] in
  let tr := snd (talk_through noon die (new_client ClassPCI 0 true Pending) l) in
  Forall lawful_through l /\ called (server_trace tr) = [SReset; SReset; SReset; SOn 1; SOn 2].
Proof. cbn zeta. split; [repeat constructor; cbn; auto; lia|]. vm_compute. reflexivity. Qed.

Print Assumptions C86_to_clients.
Print Assumptions C86_all_to_clients.
Print Assumptions C86_any.
Print Assumptions C86_to_serial.
Print Assumptions C86_half_open_refuted.
Print Assumptions C86_only_while_connected_refuted.
Print Assumptions C87_one_at_a_time.
Print Assumptions C87_ends.
Print Assumptions C88_pieces.
Print Assumptions C88_one_byte.
Print Assumptions C88_two_bytes.
Print Assumptions C88_depends_on_pieces_refuted.
Print Assumptions C88_to_serial.
Print Assumptions C88_to_serial_one_byte.
Print Assumptions C89_transparent.
Print Assumptions C89_commands.
