(** C98: a client behind a redirector that converts newlines. *)
From Coq Require Import String List ZArith Bool Lia Arith.
From Verif Require Import Py Common Sal Packet Text Buffered Client Server Spec Spec_client Spec_convert
  Common_facts Packet_total Client_steps Client_send Prop_client Redirect Spec_redirect Redirect_facts Prop_redirect.
Import ListNotations.
Open Scope Z_scope.

(** ** The client *)

Lemma find_no13 l : ~ In 13 l -> find END_RESPONSE l = None.
Proof.
  induction l as [|c l IH]; intros N; [reflexivity|]. cbn [find starts_with END_RESPONSE].
  replace (13 =? c) with false by (symmetry; apply Z.eqb_neq; intros <-; apply N; now left).
  cbn [andb]. change [13; 10] with END_RESPONSE. rewrite IH; [reflexivity|]. intros I. apply N. now right.
Qed.
Lemma decode_no13 l : ~ In 13 l ->
  exists p n, decode_packet l true true true = ([], Ok (p, n)) /\
    (p = None \/ p = Some PktPowerOn \/ p = Some PktError \/ exists c ok, p = Some (PktConfirm c ok)).
Proof.
  intros N. unfold decode_packet. destruct l as [|c0 l]; [exists None, 0%nat; auto|].
  destruct (c0 =? 43); [exists (Some PktPowerOn), 1%nat; auto|].
  destruct (c0 =? 33); [exists (Some PktError), 1%nat; auto|].
  destruct l as [|c1 l]; [exists None, 0%nat; auto|].
  destruct (mem c0 CONFIRMATION_CODES); [eexists _, 2%nat; split; [reflexivity|]; eauto 6|].
  rewrite find_no13 by exact N. exists None, 0%nat. auto.
Qed.
Lemma handle_no13 now c l c' ev r : ~ In 13 l -> handle_data now c l = (c', ev, r) ->
  Forall about_own ev /\ c' = c /\ exists n, r = Ok (Z.of_nat n).
Proof.
  intros N E. unfold handle_data in E. destruct (decode_no13 l N) as (p & n & D & P). rewrite D in E.
  destruct P as [->|[->|[->|(cd & ok & ->)]]]; cbn in E; injection E as <- <- <-;
    (split; [repeat constructor|split; eauto]).
Qed.
Lemma process_no13 now f : forall c l c' buf ev r, ~ In 13 l ->
  process_fuel (handle_data now) f c l = (c', buf, ev, r) -> Forall about_own ev /\ ~ In 13 buf.
Proof.
  induction f as [|f IH]; intros c l c' buf ev r N E; (destruct l as [|x l]; [cbn in E; injection E as <- <- <- <-; auto|]).
  - cbn in E. injection E as <- <- <- <-. auto.
  - cbn [process_fuel] in E. destruct (handle_data now c (x :: l)) as [[c1 e1] r1] eqn:H.
    destruct (handle_no13 _ _ _ _ _ _ N H) as (A & -> & n & ->).
    replace (Z.of_nat n <? 0) with false in E by lia.
    destruct (0 <? Z.of_nat n).
    + destruct (process_fuel (handle_data now) f c (skipn (Z.to_nat (Z.of_nat n)) (x :: l))) as [[[c2 b2] e2] o2] eqn:P.
      injection E as <- <- <- <-. apply IH in P.
      * destruct P as [P1 P2]. split; [apply Forall_app; auto|exact P2].
      * intros I. apply N. rewrite <- (firstn_skipn (Z.to_nat (Z.of_nat n)) (x :: l)). apply in_or_app. auto.
    + injection E as <- <- <- <-. auto.
Qed.
Lemma data_no13 now c buf d c' buf' ev r : ~ In 13 buf -> ~ In 13 d ->
  data_received (handle_data now) MAX_BUFFER_SIZE c buf d = (c', buf', ev, r) -> Forall about_own ev /\ ~ In 13 buf'.
Proof.
  intros N M E. unfold data_received in E.
  destruct (Nat.ltb _ (length d)); [injection E as <- <- <- <-; auto|].
  destruct (Nat.ltb _ _); [injection E as <- <- <- <-; auto|].
  apply process_no13 in E; [exact E|]. intros I. apply in_app_or in I. tauto.
Qed.

(** If no CR ever reaches a client, nothing that arrives makes it report a
    light or the clock, answer, or publish: only confirmations and complaints
    about its own commands are reported. *)
Theorem C98_deaf : forall now l c st log,
  ~ In 13 (received l) -> client_run now (c, []) l = (st, log) -> deaf l log.
Proof.
  assert (K : forall now l c buf st log, ~ In 13 buf -> ~ In 13 (received l) ->
            client_run now (c, buf) l = (st, log) -> deaf l log).
  { intros now. induction l as [|o l IH]; intros c buf st log N M E; cbn [client_run] in E.
    - injection E as <- <-. intros [|i] b ev r H; discriminate.
    - destruct (client_step now (c, buf) o) as [[[c1 b1] ev] r] eqn:S.
      destruct (client_run now (c1, b1) l) as [st2 log2] eqn:T. injection E as <- <-.
      assert (M2 : ~ In 13 (received l)) by (intros I; apply M; apply in_or_app; auto).
      assert (Q : ~ In 13 b1 /\ forall b, o = OpData b -> Forall about_own ev).
      { destruct o as [| |b| | | | | | | |]; cbn [client_step] in S;
          try (match type of S with context [api now ?o ?c] => destruct (api now o c) as [[c2 e2] r2] end;
               injection S as <- <- <- <-; split; [exact N|intros b; discriminate]).
        cbn [fst snd] in S. destruct (data_received (handle_data now) MAX_BUFFER_SIZE c buf b) as [[[c2 b2] e2] r2] eqn:D.
        apply data_no13 in D; [|exact N|intros I; apply M; apply in_or_app; auto]. destruct D as [D1 D2].
        destruct r2 as [[]|e]; injection S as <- <- <- <-; (split; [exact D2|intros b' _; exact D1]). }
      destruct Q as [Q1 Q2]. intros [|i] b ev' r' Hi Hl; cbn in Hi, Hl.
      + injection Hi as ->. injection Hl as <- <-. now apply (Q2 b).
      + exact (IH _ _ _ _ Q1 M2 T i b ev' r' Hi Hl). }
  intros now l c st log M E. eapply K; [|exact M|exact E]. intros [].
Qed.

(** After the first byte of a telegram there are not even confirmations: all
    that follows is kept, until a piece does not fit; then everything kept is
    thrown away. *)
Theorem C98_stuck : forall now c x buf d,
  ~ In x CONFIRMATION_CODES -> x <> 43 -> x <> 33 -> ~ In 13 (x :: buf) -> ~ In 13 d ->
  client_step now (c, x :: buf) (OpData d) =
    if (Nat.leb (S (length buf) + length d) MAX_BUFFER_SIZE) then ((c, x :: buf ++ d), [], Ok None)
    else if (Nat.leb (length d) MAX_BUFFER_SIZE) then ((c, []), [], Raise ValueError)
    else ((c, x :: buf), [], Raise ValueError).
Proof.
  intros now c x buf d X P E N M. cbn [client_step fst snd]. unfold data_received.
  rewrite !Nat.ltb_antisym. change (length (x :: buf) + length d)%nat with (S (length buf) + length d)%nat.
  destruct (Nat.leb (length d) MAX_BUFFER_SIZE) eqn:L1; cbn [negb].
  2:{ apply Nat.leb_gt in L1. replace (Nat.leb (S (length buf) + length d) MAX_BUFFER_SIZE) with false by (symmetry; apply Nat.leb_gt; lia). reflexivity. }
  destruct (Nat.leb (S (length buf) + length d) MAX_BUFFER_SIZE); cbn [negb]; [|reflexivity].
  unfold process_buffer. change ((x :: buf) ++ d) with (x :: (buf ++ d)). cbn [length process_fuel].
  assert (H : handle_data now c (x :: buf ++ d) = (c, [], Ok 0)).
  { assert (N2 : ~ In 13 (x :: buf ++ d)).
    { intros [I|I]; [apply N; now left|]. apply in_app_or in I. destruct I; [apply N; now right|tauto]. }
    unfold handle_data, decode_packet. replace (x =? 43) with false by lia. replace (x =? 33) with false by lia.
    destruct (buf ++ d) as [|y t]; [reflexivity|].
    destruct (mem x CONFIRMATION_CODES) eqn:Y; [exfalso; apply X; unfold mem in Y; apply existsb_exists in Y as (z & Z1 & Z2); apply Z.eqb_eq in Z2; congruence|].
    rewrite find_no13 by exact N2. reflexivity. }
  rewrite H. reflexivity.
Qed.

(** ** The redirector *)

Lemma converted_lines s o : converted [13; 10] [10] s o -> whole_lines s -> ~ In 13 o.
Proof.
  induction 1 as [|s o C IH|c s o U C IH]; intros W.
  - intros [].
  - inversion W as [|c s' Hc Hs|s' Hs]; subst; [congruence|]. intros [I|I]; [discriminate|]. now apply IH.
  - inversion W as [|c' s' Hc Hs|s' Hs]; subst.
    + intros [I|I]; [congruence|]. now apply IH.
    + exfalso. eapply U. reflexivity.
Qed.
(** With the newlines of [--convert] (CR LF on the serial port, LF on the
    network): unless the port is read between the two bytes of a newline, no
    client, whatever else happens to it, hears what the PCI reports. *)
Theorem C98_behind_redirector : forall l p tr,
  faultless l -> run (Some ([13; 10], [10])) listening l = (p, tr) ->
  exists pieces rest, from_serial tr = concat pieces ++ rest /\
    (~ cut 13 10 pieces -> whole_lines (concat pieces) ->
     forall now c calls more st log,
       sent tr = received calls ++ more -> client_run now (c, []) calls = (st, log) -> deaf calls log).
Proof.
  intros l p tr F R. destruct (C88_two_bytes 13 10 [10] l p tr F R) as (pieces & rest & E & C).
  exists pieces, rest. split; [exact E|]. intros U W now c calls more st log S T.
  apply (C98_deaf now calls c st log); [|exact T]. intros I.
  apply (converted_lines _ _ (C U) W). rewrite S. apply in_or_app. now left.
Qed.

(** Its commands contain no LF, whatever is called and whatever arrives… *)
Theorem C98_commands : forall now l st st' log,
  client_run now st l = (st', log) -> Forall (Forall command_byte) (writes (effects log)).
Proof.
  set (R := fun (_ : client) (ev : list cev) (_ : client) => Forall (Forall command_byte) (writes ev)).
  assert (cr : Forall command_byte [13]) by (apply Forall_cons; [repeat right; reflexivity|apply Forall_nil]).
  assert (S : forall p b, sendable p -> keeps R (send p true b)).
  { intros p b P c c' ev r E. unfold send in E.
    destruct (cl_transport c) eqn:T; cbn [negb] in E; [|injection E as <- <- <-; constructor].
    destruct P as [->|P].
    - cbn in E. rewrite orb_true_r in E. cbn in E. injection E as <- <- <-. apply Forall_cons; [|apply Forall_nil]. apply Forall_cons; [right; right; now left|]. exact cr.
    - destruct (negb (is_base_packet p)); [injection E as <- <- <-; constructor|].
      destruct (encode_packet p) as [w|e] eqn:W; [|injection E as <- <- <-; constructor].
      assert (H : Forall command_byte (if (b || is_special_client p)%bool return bytes then w else 92 :: w)).
      { pose proof (encode_hex p w P W) as H.
        assert (H' : Forall command_byte w) by (eapply Forall_impl; [|exact H]; intros a Ha; now left).
        destruct (b || is_special_client p); [exact H'|]. constructor; [right; now left|exact H']. }
      revert E H. generalize (if (b || is_special_client p)%bool return bytes then w else 92 :: w). intros y E H.
      cbn [andb] in E. destruct (negb (is_special_client p)).
      + unfold mbind, get_confirmation_code in E.
        destruct (nth_error CONFIRMATION_CODES (cl_index c)) as [k|] eqn:K; [|injection E as <- <- <-; constructor].
        cbn in E. injection E as <- <- <-. apply Forall_cons; [|apply Forall_nil]. apply Forall_app. split; [exact H|].
        apply nth_error_In in K. apply Forall_cons; [|exact cr].
        right. right. right. left. cbn in K. lia.
      + cbn in E. injection E as <- <- <-. apply Forall_cons; [|apply Forall_nil]. apply Forall_app. split; [exact H|].
        exact cr. }
  intros now l st st' log E. refine (keeps_any_run R _ _ _ _ S _ _ _ _ now l st st' log E); unfold R.
  - intros; apply Forall_nil.
  - intros _ e1 _ e2 _ A B. unfold writes. rewrite flat_map_app. apply Forall_app. auto.
  - intros; apply Forall_nil.
  - intros c [] W _ _; try discriminate; constructor.
  - intros; apply Forall_nil.
  - intros; apply Forall_nil.
  - intros; apply Forall_nil.
  - intros; apply Forall_nil.
Qed.
Lemma unconverted s o : converted [10] [13; 10] s o -> ~ In 10 s -> o = s.
Proof.
  induction 1 as [|s o C IH|c s o U C IH]; intros N; [reflexivity| |].
  - exfalso. apply N. now left.
  - rewrite IH; [reflexivity|]. intros I. apply N. now right.
Qed.
(** … so they pass the redirector unchanged: it is only the replies that are
    lost. *)
Theorem C98_orders_pass : forall l p tr,
  faultless l -> run (Some ([13; 10], [10])) listening l = (p, tr) ->
  (forall i, ~ In 10 (arrived i tr)) ->
  exists parts,
    List.length parts = accepted tr /\ written tr = concat parts /\
    forall i b, nth_error parts i = Some b ->
      exists rest, arrived i tr = b ++ rest /\ (In (EEnd i) tr -> rest = []).
Proof.
  intros l p tr F R N. destruct (C88_to_serial [13; 10] [10] l p tr ltac:(discriminate) F R) as (parts & A & B & C).
  exists parts. split; [exact A|]. split; [exact B|]. intros i b H. destruct (C i b H) as (ps & os & rest & E & Q & -> & G).
  exists rest. split; [|exact G]. rewrite E. f_equal. symmetry.
  apply unconverted; [now apply converted_all_one|]. intros I. apply (N i). rewrite E. apply in_or_app. now left.
Qed.

(** A light that is switched on at the wall: the PCI says so, and a client
    behind the redirector reports it without [--convert] but not with it. *)
Definition at_the_wall : bytes := txt "050538007905" ++ txt "40" ++ [13; 10].
Theorem C98_reported_refuted :
  exists l tr1 tr2 p1 p2,
    run None listening l = (p1, tr1) /\ run (Some ([13; 10], [10])) listening l = (p2, tr2) /\
    from_serial tr1 = at_the_wall /\ from_serial tr2 = at_the_wall /\
    let c := new_client ClassPCI 0 true Pending in
    (exists st, client_run noon (c, []) [OpData (sent tr1)] = (st, [([COn (Some 5) 5], Ok None)])) /\
    (exists st, client_run noon (c, []) [OpData (sent tr2)] = (st, [([], Ok None)])).
Proof.
  exists [Accept; SerialIn at_the_wall; Reader 0 (Fine 0); Reader 0 (Fine 300); Reader 0 (Fine 0)].
  do 4 eexists. split; [vm_compute; reflexivity|]. split; [vm_compute; reflexivity|].
  split; [vm_compute; reflexivity|]. split; [vm_compute; reflexivity|].
  split; eexists; vm_compute; reflexivity.
Qed.

(** Two lines and a beginning of one are whole lines; a confirmation is still
    reported, and after it nothing. *)
Example C98_case :
  whole_lines (txt "h." ++ at_the_wall ++ txt "05") /\
  let c := new_client ClassPCI 0 true Pending in
  exists st, client_run noon (c, []) [OpData (txt "h.0505380079"); OpData (txt "0540" ++ [10]); OpData (txt "i.")]
    = (st, [([CConfirmation [104] true], Ok None); ([], Ok None); ([], Ok None)]).
Proof.
  split; [repeat (apply lines_newline || (apply lines_byte; [discriminate|])); apply lines_end|].
  eexists. vm_compute. reflexivity.
Qed.

Print Assumptions C98_deaf.
Print Assumptions C98_stuck.
Print Assumptions C98_behind_redirector.
Print Assumptions C98_commands.
Print Assumptions C98_orders_pass.
Print Assumptions C98_reported_refuted.
