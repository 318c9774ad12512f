(** Lemmas on what the client does with received packets. *)
From Coq Require Import String.
From Coq Require Import List ZArith Bool Lia.
From Verif Require Import Py Common Sal Cal Packet Text Mqtt Buffered Client Base Spec Spec_client Common_facts
  Sal_facts Cal_facts Packet_facts Packet_roundtrip Packet_decode Packet_total Buffer_facts Client_facts
  Client_steps Client_send Client_calls.
Import ListNotations.
Open Scope Z_scope.

(** The messages published for one command. *)
Definition relayed (source : option Z) (s : sal) : list message :=
  match s with
  | LightRamp ga duration level => relay_ramp source ga duration level
  | LightOn ga => relay_on source ga
  | LightOff ga => relay_off source ga
  | _ => []
  end.
Definition attached (c : client) : bool :=
  match cl_class c with ClassHandler => cl_mqtt c | ClassPCI => false end.

Lemma publishes_filters l :
  callbacks (map CPublish l) = [] /\ writes (map CPublish l) = [] /\ published (map CPublish l) = l.
Proof.
  induction l as [|m l [A [B C]]]; [auto|]. cbn [map]. unfold callbacks, writes, published in *.
  cbn [filter is_callback flat_map app]. rewrite A, B, C. auto.
Qed.
Lemma memit_all_run l c : memit_all l c = (c, l, Ok tt).
Proof.
  induction l as [|e l IH]; [reflexivity|]. cbn [memit_all]. unfold mseq, mbind, memit. now rewrite IH.
Qed.
Lemma relay_run ms c : relay ms c = (c, if attached c then map CPublish ms else [], Ok tt).
Proof.
  unfold relay, attached. destruct (cl_class c); [reflexivity|]. destruct (cl_mqtt c); [|reflexivity].
  apply memit_all_run.
Qed.
Lemma callbacks_app a b : callbacks (a ++ b) = callbacks a ++ callbacks b.
Proof. unfold callbacks. induction a as [|x a IH]; [reflexivity|]. cbn [app filter]. rewrite IH. destruct (is_callback x); reflexivity. Qed.
Lemma writes_app a b : writes (a ++ b) = writes a ++ writes b.
Proof. apply flat_map_app. Qed.
Lemma published_app a b : published (a ++ b) = published a ++ published b.
Proof. apply flat_map_app. Qed.

(** The client after [n] answers. *)
Definition after (c : client) (n : nat) : client :=
  set_index (set_reads c (cl_reads c + n)) ((cl_index c + n) mod 20).
Lemma after_fields c n :
  cl_class (after c n) = cl_class c /\ cl_transport (after c n) = cl_transport c
  /\ cl_handle_clock (after c n) = cl_handle_clock c /\ attached (after c n) = attached c
  /\ cl_reads (after c n) = (cl_reads c + n)%nat /\ cl_index (after c n) = ((cl_index c + n) mod 20)%nat
  /\ counter_ok (after c n) /\ (forall l, answered (after c n) l = answered c l).
Proof.
  unfold after, counter_ok. repeat split. apply Nat.mod_upper_bound. discriminate.
Qed.
Lemma after_0 c : counter_ok c -> after c 0 = c.
Proof.
  intros I. unfold after. rewrite !Nat.add_0_r, Nat.mod_small by exact I. destruct c; reflexivity.
Qed.
Lemma after_after c a b : after (after c a) b = after c (a + b).
Proof.
  unfold after, set_index, set_reads. cbn [cl_class cl_transport cl_index cl_frequency cl_handle_clock
    cl_future cl_mqtt cl_reads cl_tasks]. rewrite Nat.add_mod_idemp_l by discriminate.
  now rewrite !Nat.add_assoc.
Qed.

(** One answer. *)
Lemma clock_answer now c : counter_ok c -> clock_works now -> cl_transport c = true ->
  exists w, clock_datetime now None c = (after c 1, [CWrite w], Ok (Some (code_at (cl_index c) 0)))
    /\ answers now c 1 [w].
Proof.
  intros I Hn T. destruct (clock_outcome now None c I) as [_ [_ H]]; [discriminate|exact Hn|].
  destruct H as [b [H1 [H2 H3]]].
  - destruct (Hn (cl_reads c)) as [y [m [d [h [mi [s [us [-> _]]]]]]]]. discriminate.
  - exact T.
  - exists b. split.
    + rewrite H1. unfold after. rewrite (Nat.add_1_r (cl_reads c)). reflexivity.
    + split; [reflexivity|]. intros i w E. destruct i as [|i]; [|now destruct i].
      cbn in E. inversion E; subst. rewrite Nat.add_0_r. auto.
Qed.

Lemma answers_app now c n l m k : answers now c n l -> answers now (after c n) m k ->
  answers now c (n + m) (l ++ k).
Proof.
  intros [L1 A1] [L2 A2]. split; [rewrite app_length; lia|].
  intros i w E. destruct (Nat.lt_ge_cases i n) as [H|H].
  - rewrite nth_error_app1 in E by lia. now apply A1.
  - rewrite nth_error_app2 in E by lia. rewrite L1 in E. specialize (A2 _ _ E).
    destruct (after_fields c n) as [_ [_ [_ [_ [R [X _]]]]]]. rewrite R, X in A2.
    assert (Q : code_at ((cl_index c + n) mod 20) (i - n) = code_at (cl_index c) i).
    { unfold code_at. rewrite Nat.add_mod_idemp_l by lia. do 2 f_equal. lia. }
    rewrite Q in A2. replace (cl_reads c + n + (i - n))%nat with (cl_reads c + i)%nat in A2 by lia.
    exact A2.
Qed.

Lemma answered_cons c s l : answered c (s :: l) = (answered c [s] + answered c l)%nat.
Proof.
  unfold answered, clock_requests. cbn [filter].
  destruct (cl_class c); [destruct (cl_handle_clock c); [|reflexivity]|]; destruct s; reflexivity.
Qed.

Lemma dispatch_one now c src s : counter_ok c -> clock_works now -> cl_transport c = true ->
  exists ev, dispatch_sal now src s c = (after c (answered c [s]), ev, Ok tt)
    /\ callbacks ev = callback_of src s /\ answers now c (answered c [s]) (writes ev)
    /\ published ev = (if attached c then relayed src s else []).
Proof.
  intros I Hn T.
  assert (A0 : answers now c 0 []).
  { split; [reflexivity|]. intros i w E. now destruct i. }
  assert (N0 : (match s with ClockRequest => False | _ => True end) -> answered c [s] = 0%nat).
  { unfold answered, clock_requests. destruct s; try contradiction; cbn [filter length];
      destruct (cl_class c); try destruct (cl_handle_clock c); reflexivity. }
  assert (PF : forall l, callbacks (if attached c then map CPublish l else []) = []
     /\ writes (if attached c then map CPublish l else []) = []
     /\ published (if attached c then map CPublish l else []) = (if attached c then l else [])).
  { intros l. destruct (attached c); [apply publishes_filters|auto]. }
  destruct s as [ga d lv|ga|ga|ga|v| |ga t|vr vl|lvl ga ch];
    try (rewrite N0 by exact Logic.I; rewrite (after_0 c I));
    cbn [dispatch_sal callback_of relayed].
  - unfold on_lighting_group_ramp, mseq, mbind, memit. rewrite relay_run. cbn [app].
    destruct (PF (relay_ramp src ga d lv)) as [P1 [P2 P3]].
    eexists. split; [reflexivity|]. unfold callbacks, writes, published in *.
    cbn [filter is_callback flat_map app]. rewrite P1, P2, P3. auto.
  - unfold on_lighting_group_on, mseq, mbind, memit. rewrite relay_run. cbn [app].
    destruct (PF (relay_on src ga)) as [P1 [P2 P3]].
    eexists. split; [reflexivity|]. unfold callbacks, writes, published in *.
    cbn [filter is_callback flat_map app]. rewrite P1, P2, P3. auto.
  - unfold on_lighting_group_off, mseq, mbind, memit. rewrite relay_run. cbn [app].
    destruct (PF (relay_off src ga)) as [P1 [P2 P3]].
    eexists. split; [reflexivity|]. unfold callbacks, writes, published in *.
    cbn [filter is_callback flat_map app]. rewrite P1, P2, P3. auto.
  - eexists. split; [reflexivity|]. destruct (attached c); auto.
  - eexists. split; [reflexivity|]. destruct (attached c); auto.
  - unfold on_clock_request, mseq, mbind, memit, answered.
    destruct (clock_answer now c I Hn T) as [w [E A]].
    assert (Y : exists ev, match match clock_datetime now None c with
        | (c1, ev1, Ok _) => match mret tt c1 with (c2, ev2, r) => (c2, ev1 ++ ev2, r) end
        | (c1, ev1, Raise e) => (c1, ev1, Raise e)
        end with (c2, ev2, r) => (c2, CClockRequest src :: ev2, r) end = (after c 1, ev, Ok tt)
      /\ callbacks ev = [CClockRequest src] /\ answers now c 1 (writes ev)
      /\ published ev = (if attached c then [] else [])).
    { rewrite E. eexists. split; [reflexivity|]. cbn. split; [reflexivity|]. split; [exact A|].
      now destruct (attached c). }
    destruct (cl_class c) eqn:K; [destruct (cl_handle_clock c)|].
    + exact Y.
    + unfold mret. cbn [app]. rewrite (after_0 c I). eexists. split; [reflexivity|]. cbn.
      split; [reflexivity|]. split; [exact A0|]. now destruct (attached c).
    + exact Y.
  - eexists. split; [reflexivity|]. destruct (attached c); auto.
  - eexists. split; [reflexivity|]. destruct (attached c); auto.
  - eexists. split; [reflexivity|]. destruct (attached c); auto.
Qed.

Lemma dispatch_list now src sals : clock_works now -> forall c, counter_ok c -> cl_transport c = true ->
  exists ev, dispatch_sals now src sals c = (after c (answered c sals), ev, Ok tt)
    /\ callbacks ev = flat_map (callback_of src) sals /\ answers now c (answered c sals) (writes ev)
    /\ published ev = (if attached c then flat_map (relayed src) sals else []).
Proof.
  intros Hn. induction sals as [|s sals IH]; intros c I T.
  - exists []. cbn [dispatch_sals flat_map].
    assert (N : answered c [] = 0%nat).
    { unfold answered. destruct (cl_class c); [destruct (cl_handle_clock c)|]; reflexivity. }
    rewrite N, (after_0 c I). split; [reflexivity|]. split; [reflexivity|].
    split; [split; [reflexivity|intros i w E; now destruct i]|]. now destruct (attached c).
  - cbn [dispatch_sals flat_map]. destruct (dispatch_one now c src s I Hn T) as [e1 [D1 [C1 [A1 P1]]]].
    destruct (after_fields c (answered c [s])) as [F1 [F2 [F3 [F4 [_ [_ [F5 F6]]]]]]].
    destruct (IH (after c (answered c [s])) F5) as [e2 [D2 [C2 [A2 P2]]]]; [congruence|].
    exists (e1 ++ e2). unfold mseq, mbind. rewrite D1, D2.
    rewrite F6, after_after, <- answered_cons. rewrite callbacks_app, writes_app, published_app, C1, C2.
    split; [reflexivity|]. split; [reflexivity|]. split.
    + rewrite answered_cons. apply answers_app; [exact A1|]. rewrite <- F6. exact A2.
    + rewrite P1, P2, F4. destruct (attached c); reflexivity.
Qed.

(** Whatever the state, no callback is fired out of turn. *)
Lemma dispatch_prefix now src sals : forall c c' ev r,
  dispatch_sals now src sals c = (c', ev, r) ->
  exists tl, flat_map (callback_of src) sals = callbacks ev ++ tl /\ (r = Ok tt -> tl = []).
Proof.
  assert (NC : forall (c c' : client) ev r, clock_datetime now None c = (c', ev, r) -> callbacks ev = []).
  { intros c c' ev r E.
    apply (keeps_clock (fun _ ev _ => callbacks ev = [])) with (c := c) (c' := c') (r := r) (now := now) (w := None);
      try reflexivity; try exact E.
    - intros c0 e1 c1 e2 c2 A B. now rewrite callbacks_app, A, B.
    - intros p b S c0 c1 ev0 r0 F. unfold send in F.
      destruct (negb (cl_transport c0)); [now inversion F|].
      destruct (negb (is_base_packet p)); [now inversion F|].
      destruct (encode_packet p); [|now inversion F].
      destruct (true && negb (is_special_client p)).
      + unfold mbind, get_confirmation_code in F.
        destruct (nth_error CONFIRMATION_CODES (cl_index c0)); now inversion F.
      + now inversion F. }
  assert (NP : forall c l, callbacks (if attached c then map CPublish l else []) = []).
  { intros c l. destruct (attached c); [apply publishes_filters|reflexivity]. }
  assert (RL : forall e ms c c' ev r, is_callback e = true ->
     mseq (memit e) (relay ms) c = (c', ev, r) -> callbacks ev = [e]).
  { intros e ms c c' ev r K E. unfold mseq, mbind, memit in E. rewrite relay_run in E. inversion E.
    unfold callbacks. cbn [app filter]. rewrite K. f_equal. apply NP. }
  assert (One : forall c s c' ev r, dispatch_sal now src s c = (c', ev, r) -> callbacks ev = callback_of src s).
  { intros c s c' ev r E. destruct s; cbn [dispatch_sal] in E; try (inversion E; reflexivity).
    - eapply RL; [reflexivity|exact E].
    - eapply RL; [reflexivity|exact E].
    - eapply RL; [reflexivity|exact E].
    - assert (Y : forall c c' ev r, mseq (clock_datetime now None) (mret tt) c = (c', ev, r) -> callbacks ev = []).
      { intros d d' dv dr D. unfold mseq, mbind in D.
        destruct (clock_datetime now None d) as [[c1 ev1] [a|e]] eqn:Q; inversion D; subst;
          [rewrite app_nil_r|]; exact (NC _ _ _ _ Q). }
      unfold on_clock_request in E. unfold mseq at 1 in E. unfold mbind at 1 in E. unfold memit in E.
      destruct (cl_class c); [destruct (cl_handle_clock c)|].
      + destruct (mseq (clock_datetime now None) (mret tt) c) as [[c2 ev2] r2] eqn:Q.
        specialize (Y _ _ _ _ Q). inversion E; subst. cbn. now f_equal.
      + inversion E; reflexivity.
      + destruct (mseq (clock_datetime now None) (mret tt) c) as [[c2 ev2] r2] eqn:Q.
        specialize (Y _ _ _ _ Q). inversion E; subst. cbn. now f_equal. }
  induction sals as [|s sals IH]; intros c c' ev r E; cbn [dispatch_sals flat_map] in *.
  - inversion E; subst. now exists [].
  - unfold mseq, mbind in E. destruct (dispatch_sal now src s c) as [[c1 ev1] [a|e]] eqn:D.
    + destruct (dispatch_sals now src sals c1) as [[c2 ev2] r2] eqn:D2. inversion E; subst.
      destruct (IH _ _ _ _ D2) as [tl [T1 T2]]. exists tl.
      rewrite callbacks_app, (One _ _ _ _ _ D), T1, app_assoc. auto.
    + inversion E; subst. exists (flat_map (callback_of src) sals).
      rewrite (One _ _ _ _ _ D). split; [reflexivity|discriminate].
Qed.

(** ** Connecting *)
Lemma send_dm c param v digits : cl_transport c = true -> counter_ok c ->
  encode_packet (dm_command param v) = Ok digits ->
  send (dm_command param v) true true c
  = (set_index c ((cl_index c + 1) mod 20), [CWrite (digits ++ [code_at (cl_index c) 0; 13])],
     Ok (Some (code_at (cl_index c) 0))).
Proof.
  intros T I E. unfold send. rewrite T, E. cbn [negb is_base_packet dm_command is_special_client andb orb].
  unfold mbind, mseq. rewrite (take_code c I). reflexivity.
Qed.
Lemma send_reset_line c : cl_transport c = true ->
  send PktReset true false c = (c, [CWrite [126; 13]], Ok None).
Proof. intros T. unfold send. rewrite T. reflexivity. Qed.

Lemma code_at_next i k : code_at ((i + 1) mod 20) k = code_at i (S k).
Proof. unfold code_at. rewrite Nat.add_mod_idemp_l by discriminate. do 2 f_equal. lia. Qed.

Lemma reset_connected c : cl_transport c = true -> counter_ok c ->
  pci_reset c = (set_index c ((cl_index c + 3) mod 20),
    [CWrite (txt "~" ++ [13]); CWrite (txt "~" ++ [13]); CWrite (txt "~" ++ [13]);
     CWrite (txt "A3210038" ++ [code_at (cl_index c) 0; 13]);
     CWrite (txt "A342000E" ++ [code_at (cl_index c) 1; 13]);
     CWrite (txt "A3300059" ++ [code_at (cl_index c) 2; 13])], Ok tt).
Proof.
  intros T I. unfold pci_reset, mseq, mbind. rewrite !(send_reset_line c T).
  rewrite (send_dm c 0x21 0x38 (txt "A3210038") T I eq_refl).
  set (c1 := set_index c ((cl_index c + 1) mod 20)).
  assert (I1 : counter_ok c1) by (apply Nat.mod_upper_bound; discriminate).
  rewrite (send_dm c1 0x42 0x0E (txt "A342000E") T I1 eq_refl).
  set (c2 := set_index c1 ((cl_index c1 + 1) mod 20)).
  assert (I2 : counter_ok c2) by (apply Nat.mod_upper_bound; discriminate).
  rewrite (send_dm c2 0x30 0x59 (txt "A3300059") T I2 eq_refl).
  assert (E1 : code_at (cl_index c1) 0 = code_at (cl_index c) 1) by apply code_at_next.
  assert (E2 : code_at (cl_index c2) 0 = code_at (cl_index c) 2).
  { unfold c2. cbn [set_index cl_index]. rewrite code_at_next. apply code_at_next. }
  rewrite E1, E2. unfold mret. cbn [app].
  assert (E3 : set_index c2 ((cl_index c2 + 1) mod 20) = set_index c ((cl_index c + 3) mod 20)).
  { unfold c2, c1, set_index. cbn [cl_class cl_transport cl_index cl_frequency cl_handle_clock
      cl_future cl_mqtt cl_reads cl_tasks].
    rewrite Nat.add_mod_idemp_l by discriminate. rewrite <- Nat.add_assoc.
    rewrite Nat.add_mod_idemp_l by discriminate. now rewrite <- Nat.add_assoc. }
  now rewrite E3.
Qed.

Lemma connect_outcome c : counter_ok c ->
  connection_made c =
    (let c1 := set_index (set_transport c true) ((cl_index c + 3) mod 20) in
     if cl_frequency c =? 0 then c1 else set_tasks c1 (S (cl_tasks c)),
    [CWrite (txt "~" ++ [13]); CWrite (txt "~" ++ [13]); CWrite (txt "~" ++ [13]);
     CWrite (txt "A3210038" ++ [code_at (cl_index c) 0; 13]);
     CWrite (txt "A342000E" ++ [code_at (cl_index c) 1; 13]);
     CWrite (txt "A3300059" ++ [code_at (cl_index c) 2; 13])]
    ++ (if cl_frequency c =? 0 then [] else [CSpawnTimesync]), Ok tt).
Proof.
  intros I. unfold connection_made, mseq, mbind.
  rewrite (reset_connected (set_transport c true) eq_refl I). cbn zeta.
  change (cl_index (set_transport c true)) with (cl_index c).
  cbn [cl_frequency set_index set_transport]. destruct (cl_frequency c =? 0); reflexivity.
Qed.
