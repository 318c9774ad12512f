(** Property C95: a client or the daemon on a TCP connection. *)
From Coq Require Import String List ZArith Bool Lia Arith.
From Verif Require Import Py Common Sal Cal Packet Text Mqtt Buffered Client Server Cmqttd Daemon Transport Base Spec Spec_client
  Spec_server Spec_system Spec_noise Spec_transport Buffer_facts Client_facts Client_steps Client_send Client_dispatch
  Noise_facts Transport_facts Prop_client Prop_system Prop_noise.
From Verif Require Prop_daemon.
Import ListNotations.
Open Scope Z_scope.
Notation length := List.length.

(** ** Whatever the object does *)

(** It is handed the pieces that arrived, in order, from the first one on, all
    of them while the connection lasts; and none after one that it failed at. *)
Theorem C95_pieces : forall St Op Ev R (p : party St Op Ev R) net st l w' tr,
  net_run p net (st, new_tcp) l = (w', tr) ->
  (exists rest, arrived l = map fst (handed tr) ++ rest /\ (~ ended_connection w' -> rest = []))
  /\ forall a b e z, handed tr = a ++ (b, Raise e) :: z -> z = [].
Proof.
  intros St Op Ev R p net st l w' tr E.
  destruct (run_facts net p l _ _ _ 0%nat (sound_fresh st) E) as [_ [_ [_ [_ [[rest [A B]] [C _]]]]]].
  split; [|exact C]. exists rest. split; [exact A|]. intros N. apply B. unfold ended_connection in N.
  now destruct (t_closing (snd w')).
Qed.
Print Assumptions C95_pieces.

(** An exception of the object is the end of the connection: it is handed
    nothing more, nothing more is sent, and as soon as the event loop turns it
    is told, once. *)
Theorem C95_exception : forall St Op Ev R (p : party St Op Ev R) net st l1 w1 a b ev e l2 w2 z,
  net_run p net (st, new_tcp) l1 = (w1, a ++ [SData b ev (Raise e)]) -> net_run p net w1 l2 = (w2, z) ->
  ended_connection w2 /\ handed z = [] /\ wire w2 = wire w1
  /\ losses a = 0%nat /\ losses z = if turned l2 then 1%nat else 0%nat.
Proof.
  intros St Op Ev R p net st l1 w1 a b ev e l2 w2 z E1 E2.
  destruct (run_split net p l1 _ _ a _ [] E1) as [x [o [y [v1 [v2 [_ [A [B C]]]]]]]].
  destruct (run_facts net p x _ _ _ 0%nat (sound_fresh st) A) as [SA _]. cbn [plus] in SA.
  destruct (step_facts net p _ _ _ _ _ SA B) as [SB [CB [LB [GB [_ [F _]]]]]].
  destruct (F e ev b (or_introl eq_refl)) as [L G]. cbn [losses filter length] in SB. rewrite Nat.add_0_r in SB.
  destruct (run_facts net p y _ _ _ _ SB C) as [SC [_ [LC [_ _]]]]. cbn [losses filter length] in SC. rewrite Nat.add_0_r in SC.
  assert (Z0 : losses a = 0%nat).
  { destruct SB as [_ [_ [X _]]]. now rewrite G in X. }
  destruct (LC L) as [L1 _]. rewrite Z0 in SC.
  destruct (run_facts net p l2 _ _ _ _ SC E2) as [_ [CD [LD _]]]. destruct (LD L1) as [_ W].
  assert (Q : t_closing (snd w1) = true) by (destruct SC as [X _]; now destruct (X L1)).
  destruct (CD Q) as [Q1 Q2]. split; [exact Q1|]. split; [exact Q2|]. split; [exact W|]. split; [exact Z0|].
  exact (failed_run net p l2 _ _ _ SC L1 E2).
Qed.
Print Assumptions C95_exception.

(** The end of the stream, or a failure of the network, is the end as well.
    What the socket had not taken yet is still sent in the first case. *)
Theorem C95_hangup : forall St Op Ev R (p : party St Op Ev R) net st l1 w1 a o l2 w2 z,
  net_run p net (st, new_tcp) l1 = (w1, a) -> o = NArrives [] \/ o = NReadFails -> net_run p net w1 (o :: l2) = (w2, z) ->
  ended_connection w2 /\ handed z = []
  /\ (~ ended_connection w1 -> o = NReadFails \/ t_out (snd w1) = [] ->
      wire w2 = wire w1 /\ losses z = if turned l2 then 1%nat else 0%nat).
Proof.
  intros St Op Ev R p net st l1 [st1 t1] a o l2 w2 z E1 O E2.
  destruct (run_facts net p l1 _ _ _ 0%nat (sound_fresh st) E1) as [S1 _]. cbn [snd plus] in S1.
  destruct (run_facts net p [o] (st1, t1) (fst (net_step p net (st1, t1) o)) (snd (net_step p net (st1, t1) o)) _ S1) as [S2 _].
  { cbn [net_run]. destruct (net_step p net (st1, t1) o). cbn. now rewrite app_nil_r. }
  cbn [net_run] in E2. unfold ended_connection, wire. cbn [snd].
  destruct (t_closing t1) eqn:Q.
  - assert (K : net_step p net (st1, t1) o = ((st1, t1), [])) by (destruct O as [->| ->]; cbn; now rewrite Q).
    rewrite K in E2. destruct (net_run p net (st1, t1) l2) as [w3 t3] eqn:E3. inversion E2; subst. cbn [app].
    destruct (run_facts net p l2 (st1, t1) _ _ _ S1 E3) as [_ [C _]]. destruct (C Q) as [C1 C2].
    split; [exact C1|]. split; [exact C2|]. intros N. now destruct N.
  - assert (K : exists t2, net_step p net (st1, t1) o = ((st1, t2), []) /\ t_closing t2 = true /\ t_wire t2 = t_wire t1
       /\ t_gone t2 = t_gone t1 /\ (o = NReadFails \/ t_out t1 = [] -> t_lost t2 = true)).
    { destruct O as [->| ->]; cbn; rewrite Q.
      - exists (close t1). split; [reflexivity|]. destruct (close_facts t1 _ S1 Q) as [_ [A1 [A2 [A3 A4]]]].
        repeat split; auto. intros [X|X]; [discriminate|]. unfold close. now rewrite Q, X.
      - exists (force_close t1). split; [reflexivity|]. unfold force_close. destruct (t_lost t1) eqn:L; [|cbn; auto].
        destruct S1 as [X _]. destruct (X L). congruence. }
    destruct K as [t2 [K [Q2 [W2 [G2 L2]]]]]. rewrite K in *. cbn [fst snd] in S2.
    destruct (net_run p net (st1, t2) l2) as [w3 t3] eqn:E3. inversion E2; subst. cbn [app].
    destruct (run_facts net p l2 (st1, t2) _ _ _ S2 E3) as [_ [C [D _]]]. destruct (C Q2) as [C1 C2].
    split; [exact C1|]. split; [exact C2|]. intros _ X. specialize (L2 X). destruct (D L2) as [_ W]. cbn [snd] in W.
    split; [congruence|]. apply (failed_run net p l2 (st1, t2) w2 z); [|exact L2|exact E3].
    cbn [losses filter length] in S2. rewrite Nat.add_0_r in S2. cbn [snd].
    destruct S1 as [_ [X1 [X2 _]]]. destruct (t_gone t1) eqn:G; [destruct (X1 eq_refl); congruence|].
    now rewrite X2 in S2.
Qed.
Print Assumptions C95_hangup.

Lemma waiting_writes net l : forall t, t_lost t || t_gone t = false -> t_out t <> [] -> write_all net t l = set_out t (t_out t ++ concat l).
Proof.
  induction l as [|d l IH]; intros t L O.
  - cbn. rewrite app_nil_r. destruct t. reflexivity.
  - change (write_all net t (d :: l)) with (write_all net (write net t d) l).
    assert (W : write net t d = set_out t (t_out t ++ d)).
    { unfold write. destruct d as [|x d]; [rewrite app_nil_r; now destruct t|]. rewrite L. destruct (t_out t); [now destruct O|reflexivity]. }
    rewrite W, IH; [|exact L|cbn; intros X; apply app_eq_nil in X; now destruct X]. cbn. unfold set_out. cbn. now rewrite <- app_assoc.
Qed.
Lemma gone_writes net l : forall t, t_lost t || t_gone t = true -> write_all net t l = t.
Proof.
  induction l as [|d l IH]; intros t L; [reflexivity|]. change (write_all net t (d :: l)) with (write_all net (write net t d) l).
  assert (W : write net t d = t) by (unfold write; destruct d; [reflexivity|now rewrite L]). rewrite W. now apply IH.
Qed.
Lemma gone_run {St Op Ev R} (p : party St Op Ev R) net l : forall st t w' tr, t_gone t = true -> t_closing t = true -> t_out t = [] ->
  t_due t = 0%nat -> net_run p net (st, t) l = (w', tr) -> snd w' = t.
Proof.
  induction l as [|o l IH]; intros st t w' tr G C O D E; cbn [net_run] in E; [now inversion E|].
  destruct (net_step p net (st, t) o) as [w1 t1] eqn:E1. destruct (net_run p net w1 l) as [w2 t2] eqn:E2. inversion E; subst; clear E.
  assert (X : snd w1 = t).
  { destruct o as [o|b| | |]; cbn [net_step] in E1; rewrite ?C, ?O, ?D in E1; try (inversion E1; subst; reflexivity).
    - destruct (p_call p st o) as [[st' ev] r]. inversion E1; subst. cbn [snd]. apply gone_writes. now rewrite G, orb_true_r.
    - destruct (t_lost t); inversion E1; subst; reflexivity. }
  destruct w1 as [st1 t']. cbn [snd] in X. subst t'. exact (IH _ _ _ _ G C O D E2).
Qed.

(** Between the end of the stream and the loss: the rest is still being sent. *)
Lemma flushing {St Op Ev R} (p : party St Op Ev R) net l : (forall n, net n <> Breaks) -> forall st t w' z,
  t_closing t = true -> t_lost t || t_gone t = false -> t_due t = 0%nat -> t_out t <> [] -> net_run p net (st, t) l = (w', z) ->
  (losses z = 0%nat /\ t_out (snd w') <> [] /\ t_closing (snd w') = true /\ t_lost (snd w') = false
   /\ t_wire (snd w') ++ t_out (snd w') = t_wire t ++ t_out t ++ concat (flat_map (fun s => p_out p (seen_effects s)) z))
  \/ exists z1 ev r z2, z = z1 ++ SLost ev r :: z2
      /\ t_wire (snd w') = t_wire t ++ t_out t ++ concat (flat_map (fun s => p_out p (seen_effects s)) z1).
Proof.
  intros NB. induction l as [|o l IH]; intros st t w' z C L D O E; cbn [net_run] in E.
  { inversion E; subst. left. cbn. rewrite app_nil_r. apply orb_false_iff in L. repeat split; try assumption; apply L. }
  destruct (net_step p net (st, t) o) as [w1 t1] eqn:E1. destruct (net_run p net w1 l) as [w2 t2] eqn:E2. inversion E; subst; clear E.
  assert (SAME : w1 = (st, t) -> t1 = [] -> (losses (t1 ++ t2) = 0%nat /\ t_out (snd w') <> [] /\ t_closing (snd w') = true
      /\ t_lost (snd w') = false
      /\ t_wire (snd w') ++ t_out (snd w') = t_wire t ++ t_out t ++ concat (flat_map (fun s => p_out p (seen_effects s)) (t1 ++ t2)))
    \/ exists z1 ev r z2, t1 ++ t2 = z1 ++ SLost ev r :: z2
      /\ t_wire (snd w') = t_wire t ++ t_out t ++ concat (flat_map (fun s => p_out p (seen_effects s)) z1)).
  { intros -> ->. cbn [app]. exact (IH st t w' t2 C L D O E2). }
  apply orb_false_iff in L. destruct L as [L G].
  destruct o as [o|b| | |]; cbn [net_step] in E1; rewrite ?C, ?D, ?L in E1; try (inversion E1; subst; now apply SAME).
  - destruct (p_call p st o) as [[st' ev] r]. inversion E1; subst; clear E1 SAME.
    rewrite waiting_writes in E2 by (rewrite ?L, ?G; auto).
    destruct (IH st' (set_out t (t_out t ++ concat (p_out p ev))) w' t2) as [[A1 [A2 [A3 [A4 A5]]]]|[z1 [e1 [r1 [z2 [-> A5]]]]]]; try exact E2; cbn; rewrite ?L, ?G; auto.
    + intros X. apply app_eq_nil in X. now destruct X.
    + left. split; [exact A1|]. split; [exact A2|]. split; [exact A3|]. split; [exact A4|]. rewrite A5. cbn.
      now rewrite concat_app, <- !app_assoc.
    + right. exists (SCall o ev r :: z1), e1, r1, z2. split; [reflexivity|]. rewrite A5. cbn. now rewrite concat_app, <- !app_assoc.
  - destruct (t_out t) as [|y out] eqn:OO; [now destruct O|]. rewrite <- OO in *. unfold try_send in E1.
    destruct (net (t_sends t)) as [k| |] eqn:N; [| |now destruct (NB (t_sends t))].
    + destruct (skipn k (t_out t)) as [|x rest] eqn:K.
      * unfold call_lost in E1. cbn [set_out t_out t_closing t_lost t_due t_gone t_sends t_wire] in E1.
        destruct (p_call p st (p_lost p)) as [[st' ev] r]. rewrite gone_writes in E1 by (cbn; now rewrite L). inversion E1; subst; clear E1 SAME.
        right. exists [], ev, r, t2. split; [reflexivity|]. cbn [flat_map concat]. rewrite app_nil_r.
        rewrite (gone_run p net l st' (mkTcp [] (t_closing t) (t_lost t) (t_due t) true (S (t_sends t)) (t_wire t ++ firstn k (t_out t))) w' t2 eq_refl C eq_refl D E2). cbn. f_equal.
        rewrite <- (firstn_skipn k (t_out t)) at 2. now rewrite K, app_nil_r.
      * inversion E1; subst; clear E1 SAME. cbn [app].
        destruct (IH st (set_out (mkTcp (t_out t) (t_closing t) (t_lost t) (t_due t) (t_gone t) (S (t_sends t)) (t_wire t ++ firstn k (t_out t)))
          (x :: rest)) w' t2) as [[A1 [A2 [A3 [A4 A5]]]]|[z1 [e1 [r1 [z2 [-> A5]]]]]]; try exact E2; cbn; rewrite ?L, ?G; auto; try discriminate.
        -- left. split; [exact A1|]. split; [exact A2|]. split; [exact A3|]. split; [exact A4|]. rewrite A5. cbn [t_wire t_out set_out].
           rewrite <- K, <- app_assoc, (app_assoc (firstn k (t_out t))), firstn_skipn. reflexivity.
        -- right. exists z1, e1, r1, z2. split; [reflexivity|]. rewrite A5. cbn [t_wire t_out set_out].
           rewrite <- K, <- app_assoc, (app_assoc (firstn k (t_out t))), firstn_skipn. reflexivity.
    + destruct (t_out t) as [|x rest] eqn:O2; [now destruct O|]. rewrite <- O2 in *. inversion E1; subst; clear E1 SAME. cbn [app].
      destruct (IH st (set_out (mkTcp (t_out t) (t_closing t) (t_lost t) (t_due t) (t_gone t) (S (t_sends t)) (t_wire t)) (t_out t)) w' t2)
        as [[A1 [A2 [A3 [A4 A5]]]]|[z1 [e1 [r1 [z2 [-> A5]]]]]]; try exact E2; cbn; rewrite ?L, ?G; auto.
      * left. split; [exact A1|]. split; [exact A2|]. split; [exact A3|]. split; [exact A4|]. exact A5.
      * right. exists z1, e1, r1, z2. split; [reflexivity|exact A5].
Qed.

(** After the end of the stream, with bytes still waiting and a network that does
    not fail: they and what is written meanwhile go on being sent, until the
    socket has taken all of it; then the object is told, at once. *)
Theorem C95_flush : forall St Op Ev R (p : party St Op Ev R) net st l1 w1 a l2 w2 z,
  net_run p net (st, new_tcp) l1 = (w1, a) -> ~ ended_connection w1 -> t_out (snd w1) <> [] ->
  (forall n, net n <> Breaks) -> net_run p net w1 (NArrives [] :: l2) = (w2, z) ->
  let written tr := concat (flat_map (fun s => p_out p (seen_effects s)) tr) in
  (losses z = 0%nat /\ t_out (snd w2) <> [] /\ wire w2 ++ t_out (snd w2) = wire w1 ++ t_out (snd w1) ++ written z
   /\ forall n, net (t_sends (snd w2)) = Takes n -> (length (t_out (snd w2)) <= n)%nat ->
      losses (snd (net_run p net w2 [NWritable])) = 1%nat)
  \/ exists z1 ev r z2, z = z1 ++ SLost ev r :: z2 /\ wire w2 = wire w1 ++ t_out (snd w1) ++ written z1.
Proof.
  intros St Op Ev R p net st l1 [st1 t1] a l2 w2 z E1 N O NB E2. cbn zeta. unfold ended_connection, wire in *. cbn [snd] in *.
  destruct (run_facts net p l1 _ _ _ 0%nat (sound_fresh st) E1) as [[S1 [S2 [_ S4]]] _]. cbn [snd] in *.
  assert (C : t_closing t1 = false) by (now destruct (t_closing t1)).
  assert (L : t_lost t1 = false) by (destruct (t_lost t1); [now destruct (S1 eq_refl)|reflexivity]).
  assert (G : t_gone t1 = false) by (destruct (t_gone t1); [now destruct (S2 eq_refl)|reflexivity]).
  rewrite L in S4. cbn in S4. cbn [net_run net_step] in E2. rewrite C in E2.
  destruct (net_run p net (st1, close t1) l2) as [w3 t3] eqn:E3. inversion E2; subst; clear E2. cbn [app].
  assert (K : close t1 = mkTcp (t_out t1) true (t_lost t1) (t_due t1) (t_gone t1) (t_sends t1) (t_wire t1)).
  { unfold close. rewrite C. destruct (t_out t1); [now destruct O|reflexivity]. }
  rewrite K in E3.
  destruct (flushing p net l2 NB st1 (mkTcp (t_out t1) true (t_lost t1) (t_due t1) (t_gone t1) (t_sends t1) (t_wire t1)) w2 z
    eq_refl (proj2 (orb_false_iff _ _) (conj L G)) S4 O E3) as [[A1 [A2 [A3 [A4 A5]]]]|A]; [left|now right].
  split; [exact A1|]. split; [exact A2|]. split; [exact A5|].
  intros n T Q. destruct w2 as [st2 t2]. cbn [snd] in *. cbn [net_run net_step]. rewrite A4.
  destruct (t_out t2) as [|y out] eqn:O2; [now destruct A2|]. unfold try_send. rewrite T, (skipn_all2 (y :: out) Q), A3.
  unfold call_lost. destruct (p_call p st2 (p_lost p)) as [[st' ev] r]. reflexivity.
Qed.
Print Assumptions C95_flush.
Example C95_flush_case :
  let start := (new_client ClassPCI 0 false Pending, []) in
  let net n := if Nat.eqb n 6 then Takes 5 else Takes 100 in
  let r1 := net_run (client_party noon) net (start, new_tcp) [NCall OpConnect; NCall (OpOn [1])] in
  let r2 := net_run (client_party noon) net (fst r1) [NArrives []; NCall (OpOff [1]); NWritable; NCall (OpOn [1])] in
  t_closing (snd (fst r1)) = false /\ t_out (snd (fst r1)) <> [] /\ losses (snd r2) = 1%nat.
Proof. vm_compute. repeat split. discriminate. Qed.

(** The object is told at most once, and that is the last it hears. *)
Theorem C95_once : forall St Op Ev R (p : party St Op Ev R) net st l w' tr,
  net_run p net (st, new_tcp) l = (w', tr) ->
  (losses tr <= 1)%nat
  /\ forall a ev r z, tr = a ++ SLost ev r :: z ->
     losses a = 0%nat /\ losses z = 0%nat /\ handed z = [] /\ ended_connection w'.
Proof.
  intros St Op Ev R p net st l w' tr E.
  destruct (run_facts net p l _ _ _ 0%nat (sound_fresh st) E) as [[S1 [S2 [S3 S4]]] _]. cbn [plus] in S3.
  split; [destruct (t_gone (snd w')); lia|]. intros a ev r z ->.
  rewrite losses_app in S3. change (losses (SLost ev r :: z)) with (S (losses z)) in S3.
  assert (G : t_gone (snd w') = true) by (destruct (t_gone (snd w')); [reflexivity|lia]). rewrite G in *.
  split; [lia|]. split; [lia|]. split; [|unfold ended_connection; now destruct (S2 eq_refl)].
  destruct (run_split net p l _ _ a _ z E) as [x [o [y [v1 [v2 [_ [A [B C]]]]]]]].
  destruct (run_facts net p x _ _ _ 0%nat (sound_fresh st) A) as [SA _].
  destruct (step_facts net p _ _ _ _ _ SA B) as [SB _].
  assert (Q : t_closing (snd v2) = true).
  { destruct SB as [_ [X1 [X2 _]]]. change (losses [SLost ev r]) with 1%nat in X2.
    destruct (t_gone (snd v2)); [now destruct (X1 eq_refl)|lia]. }
  destruct (run_facts net p y _ _ _ _ SB C) as [_ [X _]]. now destruct (X Q).
Qed.
Print Assumptions C95_once.

(** ** The bytes on the wire *)

(** They are always the first of those that were written, in the order of
    writing; as long as nothing failed and the object was not told of a loss,
    the others wait to be sent. *)
Theorem C95_wire : forall now net st l w' tr,
  net_run (client_party now) net (st, new_tcp) l = (w', tr) ->
  exists rest, concat (writes (emitted tr)) = wire w' ++ t_out (snd w') ++ rest
    /\ (~ ended_connection w' -> rest = []).
Proof.
  intros now net st l w' tr E.
  destruct (run_facts net _ l _ _ _ 0%nat (sound_fresh st) E) as [[S1 [S2 _]] [_ [_ [_ [_ [_ [rest [A B]]]]]]]].
  exists rest. rewrite given_client in A. split; [exact A|]. intros N. apply B. unfold ended_connection in N.
  destruct (t_lost (snd w')); [destruct (S1 eq_refl); congruence|]. destruct (t_gone (snd w')); [destruct (S2 eq_refl); congruence|].
  reflexivity.
Qed.
Print Assumptions C95_wire.
Theorem C95_wire_daemon : forall u now labels net st l w' tr,
  net_run (daemon_party u now labels) net (st, new_tcp) l = (w', tr) ->
  exists rest, concat (writes (emitted tr)) = wire w' ++ t_out (snd w') ++ rest
    /\ (~ ended_connection w' -> rest = []).
Proof.
  intros u now labels net st l w' tr E.
  destruct (run_facts net _ l _ _ _ 0%nat (sound_fresh st) E) as [[S1 [S2 _]] [_ [_ [_ [_ [_ [rest [A B]]]]]]]].
  exists rest. rewrite given_daemon in A. split; [exact A|]. intros N. apply B. unfold ended_connection in N.
  destruct (t_lost (snd w')); [destruct (S1 eq_refl); congruence|]. destruct (t_gone (snd w')); [destruct (S2 eq_refl); congruence|].
  reflexivity.
Qed.
Print Assumptions C95_wire_daemon.

(** ** The client *)

(** What it sees is a history of calls, so that all that is proved of those
    holds. *)
Theorem C95_history : forall now net l w w' tr,
  net_run (client_party now) net w l = (w', tr) ->
  client_run now (fst w) (map as_cop tr) = (fst w', map (fun s => (seen_effects s, seen_result s)) tr).
Proof.
  intros now net. induction l as [|o l IH]; intros w w' tr E; cbn [net_run] in E; [now inversion E|].
  destruct (net_step _ net w o) as [w1 t1] eqn:E1. destruct (net_run _ net w1 l) as [w2 t2] eqn:E2. inversion E; subst.
  specialize (IH _ _ _ E2). destruct (step_history _ _ _ _ _ _ E1) as [[-> F]|[s [-> [F _]]]].
  - cbn [app]. now rewrite <- F.
  - cbn [app map client_run]. change (p_call (client_party now)) with (client_step now) in F.
    replace (client_step now (fst w) (as_cop s)) with (fst w1, seen_effects s, seen_result s).
    now rewrite IH.
Qed.
Print Assumptions C95_history.
Theorem C95_history_daemon : forall u now labels net l w w' tr,
  net_run (daemon_party u now labels) net w l = (w', tr) ->
  daemon_run u now labels (fst w) (map as_dop tr) = (fst w', map (fun s => (seen_effects s, seen_result s)) tr).
Proof.
  intros u now labels net. induction l as [|o l IH]; intros w w' tr E; cbn [net_run] in E; [now inversion E|].
  destruct (net_step _ net w o) as [w1 t1] eqn:E1. destruct (net_run _ net w1 l) as [w2 t2] eqn:E2. inversion E; subst.
  specialize (IH _ _ _ E2). destruct (step_history _ _ _ _ _ _ E1) as [[-> F]|[s [-> [F _]]]].
  - cbn [app]. now rewrite <- F.
  - cbn [app map daemon_run]. change (p_call (daemon_party u now labels)) with (daemon_step u now labels) in F.
    replace (daemon_step u now labels (fst w) (as_dop s)) with (fst w1, seen_effects s, seen_result s).
    now rewrite IH.
Qed.
Print Assumptions C95_history_daemon.

(** The calls in a history are those the program made. *)
Lemma calls_made {St Op Ev R} (p : party St Op Ev R) net l : forall w w' tr o ev r,
  net_run p net w l = (w', tr) -> In (SCall o ev r) tr -> In (NCall o) l.
Proof.
  induction l as [|x l IH]; intros w w' tr o ev r E I; cbn [net_run] in E; [inversion E; now subst|].
  destruct (net_step p net w x) as [w1 t1] eqn:E1. destruct (net_run p net w1 l) as [w2 t2] eqn:E2. inversion E; subst.
  apply in_app_or in I. destruct I as [I|I]; [|right; eapply IH; eassumption].
  destruct (step_history p _ _ _ _ _ E1) as [[-> _]|[s [-> [_ M]]]]; [destruct I|].
  destruct I as [->|[]]. left. exact M.
Qed.
Lemma losses_lost tr : (forall o, In o (map as_cop tr) -> o = OpLost -> True) -> (0 < losses tr)%nat -> In OpLost (map as_cop tr).
Proof.
  intros _. induction tr as [|s tr IH]; [cbn; lia|]. destruct s; [| |intros _; now left]; intros H; right; now apply IH.
Qed.
Lemma lost_losses tr : ~ In OpLost (map as_cop tr) \/ (0 < losses tr)%nat \/ exists ev r, In (SCall OpLost ev r) tr.
Proof.
  induction tr as [|s tr IH]; [now left|]. destruct s as [o ev r|b ev r|ev r].
  - destruct IH as [IH|[IH|[e [r0 IH]]]].
    + destruct o; try (left; intros [X|X]; [discriminate X|now apply IH]). right. right. exists ev, r. now left.
    + right. now left.
    + right. right. exists e, r0. now right.
  - destruct IH as [IH|[IH|[e [r0 IH]]]].
    + left. intros [X|X]; [discriminate X|now apply IH].
    + right. now left.
    + right. right. exists e, r0. now right.
  - right. left. cbn. lia.
Qed.
Lemma effects_entries {Op Ev R} (tr : list (seen Op Ev R)) :
  effects (map (fun s => (seen_effects s, seen_result s)) tr) = emitted tr.
Proof. unfold effects, emitted. induction tr as [|s tr IH]; [reflexivity|]. cbn. now rewrite IH. Qed.
Lemma no_connect_call l : program_calls l -> ~ In (NCall OpConnect) l.
Proof. intros H I. destruct (H _ I) as [[K|K] _]; [destruct K|discriminate]. Qed.
Lemma no_lost_call l : program_calls l -> ~ In (NCall OpLost) l.
Proof. intros H I. destruct (H _ I) as [[K|K] _]; [destruct K|discriminate]. Qed.

(** The future given to the client, if it is pending, is completed when the
    client is told, and by nothing else. *)
Theorem C95_future : forall now net st l w' tr, cl_future (fst st) = Pending ->
  program_calls l -> net_run (client_party now) net (st, new_tcp) (NCall OpConnect :: l) = (w', tr) ->
  signals (emitted tr) = losses tr /\ (cl_future (fst (fst w')) = Done <-> losses tr = 1%nat).
Proof.
  intros now net st l w' tr P PC E. pose proof (C95_history _ _ _ _ _ _ E) as H. cbn [fst] in H.
  destruct (C52_once _ _ _ _ _ H) as [A B]. rewrite P, effects_entries in A. rewrite P in B.
  destruct (C95_once _ _ _ _ _ _ _ _ _ _ E) as [L _].
  assert (K : In OpLost (map as_cop tr) <-> losses tr = 1%nat).
  { split.
    - intros I. destruct (lost_losses tr) as [X|[X|[ev [r X]]]]; [contradiction|lia|].
      exfalso. apply (calls_made _ _ _ _ _ _ _ _ _ E) in X. destruct X as [X|X]; [discriminate|now apply (no_lost_call l PC)].
    - intros X. apply losses_lost; [auto|lia]. }
  split.
  - rewrite A. destruct (existsb _ (map as_cop tr)) eqn:X.
    + apply existsb_exists in X. destruct X as [o [I O]]. destruct o; try discriminate. symmetry. now apply K.
    + destruct (Nat.eq_dec (losses tr) 1) as [Y|Y]; [|lia]. apply K in Y. exfalso.
      assert (Z : existsb (fun o => match o with OpLost => true | _ => false end) (map as_cop tr) = true)
        by (apply existsb_exists; now exists OpLost). congruence.
  - rewrite B, <- K. intuition discriminate.
Qed.
Print Assumptions C95_future.

(** After that it can write nothing, and every command call raises. *)
Theorem C95_after : forall now net st l w' a ev r z, counter_ok (fst st) -> clock_works now -> program_calls l ->
  net_run (client_party now) net (st, new_tcp) (NCall OpConnect :: l) = (w', a ++ SLost ev r :: z) ->
  writes (emitted z) = []
  /\ forall o ev' r', In (SCall o ev' r') z -> is_command o -> exists e, r' = Raise e /\ (acceptable o -> e = OSError).
Proof.
  intros now net st l w' a ev r z I N PC E.
  destruct (run_split net _ _ _ _ a _ z E) as [l1 [o [l2 [w1 [w2 [L [E1 [E2 E3]]]]]]]].
  pose proof (C95_history _ _ _ _ _ _ E1) as H1. pose proof (C95_history _ _ _ _ _ _ E3) as H3. cbn [fst] in H1.
  assert (I1 : counter_ok (fst (fst w1))) by (apply codes_run in H1; now destruct (H1 I)).
  destruct (step_history _ _ _ _ _ _ E2) as [[X _]|[s [X [F _]]]]; [discriminate|]. inversion X; subst s. clear X.
  change (p_call (client_party now) (fst w1) (p_lost (client_party now))) with (client_step now (fst w1) OpLost) in F.
  cbn [client_step api seen_effects seen_result] in F. unfold mseq, mbind in F.
  destruct (C52_lost (fst (fst w1))) as [c' [ev1 [r1 [Q [T [J _]]]]]]. rewrite Q in F.
  assert (F2 : fst (fst w2) = c') by (destruct r1; cbn in F; injection F as F _ _; now rewrite <- F). clear F Q.
  assert (T2 : cl_transport (fst (fst w2)) = false) by congruence.
  assert (I2 : counter_ok (fst (fst w2))) by (unfold counter_ok in *; congruence).
  assert (SUB : forall x, In (NCall x) l2 -> In (NCall x) l).
  { destruct l1 as [|x0 l1]; cbn in L; inversion L; subst.
    - destruct w1 as [st1 t1]. cbn in E1. inversion E1; subst. cbn [net_step] in E2.
      destruct (p_call _ st1 OpConnect) as [[? ?] ?]. discriminate.
    - intros x X. apply in_or_app. right. now right. }
  assert (NC : ~ In OpConnect (map as_cop z)).
  { intros X. apply in_map_iff in X. destruct X as [s [S1 S2]]. destruct s as [o1 e1 r2|b e1 r2|e1 r2]; try discriminate S1.
    cbn in S1. subst o1. apply (calls_made _ _ _ _ _ _ _ _ _ E3) in S2. now apply (no_connect_call l PC), SUB. }
  destruct (C52_silent _ _ _ _ _ NC T2 H3) as [W _]. rewrite effects_entries in W. split; [exact W|].
  intros o1 ev' r' S K. destruct (in_split _ _ S) as [z1 [z2 ->]].
  destruct (run_split net _ _ _ _ z1 _ z2 E3) as [m1 [o2 [m2 [v1 [v2 [M [G1 [G2 G3]]]]]]]].
  pose proof (C95_history _ _ _ _ _ _ G1) as H4.
  assert (V : python_value o1).
  { apply (calls_made _ _ _ _ _ _ _ _ _ E3) in S. now destruct (PC _ (SUB _ S)). }
  assert (NC1 : ~ In OpConnect (map as_cop z1)).
  { intros X. apply NC. rewrite map_app. apply in_or_app. now left. }
  destruct (C52_raises now _ _ _ _ o1 NC1 T2 I2 N H4 K V) as [c3 [e [A B]]].
  destruct (step_history _ _ _ _ _ _ G2) as [[X _]|[s [X [F _]]]]; [discriminate|]. inversion X; subst s. clear X.
  change (p_call (client_party now)) with (client_step now) in F. cbn [seen_effects seen_result] in F.
  exists e. split; [|exact B].
  destruct o1; try contradiction K; cbn [client_step] in F; rewrite A in F; now inversion F.
Qed.
Print Assumptions C95_after.

(** A piece of more than 256 bytes, or one that makes the unfinished input
    longer than that, ends the connection whatever it contains. *)
Theorem C95_large : forall now net st l w tr b, net_run (client_party now) net (st, new_tcp) l = (w, tr) ->
  ~ ended_connection w -> (256 < length (snd (fst w)) + length b)%nat -> b <> [] ->
  exists w', net_step (client_party now) net w (NArrives b) = (w', [SData b [] (Raise ValueError)])
    /\ ended_connection w' /\ wire w' = wire w.
Proof.
  intros now net st l [[c buf] t] tr b E Q L N. cbn [fst snd] in *.
  assert (Q0 : t_closing t = false) by (unfold ended_connection in Q; cbn in Q; now destruct (t_closing t)).
  destruct (run_facts net _ l _ _ _ 0%nat (sound_fresh st) E) as [[S1 _] _]. cbn [snd] in S1.
  assert (D : exists buf', client_step now (c, buf) (OpData b) = ((c, buf'), [], Raise ValueError)).
  { cbn [client_step fst snd]. unfold data_received.
    assert (Big : Nat.ltb MAX_BUFFER_SIZE (length buf + length b) = true) by (apply Nat.ltb_lt; exact L). rewrite Big.
    destruct (Nat.ltb MAX_BUFFER_SIZE (length b)); eauto. }
  destruct D as [buf' D]. destruct b as [|x b]; [congruence|]. cbn [net_step]. rewrite Q0.
  change (p_call (client_party now) (c, buf) (p_data (client_party now) (x :: b)))
    with (client_step now (c, buf) (OpData (x :: b))). rewrite D. cbn [p_out client_party transport_writes write_all fold_left].
  eexists. split; [reflexivity|]. unfold ended_connection, wire. cbn [snd]. unfold force_close.
  destruct (t_lost t) eqn:L1; cbn; [|auto]. destruct (S1 eq_refl). congruence.
Qed.
Print Assumptions C95_large.

(** ** An undisturbed connection *)

Lemma callbacks_warns ws : callbacks (map CWarn ws) = [].
Proof. induction ws; auto. Qed.

(** Handling data is noting the packets. *)
Lemma noted_handle now c buf c' ev r : working now c -> handle_data now c buf = (c', ev, r) ->
  exists ps, notes tt buf = (tt, ps, r) /\ working now c' /\ callbacks ev = flat_map callbacks_of ps.
Proof.
  intros [N [T I]] H. unfold notes. destruct (decode_packet buf true true true) as [ws [[p n]|e]] eqn:D.
  - destruct (C31_complete now c buf ws p n T I N D) as [c1 [ev1 [E [T1 [I1 C]]]]]. rewrite E in H. inversion H; subst.
    eexists. split; [reflexivity|]. split; [now split|]. rewrite C. destruct p; cbn; [now rewrite app_nil_r|reflexivity].
  - unfold handle_data in H. rewrite D in H. inversion H; subst. exists []. split; [reflexivity|]. split; [now split|].
    apply callbacks_warns.
Qed.
Lemma noted_processes now c buf calls c' buf' ev r : processes (handle_data now) c buf calls c' buf' ev r -> working now c ->
  exists ps, processes notes tt buf calls tt buf' ps r /\ working now c' /\ callbacks ev = flat_map callbacks_of ps.
Proof.
  induction 1 as [st|st buf st' ev e N H|st buf st' ev N H|st buf st' ev N H
                 |st buf st' ev r N H R|st buf st' ev r calls st'' buf' ev' out N H R P IH]; intros W.
  - exists []. split; [constructor|auto].
  - destruct (noted_handle _ _ _ _ _ _ W H) as [ps [A [B C]]]. exists ps. split; [now apply pr_raise|auto].
  - destruct (noted_handle _ _ _ _ _ _ W H) as [ps [A [B C]]]. exists ps. split; [now apply pr_wait|auto].
  - destruct (noted_handle _ _ _ _ _ _ W H) as [ps [A [B C]]]. exists ps. split; [now apply pr_clear|auto].
  - destruct (noted_handle _ _ _ _ _ _ W H) as [ps [A [B C]]]. exists ps. split; [now apply pr_invalid with r|auto].
  - destruct (noted_handle _ _ _ _ _ _ W H) as [ps [A [B C]]]. destruct (IH B) as [ps2 [A2 [B2 C2]]].
    exists (ps ++ ps2). split; [now apply pr_next with tt r|]. split; [exact B2|].
    rewrite callbacks_app, C, C2. symmetry. apply flat_map_app.
Qed.
Lemma noted_data now c buf b c' buf' ev r : working now c ->
  data_received (handle_data now) MAX_BUFFER_SIZE c buf b = (c', buf', ev, r) ->
  exists ps, data_received notes MAX_BUFFER_SIZE tt buf b = (tt, buf', ps, r) /\ working now c'
    /\ callbacks ev = flat_map callbacks_of ps.
Proof.
  intros W H. unfold data_received in *. destruct (Nat.ltb MAX_BUFFER_SIZE (length b)).
  { inversion H; subst. exists []. auto. }
  destruct (Nat.ltb MAX_BUFFER_SIZE (length buf + length b)).
  { inversion H; subst. exists []. auto. }
  apply process_buffer_spec in H. destruct H as [calls H]. destruct (noted_processes _ _ _ _ _ _ _ _ H W) as [ps [A [B C]]].
  exists ps. split; [|auto]. now apply processes_buffer with calls.
Qed.

Definition fine {R} (r : res R) : Prop := exists v, r = Ok v.
(** Objects that treat received data like the client does and whose other calls
    leave the receive buffer and the ability to work alone. *)
Section Undisturbed.
  Context {Op R : Type}.
  Variables (now : nat -> clockval) (net : nat -> reply) (p : party (client * bytes) Op cev R) (allowed : Op -> Prop).
  Hypothesis data_like : forall st b st' ev r, p_call p st (p_data p b) = (st', ev, r) ->
    exists r0, client_step now st (OpData b) = (st', ev, r0) /\ (fine r0 -> fine r).
  Hypothesis calls_keep : forall st o st' ev r, allowed o -> p_call p st o = (st', ev, r) ->
    working now (fst st) -> working now (fst st') /\ snd st' = snd st.

  Lemma undisturbed_run l : (forall n, net n <> Breaks) -> forall st t n w' tr buf2 log,
    ~ In NReadFails l -> ~ In (NArrives []) l -> (forall o, In (NCall o) l -> allowed o) ->
    sound t n -> t_closing t = false -> working now (fst st) ->
    receive notes MAX_BUFFER_SIZE tt (snd st) (arrived l) = (tt, buf2, log) -> Forall (fun x => snd x = Ok tt) log ->
    net_run p net (st, t) l = (w', tr) ->
    t_closing (snd w') = false /\ map fst (handed tr) = arrived l /\ Forall (fun x => fine (snd x)) (handed tr)
    /\ callbacks (data_effects tr) = flat_map callbacks_of (effects log)
    /\ snd (fst w') = buf2 /\ working now (fst (fst w')).
  Proof.
    intros NB. induction l as [|o l IH]; intros st t n w' tr buf2 log NR NE AL S Q W RN LO E; cbn [net_run] in E.
    - inversion E; subst. cbn in RN. inversion RN; subst. cbn. auto 10.
    - destruct (net_step p net (st, t) o) as [w1 t1] eqn:E1. destruct (net_run p net w1 l) as [w2 t2] eqn:E2. inversion E; subst.
      destruct (step_facts net p (st, t) o w1 t1 n S E1) as [S1 _].
      assert (NR' : ~ In NReadFails l) by (intros X; apply NR; now right).
      assert (NE' : ~ In (NArrives []) l) by (intros X; apply NE; now right).
      assert (AL' : forall x, In (NCall x) l -> allowed x) by (intros x X; apply AL; now right).
      assert (L : t_lost t = false /\ t_gone t = false).
      { destruct S as [SA [SB _]]. split; [destruct (t_lost t); [destruct (SA eq_refl); congruence|reflexivity]|
          destruct (t_gone t); [destruct (SB eq_refl); congruence|reflexivity]]. }
      destruct L as [L G].
      (* an event that shows nothing *)
      assert (Quiet : forall t', w1 = (st, t') -> t1 = [] -> t_closing t' = false -> arrived (o :: l) = arrived l ->
        t_closing (snd w') = false /\ map fst (handed (t1 ++ t2)) = arrived (o :: l)
        /\ Forall (fun x => fine (snd x)) (handed (t1 ++ t2))
        /\ callbacks (data_effects (t1 ++ t2)) = flat_map callbacks_of (effects log)
        /\ snd (fst w') = buf2 /\ working now (fst (fst w'))).
      { intros t' -> -> Q1 A. rewrite A in *. cbn [app]. apply (IH st t' (n + losses (@nil (seen Op cev R)))%nat w' t2 buf2 log); auto. }
      destruct o as [o|b| | |]; cbn [net_step] in E1.
      + destruct (p_call p st o) as [[st' ev] r] eqn:PC. inversion E1; subst.
        destruct (calls_keep _ _ _ _ _ (AL o (or_introl eq_refl)) PC W) as [W1 B1].
        destruct (writes_facts net (p_out p ev) t n S) as [_ [_ [_ [_ [_ [K _]]]]]]. destruct (K NB) as [_ K2].
        cbn [snd] in S1. change (arrived (NCall o :: l)) with (arrived l) in *. cbn [app].
        destruct (IH st' _ _ w' t2 buf2 log NR' NE' AL' S1) as [A1 [A2 [A3 [A4 [A5 A6]]]]]; auto; [congruence|now rewrite B1|].
        exact (conj A1 (conj A2 (conj A3 (conj A4 (conj A5 A6))))).
      + rewrite Q in E1. destruct b as [|x b]; [exfalso; apply NE; now left|].
        destruct (p_call p st (p_data p (x :: b))) as [[st' ev] r] eqn:PC. inversion E1; subst.
        destruct (data_like _ _ _ _ _ PC) as [r0 [D F]]. cbn [client_step] in D.
        change (arrived (NArrives (x :: b) :: l)) with ((x :: b) :: arrived l) in *. cbn [receive] in RN.
        destruct (data_received (handle_data now) MAX_BUFFER_SIZE (fst st) (snd st) (x :: b)) as [[[c1 b1] ev1] r1] eqn:DR.
        destruct (noted_data _ _ _ _ _ _ _ _ W DR) as [ps [A [B C]]]. rewrite A in RN.
        destruct (receive notes MAX_BUFFER_SIZE tt b1 (arrived l)) as [[[] b2] log2] eqn:RN2. inversion RN; subst.
        apply Forall_cons_iff in LO. destruct LO as [LO1 LO2]. cbn [snd] in LO1. subst r1. inversion D; subst.
        destruct (F (ex_intro _ _ eq_refl)) as [v Fv]. subst r.
        destruct (writes_facts net (p_out p ev) t n S) as [_ [_ [_ [_ [_ [K _]]]]]]. destruct (K NB) as [_ K2].
        cbn [snd] in S1.
        destruct (IH (c1, b1) _ _ w' t2 buf2 log2 NR' NE' AL' S1) as [A1 [A2 [A3 [A4 [A5 A6]]]]]; auto; [congruence|].
        split; [exact A1|]. cbn [app handed flat_map map fst]. fold (handed t2). split; [now rewrite A2|].
        split; [constructor; [now exists v|exact A3]|].
        cbn [data_effects flat_map effects fst]. fold (data_effects t2). fold (effects log2).
        rewrite callbacks_app, A4, flat_map_app, C. auto.
      + exfalso. apply NR. now left.
      + rewrite L in E1. destruct (t_out t) as [|y out] eqn:O; [inversion E1; subst; now apply (Quiet t)|].
        unfold try_send in E1. rewrite Q in E1. destruct (net (t_sends t)) as [k| |] eqn:NN; [|inversion E1; subst; now apply Quiet with (2 := eq_refl) (1 := eq_refl)|now destruct (NB (t_sends t))].
        destruct (skipn k (y :: out)) eqn:K; inversion E1; subst; now eapply Quiet.
      + destruct S as [_ [_ [_ SD]]]. rewrite L in SD. cbn in SD. rewrite SD in E1. inversion E1; subst. now apply (Quiet t).
  Qed.
End Undisturbed.

(** A network that does not fail, a peer that sends messages of the PCI and does
    not hang up, in pieces that are never so large as to overflow the buffer:
    the connection lasts, every message gets its callbacks in order whatever
    the program calls in between, and what is written is on the wire or waits
    for it. *)
Theorem C95_undisturbed : forall now net ps pss ws size c l w' tr,
  working now c -> program_calls l -> calm net l ->
  Forall2 conveys ps pss -> Forall2 (fun p w => serialize_packet p = Ok w) ps ws ->
  delivered (arrived l) ws -> moderate size (arrived l) ws ->
  net_run (client_party now) net ((c, []), new_tcp) l = (w', tr) ->
  ~ ended_connection w' /\ losses tr = 0%nat
  /\ map fst (handed tr) = arrived l /\ Forall (fun x => fine (snd x)) (handed tr)
  /\ callbacks (data_effects tr) = flat_map callbacks_of (concat pss)
  /\ concat (writes (emitted tr)) = wire w' ++ t_out (snd w').
Proof.
  intros now net ps pss ws size c l w' tr W PC [NB [NR NE]] C S D M E.
  destruct (receive notes MAX_BUFFER_SIZE tt [] (arrived l)) as [[[] buf2] log] eqn:RN.
  destruct (C53_recovered ps pss ws (arrived l) tt buf2 log C S D RN (or_intror (ex_intro _ size M))) as [A1 [A2 A3]].
  destruct (undisturbed_run now net (client_party now) program_call) with (l := l) (st := (c, @nil Z)) (t := new_tcp) (n := 0%nat)
    (w' := w') (tr := tr) (buf2 := buf2) (log := log) as [B1 [B2 [B3 [B4 [B5 B6]]]]]; auto.
  - intros st b st' ev r H. exists r. split; [exact H|auto].
  - intros st o st' ev r K H [N [T I]]. change (p_call (client_party now)) with (client_step now) in H.
    assert (St : steady o) by (destruct K as [K| ->]; [destruct o; try contradiction K|]; split; discriminate).
    destruct (Prop_daemon.step_stays now st o st' ev r St H) as [_ [_ [T1 I1]]].
    split; [split; [exact N|split; [congruence|auto]]|].
    destruct K as [K| ->]; [destruct o; try contradiction K|]; cbn [client_step] in H;
      match type of H with context [api now ?x (fst st)] => destruct (api now x (fst st)) as [[? ?] ?] end; now inversion H.
  - intros o X. now destruct (PC o X).
  - exact sound_new.
  - split; [unfold ended_connection; congruence|].
    destruct (run_facts net _ l _ _ _ 0%nat (@sound_fresh (client * bytes) (c, [])) E) as [[_ [G [L _]]] _]. cbn [plus] in L.
    split; [destruct (t_gone (snd w')) eqn:GG in L; [destruct (G GG); congruence|exact L]|].
    split; [exact B2|]. split; [exact B3|]. split; [now rewrite B4, A1|].
    destruct (C95_wire _ _ _ _ _ _ E) as [rest [X Y]]. rewrite X, Y, app_nil_r; [reflexivity|]. unfold ended_connection. congruence.
Qed.
Print Assumptions C95_undisturbed.

(** ** The daemon *)

(** Relations kept by what the MQTT library calls. *)
Section Mqtt_calls.
  Variable R : client -> list cev -> client -> Prop.
  Hypothesis R_refl : forall c, R c [] c.
  Hypothesis R_trans : forall c e1 c1 e2 c2, R c e1 c1 -> R c1 e2 c2 -> R c (e1 ++ e2) c2.
  Hypothesis R_emit : forall c e, is_write e = false -> e <> CFutureDone -> e <> CSpawnTimesync -> R c [e] c.
  Hypothesis R_send : forall p b, sendable p -> keeps R (send p true b).

  Lemma keeps_publishes l : keeps R (memit_all (map CPublish l)).
  Proof.
    apply keeps_emit_all; auto. intros e X. apply in_map_iff in X. destruct X as [m [<- _]]. repeat split; discriminate.
  Qed.
  Lemma keeps_message u topic body : keeps R (on_message u topic body).
  Proof.
    unfold on_message. destruct (negb _); [now apply keeps_ret|].
    destruct (get_topic_group_address u topic) as [ga|e].
    - destruct body as [j|]; [|now apply keeps_ret].
      apply keeps_bind; auto; [now apply keeps_lift|]. intros _ _ _ on _.
      apply keeps_bind; auto; [now apply keeps_lift|]. intros _ _ _ b _.
      apply keeps_bind; auto; [now apply keeps_lift|]. intros _ _ _ t _. unfold apply_light.
      assert (G : forall new gas l, keeps R (mseq (send_groups new gas) (memit_all (map CPublish l)))).
      { intros new gas l. apply keeps_seq; auto; [now apply keeps_groups|apply keeps_publishes]. }
      destruct on; [|apply G]. destruct (_ && _); [apply G|].
      apply keeps_seq; auto; [now apply keeps_ramp|apply keeps_publishes].
    - destruct e; try (now apply keeps_raise); now apply keeps_ret.
  Qed.
  Hypothesis R_mqtt : forall c, R c [] (set_mqtt c true).
  Lemma keeps_mqtt_connect labels : keeps R (on_connect labels).
  Proof.
    intros c c' ev r E. unfold on_connect in E. change ev with ([] ++ ev). apply R_trans with (set_mqtt c true); [apply R_mqtt|].
    revert E. apply keeps_seq; auto; [|apply keeps_publishes]. apply keeps_emit; auto; discriminate.
  Qed.
End Mqtt_calls.

Lemma daemon_working u now labels st o st' ev r :
  match o with DTimesync | DMqttConnected | DMqttMessage _ _ => True | _ => False end ->
  daemon_step u now labels st o = (st', ev, r) -> working now (fst st) -> working now (fst st') /\ snd st' = snd st.
Proof.
  intros K H [N [T I]]. set (R := fun (c : client) (_ : list cev) c' => Prop_daemon.stays c c').
  assert (RR : forall c, R c [] c) by (intros c; apply Prop_daemon.stays_refl).
  assert (RT : forall c e1 c1 e2 c2, R c e1 c1 -> R c1 e2 c2 -> R c (e1 ++ e2) c2).
  { intros c e1 c1 e2 c2 A B. now apply Prop_daemon.stays_trans with c1. }
  assert (RE : forall c e, is_write e = false -> e <> CFutureDone -> e <> CSpawnTimesync -> R c [e] c)
    by (intros; apply Prop_daemon.stays_refl).
  assert (RS : forall p b, sendable p -> keeps R (send p true b)) by (intros; apply Prop_daemon.send_stays).
  assert (Fin : forall c', Prop_daemon.stays (fst st) c' -> working now c').
  { intros c' [_ [_ [T1 I1]]]. split; [exact N|]. split; [congruence|auto]. }
  destruct o; try contradiction K; cbn [daemon_step] in H.
  - destruct (client_step now st OpTimesync) as [[st1 ev1] r1] eqn:E. inversion H; subst.
    split; [apply Fin; apply (Prop_daemon.step_stays now st OpTimesync st' ev r1); [split; discriminate|exact E]|].
    cbn [client_step] in E. destruct (api now OpTimesync (fst st)) as [[? ?] ?]. now inversion E.
  - destruct (on_connect labels (fst st)) as [[c1 ev1] r1] eqn:E. inversion H; subst. cbn [fst snd]. split; [|reflexivity].
    unfold on_connect in E. assert (X : keeps R (mseq (memit (CSubscribe (map (fun ga => (set_topic ga, 2)) ga_range)))
       (memit_all (map CPublish (publish_all_lights labels))))).
    { apply keeps_seq; auto; [|now apply keeps_publishes]. apply keeps_emit; auto; discriminate. }
    apply X in E. destruct E as [_ [_ [T1 I1]]]. split; [exact N|]. cbn in T1, I1. split; [congruence|apply I1, I].
  - destruct (on_message u topic payload (fst st)) as [[c1 ev1] r1] eqn:E. inversion H; subst. cbn [fst snd]. split; [|reflexivity].
    apply (keeps_message R RR RT RE RS) in E. now apply Fin.
Qed.

Theorem C95_undisturbed_daemon : forall u now labels net ps pss ws size c l w' tr,
  working now c -> daemon_calls l -> calm net l ->
  Forall2 conveys ps pss -> Forall2 (fun p w => serialize_packet p = Ok w) ps ws ->
  delivered (arrived l) ws -> moderate size (arrived l) ws ->
  net_run (daemon_party u now labels) net ((c, []), new_tcp) l = (w', tr) ->
  ~ ended_connection w' /\ losses tr = 0%nat
  /\ map fst (handed tr) = arrived l /\ Forall (fun x => fine (snd x)) (handed tr)
  /\ callbacks (data_effects tr) = flat_map callbacks_of (concat pss)
  /\ concat (writes (emitted tr)) = wire w' ++ t_out (snd w').
Proof.
  intros u now labels net ps pss ws size c l w' tr W PC [NB [NR NE]] C S D M E.
  destruct (receive notes MAX_BUFFER_SIZE tt [] (arrived l)) as [[[] buf2] log] eqn:RN.
  destruct (C53_recovered ps pss ws (arrived l) tt buf2 log C S D RN (or_intror (ex_intro _ size M))) as [A1 [A2 A3]].
  destruct (undisturbed_run now net (daemon_party u now labels)
      (fun o => match o with DTimesync | DMqttConnected | DMqttMessage _ _ => True | _ => False end))
    with (l := l) (st := (c, @nil Z)) (t := new_tcp) (n := 0%nat)
    (w' := w') (tr := tr) (buf2 := buf2) (log := log) as [B1 [B2 [B3 [B4 [B5 B6]]]]]; auto.
  - intros st b st' ev r H. change (p_call (daemon_party u now labels) st (p_data (daemon_party u now labels) b))
      with (daemon_step u now labels st (DData b)) in H. cbn [daemon_step] in H.
    destruct (client_step now st (OpData b)) as [[st1 ev1] r1] eqn:Q. inversion H; subst. exists r1. split; [reflexivity|].
    intros [v ->]. now exists tt.
  - intros st o st' ev r K H WW. exact (daemon_working u now labels st o st' ev r K H WW).
  - exact sound_new.
  - split; [unfold ended_connection; congruence|].
    destruct (run_facts net _ l _ _ _ 0%nat (@sound_fresh (client * bytes) (c, [])) E) as [[_ [G [L _]]] _]. cbn [plus] in L.
    split; [destruct (t_gone (snd w')) eqn:GG in L; [destruct (G GG); congruence|exact L]|].
    split; [exact B2|]. split; [exact B3|]. split; [now rewrite B4, A1|].
    destruct (C95_wire_daemon _ _ _ _ _ _ _ _ E) as [rest [X Y]]. rewrite X, Y, app_nil_r; [reflexivity|].
    unfold ended_connection. congruence.
Qed.
Print Assumptions C95_undisturbed_daemon.

(** The daemon waits for the future: it goes on until it is told that the
    connection is lost, and not longer. *)
Theorem C95_future_daemon : forall u now labels net timesync no_clock l w' tr,
  daemon_calls l -> net_run (daemon_party u now labels) net (new_daemon timesync no_clock, new_tcp) (NCall DConnected :: l) = (w', tr) ->
  signals (emitted tr) = losses tr /\ (cl_future (fst (fst w')) = Done <-> losses tr = 1%nat).
Proof.
  intros u now labels net timesync no_clock l w' tr DC E.
  pose proof (C95_once _ _ _ _ _ _ _ _ _ _ E) as [L _].
  assert (SA : forall a b, signals (a ++ b) = (signals a + signals b)%nat).
  { intros a b. unfold signals. now rewrite filter_app, app_length. }
  set (R := fun c ev c' => cl_future c' = cl_future c /\ signals ev = 0%nat).
  assert (RR : forall c, R c [] c) by (intros c; split; reflexivity).
  assert (RT : forall c e1 c1 e2 c2, R c e1 c1 -> R c1 e2 c2 -> R c (e1 ++ e2) c2).
  { intros c e1 c1 e2 c2 [A1 A2] [B1 B2]. split; [congruence|]. rewrite SA, A2, B2. reflexivity. }
  assert (RD : forall c n, R c [] (set_reads c n)) by (intros; split; reflexivity).
  assert (RE : forall c e, is_write e = false -> e <> CFutureDone -> e <> CSpawnTimesync -> R c [e] c).
  { intros c e _ H _. split; [reflexivity|]. destruct e; try reflexivity. congruence. }
  assert (RS : forall p b, sendable p -> keeps R (send p true b)).
  { intros p b S c c1 ev1 r1 F. unfold send in F.
    destruct (negb (cl_transport c)); [inversion F; split; reflexivity|].
    destruct (negb (is_base_packet p)); [inversion F; split; reflexivity|].
    destruct (encode_packet p); [|inversion F; split; reflexivity].
    destruct (true && negb (is_special_client p)).
    + unfold mbind, get_confirmation_code in F.
      destruct (nth_error CONFIRMATION_CODES (cl_index c)); inversion F; split; reflexivity.
    + inversion F; split; reflexivity. }
  assert (RK : forall c n, R c [] (set_tasks c n)) by (intros; split; reflexivity).
  (* every call but the loss *)
  assert (Quiet : forall st o st' ev r, o <> DLost -> daemon_step u now labels st o = (st', ev, r) -> R (fst st) ev (fst st')).
  { intros st o st' ev r NL H. destruct o; try congruence; cbn [daemon_step] in H.
    - destruct (client_step now st OpConnect) as [[st1 ev1] r1] eqn:Q. inversion H; subst.
      cbn [client_step api] in Q. destruct (mseq connection_made (mret (@None Z)) (fst st)) as [[c1 ev1] r2] eqn:D. inversion Q; subst.
      cbn [fst]. revert D. apply (keeps_seq R RT connection_made (mret None)); [|now apply keeps_ret].
      apply keeps_connect; auto; intros; split; reflexivity.
    - destruct (client_step now st (OpData b)) as [[st1 ev1] r1] eqn:Q. inversion H; subst.
      apply (keeps_step R RR RT RD RE RS RK) in Q; [exact Q|split; discriminate].
    - destruct (client_step now st OpTimesync) as [[st1 ev1] r1] eqn:Q. inversion H; subst.
      apply (keeps_step R RR RT RD RE RS RK) in Q; [exact Q|split; discriminate].
    - destruct (on_connect labels (fst st)) as [[c1 ev1] r1] eqn:Q. inversion H; subst. cbn [fst].
      revert Q. apply (keeps_mqtt_connect R RR RT RE). intros; split; reflexivity.
    - destruct (on_message u topic payload (fst st)) as [[c1 ev1] r1] eqn:Q. inversion H; subst. cbn [fst].
      revert Q. now apply (keeps_message R RR RT RE RS). }
  assert (Gen : forall l w w' tr, (forall o, In (NCall o) l -> o <> DLost) -> net_run (daemon_party u now labels) net w l = (w', tr) ->
    match cl_future (fst (fst w)) with
    | Pending => (losses tr = 0%nat /\ signals (emitted tr) = 0%nat /\ cl_future (fst (fst w')) = Pending)
                 \/ ((0 < losses tr)%nat /\ signals (emitted tr) = 1%nat /\ cl_future (fst (fst w')) = Done)
    | f => signals (emitted tr) = 0%nat /\ cl_future (fst (fst w')) = f
    end).
  { clear - SA Quiet. induction l as [|o l IH]; intros w w' tr NL E; cbn [net_run] in E.
    - inversion E; subst. cbn. destruct (cl_future (fst (fst w'))); auto.
    - destruct (net_step _ net w o) as [w1 t1] eqn:E1. destruct (net_run _ net w1 l) as [w2 t2] eqn:E2. inversion E; subst.
      assert (NL' : forall x, In (NCall x) l -> x <> DLost) by (intros x X; apply NL; now right).
      specialize (IH _ _ _ NL' E2). rewrite losses_app, emitted_app, SA.
      destruct (step_history _ _ _ _ _ _ E1) as [[-> F]|[s [-> [F M]]]].
      + rewrite F in IH. exact IH.
      + change (p_call (daemon_party u now labels)) with (daemon_step u now labels) in F.
        assert (OS : losses [s] = 0%nat /\ R (fst (fst w)) (emitted [s]) (fst (fst w1)) \/
                     exists ev r, s = SLost ev r).
        { destruct s as [x ev r|b ev r|ev r]; [left|left|right; eauto]; (split; [reflexivity|]);
            cbn [emitted flat_map]; rewrite app_nil_r; cbn [seen_effects seen_result] in *.
          - apply (Quiet _ _ _ _ _ (NL x (or_introl M)) F).
          - apply (Quiet _ (DData b) _ _ r); [discriminate|exact F]. }
        destruct OS as [[L0 [F1 F2]]|[ev [r ->]]].
        * rewrite L0, F2. rewrite F1 in IH. exact IH.
        * change (losses [SLost ev r]) with 1%nat. change (emitted [SLost ev r]) with (ev ++ []). rewrite app_nil_r.
          change (p_lost (daemon_party u now labels)) with DLost in F. cbn [daemon_step client_step api seen_effects seen_result] in F.
          unfold mseq, mbind in F. destruct (C52_lost (fst (fst w))) as [c' [ev1 [r1 [Q [_ [_ X]]]]]]. rewrite Q in F.
          assert (F1 : fst (fst w1) = c' /\ ev = ev1).
          { destruct r1; cbn in F; injection F as F3 F4 _; (split; [now rewrite <- F3|]); now rewrite <- F4, ?app_nil_r. }
          destruct F1 as [F1 ->]. rewrite F1 in IH. destruct (cl_future (fst (fst w))); destruct X as [_ [-> X]]; rewrite X in IH; cbn [signals filter length plus].
          -- exact IH.
          -- destruct IH as [I1 I2]. right. split; [lia|]. split; [rewrite I1; reflexivity|exact I2].
          -- exact IH. }
  assert (NL : forall o, In (NCall o) (NCall DConnected :: l) -> o <> DLost).
  { intros o [X|X] ->; [discriminate|]. exact (DC _ X). }
  specialize (Gen _ _ _ _ NL E). cbn [fst new_daemon cl_future new_client] in Gen.
  destruct Gen as [[G1 [G2 G3]]|[G1 [G2 G3]]]; rewrite G2, G3; (split; [lia|]); split; intros; try discriminate; try lia; reflexivity.
Qed.
Print Assumptions C95_future_daemon.

(** ** What does not hold *)

Definition open_net : nat -> reply := fun _ => Takes 1000.

(** Telegrams of the PCI can end the connection: seventeen of them, if they
    arrive at once. *)
Theorem C95_burst_refuted :
  ~ (forall now net ps pss ws c l w' tr, working now c -> program_calls l -> calm net l ->
     Forall2 conveys ps pss -> Forall2 (fun p w => serialize_packet p = Ok w) ps ws -> delivered (arrived l) ws ->
     net_run (client_party now) net ((c, []), new_tcp) l = (w', tr) -> ~ ended_connection w').
Proof.
  intros H. destruct (net_run (client_party noon) open_net ((listener, []), new_tcp) [NArrives (concat (repeat light_line 17))])
    as [w' tr] eqn:E.
  destruct (telegrams_sent (repeat light_line 17) (repeat light_told 17)) as [ps [C S]].
  { repeat (apply Forall2_cons; [exact light_telegram|]). constructor. }
  refine (H noon open_net ps _ _ listener _ w' tr listener_works _ _ C S _ E _).
  - intros o [X|[]]. discriminate.
  - split; [discriminate|]. split; (intros [X|[]]; discriminate).
  - vm_compute. reflexivity.
  - vm_compute in E. injection E as <- _. reflexivity.
Qed.
Print Assumptions C95_burst_refuted.

(** A command that returned its confirmation code may never be sent, though the
    network takes whatever it is given: between the exception and the turn of
    the event loop nothing tells the caller. *)
Theorem C95_sent_refuted :
  ~ (forall now net c l w' tr o ev code, working now c -> program_calls l -> calm net l -> (forall n, net n = Takes 1000) ->
     net_run (client_party now) net ((c, []), new_tcp) l = (w', tr) -> In (SCall o ev (Ok (Some code))) tr ->
     exists x y, wire w' ++ t_out (snd w') = x ++ concat (writes ev) ++ y).
Proof.
  intros H. destruct (net_run (client_party noon) open_net ((listener, []), new_tcp)
     [NArrives (concat (repeat light_line 17)); NCall (OpOn [1]); NTurn]) as [w' tr] eqn:E.
  destruct (H noon open_net listener [NArrives (concat (repeat light_line 17)); NCall (OpOn [1]); NTurn] w' tr (OpOn [1]) [CWrite (txt "\053800790149h" ++ [13])] 104 listener_works) with (4 := E)
    as [x [y X]].
  - intros o [X|[X|[X|[]]]]; try discriminate. injection X as <-. split; [now left|exact I].
  - split; [discriminate|]. split; (intros [X|[X|[X|[]]]]; discriminate).
  - reflexivity.
  - vm_compute in E. injection E as _ <-. vm_compute. auto.
  - vm_compute in E. injection E as <- _. vm_compute in X. now destruct x.
Qed.
Print Assumptions C95_sent_refuted.

(** A client that connects, gets a telegram in two pieces, sends a command of
    which the network takes ten bytes and then the rest, and receives seventeen
    telegrams at once. *)
Definition case_history : list (net_op cop) :=
  [NCall OpConnect; NArrives (firstn 7 light_line); NArrives (skipn 7 light_line); NCall (OpOn [1]); NWritable;
   NArrives (concat (repeat light_line 17)); NCall (OpOff [2]); NArrives light_line; NTurn; NCall (OpOn [3])].
Definition case_net (n : nat) : reply := if Nat.eqb n 6 then Takes 10%nat else Takes 1000%nat.
Example C95_case_hypotheses : program_calls (tl case_history) /\ calm case_net case_history.
Proof.
  split.
  - intros o X. unfold case_history in X. cbn [tl] in X.
    repeat (destruct X as [X|X]; [first [discriminate X|injection X as <-; split; [now left|exact I]]|]). destruct X.
  - split; [intros n; unfold case_net; destruct (Nat.eqb n 6); discriminate|].
    split; intros X; unfold case_history in X; repeat (destruct X as [X|X]; [vm_compute in X; discriminate X|]); destruct X.
Qed.
Example C95_case :
  let r := net_run (client_party noon) case_net ((new_client ClassPCI 0 false Pending, []), new_tcp) case_history in
  let w' := fst r in let tr := snd r in
  map snd (handed tr) = [Ok None; Ok None; Raise ValueError] /\ losses tr = 1%nat /\ signals (emitted tr) = 1%nat
  /\ callbacks (data_effects tr) = [COn (Some 16) 3]
  /\ skipn (length (wire w') - 15) (wire w') = txt "\053800790149k" ++ [13]
  /\ map seen_result (skipn 3 tr) = [Ok (Some 107); Raise ValueError; Ok (Some 108); Ok None; Raise OSError].
Proof. vm_compute. repeat split. Qed.
(** The same with an undisturbed network. *)
Example C95_undisturbed_case :
  let l := [NArrives (firstn 7 light_line); NCall (OpOn [1]); NArrives (skipn 7 light_line ++ light_line); NWritable; NTurn;
            NArrives light_line; NCall (OpRamp 1 4 (PInt 100))] in
  let ws := repeat light_line 3 in
  let r := net_run (client_party noon) open_net ((listener, []), new_tcp) l in
  delivered (arrived l) ws /\ Forall2 telegram ws (repeat light_told 3) /\ moderate 16 (arrived l) ws
  /\ callbacks (data_effects (snd r)) = [COn (Some 16) 3; COn (Some 16) 3; COn (Some 16) 3]
  /\ wire (fst r) = txt "\053800790149h" ++ [13] ++ txt "\0538000A016454i" ++ [13].
Proof.
  cbn zeta. split; [vm_compute; reflexivity|]. split; [repeat (apply Forall2_cons; [exact light_telegram|]); constructor|].
  split; [split; [lia|]; split; repeat constructor; vm_compute; lia|]. split; vm_compute; reflexivity.
Qed.
