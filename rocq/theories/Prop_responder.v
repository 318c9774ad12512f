(** C90: the discovery responder. *)
From Coq Require Import String List ZArith Bool Lia Arith.
From Verif Require Import Py Text Responder.
Import ListNotations.
Open Scope Z_scope.

(** The layout of docs/cni-discovery.rst: a query begins with CB 80 00 00; a
    reply that announces a product and a port. *)
Definition is_query (data : bytes) : Prop := exists r, data = [203; 128; 0; 0] ++ r.
Definition announces (data : bytes) (product port : Z) : Prop :=
  exists u1 u6 u8, List.length u1 = 4%nat /\ List.length u8 = 2%nat /\ 0 <= port < 65536 /\
    data = [203; 129; 0; 0] ++ u1 ++ [129; 1; 0; 1] ++ [product] ++ [129; 11; 0; 2] ++ [port / 256; port mod 256]
           ++ [129; 29; 0; 1] ++ [u6] ++ [128; 1; 0; 2] ++ u8.

Lemma same_bytes_eq : forall a b, same_bytes a b = true <-> a = b.
Proof.
  induction a as [|x a IH]; intros [|y b]; cbn; try (split; [discriminate|discriminate]); [tauto|].
  rewrite andb_true_iff, Z.eqb_eq, IH. split; [intros [-> ->]; auto|]. intro E. injection E as -> ->. auto.
Qed.
Lemma query_iff data : same_bytes (firstn 4 data) discovery_query = true <-> is_query data.
Proof.
  rewrite same_bytes_eq. unfold is_query, discovery_query. split.
  - intro E. exists (skipn 4 data). rewrite <- E. symmetry. apply firstn_skipn.
  - intros (r & ->). reflexivity.
Qed.
Definition reply : bytes := [203; 129; 0; 0; 32; 232; 245; 82; 129; 1; 0; 1; 5; 129; 11; 0; 2; 39; 33; 129; 29; 0; 1; 0; 128; 1; 0; 2; 102; 30].
Lemma reply_decodes : b16decode reply_text = Ok reply. Proof. vm_compute. reflexivity. Qed.

(** To a query it sends one datagram, from where it listens to where the query
    came from, which has the documented layout and announces a product of an
    unknown kind (5) at port 10017; to anything else it sends nothing. *)
Theorem C90_answers : forall me data from,
  (is_query data -> exists d, datagram_received me data from = Ok [mkDatagram me from d] /\ announces d 5 10017) /\
  (~ is_query data -> datagram_received me data from = Ok []).
Proof.
  intros me data from. unfold datagram_received. rewrite reply_decodes. split; intro Q.
  - apply query_iff in Q. rewrite Q. exists reply. split; auto.
    exists [32; 232; 245; 82], 0, [102; 30]. repeat split; cbn; try lia.
  - destruct (same_bytes (firstn 4 data) discovery_query) eqn:E; auto. apply query_iff in E. contradiction.
Qed.
(** The port of a CNI in the documentation is 10001; this is not what it
    announces. *)
Theorem C90_documented_port_refuted : forall me data from product,
  ~ (exists d, datagram_received me data from = Ok [mkDatagram me from d] /\ announces d product 10001).
Proof.
  intros me data from product (d & E & u1 & u6 & u8 & L1 & L8 & _ & D).
  unfold datagram_received in E. rewrite reply_decodes in E. destruct (same_bytes _ _); [|discriminate].
  injection E as <-. do 4 (destruct u1 as [|? u1]; [discriminate|]). destruct u1; [|discriminate].
  cbn in D. discriminate.
Qed.
(** Nor does it answer to port 20050 of the asking host, as documented, but to
    the port the query came from. *)
Theorem C90_documented_destination_refuted : exists me data host port,
  is_query data /\ forall out g, datagram_received me data (host, port) = Ok out -> In g out -> g_to g <> (host, 20050).
Proof.
  exists (1, 20050), [203; 128; 0; 0], 7, 5000. split; [exists []; reflexivity|].
  intros out g E. vm_compute in E. injection E as <-. intros [<-|[]]. discriminate.
Qed.

(** However many responders there are, wherever the datagrams come from and in
    whatever order they are delivered, they fall silent: each datagram that was
    on its way at the start causes at most one other. *)
Fixpoint weight (l : list datagram) : nat :=
  match l with
  | [] => 0
  | g :: l' => (if same_bytes (firstn 4 (g_data g)) discovery_query then 2 else 1) + weight l'
  end.
Lemma weight_app a b : weight (a ++ b) = (weight a + weight b)%nat.
Proof. induction a; cbn; auto. rewrite IHa. lia. Qed.
Lemma weight_two l : (weight l <= 2 * List.length l)%nat.
Proof. induction l as [|g l IH]; cbn; auto. destruct (same_bytes _ _); lia. Qed.
Lemma deliver_weight hosts f n f' : deliver hosts f n = Some f' -> (weight f' < weight f)%nat.
Proof.
  unfold deliver. destruct (nth_error f n) as [g|] eqn:H; [|discriminate].
  assert (S : weight f = ((if same_bytes (firstn 4 (g_data g)) discovery_query then 2 else 1) + weight (firstn n f ++ skipn (S n) f))%nat).
  { revert n H. induction f as [|x f IH]; intros [|n] H; cbn in H; try discriminate.
    - injection H as ->. reflexivity.
    - change (skipn (S (S n)) (x :: f)) with (skipn (S n) f).
      change (firstn (S n) (x :: f) ++ skipn (S n) f) with (x :: (firstn n f ++ skipn (S n) f)).
      cbn [weight]. specialize (IH _ H). lia. }
  unfold datagram_received. rewrite reply_decodes.
  destruct (responder hosts (g_to g)), (same_bytes (firstn 4 (g_data g)) discovery_query);
    intro E; injection E as <-; rewrite ?weight_app; rewrite S; rewrite ?weight_app; cbn; lia.
Qed.
Theorem C90_no_storm : forall hosts flying l end_,
  deliveries hosts flying l = Some end_ -> (List.length l <= 2 * List.length flying)%nat.
Proof.
  intros hosts flying l end_ E. pose proof (weight_two flying).
  assert (List.length l <= weight flying)%nat; [|lia]. clear H. revert flying E.
  induction l as [|n l IH]; intros f E; cbn in *; [lia|].
  destruct (deliver hosts f n) as [f'|] eqn:D; [|discriminate].
  apply deliver_weight in D. specialize (IH _ E). lia.
Qed.
(** What a delivery does: a query to port 20050 of a host with a responder is
    replaced by one reply, from there to where it came from; any other datagram
    is gone. *)
Theorem C90_delivery : forall hosts before g after,
  (hosts (fst (g_to g)) = true /\ snd (g_to g) = 20050 /\ is_query (g_data g)
   /\ (exists d, deliver hosts (before ++ g :: after) (List.length before)
         = Some (before ++ after ++ [mkDatagram (g_to g) (g_from g) d]) /\ announces d 5 10017))
  \/ ((hosts (fst (g_to g)) = false \/ snd (g_to g) <> 20050 \/ ~ is_query (g_data g))
      /\ deliver hosts (before ++ g :: after) (List.length before) = Some (before ++ after)).
Proof.
  intros hosts before g after.
  assert (D : deliver hosts (before ++ g :: after) (List.length before)
    = if responder hosts (g_to g) then
        match datagram_received (g_to g) (g_data g) (g_from g) with
        | Ok out => Some ((before ++ after) ++ out)
        | Raise _ => Some (before ++ after)
        end
      else Some (before ++ after)).
  { unfold deliver. rewrite nth_error_app2, Nat.sub_diag by lia. cbn [nth_error].
    assert (R : firstn (List.length before) (before ++ g :: after) ++ skipn (S (List.length before)) (before ++ g :: after) = before ++ after).
    { rewrite firstn_app, firstn_all, Nat.sub_diag. cbn [firstn]. rewrite app_nil_r. f_equal.
      replace (S (List.length before)) with (List.length (before ++ [g])) by (rewrite app_length; cbn; lia).
      replace (before ++ g :: after) with ((before ++ [g]) ++ after) by now rewrite <- app_assoc.
      rewrite skipn_app, skipn_all, Nat.sub_diag. reflexivity. }
    rewrite R. reflexivity. }
  rewrite D. clear D. unfold responder. destruct (hosts (fst (g_to g))) eqn:H; cbn [andb]; [|right; auto].
  destruct (snd (g_to g) =? discovery_port) eqn:P.
  2:{ right. apply Z.eqb_neq in P. unfold discovery_port in P. auto. }
  apply Z.eqb_eq in P. unfold discovery_port in P.
  destruct (C90_answers (g_to g) (g_data g) (g_from g)) as [A B].
  destruct (same_bytes (firstn 4 (g_data g)) discovery_query) eqn:Q.
  - apply query_iff in Q. destruct (A Q) as [d [E Hd]]. left. split; [reflexivity|]. split; [exact P|]. split; [exact Q|].
    exists d. rewrite E, <- app_assoc. now split.
  - right. assert (N : ~ is_query (g_data g)) by (intros X; apply query_iff in X; congruence).
    split; [auto|]. rewrite (B N), app_nil_r. reflexivity.
Qed.
Print Assumptions C90_delivery.
(** A query that claims to come from another responder: two deliveries. *)
Example C90_case : deliveries (fun _ => true) [mkDatagram (2, 20050) (1, 20050) ([203; 128; 0; 0] ++ [0; 0; 0; 0])] [0; 0]%nat = Some []
  /\ is_query ([203; 128; 0; 0] ++ [0; 0; 0; 0]).
Proof. split; [reflexivity|]. eexists. reflexivity. Qed.

Print Assumptions C90_answers.
Print Assumptions C90_documented_port_refuted.
Print Assumptions C90_documented_destination_refuted.
Print Assumptions C90_no_storm.
