(** A client and a PCI at the two ends of the redirector see what they see at
    the two ends of one connection. *)
From Coq Require Import List ZArith Bool Lia Arith.
From Verif Require Import Py Common Sal Packet Buffered Client Server Spec_client Spec_server Loop Redirect Spec_redirect Redirect_facts RedirectLink.
Import ListNotations.
Open Scope Z_scope.

(** The redirector serves its first connection. *)
Definition serving (p : prog) (c : conn) : Prop :=
  p = mkProg (p_serial p) [c] true /\ c_alive c = true /\ c_reader c <> RGone /\
  (c_writer c = WTop \/ c_writer c = WRecv \/ exists d, c_writer c = WWrite d) /\ c_closed c = false.

(** The same as one connection: the bytes on the way are those on the two ways
    and in the hands of the redirector. *)
Definition flat (k : chain) (c : conn) : link :=
  mkLink (h_client k) (h_line k ++ kept c ++ c_net c) (h_server k) (h_sock k ++ hold c ++ p_serial (h_prog k)).

Lemma flat_net k c b : serving (h_prog k) c ->
  exists c', serving (h_prog (redirect k (NetIn 0 b))) c' /\
    flat (redirect k (NetIn 0 b)) c' =
    mkLink (h_client k) (k_up (flat k c) ++ b) (h_server k) (k_down (flat k c)).
Proof.
  intros (E & A & R & W & C). exists (mkConn (c_alive c) (c_reader c) (c_writer c) (c_net c ++ b) false).
  unfold redirect. rewrite E. cbn [step p_up negb p_conns nth_error]. rewrite C. cbn. split.
  - repeat split; auto.
  - unfold flat, kept, hold. cbn. now rewrite !app_nil_r, !app_assoc.
Qed.
Lemma flat_serial k c b : serving (h_prog k) c ->
  serving (h_prog (redirect k (SerialIn b))) c /\
    flat (redirect k (SerialIn b)) c =
    mkLink (h_client k) (k_up (flat k c)) (h_server k) (k_down (flat k c) ++ b).
Proof.
  intros (E & A & R & W & C). unfold redirect. rewrite E. cbn. split.
  - repeat split; auto.
  - unfold flat. cbn. now rewrite !app_nil_r, !app_assoc.
Qed.
Lemma flat_reader k c n : serving (h_prog k) c ->
  exists c', serving (h_prog (redirect k (Reader 0 (Fine n)))) c' /\ flat (redirect k (Reader 0 (Fine n))) c' = flat k c.
Proof.
  intros (E & A & R & W & C). destruct c as [al r w net cl]. cbn in *. subst al cl.
  unfold redirect. rewrite E. cbn [step p_up negb p_conns nth_error]. unfold reader_step. cbn [c_reader c_alive c_writer c_net c_closed].
  destruct r as [| |d|].
  - eexists. cbn. split; [repeat split; cbn; eauto; discriminate|]. unfold flat, kept, hold. cbn. now rewrite !app_nil_r.
  - destruct (firstn n (p_serial (h_prog k))) as [|x xs] eqn:F.
    + eexists. cbn. rewrite F. split; [repeat split; cbn; eauto; discriminate|]. unfold flat, kept, hold. cbn. now rewrite !app_nil_r.
    + eexists. cbn [p_serial]. rewrite F. split; [cbn; repeat split; cbn; eauto; discriminate|]. unfold flat, kept, hold. cbn. rewrite !app_nil_r.
      f_equal. f_equal. change (x :: xs ++ skipn n (p_serial (h_prog k))) with ((x :: xs) ++ skipn n (p_serial (h_prog k))).
      rewrite <- F. apply firstn_skipn.
  - eexists. cbn. split; [repeat split; cbn; eauto; discriminate|]. unfold flat, kept, hold. cbn. now rewrite !app_nil_r, <- !app_assoc.
  - congruence.
Qed.
Lemma flat_writer k c n : serving (h_prog k) c ->
  exists c', serving (h_prog (redirect k (Writer 0 (Fine n)))) c' /\ flat (redirect k (Writer 0 (Fine n))) c' = flat k c.
Proof.
  intros (E & A & R & W & C). destruct c as [al r w net cl]. cbn in *. subst al cl.
  unfold redirect. rewrite E. cbn [step p_up negb p_conns nth_error]. unfold writer_step. cbn [c_reader c_alive c_writer c_net c_closed].
  destruct w as [| |d| |].
  - eexists. cbn. split; [repeat split; cbn; eauto|]. unfold flat, kept, hold. cbn. now rewrite !app_nil_r.
  - destruct net as [|x net].
    + eexists. cbn. split; [repeat split; cbn; eauto|]. unfold flat, kept, hold. cbn. now rewrite !app_nil_r.
    + eexists. split; [cbn -[firstn skipn Nat.min Nat.max]; repeat split; cbn -[firstn skipn Nat.min Nat.max]; eauto|].
      unfold flat, kept, hold. cbn -[firstn skipn Nat.min Nat.max]. rewrite !app_nil_r. now rewrite firstn_skipn.
  - eexists. cbn. split; [repeat split; cbn; eauto|]. unfold flat, kept, hold. cbn. now rewrite !app_nil_r, <- !app_assoc.
  - exfalso. destruct W as [X|[X|(d & X)]]; discriminate.
  - exfalso. destruct W as [X|[X|(d & X)]]; discriminate.
Qed.

Lemma redirect_ends k o : h_client (redirect k o) = h_client k /\ h_server (redirect k o) = h_server k.
Proof. unfold redirect. destruct (step None (h_prog k) o). auto. Qed.

Lemma flat_client now k c o : serving (h_prog k) c ->
  exists c', let (k', x) := h_at_client now k o in
    serving (h_prog k') c' /\ let (j, y) := at_client now (flat k c) o in flat k' c' = j /\ x = [y].
Proof.
  intro S. unfold h_at_client, at_client. cbn [k_client flat].
  destruct (client_step now (h_client k) o) as [[st ev] r].
  destruct (flat_net (mkChain st (h_prog k) (h_line k) (h_server k) (h_sock k)) c (concat (writes ev)) S) as (c' & S' & E).
  exists c'. split; auto.
Qed.
Lemma flat_server rnd k c o : serving (h_prog k) c ->
  let (k', x) := h_at_server rnd k o in
    serving (h_prog k') c /\ let (j, y) := at_server rnd (flat k c) o in flat k' c = j /\ x = [y].
Proof.
  intro S. unfold h_at_server, at_server. cbn [k_server flat].
  destruct (server_step rnd (h_server k) o) as [[st ev] r].
  destruct (flat_serial (mkChain (h_client k) (h_prog k) (h_line k) st (h_sock k)) c (concat (swrites ev)) S) as (S' & E).
  split; auto.
Qed.

Lemma firstn_part {A} n (a b : list A) : firstn (Nat.min n (List.length a)) (a ++ b) = firstn n a /\
  skipn (Nat.min n (List.length a)) (a ++ b) = skipn n a ++ b.
Proof.
  revert a. induction n; intros [|x a]; cbn; auto. destruct (IHn a) as [-> ->]. auto.
Qed.

(** Schedules whose calls on the ends are of a certain kind. *)
Definition kind_h (Pc : cop -> Prop) (Ps : sop -> Prop) (Pu : nat -> Prop) (o : hop) : Prop :=
  match o with HClient o => Pc o | HServer o => Ps o | HUp n => Pu n | _ => True end.
Definition kind_l (Pc : cop -> Prop) (Ps : sop -> Prop) (Pu : nat -> Prop) (o : lop) : Prop :=
  match o with AtClient o => Pc o | AtServer o => Ps o | Up n => Pu n | _ => True end.

Lemma forward now rnd Pc Ps (Pu : nat -> Prop) : (forall n m, (m <= n)%nat -> Pu n -> Pu m) -> forall l k c, serving (h_prog k) c -> Forall (kind_h Pc Ps Pu) l ->
  exists l', Forall (kind_l Pc Ps Pu) l' /\ snd (link_run now rnd (flat k c) l') = snd (h_run now rnd k l).
Proof.
  intro PU. induction l as [|o l IH]; intros k c S Q0; [exists []; auto|]. inversion Q0 as [|? ? Q1 Q2]; subst.
  cbn [h_run]. destruct o as [o|o|n|n|n|n]; cbn [h_step].
  - destruct (flat_client now k c o S) as (c' & H). destruct (h_at_client now k o) as [k' x] eqn:E. destruct H as [S' H].
    destruct (at_client now (flat k c) o) as [j y] eqn:F. destruct H as [Hj ->].
    destruct (IH _ _ S' Q2) as (l' & K' & H'). exists (AtClient o :: l'). split; [constructor; [first [exact Q1|exact Logic.I|exact (PU _ _ (Nat.le_min_l _ _) Q1)]|exact K']|]. cbn [link_run link_step]. rewrite F, <- Hj.
    destruct (link_run now rnd (flat k' c') l'), (h_run now rnd k' l). cbn in *. now rewrite H'.
  - pose proof (flat_server rnd k c o S) as H. destruct (h_at_server rnd k o) as [k' x] eqn:E. destruct H as [S' H].
    destruct (at_server rnd (flat k c) o) as [j y] eqn:F. destruct H as [Hj ->].
    destruct (IH _ _ S' Q2) as (l' & K' & H'). exists (AtServer o :: l'). split; [constructor; [first [exact Q1|exact Logic.I|exact (PU _ _ (Nat.le_min_l _ _) Q1)]|exact K']|]. cbn [link_run link_step]. rewrite F, <- Hj.
    destruct (link_run now rnd (flat k' c) l'), (h_run now rnd k' l). cbn in *. now rewrite H'.
  - set (k1 := mkChain (h_client k) (h_prog k) (skipn n (h_line k)) (h_server k) (h_sock k)).
    pose proof (flat_server rnd k1 c (SOpData (firstn n (h_line k))) S) as H.
    destruct (h_at_server rnd k1 _) as [k' x] eqn:E. destruct H as [S' H].
    destruct (at_server rnd (flat k1 c) _) as [j y] eqn:F. destruct H as [Hj ->].
    destruct (IH _ _ S' Q2) as (l' & K' & H'). exists (Up (Nat.min n (List.length (h_line k))) :: l'). split; [constructor; [first [exact Q1|exact Logic.I|exact (PU _ _ (Nat.le_min_l _ _) Q1)]|exact K']|]. cbn [link_run link_step].
    assert (Q : mkLink (k_client (flat k c)) (skipn (Nat.min n (List.length (h_line k))) (k_up (flat k c))) (k_server (flat k c)) (k_down (flat k c)) = flat k1 c).
    { unfold flat, k1. cbn. now destruct (firstn_part n (h_line k) (kept c ++ c_net c)) as [_ ->]. }
    rewrite Q. replace (firstn _ (k_up (flat k c))) with (firstn n (h_line k)).
    2: { cbn. symmetry. apply firstn_part. }
    rewrite F, <- Hj. destruct (link_run now rnd (flat k' c) l'), (h_run now rnd k' l). cbn in *. now rewrite H'.
  - set (k1 := mkChain (h_client k) (h_prog k) (h_line k) (h_server k) (skipn n (h_sock k))).
    destruct (flat_client now k1 c (OpData (firstn n (h_sock k))) S) as (c' & H).
    destruct (h_at_client now k1 _) as [k' x] eqn:E. destruct H as [S' H].
    destruct (at_client now (flat k1 c) _) as [j y] eqn:F. destruct H as [Hj ->].
    destruct (IH _ _ S' Q2) as (l' & K' & H'). exists (Down (Nat.min n (List.length (h_sock k))) :: l'). split; [constructor; [first [exact Q1|exact Logic.I|exact (PU _ _ (Nat.le_min_l _ _) Q1)]|exact K']|]. cbn [link_run link_step].
    assert (Q : mkLink (k_client (flat k c)) (k_up (flat k c)) (k_server (flat k c)) (skipn (Nat.min n (List.length (h_sock k))) (k_down (flat k c))) = flat k1 c).
    { unfold flat, k1. cbn. now destruct (firstn_part n (h_sock k) (hold c ++ p_serial (h_prog k))) as [_ ->]. }
    rewrite Q. replace (firstn _ (k_down (flat k c))) with (firstn n (h_sock k)).
    2: { cbn. symmetry. apply firstn_part. }
    rewrite F, <- Hj. destruct (link_run now rnd (flat k' c') l'), (h_run now rnd k' l). cbn in *. now rewrite H'.
  - destruct (flat_reader k c n S) as (c' & S' & E). destruct (IH _ _ S' Q2) as (l' & K' & H'). exists l'. split; [exact K'|]. rewrite <- E.
    destruct (h_run now rnd (redirect k (Reader 0 (Fine n))) l). exact H'.
  - destruct (flat_writer k c n S) as (c' & S' & E). destruct (IH _ _ S' Q2) as (l' & K' & H'). exists l'. split; [exact K'|]. rewrite <- E.
    destruct (h_run now rnd (redirect k (Writer 0 (Fine n))) l). exact H'.
Qed.

(** Moves of the threads. *)
Definition move (m : bool * nat) : hop := if fst m then HReader (snd m) else HWriter (snd m).
Fixpoint moves (k : chain) (l : list (bool * nat)) : chain :=
  match l with
  | [] => k
  | m :: l' => moves (redirect k (if fst m then Reader 0 (Fine (snd m)) else Writer 0 (Fine (snd m)))) l'
  end.
Lemma h_run_moves now rnd : forall m k l, h_run now rnd k (map move m ++ l) = h_run now rnd (moves k m) l.
Proof.
  induction m as [|[b n] m IH]; intros k l; [reflexivity|]. destruct b; cbn; rewrite IH;
    match goal with |- context [h_run now rnd ?x l] => destruct (h_run now rnd x l) end; reflexivity.
Qed.
Lemma moves_flat : forall m k c, serving (h_prog k) c ->
  exists c', serving (h_prog (moves k m)) c' /\ flat (moves k m) c' = flat k c.
Proof.
  induction m as [|[b n] m IH]; intros k c S; [eauto|]. cbn. destruct b; cbn.
  - destruct (flat_reader k c n S) as (c1 & S1 & E1). destruct (IH _ _ S1) as (c2 & S2 & E2). exists c2. split; auto. congruence.
  - destruct (flat_writer k c n S) as (c1 & S1 & E1). destruct (IH _ _ S1) as (c2 & S2 & E2). exists c2. split; auto. congruence.
Qed.
Lemma moves_prog : forall l k c, serving (h_prog k) c -> Forall thread_step l ->
  exists m, h_prog (moves k m) = fst (run None (h_prog k) l).
Proof.
  induction l as [|o l IH]; intros k c V F; [exists []; reflexivity|]. inversion F as [|? ? T F']; subst.
  assert (P : forall o, h_prog (redirect k o) = fst (step None (h_prog k) o)) by (intro; unfold redirect; now destruct (step None (h_prog k) _)).
  assert (N : forall i h, step None (h_prog k) (Reader (S i) h) = (h_prog k, []) /\ step None (h_prog k) (Writer (S i) h) = (h_prog k, [])).
  { intros i h. destruct V as (E & _). rewrite E. cbn. destruct i; auto. }
  destruct o as [| | | |i [n|n]|i [n|n]]; try contradiction; destruct i as [|i].
  - destruct (flat_reader k c n V) as (c' & S' & _). destruct (IH _ _ S' F') as (m & E).
    exists ((true, n) :: m). cbn [moves fst snd]. rewrite E, P.
    cbn [run]. destruct (step None (h_prog k) (Reader 0 (Fine n))) as [p1 e1]. cbn [fst]. now destruct (run None p1 l).
  - destruct (IH _ _ V F') as (m & E). exists m. rewrite E. cbn [run]. destruct (N i (Fine n)) as [-> _]. now destruct (run None (h_prog k) l).
  - destruct (flat_writer k c n V) as (c' & S' & _). destruct (IH _ _ S' F') as (m & E).
    exists ((false, n) :: m). cbn [moves fst snd]. rewrite E, P.
    cbn [run]. destruct (step None (h_prog k) (Writer 0 (Fine n))) as [p1 e1]. cbn [fst]. now destruct (run None p1 l).
  - destruct (IH _ _ V F') as (m & E). exists m. rewrite E. cbn [run]. destruct (N i (Fine n)) as [_ ->]. now destruct (run None (h_prog k) l).
Qed.
(** Everything on the way up reaches the serial line, and everything on the way
    down the client's connection. *)
Lemma all_up k c : serving (h_prog k) c -> exists m c', serving (h_prog (moves k m)) c' /\
  flat (moves k m) c' = flat k c /\ h_line (moves k m) = k_up (flat k c).
Proof.
  intro S. pose proof S as (E & A & R & W & C).
  destruct (leads_written None [] (List.length (c_net c)) c (p_serial (h_prog k)) (le_n _) (or_introl A)) as (l & F & c1 & H1 & H2 & H3).
  { intros [X|X]; destruct W as [Y|[Y|(d & Y)]]; congruence. }
  cbn [app] in H1. rewrite <- E in H1. destruct (moves_prog l k c S F) as (m & M). rewrite <- M in H1.
  destruct (moves_flat m k c S) as (c2 & S2 & F2). exists m, c2. split; auto. split; auto.
  assert (c2 = c1) as -> by (destruct S2 as (E2 & _); rewrite E2 in H1; cbn in H1; congruence).
  rewrite <- F2. cbn. rewrite H2, H3. cbn. now rewrite app_nil_r.
Qed.
Lemma all_down k c : serving (h_prog k) c -> exists m c', serving (h_prog (moves k m)) c' /\
  flat (moves k m) c' = flat k c /\ h_sock (moves k m) = k_down (flat k c).
Proof.
  intro S. pose proof S as (E & A & R & W & C).
  destruct (leads_sent None [] (p_serial (h_prog k)) c A R) as (l & F & H0 & c1 & H1 & H2).
  cbn [app] in H0, H1. rewrite <- E in H0, H1. destruct (moves_prog l k c S F) as (m & M). rewrite <- M in H0, H1.
  destruct (moves_flat m k c S) as (c2 & S2 & F2). exists m, c2. split; auto. split; auto.
  assert (c2 = c1) as -> by (destruct S2 as (E2 & _); rewrite E2 in H1; cbn in H1; congruence).
  rewrite <- F2. cbn. rewrite H2, H0. cbn. now rewrite app_nil_r.
Qed.

Lemma moves_kind Pc Ps Pu m : Forall (kind_h Pc Ps Pu) (map move m).
Proof. induction m as [|[[|] n] m IH]; constructor; cbn; auto. Qed.
Lemma backward now rnd Pc Ps Pu : forall l k c, serving (h_prog k) c -> Forall (kind_l Pc Ps Pu) l ->
  exists l', Forall (kind_h Pc Ps Pu) l' /\ snd (h_run now rnd k l') = snd (link_run now rnd (flat k c) l).
Proof.
  induction l as [|o l IH]; intros k c S Q0; [exists []; auto|]. inversion Q0 as [|? ? Q1 Q2]; subst.
  cbn [link_run]. destruct o as [o|o|n|n]; cbn [link_step].
  - destruct (flat_client now k c o S) as (c' & H). destruct (h_at_client now k o) as [k' x] eqn:E. destruct H as [S' H].
    destruct (at_client now (flat k c) o) as [j y] eqn:F. destruct H as [Hj ->].
    destruct (IH _ _ S' Q2) as (l' & K' & H'). exists (HClient o :: l'). split; [constructor; [exact Q1|exact K']|]. cbn [h_run h_step]. rewrite E, <- Hj.
    destruct (link_run now rnd (flat k' c') l), (h_run now rnd k' l'). cbn in *. now rewrite H'.
  - pose proof (flat_server rnd k c o S) as H. destruct (h_at_server rnd k o) as [k' x] eqn:E. destruct H as [S' H].
    destruct (at_server rnd (flat k c) o) as [j y] eqn:F. destruct H as [Hj ->].
    destruct (IH _ _ S' Q2) as (l' & K' & H'). exists (HServer o :: l'). split; [constructor; [exact Q1|exact K']|]. cbn [h_run h_step]. rewrite E, <- Hj.
    destruct (link_run now rnd (flat k' c) l), (h_run now rnd k' l'). cbn in *. now rewrite H'.
  - destruct (all_up k c S) as (m & c0 & S0 & F0 & L0). rewrite <- F0 in *. clear S F0 c.
    pose proof (h_run_moves now rnd m k) as M. remember (moves k m) as k0 eqn:K0. clear K0.
    assert (L1 : k_up (flat k0 c0) = h_line k0 ++ []) by (now rewrite app_nil_r).
    assert (Z : kept c0 ++ c_net c0 = []).
    { cbn in L1. apply app_inv_head in L1. exact L1. }
    set (k1 := mkChain (h_client k0) (h_prog k0) (skipn n (h_line k0)) (h_server k0) (h_sock k0)).
    pose proof (flat_server rnd k1 c0 (SOpData (firstn n (h_line k0))) S0) as H.
    destruct (h_at_server rnd k1 _) as [k' x] eqn:E. destruct H as [S' H].
    destruct (at_server rnd (flat k1 c0) _) as [j y] eqn:F. destruct H as [Hj ->].
    destruct (IH _ _ S' Q2) as (l' & K' & H'). exists (map move m ++ HUp n :: l'). split; [apply Forall_app; split; [apply moves_kind|constructor; [first [exact Q1|exact Logic.I]|exact K']]|]. rewrite M. cbn [h_run h_step]. fold k1. rewrite E.
    assert (Q : mkLink (k_client (flat k0 c0)) (skipn n (k_up (flat k0 c0))) (k_server (flat k0 c0)) (k_down (flat k0 c0)) = flat k1 c0).
    { unfold flat, k1. cbn. now rewrite Z, !app_nil_r. }
    rewrite Q, <- L0, F, <- Hj. destruct (link_run now rnd (flat k' c0) l), (h_run now rnd k' l'). cbn in *. now rewrite H'.
  - destruct (all_down k c S) as (m & c0 & S0 & F0 & L0). rewrite <- F0 in *. clear S F0 c.
    pose proof (h_run_moves now rnd m k) as M. remember (moves k m) as k0 eqn:K0. clear K0.
    assert (L1 : k_down (flat k0 c0) = h_sock k0 ++ []) by (now rewrite app_nil_r).
    assert (Z : hold c0 ++ p_serial (h_prog k0) = []).
    { cbn in L1. apply app_inv_head in L1. exact L1. }
    set (k1 := mkChain (h_client k0) (h_prog k0) (h_line k0) (h_server k0) (skipn n (h_sock k0))).
    destruct (flat_client now k1 c0 (OpData (firstn n (h_sock k0))) S0) as (c' & H).
    destruct (h_at_client now k1 _) as [k' x] eqn:E. destruct H as [S' H].
    destruct (at_client now (flat k1 c0) _) as [j y] eqn:F. destruct H as [Hj ->].
    destruct (IH _ _ S' Q2) as (l' & K' & H'). exists (map move m ++ HDown n :: l'). split; [apply Forall_app; split; [apply moves_kind|constructor; [first [exact Q1|exact Logic.I]|exact K']]|]. rewrite M. cbn [h_run h_step]. fold k1. rewrite E.
    assert (Q : mkLink (k_client (flat k0 c0)) (k_up (flat k0 c0)) (k_server (flat k0 c0)) (skipn n (k_down (flat k0 c0))) = flat k1 c0).
    { unfold flat, k1. cbn. now rewrite Z, !app_nil_r. }
    rewrite Q, <- L0, F, <- Hj. destruct (link_run now rnd (flat k' c') l), (h_run now rnd k' l'). cbn in *. now rewrite H'.
Qed.

Lemma start_serving c : serving (h_prog (mkChain (c, []) (fst (step None listening Accept)) [] (new_server, []) []))
  (mkConn true RTop WTop [] false).
Proof. repeat split; cbn; auto. discriminate. Qed.

Lemma start_same now rnd c : exists k c', serving (h_prog k) c' /\
  (forall l, snd (talk_through now rnd c l) = snd (talk now rnd c []) ++ snd (h_run now rnd k l)) /\
  (forall l, snd (talk now rnd c l) = snd (talk now rnd c []) ++ snd (link_run now rnd (flat k c') l)).
Proof.
  unfold talk_through, talk.
  set (k0 := mkChain (c, []) (fst (step None listening Accept)) [] (new_server, []) []).
  pose proof (start_serving c) as V. fold k0 in V.
  pose proof (flat_server rnd k0 _ SOpConnect V) as H. cbn [h_run h_step link_run link_step].
  change (flat k0 (mkConn true RTop WTop [] false)) with (new_link c) in H.
  destruct (h_at_server rnd k0 SOpConnect) as [k1 x1]. destruct H as [V1 H].
  destruct (at_server rnd (new_link c) SOpConnect) as [j1 y1]. destruct H as [<- ->].
  destruct (flat_client now k1 _ OpConnect V1) as (c' & H).
  destruct (h_at_client now k1 OpConnect) as [k2 x2]. destruct H as [V2 H].
  destruct (at_client now (flat k1 (mkConn true RTop WTop [] false)) OpConnect) as [j2 y2]. destruct H as [<- ->].
  exists k2, c'. split; auto. split; intro l; [destruct (h_run now rnd k2 l) | destruct (link_run now rnd (flat k2 c') l)]; reflexivity.
Qed.
