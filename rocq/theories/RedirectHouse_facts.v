(** The daemon and a PCI at the two ends of the redirector see what they see at
    the two ends of one connection. *)
From Coq Require Import List ZArith Bool Lia Arith.
From Verif Require Import Py Common Sal Packet Text Mqtt Buffered Client Cmqttd Daemon Server Spec_client Spec_server Loop
  Redirect Spec_redirect Redirect_facts RedirectLink RedirectLink_facts House RedirectHouse.
Import ListNotations.
Open Scope Z_scope.

Lemma t_flat_daemon u now labels k c o : serving (h_prog k) c ->
  exists c', let (k', x) := t_at_daemon u now labels k o in
    serving (h_prog k') c' /\ let (j, y) := at_daemon u now labels (flat k c) o in flat k' c' = j /\ x = [y].
Proof.
  intro S. unfold t_at_daemon, at_daemon. cbn [k_client flat].
  destruct (daemon_step u now labels (h_client k) o) as [[st ev] r].
  destruct (flat_net (mkChain st (h_prog k) (h_line k) (h_server k) (h_sock k)) c (concat (writes ev)) S) as (c' & S' & E).
  exists c'. split; auto.
Qed.
Lemma t_flat_pci rnd k c o : serving (h_prog k) c ->
  let (k', x) := t_at_pci rnd k o in
    serving (h_prog k') c /\ let (j, y) := at_pci rnd (flat k c) o in flat k' c = j /\ x = [y].
Proof.
  intro S. unfold t_at_pci, at_pci. cbn [k_server flat].
  destruct (server_step rnd (h_server k) o) as [[st ev] r].
  destruct (flat_serial (mkChain (h_client k) (h_prog k) (h_line k) st (h_sock k)) c (concat (swrites ev)) S) as (S' & E).
  split; auto.
Qed.

(** Schedules whose calls on the ends are of a certain kind. *)
Definition kind_t (Pc : dop -> Prop) (Ps : sop -> Prop) (Pu : nat -> Prop) (o : top) : Prop :=
  match o with TDaemon o => Pc o | TPci o => Ps o | TRise n => Pu n | _ => True end.
Definition kind_o (Pc : dop -> Prop) (Ps : sop -> Prop) (Pu : nat -> Prop) (o : hop) : Prop :=
  match o with AtDaemon o => Pc o | AtPci o => Ps o | Rise n => Pu n | _ => True end.

Lemma t_forward u now labels rnd Pc Ps (Pu : nat -> Prop) : (forall n m, (m <= n)%nat -> Pu n -> Pu m) -> forall l k c, serving (h_prog k) c -> Forall (kind_t Pc Ps Pu) l ->
  exists l' c2, Forall (kind_o Pc Ps Pu) l' /\ serving (h_prog (fst (t_run u now labels rnd k l))) c2
    /\ house_run u now labels rnd (flat k c) l' = (flat (fst (t_run u now labels rnd k l)) c2, snd (t_run u now labels rnd k l)).
Proof.
  intro PU. induction l as [|o l IH]; intros k c S Q0; [exists [], c; auto|]. inversion Q0 as [|? ? Q1 Q2]; subst.
  cbn [t_run]. destruct o as [o|o|n|n|n|n]; cbn [t_step].
  - destruct (t_flat_daemon u now labels k c o S) as (c' & H). destruct (t_at_daemon u now labels k o) as [k' x] eqn:E. destruct H as [S' H].
    destruct (at_daemon u now labels (flat k c) o) as [j y] eqn:F. destruct H as [Hj ->].
    destruct (IH _ _ S' Q2) as (l' & c2 & K' & V' & H'). exists (AtDaemon o :: l'), c2. split; [constructor; [first [exact Q1|exact Logic.I|exact (PU _ _ (Nat.le_min_l _ _) Q1)]|exact K']|]. cbn [house_run house_step]. rewrite F, <- Hj.
    rewrite H'. destruct (t_run u now labels rnd k' l). auto.
  - pose proof (t_flat_pci rnd k c o S) as H. destruct (t_at_pci rnd k o) as [k' x] eqn:E. destruct H as [S' H].
    destruct (at_pci rnd (flat k c) o) as [j y] eqn:F. destruct H as [Hj ->].
    destruct (IH _ _ S' Q2) as (l' & c2 & K' & V' & H'). exists (AtPci o :: l'), c2. split; [constructor; [first [exact Q1|exact Logic.I|exact (PU _ _ (Nat.le_min_l _ _) Q1)]|exact K']|]. cbn [house_run house_step]. rewrite F, <- Hj.
    rewrite H'. destruct (t_run u now labels rnd k' l). auto.
  - set (k1 := mkChain (h_client k) (h_prog k) (skipn n (h_line k)) (h_server k) (h_sock k)).
    pose proof (t_flat_pci rnd k1 c (SOpData (firstn n (h_line k))) S) as H.
    destruct (t_at_pci rnd k1 _) as [k' x] eqn:E. destruct H as [S' H].
    destruct (at_pci rnd (flat k1 c) _) as [j y] eqn:F. destruct H as [Hj ->].
    destruct (IH _ _ S' Q2) as (l' & c2 & K' & V' & H'). exists (Rise (Nat.min n (List.length (h_line k))) :: l'), c2. split; [constructor; [first [exact Q1|exact Logic.I|exact (PU _ _ (Nat.le_min_l _ _) Q1)]|exact K']|]. cbn [house_run house_step].
    assert (Q : mkLink (k_client (flat k c)) (skipn (Nat.min n (List.length (h_line k))) (k_up (flat k c))) (k_server (flat k c)) (k_down (flat k c)) = flat k1 c).
    { unfold flat, k1. cbn. now destruct (firstn_part n (h_line k) (kept c ++ c_net c)) as [_ ->]. }
    rewrite Q. replace (firstn _ (k_up (flat k c))) with (firstn n (h_line k)).
    2: { cbn. symmetry. apply firstn_part. }
    rewrite F, <- Hj. rewrite H'. destruct (t_run u now labels rnd k' l). auto.
  - set (k1 := mkChain (h_client k) (h_prog k) (h_line k) (h_server k) (skipn n (h_sock k))).
    destruct (t_flat_daemon u now labels k1 c (DData (firstn n (h_sock k))) S) as (c' & H).
    destruct (t_at_daemon u now labels k1 _) as [k' x] eqn:E. destruct H as [S' H].
    destruct (at_daemon u now labels (flat k1 c) _) as [j y] eqn:F. destruct H as [Hj ->].
    destruct (IH _ _ S' Q2) as (l' & c2 & K' & V' & H'). exists (Fall (Nat.min n (List.length (h_sock k))) :: l'), c2. split; [constructor; [first [exact Q1|exact Logic.I|exact (PU _ _ (Nat.le_min_l _ _) Q1)]|exact K']|]. cbn [house_run house_step].
    assert (Q : mkLink (k_client (flat k c)) (k_up (flat k c)) (k_server (flat k c)) (skipn (Nat.min n (List.length (h_sock k))) (k_down (flat k c))) = flat k1 c).
    { unfold flat, k1. cbn. now destruct (firstn_part n (h_sock k) (hold c ++ p_serial (h_prog k))) as [_ ->]. }
    rewrite Q. replace (firstn _ (k_down (flat k c))) with (firstn n (h_sock k)).
    2: { cbn. symmetry. apply firstn_part. }
    rewrite F, <- Hj. rewrite H'. destruct (t_run u now labels rnd k' l). auto.
  - destruct (flat_reader k c n S) as (c' & S' & E). destruct (IH _ _ S' Q2) as (l' & c2 & K' & V' & H'). exists l', c2. split; [exact K'|]. rewrite <- E.
    destruct (t_run u now labels rnd (redirect k (Reader 0 (Fine n))) l). auto.
  - destruct (flat_writer k c n S) as (c' & S' & E). destruct (IH _ _ S' Q2) as (l' & c2 & K' & V' & H'). exists l', c2. split; [exact K'|]. rewrite <- E.
    destruct (t_run u now labels rnd (redirect k (Writer 0 (Fine n))) l). auto.
Qed.

Definition tmove (m : bool * nat) : top := if fst m then TReader (snd m) else TWriter (snd m).
Lemma t_run_moves u now labels rnd : forall m k l, t_run u now labels rnd k (map tmove m ++ l) = t_run u now labels rnd (moves k m) l.
Proof.
  induction m as [|[b n] m IH]; intros k l; [reflexivity|]. destruct b; cbn; rewrite IH;
    match goal with |- context [t_run u now labels rnd ?x l] => destruct (t_run u now labels rnd x l) end; reflexivity.
Qed.
Lemma t_moves_kind Pc Ps Pu m : Forall (kind_t Pc Ps Pu) (map tmove m).
Proof. induction m as [|[[|] n] m IH]; constructor; cbn; auto. Qed.
Lemma t_backward u now labels rnd Pc Ps Pu : forall l k c, serving (h_prog k) c -> Forall (kind_o Pc Ps Pu) l ->
  exists l', Forall (kind_t Pc Ps Pu) l' /\ snd (t_run u now labels rnd k l') = snd (house_run u now labels rnd (flat k c) l).
Proof.
  induction l as [|o l IH]; intros k c S Q0; [exists []; auto|]. inversion Q0 as [|? ? Q1 Q2]; subst.
  cbn [house_run]. destruct o as [o|o|n|n]; cbn [house_step].
  - destruct (t_flat_daemon u now labels k c o S) as (c' & H). destruct (t_at_daemon u now labels k o) as [k' x] eqn:E. destruct H as [S' H].
    destruct (at_daemon u now labels (flat k c) o) as [j y] eqn:F. destruct H as [Hj ->].
    destruct (IH _ _ S' Q2) as (l' & K' & H'). exists (TDaemon o :: l'). split; [constructor; [exact Q1|exact K']|]. cbn [t_run t_step]. rewrite E, <- Hj.
    destruct (house_run u now labels rnd (flat k' c') l), (t_run u now labels rnd k' l'). cbn in *. now rewrite H'.
  - pose proof (t_flat_pci rnd k c o S) as H. destruct (t_at_pci rnd k o) as [k' x] eqn:E. destruct H as [S' H].
    destruct (at_pci rnd (flat k c) o) as [j y] eqn:F. destruct H as [Hj ->].
    destruct (IH _ _ S' Q2) as (l' & K' & H'). exists (TPci o :: l'). split; [constructor; [exact Q1|exact K']|]. cbn [t_run t_step]. rewrite E, <- Hj.
    destruct (house_run u now labels rnd (flat k' c) l), (t_run u now labels rnd k' l'). cbn in *. now rewrite H'.
  - destruct (all_up k c S) as (m & c0 & S0 & F0 & L0). rewrite <- F0 in *. clear S F0 c.
    pose proof (t_run_moves u now labels rnd m k) as M. remember (moves k m) as k0 eqn:K0. clear K0.
    assert (L1 : k_up (flat k0 c0) = h_line k0 ++ []) by (now rewrite app_nil_r).
    assert (Z : kept c0 ++ c_net c0 = []).
    { cbn in L1. apply app_inv_head in L1. exact L1. }
    set (k1 := mkChain (h_client k0) (h_prog k0) (skipn n (h_line k0)) (h_server k0) (h_sock k0)).
    pose proof (t_flat_pci rnd k1 c0 (SOpData (firstn n (h_line k0))) S0) as H.
    destruct (t_at_pci rnd k1 _) as [k' x] eqn:E. destruct H as [S' H].
    destruct (at_pci rnd (flat k1 c0) _) as [j y] eqn:F. destruct H as [Hj ->].
    destruct (IH _ _ S' Q2) as (l' & K' & H'). exists (map tmove m ++ TRise n :: l'). split; [apply Forall_app; split; [apply t_moves_kind|constructor; [first [exact Q1|exact Logic.I]|exact K']]|]. rewrite M. cbn [t_run t_step]. fold k1. rewrite E.
    assert (Q : mkLink (k_client (flat k0 c0)) (skipn n (k_up (flat k0 c0))) (k_server (flat k0 c0)) (k_down (flat k0 c0)) = flat k1 c0).
    { unfold flat, k1. cbn. now rewrite Z, !app_nil_r. }
    rewrite Q, <- L0, F, <- Hj. destruct (house_run u now labels rnd (flat k' c0) l), (t_run u now labels rnd k' l'). cbn in *. now rewrite H'.
  - destruct (all_down k c S) as (m & c0 & S0 & F0 & L0). rewrite <- F0 in *. clear S F0 c.
    pose proof (t_run_moves u now labels rnd m k) as M. remember (moves k m) as k0 eqn:K0. clear K0.
    assert (L1 : k_down (flat k0 c0) = h_sock k0 ++ []) by (now rewrite app_nil_r).
    assert (Z : hold c0 ++ p_serial (h_prog k0) = []).
    { cbn in L1. apply app_inv_head in L1. exact L1. }
    set (k1 := mkChain (h_client k0) (h_prog k0) (h_line k0) (h_server k0) (skipn n (h_sock k0))).
    destruct (t_flat_daemon u now labels k1 c0 (DData (firstn n (h_sock k0))) S0) as (c' & H).
    destruct (t_at_daemon u now labels k1 _) as [k' x] eqn:E. destruct H as [S' H].
    destruct (at_daemon u now labels (flat k1 c0) _) as [j y] eqn:F. destruct H as [Hj ->].
    destruct (IH _ _ S' Q2) as (l' & K' & H'). exists (map tmove m ++ TFall n :: l'). split; [apply Forall_app; split; [apply t_moves_kind|constructor; [first [exact Q1|exact Logic.I]|exact K']]|]. rewrite M. cbn [t_run t_step]. fold k1. rewrite E.
    assert (Q : mkLink (k_client (flat k0 c0)) (k_up (flat k0 c0)) (k_server (flat k0 c0)) (skipn n (k_down (flat k0 c0))) = flat k1 c0).
    { unfold flat, k1. cbn. now rewrite Z, !app_nil_r. }
    rewrite Q, <- L0, F, <- Hj. destruct (house_run u now labels rnd (flat k' c') l), (t_run u now labels rnd k' l'). cbn in *. now rewrite H'.
Qed.

Lemma t_start u now labels rnd ts nc : exists k c, serving (h_prog k) c /\
  (forall l, house_through u now labels rnd ts nc l
             = (fst (t_run u now labels rnd k l), snd (house u now labels rnd ts nc []) ++ snd (t_run u now labels rnd k l))) /\
  (forall l, house u now labels rnd ts nc l
             = (fst (house_run u now labels rnd (flat k c) l),
                snd (house u now labels rnd ts nc []) ++ snd (house_run u now labels rnd (flat k c) l))).
Proof.
  unfold house_through, house.
  set (k0 := mkChain (new_daemon ts nc) (fst (step None listening Accept)) [] (new_server, []) []).
  assert (V : serving (h_prog k0) (mkConn true RTop WTop [] false)) by (repeat split; cbn; auto; discriminate).
  pose proof (t_flat_pci rnd k0 _ SOpConnect V) as H. cbn [t_run t_step house_run house_step].
  change (flat k0 (mkConn true RTop WTop [] false)) with (mkLink (new_daemon ts nc) [] (new_server, []) []) in H.
  destruct (t_at_pci rnd k0 SOpConnect) as [k1 x1]. destruct H as [V1 H].
  destruct (at_pci rnd (mkLink (new_daemon ts nc) [] (new_server, []) []) SOpConnect) as [j1 y1]. destruct H as [<- ->].
  destruct (t_flat_daemon u now labels k1 _ DConnected V1) as (c' & H).
  destruct (t_at_daemon u now labels k1 DConnected) as [k2 x2]. destruct H as [V2 H].
  destruct (at_daemon u now labels (flat k1 (mkConn true RTop WTop [] false)) DConnected) as [j2 y2]. destruct H as [<- ->].
  exists k2, c'. split; auto.
  split; intro l; [destruct (t_run u now labels rnd k2 l) | destruct (house_run u now labels rnd (flat k2 c') l)]; reflexivity.
Qed.

(** A run through the redirector as a run over one connection. *)
Lemma t_carry u now labels rnd ts nc Pc Ps (Pu : nat -> Prop) : (forall n m, (m <= n)%nat -> Pu n -> Pu m) ->
  forall l k tr, Forall (kind_t Pc Ps Pu) l -> house_through u now labels rnd ts nc l = (k, tr) ->
  exists l' c, Forall (kind_o Pc Ps Pu) l' /\ serving (h_prog k) c /\ house u now labels rnd ts nc l' = (flat k c, tr).
Proof.
  intros PU l k tr Q E. destruct (t_start u now labels rnd ts nc) as (k0 & c0 & V & H1 & H2).
  destruct (t_forward u now labels rnd Pc Ps Pu PU l k0 c0 V Q) as (l' & c & K & S & R).
  rewrite (H1 l) in E. inversion E; subst. exists l', c. split; [exact K|]. split; [exact S|]. rewrite (H2 l'), R. reflexivity.
Qed.
(** The same for a run that begins with a call on the daemon. *)
Lemma t_carry_first u now labels rnd ts nc Pc Ps (Pu : nat -> Prop) o : (forall n m, (m <= n)%nat -> Pu n -> Pu m) ->
  forall l k tr, Forall (kind_t Pc Ps Pu) l -> house_through u now labels rnd ts nc (TDaemon o :: l) = (k, tr) ->
  exists l' c, Forall (kind_o Pc Ps Pu) l' /\ serving (h_prog k) c /\ house u now labels rnd ts nc (AtDaemon o :: l') = (flat k c, tr).
Proof.
  intros PU l k tr Q E. destruct (t_start u now labels rnd ts nc) as (k0 & c0 & V & H1 & H2).
  rewrite (H1 _) in E. cbn [t_run t_step] in E.
  destruct (t_flat_daemon u now labels k0 c0 o V) as (c' & H). destruct (t_at_daemon u now labels k0 o) as [k' x]. destruct H as [S' H].
  destruct (at_daemon u now labels (flat k0 c0) o) as [j y] eqn:F. destruct H as [Hj ->].
  destruct (t_forward u now labels rnd Pc Ps Pu PU l k' c' S' Q) as (l' & c & K & S & R).
  destruct (t_run u now labels rnd k' l) as [k2 tr2]. cbn [fst snd] in *.
  inversion E; subst. exists l', c. split; [exact K|]. split; [exact S|].
  rewrite (H2 _). cbn [house_run house_step]. rewrite F, R. reflexivity.
Qed.
