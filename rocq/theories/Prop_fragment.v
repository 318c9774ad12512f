(** C69: a command stream to the emulated PCI can be cut into pieces anywhere,
    unless it has CALs without addressing. *)
From Coq Require Import List ZArith Bool Lia.
From Verif Require Import Py Common Sal Cal Packet Buffered Server Base Spec Packet_facts Packet_decode
  Packet_total Buffer_facts Spec_server.
Import ListNotations.
Open Scope Z_scope.

Notation length := List.length.

(** ** The commands of a stream *)

Lemma opens_plain head tl : opens head -> (forall x, In x [126; 110; 117; 108; 108] -> ~ In x (firstn 1 tl)) ->
  hd_error (head ++ tl) <> Some 126 /\ starts_with [110; 117; 108; 108] (head ++ tl) = false.
Proof.
  intros [O1 O2] T. split.
  - destruct head as [|a head]; cbn [app hd_error].
    + destruct tl as [|b tl]; [discriminate|]. intros H. inversion H; subst.
      apply (T 126); cbn; auto.
    + intros H. inversion H; subst. now apply (O1 head).
  - destruct (starts_with _ _) eqn:S; [exfalso|reflexivity].
    apply starts_with_spec in S. destruct S as [r S].
    assert (Q : forall h n, n = [110; 117; 108; 108] -> forall k,
      h ++ tl = skipn k n ++ r -> firstn k n ++ h = firstn k n ++ h ->
      (exists t, firstn k n ++ h = n ++ t) \/ (exists x, In x n /\ In x (firstn 1 tl))).
    { clear. intros h n -> k. revert k. induction h as [|a h IH]; intros k E _.
      - cbn [app] in E. destruct k as [|[|[|[|k]]]]; cbn in E.
        + right. subst tl. exists 110. cbn. auto.
        + right. subst tl. exists 117. cbn. auto.
        + right. subst tl. exists 108. cbn. auto.
        + right. subst tl. exists 108. cbn. auto 6.
        + left. exists []. destruct k; reflexivity.
      - destruct k as [|[|[|[|k]]]]; cbn in E.
        + injection E as -> E'. destruct (IH 1%nat E' eq_refl) as [[t F]|F]; [|now right].
          left. exists t. cbn in F |- *. exact F.
        + injection E as -> E'. destruct (IH 2%nat E' eq_refl) as [[t F]|F]; [|now right].
          left. exists t. cbn in F |- *. exact F.
        + injection E as -> E'. destruct (IH 3%nat E' eq_refl) as [[t F]|F]; [|now right].
          left. exists t. cbn in F |- *. exact F.
        + injection E as -> E'. destruct (IH 4%nat E' eq_refl) as [[t F]|F]; [|now right].
          left. exists t. cbn in F |- *. exact F.
        + left. exists (a :: h). destruct k; reflexivity. }
    destruct (Q head _ eq_refl 0%nat S eq_refl) as [[t F]|[x [F G]]].
    + now apply (O2 t).
    + apply (T x); [cbn in F |- *; tauto|exact G].
Qed.

Lemma cancel_decode typed data ck strict : opens typed -> ~ In 13 typed -> ~ In 63 typed -> In 13 data ->
  decode_packet (typed ++ 63 :: data) ck strict false = ([], Ok (None, length (typed ++ [63]))).
Proof.
  intros O H13 H63 D.
  destruct (opens_plain typed (63 :: data) O) as [P1 P2].
  { cbn. intros x X [<-|[]]. repeat (destruct X as [X|X]; try discriminate). contradiction. }
  apply in_split in D. destruct D as [d1 [d2 D]].
  assert (exists d1 d2, data = d1 ++ 13 :: d2 /\ ~ In 13 d1) as [e1 [e2 [-> E]]].
  { clear -D. revert d1 data D. induction d1 as [|a d1 IH]; intros data ->.
    - exists [], d2. split; [reflexivity|auto].
    - destruct (Z.eq_dec a 13) as [->|N]; [exists [], (d1 ++ 13 :: d2); split; [reflexivity|auto]|].
      destruct (IH _ eq_refl) as [e1 [e2 [F G]]]. exists (a :: e1), e2. cbn [app]. rewrite F.
      split; [reflexivity|]. intros [X|X]; auto. }
  clear D.
  destruct (typed ++ 63 :: e1 ++ 13 :: e2) as [|c0 tl] eqn:Q; [destruct typed; discriminate|].
  unfold decode_packet. cbn [hd_error] in P1.
  replace (c0 =? 126) with false by (symmetry; apply Z.eqb_neq; congruence).
  rewrite P2. rewrite <- Q.
  replace (typed ++ 63 :: e1 ++ 13 :: e2) with ((typed ++ 63 :: e1) ++ 13 :: e2)
    by (rewrite <- app_assoc; reflexivity).
  assert (N13 : ~ In 13 (typed ++ 63 :: e1)).
  { rewrite in_app_iff. cbn [In]. intros [|[|]]; auto; discriminate. }
  destruct (_ || _) eqn:B.
  { apply bar_line in B; [|exact N13]. exfalso.
    destruct typed as [|a [|b typed]], e1; destruct B as [B|B]; try discriminate.
    all: try (inversion B; subst; try (apply H63; cbn; auto; fail)).
    all: destruct typed; discriminate. }
  rewrite find_cr by exact N13.
  assert (F : find [63] ((typed ++ 63 :: e1) ++ 13 :: e2) = Some (length typed)).
  { rewrite <- app_assoc. cbn [app]. apply (find_app typed [63] (e1 ++ 13 :: e2) 63); [discriminate|reflexivity|exact H63]. }
  rewrite F. replace (Nat.ltb (length typed) (length (typed ++ 63 :: e1))) with true
    by (symmetry; apply Nat.ltb_lt; rewrite app_length; cbn [length]; lia).
  rewrite app_length. reflexivity.
Qed.

Lemma line_decode line data ck : opens line -> ~ In 13 line -> ~ In 63 line ->
  decode_packet (line ++ 13 :: data) ck true false = decode_packet (line ++ [13]) ck true false
  /\ forall ws r n, decode_packet (line ++ [13]) ck true false = (ws, Ok (r, n)) ->
     (forall c, r <> Some (PktCal c)) -> n = length (line ++ [13]).
Proof.
  intros O H13 H63.
  assert (C : command_complete (line ++ [13])) by (right; right; now exists line, []).
  split.
  - pose proof (to_pci_stable _ data ck true C) as S. now rewrite <- app_assoc in S.
  - intros ws r n D N. destruct (opens_plain line [13] O) as [P1 P2].
    { cbn. intros x X [<-|[]]. repeat (destruct X as [X|X]; try discriminate). contradiction. }
    destruct (list_eq_dec Z.eq_dec line [124]) as [->|B1]; [vm_compute in D; now inversion D|].
    destruct (list_eq_dec Z.eq_dec line [124; 124]) as [->|B2]; [vm_compute in D; now inversion D|].
    assert (PL : plain_line line).
    { split; [|split; [|now split]].
      - destruct line; [discriminate|exact P1].
      - now rewrite starts_with_before in P2 by (cbn; lia). }
    pose proof D as U. rewrite to_pci_line in D by assumption. apply line_pos in D.
    apply to_pci_position in U.
    destruct U as [[U _]|[? [? [? [? [? [c [? [_ [_ [_ [_ [_ [_ [_ [E _]]]]]]]]]]]]]]]]; [|now apply N in E].
    rewrite app_length in U |- *. cbn [length] in U |- *. lia.
Qed.

(** The command at the head of a complete stream. *)
Lemma next_command data cmds rest : commands data cmds rest -> command_complete data ->
  exists cmd data' cmds', data = cmd ++ data' /\ cmds = cmd :: cmds' /\ commands data' cmds' rest
    /\ (~ bare_cal cmd -> forall ck ws r n, decode_packet data ck true false = (ws, Ok (r, n)) ->
        n = length cmd /\ forall c, r <> Some (PktCal c)).
Proof.
  intros C K. destruct C as [rest N|data cmds rest C|data cmds rest C
                            |line data cmds rest O H13 H63 C|typed data cmds rest O H13 H63 D C].
  - contradiction.
  - exists [126], data, cmds. repeat split; auto; intros; match goal with E : decode_packet _ _ _ _ = _ |- _ =>
      cbn in E; inversion E; subst; [reflexivity|discriminate] || (inversion E; subst; try reflexivity; discriminate) end.
  - exists [110; 117; 108; 108], data, cmds. repeat split; auto; intros; match goal with E : decode_packet _ _ _ _ = _ |- _ =>
      cbn in E; inversion E; subst; [reflexivity|discriminate] || (inversion E; subst; try reflexivity; discriminate) end.
  - exists (line ++ [13]), data, cmds. rewrite <- app_assoc. split; [reflexivity|]. split; [reflexivity|].
    split; [exact C|]. intros B ck ws r n E.
    destruct (line_decode line data ck O H13 H63) as [Q1 Q2]. cbn [app] in E. rewrite Q1 in E.
    assert (F : forall c, r <> Some (PktCal c)).
    { intros c ->. apply B. now exists ck, ws, c, n. }
    split; [exact (Q2 _ _ _ E F)|exact F].
  - exists (typed ++ [63]), data, cmds. rewrite <- app_assoc. split; [reflexivity|]. split; [reflexivity|].
    split; [exact C|]. intros B ck ws r n E. cbn [app] in E. rewrite cancel_decode in E by assumption.
    inversion E; subst. split; [reflexivity|discriminate].
Qed.

(** ** A loop that refuses bare CALs *)

Section Guard.
  Context (rnd : nat -> Z).
  Notation h := (s_handle_data rnd).

  Definition guard : handler server sev := fun s buf =>
    match decode_packet buf (sv_checksum s) true false with
    | (_, Ok (Some (PktCal _), _)) => (s, [], Raise AssertionError)
    | _ => h s buf
    end.

  Lemma guard_ok s buf st' ev r : guard s buf = (st', ev, Ok r) -> h s buf = (st', ev, Ok r).
  Proof.
    unfold guard. destruct (decode_packet _ _ _ _) as [ws [[[[]|] n]|e]]; try (intros H; exact H). discriminate.
  Qed.

  Lemma guard_same s buf :
    (forall ws c n, decode_packet buf (sv_checksum s) true false <> (ws, Ok (Some (PktCal c), n))) ->
    guard s buf = h s buf.
  Proof.
    intros N. unfold guard. destruct (decode_packet _ _ _ _) as [ws [[[[]|] n]|e]] eqn:E; try reflexivity.
    now destruct (N ws c n).
  Qed.

  Lemma guard_stable : prefix_stable guard.
  Proof.
    intros s buf ext. destruct (to_pci_cases buf (sv_checksum s) true) as [[E _]|[C _]].
    - left. unfold guard, s_handle_data. rewrite E. cbn. reflexivity.
    - right. pose proof (to_pci_stable buf ext (sv_checksum s) true C) as S.
      unfold guard, s_handle_data. rewrite S.
      destruct (decode_packet buf (sv_checksum s) true false) as [ws [[p n]|e]] eqn:D.
      2: { split; [reflexivity|]. intros; discriminate. }
      assert (P1 : (1 <= n)%nat) by exact (complete_position buf (sv_checksum s) true false ws p n C D).
      assert (Q : (exists c, p = Some (PktCal c)) \/ (n <= length buf)%nat).
      { apply to_pci_position in D.
        destruct D as [[U _]|[? [? [? [? [? [c [? [_ [_ [_ [_ [_ [_ [_ [E _]]]]]]]]]]]]]]]]; [now right|left; eauto]. }
      destruct Q as [[c ->]|Q]; [split; [reflexivity|intros; discriminate]|].
      rewrite (firstn_app n buf ext). replace (n - length buf)%nat with 0%nat by lia.
      cbn [firstn]. rewrite app_nil_r.
      split; [reflexivity|]. intros st' ev r H.
      destruct p as [[]|]; try discriminate;
        repeat match type of H with context [match ?x with _ => _ end] =>
          lazymatch x with context [match _ with _ => _ end] => fail | _ => destruct x end end;
        try discriminate; inversion H; subst; lia.
  Qed.

  Lemma guard_processes s buf calls s' buf' ev out : processes h s buf calls s' buf' ev out ->
    forall ext cmds rest, out = Ok tt -> commands (buf ++ ext) cmds rest -> Forall (fun c => ~ bare_cal c) cmds ->
    processes guard s buf calls s' buf' ev (Ok tt) /\ ~ command_complete buf'
    /\ exists cmds', commands (buf' ++ ext) cmds' rest /\ Forall (fun c => ~ bare_cal c) cmds'.
  Proof.
    assert (E0 : ~ command_complete []).
    { intros [[r H]|[[r H]|[l [r H]]]]; try discriminate. destruct l; discriminate. }
    assert (Neg : forall s buf st' ev r, h s buf = (st', ev, Ok r) -> 0 <= r).
    { intros s0 b0 st' e0 r H. unfold s_handle_data in H.
      destruct (decode_packet _ _ _ _) as [ws [[p n]|e]]; [|discriminate].
      destruct (sseq _ _ _) as [[? ?] [[]|]]; inversion H; lia. }
    induction 1 as [st|st buf st' ev e N H|st buf st' ev N H|st buf st' ev N H
                   |st buf st' ev r N H R|st buf st' ev r calls st'' buf' ev' out N H R P IH];
      intros ext cmds rest O C F; try discriminate.
    - split; [constructor|]. split; [exact E0|]. now exists cmds.
    - destruct (to_pci_cases buf (sv_checksum st) true) as [[E I]|[K _]].
      + split; [|split; [exact I|now exists cmds]]. apply pr_wait; [exact N|].
        rewrite guard_same; [exact H|]. intros ws c n Q. rewrite E in Q. discriminate.
      + exfalso. unfold s_handle_data in H.
        destruct (decode_packet _ _ _ _) as [ws [[p n]|e]] eqn:D; [|discriminate].
        apply (complete_position buf (sv_checksum st) true false ws p n K) in D.
        destruct (sseq _ _ _) as [[? ?] [[]|]]; inversion H; lia.
    - apply Neg in H. lia.
    - assert (K : command_complete buf).
      { destruct (to_pci_cases buf (sv_checksum st) true) as [[E _]|[K _]]; [exfalso|exact K].
        unfold s_handle_data in H. rewrite E in H. cbn in H. inversion H. lia. }
      assert (K' : command_complete (buf ++ ext)).
      { destruct K as [[x ->]|[[x ->]|[l [x ->]]]]; [left; now exists (x ++ ext)|right; left; exists (x ++ ext); now rewrite <- app_assoc|].
        right; right. exists l, (x ++ ext). now rewrite <- !app_assoc. }
      pose proof (to_pci_stable buf ext (sv_checksum st) true K) as S.
      destruct (next_command _ _ _ C K') as [cmd [data' [cmds' [X1 [-> [C' D]]]]]].
      inversion F as [|? ? F1 F2]; subst.
      assert (Dn : exists ws p n, decode_packet buf (sv_checksum st) true false = (ws, Ok (p, n)) /\ r = Z.of_nat n).
      { unfold s_handle_data in H.
        destruct (decode_packet _ _ _ _) as [ws [[p n]|e]]; [|discriminate].
        exists ws, p, n. split; [reflexivity|]. destruct (sseq _ _ _) as [[? ?] [[]|]]; now inversion H. }
      destruct Dn as [ws [p [n [Dn ->]]]].
      rewrite Dn in S. destruct (D F1 _ _ _ _ S) as [-> NC].
      assert (L : (length cmd <= length buf)%nat).
      { apply to_pci_position in Dn.
        destruct Dn as [[U _]|[? [? [? [? [? [c [? [_ [_ [_ [_ [_ [_ [_ [E _]]]]]]]]]]]]]]]]; [exact U|now apply NC in E]. }
      rewrite Nat2Z.id in *.
      assert (X2 : skipn (length cmd) buf ++ ext = data').
      { assert (Y : skipn (length cmd) (buf ++ ext) = data').
        { rewrite X1, skipn_app, skipn_all, Nat.sub_diag. reflexivity. }
        rewrite skipn_app in Y. replace (length cmd - length buf)%nat with 0%nat in Y by lia. exact Y. }
      rewrite <- X2 in C'.
      destruct (IH ext cmds' rest eq_refl C' F2) as [G [I J]].
      split; [|split; assumption].
      apply pr_next with st' (Z.of_nat (length cmd)); [exact N| |exact R|now rewrite Nat2Z.id].
      rewrite guard_same; [exact H|]. intros ws' c n Q. rewrite Dn in Q. inversion Q; subst. now apply (NC c).
  Qed.

  Lemma guard_receive limit chunks : forall s buf cmds rest s' buf' log,
    commands (buf ++ concat chunks) cmds rest -> Forall (fun c => ~ bare_cal c) cmds -> chunks <> [] ->
    receive h limit s buf chunks = (s', buf', log) -> no_raise log ->
    receive guard limit s buf chunks = (s', buf', log) /\ buf' = rest.
  Proof.
    induction chunks as [|d chunks IH]; intros s buf cmds rest s' buf' log C F NE E N; [congruence|].
    cbn [receive concat] in *. unfold data_received in *.
    destruct (Nat.ltb limit (length d)).
    { destruct (receive h limit s buf chunks) as [[? ?] ?]. inversion E; subst. inversion N as [|? ? [a A] ?]. discriminate. }
    destruct (Nat.ltb limit (length buf + length d)).
    { destruct (receive h limit s [] chunks) as [[? ?] ?]. inversion E; subst. inversion N as [|? ? [a A] ?]. discriminate. }
    destruct (process_buffer h s (buf ++ d)) as [[[s1 b1] e1] o1] eqn:P.
    destruct (receive h limit s1 b1 chunks) as [[s2 b2] l2] eqn:R.
    inversion E; subst. inversion N as [|? ? [a A] N2]; subst. cbn [snd] in A. subst o1. destruct a.
    apply process_buffer_spec in P. destruct P as [calls P].
    rewrite app_assoc in C.
    destruct (guard_processes _ _ _ _ _ _ _ P _ _ _ eq_refl C F) as [G [I [cmds' [C' F']]]].
    apply processes_buffer in G. rewrite G.
    destruct chunks as [|d2 chunks].
    - cbn [receive] in *. inversion R; subst. split; [reflexivity|].
      cbn [concat] in C'. rewrite app_nil_r in C'.
      destruct cmds' as [|c cmds']; [inversion C'; subst; reflexivity|].
      exfalso. apply I. inversion C'; subst.
      + left. eauto.
      + right. left. eauto.
      + right. right. exists line. eexists. reflexivity.
      + match goal with D : In 13 ?x |- _ => apply in_split in D; destruct D as [x1 [x2 ->]] end.
        right. right. exists (typed ++ 63 :: x1), x2. rewrite <- app_assoc. reflexivity.
    - destruct (IH _ _ _ _ _ _ _ C' F' ltac:(discriminate) R N2) as [R' ->]. now rewrite R'.
  Qed.

  Lemma guard_release limit chunks : forall s buf s' buf' log,
    receive guard limit s buf chunks = (s', buf', log) -> no_raise log ->
    receive h limit s buf chunks = (s', buf', log).
  Proof.
    induction chunks as [|d chunks IH]; intros s buf s' buf' log E N; [exact E|].
    cbn [receive] in *. unfold data_received in *.
    destruct (Nat.ltb limit (length d)).
    { destruct (receive guard limit s buf chunks) as [[? ?] ?]. inversion E; subst. inversion N as [|? ? [a A] ?]. discriminate. }
    destruct (Nat.ltb limit (length buf + length d)).
    { destruct (receive guard limit s [] chunks) as [[? ?] ?]. inversion E; subst. inversion N as [|? ? [a A] ?]. discriminate. }
    destruct (process_buffer guard s (buf ++ d)) as [[[s1 b1] e1] o1] eqn:P.
    destruct (receive guard limit s1 b1 chunks) as [[s2 b2] l2] eqn:R.
    inversion E; subst. inversion N as [|? ? [a A] N2]; subst. cbn [snd] in A. subst o1. destruct a.
    apply process_buffer_spec in P. destruct P as [calls P].
    assert (Q : processes h s (buf ++ d) calls s1 b1 e1 (Ok tt)).
    { clear -P. remember (Ok tt) as o eqn:O.
      induction P as [st|st b st' ev e N H|st b st' ev N H|st b st' ev N H
                   |st b st' ev r N H R|st b st' ev r calls st'' b' ev' out N H R P IH]; try discriminate.
      - constructor.
      - apply pr_wait; [exact N|now apply guard_ok].
      - apply pr_clear; [exact N|now apply guard_ok].
      - apply pr_next with st' r; [exact N|now apply guard_ok|exact R|auto]. }
    apply processes_buffer in Q. rewrite Q. now rewrite (IH _ _ _ _ _ R N2).
  Qed.
End Guard.

Lemma server_run_receive rnd chunks : forall s buf,
  server_run rnd (s, buf) (map SOpData chunks)
  = match receive (s_handle_data rnd) MAX_BUFFER_SIZE s buf chunks with (s', buf', log) => ((s', buf'), log) end.
Proof.
  induction chunks as [|d chunks IH]; intros s buf; [reflexivity|].
  cbn [map server_run server_step receive fst snd].
  destruct (data_received _ _ _ _ _) as [[[s1 b1] e1] o1]. rewrite IH.
  now destruct (receive _ _ _ _ _) as [[s2 b2] l2].
Qed.

(** ** C69 *)

Lemma first_mark (P : Z -> Prop) a x d : forall b y e, Forall P a -> Forall P b -> ~ P x -> ~ P y ->
  a ++ x :: d = b ++ y :: e -> a = b /\ x = y /\ d = e.
Proof.
  induction a as [|u a IH]; intros [|v b] y e A B X Y E; cbn [app] in E; inversion E; subst.
  - auto.
  - inversion B; contradiction.
  - inversion A; contradiction.
  - inversion A; inversion B; subst. destruct (IH b y e) as [-> [-> ->]]; auto.
Qed.

Definition unmarked (x : Z) : Prop := x <> 13 /\ x <> 63.
Lemma unmarked_all l : ~ In 13 l -> ~ In 63 l -> Forall unmarked l.
Proof. intros A B. apply Forall_forall. intros x X. split; intros ->; contradiction. Qed.

Lemma complete_marks head x tl : opens head -> x = 13 \/ x = 63 ->
  (forall t, head ++ x :: tl <> 126 :: t) /\ (forall t, head ++ x :: tl <> [110; 117; 108; 108] ++ t).
Proof.
  intros O X. destruct (opens_plain head (x :: tl) O) as [P1 P2].
  { cbn. intros y Y [<-|[]]. destruct X as [->| ->]; repeat (destruct Y as [Y|Y]; try discriminate); contradiction. }
  split; intros t E; rewrite E in *.
  - now apply P1.
  - now rewrite (proj2 (starts_with_spec _ _)) in P2 by now exists t.
Qed.

Lemma commands_complete data c cmds rest : commands data (c :: cmds) rest -> command_complete data.
Proof.
  intros C. inversion C; subst.
  - left. eauto.
  - right. left. eauto.
  - right. right. exists line. eexists. reflexivity.
  - match goal with D : In 13 ?x |- _ => apply in_split in D; destruct D as [x1 [x2 ->]] end.
    right. right. exists (typed ++ 63 :: x1), x2. rewrite <- app_assoc. reflexivity.
Qed.

Lemma commands_unique data cmds rest : commands data cmds rest ->
  forall cmds' rest', commands data cmds' rest' -> cmds' = cmds /\ rest' = rest.
Proof.
  induction 1 as [rest N|data cmds rest C IH|data cmds rest C IH
                 |line data cmds rest O H13 H63 C IH|typed data cmds rest O H13 H63 D C IH]; intros cmds2 rest2 Q.
  - destruct cmds2; [|now apply commands_complete in Q]. now inversion Q; subst.
  - remember (126 :: data) as all eqn:A. destruct Q as [rest2 N|d2 c2 rest2 Q|d2 c2 rest2 Q
                 |l2 d2 c2 rest2 O2 H2 H3 Q|t2 d2 c2 rest2 O2 H2 H3 D2 Q].
    + destruct N. left. now exists data.
    + inversion A; subst. destruct (IH _ _ Q) as [-> ->]. auto.
    + discriminate.
    + now destruct (proj1 (complete_marks l2 13 d2 O2 (or_introl eq_refl)) data).
    + now destruct (proj1 (complete_marks t2 63 d2 O2 (or_intror eq_refl)) data).
  - remember ([110; 117; 108; 108] ++ data) as all eqn:A. destruct Q as [rest2 N|d2 c2 rest2 Q|d2 c2 rest2 Q
                 |l2 d2 c2 rest2 O2 H2 H3 Q|t2 d2 c2 rest2 O2 H2 H3 D2 Q].
    + destruct N. right. left. now exists data.
    + discriminate.
    + apply app_inv_head in A. subst. destruct (IH _ _ Q) as [-> ->]. auto.
    + now destruct (proj2 (complete_marks l2 13 d2 O2 (or_introl eq_refl)) data).
    + now destruct (proj2 (complete_marks t2 63 d2 O2 (or_intror eq_refl)) data).
  - remember (line ++ 13 :: data) as all eqn:A. destruct Q as [rest2 N|d2 c2 rest2 Q|d2 c2 rest2 Q
                 |l2 d2 c2 rest2 O2 H2 H3 Q|t2 d2 c2 rest2 O2 H2 H3 D2 Q].
    + destruct N. right. right. exists line, data. exact A.
    + now destruct (proj1 (complete_marks line 13 data O (or_introl eq_refl)) d2).
    + now destruct (proj2 (complete_marks line 13 data O (or_introl eq_refl)) d2).
    + destruct (first_mark unmarked l2 13 d2 line 13 data) as [-> [_ ->]]; auto using unmarked_all;
        try (unfold unmarked; lia). destruct (IH _ _ Q) as [-> ->]. auto.
    + destruct (first_mark unmarked t2 63 d2 line 13 data) as [_ [X _]]; auto using unmarked_all;
        unfold unmarked; lia.
  - remember (typed ++ 63 :: data) as all eqn:A. destruct Q as [rest2 N|d2 c2 rest2 Q|d2 c2 rest2 Q
                 |l2 d2 c2 rest2 O2 H2 H3 Q|t2 d2 c2 rest2 O2 H2 H3 D2 Q].
    + destruct N. right. right. apply in_split in D. destruct D as [x1 [x2 ->]].
      exists (typed ++ 63 :: x1), x2. rewrite A, <- app_assoc. reflexivity.
    + now destruct (proj1 (complete_marks typed 63 data O (or_intror eq_refl)) d2).
    + now destruct (proj2 (complete_marks typed 63 data O (or_intror eq_refl)) d2).
    + destruct (first_mark unmarked l2 13 d2 typed 63 data) as [_ [X _]]; auto using unmarked_all;
        unfold unmarked; lia.
    + destruct (first_mark unmarked t2 63 d2 typed 63 data) as [-> [_ ->]]; auto using unmarked_all;
        try (unfold unmarked; lia). destruct (IH _ _ Q) as [-> ->]. auto.
Qed.

Lemma mark_split l : In 13 l -> exists a x d, l = a ++ x :: d /\ ~ In 13 a /\ ~ In 63 a /\ (x = 13 \/ (x = 63 /\ In 13 d)).
Proof.
  induction l as [|u l IH]; [contradiction|]. intros H.
  destruct (Z.eq_dec u 13) as [->|N1]; [exists [], 13, l; cbn; auto|].
  destruct H as [H|H]; [now destruct N1|].
  destruct (Z.eq_dec u 63) as [->|N2]; [exists [], 63, l; cbn; intuition|].
  destruct (IH H) as [a [x [d [-> [A [B X]]]]]].
  exists (u :: a), x, d. cbn. intuition.
Qed.

(** Every stream has one and only one division into commands. *)
Theorem C69_cut : forall data, exists cmds rest,
  commands data cmds rest /\ data = concat cmds ++ rest /\ ~ command_complete rest
  /\ forall cmds' rest', commands data cmds' rest' -> cmds' = cmds /\ rest' = rest.
Proof.
  assert (W : forall n data, (length data <= n)%nat -> exists cmds rest,
    commands data cmds rest /\ data = concat cmds ++ rest /\ ~ command_complete rest).
  { induction n as [|n IH]; intros data L.
    - destruct data; [|cbn in L; lia]. exists [], []. cbn.
      assert (E0 : ~ command_complete []).
      { intros [[r H]|[[r H]|[l [r H]]]]; try discriminate. destruct l; discriminate. }
      split; [now constructor|]. auto.
    - destruct (to_pci_cases data true true) as [[_ N]|[K _]].
      { exists [], data. split; [now constructor|]. auto. }
      destruct (starts_with [126] data) eqn:S1.
      { apply starts_with_spec in S1. destruct S1 as [d ->]. cbn [app] in *.
        destruct (IH d) as [cmds [rest [C [E N]]]]; [cbn in L; lia|].
        exists ([126] :: cmds), rest. split; [now constructor|]. split; [now rewrite E at 1|exact N]. }
      destruct (starts_with [110; 117; 108; 108] data) eqn:S2.
      { apply starts_with_spec in S2. destruct S2 as [d ->].
        destruct (IH d) as [cmds [rest [C [E N]]]]; [cbn in L; lia|].
        exists ([110; 117; 108; 108] :: cmds), rest. split; [now constructor|]. split; [now rewrite E at 1|exact N]. }
      assert (M : In 13 data).
      { destruct K as [[d ->]|[[d ->]|[l [d ->]]]]; [discriminate|discriminate|].
        apply in_app_iff. right. now left. }
      apply mark_split in M. destruct M as [a [x [d [E [H13 [H63 X]]]]]].
      assert (O : opens a).
      { split; intros t Ha; subst a data; [discriminate|].
        rewrite <- app_assoc in S2. now rewrite (proj2 (starts_with_spec _ _)) in S2 by eauto. }
      destruct (IH d) as [cmds [rest [C [Ed N]]]]; [rewrite E, app_length in L; cbn in L; lia|].
      destruct X as [->|[-> D]].
      + exists ((a ++ [13]) :: cmds), rest. subst data. split; [now constructor|].
        split; [cbn [concat]; rewrite <- !app_assoc; cbn [app]; now rewrite <- Ed|exact N].
      + exists ((a ++ [63]) :: cmds), rest. subst data. split; [now constructor|].
        split; [cbn [concat]; rewrite <- !app_assoc; cbn [app]; now rewrite <- Ed|exact N]. }
  intros data. destruct (W _ data (Nat.le_refl _)) as [cmds [rest [C [E N]]]].
  exists cmds, rest. split; [exact C|]. split; [exact E|]. split; [exact N|].
  intros c2 r2. now apply commands_unique.
Qed.
Print Assumptions C69_cut.

(** However a stream without bare CALs is cut into chunks, the emulator ends in
    the same state and writes and calls the same, and what stays in its buffer
    is the incomplete command at the end. *)
Theorem C69_fragmentation : forall rnd s buf chunks1 chunks2 cmds rest s1 b1 tr1 s2 b2 tr2,
  concat chunks1 = concat chunks2 -> chunks1 <> [] -> chunks2 <> [] ->
  commands (buf ++ concat chunks1) cmds rest -> Forall (fun c => ~ bare_cal c) cmds ->
  server_run rnd (s, buf) (map SOpData chunks1) = ((s1, b1), tr1) -> no_raise tr1 ->
  server_run rnd (s, buf) (map SOpData chunks2) = ((s2, b2), tr2) -> no_raise tr2 ->
  s1 = s2 /\ b1 = rest /\ b2 = rest /\ effects tr1 = effects tr2.
Proof.
  intros rnd s buf l1 l2 cmds rest s1 b1 tr1 s2 b2 tr2 E N1 N2 C F R1 O1 R2 O2.
  rewrite server_run_receive in R1, R2.
  destruct (receive _ _ _ _ l1) as [[x1 y1] z1] eqn:Q1. inversion R1; subst. clear R1.
  destruct (receive _ _ _ _ l2) as [[x2 y2] z2] eqn:Q2. inversion R2; subst. clear R2.
  destruct (guard_receive rnd _ _ _ _ _ _ _ _ _ C F N1 Q1 O1) as [G1 ->].
  rewrite E in C. destruct (guard_receive rnd _ _ _ _ _ _ _ _ _ C F N2 Q2 O2) as [G2 ->].
  apply (receive_stream _ (guard_stable rnd)) in G1; try assumption.
  apply (receive_stream _ (guard_stable rnd)) in G2; try assumption.
  rewrite E, G2 in G1. inversion G1. auto.
Qed.
Print Assumptions C69_fragmentation.

(** If the bytes fit the buffer and are taken at once without an exception, they
    are so in any chunks. *)
Theorem C69_fits : forall rnd s buf chunks data cmds rest s' b' tr,
  concat chunks = data -> chunks <> [] -> (length (buf ++ data) <= 256)%nat ->
  commands (buf ++ data) cmds rest -> Forall (fun c => ~ bare_cal c) cmds ->
  server_run rnd (s, buf) [SOpData data] = ((s', b'), tr) -> no_raise tr ->
  exists tr2, server_run rnd (s, buf) (map SOpData chunks) = ((s', b'), tr2)
    /\ no_raise tr2 /\ effects tr2 = effects tr.
Proof.
  intros rnd s buf l data cmds rest s' b' tr <- N L C F R O.
  change [SOpData (concat l)] with (map SOpData [concat l]) in R. rewrite server_run_receive in R.
  destruct (receive _ _ _ _ [concat l]) as [[x1 y1] z1] eqn:Q1. inversion R; subst. clear R.
  assert (C1 : commands (buf ++ concat [concat l]) cmds rest) by (cbn [concat]; now rewrite app_nil_r).
  destruct (guard_receive rnd _ _ _ _ _ _ _ _ _ C1 F ltac:(discriminate) Q1 O) as [G ->].
  apply (receive_stream _ (guard_stable rnd)) in G; [|assumption|discriminate].
  cbn [concat] in G. rewrite app_nil_r in G.
  destruct (stream_receive _ (guard_stable rnd) MAX_BUFFER_SIZE l _ _ _ _ _ N L G) as [log [G2 [N2 E2]]].
  apply guard_release in G2; [|exact N2]. exists log. rewrite server_run_receive, G2. auto.
Qed.
Print Assumptions C69_fits.

(** Only a line of hexadecimal digits, perhaps after a "@" and before one more
    character, is taken for a bare CAL: commands that begin with a backslash
    are not, nor are resets and smart connects. *)
Theorem C69_bare_cal : forall cmd, bare_cal cmd ->
  exists prefix digits conf, (prefix = [] \/ prefix = [64]) /\ Forall hex_char digits /\ (length conf <= 1)%nat
    /\ exists tail, cmd = prefix ++ digits ++ conf ++ [13] ++ tail.
Proof.
  intros cmd [ck [ws [c [n D]]]]. apply to_pci_position in D.
  destruct D as [[_ [_ N]]|[p [d [f [r [raw [c' [k [E [P [H [L _]]]]]]]]]]]]; [now destruct (N c)|].
  exists p, d, f. split; [exact P|]. split; [exact H|]. split; [exact L|]. now exists r.
Qed.
Print Assumptions C69_bare_cal.

(** A bare CAL swallows the bytes after it that have arrived, and only those:
    the lighting command after it is obeyed if it comes in a later chunk. *)
Definition recall_then_on : bytes := [64;48;54;49;65;50;49;48;53;13; 92;48;53;51;56;48;48;55;57;48;49;13].
Theorem C69_bare_cal_refuted : ~ forall rnd s buf chunks1 chunks2 st1 tr1 st2 tr2,
  concat chunks1 = concat chunks2 ->
  server_run rnd (s, buf) (map SOpData chunks1) = (st1, tr1) -> no_raise tr1 ->
  server_run rnd (s, buf) (map SOpData chunks2) = (st2, tr2) -> no_raise tr2 ->
  scallbacks (effects tr1) = scallbacks (effects tr2).
Proof.
  intros H. pose (s := fst (fst (server_run (fun _ => 1) (new_server, []) [SOpConnect]))).
  specialize (H (fun _ => 1) s [] [recall_then_on] [firstn 10 recall_then_on; skipn 10 recall_then_on]).
  destruct (server_run (fun _ => 1) (s, []) (map SOpData [recall_then_on])) as [st1 tr1] eqn:E1.
  destruct (server_run (fun _ => 1) (s, []) (map SOpData [firstn 10 recall_then_on; skipn 10 recall_then_on]))
    as [st2 tr2] eqn:E2.
  assert (E0 : concat [recall_then_on] = concat [firstn 10 recall_then_on; skipn 10 recall_then_on]) by reflexivity.
  specialize (H st1 tr1 st2 tr2 E0 E1).
  assert (X1 := E1). assert (X2 := E2). vm_compute in X1. vm_compute in X2.
  inversion X1 as [[Y1 Z1]]. inversion X2 as [[Y2 Z2]]. clear X1 X2.
  assert (N : forall (l : list (list sev * res unit)), forallb (fun x => match snd x with Ok _ => true | _ => false end) l = true -> no_raise l).
  { intros l F. apply Forall_forall. intros x X. rewrite forallb_forall in F. apply F in X.
    destruct (snd x) as [a|]; [now exists a|discriminate]. }
  assert (N1 : no_raise tr1) by (rewrite <- Z1; now apply N).
  assert (N2 : no_raise tr2) by (rewrite <- Z2; now apply N).
  specialize (H N1 E2 N2). rewrite <- Z1, <- Z2 in H. vm_compute in H. discriminate.
Qed.
Print Assumptions C69_bare_cal_refuted.

(** A reset, a smart connect, a cancelled start and a lighting command, with an
    unfinished one after them, whole and in pieces. *)
Definition busy : bytes := [126; 124; 13; 48; 53; 63; 92;48;53;51;56;48;48;55;57;48;49;13; 92; 48].
Example C69_case :
  commands busy [[126]; [124; 13]; [48; 53; 63]; [92;48;53;51;56;48;48;55;57;48;49;13]] [92; 48]
  /\ Forall (fun c => ~ bare_cal c) [[126]; [124; 13]; [48; 53; 63]; [92;48;53;51;56;48;48;55;57;48;49;13]]
  /\ exists s1 tr1 tr2,
       let s := fst (fst (server_run (fun _ => 1) (new_server, []) [SOpConnect])) in
       server_run (fun _ => 1) (s, []) [SOpData busy] = ((s1, [92; 48]), tr1) /\ no_raise tr1
       /\ server_run (fun _ => 1) (s, []) (map SOpData [[126; 124]; []; [13; 48]; [53; 63; 92]; skipn 7 busy])
          = ((s1, [92; 48]), tr2) /\ no_raise tr2
       /\ scallbacks (effects tr2) = [SReset; SOn 1].
Proof.
  split.
  { unfold busy. apply cs_reset.
    apply (cs_line [124] [48; 53; 63; 92;48;53;51;56;48;48;55;57;48;49;13; 92; 48]).
    1: split; intros t E; discriminate. 1-2: cbn; intuition discriminate.
    apply (cs_cancel [48; 53] [92;48;53;51;56;48;48;55;57;48;49;13; 92; 48]).
    1: split; intros t E; discriminate. 1-2: cbn; intuition discriminate. 1: cbn; auto 15.
    apply (cs_line [92;48;53;51;56;48;48;55;57;48;49] [92; 48]).
    1: split; intros t E; discriminate. 1-2: cbn; intuition discriminate.
    apply cs_end. intros [[r H]|[[r H]|[l [r H]]]]; try discriminate.
    destruct l as [|a [|b [|c l]]]; discriminate. }
  split.
  { repeat constructor; intros [ck [ws [c [n D]]]]; destruct ck; vm_compute in D; discriminate. }
  do 3 eexists. cbn zeta. split; [vm_compute; reflexivity|].
  split; [repeat constructor; now exists tt|]. split; [vm_compute; reflexivity|].
  split; [repeat constructor; now exists tt|]. vm_compute. reflexivity.
Qed.
