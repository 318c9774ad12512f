(** C19, exact: the position the decoder returns is the end of the first
    message. *)
From Coq Require Import List ZArith Bool Lia.
From Verif Require Import Py Common Packet Base Spec Spec_position Packet_facts Packet_roundtrip Packet_decode Packet_total Prop_packet.
Import ListNotations.
Open Scope Z_scope.

Lemma reply_head_complete data n : reply_head data n -> pci_complete data.
Proof.
  destruct 1 as [rest|rest|c x rest C|line rest H N]; unfold pci_complete; [left|right; left|right; right; left|right; right; right]; eauto.
Qed.
Lemma command_head_complete data n : command_head data n -> command_complete data.
Proof.
  unfold command_complete. destruct 1 as [rest|rest|line rest O N Q|before line rest O N Q].
  - left. eauto.
  - right. left. eauto.
  - right. right. eauto.
  - right. right. exists (before ++ [63] ++ line), rest. rewrite <- !app_assoc. reflexivity.
Qed.

(** From a PCI. *)
Theorem C19_consumed_from_pci : forall data checksum strict ws r n,
  decode_packet data checksum strict true = (ws, Ok (r, n)) ->
  reply_head data n \/ (n = 0%nat /\ r = None /\ forall m, ~ reply_head data m).
Proof.
  intros data ck strict ws r n H.
  destruct (C20_stable_from_pci data [] ck strict) as [[E N]|[C [P _]]].
  - right. rewrite E in H. injection H as <- <- <-. split; [reflexivity|]. split; [reflexivity|].
    intros m M. now apply N, (reply_head_complete _ m).
  - left. assert (P1 := P _ _ _ H). clear P C. destruct data as [|c0 tl]; [injection H as <- <- <-; lia|].
    unfold decode_packet in H.
    destruct (c0 =? 43) eqn:E43; [injection H as <- <- <-; apply Z.eqb_eq in E43; subst; constructor|].
    destruct (c0 =? 33) eqn:E33; [injection H as <- <- <-; apply Z.eqb_eq in E33; subst; constructor|].
    destruct tl as [|c1 tl]; [injection H as <- <- <-; lia|].
    destruct (mem c0 CONFIRMATION_CODES) eqn:Ec.
    { injection H as <- <- <-. constructor. apply code_spec, mem_spec, Ec. }
    destruct (find END_RESPONSE (c0 :: c1 :: tl)) as [e|] eqn:F; [|injection H as <- <- <-; lia].
    assert (NC : ~ is_code c0) by (intros X; apply code_spec, mem_spec in X; congruence).
    destruct (find_some _ _ _ F) as [G1 [G2 G3]].
    assert (En : n = (e + 2)%nat).
    { destruct (firstn e (c0 :: c1 :: tl)) as [|x line] eqn:L.
      - injection H as <- <- <-. reflexivity.
      - cbn [decode_line] in H. apply decode_hex_position in H.
        destruct H as [p [-> [[-> _]|[D _]]]]; [reflexivity|discriminate]. }
    set (data := c0 :: c1 :: tl) in *. set (line := firstn e data) in *.
    assert (Le : length line = e) by (apply firstn_length_le; exact G1).
    rewrite G2, En, <- Le. apply reply_line.
    + intros x Hx. assert (x = c0) as ->.
      { subst line. destruct e; [discriminate|]. cbn in Hx. congruence. }
      split; [lia|]. split; [lia|exact NC].
    + intros a b X. assert (Y : data = a ++ END_RESPONSE ++ (b ++ END_RESPONSE ++ skipn (e + length END_RESPONSE) data)).
      { rewrite G2 at 1. rewrite X. unfold END_RESPONSE. rewrite <- !app_assoc. reflexivity. }
      apply G3 in Y. rewrite X in Le. rewrite app_length in Le. cbn [length app] in Le. lia.
Qed.

(** To a PCI: a bare CAL is counted twice, once with its line and once more
    after it. *)
Theorem C19_consumed_to_pci : forall data checksum strict ws r n,
  decode_packet data checksum strict false = (ws, Ok (r, n)) ->
  (n = 0%nat /\ r = None /\ forall m, ~ command_head data m)
  \/ exists m, command_head data m /\
       ((n = m /\ forall c, r <> Some (PktCal c)) \/ exists c k, r = Some (PktCal c) /\ (1 <= k)%nat /\ n = (m + k)%nat).
Proof.
  intros data ck strict ws r n H.
  destruct (C20_stable_to_pci data [] ck strict) as [[E N]|[C [P _]]].
  { left. rewrite E in H. injection H as <- <- <-. split; [reflexivity|]. split; [reflexivity|].
    intros m M. now apply N, (command_head_complete _ m). }
  right. assert (P1 := P _ _ _ H). clear P C. destruct data as [|c0 tl]; [injection H as <- <- <-; lia|].
  unfold decode_packet in H.
  destruct (c0 =? 126) eqn:E1.
  { injection H as <- <- <-. apply Z.eqb_eq in E1; subst. exists 1%nat. split; [constructor|]. left. split; [reflexivity|discriminate]. }
  destruct (starts_with [110; 117; 108; 108] (c0 :: tl)) eqn:E2.
  { injection H as <- <- <-. apply starts_with_spec in E2 as [t E2]. rewrite E2. exists 4%nat. split; [constructor|]. left. split; [reflexivity|discriminate]. }
  set (data := c0 :: tl) in *.
  assert (O : ordinary data).
  { split; intros t X.
    - unfold data in X. injection X as -> _. discriminate.
    - assert (Y : starts_with [110; 117; 108; 108] data = true) by (apply starts_with_spec; eauto). congruence. }
  clearbody data.
  destruct (starts_with (124 :: END_COMMAND) data || starts_with (124 :: 124 :: END_COMMAND) data) eqn:E3.
  { apply orb_true_iff in E3.
    destruct E3 as [E3|E3]; apply starts_with_spec in E3 as [t E3]; rewrite E3 in H, O |- *; cbn in H; injection H as <- <- <-.
    - exists 2%nat. split; [|left; split; [reflexivity|discriminate]].
      apply (command_line [124] t O); cbn; lia.
    - exists 3%nat. split; [|left; split; [reflexivity|discriminate]].
      apply (command_line [124; 124] t O); cbn; lia. }
  destruct (find END_COMMAND data) as [e|] eqn:F; [|injection H as <- <- <-; lia].
  destruct (find_some _ _ _ F) as [G1 [G2 G3]]. set (line := firstn e data) in *. set (rest := skipn (e + length END_COMMAND) data) in *.
  assert (Le : length line = e) by (apply firstn_length_le; exact G1).
  assert (NL : ~ In 13 line).
  { intros I. apply in_split in I as (a & b & X).
    assert (Y : data = a ++ END_COMMAND ++ (b ++ END_COMMAND ++ rest)).
    { rewrite G2 at 1. rewrite X. unfold END_COMMAND. rewrite <- !app_assoc. reflexivity. }
    apply G3 in Y. rewrite X in Le. rewrite app_length in Le. cbn [length] in Le. lia. }
  assert (LINE : ~ In 63 line -> decode_line ck strict false (e + 1) line = (ws, Ok (r, n)) ->
    exists m, command_head data m /\
       ((n = m /\ forall c, r <> Some (PktCal c)) \/ exists c k, r = Some (PktCal c) /\ (1 <= k)%nat /\ n = (m + k)%nat)).
  { intros NQ D. exists (e + 1)%nat. split.
    { rewrite G2. rewrite <- Le. apply command_line; [|exact NL|exact NQ]. change [13] with END_COMMAND. rewrite <- G2. exact O. }
    assert (K : forall cs dm cf ds ws, decode_hex cs strict false dm cf (e + 1) ds = (ws, Ok (r, n)) ->
      (n = (e + 1)%nat /\ forall c, r <> Some (PktCal c)) \/ exists c k, r = Some (PktCal c) /\ (1 <= k)%nat /\ n = ((e + 1) + k)%nat).
    { intros cs dm cf ds ws0 X. apply decode_hex_position in X. destruct X as [p [-> [[-> X]|[_ (raw & c & k & _ & -> & _ & X1 & X2)]]]].
      - left. split; [reflexivity|]. intros c Y. injection Y as Y. exact (X c Y).
      - right. eauto. }
    destruct line as [|x line']; [cbn in D; injection D as <- <- <-; left; split; [reflexivity|discriminate]|].
    cbn [decode_line] in D.
    destruct (if x =? 64 then _ else _) as [[cs dm] ds]. unfold wbind, wlift in D.
    destruct (py_last ds) as [l|er]; [|discriminate].
    destruct (mem l HEX_CHARS).
    { destruct (decode_hex cs strict false dm None (e + 1) ds) as [ws1 [[r1 n1]|]] eqn:X; cbn in D; [|discriminate].
      injection D as _ <- <-. eapply K; exact X. }
    destruct (mem l CONFIRMATION_CODES).
    { destruct (decode_hex cs strict false dm (Some l) (e + 1) (py_init ds)) as [ws1 [[r1 n1]|]] eqn:X; cbn in D; [|discriminate].
      injection D as _ <- <-. eapply K; exact X. }
    destruct strict.
    { cbn in D. injection D as _ <- <-. left. split; [reflexivity|discriminate]. }
    unfold wwarn in D.
    destruct (decode_hex cs false false dm (Some l) (e + 1) (py_init ds)) as [ws1 [[r1 n1]|]] eqn:X; cbn in D; [|discriminate].
    injection D as _ <- <-. eapply K; exact X. }
  destruct (find [63] data) as [q|] eqn:FQ.
  - destruct (find_some _ _ _ FQ) as [Q1 [Q2 Q3]].
    assert (Lq : length (firstn q data) = q) by (apply firstn_length_le; exact Q1).
    assert (NQ : ~ In 63 (firstn q data)).
    { intros I. apply in_split in I as (a & b & X).
      assert (Y : data = a ++ [63] ++ (b ++ [63] ++ skipn (q + length [63]) data)).
      { rewrite Q2 at 1. rewrite X. rewrite <- !app_assoc. reflexivity. }
      apply Q3 in Y. rewrite X in Lq. rewrite app_length in Lq. cbn [length] in Lq. lia. }
    destruct (Nat.ltb q e) eqn:LT.
    + apply Nat.ltb_lt in LT. injection H as <- <- <-. exists (q + 1)%nat. split; [|left; split; [reflexivity|discriminate]].
      assert (S1 : line = firstn q data ++ [63] ++ skipn (q + 1) line).
      { unfold line. rewrite <- (firstn_skipn q (firstn e data)) at 1. rewrite firstn_firstn, Nat.min_l by lia. f_equal.
        rewrite Q2 in G2. cbn [length] in *.
        assert (Z1 : skipn q line = [63] ++ skipn (q + 1) line).
        { assert (W : skipn q data = 63 :: skipn (q + 1) data).
          { rewrite Q2 at 1. rewrite skipn_app, skipn_all2, Lq, Nat.sub_diag by lia. reflexivity. }
          unfold line. rewrite !skipn_firstn_comm, W. replace (e - q)%nat with (S (e - (q + 1))) by lia. reflexivity. }
        exact Z1. }
      assert (Dt : data = firstn q data ++ [63] ++ skipn (q + 1) line ++ [13] ++ rest).
      { rewrite G2 at 1. rewrite S1 at 1. rewrite <- !app_assoc. reflexivity. }
      pose proof (command_cancelled (firstn q data) (skipn (q + 1) line) rest) as CC. rewrite <- Dt, Lq in CC.
      apply CC; [exact O|exact NQ|].
      intros I. apply NL. rewrite S1. apply in_app_or in I. apply in_or_app. destruct I; [now left|right; apply in_or_app; now right].
    + apply Nat.ltb_ge in LT. apply LINE; [|exact H]. intros I. apply NQ.
      unfold line in I. replace (firstn q data) with (firstn e data ++ skipn e (firstn q data)); [apply in_or_app; now left|].
      rewrite <- (firstn_skipn e (firstn q data)) at 2. now rewrite firstn_firstn, Nat.min_l by lia.
  - apply LINE; [|exact H]. intros I. apply in_split in I as (a & b & X).
    apply find_none_iff with (a := a) (b := b ++ END_COMMAND ++ rest) in FQ. apply FQ.
    rewrite G2 at 1. rewrite X. rewrite <- !app_assoc. reflexivity.
Qed.

(** A line of the PCI, a cancelled command, and a bare CAL. *)
Example C19_consumed_case :
  decode_packet ([48; 53; 13; 10] ++ [104; 46]) true true true = ([], Ok (Some (PktInvalid [5] ValueError), 4%nat))
  /\ reply_head ([48; 53] ++ [13; 10] ++ [104; 46]) 4
  /\ decode_packet ([65; 51; 63; 65; 51; 13] ++ [126]) true true false = ([], Ok (None, 3%nat))
  /\ command_head ([65; 51] ++ [63] ++ [65; 51] ++ [13] ++ [126]) 3.
Proof.
  split; [vm_compute; reflexivity|]. split.
  - apply (reply_line [48; 53] [104; 46]).
    + intros x X. injection X as <-. unfold is_code. lia.
    + intros [|a1 [|a2 [|a3 a]]] b X; discriminate.
  - split; [vm_compute; reflexivity|]. apply (command_cancelled [65; 51] [65; 51] [126]); [|cbn; lia|cbn; lia].
    split; intros r; discriminate.
Qed.

Print Assumptions C19_consumed_from_pci.
Print Assumptions C19_consumed_to_pci.
