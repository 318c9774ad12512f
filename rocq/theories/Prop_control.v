(** C57: control messages. *)
From Coq Require Import String List ZArith Bool Lia ZifyBool ZifyNat.
From Verif Require Import Py Common Sal Cal Packet Text Base Spec Common_facts Packet_facts.
Import ListNotations.
Open Scope Z_scope.

Theorem C57_from_pci : forall rest ck strict,
  decode_packet (43 :: rest) ck strict true = ([], Ok (Some PktPowerOn, 1%nat))
  /\ decode_packet (33 :: rest) ck strict true = ([], Ok (Some PktError, 1%nat))
  /\ forall code, is_code code ->
       decode_packet (code :: 46 :: rest) ck strict true = ([], Ok (Some (PktConfirm [code] true), 2%nat))
       /\ forall result, result <> 46 ->
            decode_packet (code :: result :: rest) ck strict true = ([], Ok (Some (PktConfirm [code] false), 2%nat)).
Proof.
  intros rest ck strict. split; [reflexivity|]. split; [reflexivity|]. intros code C.
  assert (M : mem code CONFIRMATION_CODES = true).
  { unfold mem. apply existsb_exists. exists code. split; [|lia]. unfold is_code in C.
    replace code with (103 + Z.of_nat (Z.to_nat (code - 103))) by lia.
    assert (N : (Z.to_nat (code - 103) < 20)%nat) by lia. revert N. generalize (Z.to_nat (code - 103)). clear.
    intros n N. do 20 (destruct n as [|n]; [cbn; auto 25|]). lia. }
  assert (C1 : code =? 43 = false) by (unfold is_code in C; lia).
  assert (C2 : code =? 33 = false) by (unfold is_code in C; lia).
  split; [|intros result R]; unfold decode_packet; rewrite C1, C2, M; [reflexivity|].
  replace (result =? 46) with false by lia. reflexivity.
Qed.
Print Assumptions C57_from_pci.

Theorem C57_to_pci : forall rest ck strict,
  decode_packet (126 :: rest) ck strict false = ([], Ok (Some PktReset, 1%nat))
  /\ decode_packet (txt "null" ++ rest) ck strict false = ([], Ok (None, 4%nat))
  /\ decode_packet (txt "|" ++ 13 :: rest) ck strict false = ([], Ok (Some PktSmartConnect, 2%nat))
  /\ decode_packet (txt "||" ++ 13 :: rest) ck strict false = ([], Ok (Some PktSmartConnect, 3%nat)).
Proof. intros. repeat split. Qed.
Print Assumptions C57_to_pci.

(** Everything up to the first '?' of a command is skipped.  Anything may come
    before it that is not itself a control message. *)
Theorem C57_cancelled : forall before after rest ck strict,
  ~ In 63 before -> ~ In 13 before -> ~ In 13 after ->
  hd 0 (before ++ [63]) <> 126 -> (forall r, before <> txt "null" ++ r) ->
  decode_packet (before ++ 63 :: after ++ 13 :: rest) ck strict false = ([], Ok (None, S (length before))).
Proof.
  intros before after rest ck strict Q C1 C2 R N.
  assert (E : before ++ 63 :: after ++ 13 :: rest = (before ++ 63 :: after) ++ 13 :: rest).
  { rewrite <- app_assoc. reflexivity. }
  assert (F : find END_COMMAND (before ++ 63 :: after ++ 13 :: rest) = Some (length (before ++ 63 :: after))).
  { rewrite E. apply find_cr. rewrite in_app_iff. intros [I|[I|I]]; [auto|discriminate I|auto]. }
  assert (G : find [63] (before ++ 63 :: after ++ 13 :: rest) = Some (length before)).
  { apply (find_app before [63] (after ++ 13 :: rest) 63); [discriminate|reflexivity|exact Q]. }
  assert (S1 : starts_with [110; 117; 108; 108] (before ++ 63 :: after ++ 13 :: rest) = false).
  { destruct before as [|a [|b [|c [|d r]]]]; cbn [app starts_with] in *.
    - reflexivity.
    - destruct (110 =? a); reflexivity.
    - destruct (110 =? a), (117 =? b); reflexivity.
    - destruct (110 =? a), (117 =? b), (108 =? c); reflexivity.
    - destruct (110 =? a) eqn:A, (117 =? b) eqn:B, (108 =? c) eqn:C, (108 =? d) eqn:D; try reflexivity.
      exfalso. apply (N r). cbn. repeat f_equal; lia. }
  assert (S2 : starts_with (124 :: END_COMMAND) (before ++ 63 :: after ++ 13 :: rest)
     || starts_with (124 :: 124 :: END_COMMAND) (before ++ 63 :: after ++ 13 :: rest) = false).
  { destruct before as [|a [|b [|c r]]]; unfold END_COMMAND; cbn [app starts_with In] in *.
    - reflexivity.
    - destruct (124 =? a); reflexivity.
    - destruct (124 =? a), (13 =? b) eqn:B, (124 =? b); try reflexivity; exfalso; apply C1; lia.
    - destruct (124 =? a), (13 =? b) eqn:B, (124 =? b), (13 =? c) eqn:C; try reflexivity; exfalso; apply C1; lia. }
  assert (H : exists c0 tl, before ++ 63 :: after ++ 13 :: rest = c0 :: tl /\ c0 <> 126).
  { destruct before as [|a r]; cbn [app hd] in *; eauto. }
  destruct H as [c0 [tl [H H0]]]. unfold decode_packet. rewrite H in *.
  replace (c0 =? 126) with false by lia. rewrite S1, S2, F, G.
  replace (Nat.ltb (length before) (length (before ++ 63 :: after))) with true.
  2:{ symmetry. apply Nat.ltb_lt. rewrite app_length. cbn [length]. lia. }
  unfold wret. do 4 f_equal. lia.
Qed.
Print Assumptions C57_cancelled.

Example C57_case :
  decode_packet (txt "h#\053") true true true = ([], Ok (Some (PktConfirm [104] false), 2%nat))
  /\ decode_packet (txt "\05FF?\05" ++ [13]) true true false = ([], Ok (None, 6%nat)).
Proof. vm_compute. split; reflexivity. Qed.
