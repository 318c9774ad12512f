(** Lemmas on the client protocol. *)
From Coq Require Import List ZArith Bool Lia.
From Verif Require Import Py Common Sal Cal Packet Text Mqtt Buffered Client Base Spec Common_facts Sal_facts
  Packet_facts Packet_roundtrip Packet_decode Packet_total Buffer_facts.
Import ListNotations.
Open Scope Z_scope.

Lemma handle_data_stable now : prefix_stable (handle_data now).
Proof.
  intros c buf ext. destruct (from_pci_cases buf true true) as [[E _]|[C _]].
  - left. unfold handle_data. rewrite E. reflexivity.
  - right. unfold handle_data. rewrite (from_pci_stable buf ext true true C).
    split; [reflexivity|]. intros c' ev r H.
    destruct (decode_packet buf true true true) as [ws [[p n]|e]] eqn:D; [|discriminate].
    assert (B : (1 <= n <= length buf)%nat).
    { split; [now apply (complete_position buf true true true ws p n)|].
      apply from_pci_position in D. tauto. }
    destruct p as [p|].
    + destruct (handle_cbus_packet now p c) as [[c2 ev2] [[]|e]]; inversion H; subst. lia.
    + inversion H; subst. lia.
Qed.

Lemma handle_data_raises now c buf : pci_raises true true buf ->
  exists e, (e = BinasciiError \/ e = IndexError)
    /\ forall ext, handle_data now c (buf ++ ext) = (c, [], Raise e).
Proof.
  intros P. pose proof P as C. apply raises_from_pci in P. destruct P as [ws [e D]]. exists e.
  split; [now apply decode_packet_exn in D|]. intros ext. unfold handle_data.
  assert (PC : pci_complete buf).
  { destruct C as [line [rest [-> _]]]. right. right. right. now exists line, rest. }
  rewrite (from_pci_stable buf ext true true PC), D.
  apply decode_packet_quiet in D. now subst.
Qed.

Lemma receive_app {St Ev} (h : handler St Ev) limit l1 l2 : forall st buf,
  receive h limit st buf (l1 ++ l2) =
  match receive h limit st buf l1 with
  | (st1, buf1, log1) =>
      match receive h limit st1 buf1 l2 with (st2, buf2, log2) => (st2, buf2, log1 ++ log2) end
  end.
Proof.
  induction l1 as [|d l1 IH]; intros st buf; cbn [app receive].
  - now destruct (receive h limit st buf l2) as [[st2 buf2] log2].
  - destruct (data_received h limit st buf d) as [[[st1 buf1] ev] out]. rewrite IH.
    destruct (receive h limit st1 buf1 l1) as [[st2 buf2] log2].
    now destruct (receive h limit st2 buf2 l2) as [[st3 buf3] log3].
Qed.

Lemma wedged now c buf : (length buf <= 256)%nat -> pci_raises true true buf ->
  exists e, (e = BinasciiError \/ e = IndexError) /\
  (forall chunks, (length (buf ++ concat chunks) <= 256)%nat ->
     receive (handle_data now) MAX_BUFFER_SIZE c buf chunks
     = (c, buf ++ concat chunks, repeat ([], Raise e) (length chunks)))
  /\ (forall chunks d, (length (buf ++ concat chunks) <= 256)%nat ->
     (length d <= 256)%nat -> (256 < length (buf ++ concat chunks ++ d))%nat ->
     receive (handle_data now) MAX_BUFFER_SIZE c buf (chunks ++ [d])
     = (c, [], repeat ([], Raise e) (length chunks) ++ [([], Raise ValueError)]))
  /\ (forall chunks d, (length (buf ++ concat chunks) <= 256)%nat -> (256 < length d)%nat ->
     receive (handle_data now) MAX_BUFFER_SIZE c buf (chunks ++ [d])
     = (c, buf ++ concat chunks, repeat ([], Raise e) (length chunks) ++ [([], Raise ValueError)])).
Proof.
  intros L P. destruct (handle_data_raises now c buf P) as [e [He H]]. exists e. split; [exact He|].
  assert (K : forall chunks ext, (length ((buf ++ ext) ++ concat chunks) <= 256)%nat ->
     receive (handle_data now) MAX_BUFFER_SIZE c (buf ++ ext) chunks
     = (c, (buf ++ ext) ++ concat chunks, repeat ([], Raise e) (length chunks))).
  { induction chunks as [|d chunks IH]; intros ext B.
    - cbn [receive concat repeat length]. now rewrite app_nil_r.
    - cbn [concat] in B. rewrite app_assoc in B. rewrite <- (app_assoc buf ext d) in B.
      cbn [receive]. unfold data_received.
      assert (Q : (length (buf ++ ext) + length d <= 256)%nat) by (rewrite !app_length in *; lia).
      replace (Nat.ltb MAX_BUFFER_SIZE (length d)) with false
        by (symmetry; apply Nat.ltb_ge; unfold MAX_BUFFER_SIZE; lia).
      replace (Nat.ltb MAX_BUFFER_SIZE (length (buf ++ ext) + length d)) with false
        by (symmetry; apply Nat.ltb_ge; unfold MAX_BUFFER_SIZE; lia).
      assert (D : process_buffer (handle_data now) c (buf ++ (ext ++ d)) = (c, buf ++ (ext ++ d), [], Raise e)).
      { apply processes_buffer with [buf ++ (ext ++ d)]. apply pr_raise; [|apply H].
        destruct P as [line [rest [-> _]]]. destruct line; discriminate. }
      rewrite <- (app_assoc buf ext d), D, (IH (ext ++ d) B).
      cbn [concat]. rewrite (app_assoc _ d). rewrite <- (app_assoc buf ext d). reflexivity. }
  assert (K0 : forall chunks, (length (buf ++ concat chunks) <= 256)%nat ->
     receive (handle_data now) MAX_BUFFER_SIZE c buf chunks
     = (c, buf ++ concat chunks, repeat ([], Raise e) (length chunks))).
  { intros chunks B. specialize (K chunks []). rewrite app_nil_r in K. auto. }
  split; [exact K0|]. split.
  - intros chunks d B D1 D2. rewrite receive_app, (K0 chunks B). cbn [receive]. unfold data_received.
    rewrite app_assoc, app_length in D2.
    replace (Nat.ltb MAX_BUFFER_SIZE (length d)) with false
      by (symmetry; apply Nat.ltb_ge; unfold MAX_BUFFER_SIZE; lia).
    now replace (Nat.ltb MAX_BUFFER_SIZE (length (buf ++ concat chunks) + length d)) with true
      by (symmetry; apply Nat.ltb_lt; unfold MAX_BUFFER_SIZE; lia).
  - intros chunks d B D1. rewrite receive_app, (K0 chunks B). cbn [receive]. unfold data_received.
    now replace (Nat.ltb MAX_BUFFER_SIZE (length d)) with true
      by (symmetry; apply Nat.ltb_lt; unfold MAX_BUFFER_SIZE; lia).
Qed.
