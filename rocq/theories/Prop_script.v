(** The requests of a client (C54, C73) are determined by its calls. *)
From Coq Require Import List ZArith Bool Lia.
From Verif Require Import Py Common Sal Cal Packet Buffered Client Server Spec Spec_client Spec_server Spec_system Common_facts Prop_client Prop_system Prop_loop.
Import ListNotations.
Open Scope Z_scope.

Lemma requests_once now c o a cmds a' cmds' : requests now c o a cmds -> requests now c o a' cmds' -> a = a' /\ cmds = cmds'.
Proof.
  intros R R'. inversion R; subst; inversion R'; subst; auto.
  match goal with A : rounds_to ?s ?d, B : rounds_to ?s ?e |- _ => rewrite (rounds_to_unique s d e A B) end. auto.
Qed.
Lemma reported_once now ws : forall pks pks', Forall2 (reported now) pks ws -> Forall2 (reported now) pks' ws -> pks = pks'.
Proof.
  induction ws as [|w ws IH]; intros pks pks' A B; inversion A as [|p ? m ? [_ D] A']; inversion B as [|q ? n ? [_ D'] B']; subst; auto.
  rewrite D in D'. injection D' as <-. f_equal. now apply IH.
Qed.
Lemma asks_once now c ws o r pks pks' : asks now c ws o r pks -> asks now c ws o r pks' -> pks = pks'.
Proof.
  intros A B.
  destruct A as [o O|o code a cmds R|u a code|o e C|r|o r pks O F]; inversion B as [o' O'|o' code' a' cmds' R'|u' a' code'|o' e' C'|r'|o' r' pks2 O' F'];
    subst; auto;
    try (exact (reported_once _ _ _ _ F F'));
    try (now destruct (requests_once _ _ _ _ _ _ _ R R') as [-> ->]);
    exfalso; repeat match goal with H : _ \/ _ |- _ => destruct H | H : exists _, _ |- _ => destruct H end; subst;
    try discriminate; try contradiction;
    match goal with H : requests _ _ _ _ _ |- _ => inversion H end.
Qed.
(** What the PCI is asked to do by a history of calls is determined by the
    calls: in C54 and C73 there is one list of requests. *)
Theorem C73_one_script : forall now st ops pks pks', asked now st ops pks -> asked now st ops pks' -> pks = pks'.
Proof.
  intros now st ops pks pks' A. revert pks'.
  induction A as [st|st o ops st' ev r pks more S A R IH]; intros pks' B; inversion B as [|? ? ? st2 ev2 r2 pks2 more2 S2 A2 R2]; subst; [reflexivity|].
  rewrite S in S2. injection S2 as <- <- <-. rewrite (asks_once _ _ _ _ _ _ _ A A2), (IH _ R2). reflexivity.
Qed.
Print Assumptions C73_one_script.
(** A client that has connected and then switches a light: there is a script,
    seven packets long. *)
Example C73_script_case : exists pks,
  asked noon (new_client ClassPCI 0 true Pending, []) [OpConnect; OpOn [1; 2]] pks /\ length pks = 7%nat.
Proof.
  eexists. split.
  - eapply asked_call; [vm_compute; reflexivity|apply ask_handshake; now left|].
    eapply asked_call; [vm_compute; reflexivity|apply ask_command; apply req_on|]. apply asked_end.
  - reflexivity.
Qed.
