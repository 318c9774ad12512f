(** Specification of what MQTT clients and an emulated PCI learn from each other
    through the daemon. *)
From Coq Require Import List ZArith Bool.
From Verif Require Import Py Common Sal Packet Text Mqtt Buffered Client Cmqttd Daemon Server Spec Spec_client Spec_mqtt Spec_daemon
  Spec_server Loop House.
Import ListNotations.
Open Scope Z_scope.

(** The schedules considered: any interleaving of MQTT events, timer events,
    calls on the emulator and deliveries.  Pieces going up are of at most 210
    bytes, so that the emulator's buffer does not overflow. *)
Definition permitted (o : hop) : Prop :=
  match o with
  | AtDaemon (DConnected | DLost | DData _) => False
  | AtDaemon _ => True
  | AtPci (SOpData _) => False
  | AtPci _ => True
  | Rise n => (n <= 210)%nat
  | Fall _ => True
  end.
(** No piece was dropped by the daemon. *)
Definition nothing_lost (tr : list hseen) : Prop :=
  forall data ev, ~ In (SeenDaemon (DData data) ev (Raise ValueError)) tr.

(** The calls of the emulator's lighting methods, and what they are called for. *)
Definition is_lighting (e : sev) : bool :=
  match e with SOn _ | SOff _ | SRamp _ _ _ | STerminate _ => true | _ => false end.
Definition lighting (tr : list (list sev * res unit)) : list sev := filter is_lighting (called tr).
(** [carried_out ga w e]: the method call [e] carries out wish [w] on group [ga].
    A ramp takes the next of the sixteen durations there are, or the longest. *)
Definition carried_out (ga : Z) (w : wish) (e : sev) : Prop :=
  match w with
  | WishOn => e = SOn ga
  | WishOff => e = SOff ga
  | WishRamp level seconds => exists d, rounds_to seconds d /\ e = SRamp ga d (PInt level)
  end.

(** What the C-Bus said, among the entries of a chronicle. *)
Definition news (log : list entry) : list entry :=
  flat_map (fun e => match e with Seen _ _ => [e] | Asked _ _ => [] end) log.
