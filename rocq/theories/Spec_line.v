(** Specifications for the daemon and the emulator at the two ends of a TCP
    connection. *)
From Coq Require Import List ZArith Bool.
From Verif Require Import Py Common Sal Packet Text Mqtt Buffered Client Cmqttd Daemon Server Transport Line Spec Spec_client
  Spec_transport.
Import ListNotations.
Open Scope Z_scope.

(** The schedules considered: MQTT and timer events, calls by the program of the
    emulator, the end of the stream and errors at either end, at any time.
    Bytes only come from the other end. *)
Definition possible (o : nop) : Prop :=
  match o with
  | OnDaemon (NCall (DTimesync | DMqttConnected | DMqttMessage _ _)) => True
  | OnDaemon (NCall _) => False
  | OnPci (NCall (PciCall (SOpData _))) | OnPci (NCall PciLost) => False
  | OnDaemon (NArrives (_ :: _)) | OnPci (NArrives (_ :: _)) => False
  | _ => True
  end.

(** The histories of the two objects. *)
Definition daemon_saw (tr : list nseen) : list (seen dop cev unit) :=
  flat_map (fun x => match x with ByDaemon s => [s] | _ => [] end) tr.
Definition pci_saw (tr : list nseen) : list (seen pop sev unit) :=
  flat_map (fun x => match x with ByPci s => [s] | _ => [] end) tr.
(** As a history of calls of the daemon, and as effects and results. *)
Definition line_calls (tr : list nseen) : list dop := map as_dop (daemon_saw tr).
Definition line_trace (tr : list nseen) : list (list cev * res unit) :=
  map (fun s => (seen_effects s, seen_result s)) (daemon_saw tr).
Definition emulator_trace (tr : list nseen) : list (list sev * res unit) :=
  map (fun s => (seen_effects s, seen_result s)) (pci_saw tr).

(** Both ends still read. *)
Definition lasting (w : line) : Prop := ~ ended_connection (n_daemon w) /\ ~ ended_connection (n_pci w).
(** Nothing is under way to the emulator, or to the daemon. *)
Definition all_up (w : line) : Prop := t_out (snd (n_daemon w)) = [] /\ n_up w = List.length (t_wire (snd (n_daemon w))).
Definition all_down (w : line) : Prop := t_out (snd (n_pci w)) = [] /\ n_down w = List.length (t_wire (snd (n_pci w))).
