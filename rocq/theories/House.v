(** Model of the MQTT daemon (cbus/daemon/cmqttd.py) connected to an emulated
    PCI (cbus/protocol/pciserverprotocol.py): the system of the project's own
    integration set-up, cmqttd with --tcp pointing at the emulator
    (cmqttd.py 437-466, pciserverprotocol.py 479-499).  No proofs in this file.

    The connection is that of [Loop]: a byte stream in each direction, which
    delivers in order and in pieces of any size at any time. *)
From Coq Require Import List ZArith Bool.
From Verif Require Import Py Common Sal Packet Text Mqtt Buffered Client Cmqttd Daemon Server Spec_client Spec_server Loop.
Import ListNotations.
Open Scope Z_scope.

(** What can happen: a call on the daemon (by the MQTT library or by its timer),
    a call on the emulator, or the delivery of at most [n] bytes in one piece.
    cmqttd.py 87-171 and pciserverprotocol.py 75-476. *)
Inductive hop : Set :=
| AtDaemon (o : dop)
| AtPci (o : sop)
| Rise (n : nat)
| Fall (n : nat).

(** What was seen to happen.  cmqttd.py 87-171 and pciserverprotocol.py 75-476. *)
Inductive hseen : Set :=
| SeenDaemon (o : dop) (ev : list cev) (r : res unit)
| SeenPci (o : sop) (ev : list sev) (r : res unit).

(** [transport.write] on one side puts bytes on their way to the other, as in
    [Loop]: pciprotocol.py 361-363, pciserverprotocol.py 364-373 and 88-90. *)
Definition at_daemon (u : unicode) (now : nat -> clockval) (labels : list (Z * text)) (k : link) (o : dop) : link * hseen :=
  match daemon_step u now labels (k_client k) o with
  | (st, ev, r) => (mkLink st (k_up k ++ concat (writes ev)) (k_server k) (k_down k), SeenDaemon o ev r)
  end.
(** pciserverprotocol.py 75-476, buffered_protocol.py 63-86. *)
Definition at_pci (rnd : nat -> Z) (k : link) (o : sop) : link * hseen :=
  match server_step rnd (k_server k) o with
  | (st, ev, r) => (mkLink (k_client k) (k_up k) st (k_down k ++ concat (swrites ev)), SeenPci o ev r)
  end.
(** pciprotocol.py 368, pciserverprotocol.py 90, 363 and 373, buffered_protocol.py 63-86. *)
Definition house_step (u : unicode) (now : nat -> clockval) (labels : list (Z * text)) (rnd : nat -> Z)
    (k : link) (o : hop) : link * hseen :=
  match o with
  | AtDaemon o => at_daemon u now labels k o
  | AtPci o => at_pci rnd k o
  | Rise n => at_pci rnd (mkLink (k_client k) (skipn n (k_up k)) (k_server k) (k_down k)) (SOpData (firstn n (k_up k)))
  | Fall n => at_daemon u now labels (mkLink (k_client k) (k_up k) (k_server k) (skipn n (k_down k)))
                        (DData (firstn n (k_down k)))
  end.
(** Any sequence of such calls and deliveries, cmqttd.py 430-469. *)
Fixpoint house_run (u : unicode) (now : nat -> clockval) (labels : list (Z * text)) (rnd : nat -> Z)
    (k : link) (l : list hop) : link * list hseen :=
  match l with
  | [] => (k, [])
  | o :: l' =>
      match house_step u now labels rnd k o with
      | (k1, x) => match house_run u now labels rnd k1 l' with (k2, tr) => (k2, x :: tr) end
      end
  end.

(** A new connection: both objects are told of it (pciserverprotocol.py 75-86,
    pciprotocol.py 83-93). *)
Definition house (u : unicode) (now : nat -> clockval) (labels : list (Z * text)) (rnd : nat -> Z)
    (timesync : Z) (no_clock : bool) (l : list hop) : link * list hseen :=
  house_run u now labels rnd (mkLink (new_daemon timesync no_clock) [] (new_server, []) [])
    (AtPci SOpConnect :: AtDaemon DConnected :: l).

(** The history of each object.
    The calls on the objects made in cmqttd.py 430-469. *)
Definition daemon_calls (tr : list hseen) : list dop :=
  flat_map (fun x => match x with SeenDaemon o _ _ => [o] | _ => [] end) tr.
(** The calls on the objects made in cmqttd.py 430-469. *)
Definition daemon_trace (tr : list hseen) : list (list cev * res unit) :=
  flat_map (fun x => match x with SeenDaemon _ ev r => [(ev, r)] | _ => [] end) tr.
(** The calls on a pciserverprotocol.py 51 object. *)
Definition pci_calls (tr : list hseen) : list sop :=
  flat_map (fun x => match x with SeenPci o _ _ => [o] | _ => [] end) tr.
(** The calls on a pciserverprotocol.py 51 object. *)
Definition pci_trace (tr : list hseen) : list (list sev * res unit) :=
  flat_map (fun x => match x with SeenPci _ ev r => [(ev, r)] | _ => [] end) tr.
