(** Model of the MQTT daemon (cbus/daemon/cmqttd.py 430-469) and an emulated PCI
    (cbus/protocol/pciserverprotocol.py 479-499) at the two ends of a TCP
    connection: each end has the asyncio transport of [Transport], and between
    the two sockets bytes are under way, which arrive in order, in pieces of any
    size, at any time or never.  No proofs in this file.

    Simplified: that one end closes its socket does not by itself tell the other
    one; the end of the stream and errors may be seen by each end at any time,
    which includes what really happens.  A write of the emulator on a transport
    that is gone is without effect; the code's raises after some of the ways in
    which a connection ends (the emulator keeps its transport). *)
From Coq Require Import List ZArith Bool.
From Verif Require Import Py Common Sal Packet Text Mqtt Buffered Client Cmqttd Daemon Server Spec_server Transport.
Import ListNotations.
Open Scope Z_scope.

(** What can be called on the emulator: one of the calls of [Server], or
    [connection_lost], which it inherits from [asyncio.Protocol] and which does
    nothing.  pciserverprotocol.py 51-476, buffered_protocol.py 29. *)
Inductive pop : Set := PciCall (o : sop) | PciLost.
(** pciserverprotocol.py 75-476. *)
Definition pci_step (rnd : nat -> Z) (st : server * bytes) (o : pop) : (server * bytes) * list sev * res unit :=
  match o with PciCall o => server_step rnd st o | PciLost => (st, [], Ok tt) end.
(** pciserverprotocol.py 88-90 and 364-373 for the writes. *)
Definition pci_party (rnd : nat -> Z) : party (server * bytes) pop sev unit :=
  mkParty (pci_step rnd) (fun b => PciCall (SOpData b)) PciLost swrites.

(** Both objects with their transports, and how many of the bytes that the
    socket of one end has taken have been returned by that of the other: up, to
    the emulator, and down.  cmqttd.py 455-457, pciserverprotocol.py 483-485. *)
Record line : Set := mkLine
  { n_daemon : (client * bytes) * tcp; n_pci : (server * bytes) * tcp; n_up : nat; n_down : nat }.

(** What can happen: something at one of the ends, or the arrival of at most [n]
    of the bytes under way.  asyncio/selector_events.py 995-1108. *)
Inductive nop : Set :=
| OnDaemon (o : net_op dop)
| OnPci (o : net_op pop)
| Climb (n : nat)
| Sink (n : nat).
(** What the two objects saw.  asyncio/selector_events.py 897-909 and 995-1020. *)
Inductive nseen : Set :=
| ByDaemon (s : seen dop cev unit)
| ByPci (s : seen pop sev unit).

(** asyncio/selector_events.py 995-1108 at the end of cmqttd.py 455-457. *)
Definition on_daemon (u : unicode) (now : nat -> clockval) (labels : list (Z * text)) (net : nat -> reply)
    (w : line) (o : net_op dop) : line * list nseen :=
  match net_step (daemon_party u now labels) net (n_daemon w) o with
  | (d, tr) => (mkLine d (n_pci w) (n_up w) (n_down w), map ByDaemon tr)
  end.
(** asyncio/selector_events.py 995-1108 at the end of pciserverprotocol.py 483-485. *)
Definition on_pci (rnd : nat -> Z) (net : nat -> reply) (w : line) (o : net_op pop) : line * list nseen :=
  match net_step (pci_party rnd) net (n_pci w) o with
  | (p, tr) => (mkLine (n_daemon w) p (n_up w) (n_down w), map ByPci tr)
  end.
(** asyncio/selector_events.py 995-1108.  [netd] and [netp]: what the sockets of
    the two ends do. *)
Definition line_step (u : unicode) (now : nat -> clockval) (labels : list (Z * text)) (rnd : nat -> Z)
    (netd netp : nat -> reply) (w : line) (o : nop) : line * list nseen :=
  match o with
  | OnDaemon o => on_daemon u now labels netd w o
  | OnPci o => on_pci rnd netp w o
  | Climb n =>
      match firstn n (skipn (n_up w) (t_wire (snd (n_daemon w)))) with
      | [] => (w, [])
      | b => on_pci rnd netp (mkLine (n_daemon w) (n_pci w) (n_up w + length b) (n_down w)) (NArrives b)
      end
  | Sink n =>
      match firstn n (skipn (n_down w) (t_wire (snd (n_pci w)))) with
      | [] => (w, [])
      | b => on_daemon u now labels netd (mkLine (n_daemon w) (n_pci w) (n_up w) (n_down w + length b)) (NArrives b)
      end
  end.
(** A history.  asyncio/selector_events.py 760-1108. *)
Fixpoint line_run (u : unicode) (now : nat -> clockval) (labels : list (Z * text)) (rnd : nat -> Z)
    (netd netp : nat -> reply) (w : line) (l : list nop) : line * list nseen :=
  match l with
  | [] => (w, [])
  | o :: l' =>
      match line_step u now labels rnd netd netp w o with
      | (w1, tr1) => match line_run u now labels rnd netd netp w1 l' with (w2, tr2) => (w2, tr1 ++ tr2) end
      end
  end.
(** A new connection: both objects are told of it (pciserverprotocol.py 75-86,
    pciprotocol.py 83-93). *)
Definition new_line (timesync : Z) (no_clock : bool) : line :=
  mkLine (new_daemon timesync no_clock, new_tcp) ((new_server, []), new_tcp) 0 0.
(** pciserverprotocol.py 75-86 and 479-499, cmqttd.py 430-469. *)
Definition tcp_house (u : unicode) (now : nat -> clockval) (labels : list (Z * text)) (rnd : nat -> Z)
    (netd netp : nat -> reply) (timesync : Z) (no_clock : bool) (l : list nop) : line * list nseen :=
  line_run u now labels rnd netd netp (new_line timesync no_clock)
    (OnPci (NCall (PciCall SOpConnect)) :: OnDaemon (NCall DConnected) :: l).
