(** Model of the MQTT daemon that reaches the PCI through the redirector
    (cmqttd with --tcp pointing at scripts/tcp_serial_redirect.py): the daemon
    of Daemon.v on the network, the redirector of Redirect.v, and the emulated
    PCI of Server.v in place of the one on the serial port (docs/hacking.rst
    47-62).  No proofs in this file.

    The bytes are delivered as in RedirectLink.v, and [chain] and [redirect]
    are those of that file. *)
From Coq Require Import List ZArith Bool.
From Verif Require Import Py Common Sal Packet Text Mqtt Buffered Client Cmqttd Daemon Server Spec_client Spec_server Loop House
  Redirect RedirectLink.
Import ListNotations.
Open Scope Z_scope.

(** What can happen: a call on the daemon (by the MQTT library or by its timer)
    or on the PCI, the delivery of at most [n] bytes to the PCI or to the daemon,
    a step of one of the two threads of the redirector.
    cmqttd.py 87-171, pciserverprotocol.py 75-476, tcp_serial_redirect.py
    64-122. *)
Inductive top : Set :=
| TDaemon (o : dop)
| TPci (o : sop)
| TRise (n : nat)
| TFall (n : nat)
| TReader (n : nat)
| TWriter (n : nat).

(** [transport.write] of the daemon goes to the redirector:
    pciprotocol.py 361-363, tcp_serial_redirect.py 105. *)
Definition t_at_daemon (u : unicode) (now : nat -> clockval) (labels : list (Z * text)) (k : chain) (o : dop) : chain * list hseen :=
  match daemon_step u now labels (h_client k) o with
  | (st, ev, r) =>
      (redirect (mkChain st (h_prog k) (h_line k) (h_server k) (h_sock k)) (NetIn 0 (concat (writes ev))),
       [SeenDaemon o ev r])
  end.
(** So does that of the PCI: pciserverprotocol.py 364-373 and 88-90,
    tcp_serial_redirect.py 68-71. *)
Definition t_at_pci (rnd : nat -> Z) (k : chain) (o : sop) : chain * list hseen :=
  match server_step rnd (h_server k) o with
  | (st, ev, r) =>
      (redirect (mkChain (h_client k) (h_prog k) (h_line k) st (h_sock k)) (SerialIn (concat (swrites ev))),
       [SeenPci o ev r])
  end.
(** tcp_serial_redirect.py 64-122, buffered_protocol.py 63-86. *)
Definition t_step (u : unicode) (now : nat -> clockval) (labels : list (Z * text)) (rnd : nat -> Z)
    (k : chain) (o : top) : chain * list hseen :=
  match o with
  | TDaemon o => t_at_daemon u now labels k o
  | TPci o => t_at_pci rnd k o
  | TRise n =>
      t_at_pci rnd (mkChain (h_client k) (h_prog k) (skipn n (h_line k)) (h_server k) (h_sock k))
        (SOpData (firstn n (h_line k)))
  | TFall n =>
      t_at_daemon u now labels (mkChain (h_client k) (h_prog k) (h_line k) (h_server k) (skipn n (h_sock k)))
        (DData (firstn n (h_sock k)))
  | TReader n => (redirect k (Reader 0 (Fine n)), [])
  | TWriter n => (redirect k (Writer 0 (Fine n)), [])
  end.
(** Any sequence of such steps, tcp_serial_redirect.py 327-343, cmqttd.py
    430-469. *)
Fixpoint t_run (u : unicode) (now : nat -> clockval) (labels : list (Z * text)) (rnd : nat -> Z)
    (k : chain) (l : list top) : chain * list hseen :=
  match l with
  | [] => (k, [])
  | o :: l' =>
      match t_step u now labels rnd k o with
      | (k1, x) => match t_run u now labels rnd k1 l' with (k2, tr) => (k2, x ++ tr) end
      end
  end.
(** The daemon connects to the redirector, which is the start of both ends as in
    [house] of House.v: tcp_serial_redirect.py 330-340, cmqttd.py 447-450,
    pciprotocol.py 83-93, pciserverprotocol.py 75-86. *)
Definition house_through (u : unicode) (now : nat -> clockval) (labels : list (Z * text)) (rnd : nat -> Z)
    (timesync : Z) (no_clock : bool) (l : list top) : chain * list hseen :=
  t_run u now labels rnd (mkChain (new_daemon timesync no_clock) (fst (step None listening Accept)) [] (new_server, []) [])
    (TPci SOpConnect :: TDaemon DConnected :: l).
