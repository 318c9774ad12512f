(** Model of a client that reaches the PCI through the redirector: the client
    of Client.v on the network, the redirector of Redirect.v, and the emulated
    PCI of Server.v in place of the one on the serial port (docs/hacking.rst
    47-62).  No proofs in this file.

    The bytes between the client and the redirector and between the redirector
    and the PCI are delivered in order, in pieces of any size, at any time. *)
From Coq Require Import List ZArith Bool.
From Verif Require Import Py Common Sal Packet Buffered Client Server Spec_client Spec_server Loop Redirect.
Import ListNotations.
Open Scope Z_scope.

(** The two ends with their receive buffers, the redirector, the bytes it wrote
    to the serial line and those it sent to the client that were not delivered
    yet.  docs/hacking.rst 47-62, scripts/tcp_serial_redirect.py 324-343,
    cbus/protocol/pciprotocol.py 61-569, cbus/protocol/pciserverprotocol.py
    51-476. *)
Record chain : Set := mkChain {
  h_client : client * bytes; h_prog : prog; h_line : bytes; h_server : server * bytes; h_sock : bytes }.

(** What can happen: a call on the object at either end, the delivery of at most
    [n] bytes to the PCI or to the client, a step of one of the two threads of
    the redirector.  tcp_serial_redirect.py 64-122, pciprotocol.py 83-569,
    pciserverprotocol.py 75-476. *)
Inductive hop : Set :=
| HClient (o : cop)
| HServer (o : sop)
| HUp (n : nat)
| HDown (n : nat)
| HReader (n : nat)
| HWriter (n : nat).

(** A step of the redirector and where its bytes go.
    tcp_serial_redirect.py 84 and 112. *)
Definition redirect (k : chain) (o : op) : chain :=
  match step None (h_prog k) o with
  | (p, e) =>
      mkChain (h_client k) p
        (h_line k ++ flat_map (fun x => match x with EWrite b => b | _ => [] end) e)
        (h_server k)
        (h_sock k ++ flat_map (fun x => match x with ESend _ b => b | _ => [] end) e)
  end.
(** [transport.write] of the client goes to the redirector:
    pciprotocol.py 361-363, tcp_serial_redirect.py 105. *)
Definition h_at_client (now : nat -> clockval) (k : chain) (o : cop) : chain * list seen :=
  match client_step now (h_client k) o with
  | (st, ev, r) =>
      (redirect (mkChain st (h_prog k) (h_line k) (h_server k) (h_sock k)) (NetIn 0 (concat (writes ev))),
       [SeenClient o ev r])
  end.
(** So does that of the PCI: pciserverprotocol.py 364-373 and 88-90,
    tcp_serial_redirect.py 68-71. *)
Definition h_at_server (rnd : nat -> Z) (k : chain) (o : sop) : chain * list seen :=
  match server_step rnd (h_server k) o with
  | (st, ev, r) =>
      (redirect (mkChain (h_client k) (h_prog k) (h_line k) st (h_sock k)) (SerialIn (concat (swrites ev))),
       [SeenServer o ev r])
  end.
(** tcp_serial_redirect.py 64-122, buffered_protocol.py 63-86. *)
Definition h_step (now : nat -> clockval) (rnd : nat -> Z) (k : chain) (o : hop) : chain * list seen :=
  match o with
  | HClient o => h_at_client now k o
  | HServer o => h_at_server rnd k o
  | HUp n =>
      h_at_server rnd (mkChain (h_client k) (h_prog k) (skipn n (h_line k)) (h_server k) (h_sock k))
        (SOpData (firstn n (h_line k)))
  | HDown n =>
      h_at_client now (mkChain (h_client k) (h_prog k) (h_line k) (h_server k) (skipn n (h_sock k)))
        (OpData (firstn n (h_sock k)))
  | HReader n => (redirect k (Reader 0 (Fine n)), [])
  | HWriter n => (redirect k (Writer 0 (Fine n)), [])
  end.
(** Any sequence of such steps, tcp_serial_redirect.py 327-343. *)
Fixpoint h_run (now : nat -> clockval) (rnd : nat -> Z) (k : chain) (l : list hop) : chain * list seen :=
  match l with
  | [] => (k, [])
  | o :: l' =>
      match h_step now rnd k o with
      | (k1, x) => match h_run now rnd k1 l' with (k2, tr) => (k2, x ++ tr) end
      end
  end.
(** The client connects to the redirector, which is the start of both ends as in
    [talk] of Loop.v: tcp_serial_redirect.py 330-340, pciprotocol.py 83-93,
    pciserverprotocol.py 75-86. *)
Definition talk_through (now : nat -> clockval) (rnd : nat -> Z) (c : client) (l : list hop) : chain * list seen :=
  h_run now rnd (mkChain (c, []) (fst (step None listening Accept)) [] (new_server, []) [])
    (HServer SOpConnect :: HClient OpConnect :: l).
