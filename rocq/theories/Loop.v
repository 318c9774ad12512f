(** Model of a client and an emulated PCI at the two ends of one connection:
    the emulator serves it as in cbus/protocol/pciserverprotocol.py 479-499,
    the client opens it as in cbus/protocol/pciprotocol.py 582-625.  No proofs
    in this file.

    The connection is a byte stream in each direction.  It delivers what was
    written in order and in pieces of any size, at any time; this stands for
    the TCP transport of asyncio, which is not modelled further.  The loss of
    the connection is not part of this model. *)
From Coq Require Import List ZArith Bool.
From Verif Require Import Py Common Sal Packet Buffered Client Server Spec_client Spec_server.
Import ListNotations.
Open Scope Z_scope.

(** The two objects with their receive buffers, and the bytes on their way up
    (to the emulator) and down (to the client).
    pciprotocol.py 61-569 and pciserverprotocol.py 51-476 as connected by
    pciserverprotocol.py 479-485. *)
Record link : Set := mkLink {
  k_client : client * bytes; k_up : bytes; k_server : server * bytes; k_down : bytes }.

(** What can happen: a call on one of the objects, or the delivery of at most
    [n] bytes in one piece.
    The calls of Client.v and Server.v; pciserverprotocol.py 479-485 for the
    connection. *)
Inductive lop : Set :=
| AtClient (o : cop)
| AtServer (o : sop)
| Up (n : nat)
| Down (n : nat).

(** What was seen to happen: a call (deliveries are calls of [data_received]),
    its effects and its result.
    pciprotocol.py 83-569, pciserverprotocol.py 75-476. *)
Inductive seen : Set :=
| SeenClient (o : cop) (ev : list cev) (r : res (option Z))
| SeenServer (o : sop) (ev : list sev) (r : res unit).

(** [transport.write] on one side puts bytes on their way to the other:
    pciprotocol.py 361-363, pciserverprotocol.py 364-373 and 88-90. *)
Definition at_client (now : nat -> clockval) (k : link) (o : cop) : link * seen :=
  match client_step now (k_client k) o with
  | (st, ev, r) => (mkLink st (k_up k ++ concat (writes ev)) (k_server k) (k_down k), SeenClient o ev r)
  end.
(** pciserverprotocol.py 75-476, buffered_protocol.py 63-86. *)
Definition at_server (rnd : nat -> Z) (k : link) (o : sop) : link * seen :=
  match server_step rnd (k_server k) o with
  | (st, ev, r) => (mkLink (k_client k) (k_up k) st (k_down k ++ concat (swrites ev)), SeenServer o ev r)
  end.
(** pciprotocol.py 368, pciserverprotocol.py 90, 363 and 373, buffered_protocol.py 63-86. *)
Definition link_step (now : nat -> clockval) (rnd : nat -> Z) (k : link) (o : lop) : link * seen :=
  match o with
  | AtClient o => at_client now k o
  | AtServer o => at_server rnd k o
  | Up n => at_server rnd (mkLink (k_client k) (skipn n (k_up k)) (k_server k) (k_down k)) (SOpData (firstn n (k_up k)))
  | Down n => at_client now (mkLink (k_client k) (k_up k) (k_server k) (skipn n (k_down k))) (OpData (firstn n (k_down k)))
  end.
(** Any sequence of such calls and deliveries, pciserverprotocol.py 479-485. *)
Fixpoint link_run (now : nat -> clockval) (rnd : nat -> Z) (k : link) (l : list lop) : link * list seen :=
  match l with
  | [] => (k, [])
  | o :: l' =>
      match link_step now rnd k o with
      | (k1, x) => match link_run now rnd k1 l' with (k2, tr) => (k2, x :: tr) end
      end
  end.

(** A new connection: both objects are told of it (pciserverprotocol.py 75-86,
    pciprotocol.py 83-93). *)
Definition new_link (c : client) : link := mkLink (c, []) [] (new_server, []) [].
(** pciprotocol.py 83-93, pciserverprotocol.py 75-86. *)
Definition talk (now : nat -> clockval) (rnd : nat -> Z) (c : client) (l : list lop) : link * list seen :=
  link_run now rnd (new_link c) (AtServer SOpConnect :: AtClient OpConnect :: l).

(** The history of each object.  The calls on a pciprotocol.py 61 object. *)
Definition client_calls (tr : list seen) : list cop :=
  flat_map (fun x => match x with SeenClient o _ _ => [o] | _ => [] end) tr.
(** The calls on a pciprotocol.py 61 object. *)
Definition client_trace (tr : list seen) : list (list cev * res (option Z)) :=
  flat_map (fun x => match x with SeenClient _ ev r => [(ev, r)] | _ => [] end) tr.
(** The calls on a pciserverprotocol.py 51 object. *)
Definition server_calls (tr : list seen) : list sop :=
  flat_map (fun x => match x with SeenServer o _ _ => [o] | _ => [] end) tr.
(** The calls on a pciserverprotocol.py 51 object. *)
Definition server_trace (tr : list seen) : list (list sev * res unit) :=
  flat_map (fun x => match x with SeenServer _ ev r => [(ev, r)] | _ => [] end) tr.
