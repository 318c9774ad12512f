(** Model of a client, or of the daemon, on a TCP connection: what asyncio's
    socket transport does between the network and the protocol object that
    cbus/daemon/cmqttd.py 430-469 and cbus/protocol/pciprotocol.py 575-635
    hand to [create_connection].  The transport is that of CPython 3.11,
    asyncio/selector_events.py.  No proofs in this file.

    Simplified: the name "lost" stands for a non-zero [_conn_lost];
    [set_write_buffer_limits] and [pause_writing] are left out (the project's
    classes inherit the [pause_writing] that does nothing); a program never
    closes its transport itself (nothing in pciprotocol.py or cmqttd.py does). *)
From Coq Require Import List ZArith Bool.
From Verif Require Import Py Common Sal Cal Packet Text Mqtt Buffered Client Cmqttd Daemon.
Import ListNotations.
Open Scope Z_scope.

(** What [socket.send] does: it takes some bytes from the front, it would block
    (or was interrupted), or it raises another exception.
    asyncio/selector_events.py 1058-1075 and 1085-1107. *)
Inductive reply : Set := Takes (n : nat) | Blocks | Breaks.

(** The transport: bytes not yet taken by the socket ([_buffer]), [_closing],
    whether [_conn_lost] is not 0, the number of calls of [connection_lost]
    that are scheduled, whether [connection_lost] has been called, the number
    of calls of [socket.send] so far, the bytes the socket has taken.
    asyncio/selector_events.py 760-800. *)
Record tcp : Set := mkTcp
  { t_out : bytes; t_closing : bool; t_lost : bool; t_due : nat; t_gone : bool; t_sends : nat; t_wire : bytes }.
(** asyncio/selector_events.py 768-800: a new transport. *)
Definition new_tcp : tcp := mkTcp [] false false 0 false 0 [].

(** asyncio/selector_events.py 885-895, called from [_fatal_error] (871-883). *)
Definition force_close (t : tcp) : tcp :=
  if t_lost t then t
  else mkTcp [] true true (S (t_due t)) (t_gone t) (t_sends t) (t_wire t).
(** asyncio/selector_events.py 856-864. *)
Definition close (t : tcp) : tcp :=
  if t_closing t then t
  else match t_out t with
       | [] => mkTcp [] true true (S (t_due t)) (t_gone t) (t_sends t) (t_wire t)
       | out => mkTcp out true (t_lost t) (t_due t) (t_gone t) (t_sends t) (t_wire t)
       end.

(** One call of [socket.send]: what is left to send, None after an exception.
    asyncio/selector_events.py 1058-1075 and 1085-1107. *)
Definition try_send (net : nat -> reply) (t : tcp) (data : bytes) : tcp * option bytes :=
  let counted wire := mkTcp (t_out t) (t_closing t) (t_lost t) (t_due t) (t_gone t) (S (t_sends t)) wire in
  match net (t_sends t) with
  | Takes n => (counted (t_wire t ++ firstn n data), Some (skipn n data))
  | Blocks => (counted (t_wire t), Some data)
  | Breaks => (counted (t_wire t), None)
  end.
(** [_buffer] replaced. asyncio/selector_events.py 1070-1078. *)
Definition set_out (t : tcp) (out : bytes) : tcp :=
  mkTcp out (t_closing t) (t_lost t) (t_due t) (t_gone t) (t_sends t) (t_wire t).

(** asyncio/selector_events.py 1041-1078.  Simplified: a write to a transport
    whose [connection_lost] was called from [_write_ready] would raise; no
    client does that, since it forgets its transport (pciprotocol.py 93-97). *)
Definition write (net : nat -> reply) (t : tcp) (data : bytes) : tcp :=
  match data with
  | [] => t
  | _ =>
      if t_lost t || t_gone t then t
      else match t_out t with
           | [] => match try_send net t data with
                   | (t1, Some rest) => set_out t1 rest
                   | (t1, None) => force_close t1
                   end
           | out => set_out t (out ++ data)
           end
  end.
(** The writes of one method, one after the other.
    asyncio/selector_events.py 1041-1078. *)
Definition write_all (net : nat -> reply) (t : tcp) (l : list bytes) : tcp := fold_left (write net) l t.

(** ** The object the transport serves *)

(** The methods of a protocol object: what a call does, which call hands over
    received data, which one says that the connection is lost, and the
    arguments of [transport.write] among the effects of a call.
    cbus/protocol/buffered_protocol.py 63-86, pciprotocol.py 83-97. *)
Record party (St Op Ev R : Type) : Type := mkParty
  { p_call : St -> Op -> St * list Ev * res R; p_data : bytes -> Op; p_lost : Op; p_out : list Ev -> list bytes }.
Arguments mkParty {St Op Ev R}.
Arguments p_call {St Op Ev R}.
Arguments p_data {St Op Ev R}.
Arguments p_lost {St Op Ev R}.
Arguments p_out {St Op Ev R}.

(** pciprotocol.py 368: the calls of [self._transport.write]. *)
Fixpoint transport_writes (ev : list cev) : list bytes :=
  match ev with
  | [] => []
  | CWrite w :: ev' => w :: transport_writes ev'
  | _ :: ev' => transport_writes ev'
  end.
(** pciprotocol.py 68-569. *)
Definition client_party (now : nat -> clockval) : party (client * bytes) cop cev (option Z) :=
  mkParty (client_step now) OpData OpLost transport_writes.
(** cmqttd.py 87-264 and 430-469. *)
Definition daemon_party (u : unicode) (now : nat -> clockval) (labels : list (Z * text))
  : party (client * bytes) dop cev unit :=
  mkParty (daemon_step u now labels) DData DLost transport_writes.

(** ** Histories *)

(** What can happen: a call by the program; [socket.recv] returns some bytes,
    none at the end of the stream; it raises; the socket can be written to; the
    event loop runs what was scheduled.
    asyncio/selector_events.py 995-1039 and 1080-1108. *)
Inductive net_op (Op : Type) : Type :=
| NCall (o : Op)
| NArrives (b : bytes)
| NReadFails
| NWritable
| NTurn.
Arguments NCall {Op}.
Arguments NArrives {Op}.
Arguments NReadFails {Op}.
Arguments NWritable {Op}.
Arguments NTurn {Op}.

(** What the object saw: a call by the program, [data_received],
    [connection_lost], each with its effects and result.
    asyncio/selector_events.py 897-909 and 995-1020. *)
Inductive seen (Op Ev R : Type) : Type :=
| SCall (o : Op) (ev : list Ev) (r : res R)
| SData (b : bytes) (ev : list Ev) (r : res R)
| SLost (ev : list Ev) (r : res R).
Arguments SCall {Op Ev R}.
Arguments SData {Op Ev R}.
Arguments SLost {Op Ev R}.

(** asyncio/selector_events.py 897-909. *)
Definition call_lost {St Op Ev R} (p : party St Op Ev R) (net : nat -> reply) (st : St) (t : tcp)
  : (St * tcp) * list (seen Op Ev R) :=
  let t1 := mkTcp (t_out t) (t_closing t) (t_lost t) (t_due t) true (t_sends t) (t_wire t) in
  match p_call p st (p_lost p) with
  | (st', ev, r) => ((st', write_all net t1 (p_out p ev)), [SLost ev r])
  end.

(** One event.  asyncio/selector_events.py: 995-1039 for received data,
    1080-1108 for a writable socket, 897-909 for the scheduled call. *)
Definition net_step {St Op Ev R} (p : party St Op Ev R) (net : nat -> reply) (w : St * tcp) (o : net_op Op)
  : (St * tcp) * list (seen Op Ev R) :=
  let (st, t) := w in
  match o with
  | NCall o =>
      match p_call p st o with
      | (st', ev, r) => ((st', write_all net t (p_out p ev)), [SCall o ev r])
      end
  | NArrives b =>
      if t_closing t then (w, [])
      else match b with
           | [] => ((st, close t), [])
           | _ =>
               match p_call p st (p_data p b) with
               | (st', ev, r) =>
                   let t1 := write_all net t (p_out p ev) in
                   ((st', match r with Ok _ => t1 | Raise _ => force_close t1 end), [SData b ev r])
               end
           end
  | NReadFails => if t_closing t then (w, []) else ((st, force_close t), [])
  | NWritable =>
      if t_lost t then (w, [])
      else match t_out t with
           | [] => (w, [])
           | out =>
               match try_send net t out with
               | (t1, None) => ((st, force_close (set_out t1 [])), [])
               | (t1, Some []) =>
                   if t_closing t then call_lost p net st (set_out t1 []) else ((st, set_out t1 []), [])
               | (t1, Some rest) => ((st, set_out t1 rest), [])
               end
           end
  | NTurn =>
      match t_due t with
      | O => (w, [])
      | S k => call_lost p net st (mkTcp (t_out t) (t_closing t) (t_lost t) k (t_gone t) (t_sends t) (t_wire t))
      end
  end.

(** A history.  asyncio/selector_events.py 760-1108. *)
Fixpoint net_run {St Op Ev R} (p : party St Op Ev R) (net : nat -> reply) (w : St * tcp) (l : list (net_op Op))
  : (St * tcp) * list (seen Op Ev R) :=
  match l with
  | [] => (w, [])
  | o :: l' =>
      match net_step p net w o with
      | (w1, tr1) => match net_run p net w1 l' with (w2, tr2) => (w2, tr1 ++ tr2) end
      end
  end.
