(** Model of the running daemon of cbus/daemon/cmqttd.py: everything asyncio and
    the MQTT library call on its two objects, one call after the other (both
    run in the same event loop, cmqttd.py 432 and 466).  No proofs in this
    file. *)
From Coq Require Import List ZArith Bool.
From Verif Require Import Py Common Sal Cal Packet Text Mqtt Buffered Client Cmqttd.
Import ListNotations.
Open Scope Z_scope.

(** The calls: those of asyncio on the CBusHandler, one iteration of a timesync
    task, and those of the MQTT library on the MqttClient (cmqttd.py 123-171).
    The payload is the result of [json.loads], None when it raises. *)
Inductive dop : Set :=
| DConnected
| DLost
| DData (b : bytes)
| DTimesync
| DMqttConnected
| DMqttMessage (topic : text) (payload : option json).

(** The state: the CBusHandler and its receive buffer.  The MqttClient has no
    state of its own (cmqttd.py 121-264). *)
Definition daemon_step (u : unicode) (now : nat -> clockval) (labels : list (Z * text))
    (st : client * bytes) (o : dop) : (client * bytes) * list cev * res unit :=
  let unit_result (x : (client * bytes) * list cev * res (option Z)) :=
    match x with (st', ev, r) => (st', ev, rbind r (fun _ => Ok tt)) end in
  match o with
  | DConnected => unit_result (client_step now st OpConnect)
  | DLost => unit_result (client_step now st OpLost)
  | DData b => unit_result (client_step now st (OpData b))
  | DTimesync => unit_result (client_step now st OpTimesync)
  | DMqttConnected =>
      match on_connect labels (fst st) with (c, ev, r) => ((c, snd st), ev, r) end
  | DMqttMessage topic payload =>
      match on_message u topic payload (fst st) with (c, ev, r) => ((c, snd st), ev, r) end
  end.

(** A history: exceptions go to the event loop, which logs them and goes on.
    The life of the objects made in cmqttd.py 430-469. *)
Fixpoint daemon_run (u : unicode) (now : nat -> clockval) (labels : list (Z * text))
    (st : client * bytes) (l : list dop) : (client * bytes) * list (list cev * res unit) :=
  match l with
  | [] => (st, [])
  | o :: l' =>
      match daemon_step u now labels st o with
      | (st', ev, r) =>
          match daemon_run u now labels st' l' with (st'', tr) => (st'', (ev, r) :: tr) end
      end
  end.

(** cmqttd.py 437-443: the handler as the daemon makes it. *)
Definition new_daemon (timesync : Z) (no_clock : bool) : client * bytes :=
  (new_client ClassHandler timesync (negb no_clock) Pending, []).
