(** Specifications for an object on a TCP connection. *)
From Coq Require Import List ZArith Bool.
From Verif Require Import Py Common Buffered Client Cmqttd Daemon Transport Spec Spec_client.
Import ListNotations.
Open Scope Z_scope.

(** ** The network's side of a history *)

(** The pieces [socket.recv] returned, in order. *)
Definition arrived {Op} (l : list (net_op Op)) : list bytes :=
  flat_map (fun o => match o with NArrives (x :: b) => [x :: b] | _ => [] end) l.
(** The peer does not hang up and the network does not fail. *)
Definition calm {Op} (net : nat -> reply) (l : list (net_op Op)) : Prop :=
  (forall n, net n <> Breaks) /\ ~ In NReadFails l /\ ~ In (NArrives []) l.
(** The event loop has run what was scheduled. *)
Definition turned {Op} (l : list (net_op Op)) : bool :=
  existsb (fun o => match o with NTurn => true | _ => false end) l.

(** ** The object's side *)

(** The pieces the object was handed, and what came of each. *)
Definition handed {Op Ev R} (tr : list (seen Op Ev R)) : list (bytes * res R) :=
  flat_map (fun s => match s with SData b _ r => [(b, r)] | _ => [] end) tr.
(** How often the object was told that the connection is lost. *)
Definition losses {Op Ev R} (tr : list (seen Op Ev R)) : nat :=
  length (filter (fun s => match s with SLost _ _ => true | _ => false end) tr).
(** The effects and the result of what it saw. *)
Definition seen_effects {Op Ev R} (s : seen Op Ev R) : list Ev :=
  match s with SCall _ ev _ | SData _ ev _ | SLost ev _ => ev end.
Definition seen_result {Op Ev R} (s : seen Op Ev R) : res R :=
  match s with SCall _ _ r | SData _ _ r | SLost _ r => r end.
Definition emitted {Op Ev R} (tr : list (seen Op Ev R)) : list Ev := flat_map seen_effects tr.
(** The effects of received data alone. *)
Definition data_effects {Op Ev R} (tr : list (seen Op Ev R)) : list Ev :=
  flat_map (fun s => match s with SData _ ev _ => ev | _ => [] end) tr.

(** The same history as calls of the methods of a client, or of the daemon's
    objects. *)
Definition as_cop (s : seen cop cev (option Z)) : cop :=
  match s with SCall o _ _ => o | SData b _ _ => OpData b | SLost _ _ => OpLost end.
Definition as_dop (s : seen dop cev unit) : dop :=
  match s with SCall o _ _ => o | SData b _ _ => DData b | SLost _ _ => DLost end.

(** ** The program *)

(** The calls a program makes: commands and the periodic task.  The first call,
    of [connection_made], is made by the transport. *)
Definition program_call (o : cop) : Prop := is_command o \/ o = OpTimesync.
Definition program_calls (l : list (net_op cop)) : Prop :=
  forall o, In (NCall o) l -> program_call o /\ python_value o.
Definition daemon_calls (l : list (net_op dop)) : Prop :=
  forall o, In (NCall o) l -> match o with DTimesync | DMqttConnected | DMqttMessage _ _ => True | _ => False end.

(** ** The end *)

(** The bytes the socket has taken. *)
Definition wire {St} (w : St * tcp) : bytes := t_wire (snd w).
(** Nothing more is read from the socket. *)
Definition ended_connection {St} (w : St * tcp) : Prop := t_closing (snd w) = true.
