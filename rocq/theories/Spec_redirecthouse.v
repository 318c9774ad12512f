(** Specification for C106: the daemon behind the redirector. *)
From Coq Require Import List ZArith Lia.
From Verif Require Import Py Client Cmqttd Daemon Server Redirect RedirectLink House Spec_house RedirectHouse.
Import ListNotations.

(** The schedules considered: those of C75, with any steps of the redirector's
    threads between them. *)
Definition permitted_through (o : top) : Prop :=
  match o with
  | TDaemon o => permitted (AtDaemon o)
  | TPci o => permitted (AtPci o)
  | TRise n => (n <= 210)%nat
  | TFall _ | TReader _ | TWriter _ => True
  end.
(** Nothing is under way: nothing on the serial line or on the network, in
    neither direction, and nothing in the hands of the redirector. *)
Definition all_quiet (k : chain) : Prop :=
  h_line k = [] /\ h_sock k = [] /\ p_serial (h_prog k) = [] /\
  forall c, In c (p_conns (h_prog k)) ->
    c_net c = [] /\ (forall d, c_writer c = WWrite d -> d = []) /\ (forall d, c_reader c = RSend d -> d = []).
