(** Specifications for a client that receives telegrams after noise. *)
From Coq Require Import List ZArith Bool.
From Verif Require Import Py Common Sal Cal Packet Buffered Client Server Spec Spec_client Spec_system.
Import ListNotations.
Open Scope Z_scope.

(** A telegram: a message of the network, forwarded by the PCI as the line [w];
    an undisturbed client is to be told [ps]. *)
Definition telegram (w : bytes) (ps : list packet) : Prop :=
  exists p, conveys p ps /\ serialize_packet p = Ok w
    /\ match p with PktPM _ _ _ | PktDM _ _ _ | PktPP _ _ _ _ => True | _ => False end.

(** A client that can do its work: it is connected, its confirmation counter is
    in range, and the clock of the computer gives dates. *)
Definition working (now : nat -> clockval) (c : client) : Prop :=
  clock_works now /\ cl_transport c = true /\ counter_ok c.
