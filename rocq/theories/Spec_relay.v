(** Specification for C104: what a client does about a stream of bytes. *)
From Coq Require Import List ZArith Bool.
From Verif Require Import Py Sal Cal Packet Client Spec Spec_wire Spec_reading Spec_client Spec_mqtt Spec_listen.
Import ListNotations.
Open Scope Z_scope.

(** [brings m src commands]: the bytes [m] are a line in which unit [src] sends
    [commands], or anything else, which brings none. *)
Inductive brings : bytes -> option Z -> list sal -> Prop :=
| brings_commands w h a commands ws :
    reply_line_says true true (w ++ [13; 10]) (PktPM h a commands) (length w + 2) ws ->
    brings (w ++ [13; 10]) (h_source h) commands
| brings_none m l : told m l -> (forall h a commands n ws, ~ reply_line_says true true m (PktPM h a commands) n ws) ->
    brings m None [].

(** One message of a stream: its bytes, the unit it is from and its commands. *)
Record msg := mkMsg { msg_bytes : bytes; msg_from : option Z; msg_commands : list sal }.
Definition right (m : msg) : Prop := brings (msg_bytes m) (msg_from m) (msg_commands m).
