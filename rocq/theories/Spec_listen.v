(** Specification for C101: what a client is told about a stream of bytes. *)
From Coq Require Import List ZArith Bool.
From Verif Require Import Py Sal Cal Packet Client Spec Spec_wire Spec_reading Spec_client.
Import ListNotations.
Open Scope Z_scope.

(** A line begins with none of '+', '!' and the letters g to z, and ends with the
    first CR LF. *)
Definition line_start (w : bytes) : Prop :=
  match w with [] => True | c :: _ => c <> 43 /\ c <> 33 /\ ~ is_code c end.
Definition one_line (w : bytes) : Prop :=
  forall a b, w ++ [13; 10] = a ++ [13; 10] ++ b -> (length w <= length a)%nat.
(** The lines no client survives: an odd number of digits, or the line 00. *)
Definition fatal (w : bytes) : Prop :=
  w <> [] /\ Forall hex_char w /\ ((length w mod 2 = 1)%nat \/ w = [48; 48]).

(** [told m l]: for the bytes [m] a client gets the callbacks [l]. *)
Inductive told : bytes -> list cev -> Prop :=
| told_power : told [43] []
| told_error : told [33] [CCannotAccept]
| told_confirmed c : is_code c -> told [c; 46] [CConfirmation [c] true]
| told_refused c x : is_code c -> x <> 46 -> told [c; x] [CConfirmation [c] false]
| told_commands w h a commands ws : reply_line_says true true (w ++ [13; 10]) (PktPM h a commands) (length w + 2) ws ->
    told (w ++ [13; 10]) (flat_map (callback_of (h_source h)) commands)
| told_device w h par v ws : reply_line_says true true (w ++ [13; 10]) (PktDM h par v) (length w + 2) ws ->
    told (w ++ [13; 10]) []
| told_reports w h u hops cals ws : reply_line_says true true (w ++ [13; 10]) (PktPP h u hops cals) (length w + 2) ws ->
    told (w ++ [13; 10]) []
| told_nothing w : line_start w -> one_line w -> ~ fatal w ->
    (forall p n ws, ~ reply_line_says true true (w ++ [13; 10]) p n ws) -> told (w ++ [13; 10]) [].

(** Nothing can be told yet: no bytes, a letter alone, or a line without its end. *)
Definition untold (buf : bytes) : Prop :=
  buf = [] \/ (exists c, is_code c /\ buf = [c])
  \/ (line_start buf /\ forall a b, buf <> a ++ [13; 10] ++ b).

(** Pieces so short that no buffer overflows. *)
Definition gentle (size : nat) (chunks items : list bytes) (rest : bytes) : Prop :=
  Forall (fun m => (length m <= size)%nat) items /\ (length rest <= size)%nat
  /\ Forall (fun d => (length d + size <= 256)%nat) chunks.
