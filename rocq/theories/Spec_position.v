(** The first message of a stream and its length. *)
From Coq Require Import List ZArith Bool.
From Verif Require Import Py Spec.
Import ListNotations.
Open Scope Z_scope.

(** From a PCI: a notice of power-on ['+'] or of an error ['!'], a confirmation
    code and the byte after it, or a line with its CR LF. *)
Inductive reply_head : bytes -> nat -> Prop :=
| reply_power_on : forall rest, reply_head (43 :: rest) 1
| reply_error : forall rest, reply_head (33 :: rest) 1
| reply_confirmation : forall c x rest, is_code c -> reply_head (c :: x :: rest) 2
| reply_line : forall line rest,
    (forall x, hd_error line = Some x -> x <> 43 /\ x <> 33 /\ ~ is_code x) ->
    (forall a b, line <> a ++ [13; 10] ++ b) ->
    reply_head (line ++ [13; 10] ++ rest) (length line + 2).

(** To a PCI: a reset ['~'], the text "null", a line with its CR, or what is
    before the first ['?'] of a line and the ['?'] itself. *)
Definition ordinary (data : bytes) : Prop :=
  (forall r, data <> 126 :: r) /\ (forall r, data <> [110; 117; 108; 108] ++ r).
Inductive command_head : bytes -> nat -> Prop :=
| command_reset : forall rest, command_head (126 :: rest) 1
| command_null : forall rest, command_head ([110; 117; 108; 108] ++ rest) 4
| command_line : forall line rest,
    ordinary (line ++ [13] ++ rest) -> ~ In 13 line -> ~ In 63 line ->
    command_head (line ++ [13] ++ rest) (length line + 1)
| command_cancelled : forall before line rest,
    ordinary (before ++ [63] ++ line ++ [13] ++ rest) -> ~ In 63 before -> ~ In 13 (before ++ line) ->
    command_head (before ++ [63] ++ line ++ [13] ++ rest) (length before + 1).
