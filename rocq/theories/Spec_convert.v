(** Words in which it is said what a client behind a converting redirector
    still sees and does. *)
From Coq Require Import List ZArith Bool.
From Verif Require Import Py Spec Client.
Import ListNotations.
Open Scope Z_scope.

(** Every CR is followed by an LF: whole lines and a beginning of one. *)
Inductive whole_lines : bytes -> Prop :=
| lines_end : whole_lines []
| lines_byte : forall c s, c <> 13 -> whole_lines s -> whole_lines (c :: s)
| lines_newline : forall s, whole_lines s -> whole_lines (13 :: 10 :: s).

(** The bytes a client received, over all calls. *)
Definition received (l : list cop) : bytes :=
  flat_map (fun o => match o with OpData b => b | _ => [] end) l.

(** A confirmation of an own command, or a complaint about it. *)
Definition about_own (e : cev) : Prop :=
  match e with CConfirmation _ _ | CCannotAccept => True | _ => False end.
(** Whatever arrives, the client does nothing but report those: no light, no
    clock, no answer and no message to the broker. *)
Definition deaf (l : list cop) (log : list (list cev * res (option Z))) : Prop :=
  forall i b ev r, nth_error l i = Some (OpData b) -> nth_error log i = Some (ev, r) -> Forall about_own ev.

(** The bytes of which commands are made: base16 digits, the backslash, the
    tilde, confirmation codes g to z and CR. *)
Definition command_byte (c : Z) : Prop :=
  hex_char c \/ c = 92 \/ c = 126 \/ 103 <= c <= 122 \/ c = 13.
