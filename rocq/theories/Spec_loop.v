(** Specification of what a client learns from the emulator it is connected to. *)
From Coq Require Import List ZArith Bool.
From Verif Require Import Py Common Sal Packet Buffered Client Server Spec Spec_client Spec_server Spec_system Loop.
Import ListNotations.
Open Scope Z_scope.

(** [tells w l]: a client that is not in the middle of a line makes the
    callbacks [l] for the message [w].  Confirmations and errors are reported;
    the power-on message is not; an event of a unit is reported if it has a
    checksum. *)
Inductive tells : bytes -> list cev -> Prop :=
| te_confirm c (ok : bool) : is_code c -> tells [c; if ok then 46 else 35] [CConfirmation [c] ok]
| te_error : tells [33; 13; 10] [CCannotAccept]
| te_power : tells [43; 43; 13; 10] []
| te_event o src e w : announces true o w -> event o src e -> tells w (callback_of (source_of src) e)
| te_unchecked o src e w : announces false o w -> event o src e -> tells w [].

(** [hears clear ws clear' l]: the messages [ws] of the emulator cause the
    callbacks [l].  After the echo of a command everything is lost up to and
    including the next line: the client takes all of it for one line.
    [clear] and [clear']: no such loss is going on, before and after. *)
Inductive hears : bool -> list bytes -> bool -> list cev -> Prop :=
| he_end b : hears b [] b []
| he_told w l ws b ev : tells w l -> hears true ws b ev -> hears true (w :: ws) b (l ++ ev)
| he_spoilt w ws b ev : spoils w -> hears false ws b ev -> hears true (w :: ws) b ev
| he_lost w ws b ev : ~ In 10 w -> hears false ws b ev -> hears false (w :: ws) b ev
| he_regained line ws b ev : ~ In 10 line -> hears true ws b ev -> hears false ((line ++ [13; 10]) :: ws) b ev.

(** The schedules considered: any interleaving of calls (a reset included) and
    deliveries.  Pieces going up are of at most 210 bytes, so that the
    emulator's buffer does not overflow. *)
Definition lawful (o : lop) : Prop :=
  match o with
  | AtClient (OpConnect | OpLost | OpData _) => False
  | AtClient o => proper o
  | AtServer (SOpData _) => False
  | AtServer _ => True
  | Up n => (n <= 210)%nat
  | Down _ => True
  end.
(** No piece was dropped by the client. *)
Definition nothing_dropped (tr : list seen) : Prop :=
  forall data ev, ~ In (SeenClient (OpData data) ev (Raise ValueError)) tr.
