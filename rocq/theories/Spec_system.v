(** Specifications for a client connected to an emulated PCI. *)
From Coq Require Import List ZArith Bool.
From Verif Require Import Py Common Sal Cal Packet Buffered Client Server Spec Spec_client Spec_server.
Import ListNotations.
Open Scope Z_scope.

(** ** From the client to the emulator *)

(** The packets of the handshake: three resets; watch the lighting application;
    interface options 3; interface options 1.  Each of the last three asks for
    a confirmation. *)
Definition handshake (code0 code1 code2 : Z) : list packet :=
  let dm code parameter v := PktDM (mkHdr false CLASS_2 None (Some code)) parameter v in
  [PktReset; PktReset; PktReset; dm code0 0x21 0x38; dm code1 0x42 0x0E; dm code2 0x30 0x59].

(** A clock update with the time of some look at the clock. *)
Definition clock_report (now : nat -> clockval) (p : packet) : Prop :=
  exists code n, is_code code
    /\ p = PktPM (mkHdr true 0 None (Some code)) (Some 0xdf) (clock_commands (now n)).

(** [w] is the bytes of such a report. *)
Definition reported (now : nat -> clockval) (p : packet) (w : bytes) : Prop :=
  clock_report now p /\ decode_packet w true true false = ([], Ok (Some p, length w)).

(** [asks now c ws o r pks]: by call [o] on client [c], which wrote [ws] and
    returned [r], the PCI is asked to do [pks].  A call that failed asks for
    nothing; received data and the periodic task can only cause clock reports,
    and these are the ones written, one for each. *)
Inductive asks (now : nat -> clockval) (c : client) (ws : list bytes) : cop -> res (option Z) -> list packet -> Prop :=
| ask_handshake o : o = OpConnect \/ o = OpReset ->
    asks now c ws o (Ok None)
      (handshake (code_at (cl_index c) 0) (code_at (cl_index c) 1) (code_at (cl_index c) 2))
| ask_command o code app cmds : requests now c o app cmds ->
    asks now c ws o (Ok (Some code)) [PktPM (mkHdr true 0 None (Some code)) (Some app) cmds]
| ask_identify u a code :
    asks now c ws (OpIdentify u a) (Ok (Some code)) [PktPP (mkHdr true 0 None (Some code)) u None [CIdentify a]]
| ask_failed o e : is_command o -> asks now c ws o (Raise e) []
| ask_lost r : asks now c ws OpLost r []
| ask_reports o r pks : o = OpTimesync \/ (exists b, o = OpData b) ->
    Forall2 (reported now) pks ws -> asks now c ws o r pks.

(** The same for a history of calls. *)
Inductive asked (now : nat -> clockval) : client * bytes -> list cop -> list packet -> Prop :=
| asked_end st : asked now st [] []
| asked_call st o ops st' ev r pks pks' : client_step now st o = (st', ev, r) ->
    asks now (fst st) (writes ev) o r pks -> asked now st' ops pks' -> asked now st (o :: ops) (pks ++ pks').

(** The calls considered: arguments are Python values, and a unit is asked for
    one of the eighteen attributes that have a name. *)
Definition proper (o : cop) : Prop :=
  python_value o /\ match o with OpIdentify _ a => 0 <= a <= 17 | _ => True end.

(** The codes of those packets for which the emulator knows an answer: all but
    the point-to-point ones. *)
Definition due (p : packet) : list Z :=
  match p with PktPM h _ _ | PktDM h _ _ => opt_code (h_confirm h) | _ => [] end.

(** ** From the emulator to the client *)

(** [conveys p ps]: when the emulator sends [p], the client is to be told [ps]. *)
Inductive conveys : packet -> list packet -> Prop :=
| cv_confirm c ok : is_code c -> conveys (PktConfirm [c] ok) [PktConfirm [c] ok]
| cv_power : conveys PktPowerOn [PktPowerOn; PktPowerOn]
| cv_error : conveys PktError [PktError]
| cv_pm prio src a cmds cmds' : 0 <= prio <= 3 -> 1 <= src <= 255 -> application_id a ->
    Forall2 (command_received a) cmds cmds' ->
    conveys (PktPM (mkHdr true prio (Some src) None) (Some a) cmds)
            [PktPM (mkHdr true prio (Some src) None) (Some a) cmds']
| cv_dm prio src p v : 0 <= prio <= 3 -> 1 <= src <= 255 ->
    conveys (PktDM (mkHdr true prio (Some src) None) p v)
            [PktDM (mkHdr true prio (Some src) None) (p mod 256) (v mod 256)]
| cv_pp prio src u cals cals' : 0 <= prio <= 3 -> 1 <= src <= 255 -> byte u ->
    Forall valid_cal cals -> Forall2 cal_received cals cals' ->
    conveys (PktPP (mkHdr true prio (Some src) None) u None cals)
            [PktPP (mkHdr true prio (Some src) None) u None cals'].

(** A client that only notes the packets it is given: [handle_data] of
    cbus/protocol/cbus_protocol.py 54-79 (emulate_pci=False) with a
    [handle_cbus_packet] that appends to a list. *)
Definition notes : handler unit packet := fun st buf =>
  match decode_packet buf true true true with
  | (_, Raise e) => (st, [], Raise e)
  | (_, Ok (p, n)) => (st, match p with Some p => [p] | None => [] end, Ok (Z.of_nat n))
  end.

(** [treats now c ps c' ev]: the client's reaction to some packets, one by one. *)
Inductive treats (now : nat -> clockval) : client -> list packet -> client -> list cev -> Prop :=
| tr_end c : treats now c [] c []
| tr_packet c p c1 ev ps c2 ev2 : handle_cbus_packet now p c = (c1, ev, Ok tt) ->
    treats now c1 ps c2 ev2 -> treats now c (p :: ps) c2 (ev ++ ev2).

(** A message that no client understands, together with all that follows it up
    to the end of a line: the echo of a command is one. *)
Definition spoils (w : bytes) : Prop :=
  (exists b w', w = b :: w' /\ b <> 43 /\ b <> 33 /\ ~ is_code b)
  /\ ~ In 10 w /\ exists x, In x w /\ ~ hex_char x.

(** ** Deliveries *)

(** [delivered chunks messages]: the chunks are a fragmentation of the stream
    of messages. *)
Definition delivered (chunks messages : list bytes) : Prop := concat chunks = concat messages.
(** No message is longer than [size], and no chunk so long that it could
    overflow a buffer holding an incomplete message. *)
Definition moderate (size : nat) (chunks messages : list bytes) : Prop :=
  (1 <= size)%nat /\ Forall (fun m => (length m <= size)%nat) messages
  /\ Forall (fun d => (length d + size <= 257)%nat) chunks.
