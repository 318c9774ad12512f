(** Specifications for the client protocol: what is seen on the wire and which
    callbacks are due. *)
From Coq Require Import List ZArith Bool.
From Verif Require Import Py Common Sal Packet Text Mqtt Buffered Client Spec.
Import ListNotations.
Open Scope Z_scope.

(** ** The wire *)

(** The confirmation code a written message asks for: the byte before the
    final CR, if it is one of the letters g to z. *)
Definition write_code (e : cev) : list Z :=
  match e with
  | CWrite w =>
      match rev w with
      | 13 :: c :: _ => if (103 <=? c) && (c <=? 122) then [c] else []
      | _ => []
      end
  | _ => []
  end.
Definition wire_codes (evs : list cev) : list Z := flat_map write_code evs.
(** The codes in the order of use: "hijklmnopqrstuvwxyzg". *)
Definition code_order : list Z :=
  [104; 105; 106; 107; 108; 109; 110; 111; 112; 113; 114; 115; 116; 117; 118; 119; 120; 121; 122; 103].
(** The [k]-th code when the first one is number [i]. *)
Definition code_at (i k : nat) : Z := nth ((i + k) mod 20) code_order 0.

(** Everything that is written: a reset, or a command with a code at its end.
    There is one CR and it comes last. *)
Definition write_form (e : cev) : Prop :=
  match e with
  | CWrite w => w = [126; 13]
                \/ exists body code, w = body ++ [code; 13] /\ is_code code /\ ~ In 13 body /\ body <> []
  | _ => True
  end.
Definition is_write (e : cev) : bool := match e with CWrite _ => true | _ => false end.
Definition writes (evs : list cev) : list bytes :=
  flat_map (fun e => match e with CWrite w => [w] | _ => [] end) evs.

(** ** Calls *)

(** The command calls of the API. *)
Definition is_command (o : cop) : Prop :=
  match o with
  | OpOn _ | OpOff _ | OpTerminate _ | OpRamp _ _ _ | OpIdentify _ _ | OpClock _ | OpReset => True
  | _ => False
  end.
(** Values of Python's date, time and datetime types (or of another type). *)
Definition clock_object (v : clockval) : Prop :=
  match v with
  | CDate y m d => valid_date y m d
  | CTime h mi s us => valid_time h mi s us
  | CDateTime y m d h mi s us => valid_date y m d /\ valid_time h mi s us
  | COther => True
  end.
(** [datetime.now()] returns a datetime. *)
Definition clock_works (now : nat -> clockval) : Prop :=
  forall n, exists y m d h mi s us,
    now n = CDateTime y m d h mi s us /\ valid_date y m d /\ valid_time h mi s us.
(** The same object up to the number of times it has looked at the clock. *)
Definition same_client (c c' : client) : Prop := c' = set_reads c (cl_reads c').

Definition group_address (ga : Z) : Prop := 0 <= ga <= 255.

(** ** Callbacks *)

(** The callback due for one received command, if any. *)
Definition callback_of (source : option Z) (s : sal) : list cev :=
  match s with
  | LightRamp ga duration level => [CRamp source ga duration level]
  | LightOn ga => [COn source ga]
  | LightOff ga => [COff source ga]
  | LightTerminate ga => [CTerminate source ga]
  | ClockRequest => [CClockRequest source]
  | ClockUpdate v => [CClockUpdate source v]
  | TempBroadcast _ _ | EnableSet _ _ | StatusRequest _ _ _ => []
  end.
(** The callbacks due for a packet. *)
Definition callbacks_of (p : packet) : list cev :=
  match p with
  | PktPM h _ sals => flat_map (callback_of (h_source h)) sals
  | PktConfirm code success => [CConfirmation code success]
  | PktError => [CCannotAccept]
  | _ => []
  end.
(** The callbacks among some effects. *)
Definition is_callback (e : cev) : bool :=
  match e with
  | CCannotAccept | CConfirmation _ _ | CRamp _ _ _ _ | COn _ _ | COff _ _ | CTerminate _ _
  | CClockRequest _ | CClockUpdate _ _ => true
  | _ => false
  end.
Definition callbacks (evs : list cev) : list cev := filter is_callback evs.
Definition clock_requests (sals : list sal) : nat :=
  length (filter (fun s => match s with ClockRequest => true | _ => false end) sals).

(** The confirmation counter is in range.  It is in every reachable state
    (theorem C28_cycle). *)
Definition counter_ok (c : client) : Prop := (cl_index c < 20)%nat.

(** [requests now c o cmds]: call [o] on client [c] asks for the lighting or
    clock commands [cmds]. *)
Definition clock_commands (v : clockval) : list sal :=
  match v with
  | CDateTime y m d h mi s _ => [ClockUpdate (CDate y m d); ClockUpdate (CTime h mi s 0)]
  | CDate y m d => [ClockUpdate (CDate y m d)]
  | CTime h mi s _ => [ClockUpdate (CTime h mi s 0)]
  | COther => []
  end.
Inductive requests (now : nat -> clockval) (c : client) : cop -> Z -> list sal -> Prop :=
| req_on gas : requests now c (OpOn gas) 0x38 (map LightOn gas)
| req_off gas : requests now c (OpOff gas) 0x38 (map LightOff gas)
| req_terminate gas : requests now c (OpTerminate gas) 0x38 (map LightTerminate gas)
| req_ramp ga s d level : rounds_to s d ->
    requests now c (OpRamp ga s level) 0x38 [LightRamp ga d level]
| req_clock v : requests now c (OpClock (Some v)) 0xdf (clock_commands v)
| req_clock_now : requests now c (OpClock None) 0xdf (clock_commands (now (cl_reads c))).

(** A command as the client writes it: backslash, base16 digits whose bytes sum
    to 0 modulo 256, a confirmation code, CR. *)
Definition command_line (w : bytes) (code : Z) : Prop :=
  exists digits raw, w = [92] ++ digits ++ [code; 13] /\ Forall hex_char digits
    /\ b16decode digits = Ok raw /\ raw <> [] /\ sum raw mod 256 = 0 /\ is_code code.

(** [l] are the answers to [n] clock requests: each is a command line carrying
    the next confirmation code and the date and time of the next look at the
    clock. *)
Definition answers (now : nat -> clockval) (c : client) (n : nat) (l : list bytes) : Prop :=
  length l = n /\
  forall i w, nth_error l i = Some w ->
    let code := code_at (cl_index c) i in
    command_line w code /\
    forall strict rest, decode_packet (w ++ rest) true strict false
      = ([], Ok (Some (PktPM (mkHdr true 0 None (Some code)) (Some 0xdf)
                         (clock_commands (now (cl_reads c + i)%nat))), length w)).
(** The number of clock requests that are answered: all of them if the object
    is the daemon's handler or was told to, otherwise none. *)
Definition answered (c : client) (sals : list sal) : nat :=
  match cl_class c with
  | ClassHandler => clock_requests sals
  | ClassPCI => if cl_handle_clock c then clock_requests sals else 0%nat
  end.
(** The MQTT messages among some effects. *)
Definition published (evs : list cev) : list message :=
  flat_map (fun e => match e with CPublish m => [m] | _ => [] end) evs.

(** The arguments of a command call are acceptable. *)
Definition acceptable (o : cop) : Prop :=
  match o with
  | OpOn gas | OpOff gas | OpTerminate gas =>
      gas <> [] /\ (length gas <= 9)%nat /\ Forall group_address gas
  | OpRamp ga _ level => group_address ga /\ exists z, level = PInt z /\ 0 <= z <= 255
  | OpIdentify unit_address _ => 0 <= unit_address <= 255
  | OpClock (Some v) => v <> COther
  | OpClock None | OpReset => True
  | _ => False
  end.
(** The argument of a clock call is a Python value: a date has a valid month
    and so on. *)
Definition python_value (o : cop) : Prop :=
  match o with OpClock (Some v) => clock_object v | _ => True end.

(** How often the loss of the connection was signalled. *)
Definition signals (evs : list cev) : nat :=
  length (filter (fun e => match e with CFutureDone => true | _ => false end) evs).
