(** Specifications: what the property theorems are stated with, beside the
    modelled API functions and the data types.  Nothing here uses the model's
    encoders, decoders or tables. *)
From Coq Require Import List ZArith QArith Qround Bool.
From Verif Require Import Py Sal Cal Packet Buffered.
Import ListNotations.
Open Scope Z_scope.

(** The sum of the bytes of a message. *)
Definition sum (l : list Z) : Z := fold_right Z.add 0 l.

(** Characters 0-9 and A-F. *)
Definition hex_char (c : Z) : Prop := 48 <= c <= 57 \/ 65 <= c <= 70.

(** ** Ramp rates *)

(** The sixteen ramp rates: command code and seconds. *)
Definition ramp_seconds : list Z :=
  [0; 4; 8; 12; 20; 30; 40; 60; 90; 120; 180; 300; 420; 600; 900; 1020].
Definition ramp_rate_code (i : nat) : Z := 2 + 8 * Z.of_nat i.
Definition is_ramp_rate (code seconds : Z) : Prop :=
  exists i, (i < 16)%nat /\ code = ramp_rate_code i /\ nth_error ramp_seconds i = Some seconds.
(** [d] is the supported duration that [s] seconds round to. *)
Definition rounds_to (s d : Z) : Prop :=
  In d ramp_seconds /\
  ((s <= d /\ forall d', In d' ramp_seconds -> s <= d' -> d <= d') \/ (1020 < s /\ d = 1020)).

(** ** Lighting *)

(** A lighting command with group address and level in 0..255 ... *)
Definition valid_light (s : sal) : Prop :=
  match s with
  | LightRamp ga _ (PInt level) => 0 <= ga <= 255 /\ 0 <= level <= 255
  | LightOn ga | LightOff ga | LightTerminate ga => 0 <= ga <= 255
  | _ => False
  end.
(** ... and what it is received as: only the duration changes. *)
Inductive light_received : sal -> sal -> Prop :=
| recv_on ga : light_received (LightOn ga) (LightOn ga)
| recv_off ga : light_received (LightOff ga) (LightOff ga)
| recv_terminate ga : light_received (LightTerminate ga) (LightTerminate ga)
| recv_ramp ga s d level : rounds_to s d ->
    light_received (LightRamp ga s level) (LightRamp ga d level).

(** The start of a lighting payload that is not a complete known command, and
    the warning for it. *)
Definition light_code (c : Z) : Prop :=
  c = 0x79 \/ c = 0x01 \/ c = 0x09 \/ exists d, is_ramp_rate c d.
Inductive light_undecodable : bytes -> warn -> Prop :=
| undec_stray c : light_undecodable [c] WLightStray
| undec_unknown c x r : ~ light_code c -> light_undecodable (c :: x :: r) WLightUnknown
| undec_no_level c ga d : is_ramp_rate c d -> light_undecodable [c; ga] WLightNoLevel.

(** ** Dates and times *)

Definition leap_year (y : Z) : Prop := (4 | y) /\ (~ (100 | y) \/ (400 | y)).
Definition month_length (y m n : Z) : Prop :=
  (In m [1; 3; 5; 7; 8; 10; 12] /\ n = 31) \/ (In m [4; 6; 9; 11] /\ n = 30)
  \/ (m = 2 /\ leap_year y /\ n = 29) \/ (m = 2 /\ ~ leap_year y /\ n = 28).
Definition valid_date (y m d : Z) : Prop :=
  1 <= y <= 9999 /\ exists n, month_length y m n /\ 1 <= d <= n.
Definition valid_time (h mi s us : Z) : Prop :=
  0 <= h <= 23 /\ 0 <= mi <= 59 /\ 0 <= s <= 59 /\ 0 <= us <= 999999.

Definition valid_clock (s : sal) : Prop :=
  match s with
  | ClockUpdate (CDate y m d) => valid_date y m d
  | ClockUpdate (CTime h mi s us) => valid_time h mi s us
  | ClockUpdate (CDateTime y m d h mi s us) => valid_date y m d
  | ClockRequest => True
  | _ => False
  end.
(** What it is received as: a time loses its microseconds; a datetime given to
    a single update loses its time of day. *)
Definition clock_received (s : sal) : sal :=
  match s with
  | ClockUpdate (CTime h mi s us) => ClockUpdate (CTime h mi s 0)
  | ClockUpdate (CDateTime y m d _ _ _ _) => ClockUpdate (CDate y m d)
  | s => s
  end.

(** ** Temperature, enable, status request *)

(** The rational denoted by a finite number. *)
Definition num_value (n : pynum) : option Q :=
  match n with PInt z => Some (inject_Z z) | PFloat q => Some q | _ => None end.

Definition valid_temp (s : sal) : Prop :=
  match s with
  | TempBroadcast ga t =>
      0 <= ga <= 255 /\ exists q, num_value t = Some q /\ (0 <= q)%Q /\ (q <= 6375 # 100)%Q
  | _ => False
  end.
Inductive temp_received : sal -> sal -> Prop :=
| recv_temp ga t q q' : num_value t = Some q ->
    q' = (Qfloor (4 * q) # 4) ->
    temp_received (TempBroadcast ga t) (TempBroadcast ga (PFloat q')).

Definition is_enable (s : sal) : Prop :=
  match s with EnableSet _ _ => True | _ => False end.
Definition enable_received (s : sal) : sal :=
  match s with EnableSet v x => EnableSet (v mod 256) (x mod 256) | s => s end.

Definition is_status_request (s : sal) : Prop :=
  match s with StatusRequest _ _ _ => True | _ => False end.
Definition status_received (s : sal) : sal :=
  match s with
  | StatusRequest lvl ga child => StatusRequest lvl (32 * ((ga mod 256) / 32)) (child mod 256)
  | s => s
  end.
(** A concatenation of well-formed status requests. *)
Inductive status_stream : bytes -> list sal -> Prop :=
| stream_nil : status_stream [] []
| stream_binary c child ga rest l : c = 0x7a \/ c = 0xfa -> (32 | ga) ->
    status_stream rest l ->
    status_stream (c :: child :: ga :: rest) (StatusRequest false ga child :: l)
| stream_level child ga rest l : (32 | ga) -> status_stream rest l ->
    status_stream (0x73 :: 0x07 :: child :: ga :: rest) (StatusRequest true ga child :: l).

(** ** Status reports *)

Definition group_state (s : Z) : Prop := 0 <= s <= 3.

(** The Manchester code: a level is four bit pairs, least significant first;
    each pair is sent as the nibble 1010, 1001, 0110 or 0101. *)
Definition code_word (v n : Z) : Prop :=
  (v = 0 /\ n = 10) \/ (v = 1 /\ n = 9) \/ (v = 2 /\ n = 6) \/ (v = 3 /\ n = 5).
Definition manchester (level b0 b1 : Z) : Prop :=
  exists p0 p1 p2 p3 n0 n1 n2 n3,
    code_word p0 n0 /\ code_word p1 n1 /\ code_word p2 n2 /\ code_word p3 n3
    /\ level = p0 + 4 * p1 + 16 * p2 + 64 * p3
    /\ b0 = n0 + 16 * n1 /\ b1 = n2 + 16 * n3.

(** Number of bytes of an encoded report. *)
Definition report_size (r : report) : nat :=
  match r with
  | RBinary states => (length states + 3) / 4
  | RLevel levels => 2 * length levels
  end%nat.
Definition valid_report (r : report) : Prop :=
  match r with RBinary states => Forall group_state states | RLevel _ => True end.
(** What a report becomes: binary reports are padded with MISSING (0) to the
    next multiple of four, levels are reduced to a byte. *)
Inductive report_received : report -> report -> Prop :=
| rr_binary states pad : (pad < 4)%nat -> ((length states + pad) mod 4 = 0)%nat ->
    report_received (RBinary states) (RBinary (states ++ repeat 0 pad))
| rr_level levels :
    report_received (RLevel levels) (RLevel (map (option_map (fun v => v mod 256)) levels)).

Definition valid_cal (c : cal) : Prop :=
  match c with
  | CIdentify a => 0 <= a <= 17
  | CRecall _ _ => True
  | CReply _ data => is_bytes data
  | CExtended _ _ _ r => valid_report r /\ (report_size r <= 28)%nat
  end.
Inductive cal_received : cal -> cal -> Prop :=
| cr_identify a : cal_received (CIdentify a) (CIdentify a)
| cr_recall p n : cal_received (CRecall p n) (CRecall (p mod 256) (n mod 256))
| cr_reply p data : cal_received (CReply p data) (CReply (p mod 256) (firstn 30 data))
| cr_extended ext child block r r' : report_received r r' ->
    cal_received (CExtended ext child block r) (CExtended ext (child mod 256) (block mod 256) r').

(** ** Packets *)

(** [command_received a s s']: command [s] of application [a] has valid fields
    and is received as [s']. *)
Inductive command_received : Z -> sal -> sal -> Prop :=
| recv_lighting s s' : valid_light s -> light_received s s' -> command_received 0x38 s s'
| recv_clock s : valid_clock s -> command_received 0xdf s (clock_received s)
| recv_temperature s s' : valid_temp s -> temp_received s s' -> command_received 0x19 s s'
| recv_enable s : is_enable s -> command_received 0xcb s (enable_received s)
| recv_status s : is_status_request s -> command_received 0xff s (status_received s).
Definition application_id (a : Z) : Prop :=
  a = 0x38 \/ a = 0xdf \/ a = 0x19 \/ a = 0xcb \/ a = 0xff.

(** The confirmation codes are the letters g to z. *)
Definition is_code (c : Z) : Prop := 103 <= c <= 122.
Definition opt_code (code : option Z) : bytes := match code with Some c => [c] | None => [] end.

(** A hex string that [decode_packet] cannot take apart: an odd number of
    digits, or nothing left after the checksum byte is removed. *)
Definition bad_hex (checksum strict : bool) (digits : bytes) : Prop :=
  (length digits mod 2 = 1)%nat \/ digits = []
  \/ (checksum = true /\ length digits = 2%nat /\ (strict = false \/ digits = [48; 48])).
(** Lines that make the decoder raise.  From a PCI: *)
Definition pci_raises (checksum strict : bool) (data : bytes) : Prop :=
  exists line rest, data = line ++ [13; 10] ++ rest /\ line <> []
    /\ Forall hex_char line /\ bad_hex checksum strict line.
(** To a PCI: optional prefix ['@'] or backslash, digits, optional confirmation
    character, CR. *)
Definition prefix_checksum (prefix : bytes) (checksum : bool) : bool :=
  match prefix with [64] => false | _ => checksum end.
Definition command_raises (checksum strict : bool) (data : bytes) : Prop :=
  exists prefix digits conf rest,
    data = prefix ++ digits ++ opt_code conf ++ [13] ++ rest
    /\ In prefix [[]; [64]; [92]]
    /\ Forall hex_char digits
    /\ bad_hex (prefix_checksum prefix checksum) strict digits
    /\ match conf with
       | None => prefix ++ digits <> []
       | Some c => ~ hex_char c /\ c <> 13 /\ c <> 63 /\ (is_code c \/ strict = false)
                   /\ (prefix = [] -> digits = [] -> c <> 126 /\ c <> 124)
       end.

(** A complete message at the head of the buffer.  From a PCI: a power-on or
    error notification, a confirmation code with its result, or a line. *)
Definition pci_complete (data : bytes) : Prop :=
  (exists rest, data = 43 :: rest) \/ (exists rest, data = 33 :: rest)
  \/ (exists c r rest, is_code c /\ data = c :: r :: rest)
  \/ (exists line rest, data = line ++ [13; 10] ++ rest).
(** To a PCI: a reset, the text "null", or anything up to a CR. *)
Definition command_complete (data : bytes) : Prop :=
  (exists rest, data = 126 :: rest) \/ (exists rest, data = [110; 117; 108; 108] ++ rest)
  \/ (exists line rest, data = line ++ [13] ++ rest).

(** The packets that carry decoded network data. *)
Definition data_packet (p : packet) : Prop :=
  match p with
  | PktPM _ _ _ | PktPP _ _ _ _ | PktDM _ _ _ | PktCal _ => True
  | _ => False
  end.

(** Calls on a point-to-multipoint packet object. *)
Inductive pm_op : Set := PAppend (s : sal) | PClear.
(** The commands a packet should hold: those appended without an exception
    since the last clear. *)
Fixpoint held (start : list sal) (log : list (pm_op * option exn)) : list sal :=
  match log with
  | [] => start
  | (PClear, _) :: log' => held [] log'
  | (PAppend s, None) :: log' => held (start ++ [s]) log'
  | (PAppend s, Some _) :: log' => held start log'
  end.
(** All commands belong to the packet's application; without one it is empty. *)
Definition homogeneous (st : option Z * list sal) : Prop :=
  match fst st with Some a => Forall (fun s => sal_application s = a) (snd st) | None => snd st = [] end.

(** Packets sent with a trailing checksum byte. *)
Definition checksummed (p : packet) : Prop :=
  match p with
  | PktPM h _ _ | PktPP h _ _ _ | PktDM h _ _ => h_checksum h = true
  | PktStdCal _ _ _ ck => ck = true
  | _ => False
  end.
(** Packets sent in base16, with payloads that are byte strings. *)
Definition hex_packet (p : packet) : Prop :=
  match p with
  | PktPM _ _ _ | PktDM _ _ _ | PktStdCal _ _ _ _ => True
  | PktPP _ _ _ cals =>
      Forall (fun c => match c with CReply _ data => is_bytes data | _ => True end) cals
  | _ => False
  end.

(** The receive loop of a buffered protocol, described call by call: [calls] is
    the list of buffers the handler is called with. *)
Inductive processes {St Ev : Type} (h : handler St Ev)
  : St -> bytes -> list bytes -> St -> bytes -> list Ev -> res unit -> Prop :=
| pr_empty st : processes h st [] [] st [] [] (Ok tt)
| pr_raise st buf st' ev e : buf <> [] -> h st buf = (st', ev, Raise e) ->
    processes h st buf [buf] st' buf ev (Raise e)
| pr_wait st buf st' ev : buf <> [] -> h st buf = (st', ev, Ok 0) ->
    processes h st buf [buf] st' buf ev (Ok tt)
| pr_clear st buf st' ev : buf <> [] -> h st buf = (st', ev, Ok (-1)) ->
    processes h st buf [buf] st' [] ev (Ok tt)
| pr_invalid st buf st' ev r : buf <> [] -> h st buf = (st', ev, Ok r) -> r < -1 ->
    processes h st buf [buf] st' [] ev (Raise ValueError)
| pr_next st buf st' ev r calls st'' buf' ev' out : buf <> [] -> h st buf = (st', ev, Ok r) -> 0 < r ->
    processes h st' (skipn (Z.to_nat r) buf) calls st'' buf' ev' out ->
    processes h st buf (buf :: calls) st'' buf' (ev ++ ev') out.

(** [y] is a strictly shorter suffix of [x]. *)
Definition proper_suffix (x y : bytes) : Prop := exists a, a <> [] /\ x = a ++ y.
(** Each element of a list is related to the next one. *)
Fixpoint chain {A} (R : A -> A -> Prop) (l : list A) : Prop :=
  match l with
  | x :: ((y :: _) as l') => R x y /\ chain R l'
  | _ => True
  end.

(** A history of chunks given to a buffered protocol; an exception goes to the
    caller and the history goes on.  The log has the effects and the outcome of
    each call. *)
Fixpoint receive {St Ev} (h : handler St Ev) (size_limit : nat) (st : St) (buf : bytes)
  (chunks : list bytes) : St * bytes * list (list Ev * res unit) :=
  match chunks with
  | [] => (st, buf, [])
  | d :: chunks' =>
      match data_received h size_limit st buf d with
      | (st1, buf1, ev, out) =>
          match receive h size_limit st1 buf1 chunks' with
          | (st2, buf2, log) => (st2, buf2, (ev, out) :: log)
          end
      end
  end.
(** No call of the history raised. *)
Definition no_raise {Ev A} (log : list (list Ev * res A)) : Prop :=
  Forall (fun x => exists a, snd x = Ok a) log.
(** All effects of a history, in order. *)
Definition effects {Ev A} (log : list (list Ev * res A)) : list Ev := flat_map fst log.
