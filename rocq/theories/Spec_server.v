(** Specifications for the emulated PCI: its modes, and what it writes. *)
From Coq Require Import List ZArith QArith Bool.
From Verif Require Import Py Common Sal Packet Buffered Server Spec.
Import ListNotations.
Open Scope Z_scope.

(** ** Modes *)

Record modes : Set := mkModes { m_basic : bool; m_connect : bool; m_checksum : bool; m_monitor : bool; m_idmon : bool }.
(** Power-up and reset: basic mode, everything else off. *)
Definition defaults : modes := mkModes true false false false false.
(** The meaning of the bits of interface options 1. *)
Definition options (v : Z) : modes :=
  mkModes (negb (Z.testbit v 4)) (Z.testbit v 0) (Z.testbit v 3) (Z.testbit v 5) (Z.testbit v 6).
(** The parameters that set interface options 1. *)
Definition sets_options (parameter : Z) : bool := (parameter =? 0x30) || (parameter =? 0x41).
(** The modes after some received packets, latest first: those of the last
    option write or reset, with smart and connect on if a smart-connect
    shortcut came after it. *)
Fixpoint latest (l : list packet) : modes :=
  match l with
  | [] => defaults
  | PktReset :: _ => defaults
  | PktDM _ parameter v :: older => if sets_options parameter then options v else latest older
  | PktSmartConnect :: older =>
      let m := latest older in mkModes false true (m_checksum m) (m_monitor m) (m_idmon m)
  | _ :: older => latest older
  end.
(** The flags of a server object. *)
Definition modes_of (s : server) : modes :=
  mkModes (sv_basic s) (sv_connect s) (sv_checksum s) (sv_monitor s) (sv_idmon s).

(** Connected, and watching every application. *)
Definition live (s : server) : Prop := sv_transport s = true /\ sv_app1 s = 0xff /\ sv_app2 s = 0xff.

(** ** Replies *)

Definition swrites (evs : list sev) : list bytes :=
  flat_map (fun e => match e with SWrite b => [b] | _ => [] end) evs.

(** The commands the emulator understands: lighting, clock, and the binary
    status request for the presence of units. *)
Definition understood (s : sal) : bool :=
  match s with
  | LightRamp _ _ _ | LightOn _ | LightOff _ | LightTerminate _ | ClockUpdate _ | ClockRequest => true
  | StatusRequest level _ child => negb level && (child =? 0xff)
  | TempBroadcast _ _ | EnableSet _ _ => false
  end.
Definition presence_request (s : sal) : bool :=
  match s with StatusRequest level _ child => negb level && (child =? 0xff) | _ => false end.
(** The commands up to the first that is not understood. *)
Fixpoint heard (l : list sal) : list sal :=
  match l with
  | s :: l' => if understood s then s :: heard l' else []
  | [] => []
  end.
Definition known_parameter (p : Z) : bool :=
  existsb (Z.eqb p) [0x21; 0x22; 0x30; 0x3e; 0x41; 0x42].
(** The code with which a packet is to be confirmed. *)
Definition confirmed (p : packet) : list Z :=
  match p with
  | PktPM h _ sals => if forallb understood sals then opt_code (h_confirm h) else []
  | PktDM h parameter _ => if known_parameter parameter then opt_code (h_confirm h) else []
  | _ => []
  end.
(** A positive confirmation. *)
Definition confirmation (c : Z) : bytes := [c; 46].

(** The methods called for a command. *)
Definition scallback_of (s : sal) : list sev :=
  match s with
  | LightRamp ga d level => [SRamp ga d level]
  | LightOn ga => [SOn ga]
  | LightOff ga => [SOff ga]
  | LightTerminate ga => [STerminate ga]
  | ClockUpdate v => [SClockUpdate v]
  | ClockRequest => [SClockRequest]
  | StatusRequest _ ga _ => [SMasterStatus ga]
  | TempBroadcast _ _ | EnableSet _ _ => []
  end.
Definition scallbacks_of (p : packet) : list sev :=
  match p with
  | PktPM _ _ sals => flat_map scallback_of (heard sals)
  | PktReset => [SReset]
  | _ => []
  end.
Definition is_scallback (e : sev) : bool :=
  match e with SWrite _ | SWarn _ => false | _ => true end.
Definition scallbacks (evs : list sev) : list sev := filter is_scallback evs.

(** A line of base16 digits for the bytes [raw], with CR LF. *)
Definition hex_line (raw w : bytes) : Prop :=
  exists digits, w = digits ++ [13; 10] /\ Forall hex_char digits /\ b16decode digits = Ok raw.
(** The line announcing command [body] on the lighting application by unit
    [source], with a checksum byte if [ck]. *)
Definition unit_line (ck : bool) (source : Z) (body w : bytes) : Prop :=
  exists tail, hex_line ([0x05; source; 0x38; 0x00] ++ body ++ tail) w
    /\ if ck then exists c, tail = [c] /\ byte c /\ sum ([0x05; source; 0x38; 0x00] ++ body ++ tail) mod 256 = 0
       else tail = [].

(** The presence of units 0 to 253 that the emulator claims: 1 to 10 and 253. *)
Definition presence : list Z :=
  map (fun u => if ((1 <=? u) && (u <=? 10)) || (u =? 253) then 1 else 0) (map Z.of_nat (seq 0 254)).
(** Four states per byte, the first in the lowest bits. *)
Definition unpack (b : Z) : list Z := [b mod 4; (b / 4) mod 4; (b / 16) mod 4; b / 64].
(** The presence of the units from [block] on: 0xC0 with the number of bytes that
    follow (the checksum counted), the application 0xFF, the states, the checksum. *)
Definition status_line (block : Z) (states w : bytes) : Prop :=
  exists head packed ck, hex_line ([head; 0xff; block] ++ packed ++ [ck]) w
    /\ sum ([head; 0xff; block] ++ packed ++ [ck]) mod 256 = 0
    /\ head = 0xc0 + 3 + Z.of_nat (length packed) /\ flat_map unpack packed = states.
Definition presence_lines (l0 l1 l2 : bytes) : Prop :=
  status_line 0 (firstn 88 presence) l0
  /\ status_line 88 (firstn 88 (skipn 88 presence)) l1
  /\ status_line 176 (skipn 176 presence ++ [0; 0]) l2.

(** [emits rnd ck sals q d out q' d']: executing the commands [sals] with the
    messages [q] queued for later and [d] random numbers drawn so far writes
    [out] and leaves [q'] and [d'].  A clock update queues an on and an off
    message of random units; a presence request writes three lines, the queued
    messages following the first of them. *)
Inductive emits (rnd : nat -> Z) (ck : bool)
  : list sal -> list bytes -> nat -> list bytes -> list bytes -> nat -> Prop :=
| em_nil q d : emits rnd ck [] q d [] q d
| em_quiet s sals q d out q' d' :
    match s with LightRamp _ _ _ | LightOn _ | LightOff _ | LightTerminate _ | ClockRequest => True | _ => False end ->
    emits rnd ck sals q d out q' d' -> emits rnd ck (s :: sals) q d out q' d'
| em_clock v sals on off q d out q' d' :
    unit_line ck (rnd (1 + d)%nat) [0x79; rnd d] on ->
    unit_line ck (rnd (3 + d)%nat) [0x01; rnd (2 + d)%nat] off ->
    emits rnd ck sals (q ++ [on; off]) (4 + d) out q' d' ->
    emits rnd ck (ClockUpdate v :: sals) q d out q' d'
| em_status ga sals l0 l1 l2 q d out q' d' :
    presence_lines l0 l1 l2 ->
    emits rnd ck sals [] d out q' d' ->
    emits rnd ck (StatusRequest false ga 0xff :: sals) q d ([l0] ++ q ++ [l1; l2] ++ out) q' d'.

(** [replies rnd ck p q d out q' d']: the same for a whole packet.  The
    confirmation comes last and is followed by what was queued. *)
Inductive replies (rnd : nat -> Z) (ck : bool) (p : packet) (q : list bytes) (d : nat)
  : list bytes -> list bytes -> nat -> Prop :=
| rp_some out q1 d1 c :
    emits rnd ck (match p with PktPM _ _ sals => heard sals | _ => [] end) q d out q1 d1 ->
    confirmed p = [c] -> replies rnd ck p q d (out ++ confirmation c :: q1) [] d1
| rp_none out q1 d1 :
    emits rnd ck (match p with PktPM _ _ sals => heard sals | _ => [] end) q d out q1 d1 ->
    confirmed p = [] -> replies rnd ck p q d out q1 d1.

(** [random.randint(1, 100)]. *)
Definition randint_works (rnd : nat -> Z) : Prop := forall n, 1 <= rnd n <= 100.

(** Confirmations among written messages: two bytes, a code and a result. *)
Definition is_confirmation (w : bytes) : bool :=
  match w with
  | [c; r] => (103 <=? c) && (c <=? 122) && ((r =? 46) || (r =? 35))
  | _ => false
  end.

(** ** Sessions

    What an emulator does with its input, as a state machine that knows the
    packets received so far (latest first), the bytes not yet understood, the
    messages queued for later and the number of random draws. *)
Record session : Set := mkSession {
  past : list packet; pending : bytes; queued : list bytes; drawn : nat }.

(** One action: a message was consumed (with its echo and the replies to it); a
    packet was refused, which leaves it in the buffer; a message was sent on
    request of the program, followed by what was queued. *)
Inductive action : Set :=
| Got (consumed : bytes) (p : option packet) (echo reply : list bytes)
| Refused (p : packet)
| Sent (b : bytes) (later : list bytes).
Definition action_writes (a : action) : list bytes :=
  match a with Got _ _ echo reply => echo ++ reply | Refused _ => [] | Sent b later => b :: later end.
Definition action_consumed (a : action) : bytes :=
  match a with Got consumed _ _ _ => consumed | Refused _ | Sent _ _ => [] end.
Definition action_echo (a : action) : list bytes :=
  match a with Got _ _ echo _ => echo | Refused _ | Sent _ _ => [] end.
(** Packets that do not switch to smart mode. *)
Definition stays_basic (p : packet) : bool :=
  match p with
  | PktSmartConnect => false
  | PktDM _ parameter v => if sets_options parameter then negb (Z.testbit v 4) else true
  | _ => true
  end.
(** The data among some calls. *)
Definition chunks_of (ops : list sop) : list bytes :=
  flat_map (fun o => match o with SOpData b => [b] | _ => [] end) ops.
Definition action_packet (a : action) : list packet :=
  match a with Got _ (Some p) _ _ => [p] | _ => [] end.

Definition commands_of (p : packet) : list sal := match p with PktPM _ _ sals => sals | _ => [] end.
(** The commands up to and including the first presence request. *)
Fixpoint until_presence (l : list sal) : list sal :=
  match l with
  | s :: l' => s :: if presence_request s then [] else until_presence l'
  | [] => []
  end.
Definition action_callbacks (a : action) : list sev :=
  match a with
  | Got _ (Some p) _ _ => scallbacks_of p
  | Refused p => flat_map scallback_of (until_presence (heard (commands_of p)))
  | Got _ None _ _ | Sent _ _ => []
  end.
(** The local echo: on in basic mode. *)
Definition echo_of (m : modes) (consumed : bytes) : list bytes := if m_basic m then [consumed] else [].

(** [handles rnd s acts r s']: the emulator consumes messages from its buffer
    until there is no complete one, or until it raises. *)
Inductive handles (rnd : nat -> Z) : session -> list action -> res unit -> session -> Prop :=
| hs_empty ps q d : handles rnd (mkSession ps [] q d) [] (Ok tt) (mkSession ps [] q d)
| hs_wait ps buf q d : buf <> [] ->
    decode_packet buf (m_checksum (latest ps)) true false = ([], Ok (None, 0%nat)) ->
    handles rnd (mkSession ps buf q d) [] (Ok tt) (mkSession ps buf q d)
| hs_error ps buf q d ws e :
    decode_packet buf (m_checksum (latest ps)) true false = (ws, Raise e) ->
    handles rnd (mkSession ps buf q d) [] (Raise e) (mkSession ps buf q d)
| hs_refused ps buf q d ws p n pre ga post q' d' :
    decode_packet buf (m_checksum (latest ps)) true false = (ws, Ok (Some p, n)) ->
    m_basic (latest ps) = false ->
    heard (commands_of p) = pre ++ StatusRequest false ga 0xff :: post ->
    emits rnd (m_checksum (latest ps)) pre q d [] q' d' ->
    handles rnd (mkSession ps buf q d) [Refused p] (Raise NotImplementedError) (mkSession ps buf q' d')
| hs_packet ps buf q d ws p n out q' d' acts r s' :
    decode_packet buf (m_checksum (latest ps)) true false = (ws, Ok (Some p, n)) -> (0 < n)%nat ->
    (m_basic (latest ps) = false -> existsb presence_request (heard (commands_of p)) = false) ->
    replies rnd (m_checksum (latest ps)) p q d out q' d' ->
    handles rnd (mkSession (p :: ps) (skipn n buf) q' d') acts r s' ->
    handles rnd (mkSession ps buf q d)
      (Got (firstn n buf) (Some p) (echo_of (latest ps) (firstn n buf)) out :: acts) r s'
| hs_nothing ps buf q d ws n acts r s' :
    decode_packet buf (m_checksum (latest ps)) true false = (ws, Ok (None, n)) -> (0 < n)%nat ->
    handles rnd (mkSession ps (skipn n buf) q d) acts r s' ->
    handles rnd (mkSession ps buf q d)
      (Got (firstn n buf) None (echo_of (latest ps) (firstn n buf)) [] :: acts) r s'.

(** [announces ck o w]: call [o] makes the emulator write [w].  The lighting
    methods announce an event of unit [src] (modulo 256) with one command. *)
Inductive announces (ck : bool) : sop -> bytes -> Prop :=
| an_connect : announces ck SOpConnect [43; 43; 13; 10]
| an_error : announces ck SOpError [33; 13; 10]
| an_code c rest ok : is_code c -> announces ck (SOpConfirm (c :: rest) ok) [c; if ok then 46 else 35]
| an_no_code ok : announces ck (SOpConfirm [] ok) [if ok then 46 else 35]
| an_on src ga w : 0 <= ga <= 255 -> unit_line ck (src mod 256) [0x79; ga] w -> announces ck (SOpOn src ga) w
| an_off src ga w : 0 <= ga <= 255 -> unit_line ck (src mod 256) [0x01; ga] w -> announces ck (SOpOff src ga) w
| an_terminate src ga w : 0 <= ga <= 255 -> unit_line ck (src mod 256) [0x09; ga] w ->
    announces ck (SOpTerminate src ga) w
| an_ramp src ga seconds d rate level w : 0 <= ga <= 255 -> 0 <= level <= 255 ->
    rounds_to seconds d -> is_ramp_rate rate d -> unit_line ck (src mod 256) [rate; ga; level] w ->
    announces ck (SOpRamp src ga seconds (PInt level)) w.
(** A ramp level below 0 or above 255; NaN is neither. *)
Definition off_scale (level : pynum) : Prop :=
  match level with
  | PInt z => z < 0 \/ 255 < z
  | PFloat q => (q < 0 \/ 255 < q)%Q
  | PNan => False
  | PInf _ => True
  end.
(** [declines o e]: call [o] raises [e]. *)
Inductive declines : sop -> exn -> Prop :=
| dc_group o src ga : ~ 0 <= ga <= 255 ->
    (o = SOpOn src ga \/ o = SOpOff src ga \/ o = SOpTerminate src ga \/ exists seconds level, o = SOpRamp src ga seconds level) ->
    declines o ValueError
| dc_level src ga seconds level : off_scale level -> declines (SOpRamp src ga seconds level) ValueError
| dc_float src ga seconds level : 0 <= ga <= 255 -> ~ off_scale level -> (forall z, level <> PInt z) ->
    declines (SOpRamp src ga seconds level) TypeError
| dc_code c rest ok : ~ is_code c -> declines (SOpConfirm (c :: rest) ok) ValueError.

(** The event that a call announces, as it is received, and its unit. *)
Inductive event : sop -> Z -> sal -> Prop :=
| ev_on src ga : event (SOpOn src ga) src (LightOn ga)
| ev_off src ga : event (SOpOff src ga) src (LightOff ga)
| ev_terminate src ga : event (SOpTerminate src ga) src (LightTerminate ga)
| ev_ramp src ga seconds d level : rounds_to seconds d ->
    event (SOpRamp src ga seconds (PInt level)) src (LightRamp ga d (PInt level)).
(** The unit as it is received: 0 stands for none. *)
Definition source_of (src : Z) : option Z := if src mod 256 =? 0 then None else Some (src mod 256).

(** [performs rnd s o acts r s']: one call. *)
Inductive performs (rnd : nat -> Z) : session -> sop -> list action -> res unit -> session -> Prop :=
| pf_too_large s data : (256 < length data)%nat ->
    performs rnd s (SOpData data) [] (Raise ValueError) s
| pf_overflow ps buf q d data : (length data <= 256)%nat -> (256 < length buf + length data)%nat ->
    performs rnd (mkSession ps buf q d) (SOpData data) [] (Raise ValueError) (mkSession ps [] q d)
| pf_data ps buf q d data acts r s' : (length buf + length data <= 256)%nat ->
    handles rnd (mkSession ps (buf ++ data) q d) acts r s' ->
    performs rnd (mkSession ps buf q d) (SOpData data) acts r s'
| pf_send ps buf q d o b : announces (m_checksum (latest ps)) o b ->
    performs rnd (mkSession ps buf q d) o [Sent b q] (Ok tt) (mkSession ps buf [] d)
| pf_fail s o e : declines o e -> performs rnd s o [] (Raise e) s.

(** [proceeds rnd s ops log s']: a history of calls, with what each of them did
    and returned. *)
Inductive proceeds (rnd : nat -> Z) : session -> list sop -> list (list action * res unit) -> session -> Prop :=
| pc_end s : proceeds rnd s [] [] s
| pc_call s o ops acts r log s1 s2 :
    performs rnd s o acts r s1 -> proceeds rnd s1 ops log s2 ->
    proceeds rnd s (o :: ops) ((acts, r) :: log) s2.
Definition actions (log : list (list action * res unit)) : list action := flat_map fst log.
(** A new emulator, and what it is seen to have written. *)
Definition fresh : session := mkSession [] [] [] 0.
Definition called (tr : list (list sev * res unit)) : list sev := flat_map (fun x => scallbacks (fst x)) tr.
Definition written (tr : list (list sev * res unit)) : list bytes := flat_map (fun x => swrites (fst x)) tr.

(** ** Deferred messages *)

(** [deferred rnd d l d']: the messages queued by clock updates while the draws
    from [d] to [d'] were made, in order. *)
Inductive deferred (rnd : nat -> Z) : nat -> list bytes -> nat -> Prop :=
| df_none d : deferred rnd d [] d
| df_update ck d on off l d' :
    unit_line ck (rnd (1 + d)%nat) [0x79; rnd d] on ->
    unit_line ck (rnd (3 + d)%nat) [0x01; rnd (2 + d)%nat] off ->
    deferred rnd (4 + d) l d' -> deferred rnd d (on :: off :: l) d'.
Definition is_clock_update (s : sal) : bool := match s with ClockUpdate _ => true | _ => false end.
(** The clock updates acted upon. *)
Definition action_updates (a : action) : nat :=
  match a with
  | Got _ (Some p) _ _ => length (filter is_clock_update (heard (commands_of p)))
  | Refused p => length (filter is_clock_update (until_presence (heard (commands_of p))))
  | Got _ None _ _ | Sent _ _ => 0%nat
  end.
Definition updates (l : list action) : nat := fold_right (fun a n => (action_updates a + n)%nat) 0%nat l.
Definition action_reply (a : action) : list bytes :=
  match a with Got _ _ _ reply => reply | Refused _ => [] | Sent b later => b :: later end.
(** A message together with the deferred messages that followed it. *)
Definition block : Set := (bytes * list bytes)%type.
Definition unblock (bs : list block) : list bytes := flat_map (fun b => fst b :: snd b) bs.
(** The messages that are not deferred: confirmations, the lines of a presence
    report, and those sent by the program. *)
Definition immediate (a : action) (w : bytes) : Prop :=
  match a with
  | Got _ (Some p) _ _ => In w (map confirmation (confirmed p))
      \/ exists l0 l1 l2, presence_lines l0 l1 l2 /\ In w [l0; l1; l2]
  | Sent b _ => w = b
  | Got _ None _ _ | Refused _ => False
  end.
(** [arranged a bs]: the replies of an action, cut into blocks. *)
Definition arranged (a : action) (bs : list block) : Prop :=
  action_reply a = unblock bs /\ Forall (fun b => immediate a (fst b)) bs.

(** ** Runs *)

(** [explains tr log]: what was observed during some calls is what the log says. *)
Definition explains (tr : list (list sev * res unit)) (log : list (list action * res unit)) : Prop :=
  Forall2 (fun x y => swrites (fst x) = flat_map action_writes (fst y)
    /\ scallbacks (fst x) = flat_map action_callbacks (fst y) /\ snd x = snd y) tr log.
(** The states of an emulator after a connection was made. *)
Definition reached (rnd : nat -> Z) (st : server * bytes) : Prop :=
  exists ops tr, server_run rnd (new_server, []) (SOpConnect :: ops) = (st, tr).
(** Only data arrives. *)
Definition data_only (ops : list sop) : Prop := Forall (fun o => exists data, o = SOpData data) ops.

(** ** The commands of a byte stream *)

(** [commands data cmds rest]: from left to right [data] is the commands [cmds]
    and an incomplete [rest].  A command is a reset ["~"], the text "null", a
    line up to its CR, or the part of such a line up to a "?" in it, which
    cancels what was typed. *)
Definition opens (head : bytes) : Prop :=
  (forall t, head <> 126 :: t) /\ (forall t, head <> [110; 117; 108; 108] ++ t).
Inductive commands : bytes -> list bytes -> bytes -> Prop :=
| cs_end rest : ~ command_complete rest -> commands rest [] rest
| cs_reset data cmds rest : commands data cmds rest -> commands (126 :: data) ([126] :: cmds) rest
| cs_null data cmds rest : commands data cmds rest ->
    commands ([110; 117; 108; 108] ++ data) ([110; 117; 108; 108] :: cmds) rest
| cs_line line data cmds rest : opens line -> ~ In 13 line -> ~ In 63 line -> commands data cmds rest ->
    commands (line ++ 13 :: data) ((line ++ [13]) :: cmds) rest
| cs_cancel typed data cmds rest : opens typed -> ~ In 13 typed -> ~ In 63 typed -> In 13 data ->
    commands data cmds rest -> commands (typed ++ 63 :: data) ((typed ++ [63]) :: cmds) rest.

(** A command that is taken for a CAL without addressing, with checksums on or off. *)
Definition bare_cal (cmd : bytes) : Prop :=
  exists ck ws c n, decode_packet cmd ck true false = (ws, Ok (Some (PktCal c), n)).
