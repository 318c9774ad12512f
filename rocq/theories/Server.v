(** Model of cbus/protocol/pciserverprotocol.py and of cbus_protocol.py in the
    PCI-emulating direction.  No proofs in this file. *)
From Coq Require Import List ZArith Bool.
From Verif Require Import Py Common Sal Cal Packet Buffered.
Import ListNotations.
Open Scope Z_scope.

(** pciserverprotocol.py 61-73.  [sv_draws]: number of [random.randint] calls so
    far (the generator is an oracle indexed by it). *)
Record server : Set := mkServer {
  sv_transport : bool;
  sv_basic : bool;
  sv_connect : bool;
  sv_checksum : bool;
  sv_monitor : bool;
  sv_idmon : bool;
  sv_app1 : Z;
  sv_app2 : Z;
  sv_queue : list bytes;
  sv_draws : nat }.

(** pciserverprotocol.py 61-73. *)
Definition new_server : server := mkServer false true false false false false 0xff 0xff [] 0.

(** Observable effects: writes and calls of the [on_*] methods.
    pciserverprotocol.py 90, 224-310, 363 and 373. *)
Inductive sev : Set :=
| SWrite (b : bytes)
| SWarn (w : warn)
| SReset
| SRamp (ga duration : Z) (level : pynum)
| SOn (ga : Z)
| SOff (ga : Z)
| STerminate (ga : Z)
| SClockUpdate (v : clockval)
| SClockRequest
| SMasterStatus (ga : Z).

(** The methods of pciserverprotocol.py 61-476. *)
Definition MS (A : Type) : Type := server -> server * list sev * res A.
(** A return, e.g. pciserverprotocol.py 106. *)
Definition sret {A} (a : A) : MS A := fun s => (s, [], Ok a).
(** A raise, e.g. pciserverprotocol.py 337. *)
Definition sraise {A} (e : exn) : MS A := fun s => (s, [], Raise e).
(** A step without effects, e.g. pciserverprotocol.py 341-350. *)
Definition slift {A} (r : res A) : MS A := fun s => (s, [], r).
(** A call on the outside, e.g. pciserverprotocol.py 363. *)
Definition semit (e : sev) : MS unit := fun s => (s, [e], Ok tt).
(** Statements one after the other, e.g. pciserverprotocol.py 355-373. *)
Definition sbind {A B} (m : MS A) (f : A -> MS B) : MS B := fun s =>
  match m s with
  | (s1, ev1, Ok a) => match f a s1 with (s2, ev2, r) => (s2, ev1 ++ ev2, r) end
  | (s1, ev1, Raise e) => (s1, ev1, Raise e)
  end.
(** Statements one after the other, e.g. pciserverprotocol.py 355-373. *)
Definition sseq {A B} (m : MS A) (k : MS B) : MS B := sbind m (fun _ => k).

(** Assignments to the mode flags.
    pciserverprotocol.py 61-73, 116-120, 163-222 and 224-234. *)
Definition set_modes (s : server) (basic connect checksum monitor idmon : bool) : server :=
  mkServer (sv_transport s) basic connect checksum monitor idmon (sv_app1 s) (sv_app2 s)
           (sv_queue s) (sv_draws s).
(** pciserverprotocol.py 352-353 and 366-369. *)
Definition set_queue (s : server) (q : list bytes) : server :=
  mkServer (sv_transport s) (sv_basic s) (sv_connect s) (sv_checksum s) (sv_monitor s) (sv_idmon s)
           (sv_app1 s) (sv_app2 s) q (sv_draws s).
(** pciserverprotocol.py 288-310. *)
Definition set_draws (s : server) (n : nat) : server :=
  mkServer (sv_transport s) (sv_basic s) (sv_connect s) (sv_checksum s) (sv_monitor s) (sv_idmon s)
           (sv_app1 s) (sv_app2 s) (sv_queue s) n.

(** [self._transport.write(b)]: AttributeError when there is no transport.
    pciserverprotocol.py 90, 363 and 373. *)
Definition swrite (b : bytes) : MS unit := fun s =>
  if sv_transport s then (s, [SWrite b], Ok tt) else (s, [], Raise AttributeError).
(** pciserverprotocol.py 372-373. *)
Fixpoint swrite_all (l : list bytes) : MS unit :=
  match l with
  | [] => sret tt
  | b :: l' => sseq (swrite b) (swrite_all l')
  end.

(** pciserverprotocol.py 340-350. *)
Definition serialize_packet (cmd : packet) : res bytes :=
  rbind (encode_packet cmd) (fun b =>
  Ok (match cmd with PktConfirm _ _ => b | _ => b ++ END_RESPONSE end)).

(** pciserverprotocol.py 352-353. *)
Definition send_later (cmd : packet) : MS unit :=
  sbind (slift (serialize_packet cmd)) (fun b => fun s => (set_queue s (sv_queue s ++ [b]), [], Ok tt)).

(** pciserverprotocol.py 355-373: write, swap the queue for an empty one, write
    the queued messages. *)
Definition ssend (cmd : packet) : MS unit :=
  sbind (slift (serialize_packet cmd)) (fun b =>
  sseq (swrite b) (fun s => swrite_all (sv_queue s) (set_queue s []))).

(** pciserverprotocol.py 75-86. *)
Definition s_connection_made : MS unit := fun s =>
  ssend PktPowerOn
    (mkServer true (sv_basic s) (sv_connect s) (sv_checksum s) (sv_monitor s) (sv_idmon s)
              (sv_app1 s) (sv_app2 s) (sv_queue s) (sv_draws s)).

(** pciserverprotocol.py 88-90. *)
Definition echo (data : bytes) : MS unit := fun s =>
  if sv_basic s then swrite data s else sret tt s.

(** pciserverprotocol.py 224-234. *)
Definition on_reset : MS unit := fun s =>
  (mkServer (sv_transport s) true false false false false 0xFF 0xFF (sv_queue s) (sv_draws s),
   [SReset], Ok tt).

(** [random.randint(1, 100)].  pciserverprotocol.py 302-309. *)
Definition draw (rnd : nat -> Z) : MS Z := fun s =>
  (set_draws s (S (sv_draws s)), [], Ok (rnd (sv_draws s))).

(** A packet built for a unit on the network: pciserverprotocol.py 301-303,
    399-402. *)
Definition unit_packet (checksum : bool) (source : Z) (new : res sal) : res packet :=
  rbind new (fun s =>
  rbind (new_pm checksum CLASS_4 None [s]) (fun p =>
  Ok (match p with
      | PktPM h a l => PktPM (mkHdr (h_checksum h) (h_priority h) (Some source) (h_confirm h)) a l
      | p => p
      end))).

(** pciserverprotocol.py 288-310.  The group address is drawn before the
    source address. *)
Definition s_on_clock_update (rnd : nat -> Z) (v : clockval) : MS unit :=
  sseq (semit (SClockUpdate v))
  (sbind (draw rnd) (fun ga1 => sbind (draw rnd) (fun src1 =>
   sseq (fun s => (sbind (slift (unit_packet (sv_checksum s) src1 (new_light_on ga1))) send_later) s)
  (sbind (draw rnd) (fun ga2 => sbind (draw rnd) (fun src2 =>
   fun s => (sbind (slift (unit_packet (sv_checksum s) src2 (new_light_off ga2))) send_later) s)))))).

(** pciserverprotocol.py 324-326. *)
Definition presence_states : list Z :=
  [GS_MISSING] ++ repeat GS_ON 10 ++ repeat GS_MISSING (254 - 12) ++ [GS_ON].
(** pciserverprotocol.py 331-335. *)
Definition status_block (x : nat) : packet :=
  PktStdCal APP_STATUS_REQUEST (Z.of_nat x) (firstn 88 (skipn x presence_states)) true.
(** pciserverprotocol.py 312-337; [range(0, 0xff, 0x58)] is 0, 88, 176.  The
    assertion on line 327 always holds. *)
Definition on_master_application_status (ga : Z) : MS unit :=
  sseq (semit (SMasterStatus ga)) (fun s =>
    if sv_basic s then
      sseq (ssend (status_block 0)) (sseq (ssend (status_block 88)) (ssend (status_block 176))) s
    else (s, [], Raise NotImplementedError)).

(** pciserverprotocol.py 126-162: the loop over the SALs.  The result is false
    when a [return] inside the loop left the method. *)
Fixpoint s_dispatch_sals (rnd : nat -> Z) (l : list sal) : MS bool :=
  match l with
  | [] => sret true
  | s :: l' =>
      match s with
      | LightRamp ga d lv => sseq (semit (SRamp ga d lv)) (s_dispatch_sals rnd l')
      | LightOn ga => sseq (semit (SOn ga)) (s_dispatch_sals rnd l')
      | LightOff ga => sseq (semit (SOff ga)) (s_dispatch_sals rnd l')
      | LightTerminate ga => sseq (semit (STerminate ga)) (s_dispatch_sals rnd l')
      | ClockUpdate v => sseq (s_on_clock_update rnd v) (s_dispatch_sals rnd l')
      | ClockRequest => sseq (semit SClockRequest) (s_dispatch_sals rnd l')
      | StatusRequest lvl ga child =>
          if (child =? APP_STATUS_REQUEST) && negb lvl
          then sseq (on_master_application_status ga) (s_dispatch_sals rnd l')
          else sret false
      | _ => sret false
      end
  end.

(** [x & mask] as a truth value.  pciserverprotocol.py 163-222. *)
Definition bit_set (x mask : Z) : bool := negb (Z.land x mask =? 0).

(** pciserverprotocol.py 163-212: false for an unhandled parameter. *)
Definition s_device_management (parameter value : Z) : MS bool := fun s =>
  if mem parameter [0x21; 0x22; 0x3E; 0x42] then (s, [], Ok true)
  else if mem parameter [0x30; 0x41] then
    (set_modes s (negb (bit_set value 0x10)) (bit_set value 0x01) (bit_set value 0x08)
                 (bit_set value 0x20) (bit_set value 0x40), [], Ok true)
  else (s, [], Ok false).

(** pciserverprotocol.py 378-382. *)
Definition send_confirmation (code : bytes) (ok : bool) : MS unit :=
  sbind (slift (new_confirmation code ok)) ssend.
(** pciserverprotocol.py 375-376. *)
Definition send_error : MS unit := ssend PktError.

(** pciserverprotocol.py 219-220: confirm if the loop or branch completed. *)
Definition confirm_if (h : hdr) (done : bool) : MS unit :=
  if done then match h_confirm h with
               | Some c => send_confirmation [c] true
               | None => sret tt
               end
  else sret tt.

(** pciserverprotocol.py 92-220. *)
Definition s_handle_cbus_packet (rnd : nat -> Z) (p : packet) : MS unit :=
  match p with
  | PktReset => on_reset
  | PktSmartConnect => fun s =>
      (set_modes s false true (sv_checksum s) (sv_monitor s) (sv_idmon s), [], Ok tt)
  | PktPM h _ sals => sbind (s_dispatch_sals rnd sals) (confirm_if h)
  | PktDM h parameter value => sbind (s_device_management parameter value) (confirm_if h)
  | _ => sret tt
  end.

(** cbus_protocol.py 54-79 with emulate_pci=True: decode with the current
    [checksum] flag, echo what was consumed, then handle the packet. *)
Definition s_handle_data (rnd : nat -> Z) : handler server sev := fun s buf =>
  match decode_packet buf (sv_checksum s) true false with
  | (ws, Raise e) => (s, map SWarn ws, Raise e)
  | (ws, Ok (p, remainder)) =>
      match sseq (if Nat.ltb 0 remainder then echo (firstn remainder buf) else sret tt)
                 (match p with None => sret tt | Some p => s_handle_cbus_packet rnd p end) s with
      | (s', ev, Ok tt) => (s', map SWarn ws ++ ev, Ok (Z.of_nat remainder))
      | (s', ev, Raise e) => (s', map SWarn ws ++ ev, Raise e)
      end
  end.

(** ** Everything that can happen to a server object.
    The methods of pciserverprotocol.py 75-476 that others call. *)
Inductive sop : Set :=
| SOpConnect
| SOpData (b : bytes)
| SOpOn (source ga : Z)
| SOpOff (source ga : Z)
| SOpRamp (source ga duration : Z) (level : pynum)
| SOpTerminate (source ga : Z)
| SOpError
| SOpConfirm (code : bytes) (ok : bool).

(** pciserverprotocol.py 384-476, 375-382, 75-86. *)
Definition s_unit (source : Z) (new : res sal) : MS unit := fun s =>
  sbind (slift (unit_packet (sv_checksum s) source new)) ssend s.
(** pciserverprotocol.py 375-476. *)
Definition s_api (o : sop) : MS unit :=
  match o with
  | SOpConnect => s_connection_made
  | SOpOn src ga => s_unit src (new_light_on ga)
  | SOpOff src ga => s_unit src (new_light_off ga)
  | SOpRamp src ga d l => s_unit src (new_light_ramp ga d l)
  | SOpTerminate src ga => s_unit src (new_light_terminate ga)
  | SOpError => send_error
  | SOpConfirm code ok => send_confirmation code ok
  | SOpData _ => sret tt
  end.
(** pciserverprotocol.py 75-86 and 375-476, buffered_protocol.py 63-86. *)
Definition server_step (rnd : nat -> Z) (st : server * bytes) (o : sop)
  : (server * bytes) * list sev * res unit :=
  match o with
  | SOpData b =>
      match data_received (s_handle_data rnd) MAX_BUFFER_SIZE (fst st) (snd st) b with
      | (s, buf, ev, r) => ((s, buf), ev, r)
      end
  | _ => match s_api o (fst st) with (s, ev, r) => ((s, snd st), ev, r) end
  end.
(** Any sequence of the calls of pciserverprotocol.py 75-476. *)
Fixpoint server_run (rnd : nat -> Z) (st : server * bytes) (l : list sop)
  : (server * bytes) * list (list sev * res unit) :=
  match l with
  | [] => (st, [])
  | o :: l' =>
      match server_step rnd st o with
      | (st', ev, r) => match server_run rnd st' l' with (st'', tr) => (st'', (ev, r) :: tr) end
      end
  end.
