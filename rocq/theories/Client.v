(** Model of cbus/protocol/cbus_protocol.py (client direction),
    cbus/protocol/pciprotocol.py and of the CBusHandler subclass of
    cbus/daemon/cmqttd.py 87-118.  No proofs in this file. *)
From Coq Require Import List ZArith Bool.
From Verif Require Import Py Common Sal Cal Packet Buffered Text Mqtt.
Import ListNotations.
Open Scope Z_scope.

(** The object is a PCIProtocol or a CBusHandler.
    pciprotocol.py 61, cmqttd.py 87. *)
Inductive client_class : Set := ClassPCI | ClassHandler.

(** State of the [connection_lost_future] argument.
    pciprotocol.py 68-81 and 95-97, cmqttd.py 430-438. *)
Inductive future : Set := NoFuture | Pending | Done.

(** pciprotocol.py 68-81 and cmqttd.py 91.  [cl_transport]: a transport is set.
    [cl_reads]: number of [datetime.now()] calls so far (the clock is an
    oracle indexed by it).  [cl_tasks]: number of live timesync tasks. *)
Record client : Set := mkClient {
  cl_class : client_class;
  cl_transport : bool;
  cl_index : nat;
  cl_frequency : Z;
  cl_handle_clock : bool;
  cl_future : future;
  cl_mqtt : bool;
  cl_reads : nat;
  cl_tasks : nat }.

(** pciprotocol.py 68-81. *)
Definition new_client (c : client_class) (frequency : Z) (handle_clock : bool) (f : future) : client :=
  mkClient c false 0 frequency handle_clock f false 0 0.

(** Observable effects: writes to the transport, calls of the overridable
    [on_*] methods, MQTT publishes, warnings, task creation, completion of the
    future.  pciprotocol.py 141-312 and 368, cmqttd.py 99-118 and 126. *)
Inductive cev : Set :=
| CWrite (b : bytes)
| CWarn (w : warn)
| CCannotAccept
| CConfirmation (code : bytes) (success : bool)
| CRamp (source : option Z) (ga duration : Z) (level : pynum)
| COn (source : option Z) (ga : Z)
| COff (source : option Z) (ga : Z)
| CTerminate (source : option Z) (ga : Z)
| CClockRequest (source : option Z)
| CClockUpdate (source : option Z) (v : clockval)
| CPublish (m : message)
| CSubscribe (topics : list (text * Z))
| CSpawnTimesync
| CFutureDone.

(** A method call: new state, effects, result.
    The methods of pciprotocol.py 61-569. *)
Definition M (A : Type) : Type := client -> client * list cev * res A.
(** A return, e.g. pciprotocol.py 369. *)
Definition mret {A} (a : A) : M A := fun c => (c, [], Ok a).
(** A raise, e.g. pciprotocol.py 337-340. *)
Definition mraise {A} (e : exn) : M A := fun c => (c, [], Raise e).
(** A step without effects, e.g. pciprotocol.py 447-456. *)
Definition mlift {A} (r : res A) : M A := fun c => (c, [], r).
(** A call on the outside, e.g. pciprotocol.py 368. *)
Definition memit (e : cev) : M unit := fun c => (c, [e], Ok tt).
(** Statements one after the other, e.g. pciprotocol.py 339-369. *)
Definition mbind {A B} (m : M A) (f : A -> M B) : M B := fun c =>
  match m c with
  | (c1, ev1, Ok a) =>
      match f a c1 with (c2, ev2, r) => (c2, ev1 ++ ev2, r) end
  | (c1, ev1, Raise e) => (c1, ev1, Raise e)
  end.
(** Statements one after the other, e.g. pciprotocol.py 383-413. *)
Definition mseq {A B} (m : M A) (k : M B) : M B := mbind m (fun _ => k).
(** Several calls on the outside, e.g. cmqttd.py 237-243. *)
Fixpoint memit_all (l : list cev) : M unit :=
  match l with
  | [] => mret tt
  | e :: l' => mseq (memit e) (memit_all l')
  end.

(** pciprotocol.py 323-324. *)
Definition set_index (c : client) (i : nat) : client :=
  mkClient (cl_class c) (cl_transport c) i (cl_frequency c) (cl_handle_clock c)
           (cl_future c) (cl_mqtt c) (cl_reads c) (cl_tasks c).
(** pciprotocol.py 83-97. *)
Definition set_transport (c : client) (t : bool) : client :=
  mkClient (cl_class c) t (cl_index c) (cl_frequency c) (cl_handle_clock c)
           (cl_future c) (cl_mqtt c) (cl_reads c) (cl_tasks c).
(** pciprotocol.py 95-97. *)
Definition set_future (c : client) (f : future) : client :=
  mkClient (cl_class c) (cl_transport c) (cl_index c) (cl_frequency c) (cl_handle_clock c)
           f (cl_mqtt c) (cl_reads c) (cl_tasks c).
(** cmqttd.py 125. *)
Definition set_mqtt (c : client) (b : bool) : client :=
  mkClient (cl_class c) (cl_transport c) (cl_index c) (cl_frequency c) (cl_handle_clock c)
           (cl_future c) b (cl_reads c) (cl_tasks c).
(** pciprotocol.py 548-549. *)
Definition set_reads (c : client) (n : nat) : client :=
  mkClient (cl_class c) (cl_transport c) (cl_index c) (cl_frequency c) (cl_handle_clock c)
           (cl_future c) (cl_mqtt c) n (cl_tasks c).
(** pciprotocol.py 92-93. *)
Definition set_tasks (c : client) (n : nat) : client :=
  mkClient (cl_class c) (cl_transport c) (cl_index c) (cl_frequency c) (cl_handle_clock c)
           (cl_future c) (cl_mqtt c) (cl_reads c) n.

(** pciprotocol.py 315-326. *)
Definition get_confirmation_code : M Z := fun c =>
  match nth_error CONFIRMATION_CODES (cl_index c) with
  | Some o => (set_index c (S (cl_index c) mod length CONFIRMATION_CODES), [], Ok o)
  | None => (c, [], Raise IndexError)
  end.

(** isinstance(cmd, BasePacket) and isinstance(cmd, SpecialClientPacket).
    pciprotocol.py 339. *)
Definition is_base_packet (p : packet) : bool :=
  match p with PktCal _ => false | _ => true end.
(** pciprotocol.py 345. *)
Definition is_special_client (p : packet) : bool :=
  match p with PktReset | PktSmartConnect => true | _ => false end.

(** pciprotocol.py 328-369.  The local [checksum] is always False there. *)
Definition send (cmd : packet) (confirmation basic_mode : bool) : M (option Z) := fun c =>
  if negb (cl_transport c) then (c, [], Raise OSError)
  else if negb (is_base_packet cmd) then (c, [], Raise TypeError)
  else
    let special := is_special_client cmd in
    let basic_mode := basic_mode || special in
    let confirmation := confirmation && negb special in
    match encode_packet cmd with
    | Raise e => (c, [], Raise e)
    | Ok b =>
        let b := if basic_mode then b else 92 :: b in
        if confirmation then
          mbind get_confirmation_code (fun code =>
          mseq (memit (CWrite (b ++ [code] ++ END_COMMAND))) (mret (Some code))) c
        else mseq (memit (CWrite (b ++ END_COMMAND))) (mret None) c
    end.

(** A DeviceManagementPacket built by [pci_reset]: no checksum, default
    priority CLASS_2 (dm_packet.py 27-38). *)
Definition dm_command (parameter value : Z) : packet :=
  PktDM (mkHdr false CLASS_2 None None) parameter value.

(** pciprotocol.py 371-413. *)
Definition pci_reset : M unit :=
  mseq (send PktReset true false)
  (mseq (send PktReset true false)
  (mseq (send PktReset true false)
  (mseq (send (dm_command 0x21 0x38) true true)
  (mseq (send (dm_command 0x42 0x0E) true true)
  (mseq (send (dm_command 0x30 0x59) true true)
  (mret tt)))))).

(** pciprotocol.py 415-431. *)
Definition identify (unit_address attribute : Z) : M (option Z) :=
  mbind (mlift (new_pp true CLASS_4 unit_address 0 None [CIdentify attribute])) (fun p =>
  send p true false).

(** pciprotocol.py 433-457, 459-484, 512-537 (the argument already converted to
    a list of ints). *)
Definition send_groups (new : Z -> res sal) (gas : list Z) : M (option Z) :=
  if Nat.ltb 9 (length gas) then mraise ValueError
  else mbind (mlift (map_res new gas)) (fun sals =>
       mbind (mlift (new_pm true CLASS_4 None sals)) (fun p => send p true false)).
(** pciprotocol.py 433-457, 459-484, 512-537. *)
Definition lighting_group_on (gas : list Z) : M (option Z) := send_groups new_light_on gas.
(** pciprotocol.py 433-457, 459-484, 512-537. *)
Definition lighting_group_off (gas : list Z) : M (option Z) := send_groups new_light_off gas.
(** pciprotocol.py 433-457, 459-484, 512-537. *)
Definition lighting_group_terminate_ramp (gas : list Z) : M (option Z) :=
  send_groups new_light_terminate gas.

(** pciprotocol.py 486-510. *)
Definition lighting_group_ramp (ga duration : Z) (level : pynum) : M (option Z) :=
  mbind (mlift (new_light_ramp ga duration level)) (fun s =>
  mbind (mlift (new_pm true CLASS_4 None [s])) (fun p => send p true false)).

(** pciprotocol.py 539-552, with [datetime.now()] given by the oracle [now]. *)
Definition clock_datetime (now : nat -> clockval) (when : option clockval) : M (option Z) :=
  mbind (fun c => match when with
                  | Some v => (c, [], Ok v)
                  | None => (set_reads c (S (cl_reads c)), [], Ok (now (cl_reads c)))
                  end) (fun v =>
  mbind (mlift (clock_update_sal v)) (fun sals =>
  mbind (mlift (new_pm true CLASS_4 None sals)) (fun p => send p true false))).

(** pciprotocol.py 83-93. *)
Definition connection_made : M unit := fun c =>
  mseq pci_reset
    (fun c => if cl_frequency c =? 0 then (c, [], Ok tt)
              else (set_tasks c (S (cl_tasks c)), [CSpawnTimesync], Ok tt))
    (set_transport c true).

(** pciprotocol.py 95-97: [None.set_result] is an AttributeError, a second
    [set_result] an InvalidStateError. *)
Definition connection_lost : M unit := fun c =>
  let c := set_transport c false in
  match cl_future c with
  | NoFuture => (c, [], Raise AttributeError)
  | Pending => (set_future c Done, [CFutureDone], Ok tt)
  | Done => (c, [], Raise InvalidStateError)
  end.

(** pciprotocol.py 554-569, one iteration of one live task: a task with a
    non-positive frequency ends at once; an exception ends the task.
    Without a live task nothing happens.  Cancellation is not modelled. *)
Definition timesync_step (now : nat -> clockval) : M unit := fun c =>
  if Nat.eqb (cl_tasks c) 0 then (c, [], Ok tt)
  else if (cl_frequency c) <=? 0 then (set_tasks c (Nat.pred (cl_tasks c)), [], Ok tt)
  else match clock_datetime now None c with
       | (c1, ev, Ok _) => (c1, ev, Ok tt)
       | (c1, ev, Raise e) => (set_tasks c1 (Nat.pred (cl_tasks c1)), ev, Raise e)
       end.

(** pciprotocol.py 292-301; cmqttd.py 117-118 overrides it without looking at
    [handle_clock_requests]. *)
Definition on_clock_request (now : nat -> clockval) (source : option Z) : M unit :=
  mseq (memit (CClockRequest source))
    (fun c =>
       match cl_class c with
       | ClassPCI => if cl_handle_clock c then mseq (clock_datetime now None) (mret tt) c
                     else mret tt c
       | ClassHandler => mseq (clock_datetime now None) (mret tt) c
       end).

(** cmqttd.py 99-113: only with an MQTT client attached.  For a PCIProtocol
    (pciprotocol.py 169-216) the callbacks only log. *)
Definition relay (ms : list message) : M unit := fun c =>
  match cl_class c with
  | ClassPCI => mret tt c
  | ClassHandler => if cl_mqtt c then memit_all (map CPublish ms) c else mret tt c
  end.
(** cmqttd.py 99-113. *)
Definition on_lighting_group_ramp (source : option Z) (ga duration : Z) (level : pynum) : M unit :=
  mseq (memit (CRamp source ga duration level)) (relay (relay_ramp source ga duration level)).
(** cmqttd.py 99-113. *)
Definition on_lighting_group_on (source : option Z) (ga : Z) : M unit :=
  mseq (memit (COn source ga)) (relay (relay_on source ga)).
(** cmqttd.py 99-113. *)
Definition on_lighting_group_off (source : option Z) (ga : Z) : M unit :=
  mseq (memit (COff source ga)) (relay (relay_off source ga)).
(** cmqttd.py 99-113. *)
Definition on_lighting_group_terminate_ramp (source : option Z) (ga : Z) : M unit :=
  memit (CTerminate source ga).

(** pciprotocol.py 112-136. *)
Definition dispatch_sal (now : nat -> clockval) (source : option Z) (s : sal) : M unit :=
  match s with
  | LightRamp ga duration level => on_lighting_group_ramp source ga duration level
  | LightOn ga => on_lighting_group_on source ga
  | LightOff ga => on_lighting_group_off source ga
  | LightTerminate ga => on_lighting_group_terminate_ramp source ga
  | ClockRequest => on_clock_request now source
  | ClockUpdate v => memit (CClockUpdate source v)
  | _ => mret tt
  end.
(** pciprotocol.py 112-136. *)
Fixpoint dispatch_sals (now : nat -> clockval) (source : option Z) (l : list sal) : M unit :=
  match l with
  | [] => mret tt
  | s :: l' => mseq (dispatch_sal now source s) (dispatch_sals now source l')
  end.

(** pciprotocol.py 99-138. *)
Definition handle_cbus_packet (now : nat -> clockval) (p : packet) : M unit :=
  match p with
  | PktError => memit CCannotAccept
  | PktConfirm code success => memit (CConfirmation code success)
  | PktPM h _ sals => dispatch_sals now (h_source h) sals
  | _ => mret tt
  end.

(** cbus_protocol.py 54-79 with emulate_pci=False (so no echo, checksum True,
    strict True). *)
Definition handle_data (now : nat -> clockval) : handler client cev := fun c buf =>
  match decode_packet buf true true true with
  | (ws, Raise e) => (c, map CWarn ws, Raise e)
  | (ws, Ok (p, remainder)) =>
      match p with
      | None => (c, map CWarn ws, Ok (Z.of_nat remainder))
      | Some p =>
          match handle_cbus_packet now p c with
          | (c', ev, Ok tt) => (c', map CWarn ws ++ ev, Ok (Z.of_nat remainder))
          | (c', ev, Raise e) => (c', map CWarn ws ++ ev, Raise e)
          end
      end
  end.

(** ** Everything that can happen to a client: the calls asyncio, MQTT and the
    application make.
    The methods of pciprotocol.py 68-569 and of cmqttd.py 87-119. *)
Inductive cop : Set :=
| OpConnect
| OpLost
| OpData (b : bytes)
| OpOn (gas : list Z)
| OpOff (gas : list Z)
| OpTerminate (gas : list Z)
| OpRamp (ga duration : Z) (level : pynum)
| OpIdentify (unit_address attribute : Z)
| OpClock (when : option clockval)
| OpReset
| OpTimesync.

(** A command call of the API, as a method.  pciprotocol.py 371-552. *)
Definition api (now : nat -> clockval) (o : cop) : M (option Z) :=
  match o with
  | OpOn gas => lighting_group_on gas
  | OpOff gas => lighting_group_off gas
  | OpTerminate gas => lighting_group_terminate_ramp gas
  | OpRamp ga d l => lighting_group_ramp ga d l
  | OpIdentify u a => identify u a
  | OpClock w => clock_datetime now w
  | OpConnect => mseq connection_made (mret None)
  | OpLost => mseq connection_lost (mret None)
  | OpReset => mseq pci_reset (mret None)
  | OpTimesync => mseq (timesync_step now) (mret None)
  | OpData _ => mret None
  end.

(** One call on a client together with its receive buffer.
    pciprotocol.py 83-97 and 371-569, buffered_protocol.py 63-86. *)
Definition client_step (now : nat -> clockval) (st : client * bytes) (o : cop)
  : (client * bytes) * list cev * res (option Z) :=
  match o with
  | OpData b =>
      match data_received (handle_data now) MAX_BUFFER_SIZE (fst st) (snd st) b with
      | (c, buf, ev, Ok tt) => ((c, buf), ev, Ok None)
      | (c, buf, ev, Raise e) => ((c, buf), ev, Raise e)
      end
  | _ =>
      match api now o (fst st) with
      | (c, ev, r) => ((c, snd st), ev, r)
      end
  end.

(** A history: exceptions do not stop it (they go to the caller).
    Any sequence of the calls of pciprotocol.py 83-569. *)
Fixpoint client_run (now : nat -> clockval) (st : client * bytes) (l : list cop)
  : (client * bytes) * list (list cev * res (option Z)) :=
  match l with
  | [] => (st, [])
  | o :: l' =>
      match client_step now st o with
      | (st', ev, r) =>
          match client_run now st' l' with (st'', tr) => (st'', (ev, r) :: tr) end
      end
  end.
