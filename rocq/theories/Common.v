(** Model of cbus/common.py.  No proofs in this file. *)
From Coq Require Import List ZArith Bool.
From Verif Require Import Py.
Import ListNotations.
Open Scope Z_scope.

(** common.py 29: [HEX_CHARS = b'0123456789ABCDEF']. *)
Definition HEX_CHARS : bytes := [48;49;50;51;52;53;54;55;56;57;65;66;67;68;69;70].
(** common.py 34. *)
Definition END_COMMAND : bytes := [13].
(** common.py 40. *)
Definition END_RESPONSE : bytes := [13; 10].
(** common.py 42-43. *)
Definition MIN_MESSAGE_SIZE : nat := 2.
Definition MAX_BUFFER_SIZE : nat := 256.  (* common.py 42-43 *)

(** common.py 46-55: [DestinationAddressType(x)]; ValueError for a reserved value. *)
Definition DAT_UNSET := 0.
Definition DAT_PPM := 3.  (* common.py 46-55 *)
Definition DAT_PM := 5.  (* common.py 46-55 *)
Definition DAT_PP := 6.  (* common.py 46-55 *)
(** common.py 46-55. *)
Definition destination_address_type (x : Z) : res Z :=
  if mem x [DAT_UNSET; DAT_PPM; DAT_PM; DAT_PP] then Ok x else Raise ValueError.

(** common.py 58-62: the PriorityClass values are 0..3. *)
Definition CLASS_4 := 0.
Definition CLASS_2 := 2.  (* common.py 58-62 *)

(** common.py 69-121: the values of the Application enum; [application_enum]
    is [Application(x)], ValueError for an id without a name. *)
Definition APP_TEMPERATURE := 0x19.
Definition APP_LIGHTING_FIRST := 0x30.  (* common.py 69-121 *)
Definition APP_LIGHTING := 0x38.  (* common.py 69-121 *)
Definition APP_LIGHTING_LAST := 0x5f.  (* common.py 69-121 *)
Definition APP_CLOCK := 0xdf.  (* common.py 69-121 *)
Definition APP_ENABLE := 0xcb.  (* common.py 69-121 *)
Definition APP_STATUS_REQUEST := 0xff.  (* common.py 69-121 *)
(** common.py 69-121. *)
Definition is_application (x : Z) : bool :=
  (x =? APP_TEMPERATURE) || ((APP_LIGHTING_FIRST <=? x) && (x <=? APP_LIGHTING_LAST))
  || (x =? APP_CLOCK) || (x =? APP_ENABLE) || (x =? APP_STATUS_REQUEST).
(** common.py 69-121. *)
Definition application_enum (x : Z) : res Z :=
  if is_application x then Ok x else Raise ValueError.

(** common.py 124-134. *)
Definition CAL_RECALL := 0x1a.
Definition CAL_IDENTIFY := 0x21.  (* common.py 124-134 *)
Definition CAL_REPLY := 0x80.  (* common.py 124-134 *)
Definition CAL_STANDARD_STATUS := 0xc0.  (* common.py 124-134 *)
Definition CAL_EXTENDED_STATUS := 0xe0.  (* common.py 124-134 *)

(** common.py 137-139. *)
Definition EXT_BINARY := 0x00.
Definition EXT_LEVEL := 0x07.  (* common.py 137-139 *)

(** common.py 142-146: GroupState. *)
Definition GS_MISSING := 0.
Definition GS_ON := 1.  (* common.py 142-146 *)
Definition GS_OFF := 2.  (* common.py 142-146 *)
Definition GS_ERROR := 3.  (* common.py 142-146 *)

(** common.py 149-172: [IdentifyAttribute(x)] for x in 0x00..0x11. *)
Definition identify_attribute (x : Z) : res Z :=
  if (0 <=? x) && (x <=? 0x11) then Ok x else Raise ValueError.

(** common.py 180-185. *)
Definition ENABLE_SET_NETWORK_VARIABLE := 0x02.
Definition TEMPERATURE_BROADCAST := 0x02.  (* common.py 180-185 *)

(** common.py 189-217: LightCommand. *)
Definition LC_ON := 0x79.
Definition LC_OFF := 0x01.  (* common.py 189-217 *)
Definition LC_TERMINATE_RAMP := 0x09.  (* common.py 189-217 *)
Definition LC_RAMP_SLOWEST := 0x7a.  (* common.py 189-217 *)

(** common.py 224-241: [_LIGHT_RAMP_RATES], as (code, seconds) pairs. *)
Definition LIGHT_RAMP_RATES : list (Z * Z) :=
  [(0x02, 0); (0x0a, 4); (0x12, 8); (0x1a, 12); (0x22, 20); (0x2a, 30);
   (0x32, 40); (0x3a, 60); (0x42, 90); (0x4a, 120); (0x52, 180); (0x5a, 300);
   (0x62, 420); (0x6a, 600); (0x72, 900); (0x7a, 1020)].

(** common.py 243-244: [_LIGHT_RAMP_DURATION_TO_RATE], the same pairs swapped
    and sorted by duration (they are already sorted). *)
Definition LIGHT_RAMP_DURATION_TO_RATE : list (Z * Z) :=
  map (fun p => (snd p, fst p)) LIGHT_RAMP_RATES.

(** common.py 253-260. *)
Definition CLOCK_TIME := 0x01.
Definition CLOCK_DATE := 0x02.  (* common.py 253-260 *)
Definition CLOCK_UPDATE_NETWORK_VARIABLE := 0x08.  (* common.py 253-260 *)
Definition CLOCK_REQUEST_REFRESH := 0x11.  (* common.py 253-260 *)

(** common.py 303: [CONFIRMATION_CODES = b'hijklmnopqrstuvwxyzg']. *)
Definition CONFIRMATION_CODES : bytes :=
  [104;105;106;107;108;109;110;111;112;113;114;115;116;117;118;119;120;121;122;103].

(** common.py 305-306. *)
Definition MIN_GROUP_ADDR := 0.
Definition MAX_GROUP_ADDR := 255.  (* common.py 305-306 *)

(** common.py 309: [BRIDGE_LENGTHS[x]], KeyError for an unknown opcode. *)
Definition bridge_length (x : Z) : res nat :=
  if x =? 0x09 then Ok 0%nat else if x =? 0x12 then Ok 1%nat
  else if x =? 0x1B then Ok 2%nat else if x =? 0x24 then Ok 3%nat
  else if x =? 0x2D then Ok 4%nat else if x =? 0x36 then Ok 5%nat
  else Raise KeyError.

(** common.py 314-328. *)
Fixpoint first_rate (seconds : Z) (l : list (Z * Z)) : Z :=
  match l with
  | [] => LC_RAMP_SLOWEST
  | (d, cmd) :: l' => if seconds <=? d then cmd else first_rate seconds l'
  end.
(** common.py 314-328. *)
Definition duration_to_ramp_rate (seconds : Z) : Z :=
  first_rate seconds LIGHT_RAMP_DURATION_TO_RATE.

(** common.py 331-344: dictionary lookup, KeyError for an unknown code. *)
Fixpoint assoc (k : Z) (l : list (Z * Z)) : res Z :=
  match l with
  | [] => Raise KeyError
  | (a, b) :: l' => if k =? a then Ok b else assoc k l'
  end.
(** common.py 331-344. *)
Definition ramp_rate_to_duration (rate : Z) : res Z := assoc rate LIGHT_RAMP_RATES.

(** common.py 347-365. *)
Definition cbus_checksum (i : bytes) : Z :=
  let c := fold_left (fun c x => c + x) i 0 in
  Z.land (Z.lxor (Z.land c 0xff) 0xff + 1) 0xff.

(** common.py 368-380. *)
Definition add_cbus_checksum (i : bytes) : bytes := i ++ [cbus_checksum i].

(** common.py 396-405. *)
Definition get_real_cbus_checksum (i : bytes) : Z := cbus_checksum (py_init i).

(** common.py 383-393: [i[-1]] raises IndexError on an empty message. *)
Definition validate_cbus_checksum (i : bytes) : res bool :=
  rbind (py_last i) (fun packet_checksum =>
  Ok (packet_checksum =? get_real_cbus_checksum i)).

(** common.py 408-417. *)
Definition validate_ga (group_addr : Z) : bool :=
  (MIN_GROUP_ADDR <=? group_addr) && (group_addr <=? MAX_GROUP_ADDR).

(** common.py 420-431. *)
Definition check_ga (group_addr : Z) : res unit :=
  if validate_ga group_addr then Ok tt else Raise ValueError.
