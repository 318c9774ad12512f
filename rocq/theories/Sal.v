(** Model of cbus/protocol/application/*.py (encoders and decoders).  No proofs
    in this file. *)
From Coq Require Import List ZArith QArith Qround Bool.
From Verif Require Import Py Common.
Import ListNotations.
Open Scope Z_scope.

(** The value held by a ClockUpdateSAL (clock.py 114-128).  [COther] stands for
    any object that is neither a date, a time nor a datetime.  Time zones are
    not modelled (the code never looks at them). *)
Inductive clockval : Set :=
| CDate (y m d : Z)
| CTime (h mi s us : Z)
| CDateTime (y m d h mi s us : Z)
| COther.

(** The concrete SAL classes: lighting.py 122-252, clock.py 98-237,
    temperature.py 111-155, enable.py 92-136, status_request.py 43-100.
    Simplification: the group address, durations, variables and applications
    are ints (the annotated type); the ramp level and the temperature may be
    any number, since the daemon passes floats. *)
Inductive sal : Set :=
| LightRamp (ga duration : Z) (level : pynum)
| LightOn (ga : Z)
| LightOff (ga : Z)
| LightTerminate (ga : Z)
| ClockUpdate (v : clockval)
| ClockRequest
| TempBroadcast (ga : Z) (temperature : pynum)
| EnableSet (variable value : Z)
| StatusRequest (level_request : bool) (ga child_application : Z).

(** The [application] properties: lighting.py 62-65 (always 0x38), clock.py
    48-50, temperature.py 51-53, enable.py 41-43, status_request.py 88-90. *)
Definition sal_application (s : sal) : Z :=
  match s with
  | LightRamp _ _ _ | LightOn _ | LightOff _ | LightTerminate _ => APP_LIGHTING
  | ClockUpdate _ | ClockRequest => APP_CLOCK
  | TempBroadcast _ _ => APP_TEMPERATURE
  | EnableSet _ _ => APP_ENABLE
  | StatusRequest _ _ _ => APP_STATUS_REQUEST
  end.

(** lighting.py 52-60 and 131-148: the lighting constructors check the group
    address. *)
Definition new_light_ramp (ga duration : Z) (level : pynum) : res sal :=
  rbind (check_ga ga) (fun _ => Ok (LightRamp ga duration level)).
(** lighting.py 52-60 and 131-148. *)
Definition new_light_on (ga : Z) : res sal := rbind (check_ga ga) (fun _ => Ok (LightOn ga)).
(** lighting.py 52-60 and 131-148. *)
Definition new_light_off (ga : Z) : res sal := rbind (check_ga ga) (fun _ => Ok (LightOff ga)).
(** lighting.py 52-60 and 131-148. *)
Definition new_light_terminate (ga : Z) : res sal :=
  rbind (check_ga ga) (fun _ => Ok (LightTerminate ga)).

(** ** Python's datetime: calendar *)

(** datetime.py [_is_leap].  Used through clock.py 155. *)
Definition is_leap (y : Z) : bool :=
  (y mod 4 =? 0) && (negb (y mod 100 =? 0) || (y mod 400 =? 0)).
(** datetime.py [_days_in_month].  Used through clock.py 155. *)
Definition days_in_month (y m : Z) : Z :=
  if m =? 2 then (if is_leap y then 29 else 28)
  else if mem m [4; 6; 9; 11] then 30 else 31.
(** [date(y, m, d)] raises ValueError exactly when this is false.  clock.py 155. *)
Definition date_ok (y m d : Z) : bool :=
  (1 <=? y) && (y <=? 9999) && (1 <=? m) && (m <=? 12) && (1 <=? d) && (d <=? days_in_month y m).
(** [time(h, mi, s, us)] raises ValueError exactly when this is false.
    clock.py 170. *)
Definition time_ok (h mi s us : Z) : bool :=
  (0 <=? h) && (h <=? 23) && (0 <=? mi) && (mi <=? 59) && (0 <=? s) && (s <=? 59)
  && (0 <=? us) && (us <=? 999999).
(** datetime.py [_days_before_year], [_days_before_month], [_ymd2ord],
    [date.weekday] (0 = Monday).  Used through clock.py 188-190. *)
Definition days_before_year (y : Z) : Z :=
  let y := y - 1 in y * 365 + y / 4 - y / 100 + y / 400.
(** Used through clock.py 188-190, [weekday()]. *)
Definition days_before_month_table : list Z :=
  [0; 31; 59; 90; 120; 151; 181; 212; 243; 273; 304; 334].
(** Used through clock.py 188-190, [weekday()]. *)
Definition days_before_month (y m : Z) : Z :=
  nth (Z.to_nat (m - 1)) days_before_month_table 0
  + (if (2 <? m) && is_leap y then 1 else 0).
(** Used through clock.py 188-190, [weekday()]. *)
Definition ymd2ord (y m d : Z) : Z := days_before_year y + days_before_month y m + d.
Definition weekday (y m d : Z) : Z := (ymd2ord y m d + 6) mod 7.  (* clock.py 188-190 *)

(** ** Encoders *)

(** lighting.py 170-178: level check, then [check_ga] (112), then [bytes]. *)
Definition light_ramp_encode (ga duration : Z) (level : pynum) : res bytes :=
  if num_ltb level 0 || num_gtb level 255 then Raise ValueError
  else rbind (check_ga ga) (fun _ =>
       mk_bytes_num [PInt (duration_to_ramp_rate duration); PInt ga; level]).
(** lighting.py 201-202, 223-224, 246-248. *)
Definition light_simple_encode (code ga : Z) : res bytes :=
  rbind (check_ga ga) (fun _ => mk_bytes [code; ga]).

(** clock.py 179-198.  A datetime is an instance of date, not of time. *)
Definition clock_time_encode (h mi s : Z) : res bytes :=
  rbind (pack_B h) (fun a => rbind (pack_B mi) (fun b => rbind (pack_B s) (fun c =>
  let val := a ++ b ++ c ++ [255] in
  rbind (mk_bytes [Z.lor 0x08 (Z.of_nat (length val) + 1); CLOCK_TIME]) (fun h =>
  Ok (h ++ val))))).
(** clock.py 179-198. *)
Definition clock_date_encode (y m d : Z) : res bytes :=
  rbind (pack_H y) (fun a => rbind (pack_B m) (fun b => rbind (pack_B d) (fun c =>
  rbind (pack_B (weekday y m d)) (fun w =>
  let val := a ++ b ++ c ++ w in
  rbind (mk_bytes [Z.lor 0x08 (Z.of_nat (length val) + 1); CLOCK_DATE]) (fun h =>
  Ok (h ++ val)))))).
(** clock.py 179-198. *)
Definition clock_update_encode (v : clockval) : res bytes :=
  match v with
  | CTime h mi s _ => clock_time_encode h mi s
  | CDate y m d => clock_date_encode y m d
  | CDateTime y m d _ _ _ _ => clock_date_encode y m d
  | COther => Raise TypeError
  end.
(** clock.py 235-237. *)
Definition clock_request_encode : res bytes := mk_bytes [CLOCK_REQUEST_REFRESH; 0x03].

(** [int(t * 4)] for a number that passed the range check of temperature.py
    147: truncation, which is the floor since the number is not negative.
    NaN and infinities never get here. *)
Definition int_times_4 (t : pynum) : Z :=
  match t with
  | PInt z => z * 4
  | PFloat q => Qfloor (q * 4)
  | _ => 0
  end.
(** temperature.py 146-155; 103-108. *)
Definition temp_encode (ga : Z) (t : pynum) : res bytes :=
  if negb (num_between 0 (6375 # 100) t) then Raise ValueError
  else rbind (check_ga ga) (fun _ => mk_bytes [TEMPERATURE_BROADCAST; ga; int_times_4 t]).

(** enable.py 130-136. *)
Definition enable_encode (variable value : Z) : res bytes :=
  mk_bytes [ENABLE_SET_NETWORK_VARIABLE; Z.land variable 0xff; Z.land value 0xff].

(** status_request.py 92-100. *)
Definition status_encode (level_request : bool) (ga child : Z) : res bytes :=
  if level_request
  then rbind (mk_bytes [Z.land child 0xff; Z.land ga 0xe0]) (fun b => Ok ([0x73; 0x07] ++ b))
  else mk_bytes [0x7a; Z.land child 0xff; Z.land ga 0xe0].

(** status_request.py 92-100. *)
Definition sal_encode (s : sal) : res bytes :=
  match s with
  | LightRamp ga duration level => light_ramp_encode ga duration level
  | LightOn ga => light_simple_encode LC_ON ga
  | LightOff ga => light_simple_encode LC_OFF ga
  | LightTerminate ga => light_simple_encode LC_TERMINATE_RAMP ga
  | ClockUpdate v => clock_update_encode v
  | ClockRequest => clock_request_encode
  | TempBroadcast ga t => temp_encode ga t
  | EnableSet variable value => enable_encode variable value
  | StatusRequest lvl ga child => status_encode lvl ga child
  end.

(** clock.py 262-280. *)
Definition clock_update_sal (v : clockval) : res (list sal) :=
  match v with
  | CDateTime y m d h mi s us => Ok [ClockUpdate (CDate y m d); ClockUpdate (CTime h mi s us)]
  | CDate _ _ _ | CTime _ _ _ _ => Ok [ClockUpdate v]
  | COther => Raise TypeError
  end.

(** ** Decoders *)

(** lighting.py 256-266: [_SAL_HANDLERS], command code to class. *)
Inductive light_handler : Set := HOn | HOff | HTerminate | HRamp.
(** lighting.py 256-266. *)
Definition light_handler_of (code : Z) : option light_handler :=
  if code =? LC_ON then Some HOn
  else if code =? LC_OFF then Some HOff
  else if code =? LC_TERMINATE_RAMP then Some HTerminate
  else if mem code (map fst LIGHT_RAMP_RATES) then Some HRamp
  else None.

(** lighting.py 68-105 with the per-class [decode] methods (151-168, 194-199,
    216-221, 239-244).  The constructors' [check_ga] is included.  The loop is
    structural on the remaining data. *)
Fixpoint decode_lighting (data : bytes) : W (list sal) :=
  match data with
  | [] => wret []
  | [_] => wwarn WLightStray (wret [])
  | code :: ga :: rest =>
      match light_handler_of code with
      | None => wwarn WLightUnknown (wret [])
      | Some HOn => wbind (wlift (new_light_on ga)) (fun s => wmap (cons s) (decode_lighting rest))
      | Some HOff => wbind (wlift (new_light_off ga)) (fun s => wmap (cons s) (decode_lighting rest))
      | Some HTerminate =>
          wbind (wlift (new_light_terminate ga)) (fun s => wmap (cons s) (decode_lighting rest))
      | Some HRamp =>
          wbind (wlift (ramp_rate_to_duration code)) (fun duration =>
          match rest with
          | [] => wwarn WLightNoLevel (wret [])
          | level :: rest' =>
              wbind (wlift (new_light_ramp ga duration (PInt level))) (fun s =>
              wmap (cons s) (decode_lighting rest'))
          end)
      end
  end.

(** clock.py 130-177: result is the SAL (or None) and the remaining data. *)
Definition clock_update_decode (data : bytes) (command_code : Z) : W (option sal * bytes) :=
  wbind (wlift (py_index data 0)) (fun variable =>
  let data_length := Z.to_nat (Z.land command_code 0x07) in
  let val := py_slice 1 data_length data in
  let data := skipn data_length data in
  if variable =? CLOCK_DATE then
    if negb (Nat.eqb data_length 6) then wwarn WClockDateLen (wret (None, data))
    else match val with
         | [y1; y0; m; d; _] =>
             let y := 256 * y1 + y0 in
             if date_ok y m d then wret (Some (ClockUpdate (CDate y m d)), data)
             else wraise ValueError
         | _ => wraise StructError
         end
  else if variable =? CLOCK_TIME then
    if negb (Nat.eqb data_length 5) then wwarn WClockTimeLen (wret (None, data))
    else match val with
         | [h; mi; s; _] =>
             if time_ok h mi s 0 then wret (Some (ClockUpdate (CTime h mi s 0)), data)
             else wraise ValueError
         | _ => wraise StructError
         end
  else wwarn WClockVar (wret (None, skipn data_length data))).

(** clock.py 218-233. *)
Definition clock_request_decode (data : bytes) : W (option sal * bytes) :=
  wbind (wlift (py_index data 0)) (fun argument =>
  let data := skipn 1 data in
  if negb (argument =? 0x03) then wwarn WClockReqArg (wret (None, data))
  else wret (Some ClockRequest, data)).

(** clock.py 93-94. *)
Definition opt_cons {A} (o : option A) (l : list A) : list A :=
  match o with Some a => a :: l | None => l end.

(** clock.py 53-95.  Fuel: the number of bytes left; every iteration removes
    the command byte. *)
Fixpoint decode_clock_fuel (fuel : nat) (data : bytes) : W (list sal) :=
  match data with
  | [] => wret []
  | command_code :: data =>
      match fuel with
      | O => wraise OutOfFuel
      | S fuel =>
          if Z.land command_code 0x80 =? 0x80 then wwarn WClockLong (wret [])
          else if negb (Z.land command_code 0xE0 =? 0) then wwarn WClockBits (wret [])
          else if Z.land command_code 0xf8 =? CLOCK_UPDATE_NETWORK_VARIABLE then
            wbind (clock_update_decode data command_code) (fun r =>
            wmap (opt_cons (fst r)) (decode_clock_fuel fuel (snd r)))
          else if command_code =? CLOCK_REQUEST_REFRESH then
            wbind (clock_request_decode data) (fun r =>
            wmap (opt_cons (fst r)) (decode_clock_fuel fuel (snd r)))
          else wwarn WClockUnknown (wret [])
      end
  end.
(** clock.py 53-95. *)
Definition decode_clock (data : bytes) : W (list sal) := decode_clock_fuel (length data) data.

(** temperature.py 56-101 and 136-144: [byte / 4.0] is exact. *)
Fixpoint decode_temperature (data : bytes) : W (list sal) :=
  match data with
  | [] => wret []
  | code :: ga :: t :: rest =>
      if Z.land code 0x80 =? 0x80 then wwarn WTempCmd (wret [])
      else if negb (Z.land code 0x07 =? 2) then wwarn WTempLen (wret [])
      else wmap (cons (TempBroadcast ga (PFloat (t # 4)))) (decode_temperature rest)
  | _ => wwarn WTempStray (wret [])
  end.

(** enable.py 46-89 and 117-128. *)
Fixpoint decode_enable (data : bytes) : W (list sal) :=
  match data with
  | [] => wret []
  | code :: variable :: value :: rest =>
      if Z.land code 0x80 =? 0x80 then wwarn WEnableCmd (wret [])
      else if negb (Z.land code 0x07 =? 2) then wwarn WEnableLen (wret [])
      else wmap (cons (EnableSet variable value)) (decode_enable rest)
  | _ => wwarn WEnableStray (wret [])
  end.

(** status_request.py 50-86, from line 68 on: [lvl] and the data after the
    request type; [k] continues with the data after the request. *)
Definition status_fields (data : bytes) : W (Z * Z * bytes) :=
  match data with
  | child :: ga :: rest =>
      if negb (Z.land ga 0x1f =? 0) then wraise ValueError else wret (child, ga, rest)
  | _ => wwarn WStatusShort (wraise IndexError)
  end.

(** status_request.py 50-86.  Fuel as for the clock. *)
Fixpoint decode_status_fuel (fuel : nat) (data : bytes) : W (list sal) :=
  match data with
  | [] => wret []
  | c :: data1 =>
      match fuel with
      | O => wraise OutOfFuel
      | S fuel =>
          if mem c [0x7a; 0xfa] then
            wbind (status_fields data1) (fun '(child, ga, rest) =>
            wmap (cons (StatusRequest false ga child)) (decode_status_fuel fuel rest))
          else if starts_with [0x73; 0x07] data then
            wbind (status_fields (skipn 2 data)) (fun '(child, ga, rest) =>
            wmap (cons (StatusRequest true ga child)) (decode_status_fuel fuel rest))
          else wraise NotImplementedError
      end
  end.
(** status_request.py 50-86. *)
Definition decode_status (data : bytes) : W (list sal) := decode_status_fuel (length data) data.

(** application/__init__.py 32-43 and the [supported_applications] methods
    (lighting.py 40-44, clock.py 250-251, temperature.py 168-169, enable.py
    149-150, status_request.py 35-36).  The registry itself is modelled in
    Registry.v, where this lookup is proved to be the registered one. *)
Inductive app_class : Set :=
| AppTemperature | AppLighting | AppClock | AppEnable | AppStatusRequest.
(** application/__init__.py 32-43. *)
Definition get_application (app_id : Z) : res app_class :=
  if app_id =? APP_TEMPERATURE then Ok AppTemperature
  else if (APP_LIGHTING_FIRST <=? app_id) && (app_id <=? APP_LIGHTING_LAST) then Ok AppLighting
  else if app_id =? APP_CLOCK then Ok AppClock
  else if app_id =? APP_ENABLE then Ok AppEnable
  else if app_id =? APP_STATUS_REQUEST then Ok AppStatusRequest
  else Raise KeyError.
(** The [decode_sals] methods of the application classes.
    lighting.py 67-105, clock.py 53-95, temperature.py 56-101, enable.py 46-89,
    status_request.py 50-86. *)
Definition app_decode_sals (a : app_class) (data : bytes) : W (list sal) :=
  match a with
  | AppTemperature => decode_temperature data
  | AppLighting => decode_lighting data
  | AppClock => decode_clock data
  | AppEnable => decode_enable data
  | AppStatusRequest => decode_status data
  end.
