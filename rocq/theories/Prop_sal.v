(** Properties C05-C11: the application codecs. *)
From Coq Require Import List ZArith QArith Qround Bool Lia.
From Verif Require Import Py Common Sal Base Spec Common_facts Sal_facts.
Import ListNotations.
Open Scope Z_scope.

(** C05.  [Forall2 light_received] is total and functional in its first
    argument (C04_rounding_total), so this fixes the decoded list. *)
Theorem C05_lighting_roundtrip : forall cmds cmds',
  Forall valid_light cmds -> Forall2 light_received cmds cmds' ->
  exists b, concat_res sal_encode cmds = Ok b /\ is_bytes b /\ decode_lighting b = ([], Ok cmds').
Proof. exact light_roundtrip. Qed.
Print Assumptions C05_lighting_roundtrip.

Theorem C05_received_total : forall cmds, Forall valid_light cmds ->
  exists cmds', Forall2 light_received cmds cmds'
    /\ forall other, Forall2 light_received cmds other -> other = cmds'.
Proof. exact light_received_total. Qed.
Print Assumptions C05_received_total.

Example C05_case :
  Forall valid_light [LightOn 1; LightRamp 255 5 (PInt 128); LightOff 0; LightTerminate 7]
  /\ concat_res sal_encode [LightOn 1; LightRamp 255 5 (PInt 128); LightOff 0; LightTerminate 7]
     = Ok [0x79; 1; 0x12; 255; 128; 1; 0; 9; 7]
  /\ decode_lighting [0x79; 1; 0x12; 255; 128; 1; 0; 9; 7]
     = ([], Ok [LightOn 1; LightRamp 255 8 (PInt 128); LightOff 0; LightTerminate 7]).
Proof. split; [repeat constructor; lia|]. vm_compute. auto. Qed.

(** C06 *)
Theorem C06_lighting_total : forall data, is_bytes data ->
  exists cmds ws covered rest,
    decode_lighting data = (ws, Ok cmds) /\ data = covered ++ rest
    /\ concat_res sal_encode cmds = Ok covered
    /\ Forall valid_light cmds
    /\ ((rest = [] /\ ws = []) \/ exists w, ws = [w] /\ light_undecodable rest w).
Proof. exact light_total. Qed.
Print Assumptions C06_lighting_total.

Example C06_case :
  decode_lighting [0x79; 1; 0x77; 5; 0x79; 2] = ([WLightUnknown], Ok [LightOn 1])
  /\ decode_lighting [0x79; 1; 0x12; 5] = ([WLightNoLevel], Ok [LightOn 1])
  /\ decode_lighting [0x79; 1; 0x12] = ([WLightStray], Ok [LightOn 1]).
Proof. vm_compute. auto. Qed.

(** C07 *)
Theorem C07_clock_roundtrip : forall cmds, Forall valid_clock cmds ->
  exists b, concat_res sal_encode cmds = Ok b /\ is_bytes b
    /\ decode_clock b = ([], Ok (map clock_received cmds)).
Proof. exact clock_roundtrip. Qed.
Print Assumptions C07_clock_roundtrip.

(** Setting the clock sends the date and the time, and they are received. *)
Theorem C07_clock_update_sal : forall y m d h mi s us, valid_date y m d -> valid_time h mi s us ->
  exists cmds b, clock_update_sal (CDateTime y m d h mi s us) = Ok cmds
    /\ concat_res sal_encode cmds = Ok b
    /\ decode_clock b = ([], Ok [ClockUpdate (CDate y m d); ClockUpdate (CTime h mi s 0)]).
Proof.
  intros y m d h mi s us D T.
  destruct (clock_roundtrip [ClockUpdate (CDate y m d); ClockUpdate (CTime h mi s us)]) as [b [E [_ R]]].
  { constructor; [exact D|]. constructor; [exact T|constructor]. }
  exists [ClockUpdate (CDate y m d); ClockUpdate (CTime h mi s us)], b. split; [reflexivity|]. split; assumption.
Qed.
Print Assumptions C07_clock_update_sal.

Example C07_case :
  Forall valid_clock [ClockUpdate (CDate 2000 2 29); ClockRequest; ClockUpdate (CTime 23 59 58 7)]
  /\ decode_clock [14; 2; 7; 208; 2; 29; 1; 17; 3; 13; 1; 23; 59; 58; 255]
     = ([], Ok [ClockUpdate (CDate 2000 2 29); ClockRequest; ClockUpdate (CTime 23 59 58 0)]).
Proof.
  split; [|reflexivity]. repeat constructor; try (cbn; unfold valid_time; lia).
  apply date_ok_spec. reflexivity.
Qed.

(** C08 *)
Theorem C08_wrong_length_resynchronises : forall n body rest var,
  Z.of_nat (length body) = n -> 0 <= n <= 7 ->
  hd_error (body ++ rest) = Some var ->
  (var = 2 /\ n <> 6) \/ (var = 1 /\ n <> 5) ->
  decode_clock ((8 + n) :: body ++ rest)
  = wwarn (if var =? 2 then WClockDateLen else WClockTimeLen) (decode_clock rest).
Proof. exact clock_wrong_length. Qed.
Print Assumptions C08_wrong_length_resynchronises.

Theorem C08_unknown_variable_skips_twice : forall n body rest var,
  Z.of_nat (length body) = n -> 0 <= n <= 7 ->
  hd_error (body ++ rest) = Some var -> var <> 1 -> var <> 2 ->
  decode_clock ((8 + n) :: body ++ rest)
  = wwarn WClockVar (decode_clock (skipn (Z.to_nat n) rest)).
Proof. exact clock_unknown_variable. Qed.
Print Assumptions C08_unknown_variable_skips_twice.

(** The expectation that what follows an unknown variable is still decoded. *)
Theorem C08_unknown_variable_resynchronises_refuted :
  exists n body rest var, Z.of_nat (length body) = n /\ 0 <= n <= 7
    /\ hd_error body = Some var /\ var <> 1 /\ var <> 2
    /\ decode_clock rest = ([], Ok [ClockRequest])
    /\ decode_clock ((8 + n) :: body ++ rest) = ([WClockVar], Ok []).
Proof. exists 2, [9; 9], [17; 3], 9. vm_compute. intuition congruence. Qed.
Print Assumptions C08_unknown_variable_resynchronises_refuted.

Example C08_case :
  decode_clock [10; 2; 0; 17; 3] = ([WClockDateLen], Ok [ClockRequest])
  /\ decode_clock [10; 9; 0; 17; 3] = ([WClockVar], Ok [])
  /\ decode_clock [10; 9; 0; 17; 3; 17; 3] = ([WClockVar], Ok [ClockRequest]).
Proof. vm_compute. auto. Qed.

(** C09 *)
Theorem C09_temperature_roundtrip : forall cmds cmds',
  Forall valid_temp cmds -> Forall2 temp_received cmds cmds' ->
  exists b, concat_res sal_encode cmds = Ok b /\ is_bytes b /\ decode_temperature b = ([], Ok cmds').
Proof. exact temp_roundtrip. Qed.
Print Assumptions C09_temperature_roundtrip.

Theorem C09_quantisation : forall q : Q,
  ((Qfloor (4 * q) # 4) <= q)%Q /\ (q < (Qfloor (4 * q) # 4) + (1 # 4))%Q.
Proof. exact quarter_floor. Qed.
Print Assumptions C09_quantisation.

Theorem C09_reject : forall ga t, ~ valid_temp (TempBroadcast ga t) ->
  sal_encode (TempBroadcast ga t) = Raise ValueError.
Proof. exact temp_reject. Qed.
Print Assumptions C09_reject.

Example C09_case :
  valid_temp (TempBroadcast 3 (PFloat (205 # 10)))
  /\ sal_encode (TempBroadcast 3 (PFloat (205 # 10))) = Ok [2; 3; 82]
  /\ sal_encode (TempBroadcast 3 (PFloat (2069 # 100))) = Ok [2; 3; 82]
  /\ decode_temperature [2; 3; 82] = ([], Ok [TempBroadcast 3 (PFloat (82 # 4))])
  /\ sal_encode (TempBroadcast 3 (PInt 64)) = Raise ValueError
  /\ sal_encode (TempBroadcast 256 (PInt 6)) = Raise ValueError.
Proof.
  split; [|vm_compute; auto]. split; [lia|]. exists (205 # 10)%Q.
  split; [reflexivity|]. split; discriminate.
Qed.

(** C10 *)
Theorem C10_enable_roundtrip : forall cmds, Forall is_enable cmds ->
  exists b, concat_res sal_encode cmds = Ok b /\ is_bytes b
    /\ decode_enable b = ([], Ok (map enable_received cmds)).
Proof. exact enable_roundtrip. Qed.
Print Assumptions C10_enable_roundtrip.

Theorem C10_enable_never_raises : forall data, exists ws cmds,
  decode_enable data = (ws, Ok cmds) /\ (length ws <= 1)%nat /\ Forall is_enable cmds.
Proof. exact enable_total. Qed.
Print Assumptions C10_enable_never_raises.

Example C10_case :
  concat_res sal_encode [EnableSet 300 (-1); EnableSet 1 2] = Ok [2; 44; 255; 2; 1; 2]
  /\ decode_enable [2; 44; 255; 2; 1; 2] = ([], Ok [EnableSet 44 255; EnableSet 1 2]).
Proof. vm_compute. auto. Qed.

(** C11 *)
Theorem C11_status_roundtrip : forall cmds, Forall is_status_request cmds ->
  exists b, concat_res sal_encode cmds = Ok b /\ is_bytes b
    /\ decode_status b = ([], Ok (map status_received cmds)).
Proof. exact status_roundtrip. Qed.
Print Assumptions C11_status_roundtrip.

Theorem C11_status_decode_exact : forall data,
  (forall l, decode_status data = ([], Ok l) <-> status_stream data l)
  /\ ((forall l, ~ status_stream data l) ->
      exists ws e, decode_status data = (ws, Raise e) /\ e <> OutOfFuel).
Proof. exact (fun data => conj (status_decode_iff data) (status_decode_raises data)). Qed.
Print Assumptions C11_status_decode_exact.

Example C11_case :
  concat_res sal_encode [StatusRequest true 0x47 0x138; StatusRequest false 0xe0 0xff]
    = Ok [0x73; 7; 0x38; 0x40; 0x7a; 0xff; 0xe0]
  /\ decode_status [0x73; 7; 0x38; 0x40; 0x7a; 0xff; 0xe0]
    = ([], Ok [StatusRequest true 0x40 0x38; StatusRequest false 0xe0 0xff])
  /\ decode_status [0x7a; 0x38; 0x41] = ([], Raise ValueError).
Proof. vm_compute. auto. Qed.
