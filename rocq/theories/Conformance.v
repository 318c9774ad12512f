(** The unit tests of the project (/repo/tests) on the model.  These are tests of
    the transcription, not proofs of properties: every input is a literal, and
    Coq computes the model on it.  A test that compares attributes is stated here
    with the whole packet.  Left out: the objects' [repr], identity of buffers
    (test_cal.py 141), and classes defined in the tests (test_application.py,
    which [Registry.v] covers with any class). *)
From Coq Require Import List ZArith QArith Bool String.
From Verif Require Import Py Common Sal Cal Packet Text Mqtt Client Cmqttd Startup.
Import ListNotations.
Open Scope Z_scope.

(** The input of a test: the text, then CR (to the PCI) or CR LF (from it).
    common.py 34 and 40. *)
Definition to_pci (s : string) : bytes := txt s ++ [13].
Definition from_pci (s : string) : bytes := txt s ++ [13; 10].  (* common.py 40 *)
(** [decode_packet] as tests/utils.py 32-59 calls it, the whole input consumed and
    no warning given. *)
Definition decodes (data : bytes) (checksum from : bool) (p : packet) : Prop :=
  decode_packet data checksum true from = ([], Ok (Some p, List.length data)).
(** A packet decoded from a client's line, with its confirmation code
    (base_packet.py 42-50). *)
Definition from_client (checksum : bool) (code : Z) (app : Z) (sals : list sal) : packet :=
  PktPM (mkHdr checksum 0 None (Some code)) (Some app) sals.

(** test_common.py 27-35. *)
Example test_cbus_checksum :
  forallb (fun x => match add_cbus_checksum [x] with
                    | [a; c] => (a =? x) && (c =? Z.land (Z.lxor x 0xff + 1) 0xff)
                    | _ => false
                    end) (map Z.of_nat (seq 0 256)) = true
  /\ add_cbus_checksum [] = [0].
Proof. vm_compute. split; reflexivity. Qed.

(** test_reply.py 28-39. *)
Example test_reply_s9_2 :
  let p := PktPP (mkHdr true 2 (Some 4) None) 0x99 None [CReply 0x30 [3]] in
  decodes (from_pci "8604990082300328") true true p /\ encode_packet p = Ok (txt "8604990082300328").
Proof. vm_compute. split; reflexivity. Qed.

(** test_enable.py 28-41. *)
Example test_enable_s8_11 :
  let p := from_client true 103 0xcb [EnableSet 0x37 0x82] in
  decodes (to_pci "\05CB0002378275g") true false p /\ encode_packet p = Ok (txt "05CB0002378275").
Proof. vm_compute. split; reflexivity. Qed.

(** test_identify.py 28-43. *)
Example test_get_unit_type :
  let p := PktPP (mkHdr false 0 None None) 0x99 None [CIdentify 1] in
  decodes (to_pci "\0699002101") false false p /\ encode_packet p = Ok (txt "0699002101").
Proof. vm_compute. split; reflexivity. Qed.

(** test_temperature.py 30-47. *)
Example test_temperature_s9_11 :
  decodes (to_pci "\051900020564g") false false
    (from_client false 103 0x19 [TempBroadcast 5 (PFloat (100 # 4))])
  /\ encode_packet (from_client true 103 0x19 [TempBroadcast 5 (PFloat (100 # 4))])
     = Ok (txt "05190002056477").
Proof. vm_compute. split; reflexivity. Qed.

(** test_temperature.py 51-69. *)
Example test_temperature_encode_decode :
  match encode_packet (PktPM (mkHdr true 0 (Some 5) None) (Some 0x19)
          [TempBroadcast 10 (PFloat (1 # 2)); TempBroadcast 11 (PInt 56)]) with
  | Ok b => decodes (b ++ [13; 10]) true true
              (PktPM (mkHdr true 0 (Some 5) None) (Some 0x19)
                 [TempBroadcast 10 (PFloat (2 # 4)); TempBroadcast 11 (PFloat (224 # 4))])
  | Raise _ => False
  end.
Proof. vm_compute. reflexivity. Qed.

(** test_special_packet.py 50-81. *)
Example test_special :
  decode_packet (txt "++") true true true = ([], Ok (Some PktPowerOn, 1%nat))
  /\ encode_packet PktPowerOn = Ok (txt "++")
  /\ decode_packet (txt "!") true true true = ([], Ok (Some PktError, 1%nat))
  /\ encode_packet PktError = Ok (txt "!")
  /\ decodes (txt "g.") true true (PktConfirm (txt "g") true)
  /\ decode_packet (txt "~~~") true true false = ([], Ok (Some PktReset, 1%nat))
  /\ decode_packet (to_pci "null") true true false = ([], Ok (None, 4%nat))
  /\ decodes (to_pci "|") true false PktSmartConnect
  /\ decodes (to_pci "||") true false PktSmartConnect
  /\ decode_packet (to_pci "hello?\053800792129i") true true false = ([], Ok (None, 6%nat)).
Proof. vm_compute. repeat split; reflexivity. Qed.

(** test_pm_packet.py 31-58. *)
Example test_pm_s4_2_9_2 :
  let p1 := from_client true 103 0x38 [LightOff 8] in
  let p2 := from_client true 104 0xff [StatusRequest false 0 0x38] in
  decodes (to_pci "\0538000108BAg") true false p1 /\ encode_packet p1 = Ok (txt "0538000108BA")
  /\ decodes (to_pci "\05FF007A38004Ah") true false p2 /\ encode_packet p2 = Ok (txt "05FF007A38004A").
Proof. vm_compute. repeat split; reflexivity. Qed.

(** test_pm_packet.py 62-97. *)
Example test_pm_internal :
  new_pm true 0 None [LightOff 1; StatusRequest true 1 0x38] = Raise ValueError
  /\ append_sals (None, []) [LightOff 1] = Ok (Some 0x38, [LightOff 1])
  /\ clear_sal (Some 0x38, [LightOff 1]) = (None, [])
  /\ append_sal (clear_sal (Some 0x38, [LightOff 1])) (StatusRequest true 1 0x38)
     = Ok (Some 0xff, [StatusRequest true 1 0x38])
  /\ append_sal (Some 0xff, [StatusRequest true 1 0x38]) (LightOff 1) = Raise ValueError
  /\ encode_packet (PktPM (mkHdr true 0 None None) None []) = Raise ValueError
  /\ encode_packet (PktPM (mkHdr true 0 None None) (Some 0x100) []) = Raise ValueError.
Proof. vm_compute. repeat split; reflexivity. Qed.

(** The expected states of test_cal.py 32-46 and 97-111: 1 to 8 off, the others
    missing. *)
Definition off_states (start n : nat) : list Z :=
  map (fun i => if Nat.leb 1 i && Nat.leb i 8 then 2 else 0) (seq start n).
(** test_cal.py 97-111. *)
Definition zero_levels (start n : nat) : list (option Z) :=
  map (fun i => if Nat.leb 1 i && Nat.leb i 8 then Some 0 else None) (seq start n).
(** A status reply (pp_packet.py 36-61), its text from the PCI and what it encodes to. *)
Definition status_reply (source unit block : Z) (r : report) (s : string) : Prop :=
  let p := PktPP (mkHdr true 2 (Some source) None) unit None [CExtended false 0x38 block r] in
  decodes (from_pci s) true true p /\ encode_packet p = Ok (txt s).

(** test_cal.py 49-81. *)
Example test_s9_1_exstat :
  status_reply 0x99 0x99 0 (RBinary (off_states 0 88))
    "86999900F9003800A8AA0200000000000000000000000000000000000000C3"
  /\ status_reply 0x99 0x99 88 (RBinary (off_states 88 88))
    "86999900F900385800000000000000000000000000000000000000000000BF"
  /\ status_reply 0x99 0x99 176 (RBinary (off_states 176 80))
    "86999900F70038B0000000000000000000000000000000000000000069".
Proof. vm_compute. repeat split; reflexivity. Qed.

(** test_cal.py 83-92. *)
Example test_p49_manchester :
  map manchester_decode [[0xaa; 0xaa]; [0; 0]; [0x95; 0x99]; [0x55; 0x55]]
  = [Ok (Some 0); Ok None; Ok (Some 0x57); Ok (Some 0xff)]
  /\ map (fun v => manchester_encode v None 0) [Some 0; None; Some 0x57; Some 0xff]
     = [Ok [0xaa; 0xaa]; Ok [0; 0]; Ok [0x95; 0x99]; Ok [0x55; 0x55]].
Proof. vm_compute. split; reflexivity. Qed.

(** test_cal.py 114-136. *)
Example test_level_response :
  status_reply 0xff 0xff 0 (RLevel (zero_levels 0 11))
    "86FFFF00F90738000000AAAAAAAAAAAAAAAAAAAAAAAAAAAAAAAA00000000A4"
  /\ status_reply 0xff 0xff 11 (RLevel (zero_levels 11 11))
    "86FFFF00F907380B0000000000000000000000000000000000000000000039"
  /\ status_reply 0xff 0xff 22 (RLevel (zero_levels 22 10))
    "86FFFF00F7073816000000000000000000000000000000000000000030".
Proof. vm_compute. repeat split; reflexivity. Qed.

(** test_cal.py 138-155. *)
Example test_manchester_api :
  manchester_encode (Some 0xff) (Some [0; 0; 0; 0]) 0 = Ok [0x55; 0x55; 0; 0]
  /\ manchester_encode (Some 0) (Some [0x55; 0x55; 0; 0]) 2 = Ok [0x55; 0x55; 0xaa; 0xaa]
  /\ manchester_encode None (Some [0x55; 0x55; 0xaa; 0xaa]) 1 = Ok [0x55; 0x55; 0xaa; 0xaa]
  /\ manchester_encode (Some 0x42) (Some [0x55; 0x55; 0xaa; 0xaa]) 10 = Raise IndexError.
Proof. vm_compute. repeat split; reflexivity. Qed.

(** What a packet made of [clock_update_sal(v)] encodes to, with the default
    arguments of pm_packet.py 36-40 (checksum True, priority CLASS_4). *)
Definition clock_packet (v : clockval) : res bytes :=
  rbind (clock_update_sal v) (fun sals => rbind (new_pm true CLASS_4 None sals) encode_packet).

(** test_clock.py 32-58. *)
Example test_clock_s23_13_1 :
  let p := from_client true 103 0xdf [ClockUpdate (CTime 10 43 23 0)] in
  decodes (to_pci "\05DF000D010A2B1700C2g") true false p
  /\ encode_packet p = Ok (txt "05DF000D010A2B17FFC3")
  /\ clock_packet (CTime 10 43 23 0) = Ok (txt "05DF000D010A2B17FFC3").
Proof. vm_compute. repeat split; reflexivity. Qed.

(** test_clock.py 60-80. *)
Example test_clock_s23_13_2 :
  let p := from_client true 103 0xdf [ClockUpdate (CDate 2005 2 25)] in
  decodes (to_pci "\05DF000E0207D502190411g") true false p
  /\ encode_packet p = Ok (txt "05DF000E0207D502190411")
  /\ clock_packet (CDate 2005 2 25) = Ok (txt "05DF000E0207D502190411").
Proof. vm_compute. repeat split; reflexivity. Qed.

(** test_clock.py 82-98. *)
Example test_clock_s23_13_3 :
  let p := from_client true 103 0xdf [ClockRequest] in
  decodes (to_pci "\05DF00110308g") true false p /\ encode_packet p = Ok (txt "05DF00110308").
Proof. vm_compute. split; reflexivity. Qed.

(** test_clock.py 103-130. *)
Example test_clock_objects :
  clock_update_sal COther = Raise TypeError /\ sal_encode (ClockUpdate COther) = Raise TypeError
  /\ match clock_packet (CDateTime 2019 12 31 23 59 13 0) with
     | Ok b => decodes (92 :: b ++ [103; 13]) true false
                 (from_client true 103 0xdf
                    [ClockUpdate (CDate 2019 12 31); ClockUpdate (CTime 23 59 13 0)])
     | Raise _ => False
     end.
Proof. vm_compute. repeat split; reflexivity. Qed.

(** test_clock.py 132-144. *)
Example test_invalid_clock_request :
  decode_packet (to_pci "\05DF0011010Ag") true true false
  = ([WClockReqArg], Ok (Some (from_client true 103 0xdf []), 15%nat))
  /\ decode_packet (to_pci "\05DF0011011103F6g") true true false
     = ([WClockReqArg], Ok (Some (from_client true 103 0xdf [ClockRequest]), 19%nat)).
Proof. vm_compute. split; reflexivity. Qed.

(** A line of a client (tests/utils.py 32-59) with its code, and what the packet
    encodes to. *)
Definition light_line (s : string) (code : Z) (sals : list sal) : Prop :=
  let p := from_client true code 0x38 sals in
  decodes (92 :: txt s ++ [code; 13]) true false p /\ encode_packet p = Ok (txt s).

(** test_lighting.py 31-122. *)
Example test_lighting_guides :
  light_line "0538000108BA" 103 [LightOff 8]
  /\ light_line "05380001087909090A25" 104 [LightOff 8; LightOn 9; LightTerminate 10]
  /\ light_line "0538007993B7" 106 [LightOn 0x93]
  /\ light_line "053800792129" 105 [LightOn 0x21]
  /\ light_line "0538000121A1" 107 [LightOff 0x21]
  /\ light_line "0538000A217F19" 108 [LightRamp 0x21 4 (PInt 127)].
Proof. vm_compute. repeat split; reflexivity. Qed.

(** test_lighting.py 127-174. *)
Example test_lighting_internal :
  match encode_packet (PktPM (mkHdr true 0 (Some 5) None) (Some 0x38) [LightOn 27]) with
  | Ok b => decodes (b ++ [13; 10]) true true (PktPM (mkHdr true 0 (Some 5) None) (Some 0x38) [LightOn 27])
  | Raise _ => False
  end
  /\ match encode_packet (PktPM (mkHdr true 0 None None) (Some 0x38) [LightOn 27]) with
     | Ok b => decodes (92 :: b ++ [13]) true false (PktPM (mkHdr true 0 None None) (Some 0x38) [LightOn 27])
     | Raise _ => False
     end
  /\ new_light_on 999 = Raise ValueError /\ new_light_off (-1) = Raise ValueError
  /\ sal_encode (LightRamp 1 (18 * 60) (PInt 255)) = sal_encode (LightRamp 1 (17 * 60) (PInt 255))
  /\ sal_encode (LightRamp 1 10 (PInt (-1))) = Raise ValueError
  /\ sal_encode (LightRamp 1 10 (PInt 256)) = Raise ValueError.
Proof. vm_compute. repeat split; reflexivity. Qed.

(** test_lighting.py 178-187. *)
Example test_issue2 :
  decodes (from_pci "05063800BD") true true (PktPM (mkHdr true 0 (Some 6) None) (Some 0x38) []).
Proof. vm_compute. reflexivity. Qed.

(** No character above 126 occurs in these tests (cmqttd.py 52-59). *)
Definition no_unicode : unicode := mkUnicode (fun _ => false) (fun _ => None).

(** test_cmqttd.py 42-92. *)
Example test_topics :
  List.length ga_range = 256%nat /\ List.length (nodup Z.eq_dec ga_range) = 256%nat
  /\ forallb (fun ga => match check_ga ga with Ok _ => true | Raise _ => false end) ga_range = true
  /\ forallb (fun ga =>
       forallb (fun t => match get_topic_group_address no_unicode t with Ok g => g =? ga | Raise _ => false end)
         [LIGHT_TOPIC_PREFIX ++ py_str ga; set_topic ga; state_topic ga; conf_topic ga]
       && negb (text_eqb (set_topic ga) (state_topic ga)) && negb (text_eqb (state_topic ga) (conf_topic ga))
       && negb (text_eqb (conf_topic ga) (set_topic ga))
       && negb (text_eqb (bin_sensor_state_topic ga) (bin_sensor_conf_topic ga))) ga_range = true.
Proof. vm_compute. repeat split; reflexivity. Qed.

(** test_cmqttd.py 95-102. *)
Example test_invalid_topics :
  map (get_topic_group_address no_unicode)
    [txt "homeassistant/light/cbus_not-a-number"; txt "homeassistant/light/cbus_9000";
     txt "homeassistant/light/my_light"; txt "light/my_light"]
  = repeat (Raise ValueError) 4.
Proof. vm_compute. reflexivity. Qed.

(** test_cmqttd.py 104-115. *)
Example test_read_auth :
  forallb (fun f => match read_auth no_unicode f with
                    | SetLogin a b => text_eqb a (txt "my_username") && text_eqb b (txt "my_password")
                    | _ => false
                    end)
    [txt "my_username" ++ [10] ++ txt "my_password" ++ [10];
     txt "my_username" ++ [13; 10] ++ txt "my_password" ++ [13; 10];
     txt "my_username" ++ [10] ++ txt "my_password";
     txt "my_username " ++ [10] ++ txt "  my_password" ++ [10]] = true.
Proof. vm_compute. reflexivity. Qed.
