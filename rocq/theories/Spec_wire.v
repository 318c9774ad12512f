(** Specification for C99: the bytes of every message, written out.  Nothing
    here uses the model's constants, encoders or tables. *)
From Coq Require Import List ZArith QArith Qround Bool.
From Verif Require Import Py Sal Cal Packet Spec Prop_dates.
Import ListNotations.
Open Scope Z_scope.

(** ** Commands *)

(** A value the clock classes accept: a real date, a real time of day. *)
Definition possible_command (s : sal) : Prop :=
  match s with ClockUpdate COther => True | ClockUpdate _ => valid_clock s | _ => True end.

(** The day of the week of a date, Monday 0: the days since Monday 1 January 1. *)
Definition day_of_week (y m d w : Z) : Prop :=
  exists n, days_later (1, 1, 1) n (y, m, d) /\ w = Z.of_nat n mod 7.

(** [command_bytes s b]: command [s] is sent as [b]. *)
Inductive command_bytes : sal -> bytes -> Prop :=
| wire_on ga : byte ga -> command_bytes (LightOn ga) [0x79; ga]
| wire_off ga : byte ga -> command_bytes (LightOff ga) [0x01; ga]
| wire_terminate ga : byte ga -> command_bytes (LightTerminate ga) [0x09; ga]
| wire_ramp ga seconds d code level : byte ga -> byte level ->
    rounds_to seconds d -> is_ramp_rate code d ->
    command_bytes (LightRamp ga seconds (PInt level)) [code; ga; level]
| wire_time h mi s us : command_bytes (ClockUpdate (CTime h mi s us)) [0x0D; 0x01; h; mi; s; 0xFF]
| wire_date y m d w : day_of_week y m d w ->
    command_bytes (ClockUpdate (CDate y m d)) [0x0E; 0x02; y / 256; y mod 256; m; d; w]
| wire_datetime y m d h mi s us w : day_of_week y m d w ->
    command_bytes (ClockUpdate (CDateTime y m d h mi s us)) [0x0E; 0x02; y / 256; y mod 256; m; d; w]
| wire_request : command_bytes ClockRequest [0x11; 0x03]
| wire_temperature ga t q : byte ga -> num_value t = Some q -> (0 <= q)%Q -> (q <= 6375 # 100)%Q ->
    command_bytes (TempBroadcast ga t) [0x02; ga; Qfloor (4 * q)]
| wire_enable v x : command_bytes (EnableSet v x) [0x02; v mod 256; x mod 256]
| wire_status_binary ga child :
    command_bytes (StatusRequest false ga child) [0x7A; child mod 256; 32 * (ga mod 256 / 32)]
| wire_status_level ga child :
    command_bytes (StatusRequest true ga child) [0x73; 0x07; child mod 256; 32 * (ga mod 256 / 32)].

(** ** Management messages between units *)

(** Four states to a byte, the first in the lowest bits; the last byte is
    filled up with 0. *)
Inductive states_bytes : list Z -> bytes -> Prop :=
| states_0 : states_bytes [] []
| states_1 a : states_bytes [a] [a]
| states_2 a b : states_bytes [a; b] [a + 4 * b]
| states_3 a b c : states_bytes [a; b; c] [a + 4 * b + 16 * c]
| states_4 a b c d l w : states_bytes l w ->
    states_bytes (a :: b :: c :: d :: l) (a + 4 * b + 16 * c + 64 * d :: w).
(** Two bytes to a level: its Manchester code, or 00 00 if it is unknown. *)
Inductive levels_bytes : list (option Z) -> bytes -> Prop :=
| levels_nil : levels_bytes [] []
| levels_none l w : levels_bytes l w -> levels_bytes (None :: l) (0 :: 0 :: w)
| levels_some v b0 b1 l w : manchester (v mod 256) b0 b1 -> levels_bytes l w ->
    levels_bytes (Some v :: l) (b0 :: b1 :: w).
Inductive report_bytes : report -> Z -> bytes -> Prop :=
| wire_binary states w : states_bytes states w -> report_bytes (RBinary states) 0x00 w
| wire_level levels w : levels_bytes levels w -> report_bytes (RLevel levels) 0x07 w.

(** Values the classes hold: data bytes, states 0 to 3, a report that fits. *)
Definition possible_cal (c : cal) : Prop :=
  match c with
  | CReply _ data => is_bytes data
  | CExtended _ _ _ r => valid_report r /\ (report_size r <= 28)%nat
  | _ => True
  end.
Inductive cal_bytes : cal -> bytes -> Prop :=
| wire_identify a : cal_bytes (CIdentify a) [0x21; a mod 256]
| wire_recall p n : cal_bytes (CRecall p n) [0x1A; p mod 256; n mod 256]
| wire_reply p data kept : kept = firstn 30 data ->
    cal_bytes (CReply p data) ([0x80 + Z.of_nat (length kept) + 1; p mod 256] ++ kept)
| wire_extended ext child block r coding w : report_bytes r coding w ->
    cal_bytes (CExtended ext child block r)
      ([0xE0 + Z.of_nat (length w) + 3; (if ext then 0x40 else 0) + coding;
        child mod 256; block mod 256] ++ w).

(** ** Packets *)

Definition possible_packet (p : packet) : Prop :=
  match p with
  | PktPM _ _ commands => Forall possible_command commands
  | PktPP _ _ _ cals => Forall possible_cal cals
  | PktStdCal _ _ states _ => Forall group_state states /\ (length states <= 112)%nat
  | _ => True
  end.

(** The source address, if the packet has one. *)
Definition source_bytes (h : hdr) : bytes :=
  match h_source h with None => [] | Some s => [s mod 256] end.
(** The priority is in the two highest bits. *)
Definition priority_bits (h : hdr) : Z := 64 * (h_priority h mod 4).

(** The bytes of a packet before the checksum, and whether one is added. *)
Inductive packet_bytes : packet -> bool -> bytes -> Prop :=
| wire_multipoint h a commands parts : byte a -> Forall2 command_bytes commands parts ->
    packet_bytes (PktPM h (Some a) commands) (h_checksum h)
      ([0x05 + priority_bits h] ++ source_bytes h ++ [a; 0x00] ++ concat parts)
| wire_point h u cals parts : byte u -> Forall2 cal_bytes cals parts ->
    packet_bytes (PktPP h u None cals) (h_checksum h)
      ([0x06 + priority_bits h] ++ source_bytes h ++ [u; 0x00] ++ concat parts)
| wire_management h p v :
    packet_bytes (PktDM h p v) (h_checksum h)
      ([0x23 + priority_bits h] ++ source_bytes h ++ [p mod 256; 0x00; v mod 256])
| wire_standard child block states ck w : states_bytes states w ->
    packet_bytes (PktStdCal child block states ck) ck
      ([0xC0 + Z.of_nat (length w) + 3; child mod 256; block mod 256] ++ w).

(** One byte more, such that all bytes add up to a multiple of 256. *)
Inductive closed : bool -> bytes -> bytes -> Prop :=
| closed_plain l : closed false l l
| closed_sum l c : byte c -> sum (l ++ [c]) mod 256 = 0 -> closed true l (l ++ [c]).

(** Two characters to a byte, high digit first. *)
Inductive digit : Z -> Z -> Prop :=
| digit_0_9 n : 0 <= n <= 9 -> digit n (48 + n)
| digit_A_F n : 10 <= n <= 15 -> digit n (65 + (n - 10)).
Inductive spelled : bytes -> bytes -> Prop :=
| spelled_nil : spelled [] []
| spelled_cons hi lo c1 c2 l w : digit hi c1 -> digit lo c2 -> spelled l w ->
    spelled (16 * hi + lo :: l) (c1 :: c2 :: w).

(** The characters of a packet on the line, without prefix, confirmation letter
    and line end. *)
Inductive packet_text : packet -> bytes -> Prop :=
| text_data p ck raw whole w : packet_bytes p ck raw -> closed ck raw whole -> spelled whole w ->
    packet_text p w
| text_power_on : packet_text PktPowerOn [43; 43]                           (* ++ *)
| text_error : packet_text PktError [33]                                    (* ! *)
| text_yes code : packet_text (PktConfirm code true) (code ++ [46])         (* . *)
| text_no code : packet_text (PktConfirm code false) (code ++ [35])         (* # *)
| text_reset : packet_text PktReset [126]                                   (* ~ *)
| text_smart : packet_text PktSmartConnect [124]                            (* | *)
| text_invalid payload e : packet_text (PktInvalid payload e) payload.
