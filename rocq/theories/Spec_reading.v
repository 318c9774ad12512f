(** Specification for C100: which lines are read, and as what.  Nothing here
    uses the model's constants, decoders or tables. *)
From Coq Require Import List ZArith QArith Bool.
From Verif Require Import Py Sal Cal Packet Spec Spec_wire.
Import ListNotations.
Open Scope Z_scope.

(** ** Commands.  [..._says data commands ws]: the bytes [data] are read as
    [commands], with the warnings [ws]. *)

Inductive light_says : bytes -> list sal -> list warn -> Prop :=
| light_end : light_says [] [] []
| light_on ga rest l ws : light_says rest l ws ->
    light_says ([0x79; ga] ++ rest) (LightOn ga :: l) ws
| light_off ga rest l ws : light_says rest l ws ->
    light_says ([0x01; ga] ++ rest) (LightOff ga :: l) ws
| light_terminate ga rest l ws : light_says rest l ws ->
    light_says ([0x09; ga] ++ rest) (LightTerminate ga :: l) ws
| light_ramp code seconds ga level rest l ws : is_ramp_rate code seconds -> light_says rest l ws ->
    light_says ([code; ga; level] ++ rest) (LightRamp ga seconds (PInt level) :: l) ws
| light_stop rest w : light_undecodable rest w -> light_says rest [] [w].

(** Dates and times.  A value of the wrong length is skipped; behind an unknown
    variable twice the length is skipped. *)
Inductive clock_says : bytes -> list sal -> list warn -> Prop :=
| clock_end : clock_says [] [] []
| clock_date y1 y0 m d any rest l ws : valid_date (256 * y1 + y0) m d -> clock_says rest l ws ->
    clock_says ([0x0E; 2; y1; y0; m; d; any] ++ rest) (ClockUpdate (CDate (256 * y1 + y0) m d) :: l) ws
| clock_time h mi s any rest l ws : valid_time h mi s 0 -> clock_says rest l ws ->
    clock_says ([0x0D; 1; h; mi; s; any] ++ rest) (ClockUpdate (CTime h mi s 0) :: l) ws
| clock_ask rest l ws : clock_says rest l ws -> clock_says ([0x11; 3] ++ rest) (ClockRequest :: l) ws
| clock_ask_odd x rest l ws : x <> 3 -> clock_says rest l ws ->
    clock_says ([0x11; x] ++ rest) l (WClockReqArg :: ws)
| clock_date_length n rest l ws : (n <= 7)%nat -> n <> 6%nat -> clock_says (skipn n (2 :: rest)) l ws ->
    clock_says (8 + Z.of_nat n :: 2 :: rest) l (WClockDateLen :: ws)
| clock_time_length n rest l ws : (n <= 7)%nat -> n <> 5%nat -> clock_says (skipn n (1 :: rest)) l ws ->
    clock_says (8 + Z.of_nat n :: 1 :: rest) l (WClockTimeLen :: ws)
| clock_variable n var rest l ws : (n <= 7)%nat -> var <> 1 -> var <> 2 ->
    clock_says (skipn (n + n) (var :: rest)) l ws ->
    clock_says (8 + Z.of_nat n :: var :: rest) l (WClockVar :: ws)
| clock_long c rest : 128 <= c -> clock_says (c :: rest) [] [WClockLong]
| clock_bits c rest : 32 <= c < 128 -> clock_says (c :: rest) [] [WClockBits]
| clock_unknown c rest : c < 32 -> c <> 17 -> ~ 8 <= c <= 15 -> clock_says (c :: rest) [] [WClockUnknown].

(** Temperatures in quarters of a degree, and network variables: three bytes
    each, the first below 128 and 2 modulo 8. *)
Inductive temperature_says : bytes -> list sal -> list warn -> Prop :=
| temperature_end : temperature_says [] [] []
| temperature_value code ga t rest l ws : code < 128 -> code mod 8 = 2 -> temperature_says rest l ws ->
    temperature_says ([code; ga; t] ++ rest) (TempBroadcast ga (PFloat (t # 4)) :: l) ws
| temperature_long code x y rest : 128 <= code -> temperature_says ([code; x; y] ++ rest) [] [WTempCmd]
| temperature_length code x y rest : code < 128 -> code mod 8 <> 2 ->
    temperature_says ([code; x; y] ++ rest) [] [WTempLen]
| temperature_stray rest : (1 <= length rest <= 2)%nat -> temperature_says rest [] [WTempStray].
Inductive enable_says : bytes -> list sal -> list warn -> Prop :=
| enable_end : enable_says [] [] []
| enable_value code var v rest l ws : code < 128 -> code mod 8 = 2 -> enable_says rest l ws ->
    enable_says ([code; var; v] ++ rest) (EnableSet var v :: l) ws
| enable_long code x y rest : 128 <= code -> enable_says ([code; x; y] ++ rest) [] [WEnableCmd]
| enable_length code x y rest : code < 128 -> code mod 8 <> 2 ->
    enable_says ([code; x; y] ++ rest) [] [WEnableLen]
| enable_stray rest : (1 <= length rest <= 2)%nat -> enable_says rest [] [WEnableStray].

(** The commands of application [a].  On a lighting application other than
    0x38 no command can be read. *)
Inductive commands_say : Z -> bytes -> list sal -> list warn -> Prop :=
| say_light data l ws : light_says data l ws -> commands_say 0x38 data l ws
| say_other_light a data ws : 0x30 <= a <= 0x5F -> light_says data [] ws -> commands_say a data [] ws
| say_clock data l ws : clock_says data l ws -> commands_say 0xDF data l ws
| say_temperature data l ws : temperature_says data l ws -> commands_say 0x19 data l ws
| say_enable data l ws : enable_says data l ws -> commands_say 0xCB data l ws
| say_status data l : status_stream data l -> commands_say 0xFF data l [].

(** ** Management messages between units *)

(** Four states to a byte, the first in the lowest bits. *)
Inductive states_say : bytes -> list Z -> Prop :=
| states_say_nil : states_say [] []
| states_say_cons a b c d w l : group_state a -> group_state b -> group_state c -> group_state d ->
    states_say w l -> states_say (a + 4 * b + 16 * c + 64 * d :: w) (a :: b :: c :: d :: l).
(** Two bytes to a level: unknown unless they are a Manchester code. *)
Inductive levels_say : bytes -> list (option Z) -> Prop :=
| levels_say_nil : levels_say [] []
| levels_say_some v b0 b1 w l : manchester v b0 b1 -> levels_say w l -> levels_say (b0 :: b1 :: w) (Some v :: l)
| levels_say_none b0 b1 w l : (forall v, ~ manchester v b0 b1) -> levels_say w l ->
    levels_say (b0 :: b1 :: w) (None :: l).
(** The coding byte: the kind of report in the three lowest bits, externally
    initiated in bit 6, the other bits are ignored. *)
Definition coding_says (coding kind : Z) (ext : bool) : Prop :=
  exists i j, 0 <= i <= 7 /\ 0 <= j <= 1 /\ coding = kind + 8 * i + (if ext then 64 else 0) + 128 * j.

(** [cal_says b c]: exactly the bytes [b] are read as [c]. *)
Inductive cal_says : bytes -> cal -> Prop :=
| say_identify a : 0 <= a <= 17 -> cal_says [0x21; a] (CIdentify a)
| say_recall p n : cal_says [0x1A; p; n] (CRecall p n)
| say_reply p data : (length data <= 30)%nat ->
    cal_says ([0x80 + Z.of_nat (length (p :: data)); p] ++ data) (CReply p data)
| say_binary coding ext child block w states : coding_says coding 0 ext -> (length w <= 28)%nat ->
    states_say w states ->
    cal_says ([0xE0 + Z.of_nat (3 + length w); coding; child; block] ++ w)
      (CExtended ext child block (RBinary states))
| say_level coding ext child block w levels : coding_says coding 7 ext -> (length w <= 28)%nat ->
    levels_say w levels ->
    cal_says ([0xE0 + Z.of_nat (3 + length w); coding; child; block] ++ w)
      (CExtended ext child block (RLevel levels)).
Inductive cals_say : bytes -> list cal -> Prop :=
| cals_end : cals_say [] []
| cals_next b c rest l : cal_says b c -> cals_say rest l -> cals_say (b ++ rest) (c :: l).

(** ** Messages *)

(** The first byte: address type, 0 in bit 5 unless device management, the
    priority in the two highest bits; bits 3 and 4 are ignored. *)
Definition flags_say (f address_type : Z) (device : bool) (priority : Z) : Prop :=
  In address_type [0; 3; 5; 6] /\ 0 <= priority <= 3
  /\ exists k, 0 <= k <= 3 /\ f = address_type + 8 * k + (if device then 32 else 0) + 64 * priority.

(** [message_says bare h address_type device data p extra ws]: the bytes [data]
    after the header are read as [p] with header [h].  Without a prefix that
    says otherwise ([bare]), a message to the PCI is one management message and
    anything may follow it; its length is added to the position ([extra]). *)
Inductive message_says : bool -> hdr -> Z -> bool -> bytes -> packet -> nat -> list warn -> Prop :=
| say_device bare h t par v : message_says bare h t true [par; 0; v] (PktDM h par v) 0 []
| say_bare h t b c rest : cal_says b c -> message_says true h t false (b ++ rest) (PktCal c) (length b) []
| say_point h u data cals : cals_say data cals ->
    message_says false h 6 false ([u; 0] ++ data) (PktPP h u None cals) 0 []
| say_bridged h bridge hops u data cals : bridge <> 0 -> (length hops <= 5)%nat -> cals_say data cals ->
    message_says false h 6 false ([bridge; 9 * (Z.of_nat (length hops) + 1)] ++ hops ++ [u] ++ data)
      (PktPP h u (Some hops) cals) 0 []
| say_multipoint h a data l ws : commands_say a data l ws ->
    message_says false h 5 false ([a; 0] ++ data) (PktPM h (Some a) l) 0 ws.

(** A message from the network has a source address; 0 is read as none. *)
Inductive heard_says (ck : bool) : bytes -> packet -> nat -> list warn -> Prop :=
| say_heard f t device priority source data p extra ws :
    flags_say f t device priority ->
    message_says false (mkHdr ck priority (if source =? 0 then None else Some source) None)
      t device data p extra ws ->
    heard_says ck ([f; source] ++ data) p extra ws.
(** A message to the PCI has none. *)
Inductive order_says (ck bare : bool) (letter : option Z) : bytes -> packet -> nat -> list warn -> Prop :=
| say_order f t device priority data p extra ws :
    flags_say f t device priority ->
    message_says bare (mkHdr ck priority None letter) t device data p extra ws ->
    order_says ck bare letter ([f] ++ data) p extra ws.

(** Digits: two to a byte.  With checksums the last byte is one: all bytes add
    up to a multiple of 256; if not, the message is read only when not strict,
    with a warning. *)
Inductive digits_say (ck strict : bool) (says : bytes -> packet -> nat -> list warn -> Prop)
  : bytes -> packet -> nat -> list warn -> Prop :=
| digits_plain raw w p extra ws : ck = false -> spelled raw w -> says raw p extra ws ->
    digits_say ck strict says w p extra ws
| digits_sum raw c w p extra ws : ck = true -> spelled (raw ++ [c]) w -> sum (raw ++ [c]) mod 256 = 0 ->
    says raw p extra ws -> digits_say ck strict says w p extra ws
| digits_no_sum raw c w p extra ws : ck = true -> strict = false -> spelled (raw ++ [c]) w ->
    sum (raw ++ [c]) mod 256 <> 0 -> says raw p extra ws ->
    digits_say ck strict says w p extra (WChecksum :: ws).

(** A whole line from a PCI: digits, CR, LF. *)
Inductive reply_line_says (ck strict : bool) : bytes -> packet -> nat -> list warn -> Prop :=
| say_reply_line w rest p extra ws : digits_say ck strict (heard_says ck) w p extra ws ->
    reply_line_says ck strict (w ++ [13; 10] ++ rest) p (length w + 2 + extra) ws.

(** A whole line to a PCI: prefix, digits, confirmation letter, CR.  With '@'
    there is no checksum; only with a backslash it can be for the network.  The
    letters are g to z; another character is read only when not strict, with a
    warning. *)
Definition prefix_says (prefix : bytes) (ck ck' bare : bool) : Prop :=
  (prefix = [] /\ ck' = ck /\ bare = true) \/ (prefix = [64] /\ ck' = false /\ bare = true)
  \/ (prefix = [92] /\ ck' = ck /\ bare = false).
Inductive letter_says (strict : bool) : option Z -> list warn -> Prop :=
| letter_none : letter_says strict None []
| letter_code c : is_code c -> letter_says strict (Some c) []
| letter_other c : ~ is_code c -> ~ hex_char c -> c <> 13 -> c <> 63 -> strict = false ->
    letter_says strict (Some c) [WConfirmCode].
Inductive order_line_says (ck strict : bool) : bytes -> packet -> nat -> list warn -> Prop :=
| say_order_line prefix ck' bare w letter rest p extra ws1 ws2 :
    prefix_says prefix ck ck' bare -> letter_says strict letter ws1 ->
    digits_say ck' strict (order_says ck' bare letter) w p extra ws2 ->
    order_line_says ck strict (prefix ++ w ++ opt_code letter ++ [13] ++ rest) p
      (length (prefix ++ w ++ opt_code letter) + 1 + extra) (ws1 ++ ws2).
