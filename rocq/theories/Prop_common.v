(** Properties C01-C04: checksums, base16, ramp rates. *)
From Coq Require Import List ZArith Bool Lia.
From Verif Require Import Py Common Base Spec Common_facts.
Import ListNotations.
Open Scope Z_scope.

(** C01 *)
Theorem C01_add_checksum : forall m, exists c,
  add_cbus_checksum m = m ++ [c] /\ byte c /\ sum (m ++ [c]) mod 256 = 0
  /\ forall c', byte c' -> sum (m ++ [c']) mod 256 = 0 -> c' = c.
Proof. exact add_checksum_spec. Qed.
Print Assumptions C01_add_checksum.

Theorem C01_validate_checksum : forall x, is_bytes x ->
  (validate_cbus_checksum x = Ok true <-> x <> [] /\ sum x mod 256 = 0)
  /\ (validate_cbus_checksum x = Ok false <-> x <> [] /\ sum x mod 256 <> 0)
  /\ (validate_cbus_checksum x = Raise IndexError <-> x = []).
Proof. exact validate_iff. Qed.
Print Assumptions C01_validate_checksum.

(** Test vector of common.py's documentation style: 05 38 00 79 01 -> 49. *)
Example C01_case :
  add_cbus_checksum [5; 0x38; 0; 0x79; 1] = [5; 0x38; 0; 0x79; 1; 0x49]
  /\ validate_cbus_checksum [5; 0x38; 0; 0x79; 1; 0x49] = Ok true
  /\ validate_cbus_checksum [5; 0x38; 0; 0x79; 1; 0x48] = Ok false.
Proof. vm_compute. auto. Qed.

(** C02 *)
Theorem C02_single_byte_corruption_detected : forall pre b b' post,
  is_bytes (pre ++ b :: post) -> byte b' -> b' <> b ->
  validate_cbus_checksum (pre ++ b :: post) = Ok true ->
  validate_cbus_checksum (pre ++ b' :: post) = Ok false.
Proof. exact corrupt_detected. Qed.
Print Assumptions C02_single_byte_corruption_detected.

Example C02_case :
  is_bytes ([5; 0x38; 0; 0x79] ++ 1 :: [0x49]) /\ byte 2 /\ 2 <> 1
  /\ validate_cbus_checksum ([5; 0x38; 0; 0x79] ++ 1 :: [0x49]) = Ok true.
Proof. split; [repeat constructor; lia|]. split; [unfold byte; lia|]. split; [lia|reflexivity]. Qed.

(** C03, for byte strings; Prop_packet.v lifts it to packets. *)
Theorem C03_base16 : forall raw, is_bytes raw ->
  b16decode (b16encode raw) = Ok raw
  /\ Forall hex_char (b16encode raw)
  /\ length (b16encode raw) = (2 * length raw)%nat.
Proof. exact (fun raw H => conj (b16_roundtrip raw H) (conj (b16_hex raw H) (b16_length raw))). Qed.
Print Assumptions C03_base16.

Example C03_case : b16encode [0; 0xaf; 0xff] = [48; 48; 65; 70; 70; 70].
Proof. reflexivity. Qed.

(** C04 *)
Theorem C04_duration_to_rate : forall s d,
  rounds_to s d -> is_ramp_rate (duration_to_ramp_rate s) d.
Proof. exact duration_to_rate_spec. Qed.
Print Assumptions C04_duration_to_rate.

(** Every number of seconds rounds to exactly one duration; 0 for s <= 0. *)
Theorem C04_rounding_total : forall s,
  (exists d, rounds_to s d /\ forall d', rounds_to s d' -> d' = d) /\ (s <= 0 -> rounds_to s 0).
Proof. exact rounding_total. Qed.
Print Assumptions C04_rounding_total.

Theorem C04_rate_to_duration : forall code,
  (forall d, ramp_rate_to_duration code = Ok d <-> is_ramp_rate code d)
  /\ ((forall d, ~ is_ramp_rate code d) -> ramp_rate_to_duration code = Raise KeyError).
Proof. exact rate_to_duration_iff. Qed.
Print Assumptions C04_rate_to_duration.

(** Quantised duration: inverse on supported durations, idempotent, monotone,
    injective. *)
Theorem C04_quantisation :
  (forall d, In d ramp_seconds -> ramp_rate_to_duration (duration_to_ramp_rate d) = Ok d)
  /\ (forall s d, ramp_rate_to_duration (duration_to_ramp_rate s) = Ok d ->
        duration_to_ramp_rate d = duration_to_ramp_rate s)
  /\ (forall s s' d d', s <= s' ->
        ramp_rate_to_duration (duration_to_ramp_rate s) = Ok d ->
        ramp_rate_to_duration (duration_to_ramp_rate s') = Ok d' -> d <= d')
  /\ (forall c c' d, ramp_rate_to_duration c = Ok d -> ramp_rate_to_duration c' = Ok d -> c = c').
Proof. exact quantisation. Qed.
Print Assumptions C04_quantisation.

Example C04_case :
  duration_to_ramp_rate 5 = 0x12 /\ ramp_rate_to_duration 0x12 = Ok 8
  /\ duration_to_ramp_rate (-3) = 0x02 /\ duration_to_ramp_rate 5000 = 0x7a
  /\ ramp_rate_to_duration 0x79 = Raise KeyError.
Proof. vm_compute. auto. Qed.
