(** Properties C12-C14 and C47: status reports and CALs. *)
From Coq Require Import List ZArith Bool Lia.
From Verif Require Import Py Common Cal Base Spec Common_facts Cal_facts.
Import ListNotations.
Open Scope Z_scope.

(** C12 *)
Theorem C12_binary_roundtrip : forall states, Forall group_state states ->
  exists b pad, binary_encode states = Ok b /\ is_bytes b
    /\ binary_decode b = states ++ repeat 0 pad
    /\ (pad < 4)%nat /\ (pad = 0 <-> length states mod 4 = 0)%nat
    /\ (4 * length b = length states + pad)%nat.
Proof.
  exact (fun states H => match binary_roundtrip states H with
    | ex_intro _ b (conj E (conj B (conj D L))) =>
      match padding_spec (length states) with conj P1 (conj _ P3) =>
      ex_intro _ b (ex_intro _ _ (conj E (conj B (conj D (conj P1 (conj P3 L)))))) end end).
Qed.
Print Assumptions C12_binary_roundtrip.

Theorem C12_binary_decode_total : forall data, is_bytes data ->
  length (binary_decode data) = (4 * length data)%nat
  /\ Forall group_state (binary_decode data)
  /\ binary_encode (binary_decode data) = Ok data.
Proof.
  exact (fun data H => conj (binary_decode_length data)
    (conj (binary_decode_states data) (binary_reencode data H))).
Qed.
Print Assumptions C12_binary_decode_total.

Example C12_case :
  binary_encode [1; 2; 3; 0; 2] = Ok [0x39; 2]
  /\ binary_decode [0x39; 2] = [1; 2; 3; 0; 2; 0; 0; 0].
Proof. vm_compute. auto. Qed.

(** C13 *)
Theorem C13_level_roundtrip : forall levels,
  exists b, level_encode levels = Ok b /\ is_bytes b /\ length b = (2 * length levels)%nat
    /\ level_decode b = Ok (map (option_map (fun v => v mod 256)) levels).
Proof. exact level_roundtrip. Qed.
Print Assumptions C13_level_roundtrip.

Theorem C13_level_decode_parity : forall data,
  ((length data mod 2 = 1)%nat -> level_decode data = Raise ValueError)
  /\ ((length data mod 2 = 0)%nat ->
      exists levels, level_decode data = Ok levels /\ (2 * length levels = length data)%nat).
Proof. exact (fun data => conj (level_decode_odd data) (level_decode_even data)). Qed.
Print Assumptions C13_level_decode_parity.

Theorem C13_manchester_decode_exact : forall b0 b1, byte b0 -> byte b1 ->
  (forall v, manchester_decode [b0; b1] = Ok (Some v) <-> manchester v b0 b1)
  /\ ((forall v, ~ manchester v b0 b1) -> manchester_decode [b0; b1] = Ok None)
  /\ (forall v, manchester_decode [b0; b1] = Ok (Some v) ->
      manchester_encode (Some v) None 0 = Ok [b0; b1]).
Proof.
  exact (fun b0 b1 H0 H1 => conj (fun v => manchester_decode_iff b0 b1 v H0 H1)
    (conj (manchester_decode_none b0 b1 H0 H1) (fun v => manchester_reencode b0 b1 v H0 H1))).
Qed.
Print Assumptions C13_manchester_decode_exact.

Theorem C13_flipped_bit_detected : forall v, byte v ->
  exists b0 b1, manchester_encode (Some v) None 0 = Ok [b0; b1]
    /\ manchester_decode [b0; b1] = Ok (Some v)
    /\ forall k, 0 <= k <= 7 ->
       manchester_decode [Z.lxor b0 (2 ^ k); b1] = Ok None
       /\ manchester_decode [b0; Z.lxor b1 (2 ^ k)] = Ok None.
Proof. exact manchester_flip_detected. Qed.
Print Assumptions C13_flipped_bit_detected.

Theorem C13_encode_in_place : forall v before x y after,
  exists b0 b1, manchester (v mod 256) b0 b1
    /\ manchester_encode (Some v) (Some (before ++ x :: y :: after)) (length before)
       = Ok (before ++ b0 :: b1 :: after)
    /\ manchester_encode None (Some (before ++ x :: y :: after)) (length before)
       = Ok (before ++ x :: y :: after).
Proof. exact manchester_in_place. Qed.
Print Assumptions C13_encode_in_place.

Theorem C13_encode_out_of_range : forall v buf off, (length buf < off + 2)%nat ->
  manchester_encode v (Some buf) off = Raise IndexError.
Proof. exact manchester_encode_short. Qed.
Print Assumptions C13_encode_out_of_range.

Example C13_case :
  level_encode [Some 0; None; Some 255; Some 256; Some (-1); Some 0x1b]
    = Ok [0xaa; 0xaa; 0; 0; 0x55; 0x55; 0xaa; 0xaa; 0x55; 0x55; 0x65; 0xa9]
  /\ level_decode [0xaa; 0xaa; 0; 0; 0x55; 0x55; 0xaa; 0xaa; 0x55; 0x55; 0x65; 0xa9]
    = Ok [Some 0; None; Some 255; Some 0; Some 255; Some 0x1b]
  /\ level_decode [0xaa] = Raise ValueError.
Proof. vm_compute. auto. Qed.

(** C14.  [cal_received] gives exactly one list for each list
    (C14_received_total). *)
Theorem C14_cal_roundtrip : forall cals cals',
  Forall valid_cal cals -> Forall2 cal_received cals cals' ->
  exists b, concat_res cal_encode cals = Ok b /\ is_bytes b /\ decode_cals b = Ok cals'.
Proof. exact cals_roundtrip. Qed.
Print Assumptions C14_cal_roundtrip.

Theorem C14_received_total : forall cals,
  exists cals', Forall2 cal_received cals cals'
    /\ forall other, Forall2 cal_received cals other -> other = cals'.
Proof. exact cals_received_total. Qed.
Print Assumptions C14_received_total.

(** CALs inside their field ranges are unchanged. *)
Theorem C14_received_same : forall c,
  match c with
  | CIdentify a => 0 <= a <= 17
  | CRecall p n => byte p /\ byte n
  | CReply p data => byte p /\ is_bytes data /\ (length data <= 30)%nat
  | CExtended _ child block (RBinary states) =>
      byte child /\ byte block /\ Forall group_state states /\ (length states mod 4 = 0)%nat
  | CExtended _ child block (RLevel levels) =>
      byte child /\ byte block /\ Forall (fun l => match l with Some v => byte v | None => True end) levels
  end -> cal_received c c.
Proof. exact cal_received_same. Qed.
Print Assumptions C14_received_same.

Definition C14_example : list cal :=
  [CIdentify 4; CRecall 0x21 2; CReply 7 [1; 2; 3];
   CExtended true 0x38 0x40 (RLevel [Some 255; None]); CExtended false 0x38 0 (RBinary [1; 2])].
Example C14_case :
  Forall valid_cal C14_example
  /\ concat_res cal_encode C14_example
     = Ok [0x21; 4; 0x1a; 0x21; 2; 0x84; 7; 1; 2; 3;
           0xe7; 0x47; 0x38; 0x40; 0x55; 0x55; 0; 0; 0xe4; 0; 0x38; 0; 9]
  /\ decode_cals [0x21; 4; 0x1a; 0x21; 2; 0x84; 7; 1; 2; 3;
           0xe7; 0x47; 0x38; 0x40; 0x55; 0x55; 0; 0; 0xe4; 0; 0x38; 0; 9]
     = Ok [CIdentify 4; CRecall 0x21 2; CReply 7 [1; 2; 3];
           CExtended true 0x38 0x40 (RLevel [Some 255; None]);
           CExtended false 0x38 0 (RBinary [1; 2; 0; 0])].
Proof.
  split; [|vm_compute; auto].
  repeat constructor; cbn; unfold byte, group_state; try lia.
Qed.

(** C47 *)
Theorem C47_reply_length : forall p data, exists following,
  cal_encode (CReply p data) = Ok ((0x80 + Z.of_nat (length following)) :: following)
  /\ length following = S (Nat.min 30 (length data)).
Proof. exact reply_length. Qed.
Print Assumptions C47_reply_length.

Theorem C47_extended_length : forall ext child block r, valid_report r ->
  ((report_size r > 252)%nat /\ cal_encode (CExtended ext child block r) = Raise ValueError)
  \/ exists first following,
       cal_encode (CExtended ext child block r) = Ok (first :: following)
       /\ length following = (report_size r + 3)%nat /\ (report_size r <= 252)%nat
       /\ first = 0xE0 + Z.of_nat (length following) mod 32.
Proof. exact extended_length. Qed.
Print Assumptions C47_extended_length.

Theorem C47_standard_length : forall child block states, Forall group_state states ->
  let size := report_size (RBinary states) in
  ((size > 252)%nat /\ std_cal_encode child block states = Raise ValueError)
  \/ exists first following,
       std_cal_encode child block states = Ok (first :: following)
       /\ length following = (size + 2)%nat /\ (size <= 252)%nat
       /\ ((size <= 28)%nat -> first = 0xC0 + (Z.of_nat (length following) + 1))
       /\ ((29 <= size <= 60)%nat -> first = 0xE0 + (Z.of_nat (length following) + 1 - 32)).
Proof. exact standard_length_exact. Qed.
Print Assumptions C47_standard_length.

(** The expectation that a standard status CAL describes its own length. *)
Theorem C47_standard_self_described_refuted :
  exists child block states first following, Forall group_state states
    /\ std_cal_encode child block states = Ok (first :: following)
    /\ (length following < 32)%nat
    /\ first <> 0xC0 + Z.of_nat (length following).
Proof.
  exists 0x38, 0, [1; 1; 2; 2], 0xc4, [0x38; 0; 0xa5].
  split; [repeat constructor; unfold group_state; lia|]. vm_compute. intuition (try discriminate; lia).
Qed.
Print Assumptions C47_standard_self_described_refuted.

(** A report of 29 bytes no longer decodes to itself. *)
Example C47_case :
  valid_report (RBinary (repeat 1 116)) /\ report_size (RBinary (repeat 1 116)) = 29%nat
  /\ match cal_encode (CExtended false 0x38 0 (RBinary (repeat 1 116))) with
     | Ok b => hd_error b = Some 0xE0 /\ decode_cals b = Raise IndexError
     | Raise _ => False
     end.
Proof.
  split; [|vm_compute; auto].
  apply Forall_forall. intros x H. apply repeat_spec in H. subst. unfold group_state. lia.
Qed.
