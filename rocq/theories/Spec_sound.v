(** Specification of what a decoded packet may contain. *)
From Coq Require Import List ZArith QArith Bool.
From Verif Require Import Py Sal Cal Packet Spec.
Import ListNotations.
Open Scope Z_scope.

Definition sound_sal (s : sal) : Prop :=
  match s with
  | LightRamp ga seconds level =>
      byte ga /\ In seconds ramp_seconds /\ exists z, level = PInt z /\ byte z
  | LightOn ga | LightOff ga | LightTerminate ga => byte ga
  | ClockUpdate (CDate y m d) => valid_date y m d
  | ClockUpdate (CTime h mi s us) => valid_time h mi s 0 /\ us = 0
  | ClockUpdate _ => False
  | ClockRequest => True
  | TempBroadcast ga t => byte ga /\ exists quarters, byte quarters /\ t = PFloat (quarters # 4)
  | EnableSet variable value => byte variable /\ byte value
  | StatusRequest _ ga child => byte ga /\ (32 | ga) /\ byte child
  end.

Definition sound_report (r : report) : Prop :=
  match r with
  | RBinary states => Forall group_state states /\ (length states <= 112)%nat /\ (length states mod 4 = 0)%nat
  | RLevel levels => Forall (fun l => match l with Some v => byte v | None => True end) levels
                     /\ (length levels <= 14)%nat
  end.
Definition sound_cal (c : cal) : Prop :=
  match c with
  | CIdentify attribute => 0 <= attribute <= 17
  | CRecall parameter count => byte parameter /\ byte count
  | CReply parameter data => byte parameter /\ is_bytes data /\ (length data <= 30)%nat
  | CExtended _ child block r => byte child /\ byte block /\ sound_report r
  end.

Definition known_application (a : Z) : Prop :=
  a = 0x19 \/ 0x30 <= a <= 0x5f \/ a = 0xcb \/ a = 0xdf \/ a = 0xff.
(** The application a command belongs to. *)
Definition application_of (s : sal) : Z :=
  match s with
  | LightRamp _ _ _ | LightOn _ | LightOff _ | LightTerminate _ => 0x38
  | ClockUpdate _ | ClockRequest => 0xdf
  | TempBroadcast _ _ => 0x19
  | EnableSet _ _ => 0xcb
  | StatusRequest _ _ _ => 0xff
  end.

(** The header: from a PCI there may be a source address and there is never a
    confirmation code; to a PCI it is the other way round. *)
Definition sound_header (strict from_pci : bool) (h : hdr) : Prop :=
  0 <= h_priority h <= 3
  /\ (if from_pci
      then h_confirm h = None /\ match h_source h with Some a => 1 <= a <= 255 | None => True end
      else h_source h = None
           /\ match h_confirm h with Some c => strict = true -> is_code c | None => True end).

Definition sound_packet (strict from_pci : bool) (p : packet) : Prop :=
  match p with
  | PktPowerOn | PktError => from_pci = true
  | PktConfirm code _ => from_pci = true /\ exists c, code = [c] /\ is_code c
  | PktReset | PktSmartConnect => from_pci = false
  | PktInvalid _ _ => True
  | PktPM h a sals =>
      sound_header strict from_pci h /\ (exists id, a = Some id /\ known_application id
        /\ Forall (fun s => application_of s = id) sals) /\ Forall sound_sal sals
  | PktPP h u hops cals =>
      sound_header strict from_pci h /\ byte u /\ Forall sound_cal cals
      /\ match hops with Some l => is_bytes l /\ (length l <= 5)%nat | None => True end
  | PktDM h parameter value => sound_header strict from_pci h /\ byte parameter /\ byte value
  | PktStdCal _ _ _ _ => False
  | PktCal c => from_pci = false /\ sound_cal c
  end.
