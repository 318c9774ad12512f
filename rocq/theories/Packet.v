(** Model of the packet classes (base_packet.py, pm_packet.py, pp_packet.py,
    dm_packet.py, *_packet.py) and of packet.py.  No proofs in this file. *)
From Coq Require Import List ZArith Bool.
From Verif Require Import Py Common Sal Cal.
Import ListNotations.
Open Scope Z_scope.

(** base_packet.py 42-50: the header attributes that vary.  [h_confirm] is the
    single confirmation byte. *)
Record hdr : Set := mkHdr {
  h_checksum : bool;
  h_priority : Z;
  h_source : option Z;
  h_confirm : option Z }.

(** The packet objects.  [PktCal] is a bare CAL returned by [decode_packet]
    (not a BasePacket); [PktStdCal] is a StandardCAL (a SpecialServerPacket).
    The exception object of an InvalidPacket is represented by its class.
    base_packet.py 33-115 and the classes derived from it. *)
Inductive packet : Set :=
| PktPowerOn
| PktError
| PktConfirm (code : bytes) (success : bool)
| PktReset
| PktSmartConnect
| PktInvalid (payload : bytes) (e : exn)
| PktPM (h : hdr) (application : option Z) (sals : list sal)
| PktPP (h : hdr) (unit_address : Z) (hops : option (list Z)) (cals : list cal)
| PktDM (h : hdr) (parameter value : Z)
| PktStdCal (child block : Z) (states : list Z) (checksum : bool)
| PktCal (c : cal).

(** base_packet.py 52-57. *)
Definition flags (dat rc : Z) (dp : bool) (priority : Z) : Z :=
  Z.lor (Z.lor (Z.lor (Z.land dat 0x07) (Z.shiftl (Z.land rc 0x02) 3))
               (if dp then 0x20 else 0))
        (Z.shiftl (Z.land priority 0x03) 6).

(** base_packet.py 60-65; [rc] is 0 in every packet the package builds. *)
Definition header_encode (dat : Z) (dp : bool) (h : hdr) : res bytes :=
  match h_source h with
  | None => mk_bytes [flags dat 0 dp (h_priority h)]
  | Some s => mk_bytes [flags dat 0 dp (h_priority h); Z.land s 0xff]
  end.

(** base_packet.py 60-65. *)
Definition with_checksum (checksum : bool) (p : bytes) : bytes :=
  if checksum then add_cbus_checksum p else p.

(** confirm_packet.py 31-38: [b'' in CODES] is true in Python. *)
Definition new_confirmation (code : bytes) (success : bool) : res packet :=
  match code with
  | [] => Ok (PktConfirm [] success)
  | c :: _ => if mem c CONFIRMATION_CODES then Ok (PktConfirm [c] success) else Raise ValueError
  end.

(** ** PointToMultipointPacket *)

(** pm_packet.py 63-72: the object's (application, sals) after [append_sal]. *)
Definition append_sal (st : option Z * list sal) (s : sal) : res (option Z * list sal) :=
  match fst st with
  | None => Ok (Some (sal_application s), snd st ++ [s])
  | Some a => if a =? sal_application s then Ok (Some a, snd st ++ [s]) else Raise ValueError
  end.
(** pm_packet.py 74-77. *)
Definition clear_sal (st : option Z * list sal) : option Z * list sal := (None, []).
(** pm_packet.py 49-53. *)
Fixpoint append_sals (st : option Z * list sal) (l : list sal) : res (option Z * list sal) :=
  match l with
  | [] => Ok st
  | s :: l' => rbind (append_sal st s) (fun st' => append_sals st' l')
  end.
(** pm_packet.py 36-53; source and confirmation start as None (base_packet.py
    49-50). *)
Definition new_pm (checksum : bool) (priority : Z) (application : option Z) (sals : list sal)
  : res packet :=
  rbind (append_sals (application, []) sals) (fun '(a, l) =>
  Ok (PktPM (mkHdr checksum priority None None) a l)).

(** pm_packet.py 99-114. *)
Definition pm_decode (data : bytes) (checksum : bool) (priority : Z) : W packet :=
  wbind (wlift (rbind (py_index data 0) application_enum)) (fun application =>
  wbind (wlift (py_index data 1)) (fun d1 =>
  if negb (d1 =? 0) then wraise ValueError
  else
    wbind (wlift (get_application application)) (fun handler =>
    wbind (app_decode_sals handler (skipn 2 data)) (fun sals =>
    wlift (new_pm checksum priority (Some application) sals))))).

(** pm_packet.py 116-136. *)
Definition pm_encode (h : hdr) (application : option Z) (sals : list sal) : res bytes :=
  match application with
  | None => Raise ValueError
  | Some a =>
      if (a <? 0) || (0xff <? a) then Raise ValueError
      else
        rbind (concat_res sal_encode sals) (fun o =>
        rbind (header_encode DAT_PM false h) (fun p =>
        Ok (with_checksum (h_checksum h) (p ++ [a; 0] ++ o))))
  end.

(** ** PointToPointPacket *)

(** pp_packet.py 36-61.  The bridge address is checked but not stored. *)
Definition new_pp (checksum : bool) (priority unit_address bridge_address : Z)
  (hops : option (list Z)) (cals : list cal) : res packet :=
  let ok := Ok (PktPP (mkHdr checksum priority None None) unit_address hops cals) in
  match hops with
  | None => if negb (bridge_address =? 0) then Raise ValueError else ok
  | Some _ => if bridge_address <=? 0 then Raise ValueError else ok
  end.

(** pp_packet.py 134-137: [n] hops, [byte2int] raising IndexError at the end of
    the data. *)
Fixpoint take_hops (n : nat) (data : bytes) : res (list Z * bytes) :=
  match n with
  | O => Ok ([], data)
  | S n' =>
      match data with
      | [] => Raise IndexError
      | x :: data' => rbind (take_hops n' data') (fun '(l, d) => Ok (x :: l, d))
      end
  end.

(** pp_packet.py 116-152. *)
Definition pp_decode (data : bytes) (checksum : bool) (priority : Z) : res packet :=
  rbind (py_index data 1) (fun d1 =>
  rbind (py_index data 0) (fun d0 =>
  if d1 =? 0 then
    rbind (decode_cals (skipn 2 data)) (fun cals =>
    new_pp checksum priority d0 0 None cals)
  else
    rbind (bridge_length d1) (fun n =>
    rbind (take_hops n (skipn 2 data)) (fun '(hops, data) =>
    rbind (py_index data 0) (fun unit_address =>
    rbind (decode_cals (skipn 1 data)) (fun cals =>
    new_pp checksum priority unit_address d0 (Some hops) cals)))))).

(** pp_packet.py 154-174. *)
Definition pp_encode (h : hdr) (unit_address : Z) (hops : option (list Z)) (cals : list cal)
  : res bytes :=
  match hops with
  | Some _ => Raise NotImplementedError
  | None =>
      rbind (mk_bytes [unit_address; 0]) (fun o =>
      rbind (concat_res cal_encode cals) (fun c =>
      rbind (header_encode DAT_PP false h) (fun p =>
      Ok (with_checksum (h_checksum h) (p ++ o ++ c)))))
  end.

(** ** DeviceManagementPacket *)

(** dm_packet.py 43-64. *)
Definition dm_decode (data : bytes) (checksum : bool) (priority : Z) : res packet :=
  rbind (py_index data 0) (fun parameter =>
  rbind (py_index data 1) (fun d1 =>
  if negb (d1 =? 0) then Raise ValueError
  else rbind (py_index data 2) (fun value =>
       if negb (Nat.eqb (length data) 3) then Raise ValueError
       else Ok (PktDM (mkHdr checksum priority None None) parameter value)))).

(** dm_packet.py 66-77. *)
Definition dm_encode (h : hdr) (parameter value : Z) : res bytes :=
  rbind (header_encode DAT_PPM true h) (fun p =>
  Ok (with_checksum (h_checksum h) (p ++ [Z.land parameter 0xff; 0; Z.land value 0xff]))).

(** ** encode_packet *)

(** base_packet.py 67-68, 80-81, 113-114; reset_packet.py 27-28; po_packet.py
    29-32; error_packet.py 29-30; confirm_packet.py 40-41; scs_packet.py 29-30;
    standard.py 54-68.  A bare CAL has no [encode_packet] (AttributeError). *)
Definition encode_packet (p : packet) : res bytes :=
  match p with
  | PktPowerOn => Ok [43; 43]
  | PktError => Ok [33]
  | PktConfirm code success => Ok (code ++ [if success then 46 else 35])
  | PktReset => Ok [126]
  | PktSmartConnect => Ok [124]
  | PktInvalid payload _ => Ok payload
  | PktPM h a sals => rbind (pm_encode h a sals) (fun b => Ok (b16encode b))
  | PktPP h u hops cals => rbind (pp_encode h u hops cals) (fun b => Ok (b16encode b))
  | PktDM h p v => rbind (dm_encode h p v) (fun b => Ok (b16encode b))
  | PktStdCal c b s ck => std_cal_encode_packet c b s ck
  | PktCal _ => Raise AttributeError
  end.

(** The [encode] methods of the packets that are sent in base16 (pm_packet.py
    116-136, pp_packet.py 154-174, dm_packet.py 66-77); for a StandardCAL the
    bytes that encode_packet converts to base16 (standard.py 54-68). *)
Definition raw_encode (p : packet) : option (res bytes) :=
  match p with
  | PktPM h a sals => Some (pm_encode h a sals)
  | PktPP h u hops cals => Some (pp_encode h u hops cals)
  | PktDM h p v => Some (dm_encode h p v)
  | PktStdCal c b s ck => Some (rbind (std_cal_encode c b s) (fun r => Ok (with_checksum ck r)))
  | _ => None
  end.

(** ** decode_packet *)

(** packet.py 248-253: setting the attributes of a decoded packet.  A source
    address of 0 is falsy, so it leaves both attributes as they are (None). *)
Definition set_hdr (h : hdr) (from_pci : bool) (confirmation source : option Z) : hdr :=
  if negb from_pci then mkHdr (h_checksum h) (h_priority h) None confirmation
  else match source with
       | Some s => if s =? 0 then h else mkHdr (h_checksum h) (h_priority h) (Some s) None
       | None => h
       end.
(** packet.py 248-253. *)
Definition set_attrs (p : packet) (from_pci : bool) (confirmation source : option Z) : packet :=
  match p with
  | PktPM h a l => PktPM (set_hdr h from_pci confirmation source) a l
  | PktPP h u hp c => PktPP (set_hdr h from_pci confirmation source) u hp c
  | PktDM h a b => PktDM (set_hdr h from_pci confirmation source) a b
  | p => p
  end.

(** packet.py 221-253, after the flags and the source address were removed. *)
Definition decode_payload (checksum from_pci dm_cal : bool) (confirmation source : option Z)
  (consumed : nat) (address_type priority : Z) (dp : bool) (data : bytes) : W (packet * nat) :=
  let finish (p : packet) := (set_attrs p from_pci confirmation source, consumed) in
  if dp then wmap finish (wlift (dm_decode data checksum priority))
  else if dm_cal then
    wlift (rbind (decode_cal data) (fun '(c, cal_len) => Ok (PktCal c, (consumed + cal_len)%nat)))
  else if address_type =? DAT_PP then wmap finish (wlift (pp_decode data checksum priority))
  else if address_type =? DAT_PM then wmap finish (pm_decode data checksum priority)
  else wraise NotImplementedError.

(** packet.py 203-257: the try block.  The InvalidPacket carries the value of
    [data] at the point of the exception. *)
Definition decode_frame (checksum from_pci dm_cal : bool) (confirmation : option Z)
  (consumed : nat) (flags : Z) (data : bytes) : W (packet * nat) :=
  let invalid d e := (PktInvalid d e, consumed) in
  match destination_address_type (Z.land flags 0x07) with
  | Raise e => wret (invalid data e)
  | Ok address_type =>
      let dp := Z.land flags 0x20 =? 0x20 in
      let priority := Z.land (Z.shiftr flags 6) 0x03 in
      let data := skipn 1 data in
      if from_pci then
        match data with
        | [] => wret (invalid data IndexError)
        | source :: data' =>
            wtry (decode_payload checksum from_pci dm_cal confirmation (Some source)
                    consumed address_type priority dp data') (invalid data')
        end
      else
        wtry (decode_payload checksum from_pci dm_cal confirmation None
                consumed address_type priority dp data) (invalid data)
  end.

(** packet.py 175-201: hex check, base16, checksum, flags byte. *)
Definition decode_hex (checksum strict from_pci dm_cal : bool) (confirmation : option Z)
  (consumed : nat) (data : bytes) : W (option packet * nat) :=
  if negb (forallb (fun c => mem c HEX_CHARS) data) then
    wret (Some (PktInvalid data ValueError), consumed)
  else
    wbind (wlift (b16decode data)) (fun data =>
    let go (data : bytes) : W (option packet * nat) :=
      wbind (wlift (py_index data 0)) (fun fl =>
      wmap (fun '(p, n) => (Some p, n))
           (decode_frame checksum from_pci dm_cal confirmation consumed fl data)) in
    if checksum then
      wbind (wlift (validate_cbus_checksum data)) (fun ok =>
      if ok then go (py_init data)
      else if strict then wret (Some (PktInvalid data ValueError), consumed)
      else wwarn WChecksum (go (py_init data)))
    else go data).

(** packet.py 134-145 and 147-173: one line without its terminator. *)
Definition decode_line (checksum strict from_pci : bool) (consumed : nat) (data : bytes)
  : W (option packet * nat) :=
  match data with
  | [] => wret (None, consumed)
  | c0 :: tl =>
      if from_pci then decode_hex checksum strict true false None consumed data
      else
        let '(checksum, dm_cal, data) :=
          if c0 =? 64 then (false, true, tl)
          else if c0 =? 92 then (checksum, false, tl)
          else (checksum, true, data) in
        wbind (wlift (py_last data)) (fun l =>
        if mem l HEX_CHARS then decode_hex checksum strict false dm_cal None consumed data
        else if mem l CONFIRMATION_CODES then
          decode_hex checksum strict false dm_cal (Some l) consumed (py_init data)
        else if strict then wret (Some (PktInvalid data ValueError), consumed)
        else wwarn WConfirmCode
               (decode_hex checksum strict false dm_cal (Some l) consumed (py_init data)))
  end.

(** packet.py 43-257.  The result is the packet (or None) and the position. *)
Definition decode_packet (data : bytes) (checksum strict from_pci : bool)
  : W (option packet * nat) :=
  match data with
  | [] => wret (None, 0%nat)
  | c0 :: tl =>
      if from_pci then
        if c0 =? 43 then wret (Some PktPowerOn, 1%nat)
        else if c0 =? 33 then wret (Some PktError, 1%nat)
        else match tl with
             | [] => wret (None, 0%nat)
             | c1 :: _ =>
                 if mem c0 CONFIRMATION_CODES then
                   wret (Some (PktConfirm [c0] (c1 =? 46)), 2%nat)
                 else
                   match find END_RESPONSE data with
                   | None => wret (None, 0%nat)
                   | Some e => decode_line checksum strict true (e + 2) (firstn e data)
                   end
             end
      else
        if c0 =? 126 then wret (Some PktReset, 1%nat)
        else if starts_with [110; 117; 108; 108] data then wret (None, 4%nat)
        else if starts_with (124 :: END_COMMAND) data || starts_with (124 :: 124 :: END_COMMAND) data
        then wret (Some PktSmartConnect,
                   (match find END_COMMAND data with Some n => n + 1 | None => 0 end)%nat)
        else
          match find END_COMMAND data with
          | None => wret (None, 0%nat)
          | Some e =>
              match find [63] data with
              | Some q => if Nat.ltb q e then wret (None, (q + 1)%nat)
                          else decode_line checksum strict false (e + 1) (firstn e data)
              | None => decode_line checksum strict false (e + 1) (firstn e data)
              end
          end
  end.
