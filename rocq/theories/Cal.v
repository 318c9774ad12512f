(** Model of cbus/protocol/cal/*.py and of the CAL part of pp_packet.py.  No
    proofs in this file. *)
From Coq Require Import List ZArith Bool.
From Verif Require Import Py Common.
Import ListNotations.
Open Scope Z_scope.

(** ** report.py *)

(** report.py 35. *)
Definition MANCHESTER_NIBBLES : list Z := [0xa; 0x9; 0x6; 0x5].

(** [tuple.index(x)]: ValueError when absent.  report.py 40-43. *)
Fixpoint index_of (x : Z) (l : list Z) : res Z :=
  match l with
  | [] => Raise ValueError
  | a :: l' => if a =? x then Ok 0 else rbind (index_of x l') (fun n => Ok (n + 1))
  end.

(** report.py 38-47.  ValueError gives None; IndexError (fewer than two bytes)
    escapes. *)
Definition manchester_decode (b : bytes) : res (option Z) :=
  let r :=
    rbind (py_index b 0) (fun b0 =>
    rbind (index_of (Z.land b0 0xf) MANCHESTER_NIBBLES) (fun n0 =>
    rbind (index_of (Z.shiftr b0 4) MANCHESTER_NIBBLES) (fun n1 =>
    rbind (py_index b 1) (fun b1 =>
    rbind (index_of (Z.land b1 0xf) MANCHESTER_NIBBLES) (fun n2 =>
    rbind (index_of (Z.shiftr b1 4) MANCHESTER_NIBBLES) (fun n3 =>
    Ok (Z.lor (Z.lor (Z.lor n0 (Z.shiftl n1 2)) (Z.shiftl n2 4)) (Z.shiftl n3 6)))))))) in
  match r with
  | Ok v => Ok (Some v)
  | Raise ValueError => Ok None
  | Raise e => Raise e
  end.

Definition manchester_nibble (v : Z) : Z := nth (Z.to_nat v) MANCHESTER_NIBBLES 0.  (* report.py 38-47 *)

(** [buf[i] = v] on a bytearray, in range.  report.py 61-64. *)
Fixpoint set_nth (i : nat) (v : Z) (buf : bytes) : bytes :=
  match buf, i with
  | [], _ => []
  | _ :: t, O => v :: t
  | h :: t, S i' => h :: set_nth i' v t
  end.

(** report.py 60-64: the two bytes written for a level. *)
Definition manchester_lo (value : Z) : Z :=
  Z.lor (manchester_nibble (Z.land value 0x3))
        (Z.shiftl (manchester_nibble (Z.land (Z.shiftr value 2) 0x3)) 4).
(** report.py 60-64. *)
Definition manchester_hi (value : Z) : Z :=
  Z.lor (manchester_nibble (Z.land (Z.shiftr value 4) 0x3))
        (Z.shiftl (manchester_nibble (Z.land (Z.shiftr value 6) 0x3)) 4).

(** report.py 50-65.  Simplification: [off] is not negative. *)
Definition manchester_encode (value : option Z) (buf : option bytes) (off : nat) : res bytes :=
  let buf := match buf with Some b => b | None => [0; 0] end in
  if Nat.ltb (length buf) (off + 2) then Raise IndexError
  else match value with
       | None => Ok buf
       | Some value =>
           let value := Z.land value 0xff in
           Ok (set_nth (off + 1) (manchester_hi value) (set_nth off (manchester_lo value) buf))
       end.

(** report.py 84-86 and 131-178.  Group states are the integers 0..3. *)
Inductive report : Set :=
| RBinary (states : list Z)
| RLevel (levels : list (option Z)).

(** report.py 97-107.  [GroupState(x)] of two bits never fails. *)
Definition binary_decode (data : bytes) : list Z :=
  flat_map (fun c => [Z.land c 0x3; Z.land (Z.shiftr c 2) 0x3;
                      Z.land (Z.shiftr c 4) 0x3; Z.land (Z.shiftr c 6) 0x3]) data.

(** report.py 120-126: four states at a time (the length is a multiple of 4). *)
Fixpoint pack_states (l : list Z) : list Z :=
  match l with
  | a :: b :: c :: d :: l' =>
      Z.lor (Z.lor (Z.lor a (Z.shiftl b 2)) (Z.shiftl c 4)) (Z.shiftl d 6) :: pack_states l'
  | _ => []
  end.
(** report.py 113-128. *)
Definition binary_encode (states : list Z) : res bytes :=
  let r := (length states mod 4)%nat in
  let states := if Nat.eqb r 0 then states else states ++ repeat GS_MISSING (4 - r) in
  mk_bytes (pack_states states).

(** report.py 196-197: two bytes at a time. *)
Fixpoint level_decode_pairs (data : bytes) : res (list (option Z)) :=
  match data with
  | a :: b :: data' =>
      rbind (manchester_decode [a; b]) (fun v =>
      rbind (level_decode_pairs data') (fun r => Ok (v :: r)))
  | _ => Ok []
  end.
(** report.py 189-199. *)
Definition level_decode (data : bytes) : res (list (option Z)) :=
  if negb (Nat.eqb (length data mod 2) 0) then Raise ValueError else level_decode_pairs data.

(** report.py 209-210: the loop over the levels, writing into the buffer. *)
Fixpoint level_encode_loop (i : nat) (levels : list (option Z)) (o : bytes) : res bytes :=
  match levels with
  | [] => Ok o
  | state :: levels' =>
      rbind (manchester_encode state (Some o) (i * 2)) (fun o' =>
      level_encode_loop (S i) levels' o')
  end.
(** report.py 205-212. *)
Definition level_encode (levels : list (option Z)) : res bytes :=
  level_encode_loop 0 levels (repeat 0 (length levels * 2)).

(** report.py 205-212. *)
Definition report_encode (r : report) : res bytes :=
  match r with RBinary s => binary_encode s | RLevel l => level_encode l end.
(** report.py 109-111, 201-203. *)
Definition report_block_type (r : report) : Z :=
  match r with RBinary _ => EXT_BINARY | RLevel _ => EXT_LEVEL end.

(** ** CALs: identify.py, recall.py, reply.py, extended.py.
    identify.py 31-50, recall.py 31-51, reply.py 30-58, extended.py 33-75. *)

Inductive cal : Set :=
| CIdentify (attribute : Z)
| CRecall (param count : Z)
| CReply (parameter : Z) (data : bytes)
| CExtended (externally_initiated : bool) (child_application block_start : Z) (r : report).

(** extended.py 43-46. *)
Definition coding_byte (ext : bool) (r : report) : Z :=
  Z.lor (if ext then 0x40 else 0) (Z.land (report_block_type r) 0x7).

(** identify.py 49-50, recall.py 50-51, reply.py 55-58, extended.py 48-55. *)
Definition cal_encode (c : cal) : res bytes :=
  match c with
  | CIdentify attribute => mk_bytes [CAL_IDENTIFY; Z.land attribute 0xff]
  | CRecall param count => mk_bytes [CAL_RECALL; Z.land param 0xff; Z.land count 0xff]
  | CReply parameter data =>
      let data := firstn 30 data in
      rbind (mk_bytes [Z.lor CAL_REPLY (Z.of_nat (length data) + 1); Z.land parameter 0xff])
        (fun h => Ok (h ++ data))
  | CExtended ext child block r =>
      rbind (report_encode r) (fun report =>
      rbind (mk_bytes [Z.lor CAL_EXTENDED_STATUS (Z.of_nat (length report) + 3);
                       coding_byte ext r; Z.land child 0xff; Z.land block 0xff])
        (fun h => Ok (h ++ report)))
  end.

(** extended.py 57-75, on the data after the command byte. *)
Definition extended_decode (data : bytes) : res cal :=
  rbind (py_index data 0) (fun coding =>
  let ext := 0 <? Z.land coding 0x40 in
  let block_type := Z.land coding 0x7 in
  rbind (py_index data 1) (fun child =>
  rbind (py_index data 2) (fun block =>
  let payload := skipn 3 data in
  if block_type =? EXT_BINARY then Ok (CExtended ext child block (RBinary (binary_decode payload)))
  else if block_type =? EXT_LEVEL then
    rbind (level_decode payload) (fun l => Ok (CExtended ext child block (RLevel l)))
  else Raise NotImplementedError))).

(** reply.py 47-53. *)
Definition reply_decode (data : bytes) : res cal :=
  rbind (py_index data 0) (fun parameter => Ok (CReply parameter (skipn 1 data))).

(** pp_packet.py 83-114 with identify.py 41-47, recall.py 42-48 and the
    REQUESTS table of cal/__init__.py 28-31. *)
Definition decode_cal (data : bytes) : res (cal * nat) :=
  rbind (py_index data 0) (fun cmd =>
  if Z.land cmd 0xE0 =? CAL_REPLY then
    let cal_end := (Z.to_nat (Z.land cmd 0x1F) + 1)%nat in
    if Nat.ltb (length data) cal_end then Raise ValueError
    else rbind (reply_decode (py_slice 1 cal_end data)) (fun c => Ok (c, cal_end))
  else if Z.land cmd 0xE0 =? CAL_STANDARD_STATUS then Raise NotImplementedError
  else if Z.land cmd 0xE0 =? CAL_EXTENDED_STATUS then
    let cal_end := (Z.to_nat (Z.land cmd 0x1F) + 1)%nat in
    if Nat.ltb (length data) cal_end then Raise ValueError
    else rbind (extended_decode (py_slice 1 cal_end data)) (fun c => Ok (c, cal_end))
  else if cmd =? CAL_IDENTIFY then
    rbind (py_index data 1) (fun a =>
    rbind (identify_attribute a) (fun a => Ok (CIdentify a, 2%nat)))
  else if cmd =? CAL_RECALL then
    rbind (py_index data 1) (fun p =>
    rbind (py_index data 2) (fun c => Ok (CRecall p c, 3%nat)))
  else Raise KeyError).

(** pp_packet.py 143-148.  Fuel: the number of bytes left; every CAL takes at
    least one byte. *)
Fixpoint decode_cals_fuel (fuel : nat) (data : bytes) : res (list cal) :=
  match data with
  | [] => Ok []
  | _ :: _ =>
      match fuel with
      | O => Raise OutOfFuel
      | S fuel =>
          rbind (decode_cal data) (fun '(c, cal_len) =>
          rbind (decode_cals_fuel fuel (skipn cal_len data)) (fun l => Ok (c :: l)))
      end
  end.
(** pp_packet.py 143-148. *)
Definition decode_cals (data : bytes) : res (list cal) := decode_cals_fuel (length data) data.

(** ** standard.py *)

(** standard.py 46-52. *)
Definition std_cal_encode (child block : Z) (states : list Z) : res bytes :=
  rbind (binary_encode states) (fun report =>
  rbind (mk_bytes [Z.lor CAL_STANDARD_STATUS (Z.of_nat (length report) + 3);
                   Z.land child 0xff; Z.land block 0xff]) (fun h => Ok (h ++ report))).
(** standard.py 54-68. *)
Definition std_cal_encode_packet (child block : Z) (states : list Z) (checksum : bool) : res bytes :=
  rbind (std_cal_encode child block states) (fun p =>
  Ok (b16encode (if checksum then add_cbus_checksum p else p))).
(** standard.py 70-80: child application, block start and states. *)
Definition std_cal_decode (data : bytes) : res (Z * Z * list Z) :=
  rbind (py_index data 0) (fun child =>
  rbind (py_index data 1) (fun block =>
  Ok (child, block, binary_decode (skipn 2 data)))).
