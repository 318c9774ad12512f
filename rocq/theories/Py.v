(** Python primitives used by the modelled code.  No proofs in this file.

    Conventions.
    - A Python [int] is a [Z].  A Python [bytes]/[bytearray] is a [list Z];
      [is_bytes] says that every element is in 0..255.
    - A Python exception is a value: [res A] is either [Ok a] or [Raise e].
    - [warnings.warn] calls are observable: a computation of type [W A] is a
      pair of the warnings emitted (oldest first) and a result.
    - Recursion that is not structural takes fuel; running out of fuel is the
      separate value [OutOfFuel], which no Python program raises and which the
      proofs show never occurs. *)
From Coq Require Import List ZArith QArith Bool Lia.
Import ListNotations.
Open Scope Z_scope.

(** For example the data of buffered_protocol.py 63 and packet.py 43. *)
Definition bytes := list Z.

(** The elements of the bytes handled in packet.py 181 and everywhere else. *)
Definition byte (b : Z) : Prop := 0 <= b <= 255.
(** The argument of buffered_protocol.py 63, [data: bytes]. *)
Definition is_bytes (l : bytes) : Prop := Forall byte l.

(** Python exception classes that the modelled code can raise.
    [OutOfFuel] is an artefact of the model.
    Raised or caught throughout /repo/cbus, e.g. common.py 428-430, packet.py 181,
    clock.py 188. *)
Inductive exn : Set :=
| ValueError | IndexError | KeyError | TypeError | NotImplementedError
| AttributeError | AssertionError | OSError | OverflowError
| StructError          (* struct.error, an Exception but not a ValueError *)
| BinasciiError        (* binascii.Error, a subclass of ValueError *)
| InvalidStateError    (* asyncio.InvalidStateError *)
| ParseError           (* xml.etree.ElementTree.ParseError, a SyntaxError *)
| CBZException         (* toolkit/cbz.py 205 *)
| UnboundLocalError
| SystemExit           (* raised by argparse on a usage error *)
| OutOfFuel.

(** The outcome of every call; exceptions are raised e.g. in common.py 428-430. *)
Inductive res (A : Type) : Type :=
| Ok (a : A)
| Raise (e : exn).
Arguments Ok {A} a.
Arguments Raise {A} e.

(** Statements one after the other, e.g. lighting.py 59-60. *)
Definition rbind {A B} (m : res A) (f : A -> res B) : res B :=
  match m with Ok a => f a | Raise e => Raise e end.

(** The [warnings.warn] call sites of the modelled code.
    lighting.py 85 and the places listed. *)
Inductive warn : Set :=
| WLightStray          (* lighting.py 85-87 *)
| WLightUnknown        (* lighting.py 95-97 *)
| WLightNoLevel        (* lighting.py 159-161 *)
| WClockLong           (* clock.py 70-72 *)
| WClockBits           (* clock.py 76-79 *)
| WClockUnknown        (* clock.py 88-90 *)
| WClockDateLen        (* clock.py 146-148 *)
| WClockTimeLen        (* clock.py 161-163 *)
| WClockVar            (* clock.py 172-174 *)
| WClockReqArg         (* clock.py 228-230 *)
| WTempStray           (* temperature.py 74-76 *)
| WTempCmd             (* temperature.py 85-87 *)
| WTempLen             (* temperature.py 91-93 *)
| WEnableStray         (* enable.py 64-66 *)
| WEnableCmd           (* enable.py 74-76 *)
| WEnableLen           (* enable.py 80-82 *)
| WStatusShort         (* status_request.py 70-72 *)
| WConfirmCode         (* packet.py 169-170 *)
| WChecksum.           (* packet.py 193-195 *)

(** The outcome of a call that may warn, e.g. lighting.py 67-105. *)
Definition W (A : Type) : Type := (list warn * res A)%type.

(** A return, e.g. lighting.py 105. *)
Definition wret {A} (a : A) : W A := ([], Ok a).
(** A raise, e.g. status_request.py 65-66. *)
Definition wraise {A} (e : exn) : W A := ([], Raise e).
(** A step without warnings, e.g. clock.py 152. *)
Definition wlift {A} (r : res A) : W A := ([], r).
(** Emit warning [w], then continue as [m].  For example lighting.py 85-87. *)
Definition wwarn {A} (w : warn) (m : W A) : W A := (w :: fst m, snd m).
(** Statements one after the other, e.g. packet.py 181-201. *)
Definition wbind {A B} (m : W A) (f : A -> W B) : W B :=
  match m with
  | (w, Ok a) => (w ++ fst (f a), snd (f a))
  | (w, Raise e) => (w, Raise e)
  end.
(** A return of a value made from the last result, e.g. packet.py 227-228. *)
Definition wmap {A B} (f : A -> B) (m : W A) : W B :=
  match m with
  | (w, Ok a) => (w, Ok (f a))
  | (w, Raise e) => (w, Raise e)
  end.
(** [try: m  except Exception as e: h e].  packet.py 203-255. *)
Definition wtry {A} (m : W A) (h : exn -> A) : W A :=
  match m with
  | (w, Ok a) => (w, Ok a)
  | (w, Raise e) => (w, Ok (h e))
  end.

(** [l[i]] for a non-negative constant index (also [six.indexbytes(l, i)], and
    [six.byte2int(l)] with [i = 0]).
    For example packet.py 201, lighting.py 90-91. *)
Definition py_index {A} (l : list A) (i : nat) : res A :=
  match nth_error l i with Some a => Ok a | None => Raise IndexError end.

(** [l[-1]].  packet.py 158-160, common.py 347-417. *)
Definition py_last {A} (l : list A) : res A :=
  match rev l with a :: _ => Ok a | [] => Raise IndexError end.

(** [l[:-1]].  packet.py 173 and 198. *)
Definition py_init {A} (l : list A) : list A := removelast l.

(** [l[a:b]] for [0 <= a], [0 <= b].  pciserverprotocol.py 334, reply.py 57. *)
Definition py_slice {A} (a b : nat) (l : list A) : list A := firstn (b - a) (skipn a l).

(** [bytes([x, ...])] for integers: ValueError unless all are in 0..255.
    For example clock.py 196, lighting.py 175. *)
Definition mk_bytes (l : list Z) : res bytes :=
  if forallb (fun x => (0 <=? x) && (x <=? 255)) l then Ok l else Raise ValueError.

(** [l.startswith(p)].
    For example packet.py 89-115, cmqttd.py 54 and 131, status_request.py 60. *)
Fixpoint starts_with (p l : bytes) : bool :=
  match p, l with
  | [], _ => true
  | _ :: _, [] => false
  | a :: p', b :: l' => (a =? b) && starts_with p' l'
  end.

(** [l.find(p)] for a non-empty [p]; [None] stands for -1.
    packet.py 105, 117, 122-123 and 128. *)
Fixpoint find (p l : bytes) : option nat :=
  if starts_with p l then Some 0%nat
  else match l with
       | [] => None
       | _ :: l' => option_map S (find p l')
       end.

(** [c in l] for a byte [c] and bytes [l].
    For example packet.py 100, 158 and 176. *)
Definition mem (c : Z) (l : bytes) : bool := existsb (Z.eqb c) l.

(** [base64.b16encode].  base_packet.py 68. *)
Definition hex_digits : bytes := [48;49;50;51;52;53;54;55;56;57;65;66;67;68;69;70].
(** Part of base_packet.py 68, [b16encode]. *)
Definition hex_of_nibble (n : Z) : Z := nth (Z.to_nat n) hex_digits 0.
(** Part of base_packet.py 68, [b16encode]. *)
Definition b16_byte (b : Z) : bytes := [hex_of_nibble (b / 16); hex_of_nibble (b mod 16)].
(** base_packet.py 68, cal/standard.py 68. *)
Definition b16encode (l : bytes) : bytes := flat_map b16_byte l.

(** [base64.b16decode] with the default [casefold=False]: binascii.Error on a
    character outside 0-9A-F or an odd number of characters.  packet.py 181. *)
Definition nibble_of_hex (c : Z) : option Z :=
  if (48 <=? c) && (c <=? 57) then Some (c - 48)
  else if (65 <=? c) && (c <=? 70) then Some (c - 55)
  else None.
(** packet.py 181. *)
Fixpoint b16decode (l : bytes) : res bytes :=
  match l with
  | [] => Ok []
  | [_] => Raise BinasciiError
  | a :: b :: l' =>
      match nibble_of_hex a, nibble_of_hex b with
      | Some x, Some y => rbind (b16decode l') (fun r => Ok (16 * x + y :: r))
      | _, _ => Raise BinasciiError
      end
  end.

(** [struct.pack('B', x)] and [struct.pack('>H', x)]: struct.error when out of
    range.  clock.py 183-190. *)
Definition pack_B (x : Z) : res bytes :=
  if (0 <=? x) && (x <=? 255) then Ok [x] else Raise StructError.
(** clock.py 188-190. *)
Definition pack_H (x : Z) : res bytes :=
  if (0 <=? x) && (x <=? 65535) then Ok [x / 256; x mod 256] else Raise StructError.

(** A Python number: an int, or a float (finite, NaN or infinite).  A finite
    float is represented by the rational it denotes.
    The levels of cmqttd.py 149-167 and the temperatures of temperature.py 141-154.
    *)
Inductive pynum : Set :=
| PInt (z : Z)
| PFloat (q : Q)
| PNan
| PInf (positive : bool).

(** [n < k] and [n > k] for an integer [k].  lighting.py 171. *)
Definition num_ltb (n : pynum) (k : Z) : bool :=
  match n with
  | PInt z => z <? k
  | PFloat q => negb (Qle_bool (inject_Z k) q)
  | PNan => false
  | PInf pos => negb pos
  end.
(** lighting.py 171, cmqttd.py 264. *)
Definition num_gtb (n : pynum) (k : Z) : bool :=
  match n with
  | PInt z => k <? z
  | PFloat q => negb (Qle_bool q (inject_Z k))
  | PNan => false
  | PInf pos => pos
  end.
(** [lo <= n <= hi] for rationals [lo], [hi].  temperature.py 147. *)
Definition num_between (lo hi : Q) (n : pynum) : bool :=
  match n with
  | PInt z => Qle_bool lo (inject_Z z) && Qle_bool (inject_Z z) hi
  | PFloat q => Qle_bool lo q && Qle_bool q hi
  | PNan => false
  | PInf _ => false
  end.

(** One element of the list given to [bytes([...])] when it may be a float:
    TypeError for a float, ValueError for an int out of range.
    lighting.py 175-178. *)
Definition byte_of_num (n : pynum) : res Z :=
  match n with
  | PInt z => if (0 <=? z) && (z <=? 255) then Ok z else Raise ValueError
  | _ => Raise TypeError
  end.
(** lighting.py 175-178. *)
Fixpoint mk_bytes_num (l : list pynum) : res bytes :=
  match l with
  | [] => Ok []
  | n :: l' => rbind (byte_of_num n) (fun z => rbind (mk_bytes_num l') (fun r => Ok (z :: r)))
  end.

(** Concatenation of encodings in order; the first exception wins.
    pm_packet.py 126-127, the loop over the SALs. *)
Fixpoint concat_res {A} (enc : A -> res bytes) (l : list A) : res bytes :=
  match l with
  | [] => Ok []
  | a :: l' => rbind (enc a) (fun x => rbind (concat_res enc l') (fun y => Ok (x ++ y)))
  end.

(** [map] with exceptions, left to right.  For example cbz.py 79-109. *)
Fixpoint map_res {A B} (f : A -> res B) (l : list A) : res (list B) :=
  match l with
  | [] => Ok []
  | a :: l' => rbind (f a) (fun x => rbind (map_res f l') (fun y => Ok (x :: y)))
  end.
