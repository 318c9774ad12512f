(** Specification of JSON texts (RFC 8259, with the three constants that Python
    adds) and of UTF-8, independent of the parser. *)
From Coq Require Import List ZArith QArith Bool String.
From Verif Require Import Py Base Text Spec_mqtt Json.
Import ListNotations.
Open Scope Z_scope.

Definition space (c : Z) : Prop := c = 32 \/ c = 9 \/ c = 10 \/ c = 13.
Definition spaces (s : text) : Prop := Forall space s.

(** ** Numbers *)

(** Decimal digits without a superfluous zero: [natural n t] of Spec_mqtt.v. *)
Inductive integer : text -> Z -> Prop :=
| int_plus t n : natural n t -> integer t n
| int_minus t n : natural n t -> integer (45 :: t) (- n).
Definition some_digits (t : text) : Prop := t <> [] /\ Forall digit t.
Definition fraction (t : text) : Prop := exists d, some_digits d /\ t = 46 :: d.
Definition exponent (t : text) : Prop :=
  exists e sign d, (e = 101 \/ e = 69) /\ (sign = [] \/ sign = [43] \/ sign = [45]) /\ some_digits d
    /\ t = e :: sign ++ d.
(** A number with a fraction or an exponent. *)
Definition fractional (t : text) : Prop :=
  exists i n f e, integer i n /\ t = i ++ f ++ e /\ (f = [] \/ fraction f) /\ (e = [] \/ exponent e)
    /\ ~ (f = [] /\ e = []).

(** ** Strings *)

Definition hex_value (c n : Z) : Prop :=
  (48 <= c <= 57 /\ n = c - 48) \/ (97 <= c <= 102 /\ n = c - 87) \/ (65 <= c <= 70 /\ n = c - 55).
(** [u_escape t n]: [t] is backslash, "u" and four hexadecimal digits of [n]. *)
Definition u_escape (t : text) (n : Z) : Prop :=
  exists a b c d na nb nc nd, t = [92; 117; a; b; c; d]
    /\ hex_value a na /\ hex_value b nb /\ hex_value c nc /\ hex_value d nd
    /\ n = na * 4096 + nb * 256 + nc * 16 + nd.
Definition high (n : Z) : Prop := 0xd800 <= n <= 0xdbff.
Definition low (n : Z) : Prop := 0xdc00 <= n <= 0xdfff.
Inductive short_escape : Z -> Z -> Prop :=
| e_quote : short_escape 34 34
| e_backslash : short_escape 92 92
| e_slash : short_escape 47 47
| e_b : short_escape 98 8
| e_f : short_escape 102 12
| e_n : short_escape 110 10
| e_r : short_escape 114 13
| e_t : short_escape 116 9.
(** [characters t s]: the text [t] between quotes stands for the string [s].  A
    high and a low surrogate, both escaped, stand for one character. *)
Inductive characters : text -> text -> Prop :=
| ch_end : characters [] []
| ch_plain c t s : 32 <= c -> c <> 34 -> c <> 92 -> characters t s -> characters (c :: t) (c :: s)
| ch_short e c t s : short_escape e c -> characters t s -> characters (92 :: e :: t) (c :: s)
| ch_pair h n l m t s : u_escape h n -> high n -> u_escape l m -> low m -> characters t s ->
    characters (h ++ l ++ t) (65536 + (n - 0xd800) * 1024 + (m - 0xdc00) :: s)
| ch_u h n t s : u_escape h n -> characters t s ->
    (high n -> forall l m t', t = l ++ t' -> u_escape l m -> ~ low m) ->
    characters (h ++ t) (n :: s).

(** ** Values *)

(** The dict of the entries of an object: every key once, where it first occurs,
    with the value it has last. *)
Definition last_value (k : text) (v : json) (l : list (text * json)) : json :=
  fold_left (fun w e => if list_eq_dec Z.eq_dec (fst e) k then snd e else w) l v.
Definition without (k : text) (l : list (text * json)) : list (text * json) :=
  filter (fun e => if list_eq_dec Z.eq_dec (fst e) k then false else true) l.
Fixpoint dict_of (l : list (text * json)) : list (text * json) :=
  match l with
  | [] => []
  | (k, v) :: l' => (k, last_value k v l') :: without k (dict_of l')
  end.

(** [denotes lib d t v]: the text [t] stands for the value [v], with at most [d]
    arrays and objects inside each other. *)
Inductive denotes (lib : json_library) : nat -> text -> json -> Prop :=
| j_null d : denotes lib d (txt "null") JNull
| j_true d : denotes lib d (txt "true") (JBool true)
| j_false d : denotes lib d (txt "false") (JBool false)
| j_nan d : denotes lib d (txt "NaN") (JNum PNan)
| j_inf d : denotes lib d (txt "Infinity") (JNum (PInf true))
| j_minf d : denotes lib d (txt "-Infinity") (JNum (PInf false))
| j_int d t n : integer t n -> denotes lib d t (JNum (PInt n))
| j_float d t : fractional t -> denotes lib d t (JNum (jl_float lib t))
| j_str d t s : characters t s -> denotes lib d ([34] ++ t ++ [34]) (JStr s)
| j_arr0 d w : spaces w -> denotes lib (S d) ([91] ++ w ++ [93]) (JArr [])
| j_arr d t l : array_body lib d t l -> denotes lib (S d) ([91] ++ t ++ [93]) (JArr l)
| j_obj0 d w : spaces w -> denotes lib (S d) ([123] ++ w ++ [125]) (JObj [])
| j_obj d t l : object_body lib d t l -> denotes lib (S d) ([123] ++ t ++ [125]) (JObj (dict_of l))
with array_body (lib : json_library) : nat -> text -> list json -> Prop :=
| a_one d w t v w' : spaces w -> denotes lib d t v -> spaces w' -> array_body lib d (w ++ t ++ w') [v]
| a_more d w t v w' rest l : spaces w -> denotes lib d t v -> spaces w' -> array_body lib d rest l ->
    array_body lib d (w ++ t ++ w' ++ [44] ++ rest) (v :: l)
with object_body (lib : json_library) : nat -> text -> list (text * json) -> Prop :=
| o_one d w k key w1 w2 t v w' : spaces w -> characters k key -> spaces w1 -> spaces w2 ->
    denotes lib d t v -> spaces w' ->
    object_body lib d (w ++ [34] ++ k ++ [34] ++ w1 ++ [58] ++ w2 ++ t ++ w') [(key, v)]
| o_more d w k key w1 w2 t v w' rest l : spaces w -> characters k key -> spaces w1 -> spaces w2 ->
    denotes lib d t v -> spaces w' -> object_body lib d rest l ->
    object_body lib d (w ++ [34] ++ k ++ [34] ++ w1 ++ [58] ++ w2 ++ t ++ w' ++ [44] ++ rest) ((key, v) :: l).
(** A whole document. *)
Definition document (lib : json_library) (d : nat) (s : text) (v : json) : Prop :=
  exists w t w', s = w ++ t ++ w' /\ spaces w /\ spaces w' /\ denotes lib d t v.

(** ** UTF-8: the usual table. *)
Inductive utf8_of : Z -> bytes -> Prop :=
| u1 c : 0 <= c <= 0x7f -> utf8_of c [c]
| u2 a b : 2 <= a <= 31 -> 0 <= b <= 63 -> utf8_of (a * 64 + b) [0xc0 + a; 0x80 + b]
| u3 a b c : 0 <= a <= 15 -> 0 <= b <= 63 -> 0 <= c <= 63 -> 0x800 <= a * 4096 + b * 64 + c ->
    utf8_of (a * 4096 + b * 64 + c) [0xe0 + a; 0x80 + b; 0x80 + c]
| u4 a b c d : 0 <= a <= 4 -> 0 <= b <= 63 -> 0 <= c <= 63 -> 0 <= d <= 63 ->
    0x10000 <= a * 262144 + b * 4096 + c * 64 + d <= 0x10ffff ->
    utf8_of (a * 262144 + b * 4096 + c * 64 + d) [0xf0 + a; 0x80 + b; 0x80 + c; 0x80 + d].
Inductive utf8_text : text -> bytes -> Prop :=
| ut_nil : utf8_text [] []
| ut_cons c s x b : utf8_of c x -> utf8_text s b -> utf8_text (c :: s) (x ++ b).


(** ** UTF-16 and UTF-32, high byte first or last. *)
Definition in_order (big : bool) (b : bytes) : bytes := if big then b else rev b.
Inductive utf16_of (big : bool) : Z -> bytes -> Prop :=
| wide_unit a b : 0 <= a <= 255 -> 0 <= b <= 255 -> utf16_of big (a * 256 + b) (in_order big [a; b])
| wide_pair h l x y : high h -> low l -> utf16_of big h x -> utf16_of big l y ->
    utf16_of big (0x10000 + (h - 0xd800) * 0x400 + (l - 0xdc00)) (x ++ y).
Inductive utf32_of (big : bool) : Z -> bytes -> Prop :=
| wide_four a b c : 0 <= a <= 16 -> 0 <= b <= 255 -> 0 <= c <= 255 ->
    utf32_of big (a * 65536 + b * 256 + c) (in_order big [0; a; b; c]).
Inductive spelt (of : Z -> bytes -> Prop) : text -> bytes -> Prop :=
| sp_nil : spelt of [] []
| sp_cons c s x b : of c x -> spelt of s b -> spelt of (c :: s) (x ++ b).
(** No surrogate pair in two halves. *)
Definition joined_up (s : text) : Prop := forall a h l b, s = a ++ h :: l :: b -> high h -> ~ low l.

(** [encoded e s b]: the bytes [b] are the text [s] in the encoding [e]. *)
Inductive scheme : Set := InUtf8 | InUtf16 (big : bool) | InUtf32 (big : bool).
Definition encoded (e : scheme) (s : text) (b : bytes) : Prop :=
  match e with
  | InUtf8 => utf8_text s b
  | InUtf16 big => spelt (utf16_of big) s b /\ joined_up s
  | InUtf32 big => spelt (utf32_of big) s b
  end.

(** [s'] is [s] without a byte order mark at its start. *)
Definition unmarked (s s' : text) : Prop := s = 0xfeff :: s' \/ (hd 0 s <> 0xfeff /\ s' = s).
(** [states lib d b v]: the bytes [b] are a JSON document for [v] in UTF-8,
    UTF-16 or UTF-32, in either byte order, with or without a mark. *)
Definition states (lib : json_library) (d : nat) (b : bytes) (v : json) : Prop :=
  exists e s s', encoded e s b /\ unmarked s s' /\ document lib d s' v.

(** A string without a surrogate pair in two halves, as every string from XML or
    MQTT is. *)
Definition whole (s : text) : Prop :=
  Forall (fun c => 0 <= c <= 0x10ffff) s /\ forall a h l b, s = a ++ h :: l :: b -> high h -> ~ low l.
(** Values without floats, with such strings, and with keys that differ. *)
Inductive publishable : nat -> json -> Prop :=
| p_null d : publishable d JNull
| p_bool d b : publishable d (JBool b)
| p_int d n : publishable d (JNum (PInt n))
| p_str d s : whole s -> publishable d (JStr s)
| p_arr d l : (forall v, In v l -> publishable d v) -> publishable (S d) (JArr l)
| p_obj d l : NoDup (map fst l) -> (forall k, In k (map fst l) -> whole k) -> (forall k v, In (k, v) l -> publishable d v) ->
    publishable (S d) (JObj l).
