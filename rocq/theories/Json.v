(** Model of the part of Python's json module (3.11, with its C accelerator) that
    cbus/daemon/cmqttd.py uses: [json.dumps(payload)] with the default arguments
    (cmqttd.py 175) and [json.loads(msg.payload)] on the bytes of an MQTT message
    (cmqttd.py 144).  The limit on the number of digits of an integer that later
    security releases of Python added is not modelled.  No proofs in this file. *)
From Coq Require Import List ZArith QArith Bool String.
From Verif Require Import Py Text Mqtt Cmqttd Client.
Import ListNotations.
Open Scope Z_scope.

(** What is left open: [float(s)] for a JSON number with a fraction or an
    exponent, and [repr(x)] of a finite float.
    For cmqttd.py 144 and 175. *)
Record json_library := mkJsonLibrary {
  jl_float : text -> pynum;
  jl_repr : Q -> text }.

(** ** json.dumps *)

(** Lower-case hexadecimal, four digits ([ascii_escape_unichar] of _json.c).
    Part of cmqttd.py 175. *)
Definition hex_digit (n : Z) : Z := if n <? 10 then 48 + n else 87 + n.
(** Part of cmqttd.py 175. *)
Definition hex4 (n : Z) : text :=
  [hex_digit (n / 4096 mod 16); hex_digit (n / 256 mod 16); hex_digit (n / 16 mod 16); hex_digit (n mod 16)].
(** [ascii_escape_unichar] and [ascii_escape_unicode] of _json.c.
    Part of cmqttd.py 175. *)
Definition escape_char (c : Z) : text :=
  if c =? 34 then [92; 34]
  else if c =? 92 then [92; 92]
  else if c =? 8 then [92; 98]
  else if c =? 12 then [92; 102]
  else if c =? 10 then [92; 110]
  else if c =? 13 then [92; 114]
  else if c =? 9 then [92; 116]
  else if (32 <=? c) && (c <=? 126) then [c]
  else if c <? 65536 then [92; 117] ++ hex4 c
  else [92; 117] ++ hex4 (0xd800 + (c - 65536) / 1024) ++ [92; 117] ++ hex4 (0xdc00 + (c - 65536) mod 1024).
(** Part of cmqttd.py 175. *)
Definition quote (s : text) : text := [34] ++ flat_map escape_char s ++ [34].

(** Part of cmqttd.py 175. *)
Definition dumps_num (lib : json_library) (n : pynum) : text :=
  match n with
  | PInt z => py_str z
  | PFloat q => jl_repr lib q
  | PNan => txt "NaN"
  | PInf true => txt "Infinity"
  | PInf false => txt "-Infinity"
  end.
(** Items with [", "] between them.  Part of cmqttd.py 175. *)
Fixpoint joined (l : list text) : text :=
  match l with
  | [] => []
  | [t] => t
  | t :: l' => t ++ [44; 32] ++ joined l'
  end.
(** [json.dumps(j)].  The recursion limit is left out here: what the daemon
    publishes is nested at most four deep.  cmqttd.py 175. *)
Fixpoint dumps (lib : json_library) (j : json) : text :=
  match j with
  | JNull => txt "null"
  | JBool true => txt "true"
  | JBool false => txt "false"
  | JNum n => dumps_num lib n
  | JStr s => quote s
  | JArr l => [91] ++ joined (map (dumps lib) l) ++ [93]
  | JObj l => [123] ++ joined (map (fun p => match p with (k, v) => quote k ++ [58; 32] ++ dumps lib v end) l) ++ [125]
  end.

(** The bytes that leave for the broker: [payload.encode('utf-8')] in paho's
    [publish].  For a raw payload ("ON" and "OFF") the text.
    cmqttd.py 175-176 and 232-233. *)
Definition payload_text (lib : json_library) (p : payload) : text :=
  match p with PJson j => dumps lib j | PRaw s => s end.

(** ** UTF-8.  Part of cmqttd.py 144. *)

Definition continuation (b : Z) : bool := (128 <=? b) && (b <=? 191).
(** [bytes.decode('utf-8', 'surrogatepass')].  Part of cmqttd.py 144. *)
Fixpoint utf8_decode (b : bytes) : option text :=
  match b with
  | [] => Some []
  | x :: b1 =>
      if x <? 128 then option_map (cons x) (utf8_decode b1)
      else
      match b1 with
      | [] => None
      | y :: b2 =>
          if (194 <=? x) && (x <=? 223) && continuation y
          then option_map (cons ((x - 192) * 64 + (y - 128))) (utf8_decode b2)
          else
          match b2 with
          | [] => None
          | z :: b3 =>
              if (224 <=? x) && (x <=? 239) && continuation y && continuation z && ((160 <=? y) || negb (x =? 224))
              then option_map (cons ((x - 224) * 4096 + (y - 128) * 64 + (z - 128))) (utf8_decode b3)
              else
              match b3 with
              | [] => None
              | w :: b4 =>
                  if (240 <=? x) && (x <=? 244) && continuation y && continuation z && continuation w
                     && ((144 <=? y) || negb (x =? 240)) && ((y <=? 143) || negb (x =? 244))
                  then option_map (cons ((x - 240) * 262144 + (y - 128) * 4096 + (z - 128) * 64 + (w - 128)))
                                  (utf8_decode b4)
                  else None
              end
          end
      end
  end.
(** [str.encode('utf-8')] of one code point, surrogates included.
    Part of cmqttd.py 176. *)
Definition utf8_char (c : Z) : bytes :=
  if c <? 128 then [c]
  else if c <? 2048 then [192 + c / 64; 128 + c mod 64]
  else if c <? 65536 then [224 + c / 4096; 128 + c / 64 mod 64; 128 + c mod 64]
  else [240 + c / 262144; 128 + c / 4096 mod 64; 128 + c / 64 mod 64; 128 + c mod 64].
(** Part of cmqttd.py 175. *)
Definition utf8 (s : text) : bytes := flat_map utf8_char s.

(** ** UTF-16 and UTF-32.  Part of cmqttd.py 144. *)

(** The 16-bit units of some bytes; [big]: the high byte comes first.
    Part of cmqttd.py 144. *)
Fixpoint utf16_units (big : bool) (b : bytes) : option (list Z) :=
  match b with
  | [] => Some []
  | [_] => None
  | x :: y :: r => option_map (cons (if big then x * 256 + y else y * 256 + x)) (utf16_units big r)
  end.
(** The characters of some units; a surrogate without its other half is passed
    on.  Part of cmqttd.py 144. *)
Fixpoint utf16_join (l : list Z) : text :=
  match l with
  | [] => []
  | h :: l1 =>
      match l1 with
      | [] => [h]
      | w :: l2 =>
          if (0xd800 <=? h) && (h <=? 0xdbff) && (0xdc00 <=? w) && (w <=? 0xdfff)
          then 65536 + (h - 0xd800) * 1024 + (w - 0xdc00) :: utf16_join l2
          else h :: utf16_join l1
      end
  end.
(** [bytes.decode('utf-16-be', 'surrogatepass')], or -le.  Part of cmqttd.py 144. *)
Definition utf16_decode (big : bool) (b : bytes) : option text := option_map utf16_join (utf16_units big b).
(** [bytes.decode('utf-32-be', 'surrogatepass')], or -le.  Part of cmqttd.py 144. *)
Fixpoint utf32_decode (big : bool) (b : bytes) : option text :=
  match b with
  | [] => Some []
  | x :: y :: z :: w :: r =>
      let n := if big then x * 16777216 + y * 65536 + z * 256 + w else w * 16777216 + z * 65536 + y * 256 + x in
      if n <=? 0x10ffff then option_map (cons n) (utf32_decode big r) else None
  | _ => None
  end.

(** The results of [json.detect_encoding]: 'utf-8', 'utf-8-sig', 'utf-16',
    'utf-32' and the four with a byte order in the name.  Part of cmqttd.py 144. *)
Inductive encoding : Set := Utf8 | Utf8Sig | Utf16 | Utf32 | Utf16Order (big : bool) | Utf32Order (big : bool).
(** [json.detect_encoding].  Part of cmqttd.py 144. *)
Definition detect_encoding (b : bytes) : encoding :=
  if starts_with [0; 0; 254; 255] b || starts_with [255; 254; 0; 0] b then Utf32
  else if starts_with [254; 255] b || starts_with [255; 254] b then Utf16
  else if starts_with [239; 187; 191] b then Utf8Sig
  else
    match b with
    | [x; y] => if x =? 0 then Utf16Order true else if y =? 0 then Utf16Order false else Utf8
    | x :: y :: z :: w :: _ =>
        if x =? 0 then (if y =? 0 then Utf32Order true else Utf16Order true)
        else if y =? 0 then (if (z =? 0) && (w =? 0) then Utf32Order false else Utf16Order false)
        else Utf8
    | _ => Utf8
    end.
(** json.loads on bytes: [s.decode(detect_encoding(s), 'surrogatepass')].  The
    encodings without a byte order take it from the mark at the start.
    Part of cmqttd.py 144. *)
Definition decoded (b : bytes) : option text :=
  match detect_encoding b with
  | Utf8 => utf8_decode b
  | Utf8Sig => utf8_decode (skipn 3 b)
  | Utf16 => utf16_decode (starts_with [254; 255] b) (skipn 2 b)
  | Utf32 => utf32_decode (starts_with [0; 0; 254; 255] b) (skipn 4 b)
  | Utf16Order big => utf16_decode big b
  | Utf32Order big => utf32_decode big b
  end.

(** ** json.loads *)

(** Why it raises: the text is wrong (JSONDecodeError), it is nested too deep
    (RecursionError), or the model is out of fuel, which does not happen.
    cmqttd.py 144-146. *)
Inductive jres (A : Type) : Type :=
| Got (a : A)
| Wrong
| TooDeep
| NoFuel.
Arguments Got {A} a.
Arguments Wrong {A}.
Arguments TooDeep {A}.
Arguments NoFuel {A}.
(** Part of cmqttd.py 144. *)
Definition jbind {A B} (m : jres A) (f : A -> jres B) : jres B :=
  match m with Got a => f a | Wrong => Wrong | TooDeep => TooDeep | NoFuel => NoFuel end.

(** Part of cmqttd.py 144. *)
Definition json_space (c : Z) : bool := (c =? 32) || (c =? 9) || (c =? 10) || (c =? 13).
(** Part of cmqttd.py 144. *)
Definition skip_space (s : text) : text := drop_while json_space s.

(** Part of cmqttd.py 144. *)
Definition unhex (c : Z) : option Z :=
  if is_digit c then Some (c - 48)
  else if (97 <=? c) && (c <=? 102) then Some (c - 87)
  else if (65 <=? c) && (c <=? 70) then Some (c - 55)
  else None.
(** Part of cmqttd.py 144. *)
Definition unhex4 (a b c d : Z) : option Z :=
  match unhex a, unhex b, unhex c, unhex d with
  | Some a, Some b, Some c, Some d => Some (((a * 16 + b) * 16 + c) * 16 + d)
  | _, _, _, _ => None
  end.
(** Part of cmqttd.py 144. *)
Definition high_surrogate (c : Z) : bool := (0xd800 <=? c) && (c <=? 0xdbff).
(** Part of cmqttd.py 144. *)
Definition low_surrogate (c : Z) : bool := (0xdc00 <=? c) && (c <=? 0xdfff).
(** The character of a simple escape.  Part of cmqttd.py 144. *)
Definition simple_escape (c : Z) : option Z :=
  if (c =? 34) || (c =? 92) || (c =? 47) then Some c
  else if c =? 98 then Some 8
  else if c =? 102 then Some 12
  else if c =? 110 then Some 10
  else if c =? 114 then Some 13
  else if c =? 116 then Some 9
  else None.

(** Part of cmqttd.py 144. *)
Definition cons_fst (c : Z) (r : option (text * text)) : option (text * text) :=
  match r with Some (v, rest) => Some (c :: v, rest) | None => None end.
(** [scanstring_unicode] of _json.c with strict=True, after the opening quote:
    the string and what comes after the closing quote.  Part of cmqttd.py 144. *)
Fixpoint scanstring (s : text) : option (text * text) :=
  match s with
  | [] => None
  | c :: s1 =>
      if c =? 34 then Some ([], s1)
      else if negb (c =? 92) then
        if c <=? 31 then None else cons_fst c (scanstring s1)
      else
      match s1 with
      | [] => None
      | e :: s2 =>
          if negb (e =? 117) then
            match simple_escape e with Some c => cons_fst c (scanstring s2) | None => None end
          else
          match s2 with
          | h1 :: h2 :: h3 :: h4 :: s3 =>
              match unhex4 h1 h2 h3 h4 with
              | None => None
              | Some n =>
                  if high_surrogate n then
                    match s3 with
                    | x :: y :: k1 :: k2 :: k3 :: k4 :: s4 =>
                        if (x =? 92) && (y =? 117) then
                          match unhex4 k1 k2 k3 k4 with
                          | None => None
                          | Some m =>
                              if low_surrogate m
                              then cons_fst (65536 + (n - 0xd800) * 1024 + (m - 0xdc00)) (scanstring s4)
                              else cons_fst n (scanstring s3)
                          end
                        else cons_fst n (scanstring s3)
                    | _ => cons_fst n (scanstring s3)
                    end
                  else cons_fst n (scanstring s3)
              end
          | _ => None
          end
      end
  end.

(** The digits at the start of a text, and the rest.  Part of cmqttd.py 144. *)
Fixpoint span_digits (s : text) : text * text :=
  match s with
  | c :: s' => if is_digit c then let (a, b) := span_digits s' in (c :: a, b) else ([], s)
  | [] => ([], [])
  end.
(** Part of cmqttd.py 144. *)
Definition digits_value (t : text) : Z := fold_left (fun a c => a * 10 + (c - 48)) t 0.

(** A dot with at least one digit.  Part of cmqttd.py 144. *)
Definition scan_fraction (s : text) : text * text :=
  match s with
  | c :: s' => if c =? 46 then match span_digits s' with ([], _) => ([], s) | (d, r) => (c :: d, r) end else ([], s)
  | [] => ([], [])
  end.
(** "e" or "E", perhaps a sign, and at least one digit.  Part of cmqttd.py 144. *)
Definition scan_exponent (s : text) : text * text :=
  match s with
  | c :: s' =>
      if (c =? 101) || (c =? 69) then
        let (sign, s2) := match s' with
                          | g :: s2 => if (g =? 43) || (g =? 45) then ([g], s2) else ([], s')
                          | [] => ([], [])
                          end in
        match span_digits s2 with ([], _) => ([], s) | (d, r) => (c :: sign ++ d, r) end
      else ([], s)
  | [] => ([], [])
  end.
(** [_match_number_unicode] of _json.c.  Part of cmqttd.py 144. *)
Definition match_number (lib : json_library) (s : text) : option (pynum * text) :=
  let (sign, s1) := match s with c :: s' => if c =? 45 then ([c], s') else ([], s) | [] => ([], []) end in
  match s1 with
  | [] => None
  | c :: s2 =>
      if negb (is_digit c) then None
      else
        let (int, s3) := if c =? 48 then ([c], s2) else let (d, r) := span_digits s2 in (c :: d, r) in
        let (frac, s4) := scan_fraction s3 in
        let (exp, s5) := scan_exponent s4 in
        match frac, exp with
        | [], [] => Some (PInt (match sign with [] => digits_value int | _ => - digits_value int end), s5)
        | _, _ => Some (jl_float lib (sign ++ int ++ frac ++ exp), s5)
        end
  end.

(** [d[k] = v] on a dict.  Part of cmqttd.py 144. *)
Fixpoint dict_set (k : text) (v : json) (l : list (text * json)) : list (text * json) :=
  match l with
  | [] => [(k, v)]
  | (a, w) :: l' => if text_eqb a k then (a, v) :: l' else (a, w) :: dict_set k v l'
  end.

(** The constants that [_scan_once_unicode] of _json.c looks for.
    Part of cmqttd.py 144. *)
Definition constants : list (text * json) :=
  [(txt "null", JNull); (txt "true", JBool true); (txt "false", JBool false); (txt "NaN", JNum PNan);
   (txt "Infinity", JNum (PInf true)); (txt "-Infinity", JNum (PInf false))].
(** Part of cmqttd.py 144. *)
Fixpoint scan_constant (l : list (text * json)) (s : text) : option (json * text) :=
  match l with
  | [] => None
  | (t, v) :: l' => if starts_with t s then Some (v, skipn (List.length t) s) else scan_constant l' s
  end.

(** [_scan_once_unicode], [_parse_array_unicode] and [_parse_object_unicode] of
    _json.c.  [depth]: how many more arrays or objects may be entered before the
    recursion limit.  [elements] and [members] start at an element or a key.
    Part of cmqttd.py 144. *)
Fixpoint scan (lib : json_library) (fuel depth : nat) (s : text) : jres (json * text) :=
  match fuel with
  | O => NoFuel
  | S fuel =>
      match s with
      | [] => Wrong
      | c :: s1 =>
          if c =? 34 then
            match scanstring s1 with Some (v, r) => Got (JStr v, r) | None => Wrong end
          else if c =? 123 then
            match depth with
            | O => TooDeep
            | S depth =>
                let s2 := skip_space s1 in
                match s2 with
                | x :: r => if x =? 125 then Got (JObj [], r) else members lib fuel depth [] s2
                | [] => Wrong
                end
            end
          else if c =? 91 then
            match depth with
            | O => TooDeep
            | S depth =>
                let s2 := skip_space s1 in
                match s2 with
                | x :: r => if x =? 93 then Got (JArr [], r) else elements lib fuel depth [] s2
                | [] => Wrong
                end
            end
          else
            match scan_constant constants s with
            | Some x => Got x
            | None => match match_number lib s with Some (n, r) => Got (JNum n, r) | None => Wrong end
            end
      end
  end
(** Part of cmqttd.py 144. *)
with elements (lib : json_library) (fuel depth : nat) (acc : list json) (s : text) : jres (json * text) :=
  match fuel with
  | O => NoFuel
  | S fuel =>
      jbind (scan lib fuel depth s) (fun p =>
      let (v, s1) := p in
      match skip_space s1 with
      | x :: s2 =>
          if x =? 93 then Got (JArr (acc ++ [v]), s2)
          else if x =? 44 then elements lib fuel depth (acc ++ [v]) (skip_space s2)
          else Wrong
      | [] => Wrong
      end)
  end
(** Part of cmqttd.py 144. *)
with members (lib : json_library) (fuel depth : nat) (acc : list (text * json)) (s : text) : jres (json * text) :=
  match fuel with
  | O => NoFuel
  | S fuel =>
      match s with
      | q :: s1 =>
          if negb (q =? 34) then Wrong
          else
          match scanstring s1 with
          | None => Wrong
          | Some (k, s2) =>
              match skip_space s2 with
              | c :: s3 =>
                  if negb (c =? 58) then Wrong
                  else
                  jbind (scan lib fuel depth (skip_space s3)) (fun p =>
                  let (v, s4) := p in
                  match skip_space s4 with
                  | x :: s5 =>
                      if x =? 125 then Got (JObj (dict_set k v acc), s5)
                      else if x =? 44 then members lib fuel depth (dict_set k v acc) (skip_space s5)
                      else Wrong
                  | [] => Wrong
                  end)
              | [] => Wrong
              end
          end
      | [] => Wrong
      end
  end.

(** [JSONDecoder.decode]: one value with white space around it.
    Part of cmqttd.py 144. *)
Definition decode_text (lib : json_library) (depth : nat) (s : text) : jres json :=
  jbind (scan lib (2 * List.length s + 2) depth (skip_space s)) (fun p =>
  let (v, r) := p in
  match skip_space r with [] => Got v | _ => Wrong end).
(** cmqttd.py 144. *)
Definition loads (lib : json_library) (depth : nat) (b : bytes) : jres json :=
  match decoded b with Some s => decode_text lib depth s | None => Wrong end.

(** cmqttd.py 129-171 with the bytes of the message; every exception of
    [json.loads] is caught (cmqttd.py 143-147). *)
Definition on_payload (u : unicode) (lib : json_library) (depth : nat) (topic : text) (b : bytes) : M unit :=
  on_message u topic (match loads lib depth b with Got j => Some j | _ => None end).
