(** Python text (str) and the JSON values used by the MQTT daemon.  No proofs
    in this file.

    A str is a list of code points.  Behaviour of code points outside ASCII is
    left open: every function that depends on it takes a [unicode] record, and
    theorems hold for all of them.  For example the topics of cmqttd.py 40-45. *)
From Coq Require Import List ZArith QArith Qround Bool String Ascii.
From Verif Require Import Py.
Import ListNotations.
Open Scope Z_scope.

Definition text := list Z.

(** Literals.  For example cmqttd.py 40-45. *)
Definition txt (s : string) : text :=
  map (fun a => Z.of_N (N_of_ascii a)) (list_ascii_of_string s).

(** [u_space c]: [chr(c).isspace()]; [u_digit c]: the decimal digit value of
    [chr(c)], if any.  Only used for code points >= 127.
    For cmqttd.py 57, 148-154 and 299. *)
Record unicode := mkUnicode { u_space : Z -> bool; u_digit : Z -> option Z }.

(** Characters stripped by [int()]: C isspace.  CPython's [int] first maps
    every code point >= 127 to a space, an ASCII digit or '?'.
    cmqttd.py 57, 149 and 154. *)
Definition int_space (c : Z) : bool := ((9 <=? c) && (c <=? 13)) || (c =? 32).
(** cmqttd.py 57, 149 and 154. *)
Definition int_normalise (u : unicode) (c : Z) : Z :=
  if c <? 127 then c
  else if u_space u c then 32
  else match u_digit u c with Some d => 48 + d | None => 63 end.

(** Part of [strip] and [int], cmqttd.py 57 and 299. *)
Fixpoint drop_while (f : Z -> bool) (l : text) : text :=
  match l with
  | [] => []
  | c :: l' => if f c then drop_while f l' else l
  end.
(** Part of [strip] and [int], cmqttd.py 57 and 299. *)
Definition strip_by (f : Z -> bool) (l : text) : text :=
  rev (drop_while f (rev (drop_while f l))).

(** Part of [int], cmqttd.py 57. *)
Definition is_digit (c : Z) : bool := (48 <=? c) && (c <=? 57).

(** The digits of an int literal: digits with single underscores between them.
    [after_digit] is true when the previous character was a digit.
    Part of [int], cmqttd.py 57. *)
Fixpoint int_digits (after_digit : bool) (acc : Z) (l : text) : option Z :=
  match l with
  | [] => if after_digit then Some acc else None
  | c :: l' =>
      if is_digit c then int_digits true (acc * 10 + (c - 48)) l'
      else if (c =? 95) && after_digit then int_digits false acc l'
      else None
  end.

(** [int(s)] for a str, base 10; ValueError when not an integer literal.
    Simplification: the limit of 4300 digits of newer Python versions is not
    modelled.  cmqttd.py 57, 149 and 154. *)
Definition py_int_of_text (u : unicode) (s : text) : res Z :=
  let s := strip_by int_space (map (int_normalise u) s) in
  let r :=
    match s with
    | 45 :: s' => option_map Z.opp (int_digits false 0 s')
    | 43 :: s' => int_digits false 0 s'
    | _ => int_digits false 0 s
    end in
  match r with Some z => Ok z | None => Raise ValueError end.

(** [str(n)] for an int.  Formatting of ints, cmqttd.py 64-84. *)
Fixpoint digits_fuel (fuel : nat) (n : Z) (acc : text) : text :=
  match fuel with
  | O => acc
  | S f => if n <? 10 then (48 + n) :: acc
           else digits_fuel f (n / 10) ((48 + n mod 10) :: acc)
  end.
(** Formatting of ints, cmqttd.py 64-84. *)
Definition py_digits (n : Z) : text := digits_fuel (S (Z.to_nat (Z.log2 n))) n [].
(** Formatting of ints, cmqttd.py 64-84. *)
Definition py_str (n : Z) : text := if n <? 0 then 45 :: py_digits (- n) else py_digits n.

(** [f'{n:03d}'] for n >= 0.  cmqttd.py 196, 208 and 223. *)
Definition py_03d (n : Z) : text :=
  let d := py_digits n in repeat 48 (3 - List.length d) ++ d.

(** [s.strip()]: ASCII whitespace of str.isspace (9-13, 28-31, 32).
    cmqttd.py 299. *)
Definition str_space (u : unicode) (c : Z) : bool :=
  if c <? 127 then ((9 <=? c) && (c <=? 13)) || ((28 <=? c) && (c <=? 32)) else u_space u c.
Definition py_strip (u : unicode) (s : text) : text := strip_by (str_space u) s.  (* cmqttd.py 299 *)

(** [s.upper()] on ASCII.  A code point >= 128 is left alone: no such code
    point upper-cases to a string made of 'O' and 'N' only, so comparing with
    'ON' is not affected.  cmqttd.py 148. *)
Definition upper_char (c : Z) : Z := if (97 <=? c) && (c <=? 122) then c - 32 else c.
Definition py_upper (s : text) : text := map upper_char s.  (* cmqttd.py 148 *)

(** [==] on str, e.g. cmqttd.py 148. *)
Fixpoint text_eqb (a b : text) : bool :=
  match a, b with
  | [], [] => true
  | x :: a', y :: b' => (x =? y) && text_eqb a' b'
  | _, _ => false
  end.

(** [s.endswith(suf)].  cmqttd.py 132, cbz.py 233. *)
Definition ends_with (suf s : text) : bool := starts_with (rev suf) (rev s).

(** [s.split('/', maxsplit=1)[0]].  cmqttd.py 57. *)
Fixpoint before_slash (s : text) : text :=
  match s with
  | [] => []
  | c :: s' => if c =? 47 then [] else c :: before_slash s'
  end.

(** The result of [json.loads], and the argument of [json.dumps].  In an object
    the keys are unique ([json.loads] keeps the last of duplicate keys).
    cmqttd.py 144 and 175. *)
Inductive json : Set :=
| JNull
| JBool (b : bool)
| JNum (n : pynum)
| JStr (s : text)
| JArr (l : list json)
| JObj (l : list (text * json)).

(** [payload[k]] and [payload.get(k)], cmqttd.py 148-154. *)
Fixpoint jlookup (k : text) (l : list (text * json)) : option json :=
  match l with
  | [] => None
  | (a, v) :: l' => if text_eqb a k then Some v else jlookup k l'
  end.

(** [int(x)] for a float: truncation towards zero.  cmqttd.py 149 and 154. *)
Definition q_trunc (q : Q) : Z := Z.quot (Qnum q) (Zpos (Qden q)).
(** [int(x)] for a decoded JSON value.  cmqttd.py 149 and 154. *)
Definition py_int_of_json (u : unicode) (j : json) : res Z :=
  match j with
  | JNull => Raise TypeError
  | JBool b => Ok (if b then 1 else 0)
  | JNum (PInt z) => Ok z
  | JNum (PFloat q) => Ok (q_trunc q)
  | JNum PNan => Raise ValueError
  | JNum (PInf _) => Raise OverflowError
  | JStr s => py_int_of_text u s
  | JArr _ => Raise TypeError
  | JObj _ => Raise TypeError
  end.
