(** [float(s)] for the numbers in JSON texts: correct rounding to a double.
    Part of cmqttd.py 144, with what cmqttd.py 149 and 154 make of it. *)
From Coq Require Import List ZArith QArith Bool.
From Verif Require Import Py Text Json.
Import ListNotations.
Open Scope Z_scope.

(** All doubles are multiples of 2^-1074; this is 1 as such a multiple.
    Part of cmqttd.py 144. *)
Definition ONE : Z := 2 ^ 1074.
(** The integer nearest to [a / b], the even one of two.  Part of cmqttd.py 144. *)
Definition round_even (a b : Z) : Z :=
  let q := a / b in
  match Z.compare (2 * (a mod b)) b with
  | Lt => q
  | Gt => q + 1
  | Eq => if Z.even q then q else q + 1
  end.
(** The number with 53 significant bits nearest to [a / b].  Part of cmqttd.py 144. *)
Definition round_double (a b : Z) : Z :=
  let j := Z.max 0 (Z.log2 (a / b) - 52) in round_even a (b * 2 ^ j) * 2 ^ j.
(** The exponent in a numeral.  Part of cmqttd.py 144. *)
Definition exponent_value (e : text) : Z :=
  match e with
  | _ :: g :: d => if g =? 45 then - digits_value d else if g =? 43 then digits_value d else digits_value (g :: d)
  | _ => 0
  end.
(** [float(s)] as [_match_number_unicode] of _json.c calls it, with a numeral of
    JSON.  CPython's conversion (_Py_dg_strtod) rounds correctly; too large
    numbers become infinite.  Simplification: as everywhere in this model zero
    has no sign.  Part of cmqttd.py 144. *)
Definition py_float (s : text) : pynum :=
  let (neg, s1) := match s with c :: s' => if c =? 45 then (true, s') else (false, s) | [] => (false, []) end in
  let (i, s2) := span_digits s1 in
  let (f, s3) := scan_fraction s2 in
  let (e, _) := scan_exponent s3 in
  let digits := digits_value (i ++ tl f) in
  let x := exponent_value e - Z.of_nat (List.length (tl f)) in
  let k := round_double (digits * 10 ^ Z.max 0 x * ONE) (10 ^ Z.max 0 (- x)) in
  if 2 ^ 1024 * ONE <=? k then PInf (negb neg)
  else PFloat (Qred ((if neg then - k else k) # Z.to_pos ONE)).
