(** Specification of what a number with a fraction or an exponent stands for:
    the nearest double. *)
From Coq Require Import List ZArith QArith Bool.
From Verif Require Import Py Text Spec_mqtt Spec_json.
Import ListNotations.
Open Scope Z_scope.

(** [exponent_of e x]: the text [e] multiplies by ten to the power [x]. *)
Inductive exponent_of : text -> Z -> Prop :=
| ex_none : exponent_of [] 0
| ex_plain c d : c = 101 \/ c = 69 -> some_digits d -> exponent_of (c :: d) (value d)
| ex_plus c d : c = 101 \/ c = 69 -> some_digits d -> exponent_of (c :: 43 :: d) (value d)
| ex_minus c d : c = 101 \/ c = 69 -> some_digits d -> exponent_of (c :: 45 :: d) (- value d).
(** [stands_for t neg n d]: the text [t] is a numeral for [n / d], with a minus
    sign in front if [neg]: digits, perhaps digits behind a dot, perhaps an
    exponent. *)
Definition stands_for (t : text) (neg : bool) (n d : Z) : Prop :=
  exists i f e x z, t = (if neg then [45] else []) ++ i ++ (match f with [] => [] | _ => 46 :: f end) ++ e
    /\ natural z i /\ Forall digit f /\ exponent_of e x
    /\ n = value (i ++ f) * 10 ^ Z.max 0 (x - Z.of_nat (List.length f))
    /\ d = 10 ^ Z.max 0 (Z.of_nat (List.length f) - x).

(** The doubles that are not negative, as multiples of 2^-1074: at most 53
    significant bits.  There is no upper bound here, see [float_value]. *)
Definition double (k : Z) : Prop := exists m j, 0 <= m < 2 ^ 53 /\ 0 <= j /\ k = m * 2 ^ j.
(** Those whose last bit is zero. *)
Definition even_double (k : Z) : Prop :=
  exists m j, 0 <= m < 2 ^ 53 /\ (j = 0 \/ (0 < j /\ 2 ^ 52 <= m)) /\ k = m * 2 ^ j /\ Z.even m = true.
(** How far k * 2^-1074 is from n / d, in units of 2^-1074 / d. *)
Definition far (n d k : Z) : Z := Z.abs (n * 2 ^ 1074 - k * d).
(** No double is nearer; if another one is as near, the last bit of this one is
    zero. *)
Definition nearest (n d k : Z) : Prop :=
  double k /\ forall k', double k' -> far n d k <= far n d k' /\ (far n d k' = far n d k -> k' <> k -> even_double k).
(** From 2^1024 on the result is infinite. *)
Definition float_value (t : text) (v : pynum) : Prop :=
  exists neg n d k, stands_for t neg n d /\ nearest n d k
    /\ ((k < 2 ^ 2098 /\ v = PFloat (Qred ((if neg then - k else k) # 2 ^ 1074))) \/ (2 ^ 2098 <= k /\ v = PInf (negb neg))).
