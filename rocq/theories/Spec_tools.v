(** What dump_labels writes and what an interrupted run leaves. *)
From Coq Require Import String List ZArith Bool.
From Verif Require Import Py Text Project Mqtt Cbz Toolkit Json Spec_json Tools.
Import ListNotations.
Open Scope Z_scope.

(** The texts of a network are sequences of characters, as everything read from
    XML is. *)
Definition proper_text (o : option text) : Prop := match o with Some t => whole t | None => True end.
Definition proper_group (g : group) : Prop := proper_text (g_tag_name g).
Definition proper_application (a : application) : Prop :=
  proper_text (a_tag_name a) /\ proper_text (a_description a) /\ Forall proper_group (a_groups a).
Definition proper_unit (x : cunit) : Prop :=
  proper_text (u_tag_name x) /\ proper_text (u_unit_type x) /\ proper_text (u_unit_name x)
  /\ proper_text (u_serial_number x) /\ proper_text (u_catalog_number x).
Definition proper_network (n : network) : Prop :=
  proper_text (n_tag_name n) /\ Forall proper_application (n_applications n) /\ Forall proper_unit (n_units n).

(** ** Layout *)

(** Reading a JSON text from left to right: how many brackets are open, and
    whether we are in a string or behind a backslash in one. *)
Inductive place : Set := Outside | Inside | Escaped.
Definition reads (st : place * Z) (c : Z) : place * Z :=
  match st with
  | (Escaped, k) => (Inside, k)
  | (Inside, k) => if c =? 92 then (Escaped, k) else if c =? 34 then (Outside, k) else (Inside, k)
  | (Outside, k) =>
      if c =? 34 then (Inside, k)
      else if (c =? 91) || (c =? 123) then (Outside, k + 1)
      else if (c =? 93) || (c =? 125) then (Outside, k - 1)
      else (Outside, k)
  end.
(** The number of brackets open after a text. *)
Definition opened (t : text) : Z := snd (fold_left reads t (Outside, 0)).
Definition closing (c : Z) : Prop := c = 93 \/ c = 125.
(** Every line but the first begins with [n] spaces for each open bracket, not
    counting one that is closed right there. *)
Definition laid_out (n : Z) (t : text) : Prop :=
  forall before after, t = before ++ 10 :: after ->
    exists k c rest, after = repeat 32 k ++ c :: rest /\ c <> 32
      /\ ((closing c /\ Z.of_nat k = n * (opened before - 1)) \/ (~ closing c /\ Z.of_nat k = n * opened before)).

(** ** Interruption *)

(** [interrupted d l d']: a process that does [l] from the disk [d] on is killed
    and leaves [d']; an append may have been done in part. *)
Inductive interrupted (d : disk) : list act -> disk -> Prop :=
| killed_before l : interrupted d l d
| killed_in name b b' l : interrupted d (Append name (b ++ b') :: l) (perform d (Append name b))
| killed_later a l d' : interrupted (perform d a) l d' -> interrupted d (a :: l) d'.
