(** What the command lines of the programs beside the daemon mean. *)
From Coq Require Import List ZArith Bool String.
From Verif Require Import Py Text Spec_mqtt.
Import ListNotations.
Open Scope Z_scope.

(** The manual of a program: each option with what it sets, its letter, its long
    name, and whether it takes a value. *)
Record entry : Set := mkEntry { e_sets : string; e_letter : string; e_name : string; e_value : bool }.
Definition manual : Set := list entry.
Definition dump_manual : manual := [mkEntry "output" "o" "output" true; mkEntry "pretty" "p" "pretty" true].
Definition graph_manual : manual := [mkEntry "output" "o" "output" true].
Definition fetch_manual : manual := [].
Definition pci_manual : manual := [mkEntry "serial" "s" "serial" true; mkEntry "tcp" "t" "tcp" true].
Definition decode_manual : manual :=
  [mkEntry "checksum" "C" "no-checksum" false; mkEntry "strict" "S" "not-strict" false;
   mkEntry "server" "c" "client" false].

(** One item of a command line: an option with its value, a flag, or a plain word. *)
Inductive item : Set :=
| Value (what : text) (v : text)
| Flag (what : text)
| Word (v : text).
(** A word that cannot be taken for an option: it does not begin with a dash, or
    is a dash alone or a negative whole number. *)
Definition ordinary (v : text) : Prop :=
  hd_error v <> Some 45 \/ v = txt "-" \/ exists ds, v = 45 :: ds /\ ds <> [] /\ Forall (fun c => 48 <= c <= 57) ds.
(** An abbreviation of a long name: a beginning of it that no other long name has,
    the help included. *)
Definition abbreviates (m : manual) (a name : text) : Prop :=
  a <> [] /\ (exists r, name = a ++ r)
  /\ forall n, n = txt "help" \/ (exists e, In e m /\ n = txt (e_name e)) -> (exists r, n = a ++ r) -> n = name.
(** How an item may be written: "--name value", "-x value", "--name=value",
    "-x=value", "-xvalue"; a flag "--name" or "-x"; a plain word as it is.  A long
    name may be abbreviated. *)
Inductive spelled (m : manual) : item -> list text -> Prop :=
| s_long e v : In e m -> e_value e = true -> ordinary v ->
    spelled m (Value (txt (e_sets e)) v) [txt "--" ++ txt (e_name e); v]
| s_short e v : In e m -> e_value e = true -> ordinary v ->
    spelled m (Value (txt (e_sets e)) v) [txt "-" ++ txt (e_letter e); v]
| s_long_equals e v : In e m -> e_value e = true ->
    spelled m (Value (txt (e_sets e)) v) [txt "--" ++ txt (e_name e) ++ txt "=" ++ v]
| s_short_equals e v : In e m -> e_value e = true ->
    spelled m (Value (txt (e_sets e)) v) [txt "-" ++ txt (e_letter e) ++ txt "=" ++ v]
| s_attached e v : In e m -> e_value e = true -> v <> [] -> hd_error v <> Some 61 ->
    spelled m (Value (txt (e_sets e)) v) [txt "-" ++ txt (e_letter e) ++ v]
| s_flag e : In e m -> e_value e = false -> spelled m (Flag (txt (e_sets e))) [txt "--" ++ txt (e_name e)]
| s_flag_short e : In e m -> e_value e = false -> spelled m (Flag (txt (e_sets e))) [txt "-" ++ txt (e_letter e)]
| s_word v : ordinary v -> spelled m (Word v) [v]
| s_abbreviated e a v : In e m -> e_value e = true -> abbreviates m a (txt (e_name e)) -> ordinary v ->
    spelled m (Value (txt (e_sets e)) v) [txt "--" ++ a; v]
| s_abbreviated_equals e a v : In e m -> e_value e = true -> abbreviates m a (txt (e_name e)) ->
    spelled m (Value (txt (e_sets e)) v) [txt "--" ++ a ++ txt "=" ++ v]
| s_flag_abbreviated e a : In e m -> e_value e = false -> abbreviates m a (txt (e_name e)) ->
    spelled m (Flag (txt (e_sets e))) [txt "--" ++ a].
(** A command line made of such items. *)
Inductive usual (m : manual) : list item -> list text -> Prop :=
| us_nil : usual m [] []
| us_cons i ws is rest : spelled m i ws -> usual m is rest -> usual m (i :: is) (ws ++ rest).

(** A line that begins with the help option and goes on in the usual way. *)
Definition asks_help (m : manual) (ws : list text) : Prop :=
  exists h is rest, ws = h :: rest /\ (h = txt "-h" \/ h = txt "--help") /\ usual m is rest.

(** The plain words, in order. *)
Definition plain_words (is : list item) : list text :=
  flat_map (fun i => match i with Word v => [v] | _ => [] end) is.
(** The value of an option: the last one given. *)
Inductive last_given (what : string) : list item -> option text -> Prop :=
| lg_none is : (forall v, ~ In (Value (txt what) v) is) -> last_given what is None
| lg_some a v b : (forall v', ~ In (Value (txt what) v') b) ->
    last_given what (a ++ Value (txt what) v :: b) (Some v).
(** An integer option: every value given is a numeral, and the last one counts. *)
Definition number_given (u : unicode) (what : string) (is : list item) (n : option Z) : Prop :=
  (forall v, In (Value (txt what) v) is -> exists z, int_text u v z)
  /\ exists x, last_given what is x
       /\ match x, n with Some v, Some z => int_text u v z | None, None => True | _, _ => False end.
