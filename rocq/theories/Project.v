(** The objects of a C-Bus Toolkit project: dataclasses of
    cbus/toolkit/cbz.py.  No proofs in this file.

    A field whose XML element or attribute is missing is None.  Fields nothing
    outside cbz.py reads (OIDs, levels, installer details, ...) are left out
    here; they are read and checked in Cbz.v. *)
From Coq Require Import List ZArith.
From Verif Require Import Py Text.
Import ListNotations.
Open Scope Z_scope.

(** cbz.py 116-118. *)
Record parameter : Set := mkParameter { pp_name : option text; pp_value : option text }.
(** cbz.py 140-146, with the inherited fields of 127-130. *)
Record cunit : Set := mkUnit {
  u_tag_name : option text; u_address : option Z; u_unit_type : option text; u_unit_name : option text;
  u_serial_number : option text; u_catalog_number : option text; u_pp : list parameter }.
(** cbz.py 155-156. *)
Record group : Set := mkGroup { g_address : option Z; g_tag_name : option text }.
(** cbz.py 160-161. *)
Record application : Set := mkApplication {
  a_address : option Z; a_tag_name : option text; a_description : option text; a_groups : list group }.
(** cbz.py 165-169.  [n_interface]: None if the network has no interface
    element, otherwise its interface type. *)
Record network : Set := mkNetwork {
  n_address : option Z; n_tag_name : option text; n_number : option Z;
  n_interface : option (option text); n_applications : list application; n_units : list cunit }.

(** [a == b] for ints and None.
    Keys of the dicts of dump_labels.py 87, 89, 102 and 112. *)
Definition key_eqb (a b : option Z) : bool :=
  match a, b with
  | Some x, Some y => x =? y
  | None, None => true
  | _, _ => false
  end.
(** [d[k] = v] on a dict with such keys, in insertion order: replace in place
    or append.  dump_labels.py 87, 89, 102 and 112. *)
Fixpoint dict_set {V : Type} (k : option Z) (v : V) (l : list (option Z * V)) : list (option Z * V) :=
  match l with
  | [] => [(k, v)]
  | (a, t) :: l' => if key_eqb a k then (k, v) :: l' else (a, t) :: dict_set k v l'
  end.
