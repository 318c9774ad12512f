(** What an XML project file says, independently of the reader: how names are
    compared, what the fields of an element are, and which networks,
    applications, groups and units a document describes. *)
From Coq Require Import List ZArith Bool String.
From Verif Require Import Py Text Project Cbz Spec_mqtt.
Import ListNotations.
Open Scope Z_scope.

(** ** Names *)

Definition lower_of (lib : library) (c : Z) : text :=
  if (65 <=? c) && (c <=? 90) then [c + 32] else if c <? 128 then [c] else lib_lower lib c.
(** [s] in lower case, without underscores and without the letters s at its end
    is [t]. *)
Definition stem (lib : library) (s t : text) : Prop :=
  exists n, filter (fun c => negb (c =? 95)) (List.concat (map (lower_of lib) s)) = t ++ repeat 115 n
    /\ last t 0 <> 115.
(** The same name up to case, underscores and the letters s at the end. *)
Definition called (lib : library) (a b : text) : Prop := exists t, stem lib a t /\ stem lib b t.

(** ** Positions in a document *)

(** [x] is the last element of the list with the property. *)
Definition last_such {A} (P : A -> Prop) (l : list A) (x : A) : Prop :=
  exists a b, l = a ++ x :: b /\ P x /\ Forall (fun y => ~ P y) b.
(** [r] has exactly the elements of [l] with the property, in their order. *)
Inductive picks {A} (P : A -> Prop) : list A -> list A -> Prop :=
| picks_nil : picks P [] []
| picks_yes x l r : P x -> picks P l r -> picks P (x :: l) (x :: r)
| picks_no x l r : ~ P x -> picks P l r -> picks P (x :: l) r.

Definition child_called (lib : library) (name : text) (ch : xml) : Prop := called lib (x_tag ch) name.
Definition attr_called (lib : library) (name : text) (kv : text * text) : Prop := called lib (fst kv) name.

(** ** One element *)

(** What a child element says about a field of the given type; no text at all is
    the text None. *)
Definition child_says (lib : library) (t : ftype) (ch : xml) (v : datum) : Prop :=
  match t with
  | FText => v = VText (match x_body ch with Some s => s | None => txt "None" end)
  | FInt => exists s z, x_body ch = Some s /\ int_text (lib_unicode lib) s z /\ v = VInt z
  | FUuid => exists s z, x_body ch = Some s /\ lib_uuid lib s = Some z /\ v = VUuid z
  | FDate => exists s z, x_body ch = Some s /\ lib_date lib s = Some z /\ v = VDate z
  | FElem c | FSeq c => from_element lib ch c = Ok v
  end.
(** What an attribute says about a field. *)
Definition attr_says (lib : library) (t : ftype) (s : text) (v : datum) : Prop :=
  match t with
  | FText => v = VText s
  | FInt => exists z, int_text (lib_unicode lib) s z /\ v = VInt z
  | FUuid => exists z, lib_uuid lib s = Some z /\ v = VUuid z
  | FDate | FElem _ | FSeq _ => False
  end.
(** Everything in the element that bears the name of a field can be read. *)
Definition readable (lib : library) (e : xml) (c : cls) : Prop :=
  (forall kv name t, In kv (x_attrs e) -> In (name, t) (c_fields c) -> attr_called lib name kv ->
     exists v, attr_says lib t (snd kv) v)
  /\ (forall ch name t, In ch (x_children e) -> In (name, t) (c_fields c) -> child_called lib name ch ->
     exists v, child_says lib t ch v).
(** The value of the field [name] of type [t] in the element: all children of
    that name for a sequence; otherwise the last child of that name, failing
    that the attribute, failing that None. *)
Definition field_value (lib : library) (e : xml) (name : text) (t : ftype) (v : datum) : Prop :=
  match t with
  | FSeq c => exists chs vs, picks (child_called lib name) (x_children e) chs
                /\ Forall2 (fun ch w => from_element lib ch c = Ok w) chs vs /\ v = VList vs
  | _ =>
      (exists ch, last_such (child_called lib name) (x_children e) ch /\ child_says lib t ch v)
      \/ (Forall (fun ch => ~ child_called lib name ch) (x_children e)
          /\ exists kv, last_such (attr_called lib name) (x_attrs e) kv /\ attr_says lib t (snd kv) v)
      \/ (Forall (fun ch => ~ child_called lib name ch) (x_children e)
          /\ Forall (fun kv => ~ attr_called lib name kv) (x_attrs e) /\ v = VNone)
  end.

(** The classes of a project file. *)
Definition project_classes : list cls :=
  [PP_class; Interface_class; Unit_class; Level_class; Group_class; Application_class; Network_class;
   Project_class; Installer_class; InstallationDetail_class; Installation_class].

(** ** What a project file must look like

    For each kind of element the things that must be readable in it, by the names
    the Toolkit writes: texts, numbers, identifiers, dates, an element or several
    elements of another kind. *)
Inductive kind : Set :=
| Words | Number | Identifier | Moment | Part (s : schema) | Parts (s : schema)
with schema : Set := Schema (entries : list (text * kind)).
Definition entries (s : schema) : list (text * kind) := match s with Schema l => l end.

Definition parameter_schema := Schema [(txt "Name", Words); (txt "Value", Words)].
Definition interface_schema :=
  Schema [(txt "OID", Identifier); (txt "InterfaceType", Words); (txt "InterfaceAddress", Words)].
Definition unit_schema :=
  Schema [(txt "OID", Identifier); (txt "TagName", Words); (txt "Address", Number); (txt "Description", Words);
          (txt "UnitType", Words); (txt "UnitName", Words); (txt "SerialNumber", Words);
          (txt "FirmwareVersion", Words); (txt "CatalogNumber", Words); (txt "PP", Parts parameter_schema)].
Definition level_schema :=
  Schema [(txt "OID", Identifier); (txt "TagName", Words); (txt "Address", Number); (txt "Description", Words);
          (txt "Value", Number)].
Definition group_schema :=
  Schema [(txt "OID", Identifier); (txt "TagName", Words); (txt "Address", Number); (txt "Description", Words);
          (txt "Level", Parts level_schema)].
Definition application_schema :=
  Schema [(txt "OID", Identifier); (txt "TagName", Words); (txt "Address", Number); (txt "Description", Words);
          (txt "Group", Parts group_schema)].
Definition network_schema :=
  Schema [(txt "OID", Identifier); (txt "TagName", Words); (txt "Address", Number); (txt "Description", Words);
          (txt "NetworkNumber", Number); (txt "Interface", Part interface_schema);
          (txt "Application", Parts application_schema); (txt "Unit", Parts unit_schema)].
Definition project_schema :=
  Schema [(txt "OID", Identifier); (txt "TagName", Words); (txt "Address", Words); (txt "Description", Words);
          (txt "Network", Parts network_schema)].
Definition installer_schema := Schema [(txt "OID", Identifier); (txt "Name", Words)].
Definition detail_schema :=
  Schema [(txt "OID", Identifier); (txt "SystemLocation", Words); (txt "HardwarePlatform", Words);
          (txt "Hostname", Words); (txt "OSName", Words); (txt "OSVersion", Words);
          (txt "HardwareLocation", Words); (txt "Installer", Part installer_schema)].
Definition installation_schema :=
  Schema [(txt "OID", Identifier); (txt "DBVersion", Words); (txt "Version", Words); (txt "Modified", Moment);
          (txt "InstallationDetail", Part detail_schema); (txt "Project", Part project_schema)].

(** Each class, its schema, and the names of its attributes in Python. *)
Definition documented : list (cls * schema * list string) :=
  [(PP_class, parameter_schema, ["name"; "value"]);
   (Interface_class, interface_schema, ["oid"; "interface_type"; "interface_address"]);
   (Unit_class, unit_schema,
      ["oid"; "tag_name"; "address"; "description"; "unit_type"; "unit_name"; "serial_number";
       "firmware_version"; "catalog_number"; "pp"]);
   (Level_class, level_schema, ["oid"; "tag_name"; "address"; "description"; "value"]);
   (Group_class, group_schema, ["oid"; "tag_name"; "address"; "description"; "levels"]);
   (Application_class, application_schema, ["oid"; "tag_name"; "address"; "description"; "groups"]);
   (Network_class, network_schema,
      ["oid"; "tag_name"; "address"; "description"; "network_number"; "interface"; "applications"; "units"]);
   (Project_class, project_schema, ["oid"; "tag_name"; "address"; "description"; "network"]);
   (Installer_class, installer_schema, ["oid"; "name"]);
   (InstallationDetail_class, detail_schema,
      ["oid"; "system_location"; "hardware_platform"; "hostname"; "os_name"; "os_version";
       "hardware_location"; "installer"]);
   (Installation_class, installation_schema,
      ["oid"; "db_version"; "version"; "modified"; "installation_detail"; "project"])]%string.

(** An attribute can give a text, a number or an identifier. *)
Definition attribute_good (lib : library) (k : kind) (s : text) : Prop :=
  match k with
  | Words => True
  | Number => exists z, int_text (lib_unicode lib) s z
  | Identifier => lib_uuid lib s <> None
  | Moment | Part _ | Parts _ => False
  end.
(** The text of a child element. *)
Definition body_good (lib : library) (k : kind) (b : option text) : Prop :=
  match k, b with
  | Words, _ => True
  | Number, Some s => exists z, int_text (lib_unicode lib) s z
  | Identifier, Some s => lib_uuid lib s <> None
  | Moment, Some s => lib_date lib s <> None
  | _, _ => False
  end.
(** Every attribute and every child with a name of the schema is as the schema
    says, all the way down. *)
Fixpoint valid (lib : library) (s : schema) (e : xml) {struct e} : Prop :=
  match e with
  | Elem _ attrs _ children =>
      (forall kv n k, In kv attrs -> In (n, k) (entries s) -> called lib (fst kv) n -> attribute_good lib k (snd kv))
      /\ (fix all (l : list xml) : Prop :=
            match l with
            | [] => True
            | ch :: l' =>
                (forall n k, In (n, k) (entries s) -> called lib (x_tag ch) n ->
                   match k with
                   | Part s' | Parts s' => valid lib s' ch
                   | _ => body_good lib k (x_body ch)
                   end)
                /\ all l'
            end) children
  end.

(** ** A whole document, with the names the Toolkit writes *)

(** The text (the number) the element gives for [name], if any. *)
Definition says_text (lib : library) (e : xml) (name : text) (o : option text) : Prop :=
  match o with
  | Some s => field_value lib e name FText (VText s)
  | None => field_value lib e name FText VNone
  end.
Definition says_int (lib : library) (e : xml) (name : text) (o : option Z) : Prop :=
  match o with
  | Some z => field_value lib e name FInt (VInt z)
  | None => field_value lib e name FInt VNone
  end.
(** The children called [name], in document order, are described by [l]. *)
Definition elements {A} (lib : library) (e : xml) (name : text) (P : xml -> A -> Prop) (l : list A) : Prop :=
  exists chs, picks (child_called lib name) (x_children e) chs /\ Forall2 P chs l.

Definition parameter_element (lib : library) (e : xml) (p : parameter) : Prop :=
  says_text lib e (txt "Name") (pp_name p) /\ says_text lib e (txt "Value") (pp_value p).
Definition unit_element (lib : library) (e : xml) (u : cunit) : Prop :=
  says_text lib e (txt "TagName") (u_tag_name u) /\ says_int lib e (txt "Address") (u_address u)
  /\ says_text lib e (txt "UnitType") (u_unit_type u) /\ says_text lib e (txt "UnitName") (u_unit_name u)
  /\ says_text lib e (txt "SerialNumber") (u_serial_number u)
  /\ says_text lib e (txt "CatalogNumber") (u_catalog_number u)
  /\ elements lib e (txt "PP") (parameter_element lib) (u_pp u).
Definition group_element (lib : library) (e : xml) (g : group) : Prop :=
  says_int lib e (txt "Address") (g_address g) /\ says_text lib e (txt "TagName") (g_tag_name g).
Definition application_element (lib : library) (e : xml) (a : application) : Prop :=
  says_int lib e (txt "Address") (a_address a) /\ says_text lib e (txt "TagName") (a_tag_name a)
  /\ says_text lib e (txt "Description") (a_description a)
  /\ elements lib e (txt "Group") (group_element lib) (a_groups a).
(** The network's last Interface element and its type. *)
Definition interface_element (lib : library) (e : xml) (i : option (option text)) : Prop :=
  match i with
  | None => Forall (fun ch => ~ child_called lib (txt "Interface") ch) (x_children e)
  | Some t => exists ch, last_such (child_called lib (txt "Interface")) (x_children e) ch
                /\ says_text lib ch (txt "InterfaceType") t
  end.
Definition network_element (lib : library) (e : xml) (n : network) : Prop :=
  says_int lib e (txt "Address") (n_address n) /\ says_text lib e (txt "TagName") (n_tag_name n)
  /\ says_int lib e (txt "NetworkNumber") (n_number n) /\ interface_element lib e (n_interface n)
  /\ elements lib e (txt "Application") (application_element lib) (n_applications n)
  /\ elements lib e (txt "Unit") (unit_element lib) (n_units n).
(** The document's last Project element has these networks. *)
Definition describes (lib : library) (root : xml) (ns : list network) : Prop :=
  exists p, last_such (child_called lib (txt "Project")) (x_children root) p
    /\ elements lib p (txt "Network") (network_element lib) ns.

(** ** Files *)

(** The XML document in the file, if the file has the right form: an archive
    with a single member named like an XML document, or, only when given by its
    name, an XML document. *)
Inductive holds : source -> xml -> Prop :=
| holds_name n e : (exists base, n = base ++ txt ".xml") -> holds (FileName (Archive [(n, Some e)])) e
| holds_open n e : (exists base, n = base ++ txt ".xml") -> holds (OpenFile (Archive [(n, Some e)])) e
| holds_plain e : holds (FileName (Plain (Some e))) e.
