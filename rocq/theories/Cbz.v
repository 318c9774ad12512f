(** Model of cbus/toolkit/cbz.py, the reader of C-Bus Toolkit project files, and
    of read_cbz_labels on a file.  No proofs in this file. *)
From Coq Require Import List ZArith Bool String.
From Verif Require Import Py Common Text Project Mqtt Cmqttd.
Import ListNotations.
Open Scope Z_scope.

(** An element as xml.etree.ElementTree gives it: tag, attributes, [.text]
    (None when there is no text before the first child) and child elements.
    XML parsing itself is the standard library's and not modelled.
    cbz.py 66 and 79-82. *)
Inductive xml : Set :=
| Elem (tag : text) (attrs : list (text * text)) (body : option text) (children : list xml).
Definition x_tag (e : xml) : text := match e with Elem t _ _ _ => t end.  (* cbz.py 83 *)
Definition x_attrs (e : xml) : list (text * text) := match e with Elem _ a _ _ => a end.  (* cbz.py 66 *)
Definition x_body (e : xml) : option text := match e with Elem _ _ b _ => b end.  (* cbz.py 102-104 *)
Definition x_children (e : xml) : list xml := match e with Elem _ _ _ c => c end.  (* cbz.py 79-82 *)

(** What the standard library does and this model leaves open.  [lib_lower c]:
    [chr(c).lower()], used for code points >= 128 only; [lib_uuid s]: the value
    of [UUID(s)], None when it raises ValueError; [lib_date s]: the value of
    [datetime.fromisoformat(s)], None when it raises ValueError.
    Simplification: the context-dependent lower case of the Greek capital sigma
    is not modelled.  For cbz.py 51 and 101-104. *)
Record library := mkLibrary {
  lib_unicode : unicode; lib_lower : Z -> text;
  lib_uuid : text -> option Z; lib_date : text -> option Z }.

(** The dataclasses and the types of their fields.  cbz.py 58 and 115-202. *)
Inductive cls : Set :=
| Class (fields : list (text * ftype))
(** cbz.py 58 and 115-202. *)
with ftype : Set :=
| FText | FInt | FUuid | FDate
| FElem (c : cls)           (* another dataclass *)
| FSeq (c : cls).           (* Sequence of another dataclass *)
(** cbz.py 58 and 115-202. *)
Definition c_fields (c : cls) : list (text * ftype) := match c with Class l => l end.

(** Instances: a value for every field.  cbz.py 112. *)
Inductive datum : Set :=
| VNone
| VText (t : text)
| VInt (z : Z)
| VUuid (z : Z)
| VDate (z : Z)
| VObj (fields : list (text * datum))
| VList (l : list datum).

(** cbz.py 36-44. *)
Definition new_field (t : ftype) : datum :=
  match t with FSeq _ => VList [] | _ => VNone end.

(** [s.lower()].  cbz.py 51. *)
Definition py_lower (lib : library) (s : text) : text :=
  flat_map (fun c => if c <? 128 then [if (65 <=? c) && (c <=? 90) then c + 32 else c]
                     else lib_lower lib c) s.
(** cbz.py 49-51; 95 is '_', 115 is 's'. *)
Definition normalise_name (lib : library) (name : text) : text :=
  rev (drop_while (fun c => c =? 115) (rev (filter (fun c => negb (c =? 95)) (py_lower lib name)))).

(** cbz.py 58-59, 70, 86: the field whose normalised name is the normalised
    [key]. *)
Definition find_field (lib : library) (fields : list (text * ftype)) (key : text)
  : option (text * ftype) :=
  List.find (fun f => text_eqb (normalise_name lib (fst f)) (normalise_name lib key)) fields.

(** [params[name] = v]; every field has an entry.  cbz.py 76 and 109. *)
Definition put (name : text) (v : datum) (params : list (text * datum)) : list (text * datum) :=
  map (fun p => if text_eqb (fst p) name then (name, v) else p) params.
(** [params[name].append(v)].  cbz.py 107. *)
Definition put_last (name : text) (v : datum) (params : list (text * datum)) : list (text * datum) :=
  map (fun p => if text_eqb (fst p) name
                then (name, match snd p with VList l => VList (l ++ [v]) | w => w end)
                else p) params.

(** cbz.py 76: [field.type(value)].  A dataclass cannot be made from one str
    (each has two fields or more), nor a Sequence, nor a datetime (this ignores
    that datetime accepts its own 10-character pickles). *)
Definition from_attribute (lib : library) (t : ftype) (s : text) : res datum :=
  match t with
  | FText => Ok (VText s)
  | FInt => rbind (py_int_of_text (lib_unicode lib) s) (fun z => Ok (VInt z))
  | FUuid => match lib_uuid lib s with Some z => Ok (VUuid z) | None => Raise ValueError end
  | FDate => Raise TypeError
  | FElem _ => Raise TypeError
  | FSeq _ => Raise TypeError
  end.
(** cbz.py 101-104: [child_type(child.text)]; [str(None)] is 'None'. *)
Definition from_text (lib : library) (t : ftype) (s : option text) : res datum :=
  match t, s with
  | FText, Some s => Ok (VText s)
  | FText, None => Ok (VText (txt "None"))
  | FInt, Some s => rbind (py_int_of_text (lib_unicode lib) s) (fun z => Ok (VInt z))
  | FUuid, Some s => match lib_uuid lib s with Some z => Ok (VUuid z) | None => Raise ValueError end
  | FDate, Some s => match lib_date lib s with Some z => Ok (VDate z) | None => Raise ValueError end
  | _, _ => Raise TypeError
  end.

(** cbz.py 65-76. *)
Fixpoint read_attributes (lib : library) (fields : list (text * ftype)) (attrs : list (text * text))
  (params : list (text * datum)) : res (list (text * datum)) :=
  match attrs with
  | [] => Ok params
  | (key, s) :: attrs' =>
      match find_field lib fields key with
      | None => read_attributes lib fields attrs' params
      | Some (name, t) =>
          rbind (from_attribute lib t s) (fun v => read_attributes lib fields attrs' (put name v params))
      end
  end.

(** cbz.py 53-112. *)
Fixpoint from_element (lib : library) (e : xml) (c : cls) {struct e} : res datum :=
  match e with
  | Elem _ attrs _ children =>
      rbind (read_attributes lib (c_fields c) attrs (map (fun f => (fst f, new_field (snd f))) (c_fields c)))
      (fun params =>
      rbind ((fix read_children (l : list xml) (params : list (text * datum)) {struct l}
                : res (list (text * datum)) :=
                match l with
                | [] => Ok params
                | child :: l' =>
                    match find_field lib (c_fields c) (x_tag child) with
                    | None => read_children l' params
                    | Some (name, FSeq c') =>
                        rbind (from_element lib child c') (fun v => read_children l' (put_last name v params))
                    | Some (name, FElem c') =>
                        rbind (from_element lib child c') (fun v => read_children l' (put name v params))
                    | Some (name, t) =>
                        rbind (from_text lib t (x_body child)) (fun v => read_children l' (put name v params))
                    end
                end) children params)
      (fun params => Ok (VObj params)))
  end.

(** cbz.py 115-202.  Inherited fields come first. *)
Definition PP_class : cls := Class [(txt "name", FText); (txt "value", FText)].
Definition base_fields : list (text * ftype) := [(txt "oid", FUuid)].  (* cbz.py 121-124 *)
(** cbz.py 126-131. *)
Definition network_fields : list (text * ftype) :=
  base_fields ++ [(txt "tag_name", FText); (txt "address", FInt); (txt "description", FText)].
(** cbz.py 133-137. *)
Definition Interface_class : cls :=
  Class (base_fields ++ [(txt "interface_type", FText); (txt "interface_address", FText)]).
(** cbz.py 139-147. *)
Definition Unit_class : cls :=
  Class (network_fields ++
    [(txt "unit_type", FText); (txt "unit_name", FText); (txt "serial_number", FText);
     (txt "firmware_version", FText); (txt "catalog_number", FText); (txt "pp", FSeq PP_class)]).
Definition Level_class : cls := Class (network_fields ++ [(txt "value", FInt)]).  (* cbz.py 149-152 *)
(** cbz.py 154-157. *)
Definition Group_class : cls := Class (network_fields ++ [(txt "levels", FSeq Level_class)]).
(** cbz.py 159-162. *)
Definition Application_class : cls := Class (network_fields ++ [(txt "groups", FSeq Group_class)]).
(** cbz.py 164-170. *)
Definition Network_class : cls :=
  Class (network_fields ++
    [(txt "network_number", FInt); (txt "interface", FElem Interface_class);
     (txt "applications", FSeq Application_class); (txt "units", FSeq Unit_class)]).
(** cbz.py 172-178. *)
Definition Project_class : cls :=
  Class (base_fields ++
    [(txt "tag_name", FText); (txt "address", FText); (txt "description", FText);
     (txt "network", FSeq Network_class)]).
Definition Installer_class : cls := Class (base_fields ++ [(txt "name", FText)]).  (* cbz.py 180-183 *)
(** cbz.py 185-194. *)
Definition InstallationDetail_class : cls :=
  Class (base_fields ++
    [(txt "system_location", FText); (txt "hardware_platform", FText); (txt "hostname", FText);
     (txt "os_name", FText); (txt "os_version", FText); (txt "hardware_location", FText);
     (txt "installer", FElem Installer_class)]).
(** cbz.py 196-202. *)
Definition Installation_class : cls :=
  Class (base_fields ++
    [(txt "db_version", FText); (txt "version", FText); (txt "modified", FDate);
     (txt "installation_detail", FElem InstallationDetail_class); (txt "project", FElem Project_class)]).

(** What [CBZ(...)] is given: the name of a file or an open file; and the file
    itself: a zip archive with its members, or something else.  The [option xml]
    is what ElementTree.parse makes of the contents, None if it raises.
    cbz.py 211-243. *)
Inductive contents : Set :=
| Archive (members : list (text * option xml))
| Plain (root : option xml).
(** cbz.py 211-243. *)
Inductive source : Set :=
| FileName (c : contents)
| OpenFile (c : contents).

(** cbz.py 241. *)
Definition parsed (x : option xml) : res xml :=
  match x with Some e => Ok e | None => Raise ParseError end.
(** cbz.py 215-241.  Looking for an archive's end record leaves an open file
    which is no archive at its end (zipfile's _EndRecData), so parsing it as XML
    (line 222, 241) finds nothing. *)
Definition cbz_root (s : source) : res xml :=
  match s with
  | FileName (Archive [(name, x)]) | OpenFile (Archive [(name, x)]) =>
      if ends_with (txt ".xml") name then parsed x else Raise CBZException
  | FileName (Archive _) | OpenFile (Archive _) => Raise CBZException
  | FileName (Plain x) => parsed x
  | OpenFile (Plain _) => Raise ParseError
  end.
(** cbz.py 211-243: the installation attribute. *)
Definition cbz_installation (lib : library) (s : source) : res datum :=
  rbind (cbz_root s) (fun e => from_element lib e Installation_class).

(** ** Access to the instances.

    [x.name]; None has no attributes.  cmqttd.py 281-299, dump_labels.py 69-110. *)
Definition attribute (v : datum) (name : text) : res datum :=
  match v with
  | VObj l => match List.find (fun p => text_eqb (fst p) name) l with
              | Some (_, w) => Ok w
              | None => Raise AttributeError
              end
  | _ => Raise AttributeError
  end.
(** The typed reading of a field.  A value of another type does not occur
    ([from_element] gives every field a value of its type or None).
    cmqttd.py 281-299, dump_labels.py 69-110. *)
Definition text_attribute (v : datum) (name : text) : res (option text) :=
  rbind (attribute v name) (fun w =>
  match w with VText t => Ok (Some t) | VNone => Ok None | _ => Raise TypeError end).
(** cmqttd.py 281-299, dump_labels.py 69-110. *)
Definition int_attribute (v : datum) (name : text) : res (option Z) :=
  rbind (attribute v name) (fun w =>
  match w with VInt z => Ok (Some z) | VNone => Ok None | _ => Raise TypeError end).
(** cmqttd.py 281-299, dump_labels.py 69-110. *)
Fixpoint map_res {A B} (f : A -> res B) (l : list A) : res (list B) :=
  match l with
  | [] => Ok []
  | a :: l' => rbind (f a) (fun b => rbind (map_res f l') (fun r => Ok (b :: r)))
  end.
(** cmqttd.py 281-299, dump_labels.py 69-110. *)
Definition list_attribute {A} (f : datum -> res A) (v : datum) (name : text) : res (list A) :=
  rbind (attribute v name) (fun w =>
  match w with VList l => map_res f l | _ => Raise TypeError end).

(** The instances of cbz.py 115-177 as records of Project.v. *)
Definition parameter_of (v : datum) : res parameter :=
  rbind (text_attribute v (txt "name")) (fun n =>
  rbind (text_attribute v (txt "value")) (fun x => Ok (mkParameter n x))).
(** cbz.py 115-177. *)
Definition unit_of (v : datum) : res cunit :=
  rbind (text_attribute v (txt "tag_name")) (fun tn =>
  rbind (int_attribute v (txt "address")) (fun a =>
  rbind (text_attribute v (txt "unit_type")) (fun ut =>
  rbind (text_attribute v (txt "unit_name")) (fun un =>
  rbind (text_attribute v (txt "serial_number")) (fun sn =>
  rbind (text_attribute v (txt "catalog_number")) (fun cn =>
  rbind (list_attribute parameter_of v (txt "pp")) (fun pp =>
  Ok (mkUnit tn a ut un sn cn pp)))))))).
(** cbz.py 115-177. *)
Definition group_of (v : datum) : res group :=
  rbind (int_attribute v (txt "address")) (fun a =>
  rbind (text_attribute v (txt "tag_name")) (fun tn => Ok (mkGroup a tn))).
(** cbz.py 115-177. *)
Definition application_of (v : datum) : res application :=
  rbind (int_attribute v (txt "address")) (fun a =>
  rbind (text_attribute v (txt "tag_name")) (fun tn =>
  rbind (text_attribute v (txt "description")) (fun d =>
  rbind (list_attribute group_of v (txt "groups")) (fun gs => Ok (mkApplication a tn d gs))))).
(** cbz.py 115-177. *)
Definition interface_of (v : datum) : res (option (option text)) :=
  rbind (attribute v (txt "interface")) (fun w =>
  match w with
  | VNone => Ok None
  | _ => rbind (text_attribute w (txt "interface_type")) (fun t => Ok (Some t))
  end).
(** cbz.py 115-177. *)
Definition network_of (v : datum) : res network :=
  rbind (int_attribute v (txt "address")) (fun a =>
  rbind (text_attribute v (txt "tag_name")) (fun tn =>
  rbind (int_attribute v (txt "network_number")) (fun nn =>
  rbind (interface_of v) (fun i =>
  rbind (list_attribute application_of v (txt "applications")) (fun apps =>
  rbind (list_attribute unit_of v (txt "units")) (fun us =>
  Ok (mkNetwork a tn nn i apps us))))))).
(** [cbz.installation.project.network] (cmqttd.py 281, dump_labels.py 69). *)
Definition project_networks (installation : datum) : res (list network) :=
  rbind (attribute installation (txt "project")) (fun p => list_attribute network_of p (txt "network")).

(** cmqttd.py 274-307. *)
Definition read_cbz_file (lib : library) (s : source) : res (list (option Z * text)) :=
  rbind (cbz_installation lib s) (fun i =>
  rbind (project_networks i) (fun ns => read_cbz_labels (lib_unicode lib) ns)).
