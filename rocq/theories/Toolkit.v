(** Model of cbus/toolkit/dump_labels.py and cbus/toolkit/graph.py.  No proofs in
    this file.

    The JSON document is modelled as the value written by [json.dump] and read
    by [json.load]; that writing and reading it gives the same value is taken
    from the standard library. *)
From Coq Require Import List ZArith Bool String.
From Verif Require Import Py Text Project Cbz.
Import ListNotations.
Open Scope Z_scope.

(** [s.split(' ')].  dump_labels.py 97. *)
Fixpoint split_space (s : text) : list text :=
  match s with
  | [] => [[]]
  | c :: s' =>
      if c =? 32 then [] :: split_space s'
      else match split_space s' with w :: ws => (c :: w) :: ws | [] => [[c]] end
  end.

(** The value of a hexadecimal digit.  Part of dump_labels.py 96. *)
Definition hex_digit (c : Z) : option Z :=
  if (48 <=? c) && (c <=? 57) then Some (c - 48)
  else if (65 <=? c) && (c <=? 70) then Some (c - 55)
  else if (97 <=? c) && (c <=? 102) then Some (c - 87)
  else None.
(** Part of dump_labels.py 96. *)
Fixpoint hex_digits (after_digit : bool) (acc : Z) (l : text) : option Z :=
  match l with
  | [] => if after_digit then Some acc else None
  | c :: l' =>
      match hex_digit c with
      | Some d => hex_digits true (acc * 16 + d) l'
      | None => if (c =? 95) && after_digit then hex_digits false acc l' else None
      end
  end.
(** After the sign: [0x] or [0X], then possibly one underscore, may come before
    the digits.  Part of dump_labels.py 96. *)
Definition hex_number (s : text) : option Z :=
  match s with
  | 48 :: x :: s' =>
      if (x =? 120) || (x =? 88)
      then match s' with 95 :: s'' => hex_digits false 0 s'' | _ => hex_digits false 0 s' end
      else hex_digits false 0 s
  | _ => hex_digits false 0 s
  end.
(** [int(s, 16)] for a str.  dump_labels.py 96. *)
Definition py_int16_of_text (u : unicode) (s : text) : res Z :=
  let s := strip_by int_space (map (int_normalise u) s) in
  let r :=
    match s with
    | 45 :: s' => option_map Z.opp (hex_number s')
    | 43 :: s' => hex_number s'
    | _ => hex_number s
    end in
  match r with Some z => Ok z | None => Raise ValueError end.

(** dump_labels.py 93-97. *)
Fixpoint unit_channels (u : unicode) (pps : list parameter) : res (list Z) :=
  match pps with
  | [] => Ok []
  | p :: pps' =>
      match pp_name p with
      | Some n =>
          if text_eqb n (txt "GroupAddress") then
            match pp_value p with
            | None => Raise AttributeError
            | Some s =>
                rbind (map_res (fun c => py_int16_of_text u (skipn 2 c)) (split_space s)) (fun cs =>
                rbind (unit_channels u pps') (fun cs' => Ok (cs ++ cs')))
            end
          else unit_channels u pps'
      | None => unit_channels u pps'
      end
  end.

(** An optional text or int in JSON.  dump_labels.py 71, 80-82, 87 and 103-108. *)
Definition json_text (o : option text) : json := match o with Some t => JStr t | None => JNull end.
(** dump_labels.py 72-73, 81 and 104. *)
Definition json_int (o : option Z) : json := match o with Some z => JNum (PInt z) | None => JNull end.
(** [json.dump] writes the keys of a dict as strings.  dump_labels.py 115. *)
Definition json_key (k : option Z) : text := match k with Some z => py_str z | None => txt "null" end.
(** dump_labels.py 115. *)
Definition json_dict (l : list (option Z * json)) : json := JObj (map (fun e => (json_key (fst e), snd e)) l).

(** dump_labels.py 86-87. *)
Definition dump_groups (gs : list group) : list (option Z * json) :=
  fold_left (fun d g => dict_set (g_address g) (json_text (g_tag_name g)) d) gs [].
(** dump_labels.py 79-84. *)
Definition dump_application (a : application) : json :=
  JObj [(txt "name", json_text (a_tag_name a)); (txt "address", json_int (a_address a));
        (txt "description", json_text (a_description a)); (txt "groups", json_dict (dump_groups (a_groups a)))].
(** dump_labels.py 78-89. *)
Definition dump_applications (l : list application) : list (option Z * json) :=
  fold_left (fun d a => dict_set (a_address a) (dump_application a) d) l [].
(** dump_labels.py 102-110. *)
Definition dump_unit (x : cunit) (channels : list Z) : json :=
  JObj [(txt "name", json_text (u_tag_name x)); (txt "address", json_int (u_address x));
        (txt "unittype", json_text (u_unit_type x)); (txt "unitname", json_text (u_unit_name x));
        (txt "serial", json_text (u_serial_number x)); (txt "catalog", json_text (u_catalog_number x));
        (txt "groups", JArr (map (fun z => JNum (PInt z)) channels))].
(** dump_labels.py 91-110. *)
Fixpoint dump_units (u : unicode) (l : list cunit) (d : list (option Z * json)) : res (list (option Z * json)) :=
  match l with
  | [] => Ok d
  | x :: l' => rbind (unit_channels u (u_pp x)) (fun cs => dump_units u l' (dict_set (u_address x) (dump_unit x cs) d))
  end.
(** dump_labels.py 70-76. *)
Definition dump_network (n : network) (units : list (option Z * json)) : json :=
  JObj [(txt "name", json_text (n_tag_name n)); (txt "address", json_int (n_address n));
        (txt "networknumber", json_int (n_number n));
        (txt "applications", json_dict (dump_applications (n_applications n))); (txt "units", json_dict units)].
(** dump_labels.py 66-112. *)
Fixpoint dump_networks (u : unicode) (l : list network) (d : list (option Z * json)) : res (list (option Z * json)) :=
  match l with
  | [] => Ok d
  | n :: l' =>
      rbind (dump_units u (n_units n) []) (fun us =>
      dump_networks u l' (dict_set (n_address n) (dump_network n us) d))
  end.
(** dump_labels.py 65-115: the value written. *)
Definition dump_labels (u : unicode) (l : list network) : res json :=
  rbind (dump_networks u l []) (fun d => Ok (json_dict d)).
(** dump_labels.py 59-115 for a file given by its name. *)
Definition dump_file (lib : library) (c : contents) : res json :=
  rbind (cbz_installation lib (FileName c)) (fun i =>
  rbind (project_networks i) (fun ns => dump_labels (lib_unicode lib) ns)).

(** ** graph.py *)

(** A pydot subgraph: its name, the names of its nodes and its edges.  The name
    of a unit is what the JSON document has (a string or null).  graph.py 48-67. *)
Record subgraph : Set := mkSubgraph { sg_name : text; sg_nodes : list json; sg_edges : list (json * json) }.

(** [d[key]] for a decoded JSON value.  graph.py 51-56. *)
Definition jindex (j : json) (key : text) : res json :=
  match j with
  | JObj l => match jlookup key l with Some v => Ok v | None => Raise KeyError end
  | _ => Raise TypeError
  end.
(** [d.items()].  graph.py 45 and 51. *)
Definition jitems (j : json) : res (list (text * json)) :=
  match j with JObj l => Ok l | _ => Raise AttributeError end.
(** The groups of a unit.  Simplification: anything but a list of ints is a
    TypeError here; the program also takes strings, objects and lists with other
    simple values, about which nothing is claimed.  graph.py 54-56. *)
Definition jints (j : json) : res (list Z) :=
  match j with
  | JArr l => map_res (fun v => match v with JNum (PInt z) => Ok z | _ => Raise TypeError end) l
  | _ => Raise TypeError
  end.
(** [f'GA {x}'].  graph.py 59 and 62. *)
Definition ga_node (x : Z) : json := JStr (txt "GA " ++ py_str x).
(** graph.py 51-59: node, loads and edges of one unit. *)
Definition graph_unit (unit : json) : res (json * list Z * list (json * json)) :=
  rbind (jindex unit (txt "name")) (fun name =>
  rbind (jindex unit (txt "groups")) (fun gs =>
  rbind (jints gs) (fun xs =>
  Ok (name, xs, map (fun x => (name, ga_node x)) (filter (fun x => negb (x =? 255)) xs))))).
(** graph.py 45-67.  The order in which Python iterates over the set of loads is
    not determined; here it is that of [nodup]. *)
Definition graph_network (item : text * json) : res subgraph :=
  rbind (jindex (snd item) (txt "units")) (fun us =>
  rbind (jitems us) (fun items =>
  rbind (map_res (fun i => graph_unit (snd i)) items) (fun l =>
  Ok (mkSubgraph (txt "Network_" ++ fst item)
        (map (fun x => fst (fst x)) l ++ map ga_node (nodup Z.eq_dec (flat_map (fun x => snd (fst x)) l)))
        (flat_map snd l))))).
(** graph.py 37-67. *)
Definition generate_graph (networks : json) : res (list subgraph) :=
  rbind (jitems networks) (fun items => map_res graph_network items).
