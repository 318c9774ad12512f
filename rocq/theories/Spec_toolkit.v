(** What a dump of a project and the graph made from it contain. *)
From Coq Require Import String List ZArith Bool.
From Verif Require Import Py Text Project Mqtt Spec_mqtt Spec_cbz Toolkit.
Import ListNotations.
Open Scope Z_scope.
Notation length := List.length.

(** ** The channels of a unit *)

(** The words of a text separated by single spaces. *)
Fixpoint spaced (ws : list text) : text :=
  match ws with
  | [] => []
  | [w] => w
  | w :: ws' => w ++ 32 :: spaced ws'
  end.
Definition words (s : text) (ws : list text) : Prop :=
  ws <> [] /\ Forall (fun w => ~ In 32 w) ws /\ s = spaced ws.
(** Hexadecimal digits and what they stand for. *)
Definition hex_is (c d : Z) : Prop :=
  (48 <= c <= 57 /\ d = c - 48) \/ (65 <= c <= 70 /\ d = c - 55) \/ (97 <= c <= 102 /\ d = c - 87).
Definition base16 (ds : list Z) : Z := fold_left (fun a d => a * 16 + d) ds 0.
(** What Python's [int(_, 16)] reads: blanks, a sign, 0x or 0X and perhaps an
    underscore, digits that may be separated by single underscores, blanks. *)
Inductive hex_numeral : text -> list Z -> Prop :=
| hex_last c d : hex_is c d -> hex_numeral [c] [d]
| hex_next c d l ds : hex_is c d -> hex_numeral l ds -> hex_numeral (c :: l) (d :: ds)
| hex_separated c d l ds : hex_is c d -> hex_numeral l ds -> hex_numeral (c :: 95 :: l) (d :: ds).
Definition hex_prefix (t : text) : Prop :=
  t = [] \/ t = txt "0x" \/ t = txt "0X" \/ t = txt "0x_" \/ t = txt "0X_".
Definition hex_text (u : unicode) (s : text) (v : Z) : Prop :=
  exists t before sign prefix l ds after, Forall2 (ascii_char u) s t
    /\ t = before ++ sign ++ prefix ++ l ++ after /\ Forall blank before /\ Forall blank after
    /\ hex_prefix prefix /\ hex_numeral l ds
    /\ ((sign = [] /\ v = base16 ds) \/ (sign = [43] /\ v = base16 ds) \/ (sign = [45] /\ v = - base16 ds)).
(** Two characters, whatever they are, and a hexadecimal number. *)
Definition channel_word (u : unicode) (w : text) (z : Z) : Prop :=
  exists s, (length w < 2 /\ s = [] \/ exists a b, w = a :: b :: s)%nat /\ hex_text u s z.
(** All words of all parameters called GroupAddress, in order. *)
Inductive channels (u : unicode) : list parameter -> list Z -> Prop :=
| channels_none : channels u [] []
| channels_other p l zs : pp_name p <> Some (txt "GroupAddress") -> channels u l zs -> channels u (p :: l) zs
| channels_group p l s ws xs zs : pp_name p = Some (txt "GroupAddress") -> pp_value p = Some s -> words s ws ->
    Forall2 (channel_word u) ws xs -> channels u l zs -> channels u (p :: l) (xs ++ zs).

(** ** Tables *)

Definition key_text (k : option Z) (t : text) : Prop :=
  match k with Some z => decimal z t | None => t = txt "null" end.
(** [x] is the last of [l] with its key. *)
Definition final {A} (key : A -> option Z) (l : list A) (x : A) : Prop := last_such (fun y => key y = key x) l x.
(** [j] is an object with one entry for every key in [l], showing the last
    element with that key. *)
Definition table {A} (key : A -> option Z) (shows : A -> json -> Prop) (l : list A) (j : json) : Prop :=
  exists o, j = JObj o /\ NoDup (map fst o)
    /\ (forall x, final key l x -> exists k v, In (k, v) o /\ key_text (key x) k /\ shows x v)
    /\ (forall k v, In (k, v) o -> exists x, final key l x /\ key_text (key x) k /\ shows x v).

Definition text_or_null (o : option text) : json := match o with Some t => JStr t | None => JNull end.
Definition int_or_null (o : option Z) : json := match o with Some z => JNum (PInt z) | None => JNull end.

Definition shows_application (a : application) (j : json) : Prop :=
  json_at j (txt "name") (text_or_null (a_tag_name a)) /\ json_at j (txt "address") (int_or_null (a_address a))
  /\ json_at j (txt "description") (text_or_null (a_description a))
  /\ exists gs, json_at j (txt "groups") gs
       /\ table g_address (fun g v => v = text_or_null (g_tag_name g)) (a_groups a) gs.
Definition shows_unit (u : unicode) (x : cunit) (j : json) : Prop :=
  json_at j (txt "name") (text_or_null (u_tag_name x)) /\ json_at j (txt "address") (int_or_null (u_address x))
  /\ json_at j (txt "unittype") (text_or_null (u_unit_type x)) /\ json_at j (txt "unitname") (text_or_null (u_unit_name x))
  /\ json_at j (txt "serial") (text_or_null (u_serial_number x)) /\ json_at j (txt "catalog") (text_or_null (u_catalog_number x))
  /\ exists zs, channels u (u_pp x) zs /\ json_at j (txt "groups") (JArr (map (fun z => JNum (PInt z)) zs)).
Definition shows_network (u : unicode) (n : network) (j : json) : Prop :=
  json_at j (txt "name") (text_or_null (n_tag_name n)) /\ json_at j (txt "address") (int_or_null (n_address n))
  /\ json_at j (txt "networknumber") (int_or_null (n_number n))
  /\ (exists l, json_at j (txt "applications") l /\ table a_address shows_application (n_applications n) l)
  /\ exists l, json_at j (txt "units") l /\ table u_address (shows_unit u) (n_units n) l.

(** A parameter that makes the dump fail. *)
Definition bad_parameter (u : unicode) (p : parameter) (x : exn) : Prop :=
  pp_name p = Some (txt "GroupAddress")
  /\ ((pp_value p = None /\ x = AttributeError)
      \/ (exists s ws w, pp_value p = Some s /\ words s ws /\ In w ws /\ (forall z, ~ channel_word u w z) /\ x = ValueError)).

(** ** Graphs *)

Definition group_node (z : Z) (j : json) : Prop := exists d, decimal z d /\ j = JStr (txt "GA " ++ d).
(** The unit [x] of the network, not replaced by a later one with its address,
    has the channel [z]. *)
Definition controls (u : unicode) (n : network) (x : cunit) (z : Z) : Prop :=
  final u_address (n_units n) x /\ exists zs, channels u (u_pp x) zs /\ In z zs.
Definition graph_of (u : unicode) (n : network) (g : subgraph) : Prop :=
  (exists k, key_text (n_address n) k /\ sg_name g = txt "Network_" ++ k)
  /\ (forall j, In j (sg_nodes g) <->
        (exists x, final u_address (n_units n) x /\ j = text_or_null (u_tag_name x))
        \/ (exists x z, controls u n x z /\ group_node z j))
  /\ (forall a b, In (a, b) (sg_edges g) <->
        exists x z, controls u n x z /\ z <> 255 /\ a = text_or_null (u_tag_name x) /\ group_node z b).

(** The graph of any JSON document, not only of a dump.  A unit with a name and
    whole numbers as groups. *)
Definition readable_unit (j : json) (name : json) (zs : list Z) : Prop :=
  json_at j (txt "name") name /\ json_at j (txt "groups") (JArr (map (fun z => JNum (PInt z)) zs)).
(** A network all of whose units are so, and what is drawn for it: a node per
    unit, one per group, an edge from each unit to each of its groups but 255. *)
Definition network_drawn (k : text) (j : json) (g : subgraph) : Prop :=
  exists us parts groups,
    json_at j (txt "units") (JObj us)
    /\ Forall2 (fun u p => readable_unit (snd u) (fst p) (snd p)) us parts
    /\ sg_name g = txt "Network_" ++ k
    /\ sg_nodes g = map fst parts ++ groups /\ NoDup groups
    /\ (forall x, In x groups <-> exists p z, In p parts /\ In z (snd p) /\ group_node z x)
    /\ (forall a b, In (a, b) (sg_edges g) <->
          exists p z, In p parts /\ In z (snd p) /\ z <> 255 /\ a = fst p /\ group_node z b).
Definition readable_network (j : json) : Prop :=
  exists us, json_at j (txt "units") (JObj us) /\ forall u, In u us -> exists name zs, readable_unit (snd u) name zs.
(** What stops the program: something that is not an object, a missing entry, or
    groups that are not a sequence of simple values. *)
Inductive bad_groups : json -> Prop :=
| bg_null : bad_groups JNull
| bg_bool b : bad_groups (JBool b)
| bg_num n : bad_groups (JNum n)
| bg_list l x : In x l -> (exists m, x = JArr m) \/ (exists m, x = JObj m) -> bad_groups (JArr l).
Definition bad_unit (j : json) : Prop :=
  (forall v, ~ json_at j (txt "name") v) \/ (forall v, ~ json_at j (txt "groups") v)
  \/ exists v, json_at j (txt "groups") v /\ bad_groups v.
Definition bad_network (j : json) : Prop :=
  (forall us, ~ json_at j (txt "units") (JObj us))
  \/ exists us u, json_at j (txt "units") (JObj us) /\ In u us /\ bad_unit (snd u).
