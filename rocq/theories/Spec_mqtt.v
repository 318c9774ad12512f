(** Specifications for the MQTT daemon: numerals, topics, payloads, reports,
    labels. *)
From Coq Require Import String List ZArith QArith Bool.
From Verif Require Import Py Common Sal Packet Text Project Mqtt Client Cmqttd Spec Spec_client.
Import ListNotations.
Open Scope Z_scope.

(** ** Numerals *)

Definition digit (c : Z) : Prop := 48 <= c <= 57.
(** The number some decimal digits stand for. *)
Definition value (t : text) : Z := fold_left (fun a c => a * 10 + (c - 48)) t 0.
(** The usual decimal numeral of a natural number: no leading zero. *)
Definition natural (n : Z) (t : text) : Prop :=
  t <> [] /\ Forall digit t /\ (hd 0 t = 48 -> t = [48]) /\ value t = n.
Definition decimal (n : Z) (t : text) : Prop :=
  (0 <= n /\ natural n t) \/ (n < 0 /\ exists t', t = 45 :: t' /\ natural (- n) t').

(** What Python's [int] reads.  Digits may be separated by single underscores:
    [numeral l p] when [p] are the digits of [l]. *)
Inductive numeral : text -> text -> Prop :=
| num_last c : digit c -> numeral [c] [c]
| num_next c l p : digit c -> numeral l p -> numeral (c :: l) (c :: p)
| num_separated c l p : digit c -> numeral l p -> numeral (c :: 95 :: l) (c :: p).
(** Blanks around the number: tab, LF, VT, FF, CR, space. *)
Definition blank (c : Z) : Prop := 9 <= c <= 13 \/ c = 32.
(** ASCII form of a text: other spaces count as spaces, other digits as digits. *)
Definition ascii_char (u : unicode) (c d : Z) : Prop :=
  (c < 127 /\ d = c)
  \/ (127 <= c /\ u_space u c = true /\ d = 32)
  \/ (127 <= c /\ u_space u c = false /\ exists v, u_digit u c = Some v /\ d = 48 + v)
  \/ (127 <= c /\ u_space u c = false /\ u_digit u c = None /\ d = 63).
Definition int_text (u : unicode) (s : text) (v : Z) : Prop :=
  exists t before sign l p after, Forall2 (ascii_char u) s t
    /\ t = before ++ sign ++ l ++ after /\ Forall blank before /\ Forall blank after
    /\ numeral l p
    /\ ((sign = [] /\ v = value p) \/ (sign = [43] /\ v = value p) \/ (sign = [45] /\ v = - value p)).

(** ** Topics *)

Inductive topic_kind := LightSet | LightState | LightConfig | SensorState | SensorConfig.
Definition topic_before (k : topic_kind) : text :=
  match k with
  | LightSet | LightState | LightConfig => txt "homeassistant/light/cbus_"
  | SensorState | SensorConfig => txt "homeassistant/binary_sensor/cbus_"
  end.
Definition topic_after (k : topic_kind) : text :=
  match k with
  | LightSet => txt "/set"
  | LightState | SensorState => txt "/state"
  | LightConfig | SensorConfig => txt "/config"
  end.
(** The API function for each kind. *)
Definition topic_function (k : topic_kind) : Z -> text :=
  match k with
  | LightSet => set_topic
  | LightState => state_topic
  | LightConfig => conf_topic
  | SensorState => bin_sensor_state_topic
  | SensorConfig => bin_sensor_conf_topic
  end.
Definition is_topic (k : topic_kind) (ga : Z) (t : text) : Prop :=
  exists d, decimal ga d /\ t = topic_before k ++ d ++ topic_after k.
Definition is_light (k : topic_kind) : Prop := topic_before k = txt "homeassistant/light/cbus_".

(** [addresses u topic n]: the topic is the light prefix, then a number [n],
    then nothing or a slash and anything. *)
Definition addresses (u : unicode) (topic : text) (n : Z) : Prop :=
  exists s rest, topic = txt "homeassistant/light/cbus_" ++ s ++ rest
    /\ ~ In 47 s /\ (rest = [] \/ exists r, rest = 47 :: r) /\ int_text u s n.
(** A topic that commands a light. *)
Definition commands (u : unicode) (topic : text) (ga : Z) : Prop :=
  addresses u topic ga /\ group_address ga /\ exists a, topic = a ++ txt "/set".

(** ** Payloads *)

(** The value of a key in an object (keys are unique; the first counts). *)
Definition has (l : list (text * json)) (k : text) (v : json) : Prop :=
  exists a b, l = a ++ (k, v) :: b /\ forall v', ~ In (k, v') a.
Definition lacks (l : list (text * json)) (k : text) : Prop := forall v, ~ In (k, v) l.
(** [int(j)]; a fraction is cut off. *)
Inductive number (u : unicode) : json -> Z -> Prop :=
| number_bool b : number u (JBool b) (if b then 1 else 0)
| number_int z : number u (JNum (PInt z)) z
| number_up q z : (0 <= q)%Q -> (inject_Z z <= q)%Q -> (q < inject_Z (z + 1))%Q -> number u (JNum (PFloat q)) z
| number_down q z : (q < 0)%Q -> (inject_Z (z - 1) < q)%Q -> (q <= inject_Z z)%Q -> number u (JNum (PFloat q)) z
| number_text s z : int_text u s z -> number u (JStr s) z.
Definition field (u : unicode) (l : list (text * json)) (k : text) (default v : Z) : Prop :=
  (lacks l k /\ v = default) \/ exists j, has l k j /\ number u j v.
(** The field is there but is not a number. *)
Definition field_bad (u : unicode) (l : list (text * json)) (k : text) : Prop :=
  exists j, has l k j /\ forall v, ~ number u j v.
Definition on_text (s : text) : Prop :=
  s = txt "ON" \/ s = txt "On" \/ s = txt "oN" \/ s = txt "on".

(** What a payload asks for. *)
Inductive wish := WishOn | WishOff | WishRamp (level seconds : Z).
(** [wishes on b t w]: state ON or not, brightness [b] and transition [t] ask
    for [w].  There is none for ON with a negative brightness. *)
Inductive wishes : bool -> Z -> Z -> wish -> Prop :=
| wish_off b t : wishes false b t WishOff
| wish_on b t : 255 <= b -> t <= 0 -> wishes true b t WishOn
| wish_ramp b t : 0 <= b -> ~ (255 <= b /\ t <= 0) -> wishes true b t (WishRamp (Z.min b 255) (Z.max t 0)).
(** The payload [l] has these fields. *)
Definition asks (u : unicode) (l : list (text * json)) (on : bool) (b t : Z) : Prop :=
  exists s, has l (txt "state") (JStr s) /\ (on = true <-> on_text s)
    /\ field u l (txt "brightness") 255 b /\ field u l (txt "transition") 0 t.

(** The C-Bus command for a wish. *)
Definition wish_command (ga : Z) (w : wish) (s : sal) : Prop :=
  match w with
  | WishOn => s = LightOn ga
  | WishOff => s = LightOff ga
  | WishRamp level seconds => exists d, rounds_to seconds d /\ s = LightRamp ga d (PInt level)
  end.

(** ** Reports *)

(** The two messages that report the state of a light. *)
Definition reports (ga : Z) (source : option Z) (on : bool) (brightness : pynum) (transition : Z) (sensor : bool)
    (l : list message) : Prop :=
  exists light binary, is_topic LightState ga light /\ is_topic SensorState ga binary /\
  l = [mkMessage light
         (PJson (JObj [(txt "state", JStr (txt (if on then "ON" else "OFF")));
                       (txt "brightness", JNum brightness);
                       (txt "transition", JNum (PInt transition));
                       (txt "cbus_source_addr", match source with Some a => JNum (PInt a) | None => JNull end)]))
         1 true;
       mkMessage binary (PRaw (txt (if sensor then "ON" else "OFF"))) 1 true].
Definition wish_report (ga : Z) (w : wish) : list message -> Prop :=
  match w with
  | WishOn => reports ga None true (PInt 255) 0 true
  | WishOff => reports ga None false (PInt 0) 0 false
  | WishRamp level seconds => reports ga None true (PInt level) seconds (0 <? level)
  end.
(** The report due for a received command, if any.  The levels received are
    integers 0..255. *)
Inductive event_report (source : option Z) : sal -> list message -> Prop :=
| report_on ga l : reports ga source true (PInt 255) 0 true l -> event_report source (LightOn ga) l
| report_off ga l : reports ga source false (PInt 0) 0 false l -> event_report source (LightOff ga) l
| report_ramp ga d level l : reports ga source true (PInt level) d (0 <? level) l ->
    event_report source (LightRamp ga d (PInt level)) l
| report_none s : (forall ga, s <> LightOn ga /\ s <> LightOff ga) -> (forall ga d level, s <> LightRamp ga d level) ->
    event_report source s [].
Inductive event_reports (source : option Z) : list sal -> list message -> Prop :=
| reports_nil : event_reports source [] []
| reports_cons s sals l ls : event_report source s l -> event_reports source sals ls ->
    event_reports source (s :: sals) (l ++ ls).

(** ** Discovery *)

Definition json_at (j : json) (k : text) (v : json) : Prop := exists l, j = JObj l /\ has l k v.
(** [n] with at least three digits. *)
Definition three_digits (n : Z) (t : text) : Prop :=
  (length t >= 3)%nat /\ Forall digit t /\ value t = n /\ ((length t > 3)%nat -> hd 0 t <> 48).
(** The name of a group: its label, otherwise "C-Bus Light NNN". *)
Definition named (labels : list (Z * text)) (ga : Z) (name : text) : Prop :=
  (exists a b, labels = a ++ (ga, name) :: b /\ forall n, ~ In (ga, n) a)
  \/ ((forall n, ~ In (ga, n) labels) /\ exists d, three_digits ga d /\ name = txt "C-Bus Light " ++ d).
(** The device block of an announcement for address [ga]: one identifier of its
    own, the address it stands for, and the daemon's device as the way to it. *)
Definition is_device (identifier : text) (ga : Z) (j : json) : Prop :=
  exists dev d name, json_at j (txt "device") dev /\ decimal ga d /\ three_digits ga name
    /\ json_at dev (txt "identifiers") (JArr [JStr identifier])
    /\ json_at dev (txt "connections") (JArr [JArr [JStr (txt "cbus_group_address"); JStr d]])
    /\ json_at dev (txt "name") (JStr (txt "C-Bus Light " ++ name))
    /\ json_at dev (txt "sw_version") (JStr (txt "cmqttd https://github.com/micolous/cbus"))
    /\ json_at dev (txt "manufacturer") (JStr (txt "Clipsal"))
    /\ json_at dev (txt "model") (JStr (txt "C-Bus Lighting Application"))
    /\ json_at dev (txt "via_device") (JStr (txt "cmqttd")).
Definition is_light_config (labels : list (Z * text)) (ga : Z) (m : message) : Prop :=
  is_topic LightConfig ga (m_topic m) /\ m_qos m = 1 /\ m_retain m = true /\
  exists j name d set state, m_payload m = PJson j /\ named labels ga name /\ decimal ga d
    /\ is_topic LightSet ga set /\ is_topic LightState ga state
    /\ json_at j (txt "name") (JStr name) /\ json_at j (txt "unique_id") (JStr (txt "cbus_light_" ++ d))
    /\ json_at j (txt "cmd_t") (JStr set) /\ json_at j (txt "stat_t") (JStr state)
    /\ json_at j (txt "schema") (JStr (txt "json")) /\ json_at j (txt "brightness") (JBool true)
    /\ is_device (txt "cbus_light_" ++ d) ga j.
Definition is_sensor_config (labels : list (Z * text)) (ga : Z) (m : message) : Prop :=
  is_topic SensorConfig ga (m_topic m) /\ m_qos m = 1 /\ m_retain m = true /\
  exists j name d state, m_payload m = PJson j /\ named labels ga name /\ decimal ga d
    /\ is_topic SensorState ga state
    /\ json_at j (txt "name") (JStr (name ++ txt " (as binary sensor)"))
    /\ json_at j (txt "unique_id") (JStr (txt "cbus_bin_sensor_" ++ d))
    /\ json_at j (txt "stat_t") (JStr state)
    /\ is_device (txt "cbus_bin_sensor_" ++ d) ga j.
Definition is_daemon_config (m : message) : Prop :=
  m_topic m = txt "homeassistant/binary_sensor/cbus_cmqttd/config" /\ m_qos m = 1 /\ m_retain m = true
  /\ exists j dev, m_payload m = PJson j
    /\ json_at j (txt "~") (JStr (txt "homeassistant/binary_sensor/cbus_cmqttd"))
    /\ json_at j (txt "name") (JStr (txt "cmqttd")) /\ json_at j (txt "unique_id") (JStr (txt "cmqttd"))
    /\ json_at j (txt "stat_t") (JStr (txt "~/state")) /\ json_at j (txt "device") dev
    /\ json_at dev (txt "identifiers") (JArr [JStr (txt "cmqttd")])
    /\ json_at dev (txt "name") (JStr (txt "cmqttd"))
    /\ json_at dev (txt "sw_version") (JStr (txt "cmqttd https://github.com/micolous/cbus"))
    /\ json_at dev (txt "manufacturer") (JStr (txt "micolous"))
    /\ json_at dev (txt "model") (JStr (txt "libcbus")).
(** What the broker's clients tell an announcement's entity and device by. *)
Definition known_by (m : message) (i : text) : Prop :=
  exists j dev, m_payload m = PJson j /\ json_at j (txt "unique_id") (JStr i)
    /\ json_at j (txt "device") dev /\ json_at dev (txt "identifiers") (JArr [JStr i]).

(** ** Labels *)

(** White space as [str.strip] sees it. *)
Definition white (u : unicode) (c : Z) : Prop :=
  (c < 127 /\ (9 <= c <= 13 \/ 28 <= c <= 32)) \/ (127 <= c /\ u_space u c = true).
Definition trimmed (u : unicode) (t name : text) : Prop :=
  exists before after, t = before ++ name ++ after /\ Forall (white u) before /\ Forall (white u) after
    /\ (name = [] \/ (~ white u (hd 0 name) /\ ~ white u (last name 0))).
(** How an address (None if the project gives none) is written. *)
Definition written (a : option Z) (d : text) : Prop :=
  match a with Some x => decimal x d | None => d = txt "None" end.
(** A name someone chose. *)
Definition chosen (a : option Z) (name : text) : Prop :=
  name <> [] /\ name <> txt "<Unused>" /\ ~ exists d, written a d /\ name = txt "Group " ++ d.
(** The group's trimmed name is [name], and someone chose it. *)
Definition group_named (u : unicode) (g : group) (a : option Z) (name : text) : Prop :=
  exists t, g_address g = a /\ g_tag_name g = Some t /\ trimmed u t name /\ chosen a name.
(** The last group with address [a] and a chosen name is called [name]. *)
Definition last_named (u : unicode) (gs : list group) (a : option Z) (name : text) : Prop :=
  exists before g after, gs = before ++ g :: after /\ group_named u g a name
    /\ forall g' name', In g' after -> ~ group_named u g' a name'.
Definition bridge (n : network) : Prop := n_interface n = Some (Some (txt "bridge")).
(** Exactly one element of the list satisfies P, namely [x]. *)
Definition only {A} (P : A -> Prop) (l : list A) (x : A) : Prop :=
  exists a b, l = a ++ x :: b /\ P x /\ Forall (fun y => ~ P y) (a ++ b).
(** The groups that are read. *)
Definition lighting_groups (networks : list network) (gs : list group) : Prop :=
  exists n a, only (fun n => ~ bridge n) networks n /\ only (fun a => a_address a = Some 0x38) (n_applications n) a
    /\ gs = a_groups a.
