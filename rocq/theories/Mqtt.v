(** Model of the topics and of the publishing half of cbus/daemon/cmqttd.py.
    No proofs in this file. *)
From Coq Require Import List ZArith Bool String.
From Verif Require Import Py Common Sal Text.
Import ListNotations.
Open Scope Z_scope.

(** cmqttd.py 40-45. *)
Definition BINSENSOR_TOPIC_PREFIX : text := txt "homeassistant/binary_sensor/cbus_".
Definition LIGHT_TOPIC_PREFIX : text := txt "homeassistant/light/cbus_".  (* cmqttd.py 40-45 *)
Definition TOPIC_SET_SUFFIX : text := txt "/set".  (* cmqttd.py 40-45 *)
Definition TOPIC_CONF_SUFFIX : text := txt "/config".  (* cmqttd.py 40-45 *)
Definition TOPIC_STATE_SUFFIX : text := txt "/state".  (* cmqttd.py 40-45 *)
Definition META_TOPIC : text := txt "homeassistant/binary_sensor/cbus_cmqttd".  (* cmqttd.py 40-45 *)

(** cmqttd.py 48-49. *)
Definition ga_range : list Z := map Z.of_nat (seq 0 256).

(** cmqttd.py 52-59. *)
Definition get_topic_group_address (u : unicode) (topic : text) : res Z :=
  if negb (starts_with LIGHT_TOPIC_PREFIX topic) then Raise ValueError
  else rbind (py_int_of_text u (before_slash (skipn (List.length LIGHT_TOPIC_PREFIX) topic))) (fun ga =>
       rbind (check_ga ga) (fun _ => Ok ga)).

(** cmqttd.py 62-84. *)
Definition set_topic (ga : Z) : text := LIGHT_TOPIC_PREFIX ++ py_str ga ++ TOPIC_SET_SUFFIX.
(** cmqttd.py 62-84. *)
Definition state_topic (ga : Z) : text := LIGHT_TOPIC_PREFIX ++ py_str ga ++ TOPIC_STATE_SUFFIX.
(** cmqttd.py 62-84. *)
Definition conf_topic (ga : Z) : text := LIGHT_TOPIC_PREFIX ++ py_str ga ++ TOPIC_CONF_SUFFIX.
(** cmqttd.py 62-84. *)
Definition bin_sensor_state_topic (ga : Z) : text :=
  BINSENSOR_TOPIC_PREFIX ++ py_str ga ++ TOPIC_STATE_SUFFIX.
(** cmqttd.py 62-84. *)
Definition bin_sensor_conf_topic (ga : Z) : text :=
  BINSENSOR_TOPIC_PREFIX ++ py_str ga ++ TOPIC_CONF_SUFFIX.

(** A call of paho's [Client.publish(topic, payload, qos, retain)].  [PJson j]
    stands for [json.dumps(j)]; its text is [payload_text] of Json.v.
    cmqttd.py 173-176 and 230-233. *)
Inductive payload : Set := PJson (j : json) | PRaw (s : text).
(** cmqttd.py 173-176 and 230-233. *)
Record message : Set := mkMessage {
  m_topic : text; m_payload : payload; m_qos : Z; m_retain : bool }.

(** cmqttd.py 173-176. *)
Definition publish (topic : text) (j : json) : message := mkMessage topic (PJson j) 1 true.
(** cmqttd.py 230-233. *)
Definition publish_binary_sensor (ga : Z) (state : bool) : message :=
  mkMessage (bin_sensor_state_topic ga) (PRaw (txt (if state then "ON" else "OFF"))) 1 true.

(** cmqttd.py 230-233. *)
Definition jsource (source : option Z) : json :=
  match source with Some s => JNum (PInt s) | None => JNull end.

(** cmqttd.py 235-243. *)
Definition relay_on (source : option Z) (ga : Z) : list message :=
  [publish (state_topic ga)
     (JObj [(txt "state", JStr (txt "ON")); (txt "brightness", JNum (PInt 255));
            (txt "transition", JNum (PInt 0)); (txt "cbus_source_addr", jsource source)]);
   publish_binary_sensor ga true].
(** cmqttd.py 245-253. *)
Definition relay_off (source : option Z) (ga : Z) : list message :=
  [publish (state_topic ga)
     (JObj [(txt "state", JStr (txt "OFF")); (txt "brightness", JNum (PInt 0));
            (txt "transition", JNum (PInt 0)); (txt "cbus_source_addr", jsource source)]);
   publish_binary_sensor ga false].
(** cmqttd.py 255-264. *)
Definition relay_ramp (source : option Z) (ga duration : Z) (level : pynum) : list message :=
  [publish (state_topic ga)
     (JObj [(txt "state", JStr (txt "ON")); (txt "brightness", JNum level);
            (txt "transition", JNum (PInt duration)); (txt "cbus_source_addr", jsource source)]);
   publish_binary_sensor ga (num_gtb level 0)].

(** cmqttd.py 255-264. *)
Definition SW_VERSION : json := JStr (txt "cmqttd https://github.com/micolous/cbus").

(** cmqttd.py 181-193. *)
Definition meta_config : message :=
  publish (META_TOPIC ++ TOPIC_CONF_SUFFIX)
    (JObj [(txt "~", JStr META_TOPIC); (txt "name", JStr (txt "cmqttd"));
           (txt "unique_id", JStr (txt "cmqttd"));
           (txt "stat_t", JStr (txt "~" ++ TOPIC_STATE_SUFFIX));
           (txt "device", JObj [(txt "identifiers", JArr [JStr (txt "cmqttd")]);
              (txt "sw_version", SW_VERSION); (txt "name", JStr (txt "cmqttd"));
              (txt "manufacturer", JStr (txt "micolous")); (txt "model", JStr (txt "libcbus"))])]).

(** A labels dict: association list with unique keys.  cmqttd.py 196. *)
Fixpoint label_get (labels : list (Z * text)) (ga : Z) : option text :=
  match labels with
  | [] => None
  | (a, t) :: l => if a =? ga then Some t else label_get l ga
  end.

(** cmqttd.py 196. *)
Definition default_name (ga : Z) : text := txt "C-Bus Light " ++ py_03d ga.
(** cmqttd.py 196. *)
Definition light_name (labels : list (Z * text)) (ga : Z) : text :=
  match label_get labels ga with Some t => t | None => default_name ga end.

(** cmqttd.py 204-212 and 219-227. *)
Definition device_json (kind : text) (ga : Z) : json :=
  JObj [(txt "identifiers", JArr [JStr (kind ++ py_str ga)]);
        (txt "connections", JArr [JArr [JStr (txt "cbus_group_address"); JStr (py_str ga)]]);
        (txt "sw_version", SW_VERSION); (txt "name", JStr (default_name ga));
        (txt "manufacturer", JStr (txt "Clipsal"));
        (txt "model", JStr (txt "C-Bus Lighting Application"));
        (txt "via_device", JStr (txt "cmqttd"))].
(** cmqttd.py 197-213. *)
Definition light_config (labels : list (Z * text)) (ga : Z) : message :=
  publish (conf_topic ga)
    (JObj [(txt "name", JStr (light_name labels ga));
           (txt "unique_id", JStr (txt "cbus_light_" ++ py_str ga));
           (txt "cmd_t", JStr (set_topic ga)); (txt "stat_t", JStr (state_topic ga));
           (txt "schema", JStr (txt "json")); (txt "brightness", JBool true);
           (txt "device", device_json (txt "cbus_light_") ga)]).
(** cmqttd.py 215-228. *)
Definition sensor_config (labels : list (Z * text)) (ga : Z) : message :=
  publish (bin_sensor_conf_topic ga)
    (JObj [(txt "name", JStr (light_name labels ga ++ txt " (as binary sensor)"));
           (txt "unique_id", JStr (txt "cbus_bin_sensor_" ++ py_str ga));
           (txt "stat_t", JStr (bin_sensor_state_topic ga));
           (txt "device", device_json (txt "cbus_bin_sensor_") ga)]).
(** cmqttd.py 178-228. *)
Definition publish_all_lights (labels : list (Z * text)) : list message :=
  meta_config :: flat_map (fun ga => [light_config labels ga; sensor_config labels ga]) ga_range.
