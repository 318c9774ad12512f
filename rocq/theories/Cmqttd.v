(** Model of the MqttClient class and of the label reader of
    cbus/daemon/cmqttd.py.  No proofs in this file. *)
From Coq Require Import List ZArith QArith Bool String.
From Verif Require Import Py Common Sal Cal Packet Text Project Mqtt Client.
Import ListNotations.
Open Scope Z_scope.

(** cmqttd.py 123-127, on the CBusHandler given as user data. *)
Definition on_connect (labels : list (Z * text)) : M unit := fun c =>
  mseq (memit (CSubscribe (map (fun ga => (set_topic ga, 2)) ga_range)))
       (memit_all (map CPublish (publish_all_lights labels))) (set_mqtt c true).

(** cmqttd.py 148: [payload['state'].upper() == 'ON']. *)
Definition payload_state (j : json) : res bool :=
  match j with
  | JObj l =>
      match jlookup (txt "state") l with
      | None => Raise KeyError
      | Some (JStr s) => Ok (text_eqb (py_upper s) (txt "ON"))
      | Some _ => Raise AttributeError
      end
  | _ => Raise TypeError
  end.

(** [int(payload.get(key, default))] on an object.  cmqttd.py 149 and 154. *)
Definition payload_int (u : unicode) (j : json) (key : text) (default : Z) : res Z :=
  match j with
  | JObj l => match jlookup key l with
              | None => Ok default
              | Some v => py_int_of_json u v
              end
  | _ => Raise AttributeError
  end.

(** cmqttd.py 150-153: a negative brightness becomes the float 0.0. *)
Definition clamp_brightness (b : Z) : pynum :=
  if b <? 0 then PFloat 0 else if 255 <? b then PInt 255 else PInt b.
(** cmqttd.py 155-156. *)
Definition clamp_transition (t : Z) : Z := if t <? 0 then 0 else t.

(** [brightness == 255] for a number.  cmqttd.py 160. *)
Definition num_eqb (n : pynum) (k : Z) : bool :=
  match n with
  | PInt z => z =? k
  | PFloat q => Qeq_bool q (inject_Z k)
  | _ => false
  end.

(** cmqttd.py 158-171, after decoding: the command is sent on the C-Bus
    connection of the user data, then the state is published. *)
Definition apply_light (ga : Z) (light_on : bool) (brightness : pynum) (transition : Z) : M unit :=
  if light_on then
    if num_eqb brightness 255 && (transition =? 0) then
      mseq (lighting_group_on [ga]) (memit_all (map CPublish (relay_on None ga)))
    else
      mseq (lighting_group_ramp ga transition brightness)
           (memit_all (map CPublish (relay_ramp None ga transition brightness)))
  else
    mseq (lighting_group_off [ga]) (memit_all (map CPublish (relay_off None ga))).

(** cmqttd.py 129-171.  [body] is the result of [json.loads(msg.payload)], None
    when it raises. *)
Definition on_message (u : unicode) (topic : text) (body : option json) : M unit :=
  if negb (starts_with LIGHT_TOPIC_PREFIX topic && ends_with TOPIC_SET_SUFFIX topic) then mret tt
  else
    match get_topic_group_address u topic with
    | Raise ValueError => mret tt
    | Raise e => mraise e
    | Ok ga =>
        match body with
        | None => mret tt
        | Some j =>
            mbind (mlift (payload_state j)) (fun light_on =>
            mbind (mlift (payload_int u j (txt "brightness") 255)) (fun b =>
            mbind (mlift (payload_int u j (txt "transition") 0)) (fun t =>
            apply_light ga light_on (clamp_brightness b) (clamp_transition t))))
        end
    end.

(** ** read_cbz_labels *)

(** cmqttd.py 281-282: the condition of the comprehension. *)
Definition not_bridge (n : network) : res bool :=
  match n_interface n with
  | None => Raise AttributeError
  | Some None => Ok true
  | Some (Some t) => Ok (negb (text_eqb t (txt "bridge")))
  end.
(** cmqttd.py 281-282. *)
Fixpoint filter_res {A} (f : A -> res bool) (l : list A) : res (list A) :=
  match l with
  | [] => Ok []
  | a :: l' => rbind (f a) (fun b => rbind (filter_res f l') (fun r =>
               Ok (if b then a :: r else r)))
  end.

(** [f'{k}'] for an int or None.  cmqttd.py 302. *)
Definition key_str (k : option Z) : text :=
  match k with Some a => py_str a | None => txt "None" end.

(** cmqttd.py 298-305. *)
Fixpoint label_groups (u : unicode) (gs : list group) (labels : list (option Z * text))
  : res (list (option Z * text)) :=
  match gs with
  | [] => Ok labels
  | g :: gs' =>
      match g_tag_name g with
      | None => Raise AttributeError
      | Some t =>
          let name := py_strip u t in
          if text_eqb name [] || text_eqb name (txt "<Unused>")
             || text_eqb name (txt "Group " ++ key_str (g_address g))
          then label_groups u gs' labels
          else label_groups u gs' (dict_set (g_address g) name labels)
      end
  end.

(** cmqttd.py 281-307, on the networks of the project. *)
Definition read_cbz_labels (u : unicode) (networks : list network) : res (list (option Z * text)) :=
  rbind (filter_res not_bridge networks) (fun ns =>
  match ns with
  | [n] =>
      match filter (fun a => key_eqb (a_address a) (Some APP_LIGHTING)) (n_applications n) with
      | [a] => label_groups u (a_groups a) []
      | _ => Ok []
      end
  | _ => Ok []
  end).

(** The labels as the daemon uses them: [labels.get(ga)] is asked for ints only
    (cmqttd.py 196), so an entry under the key None is never found. *)
Definition int_labels (l : list (option Z * text)) : list (Z * text) :=
  flat_map (fun e => match e with (Some a, t) => [(a, t)] | (None, _) => [] end) l.
