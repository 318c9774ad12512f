(** Specifications for the running MQTT daemon: the chronicle of a history and
    what the broker retains. *)
From Coq Require Import String List ZArith Bool.
From Verif Require Import Py Common Sal Packet Text Mqtt Client Cmqttd Daemon Spec Spec_client Spec_mqtt.
Import ListNotations.
Open Scope Z_scope.

(** What happened to a light: a command was seen on the C-Bus, or an MQTT client
    asked for something. *)
Inductive entry := Seen (source : option Z) (s : sal) | Asked (ga : Z) (w : wish).
(** The lighting callbacks are what is seen on the C-Bus. *)
Definition seen (e : cev) : list entry :=
  match e with
  | COn source ga => [Seen source (LightOn ga)]
  | COff source ga => [Seen source (LightOff ga)]
  | CRamp source ga seconds level => [Seen source (LightRamp ga seconds level)]
  | _ => []
  end.
Definition entry_group (e : entry) : option Z :=
  match e with
  | Seen _ (LightOn ga) | Seen _ (LightOff ga) | Seen _ (LightRamp ga _ _) => Some ga
  | Seen _ _ => None
  | Asked ga _ => Some ga
  end.
(** The report due for an entry. *)
Definition entry_report (e : entry) (l : list message) : Prop :=
  match e with
  | Seen source s => event_report source s l
  | Asked ga w => wish_report ga w l
  end.

(** A message that asks for [w] on group [ga]. *)
Definition orders (u : unicode) (topic : text) (payload : option json) (ga : Z) (w : wish) : Prop :=
  exists l on b t, commands u topic ga /\ payload = Some (JObj l) /\ asks u l on b t /\ wishes on b t w.

Definition bus_call (o : dop) : Prop :=
  match o with DConnected | DLost | DData _ | DTimesync => True | _ => False end.
(** Is there a C-Bus connection after the call? *)
Definition connected_after (o : dop) (before : bool) : bool :=
  match o with DConnected => true | DLost => false | _ => before end.

(** [chronicle u mqtt bus ops tr log]: the history [ops] with effects [tr] has
    the chronicle [log].  [mqtt]: the MQTT broker has been connected to;
    [bus]: the C-Bus is connected. *)
Inductive chronicle (u : unicode) : bool -> bool -> list dop -> list (list cev * res unit) -> list entry -> Prop :=
| chr_end mqtt bus : chronicle u mqtt bus [] [] []
| chr_bus mqtt bus o ops ev r tr log : bus_call o ->
    chronicle u mqtt (connected_after o bus) ops tr log ->
    chronicle u mqtt bus (o :: ops) ((ev, r) :: tr) ((if mqtt then flat_map seen ev else []) ++ log)
| chr_mqtt mqtt bus ops ev r tr log :
    chronicle u true bus ops tr log ->
    chronicle u mqtt bus (DMqttConnected :: ops) ((ev, r) :: tr) log
| chr_order mqtt topic payload ga w ops ev r tr log : orders u topic payload ga w ->
    chronicle u mqtt true ops tr log ->
    chronicle u mqtt true (DMqttMessage topic payload :: ops) ((ev, r) :: tr) (Asked ga w :: log)
| chr_ignored mqtt bus topic payload ops ev r tr log :
    (bus = true -> forall ga w, ~ orders u topic payload ga w) ->
    chronicle u mqtt bus ops tr log ->
    chronicle u mqtt bus (DMqttMessage topic payload :: ops) ((ev, r) :: tr) log.

(** The messages on state topics. *)
Definition on_state_topic (m : message) : bool :=
  let t := m_topic m in
  if list_eq_dec Z.eq_dec (skipn (List.length t - 6) t) (txt "/state") then true else false.
Definition state_messages (l : list message) : list message := filter on_state_topic l.

(** What the broker keeps for the topic of [m] once all of [l] is published. *)
Definition retained (l : list message) (m : message) : Prop :=
  exists a b, l = a ++ m :: b /\ forall m', In m' b -> m_topic m' <> m_topic m.
(** [e] is the latest entry of group [ga]. *)
Definition latest (log : list entry) (ga : Z) (e : entry) : Prop :=
  exists a b, log = a ++ e :: b /\ entry_group e = Some ga /\ forall e', In e' b -> entry_group e' <> Some ga.

(** The lighting commands among what was written, as a PCI reads them. *)
Definition commanded (evs : list cev) : list sal :=
  flat_map (fun w => match decode_packet w true true false with
                     | (_, Ok (Some (PktPM _ (Some a) sals), _)) => if a =? 0x38 then sals else []
                     | _ => []
                     end) (writes evs).
(** The orders of a chronicle. *)
Definition ordered (log : list entry) : list (Z * wish) :=
  flat_map (fun e => match e with Asked ga w => [(ga, w)] | Seen _ _ => [] end) log.

(** The subscriptions made, and the connections to the broker. *)
Definition subscriptions (evs : list cev) : list (list (text * Z)) :=
  flat_map (fun e => match e with CSubscribe l => [l] | _ => [] end) evs.
Definition broker_connections (ops : list dop) : nat :=
  List.length (filter (fun o => match o with DMqttConnected => true | _ => false end) ops).
