(** Model of the daemon of cbus/daemon/cmqttd.py being stopped anywhere and
    started again, any number of times.  No proofs in this file. *)
From Coq Require Import List ZArith Bool.
From Verif Require Import Py Common Sal Packet Text Mqtt Client Cmqttd Daemon Spec Spec_client Spec_mqtt.
Import ListNotations.

(** One life of the process: what it is started with, the calls made on its
    objects, and where it is stopped.  cmqttd.py 430-469: every start makes new
    objects; nothing is read back from the broker or from a file that the daemon
    has written, so the lives have only the broker and the C-Bus in common.
    [l_done]: how many of the effects were carried out (a line written to the
    C-Bus, a message handed to the MQTT library, and so on; each of them whole).
    [l_received]: how many of the messages handed to the MQTT library reached
    the broker.  They are published with QoS 1 (cmqttd.py 173-175 and 230-233).
    Assumed of the MQTT library, whose source is not here: the broker gets them
    in the order they are handed over, each once, and those under way when the
    process ends are lost.  With numbers large enough nothing is lost. *)
Record life := mkLife {
  l_unicode : unicode;
  l_clock : nat -> clockval;
  l_labels : list (Z * text);
  l_timesync : Z;
  l_no_clock : bool;
  l_calls : list dop;
  l_done : nat;
  l_received : nat }.

(** The effects the calls would have if the process were not stopped: cmqttd.py
    430-469 on new objects. *)
Definition life_trace (l : life) : list (list cev * res unit) :=
  snd (daemon_run (l_unicode l) (l_clock l) (l_labels l) (new_daemon (l_timesync l) (l_no_clock l)) (l_calls l)).
(** The effects up to where the process is stopped (any point of cmqttd.py 430-469 and of
    the code it calls). *)
Definition did (l : life) : list cev := firstn (l_done l) (effects (life_trace l)).
(** The messages that the broker received from this life (cmqttd.py 173-175 and
    230-233). *)
Definition received (l : life) : list message := firstn (l_received l) (published (did l)).
(** What the broker received over several lives (cmqttd.py 173-175 and 230-233). *)
Definition heard (lives : list life) : list message := concat (map received lives).
