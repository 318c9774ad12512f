(** Specifications for the daemon stopped anywhere and started again. *)
From Coq Require Import List ZArith Bool.
From Verif Require Import Py Common Sal Packet Text Mqtt Client Cmqttd Daemon Spec Spec_client Spec_mqtt Spec_daemon Restart.
Import ListNotations.
Open Scope Z_scope.

(** The chronicle of a life: of all that would have happened to the lights had
    the process not been stopped. *)
Definition life_log (l : life) (log : list entry) : Prop :=
  chronicle (l_unicode l) false false (l_calls l) (life_trace l) log.

(** Of the chronicle, the broker knows the entries [known]; of the entries [half]
    it has the message for the light but not the one for the sensor.  What
    follows in the chronicle it has not heard of. *)
Definition known_of (l : life) (known half : list entry) : Prop :=
  (exists rest, life_log l (known ++ half ++ rest)) /\ (List.length half <= 1)%nat
  /\ exists reports lights,
       Forall2 entry_report known reports
       /\ Forall2 (fun e m => exists binary, entry_report e [m; binary]) half lights
       /\ state_messages (received l) = concat reports ++ lights.

(** The lights and the sensors over several lives, as the broker knows them. *)
Definition light_log (k : list (list entry * list entry)) : list entry := concat (map (fun x => fst x ++ snd x) k).
Definition sensor_log (k : list (list entry * list entry)) : list entry := concat (map fst k).
(** No entry of the group. *)
Definition untouched (ga : Z) (log : list entry) : Prop := forall e, In e log -> entry_group e <> Some ga.

(** The process was not stopped, and everything reached the broker. *)
Definition undisturbed (l : life) : Prop :=
  (List.length (effects (life_trace l)) <= l_done l)%nat /\ (List.length (published (did l)) <= l_received l)%nat.
