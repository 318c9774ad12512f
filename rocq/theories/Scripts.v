(** Model of the example scripts scripts/cbus_on, cbus_off, cbus_ramp, cbus_listen
    and cbus_config.  No proofs in this file. *)
From Coq Require Import List ZArith Bool String.
From Verif Require Import Py Text Mqtt Cmqttd Client Json.
Import ListNotations.
Open Scope Z_scope.

(** What /bin/sh is (line 1 of each script): a shell with the command [[[ as bash
    and busybox have it, or one without it as dash.  There [[[ is a command that
    is not found, so that the condition is false.  scripts/cbus_on 1. *)
Inductive shell : Set := WithBrackets | WithoutBrackets.
(** scripts/cbus_on 10, cbus_ramp 10. *)
Definition bracket_test (sh : shell) (b : bool) : bool :=
  match sh with WithBrackets => b | WithoutBrackets => false end.
(** "$1" is [argument args 0]: empty when it is not given.  An argument is a list
    of bytes.  scripts/cbus_on 10-17, cbus_ramp 10-18. *)
Definition argument (args : list bytes) (n : nat) : bytes := nth n args [].
(** scripts/cbus_on 10, cbus_ramp 10. *)
Definition is_empty (b : bytes) : bool := match b with [] => true | _ => false end.

(** What a script does: it prints how to use it and exits with 1, it publishes a
    message with QoS 1 (mosquitto_pub -q 1 -t topic -m message), or it prints what
    arrives on a topic (mosquitto_sub -q 1 -t topic).
    scripts/cbus_on 10-17, cbus_listen 10-17. *)
Inductive script : Set :=
| Usage
| Publish (topic message : bytes)
| Listen (topic : bytes).

(** scripts/cbus_on 10-17. *)
Definition cbus_on (sh : shell) (args : list bytes) : script :=
  if bracket_test sh (is_empty (argument args 0)) then Usage
  else Publish (txt "homeassistant/light/cbus_" ++ argument args 0 ++ txt "/set") (txt "{ ""state"": ""ON"" }").
(** scripts/cbus_off 10-17. *)
Definition cbus_off (sh : shell) (args : list bytes) : script :=
  if bracket_test sh (is_empty (argument args 0)) then Usage
  else Publish (txt "homeassistant/light/cbus_" ++ argument args 0 ++ txt "/set") (txt "{ ""state"": ""OFF"" }").
(** scripts/cbus_ramp 10-18.  Without [[[ the commands after [||] are "-z": not
    found either. *)
Definition cbus_ramp (sh : shell) (args : list bytes) : script :=
  if bracket_test sh (is_empty (argument args 0) || is_empty (argument args 1) || is_empty (argument args 2)) then Usage
  else Publish (txt "homeassistant/light/cbus_" ++ argument args 0 ++ txt "/set")
         (txt "{ ""state"": ""ON"", ""transition"": " ++ argument args 1
            ++ txt ", ""brightness"": " ++ argument args 2 ++ txt " }").
(** scripts/cbus_listen 10-17. *)
Definition cbus_listen (sh : shell) (args : list bytes) : script :=
  if bracket_test sh (is_empty (argument args 0)) then Usage
  else Listen (txt "homeassistant/light/cbus_" ++ argument args 0 ++ txt "/state").
(** scripts/cbus_config 10-20.  The output goes through jq, which only changes the
    layout; [-W 2] ends it after two seconds. *)
Definition cbus_config (sh : shell) (args : list bytes) : script :=
  if bracket_test sh (is_empty (argument args 0)) then Usage
  else Listen (txt "homeassistant/light/cbus_" ++ argument args 0 ++ txt "/config").

(** The broker hands a message to the daemon if the daemon has subscribed to the
    topic (cmqttd.py 126; no wildcards), and the daemon reacts with [on_message]. *)
Definition subscribed (topic : bytes) : bool := existsb (fun ga => text_eqb (set_topic ga) topic) ga_range.
(** scripts/cbus_on 17, cmqttd.py 126 and 129-171. *)
Definition through_broker (u : unicode) (lib : json_library) (depth : nat) (s : script) : M unit :=
  match s with
  | Publish topic message => if subscribed topic then on_payload u lib depth topic message else mret tt
  | _ => mret tt
  end.
