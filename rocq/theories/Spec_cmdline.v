(** What a command line of the daemon, and the environment of its container, mean. *)
From Coq Require Import List ZArith Bool String.
From Verif Require Import Py Text Cbz Cmqttd Startup Spec_mqtt Spec_startup Cmdline.
Import ListNotations.
Open Scope Z_scope.

(** The manual: long name and, if there is one, the letter of each option that
    takes a value, and of each flag. *)
Inductive takes_value : opt -> option string -> string -> Prop :=
| m_log : takes_value OLog (Some "l"%string) "log-file"
| m_verbosity : takes_value OVerbosity (Some "v"%string) "verbosity"
| m_address : takes_value OAddress (Some "b"%string) "broker-address"
| m_port : takes_value OPort (Some "p"%string) "broker-port"
| m_keepalive : takes_value OKeepalive None "broker-keepalive"
| m_auth : takes_value OAuth (Some "A"%string) "broker-auth"
| m_ca : takes_value OCa (Some "c"%string) "broker-ca"
| m_cert : takes_value OCert (Some "k"%string) "broker-client-cert"
| m_key : takes_value OKey (Some "K"%string) "broker-client-key"
| m_serial : takes_value OSerial (Some "s"%string) "serial"
| m_tcp : takes_value OTcp (Some "t"%string) "tcp"
| m_timesync : takes_value OTimesync (Some "T"%string) "timesync"
| m_project : takes_value OProject (Some "P"%string) "project-file".
Inductive flag : opt -> option string -> string -> Prop :=
| m_tls : flag ODisableTls None "broker-disable-tls"
| m_clock : flag ONoClock (Some "C"%string) "no-clock".

(** A value that may follow its option as a word of its own: it does not begin
    with a dash, or is a dash alone or a negative whole number. *)
Definition separate (v : text) : Prop :=
  hd_error v <> Some 45 \/ v = txt "-" \/ exists ds, v = 45 :: ds /\ ds <> [] /\ Forall (fun c => 48 <= c <= 57) ds.

(** An abbreviation of a long name: a beginning of it that no other long name has,
    the help included. *)
Definition long_name (n : string) : Prop :=
  n = "help"%string \/ exists o x, takes_value o x n \/ flag o x n.
Definition abbreviates (a : text) (n : string) : Prop :=
  a <> [] /\ (exists r, txt n = a ++ r)
  /\ forall n', long_name n' -> (exists r, txt n' = a ++ r) -> n' = n.
(** A word that begins two long names without being one itself, with or without a
    value behind it. *)
Definition ambiguous (w : text) : Prop :=
  exists a n1 n2, a <> [] /\ long_name n1 /\ long_name n2 /\ n1 <> n2
    /\ (exists r, txt n1 = a ++ r) /\ (exists r, txt n2 = a ++ r) /\ (forall n, long_name n -> txt n <> a)
    /\ (w = txt "--" ++ a \/ exists v, w = txt "--" ++ a ++ txt "=" ++ v).

(** One setting, and how it may be written: "--name value", "-x value",
    "--name=value", "-x=value", "-xvalue"; a flag "--name" or "-x".  A long name may
    be abbreviated. *)
Inductive setting : Set :=
| Value (o : opt) (v : text)
| Flag (o : opt).
Inductive writes : setting -> list text -> Prop :=
| w_long o x n v : takes_value o x n -> separate v ->
    writes (Value o v) [txt "--" ++ txt n; v]
| w_short o x n v : takes_value o (Some x) n -> separate v ->
    writes (Value o v) [txt "-" ++ txt x; v]
| w_long_equals o x n v : takes_value o x n ->
    writes (Value o v) [txt "--" ++ txt n ++ txt "=" ++ v]
| w_short_equals o x n v : takes_value o (Some x) n ->
    writes (Value o v) [txt "-" ++ txt x ++ txt "=" ++ v]
| w_attached o x n v : takes_value o (Some x) n -> v <> [] -> hd_error v <> Some 61 ->
    writes (Value o v) [txt "-" ++ txt x ++ v]
| w_flag o x n : flag o x n -> writes (Flag o) [txt "--" ++ txt n]
| w_flag_short o x n : flag o (Some x) n -> writes (Flag o) [txt "-" ++ txt x]
| w_abbreviated o x n a v : takes_value o x n -> abbreviates a n -> separate v ->
    writes (Value o v) [txt "--" ++ a; v]
| w_abbreviated_equals o x n a v : takes_value o x n -> abbreviates a n ->
    writes (Value o v) [txt "--" ++ a ++ txt "=" ++ v]
| w_flag_abbreviated o x n a : flag o x n -> abbreviates a n -> writes (Flag o) [txt "--" ++ a].
(** What may follow the letter of a flag in the same word: nothing, or the letter
    of an option, with its value in the next word, after an equals sign or attached. *)
Inductive follows : list setting -> text -> list text -> Prop :=
| f_none : follows [] [] []
| f_separate o x n v : takes_value o (Some x) n -> separate v -> follows [Value o v] (txt x) [v]
| f_equals o x n v : takes_value o (Some x) n -> follows [Value o v] (txt x ++ txt "=" ++ v) []
| f_attached o x n v : takes_value o (Some x) n -> v <> [] -> hd_error v <> Some 61 ->
    follows [Value o v] (txt x ++ v) [].
(** A command line made of settings.  The letter of the one flag that has a letter
    may be repeated in a word, and that of an option may follow (-CCs/dev/ttyUSB0). *)
Inductive command_line : list setting -> list text -> Prop :=
| cl_nil : command_line [] []
| cl_cons s ws ss rest : writes s ws -> command_line ss rest -> command_line (s :: ss) (ws ++ rest)
| cl_together k ts t ws ss rest : follows ts t ws -> command_line ss rest ->
    command_line ((Flag ONoClock :: repeat (Flag ONoClock) k ++ ts) ++ ss)
      (((txt "-C" ++ repeat 67 k ++ t) :: ws) ++ rest).

(** The value of an option: the last one given. *)
Inductive last_value (o : opt) : list setting -> option text -> Prop :=
| lv_none ss : (forall v, ~ In (Value o v) ss) -> last_value o ss None
| lv_some a v b : (forall v', ~ In (Value o v') b) -> last_value o (a ++ Value o v :: b) (Some v).

Definition int_value (u : unicode) (ss : list setting) (o : opt) (default z : Z) : Prop :=
  exists x, last_value o ss x /\ match x with None => z = default | Some v => int_text u v z end.

(** Each value is good: numbers are numbers, files can be read, the verbosity is
    one of the five. *)
Definition good_value (u : unicode) (fs : files) (s : setting) : Prop :=
  match s with
  | Value OPort v | Value OKeepalive v | Value OTimesync v => exists z, int_text u v z
  | Value OAuth v => read_text fs v <> None
  | Value OProject v => read_binary fs v <> None
  | Value OVerbosity v => In v [txt "DEBUG"; txt "INFO"; txt "WARNING"; txt "ERROR"; txt "CRITICAL"]
  | _ => True
  end.

(** The options that settings ask for. *)
Definition asked (u : unicode) (fs : files) (ss : list setting) (n : namespace) : Prop :=
  Forall (good_value u fs) ss
  /\ last_value OLog ss (n_log n)
  /\ (exists x, last_value OVerbosity ss x
        /\ n_verbosity n = match x with Some v => v | None => txt "INFO" end)
  /\ last_value OAddress ss (n_address n)
  /\ int_value u ss OPort 0 (n_port n)
  /\ int_value u ss OKeepalive 60 (n_keepalive n)
  /\ (n_disable_tls n = true <-> In (Flag ODisableTls) ss)
  /\ (exists x, last_value OAuth ss x
        /\ n_auth n = match x with Some v => read_text fs v | None => None end)
  /\ last_value OCa ss (n_ca n)
  /\ last_value OCert ss (n_cert n)
  /\ last_value OKey ss (n_key n)
  /\ last_value OSerial ss (n_serial n)
  /\ last_value OTcp ss (n_tcp n)
  /\ int_value u ss OTimesync 300 (n_timesync n)
  /\ (n_no_clock n = true <-> In (Flag ONoClock) ss)
  /\ (exists x, last_value OProject ss x
        /\ n_project n = match x with Some v => read_binary fs v | None => None end).
(** The broker's address must be there, and exactly one interface. *)
Definition complete (n : namespace) : Prop :=
  (exists a, n_address n = Some a)
  /\ (exists p, (n_serial n = Some p /\ n_tcp n = None) \/ (n_serial n = None /\ n_tcp n = Some p)).

(** The daemon is given the options of the command line. *)
Definition carries (n : namespace) (o : options) : Prop :=
  n_address n = Some (o_address o) /\ o_port o = n_port n /\ o_keepalive o = n_keepalive n
  /\ o_disable_tls o = n_disable_tls n /\ o_auth o = n_auth n /\ o_ca o = n_ca n
  /\ o_cert o = n_cert n /\ o_key o = n_key n /\ o_serial o = n_serial n /\ o_tcp o = n_tcp n
  /\ o_timesync o = n_timesync n /\ o_no_clock o = n_no_clock n /\ o_project o = n_project n.

(** A word that asks for the daemon to do without TLS: the option's name, or its
    beginning as far as it is unique. *)
Definition asks_plaintext (w : text) : Prop :=
  exists a b, txt "--broker-disable-tls" = a ++ b /\ w = a /\ exists c, a = txt "--broker-d" ++ c.

(** ** The container *)

(** The variable is set to something. *)
Definition set_to (x : option text) (v : text) : Prop := x = Some v /\ v <> [].
Definition not_set (x : option text) : Prop := x = None \/ x = Some [].

(** A value without white space or pattern characters, and not like an option. *)
Definition plain (v : text) : Prop :=
  Forall (fun c => c <> 32 /\ c <> 9 /\ c <> 10 /\ c <> 42 /\ c <> 63 /\ c <> 91 /\ c <> 92) v
  /\ hd_error v <> Some 45.
Definition plain_container (c : container) : Prop :=
  Forall (fun x => forall v, x = Some v -> plain v)
         [MQTT_SERVER c; CBUS_TIMESYNC c; MQTT_PORT c; SERIAL_PORT c; CNI_ADDR c].

(** The variable is unset, empty or "1": yes by default. *)
Definition yes (x : option text) : Prop := not_set x \/ x = Some (txt "1").

(** A value without pattern characters, in which no word (between white space)
    begins with a dash. *)
Definition harmless (v : text) : Prop :=
  Forall (fun c => c <> 42 /\ c <> 63 /\ c <> 91 /\ c <> 92) v
  /\ forall a b, v = a ++ 45 :: b -> exists a' c, a = a' ++ [c] /\ c <> 32 /\ c <> 9 /\ c <> 10.
Definition harmless_container (c : container) : Prop :=
  Forall (fun x => forall v, x = Some v -> harmless v)
         [MQTT_SERVER c; CBUS_TIMESYNC c; MQTT_PORT c; SERIAL_PORT c; CNI_ADDR c].

(** [w] is one of the words of [v], which white space (a space, a tab or a line
    break) separates. *)
Definition white (c : Z) : Prop := c = 32 \/ c = 9 \/ c = 10.
Definition word_of (v w : text) : Prop :=
  w <> [] /\ Forall (fun c => ~ white c) w
  /\ exists a b, v = a ++ w ++ b /\ (a = [] \/ exists a' c, a = a' ++ [c] /\ white c)
              /\ (b = [] \/ exists c b', b = c :: b' /\ white c).
(** The variables whose values the script passes on to the daemon. *)
Definition passed_on (c : container) (x : option text) : Prop :=
  x = MQTT_SERVER c \/ x = CBUS_TIMESYNC c \/ x = MQTT_PORT c \/ x = SERIAL_PORT c
  \/ (x = CNI_ADDR c /\ not_set (SERIAL_PORT c)).

(** What the environment asks for. *)
Definition wanted (u : unicode) (fs : files) (c : container) (n : namespace) : Prop :=
  n_log n = None /\ n_verbosity n = txt "INFO" /\ n_keepalive n = 60
  /\ (exists v, set_to (MQTT_SERVER c) v /\ n_address n = Some v)
  /\ ((not_set (MQTT_PORT c) /\ n_port n = 0)
      \/ exists v, set_to (MQTT_PORT c) v /\ int_text u v (n_port n))
  /\ ((not_set (CBUS_TIMESYNC c) /\ n_timesync n = 300)
      \/ exists v, set_to (CBUS_TIMESYNC c) v /\ int_text u v (n_timesync n))
  /\ ((exists v, set_to (SERIAL_PORT c) v /\ n_serial n = Some v /\ n_tcp n = None)
      \/ (not_set (SERIAL_PORT c) /\ exists v, set_to (CNI_ADDR c) v /\ n_serial n = None /\ n_tcp n = Some v))
  /\ (n_no_clock n = false <-> yes (CBUS_CLOCK c))
  /\ (n_disable_tls n = false <-> yes (MQTT_USE_TLS c))
  /\ (n_ca n = if ca_dir c && negb (n_disable_tls n) then Some (txt "/etc/cmqttd/certificates") else None)
  /\ (if cert_file c && key_file c && negb (n_disable_tls n)
      then n_cert n = Some (txt "/etc/cmqttd/client.pem") /\ n_key n = Some (txt "/etc/cmqttd/client.key")
      else n_cert n = None /\ n_key n = None)
  /\ (if auth_file c then n_auth n = read_text fs (txt "/etc/cmqttd/auth") /\ n_auth n <> None
      else n_auth n = None)
  /\ (if project_file c
      then n_project n = read_binary fs (txt "/etc/cmqttd/project.cbz") /\ n_project n <> None
      else n_project n = None).
