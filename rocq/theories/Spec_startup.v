(** Specifications for the start of the daemon. *)
From Coq Require Import List ZArith Bool.
From Verif Require Import Py Text Client Cmqttd Daemon Cbz Startup Spec_mqtt.
Import ListNotations.
Open Scope Z_scope.

(** An option with a value that is not empty. *)
Definition has (x : option text) (s : text) : Prop := x = Some s /\ s <> [].
Definition unset (x : option text) : Prop := x = None \/ x = Some [].

(** White space of [str.strip]. *)
Definition white (u : unicode) (c : Z) : Prop :=
  9 <= c <= 13 \/ 28 <= c <= 32 \/ (127 <= c /\ u_space u c = true).
(** [t] is [s] without the white space around it. *)
Definition trimmed (u : unicode) (s t : text) : Prop :=
  exists a b, s = a ++ t ++ b /\ Forall (white u) a /\ Forall (white u) b
    /\ (forall c t', t = c :: t' -> ~ white u c) /\ (forall c t', t = t' ++ [c] -> ~ white u c).
(** [first] is the first line of [s], [rest] what comes after it. *)
Definition line_of (s first rest : text) : Prop :=
  ~ In 10 first /\ (s = first ++ [10] ++ rest \/ (s = first /\ rest = [])).
(** The authentication file: user name and password on its first two lines. *)
Definition credentials (u : unicode) (file name password : text) : Prop :=
  exists l1 r1 l2 r2, line_of file l1 r1 /\ line_of r1 l2 r2 /\ trimmed u l1 name /\ trimmed u l2 password.

(** ADDR:PORT: the host is up to the first colon, the port from there to the
    end or to a second colon. *)
Definition address_of (s host port : text) : Prop :=
  ~ In 58 host /\ ~ In 58 port
  /\ (s = host ++ [58] ++ port \/ exists rest, s = host ++ [58] ++ port ++ [58] ++ rest).

(** The handler that the daemon gives to its connection. *)
Definition handler_of (o : options) : client := fst (new_daemon (o_timesync o) (o_no_clock o)).

(** [pci_step u o labels a]: [a] connects to the interface that the options name. *)
Inductive pci_step (u : unicode) (o : options) (labels : list (option Z * text)) : startup -> Prop :=
| ps_serial dev : has (o_serial o) dev -> pci_step u o labels (OpenSerial dev 9600 (handler_of o) labels)
| ps_tcp s host p port : unset (o_serial o) -> has (o_tcp o) s -> address_of s host p -> int_text u p port ->
    pci_step u o labels (OpenTcp host port (handler_of o) labels).

(** The port of the broker: the one given, otherwise the one for the transport. *)
Definition broker_port (o : options) (port : Z) : Prop :=
  (o_port o <> 0 /\ port = o_port o)
  \/ (o_port o = 0 /\ port = if o_disable_tls o then 1883 else 8883).

(** [tls_step o l]: the call that turns TLS on, and none when it is disabled. *)
Inductive tls_step (o : options) : list startup -> Prop :=
| ts_off : o_disable_tls o = true -> tls_step o []
| ts_on ca cert key : o_disable_tls o = false ->
    (forall s, ca = Some s <-> has (o_ca o) s) ->
    (forall s, cert = Some s <-> has (o_cert o) s) -> (forall s, key = Some s <-> has (o_key o) s) ->
    tls_step o [TlsSet ca cert key].

(** [login_step u o l]: the call that sets the credentials, if there is a file. *)
Inductive login_step (u : unicode) (o : options) : list startup -> Prop :=
| ls_none : o_auth o = None -> login_step u o []
| ls_file file name password : o_auth o = Some file -> credentials u file name password ->
    login_step u o [SetLogin name password].

(** The whole start. *)
Definition plan (u : unicode) (o : options) (labels : list (option Z * text)) (l : list startup) : Prop :=
  exists pci login tls port, pci_step u o labels pci /\ login_step u o login /\ tls_step o tls /\ broker_port o port
    /\ l = [pci] ++ login ++ tls ++ [Helper; BrokerConnect (o_address o) port (o_keepalive o); WaitLost].

(** [follows w l tr r]: carrying out [l] in the world [w] until a call raises. *)
Inductive follows (w : world) : list startup -> list startup -> res unit -> Prop :=
| fl_end : follows w [] [] (Ok tt)
| fl_next a l tr r : w a = Ok tt -> follows w l tr r -> follows w (a :: l) (a :: tr) r
| fl_stop a l e : w a = Raise e -> follows w (a :: l) [a] (Raise e).

(** The labels for the project file. *)
Definition labels_of (lib : library) (o : options) : res (list (option Z * text)) :=
  match o_project o with None => Ok [] | Some c => read_cbz_file lib (OpenFile c) end.
(** A certificate without key or a key without certificate. *)
Definition half_certificate (o : options) : Prop :=
  (exists s, has (o_cert o) s) /\ unset (o_key o) \/ (exists s, has (o_key o) s) /\ unset (o_cert o).
