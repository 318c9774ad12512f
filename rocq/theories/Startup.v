(** Model of the start of the daemon of cbus/daemon/cmqttd.py: what [_main]
    does with its options, in order.  No proofs in this file. *)
From Coq Require Import List ZArith Bool.
From Verif Require Import Py Common Sal Cal Packet Text Mqtt Buffered Client Project Cmqttd Daemon Cbz.
Import ListNotations.
Open Scope Z_scope.

(** The result of [parser.parse_args()], cmqttd.py 311-419.  The options of
    logging are left out.  [o_project] is the open project file, [o_auth] the
    text of the open authentication file.  argparse is modelled in
    Cmdline.v; it gives one of [o_serial] and [o_tcp], and opens the files. *)
Record options : Set := mkOptions {
  o_address : text;               (* -b *)
  o_port : Z;                     (* -p, default 0 *)
  o_keepalive : Z;                (* --broker-keepalive *)
  o_disable_tls : bool;           (* --broker-disable-tls *)
  o_auth : option text;           (* -A *)
  o_ca : option text;             (* -c *)
  o_cert : option text;           (* -k *)
  o_key : option text;            (* -K *)
  o_serial : option text;         (* -s *)
  o_tcp : option text;            (* -t *)
  o_timesync : Z;                 (* -T *)
  o_no_clock : bool;              (* -C *)
  o_project : option contents     (* -P *)
}.

(** What the daemon does to the outside while it starts.  cmqttd.py 419-470. *)
Inductive startup : Set :=
| Usage                                                  (* parser.error *)
| OpenSerial (device : text) (baud : Z) (handler : client) (labels : list (option Z * text))
| OpenTcp (host : text) (port : Z) (handler : client) (labels : list (option Z * text))
| SetLogin (username password : text)                    (* username_pw_set *)
| TlsSet (ca cert key : option text)                     (* tls_set *)
| Helper                                                 (* AsyncioHelper(loop, client) *)
| BrokerConnect (host : text) (port keepalive : Z)       (* mqtt_client.connect *)
| WaitLost.                                              (* await connection_lost_future *)

(** The outside: each of these calls returns, or raises some exception.
    cmqttd.py 419-470. *)
Definition world : Set := startup -> res unit.
(** cmqttd.py 419-470. *)
Definition act (w : world) (a : startup) (k : list startup * res unit) : list startup * res unit :=
  match w a with
  | Ok _ => let (tr, r) := k in (a :: tr, r)
  | Raise e => ([a], Raise e)
  end.

(** [bool(x)] of an option that is a str or None.  cmqttd.py 421. *)
Definition given (x : option text) : bool :=
  match x with Some (_ :: _) => true | _ => false end.
(** cmqttd.py 458-464. *)
Definition or_none (x : option text) : option text := if given x then x else None.

(** [str.strip()]: white space at both ends.  cmqttd.py 269-270. *)
Definition str_space (u : unicode) (c : Z) : bool :=
  if c <? 127 then ((9 <=? c) && (c <=? 13)) || ((28 <=? c) && (c <=? 32)) else u_space u c.
Definition py_strip (u : unicode) (s : text) : text := strip_by (str_space u) s.  (* cmqttd.py 269-270 *)
(** [f.readline()] for a text file with universal newlines: the line with its
    newline, and what follows it.  cmqttd.py 269-270. *)
Fixpoint readline (s : text) : text * text :=
  match s with
  | [] => ([], [])
  | c :: s' => if c =? 10 then ([c], s') else let (l, r) := readline s' in (c :: l, r)
  end.
(** cmqttd.py 267-271. *)
Definition read_auth (u : unicode) (file : text) : startup :=
  let (line1, rest) := readline file in
  let (line2, _) := readline rest in
  SetLogin (py_strip u line1) (py_strip u line2).

(** [s.split(':', n)].  cmqttd.py 446. *)
Fixpoint split_colon (n : nat) (s : text) : list text :=
  match n with
  | O => [s]
  | S n' =>
      (fix go (acc : text) (s : text) : list text :=
         match s with
         | [] => [rev acc]
         | c :: s' => if c =? 58 then rev acc :: split_colon n' s' else go (c :: acc) s'
         end) [] s
  end.

(** cmqttd.py 442-448.  None when neither branch is taken: [protocol] is then
    unbound, and its use at 450 raises. *)
Definition pci_of (u : unicode) (o : options) (labels : list (option Z * text)) : res startup :=
  let handler := fst (new_daemon (o_timesync o) (o_no_clock o)) in
  match or_none (o_serial o), or_none (o_tcp o) with
  | Some dev, _ => Ok (OpenSerial dev 9600 handler labels)
  | None, Some addr =>
      let addr := split_colon 2 addr in
      match nth_error addr 0, nth_error addr 1 with
      | Some host, Some port => rbind (py_int_of_text u port) (fun port => Ok (OpenTcp host port handler labels))
      | _, _ => Raise IndexError
      end
  | None, None => Raise UnboundLocalError
  end.

(** cmqttd.py 419-469.  [x or y] for ints: [y] when [x] is 0.  Reading the labels
    (431-432) raises before anything is opened. *)
Definition _main (lib : library) (w : world) (o : options) : list startup * res unit :=
  let u := lib_unicode lib in
  if xorb (given (o_cert o)) (given (o_key o)) then ([Usage], Raise SystemExit)
  else
    match (match o_project o with None => Ok [] | Some c => read_cbz_file lib (OpenFile c) end) with
    | Raise e => ([], Raise e)
    | Ok labels =>
        match pci_of u o labels with
        | Raise e => ([], Raise e)
        | Ok pci =>
            act w pci
              (let after_auth (k : list startup * res unit) :=
                 match o_auth o with None => k | Some f => act w (read_auth u f) k end in
               let after_tls (k : Z -> list startup * res unit) :=
                 if o_disable_tls o then k (if o_port o =? 0 then 1883 else o_port o)
                 else act w (TlsSet (or_none (o_ca o)) (or_none (o_cert o))
                                    (if given (o_cert o) then o_key o else None))
                            (k (if o_port o =? 0 then 8883 else o_port o)) in
               after_auth (after_tls (fun port =>
                 act w Helper (act w (BrokerConnect (o_address o) port (o_keepalive o))
                   (act w WaitLost ([], Ok tt))))))
        end
    end.
