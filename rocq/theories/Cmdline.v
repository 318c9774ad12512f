(** Model of the command line of the daemon: the parser built in [_main] of
    cbus/daemon/cmqttd.py, with the part of argparse (as of Python 3.11.10) that it
    uses, and the container's start script entrypoint-cmqttd.sh.  No proofs in
    this file. *)
From Coq Require Import List ZArith Bool String.
From Verif Require Import Py Text Cbz Cmqttd Startup.
Import ListNotations.
Open Scope Z_scope.

(** ** The parser *)

(** The actions of the parser, cmqttd.py 311-417; [OHelp] is added by argparse. *)
Inductive opt : Set :=
| OHelp | OLog | OVerbosity | OAddress | OPort | OKeepalive | ODisableTls | OAuth
| OCa | OCert | OKey | OSerial | OTcp | OTimesync | ONoClock | OProject.

(** cmqttd.py 311-417: the option strings, in the order they are added. *)
Definition option_strings : list (text * opt) :=
  [(txt "-h", OHelp); (txt "--help", OHelp);
   (txt "-l", OLog); (txt "--log-file", OLog);
   (txt "-v", OVerbosity); (txt "--verbosity", OVerbosity);
   (txt "-b", OAddress); (txt "--broker-address", OAddress);
   (txt "-p", OPort); (txt "--broker-port", OPort);
   (txt "--broker-keepalive", OKeepalive);
   (txt "--broker-disable-tls", ODisableTls);
   (txt "-A", OAuth); (txt "--broker-auth", OAuth);
   (txt "-c", OCa); (txt "--broker-ca", OCa);
   (txt "-k", OCert); (txt "--broker-client-cert", OCert);
   (txt "-K", OKey); (txt "--broker-client-key", OKey);
   (txt "-s", OSerial); (txt "--serial", OSerial);
   (txt "-t", OTcp); (txt "--tcp", OTcp);
   (txt "-T", OTimesync); (txt "--timesync", OTimesync);
   (txt "-C", ONoClock); (txt "--no-clock", ONoClock);
   (txt "-P", OProject); (txt "--project-file", OProject)].

(** The actions without an argument: help, and the [store_true]s of cmqttd.py 345
    and 401. *)
Definition is_flag (o : opt) : bool :=
  match o with OHelp | ODisableTls | ONoClock => true | _ => false end.

(** cmqttd.py 311-417. *)
Fixpoint find_option (w : text) (l : list (text * opt)) : option opt :=
  match l with
  | [] => None
  | (n, o) :: l' => if text_eqb n w then Some o else find_option w l'
  end.

(** [s.split('=', 1)], if there is an equals sign.  Called by cmqttd.py 419. *)
Fixpoint split_equals (s : text) : option (text * text) :=
  match s with
  | [] => None
  | c :: s' =>
      if c =? 61 then Some ([], s')
      else match split_equals s' with Some (a, b) => Some (c :: a, b) | None => None end
  end.

(** argparse's [_get_option_tuples]: what an abbreviation may stand for.  A word
    with two dashes may be the beginning of a long option, also up to an equals
    sign; one with a single dash may be a short option with its argument attached.
    (No long option begins with a single dash and another character.)
    Called by cmqttd.py 419. *)
Definition candidates (w : text) : list (opt * text * bool * option text) :=
  match w with
  | 45 :: 45 :: _ =>
      let '(prefix, sep, explicit) :=
        match split_equals w with Some (a, b) => (a, true, Some b) | None => (w, false, None) end in
      map (fun e => (snd e, fst e, sep, explicit))
          (filter (fun e => starts_with prefix (fst e)) option_strings)
  | 45 :: c :: rest =>
      map (fun e => (snd e, fst e, false, Some rest))
          (filter (fun e => text_eqb (fst e) [45; c]) option_strings)
  | _ => []
  end.

(** argparse's [_negative_number_matcher], '^-\d+$|^-\d*\.\d+$'; [$] also
    matches before a last newline.  Called by cmqttd.py 419. *)
Definition re_digit (u : unicode) (c : Z) : bool :=
  if c <? 127 then is_digit c else match u_digit u c with Some _ => true | None => false end.
(** Called by cmqttd.py 419. *)
Definition chop_newline (s : text) : text :=
  match rev s with 10 :: r => rev r | _ => s end.
(** Called by cmqttd.py 419. *)
Definition negative_number (u : unicode) (w : text) : bool :=
  match w with
  | 45 :: s =>
      let s := chop_newline s in
      let after := drop_while (re_digit u) s in
      match after with
      | [] => negb (match s with [] => true | _ => false end)
      | 46 :: frac =>
          negb (match frac with [] => true | _ => false end) && forallb (re_digit u) frac
      | _ => false
      end
  | _ => false
  end.

(** argparse's [_parse_optional], and the pattern letters of
    [_parse_known_args]: an argument ('A'), the separator ('-'), or an option
    ('O') with the action if it is known, the option string, whether an equals sign
    comes next, and the explicit argument.  None: the word is an ambiguous
    abbreviation.
    Called by cmqttd.py 419. *)
Inductive kind : Set :=
| KArg
| KSeparator
| KOption (o : option opt) (name : text) (sep : bool) (explicit : option text).
(** Called by cmqttd.py 419. *)
Definition is_known (w : text) : bool :=
  match find_option w option_strings with Some _ => true | None => false end.
(** Called by cmqttd.py 419. *)
Definition parse_optional (u : unicode) (w : text) : option kind :=
  match w with
  | [] => Some KArg
  | c :: rest =>
      if negb (c =? 45) then Some KArg
      else match find_option w option_strings with
      | Some o => Some (KOption (Some o) w false None)
      | None =>
          match rest with
          | [] => Some KArg
          | _ =>
              match (match split_equals w with
                     | Some (a, b) =>
                         match find_option a option_strings with Some o => Some (o, a, b) | None => None end
                     | None => None end) with
              | Some (o, a, b) => Some (KOption (Some o) a true (Some b))
              | None =>
                  match candidates w with
                  | [(o, name, sep, explicit)] => Some (KOption (Some o) name sep explicit)
                  | _ :: _ :: _ => None
                  | [] =>
                      if negative_number u w then Some KArg
                      else if mem 32 w then Some KArg
                      else Some (KOption None w false None)
                  end
              end
          end
      end
  end.

(** The first loop of [_parse_known_args]: after "--" everything is an argument.
    Called by cmqttd.py 419. *)
Fixpoint classify (u : unicode) (ws : list text) : option (list (text * kind)) :=
  match ws with
  | [] => Some []
  | w :: ws' =>
      if text_eqb w (txt "--") then Some ((w, KSeparator) :: map (fun w => (w, KArg)) ws')
      else match parse_optional u w, classify u ws' with
           | Some k, Some l => Some ((w, k) :: l)
           | _, _ => None
           end
  end.

(** The namespace.  The defaults of cmqttd.py 311-417. *)
Record namespace : Set := mkNamespace {
  n_log : option text; n_verbosity : text; n_address : option text; n_port : Z; n_keepalive : Z;
  n_disable_tls : bool; n_auth : option text; n_ca : option text; n_cert : option text;
  n_key : option text; n_serial : option text; n_tcp : option text; n_timesync : Z;
  n_no_clock : bool; n_project : option contents }.
(** cmqttd.py 311-417. *)
Definition defaults : namespace :=
  mkNamespace None (txt "INFO") None 0 60 false None None None None None None 300 false None.

(** How the run of the parser ends: options, a usage error (exit status 2), or
    the help (exit status 0).  cmqttd.py 419-423. *)
Inductive parsed : Set :=
| Parsed (n : namespace)
| Refused
| Helped.

(** [FileType(...)(s)]: the contents of the file, None if it cannot be opened.
    (The file "-" is the standard input.)  cmqttd.py 311-417. *)
Record files : Set := mkFiles { read_text : text -> option text; read_binary : text -> option contents }.

(** cmqttd.py 311-417, the choices of the verbosity. *)
Definition levels : list text :=
  [txt "CRITICAL"; txt "ERROR"; txt "WARNING"; txt "INFO"; txt "DEBUG"].

(** Storing the argument of an option: the conversions of cmqttd.py 311-417, and
    the two options of the exclusive group of 378-390.  None is a usage error. *)
Definition store (u : unicode) (fs : files) (o : opt) (v : text) (n : namespace) : option namespace :=
  match n with
  | mkNamespace lg vb ad po ke tl au ca ce ky se tc ti cl pr =>
      match o with
      | OLog => Some (mkNamespace (Some v) vb ad po ke tl au ca ce ky se tc ti cl pr)
      | OVerbosity =>
          if existsb (text_eqb v) levels then Some (mkNamespace lg v ad po ke tl au ca ce ky se tc ti cl pr)
          else None
      | OAddress => Some (mkNamespace lg vb (Some v) po ke tl au ca ce ky se tc ti cl pr)
      | OPort =>
          match py_int_of_text u v with
          | Ok z => Some (mkNamespace lg vb ad z ke tl au ca ce ky se tc ti cl pr)
          | Raise _ => None end
      | OKeepalive =>
          match py_int_of_text u v with
          | Ok z => Some (mkNamespace lg vb ad po z tl au ca ce ky se tc ti cl pr)
          | Raise _ => None end
      | OAuth =>
          match read_text fs v with
          | Some f => Some (mkNamespace lg vb ad po ke tl (Some f) ca ce ky se tc ti cl pr)
          | None => None end
      | OCa => Some (mkNamespace lg vb ad po ke tl au (Some v) ce ky se tc ti cl pr)
      | OCert => Some (mkNamespace lg vb ad po ke tl au ca (Some v) ky se tc ti cl pr)
      | OKey => Some (mkNamespace lg vb ad po ke tl au ca ce (Some v) se tc ti cl pr)
      | OSerial =>
          match tc with
          | None => Some (mkNamespace lg vb ad po ke tl au ca ce ky (Some v) tc ti cl pr)
          | Some _ => None end
      | OTcp =>
          match se with
          | None => Some (mkNamespace lg vb ad po ke tl au ca ce ky se (Some v) ti cl pr)
          | Some _ => None end
      | OTimesync =>
          match py_int_of_text u v with
          | Ok z => Some (mkNamespace lg vb ad po ke tl au ca ce ky se tc z cl pr)
          | Raise _ => None end
      | OProject =>
          match read_binary fs v with
          | Some f => Some (mkNamespace lg vb ad po ke tl au ca ce ky se tc ti cl (Some f))
          | None => None end
      | OHelp | ODisableTls | ONoClock => None
      end
  end.
(** A flag; None for the help.  Called by cmqttd.py 419. *)
Definition raise_flag (o : opt) (n : namespace) : option namespace :=
  match n with
  | mkNamespace lg vb ad po ke tl au ca ce ky se tc ti cl pr =>
      match o with
      | ODisableTls => Some (mkNamespace lg vb ad po ke true au ca ce ky se tc ti cl pr)
      | ONoClock => Some (mkNamespace lg vb ad po ke tl au ca ce ky se tc ti true pr)
      | OHelp => None
      | _ => Some n
      end
  end.
(** Called by cmqttd.py 419. *)
Fixpoint raise_flags (l : list opt) (n : namespace) : option namespace :=
  match l with
  | [] => Some n
  | o :: l' => match raise_flag o n with Some n' => raise_flags l' n' | None => None end
  end.

(** The loop of argparse's [consume_optional] over an explicit argument: flags
    written together after one dash, and then an action with what is left as its
    explicit argument.  Called by cmqttd.py 419. *)
Inductive cluster : Set :=
| Cluster (flags : list opt) (last : opt) (explicit : option text)
| Loose (flags : list opt)   (* then an unknown letter: the rest is not recognised *)
| BadCluster.                (* "ignored explicit argument" *)
(** Called by cmqttd.py 419. *)
Definition prepend (o : opt) (r : cluster) : cluster :=
  match r with
  | Cluster fl last e => Cluster (o :: fl) last e
  | Loose fl => Loose (o :: fl)
  | BadCluster => BadCluster
  end.
(** Called by cmqttd.py 419. *)
Fixpoint unfold_cluster (o : opt) (long sep : bool) (x : text) : cluster :=
  if is_flag o then
    if long then BadCluster
    else match x with
         | [] => BadCluster
         | c :: x' =>
             if sep || (c =? 45) then BadCluster
             else
             match find_option [45; c] option_strings with
             | None => Loose [o]
             | Some o' =>
                 prepend o
                   match x' with
                   | [] => Cluster [] o' None
                   | d :: x'' => if d =? 61 then unfold_cluster o' false true x''
                                 else unfold_cluster o' false false x'
                   end
             end
         end
  else Cluster [] o (Some x).
(** Called by cmqttd.py 419. *)
Definition is_long (name : text) : bool := match name with _ :: c :: _ => c =? 45 | _ => false end.

(** One occurrence of a known option: the flags and the last action, with its
    explicit argument.  Called by cmqttd.py 419. *)
Definition option_of (o : opt) (name : text) (sep : bool) (explicit : option text) : cluster :=
  match explicit with
  | None => Cluster [] o None
  | Some x => unfold_cluster o (is_long name) sep x
  end.

(** The main loop of [_parse_known_args], for a parser without positional
    arguments.  [extras]: a word was not recognised.  Called by cmqttd.py 419. *)
Fixpoint consume (u : unicode) (fs : files) (l : list (text * kind)) (extras : bool) (n : namespace)
  : parsed :=
  match l with
  | [] =>
      (* cmqttd.py 328 and 378: the required options; parse_args: no extras *)
      match n_address n, n_serial n, n_tcp n with
      | None, _, _ | _, None, None => Refused
      | _, _, _ => if extras then Refused else Parsed n
      end
  | (_, KArg) :: l' | (_, KSeparator) :: l' | (_, KOption None _ _ _) :: l' => consume u fs l' true n
  | (_, KOption (Some o) name sep explicit) :: l' =>
      match option_of o name sep explicit with
      | BadCluster => Refused
      | Loose flags =>
          match raise_flags flags n with
          | None => Helped
          | Some n' => consume u fs l' true n'
          end
      | Cluster flags last x =>
          if is_flag last then
            match raise_flags (flags ++ [last]) n with
            | None => Helped
            | Some n' => consume u fs l' extras n'
            end
          else
            match x with
            | Some v =>
                match raise_flags flags n with
                | None => Helped
                | Some n' =>
                    match store u fs last v n' with
                    | None => Refused
                    | Some n'' => consume u fs l' extras n''
                    end
                end
            | None =>
                match l' with
                | (v, KArg) :: l'' =>
                    match raise_flags flags n with
                    | None => Helped
                    | Some n' =>
                        match store u fs last v n' with
                        | None => Refused
                        | Some n'' => consume u fs l'' extras n''
                        end
                    end
                | _ => Refused
                end
            end
      end
  end.

(** cmqttd.py 419: [parser.parse_args()]. *)
Definition parse_args (u : unicode) (fs : files) (ws : list text) : parsed :=
  match classify u ws with
  | None => Refused
  | Some l => consume u fs l false defaults
  end.

(** The options of [Startup.v]; the address is there once the parser is done.
    cmqttd.py 419-470. *)
Definition options_of (n : namespace) : options :=
  mkOptions (match n_address n with Some a => a | None => [] end) (n_port n) (n_keepalive n)
            (n_disable_tls n) (n_auth n) (n_ca n) (n_cert n) (n_key n) (n_serial n) (n_tcp n)
            (n_timesync n) (n_no_clock n) (n_project n).

(** The whole command: cmqttd.py 310-474. *)
Definition cmqttd (lib : library) (w : world) (fs : files) (ws : list text) : list startup * res unit :=
  match parse_args (lib_unicode lib) fs ws with
  | Parsed n => _main lib w (options_of n)
  | Refused => ([Usage], Raise SystemExit)
  | Helped => ([], Raise SystemExit)
  end.

(** ** entrypoint-cmqttd.sh *)

(** The environment variables the script looks at, and which of its files are
    there.  entrypoint-cmqttd.sh 8-93. *)
Record container : Set := mkContainer {
  MQTT_SERVER : option text; CBUS_TIMESYNC : option text; MQTT_PORT : option text;
  SERIAL_PORT : option text; CNI_ADDR : option text; CBUS_CLOCK : option text; MQTT_USE_TLS : option text;
  ca_dir : bool; cert_file : bool; key_file : bool; auth_file : bool; project_file : bool }.

(** "${X:-default}" and "${X}".  entrypoint-cmqttd.sh 22-93. *)
Definition or_default (x : option text) (default : text) : text :=
  match x with Some (c :: s) => c :: s | _ => default end.
(** entrypoint-cmqttd.sh 22-93. *)
Definition value (x : option text) : text := match x with Some s => s | None => [] end.
(** entrypoint-cmqttd.sh 22-93. *)
Definition non_empty (x : option text) : bool := match value x with [] => false | _ => true end.

(** entrypoint-cmqttd.sh 8-20. *)
Definition AUTH_FILE := txt "/etc/cmqttd/auth".
Definition CA_CERT_PATH := txt "/etc/cmqttd/certificates".  (* entrypoint-cmqttd.sh 8-20 *)
Definition CLIENT_CERT_PATH := txt "/etc/cmqttd/client.pem".  (* entrypoint-cmqttd.sh 8-20 *)
Definition CLIENT_KEY_PATH := txt "/etc/cmqttd/client.key".  (* entrypoint-cmqttd.sh 8-20 *)
Definition PROJECT_FILE := txt "/etc/cmqttd/project.cbz".  (* entrypoint-cmqttd.sh 8-20 *)

(** entrypoint-cmqttd.sh 22-83: the value of CMQTTD_ARGS, or None if the script
    gives up.  What it prints is left out. *)
Definition cmqttd_args (c : container) : option text :=
  if negb (non_empty (MQTT_SERVER c)) then None            (* 23: ${MQTT_SERVER:?unset} *)
  else
    let args := txt "--broker-address " ++ value (MQTT_SERVER c)
                ++ txt " --timesync " ++ or_default (CBUS_TIMESYNC c) (txt "300") in
    let args := if non_empty (MQTT_PORT c) then args ++ txt " --broker-port " ++ value (MQTT_PORT c)
                else args in
    match (if non_empty (SERIAL_PORT c) then Some (args ++ txt " --serial " ++ value (SERIAL_PORT c))
           else if non_empty (CNI_ADDR c) then Some (args ++ txt " --tcp " ++ value (CNI_ADDR c))
           else None) with
    | None => None                                          (* 37-38 *)
    | Some args =>
        let args := if negb (text_eqb (or_default (CBUS_CLOCK c) (txt "1")) (txt "1"))
                    then args ++ txt " --no-clock" else args in
        let args :=
          if text_eqb (or_default (MQTT_USE_TLS c) (txt "1")) (txt "1") then
            let args := if ca_dir c then args ++ txt " --broker-ca " ++ CA_CERT_PATH else args in
            if cert_file c && key_file c
            then args ++ txt " --broker-client-cert " ++ CLIENT_CERT_PATH
                      ++ txt " --broker-client-key " ++ CLIENT_KEY_PATH
            else args
          else args ++ txt " --broker-disable-tls" in
        let args := if auth_file c then args ++ txt " --broker-auth " ++ AUTH_FILE else args in
        let args := if project_file c then args ++ txt " --project-file " ++ PROJECT_FILE else args in
        Some args
    end.

(** Field splitting of an unquoted variable with the default IFS.
    entrypoint-cmqttd.sh 93. *)
Definition ifs (c : Z) : bool := (c =? 32) || (c =? 9) || (c =? 10).
(** entrypoint-cmqttd.sh 93. *)
Fixpoint fields_from (acc : text) (s : text) : list text :=
  match s with
  | [] => match acc with [] => [] | _ => [rev acc] end
  | c :: s' =>
      if ifs c then match acc with [] => fields_from [] s' | _ => rev acc :: fields_from [] s' end
      else fields_from (c :: acc) s'
  end.
Definition fields (s : text) : list text := fields_from [] s.  (* entrypoint-cmqttd.sh 93 *)

(** entrypoint-cmqttd.sh 93, [cmqttd $CMQTTD_ARGS]: field splitting, and then the
    expansion of patterns.  [glob] gives the matching paths for a field with a
    pattern character, the field itself if there are none. *)
Definition is_pattern (w : text) : bool := existsb (fun c => mem c (txt "*?[\")) w.
(** entrypoint-cmqttd.sh 93. *)
Definition expand (glob : text -> list text) (w : text) : list text :=
  if is_pattern w then glob w else [w].
(** entrypoint-cmqttd.sh 93. *)
Definition words (glob : text -> list text) (args : text) : list text :=
  List.concat (map (expand glob) (fields args)).

(** The script: None if it gives up before starting the daemon.
    entrypoint-cmqttd.sh 1-93. *)
Definition entrypoint (lib : library) (w : world) (fs : files) (glob : text -> list text) (c : container)
  : option (list startup * res unit) :=
  match cmqttd_args c with
  | None => None
  | Some args => Some (cmqttd lib w fs (words glob args))
  end.
