(** Model of the command line of scripts/tcp_serial_redirect.py (132-257) with the
    part of optparse that it uses, and of what the program does from there until it
    waits for connections (258-326).  No proofs in this file.

    The program is written for Python 2; optparse is modelled as of Python 3.11.10,
    whose [_process_args], [_process_long_opt], [_process_short_opts],
    [_match_abbrev] and [_parse_num] are what is here.  Arguments are sequences of
    bytes, as in Python 2.  Not modelled: the texts printed. *)
From Coq Require Import List ZArith Bool String.
From Verif Require Import Py Text Cmdline Redirect.
Import ListNotations.
Open Scope Z_scope.

(** ** The options *)

(** tcp_serial_redirect.py 145-255, and "help", which optparse adds. *)
Inductive switch : Set :=
| Help | Quiet | Spy | Port | Baud | Parity | Rtscts | Xonxoff | Rts | Dtr
| LocalPort | Convert | NetNl | SerNl.
(** tcp_serial_redirect.py 145-255. *)
Definition LETTERS : list (Z * switch) :=
  [(104, Help); (113, Quiet); (112, Port); (98, Baud); (80, LocalPort); (99, Convert)].
(** tcp_serial_redirect.py 145-255. *)
Definition NAMES : list (text * switch) :=
  [(txt "--help", Help); (txt "--quiet", Quiet); (txt "--spy", Spy); (txt "--port", Port);
   (txt "--baud", Baud); (txt "--parity", Parity); (txt "--rtscts", Rtscts); (txt "--xonxoff", Xonxoff);
   (txt "--rts", Rts); (txt "--dtr", Dtr); (txt "--localport", LocalPort); (txt "--convert", Convert);
   (txt "--net-nl", NetNl); (txt "--ser-nl", SerNl)].
(** [option.takes_value()]: the action is "store".  tcp_serial_redirect.py 145-255. *)
Definition takes (s : switch) : bool :=
  match s with
  | Port | Baud | Parity | Rts | Dtr | LocalPort | NetNl | SerNl => true
  | Help | Quiet | Spy | Rtscts | Xonxoff | Convert => false
  end.

(** [int(s, radix)], None for ValueError: what the standard library does and this
    model leaves open.  Called by tcp_serial_redirect.py 257 and 268. *)
Definition numbers : Set := Z -> text -> option Z.
(** optparse's [_parse_num], for options of type "int".  Called by
    tcp_serial_redirect.py 257. *)
Definition option_int (nu : numbers) (v : text) : option Z :=
  match v with
  | 48 :: c :: r =>
      if (c =? 120) || (c =? 88) then nu 16 v
      else if (c =? 98) || (c =? 66) then nu 2 (match r with [] => [48] | _ => r end)
      else nu 8 v
  | [48] => nu 8 v
  | _ => nu 10 v
  end.

(** The values of the options.  tcp_serial_redirect.py 145-257. *)
Record values : Set := mkValues {
  v_quiet : bool; v_spy : bool; v_port : option text; v_baud : Z; v_parity : text;
  v_rtscts : bool; v_xonxoff : bool; v_rts : option Z; v_dtr : option Z; v_local : Z;
  v_convert : bool; v_net : text; v_ser : text }.
(** The defaults, tcp_serial_redirect.py 145-255. *)
Definition unset : values :=
  mkValues false false None 9600 (txt "N") false false None None 7777 false (txt "LF") (txt "CR+LF").
(** [option.process] of an option without a value; "help" does not come here.
    Called by tcp_serial_redirect.py 257. *)
Definition raise_flag (s : switch) (v : values) : values :=
  match v with
  | mkValues q spy p b par rc xx rts dtr l c n e =>
      match s with
      | Quiet => mkValues true spy p b par rc xx rts dtr l c n e
      | Spy => mkValues q true p b par rc xx rts dtr l c n e
      | Rtscts => mkValues q spy p b par true xx rts dtr l c n e
      | Xonxoff => mkValues q spy p b par rc true rts dtr l c n e
      | Convert => mkValues q spy p b par rc xx rts dtr l true n e
      | _ => v
      end
  end.
(** [option.process] of an option with the value [x]; None: the value is refused.
    Called by tcp_serial_redirect.py 257. *)
Definition store (nu : numbers) (s : switch) (x : text) (v : values) : option values :=
  match v with
  | mkValues q spy p b par rc xx rts dtr l c n e =>
      match s with
      | Port => Some (mkValues q spy (Some x) b par rc xx rts dtr l c n e)
      | Parity => Some (mkValues q spy p b x rc xx rts dtr l c n e)
      | NetNl => Some (mkValues q spy p b par rc xx rts dtr l c x e)
      | SerNl => Some (mkValues q spy p b par rc xx rts dtr l c n x)
      | Baud => match option_int nu x with
                | Some z => Some (mkValues q spy p z par rc xx rts dtr l c n e) | None => None end
      | Rts => match option_int nu x with
               | Some z => Some (mkValues q spy p b par rc xx (Some z) dtr l c n e) | None => None end
      | Dtr => match option_int nu x with
               | Some z => Some (mkValues q spy p b par rc xx rts (Some z) l c n e) | None => None end
      | LocalPort => match option_int nu x with
                     | Some z => Some (mkValues q spy p b par rc xx rts dtr z c n e) | None => None end
      | _ => Some v
      end
  end.

(** ** optparse *)

(** Called by tcp_serial_redirect.py 257. *)
Fixpoint by_name (w : text) (l : list (text * switch)) : option switch :=
  match l with
  | [] => None
  | (n, s) :: l' => if text_eqb n w then Some s else by_name w l'
  end.
(** [_match_abbrev]; None: unknown or ambiguous.  Called by tcp_serial_redirect.py 257. *)
Definition match_abbrev (w : text) : option switch :=
  match by_name w NAMES with
  | Some s => Some s
  | None => match filter (fun e => starts_with w (fst e)) NAMES with
            | [(_, s)] => Some s
            | _ => None
            end
  end.
(** Called by tcp_serial_redirect.py 257. *)
Fixpoint by_letter (c : Z) (l : list (Z * switch)) : option switch :=
  match l with
  | [] => None
  | (d, s) :: l' => if d =? c then Some s else by_letter c l'
  end.

(** [_process_short_opts] without the following words: refused, asked for help,
    done, or the next word is the value of the last letter.  Called by
    tcp_serial_redirect.py 257. *)
Inductive shorts : Set :=
| SWrong
| SHelp
| SDone (v : values)
| SNeeds (s : switch) (v : values).
(** Called by tcp_serial_redirect.py 257. *)
Fixpoint process_shorts (nu : numbers) (cs : text) (v : values) : shorts :=
  match cs with
  | [] => SDone v
  | c :: cs' =>
      match by_letter c LETTERS with
      | None => SWrong
      | Some s =>
          if takes s then
            match cs' with
            | [] => SNeeds s v
            | _ => match store nu s cs' v with Some v' => SDone v' | None => SWrong end
            end
          else match s with Help => SHelp | _ => process_shorts nu cs' (raise_flag s v) end
      end
  end.

(** The end of [parse_args]: help is printed and the program exits with status 0,
    an error is reported and it exits with status 2, or it goes on with options and
    arguments.  Called by tcp_serial_redirect.py 257. *)
Inductive parsed_line : Set :=
| PHelp
| PError
| PLine (v : values) (args : list text).
(** [_process_args]; [largs] are the arguments so far.  Called by
    tcp_serial_redirect.py 257. *)
Fixpoint process (nu : numbers) (ws largs : list text) (v : values) {struct ws} : parsed_line :=
  match ws with
  | [] => PLine v largs
  | w :: ws' =>
      if text_eqb w (txt "--") then PLine v (largs ++ ws')
      else if starts_with (txt "--") w then
        let '(name, explicit) :=
          match split_equals w with Some (a, b) => (a, Some b) | None => (w, None) end in
        match match_abbrev name with
        | None => PError
        | Some s =>
            if takes s then
              match explicit with
              | Some x => match store nu s x v with Some v' => process nu ws' largs v' | None => PError end
              | None =>
                  match ws' with
                  | [] => PError
                  | x :: ws'' => match store nu s x v with Some v' => process nu ws'' largs v' | None => PError end
                  end
              end
            else match explicit with
                 | Some _ => PError
                 | None => match s with Help => PHelp | _ => process nu ws' largs (raise_flag s v) end
                 end
        end
      else
        match w with
        | 45 :: c :: cs =>
            match process_shorts nu (c :: cs) v with
            | SWrong => PError
            | SHelp => PHelp
            | SDone v' => process nu ws' largs v'
            | SNeeds s v' =>
                match ws' with
                | [] => PError
                | x :: ws'' => match store nu s x v' with Some v'' => process nu ws'' largs v'' | None => PError end
                end
            end
        | _ => process nu ws' (largs ++ [w]) v
        end
  end.

(** ** From the options to the first connection *)

(** The port ([None]: the number 0) and the baud rate; None: an error is reported.
    tcp_serial_redirect.py 259-276. *)
Definition port_and_baud (nu : numbers) (v : values) (args : list text) : option (option text * Z) :=
  match args with
  | [] => Some (v_port v, v_baud v)
  | p :: rest =>
      match v_port v with
      | Some _ => None
      | None =>
          match rest with
          | [] => Some (Some p, v_baud v)
          | b :: rest' =>
              match nu 10 b with
              | None => None
              | Some z => match rest' with [] => Some (Some p, z) | _ => None end
              end
          end
      end
  end.
(** tcp_serial_redirect.py 277-297. *)
Definition newline (mode : text) : option bytes :=
  let m := py_upper mode in
  if text_eqb m (txt "CR") then Some [13]
  else if text_eqb m (txt "LF") then Some [10]
  else if text_eqb m (txt "CR+LF") || text_eqb m (txt "CRLF") then Some [13; 10]
  else None.

(** What the program does with the serial port and the socket before it waits for
    connections, in order.  tcp_serial_redirect.py 299-326. *)
Inductive sact : Set :=
| SetPort (p : option text) | SetBaud (z : Z) | SetParity (t : text) | SetRtscts (b : bool)
| SetXonxoff (b : bool) | SetTimeout (z : Z) | OpenPort | SetRTS (z : Z) | SetDTR (z : Z)
| Bind (port : Z) | Listen (backlog : Z).
(** tcp_serial_redirect.py 299-326. *)
Definition preparation (v : values) (port : option text) (baud : Z) : list sact :=
  [SetPort port; SetBaud baud; SetParity (v_parity v); SetRtscts (v_rtscts v);
   SetXonxoff (v_xonxoff v); SetTimeout 1; OpenPort]
  ++ match v_rts v with Some z => [SetRTS z] | None => [] end
  ++ match v_dtr v with Some z => [SetDTR z] | None => [] end
  ++ [Bind (v_local v); Listen 1].
(** How these calls end: they return, raise SerialException or raise something
    else.  tcp_serial_redirect.py 299-326. *)
Inductive call_end : Set := Returns | SerialTrouble | Throws (e : exn).
(** How the program goes on: it prints help, reports a wrong line (status 2),
    exits with status 1, dies of an exception, or waits for connections, which it
    serves with this conversion of newlines.  tcp_serial_redirect.py 257-347. *)
Inductive line_end : Set :=
| Helped | Misused | ExitsOne | Dies (e : option exn) | Serves (cv : conversion).
(** The calls made, and how it goes on.  Only [ser.open()] is guarded.
    tcp_serial_redirect.py 299-326. *)
Fixpoint prepare (w : sact -> call_end) (cv : conversion) (l : list sact) : list sact * line_end :=
  match l with
  | [] => ([], Serves cv)
  | a :: l' =>
      match w a with
      | Returns => let '(done, e) := prepare w cv l' in (a :: done, e)
      | SerialTrouble => ([a], match a with OpenPort => ExitsOne | _ => Dies None end)
      | Throws x => ([a], Dies (Some x))
      end
  end.
(** tcp_serial_redirect.py 257-337. *)
Definition redirector (nu : numbers) (w : sact -> call_end) (ws : list text) : list sact * line_end :=
  match process nu ws [] unset with
  | PHelp => ([], Helped)
  | PError => ([], Misused)
  | PLine v args =>
      match port_and_baud nu v args with
      | None => ([], Misused)
      | Some (port, baud) =>
          match newline (v_net v), newline (v_ser v) with
          | Some net, Some ser =>
              prepare w (if v_convert v then Some (ser, net) else None) (preparation v port baud)
          | _, _ => ([], Misused)
          end
      end
  end.
