(** Model of the command lines of the programs beside the daemon: the parsers of
    cbus/tools/decode_packet.py, cbus/tools/fetch_protocol_docs.py,
    cbus/toolkit/dump_labels.py, cbus/toolkit/graph.py,
    cbus/protocol/pciprotocol.py and cbus/protocol/pciserverprotocol.py, with the
    part of argparse (as of Python 3.11.10) that they use, and what these programs
    then start.  No proofs in this file. *)
From Coq Require Import List ZArith Bool String.
From Verif Require Import Py Text Project Mqtt Cbz Json Toolkit Startup Cmdline Tools.
Import ListNotations.
Open Scope Z_scope.

(** ** Parsers *)

(** How many words a positional argument takes: one ([nargs] missing or 1), or
    one or none ([nargs='?']).  dump_labels.py 37, pciserverprotocol.py 493-494. *)
Inductive nargs : Set := One | Maybe.
(** A parser: the option strings with the names of their actions, in the order they
    are added; the actions without an argument; the positional arguments.
    decode_packet.py 39-64, fetch_protocol_docs.py 115-121, dump_labels.py 32-44,
    graph.py 75-88, pciprotocol.py 591-606, pciserverprotocol.py 492-494. *)
Record parser : Set := mkParser {
  p_options : list (text * text); p_flags : list text; p_positionals : list (text * nargs) }.

(** Called by dump_labels.py 45 and the other calls of [parse_args]. *)
Fixpoint lookup (w : text) (l : list (text * text)) : option text :=
  match l with
  | [] => None
  | (n, d) :: l' => if text_eqb n w then Some d else lookup w l'
  end.
(** Called by dump_labels.py 45 and the other calls of [parse_args]. *)
Definition flag_of (p : parser) (d : text) : bool := existsb (text_eqb d) (p_flags p).

(** argparse's [_get_option_tuples], as in [Cmdline.candidates].
    Called by dump_labels.py 45 and the other calls of [parse_args]. *)
Definition meant (p : parser) (w : text) : list (text * text * bool * option text) :=
  match w with
  | 45 :: 45 :: _ =>
      let '(prefix, sep, explicit) :=
        match split_equals w with Some (a, b) => (a, true, Some b) | None => (w, false, None) end in
      map (fun e => (snd e, fst e, sep, explicit))
          (filter (fun e => starts_with prefix (fst e)) (p_options p))
  | 45 :: c :: rest =>
      map (fun e => (snd e, fst e, false, Some rest))
          (filter (fun e => text_eqb (fst e) [45; c]) (p_options p))
  | _ => []
  end.

(** argparse's [_parse_optional], as in [Cmdline.parse_optional]: an argument, the
    separator, or an option with its action if it is known, the option string,
    whether an equals sign comes next, and the explicit argument.
    Called by dump_labels.py 45 and the other calls of [parse_args]. *)
Inductive letter : Set :=
| LArg
| LSeparator
| LOption (d : option text) (name : text) (sep : bool) (explicit : option text).
(** Called by dump_labels.py 45 and the other calls of [parse_args]. *)
Definition letter_of (p : parser) (u : unicode) (w : text) : option letter :=
  match w with
  | [] => Some LArg
  | c :: rest =>
      if negb (c =? 45) then Some LArg
      else match lookup w (p_options p) with
      | Some d => Some (LOption (Some d) w false None)
      | None =>
          match rest with
          | [] => Some LArg
          | _ =>
              match (match split_equals w with
                     | Some (a, b) =>
                         match lookup a (p_options p) with Some d => Some (d, a, b) | None => None end
                     | None => None end) with
              | Some (d, a, b) => Some (LOption (Some d) a true (Some b))
              | None =>
                  match meant p w with
                  | [(d, name, sep, explicit)] => Some (LOption (Some d) name sep explicit)
                  | _ :: _ :: _ => None
                  | [] =>
                      if negative_number u w then Some LArg
                      else if mem 32 w then Some LArg
                      else Some (LOption None w false None)
                  end
              end
          end
      end
  end.
(** The first loop of [_parse_known_args]; None: an ambiguous abbreviation.
    Called by dump_labels.py 45 and the other calls of [parse_args]. *)
Fixpoint letters (p : parser) (u : unicode) (ws : list text) : option (list (text * letter)) :=
  match ws with
  | [] => Some []
  | w :: ws' =>
      if text_eqb w (txt "--") then Some ((w, LSeparator) :: map (fun w => (w, LArg)) ws')
      else match letter_of p u w, letters p u ws' with
           | Some k, Some l => Some ((w, k) :: l)
           | _, _ => None
           end
  end.

(** The loop of [consume_optional] over an explicit argument, as in
    [Cmdline.unfold_cluster].
    Called by dump_labels.py 45 and the other calls of [parse_args]. *)
Inductive bundle : Set :=
| Bundle (flags : list text) (last : text) (explicit : option text)
| LooseBundle (flags : list text)
| BadBundle.
(** Called by dump_labels.py 45 and the other calls of [parse_args]. *)
Definition add_flag (d : text) (r : bundle) : bundle :=
  match r with
  | Bundle fl last e => Bundle (d :: fl) last e
  | LooseBundle fl => LooseBundle (d :: fl)
  | BadBundle => BadBundle
  end.
(** Called by dump_labels.py 45 and the other calls of [parse_args]. *)
Fixpoint unbundle (p : parser) (d : text) (long sep : bool) (x : text) : bundle :=
  if flag_of p d then
    if long then BadBundle
    else match x with
         | [] => BadBundle
         | c :: x' =>
             if sep || (c =? 45) then BadBundle
             else
             match lookup [45; c] (p_options p) with
             | None => LooseBundle [d]
             | Some d' =>
                 add_flag d
                   match x' with
                   | [] => Bundle [] d' None
                   | e :: x'' => if e =? 61 then unbundle p d' false true x''
                                 else unbundle p d' false false x'
                   end
             end
         end
  else Bundle [] d (Some x).
(** Called by dump_labels.py 45 and the other calls of [parse_args]. *)
Definition bundle_of (p : parser) (d name : text) (sep : bool) (explicit : option text) : bundle :=
  match explicit with
  | None => Bundle [] d None
  | Some x => unbundle p d (is_long name) sep x
  end.

(** What the parser does with the words: actions taken with their arguments, in
    order, and then an error, or the end of the words; [extras]: some were not
    recognised; [unfilled]: the positional arguments not yet filled.
    Called by dump_labels.py 45 and the other calls of [parse_args]. *)
Inductive event : Set := Took (d : text) (args : list text).
(** Called by dump_labels.py 45 and the other calls of [parse_args]. *)
Inductive line_end : Set :=
| LineError
| LineDone (extras : bool) (unfilled : list (text * nargs)).
(** Called by dump_labels.py 45 and the other calls of [parse_args]. *)
Definition raised (l : list text) : list event := map (fun d => Took d []) l.
(** Called by dump_labels.py 45 and the other calls of [parse_args]. *)
Definition prefixed (evs : list event) (r : list event * line_end) : list event * line_end :=
  (evs ++ fst r, snd r).

(** The patterns of [_get_nargs_pattern] at the start of the words: separators, an
    argument (for [Maybe] perhaps none), separators.  The words matched and the rest.
    Called by dump_labels.py 45 and the other calls of [parse_args]. *)
Fixpoint dashes (l : list (text * letter)) : list text * list (text * letter) :=
  match l with
  | (w, LSeparator) :: l' => let (a, b) := dashes l' in (w :: a, b)
  | _ => ([], l)
  end.
(** Called by dump_labels.py 45 and the other calls of [parse_args]. *)
Definition match_one (n : nargs) (l : list (text * letter)) : option (list text * list (text * letter)) :=
  let (a, l1) := dashes l in
  match l1, n with
  | (w, LArg) :: l2, _ => let (b, l3) := dashes l2 in Some (a ++ w :: b, l3)
  | _, Maybe => Some (a, l1)
  | _, One => None
  end.
(** The first "--" is removed ([_get_values]).
    Called by dump_labels.py 45 and the other calls of [parse_args]. *)
Fixpoint remove_dashes (l : list text) : list text :=
  match l with
  | [] => []
  | w :: l' => if text_eqb w (txt "--") then l' else w :: remove_dashes l'
  end.
(** [consume_positionals]: the longest beginning of the positional arguments that
    matches.  No backtracking is needed, as no parser here has a [One] behind a
    [Maybe].  The actions, the positional arguments left and the rest of the words.
    Called by dump_labels.py 45 and the other calls of [parse_args]. *)
Fixpoint fill (ps : list (text * nargs)) (l : list (text * letter))
  : list event * list (text * nargs) * list (text * letter) :=
  match ps with
  | [] => ([], [], l)
  | (d, n) :: ps' =>
      match match_one n l with
      | None => ([], ps, l)
      | Some (ws, l') =>
          match fill ps' l' with (evs, unfilled, rest) => (Took d (remove_dashes ws) :: evs, unfilled, rest) end
      end
  end.

(** The main loop of [_parse_known_args]; [skip] words have been consumed already.
    Words that no positional argument takes are tried again one by one, with the
    same outcome.  Called by dump_labels.py 45 and the other calls of [parse_args]. *)
Fixpoint scan (p : parser) (ps : list (text * nargs)) (skip : nat) (l : list (text * letter)) (extras : bool)
  : list event * line_end :=
  match l with
  | [] => match fill ps [] with (evs, unfilled, _) => (evs, LineDone extras unfilled) end
  | (_, k) :: l' =>
      match skip, k with
      | S skip', _ => scan p ps skip' l' extras
      | O, LOption None _ _ _ => scan p ps 0 l' true
      | O, LOption (Some d) name sep explicit =>
          match bundle_of p d name sep explicit with
          | BadBundle => ([], LineError)
          | LooseBundle flags => prefixed (raised flags) (scan p ps 0 l' true)
          | Bundle flags last x =>
              if flag_of p last then prefixed (raised (flags ++ [last])) (scan p ps 0 l' extras)
              else
                match x, l' with
                | Some v, _ => prefixed (raised flags ++ [Took last [v]]) (scan p ps 0 l' extras)
                | None, (v, LArg) :: _ => prefixed (raised flags ++ [Took last [v]]) (scan p ps 1 l' extras)
                | None, _ => ([], LineError)
                end
          end
      | O, _ =>
          match fill ps l with
          | (evs, unfilled, rest) =>
              match (List.length l - List.length rest)%nat with
              | O => prefixed evs (scan p unfilled 0 l' true)
              | S taken => prefixed evs (scan p unfilled taken l' extras)
              end
          end
      end
  end.

(** How parsing ends: the program starts, or stops with a usage error (exit status
    2) or the help (exit status 0).  dump_labels.py 45 and the other calls of
    [parse_args]. *)
Inductive outcome (A : Type) : Type :=
| Starts (a : A)
| Refuses
| Helps.
Arguments Starts {A}. Arguments Refuses {A}. Arguments Helps {A}.

(** The actions one after the other.  [step] stores the arguments of an action in
    the namespace; None is a usage error.  dump_labels.py 45 and the other calls of
    [parse_args]. *)
Fixpoint act_on {S : Type} (step : S -> text -> list text -> option S) (evs : list event) (s : S) : outcome S :=
  match evs with
  | [] => Starts s
  | Took d args :: evs' =>
      if text_eqb d (txt "help") then Helps
      else match step s d args with None => Refuses | Some s' => act_on step evs' s' end
  end.
(** [parser.parse_args()].  [finish]: the required options; None is a usage error.
    dump_labels.py 45 and the other calls of [parse_args]. *)
Definition parse_line {S A : Type} (p : parser) (u : unicode) (step : S -> text -> list text -> option S) (s0 : S)
    (finish : S -> option A) (ws : list text) : outcome A :=
  match letters p u ws with
  | None => Refuses
  | Some l =>
      match scan p (p_positionals p) 0 l false with
      | (evs, e) =>
          match act_on step evs s0 with
          | Helps => Helps
          | Refuses => Refuses
          | Starts s =>
              match e with
              | LineError => Refuses
              | LineDone extras unfilled =>
                  if extras || existsb (fun q => match snd q with One => true | Maybe => false end) unfilled then Refuses
                  else match finish s with None => Refuses | Some a => Starts a end
              end
          end
      end
  end.

(** ** decode_packet.py *)

(** decode_packet.py 39-64. *)
Definition decode_parser : parser :=
  mkParser [(txt "-h", txt "help"); (txt "--help", txt "help");
            (txt "-C", txt "checksum"); (txt "--no-checksum", txt "checksum");
            (txt "-S", txt "strict"); (txt "--not-strict", txt "strict");
            (txt "-c", txt "server"); (txt "--client", txt "server")]
           [txt "help"; txt "checksum"; txt "strict"; txt "server"] [(txt "packet", One)].
(** The namespace: the packets as bytes, and the three flags.
    decode_packet.py 41-68. *)
Record decode_args : Set := mkDecode { dc_packet : list bytes; dc_checksum : bool; dc_strict : bool; dc_server : bool }.
(** decode_packet.py 41-64.  [bytes(s)] of a text without an encoding raises a
    TypeError, which is a usage error (44). *)
Definition decode_step (s : decode_args) (d : text) (args : list text) : option decode_args :=
  match s with
  | mkDecode pk ck st sv =>
      if text_eqb d (txt "packet") then match args with [] => Some (mkDecode [] ck st sv) | _ => None end
      else if text_eqb d (txt "checksum") then Some (mkDecode pk false st sv)
      else if text_eqb d (txt "strict") then Some (mkDecode pk ck false sv)
      else if text_eqb d (txt "server") then Some (mkDecode pk ck st false)
      else None
  end.
(** decode_packet.py 66: the arguments of [pretty_packet] in 68-69. *)
Definition decode_line (u : unicode) (ws : list text) : outcome decode_args :=
  parse_line decode_parser u decode_step (mkDecode [] true true true) Some ws.

(** ** dump_labels.py *)

(** dump_labels.py 32-44. *)
Definition dump_parser : parser :=
  mkParser [(txt "-h", txt "help"); (txt "--help", txt "help");
            (txt "-o", txt "output"); (txt "--output", txt "output");
            (txt "-p", txt "pretty"); (txt "--pretty", txt "pretty")]
           [txt "help"] [(txt "input", One)].
(** dump_labels.py 32-44: input, output, pretty. *)
Definition dump_step (u : unicode) (s : list text * option text * option Z) (d : text) (args : list text)
  : option (list text * option text * option Z) :=
  match s with
  | (i, o, n) =>
      if text_eqb d (txt "input") then Some (args, o, n)
      else
        match args with
        | [v] =>
            if text_eqb d (txt "output") then Some (i, Some v, n)
            else if text_eqb d (txt "pretty") then
              match py_int_of_text u v with Ok z => Some (i, o, Some z) | Raise _ => None end
            else None
        | _ => None
        end
  end.
(** dump_labels.py 45, with [options.input[0]] of 59: Raise is its IndexError. *)
Definition dump_line (u : unicode) (ws : list text) : outcome (res dump_options) :=
  parse_line dump_parser u (dump_step u) ([], None, None)
    (fun s => match s with
              | (i :: _, o, n) => Some (Ok (mkDumpOptions i o n))
              | ([], _, _) => Some (Raise IndexError)
              end) ws.
(** The whole program: dump_labels.py 31-117.  An empty list of actions and
    [Finished] for the help. *)
Definition dump_program (lib : library) (jl : json_library) (s : system) (ws : list text) (d : disk)
  : list act * tool_end :=
  match dump_line (lib_unicode lib) ws with
  | Starts (Ok o) => dump_main lib jl s o d
  | Starts (Raise e) => ([], Raised e)
  | Refuses => ([], Usage)
  | Helps => ([], Finished)
  end.

(** ** graph.py *)

(** graph.py 75-88. *)
Definition graph_parser : parser :=
  mkParser [(txt "-h", txt "help"); (txt "--help", txt "help");
            (txt "-o", txt "output"); (txt "--output", txt "output")]
           [txt "help"] [(txt "input", One)].
(** graph.py 82-88: the contents of the input files, and the output.
    [FileType('rb')] opens a file; "-" is the standard input. *)
Definition graph_step (stdin : bytes) (d : disk) (s : list bytes * option text) (a : text) (args : list text)
  : option (list bytes * option text) :=
  let opened w := if text_eqb w (txt "-") then Some stdin else d w in
  match s with
  | (i, o) =>
      if text_eqb a (txt "input") then
        match args with
        | [] => Some ([], o)
        | [w] => match opened w with Some b => Some ([b], o) | None => None end
        | _ => None
        end
      else
        match args with
        | [v] => if text_eqb a (txt "output") then Some (i, Some v) else None
        | _ => None
        end
  end.
(** graph.py 89 and 91: what is read and the name of the output.  The option is
    required (83). *)
Definition graph_line (u : unicode) (stdin : bytes) (d : disk) (ws : list text) : outcome (res (bytes * text)) :=
  parse_line graph_parser u (graph_step stdin d) ([], None)
    (fun s => match s with
              | (_, None) => None
              | (b :: _, Some o) => Some (Ok (b, o))
              | ([], Some _) => Some (Raise IndexError)
              end) ws.

(** ** fetch_protocol_docs.py *)

(** fetch_protocol_docs.py 115-121. *)
Definition fetch_parser : parser :=
  mkParser [(txt "-h", txt "help"); (txt "--help", txt "help")] [txt "help"] [(txt "destination", One)].
(** fetch_protocol_docs.py 119-125: the argument of [download_docs].  Without
    [nargs] a single word is itself the value, anything else a list (None here). *)
Definition fetch_line (u : unicode) (ws : list text) : outcome (option text) :=
  parse_line fetch_parser u
    (fun (_ : option text) d args =>
       if text_eqb d (txt "destination") then Some (match args with [v] => Some v | _ => None end) else None)
    None Some ws.

(** ** pciprotocol.py *)

(** pciprotocol.py 591-606. *)
Definition pci_parser : parser :=
  mkParser [(txt "-h", txt "help"); (txt "--help", txt "help");
            (txt "-s", txt "serial"); (txt "--serial", txt "serial");
            (txt "-t", txt "tcp"); (txt "--tcp", txt "tcp")]
           [txt "help"] [].
(** pciprotocol.py 595-606: the two options exclude each other. *)
Definition pci_step (s : option text * option text) (d : text) (args : list text) : option (option text * option text) :=
  match s, args with
  | (serial, tcp), [v] =>
      if text_eqb d (txt "serial") then match tcp with None => Some (Some v, None) | Some _ => None end
      else if text_eqb d (txt "tcp") then match serial with None => Some (None, Some v) | Some _ => None end
      else None
  | _, _ => None
  end.
(** pciprotocol.py 608.  One of the options is required (595). *)
Definition pci_line (u : unicode) (ws : list text) : outcome (option text * option text) :=
  parse_line pci_parser u pci_step (None, None)
    (fun s => match s with (None, None) => None | _ => Some s end) ws.
(** What the test program opens; [Nothing]: it waits for an end that nobody
    announces.  pciprotocol.py 619-626. *)
Inductive target : Set :=
| SerialPort (device : text) (baud : Z)
| TcpPort (host : text) (port : Z)
| Nothing.
(** pciprotocol.py 619-624.  Unpacking fails with a ValueError unless there are two
    parts. *)
Definition pci_target (u : unicode) (o : option text * option text) : res target :=
  match or_none (fst o), or_none (snd o) with
  | Some device, _ => Ok (SerialPort device 9600)
  | None, Some addr =>
      match split_colon 2 addr with
      | [host; port] => rbind (py_int_of_text u port) (fun port => Ok (TcpPort host port))
      | _ => Raise ValueError
      end
  | None, None => Ok Nothing
  end.
(** pciprotocol.py 582-626. *)
Definition pci_program (u : unicode) (ws : list text) : outcome (res target) :=
  match pci_line u ws with
  | Starts o => Starts (pci_target u o)
  | Refuses => Refuses
  | Helps => Helps
  end.

(** ** pciserverprotocol.py *)

(** pciserverprotocol.py 492-494. *)
Definition server_parser : parser :=
  mkParser [(txt "-h", txt "help"); (txt "--help", txt "help")] [txt "help"]
           [(txt "address", Maybe); (txt "port", Maybe)].
(** pciserverprotocol.py 493-494: without a word the default stays. *)
Definition server_step (u : unicode) (s : text * Z) (d : text) (args : list text) : option (text * Z) :=
  match s, args with
  | (a, n), [] => Some (a, n)
  | (a, n), [v] =>
      if text_eqb d (txt "address") then Some (v, n)
      else if text_eqb d (txt "port") then
        match py_int_of_text u v with Ok z => Some (a, z) | Raise _ => None end
      else None
  | _, _ => None
  end.
(** pciserverprotocol.py 495-497: the address and the port of the server. *)
Definition server_line (u : unicode) (ws : list text) : outcome (text * Z) :=
  parse_line server_parser u (server_step u) (txt "127.0.0.1", 10001) Some ws.
