(** Model of the two Toolkit programs as programs on files: the part of [main] of
    cbus/toolkit/dump_labels.py after the command line is parsed, with the text
    that [json.dump] writes, and [main] and [generate_graph] of
    cbus/toolkit/graph.py up to the calls of pydot.  No proofs in this file. *)
From Coq Require Import List ZArith Bool String.
From Verif Require Import Py Text Project Mqtt Cbz Toolkit Json.
Import ListNotations.
Open Scope Z_scope.

(** ** json.dump with an indentation *)

(** A new line at the given level, and items with the separator between them
    ([_make_iterencode] of json/encoder.py).  Part of dump_labels.py 115. *)
Definition new_line (n level : nat) : text := 10 :: repeat 32 (n * level).
(** Part of dump_labels.py 115. *)
Fixpoint separated (sep : text) (l : list text) : text :=
  match l with
  | [] => []
  | [t] => t
  | t :: l' => t ++ sep ++ separated sep l'
  end.
(** What the items of a list or a dict become; nothing at all if there are none.
    Part of dump_labels.py 115. *)
Definition indented (n level : nat) (items : list text) : text :=
  match items with
  | [] => []
  | _ => new_line n (S level) ++ separated (44 :: new_line n (S level)) items ++ new_line n level
  end.
(** [json.dump(j, f, indent=n)] at some level.  With an indentation the item
    separator is "," and the key separator ": ".  Part of dump_labels.py 115. *)
Fixpoint dumps_indent (lib : json_library) (n level : nat) (j : json) : text :=
  match j with
  | JNull => txt "null"
  | JBool true => txt "true"
  | JBool false => txt "false"
  | JNum x => dumps_num lib x
  | JStr s => quote s
  | JArr l => [91] ++ indented n level (map (dumps_indent lib n (S level)) l) ++ [93]
  | JObj l =>
      [123] ++ indented n level
                 (map (fun p => match p with (k, v) => quote k ++ [58; 32] ++ dumps_indent lib n (S level) v end) l)
            ++ [125]
  end.
(** [json.dump(o, of, indent=pretty)].  dump_labels.py 47-57 and 115: an
    indentation of 0 counts as none given. *)
Definition dump_text (lib : json_library) (pretty : option Z) (j : json) : text :=
  match pretty with
  | Some n => if n =? 0 then dumps lib j else dumps_indent lib (Z.to_nat n) 0 j
  | None => dumps lib j
  end.

(** ** Files *)

(** What a disk holds under each name.  dump_labels.py 59-63 and graph.py 87. *)
Definition disk : Set := text -> option bytes.
(** What a program does to the disk and to its standard output.  The file is
    written through buffers, so an [Append] may reach the disk in pieces.
    dump_labels.py 61-63 and 115-117. *)
Inductive act : Set :=
| Truncate (name : text)            (* open(name, 'w') *)
| Append (name : text) (b : bytes)
| Print (b : bytes).
(** dump_labels.py 63 and 115-117. *)
Definition put (d : disk) (name : text) (b : bytes) : disk := fun n => if text_eqb n name then Some b else d n.
(** dump_labels.py 63 and 115-117. *)
Definition perform (d : disk) (a : act) : disk :=
  match a with
  | Truncate name => put d name []
  | Append name b => put d name (match d name with Some old => old ++ b | None => b end)
  | Print _ => d
  end.
(** dump_labels.py 59-117. *)
Definition perform_all (d : disk) (l : list act) : disk := fold_left perform l d.

(** How a program ends: normally, with argparse's usage message and exit status 2,
    or with an exception.  dump_labels.py 45-117 and graph.py 89-91. *)
Inductive tool_end : Set :=
| Finished
| Usage
| Raised (e : exn).

(** ** dump_labels.py *)

(** The parsed options of dump_labels.py 32-45. *)
Record dump_options : Set := mkDumpOptions { do_input : text; do_output : option text; do_pretty : option Z }.
(** What depends on the system: what zipfile and ElementTree find in the bytes of
    a file, and whether a name can be opened for writing.
    dump_labels.py 59 and 63. *)
Record system := mkSystem { sys_project : bytes -> contents; sys_writable : text -> bool }.

(** dump_labels.py 47-117.  The text is ASCII, so the encoding of the output file
    does not matter.  Simplification: the standard output is open, and writing to
    an open file does not fail. *)
Definition dump_main (lib : library) (jl : json_library) (s : system) (o : dump_options) (d : disk) : list act * tool_end :=
  if match do_pretty o with Some n => n <? 0 | None => false end then ([], Usage)   (* dump_labels.py 55-57 *)
  else
    match d (do_input o) with
    | None => ([], Raised OSError)                                                  (* dump_labels.py 59 *)
    | Some b =>
        match cbz_installation lib (FileName (sys_project s b)) with
        | Raise e => ([], Raised e)                                                 (* dump_labels.py 59 *)
        | Ok i =>
            let body (opened : list act) (write : bytes -> act) :=
              match rbind (project_networks i) (fun ns => dump_labels (lib_unicode lib) ns) with
              | Ok j => (opened ++ [write (dump_text jl (do_pretty o) j)], Finished)
              | Raise e => (opened, Raised e)
              end in
            match do_output o with
            | None => body [] Print                                                 (* dump_labels.py 61 *)
            | Some name =>
                if sys_writable s name then body [Truncate name] (Append name)      (* dump_labels.py 63 *)
                else ([], Raised OSError)
            end
        end
    end.

(** ** graph.py *)

(** What [generate_graph] hands to pydot, or how the program ends before.
    [NotJson] is a JSONDecodeError or UnicodeDecodeError, [Deep] a RecursionError.
    graph.py 37-67 and 83-91. *)
Inductive graph_end : Set :=
| Drawn (l : list subgraph)
| GraphUsage
| NotJson
| Deep
| GraphRaised (e : exn).
(** graph.py 28-67 and 74-91, for the name of a file.  Simplifications: the name
    "-", which stands for the standard input, is left out; so is what pydot does
    with the graph (graph.py 41, 69-71). *)
Definition graph_main (jl : json_library) (depth : nat) (input : text) (d : disk) : graph_end :=
  match d input with
  | None => GraphUsage                                                              (* graph.py 87 *)
  | Some b =>
      match loads jl depth b with
      | Got j => match generate_graph j with Ok l => Drawn l | Raise e => GraphRaised e end
      | Wrong => NotJson
      | TooDeep => Deep
      | NoFuel => GraphRaised OutOfFuel
      end
  end.
