(** What a command line of the redirector means. *)
From Coq Require Import List ZArith Bool String.
From Verif Require Import Py Text RedirectLine.
Import ListNotations.
Open Scope Z_scope.

(** The manual: the letter, if there is one, and the long name of each option
    that takes a value, and of each that does not. *)
Inductive valued : switch -> option string -> string -> Prop :=
| s_port : valued Port (Some "p"%string) "port"
| s_baud : valued Baud (Some "b"%string) "baud"
| s_parity : valued Parity None "parity"
| s_rts : valued Rts None "rts"
| s_dtr : valued Dtr None "dtr"
| s_local : valued LocalPort (Some "P"%string) "localport"
| s_net : valued NetNl None "net-nl"
| s_ser : valued SerNl None "ser-nl".
Inductive plain : switch -> option string -> string -> Prop :=
| s_help : plain Help (Some "h"%string) "help"
| s_quiet : plain Quiet (Some "q"%string) "quiet"
| s_spy : plain Spy None "spy"
| s_rtscts : plain Rtscts None "rtscts"
| s_xonxoff : plain Xonxoff None "xonxoff"
| s_convert : plain Convert (Some "c"%string) "convert".
Definition has_value (s : switch) : Prop := exists l n, valued s l n.
Definition has_none (s : switch) : Prop := exists l n, plain s l n.
Definition long_name (s : switch) (w : text) : Prop :=
  exists l n, (valued s l n \/ plain s l n) /\ w = txt "--" ++ txt n.
Definition letter_name (s : switch) (c : Z) : Prop :=
  exists l n, (valued s (Some l) n \/ plain s (Some l) n) /\ txt l = [c].
(** [w] is the long name of [s], or the beginning of it and of no other. *)
Definition means (w : text) (s : switch) : Prop :=
  long_name s w
  \/ (forall s', ~ long_name s' w) /\ (exists rest, long_name s (w ++ rest))
     /\ (forall s' rest, long_name s' (w ++ rest) -> s' = s).

(** An option and its value, if it takes one. *)
Definition given : Set := (switch * option text)%type.
(** Letters of options without a value, other than help. *)
Inductive flags : text -> list given -> Prop :=
| flags_none : flags [] []
| flags_one c s cs gs : letter_name s c -> has_none s -> s <> Help -> flags cs gs ->
    flags (c :: cs) ((s, None) :: gs).
(** The words of one item of the line, the options they give, and the arguments:
    "--name", "--name value", "--name=value", "-xyz", "-xyzvalue", "-xyz value", or
    an argument, which does not begin with a dash or is nothing but a dash. *)
Inductive item : list text -> list given -> list text -> Prop :=
| item_flag w s : means w s -> has_none s -> s <> Help -> item [w] [(s, None)] []
| item_next w s x : means w s -> has_value s -> item [w; x] [(s, Some x)] []
| item_equals w s x : means w s -> has_value s -> item [w ++ txt "=" ++ x] [(s, Some x)] []
| item_letters cs gs : flags cs gs -> cs <> [] -> item [txt "-" ++ cs] gs []
| item_attached cs gs c s x : flags cs gs -> letter_name s c -> has_value s -> x <> [] ->
    item [txt "-" ++ cs ++ [c] ++ x] (gs ++ [(s, Some x)]) []
| item_letter_next cs gs c s x : flags cs gs -> letter_name s c -> has_value s ->
    item [txt "-" ++ cs ++ [c]; x] (gs ++ [(s, Some x)]) []
| item_argument w : w = txt "-" \/ (forall r, w <> txt "-" ++ r) -> item [w] [] [w].
(** A line of items; after "--" there are only arguments. *)
Inductive reads : list text -> list given -> list text -> Prop :=
| reads_end : reads [] [] []
| reads_rest rest : reads (txt "--" :: rest) [] rest
| reads_item i gs args ws gs' args' : item i gs args -> reads ws gs' args' ->
    reads (i ++ ws) (gs ++ gs') (args ++ args').
(** After options that are given properly somebody asks for help; what follows is
    not looked at. *)
Inductive asks : list text -> list given -> Prop :=
| asks_name w ws : means w Help -> asks (w :: ws) []
| asks_letter cs gs c rest ws : flags cs gs -> letter_name Help c ->
    asks ((txt "-" ++ cs ++ [c] ++ rest) :: ws) gs
| asks_later i gs args ws gs' : item i gs args -> asks ws gs' -> asks (i ++ ws) (gs ++ gs').

(** A number given to an option: hexadecimal after 0x, binary after 0b, octal
    after 0, otherwise decimal. *)
Inductive number (nu : numbers) : text -> Z -> Prop :=
| number_hex x r z : x = txt "x" \/ x = txt "X" -> nu 16 (txt "0" ++ x ++ r) = Some z ->
    number nu (txt "0" ++ x ++ r) z
| number_bin b r z : b = txt "b" \/ b = txt "B" -> r <> [] -> nu 2 r = Some z -> number nu (txt "0" ++ b ++ r) z
| number_no_bin b z : b = txt "b" \/ b = txt "B" -> nu 2 (txt "0") = Some z -> number nu (txt "0" ++ b) z
| number_oct r z : (forall l r', In l [txt "x"; txt "X"; txt "b"; txt "B"] -> r <> l ++ r') ->
    nu 8 (txt "0" ++ r) = Some z -> number nu (txt "0" ++ r) z
| number_dec v z : (forall r, v <> txt "0" ++ r) -> nu 10 v = Some z -> number nu v z.
Definition numeric (s : switch) : Prop := In s [Baud; Rts; Dtr; LocalPort].
(** Every number given is one, also if it is given again later. *)
Definition proper (nu : numbers) (g : given) : Prop :=
  numeric (fst g) -> exists x z, snd g = Some x /\ number nu x z.

(** The value given last, or the default. *)
Inductive final {A} (s : switch) (reading : text -> A -> Prop) (default : A) : list given -> A -> Prop :=
| final_none gs : (forall x, ~ In (s, x) gs) -> final s reading default gs default
| final_some gs x gs' a : (forall y, ~ In (s, y) gs') -> reading x a ->
    final s reading default (gs ++ (s, Some x) :: gs') a.
Definition itself (x y : text) : Prop := x = y.
Definition some {A} (r : text -> A -> Prop) (x : text) (y : option A) : Prop := exists a, r x a /\ y = Some a.
Definition flagged (s : switch) (gs : list given) (b : bool) : Prop := b = true <-> In (s, None) gs.

(** The kinds of newlines, in capital or small letters. *)
Definition same_letter (a b : Z) : Prop := a = b \/ (97 <= a <= 122 /\ b = a - 32).
Inductive newline_kind : text -> bytes -> Prop :=
| kind_cr m : Forall2 same_letter m (txt "CR") -> newline_kind m [13]
| kind_lf m : Forall2 same_letter m (txt "LF") -> newline_kind m [10]
| kind_crlf m : Forall2 same_letter m (txt "CR+LF") -> newline_kind m [13; 10]
| kind_crlf' m : Forall2 same_letter m (txt "CRLF") -> newline_kind m [13; 10].

(** What is asked for. *)
Record wanted := mkWanted {
  w_port : option text;      (* None: the first port *)
  w_baud : Z; w_parity : text; w_rtscts : bool; w_xonxoff : bool;
  w_rts : option Z; w_dtr : option Z; w_local : Z;
  w_newlines : option (bytes * bytes) }.
(** Port and baud rate: from the options, or the port, perhaps with the baud rate,
    from the arguments; then the option --port is not given. *)
Inductive port_asked (nu : numbers) (gs : list given) : list text -> option text -> Z -> Prop :=
| asked_options p b : final Port (some itself) None gs p -> final Baud (number nu) 9600 gs b ->
    port_asked nu gs [] p b
| asked_port p b : (forall x, ~ In (Port, x) gs) -> final Baud (number nu) 9600 gs b ->
    port_asked nu gs [p] (Some p) b
| asked_both p t b : (forall x, ~ In (Port, x) gs) -> nu 10 t = Some b -> port_asked nu gs [p; t] (Some p) b.
Definition asked (nu : numbers) (gs : list given) (args : list text) (w : wanted) : Prop :=
  port_asked nu gs args (w_port w) (w_baud w)
  /\ final Parity itself (txt "N") gs (w_parity w)
  /\ flagged Rtscts gs (w_rtscts w) /\ flagged Xonxoff gs (w_xonxoff w)
  /\ final Rts (some (number nu)) None gs (w_rts w) /\ final Dtr (some (number nu)) None gs (w_dtr w)
  /\ final LocalPort (number nu) 7777 gs (w_local w)
  /\ (exists net ser nn sn, final NetNl itself (txt "LF") gs net /\ final SerNl itself (txt "CR+LF") gs ser
       /\ newline_kind net nn /\ newline_kind ser sn
       /\ (In (Convert, None) gs -> w_newlines w = Some (sn, nn))
       /\ (~ In (Convert, None) gs -> w_newlines w = None)).
(** The serial port is set up and opened, its lines are set if that is asked for,
    and the program listens. *)
Definition steps (w : wanted) : list sact :=
  [SetPort (w_port w); SetBaud (w_baud w); SetParity (w_parity w); SetRtscts (w_rtscts w);
   SetXonxoff (w_xonxoff w); SetTimeout 1; OpenPort]
  ++ match w_rts w with Some z => [SetRTS z] | None => [] end
  ++ match w_dtr w with Some z => [SetDTR z] | None => [] end
  ++ [Bind (w_local w); Listen 1].
