(** Model of cbus/tools/fetch_protocol_docs.py.  No proofs in this file. *)
From Coq Require Import List ZArith Bool String.
From Verif Require Import Py Text.
Import ListNotations.
Notation length := List.length.
Open Scope Z_scope.

(** ** Links *)

(** The result of [urlparse].  fetch_protocol_docs.py 30, 44 and 96. *)
Record url : Set := mkUrl {
  u_scheme : text; u_netloc : text; u_path : text;
  u_params : text; u_query : text; u_fragment : text }.

(** Part of [urlunparse], fetch_protocol_docs.py 69. *)
Definition is_nil {A} (l : list A) : bool := match l with [] => true | _ => false end.

(** fetch_protocol_docs.py 28-32: the two addresses, given as [urlparse] splits
    them. *)
Definition HOST : text := txt "updates.clipsal.com".
(** fetch_protocol_docs.py 28-32. *)
Definition INDEX_U : url :=
  mkUrl (txt "https") HOST
        (txt "/ClipsalSoftwareDownload/DL/downloads/OpenCBus/OpenCBusProtocolDownloads.html") [] [] [].
(** fetch_protocol_docs.py 28-32. *)
Definition TERMS_U : url :=
  mkUrl (txt "https") HOST
        (txt "/ClipsalSoftwareDownload/DL/downloads/OpenCBus/Open%20C-Bus%20Serial%20Protocol%20Agreement.pdf")
        [] [] [].

(** [urlunparse] for an address with a host.  Simplification: the rule for an
    address without a host is left out; the code never unparses one.
    fetch_protocol_docs.py 69. *)
Definition urlunparse (u : url) : text :=
  let p := if is_nil (u_params u) then u_path u else u_path u ++ txt ";" ++ u_params u in
  let p := match p with [] => [] | c :: _ => if c =? 47 then p else 47 :: p end in
  let p := txt "//" ++ u_netloc u ++ p in
  let p := if is_nil (u_scheme u) then p else u_scheme u ++ txt ":" ++ p in
  let p := if is_nil (u_query u) then p else p ++ txt "?" ++ u_query u in
  if is_nil (u_fragment u) then p else p ++ txt "#" ++ u_fragment u.

(** ** [unquote].  Part of fetch_protocol_docs.py 70. *)

Definition hex_value (c : Z) : option Z :=
  if (48 <=? c) && (c <=? 57) then Some (c - 48)
  else if (65 <=? c) && (c <=? 70) then Some (c - 55)
  else if (97 <=? c) && (c <=? 102) then Some (c - 87)
  else None.

(** [unquote_to_bytes] of a run of ASCII characters: a percent sign followed by
    two hexadecimal digits is a byte, anything else stands for itself.
    Part of fetch_protocol_docs.py 70. *)
Fixpoint unquote_to_bytes (s : text) : bytes :=
  match s with
  | [] => []
  | c :: s1 =>
      if c =? 37 then
        match s1 with
        | h :: l :: s2 =>
            match hex_value h, hex_value l with
            | Some h, Some l => (h * 16 + l) :: unquote_to_bytes s2
            | _, _ => 37 :: unquote_to_bytes s1
            end
        | _ => 37 :: unquote_to_bytes s1
        end
      else c :: unquote_to_bytes s1
  end.

(** [bytes.decode('utf-8', 'replace')]: a maximal part of a sequence that cannot
    be continued becomes U+FFFD.  Part of fetch_protocol_docs.py 70. *)
Definition in_range (lo hi c : Z) : bool := (lo <=? c) && (c <=? hi).
(** Part of fetch_protocol_docs.py 70. *)
Definition REPLACEMENT : Z := 0xFFFD.
(** The range of the second byte after a leading byte.
    Part of fetch_protocol_docs.py 70. *)
Definition second_range (b : Z) : Z * Z :=
  if b =? 0xE0 then (0xA0, 0xBF)
  else if b =? 0xED then (0x80, 0x9F)
  else if b =? 0xF0 then (0x90, 0xBF)
  else if b =? 0xF4 then (0x80, 0x8F)
  else (0x80, 0xBF).
(** Part of fetch_protocol_docs.py 70. *)
Definition second_ok (b c : Z) : bool := in_range (fst (second_range b)) (snd (second_range b)) c.
(** Part of fetch_protocol_docs.py 70. *)
Definition cont (c : Z) : bool := in_range 0x80 0xBF c.
(** Part of fetch_protocol_docs.py 70. *)
Fixpoint utf8_replace (s : bytes) : text :=
  match s with
  | [] => []
  | b :: s1 =>
      if b <? 0x80 then b :: utf8_replace s1
      else if in_range 0xC2 0xDF b then
        match s1 with
        | c :: s2 => if cont c then ((b - 0xC0) * 64 + (c - 0x80)) :: utf8_replace s2
                     else REPLACEMENT :: utf8_replace s1
        | [] => [REPLACEMENT]
        end
      else if in_range 0xE0 0xEF b then
        match s1 with
        | c :: s2 =>
            if second_ok b c then
              match s2 with
              | d :: s3 =>
                  if cont d
                  then (((b - 0xE0) * 64 + (c - 0x80)) * 64 + (d - 0x80)) :: utf8_replace s3
                  else REPLACEMENT :: utf8_replace s2
              | [] => [REPLACEMENT]
              end
            else REPLACEMENT :: utf8_replace s1
        | [] => [REPLACEMENT]
        end
      else if in_range 0xF0 0xF4 b then
        match s1 with
        | c :: s2 =>
            if second_ok b c then
              match s2 with
              | d :: s3 =>
                  if cont d then
                    match s3 with
                    | e :: s4 =>
                        if cont e
                        then ((((b - 0xF0) * 64 + (c - 0x80)) * 64 + (d - 0x80)) * 64 + (e - 0x80))
                               :: utf8_replace s4
                        else REPLACEMENT :: utf8_replace s3
                    | [] => [REPLACEMENT]
                    end
                  else REPLACEMENT :: utf8_replace s2
              | [] => [REPLACEMENT]
              end
            else REPLACEMENT :: utf8_replace s1
        | [] => [REPLACEMENT]
        end
      else REPLACEMENT :: utf8_replace s1
  end.

(** [urllib.parse.unquote]: each maximal run of ASCII characters is unquoted;
    other characters stand for themselves.  [run] is the current run.
    Part of fetch_protocol_docs.py 70. *)
Fixpoint unquote_run (run : text) (s : text) : text :=
  match s with
  | [] => utf8_replace (unquote_to_bytes run)
  | c :: s' =>
      if c <? 128 then unquote_run (run ++ [c]) s'
      else utf8_replace (unquote_to_bytes run) ++ c :: unquote_run [] s'
  end.
Definition unquote (s : text) : text := unquote_run [] s.  (* fetch_protocol_docs.py 70 *)

(** [s.split('/')[-1]].  fetch_protocol_docs.py 70. *)
Fixpoint last_segment (s : text) : text :=
  match s with
  | [] => []
  | c :: s' => if mem 47 s' then last_segment s' else if c =? 47 then s' else s
  end.

(** [os.path.join(a, b)] on POSIX.  fetch_protocol_docs.py 71. *)
Definition path_join (a b : text) : text :=
  if starts_with (txt "/") b then b
  else if is_nil a || ends_with (txt "/") a then a ++ b else a ++ txt "/" ++ b.

(** ** The page *)

(** A start tag as [HTMLParser] reports it: name and attributes.
    fetch_protocol_docs.py 38. *)
Definition starttag : Set := (text * list (text * option text))%type.

(** [s.lower()] on ASCII; no other code point lower-cases to a letter of "a" or
    "href".  fetch_protocol_docs.py 39 and 43. *)
Definition lower_char (c : Z) : Z := if (65 <=? c) && (c <=? 90) then c + 32 else c.

(** ** The environment: the site, the libraries and the file system's faults.
    fetch_protocol_docs.py 44, 82-85, 90, 99 and 103. *)
Record site := mkSite {
  (** the n-th [requests.get(uri)]: the body (whatever the HTTP status), or an
      exception *)
  s_get : nat -> text -> res bytes;
  (** [Response.text], and the start tags [HTMLParser] finds *)
  s_text : bytes -> text;
  s_tags : text -> list starttag;
  (** [urlparse(urljoin(DOCUMENTATION_INDEX, v))] *)
  s_resolve : option text -> res url;
  (** an exception raised by [os.makedirs], by the n-th [open]; the number of
      bytes stored and the exception if the n-th write (or close) fails *)
  s_mkdir : text -> option exn;
  s_open : nat -> text -> option exn;
  s_store : nat -> option (nat * exn) }.

(** fetch_protocol_docs.py 41-45: the [href] of a start tag. *)
Fixpoint find_href (e : site) (attrs : list (text * option text)) : res (option url) :=
  match attrs with
  | [] => Ok None
  | (k, v) :: attrs' =>
      if text_eqb (map lower_char k) (txt "href") then
        match s_resolve e v with Ok u => Ok (Some u) | Raise x => Raise x end
      else find_href e attrs'
  end.
(** fetch_protocol_docs.py 48-50. *)
Definition wanted (u : url) : bool :=
  (text_eqb (u_scheme u) (txt "http") || text_eqb (u_scheme u) (txt "https"))
  && text_eqb (u_netloc u) (u_netloc INDEX_U) && ends_with (txt ".pdf") (u_path u).

(** fetch_protocol_docs.py 38-52, for one tag: the links queued. *)
Definition handle_starttag (e : site) (t : starttag) : res (list url) :=
  if text_eqb (map lower_char (fst t)) (txt "a") then
    match find_href e (snd t) with
    | Raise x => Raise x
    | Ok (Some u) => Ok (if wanted u then [u] else [])
    | Ok None => Ok []
    end
  else Ok [].

(** ** The file system: files and directories by path.  Simplification: two
    paths are the same file only if they are the same string.
    fetch_protocol_docs.py 72, 83-85 and 89-91. *)
Record disk := mkDisk { file : text -> option bytes; dir : text -> bool }.
(** [os.path.exists].  fetch_protocol_docs.py 72 and 89. *)
Definition exists_ (d : disk) (p : text) : bool :=
  match file d p with Some _ => true | None => dir d p end.

(** What the tool does to the outside.  fetch_protocol_docs.py 82-85, 90 and 99. *)
Inductive fev : Set :=
| FMkdir (p : text)
| FGet (uri : text)
| FCreate (p : text)              (* open(p, 'wb') *)
| FWrite (p : text) (b : bytes).  (* the bytes that reach the file *)

(** The effect of each on the file system.  Simplification: the parents made by
    [os.makedirs] are not represented.  fetch_protocol_docs.py 83-85. *)
Definition put {A} (f : text -> A) (p : text) (v : A) : text -> A :=
  fun q => if text_eqb p q then v else f q.
(** fetch_protocol_docs.py 82-85 and 90. *)
Definition apply (d : disk) (e : fev) : disk :=
  match e with
  | FMkdir p => mkDisk (file d) (put (dir d) p true)
  | FGet _ => d
  | FCreate p => mkDisk (put (file d) p (Some [])) (dir d)
  | FWrite p b =>
      mkDisk (put (file d) p (match file d p with Some old => Some (old ++ b) | None => None end))
             (dir d)
  end.
(** fetch_protocol_docs.py 88-111. *)
Definition replay (d : disk) (tr : list fev) : disk := fold_left apply tr d.

(** The state of the process: the disk, [DocumentationParser.links] (a class
    attribute, shared by all parsers of the process), and how often the oracles
    were asked.  fetch_protocol_docs.py 35-36. *)
Record fetch := mkFetch { f_disk : disk; f_links : list url; f_gets : nat; f_stores : nat }.

(** The functions of fetch_protocol_docs.py 38-111. *)
Definition FM (A : Type) : Type := fetch -> fetch * list fev * res A.
(** A return, e.g. fetch_protocol_docs.py 74. *)
Definition fret {A} (a : A) : FM A := fun s => (s, [], Ok a).
(** A raise, e.g. fetch_protocol_docs.py 92. *)
Definition fraise {A} (e : exn) : FM A := fun s => (s, [], Raise e).
(** Statements one after the other, fetch_protocol_docs.py 82-85. *)
Definition fbind {A B} (m : FM A) (f : A -> FM B) : FM B := fun s =>
  match m s with
  | (s1, ev1, Ok a) => match f a s1 with (s2, ev2, r) => (s2, ev1 ++ ev2, r) end
  | (s1, ev1, Raise e) => (s1, ev1, Raise e)
  end.
(** Statements one after the other, fetch_protocol_docs.py 96-109. *)
Definition fseq {A B} (m : FM A) (k : FM B) : FM B := fbind m (fun _ => k).
(** An effect, e.g. fetch_protocol_docs.py 83-85. *)
Definition femit (e : fev) : FM unit := fun s =>
  (mkFetch (apply (f_disk s) e) (f_links s) (f_gets s) (f_stores s), [e], Ok tt).

(** [requests.get(uri)].  fetch_protocol_docs.py 82 and 99. *)
Definition fget (e : site) (uri : text) : FM bytes :=
  fseq (femit (FGet uri)) (fun s =>
    (mkFetch (f_disk s) (f_links s) (S (f_gets s)) (f_stores s), [], s_get e (f_gets s) uri)).

(** fetch_protocol_docs.py 83-85. *)
Definition fstore (e : site) (fname : text) (document : bytes) : FM unit := fun s =>
  let n := f_stores s in
  let s := mkFetch (f_disk s) (f_links s) (f_gets s) (S n) in
  match s_open e n fname with
  | Some x => (s, [], Raise x)
  | None =>
      fseq (femit (FCreate fname))
        (match s_store e n with
         | Some (k, x) => fseq (femit (FWrite fname (firstn k document))) (fraise x)
         | None => femit (FWrite fname document)
         end) s
  end.

(** The name of the file of a link: fetch_protocol_docs.py 70. *)
Definition short_name (link : url) : text := unquote (last_segment (u_path link)).

(** fetch_protocol_docs.py 55-85, without the messages printed. *)
Definition download_file (e : site) (destination : text) (link : url) : FM unit := fun s =>
  let fname := path_join destination (short_name link) in
  if exists_ (f_disk s) fname then fret tt s
  else fbind (fget e (urlunparse link)) (fstore e fname) s.

(** fetch_protocol_docs.py 108-109. *)
Fixpoint download_files (e : site) (destination : text) (links : list url) : FM unit :=
  match links with
  | [] => fret tt
  | l :: links' => fseq (download_file e destination l) (download_files e destination links')
  end.

(** fetch_protocol_docs.py 102-104: the tags one after the other, each
    adding to the shared list. *)
Fixpoint feed (e : site) (tags : list starttag) : FM unit :=
  match tags with
  | [] => fret tt
  | t :: tags' => fun s =>
      match handle_starttag e t with
      | Raise x => (s, [], Raise x)
      | Ok l => feed e tags' (mkFetch (f_disk s) (f_links s ++ l) (f_gets s) (f_stores s))
      end
  end.

(** fetch_protocol_docs.py 89-93. *)
Definition prepare (e : site) (destination : text) : FM unit := fun s =>
  if negb (exists_ (f_disk s) destination) then
    match s_mkdir e destination with
    | Some x => (s, [], Raise x)
    | None => femit (FMkdir destination) s
    end
  else if negb (dir (f_disk s) destination) then (s, [], Raise OSError)
  else (s, [], Ok tt).

(** fetch_protocol_docs.py 88-111. *)
Definition download_docs (e : site) (destination : text) : FM unit :=
  fseq (prepare e destination)
  (fseq (download_file e destination TERMS_U)
  (fbind (fget e (urlunparse INDEX_U)) (fun body =>
   fseq (feed e (s_tags e (s_text e body)))
        (fun s => download_files e destination (f_links s) s)))).

(** Successive calls in one process; the surroundings may change between them.
    An exception goes to the caller.  Calls of fetch_protocol_docs.py 88. *)
Fixpoint fetch_run (s : fetch) (calls : list (site * text)) : fetch * list (list fev * res unit) :=
  match calls with
  | [] => (s, [])
  | (e, destination) :: calls' =>
      match download_docs e destination s with
      | (s1, tr, r) => match fetch_run s1 calls' with (s2, rest) => (s2, (tr, r) :: rest) end
      end
  end.

(** A new process on a disk.  fetch_protocol_docs.py 35-36. *)
Definition new_process (d : disk) : fetch := mkFetch d [] 0 0.
