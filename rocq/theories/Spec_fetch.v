(** Vocabulary for what the documentation fetcher may do, independent of how it
    does it. *)
From Coq Require Import List ZArith Bool String.
From Verif Require Import Py Text Fetch.
Import ListNotations.
Notation length := List.length.
Open Scope Z_scope.

(** A document of the manufacturer's server. *)
Definition document (u : url) : Prop :=
  (u_scheme u = txt "http" \/ u_scheme u = txt "https")
  /\ u_netloc u = txt "updates.clipsal.com"
  /\ exists stem, u_path u = stem ++ txt ".pdf".

(** An address on that server. *)
Definition on_server (uri : text) : Prop :=
  exists rest, uri = txt "http://updates.clipsal.com/" ++ rest
               \/ uri = txt "https://updates.clipsal.com/" ++ rest.

(** The address of a document: scheme, host, path and the other parts that are
    there, each after its sign. *)
Definition part (sign t : text) : text := match t with [] => [] | _ => sign ++ t end.
Definition address (u : url) (uri : text) : Prop :=
  exists path, (u_path u = txt "/" ++ path \/ (~ exists p, u_path u = txt "/" ++ p) /\ u_path u = path)
    /\ uri = u_scheme u ++ txt "://updates.clipsal.com/" ++ path ++ part (txt ";") (u_params u)
             ++ part (txt "?") (u_query u) ++ part (txt "#") (u_fragment u).

(** The target of a link of a page: the first attribute called href, in any
    case, of a tag called a, in any case. *)
Definition called (name : text) (s : text) : Prop :=
  Forall2 (fun c l => c = l \/ (97 <= l <= 122 /\ c = l - 32)) s name.
Inductive links_to (e : site) : starttag -> res url -> Prop :=
| links_to_intro name before k v after :
    called (txt "a") name -> Forall (fun a => ~ called (txt "href") (fst a)) before ->
    called (txt "href") k ->
    links_to e (name, before ++ (k, v) :: after) (s_resolve e v).
(** The documents of a page, in the order of the page; every link resolves. *)
Inductive listing (e : site) : list starttag -> list url -> Prop :=
| listing_nil : listing e [] []
| listing_doc t u ts us :
    links_to e t (Ok u) -> document u -> listing e ts us -> listing e (t :: ts) (u :: us)
| listing_other t ts us :
    (forall u, links_to e t u -> exists v, u = Ok v /\ ~ document v) ->
    listing e ts us -> listing e (t :: ts) us.

(** Where the document of a link goes. *)
Definition place (destination : text) (l : url) : text := path_join destination (short_name l).

(** The text a percent-encoded ASCII name stands for. *)
Definition hex_is (c d : Z) : Prop :=
  (48 <= c <= 57 /\ d = c - 48) \/ (65 <= c <= 70 /\ d = c - 55) \/ (97 <= c <= 102 /\ d = c - 87).
Inductive spells : text -> text -> Prop :=
| spells_nil : spells [] []
| spells_plain c s t : 0 <= c < 128 -> c <> 37 -> spells s t -> spells (c :: s) (c :: t)
| spells_escape h l a b s t :
    hex_is h a -> hex_is l b -> a * 16 + b < 128 -> spells s t ->
    spells (37 :: h :: l :: s) ((a * 16 + b) :: t).

(** The process is killed at some point: only the first effects happen, the last
    write perhaps in part. *)
Inductive cut : list fev -> list fev -> Prop :=
| cut_stop tr : cut tr []
| cut_short p b k tr : cut (FWrite p b :: tr) [FWrite p (firstn k b)]
| cut_on ev tr tr' : cut tr tr' -> cut (ev :: tr) (ev :: tr').

(** Two disks with the same contents. *)
Definition same_disk (a b : disk) : Prop :=
  (forall p, file a p = file b p) /\ (forall p, dir a p = dir b p).

(** The disk with one more file. *)
Definition with_file (d : disk) (p : text) (b : bytes) : disk :=
  mkDisk (put (file d) p (Some b)) (dir d).

(** [saved e destination d links d']: from [d] to [d'] each link was taken care
    of in turn: a path that is taken is left alone, and at any other the answer
    of the server to a request for that link is stored. *)
Inductive saved (e : site) (destination : text) : disk -> list url -> disk -> Prop :=
| saved_nil d d' : same_disk d d' -> saved e destination d [] d'
| saved_old d l ls d' :
    exists_ d (place destination l) = true ->
    saved e destination d ls d' -> saved e destination d (l :: ls) d'
| saved_new d l ls d' n body :
    exists_ d (place destination l) = false ->
    s_get e n (urlunparse l) = Ok body ->
    saved e destination (with_file d (place destination l) body) ls d' ->
    saved e destination d (l :: ls) d'.

(** The links still to be requested when those that [have] are there. *)
Fixpoint missing (have : text -> bool) (destination : text) (links : list url) : list url :=
  match links with
  | [] => []
  | l :: links' =>
      if have (place destination l) then missing have destination links'
      else l :: missing (fun p => text_eqb (place destination l) p || have p) destination links'
  end.

(** The requests in a trace. *)
Fixpoint requests (tr : list fev) : list text :=
  match tr with
  | [] => []
  | FGet u :: tr' => u :: requests tr'
  | _ :: tr' => requests tr'
  end.

(** The process stops at some point, but not between creating a file and filling
    it. *)
Inductive pause : list fev -> list fev -> Prop :=
| pause_end : pause [] []
| pause_mkdir p tr : pause (FMkdir p :: tr) []
| pause_get u tr : pause (FGet u :: tr) []
| pause_create p tr : pause (FCreate p :: tr) []
| pause_on ev tr tr' : pause tr tr' -> pause (ev :: tr) (ev :: tr').

(** The process is killed during one of several calls. *)
Definition killed (calls : list (list fev * res unit)) (t : list fev) : Prop :=
  exists before tr r after t', calls = before ++ (tr, r) :: after /\ cut tr t'
                               /\ t = List.concat (map fst before) ++ t'.

(** The same site and libraries: the server answers the same whenever it
    answers. *)
Definition same_site (a b : site) : Prop :=
  (forall n m u x y, s_get a n u = Ok x -> s_get b m u = Ok y -> x = y)
  /\ (forall x, s_text a x = s_text b x) /\ (forall x, s_tags a x = s_tags b x)
  /\ (forall v, s_resolve a v = s_resolve b v).

(** The disk once the destination is there. *)
Definition prepared (d : disk) (dst : text) : disk :=
  if exists_ d dst then d else apply d (FMkdir dst).

(** The requests of a call that sees to [links]: the terms unless they are there,
    the index, and the links whose file is missing. *)
Definition plan (d : disk) (dst : text) (links : list url) : list text :=
  map urlunparse (missing (exists_ d) dst [TERMS_U]) ++ [urlunparse INDEX_U]
  ++ map urlunparse (missing (fun p => text_eqb (place dst TERMS_U) p || exists_ d p) dst links).

(** The page that the index turned out to be, and its documents. *)
Definition page_lists (e : site) (us : list url) : Prop :=
  exists n page, s_get e n (urlunparse INDEX_U) = Ok page
                 /\ listing e (s_tags e (s_text e page)) us.

(** A slash written as an escape. *)
Definition escaped_slash (s : text) : Prop :=
  exists a b, s = a ++ txt "%2F" ++ b \/ s = a ++ txt "%2f" ++ b.
