(** Vocabulary for the name the documentation fetcher gives a file, independent of
    how it finds it. *)
From Coq Require Import List ZArith Bool String.
From Verif Require Import Py Text Spec_json Spec_fetch.
Import ListNotations.
Notation length := List.length.
Open Scope Z_scope.

(** The text any percent-encoded name stands for: escapes are bytes, a percent
    sign without two digits is itself, and the bytes of a stretch of ASCII
    characters are UTF-8. *)
Inductive unescaped : text -> bytes -> Prop :=
| une_nil : unescaped [] []
| une_plain c s b : c <> 37 -> unescaped s b -> unescaped (c :: s) (c :: b)
| une_escape h l a b s t :
    hex_is h a -> hex_is l b -> unescaped s t -> unescaped (37 :: h :: l :: s) ((a * 16 + b) :: t)
| une_percent s b :
    (forall h l r x y, s = h :: l :: r -> hex_is h x -> hex_is l y -> False) ->
    unescaped s b -> unescaped (37 :: s) (37 :: b).
(** The bytes [x] are the character [c] in UTF-8, which has no surrogates. *)
Definition character (c : Z) (x : bytes) : Prop := utf8_of c x /\ ~ 0xd800 <= c <= 0xdfff.
Definition begins (x : bytes) : Prop := exists c y, character c (x ++ y).
(** Decoding that never fails: where no character stands, the longest beginning
    of one, or else one byte, becomes U+FFFD. *)
Inductive replaced : bytes -> text -> Prop :=
| rep_nil : replaced [] []
| rep_char c x b t : character c x -> replaced b t -> replaced (x ++ b) (c :: t)
| rep_bad x b t :
    (forall c y r, x ++ b = y ++ r -> ~ character c y) ->
    (begins x \/ length x = 1%nat) -> x <> [] ->
    (forall y r, x ++ b = y ++ r -> begins y -> (length y <= length x)%nat) ->
    replaced b t -> replaced (x ++ b) (0xfffd :: t).
Inductive stands_for : text -> text -> Prop :=
| sf_last s b t : Forall (fun c => 0 <= c < 128) s -> unescaped s b -> replaced b t -> stands_for s t
| sf_more s b t c s' t' :
    Forall (fun c => 0 <= c < 128) s -> unescaped s b -> replaced b t -> 128 <= c ->
    stands_for s' t' -> stands_for (s ++ c :: s') (t ++ c :: t').
