(** Specification for C102: the outcome of decoding any bytes. *)
From Coq Require Import List ZArith Bool.
From Verif Require Import Py Sal Cal Packet Spec Spec_wire Spec_reading Spec_server Spec_client Spec_listen.
Import ListNotations.
Open Scope Z_scope.

(** More bytes are needed; [n] bytes are skipped; the first [n] bytes mean [p],
    with warnings [ws]; they are an invalid packet; decoding raises. *)
Inductive outcome : Set :=
| Waits
| Skips (n : nat)
| Means (p : packet) (n : nat) (ws : list warn)
| Invalid (n : nat)
| Fails.
Definition outcome_of (r : W (option packet * nat)) : outcome :=
  match r with
  | (_, Raise _) => Fails
  | (_, Ok (None, O)) => Waits
  | (_, Ok (None, n)) => Skips n
  | (_, Ok (Some (PktInvalid _ _), n)) => Invalid n
  | (ws, Ok (Some p, n)) => Means p n ws
  end.

(** From a PCI. *)
Inductive heard_as (ck strict : bool) : bytes -> outcome -> Prop :=
| heard_part data : ~ pci_complete data -> heard_as ck strict data Waits
| heard_power rest : heard_as ck strict (43 :: rest) (Means PktPowerOn 1 [])
| heard_error rest : heard_as ck strict (33 :: rest) (Means PktError 1 [])
| heard_confirmed c rest : is_code c -> heard_as ck strict (c :: 46 :: rest) (Means (PktConfirm [c] true) 2 [])
| heard_refused c x rest : is_code c -> x <> 46 ->
    heard_as ck strict (c :: x :: rest) (Means (PktConfirm [c] false) 2 [])
| heard_blank rest : heard_as ck strict ([13; 10] ++ rest) (Skips 2)
| heard_line data p n ws : reply_line_says ck strict data p n ws -> heard_as ck strict data (Means p n ws)
| heard_fatal data : pci_raises ck strict data -> heard_as ck strict data Fails
| heard_other w rest : w <> [] -> line_start w -> one_line w -> ~ pci_raises ck strict (w ++ [13; 10] ++ rest) ->
    (forall p n ws, ~ reply_line_says ck strict (w ++ [13; 10] ++ rest) p n ws) ->
    heard_as ck strict (w ++ [13; 10] ++ rest) (Invalid (length w + 2)).

(** To a PCI.  [124] is '|', [63] is '?'. *)
Inductive sent_as (ck strict : bool) : bytes -> outcome -> Prop :=
| sent_part data : ~ command_complete data -> sent_as ck strict data Waits
| sent_reset rest : sent_as ck strict (126 :: rest) (Means PktReset 1 [])
| sent_null rest : sent_as ck strict ([110; 117; 108; 108] ++ rest) (Skips 4)
| sent_cancelled before after rest : opens (before ++ [63]) -> ~ In 63 before -> ~ In 13 before -> ~ In 13 after ->
    sent_as ck strict (before ++ [63] ++ after ++ [13] ++ rest) (Skips (length before + 1))
| sent_blank rest : sent_as ck strict (13 :: rest) (Skips 1)
| sent_smart rest : sent_as ck strict ([124; 13] ++ rest) (Means PktSmartConnect 2 [])
| sent_smart2 rest : sent_as ck strict ([124; 124; 13] ++ rest) (Means PktSmartConnect 3 [])
| sent_line data p n ws : order_line_says ck strict data p n ws -> sent_as ck strict data (Means p n ws)
| sent_fatal data : command_raises ck strict data -> sent_as ck strict data Fails
| sent_other w rest : w <> [] -> w <> [124] -> w <> [124; 124] -> opens w -> ~ In 13 w -> ~ In 63 w ->
    ~ command_raises ck strict (w ++ [13] ++ rest) ->
    (forall p n ws, ~ order_line_says ck strict (w ++ [13] ++ rest) p n ws) ->
    sent_as ck strict (w ++ [13] ++ rest) (Invalid (length w + 1)).
