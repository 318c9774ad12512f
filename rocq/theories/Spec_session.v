(** Specification for C103: the emulator's session with lines read by the grammar. *)
From Coq Require Import List ZArith Bool.
From Verif Require Import Py Sal Cal Packet Server Spec Spec_wire Spec_reading Spec_server Spec_whole.
Import ListNotations.
Open Scope Z_scope.

(** The first [n] bytes are the message [p]; of an invalid packet it is not said
    what it contains. *)
Definition reads (ck : bool) (buf : bytes) (p : packet) (n : nat) : Prop :=
  (exists ws, sent_as ck true buf (Means p n ws))
  \/ exists d e, p = PktInvalid d e /\ sent_as ck true buf (Invalid n).

(** [obeys rnd s acts r s']: the emulator consumes messages from its buffer until
    there is no complete one, or until it raises. *)
Inductive obeys (rnd : nat -> Z) : session -> list action -> res unit -> session -> Prop :=
| ob_empty ps q d : obeys rnd (mkSession ps [] q d) [] (Ok tt) (mkSession ps [] q d)
| ob_wait ps buf q d : sent_as (m_checksum (latest ps)) true buf Waits ->
    obeys rnd (mkSession ps buf q d) [] (Ok tt) (mkSession ps buf q d)
| ob_error ps buf q d e : sent_as (m_checksum (latest ps)) true buf Fails -> e = BinasciiError \/ e = IndexError ->
    obeys rnd (mkSession ps buf q d) [] (Raise e) (mkSession ps buf q d)
| ob_refused ps buf q d p n pre ga post q' d' :
    reads (m_checksum (latest ps)) buf p n -> m_basic (latest ps) = false ->
    heard (commands_of p) = pre ++ StatusRequest false ga 0xff :: post ->
    emits rnd (m_checksum (latest ps)) pre q d [] q' d' ->
    obeys rnd (mkSession ps buf q d) [Refused p] (Raise NotImplementedError) (mkSession ps buf q' d')
| ob_packet ps buf q d p n out q' d' acts r s' :
    reads (m_checksum (latest ps)) buf p n -> (0 < n)%nat ->
    (m_basic (latest ps) = false -> existsb presence_request (heard (commands_of p)) = false) ->
    replies rnd (m_checksum (latest ps)) p q d out q' d' ->
    obeys rnd (mkSession (p :: ps) (skipn n buf) q' d') acts r s' ->
    obeys rnd (mkSession ps buf q d)
      (Got (firstn n buf) (Some p) (echo_of (latest ps) (firstn n buf)) out :: acts) r s'
| ob_nothing ps buf q d n acts r s' :
    sent_as (m_checksum (latest ps)) true buf (Skips n) -> (0 < n)%nat ->
    obeys rnd (mkSession ps (skipn n buf) q d) acts r s' ->
    obeys rnd (mkSession ps buf q d)
      (Got (firstn n buf) None (echo_of (latest ps) (firstn n buf)) [] :: acts) r s'.

(** A history of calls: data as above, unless it does not fit the buffer; and the
    calls that send a message. *)
Inductive follows (rnd : nat -> Z) : session -> list sop -> list (list action * res unit) -> session -> Prop :=
| fo_end s : follows rnd s [] [] s
| fo_too_large s data ops log s' : (256 < length data)%nat -> follows rnd s ops log s' ->
    follows rnd s (SOpData data :: ops) (([], Raise ValueError) :: log) s'
| fo_overflow ps buf q d data ops log s' : (length data <= 256)%nat -> (256 < length buf + length data)%nat ->
    follows rnd (mkSession ps [] q d) ops log s' ->
    follows rnd (mkSession ps buf q d) (SOpData data :: ops) (([], Raise ValueError) :: log) s'
| fo_data ps buf q d data acts r s1 ops log s' : (length buf + length data <= 256)%nat ->
    obeys rnd (mkSession ps (buf ++ data) q d) acts r s1 -> follows rnd s1 ops log s' ->
    follows rnd (mkSession ps buf q d) (SOpData data :: ops) ((acts, r) :: log) s'
| fo_send ps buf q d o b ops log s' : announces (m_checksum (latest ps)) o b ->
    follows rnd (mkSession ps buf [] d) ops log s' ->
    follows rnd (mkSession ps buf q d) (o :: ops) (([Sent b q], Ok tt) :: log) s'
| fo_fail s o e ops log s' : declines o e -> follows rnd s ops log s' ->
    follows rnd s (o :: ops) (([], Raise e) :: log) s'.

(** Two logs say the same of each call: the same is written, the same methods are
    called, and the result is the same, but for the exception with which the
    bytes that cannot be decoded are met. *)
Definition same_result (r r' : res unit) : Prop :=
  r = r' \/ exists e e', r = Raise e /\ r' = Raise e'
    /\ (e = BinasciiError \/ e = IndexError) /\ (e' = BinasciiError \/ e' = IndexError).
Definition same_log (log log' : list (list action * res unit)) : Prop :=
  Forall2 (fun x y => flat_map action_writes (fst x) = flat_map action_writes (fst y)
    /\ flat_map action_callbacks (fst x) = flat_map action_callbacks (fst y)
    /\ same_result (snd x) (snd y)) log log'.
