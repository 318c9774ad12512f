(** Model of cbus/protocol/pciprotocol.py 315-369 ([_send] and
    [_get_confirmation_code], which have no lock) called from several threads at a time.
    No proofs in this file.

    A step has at most one access to an attribute of the object; between two steps any
    other thread may run.  Simplifications: [transport.write] is one step; a method that
    sends several packets ([pci_reset]) is so many calls, also if one of them raises;
    what a method does before it calls [_send] is not part of this model. *)
From Coq Require Import List ZArith Bool.
From Verif Require Import Py Common Packet Client Threads.
Import ListNotations.
Open Scope Z_scope.

(** What a thread is going to do: call [_send], or give the object another transport or none.
    pciprotocol.py 328-331 and 90, 96. *)
Inductive request : Type :=
| Send (cmd : packet) (confirmation basic_mode : bool)
| Transport (t : option nat).

(** Where a thread is.  pciprotocol.py 315-369. *)
Inductive at_line : Type :=
| Outside                                          (* not in a call *)
| Codes (t : nat) (b : bytes)                      (* before 321 *)
| Loads (t : nat) (b : bytes) (o : Z)              (* before 323, the load *)
| Stores (t : nat) (b : bytes) (o : Z) (v : nat)   (* before 323, the store *)
| Loads' (t : nat) (b : bytes) (o : Z)             (* before 324, the load *)
| Stores' (t : nat) (b : bytes) (o : Z) (v : nat)  (* before 324, the store *)
| Writes (t : nat) (b : bytes) (code : option Z).  (* before 368 *)

(** A thread.  pciprotocol.py 315-369. *)
Record caller : Type := mkCaller { q_todo : list request; q_at : at_line }.

(** The attributes [_transport] and [_next_confirmation_index] (pciprotocol.py 75-76) and the threads. *)
Record race : Type := mkRace { q_transport : option nat; q_index : nat; q_callers : list caller }.

(** What can be seen: bytes written to a transport, and the end of a call of [_send].
    pciprotocol.py 368-369. *)
Inductive sight : Type :=
| Wrote (i : nat) (t : nat) (line : bytes)
| Ended (i : nat) (r : res (option Z)).

(** pciprotocol.py 336-357, as in [send] of Client.v. *)
Definition begin_send (transport : option nat) (cmd : packet) (confirmation basic_mode : bool) : res at_line :=
  match transport with
  | None => Raise OSError
  | Some t =>
      if negb (is_base_packet cmd) then Raise TypeError
      else
        let special := is_special_client cmd in
        let basic_mode := basic_mode || special in
        let confirmation := confirmation && negb special in
        match encode_packet cmd with
        | Raise e => Raise e
        | Ok b =>
            let b := if basic_mode then b else 92 :: b in
            Ok (if confirmation then Codes t b else Writes t (b ++ END_COMMAND) None)
        end
  end.

(** One step of thread [i], [q].  pciprotocol.py 315-369, the lines as given at [at_line]. *)
Definition caller_step (w : race) (i : nat) (q : caller) : option (race * list sight) :=
  let go tr ix todo a := mkRace tr ix (put i (mkCaller todo a) (q_callers w)) in
  let tr := q_transport w in let ix := q_index w in
  match q_at q with
  | Outside =>
      match q_todo q with
      | [] => None
      | Transport t :: todo => Some (go t ix todo Outside, [])
      | Send cmd cf bm :: todo =>
          match begin_send tr cmd cf bm with
          | Raise e => Some (go tr ix todo Outside, [Ended i (Raise e)])
          | Ok a => Some (go tr ix todo a, [])
          end
      end
  | Codes t b =>
      match nth_error CONFIRMATION_CODES ix with
      | None => Some (go tr ix (q_todo q) Outside, [Ended i (Raise IndexError)])
      | Some o => Some (go tr ix (q_todo q) (Loads t b o), [])
      end
  | Loads t b o => Some (go tr ix (q_todo q) (Stores t b o ix), [])
  | Stores t b o v => Some (go tr (S v) (q_todo q) (Loads' t b o), [])
  | Loads' t b o => Some (go tr ix (q_todo q) (Stores' t b o ix), [])
  | Stores' t b o v =>
      Some (go tr (Nat.modulo v (length CONFIRMATION_CODES)) (q_todo q) (Writes t (b ++ [o] ++ END_COMMAND) (Some o)), [])
  | Writes t b code => Some (go tr ix (q_todo q) Outside, [Wrote i t b; Ended i (Ok code)])
  end.

(** One step of thread number [i].  pciprotocol.py 315-369. *)
Definition race_step (w : race) (i : nat) : option (race * list sight) :=
  match nth_error (q_callers w) i with
  | Some q => caller_step w i q
  | None => None
  end.

(** A schedule; threads that cannot go on are passed over.  pciprotocol.py 315-369. *)
Fixpoint race_run (w : race) (l : list nat) : race * list sight :=
  match l with
  | [] => (w, [])
  | i :: l' =>
      match race_step w i with
      | Some (w', n) => match race_run w' l' with (w'', n') => (w'', n ++ n') end
      | None => race_run w l'
      end
  end.

(** Threads that are going to make the calls given.  pciprotocol.py 75-76. *)
Definition race_start (t : option nat) (index : nat) (parts : list (list request)) : race :=
  mkRace t index (map (fun l => mkCaller l Outside) parts).
