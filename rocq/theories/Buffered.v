(** Model of cbus/protocol/buffered_protocol.py over an arbitrary handler.  No
    proofs in this file.

    [h st buf] is [handle_data(buf)] called in object state [st]: it returns
    the new state, the observable effects in order, and the return value or
    the exception.  The lock is not modelled here but in Threads.v: asyncio
    calls a protocol from one thread and no handler of the package re-enters
    [data_received].
    buffered_protocol.py 38-61: [handle_data] of a subclass. *)
From Coq Require Import List ZArith Bool.
From Verif Require Import Py.
Import ListNotations.
Open Scope Z_scope.

Definition handler (St Ev : Type) : Type := St -> bytes -> St * list Ev * res Z.

(** buffered_protocol.py 88-110.  The result is the state, the buffer, the
    effects and whether it raised.  Fuel: the length of the buffer. *)
Fixpoint process_fuel {St Ev} (h : handler St Ev) (fuel : nat) (st : St) (buf : bytes)
  : St * bytes * list Ev * res unit :=
  match buf with
  | [] => (st, buf, [], Ok tt)
  | _ :: _ =>
      match fuel with
      | O => (st, buf, [], Raise OutOfFuel)
      | S fuel =>
          match h st buf with
          | (st', ev, Raise e) => (st', buf, ev, Raise e)
          | (st', ev, Ok r) =>
              if r <? 0 then
                (st', [], ev, if negb (r =? -1) then Raise ValueError else Ok tt)
              else if 0 <? r then
                match process_fuel h fuel st' (skipn (Z.to_nat r) buf) with
                | (st'', buf', ev', out) => (st'', buf', ev ++ ev', out)
                end
              else (st', buf, ev, Ok tt)
          end
      end
  end.
(** buffered_protocol.py 88-110. *)
Definition process_buffer {St Ev} (h : handler St Ev) (st : St) (buf : bytes) :=
  process_fuel h (length buf) st buf.

(** buffered_protocol.py 63-86. *)
Definition data_received {St Ev} (h : handler St Ev) (size_limit : nat) (st : St) (buf data : bytes)
  : St * bytes * list Ev * res unit :=
  if Nat.ltb size_limit (length data) then (st, buf, [], Raise ValueError)
  else if Nat.ltb size_limit (length buf + length data) then (st, [], [], Raise ValueError)
  else process_buffer h st (buf ++ data).
