(** Model of the time synchronisation of a client in time: the tasks created by
    cbus/protocol/pciprotocol.py 92-93, each running [timesync] (554-569).  No
    proofs in this file.

    Time is the event loop's clock in microseconds.  [asyncio.sleep] is modelled
    as: the task can be resumed when the time has come, and is resumed at some
    moment after that, or never.  Cancellation is not modelled: nothing in the
    package cancels these tasks. *)
From Coq Require Import List ZArith Bool.
From Verif Require Import Py Common Sal Packet Buffered Client.
Import ListNotations.
Open Scope Z_scope.

Definition second : Z := 1000000.

(** The client, the time, the tasks (with the time from which each may be
    resumed) and the number of tasks created so far.
    pciprotocol.py 83-97 and 554-569. *)
Record world : Set := mkWorld {
  w_client : client * bytes; w_time : Z; w_tasks : list (nat * Z); w_made : nat }.

(** Time passes; a call on the client; the event loop resumes the [i]-th task.
    pciprotocol.py 554-569. *)
Inductive top : Set :=
| TWait (d : Z)
| TCall (o : cop)
| TTick (i : nat).

(** What was seen: a call, or a task being resumed.  pciprotocol.py 554-569. *)
Inductive tseen : Set :=
| Called (o : cop) (ev : list cev) (r : res (option Z))
| Ticked (task : nat) (ev : list cev) (r : res (option Z)).

(** pciprotocol.py 92-93: a created task may start at once. *)
Definition is_spawn (e : cev) : bool := match e with CSpawnTimesync => true | _ => false end.
Definition spawned (ev : list cev) : nat := length (filter is_spawn ev).  (* pciprotocol.py 92-93 *)
(** pciprotocol.py 92-93. *)
Definition start (n : nat) (t : Z) (k : nat) : list (nat * Z) := map (fun i => (i, t)) (seq n k).

(** pciprotocol.py 554-569: after a round the task sleeps for the period, unless
    the frequency is not positive or an exception ended it.  (A round is
    [timesync_step] of Client.v.) *)
Definition again (c : client) (t : Z) (r : res (option Z)) : list Z :=
  if cl_frequency c <=? 0 then []
  else match r with Ok _ => [t + cl_frequency c * second] | Raise _ => [] end.

(** pciprotocol.py 554-569. *)
Definition timed_step (now : nat -> clockval) (w : world) (o : top) : world * list (Z * tseen) :=
  match o with
  | TWait d => (mkWorld (w_client w) (w_time w + d) (w_tasks w) (w_made w), [])
  | TCall o =>
      match client_step now (w_client w) o with
      | (st, ev, r) =>
          (mkWorld st (w_time w) (w_tasks w ++ start (w_made w) (w_time w) (spawned ev)) (w_made w + spawned ev),
           [(w_time w, Called o ev r)])
      end
  | TTick i =>
      match nth_error (w_tasks w) i with
      | Some (task, from) =>
          if from <=? w_time w then
            match client_step now (w_client w) OpTimesync with
            | (st, ev, r) =>
                (mkWorld st (w_time w)
                   (firstn i (w_tasks w) ++ map (fun t => (task, t)) (again (fst (w_client w)) (w_time w) r)
                    ++ skipn (S i) (w_tasks w)) (w_made w),
                 [(w_time w, Ticked task ev r)])
            end
          else (w, [])
      | None => (w, [])
      end
  end.
(** pciprotocol.py 554-569, any sequence of steps. *)
Fixpoint timed_run (now : nat -> clockval) (w : world) (l : list top) : world * list (Z * tseen) :=
  match l with
  | [] => (w, [])
  | o :: l' =>
      match timed_step now w o with
      | (w1, x) => match timed_run now w1 l' with (w2, tr) => (w2, x ++ tr) end
      end
  end.

(** A client that was just created.  pciprotocol.py 68-81. *)
Definition new_world (c : client) : world := mkWorld (c, []) 0 [] 0.
