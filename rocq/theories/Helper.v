(** Model of cbus/paho_asyncio.py: the helper that runs the MQTT client in the
    event loop.  No proofs in this file. *)
From Coq Require Import List ZArith Bool Arith.
From Verif Require Import Py.
Import ListNotations.

(** A task of [misc_loop] (paho_asyncio.py 30-35) as the event loop sees it.
    The flag says that [cancel] was called.  A task cancelled before its first
    step never runs; one cancelled in [sleep] catches the exception and ends. *)
Inductive task : Set :=
| TReady (cancelled : bool)
| TAsleep (cancelled : bool)
| TDone.

(** paho_asyncio.py 14 and the event loop's tables.  Sockets are numbers.
    [h_misc] is the index of [self.misc] in the list of all tasks created. *)
Record helper : Set := mkHelper {
  h_readers : list nat; h_writers : list nat; h_misc : option nat; h_tasks : list task }.
Definition new_helper : helper := mkHelper [] [] None [].  (* paho_asyncio.py 14 *)

(** The callbacks of the MQTT client, paho_asyncio.py 16-28. *)
Inductive callback : Set :=
| SockOpen (s : nat)
| SockClose (s : nat)
| RegisterWrite (s : nat)
| UnregisterWrite (s : nat).

(** [loop.add_reader] replaces, [loop.remove_reader] ignores what is not there.
    paho_asyncio.py 17 and 25. *)
Definition add (s : nat) (l : list nat) : list nat := s :: remove Nat.eq_dec s l.
(** paho_asyncio.py 21 and 28. *)
Definition drop (s : nat) (l : list nat) : list nat := remove Nat.eq_dec s l.

(** paho_asyncio.py 22. *)
Definition cancel (t : task) : task :=
  match t with TReady _ => TReady true | TAsleep _ => TAsleep true | TDone => TDone end.
(** paho_asyncio.py 16-28. *)
Fixpoint update (n : nat) (f : task -> task) (l : list task) : list task :=
  match l, n with
  | [], _ => []
  | t :: l', O => f t :: l'
  | t :: l', S n' => t :: update n' f l'
  end.

(** paho_asyncio.py 16-28. *)
Definition on_callback (c : callback) (h : helper) : helper * res unit :=
  match c with
  | SockOpen s =>
      (mkHelper (add s (h_readers h)) (h_writers h) (Some (length (h_tasks h))) (h_tasks h ++ [TReady false]), Ok tt)
  | SockClose s =>
      let readers := drop s (h_readers h) in
      match h_misc h with
      | None => (mkHelper readers (h_writers h) None (h_tasks h), Raise AttributeError)
      | Some i => (mkHelper readers (h_writers h) (Some i) (update i cancel (h_tasks h)), Ok tt)
      end
  | RegisterWrite s => (mkHelper (h_readers h) (add s (h_writers h)) (h_misc h) (h_tasks h), Ok tt)
  | UnregisterWrite s => (mkHelper (h_readers h) (drop s (h_writers h)) (h_misc h) (h_tasks h), Ok tt)
  end.
(** What happens: the application calls the client, which makes callbacks; a
    socket is readable or writable; the event loop steps a task.  Each call of
    the client makes the callbacks [cbs]; [success] says whether [loop_misc]
    returned MQTT_ERR_SUCCESS.  paho_asyncio.py 16-35. *)
Inductive hop : Set :=
| Call (cbs : list callback)
| Readable (s : nat) (cbs : list callback)
| Writable (s : nat) (cbs : list callback)
| Step (i : nat) (cbs : list callback) (success : bool).
(** What is observed: a callback that the client makes, and the calls that the
    event loop makes on the client: [loop_read], [loop_write], and [loop_misc]
    in task [i], with whether it succeeded.  paho_asyncio.py 16-35. *)
Inductive hev : Set :=
| Did (c : callback)
| LoopRead (s : nat)
| LoopWrite (s : nat)
| LoopMisc (i : nat) (success : bool).

(** Callbacks made by one call of the client, until one raises.
    paho_asyncio.py 16-28. *)
Fixpoint on_callbacks (l : list callback) (h : helper) : helper * list hev * res unit :=
  match l with
  | [] => (h, [], Ok tt)
  | c :: l' =>
      match on_callback c h with
      | (h', Ok _) => match on_callbacks l' h' with (h'', ev, r) => (h'', Did c :: ev, r) end
      | (h', Raise e) => (h', [Did c], Raise e)
      end
  end.

(** paho_asyncio.py 30-35 and the event loop.  While a task runs it is marked as
    asleep, so that a callback can cancel it: the cancellation takes effect at
    its [await].  A callback that raises ends the task. *)
Definition helper_step (h : helper) (o : hop) : helper * list hev :=
  match o with
  | Call cbs => match on_callbacks cbs h with (h', ev, _) => (h', ev) end
  | Readable s cbs =>
      if existsb (Nat.eqb s) (h_readers h)
      then match on_callbacks cbs h with (h', ev, _) => (h', LoopRead s :: ev) end else (h, [])
  | Writable s cbs =>
      if existsb (Nat.eqb s) (h_writers h)
      then match on_callbacks cbs h with (h', ev, _) => (h', LoopWrite s :: ev) end else (h, [])
  | Step i cbs success =>
      let set (h : helper) (f : task -> task) :=
        mkHelper (h_readers h) (h_writers h) (h_misc h) (update i f (h_tasks h)) in
      match nth_error (h_tasks h) i with
      | None | Some TDone => (h, [])
      | Some (TReady true) | Some (TAsleep true) => (set h (fun _ => TDone), [])
      | Some (TReady false) | Some (TAsleep false) =>
          match on_callbacks cbs (set h (fun _ => TAsleep false)) with
          | (h', ev, Ok _) =>
              ((if success then h' else set h' (fun _ => TDone)), LoopMisc i success :: ev)
          | (h', ev, Raise _) => (set h' (fun _ => TDone), LoopMisc i false :: ev)
          end
      end
  end.
(** paho_asyncio.py 16-35, any sequence of steps. *)
Fixpoint helper_run (h : helper) (l : list hop) : helper * list hev :=
  match l with
  | [] => (h, [])
  | o :: l' =>
      match helper_step h o with
      | (h', ev) => match helper_run h' l' with (h'', tr) => (h'', ev ++ tr) end
      end
  end.
