(** Model of cbus/protocol/buffered_protocol.py 63-110 called from several threads
    at a time, with its lock.  No proofs in this file.

    A step is one statement, or a part of one, of one thread; between two steps any
    other thread may run.  [handle_data] of a subclass (38-61) is a [program]: its
    effects happen one by one, and it may call [data_received] of its own object
    ([Feeds]), as nothing in 38-61 forbids it.  Simplifications: what the handler
    does to the state of the object is one step at its beginning; an exception of
    such an inner call is not caught by the handler. *)
From Coq Require Import List ZArith Bool.
From Verif Require Import Py Buffered.
Import ListNotations.
Open Scope Z_scope.

(** buffered_protocol.py 38-61: what [handle_data] may do. *)
Inductive act (Ev : Type) : Type :=
| Does (e : Ev)
| Feeds (data : bytes).
Arguments Does {Ev} e.
Arguments Feeds {Ev} data.

(** buffered_protocol.py 38-61. *)
Definition program (St Ev : Type) : Type := St -> bytes -> St * list (act Ev) * res Z.

(** A [handle_data] that does not call back, as those of the package (cbus_protocol.py 50-80).
    buffered_protocol.py 38-61. *)
Definition plain {St Ev} (h : handler St Ev) : program St Ev := fun st buf =>
  match h st buf with (st', ev, r) => (st', map Does ev, r) end.

(** Where a thread is in buffered_protocol.py 63-110. *)
Inductive place (Ev : Type) : Type :=
| Away                                    (* not in a call *)
| Called (data : bytes)                   (* before 70 *)
| Wants (data : bytes)                    (* before 76 *)
| Checks (data : bytes)                   (* before 77, lock held *)
| Drops (data : bytes)                    (* before 78, lock held *)
| Adds (data : bytes)                     (* before 83, lock held *)
| Added                                   (* after 83, lock held *)
| Enters                                  (* before 89 *)
| Loops                                   (* before 91, lock held *)
| Handles (l : list (act Ev)) (r : res Z) (* in 95, what is left of the handler; lock held *)
| Leaves (out : res unit).                (* at the end of a with block, lock held *)
Arguments Away {Ev}.
Arguments Called {Ev} data.
Arguments Wants {Ev} data.
Arguments Checks {Ev} data.
Arguments Drops {Ev} data.
Arguments Adds {Ev} data.
Arguments Added {Ev}.
Arguments Enters {Ev}.
Arguments Loops {Ev}.
Arguments Handles {Ev} l r.
Arguments Leaves {Ev} out.

(** A thread: the chunks it is going to pass to [data_received], and where it is.
    buffered_protocol.py 63. *)
Record thread (Ev : Type) : Type := mkThread { t_todo : list bytes; t_at : place Ev }.
Arguments mkThread {Ev} t_todo t_at.
Arguments t_todo {Ev} t.
Arguments t_at {Ev} t.

(** The object (buffered_protocol.py 32-35) and the threads.  [w_lock] is the thread
    that holds the lock. *)
Record world (St Ev : Type) : Type := mkWorld {
  w_st : St; w_buf : bytes; w_lock : option nat; w_threads : list (thread Ev) }.
Arguments mkWorld {St Ev} w_st w_buf w_lock w_threads.
Arguments w_st {St Ev} w.
Arguments w_buf {St Ev} w.
Arguments w_lock {St Ev} w.
Arguments w_threads {St Ev} w.

(** What can be seen: a call of [handle_data] with its argument, its effects, its end, and the
    end of a call of [data_received], each with the thread.
    buffered_protocol.py 63 and 95. *)
Inductive note (Ev : Type) : Type :=
| NBegin (i : nat) (buf : bytes)
| NEff (i : nat) (e : Ev)
| NEnd (i : nat)
| NReturn (i : nat) (out : res unit).
Arguments NBegin {Ev} i buf.
Arguments NEff {Ev} i e.
Arguments NEnd {Ev} i.
Arguments NReturn {Ev} i out.

(** Thread [i] of [l] becomes [t].  Part of every statement of buffered_protocol.py 63-110. *)
Fixpoint put {A} (i : nat) (t : A) (l : list A) : list A :=
  match l, i with
  | [], _ => []
  | _ :: l', O => t :: l'
  | x :: l', S i' => x :: put i' t l'
  end.

(** buffered_protocol.py 34: [threading.Lock()] is not re-entrant; [acquire] blocks while
    any thread holds it, also the calling one. *)
Definition free (lock : option nat) : bool := match lock with None => true | Some _ => false end.

(** One statement of thread [i], [t]; [None] if it cannot go on (a lock that is held, or nothing
    left to do).  buffered_protocol.py 63-110, the lines as given at [place]. *)
Definition thread_step {St Ev} (p : program St Ev) (limit : nat) (w : world St Ev) (i : nat) (t : thread Ev)
  : option (world St Ev * list (note Ev)) :=
  let go st buf lock at_ := mkWorld st buf lock (put i (mkThread (t_todo t) at_) (w_threads w)) in
  let st := w_st w in let buf := w_buf w in let lock := w_lock w in
  match t_at t with
  | Away =>
      match t_todo t with
      | [] => None
      | d :: todo => Some (mkWorld st buf lock (put i (mkThread todo (Called d)) (w_threads w)), [])
      end
  | Called d =>
      (* 70-73 *)
      if Nat.ltb limit (length d) then Some (go st buf lock Away, [NReturn i (Raise ValueError)])
      else Some (go st buf lock (Wants d), [])
  | Wants d => if free lock then Some (go st buf (Some i) (Checks d), []) else None
  | Checks d =>
      (* 77 *)
      if Nat.ltb limit (length buf + length d) then Some (go st buf lock (Drops d), [])
      else Some (go st buf lock (Adds d), [])
  | Drops d => Some (go st [] lock (Leaves (Raise ValueError)), [])
  | Adds d => Some (go st (buf ++ d) lock Added, [])
  | Added => Some (go st buf None Enters, [])
  | Enters => if free lock then Some (go st buf (Some i) Loops, []) else None
  | Loops =>
      (* 91-95 *)
      match buf with
      | [] => Some (go st buf lock (Leaves (Ok tt)), [])
      | _ :: _ => match p st buf with (st', l, r) => Some (go st' buf lock (Handles l r), [NBegin i buf]) end
      end
  | Handles (Does e :: l) r => Some (go st buf lock (Handles l r), [NEff i e])
  | Handles (Feeds d :: l) r =>
      (* 70-76 of the inner call; the lock is held by this thread *)
      if Nat.ltb limit (length d) then Some (go st buf lock (Handles [] (Raise ValueError)), []) else None
  | Handles [] (Raise e) => Some (go st buf lock (Leaves (Raise e)), [NEnd i])
  | Handles [] (Ok r) =>
      (* 97-110 *)
      if r <? 0 then Some (go st [] lock (Leaves (if negb (r =? -1) then Raise ValueError else Ok tt)), [NEnd i])
      else if 0 <? r then Some (go st (skipn (Z.to_nat r) buf) lock Loops, [NEnd i])
      else Some (go st buf lock (Leaves (Ok tt)), [NEnd i])
  | Leaves out => Some (go st buf None Away, [NReturn i out])
  end.

(** One step of thread number [i].  buffered_protocol.py 63-110. *)
Definition step {St Ev} (p : program St Ev) (limit : nat) (w : world St Ev) (i : nat)
  : option (world St Ev * list (note Ev)) :=
  match nth_error (w_threads w) i with
  | Some t => thread_step p limit w i t
  | None => None
  end.

(** A schedule; threads that cannot go on are passed over.  buffered_protocol.py 63-110. *)
Fixpoint run {St Ev} (p : program St Ev) (limit : nat) (w : world St Ev) (l : list nat)
  : world St Ev * list (note Ev) :=
  match l with
  | [] => (w, [])
  | i :: l' =>
      match step p limit w i with
      | Some (w', n) => match run p limit w' l' with (w'', n') => (w'', n ++ n') end
      | None => run p limit w l'
      end
  end.

(** A new object (buffered_protocol.py 32-35) and threads that are going to pass it the chunks given. *)
Definition start {St Ev} (st : St) (parts : list (list bytes)) : world St Ev :=
  mkWorld st [] None (map (fun ds => mkThread ds Away) parts).
