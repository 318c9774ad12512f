(** What C91 says about [data_received] called from several threads. *)
From Coq Require Import List ZArith Bool.
From Verif Require Import Py Buffered Spec Threads.
Import ListNotations.
Open Scope Z_scope.

(** [all] is made of the lists in [parts], each in its order. *)
Inductive interleaves {A} : list (list A) -> list A -> Prop :=
| il_done parts : Forall (fun l => l = []) parts -> interleaves parts []
| il_next before d ds after all : interleaves (before ++ ds :: after) all ->
    interleaves (before ++ (d :: ds) :: after) (d :: all).

(** Nobody is in a call and nothing is left to do. *)
Definition finished {St Ev} (w : world St Ev) : Prop :=
  Forall (fun t => t_todo t = [] /\ t_at t = Away) (w_threads w).

(** The effects, in the order in which they happened, whichever thread had them. *)
Definition seen {Ev} (tr : list (note Ev)) : list Ev :=
  flat_map (fun n => match n with NEff _ e => [e] | _ => [] end) tr.

(** No call of [data_received] raised. *)
Definition quiet {Ev} (tr : list (note Ev)) : Prop :=
  forall i out, In (NReturn i out) tr -> out = Ok tt.

(** Calls of the handler do not overlap: between the beginning of one (thread [i]) and its end only
    thread [i] has effects and nobody begins another; no effect is outside of a call.  The second
    argument is the call that is open before, the last the one that is open after. *)
Inductive one_at_a_time {Ev} : option nat -> list (note Ev) -> option nat -> Prop :=
| oaat_nil o : one_at_a_time o [] o
| oaat_begin i b tr o : one_at_a_time (Some i) tr o -> one_at_a_time None (NBegin i b :: tr) o
| oaat_effect i e tr o : one_at_a_time (Some i) tr o -> one_at_a_time (Some i) (NEff i e :: tr) o
| oaat_end i tr o : one_at_a_time None tr o -> one_at_a_time (Some i) (NEnd i :: tr) o
| oaat_return q i out tr o : q <> Some i -> one_at_a_time q tr o -> one_at_a_time q (NReturn i out :: tr) o.

(** What one call of [data_received] does to the object, in parts of which each is done without
    interruption: to add the chunk, to drop it and the buffer, to work off the buffer. *)
Inductive part : Type :=
| Adding (i : nat) (d : bytes)
| Dropping (i : nat) (d : bytes)
| Working (i : nat) (out : res unit).

(** The parts one after the other, beginning with a state and a buffer. *)
Inductive done_in_turn {St Ev} (h : handler St Ev) (limit : nat)
  : St -> bytes -> list part -> St -> bytes -> list Ev -> Prop :=
| dit_nil st buf : done_in_turn h limit st buf [] st buf []
| dit_add st buf i d l st' buf' ev : (length buf + length d <= limit)%nat ->
    done_in_turn h limit st (buf ++ d) l st' buf' ev ->
    done_in_turn h limit st buf (Adding i d :: l) st' buf' ev
| dit_drop st buf i d l st' buf' ev : (limit < length buf + length d)%nat ->
    done_in_turn h limit st [] l st' buf' ev ->
    done_in_turn h limit st buf (Dropping i d :: l) st' buf' ev
| dit_work st buf i calls st1 buf1 ev1 out l st' buf' ev :
    processes h st buf calls st1 buf1 ev1 out -> done_in_turn h limit st1 buf1 l st' buf' ev ->
    done_in_turn h limit st buf (Working i out :: l) st' buf' (ev1 ++ ev).

(** The parts done by thread [i], and what its calls returned. *)
Definition parts_of (i : nat) (l : list part) : list part :=
  filter (fun x => match x with Adding j _ | Dropping j _ | Working j _ => Nat.eqb j i end) l.
Definition returns_of {Ev} (i : nat) (tr : list (note Ev)) : list (res unit) :=
  flat_map (fun n => match n with NReturn j out => if Nat.eqb j i then [out] else [] | _ => [] end) tr.

(** The parts and results of thread [i] when it passed on the chunks [ds], one after the other: a chunk
    larger than the limit is refused; a chunk that does not fit is dropped; any other is added, and then
    the buffer is worked off. *)
Inductive accounts (limit i : nat) : list bytes -> list part -> list (res unit) -> Prop :=
| ac_nil : accounts limit i [] [] []
| ac_refused ds l outs d : accounts limit i ds l outs -> (limit < length d)%nat ->
    accounts limit i (ds ++ [d]) l (outs ++ [Raise ValueError])
| ac_dropped ds l outs d : accounts limit i ds l outs -> (length d <= limit)%nat ->
    accounts limit i (ds ++ [d]) (l ++ [Dropping i d]) (outs ++ [Raise ValueError])
| ac_done ds l outs d out : accounts limit i ds l outs -> (length d <= limit)%nat ->
    accounts limit i (ds ++ [d]) (l ++ [Adding i d; Working i out]) (outs ++ [out]).
