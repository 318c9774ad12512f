(** Specification of the time synchronisation: what was seen at which time. *)
From Coq Require Import List ZArith Bool.
From Verif Require Import Py Common Sal Packet Buffered Client Spec Spec_client Timed.
Import ListNotations.
Open Scope Z_scope.

(** [tells_time v w]: the line [w] is a clock update with the date and time [v]. *)
Definition tells_time (v : clockval) (w : bytes) : Prop :=
  exists code, command_line w code
    /\ forall strict rest, decode_packet (w ++ rest) true strict false
       = ([], Ok (Some (PktPM (mkHdr true 0 None (Some code)) (Some 0xdf) (clock_commands v)), length w)).

(** The times at which the tasks wrote something. *)
Definition updates (tr : list (Z * tseen)) : list Z :=
  flat_map (fun x => match x with (t, Ticked _ ev _) => map (fun _ => t) (writes ev) | _ => [] end) tr.
Definition between (a b : Z) (l : list Z) : list Z := filter (fun t => (a <=? t) && (t <=? b)) l.

(** How often a connection was made. *)
Definition connections (tr : list (Z * tseen)) : nat :=
  length (filter (fun x => match x with (_, Called OpConnect _ _) => true | _ => false end) tr).
(** Is there a connection, at the end of [tr]? *)
Fixpoint linked_from (b : bool) (tr : list (Z * tseen)) : bool :=
  match tr with
  | [] => b
  | (_, Called OpConnect _ _) :: tr' => linked_from true tr'
  | (_, Called OpLost _ _) :: tr' => linked_from false tr'
  | _ :: tr' => linked_from b tr'
  end.
Definition linked (tr : list (Z * tseen)) : bool := linked_from false tr.

(** Histories: time does not run backwards; rounds of the tasks are not called
    from outside. *)
Definition forwards (o : top) : Prop :=
  match o with TWait d => 0 <= d | TCall OpTimesync => False | _ => True end.
(** The event loop is never late by more than [lag]: it resumes a task before
    more time than that has passed since the task could be resumed. *)
Fixpoint prompt (now : nat -> clockval) (lag : Z) (w : world) (l : list top) : Prop :=
  match l with
  | [] => True
  | o :: l' =>
      match o with
      | TWait d => forall task from, In (task, from) (w_tasks w) -> w_time w + d <= from + lag
      | _ => True
      end /\ prompt now lag (fst (timed_step now w o)) l'
  end.

(** The calls of the client's history. *)
Definition timed_calls (tr : list (Z * tseen)) : list cop :=
  map (fun x => match snd x with Called o _ _ => o | Ticked _ _ _ => OpTimesync end) tr.
Definition timed_trace (tr : list (Z * tseen)) : list (list cev * res (option Z)) :=
  map (fun x => match snd x with Called _ ev r | Ticked _ ev r => (ev, r) end) tr.
