(** What C92 says about commands sent from several threads. *)
From Coq Require Import List ZArith Bool.
From Verif Require Import Py Common Packet Client Spec_client Race.
Import ListNotations.
Open Scope Z_scope.

(** Nobody is in a call and nothing is left to do. *)
Definition all_done (w : race) : Prop := Forall (fun q => q_todo q = [] /\ q_at q = Outside) (q_callers w).

(** What thread [i] wrote and what its calls returned. *)
Definition sights_of (i : nat) (tr : list sight) : list sight :=
  filter (fun n => match n with Wrote j _ _ | Ended j _ => Nat.eqb j i end) tr.

(** Every call of the thread does what such a call does by itself ([send], C28 to C30) when the counter has
    some value: it writes one whole line and returns its code, or it writes nothing and raises. *)
Inductive served (i : nat) : list request -> list sight -> Prop :=
| sv_none : served i [] []
| sv_transport l seen t : served i l seen -> served i (l ++ [Transport t]) seen
| sv_sent l seen p cf bm c c' t line code : served i l seen ->
    counter_ok c -> send p cf bm c = (c', [CWrite line], Ok code) ->
    served i (l ++ [Send p cf bm]) (seen ++ [Wrote i t line; Ended i (Ok code)])
| sv_raised l seen p cf bm c c' e : served i l seen ->
    send p cf bm c = (c', [], Raise e) ->
    served i (l ++ [Send p cf bm]) (seen ++ [Ended i (Raise e)]).

(** The threads do not touch the connection. *)
Definition keeps_transport (parts : list (list request)) : Prop :=
  forall l t, In l parts -> ~ In (Transport t) l.
