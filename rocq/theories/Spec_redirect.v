(** Words in which the properties of the redirector are stated: what was seen
    from outside, bytes that are lost, and the conversion of newlines. *)
From Coq Require Import List ZArith Bool.
From Verif Require Import Py Redirect.
Import ListNotations.
Open Scope Z_scope.

(** All bytes that reached the program from the serial port. *)
Definition from_serial (tr : list ev) : bytes :=
  flat_map (fun e => match e with EIn b => b | _ => [] end) tr.
(** All bytes it sent to its clients, one after the other. *)
Definition sent (tr : list ev) : bytes :=
  flat_map (fun e => match e with ESend _ b => b | _ => [] end) tr.
(** All bytes that reached it on connection [i]. *)
Definition arrived (i : nat) (tr : list ev) : bytes :=
  flat_map (fun e => match e with ENet j b => if Nat.eqb i j then b else [] | _ => [] end) tr.
(** All bytes it wrote to the serial port. *)
Definition written (tr : list ev) : bytes :=
  flat_map (fun e => match e with EWrite b => b | _ => [] end) tr.
(** The number of connections it accepted. *)
Definition accepted (tr : list ev) : nat :=
  List.length (flat_map (fun e => match e with EStart i => [i] | _ => [] end) tr).

(** No call ended with an exception. *)
Definition faultless (l : list op) : Prop :=
  forall i n, ~ In (Reader i (Fault n)) l /\ ~ In (Writer i (Fault n)) l.

(** [s] is what is left of [w] when some bytes are left out. *)
Inductive left_of : bytes -> bytes -> Prop :=
| left_nil : left_of [] []
| left_keep : forall c s w, left_of s w -> left_of (c :: s) (c :: w)
| left_drop : forall c s w, left_of s w -> left_of s (c :: w).

(** [o] is [s] with every [sep], looked for from the left, replaced by [new]. *)
Inductive converted (sep new : bytes) : bytes -> bytes -> Prop :=
| cv_end : converted sep new [] []
| cv_newline : forall s o, converted sep new s o -> converted sep new (sep ++ s) (new ++ o)
| cv_other : forall c s o,
    (forall r, c :: s <> sep ++ r) -> converted sep new s o -> converted sep new (c :: s) (c :: o).

(** Some piece ends with [a] and what follows it begins with [b]. *)
Definition cut (a b : Z) (l : list bytes) : Prop :=
  exists l1 x l2 y, l = l1 ++ (x ++ [a]) :: l2 /\ concat l2 = b :: y.

(** What may happen after [a]: a connection is accepted only when all earlier
    ones were closed; bytes are sent only on a connection that was accepted and
    not closed; bytes are written to the serial port only while there is such a
    connection; it is closed once; after the end of the program nothing
    happens. *)
Definition open (a : list ev) (i : nat) : Prop := In (EStart i) a /\ ~ In (EEnd i) a.
Definition may_follow (a : list ev) (e : ev) : Prop :=
  ~ In EExit a /\
  match e with
  | EStart i => ~ In (EStart i) a /\ forall j, ~ open a j
  | ESend i _ => open a i
  | EWrite _ => exists i, open a i
  | EEnd i => open a i
  | EExit => exists i, open a i
  | EIn _ => True
  | ENet i _ => In (EStart i) a
  end.

(** Steps of the threads that end normally. *)
Definition thread_step (o : op) : Prop :=
  match o with Reader _ (Fine _) | Writer _ (Fine _) => True | _ => False end.
