(** Properties C24-C27: the receive buffer. *)
From Coq Require Import List ZArith Bool Lia.
From Verif Require Import Py Common Sal Packet Buffered Client Base Spec Buffer_facts Client_facts.
Import ListNotations.
Open Scope Z_scope.

(** C24 *)
Theorem C24_bounded : forall St Ev (h : handler St Ev) limit st chunks st' buf' log,
  receive h limit st [] chunks = (st', buf', log) ->
  (length buf' <= limit)%nat /\ length log = length chunks.
Proof. intros. apply (receive_bound h limit chunks st [] st' buf' log); [cbn; lia|assumption]. Qed.
Print Assumptions C24_bounded.

Theorem C24_too_large : forall St Ev (h : handler St Ev) limit st buf data,
  (limit < length data)%nat ->
  data_received h limit st buf data = (st, buf, [], Raise ValueError).
Proof.
  intros St Ev h limit st buf data L. unfold data_received.
  now replace (Nat.ltb limit (length data)) with true by (symmetry; now apply Nat.ltb_lt).
Qed.
Print Assumptions C24_too_large.

Theorem C24_overflow : forall St Ev (h : handler St Ev) limit st buf data,
  (length data <= limit)%nat -> (limit < length buf + length data)%nat ->
  data_received h limit st buf data = (st, [], [], Raise ValueError).
Proof.
  intros St Ev h limit st buf data L M. unfold data_received.
  replace (Nat.ltb limit (length data)) with false by (symmetry; now apply Nat.ltb_ge).
  now replace (Nat.ltb limit (length buf + length data)) with true by (symmetry; now apply Nat.ltb_lt).
Qed.
Print Assumptions C24_overflow.

(** The buffer of a C-Bus protocol holds at most 256 bytes. *)
Theorem C24_cbus : forall now c chunks c' buf' log,
  receive (handle_data now) MAX_BUFFER_SIZE c [] chunks = (c', buf', log) -> (length buf' <= 256)%nat.
Proof. intros now c chunks c' buf' log E. apply C24_bounded in E. exact (proj1 E). Qed.
Print Assumptions C24_cbus.

Example C24_case : let wait : handler unit Z := fun st buf => (st, [7], Ok 0) in
  receive wait 4 tt [] [[1; 2; 3]; [4]; [5; 6]; [1; 2; 3; 4; 5]; [9]]
  = (tt, [9], [([7], Ok tt); ([7], Ok tt); ([], Raise ValueError); ([], Raise ValueError); ([7], Ok tt)]).
Proof. vm_compute. reflexivity. Qed.

(** C25 *)
Theorem C25_loop : forall St Ev (h : handler St Ev) limit st buf data st' buf' ev out,
  (length (buf ++ data) <= limit)%nat ->
  data_received h limit st buf data = (st', buf', ev, out) ->
  exists calls, processes h st (buf ++ data) calls st' buf' ev out
    /\ (length calls <= length (buf ++ data))%nat
    /\ chain proper_suffix calls.
Proof.
  intros St Ev h limit st buf data st' buf' ev out L E. rewrite app_length in L. unfold data_received in E.
  replace (Nat.ltb limit (length data)) with false in E by (symmetry; apply Nat.ltb_ge; lia).
  replace (Nat.ltb limit (length buf + length data)) with false in E by (symmetry; now apply Nat.ltb_ge).
  apply process_buffer_spec in E. destruct E as [calls P]. exists calls.
  split; [exact P|]. apply processes_calls in P. tauto.
Qed.
Print Assumptions C25_loop.

Theorem C25_determined : forall St Ev (h : handler St Ev) st buf c1 st1 b1 e1 o1 c2 st2 b2 e2 o2,
  processes h st buf c1 st1 b1 e1 o1 -> processes h st buf c2 st2 b2 e2 o2 ->
  c1 = c2 /\ st1 = st2 /\ b1 = b2 /\ e1 = e2 /\ o1 = o2.
Proof.
  intros St Ev h st buf c1 st1 b1 e1 o1 c2 st2 b2 e2 o2 H1 H2.
  exact (processes_unique h _ _ _ _ _ _ _ H1 _ _ _ _ _ H2).
Qed.
Print Assumptions C25_determined.

(** A handler that consumes two bytes when there are two and then gives up with -2. *)
Example C25_case : let pairs : handler nat bytes :=
    fun st buf => if Nat.ltb st 2 then (S st, [buf], Ok 2) else (st, [buf], Ok (-2)) in
  data_received pairs 10 0%nat [1; 2; 3] [4; 5] = (2%nat, [], [[1; 2; 3; 4; 5]; [3; 4; 5]; [5]], Raise ValueError).
Proof. vm_compute. reflexivity. Qed.

(** C26 *)
Theorem C26_fragmentation : forall now c buf chunks1 chunks2 c1 b1 log1 c2 b2 log2,
  concat chunks1 = concat chunks2 -> chunks1 <> [] -> chunks2 <> [] ->
  receive (handle_data now) MAX_BUFFER_SIZE c buf chunks1 = (c1, b1, log1) ->
  receive (handle_data now) MAX_BUFFER_SIZE c buf chunks2 = (c2, b2, log2) ->
  no_raise log1 -> no_raise log2 ->
  effects log1 = effects log2 /\ b1 = b2 /\ c1 = c2.
Proof.
  intros now c buf l1 l2 c1 b1 log1 c2 b2 log2 E N1 N2 R1 R2 O1 O2.
  apply (receive_stream _ (handle_data_stable now)) in R1; try assumption.
  apply (receive_stream _ (handle_data_stable now)) in R2; try assumption.
  rewrite E, R2 in R1. inversion R1. auto.
Qed.
Print Assumptions C26_fragmentation.

(** If the bytes fit the buffer, one chunk without exception is enough: no
    other fragmentation raises. *)
Theorem C26_fits : forall now c buf chunks data c' b' log,
  concat chunks = data -> chunks <> [] -> (length (buf ++ data) <= 256)%nat ->
  receive (handle_data now) MAX_BUFFER_SIZE c buf [data] = (c', b', log) -> no_raise log ->
  exists log2, receive (handle_data now) MAX_BUFFER_SIZE c buf chunks = (c', b', log2)
    /\ no_raise log2 /\ effects log2 = effects log.
Proof.
  intros now c buf chunks data c' b' log <- N L R O.
  apply (receive_stream _ (handle_data_stable now)) in R; [|assumption|discriminate].
  cbn [concat] in R. rewrite app_nil_r in R.
  now apply (stream_receive _ (handle_data_stable now)).
Qed.
Print Assumptions C26_fits.

(** A stream of two lighting packets and a confirmation, whole and in pieces. *)
Example C26_case : forall now, exists c log1 log2,
  receive (handle_data now) MAX_BUFFER_SIZE (new_client ClassPCI 10 true Pending) []
    [[48;53;49;48;51;56;48;48;55;57;48;51;51;55;13;10; 104;46;48;53]] = (c, [48;53], log1)
  /\ receive (handle_data now) MAX_BUFFER_SIZE (new_client ClassPCI 10 true Pending) []
       [[48;53;49;48;51]; [56;48;48;55;57;48;51;51;55;13]; [10;104]; []; [46;48;53]] = (c, [48;53], log2)
  /\ no_raise log1 /\ no_raise log2
  /\ effects log1 = [COn (Some 16) 3; CConfirmation [104] true]
  /\ effects log2 = effects log1 /\ log1 <> log2.
Proof.
  intros now. eexists. eexists. eexists. split; [vm_compute; reflexivity|].
  split; [vm_compute; reflexivity|].
  repeat split; try (repeat constructor; now exists tt); try (vm_compute; reflexivity). discriminate.
Qed.

(** C27 *)
Theorem C27_wedged : forall now c buf, (length buf <= 256)%nat -> pci_raises true true buf ->
  exists e, (e = BinasciiError \/ e = IndexError) /\
  (* while the bytes fit, every call raises [e] and has no effect *)
  (forall chunks, (length (buf ++ concat chunks) <= 256)%nat ->
     receive (handle_data now) MAX_BUFFER_SIZE c buf chunks
     = (c, buf ++ concat chunks, repeat ([], Raise e) (length chunks)))
  (* a chunk that does not fit drops everything, unless it is refused by itself *)
  /\ (forall chunks d, (length (buf ++ concat chunks) <= 256)%nat ->
     (length d <= 256)%nat -> (256 < length (buf ++ concat chunks ++ d))%nat ->
     receive (handle_data now) MAX_BUFFER_SIZE c buf (chunks ++ [d])
     = (c, [], repeat ([], Raise e) (length chunks) ++ [([], Raise ValueError)]))
  /\ (forall chunks d, (length (buf ++ concat chunks) <= 256)%nat -> (256 < length d)%nat ->
     receive (handle_data now) MAX_BUFFER_SIZE c buf (chunks ++ [d])
     = (c, buf ++ concat chunks, repeat ([], Raise e) (length chunks) ++ [([], Raise ValueError)])).
Proof. exact wedged. Qed.
Print Assumptions C27_wedged.

(** The naive expectation: a bad line is skipped and the next one is received. *)
Theorem C27_recovers_refuted :
  ~ (forall now c, exists c' buf' log,
     receive (handle_data now) MAX_BUFFER_SIZE c [] [[65; 13; 10]; [43; 33]] = (c', buf', log)
     /\ In CCannotAccept (effects log)).
Proof.
  intros H. destruct (H (fun _ => CDate 1 1 1) (new_client ClassPCI 0 false NoFuture)) as [c [b [l [E I]]]].
  vm_compute in E. inversion E; subst. vm_compute in I. exact I.
Qed.
Print Assumptions C27_recovers_refuted.

Example C27_case : forall now c,
  pci_raises true true [65; 13; 10]
  /\ receive (handle_data now) MAX_BUFFER_SIZE c [] [[65; 13; 10]; [33]; repeat 0 256; [33]]
     = (c, [], [([], Raise BinasciiError); ([], Raise BinasciiError); ([], Raise ValueError); ([CCannotAccept], Ok tt)]).
Proof.
  intros now c. split.
  - exists [65], []. split; [reflexivity|]. split; [discriminate|]. split; [|now left].
    constructor; [unfold hex_char; lia|constructor].
  - vm_compute. reflexivity.
Qed.
