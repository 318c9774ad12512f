(** Property C91: the receive buffer used by several threads at a time. *)
From Coq Require Import List ZArith Bool Lia Permutation.
From Verif Require Import Py Common Sal Packet Buffered Client Base Spec Buffer_facts Client_facts
  Threads Spec_threads Threads_facts Threads_turn.
Import ListNotations.
Open Scope Z_scope.

(** The buffer never holds more than the limit, whatever [handle_data] does. *)
Theorem C91_bounded : forall St Ev (p : program St Ev) limit st parts schedule w tr,
  run p limit (start st parts) schedule = (w, tr) -> (length (w_buf w) <= limit)%nat.
Proof. intros St Ev p limit st parts l w tr R. exact (proj1 (run_inv p limit st parts l w tr R)). Qed.
Print Assumptions C91_bounded.

(** Calls of [handle_data] do not overlap, whatever it does. *)
Theorem C91_exclusive : forall St Ev (p : program St Ev) limit st parts schedule w tr,
  run p limit (start st parts) schedule = (w, tr) -> exists open, one_at_a_time None tr open.
Proof.
  intros St Ev p limit st parts l w tr R. destruct (oaat_run _ _ _ _ _ _ _ R) as [o [O _]]. eauto.
Qed.
Print Assumptions C91_exclusive.

(** What has happened is what the parts of the calls do one after the other; each call is accounted
    for with its result. *)
Theorem C91_in_turn : forall St Ev (h : handler St Ev) limit st parts schedule w tr,
  run (plain h) limit (start st parts) schedule = (w, tr) -> finished w ->
  exists all, done_in_turn h limit st [] all (w_st w) (w_buf w) (seen tr)
    /\ (forall i ds, nth_error parts i = Some ds -> accounts limit i ds (parts_of i all) (returns_of i tr))
    /\ (forall i, nth_error parts i = None -> parts_of i all = [] /\ returns_of i tr = []).
Proof.
  intros St Ev h limit st parts l w tr R F. destruct (run_turn h limit _ _ _ _ _ R F) as [ops [D [O A]]].
  exists ops. split; [exact D|]. split; [exact A|]. intros i N. apply nth_error_None in N. split.
  - unfold parts_of. clear - O N. induction O as [|x ops O _ IH]; [reflexivity|]. cbn [filter].
    destruct x as [j d|j d|j o]; cbn [part_thread] in O; (destruct (Nat.eqb_spec j i); [lia|exact IH]).
  - assert (L : forall w0 sch w tr, (length (w_threads w0) <= i)%nat -> run (plain h) limit w0 sch = (w, tr) -> returns_of i tr = []).
    { clear - N. intros w0 sch. revert w0. induction sch as [|j sch IH]; intros w0 w tr L R; cbn [run] in R.
      - inversion R; subst. reflexivity.
      - destruct (step (plain h) limit w0 j) as [[w1 n]|] eqn:S; [|now apply (IH w0 w tr)].
        destruct (run (plain h) limit w1 sch) as [w2 m] eqn:R1. inversion R; subst. rewrite returns_of_app.
        assert (J : j <> i).
        { intros ->. unfold step in S. destruct (nth_error (w_threads w0) i) eqn:E; [|discriminate].
          assert (i < length (w_threads w0))%nat by (apply nth_error_Some; congruence). lia. }
        assert (Q : returns_of i n = [] /\ length (w_threads w1) = length (w_threads w0)).
        { assert (JF : Nat.eqb j i = false) by now apply Nat.eqb_neq.
          crack w0 j S; cbn [returns_of flat_map app w_threads]; rewrite ?JF, ?put_length; auto. }
        destruct Q as [-> Q]. cbn [app]. apply (IH w1 w m); [lia|exact R1]. }
    apply (L (start st parts) l w tr); [|exact R]. unfold start. cbn [w_threads]. now rewrite map_length.
Qed.
Print Assumptions C91_in_turn.

(** For a C-Bus client: unless a call raised, the threads together did what one thread does that is
    given all the chunks, in some order that keeps the order of each thread. *)
Theorem C91_client : forall now c parts schedule w tr,
  run (plain (handle_data now)) MAX_BUFFER_SIZE (start c parts) schedule = (w, tr) -> finished w -> quiet tr ->
  exists chunks log, interleaves parts chunks
    /\ receive (handle_data now) MAX_BUFFER_SIZE c [] chunks = (w_st w, w_buf w, log)
    /\ no_raise log /\ effects log = seen tr.
Proof. intros now c parts l w tr. apply run_stream. apply handle_data_stable. Qed.
Print Assumptions C91_client.

(** No schedule keeps the threads busy for ever. *)
Theorem C91_no_livelock : forall St Ev (p : program St Ev) limit st parts,
  ~ exists f : nat -> nat, forall n, exists x,
      step p limit (fst (run p limit (start st parts) (map f (seq 0 n)))) (f n) = Some x.
Proof. intros St Ev p limit st parts. apply no_endless, start_inv2. Qed.
Print Assumptions C91_no_livelock.

(** From wherever the threads are they can finish, if [handle_data] does not call back. *)
Theorem C91_no_deadlock : forall St Ev (h : handler St Ev) limit st parts schedule w tr,
  run (plain h) limit (start st parts) schedule = (w, tr) ->
  exists more, finished (fst (run (plain h) limit w more)).
Proof.
  intros St Ev h limit st parts l w tr R. apply can_finish.
  - eapply run_inv2; [|exact R]. apply start_inv2.
  - eapply run_mild; exact R.
Qed.
Print Assumptions C91_no_deadlock.

(** Once [handle_data] has passed a chunk that is not too large to [data_received] of its own object,
    nothing more is received by anybody: whatever the threads do, all that can be seen is that chunks that
    are too large are refused. *)
Theorem C91_call_back_blocks : forall St Ev (p : program St Ev) limit st parts schedule w tr i t d rest r,
  run p limit (start st parts) schedule = (w, tr) ->
  nth_error (w_threads w) i = Some t -> t_at t = Handles (Feeds d :: rest) r -> (length d <= limit)%nat ->
  forall more n, In n (snd (run p limit w more)) -> exists j, j <> i /\ n = NReturn j (Raise ValueError).
Proof.
  intros St Ev p limit st parts l w tr i t d rest r R T A L more n. eapply stuck; try eassumption.
  eapply run_inv; exact R.
Qed.
Print Assumptions C91_call_back_blocks.

(** Two threads; their calls overlap: thread 1 works off what thread 0 has added, and its chunk is worked off
    with it. *)
Definition C91_parts : list (list bytes) := [[[48;53;49;48;51;56;48;48;55;57;48;51;51;55;13;10]]; [[104;46]; [48;53]]].
Definition C91_schedule : list nat :=
  [0; 0; 0; 0; 0; 1; 1; 0; 1; 1; 1; 1; 1; 1; 0; 1; 1; 1; 1; 1; 1; 1; 1; 0; 0; 0; 0; 1; 1; 1; 1; 1; 1; 1; 1; 1; 1; 1; 1; 1; 0; 0; 0; 0]%nat.
Example C91_case : forall now, let (w, tr) :=
    run (plain (handle_data now)) MAX_BUFFER_SIZE (start (new_client ClassPCI 10 true Pending) C91_parts) C91_schedule in
  finished w /\ quiet tr /\ w_buf w = [48;53]
  /\ tr = [NBegin 1 [48;53;49;48;51;56;48;48;55;57;48;51;51;55;13;10;104;46]; NEff 1 (COn (Some 16) 3); NEnd 1;
           NBegin 1 [104;46]; NEff 1 (CConfirmation [104] true); NEnd 1; NReturn 1 (Ok tt); NReturn 0 (Ok tt);
           NBegin 1 [48;53]; NEnd 1; NReturn 1 (Ok tt)].
Proof.
  intros now. vm_compute. repeat split; try (repeat constructor).
  intros i out H. repeat (destruct H as [H|H]; [inversion H; reflexivity|]). destruct H.
Qed.

Definition noon (n : nat) : clockval := CDateTime 2024 2 29 12 0 0 0.

(** What a user might expect: each call is as a whole done in some order, so that chunks that cause no exception
    one after the other cause none at all.  But a chunk that was added and not yet worked off counts for the
    limit, and is lost. *)
Lemma interleaves_permutes {A} (parts : list (list A)) all : interleaves parts all -> Permutation (concat parts) all.
Proof.
  induction 1 as [parts F|before d ds after all H IH].
  - replace (concat parts) with (@nil A); [constructor|]. induction F as [|x l -> _ IH]; [reflexivity|exact IH].
  - rewrite concat_app in *. cbn [concat app] in *. rewrite <- Permutation_middle. now constructor.
Qed.

Definition C91_lines : bytes := concat (repeat [103; 46] 100).
Lemma C91_lost : exists w tr,
  run (plain (handle_data noon)) MAX_BUFFER_SIZE (start (new_client ClassPCI 10 true Pending) [[C91_lines]; [C91_lines]])
    [0; 0; 0; 0; 0; 0; 1; 1; 1; 1; 1; 1; 0; 0; 0]%nat = (w, tr)
  /\ finished w /\ seen tr = []
  /\ forall c b log, receive (handle_data noon) MAX_BUFFER_SIZE (new_client ClassPCI 10 true Pending) []
       [C91_lines; C91_lines] = (c, b, log) -> effects log <> [].
Proof.
  eexists. eexists. split; [vm_compute; reflexivity|]. split; [repeat constructor|]. split; [reflexivity|].
  intros c b log E. assert (L : match receive (handle_data noon) MAX_BUFFER_SIZE (new_client ClassPCI 10 true Pending) []
       [C91_lines; C91_lines] with (_, log) => length (effects log) end = 200%nat) by (vm_compute; reflexivity).
  rewrite E in L. intros Z0. now rewrite Z0 in L.
Qed.
Theorem C91_whole_calls_refuted :
  ~ (forall now c parts schedule w tr,
     run (plain (handle_data now)) MAX_BUFFER_SIZE (start c parts) schedule = (w, tr) -> finished w ->
     exists chunks log, interleaves parts chunks
       /\ receive (handle_data now) MAX_BUFFER_SIZE c [] chunks = (w_st w, w_buf w, log) /\ effects log = seen tr).
Proof.
  intros H. destruct C91_lost as [w [tr [R [F [S N]]]]].
  destruct (H _ _ _ _ _ _ R F) as [chunks [log [I [E EF]]]].
  apply interleaves_permutes in I. cbn [concat app] in I. symmetry in I.
  apply (Permutation_repeat C91_lines 2) in I. subst chunks. rewrite S in EF. now apply (N (w_st w) (w_buf w) log).
Qed.
Print Assumptions C91_whole_calls_refuted.

(** A handler that passes a chunk back: thread 0 never finishes, and a chunk of thread 1 is not received. *)
Definition echo : program unit bytes := fun st buf => (st, [Does buf; Feeds [7]], Ok (Z.of_nat (length buf))).
Example C91_call_back_case :
  let (w, tr) := run echo 4 (start tt [[[1; 2]]; [[3]; [1; 2; 3; 4; 5]]]) [0; 0; 0; 0; 0; 0; 0; 0; 0]%nat in
  nth_error (w_threads w) 0 = Some (mkThread [] (Handles [Feeds [7]] (Ok 2)))
  /\ tr = [NBegin 0%nat [1; 2]; NEff 0%nat [1; 2]]
  /\ snd (run echo 4 w [1; 1; 1; 0; 1; 1; 0]%nat) = [].
Proof. vm_compute. auto. Qed.
