(** Property C92: commands sent from several threads at a time. *)
From Coq Require Import List ZArith Bool Lia.
From Verif Require Import Py Common Packet Client Base Spec_client Threads Threads_facts Race Spec_race Race_facts.
Import ListNotations.
Open Scope Z_scope.

(** Every call that has ended wrote one whole line with a code of the list (if the packet gets one) and returned the
    code, or wrote nothing and raised; each thread's calls in its order. *)
Theorem C92_whole_lines : forall conn index parts schedule w tr,
  race_run (race_start conn index parts) schedule = (w, tr) -> all_done w ->
  (forall i l, nth_error parts i = Some l -> served i l (sights_of i tr))
  /\ forall n, In n tr -> match n with Wrote i _ _ | Ended i _ => (i < length parts)%nat end.
Proof.
  intros conn index parts schedule w tr R D. split.
  - intros i l P. pose proof (race_length _ _ _ _ _ _ R) as L.
    destruct (nth_error (q_callers w) i) as [q|] eqn:Q.
    + pose proof (race_books _ _ _ _ _ _ R i q l Q P) as B. unfold all_done in D. rewrite Forall_forall in D.
      destruct (D q) as [D1 D2]; [eapply nth_error_In; exact Q|]. unfold book in B. rewrite D1, D2 in B.
      destruct B as [past [-> B]]. now rewrite app_nil_r.
    + apply nth_error_None in Q. assert (i < length parts)%nat by (apply nth_error_Some; congruence). lia.
  - refine (proj2 (race_ind (fun w tr => length (q_callers w) = length parts /\
      forall n, In n tr -> match n with Wrote i _ _ | Ended i _ => (i < length parts)%nat end) _ _ _ _ _ _ R)).
    + split; [apply map_length|intros n []].
    + intros w1 tr1 i w' n [L F] S. split; [rewrite <- L; eapply step_length; exact S|].
      assert (K : (i < length parts)%nat).
      { rewrite <- L. apply nth_error_Some. unfold race_step in S. destruct (nth_error (q_callers w1) i); congruence. }
      intros x I. apply in_app_or in I. destruct I as [I|I]; [now apply F|].
      split_step w1 i S; repeat (destruct I as [<-|I]; [exact K|]); destruct I.
Qed.
Print Assumptions C92_whole_lines.

(** As long as the threads leave the connection alone, everything is written to it, and the only exceptions are those
    of a packet that cannot be sent at all, and [IndexError]. *)
Theorem C92_connected : forall t index parts schedule w tr, keeps_transport parts ->
  race_run (race_start (Some t) index parts) schedule = (w, tr) ->
  (forall i t' line, In (Wrote i t' line) tr -> t' = t)
  /\ (forall i e, In (Ended i (Raise e)) tr -> e = IndexError
       \/ exists l p cf bm, nth_error parts i = Some l /\ In (Send p cf bm) l
            /\ forall c, cl_transport c = true -> send p cf bm c = (c, [], Raise e)).
Proof.
  intros t index parts schedule w tr K R. destruct (race_steady _ _ _ _ _ _ K R) as [_ [_ [A B]]]. auto.
Qed.
Print Assumptions C92_connected.

(** The counter is in order again as soon as nobody is in a call. *)
Theorem C92_recovers : forall t index parts schedule w tr, (index < 20)%nat ->
  race_run (race_start t index parts) schedule = (w, tr) ->
  Forall (fun q => q_at q = Outside) (q_callers w) -> (q_index w < 20)%nat.
Proof.
  intros t index parts schedule w tr I R F. destruct (Nat.lt_ge_cases (q_index w) 20) as [|L]; [assumption|].
  destruct (race_counted _ _ _ _ _ _ I R L) as [i [q [Q X]]]. rewrite Forall_forall in F.
  rewrite (F q) in X; [discriminate|]. eapply nth_error_In; exact Q.
Qed.
Print Assumptions C92_recovers.

(** A call that no other overlaps does what [send] does. *)
Theorem C92_alone : forall t index parts schedule w tr i p cf bm todo c c' ev r, (index < 20)%nat ->
  race_run (race_start t index parts) schedule = (w, tr) ->
  nth_error (q_callers w) i = Some (mkCaller (Send p cf bm :: todo) Outside) ->
  Forall (fun q => q_at q = Outside) (q_callers w) ->
  cl_transport c = (match q_transport w with Some _ => true | None => false end) -> cl_index c = q_index w ->
  send p cf bm c = (c', ev, r) ->
  exists steps lines, ev = map CWrite lines
    /\ race_run w (repeat i steps) =
       (mkRace (q_transport w) (cl_index c') (put i (mkCaller todo Outside) (q_callers w)),
        flat_map (fun line => match q_transport w with Some t => [Wrote i t line] | None => [] end) lines ++ [Ended i r])
    /\ (r = Raise IndexError -> exists e, encode_packet p = Raise e).
Proof.
  intros t index parts schedule w tr i p cf bm todo c c' ev r I R Q F CT CI E.
  pose proof (C92_recovers _ _ _ _ _ _ I R F) as L.
  destruct (begin_send (q_transport w) p cf bm) as [a|e] eqn:B.
  - destruct (begin_other _ _ _ _ _ B) as [[t0 [b ->]]|[t0 [b ->]]].
    + destruct (begin_codes _ _ _ _ _ _ B) as [T C]. rewrite T in CT. rewrite (C _ CT) in E.
      destruct (nth_error CONFIRMATION_CODES (q_index w)) as [o|] eqn:N.
      2: { apply nth_error_None in N. change (length CONFIRMATION_CODES) with 20%nat in N. lia. }
      unfold mbind at 1, get_confirmation_code in E. rewrite CI, N in E. cbn in E. inversion E; subst c' ev r. clear E.
      exists 7%nat, [b ++ [o] ++ END_COMMAND]. split; [reflexivity|]. split; [|discriminate].
      cbn [repeat race_run]. rewrite (step_at _ _ _ Q). unfold caller_step at 1. cbn [q_at q_todo]. rewrite B.
      do 6 (cbn [race_run]; erewrite step_at by (cbn [q_callers]; eapply put_same; exact Q);
            unfold caller_step at 1; cbn [q_at q_todo q_transport q_index q_callers]; rewrite ?N, ?put_put).
      rewrite T. reflexivity.
    + destruct (begin_writes _ _ _ _ _ _ _ B) as [T C]. rewrite T in CT. rewrite (C _ CT) in E. inversion E; subst c' ev r.
      exists 2%nat, [b]. split; [reflexivity|]. split; [|discriminate].
      cbn [repeat race_run]. rewrite (step_at _ _ _ Q). unfold caller_step at 1. cbn [q_at q_todo]. rewrite B.
      cbn [race_run]. erewrite step_at by (cbn [q_callers]; eapply put_same; exact Q).
      unfold caller_step at 1; cbn [q_at q_todo q_transport q_index q_callers]. rewrite put_put, T, CI. reflexivity.
  - pose proof (begin_raises _ _ _ _ _ B c CT) as C. rewrite C in E. inversion E; subst c' ev r.
    exists 1%nat, []. split; [reflexivity|]. split.
    + cbn [repeat race_run]. rewrite (step_at _ _ _ Q). unfold caller_step at 1. cbn [q_at q_todo]. rewrite B, CI. reflexivity.
    + intros X. inversion X; subst e. unfold begin_send in B. destruct (q_transport w); [|discriminate].
      destruct (is_base_packet p); cbn [negb] in B; [|discriminate]. destruct (encode_packet p); [discriminate|eauto].
Qed.
Print Assumptions C92_alone.

(** Nobody waits for anybody: at most six steps of a thread end its call. *)
Definition steps_left (a : at_line) : nat :=
  match a with
  | Outside => 0 | Writes _ _ _ => 1 | Stores' _ _ _ _ => 2 | Loads' _ _ _ => 3 | Stores _ _ _ _ => 4 | Loads _ _ _ => 5 | Codes _ _ => 6
  end.
Lemma one_step w i todo a : nth_error (q_callers w) i = Some (mkCaller todo a) -> a <> Outside ->
  exists w' n a', race_step w i = Some (w', n) /\ nth_error (q_callers w') i = Some (mkCaller todo a')
    /\ (steps_left a' < steps_left a)%nat.
Proof.
  intros H N. rewrite (step_at _ _ _ H). unfold caller_step. cbn [q_at q_todo].
  destruct a; [congruence|destruct (nth_error CONFIRMATION_CODES (q_index w))|..]; do 3 eexists;
    (split; [reflexivity|]); (split; [eapply put_same; exact H|cbn [steps_left]; lia]).
Qed.
Theorem C92_no_waiting : forall w i q, nth_error (q_callers w) i = Some q ->
  exists steps, (steps <= 6)%nat
    /\ nth_error (q_callers (fst (race_run w (repeat i steps)))) i = Some (mkCaller (q_todo q) Outside).
Proof.
  intros w i [todo a] Q. cbn [q_todo].
  cut (forall k w a, (steps_left a <= k)%nat -> nth_error (q_callers w) i = Some (mkCaller todo a) ->
    exists steps, (steps <= k)%nat /\ nth_error (q_callers (fst (race_run w (repeat i steps)))) i = Some (mkCaller todo Outside)).
  { intros K. apply (K 6%nat w a); [destruct a; cbn; lia|exact Q]. }
  clear w a Q. induction k as [|k IH]; intros w a L Q.
  - exists 0%nat. split; [lia|]. destruct a; cbn in L; try lia. exact Q.
  - destruct a eqn:A; [exists 0%nat; split; [lia|exact Q]|..];
      (destruct (one_step _ _ _ _ Q) as [w' [n [a' [E [Q' D]]]]]; [discriminate|];
       destruct (IH w' a') as [steps [B F]]; [cbn in *; lia|exact Q'|];
       exists (S steps); split; [lia|]; cbn [repeat race_run]; rewrite E; now destruct (race_run w' (repeat i steps))).
Qed.
Print Assumptions C92_no_waiting.

(** Two threads on a new connection.  The calls overlap and both lines are whole, with different codes. *)
Definition dm (v : Z) : request := Send (dm_command 0x21 v) true true.
Example C92_case : let (w, tr) := race_run (race_start (Some 7%nat) 19 [[dm 1; dm 2]; [dm 3]]) [0;1;0;0;0;0;0;1;1;1;1;1;0;0;0;0;0;0;0;0;1]%nat in
  all_done w /\ q_index w = 2%nat
  /\ tr = [Wrote 0 7 [65;51;50;49;48;48;48;49;103;13]; Ended 0 (Ok (Some 103));
           Wrote 0 7 [65;51;50;49;48;48;48;50;105;13]; Ended 0 (Ok (Some 105));
           Wrote 1 7 [65;51;50;49;48;48;48;51;104;13]; Ended 1 (Ok (Some 104))].
Proof. vm_compute. repeat constructor. Qed.

(** What a user might expect: lines written one after the other have different codes (as C28 says of one thread). *)
Theorem C92_distinct_codes_refuted :
  ~ (forall t index parts schedule w i j a b c d, keeps_transport parts -> (index < 20)%nat ->
     race_run (race_start (Some t) index parts) schedule
       = (w, [Wrote i t a; Ended i (Ok (Some c)); Wrote j t b; Ended j (Ok (Some d))]) -> c <> d).
Proof.
  intros H. eapply (H 0%nat 0%nat [[dm 1]; [dm 1]] [0;1;0;1;0;0;0;0;0;1;1;1;1;1;1]%nat); [|lia|vm_compute; reflexivity|reflexivity].
  intros l t [<-|[<-|[]]] [I|[]]; discriminate.
Qed.
Print Assumptions C92_distinct_codes_refuted.

(** And that on a connection a packet that can be sent is sent. *)
Theorem C92_always_sent_refuted :
  ~ (forall t index parts schedule w tr i p cf bm, keeps_transport parts -> (index < 20)%nat ->
     race_run (race_start (Some t) index parts) schedule = (w, tr) -> all_done w ->
     nth_error parts i = Some [Send p cf bm] ->
     (forall c, cl_transport c = true -> counter_ok c -> exists c' line code, send p cf bm c = (c', [CWrite line], Ok code)) ->
     exists line code, sights_of i tr = [Wrote i t line; Ended i (Ok code)]).
Proof.
  intros H. destruct (H 0%nat 19%nat [[dm 1]; [dm 1]] [0;0;0;0;1;1;0;0;0]%nat
    _ _ 1%nat (dm_command 0x21 1) true true ltac:(intros l t [<-|[<-|[]]] [I|[]]; discriminate) ltac:(lia)
    ltac:(vm_compute; reflexivity) ltac:(repeat constructor) eq_refl) as [line [code E]].
  - intros c T K. unfold send. rewrite T. cbn [negb is_base_packet dm_command is_special_client orb andb].
    replace (encode_packet (dm_command 33 1)) with (Ok (A := bytes) [65;51;50;49;48;48;48;49]) by (vm_compute; reflexivity).
    unfold mbind at 1, get_confirmation_code.
    destruct (nth_error CONFIRMATION_CODES (cl_index c)) as [o|] eqn:N; [do 3 eexists; reflexivity|].
    apply nth_error_None in N. change (length CONFIRMATION_CODES) with 20%nat in N. unfold counter_ok in K. lia.
  - discriminate E.
Qed.
Print Assumptions C92_always_sent_refuted.
