(** Property C94: a client finds its way back after noise. *)
From Coq Require Import String List ZArith Bool Lia.
From Verif Require Import Py Common Sal Cal Packet Text Mqtt Buffered Client Server Base Spec Spec_client Spec_server
  Spec_system Spec_noise Common_facts Sal_facts Packet_facts Packet_roundtrip Packet_decode Packet_total Buffer_facts
  Client_facts Client_steps Client_send Client_calls Client_dispatch Server_facts System_facts System_reply
  Noise_facts Prop_buffer Prop_client Prop_system.
Import ListNotations.
Open Scope Z_scope.

Lemma telegrams_sent ws pss : Forall2 telegram ws pss ->
  exists ps, Forall2 conveys ps pss /\ Forall2 (fun p w => serialize_packet p = Ok w) ps ws.
Proof.
  induction 1 as [|w l ws pss [p [C [S _]]] F [ps [A B]]]; [exists []; split; constructor|].
  exists (p :: ps). split; constructor; assumption.
Qed.

(** The whole of a telegram at an empty buffer. *)
Lemma clean_one now c w ps c1 ev : telegram w ps -> treats now c ps c1 ev ->
  exists calls, processes (handle_data now) c w calls c1 [] ev (Ok tt).
Proof.
  intros [p [C [E _]]] T. destruct (conveys_reading p ps C) as [w' [msgs [E1 [M [R _]]]]].
  assert (X : w ++ [] = concat msgs) by (rewrite app_nil_r; congruence).
  pose proof (reading_treats now msgs ps R c c1 ev T) as St.
  destruct (stream_part _ _ _ _ _ St w [] X)
    as [calls [s1 [x1 [e1 [m1 [m2 [e2 [I1 [I2 [I3 [I4 [I5 I6]]]]]]]]]]]].
  rewrite app_nil_r in I5. destruct (partial_all _ _ I6 (stream_nonempty _ _ _ _ _ I4) I5) as [-> ->].
  inversion I4; subst. rewrite app_nil_r. now exists calls.
Qed.

Lemma treats_app now ps : forall c qs c2 ev, treats now c (ps ++ qs) c2 ev -> exists c1 ev1 ev2,
  treats now c ps c1 ev1 /\ treats now c1 qs c2 ev2 /\ ev = ev1 ++ ev2.
Proof.
  induction ps as [|p ps IH]; intros c qs c2 ev T; cbn [app] in T; [exists c, [], ev; repeat split; [constructor|exact T]|].
  inversion T as [|c0 p0 c1 ev0 ps0 c4 ev4 H1 H2]; subst. destruct (IH _ _ _ _ H2) as [c3 [e1 [e2 [A [B ->]]]]].
  exists c3, (ev0 ++ e1), e2. split; [now apply tr_packet with c1|]. split; [exact B|apply app_assoc].
Qed.
Lemma clean_all now ws pss : Forall2 telegram ws pss -> forall c c1 ev, treats now c (concat pss) c1 ev ->
  exists calls, processes (handle_data now) c (concat ws) calls c1 [] ev (Ok tt).
Proof.
  induction 1 as [|w ps ws pss T F IH]; intros c c1 ev Q; cbn [concat] in *.
  - inversion Q; subst. exists []. constructor.
  - apply treats_app in Q. destruct Q as [c2 [e1 [e2 [A [B ->]]]]].
    destruct (clean_one now c w ps c2 e1 T A) as [k P]. destruct (IH _ _ _ B) as [k2 P2].
    exact (processes_app _ (handle_data_stable now) _ _ _ _ _ _ _ P eq_refl (concat ws) _ _ _ _ _ P2).
Qed.

(** One call that fits. *)
Lemma fits_call {St Ev} (h : handler St Ev) limit st buf d : (length buf + length d <= limit)%nat ->
  data_received h limit st buf d = process_buffer h st (buf ++ d).
Proof.
  intros L. unfold data_received.
  replace (Nat.ltb limit (length d)) with false by (symmetry; apply Nat.ltb_ge; lia).
  now replace (Nat.ltb limit (length buf + length d)) with false by (symmetry; apply Nat.ltb_ge; lia).
Qed.

Lemma clean_call now c w ps : working now c -> telegram w ps -> (length w <= 256)%nat ->
  exists c1 ev, data_received (handle_data now) MAX_BUFFER_SIZE c [] w = (c1, [], ev, Ok tt)
    /\ working now c1 /\ treats now c ps c1 ev.
Proof.
  intros W T L. destruct W as [W1 [W2 W3]].
  destruct (C53_treats now ps c W1 W2 W3) as [c1 [ev Q]]. exists c1, ev.
  destruct (clean_one now c w ps c1 ev T Q) as [calls P].
  rewrite fits_call by exact L. cbn [app]. split; [now apply processes_buffer in P|]. split; [|exact Q].
  exact (proj1 (left_over now _ _ _ _ _ _ _ P (conj W1 (conj W2 W3)) (telegram_ended w ps [] T))).
Qed.

(** Once the buffer is empty between two telegrams, it stays so. *)
Lemma clean_stays now ws pss : Forall2 telegram ws pss -> Forall (fun w => (length w <= 256)%nat) ws ->
  forall c, working now c -> exists c1 log,
  receive (handle_data now) MAX_BUFFER_SIZE c [] ws = (c1, [], log) /\ working now c1.
Proof.
  induction 1 as [|w ps ws pss T F IH]; intros L c W; [exists c, []; auto|].
  inversion L as [|w0 ws0 L1 L2]; subst. destruct (clean_call now c w ps W T L1) as [c1 [ev [D [W1 _]]]].
  destruct (IH L2 c1 W1) as [c2 [log [R W2]]]. exists c2. eexists. cbn [receive]. rewrite D, R. now split.
Qed.

(** A wedged client goes on when the buffer has overflowed. *)
Lemma wedged_recovers now ws pss : Forall2 telegram ws pss -> Forall (fun w => (length w <= 256)%nat) ws ->
  forall c buf, working now c -> pci_raises true true buf -> (length buf <= 256)%nat ->
  (256 < length buf + length (concat ws))%nat -> exists c1 log,
  receive (handle_data now) MAX_BUFFER_SIZE c buf ws = (c1, [], log) /\ working now c1.
Proof.
  induction 1 as [|w ps ws pss T F IH]; intros L c buf W P B G; [cbn in G; lia|].
  inversion L as [|w0 ws0 L1 L2]; subst. cbn [concat] in G. rewrite app_length in G. cbn [receive].
  destruct (Nat.le_gt_cases (length buf + length w) 256) as [K|K].
  - destruct (handle_data_raises now c buf P) as [e [_ H]].
    rewrite fits_call by exact K.
    assert (Q : process_buffer (handle_data now) c (buf ++ w) = (c, buf ++ w, [], Raise e)).
    { apply (processes_buffer _ _ _ [buf ++ w]). apply pr_raise; [|apply H].
      destruct P as [line [rest [-> _]]]. destruct line; discriminate. }
    rewrite Q. assert (P2 : pci_raises true true (buf ++ w)).
    { destruct P as [line [rest [E P]]]. exists line, (rest ++ w). split; [|exact P]. rewrite E, <- !app_assoc. reflexivity. }
    destruct (IH L2 c (buf ++ w) W P2) as [c1 [log [R W1]]].
    + rewrite app_length. exact K.
    + rewrite app_length. lia.
    + rewrite R. exists c1. eexists. split; [reflexivity|exact W1].
  - rewrite (C24_overflow _ _ (handle_data now) MAX_BUFFER_SIZE c buf w L1 K).
    destruct (clean_stays now ws pss F L2 c W) as [c1 [log [R W1]]]. rewrite R. exists c1. eexists. split; [reflexivity|exact W1].
Qed.

(** Whatever is in the buffer: after enough whole telegrams it is empty. *)
Lemma recovers now size ws pss c buf : Forall2 telegram ws pss ->
  Forall (fun w => (length w <= size)%nat) ws -> (size <= 256)%nat -> working now c -> (length buf <= 256)%nat ->
  (256 + size < length (concat ws))%nat -> exists c1 log,
  receive (handle_data now) MAX_BUFFER_SIZE c buf ws = (c1, [], log) /\ working now c1.
Proof.
  intros F L Z W B G.
  destruct F as [|w ps ws pss T F]; [cbn in G; lia|]. inversion L as [|w0 ws0 L1 L2]; subst.
  cbn [concat] in G. rewrite app_length in G. cbn [receive].
  assert (L3 : Forall (fun w => (length w <= 256)%nat) ws) by (eapply Forall_impl; [|exact L2]; cbn beta; lia).
  destruct (Nat.le_gt_cases (length buf + length w) 256) as [K|K].
  2:{ assert (L4 : (length w <= 256)%nat) by lia. rewrite (C24_overflow _ _ (handle_data now) MAX_BUFFER_SIZE c buf w L4 K).
      destruct (clean_stays now ws pss F L3 c W) as [c1 [log [R W1]]]. rewrite R. exists c1. eexists. split; [reflexivity|exact W1]. }
  rewrite fits_call by exact K.
  destruct (process_buffer (handle_data now) c (buf ++ w)) as [[[c1 b1] ev] out] eqn:P.
  pose proof P as P'. apply process_buffer_spec in P'. destruct P' as [calls P'].
  pose proof (processes_calls _ _ _ _ _ _ _ _ P') as [_ [[k Sk] _]].
  destruct (left_over now _ _ _ _ _ _ _ P' W (telegram_ended w ps buf T)) as [W1 O].
  destruct out as [u|e]; [rewrite O|].
  - destruct (clean_stays now ws pss F L3 c1 W1) as [c2 [log [R W2]]]. rewrite R. exists c2. eexists. split; [reflexivity|exact W2].
  - destruct (wedged_recovers now ws pss F L3 c1 b1 W1 O) as [c2 [log [R W2]]].
    + rewrite Sk, skipn_length, app_length. lia.
    + lia.
    + rewrite R. exists c2. eexists. split; [reflexivity|exact W2].
Qed.

(** Whatever a client has in its buffer: once more than [256 + size] bytes of
    telegrams of at most [size] bytes have arrived, one telegram by call, the
    buffer is empty, and all further telegrams, in whatever pieces they arrive,
    are treated as if there had been no noise. *)
Theorem C94_recovers : forall now size c buf ws1 pss1 ws2 pss2 chunks,
  working now c -> (length buf <= 256)%nat -> (size <= 256)%nat ->
  Forall2 telegram ws1 pss1 -> Forall (fun w => (length w <= size)%nat) ws1 ->
  (256 + size < length (concat ws1))%nat ->
  Forall2 telegram ws2 pss2 -> delivered chunks ws2 -> (exists m, moderate m chunks ws2) ->
  exists c1 log1 c2 log2,
    receive (handle_data now) MAX_BUFFER_SIZE c buf ws1 = (c1, [], log1) /\ working now c1
    /\ receive (handle_data now) MAX_BUFFER_SIZE c1 [] chunks = (c2, [], log2)
    /\ Forall (fun x => snd x = Ok tt) log2 /\ treats now c1 (concat pss2) c2 (effects log2).
Proof.
  intros now size c buf ws1 pss1 ws2 pss2 chunks W B Z T1 L G T2 D M.
  destruct (recovers now size ws1 pss1 c buf T1 L Z W B G) as [c1 [log1 [R1 W1]]].
  destruct (receive (handle_data now) MAX_BUFFER_SIZE c1 [] chunks) as [[c2 b2] log2] eqn:R2.
  destruct (telegrams_sent _ _ T2) as [ps [C S]].
  destruct W1 as [A1 [A2 A3]]. destruct (C53_treats now (concat pss2) c1 A1 A2 A3) as [c3 [ev Q]].
  destruct (C53_client now ps pss2 ws2 chunks c1 c3 ev c2 b2 log2 C S D Q R2 (or_intror M)) as [-> [<- [-> O]]].
  exists c1, log1, c3, log2. unfold working. auto 10.
Qed.
Print Assumptions C94_recovers.

(** Without an exception nothing more than one telegram is lost, in whatever
    pieces the noise and the telegrams arrive. *)
Theorem C94_quiet : forall now c buf noise w ws ps pss chunks c' buf' log,
  working now c -> telegram w ps -> Forall2 telegram ws pss ->
  concat chunks = noise ++ w ++ concat ws ->
  receive (handle_data now) MAX_BUFFER_SIZE c buf chunks = (c', buf', log) -> no_raise log ->
  buf' = [] /\ exists calls c1 ev0 ev,
    processes (handle_data now) c (buf ++ noise ++ w) calls c1 [] ev0 (Ok tt)
    /\ treats now c1 (concat pss) c' ev /\ effects log = ev0 ++ ev.
Proof.
  intros now c buf noise w ws ps pss chunks c' buf' log W T F D R O.
  pose proof (handle_data_stable now) as St.
  assert (NE : chunks <> []).
  { intros ->. cbn in D. symmetry in D. apply app_eq_nil in D. destruct D as [_ D]. apply app_eq_nil in D.
    destruct D as [D _]. subst w. destruct (telegram_line [] ps T) as [[|x d] [D _]]; discriminate. }
  apply (receive_stream _ St) in R; [|exact O|exact NE]. rewrite D in R.
  apply process_buffer_spec in R. destruct R as [k0 R].
  (* the noise and the first telegram *)
  destruct (process_buffer (handle_data now) c (buf ++ noise ++ w)) as [[[c1 b1] e1] out] eqn:P.
  apply process_buffer_spec in P. destruct P as [k1 P].
  assert (E1 : ended (buf ++ noise ++ w)) by (rewrite app_assoc; now apply telegram_ended with ps).
  destruct (left_over now _ _ _ _ _ _ _ P W E1) as [W1 O1].
  destruct out as [[]|e].
  2:{ exfalso. destruct (processes_raise_app _ St _ _ _ _ _ _ _ P e (concat ws) eq_refl) as [k2 Q].
      rewrite <- !app_assoc in Q. destruct (processes_unique _ _ _ _ _ _ _ _ R _ _ _ _ _ Q) as [_ [_ [_ [_ X]]]]. discriminate. }
  subst b1.
  (* the others *)
  destruct W1 as [A1 [A2 A3]]. destruct (C53_treats now (concat pss) c1 A1 A2 A3) as [c3 [ev Q]].
  destruct (clean_all now ws pss F c1 c3 ev Q) as [k4 P4].
  destruct (processes_app _ St _ _ _ _ _ _ _ P eq_refl (concat ws) _ _ _ _ _ P4) as [k5 P5].
  replace ((buf ++ noise ++ w) ++ concat ws) with (buf ++ noise ++ w ++ concat ws) in P5 by now rewrite <- !app_assoc.
  destruct (processes_unique _ _ _ _ _ _ _ _ R _ _ _ _ _ P5) as [_ [-> [-> [-> _]]]].
  split; [reflexivity|]. exists k1, c1, e1, ev. auto.
Qed.
Print Assumptions C94_quiet.

(** ** How much can be lost *)

(** A light switched on, as unit 16 reports it. *)
Definition light_line : bytes := txt "05103800790337" ++ [13; 10].
Definition light_told : list packet := [PktPM (mkHdr true 0 (Some 16) None) (Some 0x38) [LightOn 3]].
Lemma light_telegram : telegram light_line light_told.
Proof.
  exists (PktPM (mkHdr true 0 (Some 16) None) (Some 0x38) [LightOn 3]). split; [|split; [reflexivity|exact I]].
  apply cv_pm; [lia|lia|now left|]. repeat constructor; cbn; lia.
Qed.

(** A client that has connected, on a computer whose clock works. *)
Definition listener : client := set_transport (new_client ClassPCI 0 false NoFuture) true.
Lemma listener_works : working noon listener.
Proof. split; [exact noon_works|]. split; [reflexivity|unfold counter_ok; cbn; lia]. Qed.

(** One stray byte before a telegram costs more than the telegram it precedes:
    if it is the letter of a confirmation, fifteen telegrams arrive to no
    effect, and the sixteenth is only the one that empties the buffer. *)
Theorem C94_one_byte_refuted :
  ~ (forall now c w ps ws pss c' buf' log, working now c -> telegram w ps -> Forall2 telegram ws pss -> ws <> [] ->
     receive (handle_data now) MAX_BUFFER_SIZE c (txt "g") (w :: ws) = (c', buf', log) ->
     exists x, In x (effects log) /\ match x with COn _ _ => True | _ => False end).
Proof.
  intros H.
  destruct (receive (handle_data noon) MAX_BUFFER_SIZE listener (txt "g") (repeat light_line 17)) as [[c' b'] log] eqn:E.
  destruct (H noon listener light_line light_told (repeat light_line 16) (repeat light_told 16) c' b' log listener_works
    light_telegram) as [x [I X]].
  - repeat (apply Forall2_cons; [exact light_telegram|]). constructor.
  - discriminate.
  - exact E.
  - vm_compute in E. inversion E; subst. cbn in I. decompose [or] I; subst; contradiction.
Qed.
Print Assumptions C94_one_byte_refuted.

(** In pieces that are not telegrams the way back may never be found: the
    overflow that empties the buffer drops the first part of a telegram, and its
    last part is again a line that cannot be read. *)
Definition period : list bytes :=
  [concat (repeat light_line 15); light_line ++ firstn 13 light_line; skipn 13 light_line].
Lemma period_lost now c : exists log,
  receive (handle_data now) MAX_BUFFER_SIZE c (skipn 13 light_line) period = (c, skipn 13 light_line, log) /\ effects log = [].
Proof. eexists. split; vm_compute; reflexivity. Qed.

Theorem C94_pieces_refuted :
  ~ (forall now c buf, working now c -> (length buf <= 256)%nat -> exists N, forall ws pss chunks c' buf' log,
     Forall2 telegram ws pss -> Forall (fun d => (length d <= 256)%nat) chunks -> delivered chunks ws ->
     (N <= length ws)%nat ->
     receive (handle_data now) MAX_BUFFER_SIZE c buf chunks = (c', buf', log) -> effects log <> []).
Proof.
  intros H. destruct (H noon listener (skipn 13 light_line) listener_works) as [N Q]; [cbn; lia|].
  assert (K : forall n, exists log,
    receive (handle_data noon) MAX_BUFFER_SIZE listener (skipn 13 light_line) (concat (repeat period n))
    = (listener, skipn 13 light_line, log) /\ effects log = []).
  { induction n as [|n [l2 [R2 E2]]]; [exists []; split; reflexivity|].
    destruct (period_lost noon listener) as [l1 [R1 E1]].
    exists (l1 ++ l2). cbn [repeat concat]. rewrite receive_app, R1, R2. split; [reflexivity|].
    unfold effects in *. now rewrite flat_map_app, E1, E2. }
  destruct (K N) as [log [R E]].
  refine (Q (concat (repeat (repeat light_line 17) N)) (concat (repeat (repeat light_told 17) N)) _ _ _ _ _ _ _ _ R E).
  - clear. induction N as [|N IH]; cbn [repeat concat]; [constructor|]. apply Forall2_app; [|exact IH].
    repeat (apply Forall2_cons; [exact light_telegram|]). constructor.
  - clear. induction N as [|N IH]; cbn [repeat concat]; [constructor|]. apply Forall_app. split; [|exact IH].
    repeat constructor; vm_compute; lia.
  - clear. unfold delivered. induction N as [|N IH]; [reflexivity|]. cbn [repeat]. rewrite !concat_cons, !concat_app, IH.
    f_equal.
  - clear. set (p := repeat light_line 17). assert (P : length p = 17%nat) by reflexivity. clearbody p.
    induction N as [|N IH]; [cbn; lia|]. cbn [repeat concat]. rewrite app_length. lia.
Qed.
Print Assumptions C94_pieces_refuted.

(** A letter of a confirmation in the buffer, nineteen telegrams one by one, two
    more in pieces. *)
Example C94_case :
  let ws1 := repeat light_line 19 in
  let chunks := [firstn 9 light_line; skipn 9 light_line ++ firstn 3 light_line; skipn 3 light_line] in
  Forall2 telegram ws1 (repeat light_told 19) /\ (256 + 16 < length (concat ws1))%nat
  /\ delivered chunks [light_line; light_line] /\ moderate 16 chunks [light_line; light_line]
  /\ let '(c1, b1, log1) := receive (handle_data noon) MAX_BUFFER_SIZE listener (txt "g") ws1 in
     let '(c2, b2, log2) := receive (handle_data noon) MAX_BUFFER_SIZE c1 b1 chunks in
     b1 = [] /\ b2 = [] /\ effects log2 = [COn (Some 16) 3; COn (Some 16) 3]
     /\ map snd log1 = repeat (Raise BinasciiError) 16 ++ [Raise ValueError; Ok tt; Ok tt].
Proof.
  cbn zeta. split; [repeat (apply Forall2_cons; [exact light_telegram|]); constructor|].
  split; [vm_compute; lia|]. split; [reflexivity|]. split.
  - split; [lia|]. split; repeat constructor; vm_compute; lia.
  - vm_compute. repeat split.
Qed.
(** Noise without exception, and the telegram it costs. *)
Example C94_quiet_case :
  let noise := txt "?z!A" in
  let chunks := [noise ++ firstn 5 light_line; skipn 5 light_line; light_line ++ light_line] in
  concat chunks = noise ++ light_line ++ concat [light_line; light_line]
  /\ let '(c, b, log) := receive (handle_data noon) MAX_BUFFER_SIZE listener [] chunks in
     Forall (fun x => snd x = Ok tt) log /\ b = [] /\ effects log = [COn (Some 16) 3; COn (Some 16) 3].
Proof. vm_compute. repeat split; repeat constructor. Qed.
