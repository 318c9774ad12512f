(** A client and an emulated PCI connected to each other, under every schedule
    of calls and deliveries: C73. *)
From Coq Require Import String List ZArith QArith Bool Lia.
From Verif Require Import Py Common Sal Cal Packet Text Mqtt Buffered Client Server Base Spec Spec_client Spec_server
  Spec_system Common_facts Buffer_facts Client_facts Client_steps Client_send Client_calls Client_dispatch Prop_client
  Server_facts Prop_server System_facts System_client Prop_system Prop_announce Loop Spec_loop Loop_facts.
Import ListNotations.
Notation length := List.length.
Open Scope Z_scope.

Lemma lenient_plain o : lenient o -> (forall b, o <> AtClient (OpData b)) /\ (forall b, o <> AtServer (SOpData b)).
Proof. intros L. split; intros b ->; exact L. Qed.

(** The state after both ends were told of the connection. *)
Lemma talk_start now rnd class frequency handle_clock future l k tr : clock_works now -> randint_works rnd ->
  talk now rnd (new_client class frequency handle_clock future) l = (k, tr) ->
  exists k0 tr0 tr1, tr = tr0 ++ tr1 /\ link_run now rnd k0 l = (k, tr1)
    /\ runs now rnd (new_client class frequency handle_clock future) k0 tr0
    /\ rises now rnd (new_client class frequency handle_clock future) k0 tr0
    /\ falls now k0 tr0 /\ client_calls tr0 = [OpConnect].
Proof.
  intros W R. set (c0 := new_client class frequency handle_clock future). unfold talk. cbn [link_run].
  destruct (link_step now rnd (new_link c0) (AtServer SOpConnect)) as [k1 x1] eqn:E1.
  destruct (link_step now rnd k1 (AtClient OpConnect)) as [k2 x2] eqn:E2.
  destruct (link_run now rnd k2 l) as [k3 tr3] eqn:E3. intros E. inversion E; subst.
  exists k2, [x1; x2], tr3. split; [reflexivity|]. split; [exact E3|].
  assert (U0 : runs now rnd c0 (new_link c0) []) by (repeat split).
  assert (U1 : runs now rnd c0 k1 [x1]) by (apply (runs_step now rnd c0 _ [] (AtServer SOpConnect) _ _ U0 ltac:(discriminate) ltac:(discriminate) E1)).
  assert (U2 : runs now rnd c0 k2 [x1; x2]) by (apply (runs_step now rnd c0 _ [x1] (AtClient OpConnect) _ _ U1 ltac:(discriminate) ltac:(discriminate) E2)).
  assert (X : k1 = mkLink (c0, []) [] (mkServer true true false false false false 0xff 0xff [] 0, []) [43; 43; 13; 10]
    /\ x1 = SeenServer SOpConnect [SWrite [43; 43; 13; 10]] (Ok tt)) by (cbn in E1; inversion E1; auto).
  destruct X as [K1 X1]. subst k1 x1.
  assert (V1 : rises now rnd c0 (mkLink (c0, []) [] (mkServer true true false false false false 0xff 0xff [] 0, []) [43; 43; 13; 10])
    [SeenServer SOpConnect [SWrite [43; 43; 13; 10]] (Ok tt)]).
  { exists [], [], []. cbn [k_server k_client k_up fst snd rev app]. split.
    { constructor; try constructor; cbn; auto. }
    split; [unfold counter_ok; cbn; lia|]. split; [intros X; discriminate X|]. split; [constructor|]. split; [reflexivity|].
    split; [intros d e r [X|[]]; discriminate X|]. split; [reflexivity|].
    cbn. constructor; [|constructor]. left. eexists. constructor. }
  split; [exact U2|]. split.
  { apply (rises_step now rnd W R c0 _ [_] _ _ _ U1 V1 (or_intror eq_refl) E2). }
  cbn [link_step] in E2. unfold at_client in E2. cbn [k_client k_up k_server k_down] in E2.
  destruct (client_step now (c0, []) OpConnect) as [[st ev] r] eqn:S. inversion E2; subst.
  cbn [client_step api fst snd] in S. unfold mseq, mbind in S. rewrite (connect_outcome c0) in S by (unfold counter_ok; cbn; lia).
  cbn zeta in S.
  assert (Q : callbacks ev = [] /\ snd st = [] /\ cl_transport (fst st) = true).
  { destruct (cl_frequency c0 =? 0); inversion S; subst; repeat split. }
  destruct Q as [Q1 [Q2 Q3]]. split; [|reflexivity]. exists true, []. cbn [k_client k_down]. split; [|split; [|split]].
  - change (written (server_trace _)) with [[43; 43; 13; 10]].
    change (client_trace _) with [(ev, r)]. rewrite effects_one, Q1.
    apply (he_told _ [] []); constructor.
  - rewrite Q2. apply (stand_hears now W true [[43; 43; 13; 10]] true []) with (s := []) (ev := []); [|constructor].
    apply (he_told _ [] []); constructor.
  - discriminate.
  - exact Q3.
Qed.

Lemma asked_due now st ops pks : asked now st ops pks -> Forall (fun p => confirmed p = due p) pks.
Proof.
  induction 1 as [|st o ops st' ev r pks pks' S A R IH]; [constructor|]. apply Forall_app.
  split; [exact (asks_confirmed _ _ _ _ _ _ A)|exact IH].
Qed.
Lemma flat_map_due l : Forall (fun p => confirmed p = due p) l -> flat_map confirmed l = flat_map due l.
Proof. induction 1 as [|p l H F IH]; [reflexivity|]. cbn [flat_map]. now rewrite H, IH. Qed.

Lemma link_invariants now rnd c0 l : clock_works now -> randint_works rnd -> forall k0 tr0 k tr,
  Forall lenient l -> Forall lawful l \/ nothing_refused tr ->
  runs now rnd c0 k0 tr0 -> rises now rnd c0 k0 tr0 -> link_run now rnd k0 l = (k, tr) ->
  runs now rnd c0 k (tr0 ++ tr) /\ rises now rnd c0 k (tr0 ++ tr)
  /\ (falls now k0 tr0 -> nothing_dropped (tr0 ++ tr) -> falls now k (tr0 ++ tr)).
Proof.
  intros W R. induction l as [|o l IH]; intros k0 tr0 k tr F B U V E; cbn [link_run] in E.
  - inversion E; subst. rewrite app_nil_r. auto.
  - destruct (link_step now rnd k0 o) as [k1 x] eqn:E1. destruct (link_run now rnd k1 l) as [k2 tr2] eqn:E2. inversion E; subst.
    inversion F as [|? ? L F2]; subst. destruct (lenient_plain o L) as [N1 N2].
    assert (Fi : fits k0 o).
    { destruct B as [B|B]; [inversion B; subst; now apply lawful_fits|]. apply (refused_fits _ _ _ _ _ _ E1).
      intros d ev ->. apply (B d ev). now left. }
    assert (B2 : Forall lawful l \/ nothing_refused tr2).
    { destruct B as [B|B]; [left; now inversion B|right; intros d ev X; apply (B d ev); now right]. }
    assert (U1 := runs_step now rnd c0 _ _ _ _ _ U N1 N2 E1).
    assert (V1 := rises_step now rnd W R c0 _ _ _ _ _ U V (or_introl (conj L Fi)) E1).
    destruct (IH _ _ _ _ F2 B2 U1 V1 E2) as [I1 [I2 I3]]. rewrite <- app_assoc in I1, I2, I3. cbn [app] in I1, I2, I3.
    split; [exact I1|]. split; [exact I2|]. intros Fa N. apply I3; [|exact N].
    eapply falls_step; eauto. intros d ev X. apply (N d ev). apply in_app_or in X. apply in_or_app.
    destruct X as [X|[X|[]]]; [now left|right; left; exact X].
Qed.

Lemma tail_refused l a b : Forall lawful l \/ nothing_refused (a ++ b) -> Forall lawful l \/ nothing_refused b.
Proof. intros [H|H]; [now left|right]. intros d ev X. apply (H d ev). apply in_or_app. now right. Qed.

Lemma talk_ends : forall now rnd class frequency handle_clock future l k tr,
  clock_works now -> randint_works rnd -> Forall lenient l ->
  talk now rnd (new_client class frequency handle_clock future) l = (k, tr) ->
  Forall lawful l \/ nothing_refused tr ->
  client_run now (new_client class frequency handle_clock future, []) (client_calls tr) = (k_client k, client_trace tr)
  /\ server_run rnd (new_server, []) (server_calls tr) = (k_server k, server_trace tr)
  /\ concat (writes (effects (client_trace tr))) = concat (chunks_of (server_calls tr)) ++ k_up k
  /\ concat (written (server_trace tr))
     = concat (flat_map (fun o => match o with OpData b => [b] | _ => [] end) (client_calls tr)) ++ k_down k.
Proof.
  intros now rnd class frequency handle_clock future l k tr W R F E B0.
  destruct (talk_start _ _ _ _ _ _ _ _ _ W R E) as [k0 [tr0 [tr1 [-> [E1 [U [V _]]]]]]].
  exact (proj1 (link_invariants _ _ _ _ W R _ _ _ _ F (tail_refused _ _ _ B0) U V E1)).
Qed.

(** Both ends run as they do alone, so every theorem on the histories of a
    client or of an emulator applies; each stream arrives as it was sent, the
    rest of it being under way. *)
Theorem C73_ends : forall now rnd class frequency handle_clock future l k tr,
  clock_works now -> randint_works rnd -> Forall lawful l ->
  talk now rnd (new_client class frequency handle_clock future) l = (k, tr) ->
  client_run now (new_client class frequency handle_clock future, []) (client_calls tr) = (k_client k, client_trace tr)
  /\ server_run rnd (new_server, []) (server_calls tr) = (k_server k, server_trace tr)
  /\ concat (writes (effects (client_trace tr))) = concat (chunks_of (server_calls tr)) ++ k_up k
  /\ concat (written (server_trace tr))
     = concat (flat_map (fun o => match o with OpData b => [b] | _ => [] end) (client_calls tr)) ++ k_down k.
Proof.
  intros now rnd class frequency handle_clock future l k tr W R F E. exact (talk_ends _ _ _ _ _ _ _ _ _ W R (Forall_impl _ lawful_lenient F) E (or_introl F)).
Qed.
Print Assumptions C73_ends.

Lemma talk_up : forall now rnd class frequency handle_clock future l k tr,
  clock_works now -> randint_works rnd -> Forall lenient l ->
  talk now rnd (new_client class frequency handle_clock future) l = (k, tr) ->
  Forall lawful l \/ nothing_refused tr ->
  exists received todo,
    asked now (new_client class frequency handle_clock future, []) (client_calls tr) (received ++ todo)
    /\ called (server_trace tr) = flat_map scallbacks_of received
    /\ (forall data ev r, In (SeenServer (SOpData data) ev r) tr -> r = Ok tt)
    /\ (Forall (fun o => forall code ok, o <> SOpConfirm code ok) (server_calls tr) ->
        filter is_confirmation (written (server_trace tr)) = map confirmation (flat_map due received))
    /\ modes_of (fst (k_server k)) = latest (rev received)
    /\ (k_up k = [] -> todo = [] /\ snd (k_server k) = [] /\ modes_of (fst (k_server k)) = normal).
Proof.
  intros now rnd class frequency handle_clock future l k tr W R F E B0.
  destruct (talk_start _ _ _ _ _ _ _ _ _ W R E) as [k0 [tr0 [tr1 [-> [E1 [U [V [_ B]]]]]]]].
  destruct (link_invariants _ _ _ _ W R _ _ _ _ F (tail_refused _ _ _ B0) U V E1)
    as [_ [[msgs [received [todo [Ex [_ [_ [A [C [D [G _]]]]]]]]]] _]].
  exists received, todo. split; [exact A|]. split; [exact C|]. split; [exact D|]. split.
  - intros NC. rewrite G.
    + apply asked_due, Forall_app in A. now rewrite (flat_map_due received) by tauto.
    + eapply Forall_impl; [|exact NC]. intros o H K. destruct o as [| | | | | | |[|c r] ok]; try contradiction. now apply (H (c :: r) ok).
  - split; [exact (ex_modes _ _ _ _ _ _ Ex)|]. intros Z.
    assert (S := ex_stream _ _ _ _ _ _ Ex). rewrite Z, app_nil_r in S.
    destruct (partial_all _ _ (ex_partial _ _ _ _ _ _ Ex) (script_nonempty _ _ _ (ex_script _ _ _ _ _ _ Ex)) S) as [S1 S2].
    assert (T : todo = []) by (assert (X := ex_script _ _ _ _ _ _ Ex); rewrite S2 in X; now inversion X).
    split; [exact T|]. split; [exact S1|]. rewrite (ex_modes _ _ _ _ _ _ Ex). subst todo. rewrite app_nil_r in A.
    unfold client_calls in A. rewrite flat_map_app in A. fold (client_calls tr0) in A. rewrite B in A. cbn [app] in A.
    rewrite <- (app_nil_r (rev received)). inversion A as [|st o ops st' ev r p1 p2 S3 As Rest]; subst.
    rewrite rev_app_distr, <- app_assoc. eapply asked_latest; [exact Rest|]. eapply asks_latest; [exact As|now right].
Qed.

(** What the client asks for is received and acted upon in order, and nothing
    else; the rest of it is still under way.  The emulator accepts every piece.
    Unless the program itself confirms, exactly what was received is confirmed. *)
Theorem C73_up : forall now rnd class frequency handle_clock future l k tr,
  clock_works now -> randint_works rnd -> Forall lawful l ->
  talk now rnd (new_client class frequency handle_clock future) l = (k, tr) ->
  exists received todo,
    asked now (new_client class frequency handle_clock future, []) (client_calls tr) (received ++ todo)
    /\ called (server_trace tr) = flat_map scallbacks_of received
    /\ (forall data ev r, In (SeenServer (SOpData data) ev r) tr -> r = Ok tt)
    /\ (Forall (fun o => forall code ok, o <> SOpConfirm code ok) (server_calls tr) ->
        filter is_confirmation (written (server_trace tr)) = map confirmation (flat_map due received))
    /\ modes_of (fst (k_server k)) = latest (rev received)
    /\ (k_up k = [] -> todo = [] /\ snd (k_server k) = [] /\ modes_of (fst (k_server k)) = normal).
Proof.
  intros now rnd class frequency handle_clock future l k tr W R F E. exact (talk_up _ _ _ _ _ _ _ _ _ W R (Forall_impl _ lawful_lenient F) E (or_introl F)).
Qed.
Print Assumptions C73_up.

Lemma talk_down : forall now rnd class frequency handle_clock future l k tr,
  clock_works now -> randint_works rnd -> Forall lenient l ->
  talk now rnd (new_client class frequency handle_clock future) l = (k, tr) ->
  Forall lawful l \/ nothing_refused tr -> nothing_dropped tr ->
  exists clear rest,
    hears true (written (server_trace tr)) clear (callbacks (effects (client_trace tr)) ++ rest)
    /\ (k_down k = [] -> rest = []).
Proof.
  intros now rnd class frequency handle_clock future l k tr W R F E B0 N.
  destruct (talk_start _ _ _ _ _ _ _ _ _ W R E) as [k0 [tr0 [tr1 [-> [E1 [U [V [Fa _]]]]]]]].
  destruct (link_invariants _ _ _ _ W R _ _ _ _ F (tail_refused _ _ _ B0) U V E1) as [_ [_ K]].
  destruct (K Fa N) as [b [rest [H [_ [Z _]]]]]. exists b, rest. auto.
Qed.

Lemma talk_takes : forall now rnd class frequency handle_clock future l k tr d later,
  clock_works now -> randint_works rnd -> Forall lenient l ->
  talk now rnd (new_client class frequency handle_clock future) l = (k, tr) ->
  Forall lawful l \/ nothing_refused tr ->
  k_up k = d ++ later -> (length d <= 210 \/ length (snd (k_server k)) + length d <= 256)%nat ->
  exists st ev, server_step rnd (k_server k) (SOpData d) = (st, ev, Ok tt).
Proof.
  intros now rnd class frequency handle_clock future l k tr d later W R F E B0 D L.
  destruct (talk_start _ _ _ _ _ _ _ _ _ W R E) as [k0 [tr0 [tr1 [-> [E1 [U [V _]]]]]]].
  destruct (link_invariants _ _ _ _ W R _ _ _ _ F (tail_refused _ _ _ B0) U V E1) as [_ [[msgs [received [todo [Ex _]]]] _]].
  rewrite D in Ex. destruct (server_step rnd (k_server k) (SOpData d)) as [[st ev] r] eqn:S.
  destruct (expects_data _ _ _ _ _ _ _ _ _ _ R Ex L S) as [-> _]. eauto.
Qed.

Lemma talk_fine : forall now rnd class frequency handle_clock future l k tr d later,
  clock_works now -> randint_works rnd -> Forall lenient l ->
  talk now rnd (new_client class frequency handle_clock future) l = (k, tr) ->
  Forall lawful l \/ nothing_refused tr -> nothing_dropped tr ->
  k_down k = d ++ later -> (length (snd (k_client k)) + length d <= 256)%nat ->
  exists st ev, client_step now (k_client k) (OpData d) = (st, ev, Ok None).
Proof.
  intros now rnd class frequency handle_clock future l k tr d later W R F E B0 N D L.
  destruct (talk_start _ _ _ _ _ _ _ _ _ W R E) as [k0 [tr0 [tr1 [-> [E1 [U [V [Fa _]]]]]]]].
  destruct (link_invariants _ _ _ _ W R _ _ _ _ F (tail_refused _ _ _ B0) U V E1) as [_ [V1 K]].
  exact (falls_fine now rnd _ _ _ _ _ (K Fa N) V1 D L).
Qed.

(** What the emulator writes is heard as specified, in order, however it is cut
    into pieces and interleaved with calls; the rest is still under way. *)
Theorem C73_down : forall now rnd class frequency handle_clock future l k tr,
  clock_works now -> randint_works rnd -> Forall lawful l ->
  talk now rnd (new_client class frequency handle_clock future) l = (k, tr) -> nothing_dropped tr ->
  exists clear rest,
    hears true (written (server_trace tr)) clear (callbacks (effects (client_trace tr)) ++ rest)
    /\ (k_down k = [] -> rest = []).
Proof.
  intros now rnd class frequency handle_clock future l k tr W R F E N. exact (talk_down _ _ _ _ _ _ _ _ _ W R (Forall_impl _ lawful_lenient F) E (or_introl F) N).
Qed.
Print Assumptions C73_down.

(** What is heard is determined by the messages. *)
Lemma tells_once w l l' : tells w l -> tells w l' -> l = l'.
Proof.
  intros A B. set (c := set_transport (new_client ClassPCI 0 true Pending) true).
  assert (R : ready c) by (split; [reflexivity|unfold counter_ok; cbn; lia]).
  destruct (stand_piece noon true w l (stand_tells noon noon_works w l A) w [] c R (app_nil_r w))
    as [k1 [c1 [x1 [e1 [v1 [P1 [_ [_ [-> F1]]]]]]]]].
  destruct (stand_piece noon true w l' (stand_tells noon noon_works w l' B) w [] c R (app_nil_r w))
    as [k2 [c2 [x2 [e2 [v2 [P2 [_ [_ [-> F2]]]]]]]]].
  rewrite (F1 eq_refl), (F2 eq_refl). destruct (processes_unique _ _ _ _ _ _ _ _ P1 _ _ _ _ _ P2) as [_ [_ [_ [-> _]]]]. reflexivity.
Qed.
Lemma tells_unspoilt w l : tells w l -> ~ spoils w.
Proof.
  intros T [[b [w' [E [B1 [B2 B3]]]]] [N _]]. destruct T as [c ok C| | |o src e w A Ev|o src e w A Ev].
  - inversion E; subst. tauto.
  - apply N. cbn. auto.
  - apply N. cbn. auto.
  - destruct (eventful_line w) as [d [-> _]]; [exists true, o, src, e; auto|]. apply N, in_or_app. right. cbn. auto.
  - destruct (eventful_line w) as [d [-> _]]; [exists false, o, src, e; auto|]. apply N, in_or_app. right. cbn. auto.
Qed.
Theorem C73_determined : forall b ws b1 l1 b2 l2, hears b ws b1 l1 -> hears b ws b2 l2 -> b1 = b2 /\ l1 = l2.
Proof.
  intros b ws b1 l1 b2 l2 H. revert b2 l2.
  induction H as [b|w l ws b ev T H IH|w ws b ev T H IH|w ws b ev T H IH|line ws b ev T H IH]; intros b2 l2 K;
    inversion K as [|? k ? ? ? T2 K2|? ? ? ? T2 K2|? ? ? ? T2 K2|line2 ? ? ? T2 K2]; subst; auto.
  - destruct (IH _ _ K2) as [-> ->]. now rewrite (tells_once _ _ _ T T2).
  - now destruct (tells_unspoilt _ _ T).
  - now destruct (tells_unspoilt _ _ T2).
  - destruct T. apply in_or_app. right. cbn. auto.
  - destruct T2. apply in_or_app. right. cbn. auto.
Qed.
Print Assumptions C73_determined.

(** The proviso of C73_down is needed.  The echo of the handshake is never
    ended by a line if nothing but confirmations follows, so that the client's
    buffer fills up: commands alone are enough to make it drop a piece. *)
Definition droplist (tr : list seen) : bool :=
  existsb (fun x => match x with SeenClient (OpData _) _ (Raise ValueError) => true | _ => false end) tr.
Lemma droplist_spec tr : droplist tr = false <-> nothing_dropped tr.
Proof.
  split.
  - intros B d ev I. assert (droplist tr = true); [|congruence]. apply existsb_exists. eexists. split; [exact I|reflexivity].
  - intros N. destruct (droplist tr) eqn:B; [|reflexivity]. apply existsb_exists in B. destruct B as [x [I B]].
    destruct x as [o ev r|]; [|discriminate]. destruct o; try discriminate. destruct r as [|e]; [discriminate|].
    destruct e; try discriminate. destruct (N _ _ I).
Qed.
Definition busy : list lop := concat (repeat [AtClient (OpOn [5]); Up 210; Up 210; Down 200] 110).
Lemma busy_drops : droplist (snd (talk noon die (new_client ClassPCI 0 true Pending) busy)) = true.
Proof. vm_compute. reflexivity. Qed.
Theorem C73_never_drops_refuted : ~ (forall now rnd class frequency handle_clock future l k tr,
  clock_works now -> randint_works rnd -> Forall lawful l ->
  talk now rnd (new_client class frequency handle_clock future) l = (k, tr) -> nothing_dropped tr).
Proof.
  intros H. assert (B := busy_drops).
  assert (F : Forall lawful busy).
  { apply Forall_concat, Forall_forall. intros x X. apply repeat_spec in X. subst x.
    repeat constructor; cbn; auto; lia. }
  assert (N : nothing_dropped (snd (talk noon die (new_client ClassPCI 0 true Pending) busy))).
  { eapply (H noon die ClassPCI 0 true Pending busy _ _ noon_works die_works F). apply surjective_pairing. }
  apply droplist_spec in N. congruence.
Qed.
Print Assumptions C73_never_drops_refuted.

(** Calls on both sides while bytes are under way in both directions: what is
    said while the handshake is echoed is lost, what is said after the next line
    is heard. *)
Example C73_case :
  let l := [AtClient (OpOn [1; 2]); Up 7; AtServer (SOpOn 9 4); Up 100; Up 100; Down 3; Down 200; AtServer (SOpOff 9 4);
            AtClient (OpRamp 3 4 (PInt 128)); Up 200; Down 31; AtServer (SOpRamp 7 5 0 (PInt 255)); Down 200;
            AtServer SOpError; Down 5] in
  let k := fst (talk noon die (new_client ClassPCI 0 true Pending) l) in
  let tr := snd (talk noon die (new_client ClassPCI 0 true Pending) l) in
  Forall lawful l /\ nothing_dropped tr /\ k_up k = [] /\ k_down k = []
  /\ called (server_trace tr) = [SReset; SReset; SReset; SOn 1; SOn 2; SRamp 3 4 (PInt 128)]
  /\ filter is_confirmation (written (server_trace tr)) = [txt "h."; txt "i."; txt "j."; txt "k."; txt "l."]
  /\ callbacks (effects (client_trace tr)) = [CConfirmation [108] true; CRamp (Some 7) 5 0 (PInt 255); CCannotAccept].
Proof.
  cbn zeta. split; [repeat constructor; cbn; auto; lia|]. split; [|repeat split; vm_compute; reflexivity].
  apply droplist_spec. vm_compute. reflexivity.
Qed.
(** Two schedules of the same calls. *)
Example C73_orders :
  let calls := [AtClient (OpOn [1]); AtClient (OpOff [2])] in
  let late := calls ++ [Up 30; Up 50; Up 200] in
  let early := [Up 200] ++ [AtClient (OpOn [1]); Up 5; AtClient (OpOff [2]); Up 200] in
  let run l := talk noon die (new_client ClassPCI 0 true Pending) l in
  called (server_trace (snd (run late))) = called (server_trace (snd (run early)))
  /\ k_up (fst (run late)) = [] /\ k_up (fst (run early)) = []
  /\ length (server_trace (snd (run late))) = 4%nat.
Proof. vm_compute. repeat split. Qed.
