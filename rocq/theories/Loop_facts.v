(** Lemmas on a client and an emulator connected to each other. *)
From Coq Require Import String List ZArith Bool Lia.
From Verif Require Import Py Common Sal Cal Packet Text Mqtt Buffered Client Server Base Spec Spec_client Spec_server
  Spec_system Common_facts Sal_facts Packet_facts Packet_roundtrip Packet_decode Packet_total Buffer_facts
  Client_facts Client_steps Client_send Client_calls Client_dispatch Prop_packet Prop_client Server_facts Prop_server
  System_facts System_client System_reply Prop_length Prop_system Prop_announce Loop Spec_loop.
Import ListNotations.
Notation length := List.length.
Open Scope Z_scope.

(** ** What a client makes of the messages *)

Section Down.
  Variable now : nat -> clockval.
  Hypothesis W : clock_works now.

  (** The handler takes [u] as one message, whatever follows, makes the
      callbacks [l], and waits while it is incomplete. *)
  Definition absorbs (u : bytes) (l : list cev) : Prop :=
    u <> []
    /\ (forall c rest, ready c -> exists c' ev, handle_data now c (u ++ rest) = (c', ev, Ok (Z.of_nat (length u)))
         /\ ready c' /\ callbacks ev = l)
    /\ forall c q t, t <> [] -> u = q ++ t -> handle_data now c q = (c, [], Ok 0).

  Lemma absorbs_decoded u op : u <> [] ->
    (forall rest, exists ws, decode_packet (u ++ rest) true true true = (ws, Ok (op, length u))) ->
    absorbs u (match op with Some p => callbacks_of p | None => [] end).
  Proof.
    intros N D. split; [exact N|]. split.
    - intros c rest [T I]. destruct (D rest) as [ws E].
      destruct (C31_complete now c (u ++ rest) _ _ _ T I W E) as [c' [ev [H [T' [I' C]]]]].
      exists c', ev. split; [exact H|]. split; [now split|exact C].
    - intros c q t Nt E. unfold handle_data.
      destruct (from_pci_cases q true true) as [[X _]|[C _]]; [now rewrite X|exfalso].
      destruct (D []) as [ws X]. rewrite app_nil_r, E, (from_pci_stable _ _ _ _ C) in X.
      apply from_pci_position in X. destruct X as [X _]. rewrite app_length in X.
      destruct t; [congruence|cbn [length] in X; lia].
  Qed.

  (** [stand b s ev]: the stream [s] will cause [ev]; at its end all is clear
      if [b], else the rest of it is an open line that is lost. *)
  Inductive stand : bool -> bytes -> list cev -> Prop :=
  | sd_end : stand true [] []
  | sd_open n : spoils n -> stand false n []
  | sd_unit u l b s ev : absorbs u l -> stand b s ev -> stand b (u ++ s) (l ++ ev).

  Lemma stand_units u l s ev b : absorbs u l -> stand b s ev -> forall v k, v = u ++ s -> k = l ++ ev -> stand b v k.
  Proof. intros A S v k -> ->. now constructor. Qed.

  Lemma crlf_absorbed : absorbs [13; 10] [].
  Proof.
    apply (absorbs_decoded [13; 10] None); [discriminate|]. intros rest. exists []. apply crlf_nothing.
  Qed.

  Lemma stand_tells w l : tells w l -> stand true w l.
  Proof.
    destruct 1 as [c ok C| | |o src e w A E|o src e w A E].
    - apply (stand_units [c; if ok then 46 else 35] [CConfirmation [c] ok] [] [] true); [|constructor|reflexivity|reflexivity].
      apply (absorbs_decoded _ (Some (PktConfirm [c] ok))); [discriminate|]. intros rest. exists [].
      unfold decode_packet. cbn [app]. unfold is_code in C.
      replace (c =? 43) with false by lia. replace (c =? 33) with false by lia.
      replace (mem c CONFIRMATION_CODES) with true; [destruct ok; reflexivity|].
      symmetry. unfold mem. apply existsb_exists. exists c. split; [|lia]. now apply code_spec.
    - apply (stand_units [33] [CCannotAccept] [13; 10] [] true); [| |reflexivity|reflexivity].
      + apply (absorbs_decoded [33] (Some PktError)); [discriminate|]. intros rest. now exists [].
      + apply (stand_units [13; 10] [] [] [] true); [apply crlf_absorbed|constructor|reflexivity|reflexivity].
    - apply (stand_units [43] [] [43; 13; 10] [] true); [| |reflexivity|reflexivity].
      + apply (absorbs_decoded [43] (Some PktPowerOn)); [discriminate|]. intros rest. now exists [].
      + apply (stand_units [43] [] [13; 10] [] true); [| |reflexivity|reflexivity].
        * apply (absorbs_decoded [43] (Some PktPowerOn)); [discriminate|]. intros rest. now exists [].
        * apply (stand_units [13; 10] [] [] [] true); [apply crlf_absorbed|constructor|reflexivity|reflexivity].
    - apply (stand_units w (callback_of (source_of src) e) [] [] true); [|constructor|now rewrite app_nil_r|now rewrite app_nil_r].
      rewrite <- (app_nil_r (callback_of _ e)).
      apply (absorbs_decoded w (Some (PktPM (mkHdr true 0 (source_of src) None) (Some 0x38) [e]))).
      + intros ->. destruct (announced_command _ _ _ _ _ A E) as [s [body [_ [_ [_ [_ [tail [[digits [X _]] _]]]]]]]].
        destruct digits; discriminate.
      + intros rest. exists []. now apply (C72_decoded o).
    - apply (stand_units w [] [] [] true); [|constructor|now rewrite app_nil_r|reflexivity].
      destruct (unheard_line o src e w A E) as [p [C D]].
      rewrite <- C. apply (absorbs_decoded w (Some p)); [|exact D].
      intros ->. destruct (announced_command _ _ _ _ _ A E) as [s [body [_ [_ [_ [_ [tail [[digits [X _]] _]]]]]]]].
      destruct digits; discriminate.
  Qed.

  Lemma crlf_ten x y (s : bytes) : s = x ++ [13; 10] ++ y -> In 10 s.
  Proof. intros ->. apply in_or_app. right. right. now left. Qed.

  Lemma stand_regained n line : spoils n -> ~ In 10 line -> absorbs (n ++ line ++ [13; 10]) [].
  Proof.
    intros [[b [n' [-> [B1 [B2 B3]]]]] [N10 [x [X1 X2]]]] L10.
    set (l := n' ++ line).
    assert (Q : (b :: n') ++ line ++ [13; 10] = (b :: l) ++ [13; 10]) by (unfold l; cbn [app]; now rewrite <- app_assoc).
    assert (T : ~ In 10 (b :: l)) by (unfold l; change (b :: n' ++ line) with ((b :: n') ++ line); rewrite in_app_iff; tauto).
    rewrite Q. split; [discriminate|]. split.
    - intros c rest R. exists c, []. split; [|split; [exact R|reflexivity]].
      rewrite <- app_assoc. unfold handle_data. cbn [app].
      change (b :: l ++ 13 :: 10 :: rest) with ((b :: l) ++ 13 :: 10 :: rest).
      rewrite from_pci_line.
      + unfold decode_line, decode_hex.
        replace (forallb (fun c => mem c HEX_CHARS) (b :: l)) with false.
        * cbn [length]. rewrite app_length. reflexivity.
        * symmetry. apply not_true_iff_false. intros H. rewrite forallb_forall in H. apply X2, hex_mem, H.
          unfold l. change (b :: n' ++ line) with ((b :: n') ++ line). apply in_or_app. now left.
      + intros a y E. destruct (Nat.le_gt_cases (length (b :: l)) (length a)) as [K|K]; [exact K|exfalso].
        destruct (app_split _ _ _ _ E) as [[t [Nt Et]]|[t [Et Q2]]].
        * rewrite Et, app_length in K. lia.
        * destruct t as [|t0 t]; [rewrite Et, app_nil_r in K; lia|].
          inversion Q2 as [[Q3 Q4]]. subst t0. destruct t as [|t1 t].
          -- cbn [app] in Q4. inversion Q4.
          -- inversion Q4. subst t1. apply T. rewrite Et. apply in_or_app. right. right. now left.
      + cbn. auto.
    - intros c q t Nt E. destruct q as [|q0 q]; [reflexivity|].
      cbn [app] in E. injection E as <- E. apply C55_waits; auto.
      intros y z Z. apply crlf_ten in Z.
      assert (D : exists t0, t = t0 ++ [10] /\ l ++ [13] = q ++ t0).
      { destruct (@exists_last _ t Nt) as [t0 [z0 ->]]. exists t0.
        rewrite app_assoc in E. change (l ++ [13; 10]) with (l ++ [13] ++ [10]) in E. rewrite app_assoc in E.
        apply app_inj_tail in E. destruct E as [E <-]. auto. }
      destruct D as [t0 [_ D]]. apply T.
      assert (I : In 10 ((b :: l) ++ [13])).
      { cbn [app]. rewrite D. change (b :: q ++ t0) with ((b :: q) ++ t0). apply in_or_app. now left. }
      apply in_app_or in I. destruct I as [I|[I|[]]]; [exact I|discriminate].
  Qed.

  Lemma spoils_more n w : spoils n -> ~ In 10 w -> spoils (n ++ w).
  Proof.
    intros [[b [n' [-> B]]] [N [x [X1 X2]]]] V. split; [|split].
    - exists b, (n' ++ w). auto.
    - rewrite in_app_iff. tauto.
    - exists x. rewrite in_app_iff. auto.
  Qed.

  (** One more message. *)
  Inductive hears_one : bool -> bytes -> bool -> list cev -> Prop :=
  | ho_told w l : tells w l -> hears_one true w true l
  | ho_spoilt w : spoils w -> hears_one true w false []
  | ho_lost w : ~ In 10 w -> hears_one false w false []
  | ho_regained line : ~ In 10 line -> hears_one false (line ++ [13; 10]) true [].

  Lemma stand_app b s ev : stand b s ev -> b = true -> forall b' s' ev', stand b' s' ev' -> stand b' (s ++ s') (ev ++ ev').
  Proof.
    induction 1 as [|n|u l b s ev A S IH]; intros T b' s' ev' S'; [exact S'|discriminate|].
    rewrite <- !app_assoc. constructor; auto.
  Qed.

  Lemma stand_more b s ev : stand b s ev -> forall w b' l, hears_one b w b' l -> stand b' (s ++ w) (ev ++ l).
  Proof.
    induction 1 as [|n K|u l b s ev A S IH]; intros w b' l' H.
    - inversion H; subst; cbn [app]; [now apply stand_tells|now constructor].
    - inversion H as [| |? N|line N]; subst; cbn [app].
      + constructor. now apply spoils_more.
      + apply (stand_units (n ++ line ++ [13; 10]) [] [] [] true); [now apply stand_regained|constructor|now rewrite app_nil_r|reflexivity].
    - rewrite <- !app_assoc. constructor; auto.
  Qed.

  (** A piece of the stream is processed as far as it goes. *)
  Lemma stand_piece b s ev : stand b s ev -> forall x rest c, ready c -> x ++ rest = s ->
    exists calls c' x' evs ev', processes (handle_data now) c x calls c' x' evs (Ok tt)
      /\ ready c' /\ stand b (x' ++ rest) ev' /\ ev = callbacks evs ++ ev' /\ (rest = [] -> ev' = []).
  Proof.
    induction 1 as [|n K|u l b s ev A S IH]; intros x rest c R E.
    - apply app_eq_nil in E. destruct E as [-> ->]. exists [], c, [], [], [].
      split; [constructor|]. split; [exact R|]. split; [constructor|]. auto.
    - destruct x as [|x0 x].
      + exists [], c, [], [], []. split; [constructor|]. split; [exact R|]. cbn [app] in *. subst rest.
        split; [now constructor|]. auto.
      + exists [x0 :: x], c, (x0 :: x), [], []. split.
        { apply pr_wait; [discriminate|]. destruct K as [[b [n' [-> [B1 [B2 B3]]]]] [N _]].
          cbn [app] in E. injection E as -> E. apply C55_waits; auto.
          intros y z Z. apply crlf_ten in Z. apply N. rewrite <- E. change (b :: x ++ rest) with ((b :: x) ++ rest).
          apply in_or_app. now left. }
        split; [exact R|]. split; [rewrite E; now constructor|]. auto.
    - destruct A as [Nu [A1 A2]]. destruct (app_split _ _ _ _ E) as [[t [Nt Eu]]|[t [-> Q]]].
      + assert (Z : rest <> []).
        { intros ->. rewrite app_nil_r in E. subst x. apply (f_equal (@length Z)) in Eu. rewrite !app_length in Eu.
          destruct t; [congruence|cbn [length] in Eu; lia]. }
        destruct x as [|x0 x].
        * exists [], c, [], [], (l ++ ev). split; [constructor|]. split; [exact R|]. cbn [app] in *. subst rest.
          split; [constructor; [repeat split; auto|exact S]|]. split; [reflexivity|]. intros X. now destruct (Z X).
        * exists [x0 :: x], c, (x0 :: x), [], (l ++ ev). split; [apply pr_wait; [discriminate|]; now apply (A2 c _ t)|].
          split; [exact R|]. split; [rewrite E; constructor; [repeat split; auto|exact S]|]. split; [reflexivity|].
          intros X. now destruct (Z X).
      + destruct (A1 c t R) as [c1 [e1 [H [R1 C1]]]].
        destruct (IH t rest c1 R1 (eq_sym Q)) as [calls [c2 [x2 [e2 [ev2 [P [R2 [S2 [-> F]]]]]]]]].
        exists ((u ++ t) :: calls), c2, x2, (e1 ++ e2), ev2. split.
        { apply pr_next with c1 (Z.of_nat (length u)); [|exact H|destruct u; [congruence|cbn [length]; lia]|].
          - intros X. apply app_eq_nil in X. tauto.
          - rewrite Nat2Z.id, skipn_app, skipn_all, Nat.sub_diag. exact P. }
        split; [exact R2|]. split; [exact S2|]. split; [|exact F].
        rewrite callbacks_app, C1. now rewrite <- app_assoc.
  Qed.
End Down.

Lemma hears_app b ws b1 l : hears b ws b1 l -> forall ws2 b2 l2, hears b1 ws2 b2 l2 -> hears b (ws ++ ws2) b2 (l ++ l2).
Proof.
  induction 1 as [b|w l ws b ev T H IH|w ws b ev T H IH|w ws b ev T H IH|line ws b ev T H IH]; intros ws2 b2 l2 H2; cbn [app].
  - exact H2.
  - rewrite <- app_assoc. constructor; auto.
  - apply he_spoilt; auto.
  - apply he_lost; auto.
  - apply he_regained; auto.
Qed.
Lemma hears_cons b w b1 l ws b2 l2 : hears_one b w b1 l -> hears b1 ws b2 l2 -> hears b (w :: ws) b2 (l ++ l2).
Proof.
  destruct 1 as [w l T|w T|w T|line T]; intros H; cbn [app]; [now constructor|now apply he_spoilt|now apply he_lost|now apply he_regained].
Qed.
Lemma stand_hears now (W : clock_works now) b ws b' l : hears b ws b' l ->
  forall s ev, stand now b s ev -> stand now b' (s ++ concat ws) (ev ++ l).
Proof.
  induction 1 as [b|w l ws b ev T H IH|w ws b ev T H IH|w ws b ev T H IH|line ws b ev T H IH]; intros s ev0 S; cbn [concat].
  - now rewrite !app_nil_r.
  - rewrite !app_assoc. apply IH. apply (stand_more now W true s ev0 S w true l). now constructor.
  - rewrite !app_assoc. apply IH. rewrite <- (app_nil_r ev0). apply (stand_more now W true s ev0 S w false []). now constructor.
  - rewrite !app_assoc. apply IH. rewrite <- (app_nil_r ev0). apply (stand_more now W false s ev0 S w false []). now constructor.
  - rewrite app_assoc. apply IH. rewrite <- (app_nil_r ev0). apply (stand_more now W false s ev0 S _ true []). now constructor.
Qed.

(** ** The messages of an emulator *)

Definition classified (w : bytes) : Prop := (exists l, tells w l) \/ spoils w.
(** A line announcing an event. *)
Definition eventful (w : bytes) : Prop := exists ck o src e, announces ck o w /\ event o src e.

Lemma eventful_line w : eventful w -> exists digits, w = digits ++ [13; 10] /\ ~ In 10 digits.
Proof.
  intros [ck [o [src [e [A E]]]]]. destruct (announced_command _ _ _ _ _ A E) as [s [body [_ [_ [_ [_ [tail [[digits [-> [F _]]] _]]]]]]]].
  exists digits. split; [reflexivity|]. intros I. rewrite Forall_forall in F. specialize (F _ I). unfold hex_char in F. lia.
Qed.
Lemma eventful_tells w : eventful w -> exists l, tells w l.
Proof. intros [[] [o [src [e [A E]]]]]; eexists; [eapply te_event|eapply te_unchecked]; eassumption. Qed.
Lemma eventful_quiet w : eventful w -> quiet w.
Proof.
  intros [ck [o [src [e [A E]]]]]. destruct (announced_command _ _ _ _ _ A E) as [s [body [_ [_ [_ [_ U]]]]]].
  exact (unit_line_quiet _ _ _ _ U).
Qed.
Lemma announces_classified ck o w : announces ck o w -> classified w.
Proof.
  intros A. assert (K := A). destruct A as [| |c rest ok C|ok|src ga w G U|src ga w G U|src ga w G U|src ga sec d rate level w G L R Q U].
  - left. eexists. constructor.
  - left. eexists. constructor.
  - left. eexists. now constructor.
  - right. destruct ok; (split; [eexists; eexists; split; [reflexivity|unfold is_code; lia]|]);
      (split; [intros [I|[]]; lia|]); (eexists; split; [now left|unfold hex_char; lia]).
  - left. apply eventful_tells. exists ck. eexists. eexists. eexists. split; [exact K|constructor].
  - left. apply eventful_tells. exists ck. eexists. eexists. eexists. split; [exact K|constructor].
  - left. apply eventful_tells. exists ck. eexists. eexists. eexists. split; [exact K|constructor].
  - left. apply eventful_tells. exists ck. eexists. eexists. eexists. split; [exact K|]. eapply ev_ramp; exact R.
Qed.
Lemma classified_one b w : classified w -> exists b' l, hears_one b w b' l.
Proof.
  intros [[l T]|S].
  - destruct b; [exists true, l; now constructor|]. assert (K := T). destruct T as [c ok C| | |o src e w A E|o src e w A E].
    + exists false, []. apply ho_lost. unfold is_code in C. destruct ok; intros [I|[I|[]]]; lia.
    + exists true, []. apply (ho_regained [33]). intros [I|[]]; lia.
    + exists true, []. apply (ho_regained [43; 43]). intros [I|[I|[]]]; lia.
    + destruct (eventful_line w) as [d [-> N]]; [exists true, o, src, e; auto|]. exists true, []. now apply ho_regained.
    + destruct (eventful_line w) as [d [-> N]]; [exists false, o, src, e; auto|]. exists true, []. now apply ho_regained.
  - destruct b; [exists false, []; now constructor|]. exists false, []. apply ho_lost. apply S.
Qed.
Lemma classified_hears ws : Forall classified ws -> forall b, exists b' l, hears b ws b' l.
Proof.
  induction 1 as [|w ws C F IH]; intros b; [exists b, []; constructor|].
  destruct (classified_one b w C) as [b1 [l1 H1]]. destruct (IH b1) as [b2 [l2 H2]].
  exists b2, (l1 ++ l2). eapply hears_cons; eauto.
Qed.
Lemma classified_nonempty w : classified w -> w <> [].
Proof.
  intros [[l T]|[[b [w' [-> _]]] _]]; [|discriminate]. intros ->.
  inversion T as [| | |o src e w A E|o src e w A E]; subst;
    (destruct (eventful_line []) as [[|x d] [X _]]; [do 4 eexists; eauto|discriminate X|discriminate X]).
Qed.
Lemma classified_empty ws : Forall classified ws -> concat ws = [] -> ws = [].
Proof.
  destruct 1 as [|w ws C F]; intros E; [reflexivity|]. cbn [concat] in E. apply app_eq_nil in E.
  destruct (classified_nonempty w C). tauto.
Qed.

(** ** What an emulator does with the stream of a client *)

Lemma emits_eventful rnd ck l q d out q' d' : randint_works rnd -> emits rnd ck l q d out q' d' ->
  existsb presence_request l = false -> Forall eventful q -> out = [] /\ Forall eventful q'.
Proof.
  intros R. induction 1 as [q d|s l q d out q' d' K E IH|v l on off q d out q' d' U1 U2 E IH|ga l l0 l1 l2 q d out q' d' K E IH];
    intros P F.
  - auto.
  - cbn [existsb] in P. apply orb_false_iff in P. apply IH; tauto.
  - cbn [existsb presence_request orb] in P. apply IH; [exact P|]. apply Forall_app. split; [exact F|].
    pose proof (R d). pose proof (R (1 + d)%nat). pose proof (R (2 + d)%nat). pose proof (R (3 + d)%nat).
    constructor; [|constructor; [|constructor]].
    + exists ck, (SOpOn (rnd (1 + d)%nat) (rnd d)). eexists. eexists. split; [|constructor].
      constructor; [lia|]. now rewrite Z.mod_small by lia.
    + exists ck, (SOpOff (rnd (3 + d)%nat) (rnd (2 + d)%nat)). eexists. eexists. split; [|constructor].
      constructor; [lia|]. now rewrite Z.mod_small by lia.
  - discriminate P.
Qed.

Lemma plays_classified rnd ps q d msgs acts ps' q' d' : randint_works rnd -> plays rnd ps q d msgs acts ps' q' d' ->
  Forall spoils msgs -> Forall eventful q -> Forall classified (flat_map action_writes acts) /\ Forall eventful q'.
Proof.
  intros R. induction 1 as [ps q d|ps q d m p out q1 d1 msgs acts ps2 q2 d2 D N Rp P IH|ps q d m msgs acts ps2 q2 d2 D P IH];
    intros S F.
  - split; [constructor|exact F].
  - inversion S as [|? ? S1 S2]; subst.
    assert (E : Forall classified (echo_of (latest ps) m)).
    { unfold echo_of. destruct (m_basic (latest ps)); constructor; [now right|constructor]. }
    assert (K : Forall classified out /\ Forall eventful q1).
    { assert (Hq : match p with PktPM _ _ sals => heard sals | _ => [] end = heard (commands_of p)) by (destruct p; reflexivity).
      inversion Rp as [o1 q3 d3 c Em C|o1 q3 d3 Em C]; subst; rewrite Hq in Em;
        destruct (emits_eventful _ _ _ _ _ _ _ _ R Em N F) as [-> Q]; cbn [app].
      - assert (I : is_code c) by (specialize (D []); eapply confirmed_code; [exact D|exact C]).
        split; [|constructor]. constructor; [left; eexists; now apply (te_confirm c true)|].
        eapply Forall_impl; [|exact Q]. intros w X. left. now apply eventful_tells.
      - split; [constructor|exact Q]. }
    destruct K as [K1 K2]. destruct (IH S2 K2) as [I1 I2]. split; [|exact I2].
    cbn [flat_map action_writes]. apply Forall_app. split; [now apply Forall_app|exact I1].
  - inversion S as [|? ? S1 S2]; subst. destruct (IH S2 F) as [I1 I2]. split; [|exact I2].
    cbn [flat_map action_writes]. rewrite app_nil_r. apply Forall_app. split; [|exact I1].
    unfold echo_of. destruct (m_basic (latest ps)); constructor; [now right|constructor].
Qed.

(** The emulator [st] has received [ps] (latest first); of the bytes it has not
    yet understood and those on their way [up], it will make [todo]. *)
Record expects (rnd : nat -> Z) (st : server * bytes) (up : bytes) (ps : list packet) (msgs : list bytes) (todo : list packet) : Prop := {
  ex_live : live (fst st);
  ex_modes : modes_of (fst st) = latest ps;
  ex_script : script ps msgs todo;
  ex_stream : snd st ++ up = concat msgs;
  ex_partial : partial (snd st) msgs;
  ex_spoils : Forall spoils msgs;
  ex_brief : Forall (fun m => (length m <= 47)%nat) msgs;
  ex_queue : Forall eventful (sv_queue (fst st)) }.

Lemma expects_data rnd st d up ps msgs todo st' ev r : randint_works rnd ->
  expects rnd st (d ++ up) ps msgs todo -> (length d <= 210 \/ length (snd st) + length d <= 256)%nat ->
  server_step rnd st (SOpData d) = (st', ev, r) ->
  r = Ok tt /\ exists msgs' p1 p2, todo = p1 ++ p2 /\ expects rnd st' up (rev p1 ++ ps) msgs' p2
    /\ scallbacks ev = flat_map scallbacks_of p1
    /\ filter is_confirmation (swrites ev) = map confirmation (flat_map confirmed p1)
    /\ Forall classified (swrites ev).
Proof.
  intros R [L M S C P F B Q] D E. destruct st as [s buf]. cbn [fst snd] in *.
  destruct (performs_refines rnd s buf (SOpData d) st' ev r ps R L M E) as [acts [ps' [H1 [H2 [H3 [H4 [H5 H6]]]]]]].
  assert (K : (length buf <= 46)%nat).
  { destruct P as [->|[m [ms [t [-> [Nt ->]]]]]]; [cbn; lia|]. inversion B; subst. rewrite app_length in *.
    destruct t; [congruence|cbn [length] in *; lia]. }
  assert (H : handles rnd (mkSession ps (buf ++ d) (sv_queue s) (sv_draws s)) acts r (shows (fst st') ps' (snd st'))).
  { inversion H1; subst; try lia; [assumption| |];
      exfalso; (eapply announces_not_data; [eassumption|reflexivity]) || (eapply declines_not_data; [eassumption|reflexivity]). }
  rewrite app_assoc in C.
  destruct (handles_script _ _ _ _ _ H msgs todo up S C) as [-> [m1 [m2 [p2 [-> [-> [G3 [G4 [G5 G6]]]]]]]]].
  cbn [past pending queued drawn shows] in *.
  split; [reflexivity|]. exists m2, (flat_map action_packet acts), p2. split; [reflexivity|].
  apply Forall_app in F. destruct F as [F1 F2]. apply Forall_app in B. destruct B as [B1 B2].
  destruct (plays_classified _ _ _ _ _ _ _ _ _ R G6 F1 Q) as [X1 X2].
  assert (Qu : Forall quiet (sv_queue s)) by (eapply Forall_impl; [apply eventful_quiet|exact Q]).
  split; [|split; [|split]].
  - constructor; auto; [now rewrite H3, H4|]. now rewrite <- H4.
  - rewrite H6. now rewrite (plays_callbacks _ _ _ _ _ _ _ _ _ G6).
  - rewrite H5. now apply (handles_confirm _ _ _ _ _ H).
  - now rewrite H5.
Qed.

Definition confirms (o : sop) : Prop := match o with SOpConfirm (_ :: _) _ => True | _ => False end.

Lemma expects_call rnd st up ps msgs todo o st' ev r : randint_works rnd ->
  expects rnd st up ps msgs todo -> (forall data, o <> SOpData data) -> server_step rnd st o = (st', ev, r) ->
  expects rnd st' up ps msgs todo /\ scallbacks ev = [] /\ Forall classified (swrites ev)
  /\ (~ confirms o -> filter is_confirmation (swrites ev) = []).
Proof.
  intros R [L M S C P F B Q] N E. destruct st as [s buf]. cbn [fst snd] in *.
  assert (X : server_step rnd (s, buf) o = match s_api o s with (s, ev, r) => ((s, buf), ev, r) end).
  { destruct o; try reflexivity. now destruct (N b). }
  rewrite X in E. destruct (api_calls o s L N) as [[w [A K]]|[e [A K]]]; rewrite K in E; inversion E; subst.
  - split; [constructor; auto; constructor|].
    change (SWrite w :: map SWrite (sv_queue s)) with (map SWrite (w :: sv_queue s)). rewrite swrites_map, scallbacks_map. split; [reflexivity|].
    split.
    + constructor; [exact (announces_classified _ _ _ A)|]. eapply Forall_impl; [|exact Q]. intros x Y. left. now apply eventful_tells.
    + intros NC. cbn [filter]. replace (is_confirmation w) with false.
      * apply filter_quiet. eapply Forall_impl; [apply eventful_quiet|exact Q].
      * symmetry. destruct A; try reflexivity; try (eapply unit_line_quiet; eassumption). destruct NC. exact Logic.I.
  - split; [constructor; auto|]. split; [reflexivity|]. split; [constructor|reflexivity].
Qed.

Lemma expects_more rnd st up ps msgs todo ws pks : expects rnd st up ps msgs todo ->
  speaks (rev todo ++ ps) ws pks -> Forall (fun w => (length w <= 47)%nat) ws ->
  exists msgs', expects rnd st (up ++ concat ws) ps msgs' (todo ++ pks).
Proof.
  intros [L M S C P F B Q] [m2 [E2 [S2 [B2 F2]]]] V. exists (msgs ++ m2). constructor; auto.
  - now apply (script_app _ _ _ S).
  - now rewrite app_assoc, C, concat_app, E2.
  - destruct P as [->|[m [ms [t [-> [Nt Em]]]]]]; [now left|]. right. exists m, (ms ++ m2), t. auto.
  - now apply Forall_app.
  - apply Forall_app. split; [exact B|]. apply Forall_forall. intros m I. rewrite Forall_forall in B2, V.
    destruct (B2 m I) as [w [J K]]. specialize (V w J). cbn beta in V. lia.
Qed.

(** ** Histories of a link *)

(** Steps that are lawful but for the size of a piece, and pieces that do not
    overflow the emulator's buffer. *)
Definition lenient (o : lop) : Prop := match o with Up _ => True | _ => lawful o end.
Definition fits (k : link) (o : lop) : Prop :=
  match o with
  | Up n => (n <= 210 \/ length (snd (k_server k)) + length (firstn n (k_up k)) <= 256)%nat
  | _ => True
  end.
(** The emulator refused no piece. *)
Definition nothing_refused (tr : list seen) : Prop :=
  forall data ev, ~ In (SeenServer (SOpData data) ev (Raise ValueError)) tr.
Lemma lawful_lenient o : lawful o -> lenient o.
Proof. now destruct o. Qed.
Lemma lawful_fits k o : lawful o -> fits k o.
Proof. destruct o; cbn; auto. Qed.
Lemma refused_fits now rnd k o k' x : link_step now rnd k o = (k', x) ->
  (forall data ev, x <> SeenServer (SOpData data) ev (Raise ValueError)) -> fits k o.
Proof.
  intros E N. destruct o as [o|o|n|n]; cbn [fits]; auto. right.
  cbn [link_step] in E. unfold at_server in E. cbn [k_client k_up k_server k_down server_step] in E. unfold data_received in E.
  destruct (Nat.ltb_spec MAX_BUFFER_SIZE (length (firstn n (k_up k)))) as [H1|H1];
    [inversion E; subst; now destruct (N (firstn n (k_up k)) [])|].
  destruct (Nat.ltb_spec MAX_BUFFER_SIZE (length (snd (k_server k)) + length (firstn n (k_up k)))) as [H2|H2];
    [inversion E; subst; now destruct (N (firstn n (k_up k)) [])|].
  unfold MAX_BUFFER_SIZE in H2. lia.
Qed.

Lemma client_run_snoc now ops : forall st st1 tr o st2 ev r, client_run now st ops = (st1, tr) ->
  client_step now st1 o = (st2, ev, r) -> client_run now st (ops ++ [o]) = (st2, tr ++ [(ev, r)]).
Proof.
  induction ops as [|o1 ops IH]; intros st st1 tr o st2 ev r R S; cbn [client_run app] in *.
  - inversion R; subst. now rewrite S.
  - destruct (client_step now st o1) as [[s e] x]. destruct (client_run now s ops) as [s2 t2] eqn:Q. inversion R; subst.
    now rewrite (IH _ _ _ _ _ _ _ Q S).
Qed.
Lemma server_run_snoc rnd ops : forall st st1 tr o st2 ev r, server_run rnd st ops = (st1, tr) ->
  server_step rnd st1 o = (st2, ev, r) -> server_run rnd st (ops ++ [o]) = (st2, tr ++ [(ev, r)]).
Proof.
  induction ops as [|o1 ops IH]; intros st st1 tr o st2 ev r R S; cbn [server_run app] in *.
  - inversion R; subst. now rewrite S.
  - destruct (server_step rnd st o1) as [[s e] x]. destruct (server_run rnd s ops) as [s2 t2] eqn:Q. inversion R; subst.
    now rewrite (IH _ _ _ _ _ _ _ Q S).
Qed.
Lemma asked_snoc now ops : forall st st1 tr pks o st2 ev r p, asked now st ops pks -> client_run now st ops = (st1, tr) ->
  client_step now st1 o = (st2, ev, r) -> asks now (fst st1) (writes ev) o r p -> asked now st (ops ++ [o]) (pks ++ p).
Proof.
  induction ops as [|o1 ops IH]; intros st st1 tr pks o st2 ev r p A R S K; cbn [client_run app] in *.
  - inversion R; subst. inversion A; subst. cbn [app]. rewrite <- (app_nil_r p). eapply asked_call; eauto. constructor.
  - destruct (client_step now st o1) as [[s e] x] eqn:E. destruct (client_run now s ops) as [s2 t2] eqn:Q. inversion R; subst.
    inversion A as [|? ? ? st' ev' r' pk pk' E' K' A']; subst. rewrite E in E'. inversion E'; subst.
    rewrite <- app_assoc. eapply asked_call; eauto.
Qed.

Section Traces.
  Variables now : nat -> clockval.
  Variable rnd : nat -> Z.

  (** The traces of a link are traces of its two ends, and bytes are delivered
      as they were written. *)
  Definition runs (c0 : client) (k : link) (tr : list seen) : Prop :=
    client_run now (c0, []) (client_calls tr) = (k_client k, client_trace tr)
    /\ server_run rnd (new_server, []) (server_calls tr) = (k_server k, server_trace tr)
    /\ concat (writes (effects (client_trace tr))) = concat (chunks_of (server_calls tr)) ++ k_up k
    /\ concat (written (server_trace tr)) = concat (flat_map (fun o => match o with OpData b => [b] | _ => [] end) (client_calls tr)) ++ k_down k.

  Lemma effects_app {E R} (a b : list (list E * res R)) : effects (a ++ b) = effects a ++ effects b.
  Proof. unfold effects. now rewrite flat_map_app. Qed.
  Lemma effects_one {E R} (e : list E) (r : res R) : effects [(e, r)] = e.
  Proof. unfold effects. cbn. apply app_nil_r. Qed.
  Lemma written_snoc tr ev r : written (tr ++ [(ev, r)]) = written tr ++ swrites ev.
  Proof. unfold written. rewrite flat_map_app. cbn. now rewrite app_nil_r. Qed.
  Lemma called_snoc tr ev r : called (tr ++ [(ev, r)]) = called tr ++ scallbacks ev.
  Proof. unfold called. rewrite flat_map_app. cbn. now rewrite app_nil_r. Qed.

  Lemma runs_step c0 k tr o k' x : runs c0 k tr ->
    (forall b, o <> AtClient (OpData b)) -> (forall b, o <> AtServer (SOpData b)) ->
    link_step now rnd k o = (k', x) -> runs c0 k' (tr ++ [x]).
  Proof.
    intros [A [B [C D]]] N1 N2 E. unfold runs, client_calls, client_trace, server_calls, server_trace, chunks_of in *.
    rewrite !flat_map_app.
    destruct o as [o|o|n|n]; cbn [link_step] in E.
    - unfold at_client in E. destruct (client_step now (k_client k) o) as [[st ev] r] eqn:S. inversion E; subst.
      cbn [flat_map app k_client k_up k_server k_down]. rewrite !app_nil_r.
      split; [eapply client_run_snoc; eauto|]. split; [exact B|].
      split; [rewrite effects_app, effects_one, writes_app, concat_app, C, <- app_assoc; reflexivity|].
      destruct o; cbn [app]; rewrite ?app_nil_r; try exact D. now destruct (N1 b).
    - unfold at_server in E. destruct (server_step rnd (k_server k) o) as [[st ev] r] eqn:S. inversion E; subst.
      cbn [flat_map app k_client k_up k_server k_down]. rewrite !app_nil_r.
      split; [exact A|]. split; [eapply server_run_snoc; eauto|].
      split; [|rewrite written_snoc, concat_app, D, <- app_assoc; reflexivity].
      destruct o; cbn [app]; rewrite ?app_nil_r; try exact C. now destruct (N2 b).
    - unfold at_server in E. cbn [k_client k_up k_server k_down] in E.
      destruct (server_step rnd (k_server k) _) as [[st ev] r] eqn:S. inversion E; subst.
      cbn [flat_map app k_client k_up k_server k_down]. rewrite !app_nil_r.
      split; [exact A|]. split; [eapply server_run_snoc; eauto|].
      split; [|rewrite written_snoc, concat_app, D, <- app_assoc; reflexivity].
      rewrite concat_app. cbn [concat app]. rewrite app_nil_r, <- app_assoc, firstn_skipn. exact C.
    - unfold at_client in E. cbn [k_client k_up k_server k_down] in E.
      destruct (client_step now (k_client k) _) as [[st ev] r] eqn:S. inversion E; subst.
      cbn [flat_map app k_client k_up k_server k_down]. rewrite !app_nil_r.
      split; [eapply client_run_snoc; eauto|]. split; [exact B|].
      split; [rewrite effects_app, effects_one, writes_app, concat_app, C, <- app_assoc; reflexivity|].
      rewrite concat_app. cbn [concat app]. rewrite app_nil_r, <- app_assoc, firstn_skipn. exact D.
  Qed.

  (** ** Upwards *)

  Definition rises (c0 : client) (k : link) (tr : list seen) : Prop :=
    exists msgs received todo,
      expects rnd (k_server k) (k_up k) (rev received) msgs todo
      /\ counter_ok (fst (k_client k)) /\ aligned (fst (k_client k)) (rev todo ++ rev received)
      /\ asked now (c0, []) (client_calls tr) (received ++ todo)
      /\ called (server_trace tr) = flat_map scallbacks_of received
      /\ (forall data ev r, In (SeenServer (SOpData data) ev r) tr -> r = Ok tt)
      /\ (Forall (fun o => ~ confirms o) (server_calls tr) ->
          filter is_confirmation (written (server_trace tr)) = map confirmation (flat_map confirmed received))
      /\ Forall classified (written (server_trace tr)).

  Hypothesis W : clock_works now.
  Hypothesis RW : randint_works rnd.

  Lemma rises_client c0 k tr o st ev r : runs c0 k tr -> rises c0 k tr -> proper o ->
    client_step now (k_client k) o = (st, ev, r) ->
    forall down, rises c0 (mkLink st (k_up k ++ concat (writes ev)) (k_server k) down) (tr ++ [SeenClient o ev r]).
  Proof.
    intros [U _] [msgs [received [todo [E [I [A [K [C [F [G H]]]]]]]]]] P S down.
    destruct (step_spoken now (k_client k) o st ev r _ W I P A S) as [pks [A1 [S1 [I1 K1]]]].
    assert (B : Forall (fun w => (length w <= 47)%nat) (writes ev)).
    { assert (X : client_run now (k_client k) [o] = (st, [(ev, r)])) by (cbn [client_run]; now rewrite S).
      apply C60_brief in X. rewrite effects_one in X. exact X. }
    destruct (expects_more _ _ _ _ _ _ _ _ E S1 B) as [msgs' E'].
    exists msgs', received, (todo ++ pks). cbn [k_client k_up k_server k_down].
    unfold client_calls, server_trace, server_calls in *. rewrite !flat_map_app. cbn [flat_map app]. rewrite !app_nil_r.
    split; [exact E'|]. split; [exact I1|]. split; [rewrite rev_app_distr, <- app_assoc; exact K1|].
    split; [rewrite app_assoc; eapply asked_snoc; eauto|]. split; [exact C|].
    split; [|auto]. intros data e x J. apply in_app_or in J. destruct J as [J|[J|[]]]; [eauto|discriminate].
  Qed.

  Lemma rises_step c0 k tr o k' x : runs c0 k tr -> rises c0 k tr -> lenient o /\ fits k o \/ o = AtClient OpConnect ->
    link_step now rnd k o = (k', x) -> rises c0 k' (tr ++ [x]).
  Proof.
    intros U V L E. destruct o as [o|o|n|n]; cbn [link_step] in E.
    - assert (P : proper o).
      { destruct L as [[L _]|L]; [|inversion L; subst; split; exact Logic.I]. destruct o; cbn [lenient lawful] in L; tauto. }
      unfold at_client in E. destruct (client_step now (k_client k) o) as [[st ev] r] eqn:S. inversion E; subst.
      eapply rises_client; eauto.
    - destruct L as [[L _]|L]; [|discriminate]. cbn [lenient] in L. unfold at_server in E.
      destruct (server_step rnd (k_server k) o) as [[st ev] r] eqn:S. inversion E; subst.
      destruct V as [msgs [received [todo [Ex [I [A [K [C [F [G H]]]]]]]]]].
      assert (N : forall data, o <> SOpData data) by (intros data ->; exact L).
      destruct (expects_call _ _ _ _ _ _ _ _ _ _ RW Ex N S) as [E1 [E2 [E3 E4]]].
      exists msgs, received, todo. cbn [k_client k_up k_server k_down].
      unfold client_calls, server_trace, server_calls in *. rewrite !flat_map_app. cbn [flat_map app]. rewrite !app_nil_r.
      split; [exact E1|]. split; [exact I|]. split; [exact A|]. split; [exact K|].
      split; [rewrite called_snoc, E2, app_nil_r; exact C|].
      split; [intros data e y J; apply in_app_or in J; destruct J as [J|[J|[]]]; [eauto|inversion J; subst; now destruct (N data)]|].
      rewrite written_snoc. split; [|now apply Forall_app].
      intros NC. apply Forall_app in NC. destruct NC as [NC1 NC2]. inversion NC2; subst.
      rewrite filter_app, E4, app_nil_r by assumption. auto.
    - destruct L as [[_ L]|L]; [|discriminate]. unfold at_server in E. cbn [k_client k_up k_server k_down fits] in *.
      destruct (server_step rnd (k_server k) _) as [[st ev] r] eqn:S. inversion E; subst.
      destruct V as [msgs [received [todo [Ex [I [A [K [C [F [G H]]]]]]]]]].
      rewrite <- (firstn_skipn n (k_up k)) in Ex.
      assert (D : (length (firstn n (k_up k)) <= 210 \/ length (snd (k_server k)) + length (firstn n (k_up k)) <= 256)%nat)
        by (destruct L as [L|L]; [left; rewrite firstn_length; lia|right; exact L]).
      destruct (expects_data _ _ _ _ _ _ _ _ _ _ RW Ex D S) as [-> [msgs' [p1 [p2 [-> [E1 [E2 [E3 E4]]]]]]]].
      exists msgs', (received ++ p1), p2. cbn [k_client k_up k_server k_down].
      unfold client_calls, server_trace, server_calls in *. rewrite !flat_map_app. cbn [flat_map app]. rewrite !app_nil_r.
      rewrite rev_app_distr in A |- *. split; [exact E1|]. split; [exact I|]. split; [rewrite <- app_assoc in A; exact A|].
      split; [rewrite <- app_assoc; exact K|].
      split; [rewrite called_snoc, E2, C; reflexivity|].
      split; [intros data e y J; apply in_app_or in J; destruct J as [J|[J|[]]]; [eauto|inversion J; subst; reflexivity]|].
      rewrite written_snoc. split; [|now apply Forall_app].
      intros NC. apply Forall_app in NC. destruct NC as [NC1 _].
      rewrite filter_app, E3, map_app, G by exact NC1. reflexivity.
    - unfold at_client in E. cbn [k_client k_up k_server k_down] in E.
      destruct (client_step now (k_client k) _) as [[st ev] r] eqn:S. inversion E; subst.
      eapply (rises_client c0 k); eauto. split; exact Logic.I.
  Qed.

  (** ** Downwards *)

  Lemma sends_silently p b : keeps (fun c ev c' => callbacks ev = [] /\ cl_transport c' = cl_transport c) (send p true b).
  Proof.
    intros c c' ev r E. unfold send in E. destruct (negb (cl_transport c)); [inversion E; auto|].
    destruct (negb (is_base_packet p)); [inversion E; auto|].
    destruct (encode_packet p) as [w|e]; [|inversion E; auto]. cbn [andb] in E.
    destruct (negb (is_special_client p)).
    - unfold mbind, get_confirmation_code in E. destruct (nth_error CONFIRMATION_CODES (cl_index c)); inversion E; auto.
    - inversion E; auto.
  Qed.
  Lemma calls_silently o c c' ev r : api now o c = (c', ev, r) ->
    match o with OpConnect | OpLost => False | _ => True end -> callbacks ev = [] /\ cl_transport c' = cl_transport c.
  Proof.
    set (Q := fun (c : client) (ev : list cev) (c' : client) => callbacks ev = [] /\ cl_transport c' = cl_transport c).
    assert (Q1 : forall c, Q c [] c) by (intros; split; reflexivity).
    assert (Q2 : forall c e1 c1 e2 c2, Q c e1 c1 -> Q c1 e2 c2 -> Q c (e1 ++ e2) c2).
    { intros x e1 x1 e2 x2 [A1 A2] [B1 B2]. split; [now rewrite callbacks_app, A1, B1|congruence]. }
    assert (Q3 : forall c n, Q c [] (set_reads c n)) by (intros; split; reflexivity).
    assert (Q4 : forall p b, sendable p -> keeps Q (send p true b)) by (intros; apply sends_silently).
    intros E L. change (Q c ev c'). destruct o; try contradiction; cbn [api] in E.
    - eapply keeps_ret; eauto.
    - eapply keeps_groups; eauto.
    - eapply keeps_groups; eauto.
    - eapply keeps_groups; eauto.
    - eapply keeps_ramp; eauto.
    - eapply keeps_identify; eauto.
    - eapply keeps_clock; eauto.
    - revert E. apply keeps_seq; auto; [now apply keeps_reset|now apply keeps_ret].
    - revert E. apply keeps_seq; auto; [|now apply keeps_ret]. clear c c' ev r L. intros c c' ev r E. unfold timesync_step in E.
      destruct (Nat.eqb (cl_tasks c) 0); [inversion E; apply Q1|].
      destruct (cl_frequency c <=? 0); [inversion E; split; reflexivity|].
      destruct (clock_datetime now None c) as [[c1 e1] [y|y]] eqn:X;
        (assert (K : Q c e1 c1) by (eapply keeps_clock; eauto); inversion E; subst; exact K).
  Qed.

  Definition falls (k : link) (tr : list seen) : Prop :=
    exists b rest, hears true (written (server_trace tr)) b (callbacks (effects (client_trace tr)) ++ rest)
      /\ stand now b (snd (k_client k) ++ k_down k) rest /\ (k_down k = [] -> rest = [])
      /\ cl_transport (fst (k_client k)) = true.

  Lemma falls_server c0 k tr o st ev r up : falls k tr -> rises c0 (mkLink (k_client k) up st (k_down k ++ concat (swrites ev))) (tr ++ [SeenServer o ev r]) ->
    falls (mkLink (k_client k) up st (k_down k ++ concat (swrites ev))) (tr ++ [SeenServer o ev r]).
  Proof.
    intros [b [rest [H [S [Z T]]]]] [_ [_ [_ [_ [_ [_ [_ [_ [_ [_ V]]]]]]]]]].
    unfold falls, client_trace, server_trace in *. rewrite !flat_map_app in *. cbn [flat_map app k_client k_down] in *.
    rewrite app_nil_r. rewrite written_snoc in *. apply Forall_app in V. destruct V as [_ V].
    destruct (classified_hears _ V b) as [b' [l L]]. exists b', (rest ++ l).
    split; [rewrite app_assoc; now apply (hears_app _ _ _ _ H)|].
    split; [rewrite app_assoc; now apply stand_hears with b|]. split; [|exact T].
    intros X. apply app_eq_nil in X. destruct X as [X1 X2]. rewrite (Z X1). apply classified_empty in X2; [|exact V].
    rewrite X2 in L. inversion L; subst. reflexivity.
  Qed.

  Lemma falls_step c0 k tr o k' x : falls k tr -> rises c0 k tr -> rises c0 k' (tr ++ [x]) -> lenient o ->
    nothing_dropped (tr ++ [x]) -> link_step now rnd k o = (k', x) -> falls k' (tr ++ [x]).
  Proof.
    intros V R0 R1 L N E. destruct o as [o|o|n|n]; cbn [link_step] in E.
    - unfold at_client in E. destruct (client_step now (k_client k) o) as [[st ev] r] eqn:S. inversion E; subst.
      assert (K : exists c1, api now o (fst (k_client k)) = (c1, ev, r) /\ st = (c1, snd (k_client k))).
      { destruct o; cbn [lenient lawful] in L; try contradiction; cbn [client_step] in S;
          destruct (api now _ (fst (k_client k))) as [[c1 e1] r1]; inversion S; subst; eauto. }
      destruct K as [c1 [A ->]]. apply calls_silently in A; [|destruct o; cbn [lenient lawful] in L; tauto]. destruct A as [A1 A2].
      destruct V as [b [rest [H [S2 [Z T]]]]]. exists b, rest.
      unfold client_trace, server_trace in *. rewrite !flat_map_app in *. cbn [flat_map app k_client k_down fst snd] in *.
      rewrite app_nil_r, effects_app, effects_one, callbacks_app, A1, app_nil_r. rewrite A2. auto.
    - unfold at_server in E. destruct (server_step rnd (k_server k) o) as [[st ev] r] eqn:S. inversion E; subst.
      eapply falls_server; eauto.
    - unfold at_server in E. cbn [k_client k_up k_server k_down] in E.
      destruct (server_step rnd (k_server k) _) as [[st ev] r] eqn:S. inversion E; subst.
      eapply falls_server; eauto.
    - unfold at_client in E. cbn [k_client k_up k_server k_down] in E.
      destruct (client_step now (k_client k) _) as [[st ev] r] eqn:S. inversion E; subst.
      destruct V as [b [rest [H [S2 [Z T]]]]]. destruct R0 as [_ [_ [_ [_ [I _]]]]].
      set (c := fst (k_client k)) in *. set (buf := snd (k_client k)) in *. set (d := firstn n (k_down k)) in *.
      cbn [client_step] in S. fold c buf in S.
      assert (O : r <> Raise ValueError).
      { intros ->. apply (N d ev). apply in_or_app. right. now left. }
      unfold data_received in S.
      destruct (Nat.ltb MAX_BUFFER_SIZE (length d)); [inversion S; congruence|].
      destruct (Nat.ltb MAX_BUFFER_SIZE (length buf + length d)); [inversion S; congruence|].
      assert (Q : (buf ++ d) ++ skipn n (k_down k) = buf ++ k_down k) by (unfold d; rewrite <- app_assoc, firstn_skipn; reflexivity).
      destruct (stand_piece now b _ _ S2 (buf ++ d) _ c (conj T I) Q) as [calls [c' [x' [evs [ev' [P [Rd [S3 [-> F]]]]]]]]].
      apply processes_buffer in P. rewrite P in S. inversion S; subst.
      exists b, ev'. unfold client_trace, server_trace in *. rewrite !flat_map_app in *. cbn [flat_map app k_client k_down fst snd] in *.
      rewrite app_nil_r, effects_app, effects_one, callbacks_app, <- app_assoc. split; [exact H|].
      split; [exact S3|]. split; [exact F|]. apply Rd.
  Qed.

  (** A piece that does not overflow the client's buffer is taken. *)
  Lemma falls_fine c0 k tr d later : falls k tr -> rises c0 k tr -> k_down k = d ++ later ->
    (length (snd (k_client k)) + length d <= 256)%nat ->
    exists st ev, client_step now (k_client k) (OpData d) = (st, ev, Ok None).
  Proof.
    intros [b [rest [H [S2 [Z T]]]]] [_ [_ [_ [_ [I _]]]]] D L.
    cbn [client_step]. unfold data_received, MAX_BUFFER_SIZE.
    destruct (Nat.ltb_spec 256 (length d)) as [H1|H1]; [lia|].
    destruct (Nat.ltb_spec 256 (length (snd (k_client k)) + length d)) as [H2|H2]; [lia|].
    assert (Q : (snd (k_client k) ++ d) ++ later = snd (k_client k) ++ k_down k) by (rewrite D, <- app_assoc; reflexivity).
    destruct (stand_piece now b _ _ S2 (snd (k_client k) ++ d) _ (fst (k_client k)) (conj T I) Q) as [calls [c' [x' [evs [ev' [P _]]]]]].
    apply processes_buffer in P. rewrite P. eauto.
  Qed.
End Traces.
