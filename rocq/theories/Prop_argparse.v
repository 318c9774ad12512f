(** C84, C85: the command lines of the programs beside the daemon. *)
From Coq Require Import List ZArith Bool String Lia.
From Verif Require Import Py Text Project Cbz Toolkit Spec_mqtt Mqtt_facts Startup Prop_startup Cmdline Tools Argparse
  Spec_argparse Argparse_facts.
Import ListNotations.
Open Scope Z_scope.

(** ** What any line does with a required positional argument *)

Definition of_options (p : parser) (e : event) : Prop := match e with Took d _ => In d (map snd (p_options p)) end.
Lemma lookup_dest w l d : lookup w l = Some d -> In d (map snd l).
Proof.
  induction l as [|[n x] l IH]; cbn; [discriminate|]. destruct (text_eqb n w); [intros E; inversion E; auto|auto].
Qed.
Definition dests (r : bundle) : list text :=
  match r with Bundle fl last _ => fl ++ [last] | LooseBundle fl => fl | BadBundle => [] end.
Lemma dests_add p d r : (forall x, In x (dests r) -> In x (map snd (p_options p))) -> In d (map snd (p_options p)) ->
  forall x, In x (dests (add_flag d r)) -> In x (map snd (p_options p)).
Proof. intros A B x. destruct r; cbn; auto; intros [<-|H]; auto. Qed.
Lemma unbundle_dests p m : forall x d long sep, (List.length x <= m)%nat -> In d (map snd (p_options p)) ->
  forall y, In y (dests (unbundle p d long sep x)) -> In y (map snd (p_options p)).
Proof.
  assert (one : forall d, In d (map snd (p_options p)) -> forall y, In y [d] -> In y (map snd (p_options p)))
    by (intros d D y [<-|[]]; exact D).
  induction m as [|m IH]; intros x d long sep L D y.
  - destruct x; [|cbn in L; lia]. cbn [unbundle]. destruct (flag_of p d); [destruct long; intros []|apply one; exact D].
  - destruct x as [|c x]; [apply IH; [cbn; lia|exact D]|]. cbn [unbundle].
    destruct (flag_of p d); [|apply one; exact D]. destruct long; [intros []|].
    destruct (sep || (c =? 45))%bool; [intros []|].
    destruct (lookup [45; c] (p_options p)) as [d'|] eqn:F; [|apply one; exact D].
    pose proof (lookup_dest _ _ _ F) as D'. cbn in L. revert y. apply dests_add; [|exact D].
    destruct x as [|e x]; [apply one; exact D'|]. destruct (e =? 61); intros y; apply IH; auto; cbn in *; lia.
Qed.
Lemma bundle_dests p d name sep x : In d (map snd (p_options p)) ->
  forall y, In y (dests (bundle_of p d name sep x)) -> In y (map snd (p_options p)).
Proof.
  intros D y. destruct x as [x|]; cbn [bundle_of].
  - apply (unbundle_dests p (List.length x)); [lia|exact D].
  - intros [<-|[]]. exact D.
Qed.
Lemma raised_options p l : (forall y, In y l -> In y (map snd (p_options p))) -> Forall (of_options p) (raised l).
Proof. intros H. apply Forall_forall. intros e I. apply in_map_iff in I. destruct I as (d & <- & I). apply H, I. Qed.

(** Words as the first loop of the parser leaves them. *)
Definition proper (p : parser) (l : list (text * letter)) : Prop :=
  Forall (fun e => forall d name sep x, snd e = LOption (Some d) name sep x -> In d (map snd (p_options p))) l.
Inductive fresh (p : parser) : list (text * letter) -> Prop :=
| fresh_nil : fresh p []
| fresh_word w k l : w <> txt "--" -> k <> LSeparator -> fresh p l -> fresh p ((w, k) :: l)
| fresh_rest ws : fresh p ((txt "--", LSeparator) :: map (fun w => (w, LArg)) ws).
Lemma meant_dests p w d n b e : In (d, n, b, e) (meant p w) -> In d (map snd (p_options p)).
Proof.
  assert (F : forall f sp ex, In (d, n, b, e) (map (fun e : text * text => (snd e, fst e, sp, ex)) (filter f (p_options p))) ->
              In d (map snd (p_options p))).
  { intros f sp ex H. apply in_map_iff in H. destruct H as ([x y] & E & I). apply filter_In in I. cbn in E.
    inversion E; subst. apply in_map_iff. exists (n, d). split; [reflexivity|apply I]. }
  unfold meant. destruct w as [|a w]; [intros []|]. destruct (Z.eq_dec a 45) as [->|N].
  - destruct w as [|c w]; [intros []|]. destruct (Z.eq_dec c 45) as [->|N].
    + destruct (split_equals (45 :: 45 :: w)) as [[x y]|]; apply F.
    + rewrite not_dash by exact N. apply F.
  - rewrite not_dash by exact N. intros [].
Qed.
Lemma letter_proper p u w k : letter_of p u w = Some k ->
  k <> LSeparator /\ forall d name sep x, k = LOption (Some d) name sep x -> In d (map snd (p_options p)).
Proof.
  intros E. unfold letter_of in E. destruct w as [|c rest]; [inversion E; subst; split; intros; discriminate|].
  destruct (negb (c =? 45)); [inversion E; subst; split; intros; discriminate|].
  destruct (lookup (c :: rest) (p_options p)) as [d|] eqn:L.
  { inversion E; subst. split; [discriminate|]. intros d' name sep x H. inversion H; subst. apply (lookup_dest _ _ _ L). }
  destruct rest as [|a rest]; [inversion E; subst; split; intros; discriminate|].
  set (w := c :: a :: rest) in *.
  assert (M : match meant p w with
              | [(d, name, sep, explicit)] => Some (LOption (Some d) name sep explicit)
              | _ :: _ :: _ => None
              | [] => if negative_number u w then Some LArg else if mem 32 w then Some LArg else Some (LOption None w false None)
              end = Some k -> k <> LSeparator /\ forall d name sep x, k = LOption (Some d) name sep x -> In d (map snd (p_options p))).
  { clear E. intros E. destruct (meant p w) as [|[[[d n] b] e] [|]] eqn:K; [| |discriminate].
    - destruct (negative_number u w); [inversion E; subst; split; intros; discriminate|].
      destruct (mem 32 w); inversion E; subst; split; intros; discriminate.
    - inversion E; subst. split; [discriminate|]. intros d' name sep x H. inversion H; subst.
      apply (meant_dests p w d' name sep x). rewrite K. left. reflexivity. }
  destruct (split_equals w) as [[x y]|]; [|auto].
  destruct (lookup x (p_options p)) as [d|] eqn:Lx; [|auto].
  inversion E; subst. split; [discriminate|]. intros d' name sep z H. inversion H; subst. apply (lookup_dest _ _ _ Lx).
Qed.
Lemma letters_fresh p u ws : forall l, letters p u ws = Some l -> fresh p l /\ proper p l.
Proof.
  induction ws as [|w ws IH]; intros l E; cbn [letters] in E.
  - inversion E; subst. split; constructor.
  - destruct (text_eqb w (txt "--")) eqn:D.
    + apply text_eqb_eq in D. subst w. inversion E; subst. split; [apply fresh_rest|].
      apply Forall_cons; [intros; discriminate|]. apply Forall_forall. intros e I.
      apply in_map_iff in I. destruct I as (x & <- & _). intros; discriminate.
    + destruct (letter_of p u w) as [k|] eqn:K; [|discriminate].
      destruct (letters p u ws) as [l'|]; [|discriminate]. inversion E; subst.
      destruct (IH l' eq_refl) as (A & B). destruct (letter_proper p u w k K) as (N & O).
      apply text_eqb_neq in D. split; [constructor; assumption|apply Forall_cons; assumption].
Qed.

Lemma options_app p a b : Forall (of_options p) a -> Forall (of_options p) b -> Forall (of_options p) (a ++ b).
Proof. intros. apply Forall_app. auto. Qed.
(** Without positional arguments left, only options are taken. *)
Lemma scan_options p l : proper p l -> forall skip ex, Forall (of_options p) (fst (scan p [] skip l ex)).
Proof.
  induction 1 as [|[w k] l K _ IH]; intros skip ex; [constructor|].
  destruct skip as [|skip]; [|apply IH]. cbn [scan].
  destruct k as [| |[d|] name sep x].
  - cbn [fill]. rewrite Nat.sub_diag. apply IH.
  - cbn [fill]. rewrite Nat.sub_diag. apply IH.
  - pose proof (bundle_dests p d name sep x (K _ _ _ _ eq_refl)) as D.
    destruct (bundle_of p d name sep x) as [fl last e|fl|]; cbn [dests] in D.
    + destruct (flag_of p last).
      * apply options_app; [apply raised_options; exact D|apply IH].
      * assert (T : forall v, Forall (of_options p) (raised fl ++ [Took last [v]])).
        { intros v. apply options_app; [apply raised_options; intros y I; apply D, in_or_app; auto|].
          apply Forall_cons; [apply D, in_or_app; right; left; reflexivity|constructor]. }
        destruct e as [v|]; [apply options_app; [apply T|apply IH]|].
        destruct l as [|[v [| |]] l]; try constructor. apply options_app; [apply T|apply (IH 1%nat)].
    + apply options_app; [apply raised_options; exact D|apply IH].
    + constructor.
  - apply IH.
Qed.

Lemma no_dashes_args l : dashes (map (fun w : text => (w, LArg)) l) = ([], map (fun w => (w, LArg)) l).
Proof. destruct l; reflexivity. Qed.

(** The positional argument takes exactly one word. *)
Lemma scan_one p d l : forall evs ex' left, proper p l -> forall skip ex,
  (skip = O /\ fresh p l) \/ (skip = 1%nat /\ exists v l', l = (v, LArg) :: l' /\ fresh p l') ->
  scan p [(d, One)] skip l ex = (evs, LineDone ex' left) ->
  existsb (fun q : text * nargs => match snd q with One => true | Maybe => false end) left = false ->
  exists a v b, evs = a ++ Took d [v] :: b /\ Forall (of_options p) a /\ Forall (of_options p) b.
Proof.
  assert (P : forall e r evs0 ex' left, Forall (of_options p) e ->
     (forall evs, r = (evs, LineDone ex' left) -> exists a v b, evs = a ++ Took d [v] :: b /\ Forall (of_options p) a /\ Forall (of_options p) b) ->
     prefixed e r = (evs0, LineDone ex' left) ->
     exists a v b, evs0 = a ++ Took d [v] :: b /\ Forall (of_options p) a /\ Forall (of_options p) b).
  { intros e [r1 r2] evs0 ex' left O H E. unfold prefixed in E. cbn [fst snd] in E. inversion E; subst.
    destruct (H _ eq_refl) as (a & v & b & -> & A & B). exists (e ++ a), v, b. rewrite app_assoc.
    split; [reflexivity|]. split; [apply options_app; assumption|exact B]. }
  induction l as [|[w k] l IH]; intros evs ex' left Pr skip ex F E N.
  - cbn in E. inversion E; subst. cbn in N. discriminate.
  - inversion Pr as [|? ? Pk Pl]; subst.
    destruct F as [[-> F]|[-> (v0 & l0 & El & F)]].
    2: { inversion El; subst. cbn [scan] in E. eapply (IH evs ex' left Pl O ex); eauto. }
    destruct k as [| |[o|] name sep x].
    + (* an argument *)
      inversion F as [|? ? ? Nw _ Fl|]; subst. cbn [scan fill] in E. unfold match_one in E. cbn [dashes] in E.
      assert (Q : exists b l2, dashes l = (b, l2) /\ remove_dashes (w :: b) = [w]
                  /\ proper p l2 /\ (List.length l2 <= List.length l)%nat).
      { apply text_eqb_neq in Nw. inversion Fl as [|w' k' l' Nw' Nk Fl'|ws]; subst.
        - exists [], []. split; [reflexivity|]. split; [cbn [remove_dashes]; rewrite Nw; reflexivity|]. split; [constructor|cbn; lia].
        - exists [], ((w', k') :: l'). split; [destruct k'; try contradiction; reflexivity|].
          split; [cbn [remove_dashes]; rewrite Nw; reflexivity|]. split; [exact Pl|lia].
        - exists [txt "--"], (map (fun w => (w, LArg)) ws). cbn [dashes]. rewrite no_dashes_args.
          split; [reflexivity|]. split; [cbn [remove_dashes]; rewrite Nw; reflexivity|]. inversion Pl; subst. split; [assumption|apply Nat.le_succ_diag_r]. }
      destruct Q as (b & l2 & Ed & Er & P2 & L2). rewrite Ed in E. cbn [fill app] in E. rewrite Er in E.
      destruct (List.length ((w, LArg) :: l) - List.length l2)%nat as [|t] eqn:T; [cbn [List.length] in T; lia|].
      pose proof (scan_options p l Pl t ex) as O.
      destruct (scan p [] t l ex) as [evs1 e1]. unfold prefixed in E. cbn [fst snd] in E, O. inversion E; subst.
      exists [], w, evs1. split; [reflexivity|]. split; [constructor|exact O].
    + (* the separator *)
      inversion F as [|? ? ? ? Nk|ws]; subst; [contradiction|].
      cbn [scan fill] in E. unfold match_one in E. cbn [dashes] in E. rewrite no_dashes_args in E.
      destruct ws as [|v ws]; cbn [map] in E.
      * cbn in E. inversion E; subst. discriminate.
      * rewrite no_dashes_args in E. cbn [fill app] in E.
        change (remove_dashes [txt "--"; v]) with [v] in E.
        match type of E with (match (?A - ?B)%nat with _ => _ end) = _ => destruct (A - B)%nat as [|t] eqn:T end;
          [cbn [List.length map] in T; lia|].
        pose proof (scan_options p _ Pl t ex) as O. cbn [map] in O.
        match type of E with prefixed _ ?r = _ => destruct r as [evs1 e1] end.
        unfold prefixed in E. cbn [fst snd] in E, O. inversion E; subst.
        exists [], v, evs1. split; [reflexivity|]. split; [constructor|exact O].
    + (* an option *)
      inversion F as [|? ? ? Nw Nk Fl|]; subst. cbn [scan] in E.
      pose proof (bundle_dests p o name sep x (Pk _ _ _ _ eq_refl)) as D.
      destruct (bundle_of p o name sep x) as [fl last e|fl|]; cbn [dests] in D; [| |discriminate].
      * destruct (flag_of p last).
        -- eapply P; [apply raised_options; exact D| |exact E]. intros evs1 E1.
           eapply (IH evs1 ex' left Pl O ex); eauto.
        -- assert (T : forall v, Forall (of_options p) (raised fl ++ [Took last [v]])).
           { intros v. apply options_app; [apply raised_options; intros y I; apply D, in_or_app; auto|].
             apply Forall_cons; [apply D, in_or_app; right; left; reflexivity|constructor]. }
           destruct e as [v|].
           ++ eapply P; [apply T| |exact E]. intros evs1 E1. eapply (IH evs1 ex' left Pl O ex); eauto.
           ++ destruct l as [|[v [| |]] l]; try discriminate.
              eapply P; [apply T| |exact E]. intros evs1 E1.
              eapply (IH evs1 ex' left Pl 1%nat ex); eauto. right. split; [reflexivity|]. exists v, l.
              split; [reflexivity|]. inversion Fl; assumption.
      * eapply P; [apply raised_options; exact D| |exact E]. intros evs1 E1.
        eapply (IH evs1 ex' left Pl O true); eauto.
    + (* an unknown option *)
      inversion F as [|? ? ? Nw Nk Fl|]; subst. cbn [scan] in E. eapply (IH evs ex' left Pl O true); eauto.
Qed.

(** When the program starts, the positional argument was taken once, with one word. *)
Lemma started {S A : Type} p u step (s0 : S) (finish : S -> option A) d ws r :
  p_positionals p = [(d, One)] -> parse_line p u step s0 finish ws = Starts r ->
  exists a v b s, act_on step (a ++ Took d [v] :: b) s0 = Starts s /\ finish s = Some r
    /\ Forall (of_options p) a /\ Forall (of_options p) b.
Proof.
  intros P E. unfold parse_line in E. destruct (letters p u ws) as [l|] eqn:L; [|discriminate].
  destruct (letters_fresh p u ws l L) as (F & Pr). rewrite P in E.
  destruct (scan p [(d, One)] 0 l false) as [evs e] eqn:Sc.
  destruct (act_on step evs s0) as [s| |] eqn:Ac; try discriminate. destruct e as [|ex left]; [discriminate|].
  destruct ex; [discriminate|]. cbn [orb] in E. destruct (existsb _ left) eqn:N; [discriminate|].
  destruct (finish s) as [x|] eqn:Fi; [|discriminate]. inversion E; subst.
  destruct (scan_one p d l evs false left Pr O false (or_introl (conj eq_refl F)) Sc N) as (a & v & b & -> & A1 & A2).
  exists a, v, b, s. auto.
Qed.
Lemma act_on_app {S : Type} (step : S -> text -> list text -> option S) a : forall b s,
  act_on step (a ++ b) s = match act_on step a s with Starts s' => act_on step b s' | r => r end.
Proof.
  induction a as [|[d args] a IH]; intros b s; [reflexivity|]. cbn [app act_on].
  destruct (text_eqb d (txt "help")); [reflexivity|]. destruct (step s d args); [apply IH|reflexivity].
Qed.

(** ** C84 *)

(** Whatever the words, decode_packet never gets to decode anything: it shows the
    help or refuses the command line. *)
Theorem C84_never u ws : decode_line u ws = Refuses \/ decode_line u ws = Helps.
Proof.
  destruct (decode_line u ws) as [r| |] eqn:E; auto. exfalso.
  destruct (started decode_parser u _ _ _ (txt "packet") ws r eq_refl E) as (a & v & b & s & Ac & _).
  rewrite act_on_app in Ac. destruct (act_on decode_step a _) as [[pk ck st sv]| |]; try discriminate.
Qed.
Print Assumptions C84_never.
(** A packet with any options is refused. *)
Theorem C84_packet u is ws : usual decode_manual is ws -> decode_line u ws = Refuses.
Proof.
  intros U. destruct (C84_never u ws) as [H|H]; [exact H|]. exfalso.
  unfold decode_line in H. rewrite (parse_usual decode_parser decode_manual u decode_step _ _ (txt "packet") is ws eq_refl eq_refl eq_refl U) in H.
  destruct (plain_words is) as [|w [|]]; try discriminate.
  destruct (act_on decode_step _ _); discriminate.
Qed.
Print Assumptions C84_packet.

(** ** C85 *)

(** Whatever the words: the programs that need a file or directory start only with
    one; none of them fails for want of it later. *)
Lemma options_not p d : existsb (text_eqb d) (map snd (p_options p)) = false -> forall e, of_options p e ->
  match e with Took x _ => text_eqb x d = false end.
Proof.
  intros N [x args] O. cbn in O. destruct (text_eqb x d) eqn:E; [|reflexivity]. apply text_eqb_eq in E. subst x.
  assert (T : existsb (text_eqb d) (map snd (p_options p)) = true); [|congruence].
  apply existsb_exists. exists d. split; [exact O|apply same_text].
Qed.
Theorem C85_named_dump u ws r : dump_line u ws = Starts r -> exists o, r = Ok o.
Proof.
  intros E. destruct (started dump_parser u _ _ _ (txt "input") ws r eq_refl E) as (a & v & b & s & Ac & Fi & _ & B).
  rewrite act_on_app in Ac. destruct (act_on (dump_step u) a _) as [[[i o] n]| |]; try discriminate.
  change (act_on (dump_step u) b ([v], o, n) = Starts s) in Ac.
  assert (H : exists o' n', s = ([v], o', n')).
  { clear - Ac B. revert o n Ac. induction B as [|[d args] b O _ IH]; intros o n Ac.
    - inversion Ac. eauto.
    - cbn [act_on] in Ac. destruct (text_eqb d (txt "help")); [discriminate|].
      unfold dump_step in Ac at 1.
      rewrite (options_not dump_parser (txt "input") eq_refl _ O) in Ac.
      destruct args as [|x [|]]; try discriminate. destruct (text_eqb d (txt "output")); [eapply IH; exact Ac|].
      destruct (text_eqb d (txt "pretty")); [|discriminate]. destruct (py_int_of_text u x); [eapply IH; exact Ac|discriminate]. }
  destruct H as (o' & n' & ->). cbn in Fi. inversion Fi. eauto.
Qed.
Print Assumptions C85_named_dump.
Theorem C85_named_graph u stdin d ws r : graph_line u stdin d ws = Starts r -> exists b out, r = Ok (b, out).
Proof.
  intros E. destruct (started graph_parser u _ _ _ (txt "input") ws r eq_refl E) as (a & v & b & s & Ac & Fi & _ & B).
  rewrite act_on_app in Ac. destruct (act_on (graph_step stdin d) a _) as [[i o]| |]; try discriminate.
  cbn [act_on] in Ac. change (text_eqb (txt "input") (txt "help")) with false in Ac. cbv iota in Ac.
  destruct (graph_step stdin d (i, o) (txt "input") [v]) as [[i1 o1]|] eqn:G; [|discriminate].
  assert (G1 : exists c, i1 = [c] /\ o1 = o).
  { unfold graph_step in G. change (text_eqb (txt "input") (txt "input")) with true in G. cbv iota in G.
    destruct (if text_eqb v (txt "-") then Some stdin else d v) as [c|]; [|discriminate]. inversion G. eauto. }
  destruct G1 as (c & -> & ->).
  assert (H : exists o', s = ([c], o')).
  { clear - Ac B. revert o Ac. induction B as [|[x args] b O _ IH]; intros o Ac.
    - inversion Ac. eauto.
    - cbn [act_on] in Ac. destruct (text_eqb x (txt "help")); [discriminate|].
      unfold graph_step in Ac at 1.
      rewrite (options_not graph_parser (txt "input") eq_refl _ O) in Ac.
      destruct args as [|y [|]]; try discriminate. destruct (text_eqb x (txt "output")); [eapply IH; exact Ac|discriminate]. }
  destruct H as (o' & ->). destruct o' as [out|]; cbn in Fi; [|discriminate]. inversion Fi. eauto.
Qed.
Print Assumptions C85_named_graph.
Theorem C85_named_fetch u ws r : fetch_line u ws = Starts r -> exists v, r = Some v.
Proof.
  intros E. destruct (started fetch_parser u _ _ _ (txt "destination") ws r eq_refl E) as (a & v & b & s & Ac & Fi & _ & B).
  rewrite act_on_app in Ac.
  match type of Ac with match ?X with _ => _ end = _ => destruct X as [x| |] end; try discriminate.
  cbn [act_on] in Ac. change (text_eqb (txt "destination") (txt "help")) with false in Ac.
  change (text_eqb (txt "destination") (txt "destination")) with true in Ac. cbv iota in Ac.
  destruct b as [|[y args] b]; [inversion Ac; subst; inversion Fi; eauto|].
  inversion B as [|? ? O _]; subst. cbn in O.
  destruct O as [<-|[<-|[]]]; discriminate.
Qed.
Print Assumptions C85_named_fetch.

(** *** The two tools and the downloader *)

Lemma given_last_cons d i is acc : given_last d (i :: is) acc = given_last d is (step_given d acc i).
Proof. reflexivity. Qed.
Lemma given_last_acc d is : (exists w, forall acc, given_last d is acc = Some w) \/ forall acc, given_last d is acc = acc.
Proof.
  induction is as [|i is [(w & IH)|IH]]; [right; reflexivity| |].
  - left. exists w. intros acc. rewrite given_last_cons. apply IH.
  - destruct i as [x v|x|v]; [|right; intros acc; rewrite given_last_cons; apply IH|right; intros acc; rewrite given_last_cons; apply IH].
    destruct (text_eqb x d) eqn:E; [left; exists v|right]; intros acc; rewrite given_last_cons, IH; cbn [step_given]; rewrite E; reflexivity.
Qed.
Lemma word_in is w : plain_words is = [w] -> In (Word w) is.
Proof.
  intros H. assert (I : In w (plain_words is)) by (rewrite H; left; reflexivity).
  unfold plain_words in I. apply in_flat_map in I. destruct I as ([x v|x|v] & I & J); cbn in J; try contradiction.
  destruct J as [<-|[]]. exact I.
Qed.

(** What dump_labels is asked by a usual command line. *)
Definition dump_asked (u : unicode) (is : list item) (o : dump_options) : Prop :=
  plain_words is = [do_input o] /\ last_given "output" is (do_output o) /\ number_given u "pretty" is (do_pretty o).

Definition known_items (m : manual) (is : list item) : Prop :=
  Forall (fun i => match i with
                   | Value d _ => exists e, In e m /\ d = txt (e_sets e) /\ e_value e = true
                   | Flag d => exists e, In e m /\ d = txt (e_sets e) /\ e_value e = false
                   | Word _ => True end) is.
Lemma usual_items m is ws : usual m is ws -> known_items m is.
Proof. induction 1 as [|i ws is rest W _ IH]; constructor; auto. destruct W; eauto. Qed.

(** The numbers: the last value, when all can be read. *)
Fixpoint numbers_ok (u : unicode) (d : text) (is : list item) : bool :=
  match is with
  | [] => true
  | Value x v :: is' =>
      ((if text_eqb x d then match py_int_of_text u v with Ok _ => true | Raise _ => false end else true) && numbers_ok u d is')%bool
  | _ :: is' => numbers_ok u d is'
  end.
Lemma numbers_ok_iff u d is : numbers_ok u d is = true <-> forall v, In (Value d v) is -> exists z, int_text u v z.
Proof.
  induction is as [|i is IH]; [split; [intros _ v []|reflexivity]|].
  destruct i as [x v|x|v]; cbn [numbers_ok].
  - destruct (text_eqb x d) eqn:E.
    + apply text_eqb_eq in E. subst x. rewrite andb_true_iff, IH. split.
      * intros [A B] y [I|I]; [|auto]. inversion I; subst. destruct (py_int_of_text u y) as [z|] eqn:Z; [|discriminate].
        exists z. apply int_reads. exact Z.
      * intros H. split; [|intros y I; apply H; right; exact I].
        destruct (H v (or_introl eq_refl)) as (z & Z). apply int_reads in Z. rewrite Z. reflexivity.
    + cbn [andb]. rewrite IH. apply text_eqb_neq in E. split; intros H y I; [|apply H; right; exact I].
      destruct I as [I|I]; [inversion I; subst; contradiction|auto].
  - rewrite IH. split; intros H y I; [|apply H; right; exact I]. destruct I as [I|I]; [discriminate|auto].
  - rewrite IH. split; intros H y I; [|apply H; right; exact I]. destruct I as [I|I]; [discriminate|auto].
Qed.
Definition read_as (u : unicode) (o : option text) : option Z :=
  match o with Some v => match py_int_of_text u v with Ok z => Some z | Raise _ => None end | None => None end.
Lemma number_given_iff u what is n : number_given u what is n <->
  numbers_ok u (txt what) is = true /\ read_as u (given_last (txt what) is None) = n.
Proof.
  unfold number_given. rewrite numbers_ok_iff. split.
  - intros (A & x & L & M). split; [exact A|]. apply last_given_iff in L. rewrite L. unfold read_as.
    destruct x as [v|], n as [z|]; try contradiction; [|reflexivity]. apply int_reads in M. rewrite M. reflexivity.
  - intros (A & <-). split; [exact A|]. exists (given_last (txt what) is None). split; [apply last_given_iff; reflexivity|].
    pose proof (given_last_is what is) as L. inversion L as [is' N E1 E2|a v b N E1 E2]; [exact I|].
    destruct (A v) as (z & Z); [rewrite <- E1; apply in_or_app; right; left; reflexivity|].
    cbn [read_as]. pose proof Z as Z'. apply int_reads in Z'. rewrite Z'. exact Z.
Qed.

Definition word_last (acc : list text) (is : list item) : list text :=
  fold_left (fun acc i => match i with Word v => [v] | _ => acc end) is acc.
Lemma word_last_none is : forall acc, plain_words is = [] -> word_last acc is = acc.
Proof.
  induction is as [|[x v|x|v] is IH]; intros acc H; [reflexivity|exact (IH acc H)|exact (IH acc H)|discriminate H].
Qed.
Lemma word_last_one is w : forall acc, plain_words is = [w] -> word_last acc is = [w].
Proof.
  induction is as [|[x v|x|v] is IH]; intros acc H; [discriminate H|exact (IH acc H)|exact (IH acc H)|].
  change (v :: plain_words is = [w]) in H. injection H as -> H. exact (word_last_none is [w] H).
Qed.

Lemma act_dump u is : known_items dump_manual is -> forall i o n,
  act_on (dump_step u) (map (item_event (txt "input")) is) (i, o, n)
  = if numbers_ok u (txt "pretty") is
    then Starts (word_last i is, given_last (txt "output") is o,
                 match given_last (txt "pretty") is None with Some _ => read_as u (given_last (txt "pretty") is None) | None => n end)
    else Refuses.
Proof.
  induction 1 as [|x is K _ IH]; intros i o n; [reflexivity|].
  destruct x as [d v|d|v]; cbn [map item_event].
  - destruct K as (e & I & -> & V). cbn [In dump_manual] in I. destruct I as [<-|[<-|[]]]; cbn [e_sets] in *.
    + change (act_on (dump_step u) (map (item_event (txt "input")) is) (i, Some v, n) =
        if numbers_ok u (txt "pretty") is
        then Starts (word_last i is, given_last (txt "output") is (Some v),
                 match given_last (txt "pretty") is None with Some _ => read_as u (given_last (txt "pretty") is None) | None => n end)
        else Refuses). apply IH.
    + cbn [act_on]. change (text_eqb (txt "pretty") (txt "help")) with false. cbv iota.
      unfold dump_step at 1. change (text_eqb (txt "pretty") (txt "input")) with false.
      change (text_eqb (txt "pretty") (txt "output")) with false. rewrite same_text. cbv iota.
      cbn [numbers_ok]. rewrite same_text, !given_last_cons.
      change (step_given (txt "output") o (Value (txt "pretty") v)) with o.
      change (step_given (txt "pretty") None (Value (txt "pretty") v)) with (Some v).
      change (word_last i (Value (txt "pretty") v :: is)) with (word_last i is).
      destruct (py_int_of_text u v) as [z|] eqn:Z; [|reflexivity]. cbn [andb]. rewrite IH.
      destruct (numbers_ok u (txt "pretty") is); [|reflexivity]. f_equal. f_equal.
      destruct (given_last_acc (txt "pretty") is) as [(w & E)|E].
      * rewrite !E. reflexivity.
      * rewrite !E. cbn [read_as]. rewrite Z. reflexivity.
  - destruct K as (e & I & -> & V). cbn [In dump_manual] in I. destruct I as [<-|[<-|[]]]; cbn in V; discriminate V.
  - change (act_on (dump_step u) (map (item_event (txt "input")) is) ([v], o, n) =
      if numbers_ok u (txt "pretty") is
      then Starts (word_last [v] is, given_last (txt "output") is o,
                 match given_last (txt "pretty") is None with Some _ => read_as u (given_last (txt "pretty") is None) | None => n end)
      else Refuses). apply IH.
Qed.

Lemma dump_usual u is ws : usual dump_manual is ws ->
  dump_line u ws =
    match plain_words is with
    | [w] => if numbers_ok u (txt "pretty") is
             then Starts (Ok (mkDumpOptions w (given_last (txt "output") is None) (read_as u (given_last (txt "pretty") is None))))
             else Refuses
    | _ => Refuses
    end.
Proof.
  intros U. unfold dump_line.
  rewrite (parse_usual dump_parser dump_manual u (dump_step u) _ _ (txt "input") is ws eq_refl eq_refl eq_refl U).
  destruct (plain_words is) as [|w [|w' l]] eqn:W; [reflexivity| |reflexivity].
  rewrite (act_dump u is (usual_items _ _ _ U)). destruct (numbers_ok u (txt "pretty") is); [|reflexivity].
  rewrite (word_last_one is w [] W). destruct (given_last (txt "pretty") is None) as [v|]; reflexivity.
Qed.
(** dump_labels starts exactly with what the usual command line asks for, and
    otherwise refuses it. *)
Theorem C85_dump u is ws : usual dump_manual is ws ->
  (forall o, dump_line u ws = Starts (Ok o) <-> dump_asked u is o)
  /\ (dump_line u ws = Refuses <-> forall o, ~ dump_asked u is o).
Proof.
  intros U. rewrite (dump_usual u is ws U).
  assert (A : forall o, dump_asked u is o <->
    plain_words is = [do_input o] /\ numbers_ok u (txt "pretty") is = true
    /\ o = mkDumpOptions (do_input o) (given_last (txt "output") is None) (read_as u (given_last (txt "pretty") is None))).
  { intros [i o n]. unfold dump_asked. cbn [do_input do_output do_pretty]. rewrite last_given_iff, number_given_iff.
    split; [intros (A & <- & B & <-); auto|]. intros (A & B & C). inversion C. auto. }
  split.
  - intros o. rewrite A. destruct (plain_words is) as [|w [|]] eqn:W; try (split; [discriminate|intros [H _]; discriminate]).
    destruct (numbers_ok u (txt "pretty") is); [|split; [discriminate|intros (_ & H & _); discriminate]].
    split; [intros H; inversion H; subst; auto|]. intros (H & _ & C). inversion H; subst. rewrite <- C. reflexivity.
  - destruct (plain_words is) as [|w [|]] eqn:W.
    1,3: split; [intros _ o H; apply A in H; destruct H as [H _]; discriminate|reflexivity].
    destruct (numbers_ok u (txt "pretty") is) eqn:N; [|split; [intros _ o H; apply A in H; destruct H as (_ & H & _); discriminate|reflexivity]].
    split; [discriminate|]. intros H. exfalso.
    eapply (H (mkDumpOptions w (given_last (txt "output") is None) (read_as u (given_last (txt "pretty") is None)))).
    apply A. cbn [do_input]. auto.
Qed.
Print Assumptions C85_dump.
(** The whole program, from its words: the run of the tool with what was asked for, or
    the usage message and nothing else. *)
Theorem C85_dump_runs lib jl s d is ws : usual dump_manual is ws ->
  (forall o, dump_asked (lib_unicode lib) is o -> dump_program lib jl s ws d = dump_main lib jl s o d)
  /\ ((forall o, ~ dump_asked (lib_unicode lib) is o) -> dump_program lib jl s ws d = ([], Usage)).
Proof.
  intros U. destruct (C85_dump (lib_unicode lib) is ws U) as (A & B). unfold dump_program. split.
  - intros o H. apply A in H. rewrite H. reflexivity.
  - intros H. apply B in H. rewrite H. reflexivity.
Qed.
Print Assumptions C85_dump_runs.

(** What graph is asked: the bytes to read and the file to write. *)
Definition graph_asked (stdin : bytes) (d : disk) (is : list item) (b : bytes) (out : text) : Prop :=
  (exists w, plain_words is = [w] /\ (w = txt "-" /\ b = stdin \/ w <> txt "-" /\ d w = Some b))
  /\ last_given "output" is (Some out).
Definition opened_as (stdin : bytes) (d : disk) (w : text) : option bytes := if text_eqb w (txt "-") then Some stdin else d w.
Lemma opened_iff stdin d w b : opened_as stdin d w = Some b <-> (w = txt "-" /\ b = stdin \/ w <> txt "-" /\ d w = Some b).
Proof.
  unfold opened_as. destruct (text_eqb w (txt "-")) eqn:E.
  - apply text_eqb_eq in E. split; [intros H; inversion H; auto|]. intros [[_ ->]|[H _]]; [reflexivity|contradiction].
  - apply text_eqb_neq in E. split; [auto|]. intros [[H _]|[_ H]]; [contradiction|exact H].
Qed.
Lemma act_graph_none stdin d is : known_items graph_manual is -> plain_words is = [] -> forall i o,
  act_on (graph_step stdin d) (map (item_event (txt "input")) is) (i, o) = Starts (i, given_last (txt "output") is o).
Proof.
  induction 1 as [|x is K _ IH]; intros W i o; [reflexivity|].
  destruct x as [a v|a|v]; cbn [map item_event]; [| |discriminate].
  - destruct K as (e & I & -> & V). cbn [In graph_manual] in I. destruct I as [<-|[]]; cbn [e_sets] in *.
    change (act_on (graph_step stdin d) (map (item_event (txt "input")) is) (i, Some v) = Starts (i, given_last (txt "output") is (Some v))).
    apply IH. exact W.
  - destruct K as (e & I & -> & V). cbn [In graph_manual] in I. destruct I as [<-|[]]; cbn in V; discriminate V.
Qed.
Lemma act_graph stdin d is w : known_items graph_manual is -> plain_words is = [w] -> forall i o,
  act_on (graph_step stdin d) (map (item_event (txt "input")) is) (i, o)
  = match opened_as stdin d w with Some b => Starts ([b], given_last (txt "output") is o) | None => Refuses end.
Proof.
  induction 1 as [|x is K Ks IH]; intros W i o; [discriminate|].
  destruct x as [a v|a|v]; cbn [map item_event].
  - destruct K as (e & I & -> & V). cbn [In graph_manual] in I. destruct I as [<-|[]]; cbn [e_sets] in *.
    change (act_on (graph_step stdin d) (map (item_event (txt "input")) is) (i, Some v)
      = match opened_as stdin d w with Some b => Starts ([b], given_last (txt "output") is (Some v)) | None => Refuses end).
    apply IH. exact W.
  - destruct K as (e & I & -> & V). cbn [In graph_manual] in I. destruct I as [<-|[]]; cbn in V; discriminate V.
  - change (v :: plain_words is = [w]) in W. injection W as <- W. cbn [act_on]. change (text_eqb (txt "input") (txt "help")) with false. cbv iota.
    unfold graph_step at 1. change (text_eqb (txt "input") (txt "input")) with true. cbv iota. fold (opened_as stdin d v).
    destruct (opened_as stdin d v) as [b|]; [|reflexivity]. apply (act_graph_none stdin d is Ks). assumption.
Qed.
Lemma graph_usual u stdin d is ws : usual graph_manual is ws ->
  graph_line u stdin d ws =
    match plain_words is with
    | [w] => match opened_as stdin d w, given_last (txt "output") is None with
             | Some b, Some out => Starts (Ok (b, out))
             | _, _ => Refuses
             end
    | _ => Refuses
    end.
Proof.
  intros U. unfold graph_line.
  rewrite (parse_usual graph_parser graph_manual u (graph_step stdin d) _ _ (txt "input") is ws eq_refl eq_refl eq_refl U).
  destruct (plain_words is) as [|w [|w' l]] eqn:W; [reflexivity| |reflexivity].
  rewrite (act_graph stdin d is w (usual_items _ _ _ U) W).
  destruct (opened_as stdin d w); [|reflexivity]. destruct (given_last (txt "output") is None); reflexivity.
Qed.
Theorem C85_graph u stdin d is ws : usual graph_manual is ws ->
  (forall b out, graph_line u stdin d ws = Starts (Ok (b, out)) <-> graph_asked stdin d is b out)
  /\ (graph_line u stdin d ws = Refuses <-> forall b out, ~ graph_asked stdin d is b out).
Proof.
  intros U. rewrite (graph_usual u stdin d is ws U).
  assert (A : forall b out, graph_asked stdin d is b out <->
    exists w, plain_words is = [w] /\ opened_as stdin d w = Some b /\ given_last (txt "output") is None = Some out).
  { intros b out. unfold graph_asked. rewrite last_given_iff. split.
    - intros ((w & W & H) & L). exists w. rewrite opened_iff. auto.
    - intros (w & W & H & L). split; [exists w; rewrite <- opened_iff; auto|exact L]. }
  split.
  - intros b out. rewrite A. destruct (plain_words is) as [|w [|]] eqn:W;
      try (split; [discriminate|intros (w0 & H & _); discriminate]).
    split.
    + destruct (opened_as stdin d w) as [b0|] eqn:O; [|discriminate]. destruct (given_last (txt "output") is None); [|discriminate].
      intros H; inversion H; subst. exists w. auto.
    + intros (w0 & H & O & L). inversion H; subst w0. rewrite O, L. reflexivity.
  - destruct (plain_words is) as [|w [|]] eqn:W;
      try (split; [intros _ b out H; apply A in H; destruct H as (w0 & H & _); discriminate|reflexivity]).
    split.
    + intros H b out X. apply A in X. destruct X as (w0 & X & O & L). inversion X; subst w0. rewrite O, L in H. discriminate.
    + intros H. destruct (opened_as stdin d w) as [b|] eqn:O; [|reflexivity].
      destruct (given_last (txt "output") is None) as [out|] eqn:L; [|reflexivity]. exfalso. apply (H b out), A. exists w. auto.
Qed.
Print Assumptions C85_graph.

(** fetch_protocol_docs: one plain word, the directory. *)
Theorem C85_fetch u is ws : usual fetch_manual is ws ->
  (forall dir, fetch_line u ws = Starts (Some dir) <-> plain_words is = [dir])
  /\ (fetch_line u ws = Refuses <-> forall dir, plain_words is <> [dir]).
Proof.
  intros U. assert (E : fetch_line u ws = match plain_words is with [w] => Starts (Some w) | _ => Refuses end).
  { unfold fetch_line.
    rewrite (parse_usual fetch_parser fetch_manual u _ _ _ (txt "destination") is ws eq_refl eq_refl eq_refl U).
    pose proof (usual_items _ _ _ U) as K.
    assert (W : is = map Word (plain_words is)).
    { clear U. induction K as [|[a v|a|v] is K _ IH]; [reflexivity| | |cbn; f_equal; exact IH]; destruct K as (e & [] & _). }
    rewrite W. destruct (plain_words is) as [|w [|w' l]]; [reflexivity|reflexivity|reflexivity]. }
  rewrite E. split.
  - intros dir. destruct (plain_words is) as [|w [|]]; split; intros H; inversion H; reflexivity.
  - destruct (plain_words is) as [|w [|]].
    + split; [intros _ dir; discriminate|reflexivity].
    + split; [discriminate|]. intros H. destruct (H w eq_refl).
    + split; [intros _ dir; discriminate|reflexivity].
Qed.
Print Assumptions C85_fetch.

(** *** The two protocol modules run as programs *)

(** What the test program of pciprotocol opens. *)
Inductive pci_asked (u : unicode) (is : list item) : res target -> Prop :=
| pa_serial device : last_given "serial" is (Some device) -> last_given "tcp" is None -> device <> [] ->
    pci_asked u is (Ok (SerialPort device 9600))
| pa_tcp host port n : last_given "serial" is None -> last_given "tcp" is (Some (host ++ [58] ++ port)) ->
    ~ In 58 host -> ~ In 58 port -> int_text u port n ->
    pci_asked u is (Ok (TcpPort host n))
| pa_empty_serial : last_given "serial" is (Some []) -> last_given "tcp" is None -> pci_asked u is (Ok Nothing)
| pa_empty_tcp : last_given "serial" is None -> last_given "tcp" is (Some []) -> pci_asked u is (Ok Nothing)
| pa_bad_tcp addr : last_given "serial" is None -> last_given "tcp" is (Some addr) -> addr <> [] ->
    (forall host port n, addr = host ++ [58] ++ port -> ~ In 58 host -> ~ In 58 port -> ~ int_text u port n) ->
    pci_asked u is (Raise ValueError).

Lemma act_pci is : known_items pci_manual is -> plain_words is = [] -> forall s t, s = None \/ t = None ->
  act_on pci_step (map (item_event []) is) (s, t)
  = match given_last (txt "serial") is s, given_last (txt "tcp") is t with
    | Some _, Some _ => Refuses
    | s', t' => Starts (s', t')
    end.
Proof.
  induction 1 as [|x is K _ IH]; intros W s t ST; [destruct s, t; try reflexivity; destruct ST; discriminate|].
  destruct x as [a v|a|v]; cbn [map item_event]; [| |discriminate].
  - destruct K as (e & I & -> & V). cbn [In pci_manual] in I. destruct I as [<-|[<-|[]]]; cbn [e_sets] in *.
    + rewrite !given_last_cons. change (step_given (txt "serial") s (Value (txt "serial") v)) with (Some v).
      change (step_given (txt "tcp") t (Value (txt "serial") v)) with t. cbn [act_on].
      change (text_eqb (txt "serial") (txt "help")) with false. cbv iota. unfold pci_step at 1. rewrite same_text. cbv iota.
      destruct t as [t|]; [|apply (IH W); right; reflexivity].
      destruct (given_last_acc (txt "serial") is) as [(y & E)|E]; rewrite E;
        destruct (given_last_acc (txt "tcp") is) as [(z & F)|F]; rewrite F; reflexivity.
    + rewrite !given_last_cons. change (step_given (txt "serial") s (Value (txt "tcp") v)) with s.
      change (step_given (txt "tcp") t (Value (txt "tcp") v)) with (Some v). cbn [act_on].
      change (text_eqb (txt "tcp") (txt "help")) with false. cbv iota. unfold pci_step at 1.
      change (text_eqb (txt "tcp") (txt "serial")) with false. rewrite same_text. cbv iota.
      destruct s as [s|]; [|apply (IH W); left; reflexivity].
      destruct (given_last_acc (txt "serial") is) as [(y & E)|E]; rewrite E;
        destruct (given_last_acc (txt "tcp") is) as [(z & F)|F]; rewrite F; reflexivity.
  - destruct K as (e & I & -> & V). cbn [In pci_manual] in I. destruct I as [<-|[<-|[]]]; cbn in V; discriminate V.
Qed.
Lemma pci_usual u is ws : usual pci_manual is ws ->
  pci_program u ws =
    match plain_words is, given_last (txt "serial") is None, given_last (txt "tcp") is None with
    | [], Some s, None => Starts (pci_target u (Some s, None))
    | [], None, Some t => Starts (pci_target u (None, Some t))
    | _, _, _ => Refuses
    end.
Proof.
  intros U. unfold pci_program, pci_line.
  rewrite (parse_usual_none pci_parser pci_manual u pci_step _ _ is ws eq_refl eq_refl U).
  destruct (plain_words is) as [|w l] eqn:W; [|reflexivity].
  rewrite (act_pci is (usual_items _ _ _ U) W None None (or_introl eq_refl)).
  destruct (given_last (txt "serial") is None), (given_last (txt "tcp") is None); reflexivity.
Qed.
Lemma two_parts s : (exists h p, s = h ++ [58] ++ p /\ ~ In 58 h /\ ~ In 58 p /\ split_colon 2 s = [h; p])
  \/ ((forall h p, s = h ++ [58] ++ p -> ~ In 58 h -> In 58 p) /\ forall h p, split_colon 2 s <> [h; p]).
Proof.
  destruct (split_colon_spec 1 s) as [[N E]|[a [r [N [-> E]]]]]; rewrite E.
  - right. split; [|discriminate]. intros h p -> _. destruct N. apply in_or_app. right. left. reflexivity.
  - destruct (split_colon_spec 0 r) as [[N2 E2]|[b [q [N2 [-> E2]]]]]; rewrite E2.
    + left. exists a, r. auto.
    + right. split; [|intros h p H; inversion H]. intros h p H Nh. apply (colon_unique a (b ++ 58 :: q) h p N Nh) in H.
      destruct H as [_ <-]. apply in_or_app. right. left. reflexivity.
Qed.
Lemma unreadable u p e : py_int_of_text u p = Raise e -> e = ValueError /\ forall n, ~ int_text u p n.
Proof.
  intros Z. assert (H : forall n, ~ int_text u p n) by (intros n I; apply int_reads in I; congruence).
  split; [|exact H]. rewrite (int_unreadable u p H) in Z. congruence.
Qed.
Lemma target_tcp u t : t <> [] -> pci_target u (None, Some t)
  = match split_colon 2 t with
    | [host; port] => rbind (py_int_of_text u port) (fun port => Ok (TcpPort host port))
    | _ => Raise ValueError
    end.
Proof. destruct t; [intros H; destruct (H eq_refl)|reflexivity]. Qed.
(** pciprotocol as a program: what it opens for a usual command line. *)
Theorem C85_pci u is ws : usual pci_manual is ws ->
  (forall r, pci_program u ws = Starts r <-> plain_words is = [] /\ pci_asked u is r)
  /\ (pci_program u ws = Refuses <-> ~ (plain_words is = [] /\ exists r, pci_asked u is r)).
Proof.
  intros U. pose proof (pci_usual u is ws U) as E.
  assert (L : forall what x, last_given what is x -> given_last (txt what) is None = x) by (intros; apply last_given_iff; assumption).
  assert (Fw : forall r, plain_words is = [] -> pci_asked u is r -> pci_program u ws = Starts r).
  { intros r W A. rewrite E, W. destruct A as [dev S T N|h p n S T Nh Np I|S T|S T|a S T N H];
      rewrite (L _ _ S), (L _ _ T); try reflexivity.
    - destruct dev; [contradiction|reflexivity].
    - rewrite target_tcp by (destruct h; discriminate).
      destruct (two_parts (h ++ [58] ++ p)) as [(h' & p' & Q & Nh' & Np' & ->)|[Q _]].
      + apply (colon_unique h p h' p' Nh Nh') in Q. destruct Q as [<- <-]. apply int_reads in I. rewrite I. reflexivity.
      + destruct Np. exact (Q h p eq_refl Nh).
    - rewrite target_tcp by exact N. destruct (two_parts a) as [(h & p & Q & Nh & Np & ->)|[_ Q]].
      + destruct (py_int_of_text u p) as [z|e] eqn:Z.
        * apply int_reads in Z. destruct (H h p z Q Nh Np Z).
        * apply unreadable in Z. destruct Z as [-> _]. reflexivity.
      + destruct (split_colon 2 a) as [|x [|y [|]]]; try reflexivity. destruct (Q x y eq_refl). }
  assert (Bw : forall r, pci_program u ws = Starts r -> plain_words is = [] /\ pci_asked u is r).
  { intros r H. rewrite E in H. destruct (plain_words is); [|discriminate]. split; [reflexivity|].
    destruct (given_last (txt "serial") is None) as [s|] eqn:S, (given_last (txt "tcp") is None) as [t|] eqn:T; try discriminate;
      apply (last_given_iff "serial") in S; apply (last_given_iff "tcp") in T; inversion H; subst r; clear H.
    - destruct s; [apply pa_empty_serial; assumption|]. apply pa_serial; [assumption|assumption|discriminate].
    - destruct t as [|c t]; [apply pa_empty_tcp; assumption|]. assert (N : c :: t <> []) by discriminate.
      set (a := c :: t) in *. rewrite target_tcp by exact N.
      destruct (two_parts a) as [(h & p & Q & Nh & Np & ->)|[Q0 Q]].
      + destruct (py_int_of_text u p) as [z|e] eqn:Z.
        * apply int_reads in Z. cbn [rbind]. apply (pa_tcp u is h p z S); auto. rewrite <- Q. exact T.
        * apply unreadable in Z. destruct Z as [-> Z]. cbn [rbind]. apply (pa_bad_tcp u is a S T N).
          intros h' p' n Q' Nh' Np'. rewrite Q in Q'. apply (colon_unique h p h' p' Nh Nh') in Q'. destruct Q' as [<- <-]. apply Z.
      + destruct (split_colon 2 a) as [|x [|y [|]]]; try (destruct (Q x y eq_refl));
          apply (pa_bad_tcp u is a S T N); intros h p n Q' Nh Np; destruct Np; exact (Q0 h p Q' Nh). }
  split.
  - intros r. split; [apply Bw|intros [A B]; apply Fw; assumption].
  - split.
    + intros H [A (r & B)]. rewrite (Fw r A B) in H. discriminate.
    + intros H. destruct (pci_program u ws) as [r| |] eqn:P; [|reflexivity|].
      * destruct H. destruct (Bw r eq_refl). eauto.
      * exfalso. rewrite E in P. destruct (plain_words is), (given_last (txt "serial") is None), (given_last (txt "tcp") is None); discriminate.
Qed.
Print Assumptions C85_pci.

(** What pciserverprotocol serves: an address and a port, both optional. *)
Inductive serves (u : unicode) : list text -> text -> Z -> Prop :=
| sv_none : serves u [] (txt "127.0.0.1") 10001
| sv_address a : serves u [a] a 10001
| sv_both a p n : int_text u p n -> serves u [a; p] a n.

Lemma letters_ordinary u ws : Forall ordinary ws -> letters server_parser u ws = Some (map (fun w => (w, LArg)) ws).
Proof.
  induction 1 as [|w ws O _ IH]; [reflexivity|]. cbn [letters map].
  destruct (ordinary_letter server_parser [] u w eq_refl O) as (V & K). rewrite V, K, IH. reflexivity.
Qed.
Lemma scan_rest l : forall skip, (skip <= List.length l)%nat ->
  scan server_parser [] skip (map (fun w => (w, LArg)) l) false
  = ([], LineDone (negb (skip =? List.length l)%nat) []).
Proof.
  assert (T : forall q, scan server_parser [] 0 (map (fun w => (w, LArg)) q) true = ([], LineDone true [])).
  { induction q as [|w q IH]; [reflexivity|]. cbn [map scan fill]. rewrite Nat.sub_diag. rewrite IH. reflexivity. }
  induction l as [|w l IH]; intros skip L.
  - destruct skip; [reflexivity|cbn in L; lia].
  - destruct skip as [|skip]; cbn [map scan fill].
    + rewrite Nat.sub_diag, T. reflexivity.
    + rewrite IH by (cbn in L; lia). reflexivity.
Qed.
Lemma server_words u ws : Forall ordinary ws ->
  server_line u ws =
    match ws with
    | [] => Starts (txt "127.0.0.1", 10001)
    | [a] => Starts (a, 10001)
    | [a; p] => match py_int_of_text u p with Ok n => Starts (a, n) | Raise _ => Refuses end
    | _ => Refuses
    end.
Proof.
  intros O. unfold server_line, parse_line. rewrite (letters_ordinary u ws O).
  assert (N : Forall (fun w => text_eqb w (txt "--") = false) ws).
  { eapply Forall_impl; [|exact O]. intros w Ow. destruct (ordinary_letter server_parser [] u w eq_refl Ow) as (V & _). exact V. }
  destruct ws as [|a [|p [|x ws]]].
  - reflexivity.
  - inversion N as [|? ? Na _]; subst. cbn [map scan fill p_positionals server_parser match_one dashes app remove_dashes List.length Nat.sub].
    rewrite Na. reflexivity.
  - inversion N as [|? ? Na N1]; subst. inversion N1 as [|? ? Np _]; subst.
    cbn [map scan fill p_positionals server_parser match_one dashes app remove_dashes List.length Nat.sub].
    rewrite Na, Np. cbn [prefixed fst snd app].
    change (act_on (server_step u) [Took (txt "address") [a]; Took (txt "port") [p]] (txt "127.0.0.1", 10001))
      with (match (match py_int_of_text u p with Ok z => Some (a, z) | Raise _ => None end) with
            | Some s => Starts s | None => Refuses end).
    destruct (py_int_of_text u p); reflexivity.
  - inversion N as [|? ? Na N1]; subst. inversion N1 as [|? ? Np _]; subst.
    assert (E : scan server_parser (p_positionals server_parser) 0 (map (fun w => (w, LArg)) (a :: p :: x :: ws)) false
                = ([Took (txt "address") [a]; Took (txt "port") [p]], LineDone true [])).
    { cbn [map scan fill p_positionals server_parser match_one dashes app remove_dashes]. rewrite Na, Np.
      match goal with |- context [(?A - ?B)%nat] => replace (A - B)%nat with 2%nat by (cbn [List.length]; lia) end.
      cbn [scan]. fold (map (fun w : text => (w, LArg)) ws).
      change (prefixed [Took (txt "address") [a]; Took (txt "port") [p]] (scan server_parser [] 0 (map (fun w => (w, LArg)) (x :: ws)) false)
        = ([Took (txt "address") [a]; Took (txt "port") [p]], LineDone true [])).
      rewrite scan_rest by (cbn; lia). reflexivity. }
    rewrite E. destruct (act_on _ _ _) as [s| |] eqn:Ac; [reflexivity|reflexivity|]. exfalso.
    change (act_on (server_step u) [Took (txt "address") [a]; Took (txt "port") [p]] (txt "127.0.0.1", 10001))
      with (match (match py_int_of_text u p with Ok z => Some (a, z) | Raise _ => None end) with
            | Some s => Starts s | None => Refuses end) in Ac.
    destruct (py_int_of_text u p); discriminate.
Qed.
Theorem C85_server u ws : Forall ordinary ws ->
  (forall a n, server_line u ws = Starts (a, n) <-> serves u ws a n)
  /\ (server_line u ws = Refuses <-> forall a n, ~ serves u ws a n).
Proof.
  intros O. rewrite (server_words u ws O).
  assert (P : forall p z, py_int_of_text u p = Ok z <-> int_text u p z) by (intros; apply int_reads).
  destruct ws as [|a [|p [|x ws]]].
  - split.
    + intros b n. split; intros H; inversion H; subst; [constructor|reflexivity].
    + split; [discriminate|]. intros H. destruct (H _ _ (sv_none u)).
  - split.
    + intros b n. split; intros H; inversion H; subst; [constructor|reflexivity].
    + split; [discriminate|]. intros H. destruct (H _ _ (sv_address u a)).
  - destruct (py_int_of_text u p) as [z|e] eqn:Z; split.
    + intros b n. split; intros H; inversion H; subst; [constructor; apply P; exact Z|].
      match goal with I : int_text _ _ _ |- _ => apply P in I; rewrite I in Z; inversion Z; reflexivity end.
    + split; [discriminate|]. intros H. apply P in Z. destruct (H a z). constructor. exact Z.
    + intros b n. split; intros H; inversion H; subst.
      match goal with I : int_text _ _ _ |- _ => apply P in I; rewrite I in Z; inversion Z end.
    + split; [|reflexivity]. intros _ b n H. inversion H; subst.
      match goal with I : int_text _ _ _ |- _ => apply P in I; rewrite I in Z; inversion Z end.
  - split; [intros b n; split; intros H; inversion H|]. split; [intros _ b n H; inversion H|reflexivity].
Qed.
Print Assumptions C85_server.

(** ** The help *)

Lemma help_first {S A : Type} p m u step (s0 : S) (finish : S -> option A) h is ws :
  fits p m = true -> flag_of p (txt "help") = true ->
  lookup (txt "-h") (p_options p) = Some (txt "help") -> lookup (txt "--help") (p_options p) = Some (txt "help") ->
  h = txt "-h" \/ h = txt "--help" -> usual m is ws -> parse_line p u step s0 finish (h :: ws) = Helps.
Proof.
  intros F G L1 L2 H U. destruct (scan_usual p m u is ws F U) as (l & C & _).
  assert (K : text_eqb h (txt "--") = false /\ letter_of p u h = Some (LOption (Some (txt "help")) h false None)).
  { destruct H as [-> | ->].
    - split; [reflexivity|]. apply (known_letter p u (txt "h")). exact L1.
    - split; [reflexivity|]. apply (known_letter p u (txt "-help")). exact L2. }
  destruct K as (N & K). unfold parse_line. cbn [letters]. rewrite N, K, C. cbn [scan bundle_of]. rewrite G.
  destruct (scan p (p_positionals p) 0 l false) as (evs, e). reflexivity.
Qed.
Theorem C85_help u ws :
  (asks_help decode_manual ws -> decode_line u ws = Helps)
  /\ (asks_help dump_manual ws -> dump_line u ws = Helps
        /\ forall lib jl s d, dump_program lib jl s ws d = ([], Finished))
  /\ (asks_help graph_manual ws -> forall stdin d, graph_line u stdin d ws = Helps)
  /\ (asks_help fetch_manual ws -> fetch_line u ws = Helps)
  /\ (asks_help pci_manual ws -> pci_program u ws = Helps)
  /\ (asks_help [] ws -> server_line u ws = Helps).
Proof.
  assert (D : forall u, asks_help dump_manual ws -> dump_line u ws = Helps).
  { intros v (h & is & rest & -> & H & U). eapply help_first; eauto; reflexivity. }
  split; [|split; [|split; [|split; [|split]]]].
  2:{ intros H. split; [apply D; exact H|]. intros lib jl s d. unfold dump_program. rewrite D by exact H. reflexivity. }
  4:{ intros (h & is & rest & -> & H & U). unfold pci_program.
      replace (pci_line u (h :: rest)) with (@Helps (option text * option text)); [reflexivity|].
      symmetry. eapply help_first; eauto; reflexivity. }
  all: intros (h & is & rest & -> & H & U); try (intros stdin d); eapply help_first; eauto; reflexivity.
Qed.
Print Assumptions C85_help.
Example C85_case_help : asks_help dump_manual [txt "--help"; txt "-o"; txt "a.json"]
  /\ asks_help fetch_manual [txt "-h"] /\ asks_help [] [txt "-h"; txt "::"; txt "x"].
Proof.
  repeat split.
  - exists (txt "--help"), [Value (txt "output") (txt "a.json")], [txt "-o"; txt "a.json"]. split; [reflexivity|]. split; [right; reflexivity|].
    refine (us_cons _ _ [_; _] _ _ (s_short _ (mkEntry "output" "o" "output" true) _ _ eq_refl _) (us_nil _)); [left; reflexivity|left; discriminate].
  - exists (txt "-h"), [], []. split; [reflexivity|]. split; [left; reflexivity|constructor].
  - exists (txt "-h"), [Word (txt "::"); Word (txt "x")], [txt "::"; txt "x"]. split; [reflexivity|]. split; [left; reflexivity|].
    refine (us_cons _ _ [_] _ _ (s_word _ _ _) (us_cons _ _ [_] _ _ (s_word _ _ _) (us_nil _))); left; discriminate.
Qed.

(** ** Concrete cases *)

Definition no_letters : unicode := mkUnicode (fun _ => false) (fun _ => None).
Example C84_case :
  usual decode_manual [Flag (txt "checksum"); Word (txt "\05380079")] [txt "-C"; txt "\05380079"]
  /\ decode_line no_letters [txt "-C"; txt "\05380079"] = Refuses
  /\ decode_line no_letters [] = Refuses
  /\ decode_line no_letters [txt "-Ch"] = Helps.
Proof.
  split; [|repeat split; vm_compute; reflexivity].
  refine (us_cons _ _ [_] _ _ (s_flag_short _ (mkEntry "checksum" "C" "no-checksum" false) _ eq_refl) _); [left; reflexivity|].
  refine (us_cons _ _ [_] _ _ (s_word _ _ _) (us_nil _)). left. discriminate.
Qed.

Definition dump_case : list text := [txt "-o"; txt "a.json"; txt "home.cbz"; txt "--pretty=2"; txt "-ob.json"].
Definition dump_case_items : list item :=
  [Value (txt "output") (txt "a.json"); Word (txt "home.cbz"); Value (txt "pretty") (txt "2"); Value (txt "output") (txt "b.json")].
Example C85_case_dump :
  usual dump_manual dump_case_items dump_case
  /\ dump_line no_letters dump_case = Starts (Ok (mkDumpOptions (txt "home.cbz") (Some (txt "b.json")) (Some 2)))
  /\ dump_asked no_letters dump_case_items (mkDumpOptions (txt "home.cbz") (Some (txt "b.json")) (Some 2))
  /\ dump_line no_letters [txt "-p"; txt "x"; txt "home.cbz"] = Refuses
  /\ dump_line no_letters [txt "--"; txt "-home.cbz"] = Starts (Ok (mkDumpOptions (txt "-home.cbz") None None)).
Proof.
  assert (U : usual dump_manual dump_case_items dump_case).
  { refine (us_cons _ _ [_; _] _ _ (s_short _ (mkEntry "output" "o" "output" true) _ _ eq_refl _) _); [left; reflexivity|left; discriminate|].
    refine (us_cons _ _ [_] _ _ (s_word _ _ _) _); [left; discriminate|].
    refine (us_cons _ _ [_] _ _ (s_long_equals _ (mkEntry "pretty" "p" "pretty" true) (txt "2") _ eq_refl) _); [right; left; reflexivity|].
    refine (us_cons _ _ [_] _ _ (s_attached _ (mkEntry "output" "o" "output" true) (txt "b.json") _ eq_refl _ _) (us_nil _));
      [left; reflexivity|discriminate|discriminate]. }
  assert (D : dump_line no_letters dump_case = Starts (Ok (mkDumpOptions (txt "home.cbz") (Some (txt "b.json")) (Some 2))))
    by (vm_compute; reflexivity).
  split; [exact U|]. split; [exact D|]. split; [|split; vm_compute; reflexivity].
  apply (C85_dump no_letters dump_case_items dump_case U). exact D.
Qed.
Example C85_case_graph :
  let d : disk := fun n => if text_eqb n (txt "home.cbz") then Some [80; 75] else None in
  graph_line no_letters [1; 2] d [txt "--output"; txt "g.dot"; txt "home.cbz"] = Starts (Ok ([80; 75], txt "g.dot"))
  /\ graph_line no_letters [1; 2] d [txt "-"; txt "--out=g.dot"] = Starts (Ok ([1; 2], txt "g.dot"))
  /\ graph_line no_letters [1; 2] d [txt "other"; txt "-og"] = Refuses
  /\ graph_line no_letters [1; 2] d [txt "home.cbz"] = Refuses
  /\ usual graph_manual [Value (txt "output") (txt "g.dot"); Word (txt "home.cbz")] [txt "--output"; txt "g.dot"; txt "home.cbz"].
Proof.
  cbv zeta. repeat split; try (vm_compute; reflexivity).
  refine (us_cons _ _ [_; _] _ _ (s_long _ (mkEntry "output" "o" "output" true) _ _ eq_refl _) _); [left; reflexivity|left; discriminate|].
  refine (us_cons _ _ [_] _ _ (s_word _ _ _) (us_nil _)). left. discriminate.
Qed.
Example C85_case_abbreviated :
  usual graph_manual [Word (txt "-"); Value (txt "output") (txt "g.dot")] [txt "-"; txt "--out=g.dot"]
  /\ usual pci_manual [Value (txt "tcp") (txt "a:1")] [txt "--t"; txt "a:1"]
  /\ pci_program no_letters [txt "--t"; txt "a:1"] = Starts (Ok (TcpPort (txt "a") 1)).
Proof.
  split; [|split; [|vm_compute; reflexivity]].
  - refine (us_cons _ _ [_] _ _ (s_word _ _ _) _); [right; left; reflexivity|].
    refine (us_cons _ _ [_] _ _ (s_abbreviated_equals _ (mkEntry "output" "o" "output" true) (txt "out") (txt "g.dot") _ eq_refl _) (us_nil _));
      [left; reflexivity|].
    split; [discriminate|]. split; [exists (txt "put"); reflexivity|].
    intros n [->|(e & [<-|[]] & ->)] (r & H); [discriminate|reflexivity].
  - refine (us_cons _ _ [_; _] _ _ (s_abbreviated _ (mkEntry "tcp" "t" "tcp" true) (txt "t") _ _ eq_refl _ _) (us_nil _));
      [right; left; reflexivity| |left; discriminate].
    split; [discriminate|]. split; [exists (txt "cp"); reflexivity|].
    intros n [->|(e & [<-|[<-|[]]] & ->)] (r & H); [discriminate|discriminate|reflexivity].
Qed.
Example C85_case_fetch :
  usual fetch_manual [Word (txt "docs")] [txt "docs"]
  /\ fetch_line no_letters [txt "docs"] = Starts (Some (txt "docs"))
  /\ fetch_line no_letters [txt "docs"; txt "more"] = Refuses.
Proof.
  split; [|split; vm_compute; reflexivity].
  refine (us_cons _ _ [_] _ _ (s_word _ _ _) (us_nil _)). left. discriminate.
Qed.
Example C85_case_pci :
  pci_program no_letters [txt "-s"; txt "/dev/ttyUSB0"] = Starts (Ok (SerialPort (txt "/dev/ttyUSB0") 9600))
  /\ pci_program no_letters [txt "--tcp"; txt "192.0.2.1:10001"] = Starts (Ok (TcpPort (txt "192.0.2.1") 10001))
  /\ pci_program no_letters [txt "-t::1:10001"] = Starts (Raise ValueError)
  /\ pci_program no_letters [txt "-t="] = Starts (Ok Nothing)
  /\ pci_program no_letters [txt "-sx"; txt "-ty:1"] = Refuses
  /\ usual pci_manual [Value (txt "tcp") (txt "192.0.2.1:10001")] [txt "--tcp"; txt "192.0.2.1:10001"].
Proof.
  repeat split; try (vm_compute; reflexivity).
  refine (us_cons _ _ [_; _] _ _ (s_long _ (mkEntry "tcp" "t" "tcp" true) _ _ eq_refl _) (us_nil _));
    [right; left; reflexivity|left; discriminate].
Qed.
Example C85_case_server :
  server_line no_letters [txt "::"; txt "99"] = Starts (txt "::", 99) /\ serves no_letters [txt "::"; txt "99"] (txt "::") 99
  /\ server_line no_letters [txt "h"; txt "p"] = Refuses /\ server_line no_letters [txt "h"; txt "1"; txt "2"] = Refuses.
Proof.
  assert (E : server_line no_letters [txt "::"; txt "99"] = Starts (txt "::", 99)) by (vm_compute; reflexivity).
  split; [exact E|]. split; [|split; vm_compute; reflexivity].
  apply C85_server; [|exact E]. repeat constructor; discriminate.
Qed.
