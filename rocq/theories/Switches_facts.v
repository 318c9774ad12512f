(** Facts about the redirector's command line, for C97. *)
From Coq Require Import List ZArith Bool Lia ZifyBool String.
From Verif Require Import Py Text Cmdline Redirect RedirectLine Base Spec_switches Mqtt_facts Argparse_facts.
Import ListNotations.
Open Scope Z_scope.

(** ** Names and letters *)

Lemma takes_valued s : takes s = true <-> has_value s.
Proof.
  split.
  - destruct s; intros H; try discriminate H; do 2 eexists; constructor.
  - intros (l & n & V). destruct V; reflexivity.
Qed.
Lemma takes_plain s : takes s = false <-> has_none s.
Proof.
  split.
  - destruct s; intros H; try discriminate H; do 2 eexists; constructor.
  - intros (l & n & V). destruct V; reflexivity.
Qed.
Lemma long_in s w : long_name s w <-> In (w, s) NAMES.
Proof.
  split.
  - intros (l & n & V & ->). destruct V as [V|V]; destruct V; cbn; tauto.
  - intros I. repeat (destruct I as [E|I];
      [injection E as <- <-; do 2 eexists; (split; [first [left; constructor|right; constructor]|reflexivity])|]). destruct I.
Qed.
Lemma letter_in s c : letter_name s c <-> In (c, s) LETTERS.
Proof.
  split.
  - intros (l & n & V & E). destruct V as [V|V]; inversion V; subst; injection E as <-; cbn; tauto.
  - intros I. repeat (destruct I as [E|I];
      [injection E as <- <-; do 2 eexists; (split; [first [left; constructor|right; constructor]|reflexivity])|]). destruct I.
Qed.
Lemma letter_spec s c : by_letter c LETTERS = Some s <-> letter_name s c.
Proof.
  rewrite letter_in. split.
  - unfold LETTERS. cbn [by_letter].
    repeat match goal with |- context [if ?a =? ?b then _ else _] => destruct (Z.eqb_spec a b) end;
      intros H; try discriminate H; injection H as <-; subst; cbn; tauto.
  - intros I. repeat (destruct I as [E|I]; [injection E as <- <-; reflexivity|]). destruct I.
Qed.
Lemma name_some w s l : by_name w l = Some s -> In (w, s) l.
Proof.
  induction l as [|[n t] l IH]; intros H; [discriminate H|]. cbn [by_name] in H. destruct (text_eqb n w) eqn:E.
  - injection H as <-. apply text_eqb_eq in E. subst. now left.
  - right. now apply IH.
Qed.
Lemma name_none w l : by_name w l = None -> forall s, ~ In (w, s) l.
Proof.
  induction l as [|[n t] l IH]; intros H s; [intros []|]. cbn [by_name] in H. destruct (text_eqb n w) eqn:E; [discriminate H|].
  intros [I|I]; [injection I as -> ->; rewrite (proj2 (text_eqb_eq w w) eq_refl) in E; discriminate E|now apply (IH H s)].
Qed.
Lemma name_spec w s : by_name w NAMES = Some s <-> long_name s w.
Proof.
  rewrite long_in. split; [apply name_some|]. intros I.
  repeat (destruct I as [E|I]; [injection E as <- <-; vm_compute; reflexivity|]). destruct I.
Qed.
Lemma starts_spec p l : starts_with p l = true <-> exists r, l = p ++ r.
Proof.
  revert l. induction p as [|a p IH]; intros l.
  - split; [intros _; now exists l|reflexivity].
  - destruct l as [|b l]; cbn [starts_with].
    + split; [discriminate|intros [r E]; discriminate E].
    + rewrite andb_true_iff, IH, Z.eqb_eq. split.
      * intros [-> [r ->]]. now exists r.
      * intros [r E]. injection E as -> ->. split; [reflexivity|now exists r].
Qed.
Lemma abbrev_spec w s : match_abbrev w = Some s <-> means w s.
Proof.
  unfold match_abbrev. destruct (by_name w NAMES) as [t|] eqn:B.
  - apply name_spec in B. split.
    + intros E. injection E as <-. now left.
    + intros [L|[N _]]; [|exfalso; now apply (N t)]. apply name_spec in L. apply name_spec in B. congruence.
  - assert (N := name_none _ _ B). set (f := fun e : bytes * switch => starts_with w (fst e)).
    assert (F : forall n t, In (n, t) (filter f NAMES) <-> exists rest, n = w ++ rest /\ long_name t (w ++ rest)).
    { intros n t. rewrite filter_In. unfold f. cbn [fst]. rewrite starts_spec. split.
      - intros [I [r ->]]. exists r. split; [reflexivity|]. now apply long_in.
      - intros [r [-> L]]. split; [now apply long_in|now exists r]. }
    assert (D : NoDup (map snd (filter f NAMES))).
    { assert (G : forall l : list (text * switch), NoDup (map snd l) -> NoDup (map snd (filter f l))).
      { induction l as [|a l IH]; intros X; [constructor|]. cbn [map] in X. apply NoDup_cons_iff in X. destruct X as [X Y].
        cbn [filter]. destruct (f a); [|now apply IH]. cbn [map]. constructor; [|now apply IH].
        intros I. apply X. apply in_map_iff in I. destruct I as [b [E I]]. apply filter_In in I. apply in_map_iff. now exists b. }
      apply G. unfold NAMES. cbn [map snd]. repeat (constructor; [cbn; intuition discriminate|]). constructor. }
    split.
    + destruct (filter f NAMES) as [|[n t] [|b l]] eqn:E; intros H; try discriminate H. injection H as <-. right.
      split; [intros s' L; now apply (N s'), long_in|].
      destruct (proj1 (F n t) (or_introl eq_refl)) as [r [-> L]]. split; [now exists r|].
      intros s' r' L'. assert (I := proj2 (F (w ++ r') s') (ex_intro _ r' (conj eq_refl L'))).
      destruct I as [I|[]]. now injection I.
    + intros [L|[_ [[r L] U]]]; [apply name_spec in L; congruence|].
      assert (I := proj2 (F (w ++ r) s) (ex_intro _ r (conj eq_refl L))).
      destruct (filter f NAMES) as [|[n t] l] eqn:E; [destruct I|].
      assert (A : forall n' t', In (n', t') ((n, t) :: l) -> t' = s).
      { intros n' t' J. apply F in J. destruct J as [r' [_ L']]. now apply (U t' r'). }
      destruct l as [|[n2 t2] l].
      * now rewrite (A n t (or_introl eq_refl)).
      * exfalso. cbn [map snd] in D. apply NoDup_cons_iff in D. destruct D as [D _]. apply D. left.
        rewrite (A n t) by now left. apply (A n2 t2). right. now left.
Qed.
(** A word that means an option begins with two dashes, goes on, and has no equals
    sign in it. *)
Lemma means_shape w s : means w s -> exists c r, w = txt "--" ++ c :: r /\ ~ In 61 w.
Proof.
  intros M.
  assert (U : forall s' r, (forall r', w <> txt "--" ++ [] ++ r') \/ w = txt "--" -> long_name s' (w ++ r) -> False).
  { intros s' r H L.
    assert (P : w = [] \/ w = [45] \/ w = [45; 45]).
    { destruct H as [H| ->]; [|tauto]. apply long_in in L.
      destruct w as [|a [|b w]]; [tauto| |].
      - right. left. repeat (destruct L as [E|L]; [injection E as E _; cbn in E; congruence|]). destruct L.
      - exfalso. apply (H w). repeat (destruct L as [E|L]; [injection E as E1 E2; cbn in E1, E2; subst; reflexivity|]). destruct L. }
    assert (Q : forall t1 t2 r1 r2, long_name t1 (w ++ r1) -> long_name t2 (w ++ r2) -> t1 = t2).
    { intros t1 t2 r1 r2 L1 L2. destruct M as [M|[_ [_ M]]]; [|now rewrite (M t1 r1 L1), (M t2 r2 L2)].
      exfalso. apply long_in in M. destruct P as [-> |[-> | ->]];
        repeat (destruct M as [E|M]; [discriminate E|]); destruct M. }
    assert (X : Help = Quiet).
    { destruct P as [-> |[-> | ->]].
      - apply (Q Help Quiet (txt "--help") (txt "--quiet")); apply long_in; cbn; tauto.
      - apply (Q Help Quiet (txt "-help") (txt "-quiet")); apply long_in; cbn; tauto.
      - apply (Q Help Quiet (txt "help") (txt "quiet")); apply long_in; cbn; tauto. }
    discriminate X. }
  assert (L : exists r, long_name s (w ++ r)).
  { destruct M as [M|[_ [M _]]]; [exists []; now rewrite app_nil_r|exact M]. }
  destruct L as [r L].
  destruct w as [|a [|b [|c w]]]; try (exfalso; apply (U s r); [left; intros r' E; discriminate E|exact L]).
  - exfalso. apply (U s r); [|exact L]. apply long_in in L.
    repeat (destruct L as [E|L]; [injection E as E1 E2; subst; right; reflexivity|]). destruct L.
  - exists c, w. apply long_in in L.
    repeat (destruct L as [E|L];
      [assert (E' := f_equal fst E); cbn [fst] in E';
       split; [injection E' as <- <- _ _; reflexivity|];
       intros I; assert (J : In 61 ((a :: b :: c :: w) ++ r)) by (apply in_or_app; now left);
       rewrite <- E' in J; vm_compute in J; repeat (destruct J as [J|J]; [discriminate J|]); destruct J|]). destruct L.
Qed.

(** ** The loop *)

(** The effect of one option, and of several. *)
Definition give (nu : numbers) (g : given) (v : values) : option values :=
  match snd g with None => Some (raise_flag (fst g) v) | Some x => store nu (fst g) x v end.
Fixpoint give_all (nu : numbers) (gs : list given) (v : values) : option values :=
  match gs with
  | [] => Some v
  | g :: gs' => match give nu g v with Some v' => give_all nu gs' v' | None => None end
  end.
Lemma give_app nu a b : forall v, give_all nu (a ++ b) v
  = match give_all nu a v with Some v' => give_all nu b v' | None => None end.
Proof. induction a as [|g a IH]; intros v; [reflexivity|]. cbn. destruct (give nu g v); [apply IH|reflexivity]. Qed.
Lemma flags_given nu cs gs : flags cs gs -> forall rest v, exists v',
  give_all nu gs v = Some v' /\ process_shorts nu (cs ++ rest) v = process_shorts nu rest v'.
Proof.
  induction 1 as [|c s cs gs L N H F IH]; intros rest v; [exists v; split; reflexivity|].
  destruct (IH rest (raise_flag s v)) as [v' [G P]]. exists v'. split; [exact G|].
  cbn [app process_shorts]. apply letter_spec in L. rewrite L. apply takes_plain in N. rewrite N.
  destruct s; try congruence; exact P.
Qed.
Lemma no_equals w : ~ In 61 w -> split_equals w = None.
Proof.
  intros N. destruct (split_equals w) as [[a b]|] eqn:E; [|reflexivity].
  apply split_equals_sound in E. subst. exfalso. apply N. apply in_or_app. right. now left.
Qed.
Lemma dash_dash (w : text) : starts_with (txt "--") (txt "--" ++ w) = true.
Proof. apply starts_spec. now exists w. Qed.
Lemma no_stop (c : Z) r : text_eqb (txt "--" ++ c :: r) (txt "--") = false.
Proof. reflexivity. Qed.

Lemma means_facts w s : means w s ->
  text_eqb w (txt "--") = false /\ starts_with (txt "--") w = true /\ ~ In 61 w /\ match_abbrev w = Some s.
Proof.
  intros M. destruct (means_shape _ _ M) as (c & r & -> & Q). split; [apply no_stop|]. split; [apply dash_dash|].
  split; [exact Q|now apply abbrev_spec].
Qed.
Lemma equals_facts w s x : means w s ->
  text_eqb (w ++ txt "=" ++ x) (txt "--") = false /\ starts_with (txt "--") (w ++ txt "=" ++ x) = true
  /\ split_equals (w ++ txt "=" ++ x) = Some (w, x).
Proof.
  intros M. destruct (means_shape _ _ M) as (c & r & -> & Q). split; [apply no_stop|]. split; [|now apply split_equals_at].
  rewrite <- app_assoc. apply dash_dash.
Qed.

Lemma process_short nu d ds ws largs v : (d =? 45) = false ->
  process nu ((txt "-" ++ d :: ds) :: ws) largs v
  = match process_shorts nu (d :: ds) v with
    | SWrong => PError
    | SHelp => PHelp
    | SDone v' => process nu ws largs v'
    | SNeeds s v' =>
        match ws with
        | [] => PError
        | x :: ws' => match store nu s x v' with Some v'' => process nu ws' largs v'' | None => PError end
        end
    end.
Proof.
  intros D. assert (A : text_eqb (txt "-" ++ d :: ds) (txt "--") = false).
  { apply text_eqb_neq. intros E. injection E as E _. apply Z.eqb_neq in D. congruence. }
  assert (B : starts_with (txt "--") (txt "-" ++ d :: ds) = false).
  { destruct (starts_with _ _) eqn:E; [|reflexivity]. apply starts_spec in E. destruct E as [r E]. injection E as E _.
    apply Z.eqb_neq in D. congruence. }
  cbn [process]. rewrite A, B. reflexivity.
Qed.

Lemma item_process nu i gs args : item i gs args -> forall ws largs v,
  process nu (i ++ ws) largs v
  = match give_all nu gs v with Some v' => process nu ws (largs ++ args) v' | None => PError end.
Proof.
  destruct 1 as [w s M N H|w s x M N|w s x M N|cs gs F E|cs gs c s x F L N E|cs gs c s x F L N|w W]; intros ws largs v.
  - destruct (means_facts _ _ M) as (F1 & F2 & Q & A). cbn [app process].
    rewrite F1, F2, (no_equals _ Q), A. apply takes_plain in N. rewrite N.
    cbn [give_all give fst snd]. rewrite app_nil_r. destruct s; congruence.
  - destruct (means_facts _ _ M) as (F1 & F2 & Q & A). cbn [app process].
    rewrite F1, F2, (no_equals _ Q), A. apply takes_valued in N. rewrite N.
    cbn [give_all give fst snd]. rewrite app_nil_r. now destruct (store nu s x v).
  - destruct (equals_facts _ _ x M) as (F1 & F2 & Q). destruct (means_facts _ _ M) as (_ & _ & _ & A).
    cbn [app process]. change (w ++ 61 :: x) with (w ++ txt "=" ++ x). rewrite F1, F2, Q, A. apply takes_valued in N. rewrite N.
    cbn [give_all give fst snd]. rewrite app_nil_r. now destruct (store nu s x v).
  - destruct cs as [|c cs]; [congruence|]. cbn [app].
    assert (C : (c =? 45) = false).
    { inversion F; subst. apply Z.eqb_neq. intros ->. apply letter_in in H1. cbn in H1. intuition discriminate. }
    rewrite (process_short nu c cs _ _ _ C).
    destruct (flags_given nu _ _ F [] v) as [v' [G P]]. rewrite app_nil_r in P. rewrite P, G. cbn [process_shorts]. now rewrite app_nil_r.
  - assert (D : exists d ds, cs ++ [c] ++ x = d :: ds /\ (d =? 45) = false).
    { destruct cs as [|d cs]; [exists c, x|exists d, (cs ++ [c] ++ x)]; (split; [reflexivity|]).
      - apply Z.eqb_neq. intros ->. apply letter_in in L. cbn in L. intuition discriminate.
      - inversion F; subst. apply Z.eqb_neq. intros ->. apply letter_in in H1. cbn in H1. intuition discriminate. }
    destruct D as (d & ds & D & C). destruct (flags_given nu _ _ F ([c] ++ x) v) as [v' [G P]]. rewrite D in P |- *.
    cbn [app]. rewrite (process_short nu d ds _ _ _ C), P, give_app, G. cbn [process_shorts app]. apply letter_spec in L. rewrite L. apply takes_valued in N. rewrite N.
    destruct x as [|e x]; [congruence|]. cbn [give_all give fst snd]. destruct (store nu s (e :: x) v'); [now rewrite app_nil_r|reflexivity].
  - assert (D : exists d ds, cs ++ [c] = d :: ds /\ (d =? 45) = false).
    { destruct cs as [|d cs]; [exists c, []|exists d, (cs ++ [c])]; (split; [reflexivity|]).
      - apply Z.eqb_neq. intros ->. apply letter_in in L. cbn in L. intuition discriminate.
      - inversion F; subst. apply Z.eqb_neq. intros ->. apply letter_in in H1. cbn in H1. intuition discriminate. }
    destruct D as (d & ds & D & C). destruct (flags_given nu _ _ F [c] v) as [v' [G P]]. rewrite D in P |- *.
    cbn [app]. rewrite (process_short nu d ds _ _ _ C), P, give_app, G. cbn [process_shorts app]. apply letter_spec in L. rewrite L. apply takes_valued in N. rewrite N.
    cbn [give_all give fst snd]. destruct (store nu s x v'); [now rewrite app_nil_r|reflexivity].
  - cbn [app give_all]. destruct W as [-> |W]; [reflexivity|].
    destruct w as [|a w]; [reflexivity|].
    assert (A : (a =? 45) = false) by (apply Z.eqb_neq; intros ->; now apply (W w)).
    assert (A1 : text_eqb (a :: w) (txt "--") = false).
    { apply text_eqb_neq. intros E. injection E as E _. apply Z.eqb_neq in A. congruence. }
    assert (A2 : starts_with (txt "--") (a :: w) = false).
    { destruct (starts_with _ _) eqn:E; [|reflexivity]. apply starts_spec in E. destruct E as [r E]. injection E as E _.
      apply Z.eqb_neq in A. congruence. }
    cbn [process]. rewrite A1, A2.
    destruct a as [|p|p]; try reflexivity.
    repeat (destruct p as [p|p|]; try reflexivity; try discriminate A).
Qed.
Lemma reads_process nu ws gs args : reads ws gs args -> forall largs v,
  process nu ws largs v = match give_all nu gs v with Some v' => PLine v' (largs ++ args) | None => PError end.
Proof.
  induction 1 as [|rest|i gs args ws gs' args' I R IH]; intros largs v.
  - cbn. now rewrite app_nil_r.
  - reflexivity.
  - rewrite (item_process nu _ _ _ I), give_app. destruct (give_all nu gs v); [|reflexivity]. now rewrite IH, app_assoc.
Qed.
Lemma asks_process nu ws gs : asks ws gs -> forall largs v,
  process nu ws largs v = match give_all nu gs v with Some v' => PHelp | None => PError end.
Proof.
  induction 1 as [w ws M|cs gs c rest ws F L|i gs args ws gs' I R IH]; intros largs v.
  - destruct (means_facts _ _ M) as (F1 & F2 & Q & A). cbn [app process].
    rewrite F1, F2, (no_equals _ Q), A. reflexivity.
  - assert (D : exists d ds, cs ++ [c] ++ rest = d :: ds /\ (d =? 45) = false).
    { destruct cs as [|d cs]; [exists c, rest|exists d, (cs ++ [c] ++ rest)]; (split; [reflexivity|]).
      - apply Z.eqb_neq. intros ->. apply letter_in in L. cbn in L. intuition discriminate.
      - inversion F; subst. apply Z.eqb_neq. intros ->. apply letter_in in H1. cbn in H1. intuition discriminate. }
    destruct D as (d & ds & D & C). destruct (flags_given nu _ _ F ([c] ++ rest) v) as [v' [G P]]. rewrite D in P |- *.
    cbn [app]. rewrite (process_short nu d ds _ _ _ C), P, G. cbn [process_shorts app]. apply letter_spec in L. rewrite L. reflexivity.
  - rewrite (item_process nu _ _ _ I), give_app. destruct (give_all nu gs v); [|reflexivity]. apply IH.
Qed.

(** ** Every line *)

Lemma letters_view cs : (exists gs, flags cs gs)
  \/ (exists fl gs c s x, cs = fl ++ [c] ++ x /\ flags fl gs /\ letter_name s c /\ has_value s)
  \/ (exists fl gs c rest, cs = fl ++ [c] ++ rest /\ flags fl gs /\ letter_name Help c)
  \/ (exists fl gs c rest, cs = fl ++ [c] ++ rest /\ flags fl gs /\ by_letter c LETTERS = None).
Proof.
  induction cs as [|c cs IH]; [left; exists []; constructor|].
  destruct (by_letter c LETTERS) as [s|] eqn:B.
  - assert (L := B). apply letter_spec in L. destruct (takes s) eqn:T.
    + right. left. exists [], [], c, s, cs. split; [reflexivity|]. split; [constructor|]. split; [exact L|now apply takes_valued].
    + apply takes_plain in T. assert (H : s = Help \/ s <> Help) by (destruct s; (left; reflexivity) || (right; discriminate)).
      destruct H as [-> |H].
      { right. right. left. exists [], [], c, cs. split; [reflexivity|]. split; [constructor|exact L]. }
      destruct IH as [[gs F]|[(fl & gs & d & t & x & -> & F & R)|[(fl & gs & d & x & -> & F & R)|(fl & gs & d & x & -> & F & R)]]].
      * left. exists ((s, None) :: gs). now constructor.
      * right. left. exists (c :: fl), ((s, None) :: gs), d, t, x. split; [reflexivity|]. split; [now constructor|exact R].
      * right. right. left. exists (c :: fl), ((s, None) :: gs), d, x. split; [reflexivity|]. split; [now constructor|exact R].
      * right. right. right. exists (c :: fl), ((s, None) :: gs), d, x. split; [reflexivity|]. split; [now constructor|exact R].
  - right. right. right. exists [], [], c, cs. split; [reflexivity|]. split; [constructor|exact B].
Qed.
Definition view (ws : list text) : Prop :=
  ws = [] \/ (exists rest, ws = txt "--" :: rest)
  \/ (exists i gs args ws', item i gs args /\ i <> [] /\ ws = i ++ ws')
  \/ (exists gs, asks ws gs)
  \/ (forall nu largs v, process nu ws largs v = PError).
Lemma viewed ws : view ws.
Proof.
  destruct ws as [|w ws]; [now left|]. right.
  destruct (text_eqb w (txt "--")) eqn:E; [apply text_eqb_eq in E; subst; left; now exists ws|]. right.
  destruct (starts_with (txt "--") w) eqn:D.
  - destruct (split_equals w) as [[name x]|] eqn:Q.
    + assert (R : forall nu largs v, match_abbrev name = None \/ (exists s, match_abbrev name = Some s /\ takes s = false) ->
        process nu (w :: ws) largs v = PError).
      { intros nu largs v [H|[s [H T]]]; cbn [process]; rewrite E, D, Q, H; [reflexivity|]. now rewrite T. }
      destruct (match_abbrev name) as [s|] eqn:M.
      * destruct (takes s) eqn:T; [|right; right; intros; apply R; right; now exists s].
        left. exists [w], [(s, Some x)], [], ws. split; [|now split].
        apply split_equals_sound in Q. subst w. apply abbrev_spec in M. apply takes_valued in T. exact (item_equals name s x M T).
      * right. right. intros. apply R. now left.
    + destruct (match_abbrev w) as [s|] eqn:M.
      * assert (M' := M). apply abbrev_spec in M'. destruct (takes s) eqn:T.
        -- assert (T' := T). apply takes_valued in T'. destruct ws as [|x ws].
           ++ right. right. intros nu largs v. cbn [process]. now rewrite E, D, Q, M, T.
           ++ left. exists [w; x], [(s, Some x)], [], ws. split; [now constructor|]. now split.
        -- apply takes_plain in T. assert (H : s = Help \/ s <> Help) by (destruct s; (left; reflexivity) || (right; discriminate)).
           destruct H as [-> |H]; [right; left; exists []; now constructor|].
           left. exists [w], [(s, None)], [], ws. split; [now constructor|]. now split.
      * right. right. intros nu largs v. cbn [process]. now rewrite E, D, Q, M.
  - destruct w as [|a w]; [left; exists [[]], [], [[]], ws; split; [constructor; right; intros r X; discriminate X|now split]|].
    destruct (Z.eqb_spec a 45) as [-> |A].
    + destruct w as [|c cs]; [left; exists [[45]], [], [[45]], ws; split; [constructor; now left|now split]|].
      assert (C : (c =? 45) = false).
      { apply Z.eqb_neq. intros ->. assert (X : starts_with (txt "--") (45 :: 45 :: cs) = true) by (apply starts_spec; now exists cs).
        congruence. }
      change (45 :: c :: cs) with (txt "-" ++ c :: cs) in *.
      destruct (letters_view (c :: cs)) as [[gs F]|[(fl & gs & d & s & x & X & F & L & V)|[(fl & gs & d & x & X & F & L)|(fl & gs & d & x & X & F & N)]]].
      * left. exists [txt "-" ++ c :: cs], gs, [], ws. split; [constructor; [exact F|discriminate]|]. now split.
      * destruct x as [|y x].
        -- destruct ws as [|x ws].
           ++ right. right. intros nu largs v. rewrite (process_short nu c cs _ _ _ C), X.
              destruct (flags_given nu _ _ F ([d] ++ []) v) as [v' [G P]]. rewrite P. cbn [process_shorts app].
              apply letter_spec in L. rewrite L. apply takes_valued in V. now rewrite V.
           ++ left. exists [txt "-" ++ c :: cs; x], (gs ++ [(s, Some x)]), [], ws. split; [|now split].
              rewrite X, app_nil_r. now constructor.
        -- left. exists [txt "-" ++ c :: cs], (gs ++ [(s, Some (y :: x))]), [], ws. split; [|now split].
           rewrite X. apply item_attached; auto. discriminate.
      * right. left. exists gs. rewrite X. now constructor.
      * right. right. intros nu largs v. rewrite (process_short nu c cs _ _ _ C), X.
        destruct (flags_given nu _ _ F ([d] ++ x) v) as [v' [G P]]. rewrite P. cbn [process_shorts app]. now rewrite N.
    + left. exists [a :: w], [], [a :: w], ws. split; [|now split]. constructor. right. intros r X. injection X as X _. congruence.
Qed.
Lemma process_line nu ws : forall largs v,
  match process nu ws largs v with
  | PLine v' a => exists gs args, reads ws gs args /\ give_all nu gs v = Some v' /\ a = largs ++ args
  | PHelp => exists gs, asks ws gs /\ give_all nu gs v <> None
  | PError => True
  end.
Proof.
  remember (List.length ws) as n eqn:N. revert ws N. induction n as [n IH] using lt_wf_ind. intros ws N largs v.
  destruct (viewed ws) as [-> |[[rest ->]|[(i & gs & args & ws' & I & Q & ->)|[[gs A]|E]]]].
  - exists [], []. split; [constructor|]. split; [reflexivity|]. now rewrite app_nil_r.
  - exists [], rest. split; [constructor|]. now split.
  - rewrite (item_process nu _ _ _ I). destruct (give_all nu gs v) as [v1|] eqn:G; [|exact Logic.I].
    assert (L : (List.length ws' < n)%nat).
    { subst n. rewrite app_length. destruct i; [congruence|]. cbn. lia. }
    assert (J := IH _ L ws' eq_refl (largs ++ args) v1).
    destruct (process nu ws' (largs ++ args) v1) as [| |v' a]; [|exact Logic.I|].
    + destruct J as (gs' & A & D). exists (gs ++ gs'). split; [econstructor; eassumption|]. now rewrite give_app, G.
    + destruct J as (gs' & args' & R & D & ->). exists (gs ++ gs'), (args ++ args'). split; [now constructor|].
      rewrite give_app, G. split; [exact D|]. now rewrite app_assoc.
  - rewrite (asks_process nu _ _ A). destruct (give_all nu gs v) as [v1|] eqn:G; [|exact Logic.I].
    exists gs. split; [exact A|]. rewrite G. discriminate.
  - now rewrite E.
Qed.

(** ** Values *)

Lemma int_spec nu v z : option_int nu v = Some z <-> number nu v z.
Proof.
  split.
  - assert (D : forall w, (forall r, w <> txt "0" ++ r) -> nu 10 w = Some z -> number nu w z) by (intros; now constructor).
    destruct v as [|a v]; [intros H; apply D; [intros r X; discriminate X|exact H]|].
    destruct (Z.eqb_spec a 48) as [-> |A].
    + destruct v as [|c r]; intros H.
      * apply (number_oct nu [] z); [|exact H]. intros l r' I X. cbn in I.
        repeat (destruct I as [<-|I]; [discriminate X|]). destruct I.
      * cbn [option_int] in H. destruct (Z.eqb_spec c 120) as [-> |C1].
        { apply (number_hex nu (txt "x") r z); [now left|exact H]. }
        destruct (Z.eqb_spec c 88) as [-> |C2].
        { apply (number_hex nu (txt "X") r z); [now right|exact H]. }
        cbn [orb] in H. destruct (Z.eqb_spec c 98) as [-> |C3].
        { cbn [orb] in H. destruct r as [|d r]; [apply (number_no_bin nu (txt "b") z); [now left|exact H]|].
          apply (number_bin nu (txt "b") (d :: r) z); [now left|discriminate|exact H]. }
        destruct (Z.eqb_spec c 66) as [-> |C4].
        { cbn [orb] in H. destruct r as [|d r]; [apply (number_no_bin nu (txt "B") z); [now right|exact H]|].
          apply (number_bin nu (txt "B") (d :: r) z); [now right|discriminate|exact H]. }
        cbn [orb] in H. apply (number_oct nu (c :: r) z); [|exact H]. intros l r' I X. cbn in I.
        repeat (destruct I as [<-|I]; [injection X as X _; congruence|]). destruct I.
    + intros H. apply D; [intros r X; injection X as X _; congruence|]. unfold option_int in H.
      destruct a as [|p|p]; try exact H. repeat (destruct p as [p|p|]; try exact H; try congruence).
  - intros [x r z' [-> | ->] H|b r z' [-> | ->] R H|b z' [-> | ->] H|r z' R H|w z' R H]; try exact H.
    + destruct r as [|d r]; [congruence|exact H].
    + destruct r as [|d r]; [congruence|exact H].
    + destruct r as [|c r]; [exact H|]. change (txt "0" ++ c :: r) with (48 :: c :: r) in *. cbn [option_int].
      assert (Q : forall l, In l [txt "x"; txt "X"; txt "b"; txt "B"] -> l <> [c]).
      { intros l I ->. now apply (R [c] r I). }
      assert (c <> 120 /\ c <> 88 /\ c <> 98 /\ c <> 66).
      { repeat split; intros ->; [apply (Q (txt "x"))|apply (Q (txt "X"))|apply (Q (txt "b"))|apply (Q (txt "B"))]; cbn; tauto. }
      replace ((c =? 120) || (c =? 88)) with false by lia. replace ((c =? 98) || (c =? 66)) with false by lia. exact H.
    + destruct w as [|a w]; [exact H|]. assert (A : a <> 48) by (intros ->; now apply (R w)).
      unfold option_int. destruct a as [|p|p]; try exact H. repeat (destruct p as [p|p|]; try exact H; try congruence).
Qed.

(** A value is found by going through the list. *)
Lemma final_other {A} s (r : text -> A -> Prop) d gs a g : final s r d gs a -> fst g <> s -> final s r d (gs ++ [g]) a.
Proof.
  intros F N. destruct F as [gs F|gs x gs' a F R].
  - constructor. intros x I. apply in_app_or in I. destruct I as [I|[I|[]]]; [now apply (F x)|subst; now apply N].
  - rewrite <- app_assoc. cbn [app]. constructor; [|exact R]. intros y I. apply in_app_or in I.
    destruct I as [I|[I|[]]]; [now apply (F y)|subst; now apply N].
Qed.
Lemma final_last {A} s (r : text -> A -> Prop) d gs x a : r x a -> final s r d (gs ++ [(s, Some x)]) a.
Proof. intros R. constructor; [intros y []|exact R]. Qed.
Lemma final_fun {A} s (r : text -> A -> Prop) d gs : (forall x a b, r x a -> r x b -> a = b) ->
  forall a b, final s r d gs a -> final s r d gs b -> a = b.
Proof.
  intros U a b F. destruct F as [gs F|gs x gs' a F R]; intros G.
  - inversion G; subst; [reflexivity|]. exfalso. apply (F (Some x)). apply in_or_app. right. now left.
  - inversion G as [gs0 G1|gs1 y gs1' a0 G1 R1 E]; subst; [exfalso; apply (G1 (Some x)); apply in_or_app; right; now left|].
    apply (U x); [exact R|]. assert (X : x = y); [|now subst].
    clear -F G1 E. revert gs E. induction gs1 as [|g gs1 IH]; intros gs E.
    + destruct gs as [|h gs]; cbn [app] in E; [now injection E|]. injection E as E1 E2. exfalso. apply (G1 (Some x)). rewrite E2. apply in_or_app. right. now left.
    + destruct gs as [|h gs]; cbn [app] in E; [injection E as E1 E2; exfalso; apply (F (Some y)); rewrite <- E2; apply in_or_app; right; now left|].
      injection E as _ E. now apply (IH gs).
Qed.
Lemma number_fun nu x a b : number nu x a -> number nu x b -> a = b.
Proof. rewrite <- !int_spec. congruence. Qed.
Lemma some_fun {A} (r : text -> A -> Prop) : (forall x a b, r x a -> r x b -> a = b) ->
  forall x a b, some r x a -> some r x b -> a = b.
Proof. intros U x a b (p & P & ->) (q & Q & ->). f_equal. now apply (U x). Qed.

(** Options that take a value have one, the others have none. *)
Definition shaped (g : given) : Prop :=
  (snd g = None /\ has_none (fst g) /\ fst g <> Help) \/ (exists x, snd g = Some x) /\ has_value (fst g).
Lemma flags_shaped cs gs : flags cs gs -> Forall shaped gs.
Proof. induction 1; constructor; [left; now repeat split|assumption]. Qed.
Lemma item_shaped i gs args : item i gs args -> Forall shaped gs.
Proof.
  destruct 1; try (apply Forall_app; split); try (eapply flags_shaped; eassumption); try apply Forall_nil;
    (apply Forall_cons; [|apply Forall_nil]);
    first [left; cbn [fst snd]; now repeat split|right; split; [now eexists|assumption]].
Qed.
Lemma reads_shaped ws gs args : reads ws gs args -> Forall shaped gs.
Proof. induction 1; [constructor|constructor|]. apply Forall_app. split; [eapply item_shaped; eassumption|assumption]. Qed.
Lemma asks_shaped ws gs : asks ws gs -> Forall shaped gs.
Proof. induction 1; [constructor|eapply flags_shaped; eassumption|]. apply Forall_app. split; [eapply item_shaped; eassumption|assumption]. Qed.

(** The values that options give. *)
Definition amount (nu : numbers) (gs : list given) (v : values) : Prop :=
  flagged Quiet gs (v_quiet v) /\ flagged Spy gs (v_spy v) /\ final Port (some itself) None gs (v_port v)
  /\ final Baud (number nu) 9600 gs (v_baud v) /\ final Parity itself (txt "N") gs (v_parity v)
  /\ flagged Rtscts gs (v_rtscts v) /\ flagged Xonxoff gs (v_xonxoff v)
  /\ final Rts (some (number nu)) None gs (v_rts v) /\ final Dtr (some (number nu)) None gs (v_dtr v)
  /\ final LocalPort (number nu) 7777 gs (v_local v) /\ flagged Convert gs (v_convert v)
  /\ final NetNl itself (txt "LF") gs (v_net v) /\ final SerNl itself (txt "CR+LF") gs (v_ser v).
Lemma flagged_other s gs b g : flagged s gs b -> g <> (s, None) -> flagged s (gs ++ [g]) b.
Proof.
  unfold flagged. intros -> N. rewrite in_app_iff. split; [now left|]. intros [I|[I|[]]]; [exact I|congruence].
Qed.
Lemma flagged_same s gs : flagged s (gs ++ [(s, None)]) true.
Proof. split; [intros _|reflexivity]. apply in_or_app. right. now left. Qed.
Lemma give_amount nu gs : Forall shaped gs ->
  match give_all nu gs unset with
  | Some v => Forall (proper nu) gs /\ amount nu gs v
  | None => ~ Forall (proper nu) gs
  end.
Proof.
  induction gs as [|g gs IH] using rev_ind; intros S.
  - split; [constructor|]. unfold amount, unset.
    cbn [v_quiet v_spy v_port v_baud v_parity v_rtscts v_xonxoff v_rts v_dtr v_local v_convert v_net v_ser].
    repeat match goal with |- _ /\ _ => split end;
      first [apply final_none; intros x []|unfold flagged; split; [discriminate|intros []]].
  - apply Forall_app in S. destruct S as [S Sg]. apply Forall_cons_iff in Sg. destruct Sg as [Sg _]. specialize (IH S).
    rewrite give_app. destruct (give_all nu gs unset) as [v|].
    2:{ intros F. apply IH. now apply Forall_app in F. }
    destruct IH as [P A]. cbn [give_all].
    assert (Pr : (exists v', give nu g v = Some v' /\ proper nu g /\ amount nu (gs ++ [g]) v') \/ (give nu g v = None /\ ~ proper nu g)).
    { destruct v as [q spy p b par rc xx rts dtr l c n e]. unfold amount in A.
      cbn [v_quiet v_spy v_port v_baud v_parity v_rtscts v_xonxoff v_rts v_dtr v_local v_convert v_net v_ser] in A.
      destruct A as (A1 & A2 & A3 & A4 & A5 & A6 & A7 & A8 & A9 & A10 & A11 & A12 & A13).
      destruct g as [s x]. destruct Sg as [(X & N & H)|([y X] & V)]; cbn [fst snd] in *; subst x.
      - left. eexists. split; [reflexivity|]. split; [intros [W|[W|[W|[W|[]]]]]; cbn in W; subst s; destruct N as (?&?&N); inversion N|].
        destruct N as (ln & nm & N). destruct N; try congruence; unfold amount;
          cbn [raise_flag fst v_quiet v_spy v_port v_baud v_parity v_rtscts v_xonxoff v_rts v_dtr v_local v_convert v_net v_ser];
          repeat match goal with |- _ /\ _ => split end;
          try (apply flagged_same); try (apply flagged_other; [assumption|congruence]); (apply final_other; [assumption|cbn; congruence]).
      - assert (Int : numeric s -> forall z, option_int nu y = Some z -> proper nu (s, Some y)).
        { intros _ z O _. exists y, z. split; [reflexivity|now apply int_spec]. }
        assert (Bad : numeric s -> option_int nu y = None -> ~ proper nu (s, Some y)).
        { intros Nu O Pp. destruct (Pp Nu) as (x & z & X & Nz). cbn in X. injection X as <-. apply int_spec in Nz. congruence. }
        destruct V as (ln & nm & V).
        destruct V; unfold give; cbn [fst snd store]; try (destruct (option_int nu y) as [z|] eqn:O;
          [|right; split; [reflexivity|apply Bad; [cbn; tauto|reflexivity]]]);
        left; eexists; (split; [reflexivity|]); (split; [first [eapply Int; [cbn; tauto|reflexivity]|intros [W|[W|[W|[W|[]]]]]; discriminate W]|]);
        try (apply int_spec in O); unfold amount;
        cbn [v_quiet v_spy v_port v_baud v_parity v_rtscts v_xonxoff v_rts v_dtr v_local v_convert v_net v_ser];
        repeat match goal with |- _ /\ _ => split end;
        try (apply flagged_other; [assumption|congruence]);
        first [apply final_other; [assumption|cbn; congruence]
              |apply final_last; first [exact O|reflexivity|eexists; split; [first [exact O|reflexivity]|reflexivity]]]. }
    destruct Pr as [(v' & -> & Pg & Am)|[-> Ng]].
    + split; [apply Forall_app; split; [exact P|now constructor]|exact Am].
    + intros F. apply Ng. apply Forall_app in F. destruct F as [_ F]. now apply Forall_cons_iff in F.
Qed.
