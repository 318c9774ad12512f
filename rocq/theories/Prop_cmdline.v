(** C77: the command line of the daemon. *)
From Coq Require Import List ZArith Bool String Lia.
From Verif Require Import Py Text Cbz Cmqttd Daemon Startup Spec_mqtt Spec_startup Mqtt_facts Prop_startup
  Cmdline Spec_cmdline Cmdline_facts.
Import ListNotations.
Notation length := List.length.
Open Scope Z_scope.

(** ** Any words: TLS *)

Definition TLS : text := txt "--broker-disable-tls".
Lemma asks_nth w : asks_plaintext w <-> exists k, (10 <= k <= 20)%nat /\ w = firstn k TLS.
Proof.
  split.
  - intros (a & b & E & -> & c & ->). exists (length (txt "--broker-d" ++ c)).
    assert (L : (length TLS = length (txt "--broker-d" ++ c) + length b)%nat)
      by (unfold TLS; rewrite E, app_length; reflexivity).
    assert (L' : (length (txt "--broker-d" ++ c) = 10 + length c)%nat) by (rewrite app_length; reflexivity).
    assert (L'' : length TLS = 20%nat) by reflexivity. split; [lia|].
    unfold TLS. rewrite E. rewrite firstn_app, Nat.sub_diag, firstn_O, app_nil_r, firstn_all. reflexivity.
  - intros (k & K & ->). exists (firstn k TLS), (skipn k TLS).
    split; [symmetry; apply firstn_skipn|]. split; [reflexivity|].
    exists (firstn (k - 10) (skipn 10 TLS)).
    replace k with (10 + (k - 10))%nat at 1 by lia.
    change TLS with (txt "--broker-d" ++ skipn 10 TLS) at 1.
    rewrite (firstn_app_2 (k - 10) (txt "--broker-d")). reflexivity.
Qed.

Lemma find_option_in w l o : find_option w l = Some o -> In (w, o) l.
Proof.
  induction l as [|[n p] l IH]; [discriminate|]. cbn. destruct (text_eqb n w) eqn:E.
  - intros H. inversion H; subst. apply text_eqb_eq in E. subst. auto.
  - auto.
Qed.
Lemma tls_name w : In (w, ODisableTls) option_strings -> w = TLS.
Proof.
  intros I. cbn in I. repeat (destruct I as [I|I]; [try discriminate; inversion I; reflexivity|]). destruct I.
Qed.
Lemma short_not_tls c : find_option [45; c] option_strings <> Some ODisableTls.
Proof. intros H. apply find_option_in, tls_name in H. discriminate. Qed.

Lemma asks_kind u w : asks_plaintext w ->
  text_eqb w (txt "--") = false /\ parse_optional u w = Some (KOption (Some ODisableTls)
    (match length w with 20%nat => w | _ => TLS end) false None).
Proof.
  intros A. apply asks_nth in A. destruct A as (k & K & ->).
  do 10 (destruct k as [|k]; [lia|]).
  do 11 (destruct k as [|k]; [split; vm_compute; reflexivity|]). lia.
Qed.

Lemma candidates_in w o name sep x : In (o, name, sep, x) (candidates w) -> In (name, o) option_strings.
Proof.
  assert (F : forall f b e, In (o, name, sep, x) (map (fun p : text * opt => (snd p, fst p, b, e))
                (filter f option_strings)) -> In (name, o) option_strings).
  { intros f b e H. apply in_map_iff in H. destruct H as ([n p] & E & I). apply filter_In in I.
    cbn in E. inversion E; subst. apply I. }
  destruct w as [|a w]; [intros []|]. unfold candidates.
  destruct (Z.eq_dec a 45) as [->|N].
  - destruct w as [|b w]; [intros []|]. destruct (Z.eq_dec b 45) as [->|N].
    + destruct (split_equals (45 :: 45 :: w)) as [[p e]|]; intros H; eapply F; exact H.
    + intros H. assert (H' : In (o, name, sep, x) (map (fun p : text * opt => (snd p, fst p, false, Some w))
                (filter (fun e => text_eqb (fst e) [45; b]) option_strings))).
      { revert H. destruct b as [|p|p]; auto. do 6 (destruct p as [p|p|]; auto). contradiction. }
      eapply F. exact H'.
  - intros H. exfalso. revert H. destruct a as [|p|p]; auto. do 6 (destruct p as [p|p|]; auto).
Qed.

Lemma short_ambiguous k : (2 <= k < 10)%nat -> exists a b r,
  filter (fun e => starts_with (firstn k TLS) (fst e)) option_strings = a :: b :: r.
Proof.
  intros [L H]. do 2 (destruct k as [|k]; [lia|]).
  do 8 (destruct k as [|k]; [do 3 eexists; vm_compute; reflexivity|]). lia.
Qed.

(** A word read as the option is one that asks for it, or has an argument that the
    option does not take. *)
Lemma kind_asks u w name sep x : parse_optional u w = Some (KOption (Some ODisableTls) name sep x) ->
  is_long name = true /\ (x = None -> asks_plaintext w).
Proof.
  assert (T : asks_plaintext TLS) by (apply asks_nth; exists 20%nat; split; [lia|reflexivity]).
  intros E. unfold parse_optional in E. destruct w as [|c rest]; [discriminate|].
  destruct (c =? 45) eqn:C; cbn [negb] in E; [|discriminate]. apply Z.eqb_eq in C. subst c.
  destruct (find_option (45 :: rest) option_strings) as [o|] eqn:F.
  { inversion E; subst. apply find_option_in, tls_name in F. rewrite F. split; [reflexivity|auto]. }
  destruct rest as [|d rest]; [discriminate|]. set (w := 45 :: d :: rest) in *.
  assert (Cd : match candidates w with
      | [(o, name, sep, explicit)] => Some (KOption (Some o) name sep explicit)
      | _ :: _ :: _ => None
      | [] => if negative_number u w then Some KArg
              else if mem 32 w then Some KArg else Some (KOption None w false None)
      end = Some (KOption (Some ODisableTls) name sep x) -> is_long name = true /\ (x = None -> asks_plaintext w)).
  { clear E. intros E. destruct (candidates w) as [|[[[o n] b] e] [|]] eqn:K; [|inversion E; subst|discriminate].
    { destruct (negative_number u w); [discriminate|]. destruct (mem 32 w); discriminate. }
    assert (I : In (ODisableTls, name, sep, x) (candidates w)) by (rewrite K; left; reflexivity).
    apply candidates_in, tls_name in I. subst name. split; [reflexivity|]. intros ->.
    unfold candidates in K. unfold w in K at 1.
    destruct (Z.eq_dec d 45) as [->|N].
    - destruct (split_equals w) as [[p q]|] eqn:S; cbv beta iota zeta in K.
      + exfalso. match type of K with ?L = _ =>
          assert (I : In (ODisableTls, TLS, sep, @None text) L) by (rewrite K; left; reflexivity) end.
        apply in_map_iff in I. destruct I as (? & I & _). discriminate.
      + assert (P : starts_with w TLS = true).
        { match type of K with ?L = _ =>
          assert (I : In (ODisableTls, TLS, sep, @None text) L) by (rewrite K; left; reflexivity) end.
          apply in_map_iff in I. destruct I as ([a b'] & I & J). apply filter_In in J. cbn in I, J.
          inversion I; subst. apply J. }
        apply starts_with_spec in P. destruct P as (r & P).
        assert (W : w = firstn (length w) TLS).
        { rewrite P, firstn_app, Nat.sub_diag, firstn_O, app_nil_r, firstn_all. reflexivity. }
        assert (L : (length w <= 20)%nat).
        { pose proof (f_equal (@List.length Z) P) as L. rewrite app_length in L.
          change (length TLS) with 20%nat in L. lia. }
        assert (L2 : (2 <= length w)%nat) by (unfold w; cbn; lia).
        apply asks_nth. exists (length w). split; [split; [|exact L]|exact W].
        destruct (Nat.le_gt_cases 10 (length w)) as [H|H]; [exact H|]. exfalso.
        destruct (short_ambiguous (length w) (conj L2 H)) as (a & b & r' & X).
        rewrite <- W in X. rewrite X in K. discriminate.
    - exfalso. assert (I : In (ODisableTls, TLS, sep, @None text)
         (map (fun e : text * opt => (snd e, fst e, false, Some rest))
              (filter (fun e => text_eqb (fst e) [45; d]) option_strings))).
      { revert K. clear - N. intros K.
        assert (H : forall (A : Type) (p q : A), match d with 45 => p | _ => q end = q).
        { intros A p q. destruct d as [|p0|p0]; try reflexivity.
          do 6 (destruct p0 as [p0|p0|]; try reflexivity). contradiction. }
        rewrite H in K. rewrite K. left. reflexivity. }
      apply in_map_iff in I. destruct I as (? & I & _). discriminate. }
  destruct (split_equals w) as [[a b]|]; [|auto].
  destruct (find_option a option_strings) as [o|] eqn:Fa; [|auto].
  inversion E; subst. apply find_option_in, tls_name in Fa. subst. split; [reflexivity|discriminate].
Qed.

(** The flags and the last option of a cluster. *)
Definition parts (r : cluster) : list opt :=
  match r with Cluster fl last _ => fl ++ [last] | Loose fl => fl | BadCluster => [] end.
Lemma parts_prepend o r : ~ In ODisableTls (parts r) -> o <> ODisableTls -> ~ In ODisableTls (parts (prepend o r)).
Proof. intros A B. destruct r; cbn; auto; intros [H|H]; auto. Qed.
Lemma cluster_tls m : forall x o long sep, (length x <= m)%nat -> o <> ODisableTls ->
  ~ In ODisableTls (parts (unfold_cluster o long sep x)).
Proof.
  induction m as [|m IH]; intros x o long sep L N.
  - destruct x; [|cbn in L; lia]. cbn. destruct (is_flag o); [destruct long; intros []|].
    intros [H|[]]. auto.
  - destruct x as [|c x]; [apply IH; [cbn; lia|exact N]|]. cbn [unfold_cluster].
    destruct (is_flag o); [|intros [H|[]]; auto].
    destruct long; [intros []|]. destruct (sep || (c =? 45))%bool; [intros []|].
    destruct (find_option [45; c] option_strings) as [o'|] eqn:F; [|intros [H|[]]; auto].
    assert (N' : o' <> ODisableTls) by (intros ->; apply (short_not_tls c F)).
    apply parts_prepend; [|exact N]. cbn in L. destruct x as [|d x]; [intros [H|[]]; auto|].
    destruct (d =? 61); apply IH; auto; cbn in *; lia.
Qed.

(** The flag, of an occurrence of an option. *)
Definition is_tls (k : kind) : bool :=
  match k with KOption (Some ODisableTls) _ _ None => true | _ => false end.
Definition sane (e : text * kind) : Prop :=
  forall name sep x, snd e = KOption (Some ODisableTls) name sep x -> is_long name = true.

Lemma option_loose o name sep x : sane ([], KOption (Some o) name sep x) ->
  match x with Some _ => ~ In ODisableTls (parts (option_of o name sep x)) | None => True end.
Proof.
  intros Sa. destruct x as [x|]; [|constructor]. unfold option_of.
  destruct o; try (apply (cluster_tls (length x)); [apply le_n|discriminate]).
  rewrite (Sa _ _ _ eq_refl). destruct x; intros [].
Qed.
Lemma option_tls o name sep x fl last e : sane ([], KOption (Some o) name sep x) ->
  option_of o name sep x = Cluster fl last e ->
  if is_tls (KOption (Some o) name sep x) then fl = [] /\ last = ODisableTls
  else ~ In ODisableTls fl /\ last <> ODisableTls.
Proof.
  intros Sa E. pose proof (option_loose _ _ _ _ Sa) as P. destruct x as [x|].
  - replace (is_tls (KOption (Some o) name sep (Some x))) with false by (destruct o; reflexivity).
    rewrite E in P. cbn [parts] in P. split; [intros H|intros ->]; apply P, in_or_app; [left; exact H|].
    right. left. reflexivity.
  - inversion E; subst. destruct last; cbn [is_tls]; try (split; [intros []|discriminate]).
    split; reflexivity.
Qed.

Lemma store_tls u fs o v n n' : store u fs o v n = Some n' -> n_disable_tls n' = n_disable_tls n.
Proof.
  destruct n. unfold store. destruct o; intros E; try discriminate;
    try (inversion E; reflexivity);
    repeat match type of E with context [match ?t with _ => _ end] => destruct t end;
    try discriminate; inversion E; reflexivity.
Qed.
Lemma raise_tls o n n' : raise_flag o n = Some n' ->
  n_disable_tls n' = (n_disable_tls n || opt_eqb o ODisableTls)%bool.
Proof. destruct n. destruct o; intros E; inversion E; cbn; rewrite ?orb_false_r, ?orb_true_r; reflexivity. Qed.
Lemma raises_tls l : forall n n', raise_flags l n = Some n' ->
  n_disable_tls n' = (n_disable_tls n || existsb (fun o => opt_eqb o ODisableTls) l)%bool.
Proof.
  induction l as [|o l IH]; intros n n' E; cbn in *; [inversion E; rewrite orb_false_r; reflexivity|].
  destruct (raise_flag o n) as [m|] eqn:R; [|discriminate].
  rewrite (IH _ _ E), (raise_tls _ _ _ R), orb_assoc. reflexivity.
Qed.
Lemma no_tls_flag l : ~ In ODisableTls l -> existsb (fun o => opt_eqb o ODisableTls) l = false.
Proof.
  intros N. destruct (existsb _ l) eqn:E; [|reflexivity]. apply existsb_exists in E.
  destruct E as (o & I & E). apply opt_eqb_eq in E. subst. contradiction.
Qed.

(** Whatever the words, the invariants of the loop. *)
Lemma consume_facts u fs m : forall l extras n n', (length l <= m)%nat -> Forall sane l ->
  consume u fs l extras n = Parsed n' ->
  extras = false /\ ~ In KSeparator (map snd l)
  /\ n_disable_tls n' = (n_disable_tls n || existsb (fun e => is_tls (snd e)) l)%bool.
Proof.
  induction m as [|m IH]; intros l extras n n' Lm Sa E.
  - destruct l; [|cbn in Lm; lia]. cbn in E.
    destruct (n_address n); [|discriminate]. destruct (n_serial n), (n_tcp n); try discriminate;
      (destruct extras; [discriminate|]; inversion E; subst; rewrite orb_false_r; split; [|split]; auto; intros []).
  - destruct l as [|[w k] l].
    { apply (IH []); [cbn; lia|constructor|exact E]. }
    inversion Sa as [|? ? Sk Sl]; subst. cbn [length] in Lm.
    assert (Ll : (length l <= m)%nat) by lia.
    destruct k as [| |[o|] name sep x]; cbn [consume] in E.
    1,2,4: destruct (IH _ _ _ _ Ll Sl E) as (? & _); discriminate.
    destruct (option_of o name sep x) as [fl last e|fl|] eqn:O; [| |discriminate].
    2: { destruct (raise_flags fl n) as [n1|]; [|discriminate].
         destruct (IH _ _ _ _ Ll Sl E) as (? & _); discriminate. }
    pose proof (option_tls o name sep x fl last e Sk O) as T.
    assert (G : forall n1 l1, (length l1 <= m)%nat -> Forall sane l1 ->
              existsb (fun e => is_tls (snd e)) l1 = existsb (fun e => is_tls (snd e)) l ->
              (~ In KSeparator (map snd l1) -> ~ In KSeparator (map snd l)) ->
              n_disable_tls n1 = (n_disable_tls n || is_tls (KOption (Some o) name sep x))%bool ->
              consume u fs l1 extras n1 = Parsed n' ->
              extras = false /\ ~ In KSeparator (map snd ((w, KOption (Some o) name sep x) :: l))
              /\ n_disable_tls n' = (n_disable_tls n
                   || existsb (fun e => is_tls (snd e)) ((w, KOption (Some o) name sep x) :: l))%bool).
    { intros n1 l1 L1 S1 X1 K1 T1 E1. destruct (IH _ _ _ _ L1 S1 E1) as (A & B & C).
      split; [exact A|]. split.
      - intros [H|H]; [discriminate|]. apply (K1 B H).
      - rewrite C, T1, X1. cbn [existsb snd]. rewrite orb_assoc. reflexivity. }
    assert (FT : forall n1, raise_flags fl n = Some n1 -> last <> ODisableTls ->
              n_disable_tls n1 = (n_disable_tls n || is_tls (KOption (Some o) name sep x))%bool).
    { intros n1 R Nl. rewrite (raises_tls _ _ _ R). destruct (is_tls (KOption (Some o) name sep x)).
      - destruct T as (_ & T). contradiction.
      - rewrite no_tls_flag by apply T. reflexivity. }
    destruct (is_flag last) eqn:Fl.
    + destruct (raise_flags (fl ++ [last]) n) as [n1|] eqn:R; [|discriminate].
      apply (G n1 l); auto. rewrite (raises_tls _ _ _ R), existsb_app. cbn [existsb].
      rewrite orb_false_r. f_equal. destruct (is_tls (KOption (Some o) name sep x)).
      * destruct T as (-> & ->). reflexivity.
      * destruct T as (T1 & T2). rewrite no_tls_flag by exact T1. cbn.
        destruct (opt_eqb last ODisableTls) eqn:X; [|reflexivity]. apply opt_eqb_eq in X. contradiction.
    + assert (Nl : last <> ODisableTls) by (intros ->; discriminate).
      destruct e as [v|].
      * destruct (raise_flags fl n) as [n1|] eqn:R; [|discriminate].
        destruct (store u fs last v n1) as [n2|] eqn:St; [|discriminate].
        apply (G n2 l); auto. rewrite (store_tls _ _ _ _ _ _ St). auto.
      * destruct l as [|[v [| |]] l]; try discriminate.
        destruct (raise_flags fl n) as [n1|] eqn:R; [|discriminate].
        destruct (store u fs last v n1) as [n2|] eqn:St; [|discriminate].
        inversion Sl as [|? ? _ Sl']; subst.
        apply (G n2 l); auto; [cbn in Lm; lia|intros H [K|K]; [discriminate|auto]|].
        rewrite (store_tls _ _ _ _ _ _ St). auto.
Qed.

Lemma classify_facts u ws : forall l, classify u ws = Some l ->
  Forall sane l
  /\ (existsb (fun e => is_tls (snd e)) l = true -> exists w, In w ws /\ asks_plaintext w)
  /\ (~ In KSeparator (map snd l) -> forall w, In w ws -> asks_plaintext w ->
        existsb (fun e => is_tls (snd e)) l = true).
Proof.
  induction ws as [|w ws IH]; intros l E; cbn [classify] in E.
  - inversion E; subst. split; [constructor|]. split; [discriminate|intros _ w []].
  - destruct (text_eqb w (txt "--")).
    + inversion E; subst. split; [|split].
      * constructor; [intros name sep x H; discriminate|]. apply Forall_forall. intros e I.
        apply in_map_iff in I. destruct I as (v & <- & _). intros name sep x H. discriminate.
      * cbn. intros H. exfalso. rewrite existsb_exists in H. destruct H as (e & I & H).
        apply in_map_iff in I. destruct I as (v & <- & _). discriminate.
      * intros H. exfalso. apply H. left. reflexivity.
    + destruct (parse_optional u w) as [k|] eqn:P; [|discriminate].
      destruct (classify u ws) as [l'|]; [|discriminate]. inversion E; subst.
      destruct (IH l' eq_refl) as (I1 & I2 & I3). split; [|split].
      * constructor; [|exact I1]. intros name sep x H. cbn in H. subst k. apply (kind_asks u w name sep x P).
      * cbn [existsb snd]. intros H. apply orb_true_iff in H. destruct H as [H|H].
        -- exists w. split; [left; reflexivity|]. destruct k as [| |[[]|] name sep [x|]]; try discriminate.
           apply (kind_asks u w name sep None P). reflexivity.
        -- destruct (I2 H) as (v & I & A). exists v. split; [right; exact I|exact A].
      * cbn [map snd existsb]. intros N v [<-|I] A.
        -- rewrite (proj2 (asks_kind u w A)) in P. inversion P; subst. reflexivity.
        -- rewrite (I3 (fun H => N (or_intror H)) v I A). apply orb_true_r.
Qed.

(** ** C77 *)

(** A command line made of settings in any of the usual spellings, in any order
    and number, is accepted exactly if its values are good, the broker and exactly
    one interface are given; the options are then those asked for, the last one
    counting.  Otherwise the daemon refuses it. *)
Theorem C77_options u fs ss ws n : command_line ss ws ->
  (parse_args u fs ws = Parsed n <-> asked u fs ss n /\ complete n)
  /\ (parse_args u fs ws = Refused <-> forall m, ~ (asked u fs ss m /\ complete m)).
Proof.
  intros H. destruct (consume_line u fs ss ws H) as (K & l & C & R).
  assert (P : parse_args u fs ws = match run u fs ss defaults with
              | Some m => consume u fs [] false m | None => Refused end)
    by (unfold parse_args; rewrite C; apply R).
  rewrite (run_settings u fs ss K) in P.
  assert (G : forallb (goodb u fs) ss = true <-> Forall (good_value u fs) ss).
  { rewrite forallb_forall, Forall_forall. split; intros F s I; apply goodb_spec; auto. }
  assert (Q : forall m, asked u fs ss m /\ complete m -> parse_args u fs ws = Parsed m).
  { intros m (A & (a & Ha) & p & Cp). apply asked_ns in A. destruct A as (A & ->).
    rewrite P, (proj2 G A). cbn [andb]. cbn in Ha, Cp. unfold conflict.
    destruct Cp as [(Cs & Ct)|(Cs & Ct)]; rewrite Cs, Ct; cbn [is_some andb negb consume];
      cbn [n_address n_serial n_tcp ns_of]; rewrite Ha, Cs, ?Ct; reflexivity. }
  assert (Q' : forall m, parse_args u fs ws = Parsed m -> asked u fs ss m /\ complete m).
  { intros m E. rewrite P in E. destruct (forallb (goodb u fs) ss) eqn:Gb; cbn [andb] in E; [|discriminate].
    destruct (conflict ss) eqn:Cf; cbn [negb] in E; [discriminate|]. cbn [consume] in E.
    unfold conflict in Cf. cbn [n_address n_serial n_tcp ns_of] in E.
    destruct (lastv OAddress ss) as [a|] eqn:La; [|discriminate].
    destruct (lastv OSerial ss) as [s|] eqn:Ls, (lastv OTcp ss) as [t|] eqn:Lt; try discriminate;
      inversion E; subst m; (split; [apply asked_ns; split; [apply G; reflexivity|reflexivity]|]);
      unfold complete; cbn [n_address n_serial n_tcp ns_of]; rewrite La, Ls, Lt; eauto 6. }
  split; [split; [apply Q'|apply Q]|]. split.
  - intros E m A. rewrite (Q m A) in E. discriminate.
  - intros N. rewrite P in *. destruct (forallb (goodb u fs) ss && negb (conflict ss)); [|reflexivity].
    cbn [consume] in *. destruct (n_address (ns_of u fs ss)); [|reflexivity].
    destruct (n_serial (ns_of u fs ss)), (n_tcp (ns_of u fs ss)); try reflexivity;
      exfalso; eapply N; apply Q'; reflexivity.
Qed.
Print Assumptions C77_options.

Lemma carries_options n : complete n -> carries n (options_of n).
Proof. intros ((a & A) & _). unfold carries, options_of. rewrite A. cbn. repeat split. Qed.

(** The daemon is started with what was asked for, or ends with a usage error. *)
Theorem C77_starts lib w fs ss ws : command_line ss ws ->
  (forall n, asked (lib_unicode lib) fs ss n -> complete n ->
     exists o, carries n o /\ cmqttd lib w fs ws = _main lib w o)
  /\ ((forall n, ~ (asked (lib_unicode lib) fs ss n /\ complete n)) ->
     cmqttd lib w fs ws = ([Usage], Raise SystemExit)).
Proof.
  intros H. split.
  - intros n A C. exists (options_of n). split; [now apply carries_options|].
    destruct (C77_options (lib_unicode lib) fs ss ws n H) as [[_ Q] _]. unfold cmqttd. now rewrite (Q (conj A C)).
  - intros N. destruct (C77_options (lib_unicode lib) fs ss ws defaults H) as [_ [_ Q]]. unfold cmqttd. now rewrite (Q N).
Qed.
Print Assumptions C77_starts.

(** Asked for help first, it prints the help and does nothing else. *)
Theorem C77_help lib w fs ss ws h : command_line ss ws -> h = txt "-h" \/ h = txt "--help" ->
  cmqttd lib w fs (h :: ws) = ([], Raise SystemExit).
Proof.
  intros H Hh. destruct (consume_line (lib_unicode lib) fs ss ws H) as (_ & l & C & _).
  unfold cmqttd, parse_args.
  assert (K : classify (lib_unicode lib) (h :: ws) = Some ((h, KOption (Some OHelp) h false None) :: l)).
  { cbn [classify]. rewrite C. destruct Hh as [->| ->]; reflexivity. }
  rewrite K. destruct Hh as [->| ->]; reflexivity.
Qed.
Print Assumptions C77_help.

(** Whatever the words: TLS is off exactly if one of them is the option for that,
    or an abbreviation of it. *)
Theorem C77_tls u fs ws n : parse_args u fs ws = Parsed n ->
  (n_disable_tls n = true <-> exists w, In w ws /\ asks_plaintext w).
Proof.
  intros E. unfold parse_args in E. destruct (classify u ws) as [l|] eqn:C; [|discriminate].
  destruct (classify_facts u ws l C) as (Sa & F & B).
  destruct (consume_facts u fs (length l) l _ _ _ (le_n _) Sa E) as (_ & N & ->). cbn [n_disable_tls defaults orb].
  split; [exact F|]. intros (w & I & A). apply (B N w I A).
Qed.
Print Assumptions C77_tls.

(** Whatever the words: accepted options name a broker and exactly one interface. *)
Lemma one_interface u fs o v n n' : store u fs o v n = Some n' ->
  n_serial n = None \/ n_tcp n = None -> n_serial n' = None \/ n_tcp n' = None.
Proof.
  destruct n as [lg vb ad po ke tl au ca ce ky se tc ti cl pr]. unfold store. cbn [n_serial n_tcp].
  destruct o; intros E H; try discriminate; try (inversion E; exact H);
    repeat match type of E with context [match ?t with _ => _ end] => destruct t end;
    try discriminate; inversion E; cbn [n_serial n_tcp]; auto.
Qed.
Lemma flag_interface o n n' : raise_flag o n = Some n' -> n_serial n' = n_serial n /\ n_tcp n' = n_tcp n.
Proof. destruct n. destruct o; intros E; inversion E; split; reflexivity. Qed.
Lemma flags_interface l : forall n n', raise_flags l n = Some n' -> n_serial n' = n_serial n /\ n_tcp n' = n_tcp n.
Proof.
  induction l as [|o l IH]; intros n n' E; cbn in E; [inversion E; auto|].
  destruct (raise_flag o n) as [m|] eqn:R; [|discriminate].
  destruct (flag_interface _ _ _ R) as (<- & <-). apply IH. exact E.
Qed.
Lemma consume_complete u fs m : forall l extras n n', (length l <= m)%nat ->
  n_serial n = None \/ n_tcp n = None -> consume u fs l extras n = Parsed n' -> complete n'.
Proof.
  induction m as [|m IH]; intros l extras n n' Lm O E.
  - destruct l; [|cbn in Lm; lia]. cbn in E.
    destruct (n_address n) as [a|] eqn:A; [|discriminate].
    destruct (n_serial n) as [s|] eqn:Sn, (n_tcp n) as [t|] eqn:T; try discriminate;
      destruct O as [O|O]; try discriminate;
      (destruct extras; [discriminate|]); inversion E; subst; split; eauto.
  - destruct l as [|[w k] l]; [apply (IH [] extras n n'); [cbn; lia|exact O|exact E]|].
    cbn [length] in Lm. assert (Ll : (length l <= m)%nat) by lia.
    destruct k as [| |[o|] name sep x]; cbn [consume] in E.
    1,2,4: eapply IH; [exact Ll|exact O|exact E].
    destruct (option_of o name sep x) as [fl last e|fl|]; [| |discriminate].
    2: { destruct (raise_flags fl n) as [n1|] eqn:R; [|discriminate].
         destruct (flags_interface _ _ _ R) as (A & B).
         eapply IH; [exact Ll|rewrite A, B; exact O|exact E]. }
    destruct (is_flag last).
    + destruct (raise_flags (fl ++ [last]) n) as [n1|] eqn:R; [|discriminate].
      destruct (flags_interface _ _ _ R) as (A & B).
      eapply IH; [exact Ll|rewrite A, B; exact O|exact E].
    + destruct e as [v|].
      * destruct (raise_flags fl n) as [n1|] eqn:R; [|discriminate].
        destruct (flags_interface _ _ _ R) as (A & B).
        destruct (store u fs last v n1) as [n2|] eqn:St; [|discriminate].
        eapply IH; [exact Ll| |exact E]. apply (one_interface _ _ _ _ _ _ St). rewrite A, B. exact O.
      * destruct l as [|[v [| |]] l]; try discriminate.
        destruct (raise_flags fl n) as [n1|] eqn:R; [|discriminate].
        destruct (flags_interface _ _ _ R) as (A & B).
        destruct (store u fs last v n1) as [n2|] eqn:St; [|discriminate].
        eapply IH; [|apply (one_interface _ _ _ _ _ _ St); rewrite A, B; exact O|exact E].
        cbn in Ll. lia.
Qed.
Theorem C77_required u fs ws n : parse_args u fs ws = Parsed n -> complete n.
Proof.
  unfold parse_args. destruct (classify u ws) as [l|]; [|discriminate]. intros E.
  apply (consume_complete u fs (length l) l false defaults n (le_n _)); [left; reflexivity|exact E].
Qed.
Print Assumptions C77_required.

(** So whatever the words and the outside: the broker is contacted without TLS
    only if a word asks for that, and then TLS is never turned on. *)
Theorem C77_secure lib w fs ws tr r : cmqttd lib w fs ws = (tr, r) ->
  ((forall x, In x ws -> ~ asks_plaintext x) ->
     forall host port keepalive, In (BrokerConnect host port keepalive) tr ->
     exists before ca cert key between after,
       tr = before ++ TlsSet ca cert key :: between ++ BrokerConnect host port keepalive :: after
       /\ w (TlsSet ca cert key) = Ok tt)
  /\ ((exists x, In x ws /\ asks_plaintext x) -> forall ca cert key, ~ In (TlsSet ca cert key) tr).
Proof.
  unfold cmqttd. destruct (parse_args (lib_unicode lib) fs ws) as [n| |] eqn:P; intros E.
  2-3: assert (B : forall h p k, ~ In (BrokerConnect h p k) tr)
         by (intros h p k; inversion E; subst; cbn; intuition discriminate);
       assert (B' : forall ca ce ke, ~ In (TlsSet ca ce ke) tr)
         by (intros ca ce ke; inversion E; subst; cbn; intuition discriminate);
       split; [intros _ h p k I; destruct (B h p k I)|intros _; exact B'].
  pose proof (C77_tls _ _ _ _ P) as T; split.
  - intros N h p k I. destruct (n_disable_tls n) eqn:D.
    + destruct (proj1 T eq_refl) as (x & Ix & A). exfalso. apply (N x Ix A).
    + destruct (C70_tls lib w (options_of n) tr r h p k E I D) as (a & ca & ce & ke & b & c & H & K & _).
      exists a, ca, ce, ke, b, c. auto.
  - intros A. apply (C70_plaintext lib w (options_of n) tr r); [|exact E]. apply T. exact A.
Qed.
Print Assumptions C77_secure.

(** An ambiguous abbreviation is refused, whatever else is on the line (behind "--"
    nothing is an option). *)
Theorem C77_ambiguous lib w fs pre x post : ambiguous x -> ~ In (txt "--") pre ->
  parse_args (lib_unicode lib) fs (pre ++ x :: post) = Refused
  /\ cmqttd lib w fs (pre ++ x :: post) = ([Usage], Raise SystemExit).
Proof.
  intros A N. assert (C : classify (lib_unicode lib) (pre ++ x :: post) = None).
  { destruct (ambiguous_kind (lib_unicode lib) x A) as (V & K). induction pre as [|y pre IH]; cbn [app classify].
    - rewrite V, K. reflexivity.
    - destruct (text_eqb y (txt "--")) eqn:E; [apply text_eqb_eq in E; exfalso; apply N; left; exact E|].
      rewrite IH by (intros I; apply N; right; exact I). destruct (parse_optional (lib_unicode lib) y); reflexivity. }
  assert (P : parse_args (lib_unicode lib) fs (pre ++ x :: post) = Refused) by (unfold parse_args; rewrite C; reflexivity).
  split; [exact P|]. unfold cmqttd. rewrite P. reflexivity.
Qed.
Print Assumptions C77_ambiguous.

(** A command line that mixes the ways to write an option; the port is given
    twice and the last one counts. *)
Definition no_files : files := mkFiles (fun _ => None) (fun _ => None).
Definition case_settings : list setting :=
  [Value OAddress (txt "broker"); Value OPort (txt "1"); Value OSerial (txt "/dev/ttyUSB0");
   Value OTimesync (txt "-5"); Flag ONoClock; Value OPort (txt " 1_883"); Value OVerbosity (txt "DEBUG")].
Definition case_words : list text :=
  [txt "-b"; txt "broker"; txt "--broker-port"; txt "1"; txt "--serial=/dev/ttyUSB0"; txt "-T"; txt "-5"; txt "-C";
   txt "-p= 1_883"; txt "-v"; txt "DEBUG"].
Definition case_namespace : namespace :=
  mkNamespace None (txt "DEBUG") (Some (txt "broker")) 1883 60 false None None None None
    (Some (txt "/dev/ttyUSB0")) None (-5) true None.
Example C77_case : command_line case_settings case_words
  /\ parse_args (lib_unicode plain_library) no_files case_words = Parsed case_namespace.
Proof.
  split; [|vm_compute; reflexivity]. unfold case_settings, case_words.
  refine (cl_cons _ [_; _] _ _ (w_short _ _ _ (txt "broker") m_address _) _); [left; discriminate|].
  refine (cl_cons _ [_; _] _ _ (w_long _ _ _ (txt "1") m_port _) _); [left; discriminate|].
  refine (cl_cons _ [_] _ _ (w_long_equals _ _ _ (txt "/dev/ttyUSB0") m_serial) _).
  refine (cl_cons _ [_; _] _ _ (w_short _ _ _ (txt "-5") m_timesync _) _).
  { right; right. exists (txt "5"). split; [reflexivity|]. split; [discriminate|]. repeat constructor; discriminate. }
  refine (cl_cons _ [_] _ _ (w_flag_short _ _ _ m_clock) _).
  refine (cl_cons _ [_] _ _ (w_short_equals _ _ _ (txt " 1_883") m_port) _).
  refine (cl_cons _ [_; _] _ _ (w_short _ _ _ (txt "DEBUG") m_verbosity _) _); [left; discriminate|].
  constructor.
Qed.
Example C77_case_abbreviated :
  command_line [Value OCa (txt "pem"); Value OTcp (txt "h:1"); Flag ONoClock]
    [txt "--broker-ca=pem"; txt "--tc"; txt "h:1"; txt "--n"]
  /\ ambiguous (txt "--broker-c=pem") /\ ambiguous (txt "--t").
Proof.
  split; [|split].
  - refine (cl_cons _ [_] _ _ (w_long_equals _ _ _ (txt "pem") m_ca) _).
    refine (cl_cons _ [_; _] _ _ (w_abbreviated _ _ _ (txt "tc") (txt "h:1") m_tcp _ _) _); [|left; discriminate|].
    { split; [discriminate|]. split; [exists (txt "p"); reflexivity|].
      intros n [->|(o & x & [T|T])] (r & E); [discriminate| |]; destruct T; try reflexivity; discriminate. }
    refine (cl_cons _ [_] _ _ (w_flag_abbreviated _ _ _ (txt "n") m_clock _) cl_nil).
    split; [discriminate|]. split; [exists (txt "o-clock"); reflexivity|].
    intros n [->|(o & x & [T|T])] (r & E); [discriminate| |]; destruct T; try reflexivity; discriminate.
  - exists (txt "broker-c"), "broker-ca"%string, "broker-client-key"%string. split; [discriminate|].
    split; [right; eexists; eexists; left; exact m_ca|]. split; [right; eexists; eexists; left; exact m_key|]. split; [discriminate|].
    split; [exists (txt "a"); reflexivity|]. split; [exists (txt "lient-key"); reflexivity|].
    split; [|right; exists (txt "pem"); reflexivity].
    intros n [->|(o & x & [T|T])]; [discriminate| |]; destruct T; discriminate.
  - exists (txt "t"), "tcp"%string, "timesync"%string. split; [discriminate|].
    split; [right; eexists; eexists; left; exact m_tcp|]. split; [right; eexists; eexists; left; exact m_timesync|]. split; [discriminate|].
    split; [exists (txt "cp"); reflexivity|]. split; [exists (txt "imesync"); reflexivity|].
    split; [|left; reflexivity].
    intros n [->|(o & x & [T|T])]; [discriminate| |]; destruct T; discriminate.
Qed.
Example C77_case_together :
  command_line [Flag ONoClock; Flag ONoClock; Value OSerial (txt "/dev/x"); Flag ONoClock; Value OAddress (txt "h")]
    [txt "-CCs=/dev/x"; txt "-Cb"; txt "h"]
  /\ exists n, parse_args (lib_unicode plain_library) no_files [txt "-CCs=/dev/x"; txt "-Cb"; txt "h"] = Parsed n
       /\ n_no_clock n = true /\ n_serial n = Some (txt "/dev/x").
Proof.
  split; [|eexists; split; [vm_compute; reflexivity|split; reflexivity]].
  apply (cl_together 1 [Value OSerial (txt "/dev/x")] (txt "s=/dev/x") []); [exact (f_equals _ _ _ (txt "/dev/x") m_serial)|].
  apply (cl_together 0 [Value OAddress (txt "h")] (txt "b") [txt "h"] [] []); [|constructor].
  refine (f_separate _ _ _ (txt "h") m_address _). left. discriminate.
Qed.
(** An abbreviation that asks for plain text; two interfaces; no broker. *)
Example C77_case_plaintext :
  (exists n, parse_args (lib_unicode plain_library) no_files
               [txt "-bh"; txt "-t"; txt "h:1"; txt "--broker-dis"] = Parsed n /\ n_disable_tls n = true)
  /\ asks_plaintext (txt "--broker-dis")
  /\ parse_args (lib_unicode plain_library) no_files [txt "-bh"; txt "-th:1"; txt "-s/dev/x"] = Refused
  /\ parse_args (lib_unicode plain_library) no_files [txt "-th:1"] = Refused.
Proof.
  split; [eexists; split; [vm_compute; reflexivity|reflexivity]|].
  split; [exists (txt "--broker-dis"), (txt "able-tls"); split; [reflexivity|]; split; [reflexivity|];
          exists (txt "is"); reflexivity|].
  split; vm_compute; reflexivity.
Qed.
(** The daemon started from words, with and without TLS. *)
Example C77_case_secure :
  cmqttd plain_library (fun _ => Ok tt) no_files [txt "-bh"; txt "-t"; txt "192.0.2.1:10001"]
  = ([OpenTcp (txt "192.0.2.1") 10001 (fst (new_daemon 300 false)) []; TlsSet None None None; Helper;
      BrokerConnect (txt "h") 8883 60; WaitLost], Ok tt)
  /\ cmqttd plain_library (fun _ => Ok tt) no_files
       [txt "-bh"; txt "-t"; txt "192.0.2.1:10001"; txt "--broker-d"]
  = ([OpenTcp (txt "192.0.2.1") 10001 (fst (new_daemon 300 false)) []; Helper;
      BrokerConnect (txt "h") 1883 60; WaitLost], Ok tt).
Proof. split; vm_compute; reflexivity. Qed.
