(** Lemmas about the command lines of the programs beside the daemon. *)
From Coq Require Import List ZArith Bool String Lia.
From Verif Require Import Py Text Spec_mqtt Mqtt_facts Startup Cmdline Tools Argparse Spec_argparse.
From Verif Require Cmdline_facts.
Notation digits_number := Cmdline_facts.digits_number.
Import ListNotations.
Open Scope Z_scope.

Lemma same_text a : text_eqb a a = true.
Proof. apply text_eqb_eq. reflexivity. Qed.

(** ** Parsers that fit their manual *)

Definition short_key (n : text) : bool :=
  match n with [a; c] => (a =? 45) && negb (c =? 45) && negb (c =? 61) && negb ((48 <=? c) && (c <=? 57)) | _ => false end.
Definition long_key (n : text) : bool :=
  match n with a :: b :: c :: r => (a =? 45) && (b =? 45) && negb (mem 61 (c :: r)) | _ => false end.
Fixpoint distinct (l : list (text * text)) : bool :=
  match l with [] => true | (n, _) :: l' => negb (existsb (fun e => text_eqb (fst e) n) l') && distinct l' end.
Definition is_some_of (x : option text) (d : text) : bool := match x with Some d' => text_eqb d' d | None => false end.
Definition entry_fits (p : parser) (e : entry) : bool :=
  is_some_of (lookup (txt "--" ++ txt (e_name e)) (p_options p)) (txt (e_sets e))
  && long_key (txt "--" ++ txt (e_name e))
  && short_key (txt "-" ++ txt (e_letter e))
  && is_some_of (lookup (txt "-" ++ txt (e_letter e)) (p_options p)) (txt (e_sets e))
  && Bool.eqb (flag_of p (txt (e_sets e))) (negb (e_value e))
  && negb (text_eqb (txt (e_sets e)) (txt "help")).
Definition covered (m : manual) (n : text) : bool :=
  short_key n || text_eqb n (txt "--help") || existsb (fun e => text_eqb n (txt "--" ++ txt (e_name e))) m.
Definition fits (p : parser) (m : manual) : bool :=
  forallb (fun e => short_key (fst e) || long_key (fst e)) (p_options p)
  && (distinct (p_options p) && forallb (fun e => covered m (fst e)) (p_options p)) && forallb (entry_fits p) m.
Lemma fits_distinct p m : fits p m = true -> distinct (p_options p) = true.
Proof. unfold fits. repeat rewrite andb_true_iff. tauto. Qed.
Lemma fits_covered p m n d : fits p m = true -> In (n, d) (p_options p) ->
  short_key n = true \/ n = txt "--help" \/ exists e, In e m /\ n = txt "--" ++ txt (e_name e).
Proof.
  intros F I. assert (C : forallb (fun e => covered m (fst e)) (p_options p) = true).
  { revert F. unfold fits. repeat rewrite andb_true_iff. tauto. }
  rewrite forallb_forall in C. specialize (C _ I). cbn [fst] in C. unfold covered in C. repeat rewrite orb_true_iff in C.
  destruct C as [[C|C]|C]; [auto|right; left; apply text_eqb_eq; exact C|right; right].
  apply existsb_exists in C. destruct C as (e & M & E). exists e. split; [exact M|apply text_eqb_eq; exact E].
Qed.

Lemma fits_entry p m e : fits p m = true -> In e m ->
  lookup (txt "--" ++ txt (e_name e)) (p_options p) = Some (txt (e_sets e))
  /\ long_key (txt "--" ++ txt (e_name e)) = true
  /\ (exists c, txt (e_letter e) = [c] /\ c <> 45 /\ c <> 61 /\ lookup [45; c] (p_options p) = Some (txt (e_sets e)))
  /\ flag_of p (txt (e_sets e)) = negb (e_value e)
  /\ text_eqb (txt (e_sets e)) (txt "help") = false.
Proof.
  intros F I. apply andb_true_iff in F. destruct F as (_ & F). rewrite forallb_forall in F. specialize (F e I).
  unfold entry_fits in F. repeat rewrite andb_true_iff in F. destruct F as (((((A & B) & C) & D) & E) & G).
  unfold is_some_of in A, D.
  destruct (lookup (txt "--" ++ txt (e_name e)) (p_options p)) as [a|]; [|discriminate].
  destruct (lookup (txt "-" ++ txt (e_letter e)) (p_options p)) as [b|] eqn:L; [|discriminate].
  apply text_eqb_eq in A, D. subst a b. split; [reflexivity|]. split; [exact B|].
  split; [|split; [apply Bool.eqb_prop; exact E|apply negb_true_iff; exact G]].
  change (txt "-" ++ txt (e_letter e)) with (45 :: txt (e_letter e)) in C, L.
  destruct (txt (e_letter e)) as [|c [|]]; try discriminate. exists c.
  cbn in C. apply andb_true_iff in C. destruct C as (C & _). apply andb_true_iff in C. destruct C as (C1 & C2). apply negb_true_iff, Z.eqb_neq in C1, C2. auto.
Qed.
Lemma fits_key p m w d : fits p m = true -> lookup w (p_options p) = Some d ->
  short_key w = true \/ long_key w = true.
Proof.
  intros F L. apply andb_true_iff in F. destruct F as (F & _). apply andb_true_iff in F. destruct F as (F & _).
  apply orb_true_iff. rewrite forallb_forall in F. revert F L.
  induction (p_options p) as [|[n x] l IH]; intros F L; [discriminate|]. cbn in L.
  destruct (text_eqb n w) eqn:E; [apply text_eqb_eq in E; subst; apply (F (w, x)); left; reflexivity|].
  apply IH; [|exact L]. intros y I. apply F. right. exact I.
Qed.
Lemma key_no_equals w : short_key w = true \/ long_key w = true -> ~ In 61 w.
Proof.
  intros [H|H] I.
  - destruct w as [|a [|c [|]]]; try discriminate. cbn in H. repeat rewrite andb_true_iff in H.
    destruct H as (((A & B) & C) & _). apply Z.eqb_eq in A. apply negb_true_iff, Z.eqb_neq in C.
    destruct I as [I|[I|[]]]; [lia|auto].
  - destruct w as [|a [|b [|c r]]]; try discriminate. cbn [long_key] in H. repeat rewrite andb_true_iff in H.
    destruct H as ((A & B) & C). apply Z.eqb_eq in A, B. apply negb_true_iff in C.
    destruct I as [I|[I|I]]; [lia|lia|].
    assert (M : mem 61 (c :: r) = true); [|congruence].
    unfold mem. apply existsb_exists. exists 61. split; [exact I|reflexivity].
Qed.
Lemma lookup_filter l w d : distinct l = true -> lookup w l = Some d ->
  filter (fun e => text_eqb (fst e) w) l = [(w, d)].
Proof.
  induction l as [|[n x] l IH]; intros D L; [discriminate|]. cbn in D, L |- *.
  apply andb_true_iff in D. destruct D as (N & D). destruct (text_eqb n w) eqn:E.
  - apply text_eqb_eq in E. subst n. inversion L; subst. f_equal. apply negb_true_iff in N.
    clear - N. induction l as [|[n x] l IH]; [reflexivity|]. cbn in N |- *.
    apply orb_false_iff in N. destruct N as (N & M). rewrite N. apply IH, M.
  - apply IH; assumption.
Qed.

Lemma split_equals_at a b : ~ In 61 a -> split_equals (a ++ 61 :: b) = Some (a, b).
Proof.
  induction a as [|c a IH]; intros N; [reflexivity|]. cbn [app split_equals].
  destruct (Z.eqb_spec c 61) as [->|_]; [exfalso; apply N; left; reflexivity|].
  rewrite IH by (intros I; apply N; right; exact I). reflexivity.
Qed.
Lemma split_equals_sound s : forall a b, split_equals s = Some (a, b) -> s = a ++ 61 :: b.
Proof.
  induction s as [|c s IH]; intros a b E; [discriminate|]. cbn in E. destruct (Z.eqb_spec c 61) as [->|_].
  - inversion E; reflexivity.
  - destruct (split_equals s) as [[x y]|] eqn:S; [|discriminate]. inversion E; subst.
    cbn. f_equal. apply IH. reflexivity.
Qed.

(** ** How written items are read *)

Lemma ordinary_letter p m u v : fits p m = true -> ordinary v ->
  text_eqb v (txt "--") = false /\ letter_of p u v = Some LArg.
Proof.
  intros F [H|[->|(ds & -> & N & D)]].
  - destruct v as [|c v]; [split; reflexivity|].
    assert (N : (c =? 45) = false) by (apply Z.eqb_neq; intros ->; apply H; reflexivity).
    split; [|unfold letter_of; rewrite N; reflexivity].
    apply text_eqb_neq. intros E. apply H. rewrite E. reflexivity.
  - split; [reflexivity|]. unfold letter_of. cbn.
    destruct (lookup (txt "-") (p_options p)) as [d|] eqn:L; [|change (txt "-") with [45] in L; rewrite L; reflexivity].
    destruct (fits_key _ _ _ _ F L); discriminate.
  - pose proof (digits_number u ds N D) as G. destruct ds as [|d ds]; [now destruct N|]. clear N.
    apply Forall_inv in D. assert (D' : d <> 45) by lia.
    assert (K : forall r, lookup (45 :: d :: r) (p_options p) = None).
    { intros r. destruct (lookup (45 :: d :: r) (p_options p)) as [o|] eqn:X; [|reflexivity]. exfalso.
      destruct (fits_key _ _ _ _ F X) as [Q|Q]; cbn in Q.
      - destruct r; [|discriminate]. apply andb_true_iff in Q. destruct Q as (_ & Q).
        rewrite (proj2 (Z.leb_le 48 d)), (proj2 (Z.leb_le d 57)) in Q by lia. discriminate.
      - destruct r; [discriminate|]. apply Z.eqb_neq in D'. rewrite D' in Q. discriminate. }
    split; [apply text_eqb_neq; intros E; inversion E; lia|].
    unfold letter_of. cbn [Z.eqb Pos.eqb negb]. rewrite K.
    assert (Sp : match split_equals (45 :: d :: ds) with
       | Some (a, b) => match lookup a (p_options p) with Some d => Some (d, a, b) | None => None end
       | None => None end = None).
    { cbn [split_equals]. rewrite (proj2 (Z.eqb_neq 45 61)) by lia. rewrite (proj2 (Z.eqb_neq d 61)) by lia.
      destruct (split_equals ds) as [[a b]|]; [now rewrite K|reflexivity]. }
    rewrite Sp.
    assert (Ca : meant p (45 :: d :: ds) = []).
    { assert (X : meant p (45 :: d :: ds) = map (fun e => (snd e, fst e, false, Some ds))
          (filter (fun e => text_eqb (fst e) [45; d]) (p_options p))).
      { unfold meant. destruct d as [|q|q]; try reflexivity. do 6 (destruct q as [q|q|]; try reflexivity). contradiction. }
      rewrite X. assert (Y : filter (fun e => text_eqb (fst e) [45; d]) (p_options p) = []); [|now rewrite Y].
      specialize (K []). revert K. clear. induction (p_options p) as [|[n q] l IH]; [reflexivity|]. cbn [lookup filter fst].
      destruct (text_eqb n [45; d]); [discriminate|exact IH]. }
    rewrite Ca, G. reflexivity.
Qed.
Definition classified (p : parser) (u : unicode) (ws : list text) (l : list (text * letter)) : Prop :=
  forall rest l', letters p u rest = Some l' -> letters p u (ws ++ rest) = Some (l ++ l').
Lemma classified_one p u w k : text_eqb w (txt "--") = false -> letter_of p u w = Some k -> classified p u [w] [(w, k)].
Proof. intros N P rest l' E. cbn [app letters]. rewrite N, P, E. reflexivity. Qed.
Lemma classified_app p u a b la lb : classified p u a la -> classified p u b lb -> classified p u (a ++ b) (la ++ lb).
Proof. intros A B rest l' E. rewrite <- !app_assoc. apply A. apply B. exact E. Qed.

Lemma known_letter p u w d : lookup (45 :: w) (p_options p) = Some d ->
  letter_of p u (45 :: w) = Some (LOption (Some d) (45 :: w) false None).
Proof. intros L. unfold letter_of. cbn [Z.eqb Pos.eqb negb]. rewrite L. reflexivity. Qed.
Lemma equals_letter p m u w c v d : fits p m = true -> lookup (45 :: c :: w) (p_options p) = Some d ->
  letter_of p u ((45 :: c :: w) ++ 61 :: v) = Some (LOption (Some d) (45 :: c :: w) true (Some v)).
Proof.
  intros F L. pose proof (key_no_equals _ (fits_key _ _ _ _ F L)) as N.
  unfold letter_of. cbn [app Z.eqb Pos.eqb negb].
  destruct (lookup (45 :: c :: w ++ 61 :: v) (p_options p)) as [x|] eqn:K.
  { exfalso. apply (key_no_equals _ (fits_key _ _ _ _ F K)). right. right. apply in_or_app. right. left. reflexivity. }
  change (45 :: c :: w ++ 61 :: v) with ((45 :: c :: w) ++ 61 :: v). rewrite (split_equals_at _ v N), L. reflexivity.
Qed.
Lemma not_dash (A : Type) (x : Z) (a b : A) : x <> 45 -> match x with 45 => a | _ => b end = b.
Proof.
  intros N. destruct x as [|q|q]; try reflexivity.
  do 6 (destruct q as [q|q|]; try reflexivity). contradiction.
Qed.
Lemma attached_letter p m u x c v d : fits p m = true -> x <> 45 -> x <> 61 -> c <> 61 ->
  lookup [45; x] (p_options p) = Some d ->
  letter_of p u (45 :: x :: c :: v) = Some (LOption (Some d) [45; x] false (Some (c :: v))).
Proof.
  intros F Nx Ne Nc L.
  assert (No : forall s, lookup (45 :: x :: c :: s) (p_options p) = None).
  { intros s. destruct (lookup (45 :: x :: c :: s) (p_options p)) as [y|] eqn:K; [|reflexivity].
    destruct (fits_key _ _ _ _ F K) as [H|H]; cbn [short_key long_key] in H; [discriminate|].
    rewrite (proj2 (Z.eqb_neq x 45) Nx) in H. discriminate. }
  assert (Fi : filter (fun e => text_eqb (fst e) [45; x]) (p_options p) = [([45; x], d)]).
  { apply lookup_filter; [|exact L]. exact (fits_distinct p m F). }
  unfold letter_of. cbn [Z.eqb Pos.eqb negb]. rewrite No.
  destruct (split_equals (45 :: x :: c :: v)) as [[a b]|] eqn:S.
  - apply split_equals_sound in S. destruct a as [|a0 [|a1 [|a2 a]]]; cbn in S; try (inversion S; congruence).
    inversion S; subst. rewrite No. unfold meant. rewrite not_dash by exact Nx. rewrite Fi. reflexivity.
  - unfold meant. rewrite not_dash by exact Nx. rewrite Fi. reflexivity.
Qed.

Lemma lookup_in w l d : lookup w l = Some d -> In (w, d) l.
Proof.
  induction l as [|[n x] l IH]; intros L; [discriminate|]. cbn in L. destruct (text_eqb n w) eqn:E.
  - apply text_eqb_eq in E. subst. inversion L. left. reflexivity.
  - right. apply IH, L.
Qed.
Lemma split_equals_none w : ~ In 61 w -> split_equals w = None.
Proof.
  induction w as [|c w IH]; intros N; [reflexivity|]. cbn [split_equals].
  destruct (Z.eqb_spec c 61) as [->|_]; [exfalso; apply N; left; reflexivity|].
  rewrite IH by (intros I; apply N; right; exact I). reflexivity.
Qed.
(** The only option a word in the shape of an abbreviation can mean. *)
Lemma abbreviated_key p m a e n d : fits p m = true -> In e m -> abbreviates m a (txt (e_name e)) ->
  In (n, d) (p_options p) -> starts_with (txt "--" ++ a) n = true -> n = txt "--" ++ txt (e_name e).
Proof.
  intros F I (Na & _ & U) M S. apply starts_with_spec in S. destruct S as (r & S). destruct a as [|c a]; [contradiction|].
  destruct (fits_covered p m n d F M) as [H|[H|(e' & I' & H)]].
  - rewrite S in H. discriminate.
  - rewrite H in S. change (txt "--help") with (txt "--" ++ txt "help") in H, S. rewrite <- app_assoc in S.
    apply app_inv_head in S. rewrite H. f_equal. apply U; [left; reflexivity|exists r; exact S].
  - rewrite H in S. rewrite <- app_assoc in S. apply app_inv_head in S. rewrite H. f_equal.
    apply U; [right; exists e'; auto|exists r; exact S].
Qed.
Lemma abbreviated_letter p m u a e v : fits p m = true -> In e m -> abbreviates m a (txt (e_name e)) ->
  text_eqb (txt "--" ++ a) (txt "--") = false
  /\ text_eqb (txt "--" ++ a ++ txt "=" ++ v) (txt "--") = false
  /\ exists name,
       letter_of p u (txt "--" ++ a) = Some (LOption (Some (txt (e_sets e))) name false None)
       /\ letter_of p u (txt "--" ++ a ++ txt "=" ++ v) = Some (LOption (Some (txt (e_sets e))) name true (Some v)).
Proof.
  intros F I A. destruct (fits_entry p m e F I) as (Ll & Lk & _).
  assert (N : ~ In 61 (txt "--" ++ a)).
  { intros H. apply (key_no_equals _ (or_intror Lk)). destruct A as (_ & (r & ->) & _).
    rewrite app_assoc. apply in_or_app. left. exact H. }
  assert (Wn : lookup (txt "--" ++ a ++ txt "=" ++ v) (p_options p) = None).
  { destruct (lookup (txt "--" ++ a ++ txt "=" ++ v) (p_options p)) as [x|] eqn:K; [|reflexivity].
    exfalso. apply (key_no_equals _ (fits_key _ _ _ _ F K)). apply in_or_app. right. apply in_or_app. right. left. reflexivity. }
  assert (Sp : split_equals (txt "--" ++ a ++ txt "=" ++ v) = Some (txt "--" ++ a, v)).
  { rewrite app_assoc. apply (split_equals_at (txt "--" ++ a) v N). }
  assert (Fi : filter (fun x => starts_with (txt "--" ++ a) (fst x)) (p_options p)
               = [(txt "--" ++ txt (e_name e), txt (e_sets e))]).
  { etransitivity; [|exact (lookup_filter _ _ _ (fits_distinct p m F) Ll)]. apply filter_ext_in. intros [n d] M. cbn [fst].
    destruct (starts_with (txt "--" ++ a) n) eqn:S.
    - rewrite (abbreviated_key p m a e n d F I A M S). symmetry. apply same_text.
    - symmetry. apply text_eqb_neq. intros ->. destruct A as (_ & (r & E) & _).
      assert (T : starts_with (txt "--" ++ a) (txt "--" ++ txt (e_name e)) = true); [|congruence].
      apply starts_with_spec. exists r. rewrite E. apply app_assoc. }
  assert (Na : a <> []) by apply A. destruct a as [|c a]; [contradiction|].
  split; [reflexivity|]. split; [reflexivity|].
  destruct (lookup (txt "--" ++ c :: a) (p_options p)) as [d|] eqn:K.
  - assert (E : txt "--" ++ c :: a = txt "--" ++ txt (e_name e)).
    { apply (abbreviated_key p m (c :: a) e _ d F I A (lookup_in _ _ _ K)). apply starts_with_spec. exists []. symmetry. apply app_nil_r. }
    exists (txt "--" ++ c :: a). assert (D : d = txt (e_sets e)) by (rewrite E, Ll in K; inversion K; reflexivity). subst d.
    unfold letter_of. change (txt "--" ++ c :: a) with (45 :: 45 :: c :: a) in *.
    change (txt "--" ++ (c :: a) ++ txt "=" ++ v) with (45 :: 45 :: c :: a ++ 61 :: v) in *.
    cbn [Z.eqb Pos.eqb negb]. rewrite K, Wn, Sp, K. split; reflexivity.
  - exists (txt "--" ++ txt (e_name e)).
    unfold letter_of. change (txt "--" ++ c :: a) with (45 :: 45 :: c :: a) in *.
    change (txt "--" ++ (c :: a) ++ txt "=" ++ v) with (45 :: 45 :: c :: a ++ 61 :: v) in *.
    cbn [Z.eqb Pos.eqb negb]. rewrite K, Wn, Sp, K. unfold meant.
    rewrite (split_equals_none _ N), Sp, Fi. split; reflexivity.
Qed.

(** ** Going through a usual line *)

Definition no_separator (l : list (text * letter)) : Prop := Forall (fun e => snd e <> LSeparator) l.
Lemma no_dashes l : no_separator l -> dashes l = ([], l).
Proof. intros N. destruct l as [|[w k] l]; [reflexivity|]. inversion N; subst. destruct k; try reflexivity. cbn in *. contradiction. Qed.
(** At most one positional argument. *)
Definition few (ps : list (text * nargs)) : Prop := ps = [] \/ exists d, ps = [(d, One)].
Definition go_item (p : parser) (i : item) (ps : list (text * nargs)) (l : list (text * letter)) (ex : bool) :=
  match i with
  | Value d v => prefixed [Took d [v]] (scan p ps 0 l ex)
  | Flag d => prefixed [Took d []] (scan p ps 0 l ex)
  | Word v => match ps with [] => scan p [] 0 l true | (d, _) :: ps' => prefixed [Took d [v]] (scan p ps' 0 l ex) end
  end.

Lemma prefixed_nil r : prefixed [] r = r.
Proof. destruct r; reflexivity. Qed.
Lemma word_scan p ps v l ex : few ps -> no_separator l -> text_eqb v (txt "--") = false ->
  scan p ps 0 ((v, LArg) :: l) ex = go_item p (Word v) ps l ex.
Proof.
  intros P N V. destruct P as [->|(d & ->)]; cbn [scan fill go_item].
  - rewrite Nat.sub_diag. apply prefixed_nil.
  - unfold match_one. cbn [dashes]. rewrite (no_dashes _ N). cbn [fill app remove_dashes]. rewrite V.
    assert (L : (List.length ((v, LArg) :: l) - List.length l = 1)%nat) by (cbn [List.length]; lia).
    rewrite L. reflexivity.
Qed.
Lemma value_scan p ps w d name sep v l ex : flag_of p d = false ->
  scan p ps 0 ((w, LOption (Some d) name sep (Some v)) :: l) ex = prefixed [Took d [v]] (scan p ps 0 l ex).
Proof.
  intros NF. cbn [scan bundle_of]. destruct v as [|a v]; cbn [unbundle]; rewrite NF, NF; reflexivity.
Qed.

Lemma long_not_dashes w : long_key w = true -> forall r, text_eqb (w ++ r) (txt "--") = false.
Proof.
  intros H r. apply text_eqb_neq. destruct w as [|a [|b [|c w]]]; try discriminate.
Qed.
Lemma short_not_dashes c r : c <> 45 -> text_eqb (45 :: c :: r) (txt "--") = false.
Proof. intros N. apply text_eqb_neq. intros E. inversion E. contradiction. Qed.

Lemma scan_item p m u i ws : fits p m = true -> spelled m i ws ->
  exists l, classified p u ws l /\ no_separator l
    /\ forall ps l' ex, few ps -> no_separator l' -> scan p ps 0 (l ++ l') ex = go_item p i ps l' ex.
Proof.
  intros F H. destruct H as [e v I E O|e v I E O|e v I E|e v I E|e v I E N Q|e I E|e I E|v O|e a v I E A O|e a v I E A|e a I E A];
    try (destruct (fits_entry p m e F I) as (Ll & Lk & (c & Ec & N45 & N61 & Ls) & Fl & _); rewrite E in Fl;
         cbn [negb] in Fl; try rewrite Ec);
    try (destruct (ordinary_letter p m u v F O) as (V & K)).
  - exists ([(txt "--" ++ txt (e_name e), LOption (Some (txt (e_sets e))) (txt "--" ++ txt (e_name e)) false None)] ++ [(v, LArg)]).
    split; [|split].
    + apply (classified_app p u [_] [v]); apply classified_one; [|apply (known_letter p u (45 :: txt (e_name e))); exact Ll|exact V|exact K].
      rewrite <- (app_nil_r (txt "--" ++ txt (e_name e))). apply long_not_dashes. exact Lk.
    + apply Forall_cons; [discriminate|]. apply Forall_cons; [discriminate|constructor].
    + intros ps l' ex _ _. cbn [app scan bundle_of]. rewrite Fl. reflexivity.
  - exists ([([45; c], LOption (Some (txt (e_sets e))) [45; c] false None)] ++ [(v, LArg)]).
    split; [|split].
    + apply (classified_app p u [[45; c]] [v]); apply classified_one; [|apply (known_letter p u [c]); exact Ls|exact V|exact K].
      apply short_not_dashes. exact N45.
    + apply Forall_cons; [discriminate|]. apply Forall_cons; [discriminate|constructor].
    + intros ps l' ex _ _. cbn [app scan bundle_of]. rewrite Fl. reflexivity.
  - exists [(txt "--" ++ txt (e_name e) ++ txt "=" ++ v, LOption (Some (txt (e_sets e))) (txt "--" ++ txt (e_name e)) true (Some v))].
    split; [|split].
    + apply classified_one; [rewrite app_assoc; apply long_not_dashes; exact Lk|].
      apply (equals_letter p m u (txt (e_name e)) 45 v _ F Ll).
    + apply Forall_cons; [discriminate|constructor].
    + intros ps l' ex _ _. apply value_scan. exact Fl.
  - exists [(txt "-" ++ [c] ++ txt "=" ++ v, LOption (Some (txt (e_sets e))) [45; c] true (Some v))].
    split; [|split].
    + apply classified_one; [apply short_not_dashes; exact N45|].
      apply (equals_letter p m u [] c v _ F Ls).
    + apply Forall_cons; [discriminate|constructor].
    + intros ps l' ex _ _. apply value_scan. exact Fl.
  - destruct v as [|b v]; [contradiction|].
    exists [(txt "-" ++ [c] ++ b :: v, LOption (Some (txt (e_sets e))) [45; c] false (Some (b :: v)))].
    split; [|split].
    + apply classified_one; [apply short_not_dashes; exact N45|].
      apply (attached_letter p m u c b v _ F N45 N61); [|exact Ls]. intros ->. apply Q. reflexivity.
    + apply Forall_cons; [discriminate|constructor].
    + intros ps l' ex _ _. apply value_scan. exact Fl.
  - exists [(txt "--" ++ txt (e_name e), LOption (Some (txt (e_sets e))) (txt "--" ++ txt (e_name e)) false None)].
    split; [|split].
    + apply classified_one; [|apply (known_letter p u (45 :: txt (e_name e))); exact Ll].
      rewrite <- (app_nil_r (txt "--" ++ txt (e_name e))). apply long_not_dashes. exact Lk.
    + apply Forall_cons; [discriminate|constructor].
    + intros ps l' ex _ _. cbn [app scan bundle_of]. rewrite Fl. reflexivity.
  - exists [([45; c], LOption (Some (txt (e_sets e))) [45; c] false None)].
    split; [|split].
    + apply classified_one; [|apply (known_letter p u [c]); exact Ls]. apply short_not_dashes. exact N45.
    + apply Forall_cons; [discriminate|constructor].
    + intros ps l' ex _ _. cbn [app scan bundle_of]. rewrite Fl. reflexivity.
  - exists [(v, LArg)]. split; [|split].
    + apply classified_one; assumption.
    + apply Forall_cons; [discriminate|constructor].
    + intros ps l' ex P N. apply word_scan; assumption.
  - destruct (abbreviated_letter p m u a e [] F I A) as (T & _ & name & Kn & _).
    exists ([(txt "--" ++ a, LOption (Some (txt (e_sets e))) name false None)] ++ [(v, LArg)]).
    split; [|split].
    + apply (classified_app p u [_] [v]); apply classified_one; assumption.
    + apply Forall_cons; [discriminate|]. apply Forall_cons; [discriminate|constructor].
    + intros ps l' ex _ _. cbn [app scan bundle_of]. rewrite Fl. reflexivity.
  - destruct (abbreviated_letter p m u a e v F I A) as (_ & T & name & _ & Kn).
    exists [(txt "--" ++ a ++ txt "=" ++ v, LOption (Some (txt (e_sets e))) name true (Some v))].
    split; [|split].
    + apply classified_one; assumption.
    + apply Forall_cons; [discriminate|constructor].
    + intros ps l' ex _ _. apply value_scan. exact Fl.
  - destruct (abbreviated_letter p m u a e [] F I A) as (T & _ & name & Kn & _).
    exists [(txt "--" ++ a, LOption (Some (txt (e_sets e))) name false None)].
    split; [|split].
    + apply classified_one; assumption.
    + apply Forall_cons; [discriminate|constructor].
    + intros ps l' ex _ _. cbn [app scan bundle_of]. rewrite Fl. reflexivity.
Qed.

(** The events of items, for a parser with one positional argument, and the
    words beyond it. *)
Fixpoint go_items (ps : list (text * nargs)) (is : list item) (ex : bool) : list event * line_end :=
  match is with
  | [] => ([], LineDone ex ps)
  | Value d v :: is' => prefixed [Took d [v]] (go_items ps is' ex)
  | Flag d :: is' => prefixed [Took d []] (go_items ps is' ex)
  | Word v :: is' =>
      match ps with [] => go_items [] is' true | (d, _) :: ps' => prefixed [Took d [v]] (go_items ps' is' ex) end
  end.
Lemma few_tail d n ps : few ((d, n) :: ps) -> few ps.
Proof. intros [H|(e & H)]; [discriminate|]. inversion H. left. reflexivity. Qed.
Lemma scan_usual p m u is ws : fits p m = true -> usual m is ws ->
  exists l, letters p u ws = Some l /\ no_separator l
    /\ forall ps ex, few ps -> scan p ps 0 l ex = go_items ps is ex.
Proof.
  intros F. induction 1 as [|i ws is rest W _ (l & C & N & R)].
  - exists []. split; [reflexivity|]. split; [constructor|]. intros ps ex [->|(d & ->)]; reflexivity.
  - destruct (scan_item p m u i ws F W) as (l1 & C1 & N1 & R1). exists (l1 ++ l).
    split; [apply C1; exact C|]. split; [apply Forall_app; auto|]. intros ps ex P.
    rewrite (R1 ps l ex P N). destruct i as [d v|d|v]; cbn [go_item go_items]; try (rewrite R by exact P; reflexivity).
    destruct ps as [|[d n] ps]; [apply R; left; reflexivity|]. rewrite R by exact (few_tail _ _ _ P). reflexivity.
Qed.

(** Nothing in a usual line asks for the help. *)
Definition helpless (evs : list event) : Prop := Forall (fun e => match e with Took d _ => text_eqb d (txt "help") = false end) evs.
Lemma helpless_act {S : Type} (step : S -> text -> list text -> option S) evs : helpless evs -> forall s, act_on step evs s <> Helps.
Proof.
  induction 1 as [|[d a] evs H _ IH]; intros s; cbn [act_on]; [discriminate|]. rewrite H.
  destruct (step s d a); [apply IH|discriminate].
Qed.
Lemma usual_known p m is ws : fits p m = true -> usual m is ws ->
  Forall (fun i => match i with Value d _ | Flag d => exists e, In e m /\ d = txt (e_sets e) | Word _ => True end) is.
Proof.
  intros F. induction 1 as [|i ws is rest W _ IH]; constructor; auto. destruct W; eauto.
Qed.
Lemma go_helpless p m is ws : fits p m = true -> usual m is ws -> forall ps ex,
  Forall (fun q => text_eqb (fst q) (txt "help") = false) ps -> helpless (fst (go_items ps is ex)).
Proof.
  intros F U. pose proof (usual_known p m is ws F U) as K. clear U. induction K as [|i is H _ IH]; intros ps ex P; [constructor|].
  destruct i as [d v|d|v]; cbn [go_items].
  1,2: destruct H as (e & I & ->); destruct (fits_entry p m e F I) as (_ & _ & _ & _ & Nh);
       apply Forall_cons; [exact Nh|apply IH; exact P].
  destruct ps as [|[d n] ps]; [apply IH; constructor|]. inversion P; subst. apply Forall_cons; [assumption|apply IH; assumption].
Qed.

(** With the words of a usual line at hand. *)
Definition item_event (d : text) (i : item) : event :=
  match i with Value x v => Took x [v] | Flag x => Took x [] | Word v => Took d [v] end.
Lemma go_none is : forall ex, plain_words is = [] -> forall ps d, go_items ps is ex = (map (item_event d) is, LineDone ex ps).
Proof.
  induction is as [|i is IH]; intros ex W ps d; [reflexivity|].
  destruct i as [x v|x|v]; cbn in W; [| |discriminate]; cbn [go_items map item_event]; rewrite (IH ex W ps d); reflexivity.
Qed.
Lemma go_one d n is : forall w, plain_words is = [w] -> go_items [(d, n)] is false = (map (item_event d) is, LineDone false []).
Proof.
  induction is as [|i is IH]; intros w W; [discriminate|].
  destruct i as [x v|x|v]; cbn in W; cbn [go_items map item_event]; [rewrite (IH w W); reflexivity| rewrite (IH w W); reflexivity|].
  inversion W; subst. rewrite (go_none is false H1 [] d). reflexivity.
Qed.
Lemma go_extra is : forall ex, plain_words is <> [] \/ ex = true -> exists evs, go_items [] is ex = (evs, LineDone true []).
Proof.
  induction is as [|i is IH]; intros ex H; cbn [go_items].
  - destruct H as [H| ->]; [contradiction H; reflexivity|]. eexists. reflexivity.
  - destruct i as [x v|x|v]; cbn [plain_words flat_map app] in H.
    1,2: destruct (IH ex H) as (evs & ->); eexists; reflexivity.
    destruct (IH true (or_intror eq_refl)) as (evs & ->). eexists. reflexivity.
Qed.
Lemma go_many d n is : forall w w' r, plain_words is = w :: w' :: r -> exists evs, go_items [(d, n)] is false = (evs, LineDone true []).
Proof.
  induction is as [|i is IH]; intros w w' r W; [discriminate|].
  destruct i as [x v|x|v]; cbn in W; cbn [go_items].
  1,2: destruct (IH _ _ _ W) as (evs & ->); eexists; reflexivity.
  inversion W. destruct (go_extra is false) as (evs & ->); [left; intros Q; unfold plain_words in Q; congruence|].
  eexists. reflexivity.
Qed.

(** A usual line of a parser with one positional argument, and of one without. *)
Lemma parse_usual {S A : Type} p m u step (s0 : S) (finish : S -> option A) d is ws :
  fits p m = true -> p_positionals p = [(d, One)] -> text_eqb d (txt "help") = false -> usual m is ws ->
  parse_line p u step s0 finish ws
  = match plain_words is with
    | [_] => match act_on step (map (item_event d) is) s0 with
             | Starts s => match finish s with Some a => Starts a | None => Refuses end
             | _ => Refuses
             end
    | _ => Refuses
    end.
Proof.
  intros F P Nd U. destruct (scan_usual p m u is ws F U) as (l & L & _ & R). unfold parse_line.
  rewrite L, P, R by (right; eauto).
  assert (Hl : helpless (fst (go_items [(d, One)] is false))).
  { apply (go_helpless p m is ws F U). constructor; [exact Nd|constructor]. }
  destruct (plain_words is) as [|w [|w' r]] eqn:W.
  - rewrite (go_none is false W [(d, One)] d) in *. cbn [fst] in Hl. pose proof (helpless_act step _ Hl s0) as N.
    destruct (act_on step (map (item_event d) is) s0); [reflexivity|reflexivity|contradiction].
  - rewrite (go_one d One is w W) in *. cbn [fst] in Hl. pose proof (helpless_act step _ Hl s0) as N.
    destruct (act_on step (map (item_event d) is) s0); [reflexivity|reflexivity|contradiction].
  - destruct (go_many d One is _ _ _ W) as (evs & E). rewrite E in *. cbn [fst] in Hl. pose proof (helpless_act step _ Hl s0) as N.
    destruct (act_on step evs s0); [reflexivity|reflexivity|contradiction].
Qed.
Lemma parse_usual_none {S A : Type} p m u step (s0 : S) (finish : S -> option A) is ws :
  fits p m = true -> p_positionals p = [] -> usual m is ws ->
  parse_line p u step s0 finish ws
  = match plain_words is with
    | [] => match act_on step (map (item_event []) is) s0 with
            | Starts s => match finish s with Some a => Starts a | None => Refuses end
            | _ => Refuses
            end
    | _ => Refuses
    end.
Proof.
  intros F P U. destruct (scan_usual p m u is ws F U) as (l & L & _ & R). unfold parse_line.
  rewrite L, P, R by (left; reflexivity).
  assert (Hl : helpless (fst (go_items [] is false))) by (apply (go_helpless p m is ws F U); constructor).
  destruct (plain_words is) as [|w r] eqn:W.
  - rewrite (go_none is false W [] []) in *. cbn [fst] in Hl. pose proof (helpless_act step _ Hl s0) as N.
    destruct (act_on step (map (item_event []) is) s0); [reflexivity|reflexivity|contradiction].
  - destruct (go_extra is false) as (evs & E); [left; congruence|]. rewrite E in *. cbn [fst] in Hl.
    pose proof (helpless_act step _ Hl s0) as N.
    destruct (act_on step evs s0); [reflexivity|reflexivity|contradiction].
Qed.

(** ** The last value given *)

Definition step_given (d : text) (acc : option text) (i : item) : option text :=
  match i with Value x v => if text_eqb x d then Some v else acc | _ => acc end.
Definition given_last (d : text) (is : list item) (acc : option text) : option text := fold_left (step_given d) is acc.
Lemma given_last_none d is acc : (forall v, ~ In (Value d v) is) -> given_last d is acc = acc.
Proof.
  revert acc. induction is as [|i is IH]; intros acc N; [reflexivity|].
  assert (N' : forall v, ~ In (Value d v) is) by (intros v I; apply (N v); right; exact I).
  unfold given_last in *. cbn [fold_left]. rewrite IH by exact N'. destruct i as [x v|x|v]; try reflexivity. cbn.
  destruct (text_eqb x d) eqn:E; [|reflexivity]. apply text_eqb_eq in E. subst x. destruct (N v). left. reflexivity.
Qed.
Lemma given_last_of what is x : last_given what is x -> given_last (txt what) is None = x.
Proof.
  intros [is' N|a v b N].
  - apply given_last_none. exact N.
  - unfold given_last. rewrite fold_left_app. cbn [fold_left step_given]. rewrite same_text.
    apply (given_last_none (txt what) b (Some v) N).
Qed.
Lemma given_last_is what is : last_given what is (given_last (txt what) is None).
Proof.
  induction is as [|i is IH] using rev_ind; [constructor; intros v []|].
  unfold given_last. rewrite fold_left_app. cbn [fold_left]. fold (given_last (txt what) is None).
  assert (K : (forall v, i <> Value (txt what) v) -> last_given what (is ++ [i]) (given_last (txt what) is None)).
  { intros N. destruct IH as [is' M|a v b M].
    - constructor. intros v I. apply in_app_or in I. destruct I as [I|[I|[]]]; [exact (M v I)|exact (N v I)].
    - rewrite <- app_assoc. apply lg_some. intros v' I. apply in_app_or in I.
      destruct I as [I|[I|[]]]; [exact (M v' I)|exact (N v' I)]. }
  destruct i as [x v|x|v]; cbn; try (apply K; intros v'; discriminate).
  destruct (text_eqb x (txt what)) eqn:E.
  - apply text_eqb_eq in E. subst x. apply lg_some. intros v' [].
  - apply K. intros v' H. inversion H; subst. rewrite same_text in E. discriminate.
Qed.
Lemma last_given_iff what is x : last_given what is x <-> given_last (txt what) is None = x.
Proof. split; [apply given_last_of|intros <-; apply given_last_is]. Qed.
