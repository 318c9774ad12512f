(** Lemmas about the JSON parser: it accepts exactly the JSON texts. *)
From Coq Require Import List ZArith QArith Bool String Lia.
From Verif Require Import Py Base Text Spec_mqtt Mqtt_facts Json Spec_json.
Import ListNotations.
Notation length := List.length.
Open Scope Z_scope.

(** ** Strings *)

Lemma unhex_spec c n : unhex c = Some n <-> hex_value c n.
Proof.
  unfold unhex, is_digit, hex_value. split.
  - destruct ((48 <=? c) && (c <=? 57)) eqn:A; [intros H; inversion H; apply andb_true_iff in A; rewrite !Z.leb_le in A; lia|].
    destruct ((97 <=? c) && (c <=? 102)) eqn:B; [intros H; inversion H; apply andb_true_iff in B; rewrite !Z.leb_le in B; lia|].
    destruct ((65 <=? c) && (c <=? 70)) eqn:C; [intros H; inversion H; apply andb_true_iff in C; rewrite !Z.leb_le in C; lia|].
    discriminate.
  - intros H.
    destruct (Z.leb_spec 48 c), (Z.leb_spec c 57), (Z.leb_spec 97 c), (Z.leb_spec c 102), (Z.leb_spec 65 c), (Z.leb_spec c 70);
      cbn [andb]; try lia; f_equal; lia.
Qed.
Lemma unhex4_spec a b c d n : unhex4 a b c d = Some n <-> u_escape [92; 117; a; b; c; d] n.
Proof.
  unfold unhex4. split.
  - destruct (unhex a) as [na|] eqn:A; [|discriminate]. destruct (unhex b) as [nb|] eqn:B; [|discriminate].
    destruct (unhex c) as [nc|] eqn:C; [|discriminate]. destruct (unhex d) as [nd|] eqn:D; [|discriminate].
    intros H. inversion H. apply unhex_spec in A, B, C, D. exists a, b, c, d, na, nb, nc, nd.
    repeat (split; [first [reflexivity|assumption]|]). lia.
  - intros (a' & b' & c' & d' & na & nb & nc & nd & E & A & B & C & D & ->). inversion E; subst.
    apply unhex_spec in A, B, C, D. rewrite A, B, C, D. f_equal. lia.
Qed.
Lemma u_escape_shape t n : u_escape t n -> exists a b c d, t = [92; 117; a; b; c; d] /\ unhex4 a b c d = Some n.
Proof.
  intros H. pose proof H as (a & b & c & d & na & nb & nc & nd & E & _). exists a, b, c, d. split; [exact E|].
  apply unhex4_spec. rewrite <- E. exact H.
Qed.
Lemma high_spec n : high_surrogate n = true <-> high n.
Proof. unfold high_surrogate, high. rewrite andb_true_iff, !Z.leb_le. reflexivity. Qed.
Lemma low_spec n : low_surrogate n = true <-> low n.
Proof. unfold low_surrogate, low. rewrite andb_true_iff, !Z.leb_le. reflexivity. Qed.
Lemma short_spec e c : simple_escape e = Some c <-> short_escape e c.
Proof.
  unfold simple_escape. split.
  - repeat match goal with |- context [?x =? ?y] => destruct (Z.eqb_spec x y); cbn [orb] end;
      intros H; inversion H; subst; constructor.
  - destruct 1; reflexivity.
Qed.

Lemma scanstring_sound n : forall s v r, (length s <= n)%nat -> scanstring s = Some (v, r) ->
  exists t, s = t ++ 34 :: r /\ characters t v.
Proof.
  induction n as [|n IH]; intros s v r L E; destruct s as [|c s1]; try discriminate; [cbn in L; lia|].
  cbn [length] in L. cbn [scanstring] in E.
  assert (Step : forall x s', (length s' <= n)%nat -> cons_fst x (scanstring s') = Some (v, r) ->
            exists t v', s' = t ++ 34 :: r /\ characters t v' /\ v = x :: v').
  { intros x s' L' E'. destruct (scanstring s') as [[v' r']|] eqn:Q; [|discriminate]. cbn in E'. inversion E'; subst.
    destruct (IH _ _ _ L' Q) as (t & -> & C). eauto 6. }
  destruct (Z.eqb_spec c 34) as [->|N34]; [inversion E; subst; exists []; split; [reflexivity|constructor]|].
  destruct (Z.eqb_spec c 92) as [->|N92]; cbn [negb] in E.
  2:{ destruct (Z.leb_spec c 31); [discriminate|]. destruct (Step c s1 ltac:(lia) E) as (t & v' & -> & C & ->).
      exists (c :: t). split; [reflexivity|]. constructor; auto. lia. }
  destruct s1 as [|e s2]; [discriminate|]. cbn [length] in L.
  destruct (Z.eqb_spec e 117) as [->|N117]; cbn [negb] in E.
  2:{ destruct (simple_escape e) as [x|] eqn:X; [|discriminate]. apply short_spec in X.
      destruct (Step x s2 ltac:(lia) E) as (t & v' & -> & C & ->).
      exists (92 :: e :: t). split; [reflexivity|]. constructor; auto. }
  destruct s2 as [|h1 [|h2 [|h3 [|h4 s3]]]]; try discriminate. cbn [length] in L.
  destruct (unhex4 h1 h2 h3 h4) as [m|] eqn:H; [|discriminate]. apply unhex4_spec in H.
  assert (Single : cons_fst m (scanstring s3) = Some (v, r) ->
            (high m -> forall x y k1 k2 k3 k4 s4 q, s3 = x :: y :: k1 :: k2 :: k3 :: k4 :: s4 ->
               u_escape [x; y; k1; k2; k3; k4] q -> ~ low q) ->
            exists t, 92 :: 117 :: h1 :: h2 :: h3 :: h4 :: s3 = t ++ 34 :: r /\ characters t v).
  { intros E' F. destruct (Step m s3 ltac:(lia) E') as (t & v' & -> & C & ->).
    exists ([92; 117; h1; h2; h3; h4] ++ t). split; [reflexivity|]. apply ch_u; [exact H|exact C|].
    intros Hm l q t' -> U. destruct (u_escape_shape _ _ U) as (a & b & c & d & -> & _).
    apply (F Hm 92 117 a b c d (t' ++ 34 :: r) q eq_refl U). }
  destruct (high_surrogate m) eqn:Hm.
  2:{ apply Single; [exact E|]. intros Hi. apply high_spec in Hi. congruence. }
  apply high_spec in Hm.
  assert (Short : (forall x y k1 k2 k3 k4 s4, s3 <> x :: y :: k1 :: k2 :: k3 :: k4 :: s4) ->
            cons_fst m (scanstring s3) = Some (v, r) ->
            exists t, 92 :: 117 :: h1 :: h2 :: h3 :: h4 :: s3 = t ++ 34 :: r /\ characters t v).
  { intros Sh E'. apply Single; [exact E'|]. intros _ x y k1 k2 k3 k4 s4 q Q. destruct (Sh _ _ _ _ _ _ _ Q). }
  destruct s3 as [|x [|y [|k1 [|k2 [|k3 [|k4 s4]]]]]]; try (apply Short; [discriminate|exact E]).
  destruct ((x =? 92) && (y =? 117)) eqn:XY.
  - apply andb_true_iff in XY. rewrite !Z.eqb_eq in XY. destruct XY as [-> ->].
    destruct (unhex4 k1 k2 k3 k4) as [q|] eqn:K; [|discriminate]. apply unhex4_spec in K.
    destruct (low_surrogate q) eqn:Lq.
    + apply low_spec in Lq. cbn [length] in L. destruct (Step _ s4 ltac:(lia) E) as (t & v' & -> & C & ->).
      exists ([92; 117; h1; h2; h3; h4] ++ [92; 117; k1; k2; k3; k4] ++ t). split; [reflexivity|].
      apply ch_pair; assumption.
    + apply Single; [exact E|]. intros _ x y a b c d s' q' Q U. inversion Q; subst. intros Lw.
      apply unhex4_spec in K. apply unhex4_spec in U. rewrite K in U. inversion U; subst. apply low_spec in Lw. congruence.
  - apply Single; [exact E|]. intros _ x' y' a b c d s' q' Q U. inversion Q; subst.
    destruct (u_escape_shape _ _ U) as (? & ? & ? & ? & W & _). inversion W; subst. discriminate XY.
Qed.

Lemma characters_six t s x y k1 k2 k3 k4 rest r : characters t s -> t ++ 34 :: r = x :: y :: k1 :: k2 :: k3 :: k4 :: rest ->
  x = 92 -> y = 117 -> exists t' m, t = [92; 117; k1; k2; k3; k4] ++ t' /\ unhex4 k1 k2 k3 k4 = Some m.
Proof.
  intros C E -> ->. destruct C as [|c t s _ _ N|e c t s S|h n l m t s U _ U' _ _|h n t s U _ _].
  - discriminate.
  - inversion E; subst. contradiction.
  - inversion E; subst. inversion S.
  - destruct (u_escape_shape _ _ U) as (a & b & c & d & -> & H). cbn in E. inversion E; subst. exists (l ++ t), n. auto.
  - destruct (u_escape_shape _ _ U) as (a & b & c & d & -> & H). cbn in E. inversion E; subst. exists t, n. auto.
Qed.
Lemma scanstring_complete t v : characters t v -> forall r, scanstring (t ++ 34 :: r) = Some (v, r).
Proof.
  induction 1 as [|c t s A B D C IH|e c t s S C IH|h n l m t s U Hn U' Lm C IH|h n t s U C IH F]; intros r.
  - reflexivity.
  - cbn [app scanstring]. destruct (Z.eqb_spec c 34); [contradiction|]. destruct (Z.eqb_spec c 92); [contradiction|].
    cbn [negb]. destruct (Z.leb_spec c 31); [lia|]. rewrite IH. reflexivity.
  - cbn [app scanstring Z.eqb negb Pos.eqb]. destruct (Z.eqb_spec e 117) as [->|]; [inversion S|]. cbn [negb].
    apply short_spec in S. rewrite S, IH. reflexivity.
  - destruct (u_escape_shape _ _ U) as (a & b & c & d & -> & H). destruct (u_escape_shape _ _ U') as (a' & b' & c' & d' & -> & H').
    cbn [app scanstring Z.eqb negb Pos.eqb andb]. rewrite H, H'.
    replace (high_surrogate n) with true by (symmetry; apply high_spec; exact Hn).
    replace (low_surrogate m) with true by (symmetry; apply low_spec; exact Lm). rewrite IH. reflexivity.
  - destruct (u_escape_shape _ _ U) as (a & b & c & d & -> & H).
    cbn [app scanstring Z.eqb negb Pos.eqb]. rewrite H. specialize (IH r).
    destruct (high_surrogate n) eqn:Hn; [|rewrite IH; reflexivity]. apply high_spec in Hn.
    destruct (t ++ 34 :: r) as [|x [|y [|k1 [|k2 [|k3 [|k4 s4]]]]]] eqn:T; try (rewrite IH; reflexivity).
    destruct ((x =? 92) && (y =? 117)) eqn:XY; [|rewrite IH; reflexivity].
    apply andb_true_iff in XY. rewrite !Z.eqb_eq in XY. destruct XY as [-> ->].
    destruct (characters_six _ _ _ _ _ _ _ _ _ _ C T eq_refl eq_refl) as (t' & m & -> & K). rewrite K.
    destruct (low_surrogate m) eqn:Lm; [|rewrite IH; reflexivity].
    exfalso. apply low_spec in Lm. refine (F Hn _ m t' eq_refl _ Lm). apply unhex4_spec. exact K.
Qed.

(** ** Numbers *)

Lemma digit_spec c : is_digit c = true <-> digit c.
Proof. unfold is_digit, digit. rewrite andb_true_iff, !Z.leb_le. reflexivity. Qed.
Definition no_digit (r : text) : Prop := match r with c :: _ => ~ digit c | [] => True end.
Lemma span_sound s : forall d r, span_digits s = (d, r) -> s = d ++ r /\ Forall digit d /\ no_digit r.
Proof.
  induction s as [|c s IH]; intros d r E; cbn [span_digits] in E; [inversion E; subst; repeat constructor|].
  destruct (is_digit c) eqn:D.
  - destruct (span_digits s) as [a b]. inversion E; subst. destruct (IH _ _ eq_refl) as (-> & F & N).
    apply digit_spec in D. repeat split; auto.
  - inversion E; subst. split; [reflexivity|]. split; [constructor|]. cbn. rewrite <- digit_spec. congruence.
Qed.
Lemma span_complete d r : Forall digit d -> no_digit r -> span_digits (d ++ r) = (d, r).
Proof.
  intros F N. induction F as [|c d D _ IH]; cbn [app].
  - destruct r as [|c r]; [reflexivity|]. cbn [span_digits no_digit] in *. destruct (is_digit c) eqn:E; [|reflexivity].
    apply digit_spec in E. contradiction.
  - cbn [span_digits]. apply digit_spec in D. rewrite D, IH. reflexivity.
Qed.

(** What may come after a number. *)
Definition ends (r : text) : Prop :=
  match r with c :: _ => ~ digit c /\ c <> 46 /\ c <> 101 /\ c <> 69 | [] => True end.

Lemma fraction_sound s f r : scan_fraction s = (f, r) -> s = f ++ r /\ (f = [] \/ fraction f).
Proof.
  unfold scan_fraction. destruct s as [|c s]; [intros E; inversion E; auto|].
  destruct (Z.eqb_spec c 46) as [->|]; [|intros E; inversion E; auto].
  destruct (span_digits s) as [d b] eqn:D. destruct (span_sound _ _ _ D) as (-> & F & _).
  destruct d as [|x d]; intros E; inversion E; subst; auto. split; [reflexivity|]. right. exists (x :: d). repeat split; auto. discriminate.
Qed.
Lemma exponent_sound s e r : scan_exponent s = (e, r) -> s = e ++ r /\ (e = [] \/ exponent e).
Proof.
  unfold scan_exponent. destruct s as [|c s]; [intros E; inversion E; auto|].
  destruct ((c =? 101) || (c =? 69)) eqn:C; [|intros E; inversion E; auto].
  rewrite orb_true_iff, !Z.eqb_eq in C.
  assert (G : exists sign s2, (match s with g :: s2 => if (g =? 43) || (g =? 45) then ([g], s2) else ([], s) | [] => ([], []) end)
              = (sign, s2) /\ s = sign ++ s2 /\ (sign = [] \/ sign = [43] \/ sign = [45])).
  { destruct s as [|g s]; [exists [], []; auto|]. destruct ((g =? 43) || (g =? 45)) eqn:G; [|exists [], (g :: s); auto].
    rewrite orb_true_iff, !Z.eqb_eq in G. exists [g], s. split; [reflexivity|]. split; [reflexivity|].
    destruct G as [-> | ->]; auto. }
  destruct G as (sign & s2 & -> & -> & Sg). destruct (span_digits s2) as [d b] eqn:D.
  destruct (span_sound _ _ _ D) as (-> & F & _).
  destruct d as [|x d]; intros E; inversion E; subst; auto. split; [cbn; rewrite <- app_assoc; reflexivity|]. right.
  exists c, sign, (x :: d). repeat split; auto. discriminate.
Qed.

Lemma natural_zero n : natural n [48] -> n = 0.
Proof. intros (_ & _ & _ & <-). reflexivity. Qed.
Lemma value_digits t : digits_value t = value t.
Proof. reflexivity. Qed.

Lemma number_sound lib s n r : match_number lib s = Some (n, r) ->
  exists t, s = t ++ r /\ ((exists z, integer t z /\ n = PInt z) \/ (fractional t /\ n = jl_float lib t)).
Proof.
  unfold match_number.
  assert (G : exists sign s1, (match s with c :: s' => if c =? 45 then ([c], s') else ([], s) | [] => ([], []) end)
              = (sign, s1) /\ s = sign ++ s1 /\ (sign = [] \/ sign = [45])).
  { destruct s as [|c s]; [exists [], []; auto|]. destruct (Z.eqb_spec c 45) as [->|].
    - exists [45], s. auto.
    - exists [], (c :: s). auto. }
  destruct G as (sign & s1 & -> & -> & Sg). destruct s1 as [|c s2]; [discriminate|].
  destruct (is_digit c) eqn:Dc; [|discriminate]. cbn [negb]. apply digit_spec in Dc.
  assert (I : exists int s3, (if c =? 48 then ([c], s2) else let (d, r0) := span_digits s2 in (c :: d, r0)) = (int, s3)
              /\ c :: s2 = int ++ s3 /\ natural (value int) int).
  { destruct (Z.eqb_spec c 48) as [->|N].
    - exists [48], s2. split; [reflexivity|]. split; [reflexivity|].
      split; [discriminate|]. split; [repeat constructor; unfold digit; lia|]. split; reflexivity.
    - destruct (span_digits s2) as [d r0] eqn:D. destruct (span_sound _ _ _ D) as (-> & F & _).
      exists (c :: d), r0. split; [reflexivity|]. split; [reflexivity|].
      split; [discriminate|]. split; [constructor; auto|]. split; [intros H; cbn in H; contradiction|reflexivity]. }
  destruct I as (int & s3 & -> & Es & Nat). rewrite Es.
  destruct (scan_fraction s3) as [f s4] eqn:Ef. destruct (fraction_sound _ _ _ Ef) as (-> & F).
  destruct (scan_exponent s4) as [e s5] eqn:Ee. destruct (exponent_sound _ _ _ Ee) as (-> & X).
  set (t := sign ++ int). set (z := match sign with [] => value int | _ => - value int end).
  assert (It : integer t z).
  { unfold t, z. destruct Sg as [-> | ->]; constructor; exact Nat. }
  assert (Fl : ~ (f = [] /\ e = []) -> fractional (t ++ f ++ e)).
  { intros N. exists t, z, f, e. auto. }
  destruct f as [|f0 f]; [destruct e as [|e0 e]|].
  - intros E. inversion E; subst. exists t. split; [unfold t; rewrite <- app_assoc; reflexivity|].
    left. exists z. split; [exact It|]. reflexivity.
  - intros E. inversion E; subst. exists (t ++ [] ++ (e0 :: e)).
    split; [unfold t; rewrite <- !app_assoc; reflexivity|]. right. split; [apply Fl; intros (_ & W); discriminate|].
    unfold t. rewrite <- app_assoc. reflexivity.
  - intros E. inversion E; subst. exists (t ++ (f0 :: f) ++ e).
    split; [unfold t; rewrite <- !app_assoc; reflexivity|]. right. split; [apply Fl; intros (W & _); discriminate|].
    unfold t. rewrite <- app_assoc. reflexivity.
Qed.

Lemma fraction_none r : ends r -> scan_fraction r = ([], r).
Proof.
  destruct r as [|c r]; [reflexivity|]. cbn. intros (_ & N & _). destruct (Z.eqb_spec c 46); [contradiction|reflexivity].
Qed.
Lemma exponent_none r : ends r -> scan_exponent r = ([], r).
Proof.
  destruct r as [|c r]; [reflexivity|]. cbn. intros (_ & _ & N & N').
  destruct (Z.eqb_spec c 101); [contradiction|]. destruct (Z.eqb_spec c 69); [contradiction|reflexivity].
Qed.
Lemma ends_no_digit r : ends r -> no_digit r.
Proof. destruct r; cbn; tauto. Qed.
Lemma exponent_some e r : exponent e -> ends r -> scan_exponent (e ++ r) = (e, r).
Proof.
  intros (c & sign & d & C & Sg & (Nd & D) & ->) N. cbn [app scan_exponent].
  replace ((c =? 101) || (c =? 69)) with true by (destruct C as [-> | ->]; reflexivity).
  destruct d as [|x d]; [contradiction|].
  rewrite <- app_assoc.
  assert (G : (match sign ++ (x :: d) ++ r with
               | g :: s2 => if (g =? 43) || (g =? 45) then ([g], s2) else ([], sign ++ (x :: d) ++ r)
               | [] => ([], []) end) = (sign, (x :: d) ++ r)).
  { destruct Sg as [->|[-> | ->]]; [|reflexivity|reflexivity]. cbn [app]. inversion D as [|? ? Dx _]; subst. unfold digit in Dx.
    destruct (Z.eqb_spec x 43); [lia|]. destruct (Z.eqb_spec x 45); [lia|]. reflexivity. }
  rewrite G, (span_complete (x :: d) r D (ends_no_digit r N)). reflexivity.
Qed.
Lemma fraction_some f r : fraction f -> no_digit r -> scan_fraction (f ++ r) = (f, r).
Proof.
  intros (d & (Nd & D) & ->) N. cbn [app scan_fraction Z.eqb Pos.eqb]. rewrite (span_complete d r D N).
  destruct d; [contradiction|reflexivity].
Qed.

(** The integer part. *)
Lemma number_scan lib i z rest f r1 e r2 : integer i z -> no_digit rest ->
  scan_fraction rest = (f, r1) -> scan_exponent r1 = (e, r2) ->
  match_number lib (i ++ rest)
    = match f, e with [], [] => Some (PInt z, r2) | _, _ => Some (jl_float lib (i ++ f ++ e), r2) end.
Proof.
  assert (Nt : forall n t, natural n t -> exists c d, t = c :: d /\ digit c /\ Forall digit d /\ (c = 48 -> d = []) /\ value t = n).
  { intros n t (N & F & Z0 & V). destruct t as [|c d]; [contradiction|]. inversion F; subst. exists c, d.
    split; [reflexivity|]. split; [assumption|]. split; [assumption|]. split; [|reflexivity].
    intros ->. specialize (Z0 eq_refl). inversion Z0. reflexivity. }
  intros I N Ef Ee.
  destruct I as [t n H|t n H]; destruct (Nt n t H) as (c & d & -> & Dc & F & Z0 & V); unfold match_number; cbn [app].
  - destruct (Z.eqb_spec c 45) as [->|]; [unfold digit in Dc; lia|].
    rewrite (proj2 (digit_spec c) Dc). cbn [negb].
    destruct (Z.eqb_spec c 48) as [E|E].
    + rewrite (Z0 E) in *. cbn [app]. rewrite Ef, Ee. destruct f; [destruct e|]; [rewrite <- V|..]; reflexivity.
    + rewrite (span_complete d rest F N), Ef, Ee. destruct f; [destruct e|]; [rewrite <- V|..]; reflexivity.
  - cbn [Z.eqb Pos.eqb]. rewrite (proj2 (digit_spec c) Dc). cbn [negb].
    destruct (Z.eqb_spec c 48) as [E|E].
    + rewrite (Z0 E) in *. cbn [app]. rewrite Ef, Ee. destruct f; [destruct e|]; [rewrite <- V|..]; reflexivity.
    + rewrite (span_complete d rest F N), Ef, Ee. destruct f; [destruct e|]; [rewrite <- V|..]; reflexivity.
Qed.
Lemma number_int lib i z r : integer i z -> ends r -> match_number lib (i ++ r) = Some (PInt z, r).
Proof.
  intros I E. rewrite (number_scan lib i z r [] r [] r I (ends_no_digit r E) (fraction_none r E) (exponent_none r E)). reflexivity.
Qed.
Lemma exponent_head e : exponent e -> forall r, no_digit (e ++ r) /\ scan_fraction (e ++ r) = ([], e ++ r).
Proof.
  intros (c & sign & d & C & _ & _ & ->) r. cbn. unfold digit. destruct (Z.eqb_spec c 46); [lia|]. split; [lia|reflexivity].
Qed.
Lemma number_float lib t r : fractional t -> ends r -> match_number lib (t ++ r) = Some (jl_float lib t, r).
Proof.
  intros (i & z & f & e & I & -> & F & X & N) E. rewrite <- !app_assoc.
  assert (Ex : scan_exponent (e ++ r) = (e, r)).
  { destruct X as [->|X]; [apply exponent_none; exact E|apply exponent_some; assumption]. }
  assert (Nd : no_digit (e ++ r)).
  { destruct X as [->|X]; [apply ends_no_digit; exact E|apply exponent_head; exact X]. }
  assert (Ef : scan_fraction (f ++ e ++ r) = (f, e ++ r)).
  { destruct F as [->|F]; [|apply fraction_some; assumption].
    destruct X as [->|X]; [apply fraction_none; exact E|exact (proj2 (exponent_head e X r))]. }
  assert (Nf : no_digit (f ++ e ++ r)).
  { destruct F as [->|(d & _ & ->)]; [exact Nd|]. cbn. unfold digit. lia. }
  rewrite (number_scan lib i z _ _ _ _ _ I Nf Ef Ex).
  destruct f as [|f0 f]; [|reflexivity]. destruct e as [|e0 e]; [|reflexivity]. destruct N. auto.
Qed.

(** ** Values *)

Lemma space_spec c : json_space c = true <-> space c.
Proof. unfold json_space, space. rewrite !orb_true_iff, !Z.eqb_eq. tauto. Qed.
Lemma skip_sound s : exists w, spaces w /\ s = w ++ skip_space s.
Proof.
  unfold skip_space, spaces. induction s as [|c s (w & F & E)]; cbn [drop_while]; [exists []; auto|].
  destruct (json_space c) eqn:J; [|exists []; auto]. apply space_spec in J. exists (c :: w). split; [constructor; auto|].
  cbn. congruence.
Qed.
Definition no_space (r : text) : Prop := match r with c :: _ => ~ space c | [] => True end.
Lemma skip_no_space r : no_space r -> skip_space r = r.
Proof.
  destruct r as [|c r]; [reflexivity|]. unfold skip_space. cbn [no_space drop_while]. intros N.
  destruct (json_space c) eqn:J; [apply space_spec in J; contradiction|reflexivity].
Qed.
Lemma skip_spaces w r : spaces w -> skip_space (w ++ r) = skip_space r.
Proof.
  intros F. induction F as [|c w C _ IH]; [reflexivity|]. unfold skip_space in *. cbn [app drop_while].
  apply space_spec in C. rewrite C. exact IH.
Qed.
Lemma skip_complete w r : spaces w -> no_space r -> skip_space (w ++ r) = r.
Proof. intros F N. rewrite skip_spaces by exact F. apply skip_no_space, N. Qed.
Lemma skip_after s : no_space (skip_space s).
Proof.
  unfold skip_space. induction s as [|c s IH]; cbn [drop_while]; [exact I|]. destruct (json_space c) eqn:J; [exact IH|].
  cbn. rewrite <- space_spec. congruence.
Qed.
Lemma skip_length s : (length (skip_space s) <= length s)%nat.
Proof. destruct (skip_sound s) as (w & _ & E). rewrite E at 2. rewrite app_length. lia. Qed.
Lemma spaces_app v w : spaces v -> spaces w -> spaces (v ++ w).
Proof. intros. apply Forall_app. auto. Qed.
Lemma spaces_nil : spaces [].
Proof. constructor. Qed.

Lemma array_space lib d w t l : spaces w -> array_body lib d t l -> array_body lib d (w ++ t) l.
Proof.
  intros W [d' w0 x v w' A B C|d' w0 x v w' rest l' A B C D]; rewrite app_assoc; constructor; auto using spaces_app.
Qed.
Lemma object_space lib d w t l : spaces w -> object_body lib d t l -> object_body lib d (w ++ t) l.
Proof.
  intros W [d' w0 k key w1 w2 x v w' A B C D E F|d' w0 k key w1 w2 x v w' rest l' A B C D E F G];
    rewrite app_assoc; constructor; auto using spaces_app.
Qed.

Definition adds (l : list (text * json)) (d : list (text * json)) : list (text * json) :=
  fold_left (fun d e => dict_set (fst e) (snd e) d) l d.
Lemma dict_set_new k v l : ~ In k (map fst l) -> dict_set k v l = l ++ [(k, v)].
Proof.
  induction l as [|[a w] l IH]; intros N; [reflexivity|]. cbn [dict_set app]. cbn [map fst In] in N.
  destruct (text_eqb a k) eqn:E; [apply text_eqb_eq in E; subst; tauto|]. rewrite IH by tauto. reflexivity.
Qed.
Lemma adds_new l : forall acc, NoDup (map fst (acc ++ l)) -> adds l acc = acc ++ l.
Proof.
  induction l as [|[k v] l IH]; intros acc N; [symmetry; apply app_nil_r|]. unfold adds in *. cbn [fold_left fst snd].
  rewrite map_app in N. cbn [map fst] in N. pose proof (NoDup_remove_2 _ _ _ N) as R.
  rewrite dict_set_new by (intros I; apply R, in_or_app; auto).
  rewrite IH, <- app_assoc; [reflexivity|]. rewrite <- app_assoc, map_app. exact N.
Qed.
Lemma dict_set_old k v l : NoDup (map fst l) -> In k (map fst l) ->
  dict_set k v l = map (fun e => if list_eq_dec Z.eq_dec (fst e) k then (fst e, v) else e) l.
Proof.
  induction l as [|[a w] l IH]; intros N I; [destruct I|]. cbn [dict_set map fst] in *. inversion N as [|x y N1 N2]; subst.
  destruct (text_eqb a k) eqn:E.
  - apply text_eqb_eq in E. subst a. destruct (list_eq_dec Z.eq_dec k k) as [_|X]; [|contradiction]. f_equal.
    rewrite <- (map_id l) at 1. apply map_ext_in. intros [b u] J. cbn [fst].
    destruct (list_eq_dec Z.eq_dec b k) as [->|_]; [|reflexivity]. exfalso. apply N1. exact (in_map fst _ _ J).
  - destruct (list_eq_dec Z.eq_dec a k) as [->|X]; [rewrite (proj2 (text_eqb_eq k k) eq_refl) in E; discriminate|].
    f_equal. apply IH; [exact N2|]. destruct I as [->|I]; [contradiction|exact I].
Qed.
(** The entries added one after the other are the dict of the specification. *)
Lemma adds_general l : forall acc, NoDup (map fst acc) ->
  adds l acc = map (fun e => (fst e, last_value (fst e) (snd e) l)) acc
    ++ filter (fun e : text * json => if in_dec (list_eq_dec Z.eq_dec) (fst e) (map fst acc) then false else true) (dict_of l).
Proof.
  induction l as [|[k v] l IH]; intros acc N.
  - cbn [dict_of filter]. rewrite app_nil_r. unfold adds. cbn [fold_left].
    rewrite <- (map_id acc) at 1. apply map_ext. intros [a w]. reflexivity.
  - change (adds ((k, v) :: l) acc) with (adds l (dict_set k v acc)). cbn [dict_of].
    destruct (in_dec (list_eq_dec Z.eq_dec) k (map fst acc)) as [I|I].
    + assert (KS : map fst (dict_set k v acc) = map fst acc).
      { rewrite (dict_set_old k v acc N I), map_map. apply map_ext. intros [a w]. cbn [fst]. now destruct (list_eq_dec Z.eq_dec a k). }
      rewrite IH by (rewrite KS; exact N). f_equal; [rewrite (dict_set_old k v acc N I), map_map|].
      * apply map_ext. intros [a w]. unfold last_value. cbn [fst snd fold_left].
        destruct (list_eq_dec Z.eq_dec a k) as [->|X]; cbn [fst snd].
        -- destruct (list_eq_dec Z.eq_dec k k); [reflexivity|contradiction].
        -- destruct (list_eq_dec Z.eq_dec k a) as [->|_]; [contradiction|reflexivity].
      * rewrite KS. cbn [filter fst]. destruct (in_dec (list_eq_dec Z.eq_dec) k (map fst acc)) as [_|X]; [|contradiction].
        unfold without. clear IH. induction (dict_of l) as [|[a w] d IHd]; [reflexivity|]. cbn [filter fst].
        destruct (list_eq_dec Z.eq_dec a k) as [->|X].
        -- destruct (in_dec (list_eq_dec Z.eq_dec) k (map fst acc)) as [_|Y]; [exact IHd|contradiction].
        -- cbn [filter fst]. rewrite IHd. reflexivity.
    + rewrite (dict_set_new k v acc I).
      assert (N' : NoDup (map fst (acc ++ [(k, v)]))).
      { rewrite map_app. cbn [map fst]. apply NoDup_Add with (a := k) (l := map fst acc); [|auto].
        rewrite <- (app_nil_r (map fst acc)) at 1. apply Add_app. }
      rewrite IH by exact N'. rewrite !map_app. cbn [map fst snd filter]. rewrite <- app_assoc. f_equal.
      * apply map_ext_in. intros [a w] J. unfold last_value. cbn [fst snd fold_left].
        destruct (list_eq_dec Z.eq_dec k a) as [->|_]; [|reflexivity]. exfalso. apply I. exact (in_map fst _ _ J).
      * destruct (in_dec (list_eq_dec Z.eq_dec) k (map fst acc)) as [Y|_]; [contradiction|]. cbn [app]. f_equal.
        unfold without. clear IH. induction (dict_of l) as [|[a w] d IHd]; [reflexivity|]. cbn [filter fst].
        destruct (list_eq_dec Z.eq_dec a k) as [->|X].
        -- destruct (in_dec (list_eq_dec Z.eq_dec) k (map fst acc ++ [k])) as [_|Y]; [exact IHd|]. exfalso. apply Y, in_or_app. right. now left.
        -- cbn [filter fst]. rewrite <- IHd.
           destruct (in_dec (list_eq_dec Z.eq_dec) a (map fst acc ++ [k])) as [Y|Y]; destruct (in_dec (list_eq_dec Z.eq_dec) a (map fst acc)) as [Z|Z]; try reflexivity.
           ++ exfalso. apply in_app_or in Y. destruct Y as [Y|[Y|[]]]; [contradiction|]. congruence.
           ++ exfalso. apply Y, in_or_app. now left.
Qed.
Lemma adds_dict l : adds l [] = dict_of l.
Proof.
  rewrite adds_general by constructor. cbn [map app]. induction (dict_of l) as [|e d IH]; [reflexivity|]. cbn [filter].
  destruct (in_dec (list_eq_dec Z.eq_dec) (fst e) []) as [X|_]; [destruct X|]. cbn [map] in *. now rewrite IH.
Qed.

Lemma constant_sound lib d s v r : scan_constant constants s = Some (v, r) -> exists t, s = t ++ r /\ denotes lib d t v.
Proof.
  assert (G : forall l, scan_constant l s = Some (v, r) -> exists t, In (t, v) l /\ s = t ++ r).
  { induction l as [|[t w] l IH]; cbn [scan_constant]; [discriminate|].
    destruct (starts_with t s) eqn:E.
    - intros H. inversion H; subst. apply starts_with_spec in E. destruct E as (q & ->).
      exists t. split; [left; reflexivity|]. f_equal. rewrite skipn_app, skipn_all, Nat.sub_diag. reflexivity.
    - intros H. destruct (IH H) as (t' & A & B). exists t'. split; [right; exact A|exact B]. }
  intros H. destruct (G _ H) as (t & A & ->). exists t. split; [reflexivity|].
  cbn [In constants] in A.
  repeat (destruct A as [A|A]; [inversion A; subst; constructor|]). contradiction.
Qed.

Lemma scan_sound lib fuel :
  (forall depth s v r, scan lib fuel depth s = Got (v, r) -> exists t, s = t ++ r /\ denotes lib depth t v)
  /\ (forall depth acc s v r, elements lib fuel depth acc s = Got (v, r) ->
        exists t l, s = t ++ 93 :: r /\ array_body lib depth t l /\ v = JArr (acc ++ l))
  /\ (forall depth acc s v r, members lib fuel depth acc s = Got (v, r) ->
        exists t l, s = t ++ 125 :: r /\ object_body lib depth t l /\ v = JObj (adds l acc)).
Proof.
  induction fuel as [|fuel (IHs & IHe & IHm)]; [repeat split; intros; discriminate|]. repeat split.
  - intros depth s v r. cbn [scan]. destruct s as [|c s1]; [discriminate|].
    destruct (Z.eqb_spec c 34) as [->|N34].
    { destruct (scanstring s1) as [[x q]|] eqn:Q; [|discriminate]. intros E. inversion E; subst.
      destruct (scanstring_sound _ _ _ _ (le_n _) Q) as (t & -> & C).
      exists ([34] ++ t ++ [34]). split; [rewrite <- !app_assoc; reflexivity|constructor; exact C]. }
    destruct (Z.eqb_spec c 123) as [->|N123].
    { destruct depth as [|depth]; [discriminate|]. destruct (skip_sound s1) as (w & W & Es1).
      destruct (skip_space s1) as [|x q] eqn:Q; [discriminate|]. destruct (Z.eqb_spec x 125) as [->|].
      - intros E. inversion E; subst. exists ([123] ++ w ++ [125]). split; [rewrite <- !app_assoc; reflexivity|].
        constructor; exact W.
      - intros E. destruct (IHm _ _ _ _ _ E) as (t & l & Et & B & ->). rewrite Es1, Et.
        exists ([123] ++ (w ++ t) ++ [125]). split; [rewrite <- !app_assoc; reflexivity|].
        rewrite adds_dict; apply j_obj. apply object_space; assumption. }
    destruct (Z.eqb_spec c 91) as [->|N91].
    { destruct depth as [|depth]; [discriminate|]. destruct (skip_sound s1) as (w & W & Es1).
      destruct (skip_space s1) as [|x q] eqn:Q; [discriminate|]. destruct (Z.eqb_spec x 93) as [->|].
      - intros E. inversion E; subst. exists ([91] ++ w ++ [93]). split; [rewrite <- !app_assoc; reflexivity|].
        constructor; exact W.
      - intros E. destruct (IHe _ _ _ _ _ E) as (t & l & Et & B & ->). rewrite Es1, Et.
        exists ([91] ++ (w ++ t) ++ [93]). split; [rewrite <- !app_assoc; reflexivity|].
        apply j_arr. apply array_space; assumption. }
    destruct (scan_constant constants (c :: s1)) as [[x q]|] eqn:K.
    { intros E. inversion E; subst. eapply constant_sound; exact K. }
    destruct (match_number lib (c :: s1)) as [[n q]|] eqn:Q; [|discriminate]. intros E. inversion E; subst.
    destruct (number_sound _ _ _ _ Q) as (t & Et & [(z & I & ->)|(F & ->)]); exists t; (split; [exact Et|]); constructor; assumption.
  - intros depth acc s v r. cbn [elements]. destruct (scan lib fuel depth s) as [[x s1]| | |] eqn:Q; try discriminate.
    cbn [jbind]. destruct (IHs _ _ _ _ Q) as (t & -> & D). destruct (skip_sound s1) as (w & W & Es1).
    destruct (skip_space s1) as [|y s2]; [discriminate|]. destruct (Z.eqb_spec y 93) as [->|N].
    + intros E. inversion E; subst. exists ([] ++ t ++ w), [x]. split; [cbn; rewrite <- app_assoc; reflexivity|].
      split; [|reflexivity]. constructor; auto using spaces_nil.
    + destruct (Z.eqb_spec y 44) as [->|]; [|discriminate]. intros E.
      destruct (IHe _ _ _ _ _ E) as (t' & l & Et & B & ->). destruct (skip_sound s2) as (w2 & W2 & Es2).
      exists ([] ++ t ++ w ++ [44] ++ (w2 ++ t')), (x :: l). split.
      { rewrite Es1, Es2, Et. cbn [app]. rewrite <- !app_assoc. cbn [app]. rewrite <- !app_assoc. reflexivity. }
      split; [|rewrite <- app_assoc; reflexivity].
      apply a_more; auto using spaces_nil, array_space.
  - intros depth acc s v r. cbn [members]. destruct s as [|q s1]; [discriminate|].
    destruct (Z.eqb_spec q 34) as [->|]; [cbn [negb]|discriminate].
    destruct (scanstring s1) as [[k s2]|] eqn:K; [|discriminate].
    destruct (scanstring_sound _ _ _ _ (le_n _) K) as (kt & -> & C).
    destruct (skip_sound s2) as (w1 & W1 & Es2). destruct (skip_space s2) as [|c s3]; [discriminate|].
    destruct (Z.eqb_spec c 58) as [->|]; [cbn [negb]|discriminate].
    destruct (skip_sound s3) as (w2 & W2 & Es3).
    destruct (scan lib fuel depth (skip_space s3)) as [[x s4]| | |] eqn:Q; try discriminate.
    cbn [jbind]. destruct (IHs _ _ _ _ Q) as (t & Et & D). destruct (skip_sound s4) as (w & W & Es4).
    destruct (skip_space s4) as [|y s5]; [discriminate|]. destruct (Z.eqb_spec y 125) as [->|N].
    + intros E. inversion E; subst. exists ([] ++ [34] ++ kt ++ [34] ++ w1 ++ [58] ++ w2 ++ t ++ w), [(k, x)]. split.
      { rewrite Es3, Et. cbn [app]. repeat (rewrite <- !app_assoc; cbn [app]). reflexivity. }
      split; [|reflexivity]. constructor; auto using spaces_nil.
    + destruct (Z.eqb_spec y 44) as [->|]; [|discriminate]. intros E.
      destruct (IHm _ _ _ _ _ E) as (t' & l & Et' & B & ->). destruct (skip_sound s5) as (w5 & W5 & Es5).
      exists ([] ++ [34] ++ kt ++ [34] ++ w1 ++ [58] ++ w2 ++ t ++ w ++ [44] ++ (w5 ++ t')), ((k, x) :: l). split.
      { rewrite Es2, Es3, Et, Es4, Es5, Et'. cbn [app]. repeat (rewrite <- !app_assoc; cbn [app]). reflexivity. }
      split; [|reflexivity]. apply o_more; auto using spaces_nil, object_space.
Qed.

Lemma natural_head n t : natural n t -> exists c t', t = c :: t' /\ digit c.
Proof. intros (N & F & _). destruct t as [|c t]; [contradiction|]. inversion F; subst. eauto. Qed.
Lemma integer_head t z : integer t z -> exists c t', t = c :: t' /\ (digit c \/ c = 45 /\ exists c' t'', t' = c' :: t'' /\ digit c').
Proof.
  intros [t' n H|t' n H]; destruct (natural_head _ _ H) as (c & t'' & -> & D).
  - eauto 6.
  - exists 45, (c :: t''). split; [reflexivity|]. right. split; [reflexivity|]. eauto.
Qed.
Lemma fractional_head t : fractional t -> exists c t', t = c :: t' /\ (digit c \/ c = 45 /\ exists c' t'', t' = c' :: t'' /\ digit c').
Proof.
  intros (i & z & f & e & I & -> & _). destruct (integer_head _ _ I) as (c & t' & -> & [D|(-> & c' & t'' & -> & D)]).
  - exists c, (t' ++ f ++ e). auto.
  - exists 45, ((c' :: t'') ++ f ++ e). split; [reflexivity|]. right. split; [reflexivity|]. cbn. eauto.
Qed.
Definition starts_value (c : Z) : Prop := ~ space c /\ c <> 93 /\ c <> 125.
Lemma denotes_head lib d t v : denotes lib d t v -> exists c t', t = c :: t' /\ starts_value c.
Proof.
  unfold starts_value, space.
  intros []; try (cbn; eexists _, _; split; [reflexivity|lia]).
  - destruct (integer_head _ _ H) as (c & t' & -> & C). exists c, t'. split; [reflexivity|]. unfold digit in C. lia.
  - destruct (fractional_head _ H) as (c & t' & -> & C). exists c, t'. split; [reflexivity|]. unfold digit in C. lia.
Qed.
Lemma ends_spaces w r : spaces w -> ends r -> ends (w ++ r).
Proof. intros [|c w' C _] E; [exact E|]. cbn. unfold space in C. unfold digit. lia. Qed.

Lemma constant_none c s : (digit c \/ c = 45 /\ exists c' t'', s = c' :: t'' /\ digit c') ->
  scan_constant constants (c :: s) = None.
Proof.
  unfold digit. intros H.
  assert (G : forall l, (forall t v, In (t, v) l -> starts_with t (c :: s) = false) -> scan_constant l (c :: s) = None).
  { induction l as [|[t v] l IH]; intros F; [reflexivity|]. cbn [scan_constant]. rewrite (F t v) by (left; reflexivity).
    apply IH. intros. eapply F. right. eauto. }
  apply G. intros t v I. apply not_true_is_false. intros E. apply starts_with_spec in E. destruct E as (q & E).
  cbn [constants In] in I.
  repeat (destruct I as [I|I]; [inversion I; subst; inversion E; subst; destruct H as [H|(H & c' & t'' & H' & H'')]; try lia; inversion H'; subst; lia|]).
  contradiction.
Qed.

Scheme denotes_ind3 := Minimality for denotes Sort Prop
  with array_ind3 := Minimality for array_body Sort Prop
  with object_ind3 := Minimality for object_body Sort Prop.
Combined Scheme json_ind3 from denotes_ind3, array_ind3, object_ind3.

Lemma array_skip lib d t l : array_body lib d t l -> forall r, exists c q, skip_space (t ++ r) = c :: q /\ starts_value c.
Proof.
  intros [d' w x v w' A B C|d' w x v w' rest l' A B C D] r; destruct (denotes_head _ _ _ _ B) as (c & t' & -> & V);
    rewrite <- !app_assoc; (rewrite skip_complete; [|exact A|cbn; apply V]); cbn; eauto.
Qed.
Lemma object_skip lib d t l : object_body lib d t l -> forall r, exists q, skip_space (t ++ r) = 34 :: q.
Proof.
  intros [d' w k key w1 w2 x v w' A B C D E F|d' w k key w1 w2 x v w' rest l' A B C D E F G] r;
    rewrite <- !app_assoc; (rewrite skip_complete; [|exact A|cbn; unfold space; lia]); cbn; eauto.
Qed.

Lemma scan_complete lib :
  (forall d t v, denotes lib d t v -> forall fuel r, (2 * length t + 1 <= fuel)%nat -> ends r ->
     scan lib fuel d (t ++ r) = Got (v, r))
  /\ (forall d t l, array_body lib d t l -> forall fuel acc r, (2 * length t + 2 <= fuel)%nat ->
     elements lib fuel d acc (skip_space (t ++ 93 :: r)) = Got (JArr (acc ++ l), r))
  /\ (forall d t l, object_body lib d t l -> forall fuel acc r, (2 * length t + 2 <= fuel)%nat ->
     members lib fuel d acc (skip_space (t ++ 125 :: r)) = Got (JObj (adds l acc), r)).
Proof.
  apply json_ind3.
  1-6: intros d fuel r L E; destruct fuel as [|fuel]; [lia|]; reflexivity.
  - intros d t z I fuel r L E. destruct fuel as [|fuel]; [lia|].
    pose proof (number_int lib t z r I E) as N. destruct (integer_head _ _ I) as (c & t' & -> & H). cbn [app] in *.
    cbn [scan]. assert (c <> 34 /\ c <> 123 /\ c <> 91) as (N1 & N2 & N3) by (unfold digit in H; lia).
    apply Z.eqb_neq in N1, N2, N3. rewrite N1, N2, N3.
    rewrite constant_none; [rewrite N; reflexivity|].
    destruct H as [H|(-> & c' & t'' & -> & H)]; [auto|]. right. split; [reflexivity|]. cbn. eauto.
  - intros d t F fuel r L E. destruct fuel as [|fuel]; [lia|].
    pose proof (number_float lib t r F E) as N. destruct (fractional_head _ F) as (c & t' & -> & H). cbn [app] in *.
    cbn [scan]. assert (c <> 34 /\ c <> 123 /\ c <> 91) as (N1 & N2 & N3) by (unfold digit in H; lia).
    apply Z.eqb_neq in N1, N2, N3. rewrite N1, N2, N3.
    rewrite constant_none; [rewrite N; reflexivity|].
    destruct H as [H|(-> & c' & t'' & -> & H)]; [auto|]. right. split; [reflexivity|]. cbn. eauto.
  - intros d t s C fuel r L E. destruct fuel as [|fuel]; [lia|]. rewrite <- !app_assoc. cbn [app scan Z.eqb Pos.eqb].
    rewrite (scanstring_complete t s C). reflexivity.
  - intros d w W fuel r L E. destruct fuel as [|fuel]; [lia|]. rewrite <- !app_assoc. cbn [app scan Z.eqb Pos.eqb].
    rewrite skip_complete; [|exact W|cbn; unfold space; lia]. reflexivity.
  - intros d t l B IH fuel r L E. destruct fuel as [|fuel]; [lia|]. rewrite <- !app_assoc. cbn [app scan Z.eqb Pos.eqb].
    rewrite !app_length in L. cbn [length] in L.
    destruct (array_skip _ _ _ _ B (93 :: r)) as (c & q & Q & (_ & N & _)). specialize (IH fuel [] r ltac:(lia)).
    rewrite Q in *. apply Z.eqb_neq in N. rewrite N. exact IH.
  - intros d w W fuel r L E. destruct fuel as [|fuel]; [lia|]. rewrite <- !app_assoc. cbn [app scan Z.eqb Pos.eqb].
    rewrite skip_complete; [|exact W|cbn; unfold space; lia]. reflexivity.
  - intros d t l B IH fuel r L E. destruct fuel as [|fuel]; [lia|]. rewrite <- !app_assoc. cbn [app scan Z.eqb Pos.eqb].
    rewrite !app_length in L. cbn [length] in L.
    destruct (object_skip _ _ _ _ B (125 :: r)) as (q & Q). specialize (IH fuel [] r ltac:(lia)).
    rewrite Q in *. rewrite <- adds_dict; exact IH.
  - intros d w t v w' W D IH W' fuel acc r L. destruct fuel as [|fuel]; [lia|]. rewrite !app_length in L. rewrite <- !app_assoc.
    destruct (denotes_head _ _ _ _ D) as (c & t' & Et & V & _).
    rewrite skip_complete; [|exact W|rewrite Et; cbn; exact V]. cbn [elements].
    rewrite IH; [|lia|apply ends_spaces; [exact W'|cbn; unfold digit; lia]]. cbn [jbind].
    rewrite skip_complete; [|exact W'|cbn; unfold space; lia]. reflexivity.
  - intros d w t v w' rest l W D IH W' B IHb fuel acc r L. destruct fuel as [|fuel]; [lia|]. rewrite !app_length in L. cbn [length] in L.
    rewrite <- !app_assoc. destruct (denotes_head _ _ _ _ D) as (c & t' & Et & V & _).
    rewrite skip_complete; [|exact W|rewrite Et; cbn; exact V]. cbn [elements].
    rewrite IH; [|lia|apply ends_spaces; [exact W'|cbn; unfold digit; lia]]. cbn [jbind].
    rewrite skip_complete; [|exact W'|cbn; unfold space; lia]. cbn [app Z.eqb Pos.eqb].
    rewrite IHb by lia. rewrite <- app_assoc. reflexivity.
  - intros d w k key w1 w2 t v w' W K W1 W2 D IH W' fuel acc r L. destruct fuel as [|fuel]; [lia|].
    rewrite !app_length in L. cbn [length] in L. rewrite <- !app_assoc.
    rewrite skip_complete; [|exact W|cbn; unfold space; lia]. cbn [app members Z.eqb Pos.eqb negb].
    rewrite (scanstring_complete k key K). rewrite skip_complete; [|exact W1|cbn; unfold space; lia]. cbn [Z.eqb Pos.eqb negb].
    destruct (denotes_head _ _ _ _ D) as (c & t' & Et & V & _).
    rewrite skip_complete; [|exact W2|rewrite Et; cbn; exact V].
    rewrite IH; [|lia|apply ends_spaces; [exact W'|cbn; unfold digit; lia]]. cbn [jbind].
    rewrite skip_complete; [|exact W'|cbn; unfold space; lia]. reflexivity.
  - intros d w k key w1 w2 t v w' rest l W K W1 W2 D IH W' B IHb fuel acc r L. destruct fuel as [|fuel]; [lia|].
    rewrite !app_length in L. cbn [length] in L. rewrite <- !app_assoc.
    rewrite skip_complete; [|exact W|cbn; unfold space; lia]. cbn [app members Z.eqb Pos.eqb negb].
    rewrite (scanstring_complete k key K). rewrite skip_complete; [|exact W1|cbn; unfold space; lia]. cbn [Z.eqb Pos.eqb negb].
    destruct (denotes_head _ _ _ _ D) as (c & t' & Et & V & _).
    rewrite skip_complete; [|exact W2|rewrite Et; cbn; exact V].
    rewrite IH; [|lia|apply ends_spaces; [exact W'|cbn; unfold digit; lia]]. cbn [jbind].
    rewrite skip_complete; [|exact W'|cbn; unfold space; lia]. cbn [Z.eqb Pos.eqb].
    rewrite IHb by lia. reflexivity.
Qed.

(** The parser accepts the documents and gives their values. *)
Theorem decode_document lib d s v : decode_text lib d s = Got v <-> document lib d s v.
Proof.
  unfold decode_text. split.
  - destruct (scan lib _ d (skip_space s)) as [[x r]| | |] eqn:Q; try discriminate. cbn [jbind].
    destruct (skip_sound r) as (w' & W' & Er). destruct (skip_space r) as [|y r']; [|discriminate].
    intros E. inversion E; subst. destruct (scan_sound lib (2 * length s + 2)) as (H & _).
    destruct (H _ _ _ _ Q) as (t & Et & D). destruct (skip_sound s) as (w & W & Es).
    exists w, t, w'. rewrite app_nil_r in Et. split; [|auto]. rewrite Es, Et. reflexivity.
  - intros (w & t & w' & -> & W & W' & D). destruct (denotes_head _ _ _ _ D) as (c & t' & Et & V & _).
    rewrite skip_complete; [|exact W|rewrite Et; cbn; exact V].
    destruct (scan_complete lib) as (H & _). rewrite (H d t v D).
    + cbn [jbind]. replace w' with (w' ++ []) by apply app_nil_r. rewrite skip_complete; [reflexivity|exact W'|exact I].
    + rewrite !app_length. lia.
    + replace w' with (w' ++ []) by apply app_nil_r. apply ends_spaces; [exact W'|exact I].
Qed.

(** The fuel suffices. *)
Lemma scan_fuel lib fuel :
  (forall d s, (2 * length s + 1 <= fuel)%nat -> scan lib fuel d s <> NoFuel)
  /\ (forall d acc s, (2 * length s + 2 <= fuel)%nat -> elements lib fuel d acc s <> NoFuel)
  /\ (forall d acc s, (2 * length s + 2 <= fuel)%nat -> members lib fuel d acc s <> NoFuel).
Proof.
  induction fuel as [|fuel (IHs & IHe & IHm)]; [repeat split; intros; lia|].
  assert (Short : forall d s v r, scan lib fuel d s = Got (v, r) -> (length r < length s)%nat).
  { intros d s v r Q. destruct (scan_sound lib fuel) as (H & _). destruct (H _ _ _ _ Q) as (t & -> & D).
    destruct (denotes_head _ _ _ _ D) as (c & t' & -> & _). rewrite app_length. cbn. lia. }
  repeat split.
  - intros d s L. cbn [scan]. destruct s as [|c s1]; [discriminate|]. cbn [length] in L. pose proof (skip_length s1) as K.
    destruct (c =? 34); [destruct (scanstring s1) as [[? ?]|]; discriminate|].
    destruct (c =? 123).
    { destruct d; [discriminate|]. destruct (skip_space s1) as [|x q] eqn:Q; [discriminate|].
      destruct (x =? 125); [discriminate|]. apply IHm. lia. }
    destruct (c =? 91).
    { destruct d; [discriminate|]. destruct (skip_space s1) as [|x q] eqn:Q; [discriminate|].
      destruct (x =? 93); [discriminate|]. apply IHe. lia. }
    destruct (scan_constant constants (c :: s1)); [discriminate|]. destruct (match_number lib (c :: s1)) as [[? ?]|]; discriminate.
  - intros d acc s L. cbn [elements]. destruct (scan lib fuel d s) as [[v r]| | |] eqn:Q; cbn [jbind]; try discriminate.
    + apply Short in Q. pose proof (skip_length r) as K. destruct (skip_space r) as [|x q]; [discriminate|]. cbn [length] in K.
      destruct (x =? 93); [discriminate|]. destruct (x =? 44); [|discriminate]. apply IHe. pose proof (skip_length q). lia.
    + intros _. revert Q. apply IHs. lia.
  - intros d acc s L. cbn [members]. destruct s as [|q s1]; [discriminate|]. cbn [length] in L. destruct (negb (q =? 34)); [discriminate|].
    destruct (scanstring s1) as [[k s2]|] eqn:Q1; [|discriminate].
    destruct (scanstring_sound _ _ _ _ (le_n _) Q1) as (kt & -> & _). rewrite app_length in L. cbn [length] in L.
    pose proof (skip_length s2) as K. destruct (skip_space s2) as [|c s3]; [discriminate|]. cbn [length] in K.
    destruct (negb (c =? 58)); [discriminate|]. pose proof (skip_length s3) as K3.
    destruct (scan lib fuel d (skip_space s3)) as [[v r]| | |] eqn:Q; cbn [jbind]; try discriminate.
    + apply Short in Q. pose proof (skip_length r) as K'. destruct (skip_space r) as [|x p]; [discriminate|]. cbn [length] in K'.
      destruct (x =? 125); [discriminate|]. destruct (x =? 44); [|discriminate]. apply IHm. pose proof (skip_length p). lia.
    + intros _. revert Q. apply IHs. lia.
Qed.
Lemma decode_fuel lib d s : decode_text lib d s <> NoFuel.
Proof.
  unfold decode_text. pose proof (skip_length s) as K.
  destruct (scan lib (2 * length s + 2) d (skip_space s)) as [[v r]| | |] eqn:Q; cbn [jbind]; try discriminate.
  - destruct (skip_space r); discriminate.
  - intros _. revert Q. apply scan_fuel. lia.
Qed.

(** ** UTF-8 *)

Lemma continuation_spec b : continuation b = true <-> 128 <= b <= 191.
Proof. unfold continuation. rewrite andb_true_iff, !Z.leb_le. reflexivity. Qed.
Lemma option_cons c (o : option text) s : option_map (cons c) o = Some s -> exists s', o = Some s' /\ s = c :: s'.
Proof. destruct o; [|discriminate]. cbn. intros E. inversion E. eauto. Qed.
Lemma utf8_sound n : forall b s, (length b <= n)%nat -> is_bytes b -> utf8_decode b = Some s -> utf8_text s b.
Proof.
  induction n as [|n IH]; intros b s L B E; destruct b as [|x b1]; try (cbn in L; lia);
    try (cbn in E; inversion E; constructor).
  cbn [length] in L. cbn [utf8_decode] in E. apply is_bytes_cons in B. destruct B as (Bx & B1). unfold byte in Bx.
  destruct (Z.ltb_spec x 128).
  { apply option_cons in E. destruct E as (s' & E & ->). change (x :: b1) with ([x] ++ b1). constructor; [constructor; lia|].
    apply IH; [lia|exact B1|exact E]. }
  destruct b1 as [|y b2]; [discriminate|]. cbn [length] in L. apply is_bytes_cons in B1. destruct B1 as (_ & B2).
  destruct ((194 <=? x) && (x <=? 223) && continuation y) eqn:C2.
  { apply option_cons in E. destruct E as (s' & E & ->).
    rewrite !andb_true_iff, !Z.leb_le, continuation_spec in C2.
    change (x :: y :: b2) with ([x; y] ++ b2). constructor; [|apply IH; [lia|exact B2|exact E]].
    replace x with (192 + (x - 192)) at 2 by lia. replace y with (128 + (y - 128)) at 2 by lia. constructor; lia. }
  destruct b2 as [|z b3]; [discriminate|]. cbn [length] in L. apply is_bytes_cons in B2. destruct B2 as (_ & B3).
  destruct ((224 <=? x) && (x <=? 239) && continuation y && continuation z && ((160 <=? y) || negb (x =? 224))) eqn:C3.
  { apply option_cons in E. destruct E as (s' & E & ->).
    rewrite !andb_true_iff, orb_true_iff, negb_true_iff, !Z.leb_le, Z.eqb_neq, !continuation_spec in C3.
    change (x :: y :: z :: b3) with ([x; y; z] ++ b3). constructor; [|apply IH; [lia|exact B3|exact E]].
    replace x with (224 + (x - 224)) at 2 by lia. replace y with (128 + (y - 128)) at 2 by lia.
    replace z with (128 + (z - 128)) at 2 by lia. constructor; lia. }
  destruct b3 as [|w b4]; [discriminate|]. cbn [length] in L. apply is_bytes_cons in B3. destruct B3 as (_ & B4).
  destruct ((240 <=? x) && (x <=? 244) && continuation y && continuation z && continuation w
            && ((144 <=? y) || negb (x =? 240)) && ((y <=? 143) || negb (x =? 244))) eqn:C4; [|discriminate].
  apply option_cons in E. destruct E as (s' & E & ->).
  rewrite !andb_true_iff, !orb_true_iff, !negb_true_iff, !Z.leb_le, !Z.eqb_neq, !continuation_spec in C4.
  change (x :: y :: z :: w :: b4) with ([x; y; z; w] ++ b4). constructor; [|apply IH; [lia|exact B4|exact E]].
  replace x with (240 + (x - 240)) at 2 by lia. replace y with (128 + (y - 128)) at 2 by lia.
  replace z with (128 + (z - 128)) at 2 by lia. replace w with (128 + (w - 128)) at 2 by lia. constructor; lia.
Qed.
Lemma utf8_complete s b : utf8_text s b -> utf8_decode b = Some s.
Proof.
  induction 1 as [|c s x b U T IH]; [reflexivity|]. destruct U as [c A|a e A B|a e f A B C D|a e f g A B C D E];
    cbn [app utf8_decode].
  - destruct (Z.ltb_spec c 128); [|lia]. rewrite IH. reflexivity.
  - destruct (Z.ltb_spec (192 + a) 128); [lia|].
    replace ((194 <=? 192 + a) && (192 + a <=? 223) && continuation (128 + e)) with true.
    + rewrite IH. cbn [option_map]. do 2 f_equal. lia.
    + symmetry. rewrite !andb_true_iff, !Z.leb_le, continuation_spec. lia.
  - destruct (Z.ltb_spec (224 + a) 128); [lia|].
    replace (224 + a <=? 223) with false by (symmetry; apply Z.leb_gt; lia). rewrite andb_false_r. cbn [andb].
    replace ((224 <=? 224 + a) && (224 + a <=? 239) && continuation (128 + e) && continuation (128 + f)
             && ((160 <=? 128 + e) || negb (224 + a =? 224))) with true.
    + rewrite IH. cbn [option_map]. do 2 f_equal. lia.
    + symmetry. rewrite !andb_true_iff, orb_true_iff, negb_true_iff, !Z.leb_le, Z.eqb_neq, !continuation_spec. lia.
  - destruct (Z.ltb_spec (240 + a) 128); [lia|].
    replace (240 + a <=? 223) with false by (symmetry; apply Z.leb_gt; lia). rewrite andb_false_r. cbn [andb].
    replace (240 + a <=? 239) with false by (symmetry; apply Z.leb_gt; lia). rewrite andb_false_r. cbn [andb].
    replace ((240 <=? 240 + a) && (240 + a <=? 244) && continuation (128 + e) && continuation (128 + f) && continuation (128 + g)
             && ((144 <=? 128 + e) || negb (240 + a =? 240)) && ((128 + e <=? 143) || negb (240 + a =? 244))) with true.
    + rewrite IH. cbn [option_map]. do 2 f_equal. lia.
    + symmetry. rewrite !andb_true_iff, !orb_true_iff, !negb_true_iff, !Z.leb_le, !Z.eqb_neq, !continuation_spec. lia.
Qed.
Lemma utf8_decodes b s : is_bytes b -> (utf8_decode b = Some s <-> utf8_text s b).
Proof. intros B. split; [apply (utf8_sound _ b s (le_n _) B)|apply utf8_complete]. Qed.

(** A text has one encoding and the model's encoder writes it. *)
Lemma utf8_of_char c x : utf8_of c x -> utf8_char c = x.
Proof.
  unfold utf8_char. intros [c' A|a e A B|a e f A B C D|a e f g A B C D E].
  - destruct (Z.ltb_spec c' 128); [reflexivity|lia].
  - destruct (Z.ltb_spec (a * 64 + e) 128); [lia|]. destruct (Z.ltb_spec (a * 64 + e) 2048); [|lia].
    repeat f_equal.
    + symmetry. apply Z.div_unique with e; lia.
    + symmetry. apply Z.mod_unique with a; lia.
  - set (n := a * 4096 + e * 64 + f). assert (N : n = a * 4096 + e * 64 + f) by reflexivity.
    destruct (Z.ltb_spec n 128); [lia|]. destruct (Z.ltb_spec n 2048); [lia|]. destruct (Z.ltb_spec n 65536); [|lia].
    assert (N1 : n / 64 = a * 64 + e) by (symmetry; apply Z.div_unique with f; lia).
    repeat f_equal.
    + symmetry. apply Z.div_unique with (e * 64 + f); lia.
    + rewrite N1. symmetry. apply Z.mod_unique with a; lia.
    + symmetry. apply Z.mod_unique with (a * 64 + e); lia.
  - set (n := a * 262144 + e * 4096 + f * 64 + g). assert (N : n = a * 262144 + e * 4096 + f * 64 + g) by reflexivity.
    destruct (Z.ltb_spec n 128); [lia|]. destruct (Z.ltb_spec n 2048); [lia|]. destruct (Z.ltb_spec n 65536); [lia|].
    assert (N1 : n / 64 = a * 4096 + e * 64 + f) by (symmetry; apply Z.div_unique with g; lia).
    assert (N2 : n / 4096 = a * 64 + e) by (symmetry; apply Z.div_unique with (f * 64 + g); lia).
    repeat f_equal.
    + symmetry. apply Z.div_unique with (e * 4096 + f * 64 + g); lia.
    + rewrite N2. symmetry. apply Z.mod_unique with a; lia.
    + rewrite N1. symmetry. apply Z.mod_unique with (a * 64 + e); lia.
    + symmetry. apply Z.mod_unique with (a * 4096 + e * 64 + f); lia.
Qed.
Lemma utf8_text_unique s b : utf8_text s b -> utf8 s = b.
Proof.
  induction 1 as [|c s x b U T IH]; [reflexivity|]. unfold utf8 in *. cbn [flat_map]. rewrite (utf8_of_char _ _ U), IH. reflexivity.
Qed.
Definition ascii (s : text) : Prop := Forall (fun c => 0 <= c <= 127) s.
Lemma ascii_utf8 s : ascii s -> utf8_text s s.
Proof.
  induction 1 as [|c s C _ IH]; [constructor|]. change (c :: s) with ([c] ++ s) at 2. constructor; [constructor; exact C|exact IH].
Qed.

(** ** Writing *)

Lemma hex_digit_value n : 0 <= n < 16 -> hex_value (hex_digit n) n.
Proof. intros H. unfold hex_digit, hex_value. destruct (Z.ltb_spec n 10); lia. Qed.
Lemma hex4_escape n : 0 <= n < 65536 -> u_escape ([92; 117] ++ hex4 n) n.
Proof.
  intros H. unfold hex4. eexists _, _, _, _, (n / 4096 mod 16), (n / 256 mod 16), (n / 16 mod 16), (n mod 16).
  split; [reflexivity|].
  do 4 (split; [apply hex_digit_value, Z.mod_pos_bound; lia|]).
  pose proof (Z.div_mod n 16 ltac:(lia)) as E1. pose proof (Z.div_mod (n / 16) 16 ltac:(lia)) as E2.
  pose proof (Z.div_mod (n / 16 / 16) 16 ltac:(lia)) as E3.
  rewrite !Z.div_div in * by lia. cbn [Z.mul Pos.mul] in *. 
  assert (n / 4096 mod 16 = n / 4096) as ->; [|lia].
  apply Z.mod_small. split; [apply Z.div_pos; lia|apply Z.div_lt_upper_bound; lia].
Qed.
Lemma escape_pieces s : Forall (fun c => 0 <= c <= 0x10ffff) s ->
  forall t' l m, flat_map escape_char s = l ++ t' -> u_escape l m -> low m -> exists c s', s = c :: s' /\ low c.
Proof.
  intros F t' l m E U Lw. destruct (u_escape_shape _ _ U) as (a & b & c & d & -> & H). clear U.
  destruct s as [|x s]; [discriminate|]. inversion F as [|? ? X _]; subst. exists x, s. split; [reflexivity|].
  cbn [flat_map] in E. unfold escape_char in E.
  destruct (Z.eqb_spec x 34); [discriminate|]. destruct (Z.eqb_spec x 92); [discriminate|].
  destruct (Z.eqb_spec x 8); [discriminate|]. destruct (Z.eqb_spec x 12); [discriminate|].
  destruct (Z.eqb_spec x 10); [discriminate|]. destruct (Z.eqb_spec x 13); [discriminate|].
  destruct (Z.eqb_spec x 9); [discriminate|].
  destruct ((32 <=? x) && (x <=? 126)) eqn:P; [inversion E; subst; contradiction|].
  assert (Hx : forall k r, 0 <= k < 65536 -> ([92; 117] ++ hex4 k) ++ r = [92; 117; a; b; c; d] ++ t' -> m = k).
  { intros k r R Q. pose proof (hex4_escape k R) as U. unfold hex4 in *. cbn in Q, U. inversion Q; subst.
    apply unhex4_spec in U. congruence. }
  destruct (Z.ltb_spec x 65536).
  - rewrite <- (Hx x _ ltac:(lia) E). exact Lw.
  - assert (K : 0 <= (x - 65536) / 1024 < 1024) by (split; [apply Z.div_pos; lia|apply Z.div_lt_upper_bound; lia]).
    assert (m = 0xd800 + (x - 65536) / 1024); [|unfold low in *; lia].
    eapply Hx; [lia|]. rewrite <- !app_assoc in *. exact E.
Qed.
Lemma quote_characters s : whole s -> characters (flat_map escape_char s) s.
Proof.
  induction s as [|c s IH]; intros (F & P); [constructor|]. inversion F as [|? ? C F']; subst.
  assert (W : whole s) by (split; [exact F'|]; intros a h l b ->; apply (P (c :: a) h l b); reflexivity).
  specialize (IH W). cbn [flat_map]. set (rest := flat_map escape_char s) in *. unfold escape_char.
  destruct (Z.eqb_spec c 34) as [->|]; [apply ch_short; [constructor|exact IH]|].
  destruct (Z.eqb_spec c 92) as [->|]; [apply ch_short; [constructor|exact IH]|].
  destruct (Z.eqb_spec c 8) as [->|]; [apply ch_short; [constructor|exact IH]|].
  destruct (Z.eqb_spec c 12) as [->|]; [apply ch_short; [constructor|exact IH]|].
  destruct (Z.eqb_spec c 10) as [->|]; [apply ch_short; [constructor|exact IH]|].
  destruct (Z.eqb_spec c 13) as [->|]; [apply ch_short; [constructor|exact IH]|].
  destruct (Z.eqb_spec c 9) as [->|]; [apply ch_short; [constructor|exact IH]|].
  destruct ((32 <=? c) && (c <=? 126)) eqn:Q.
  { rewrite andb_true_iff, !Z.leb_le in Q. apply ch_plain; [lia|assumption|assumption|exact IH]. }
  destruct (Z.ltb_spec c 65536).
  - apply ch_u; [apply hex4_escape; lia|exact IH|]. intros Hi l m t' E U Lw.
    destruct (escape_pieces s F' _ _ _ E U Lw) as (c' & s' & -> & Lc). apply (P [] c c' s' eq_refl Hi Lc).
  - assert (K : 0 <= (c - 65536) / 1024 < 1024) by (split; [apply Z.div_pos; lia|apply Z.div_lt_upper_bound; lia]).
    pose proof (Z.mod_pos_bound (c - 65536) 1024 ltac:(lia)) as K'.
    pose proof (Z.div_mod (c - 65536) 1024 ltac:(lia)) as DM.
    set (h := 0xd800 + (c - 65536) / 1024) in *. set (l := 0xdc00 + (c - 65536) mod 1024) in *.
    replace c with (65536 + (h - 0xd800) * 1024 + (l - 0xdc00)) at 1 by (unfold h, l; lia).
    replace (([92; 117] ++ hex4 h ++ [92; 117] ++ hex4 l) ++ rest)
      with (([92; 117] ++ hex4 h) ++ ([92; 117] ++ hex4 l) ++ rest)
      by (rewrite <- !app_assoc; reflexivity).
    apply ch_pair; [apply hex4_escape; lia|unfold high; lia|apply hex4_escape; lia|unfold low; lia|exact IH].
Qed.

(** Printable ASCII. *)
Definition printable (s : text) : Prop := Forall (fun c => 32 <= c <= 126) s.
Lemma printable_test s : forallb (fun c => (32 <=? c) && (c <=? 126)) s = true -> printable s.
Proof.
  intros H. rewrite forallb_forall in H. apply Forall_forall. intros c I. apply H in I.
  rewrite andb_true_iff, !Z.leb_le in I. exact I.
Qed.
Lemma printable_app s t : printable s -> printable t -> printable (s ++ t).
Proof. intros. apply Forall_app. auto. Qed.
Lemma hex_printable n : 0 <= n < 16 -> 32 <= hex_digit n <= 126.
Proof. intros H. unfold hex_digit. destruct (Z.ltb_spec n 10); lia. Qed.
Lemma hex4_printable n : printable (hex4 n).
Proof. unfold hex4, printable. repeat (apply Forall_cons; [apply hex_printable, Z.mod_pos_bound; lia|]). constructor. Qed.
Lemma escape_printable c : printable (escape_char c).
Proof.
  unfold escape_char.
  repeat match goal with |- context [c =? ?x] => destruct (c =? x); [repeat (apply Forall_cons; [lia|]); constructor|] end.
  destruct ((32 <=? c) && (c <=? 126)) eqn:Q.
  { rewrite andb_true_iff, !Z.leb_le in Q. repeat constructor; lia. }
  assert (U : printable [92; 117]) by (repeat (apply Forall_cons; [lia|]); constructor).
  destruct (c <? 65536); repeat (apply printable_app; auto using hex4_printable); apply hex4_printable.
Qed.
Lemma quote_printable s : printable (quote s).
Proof.
  unfold quote. assert (Q : printable [34]) by (repeat constructor; lia).
  apply printable_app; [exact Q|]. apply printable_app; [|exact Q].
  induction s as [|c s IH]; [constructor|]. cbn [flat_map]. apply printable_app; [apply escape_printable|exact IH].
Qed.
Lemma joined_printable l : Forall printable l -> printable (joined l).
Proof.
  induction 1 as [|t l T F IH]; [constructor|]. destruct l as [|u l]; [exact T|].
  change (joined (t :: u :: l)) with (t ++ [44; 32] ++ joined (u :: l)).
  apply printable_app; [exact T|]. apply printable_app; [repeat (apply Forall_cons; [lia|]); constructor|exact IH].
Qed.
Lemma py_str_integer n : integer (py_str n) n.
Proof.
  destruct (py_str_decimal n) as [(_ & H)|(_ & t & -> & H)]; [constructor; exact H|].
  pose proof (int_minus _ _ H) as K. rewrite Z.opp_involutive in K. exact K.
Qed.
Lemma decimal_printable n : printable (py_str n).
Proof.
  assert (N : forall m t, natural m t -> printable t).
  { intros m t (_ & F & _). eapply Forall_impl; [|exact F]. unfold digit. cbv beta. lia. }
  destruct (py_str_integer n) as [t m H|t m H]; [|apply Forall_cons; [lia|]]; eapply N; exact H.
Qed.

Lemma dict_of_new l : NoDup (map fst l) -> dict_of l = l.
Proof. intros N. rewrite <- adds_dict. exact (adds_new l [] N). Qed.

Lemma array_joined lib d l : l <> [] -> (forall v, In v l -> denotes lib d (dumps lib v) v) ->
  array_body lib d (joined (map (dumps lib) l)) l.
Proof.
  induction l as [|v l IH]; intros N F; [contradiction|]. destruct l as [|u l].
  - cbn [map joined]. replace (dumps lib v) with ([] ++ dumps lib v ++ []) by apply app_nil_r.
    constructor; [apply spaces_nil|apply F; left; reflexivity|apply spaces_nil].
  - change (joined (map (dumps lib) (v :: u :: l)))
      with ([] ++ dumps lib v ++ [] ++ [44] ++ ([32] ++ joined (map (dumps lib) (u :: l)))).
    constructor; [apply spaces_nil|apply F; left; reflexivity|apply spaces_nil|].
    apply array_space; [repeat constructor|]. apply IH; [discriminate|]. intros. apply F. right. assumption.
Qed.
Definition entry (lib : json_library) (p : text * json) : text :=
  match p with (k, v) => quote k ++ [58; 32] ++ dumps lib v end.
Lemma object_joined lib d l : l <> [] -> (forall k v, In (k, v) l -> whole k /\ denotes lib d (dumps lib v) v) ->
  object_body lib d (joined (map (entry lib) l)) l.
Proof.
  induction l as [|[k v] l IH]; intros N F; [contradiction|].
  destruct (F k v (or_introl eq_refl)) as (W & D).
  assert (E : entry lib (k, v) = [] ++ [34] ++ flat_map escape_char k ++ [34] ++ [] ++ [58] ++ [32] ++ dumps lib v ++ []).
  { cbn [entry]. unfold quote. rewrite <- !app_assoc, app_nil_r. reflexivity. }
  assert (S32 : spaces [32]) by (repeat constructor).
  destruct l as [|u l].
  - cbn [map joined]. rewrite E. apply o_one; auto using spaces_nil, quote_characters.
  - change (joined (map (entry lib) ((k, v) :: u :: l)))
      with (entry lib (k, v) ++ [44; 32] ++ joined (map (entry lib) (u :: l))).
    replace (entry lib (k, v) ++ [44; 32] ++ joined (map (entry lib) (u :: l)))
      with ([] ++ [34] ++ flat_map escape_char k ++ [34] ++ [] ++ [58] ++ [32] ++ dumps lib v ++ [] ++ [44]
            ++ ([32] ++ joined (map (entry lib) (u :: l)))).
    2:{ rewrite E, <- !app_assoc. reflexivity. }
    apply o_more; auto using spaces_nil, quote_characters. apply object_space; [exact S32|].
    apply IH; [discriminate|]. intros. apply F. right. assumption.
Qed.
Lemma dumps_denotes lib d j : publishable d j -> denotes lib d (dumps lib j) j.
Proof.
  induction 1 as [d|d b|d n|d s W|d l _ IH|d l N W _ IH].
  - constructor.
  - destruct b; constructor.
  - constructor. apply py_str_integer.
  - constructor. apply quote_characters, W.
  - cbn [dumps]. destruct l as [|v l]; [change ([91] ++ joined (map (dumps lib) []) ++ [93]) with ([91] ++ [] ++ [93]); constructor; apply spaces_nil|].
    apply j_arr. apply array_joined; [discriminate|]. exact IH.
  - cbn [dumps]. destruct l as [|e l]; [match goal with |- denotes _ _ ?t _ => change t with ([123] ++ [] ++ [125]) end; constructor; apply spaces_nil|].
    rewrite <- (dict_of_new (e :: l) N) at 2. apply j_obj. apply object_joined; [discriminate|]. intros k v I.
    split; [apply W; exact (in_map fst _ _ I)|apply (IH k v I)].
Qed.
Lemma dumps_printable lib d j : publishable d j -> printable (dumps lib j).
Proof.
  assert (K : forall a t b, 32 <= a <= 126 -> 32 <= b <= 126 -> printable t -> printable ([a] ++ t ++ [b])).
  { intros. apply printable_app; [repeat constructor; lia|]. apply printable_app; [assumption|repeat constructor; lia]. }
  induction 1 as [d|d b|d n|d s W|d l _ IH|d l N W _ IH].
  - apply printable_test. reflexivity.
  - destruct b; apply printable_test; reflexivity.
  - apply decimal_printable.
  - apply quote_printable.
  - apply K; [lia|lia|]. apply joined_printable. apply Forall_map, Forall_forall. exact IH.
  - apply K; [lia|lia|]. apply joined_printable. apply Forall_map, Forall_forall. intros [k v] I.
    apply printable_app; [apply quote_printable|].
    apply printable_app; [repeat (apply Forall_cons; [lia|]); constructor|apply (IH k v I)].
Qed.
