(** C105: brightness and transition time with a fraction or an exponent. *)
From Coq Require Import String List ZArith QArith Bool Lia.
From Verif Require Import Py Common Sal Packet Text Mqtt Buffered Client Cmqttd Daemon Json Float Base Spec Spec_client Spec_mqtt
  Spec_json Spec_float Mqtt_facts Json_facts Utf_facts Prop_mqtt Prop_json.
Import ListNotations.
Open Scope Z_scope.
Notation length := List.length.

(** ** Doubles *)

(** A mantissa and an exponent, the exponent as small as possible. *)
Definition canonical (m j : Z) : Prop := 0 <= m < 2 ^ 53 /\ (j = 0 \/ (0 < j /\ 2 ^ 52 <= m)).
Lemma pow_pos j : 0 <= j -> 0 < 2 ^ j.
Proof. intros. apply Z.pow_pos_nonneg; lia. Qed.
Lemma canonical_double m j : canonical m j -> double (m * 2 ^ j).
Proof. intros (M & J). exists m, j. split; [exact M|]. split; [lia|reflexivity]. Qed.
(** There is no double between two neighbours. *)
Lemma neighbours m j k : canonical m j -> double k -> k <= m * 2 ^ j \/ (m + 1) * 2 ^ j <= k.
Proof.
  intros ((M0 & M) & J) (p & i & (P0 & P) & I & ->). destruct J as [->|(J & L)].
  - change (2 ^ 0) with 1. lia.
  - destruct (Z.le_gt_cases j i) as [G|G].
    + replace i with ((i - j) + j) by lia. rewrite Z.pow_add_r, Z.mul_assoc by lia.
      assert (X := pow_pos j ltac:(lia)).
      destruct (Z.le_gt_cases (p * 2 ^ (i - j)) m); [left|right]; apply Z.mul_le_mono_nonneg_r; lia.
    + left. assert (E : 2 ^ j = 2 ^ (j - 1 - i) * 2 * 2 ^ i).
      { replace j with ((j - 1 - i) + (1 + i)) at 1 by lia. rewrite !Z.pow_add_r by lia. change (2 ^ 1) with 2. lia. }
      rewrite E. assert (X := pow_pos i I). assert (Y := pow_pos (j - 1 - i) ltac:(lia)).
      assert (p <= m * (2 ^ (j - 1 - i) * 2)); [|nia].
      change (2 ^ 53) with (2 * 2 ^ 52) in *. nia.
Qed.
Lemma next_double m j : canonical m j -> double ((m + 1) * 2 ^ j).
Proof.
  intros ((M0 & M) & J). destruct (Z.eq_dec (m + 1) (2 ^ 53)) as [E|E].
  - exists (2 ^ 52), (j + 1). split; [lia|]. split; [lia|]. rewrite E, Z.pow_add_r by lia. change (2 ^ 53) with (2 ^ 52 * 2 ^ 1). lia.
  - exists (m + 1), j. split; [lia|]. split; [lia|reflexivity].
Qed.
(** ** Rounding *)
Section Rounding.
  Variables a b : Z.
  Hypothesis A : 0 <= a.
  Hypothesis B : 0 < b.
  Let j := Z.max 0 (Z.log2 (a / b) - 52).
  Let p := b * 2 ^ j.
  Let m := a / p.
  Let r := a mod p.
  Lemma grid : 0 < p /\ a = m * p + r /\ 0 <= r < p /\ canonical m j.
  Proof.
    assert (J := pow_pos j ltac:(lia)). assert (P : 0 < p) by (unfold p; nia). split; [exact P|].
    assert (D := Z.div_mod a p ltac:(lia)). assert (R := Z.mod_pos_bound a p P). fold m r in D, R.
    split; [lia|]. split; [exact R|].
    assert (M : m = a / b / 2 ^ j) by (unfold m, p; now rewrite Z.div_div by lia).
    assert (Q := Z.div_pos a b A B). assert (M0 : 0 <= m) by (rewrite M; apply Z.div_pos; lia).
    destruct (Z.eq_dec (a / b) 0) as [Z0|Z0].
    { assert (m = 0) by (rewrite M, Z0; apply Z.div_0_l; lia). split; [lia|].
      left. unfold j. rewrite Z0. reflexivity. }
    destruct (Z.log2_spec (a / b) ltac:(lia)) as [L1 L2]. assert (L0 := Z.log2_nonneg (a / b)).
    split; [split; [exact M0|]|].
    - rewrite M. apply Z.div_lt_upper_bound; [lia|]. rewrite <- Z.pow_add_r by lia.
      eapply Z.lt_le_trans; [exact L2|]. apply Z.pow_le_mono_r; lia.
    - destruct (Z.eq_dec j 0) as [J0|J0]; [now left|right]. split; [lia|]. rewrite M.
      apply Z.div_le_lower_bound; [lia|]. rewrite <- Z.pow_add_r by lia. replace (j + 52) with (Z.log2 (a / b)) by lia. exact L1.
  Qed.
  Let k := round_double a b.
  Lemma chosen : k * b = m * p /\ k = m * 2 ^ j /\ (2 * r < p \/ (2 * r = p /\ Z.even m = true))
    \/ k * b = (m + 1) * p /\ k = (m + 1) * 2 ^ j /\ (p < 2 * r \/ (2 * r = p /\ Z.even m = false)).
  Proof.
    unfold k, round_double, round_even. fold j. fold p. fold m. fold r.
    assert (G : forall x, x * 2 ^ j * b = x * p) by (intros; unfold p; lia).
    destruct (Z.compare_spec (2 * r) p) as [E|E|E]; [destruct (Z.even m) eqn:V|..]; rewrite G; auto 10.
  Qed.
  Lemma rounded : double k /\ forall k', double k' ->
    Z.abs (a - k * b) <= Z.abs (a - k' * b) /\ (Z.abs (a - k' * b) = Z.abs (a - k * b) -> k' <> k -> even_double k).
  Proof.
    destruct grid as (P & D & R & C). assert (J := pow_pos j ltac:(lia)).
    split.
    { destruct chosen as [(_ & -> & _)|(_ & -> & _)]; [now apply canonical_double|now apply next_double]. }
    intros k' K'. destruct (neighbours m j k' C K') as [N|N].
    - assert (N' : k' * b <= m * p) by (unfold p; nia).
      destruct chosen as [(E & V & O)|(E & V & O)].
      + split; [lia|]. intros H X. exfalso. apply X. assert (k' * b = k * b) by lia. nia.
      + split; [lia|]. intros H X. destruct O as [O|(O & Ev)]; [lia|].
        destruct C as ((M0 & M) & Jc). destruct (Z.eq_dec (m + 1) (2 ^ 53)) as [F|F].
        * exists (2 ^ 52), (j + 1). split; [lia|]. split; [right; lia|]. split; [|reflexivity].
          rewrite V, F, Z.pow_add_r by lia. change (2 ^ 53) with (2 ^ 52 * 2 ^ 1). lia.
        * exists (m + 1), j. split; [lia|]. split; [lia|]. split; [exact V|]. now rewrite Z.even_add, Ev.
    - assert (N' : (m + 1) * p <= k' * b) by (unfold p; nia).
      destruct chosen as [(E & V & O)|(E & V & O)].
      + split; [lia|]. intros H X. destruct O as [O|(O & Ev)]; [lia|].
        exists m, j. destruct C as (M & Jc). auto.
      + split; [lia|]. intros H X. exfalso. apply X. assert (k' * b = k * b) by lia. nia.
  Qed.
End Rounding.

Lemma rounds n d : 0 <= n -> 0 < d -> nearest n d (round_double (n * ONE) d).
Proof.
  intros N D. unfold nearest, far. change (2 ^ 1074) with ONE. apply rounded; [|exact D].
  assert (0 < ONE) by (apply pow_pos; lia). nia.
Qed.

(** ** There is only one nearest double *)
Lemma even_unique m j q i : canonical m j -> canonical q i -> m * 2 ^ j = q * 2 ^ i -> Z.even m = false -> Z.even q = true -> False.
Proof.
  intros ((M0 & M) & J) ((Q0 & Q) & I) E Om Oq.
  assert (P1 := pow_pos j ltac:(lia)). assert (P2 := pow_pos i ltac:(lia)).
  destruct (Z.lt_trichotomy i j) as [L|[L|L]].
  - replace j with ((j - i - 1) + 1 + i) in E by lia. rewrite !Z.pow_add_r, !Z.mul_assoc in E by lia.
    apply Z.mul_reg_r in E; [|lia]. assert (X := pow_pos (j - i - 1) ltac:(lia)). change (2 ^ 1) with 2 in E.
    change (2 ^ 53) with (2 * 2 ^ 52) in *. assert (m <> 2 ^ 52) by (intros ->; discriminate Om). nia.
  - subst i. apply Z.mul_reg_r in E; [|lia]. congruence.
  - replace i with ((i - j - 1) + 1 + j) in E by lia. rewrite !Z.pow_add_r, !Z.mul_assoc in E by lia.
    apply Z.mul_reg_r in E; [|lia]. rewrite E, !Z.even_mul in Om. change (Z.even (2 ^ 1)) with true in Om.
    rewrite orb_true_r in Om. discriminate.
Qed.
Lemma nearest_below n d k k' : 0 < d -> nearest n d k -> nearest n d k' -> ~ k < k'.
Proof.
  intros D (K & H) (K' & H') L. destruct (H k' K') as [F1 E1]. destruct (H' k K) as [F2 E2].
  assert (F : far n d k' = far n d k) by lia. specialize (E1 F ltac:(lia)). specialize (E2 (eq_sym F) ltac:(lia)).
  destruct E1 as (m & j & M & J & -> & Ev). destruct E2 as (q & i & Q & I & -> & Eq).
  assert (C : canonical m j) by (split; assumption).
  destruct (neighbours m j _ C K') as [X|X]; [lia|].
  assert (P := pow_pos j ltac:(lia)).
  destruct (Z.eq_dec ((m + 1) * 2 ^ j) (q * 2 ^ i)) as [E|E].
  - apply (even_unique (m + 1) j q i); [|split; assumption|exact E|now rewrite Z.even_add, Ev|exact Eq].
    assert (m + 1 <> 2 ^ 53) by (intros W; assert (V : Z.even (m + 1) = true) by (now rewrite W); rewrite Z.even_add, Ev in V; discriminate).
    split; [lia|]. destruct J as [J|J]; [now left|right; lia].
  - destruct (H _ (next_double _ _ C)) as [Y _]. unfold far in *.
    remember ((m + 1) * 2 ^ j) as s. remember (m * 2 ^ j) as lo. remember (q * 2 ^ i) as hi. remember (n * 2 ^ 1074) as a.
    assert (lo < s) by lia. assert (s < hi) by lia. nia.
Qed.
Lemma nearest_unique n d k k' : 0 < d -> nearest n d k -> nearest n d k' -> k = k'.
Proof.
  intros D K K'. destruct (Z.lt_trichotomy k k') as [L|[L|L]]; [|exact L|].
  - destruct (nearest_below n d k k' D K K' L).
  - destruct (nearest_below n d k' k D K' K L).
Qed.
(** Rounding does not step over a double. *)
Lemma not_over n d k x : 0 < d -> nearest n d k -> double x -> (x * d <= n * 2 ^ 1074 -> x <= k) /\ (n * 2 ^ 1074 <= x * d -> k <= x).
Proof.
  intros D (_ & H) X. destruct (H x X) as [F _]. unfold far in F. remember (n * 2 ^ 1074) as a. split; intros L; nia.
Qed.

(** ** The text *)
Lemma exponent_read e x : exponent_of e x -> (e = [] \/ exponent e) /\ exponent_value e = x.
Proof.
  assert (G : forall c d, c = 101 \/ c = 69 -> some_digits d -> exponent_value (c :: d) = value d).
  { intros c [|g d] _ (N & F); [contradiction|]. apply Forall_inv in F. unfold digit in F. cbn [exponent_value].
    destruct (Z.eqb_spec g 45); [lia|]. destruct (Z.eqb_spec g 43); [lia|]. reflexivity. }
  destruct 1 as [|c d C D|c d C D|c d C D]; (split; [|first [reflexivity|now apply G]]); [now left|right..].
  - exists c, [], d. auto 10.
  - exists c, [43], d. auto 10.
  - exists c, [45], d. auto 10.
Qed.
Lemma exponent_known e : exponent e -> exists x, exponent_of e x.
Proof.
  intros (c & sign & d & C & Sg & D & ->). destruct Sg as [->|[-> | ->]]; cbn [app]; eexists; constructor; assumption.
Qed.
Lemma value_nonneg t : Forall digit t -> 0 <= value t.
Proof.
  intros F. unfold value. assert (G : forall a, 0 <= a -> 0 <= fold_left (fun a c => a * 10 + (c - 48)) t a); [|apply G; lia].
  induction F as [|c t C _ IH]; intros a A; cbn [fold_left]; [exact A|]. apply IH. unfold digit in C. lia.
Qed.
Lemma stands_sign t neg n d : stands_for t neg n d -> 0 <= n /\ 0 < d.
Proof.
  intros (i & f & e & x & z & _ & (_ & I & _) & F & _ & -> & ->).
  assert (V := value_nonneg (i ++ f) (proj2 (Forall_app _ _ _) (conj I F))).
  split; [|apply Z.pow_pos_nonneg; lia].
  assert (0 < 10 ^ Z.max 0 (x - Z.of_nat (length f))) by (apply Z.pow_pos_nonneg; lia). nia.
Qed.
Definition as_float (neg : bool) (k : Z) : pynum :=
  if 2 ^ 1024 * ONE <=? k then PInf (negb neg) else PFloat (Qred ((if neg then - k else k) # Z.to_pos ONE)).
Lemma float_read t neg n d : stands_for t neg n d -> py_float t = as_float neg (round_double (n * ONE) d).
Proof.
  intros (i & f & e & x & z & -> & (Ni & I & _) & F & X & -> & ->). destruct (exponent_read e x X) as [Ex Ev].
  set (g := match f with [] => [] | _ => 46 :: f end).
  assert (Tg : tl g = f) by (unfold g; destruct f; reflexivity).
  assert (Se : scan_exponent e = (e, [])).
  { rewrite <- (app_nil_r e) at 1. destruct Ex as [->|Ex]; [reflexivity|apply exponent_some; [exact Ex|exact Logic.I]]. }
  assert (Ne : no_digit e).
  { destruct Ex as [->|Ex]; [exact Logic.I|]. rewrite <- (app_nil_r e). apply exponent_head, Ex. }
  assert (Sf : scan_fraction (g ++ e) = (g, e)).
  { unfold g. destruct f as [|c f].
    - cbn [app]. destruct Ex as [->|Ex]; [reflexivity|]. rewrite <- (app_nil_r e) at 1 2. rewrite (proj2 (exponent_head e Ex [])), app_nil_r. reflexivity.
    - apply fraction_some; [|exact Ne]. exists (c :: f). split; [split; [discriminate|exact F]|reflexivity]. }
  assert (Si : span_digits (i ++ g ++ e) = (i, g ++ e)).
  { apply span_complete; [exact I|]. unfold g. destruct f; [exact Ne|]. cbn. unfold digit. lia. }
  assert (Sg : (match (if neg then [45] else []) ++ i ++ g ++ e with
                | c :: s' => if c =? 45 then (true, s') else (false, (if neg then [45] else []) ++ i ++ g ++ e)
                | [] => (false, []) end) = (neg, i ++ g ++ e)).
  { destruct neg; [reflexivity|]. destruct i as [|c i]; [contradiction|]. apply Forall_inv in I. unfold digit in I. cbn [app].
    destruct (Z.eqb_spec c 45); [lia|reflexivity]. }
  unfold py_float. fold g. match goal with |- (let (_, _) := ?m in _) = _ => replace m with (neg, i ++ g ++ e) by (symmetry; exact Sg) end.
  rewrite Si, Sf, Se, Tg, Ev. unfold as_float.
  replace (- (x - Z.of_nat (length f))) with (Z.of_nat (length f) - x) by lia. reflexivity.
Qed.
Lemma fractional_stands t : fractional t -> exists neg n d, stands_for t neg n d.
Proof.
  intros (i & z & f & e & I & -> & F & E & _).
  assert (X : exists x, exponent_of e x) by (destruct E as [->|E]; [exists 0; constructor|now apply exponent_known]).
  destruct X as [x X].
  assert (Fd : exists fd, Forall digit fd /\ f = match fd with [] => [] | _ => 46 :: fd end).
  { destruct F as [->|(fd & (N & F) & ->)]; [exists []; auto|]. exists fd. split; [exact F|]. destruct fd; [contradiction|reflexivity]. }
  destruct Fd as (fd & Fd & ->).
  destruct I as [t n N|t n N].
  - exists false. eexists _, _. exists t, fd, e, x, n. split; [reflexivity|]. auto 10.
  - exists true. eexists _, _. exists t, fd, e, x, n. split; [reflexivity|]. auto 10.
Qed.
Lemma as_float_cases neg k :
  (k < 2 ^ 2098 -> as_float neg k = PFloat (Qred ((if neg then - k else k) # 2 ^ 1074)))
  /\ (2 ^ 2098 <= k -> as_float neg k = PInf (negb neg)).
Proof.
  unfold as_float. replace (2 ^ 1024 * ONE) with (2 ^ 2098) by (vm_compute; reflexivity).
  replace (Z.to_pos ONE) with (2 ^ 1074)%positive by (vm_compute; reflexivity).
  destruct (Z.leb_spec (2 ^ 2098) k) as [L|L]; split; intros H; try reflexivity; exfalso; revert H L; generalize (2 ^ 2098); lia.
Qed.

(** ** C105 *)

(** A number with a fraction or an exponent is read as the nearest double. *)
Theorem C105_float : forall t v, fractional t -> (py_float t = v <-> float_value t v).
Proof.
  intros t v F. split.
  - intros <-. destruct (fractional_stands t F) as (neg & n & d & S). destruct (stands_sign _ _ _ _ S) as [N D].
    rewrite (float_read _ _ _ _ S). exists neg, n, d, (round_double (n * ONE) d). split; [exact S|]. split; [now apply rounds|].
    destruct (as_float_cases neg (round_double (n * ONE) d)) as [A B]. destruct (Z.lt_ge_cases (round_double (n * ONE) d) (2 ^ 2098)); auto.
  - intros (neg & n & d & k & S & K & V). destruct (stands_sign _ _ _ _ S) as [N D]. rewrite (float_read _ _ _ _ S).
    rewrite <- (nearest_unique n d k _ D K (rounds n d N D)). destruct (as_float_cases neg k) as [A B].
    destruct V as [(V & ->)|(V & ->)]; auto.
Qed.
Print Assumptions C105_float.

Lemma small_double m j : 0 <= m < 2 ^ 53 -> 0 <= j -> double (m * 2 ^ j).
Proof. intros. exists m, j. auto. Qed.
Lemma one_pos : 0 < 2 ^ 1074.
Proof. apply pow_pos. lia. Qed.
(** A whole number is read exactly, so that 128.0 and 1.28e2 mean 128. *)
Theorem C105_whole : forall u t neg n d z, stands_for t neg n d -> n = z * d -> z <= 2 ^ 53 ->
  py_float t = PFloat (inject_Z (if neg then - z else z)) /\ number u (JNum (py_float t)) (if neg then - z else z).
Proof.
  intros u t neg n d z S E L. destruct (stands_sign _ _ _ _ S) as [N D].
  assert (Z0 : 0 <= z) by nia.
  assert (Db : double (z * 2 ^ 1074)).
  { destruct (Z.eq_dec z (2 ^ 53)) as [->|]; [|apply small_double; lia].
    exists 1, (53 + 1074). rewrite Z.pow_add_r by lia. lia. }
  assert (K := rounds n d N D). destruct (not_over _ _ _ _ D K Db) as [X Y].
  assert (V : round_double (n * ONE) d = z * 2 ^ 1074).
  { apply Z.le_antisymm; [apply Y|apply X]; rewrite E; generalize (2 ^ 1074); intros; lia. }
  assert (P : py_float t = PFloat (inject_Z (if neg then - z else z))).
  { rewrite (float_read _ _ _ _ S), V. destruct (as_float_cases neg (z * 2 ^ 1074)) as [A _]. rewrite A.
    - f_equal. transitivity (Qred (inject_Z (if neg then - z else z))).
      + apply Qred_complete. unfold Qeq, inject_Z. cbn [Qnum Qden]. rewrite Z.mul_1_r, Pos2Z.inj_pow. destruct neg; lia.
      + unfold Qred, inject_Z. assert (H := Z.ggcd_correct_divisors (if neg then - z else z) 1).
        assert (G := Z.ggcd_gcd (if neg then - z else z) 1). destruct (Z.ggcd (if neg then - z else z) 1) as [g [a b]] eqn:Q.
        cbn [fst] in G. rewrite Z.gcd_1_r in G. subst g. destruct H as [H1 H2]. cbn [snd].
        rewrite Z.mul_1_l in H1, H2. rewrite <- H1, <- H2. reflexivity.
    - apply Z.le_lt_trans with (2 ^ 53 * 2 ^ 1074); [apply Z.mul_le_mono_nonneg_r; [exact (Z.lt_le_incl _ _ one_pos)|exact L]|].
      rewrite <- Z.pow_add_r by lia. apply Z.pow_lt_mono_r; lia. }
  split; [exact P|]. rewrite P. destruct neg.
  - destruct (Z.eq_dec z 0) as [->|]; [apply number_up|apply number_down]; unfold Qle, Qlt, inject_Z; cbn; lia.
  - apply number_up; unfold Qle, Qlt, inject_Z; cbn; lia.
Qed.
Print Assumptions C105_whole.

(** Otherwise the fraction is cut off, unless the number is closer than 2^-45
    to the next whole number. *)
Lemma number_between u (neg : bool) k f : 0 <= f -> f * 2 ^ 1074 <= k -> k < (f + 1) * 2 ^ 1074 ->
  number u (JNum (PFloat (Qred ((if neg then - k else k) # 2 ^ 1074)))) (if neg then - f else f).
Proof.
  intros F L U. pose proof one_pos as P. set (q := (if neg then - k else k) # 2 ^ 1074).
  assert (R := Qred_correct q).
  assert (G : forall z : Z, ((inject_Z z <= q)%Q <-> z * 2 ^ 1074 <= (if neg then - k else k))
    /\ ((q <= inject_Z z)%Q <-> (if neg then - k else k) <= z * 2 ^ 1074)).
  { intros z. unfold q, Qle, inject_Z. cbn [Qnum Qden]. rewrite Pos2Z.inj_pow, !Z.mul_1_r. split; reflexivity. }
  assert (GL : forall z : Z, z * 2 ^ 1074 <= (if neg then - k else k) -> (inject_Z z <= Qred q)%Q) by (intros; rewrite R; now apply G).
  assert (GU : forall z : Z, (if neg then - k else k) <= z * 2 ^ 1074 -> (Qred q <= inject_Z z)%Q) by (intros; rewrite R; now apply G).
  assert (SL : forall z : Z, z * 2 ^ 1074 < (if neg then - k else k) -> (inject_Z z < Qred q)%Q).
  { intros z H. apply Qnot_le_lt. intros W. rewrite R in W. apply G in W. revert W H. clear. generalize (2 ^ 1074). intros; lia. }
  assert (SU : forall z : Z, (if neg then - k else k) < z * 2 ^ 1074 -> (Qred q < inject_Z z)%Q).
  { intros z H. apply Qnot_le_lt. intros W. rewrite R in W. apply G in W. revert W H. clear. generalize (2 ^ 1074). intros; lia. }
  clear R G. clearbody q. revert P L U GL GU SL SU. generalize (2 ^ 1074). intros o P L U GL GU SL SU. destruct neg.
  - destruct (Z.eq_dec k 0) as [->|].
    + assert (f = 0) by nia. subst f. apply number_up; [apply (GL 0)|apply (GL 0)|apply (SU 1)]; lia.
    + apply number_down; [apply (SU 0)|apply SL|apply GU]; nia.
  - apply number_up; [apply (GL 0)|apply GL|apply SU]; nia.
Qed.
Theorem C105_cut : forall u t neg n d f, stands_for t neg n d -> 0 <= f < 256 ->
  f * d <= n -> n * 2 ^ 45 <= ((f + 1) * 2 ^ 45 - 1) * d ->
  number u (JNum (py_float t)) (if neg then - f else f).
Proof.
  intros u t neg n d f S F L U. destruct (stands_sign _ _ _ _ S) as [N D].
  assert (K := rounds n d N D). set (k := round_double (n * ONE) d) in *.
  assert (D1 : double (f * 2 ^ 1074)) by (apply small_double; lia).
  assert (D2 : double (((f + 1) * 2 ^ 45 - 1) * 2 ^ 1029)) by (apply small_double; lia).
  destruct (not_over _ _ _ _ D K D1) as [X _]. destruct (not_over _ _ _ _ D K D2) as [_ Y].
  assert (X1 : f * 2 ^ 1074 <= k).
  { apply X. pose proof one_pos. revert H. generalize (2 ^ 1074). intros; nia. }
  assert (Y1 : k <= ((f + 1) * 2 ^ 45 - 1) * 2 ^ 1029).
  { apply Y. replace (2 ^ 1074) with (2 ^ 45 * 2 ^ 1029) by (rewrite <- Z.pow_add_r by lia; reflexivity).
    assert (P := pow_pos 1029 ltac:(lia)). revert P. generalize (2 ^ 1029). intros p P. nia. }
  assert (Y2 : k < (f + 1) * 2 ^ 1074).
  { eapply Z.le_lt_trans; [exact Y1|]. replace (2 ^ 1074) with (2 ^ 45 * 2 ^ 1029) by (rewrite <- Z.pow_add_r by lia; reflexivity).
    assert (P := pow_pos 1029 ltac:(lia)). revert P. generalize (2 ^ 1029). intros p P. nia. }
  rewrite (float_read _ _ _ _ S). fold k. destruct (as_float_cases neg k) as [A _]. rewrite A.
  - apply number_between; [lia|exact X1|exact Y2].
  - eapply Z.lt_le_trans; [exact Y2|]. apply Z.le_trans with (2 ^ 8 * 2 ^ 1074).
    + apply Z.mul_le_mono_nonneg_r; [exact (Z.lt_le_incl _ _ one_pos)|]. lia.
    + rewrite <- Z.pow_add_r by lia. apply Z.pow_le_mono_r; lia.
Qed.
Print Assumptions C105_cut.

(** From 2^1024 - 2^970 on a number is infinite. *)
Theorem C105_large : forall t neg n d, stands_for t neg n d ->
  (py_float t = PInf (negb neg) <-> (2 ^ 1024 - 2 ^ 970) * d <= n).
Proof.
  intros t neg n d S. destruct (stands_sign _ _ _ _ S) as [N D].
  assert (K := rounds n d N D). rewrite (float_read _ _ _ _ S). set (k := round_double (n * ONE) d) in *.
  assert (C : canonical (2 ^ 53 - 1) 2045) by (split; [lia|right; lia]).
  assert (E : 2 ^ 2098 = (2 ^ 53 - 1 + 1) * 2 ^ 2045) by (replace (2 ^ 53 - 1 + 1) with (2 ^ 53) by lia; now rewrite <- Z.pow_add_r by lia).
  destruct K as (Dk & H). destruct (H _ (canonical_double _ _ C)) as [Lo LoE]. destruct (H _ (next_double _ _ C)) as [Hi _].
  assert (Half : (2 ^ 1024 - 2 ^ 970) * 2 ^ 1074 * 2 = (2 * (2 ^ 53 - 1) + 1) * 2 ^ 2045) by (vm_compute; reflexivity).
  destruct (as_float_cases neg k) as [A B].
  assert (P := pow_pos 2045 ltac:(lia)). assert (P1 := one_pos).
  unfold far in Lo, LoE, Hi.
  assert (Cmp : (2 ^ 1024 - 2 ^ 970) * d <= n <-> (2 * (2 ^ 53 - 1) + 1) * 2 ^ 2045 * d <= 2 * (n * 2 ^ 1074)).
  { rewrite <- Half. revert P1. generalize (2 ^ 1024 - 2 ^ 970) (2 ^ 1074). clear. intros a o O. nia. }
  rewrite Cmp. destruct (neighbours _ _ k C Dk) as [G|G].
  - split.
    + rewrite A; [discriminate|]. rewrite E. revert G P. generalize (2 ^ 2045). intros; lia.
    + intros W. exfalso.
      assert (Eq : Z.abs (n * 2 ^ 1074 - (2 ^ 53 - 1) * 2 ^ 2045 * d) = Z.abs (n * 2 ^ 1074 - k * d)
                   /\ (k = (2 ^ 53 - 1) * 2 ^ 2045)).
      { clear - W G P Lo Hi D P1. revert W G P Lo Hi P1. generalize (2 ^ 2045) (2 ^ 53 - 1) (n * 2 ^ 1074). intros p m a W G P Lo Hi _.
        assert (Gd : k * d <= m * p * d) by nia. assert (k * d = m * p * d) by nia. split; [congruence|]. nia. }
      destruct Eq as [Eq1 Eq2].
      destruct (H _ (next_double _ _ C)) as [_ Tie]. unfold far in Tie.
      assert (Ev : even_double k).
      { apply Tie.
        - clear - W Eq2 P Hi D. revert W Eq2 P Hi. generalize (2 ^ 2045) (2 ^ 53 - 1) (n * 2 ^ 1074). intros p m a W -> P Hi. nia.
        - clear - Eq2 P. revert Eq2 P. generalize (2 ^ 2045). intros; lia. }
      destruct Ev as (q & i & Q & I & V & O).
      apply (even_unique (2 ^ 53 - 1) 2045 q i); [exact C|split; assumption|congruence|reflexivity|exact O].
  - split; [|intros _; apply B; rewrite E; exact G].
    intros _. clear - G Lo P D. revert G Lo P. generalize (2 ^ 2045) (2 ^ 53 - 1) (n * 2 ^ 1074). intros p m a G Lo P.
    assert ((m + 1) * p * d <= k * d) by nia. nia.
Qed.
Print Assumptions C105_large.

(** A message asking for such a brightness makes the daemon send and report the
    level without the fraction. *)
Theorem C105_command : forall u lib d topic ga b l s t n den f c,
  jl_float lib = py_float -> commands u topic ga -> is_bytes b -> states lib d b (JObj l) ->
  has l (txt "state") (JStr s) -> on_text s -> has l (txt "brightness") (JNum (jl_float lib t)) -> lacks l (txt "transition") ->
  stands_for t false n den -> 0 <= f < 255 -> f * den <= n -> n * 2 ^ 45 <= ((f + 1) * 2 ^ 45 - 1) * den ->
  cl_transport c = true -> counter_ok c ->
  exists line command messages,
    on_payload u lib d topic b c
      = (set_index c ((cl_index c + 1) mod 20), CWrite line :: map CPublish messages, Ok tt)
    /\ command_line line (code_at (cl_index c) 0)
    /\ wish_command ga (WishRamp f 0) command
    /\ (forall strict rest, decode_packet (line ++ rest) true strict false
          = ([], Ok (Some (PktPM (mkHdr true 0 None (Some (code_at (cl_index c) 0))) (Some 0x38) [command]), length line)))
    /\ wish_report ga (WishRamp f 0) messages.
Proof.
  intros u lib d topic ga b l s t n den f c J A B S H O Hb Lt St F L U T I. rewrite J in Hb.
  assert (Nf := C105_cut u t false n den f St ltac:(lia) L U). cbv beta iota in Nf.
  assert (Q : asks u l true f 0).
  { exists s. split; [exact H|]. split; [tauto|]. split; [right; eauto|left; auto]. }
  assert (W : wishes true f 0 (WishRamp f 0)).
  { replace (WishRamp f 0) with (WishRamp (Z.min f 255) (Z.max 0 0)) by (f_equal; lia). constructor; lia. }
  destruct (C79_command u lib d topic ga b l true f 0 _ c A B S Q W T I) as (line & code & command & messages & E & -> & X).
  exists line, command, messages. tauto.
Qed.
Print Assumptions C105_command.

(** The expectation that the fraction is always cut off: so close to 128 that it
    is read as 128. *)
Definition almost_128 : text := txt "127.99999999999999999".
Lemma almost_stands : stands_for almost_128 false 12799999999999999999 (10 ^ 17).
Proof.
  exists (txt "127"), (repeat 57 17), [], 0, 127. split; [reflexivity|]. split; [|split; [|split; [constructor|split; reflexivity]]].
  - split; [discriminate|]. split; [repeat constructor; unfold digit; cbn; lia|]. split; [discriminate|reflexivity].
  - cbn [repeat]. repeat constructor; unfold digit; lia.
Qed.
Theorem C105_floor_refuted : ~ forall u t n d f, stands_for t false n d -> f * d <= n -> n < (f + 1) * d ->
  number u (JNum (py_float t)) f.
Proof.
  intros H. assert (G := H plain_unicode _ _ _ 127 almost_stands ltac:(lia) ltac:(lia)).
  replace (py_float almost_128) with (PFloat (128 # 1)) in G by (vm_compute; reflexivity).
  inversion G as [| |q z P1 P2 P3 E1 E2|q z P1 P2 P3 E1 E2|]; subst; [unfold Qlt in P3|unfold Qlt in P1]; cbn in *; lia.
Qed.
Print Assumptions C105_floor_refuted.

Example C105_case :
  py_float (txt "127.6") = PFloat (4489525878534963 # 35184372088832)
  /\ py_float (txt "1.28e2") = PFloat (128 # 1) /\ py_float (txt "-128.0") = PFloat (-128 # 1)
  /\ py_float (txt "1e400") = PInf true /\ py_float (txt "-1E+309") = PInf false
  /\ py_float (txt "9007199254740993.0") = PFloat (9007199254740992 # 1)
  /\ py_float (txt "9007199254740995.0") = PFloat (9007199254740996 # 1)
  /\ py_float (txt "2e-324") = PFloat (0 # 1) /\ py_float (txt "3e-324") = PFloat (1 # 2 ^ 1074).
Proof. vm_compute. repeat split. Qed.
Definition float_library : json_library := mkJsonLibrary py_float (fun _ => []).
Example C105_command_case :
  stands_for (txt "127.6") false 1276 10
  /\ states float_library 4 (txt "{""state"": ""ON"", ""brightness"": 127.6}")
       (JObj [(txt "state", JStr (txt "ON")); (txt "brightness", JNum (jl_float float_library (txt "127.6")))])
  /\ 127 * 10 <= 1276 /\ 1276 * 2 ^ 45 <= (128 * 2 ^ 45 - 1) * 10.
Proof.
  split; [|split; [|lia]].
  - exists (txt "127"), [54], [], 0, 127. split; [reflexivity|]. split; [|split; [|split; [constructor|split; reflexivity]]].
    + split; [discriminate|]. split; [repeat constructor; unfold digit; cbn; lia|]. split; [discriminate|reflexivity].
    + repeat constructor; unfold digit; lia.
  - assert (N : is_bytes (txt "{""state"": ""ON"", ""brightness"": 127.6}")) by (apply printable_bytes, printable_test; reflexivity).
    apply loads_states; [exact N|]. vm_compute. reflexivity.
Qed.
