(** C56: the day of the week sent with a date. *)
From Coq Require Import List ZArith Bool Lia ZifyBool ZifyNat.
From Verif Require Import Py Sal Spec Sal_facts.
Import ListNotations.
Open Scope Z_scope.

(** The next calendar day. *)
Inductive next_day : Z * Z * Z -> Z * Z * Z -> Prop :=
| next_in_month y m d n : month_length y m n -> d < n -> next_day (y, m, d) (y, m, d + 1)
| next_month y m n : month_length y m n -> m < 12 -> next_day (y, m, n) (y, m + 1, 1)
| next_year y : next_day (y, 12, 31) (y + 1, 1, 1).
(** [days_later a n b]: [b] is [n] days after [a]. *)
Inductive days_later : Z * Z * Z -> nat -> Z * Z * Z -> Prop :=
| later_0 a : days_later a 0 a
| later_S a n b c : days_later a n b -> next_day b c -> days_later a (S n) c.

Lemma cumulative y m : 1 <= m <= 11 -> days_before_month y (m + 1) = days_before_month y m + days_in_month y m.
Proof.
  intros H. unfold days_before_month, days_in_month.
  assert (C : m = 1 \/ m = 2 \/ m = 3 \/ m = 4 \/ m = 5 \/ m = 6 \/ m = 7 \/ m = 8 \/ m = 9 \/ m = 10 \/ m = 11) by lia.
  repeat (destruct C as [->|C]); try subst m; cbn -[is_leap]; destruct (is_leap y); reflexivity.
Qed.
Lemma year_length y : days_before_year (y + 1) = days_before_year y + 365 + (if is_leap y then 1 else 0).
Proof.
  unfold days_before_year, is_leap. replace (y + 1 - 1) with y by lia. cbv zeta.
  destruct (y mod 4 =? 0) eqn:A, (y mod 100 =? 0) eqn:B, (y mod 400 =? 0) eqn:C; cbn [andb orb negb];
    Z.to_euclidean_division_equations; lia.
Qed.
Lemma ord_next y m d y' m' d' : 1 <= m <= 12 -> next_day (y, m, d) (y', m', d') -> ymd2ord y' m' d' = ymd2ord y m d + 1.
Proof.
  intros M N. inversion N as [? ? ? n L D|? ? n L D|?]; subst; unfold ymd2ord.
  - lia.
  - apply days_in_month_spec in L; [|exact M]. rewrite cumulative by lia. lia.
  - rewrite year_length. change (days_before_month (y + 1) 1) with 0.
    change (days_before_month y 12) with (334 + (if is_leap y then 1 else 0)). destruct (is_leap y); lia.
Qed.
Lemma month_range y m n : month_length y m n -> 1 <= m <= 12.
Proof. unfold month_length. cbn [In]. lia. Qed.
Lemma valid_month y m d : valid_date y m d -> 1 <= m <= 12.
Proof. intros [_ [n [L _]]]. eapply month_range; exact L. Qed.

(** The last byte of an encoded date. *)
Lemma date_bytes y m d : valid_date y m d ->
  exists hi lo, sal_encode (ClockUpdate (CDate y m d)) = Ok [14; 2; hi; lo; m; d; weekday y m d].
Proof.
  intros V. assert (M := valid_month y m d V). destruct V as [Y [n [L D]]].
  assert (n <= 31) by (unfold month_length in L; lia).
  exists (y / 256), (y mod 256). cbn [sal_encode clock_update_encode]. unfold clock_date_encode, pack_H, pack_B.
  assert (W := weekday_range y m d).
  replace ((0 <=? y) && (y <=? 65535)) with true by lia.
  rewrite (proj2 (andb_true_iff (0 <=? m) _)) by lia. rewrite (proj2 (andb_true_iff (0 <=? d) _)) by lia.
  rewrite (proj2 (andb_true_iff (0 <=? weekday y m d) _)) by lia. reflexivity.
Qed.

(** Each day is the day after the one before. *)
Theorem C56_advances : forall y m d y' m' d' a w a' w',
  valid_date y m d -> valid_date y' m' d' -> next_day (y, m, d) (y', m', d') ->
  sal_encode (ClockUpdate (CDate y m d)) = Ok (a ++ [w]) ->
  sal_encode (ClockUpdate (CDate y' m' d')) = Ok (a' ++ [w']) ->
  0 <= w <= 6 /\ w' = (w + 1) mod 7.
Proof.
  intros y m d y' m' d' a w a' w' V V' N E E'.
  destruct (date_bytes y m d V) as [hi [lo Q]]. destruct (date_bytes y' m' d' V') as [hi' [lo' Q']].
  rewrite Q in E. rewrite Q' in E'.
  change [14; 2; hi; lo; m; d; weekday y m d] with ([14; 2; hi; lo; m; d] ++ [weekday y m d]) in E.
  change [14; 2; hi'; lo'; m'; d'; weekday y' m' d'] with ([14; 2; hi'; lo'; m'; d'] ++ [weekday y' m' d']) in E'.
  assert (I : forall (x y : bytes) u v, Ok (x ++ [u]) = Ok (y ++ [v]) -> u = v).
  { intros x z u v X. inversion X as [X1]. now apply app_inj_tail in X1. }
  apply I in E, E'. subst w w'. split; [apply weekday_range|].
  unfold weekday. rewrite (ord_next y m d y' m' d' (valid_month _ _ _ V) N). clear.
  replace (ymd2ord y m d + 1 + 6) with (ymd2ord y m d + 6 + 1) by lia. now rewrite Z.add_mod_idemp_l by lia.
Qed.
Print Assumptions C56_advances.

(** 1 January 2024 was a Monday. *)
Theorem C56_anchor : exists a, sal_encode (ClockUpdate (CDate 2024 1 1)) = Ok (a ++ [0]).
Proof. exists [14; 2; 7; 232; 1; 1]. reflexivity. Qed.
Print Assumptions C56_anchor.

Lemma length_positive y m n : month_length y m n -> 28 <= n <= 31.
Proof. unfold month_length. lia. Qed.
Lemma month_total y m : 1 <= m <= 12 -> month_length y m (days_in_month y m).
Proof. intros H. now apply days_in_month_spec. Qed.
Lemma predecessor y m d : valid_date y m d -> (y, m, d) <> (1, 1, 1) ->
  exists y' m' d', valid_date y' m' d' /\ next_day (y', m', d') (y, m, d).
Proof.
  intros V N. assert (M := valid_month y m d V). destruct V as [Y [n [L D]]].
  destruct (Z_le_dec d 1) as [D1|D1].
  - assert (d = 1) by lia. subst d. destruct (Z_le_dec m 1) as [M1|M1].
    + assert (m = 1) by lia. subst m. assert (y <> 1) by congruence.
      exists (y - 1), 12, 31. split.
      * split; [lia|]. exists 31. split; [left; cbn; auto 20|lia].
      * replace y with (y - 1 + 1) at 2 by lia. constructor.
    + assert (T := month_total y (m - 1) ltac:(lia)). exists y, (m - 1), (days_in_month y (m - 1)). split.
      * split; [exact Y|]. eexists. split; [exact T|]. apply length_positive in T. lia.
      * replace m with (m - 1 + 1) at 3 by lia. constructor; [exact T|lia].
  - exists y, m, (d - 1). split; [split; [exact Y|]; exists n; split; [exact L|lia]|].
    replace d with (d - 1 + 1) at 2 by lia. econstructor; [exact L|lia].
Qed.
Lemma ord_positive y m d : valid_date y m d -> 1 <= ymd2ord y m d.
Proof.
  intros V. assert (M := valid_month y m d V). destruct V as [Y [n [L D]]]. unfold ymd2ord.
  assert (0 <= days_before_year y).
  { unfold days_before_year. cbv zeta. assert (0 <= (y - 1) / 4) by (apply Z.div_pos; lia).
    assert (0 <= (y - 1) / 400) by (apply Z.div_pos; lia).
    assert ((y - 1) / 100 <= y - 1) by (apply Z.div_le_upper_bound; lia). lia. }
  assert (0 <= days_before_month y m).
  { unfold days_before_month.
    assert (0 <= nth (Z.to_nat (m - 1)) days_before_month_table 0).
    { assert (C : m = 1 \/ m = 2 \/ m = 3 \/ m = 4 \/ m = 5 \/ m = 6 \/ m = 7 \/ m = 8 \/ m = 9 \/ m = 10 \/ m = 11 \/ m = 12) by lia.
      clear - C. repeat (destruct C as [->|C]); try subst m; vm_compute; discriminate. }
    destruct ((2 <? m) && is_leap y); lia. }
  lia.
Qed.
Lemma counted k : forall y m d, valid_date y m d -> ymd2ord y m d = Z.of_nat k + 1 -> days_later (1, 1, 1) k (y, m, d).
Proof.
  induction k as [|k IH]; intros y m d V E.
  - assert (S : {(y, m, d) = (1, 1, 1)} + {(y, m, d) <> (1, 1, 1)}) by (repeat decide equality).
    destruct S as [->|N]; [constructor|]. destruct (predecessor y m d V N) as [y' [m' [d' [V' X]]]].
    apply ord_next in X; [|eapply valid_month; exact V']. apply ord_positive in V'. lia.
  - assert (S : {(y, m, d) = (1, 1, 1)} + {(y, m, d) <> (1, 1, 1)}) by (repeat decide equality).
    destruct S as [Q|N].
    + injection Q as -> -> ->. change (ymd2ord 1 1 1) with 1 in E. lia.
    + destruct (predecessor y m d V N) as [y' [m' [d' [V' X]]]].
      econstructor; [apply IH; [exact V'|]|exact X].
      apply ord_next in X; [lia|eapply valid_month; exact V'].
Qed.

(** Counting days from Monday 1 January 1 gives the day sent, and gives Monday
    to 1 January 2024. *)
Theorem C56_true_day : forall y m d, valid_date y m d ->
  exists n a, days_later (1, 1, 1) n (y, m, d)
    /\ sal_encode (ClockUpdate (CDate y m d)) = Ok (a ++ [Z.of_nat n mod 7]).
Proof.
  intros y m d V. destruct (date_bytes y m d V) as [hi [lo Q]]. assert (P := ord_positive y m d V).
  exists (Z.to_nat (ymd2ord y m d - 1)), [14; 2; hi; lo; m; d].
  split; [apply counted; [exact V|lia]|]. rewrite Q. do 2 f_equal. unfold weekday.
  replace (Z.of_nat (Z.to_nat (ymd2ord y m d - 1))) with (ymd2ord y m d - 1) by lia.
  replace (ymd2ord y m d + 6) with (ymd2ord y m d - 1 + 1 * 7) by lia. now rewrite Z.mod_add by lia.
Qed.
Print Assumptions C56_true_day.
Theorem C56_days_unique : forall y m d n n', days_later (1, 1, 1) n (y, m, d) -> days_later (1, 1, 1) n' (y, m, d) -> n = n'.
Proof.
  assert (H : forall a n b, days_later a n b -> a = (1, 1, 1) ->
    let '(y, m, d) := b in (1 <= m <= 12) /\ ymd2ord y m d = Z.of_nat n + 1).
  { induction 1 as [a|a n b c D IH N]; intros ->.
    - split; [lia|reflexivity].
    - destruct b as [[y m] d], c as [[y' m'] d']. destruct (IH eq_refl) as [M E]. split.
      + inversion N as [? ? ? k L ?|? ? k L ?|?]; subst; lia.
      + rewrite (ord_next _ _ _ _ _ _ M N). lia. }
  intros y m d n n' A B. apply H in A, B; try reflexivity. lia.
Qed.
Print Assumptions C56_days_unique.

(** Around 29 February 2000 and the end of 1999. *)
Example C56_case :
  map (fun t => match t with (y, m, d) => option_map (fun b => last b 99)
      (match sal_encode (ClockUpdate (CDate y m d)) with Ok b => Some b | _ => None end) end)
    [(1999, 12, 31); (2000, 1, 1); (2000, 2, 28); (2000, 2, 29); (2000, 3, 1); (1900, 2, 28); (1900, 3, 1)]
  = [Some 4; Some 5; Some 0; Some 1; Some 2; Some 2; Some 3]
  /\ next_day (2000, 2, 29) (2000, 3, 1) /\ next_day (1900, 2, 28) (1900, 3, 1).
Proof.
  split; [vm_compute; reflexivity|]. split.
  - apply (next_month 2000 2 29); [|lia]. right. right. left. split; [reflexivity|]. split; [|reflexivity].
    split; [now exists 500|]. right. now exists 5.
  - apply (next_month 1900 2 28); [|lia]. right. right. right. split; [reflexivity|]. split; [|reflexivity].
    intros [_ [N|[k K]]]; [apply N; now exists 19|lia].
Qed.
