(** Lemmas on Python numerals, MQTT topics and payloads. *)
From Coq Require Import String List ZArith QArith Bool Lia ZifyBool ZifyNat.
From Verif Require Import Py Common Sal Packet Text Mqtt Client Cmqttd Base Spec Spec_client Spec_mqtt.
Import ListNotations.
Open Scope Z_scope.

(** ** Printing numbers *)

Lemma value_app a b : value (a ++ b) = fold_left (fun x c => x * 10 + (c - 48)) b (value a).
Proof. unfold value. apply fold_left_app. Qed.
Lemma value_snoc a c : value (a ++ [c]) = value a * 10 + (c - 48).
Proof. now rewrite value_app. Qed.

Lemma digits_natural f : forall n acc, 0 <= n < 2 ^ Z.of_nat f -> (f > 0)%nat ->
  exists t, digits_fuel f n acc = t ++ acc /\ natural n t /\ (1 <= n -> hd 0 t <> 48).
Proof.
  induction f as [|f IH]; intros n acc H F; [lia|]. cbn [digits_fuel].
  destruct (n <? 10) eqn:L.
  - exists [48 + n]. split; [reflexivity|]. unfold natural. repeat split.
    + discriminate.
    + constructor; [unfold digit; lia|constructor].
    + cbn [hd]. intros E. now rewrite E.
    + unfold value. cbn [fold_left]. lia.
    + cbn [hd]. lia.
  - assert (P : 2 ^ Z.of_nat (S f) = 2 * 2 ^ Z.of_nat f).
    { rewrite Nat2Z.inj_succ, Z.pow_succ_r; lia. }
    assert (F' : (f > 0)%nat). { destruct f; [cbn in H; lia|lia]. }
    assert (L' : 0 <= n / 10 < 2 ^ Z.of_nat f) by lia.
    destruct (IH (n / 10) ((48 + n mod 10) :: acc) L' F') as [t [E [[N [D [Z V]]] O]]].
    exists (t ++ [48 + n mod 10]). split; [now rewrite E, <- app_assoc|].
    assert (H0 : hd 0 (t ++ [48 + n mod 10]) = hd 0 t) by (destruct t; [congruence|reflexivity]).
    assert (O' : hd 0 t <> 48) by (apply O; lia).
    unfold natural. rewrite H0. repeat split.
    + destruct t; discriminate.
    + apply Forall_app. split; [exact D|]. constructor; [unfold digit; lia|constructor].
    + intros Q. contradiction.
    + rewrite value_snoc, V. lia.
    + intros _. exact O'.
Qed.

Lemma py_digits_natural n : 0 <= n -> natural n (py_digits n).
Proof.
  intros H. unfold py_digits.
  destruct (digits_natural (S (Z.to_nat (Z.log2 n))) n []) as [t [E [N _]]].
  - split; [exact H|]. rewrite Nat2Z.inj_succ, Z2Nat.id by apply Z.log2_nonneg.
    destruct (Z.eq_dec n 0) as [->|Q]; [cbn; lia|]. apply Z.log2_spec. lia.
  - lia.
  - rewrite E, app_nil_r. exact N.
Qed.
Lemma py_str_decimal n : decimal n (py_str n).
Proof.
  unfold py_str, decimal. destruct (n <? 0) eqn:L.
  - right. split; [lia|]. eexists. split; [reflexivity|]. apply py_digits_natural. lia.
  - left. split; [lia|]. apply py_digits_natural. lia.
Qed.

(** Numerals with the same value are the same. *)
Lemma value_bounds t : Forall digit t -> 0 <= value t < 10 ^ Z.of_nat (length t).
Proof.
  induction t as [|c t IH] using rev_ind; intros F; [cbn; lia|].
  apply Forall_app in F. destruct F as [F D]. inversion D; subst. specialize (IH F).
  rewrite value_snoc, app_length. cbn [length]. unfold digit in *.
  replace (Z.of_nat (length t + 1)) with (Z.succ (Z.of_nat (length t))) by lia.
  rewrite Z.pow_succ_r by lia. lia.
Qed.
Lemma value_lower t : Forall digit t -> hd 0 t <> 48 -> t <> [] -> 10 ^ (Z.of_nat (length t) - 1) <= value t.
Proof.
  induction t as [|c t IH] using rev_ind; intros F H N; [congruence|].
  apply Forall_app in F. destruct F as [F D]. inversion D; subst.
  rewrite value_snoc, app_length. cbn [length]. unfold digit in *.
  destruct t as [|x t].
  - cbn [app hd length value fold_left] in *. cbn. lia.
  - specialize (IH F H). assert (L := IH ltac:(discriminate)).
    replace (Z.of_nat (length (x :: t) + 1) - 1) with (Z.succ (Z.of_nat (length (x :: t)) - 1)) by (cbn [length]; lia).
    rewrite Z.pow_succ_r by (cbn [length]; lia). lia.
Qed.
Lemma digits_unique a : forall b, Forall digit a -> Forall digit b -> length a = length b -> value a = value b -> a = b.
Proof.
  induction a as [|x a IH] using rev_ind; intros b Fa Fb L V.
  - destruct b; [reflexivity|discriminate L].
  - destruct b as [|y b _] using rev_ind; [rewrite app_length in L; cbn in L; lia|].
    rewrite !app_length in L. cbn [length] in L. rewrite !value_snoc in V.
    apply Forall_app in Fa, Fb. destruct Fa as [Fa Dx], Fb as [Fb Dy]. inversion Dx; inversion Dy; subst.
    unfold digit in *. rewrite (IH b); [f_equal; f_equal; lia|assumption|assumption|lia|lia].
Qed.
Lemma natural_unique n a b : natural n a -> natural n b -> a = b.
Proof.
  intros [Na [Fa [Za Va]]] [Nb [Fb [Zb Vb]]].
  destruct (Z.eq_dec (hd 0 a) 48) as [Ea|Ea]; destruct (Z.eq_dec (hd 0 b) 48) as [Eb|Eb].
  - now rewrite Za, Zb.
  - rewrite (Za Ea) in *. assert (L := value_lower b Fb Eb Nb).
    assert (P : 0 < 10 ^ (Z.of_nat (length b) - 1)).
    { apply Z.pow_pos_nonneg; [lia|]. destruct b; [congruence|cbn [length]; lia]. }
    change (value [48]) with 0 in Va. lia.
  - rewrite (Zb Eb) in *. assert (L := value_lower a Fa Ea Na).
    assert (P : 0 < 10 ^ (Z.of_nat (length a) - 1)).
    { apply Z.pow_pos_nonneg; [lia|]. destruct a; [congruence|cbn [length]; lia]. }
    change (value [48]) with 0 in Vb. lia.
  - apply digits_unique; [assumption|assumption| |lia].
    assert (La := value_lower a Fa Ea Na). assert (Lb := value_lower b Fb Eb Nb).
    assert (Ua := value_bounds a Fa). assert (Ub := value_bounds b Fb).
    assert (X : Z.of_nat (length a) - 1 < Z.of_nat (length b)).
    { apply (Z.pow_lt_mono_r_iff 10); lia. }
    assert (Y : Z.of_nat (length b) - 1 < Z.of_nat (length a)).
    { apply (Z.pow_lt_mono_r_iff 10); lia. }
    lia.
Qed.
Lemma natural_head n a : natural n a -> digit (hd 0 a).
Proof. intros [N [F _]]. destruct F; [congruence|exact H]. Qed.
Lemma decimal_unique n a b : decimal n a -> decimal n b -> a = b.
Proof.
  intros [[La Ha]|[La [a' [-> Ha]]]] [[Lb Hb]|[Lb [b' [-> Hb]]]]; try lia.
  - eapply natural_unique; eassumption.
  - f_equal. eapply natural_unique; eassumption.
Qed.
Lemma decimal_inj n m a : decimal n a -> decimal m a -> n = m.
Proof.
  intros [[La Ha]|[La [a' [E Ha]]]] [[Lb Hb]|[Lb [b' [E' Hb]]]].
  - destruct Ha as [_ [_ [_ <-]]]. destruct Hb as [_ [_ [_ <-]]]. reflexivity.
  - subst. apply natural_head in Ha. unfold digit in Ha. cbn in Ha. lia.
  - subst. apply natural_head in Hb. unfold digit in Hb. cbn in Hb. lia.
  - subst. inversion E'; subst. destruct Ha as [_ [_ [_ Va]]], Hb as [_ [_ [_ Vb]]]. lia.
Qed.
Lemma decimal_slash n a : decimal n a -> ~ In 47 a.
Proof.
  assert (G : forall t, Forall digit t -> ~ In 47 t).
  { intros t F I. rewrite Forall_forall in F. apply F in I. unfold digit in I. lia. }
  intros [[_ [_ [F _]]]|[_ [t [-> [_ [F _]]]]]].
  - now apply G.
  - intros [E|I]; [discriminate E|]. now apply (G t).
Qed.

(** ** Stripping *)

Lemma drop_while_split f l : exists a, l = a ++ drop_while f l /\ Forall (fun c => f c = true) a.
Proof.
  induction l as [|c l [a [E F]]]; [now exists []|]. cbn [drop_while].
  destruct (f c) eqn:H; [|exists []; split; [reflexivity|constructor]].
  exists (c :: a). split; [cbn [app]; now rewrite <- E|now constructor].
Qed.
Lemma drop_while_head f l : drop_while f l = [] \/ exists c m, drop_while f l = c :: m /\ f c = false.
Proof.
  induction l as [|c l IH]; [now left|]. cbn [drop_while]. destruct (f c) eqn:H; [exact IH|].
  right. eauto.
Qed.
Lemma drop_while_app f a l : Forall (fun c => f c = true) a -> drop_while f (a ++ l) = drop_while f l.
Proof.
  induction 1 as [|c a H F IH]; [reflexivity|]. cbn [app drop_while]. now rewrite H.
Qed.
Lemma drop_while_stop f c l : f c = false -> drop_while f (c :: l) = c :: l.
Proof. intros H. cbn [drop_while]. now rewrite H. Qed.

(** [strip_by] removes what satisfies [f] at both ends. *)
Definition bare (f : Z -> bool) (m : text) : Prop := m = [] \/ (f (hd 0 m) = false /\ f (last m 0) = false).
Lemma last_rev (m : text) : last m 0 = hd 0 (rev m).
Proof.
  induction m as [|c m _] using rev_ind; [reflexivity|]. now rewrite last_last, rev_app_distr.
Qed.
Lemma strip_is f a m b : Forall (fun c => f c = true) a -> Forall (fun c => f c = true) b -> bare f m ->
  strip_by f (a ++ m ++ b) = m.
Proof.
  intros Fa Fb B. unfold strip_by. rewrite drop_while_app by exact Fa.
  destruct B as [->|[H1 H2]].
  - cbn [app]. replace (drop_while f b) with (@nil Z); [reflexivity|].
    rewrite <- (app_nil_r b). now rewrite drop_while_app.
  - destruct m as [|c m].
    + cbn [app]. replace (drop_while f b) with (@nil Z); [reflexivity|].
      rewrite <- (app_nil_r b). now rewrite drop_while_app.
    + cbn [hd] in H1. cbn [app]. rewrite drop_while_stop by exact H1.
      change (c :: m ++ b) with ((c :: m) ++ b). rewrite rev_app_distr.
      rewrite drop_while_app by (rewrite Forall_forall in *; intros x I; apply Fb, in_rev, I).
      rewrite last_rev in H2. destruct (rev (c :: m)) as [|x r] eqn:E.
      { apply (f_equal (@List.length Z)) in E. rewrite rev_length in E. discriminate E. }
      cbn [hd] in H2. rewrite drop_while_stop by exact H2. rewrite <- E. apply rev_involutive.
Qed.
Lemma strip_split f l : exists a b, l = a ++ strip_by f l ++ b /\ Forall (fun c => f c = true) a
  /\ Forall (fun c => f c = true) b /\ bare f (strip_by f l).
Proof.
  destruct (drop_while_split f l) as [a [Ea Fa]].
  destruct (drop_while_split f (rev (drop_while f l))) as [b [Eb Fb]].
  exists a, (rev b). unfold strip_by. split.
  - rewrite Ea at 1. f_equal. rewrite <- rev_app_distr, <- Eb, rev_involutive. reflexivity.
  - split; [exact Fa|]. split.
    { rewrite Forall_forall in *. intros x I. apply Fb, in_rev, I. }
    unfold bare. destruct (drop_while_head f (rev (drop_while f l))) as [H|[c [m [H Hc]]]].
    + left. now rewrite H.
    + right. rewrite H. split; [|rewrite last_rev, rev_involutive; exact Hc].
      destruct (drop_while_head f l) as [Q|[c2 [m2 [Q Hc2]]]].
      { rewrite Q in H. discriminate H. }
      rewrite Q in Eb. cbn [rev] in Eb.
      assert (R : rev (drop_while f (rev (c2 :: m2))) <> []).
      { rewrite Q in H. rewrite H. cbn [rev]. destruct (rev m); discriminate. }
      rewrite <- H. rewrite Q in *.
      assert (S : c2 :: m2 = rev (drop_while f (rev (c2 :: m2))) ++ rev b).
      { rewrite <- rev_app_distr. cbn [rev] in *. rewrite <- Eb. rewrite rev_app_distr, rev_involutive. reflexivity. }
      destruct (rev (drop_while f (rev (c2 :: m2)))) as [|x r]; [congruence|]. cbn [app] in S. inversion S; subst.
      exact Hc2.
Qed.

(** ** Reading numbers *)

Lemma numeral_value l p : numeral l p -> forall acc,
  int_digits false acc l = Some (fold_left (fun x c => x * 10 + (c - 48)) p acc)
  /\ int_digits true acc l = Some (fold_left (fun x c => x * 10 + (c - 48)) p acc).
Proof.
  induction 1 as [c D|c l p D N IH|c l p D N IH]; intros acc; unfold digit in D; cbn [int_digits fold_left].
  - replace (is_digit c) with true by (unfold is_digit; lia). auto.
  - replace (is_digit c) with true by (unfold is_digit; lia). split; apply IH.
  - replace (is_digit c) with true by (unfold is_digit; lia).
    replace (is_digit 95) with false by reflexivity. cbn [Z.eqb Pos.eqb andb]. split; apply IH.
Qed.
Lemma value_numeral l : forall acc v,
  (int_digits false acc l = Some v -> exists p, numeral l p /\ v = fold_left (fun x c => x * 10 + (c - 48)) p acc)
  /\ (int_digits true acc l = Some v ->
      (l = [] /\ v = acc)
      \/ (exists p, numeral l p /\ v = fold_left (fun x c => x * 10 + (c - 48)) p acc)
      \/ (exists l' p, l = 95 :: l' /\ numeral l' p /\ v = fold_left (fun x c => x * 10 + (c - 48)) p acc)).
Proof.
  induction l as [|c l IH]; intros acc v; cbn [int_digits].
  - split; [discriminate|]. intros E. inversion E. auto.
  - destruct (is_digit c) eqn:D.
    + assert (Hc : digit c) by (unfold is_digit in D; unfold digit; lia).
      assert (G : int_digits true (acc * 10 + (c - 48)) l = Some v ->
        exists p, numeral (c :: l) p /\ v = fold_left (fun x c => x * 10 + (c - 48)) p acc).
      { intros E. apply IH in E. destruct E as [[-> ->]|[[p [N ->]]|[l' [p [-> [N ->]]]]]].
        - exists [c]. split; [now constructor|reflexivity].
        - exists (c :: p). split; [now constructor|reflexivity].
        - exists (c :: p). split; [now constructor|reflexivity]. }
      split; [exact G|]. intros E. right. left. now apply G.
    + destruct (c =? 95) eqn:U; cbn [andb]; [|split; discriminate].
      split; [discriminate|]. intros E. apply IH in E. destruct E as [p [N ->]].
      right. right. assert (c = 95) by lia. subst. eauto.
Qed.

Lemma numeral_chars l p : numeral l p -> l <> [] /\ digit (hd 0 l) /\ digit (last l 0) /\ Forall (fun c => digit c \/ c = 95) l.
Proof.
  induction 1 as [c D|c l p D N [IN [_ [IH F]]]|c l p D N [IN [_ [IH F]]]].
  - split; [discriminate|]. split; [exact D|]. split; [exact D|]. constructor; [now left|constructor].
  - destruct l as [|y l]; [congruence|]. split; [discriminate|]. split; [exact D|]. split; [exact IH|].
    constructor; [now left|exact F].
  - destruct l as [|y l]; [congruence|]. split; [discriminate|]. split; [exact D|]. split; [exact IH|].
    constructor; [now left|]. constructor; [now right|exact F].
Qed.

Lemma normalise_ascii u c : ascii_char u c (int_normalise u c).
Proof.
  unfold ascii_char, int_normalise. destruct (c <? 127) eqn:L; [left; lia|].
  destruct (u_space u c) eqn:S; [right; left; lia|].
  destruct (u_digit u c) as [v|] eqn:D; [right; right; left|right; right; right]; split; try lia; eauto.
Qed.
Lemma ascii_normalise u c d : ascii_char u c d -> d = int_normalise u c.
Proof.
  unfold ascii_char, int_normalise.
  intros [[L ->]|[[L [S ->]]|[[L [S [v [D ->]]]]|[L [S [D ->]]]]]].
  - now replace (c <? 127) with true by lia.
  - replace (c <? 127) with false by lia. now rewrite S.
  - replace (c <? 127) with false by lia. now rewrite S, D.
  - replace (c <? 127) with false by lia. now rewrite S, D.
Qed.
Lemma ascii_map u s t : Forall2 (ascii_char u) s t <-> t = map (int_normalise u) s.
Proof.
  split.
  - induction 1 as [|c d s t H F IH]; [reflexivity|]. cbn [map]. now rewrite IH, (ascii_normalise u c d H).
  - intros ->. induction s as [|c s IH]; constructor; [apply normalise_ascii|exact IH].
Qed.
Lemma blank_space c : blank c <-> int_space c = true.
Proof. unfold blank, int_space. lia. Qed.
Lemma forall_blank l : Forall blank l <-> Forall (fun c => int_space c = true) l.
Proof. rewrite !Forall_forall. split; intros H x I; apply blank_space, H, I. Qed.

Lemma read_sign s : 
  match s with
  | 45 :: s' => option_map Z.opp (int_digits false 0 s')
  | 43 :: s' => int_digits false 0 s'
  | _ => int_digits false 0 s
  end = match s with
        | c :: s' => if c =? 45 then option_map Z.opp (int_digits false 0 s')
                     else if c =? 43 then int_digits false 0 s' else int_digits false 0 s
        | [] => None
        end.
Proof.
  destruct s as [|c s]; [reflexivity|].
  destruct (c =? 45) eqn:A; [assert (c = 45) by lia; now subst|].
  destruct (c =? 43) eqn:B; [assert (c = 43) by lia; now subst|].
  destruct c as [|p|p]; try reflexivity.
  repeat (destruct p as [p|p|]; try reflexivity; try discriminate).
Qed.

Theorem int_reads u s v : py_int_of_text u s = Ok v <-> int_text u s v.
Proof.
  unfold py_int_of_text. rewrite read_sign. set (t := map (int_normalise u) s).
  split.
  - intros E. destruct (strip_split int_space t) as [a [b [T [Fa [Fb _]]]]].
    remember (strip_by int_space t) as m.
    assert (X : exists sign l p, m = sign ++ l /\ numeral l p
      /\ ((sign = [] /\ v = value p) \/ (sign = [43] /\ v = value p) \/ (sign = [45] /\ v = - value p))).
    { destruct m as [|c m]; [discriminate E|].
      destruct (c =? 45) eqn:A.
      - assert (c = 45) by lia. subst c. destruct (int_digits false 0 m) as [z|] eqn:Z; [|discriminate E].
        inversion E; subst. apply value_numeral in Z. destruct Z as [p [N ->]].
        exists [45], m, p. split; [reflexivity|]. split; [exact N|]. right. right. split; reflexivity.
      - destruct (c =? 43) eqn:B.
        + assert (c = 43) by lia. subst c. destruct (int_digits false 0 m) as [z|] eqn:Z; [|discriminate E].
          inversion E; subst. apply value_numeral in Z. destruct Z as [p [N ->]].
          exists [43], m, p. split; [reflexivity|]. split; [exact N|]. right. left. split; reflexivity.
        + destruct (int_digits false 0 (c :: m)) as [z|] eqn:Z; [|discriminate E].
          inversion E; subst. apply value_numeral in Z. destruct Z as [p [N ->]].
          exists [], (c :: m), p. split; [reflexivity|]. split; [exact N|]. left. split; reflexivity. }
    destruct X as [sign [l [p [M [N Q]]]]].
    exists t, a, sign, l, p, b. split; [now apply ascii_map|]. split; [rewrite T, M; now rewrite <- app_assoc|].
    split; [now apply forall_blank|]. split; [now apply forall_blank|]. split; [exact N|exact Q].
  - intros [t' [a [sign [l [p [b [A [T [Fa [Fb [N Q]]]]]]]]]]].
    apply ascii_map in A. fold t in A. subst t'. rewrite T.
    destruct (numeral_chars l p N) as [LN [LH [LL LF]]].
    assert (S : strip_by int_space (a ++ (sign ++ l) ++ b) = sign ++ l).
    { apply strip_is; [now apply forall_blank|now apply forall_blank|]. right.
      assert (DS : forall c, digit c -> int_space c = false) by (unfold digit, int_space; lia).
      split.
      - destruct Q as [[-> _]|[[-> _]|[-> _]]]; [|reflexivity|reflexivity]. cbn [app]. now apply DS.
      - assert (LA : last (sign ++ l) 0 = last l 0).
        { destruct l as [|y l]; [congruence|]. destruct Q as [[-> _]|[[-> _]|[-> _]]]; reflexivity. }
        rewrite LA. now apply DS. }
    rewrite <- app_assoc in S. rewrite S.
    destruct (numeral_value l p N 0) as [V _]. fold (value p) in V.
    destruct Q as [[-> ->]|[[-> ->]|[-> ->]]]; cbn [app].
    + destruct l as [|c l]; [congruence|]. cbn [hd] in LH. unfold digit in LH.
      replace (c =? 45) with false by lia. replace (c =? 43) with false by lia. now rewrite V.
    + cbn [Z.eqb Pos.eqb]. now rewrite V.
    + cbn [Z.eqb Pos.eqb]. rewrite V. reflexivity.
Qed.
Lemma int_unreadable u s : (forall v, ~ int_text u s v) -> py_int_of_text u s = Raise ValueError.
Proof.
  intros H. destruct (py_int_of_text u s) as [v|e] eqn:E.
  - apply int_reads in E. exfalso. now apply (H v).
  - unfold py_int_of_text in E.
    match type of E with match ?x with _ => _ end = _ => destruct x; inversion E end. reflexivity.
Qed.

Lemma numeral_digits t : t <> [] -> Forall digit t -> numeral t t.
Proof.
  intros N F. induction F as [|c t D F IH]; [congruence|].
  destruct t as [|d t]; [now constructor|]. constructor; [exact D|]. now apply IH.
Qed.
Lemma decimal_int_text u n t : decimal n t -> int_text u t n.
Proof.
  assert (A : forall l, Forall (fun c => c < 127) l -> Forall2 (ascii_char u) l l).
  { induction 1; constructor; [left; auto|assumption]. }
  assert (B : forall l, Forall digit l -> Forall (fun c => c < 127) l).
  { intros l F. rewrite Forall_forall in *. intros x I. apply F in I. unfold digit in I. lia. }
  intros [[L [N [F [_ V]]]]|[L [t' [-> [N [F [_ V]]]]]]].
  - exists t, [], [], t, t, []. split; [apply A, B, F|]. rewrite app_nil_r.
    split; [reflexivity|]. split; [constructor|]. split; [constructor|]. split; [now apply numeral_digits|]. left. auto.
  - exists (45 :: t'), [], [45], t', t', []. split; [apply A; constructor; [lia|apply B, F]|]. rewrite app_nil_r.
    split; [reflexivity|]. split; [constructor|]. split; [constructor|]. split; [now apply numeral_digits|].
    right. right. split; [reflexivity|lia].
Qed.
Lemma int_text_fun u s v w : int_text u s v -> int_text u s w -> v = w.
Proof. intros A B. apply int_reads in A, B. congruence. Qed.

(** ** Topics *)

Lemma before_slash_app d r : ~ In 47 d -> (r = [] \/ exists r', r = 47 :: r') -> before_slash (d ++ r) = d.
Proof.
  intros N R. induction d as [|c d IH]; cbn [app before_slash].
  - destruct R as [->|[r' ->]]; reflexivity.
  - replace (c =? 47) with false by (cbn [In] in N; lia). f_equal. apply IH. cbn [In] in N. tauto.
Qed.
Lemma before_slash_split s : exists r, s = before_slash s ++ r /\ ~ In 47 (before_slash s)
  /\ (r = [] \/ exists r', r = 47 :: r').
Proof.
  induction s as [|c s [r [E [N R]]]]; [exists []; cbn; tauto|]. cbn [before_slash].
  destruct (c =? 47) eqn:C.
  - exists (c :: s). assert (c = 47) by lia. subst. cbn. repeat split; [tauto|]. right. eauto.
  - exists r. cbn [app In]. rewrite <- E. repeat split; [|exact R]. intros [H|H]; [lia|tauto].
Qed.

Lemma starts_with_spec p : forall s, starts_with p s = true <-> exists r, s = p ++ r.
Proof.
  induction p as [|c p IH]; intros s.
  - split; [intros _; now exists s|reflexivity].
  - destruct s as [|d s]; cbn [starts_with].
    + split; [discriminate|]. intros [r H]. discriminate H.
    + split.
      * intros H. apply andb_prop in H. destruct H as [H1 H2]. apply IH in H2. destruct H2 as [r ->].
        exists r. cbn [app]. f_equal. lia.
      * intros [r H]. cbn [app] in H. inversion H; subst. replace (c =? c) with true by lia. apply IH. now exists r.
Qed.
Lemma ends_with_spec p s : ends_with p s = true <-> exists r, s = r ++ p.
Proof.
  unfold ends_with. rewrite starts_with_spec. split.
  - intros [r H]. exists (rev r). apply (f_equal (@rev Z)) in H. rewrite rev_involutive, rev_app_distr, rev_involutive in H.
    exact H.
  - intros [r ->]. exists (rev r). apply rev_app_distr.
Qed.

Lemma skipn_prefix {A} (p r : list A) : skipn (length p) (p ++ r) = r.
Proof. induction p; [reflexivity|exact IHp]. Qed.

Theorem topic_address u topic :
  (forall n, addresses u topic n -> group_address n -> get_topic_group_address u topic = Ok n)
  /\ (forall n, get_topic_group_address u topic = Ok n -> addresses u topic n /\ group_address n)
  /\ ((forall n, addresses u topic n -> ~ group_address n) -> get_topic_group_address u topic = Raise ValueError).
Proof.
  assert (C : forall n, group_address n -> check_ga n = Ok tt).
  { intros n H. unfold check_ga, validate_ga, MIN_GROUP_ADDR, MAX_GROUP_ADDR. unfold group_address in H.
    replace ((0 <=? n) && (n <=? 255)) with true by lia. reflexivity. }
  assert (C' : forall n, ~ group_address n -> check_ga n = Raise ValueError).
  { intros n H. unfold check_ga, validate_ga, MIN_GROUP_ADDR, MAX_GROUP_ADDR. unfold group_address in H.
    replace ((0 <=? n) && (n <=? 255)) with false by lia. reflexivity. }
  assert (A : forall n, addresses u topic n ->
     get_topic_group_address u topic = rbind (check_ga n) (fun _ => Ok n)).
  { intros n [s [rest [T [N [R I]]]]]. unfold get_topic_group_address.
    replace (starts_with LIGHT_TOPIC_PREFIX topic) with true
      by (symmetry; apply starts_with_spec; exists (s ++ rest); exact T).
    cbn [negb]. rewrite T. change (txt "homeassistant/light/cbus_") with LIGHT_TOPIC_PREFIX.
    rewrite skipn_prefix, (before_slash_app s rest N R). apply int_reads in I. rewrite I. reflexivity. }
  assert (B : forall v, get_topic_group_address u topic = v ->
     v = Raise ValueError \/ exists n, addresses u topic n).
  { intros v E. unfold get_topic_group_address in E.
    destruct (starts_with LIGHT_TOPIC_PREFIX topic) eqn:S; cbn [negb] in E; [|now left].
    apply starts_with_spec in S. destruct S as [r T]. rewrite T, skipn_prefix in E.
    destruct (py_int_of_text u (before_slash r)) as [n|e] eqn:P.
    - right. exists n. destruct (before_slash_split r) as [rest [Er [N R]]].
      exists (before_slash r), rest. split; [rewrite <- Er; exact T|]. split; [exact N|]. split; [exact R|].
      now apply int_reads.
    - left. rewrite int_unreadable in P; [inversion P; subst; reflexivity|].
      intros x I. apply int_reads in I. congruence. }
  split; [|split].
  - intros n H G. rewrite (A n H), (C n G). reflexivity.
  - intros n H. destruct (B _ H) as [X|[m X]]; [discriminate X|]. rewrite (A m X) in H.
    assert (D : group_address m \/ ~ group_address m) by (unfold group_address; lia).
    destruct D as [D|D]; [|rewrite (C' m D) in H; discriminate H].
    rewrite (C m D) in H. cbn [rbind] in H. inversion H; subst. now split.
  - intros H. destruct (B _ eq_refl) as [X|[m X]]; [exact X|]. rewrite (A m X), (C' m (H m X)). reflexivity.
Qed.

Lemma topic_is k ga : is_topic k ga (topic_function k ga).
Proof. exists (py_str ga). split; [apply py_str_decimal|]. destruct k; reflexivity. Qed.
Lemma is_topic_function k ga t : is_topic k ga t -> t = topic_function k ga.
Proof.
  intros [d [D ->]]. rewrite (decimal_unique ga d (py_str ga) D (py_str_decimal ga)). destruct k; reflexivity.
Qed.

Lemma after_slash k : exists r, topic_after k = 47 :: r.
Proof. destruct k; eexists; reflexivity. Qed.

Lemma topic_distinct k k' ga ga' t : is_topic k ga t -> is_topic k' ga' t -> k = k' /\ ga = ga'.
Proof.
  intros [d [D T]] [d' [D' T']]. subst t.
  assert (B : topic_before k = topic_before k' /\ d ++ topic_after k = d' ++ topic_after k').
  { destruct (list_eq_dec Z.eq_dec (topic_before k) (topic_before k')) as [E|E].
    - split; [exact E|]. rewrite E in T'. now apply app_inv_head in T'.
    - exfalso. destruct k, k'; cbn [topic_before] in *; try congruence;
        apply (f_equal (fun l => nth 14 l 0)) in T'; discriminate T'. }
  destruct B as [B A].
  assert (E : d = d').
  { apply (f_equal before_slash) in A. rewrite !before_slash_app in A; [exact A| | | |].
    - eapply decimal_slash; eassumption.
    - right. apply after_slash.
    - eapply decimal_slash; eassumption.
    - right. apply after_slash. }
  subst d'. apply app_inv_head in A. split; [|eapply decimal_inj; eassumption].
  destruct k, k'; try reflexivity; try discriminate A; discriminate B.
Qed.

Lemma topic_addresses u k ga t : is_light k -> is_topic k ga t -> addresses u t ga.
Proof.
  intros L [d [D ->]]. exists d, (topic_after k). unfold is_light in L. rewrite L.
  split; [reflexivity|]. split; [eapply decimal_slash; eassumption|]. split; [right; apply after_slash|].
  now apply decimal_int_text.
Qed.
Lemma addresses_fun u t n m : addresses u t n -> addresses u t m -> n = m.
Proof.
  intros [s [r [T [N [R I]]]]] [s' [r' [T' [N' [R' I']]]]]. subst t. apply app_inv_head in T'.
  apply (f_equal before_slash) in T'. rewrite !before_slash_app in T' by assumption. subst s'.
  eapply int_text_fun; eassumption.
Qed.

(** ** Payloads *)

Lemma text_eqb_eq a : forall b, text_eqb a b = true <-> a = b.
Proof.
  induction a as [|x a IH]; intros [|y b]; cbn [text_eqb]; split; try discriminate; try reflexivity.
  - intros H. apply andb_prop in H. destruct H as [H1 H2]. apply IH in H2. f_equal; [lia|exact H2].
  - intros H. inversion H; subst. replace (y =? y) with true by lia. now apply IH.
Qed.
Lemma text_eqb_neq a b : text_eqb a b = false <-> a <> b.
Proof.
  split.
  - intros H E. apply text_eqb_eq in E. congruence.
  - intros H. destruct (text_eqb a b) eqn:E; [apply text_eqb_eq in E; contradiction|reflexivity].
Qed.

Lemma jlookup_has k l v : jlookup k l = Some v <-> has l k v.
Proof.
  induction l as [|[a w] l IH]; cbn [jlookup].
  - split; [discriminate|]. intros [x [y [E _]]]. destruct x; discriminate E.
  - destruct (text_eqb a k) eqn:E.
    + apply text_eqb_eq in E. subst a. split.
      * intros H. inversion H; subst. exists [], l. split; [reflexivity|]. intros v' [].
      * intros [x [y [H N]]]. destruct x as [|z x]; cbn [app] in H; inversion H; subst; [reflexivity|].
        exfalso. apply (N w). now left.
    + apply text_eqb_neq in E. rewrite IH. split.
      * intros [x [y [H N]]]. exists ((a, w) :: x), y. split; [cbn [app]; now rewrite H|].
        intros v' [Q|Q]; [inversion Q; congruence|now apply (N v')].
      * intros [x [y [H N]]]. destruct x as [|z x]; cbn [app] in H; inversion H; subst; [congruence|].
        exists x, y. split; [reflexivity|]. intros v' I. apply (N v'). now right.
Qed.
Lemma jlookup_lacks k l : jlookup k l = None <-> lacks l k.
Proof.
  unfold lacks. induction l as [|[a w] l IH]; cbn [jlookup].
  - split; [intros _ v []|reflexivity].
  - destruct (text_eqb a k) eqn:E.
    + apply text_eqb_eq in E. subst a. split; [discriminate|]. intros H. exfalso. apply (H w). now left.
    + apply text_eqb_neq in E. rewrite IH. split.
      * intros H v [Q|Q]; [inversion Q; congruence|now apply (H v)].
      * intros H v I. apply (H v). now right.
Qed.
Lemma has_fun l k v w : has l k v -> has l k w -> v = w.
Proof. intros A B. apply jlookup_has in A, B. congruence. Qed.
Lemma has_or_lacks l k : (exists v, has l k v) \/ lacks l k.
Proof.
  destruct (jlookup k l) as [v|] eqn:E; [left; exists v; now apply jlookup_has|right; now apply jlookup_lacks].
Qed.
Lemma has_lacks l k v : has l k v -> lacks l k -> False.
Proof. intros A B. apply jlookup_has in A. apply jlookup_lacks in B. congruence. Qed.

Lemma trunc_number u q : number u (JNum (PFloat q)) (q_trunc q).
Proof.
  destruct q as [n d]. unfold q_trunc. cbn [Qnum Qden].
  assert (P : 0 < Zpos d) by reflexivity.
  assert (H := Z.quot_rem' n (Zpos d)).
  assert (B1 : n <= 0 -> - Zpos d < Z.rem n (Zpos d) <= 0) by (intros L; apply Z.rem_bound_pos_neg; assumption).
  assert (B2 : 0 <= n -> 0 <= Z.rem n (Zpos d) < Zpos d) by (intros L; apply Z.rem_bound_pos; assumption).
  generalize dependent (Z.rem n (Zpos d)). intros r H B1 B2.
  generalize dependent (Z.quot n (Zpos d)). intros k H.
  destruct (Z_lt_le_dec n 0) as [L|L].
  - apply number_down; unfold Qlt, Qle; cbn [Qnum Qden inject_Z]; rewrite ?Z.mul_1_r, ?Z.mul_sub_distr_r, ?(Z.mul_comm k); lia.
  - apply number_up; unfold Qlt, Qle; cbn [Qnum Qden inject_Z]; rewrite ?Z.mul_1_r, ?Z.mul_add_distr_r, ?(Z.mul_comm k); lia.
Qed.
Lemma float_number_fun u q v w : number u (JNum (PFloat q)) v -> number u (JNum (PFloat q)) w -> v = w.
Proof.
  assert (M : forall a b n d : Z, 0 < d -> a * d <= n -> n < b * d -> a < b).
  { intros a b n d P X Y. apply (Z.mul_lt_mono_pos_r d); lia. }
  assert (M' : forall a b n d : Z, 0 < d -> a * d < n -> n <= b * d -> a < b).
  { intros a b n d P X Y. apply (Z.mul_lt_mono_pos_r d); lia. }
  destruct q as [n d]. intros A B. inversion A as [| |q1 z1 P1 L1 U1|q1 z1 P1 L1 U1|]; subst;
    inversion B as [| |q2 z2 P2 L2 U2|q2 z2 P2 L2 U2|]; subst;
    unfold Qlt, Qle in *; cbn [Qnum Qden inject_Z] in *; rewrite ?Z.mul_1_r in *; try lia.
  - assert (X := M v (w + 1) n (Zpos d) ltac:(lia) L1 U2). assert (Y := M w (v + 1) n (Zpos d) ltac:(lia) L2 U1). lia.
  - assert (X := M' (v - 1) w n (Zpos d) ltac:(lia) L1 U2). assert (Y := M' (w - 1) v n (Zpos d) ltac:(lia) L2 U1). lia.
Qed.
Lemma number_reads u j v : py_int_of_json u j = Ok v <-> number u j v.
Proof.
  destruct j as [|b|n|s|l|l]; cbn [py_int_of_json].
  - split; [discriminate|]. intros H. inversion H.
  - split; [intros H; inversion H; constructor|]. intros H. now inversion H.
  - destruct n as [z|q| |b].
    + split; [intros H; inversion H; constructor|]. intros H. now inversion H.
    + split.
      * intros H. inversion H. apply trunc_number.
      * intros H. f_equal. eapply float_number_fun; [apply trunc_number|exact H].
    + split; [discriminate|]. intros H. inversion H.
    + split; [discriminate|]. intros H. inversion H.
  - rewrite int_reads. split; [now constructor|]. intros H. now inversion H.
  - split; [discriminate|]. intros H. inversion H.
  - split; [discriminate|]. intros H. inversion H.
Qed.
Lemma number_or_not u j : (exists v, number u j v) \/ forall v, ~ number u j v.
Proof.
  destruct (py_int_of_json u j) as [v|e] eqn:E.
  - left. exists v. now apply number_reads.
  - right. intros v N. apply number_reads in N. congruence.
Qed.

Lemma payload_int_field u l k d v : payload_int u (JObj l) k d = Ok v <-> field u l k d v.
Proof.
  unfold payload_int, field. destruct (jlookup k l) as [j|] eqn:E.
  - rewrite number_reads. apply jlookup_has in E. split; [eauto|].
    intros [[L _]|[j' [H N]]]; [exfalso; eapply has_lacks; eassumption|]. now rewrite (has_fun l k j j' E H).
  - apply jlookup_lacks in E. split; [intros H; inversion H; auto|].
    intros [[_ ->]|[j' [H N]]]; [reflexivity|]. exfalso. eapply has_lacks; eassumption.
Qed.
Lemma payload_int_bad u l k d : field_bad u l k -> exists e, payload_int u (JObj l) k d = Raise e
  /\ (e = TypeError \/ e = ValueError \/ e = OverflowError).
Proof.
  intros [j [H N]]. apply jlookup_has in H. unfold payload_int. rewrite H.
  destruct j as [|b|n|s|m|m]; cbn [py_int_of_json].
  - eauto.
  - exfalso. eapply N. constructor.
  - destruct n as [z|q| |b]; eauto.
    + exfalso. eapply N. constructor.
    + exfalso. eapply N. apply trunc_number.
  - rewrite int_unreadable; [eauto|]. intros v I. apply (N v). now constructor.
  - eauto.
  - eauto.
Qed.
Lemma field_cases u l k d : (exists v, field u l k d v) \/ field_bad u l k.
Proof.
  destruct (has_or_lacks l k) as [[j H]|H].
  - destruct (number_or_not u j) as [[v N]|N]; [left; exists v; right; eauto|right; exists j; auto].
  - left. exists d. now left.
Qed.
Lemma field_fun u l k d v w : field u l k d v -> field u l k d w -> v = w.
Proof. intros A B. apply payload_int_field in A, B. congruence. Qed.
Lemma field_not_bad u l k d v : field u l k d v -> field_bad u l k -> False.
Proof. intros A B. apply payload_int_field in A. destruct (payload_int_bad u l k d B) as [e [H _]]. congruence. Qed.

Lemma upper_on s : text_eqb (py_upper s) (txt "ON") = true <-> on_text s.
Proof.
  assert (U : forall c, upper_char c = 79 <-> c = 79 \/ c = 111) by (unfold upper_char; intros c; destruct ((97 <=? c) && (c <=? 122)) eqn:E; lia).
  assert (V : forall c, upper_char c = 78 <-> c = 78 \/ c = 110) by (unfold upper_char; intros c; destruct ((97 <=? c) && (c <=? 122)) eqn:E; lia).
  rewrite text_eqb_eq. change (txt "ON") with [79; 78]. unfold py_upper, on_text.
  change (txt "ON") with [79; 78]. change (txt "On") with [79; 110]. change (txt "oN") with [111; 78].
  change (txt "on") with [111; 110].
  split.
  - intros H. destruct s as [|a [|b [|c s]]]; try discriminate H. cbn [map] in H. inversion H as [[A B]].
    rewrite A in *. apply U in A. apply V in B. destruct A as [->| ->], B as [->| ->]; auto.
  - intros [->|[->|[->| ->]]]; reflexivity.
Qed.
