(** C67 and C68: the dump of a project and its graph. *)
From Coq Require Import String List ZArith Bool Lia ZifyBool ZifyNat.
From Verif Require Import Py Common Text Project Mqtt Client Cmqttd Cbz Toolkit Base Spec Spec_client Spec_mqtt Mqtt_facts
  Spec_cbz Cbz_facts Spec_toolkit Prop_mqtt Prop_discovery Prop_cbz.
Import ListNotations.
Open Scope Z_scope.

(** ** [int(s, 16)] *)

Lemma hex_digit_is c d : hex_is c d <-> hex_digit c = Some d.
Proof.
  unfold hex_is, hex_digit. split.
  - intros [[H ->]|[[H ->]|[H ->]]].
    + replace ((48 <=? c) && (c <=? 57)) with true by lia. reflexivity.
    + replace ((48 <=? c) && (c <=? 57)) with false by lia. replace ((65 <=? c) && (c <=? 70)) with true by lia. reflexivity.
    + replace ((48 <=? c) && (c <=? 57)) with false by lia. replace ((65 <=? c) && (c <=? 70)) with false by lia.
      replace ((97 <=? c) && (c <=? 102)) with true by lia. reflexivity.
  - destruct ((48 <=? c) && (c <=? 57)) eqn:A; [intros E; inversion E; left; lia|].
    destruct ((65 <=? c) && (c <=? 70)) eqn:B; [intros E; inversion E; right; left; lia|].
    destruct ((97 <=? c) && (c <=? 102)) eqn:C; [intros E; inversion E; right; right; lia|discriminate].
Qed.
Lemma hex_digit_char c d : hex_is c d -> 48 <= c <= 102 /\ c <> 95 /\ c <> 88.
Proof. unfold hex_is. lia. Qed.
Lemma hex_numeral_value l ds : hex_numeral l ds -> forall acc,
  hex_digits false acc l = Some (fold_left (fun x d => x * 16 + d) ds acc)
  /\ hex_digits true acc l = Some (fold_left (fun x d => x * 16 + d) ds acc).
Proof.
  induction 1 as [c d D|c d l ds D N IH|c d l ds D N IH]; intros acc; apply hex_digit_is in D; cbn [hex_digits fold_left]; rewrite D.
  - auto.
  - split; apply IH.
  - replace (hex_digit 95) with (@None Z) by reflexivity. cbn [Z.eqb Pos.eqb andb]. split; apply IH.
Qed.
Lemma hex_value_numeral l : forall acc v,
  (hex_digits false acc l = Some v -> exists ds, hex_numeral l ds /\ v = fold_left (fun x d => x * 16 + d) ds acc)
  /\ (hex_digits true acc l = Some v ->
      (l = [] /\ v = acc)
      \/ (exists ds, hex_numeral l ds /\ v = fold_left (fun x d => x * 16 + d) ds acc)
      \/ (exists l' ds, l = 95 :: l' /\ hex_numeral l' ds /\ v = fold_left (fun x d => x * 16 + d) ds acc)).
Proof.
  induction l as [|c l IH]; intros acc v; cbn [hex_digits].
  - split; [discriminate|]. intros E. inversion E. auto.
  - destruct (hex_digit c) as [d|] eqn:D.
    + apply hex_digit_is in D.
      assert (G : hex_digits true (acc * 16 + d) l = Some v ->
        exists ds, hex_numeral (c :: l) ds /\ v = fold_left (fun x d => x * 16 + d) ds acc).
      { intros E. apply IH in E. destruct E as [[-> ->]|[[ds [N ->]]|[l' [ds [-> [N ->]]]]]].
        - exists [d]. split; [now constructor|reflexivity].
        - exists (d :: ds). split; [now constructor|reflexivity].
        - exists (d :: ds). split; [now constructor|reflexivity]. }
      split; [exact G|]. intros E. right. left. now apply G.
    + destruct (c =? 95) eqn:U; cbn [andb]; [|split; discriminate].
      split; [discriminate|]. intros E. apply IH in E. destruct E as [ds [N ->]].
      right. right. assert (c = 95) by lia. subst. eauto.
Qed.
Lemma hex_chars l ds : hex_numeral l ds ->
  l <> [] /\ (exists d, hex_is (hd 0 l) d) /\ (exists d, hex_is (last l 0) d) /\ (forall c, In c l -> c <> 120 /\ c <> 88).
Proof.
  induction 1 as [c d D|c d l ds D N [IN [_ [IH F]]]|c d l ds D N [IN [_ [IH F]]]].
  - split; [discriminate|]. split; [now exists d|]. split; [now exists d|]. intros x [<-|[]]. unfold hex_is in D. lia.
  - destruct l as [|y l]; [congruence|]. split; [discriminate|]. split; [now exists d|]. split; [exact IH|].
    intros x [<-|I]; [unfold hex_is in D; lia|now apply F].
  - destruct l as [|y l]; [congruence|]. split; [discriminate|]. split; [now exists d|]. split; [exact IH|].
    intros x [<-|[<-|I]]; [unfold hex_is in D; lia|lia|now apply F].
Qed.
Lemma hex_number_if s : hex_number s =
  match s with
  | c :: x :: s' =>
      if (c =? 48) && ((x =? 120) || (x =? 88))
      then match s' with
           | y :: s'' => if y =? 95 then hex_digits false 0 s'' else hex_digits false 0 s'
           | [] => None
           end
      else hex_digits false 0 s
  | _ => hex_digits false 0 s
  end.
Proof.
  assert (U : forall s', match s' with 95 :: s'' => hex_digits false 0 s'' | _ => hex_digits false 0 s' end =
    match s' with y :: s'' => if y =? 95 then hex_digits false 0 s'' else hex_digits false 0 s' | [] => None end).
  { intros [|y s']; [reflexivity|]. destruct (y =? 95) eqn:Y; [assert (y = 95) by lia; now subst|].
    destruct y as [|q|q]; try reflexivity. repeat (destruct q as [q|q|]; try reflexivity; try discriminate). }
  destruct s as [|c [|x s']]; [reflexivity| |].
  - unfold hex_number. destruct c as [|q|q]; try reflexivity. repeat (destruct q as [q|q|]; try reflexivity).
  - destruct (c =? 48) eqn:C; cbn [andb].
    + assert (c = 48) by lia. subst c. unfold hex_number. rewrite U. reflexivity.
    + unfold hex_number. destruct c as [|q|q]; try reflexivity. repeat (destruct q as [q|q|]; try reflexivity; try discriminate).
Qed.
Lemma hex_number_spec s v : hex_number s = Some v <->
  exists prefix l ds, s = prefix ++ l /\ hex_prefix prefix /\ hex_numeral l ds /\ v = base16 ds.
Proof.
  rewrite hex_number_if. split.
  - assert (P : forall prefix l, hex_prefix prefix -> hex_digits false 0 l = Some v ->
      exists prefix' l' ds, prefix ++ l = prefix' ++ l' /\ hex_prefix prefix' /\ hex_numeral l' ds /\ v = base16 ds).
    { intros prefix l H E. apply hex_value_numeral in E. destruct E as (ds & N & ->). exists prefix, l, ds. auto. }
    destruct s as [|c [|x s']]; [discriminate|apply (P []); now left|].
    destruct ((c =? 48) && ((x =? 120) || (x =? 88))) eqn:X; [|apply (P []); now left].
    assert (Q : c = 48 /\ (x = 120 \/ x = 88)) by lia. destruct Q as [-> Q].
    destruct s' as [|y s'']; [discriminate|]. destruct (y =? 95) eqn:Y.
    + assert (y = 95) by lia. subst y. destruct Q as [-> | ->].
      * apply (P (txt "0x_") s''). unfold hex_prefix. auto.
      * apply (P (txt "0X_") s''). unfold hex_prefix. auto.
    + destruct Q as [-> | ->].
      * apply (P (txt "0x") (y :: s'')). unfold hex_prefix. auto.
      * apply (P (txt "0X") (y :: s'')). unfold hex_prefix. auto.
  - intros (prefix & l & ds & -> & P & N & ->). destruct (hex_chars l ds N) as (L & (d & H) & _ & F).
    destruct (hex_numeral_value l ds N 0) as [V _]. fold (base16 ds) in V. apply hex_digit_char in H.
    destruct P as [->|[->|[->|[->| ->]]]]; cbn [app].
    + destruct l as [|c [|x l]]; [contradiction|exact V|].
      assert (X : x <> 120 /\ x <> 88) by (apply F; right; now left).
      replace ((c =? 48) && ((x =? 120) || (x =? 88))) with false by lia. exact V.
    + change (txt "0x" ++ l) with (48 :: 120 :: l). cbn [Z.eqb Pos.eqb andb orb].
      destruct l as [|y l]; [contradiction|]. cbn [hd] in H. replace (y =? 95) with false by lia. exact V.
    + change (txt "0X" ++ l) with (48 :: 88 :: l). cbn [Z.eqb Pos.eqb andb orb].
      destruct l as [|y l]; [contradiction|]. cbn [hd] in H. replace (y =? 95) with false by lia. exact V.
    + exact V.
    + exact V.
Qed.
Lemma hex_sign s :
  match s with
  | 45 :: s' => option_map Z.opp (hex_number s')
  | 43 :: s' => hex_number s'
  | _ => hex_number s
  end = match s with
        | c :: s' => if c =? 45 then option_map Z.opp (hex_number s')
                     else if c =? 43 then hex_number s' else hex_number s
        | [] => None
        end.
Proof.
  destruct s as [|c s]; [reflexivity|].
  destruct (c =? 45) eqn:A; [assert (c = 45) by lia; now subst|].
  destruct (c =? 43) eqn:B; [assert (c = 43) by lia; now subst|].
  destruct c as [|p|p]; try reflexivity.
  repeat (destruct p as [p|p|]; try reflexivity; try discriminate).
Qed.
Theorem int16_reads u s v : py_int16_of_text u s = Ok v <-> hex_text u s v.
Proof.
  unfold py_int16_of_text. rewrite hex_sign. set (t := map (int_normalise u) s).
  split.
  - intros E. destruct (strip_split int_space t) as [a [b [T [Fa [Fb _]]]]].
    remember (strip_by int_space t) as m.
    assert (X : exists sign prefix l ds, m = sign ++ prefix ++ l /\ hex_prefix prefix /\ hex_numeral l ds
      /\ ((sign = [] /\ v = base16 ds) \/ (sign = [43] /\ v = base16 ds) \/ (sign = [45] /\ v = - base16 ds))).
    { destruct m as [|c m]; [discriminate E|].
      destruct (c =? 45) eqn:A.
      - assert (c = 45) by lia. subst c. destruct (hex_number m) as [z|] eqn:Z; [|discriminate E].
        apply hex_number_spec in Z. destruct Z as (q & l & ds & -> & Q & N & ->). inversion E; subst.
        exists [45], q, l, ds. split; [reflexivity|]. split; [exact Q|]. split; [exact N|]. right. right. split; reflexivity.
      - destruct (c =? 43) eqn:B.
        + assert (c = 43) by lia. subst c. destruct (hex_number m) as [z|] eqn:Z; [|discriminate E].
          apply hex_number_spec in Z. destruct Z as (q & l & ds & -> & Q & N & ->). inversion E; subst.
          exists [43], q, l, ds. split; [reflexivity|]. split; [exact Q|]. split; [exact N|]. right. left. split; reflexivity.
        + destruct (hex_number (c :: m)) as [z|] eqn:Z; [|discriminate E].
          apply hex_number_spec in Z. destruct Z as (q & l & ds & Zs & Q & N & ->). inversion E; subst v.
          exists [], q, l, ds. split; [exact Zs|]. split; [exact Q|]. split; [exact N|]. left. split; reflexivity. }
    destruct X as (sign & q & l & ds & M & Q & N & V).
    exists t, a, sign, q, l, ds, b. split; [now apply ascii_map|]. split; [rewrite T, M; now rewrite <- !app_assoc|].
    split; [now apply forall_blank|]. split; [now apply forall_blank|]. split; [exact Q|]. split; [exact N|exact V].
  - intros (t' & a & sign & q & l & ds & b & A & T & Fa & Fb & Q & N & V).
    apply ascii_map in A. fold t in A. subst t'. rewrite T.
    destruct (hex_chars l ds N) as (LN & (dh & LH) & (dl & LL) & LF).
    assert (DS : forall c d, hex_is c d -> int_space c = false /\ c <> 43 /\ c <> 45) by (unfold hex_is, int_space; lia).
    assert (H0 : exists c m, q ++ l = c :: m /\ int_space c = false /\ c <> 43 /\ c <> 45).
    { destruct Q as [->|[->|[->|[->| ->]]]];
        [destruct l as [|c l]; [contradiction|]; exists c, l; split; [reflexivity|apply (DS c dh LH)]| | | |];
        (eexists; eexists; split; [reflexivity|]; split; [reflexivity|split; discriminate]). }
    assert (HL : last (sign ++ q ++ l) 0 = last l 0).
    { rewrite app_assoc. destruct l as [|y l]; [contradiction|]. generalize (sign ++ q). clear.
      induction l0 as [|x l0 IH]; [reflexivity|]. cbn [app]. destruct (l0 ++ y :: l) eqn:E; [destruct l0; discriminate|]. exact IH. }
    assert (S : strip_by int_space (a ++ (sign ++ q ++ l) ++ b) = sign ++ q ++ l).
    { apply strip_is; [now apply forall_blank|now apply forall_blank|]. right. split.
      - destruct H0 as (c & m & E & H0 & _). destruct V as [[-> _]|[[-> _]|[-> _]]]; [|reflexivity|reflexivity].
        cbn [app]. rewrite E. exact H0.
      - rewrite HL. apply (DS _ dl LL). }
    replace (a ++ sign ++ q ++ l ++ b) with (a ++ (sign ++ q ++ l) ++ b) by (now rewrite <- !app_assoc).
    rewrite S.
    assert (W : hex_number (q ++ l) = Some (base16 ds)) by (apply hex_number_spec; exists q, l, ds; auto).
    destruct V as [[-> ->]|[[-> ->]|[-> ->]]]; cbn [app].
    + destruct H0 as (c & m & E & _ & X & Y). rewrite E in W |- *.
      replace (c =? 45) with false by lia. replace (c =? 43) with false by lia. now rewrite W.
    + cbn [Z.eqb Pos.eqb]. now rewrite W.
    + cbn [Z.eqb Pos.eqb]. rewrite W. reflexivity.
Qed.
Lemma channel_word_spec u w z : channel_word u w z <-> py_int16_of_text u (skipn 2 w) = Ok z.
Proof.
  rewrite int16_reads. unfold channel_word. split.
  - intros (s & [[L ->]|(a & b & ->)] & H); [|exact H]. destruct w as [|a [|b w]]; [exact H|exact H|cbn in L; lia].
  - intros H. exists (skipn 2 w). split; [|exact H]. destruct w as [|a [|b w]]; [left; cbn; split; [lia|reflexivity]..|].
    right. now exists a, b.
Qed.

(** ** Channels *)

Lemma split_words s : words s (split_space s).
Proof.
  assert (N : forall s, split_space s <> []).
  { induction s0 as [|c s0 IH]; cbn [split_space]; [discriminate|]. destruct (c =? 32); [discriminate|]. now destruct (split_space s0). }
  split; [apply N|]. induction s as [|c s [F E]]; cbn [split_space].
  - split; [repeat constructor; intros []|reflexivity].
  - specialize (N s). destruct (c =? 32) eqn:C.
    + assert (c = 32) by lia. subst c. split; [constructor; [intros []|exact F]|]. destruct (split_space s); [contradiction|].
      cbn [spaced app]. now rewrite E.
    + destruct (split_space s) as [|w ws]; [contradiction|]. apply Forall_cons_iff in F. destruct F as [F1 F2]. split.
      * constructor; [|exact F2]. intros [X|X]; [lia|contradiction].
      * rewrite E. destruct ws; reflexivity.
Qed.
Lemma words_unique s ws : words s ws -> ws = split_space s.
Proof.
  intros [N [F ->]]. assert (K : forall w r, ~ In 32 w -> split_space (w ++ 32 :: r) = w :: split_space r).
  { induction w as [|c w IH]; intros r X; [reflexivity|]. cbn [app split_space].
    destruct (c =? 32) eqn:C; [exfalso; apply X; left; lia|]. rewrite IH; [reflexivity|]. intros Y. apply X. now right. }
  assert (K0 : forall w, ~ In 32 w -> split_space w = [w]).
  { induction w as [|c w IH]; intros X; [reflexivity|]. cbn [split_space].
    destruct (c =? 32) eqn:C; [exfalso; apply X; left; lia|]. rewrite IH; [reflexivity|]. intros Y. apply X. now right. }
  induction ws as [|w ws IH]; [contradiction|]. apply Forall_cons_iff in F. destruct F as [F1 F2].
  destruct ws as [|w' ws]; [symmetry; now apply K0|]. change (spaced (w :: w' :: ws)) with (w ++ 32 :: spaced (w' :: ws)).
  rewrite K by exact F1. f_equal. apply IH; [discriminate|exact F2].
Qed.
Lemma int16_errors u s e : py_int16_of_text u s = Raise e -> e = ValueError.
Proof.
  unfold py_int16_of_text. cbv zeta.
  match goal with |- context [match ?x with Some _ => Ok _ | None => _ end] => destruct x end; [discriminate|].
  intros X. now inversion X.
Qed.
Lemma channels_spec u pps : match unit_channels u pps with
  | Ok zs => channels u pps zs
  | Raise x => exists p, In p pps /\ bad_parameter u p x
  end.
Proof.
  induction pps as [|p pps IH]; cbn [unit_channels]; [constructor|].
  assert (O : pp_name p <> Some (txt "GroupAddress") -> match unit_channels u pps with
    | Ok zs => channels u (p :: pps) zs | Raise x => exists q, In q (p :: pps) /\ bad_parameter u q x end).
  { intros N. destruct (unit_channels u pps) as [zs|x]; [now constructor|]. destruct IH as [q [I B]]. exists q. split; [now right|exact B]. }
  destruct (pp_name p) as [n|] eqn:N; [|apply O; discriminate].
  destruct (text_eqb n (txt "GroupAddress")) eqn:G.
  2:{ apply O. apply text_eqb_neq in G. congruence. }
  apply text_eqb_eq in G. subst n. destruct (pp_value p) as [s|] eqn:V.
  2:{ exists p. split; [now left|]. split; [exact N|]. now left. }
  assert (M : match map_res (fun c => py_int16_of_text u (skipn 2 c)) (split_space s) with
    | Ok cs => Forall2 (channel_word u) (split_space s) cs
    | Raise x => exists w, In w (split_space s) /\ (forall z, ~ channel_word u w z) /\ x = ValueError end).
  { induction (split_space s) as [|w ws IW]; cbn [map_res]; [constructor|].
    destruct (py_int16_of_text u (skipn 2 w)) as [z|y] eqn:E; cbn [rbind].
    - destruct (map_res (fun c => py_int16_of_text u (skipn 2 c)) ws); cbn [rbind]; [constructor; [now apply channel_word_spec|exact IW]|]. destruct IW as [w' [I R]]. exists w'. split; [now right|exact R].
    - exists w. split; [now left|]. split; [|now apply int16_errors in E]. intros z. rewrite channel_word_spec. congruence. }
  destruct (map_res (fun c => py_int16_of_text u (skipn 2 c)) (split_space s)) as [cs|x]; cbn [rbind].
  - destruct (unit_channels u pps) as [zs|x]; cbn [rbind].
    + eapply channels_group; [exact N|exact V|apply split_words|exact M|exact IH].
    + destruct IH as [q [I B]]. exists q. split; [now right|exact B].
  - destruct M as [w [I [Z ->]]]. exists p. split; [now left|]. split; [exact N|]. right. exists s, (split_space s), w.
    split; [exact V|]. split; [apply split_words|]. auto.
Qed.
Lemma channels_unique u pps a b : channels u pps a -> channels u pps b -> a = b.
Proof.
  intros A. revert b. induction A as [|p l zs N A IH|p l s ws xs zs N V W F A IH]; intros b B;
    inversion B as [|p' l' zs' N' B'|p' l' s' ws' xs' zs' N' V' W' F' B']; subst; try contradiction.
  - reflexivity.
  - now apply IH.
  - f_equal; [|now apply IH]. assert (s' = s) by congruence. subst s'. apply words_unique in W, W'. subst ws ws'.
    clear -F F'. revert xs' F'. induction F as [|w x ws xs H F IH]; intros ys G; inversion G; subst; [reflexivity|].
    f_equal; [rewrite channel_word_spec in *; congruence|now apply IH].
Qed.

(** ** Tables *)

Lemma dict_fold {A V} (key : A -> option Z) (val : A -> V) l :
  let d := fold_left (fun d x => dict_set (key x) (val x) d) l [] in
  NoDup (map fst d) /\ forall k v, In (k, v) d <-> exists x, last_such (fun y => key y = k) l x /\ v = val x.
Proof.
  cbv zeta. induction l as [|x l [N I]] using rev_ind.
  - split; [constructor|]. intros k v. split; [intros []|]. intros [x [[a [b [E _]]] _]]. destruct a; discriminate E.
  - rewrite fold_left_app. cbn [fold_left]. destruct (dict_set_in (key x) (val x) _ N) as [N' I']. split; [exact N'|].
    intros k v. rewrite I', I. split.
    + intros [[-> ->]|[K [y [[a [b [-> [Y F]]]] ->]]]].
      * exists x. split; [|reflexivity]. exists l, []. split; [reflexivity|]. split; [reflexivity|constructor].
      * exists y. split; [|reflexivity]. exists a, (b ++ [x]). split; [now rewrite <- app_assoc|]. split; [exact Y|].
        apply Forall_app. split; [exact F|]. constructor; [congruence|constructor].
    + intros [y [[a [b [E [Y F]]]] ->]]. destruct b as [|z b _] using rev_ind.
      * apply app_inj_tail in E. destruct E as [_ ->]. left. now split.
      * rewrite app_comm_cons, app_assoc in E. apply app_inj_tail in E. destruct E as [-> ->].
        apply Forall_app in F. destruct F as [F1 F2]. apply Forall_cons_iff in F2. destruct F2 as [F2 _].
        right. split; [congruence|]. exists y. split; [|reflexivity]. now exists a, b.
Qed.
Lemma key_is k : key_text k (json_key k).
Proof. destruct k; [apply py_str_decimal|reflexivity]. Qed.
Lemma decimal_number a b t : decimal a t -> decimal b t -> a = b.
Proof.
  intros [[A [_ [DA [_ VA]]]]|[A [s [-> [_ [DA [_ VA]]]]]]] [[B [_ [DB [_ VB]]]]|[B [r [E [_ [DB [_ VB]]]]]]].
  - congruence.
  - subst t. apply Forall_cons_iff in DA. destruct DA as [X _]. unfold digit in X. lia.
  - apply Forall_cons_iff in DB. destruct DB as [X _]. unfold digit in X. lia.
  - inversion E. subst r. lia.
Qed.
Lemma key_unique a b t : key_text a t -> key_text b t -> a = b.
Proof.
  assert (X : forall z, ~ decimal z (txt "null")).
  { intros z [[_ [_ [D _]]]|[_ [s [E _]]]].
    - apply Forall_cons_iff in D. destruct D as [[_ D] _]. apply D. reflexivity.
    - discriminate E. }
  destruct a as [a|], b as [b|]; cbn [key_text]; intros A B.
  - f_equal. now apply (decimal_number a b t).
  - subst t. destruct (X _ A).
  - subst t. destruct (X _ B).
  - reflexivity.
Qed.
Lemma json_keys_nodup d : NoDup (map fst d) -> NoDup (map fst (map (fun e : option Z * json => (json_key (fst e), snd e)) d)).
Proof.
  rewrite map_map. cbn [fst]. induction d as [|[k v] d IH]; intros N; [constructor|]. cbn [map fst] in *.
  apply NoDup_cons_iff in N. destruct N as [N1 N2]. constructor; [|now apply IH]. intros I. apply in_map_iff in I.
  destruct I as [[k' v'] [E I]]. cbn [fst] in E. apply N1. apply in_map_iff. exists (k', v'). split; [|exact I].
  cbn [fst]. apply (key_unique k' k (json_key k)); [rewrite <- E|]; apply key_is.
Qed.
Lemma table_fold {A} (key : A -> option Z) (val : A -> json) (shows : A -> json -> Prop) l :
  (forall x, In x l -> shows x (val x)) ->
  table key shows l (json_dict (fold_left (fun d x => dict_set (key x) (val x) d) l [])).
Proof.
  intros S. destruct (dict_fold key val l) as [N I]. set (d := fold_left _ _ _) in *. unfold json_dict, table.
  eexists. split; [reflexivity|]. split; [now apply json_keys_nodup|]. split.
  - intros x F. exists (json_key (key x)), (val x). split.
    + apply in_map_iff. exists (key x, val x). split; [reflexivity|]. apply I. now exists x.
    + split; [apply key_is|]. apply S. now apply last_such_in in F.
  - intros k v J. apply in_map_iff in J. destruct J as [[k' v'] [E J]]. cbn [fst snd] in E. inversion E. subst. apply I in J.
    destruct J as [x [F ->]]. assert (H := last_such_in _ _ _ F). destruct H as [H K]. exists x. subst k'.
    split; [exact F|]. split; [apply key_is|]. now apply S.
Qed.
Lemma at_field l k v : has l k v -> json_at (JObj l) k v.
Proof. intros H. now exists l. Qed.
Ltac at_key := apply at_field; apply jlookup_has; reflexivity.

Lemma application_shown a : shows_application a (dump_application a).
Proof.
  unfold shows_application, dump_application. split; [at_key|]. split; [at_key|]. split; [at_key|].
  eexists. split; [at_key|]. apply (table_fold g_address (fun g => json_text (g_tag_name g))). reflexivity.
Qed.

(** The channels of a unit that has them. *)
Definition chan (u : unicode) (x : cunit) : list Z := match unit_channels u (u_pp x) with Ok zs => zs | _ => [] end.
Definition sound_unit (u : unicode) (x : cunit) : Prop := exists zs, unit_channels u (u_pp x) = Ok zs.
Lemma units_spec u l : forall d, match dump_units u l d with
  | Ok d' => Forall (sound_unit u) l /\ d' = fold_left (fun d x => dict_set (u_address x) (dump_unit x (chan u x)) d) l d
  | Raise x => exists y p, In y l /\ In p (u_pp y) /\ bad_parameter u p x
  end.
Proof.
  induction l as [|x l IH]; intros d; cbn [dump_units]; [split; [constructor|reflexivity]|].
  assert (C := channels_spec u (u_pp x)). destruct (unit_channels u (u_pp x)) as [zs|e] eqn:E; cbn [rbind].
  - specialize (IH (dict_set (u_address x) (dump_unit x zs) d)). destruct (dump_units u l _) as [d'|e].
    + destruct IH as [F ->]. split; [constructor; [now exists zs|exact F]|]. cbn [fold_left]. unfold chan at 3. now rewrite E.
    + destruct IH as [y [p [I B]]]. exists y, p. split; [now right|exact B].
  - destruct C as [p [I B]]. exists x, p. split; [now left|]. auto.
Qed.
Definition net_units (u : unicode) (n : network) : list (option Z * json) :=
  fold_left (fun d x => dict_set (u_address x) (dump_unit x (chan u x)) d) (n_units n) [].
Lemma networks_dump u l : forall d, match dump_networks u l d with
  | Ok d' => Forall (fun n => Forall (sound_unit u) (n_units n)) l
      /\ d' = fold_left (fun d n => dict_set (n_address n) (dump_network n (net_units u n)) d) l d
  | Raise x => exists n y p, In n l /\ In y (n_units n) /\ In p (u_pp y) /\ bad_parameter u p x
  end.
Proof.
  induction l as [|n l IH]; intros d; cbn [dump_networks]; [split; [constructor|reflexivity]|].
  assert (C := units_spec u (n_units n) []). destruct (dump_units u (n_units n) []) as [us|e]; cbn [rbind].
  - destruct C as [F ->]. specialize (IH (dict_set (n_address n) (dump_network n (net_units u n)) d)).
    unfold net_units in IH at 1. destruct (dump_networks u l _) as [d'|e].
    + destruct IH as [G ->]. split; [now constructor|]. reflexivity.
    + destruct IH as [m [y [p [I B]]]]. exists m, y, p. split; [now right|exact B].
  - destruct C as [y [p [I B]]]. exists n, y, p. split; [now left|]. auto.
Qed.
Lemma unit_shown u x : sound_unit u x -> shows_unit u x (dump_unit x (chan u x)).
Proof.
  intros [zs E]. unfold shows_unit, dump_unit, chan. rewrite E. repeat (split; [at_key|]). exists zs. split; [|at_key].
  assert (C := channels_spec u (u_pp x)). now rewrite E in C.
Qed.
Lemma network_shown u n : Forall (sound_unit u) (n_units n) -> shows_network u n (dump_network n (net_units u n)).
Proof.
  intros F. unfold shows_network, dump_network. repeat (split; [at_key|]). split.
  - eexists. split; [at_key|]. apply (table_fold a_address dump_application). intros a _. apply application_shown.
  - eexists. split; [at_key|]. apply (table_fold u_address (fun x => dump_unit x (chan u x))). intros x I.
    apply unit_shown. rewrite Forall_forall in F. now apply F.
Qed.

(** The dump has one entry per network address, and in it one per application,
    group and unit address, for the last of those with that address.  It fails
    only for a GroupAddress parameter without value or with a word that is not
    hexadecimal. *)
Theorem C67_dump : forall u ns, match dump_labels u ns with
  | Ok j => table n_address (shows_network u) ns j
  | Raise x => exists n y p, In n ns /\ In y (n_units n) /\ In p (u_pp y) /\ bad_parameter u p x
  end.
Proof.
  intros u ns. unfold dump_labels. assert (N := networks_dump u ns []). destruct (dump_networks u ns []) as [d|x]; cbn [rbind]; [|exact N].
  destruct N as [F ->]. apply (table_fold n_address (fun n => dump_network n (net_units u n))). intros n I. apply network_shown.
  rewrite Forall_forall in F. now apply F.
Qed.
Print Assumptions C67_dump.
(** Such a parameter does make it fail. *)
Theorem C67_bad : forall u ns n y p x, In n ns -> In y (n_units n) -> In p (u_pp y) -> bad_parameter u p x ->
  exists x', dump_labels u ns = Raise x'.
Proof.
  intros u ns n y p x I J K B. unfold dump_labels. assert (N := networks_dump u ns []).
  destruct (dump_networks u ns []) as [d|x']; cbn [rbind]; [|now exists x']. exfalso. destruct N as [F _].
  rewrite Forall_forall in F. specialize (F n I). rewrite Forall_forall in F. destruct (F y J) as [zs E].
  assert (C := channels_spec u (u_pp y)). rewrite E in C. clear -C K B. destruct B as [N B].
  induction C as [|q l zs' M C IH|q l s ws xs zs' M V W G C IH]; [destruct K| |].
  - destruct K as [-> |K]; [contradiction|now apply IH].
  - destruct K as [-> |K]; [|now apply IH]. destruct B as [[B _]|[s' [ws' [w [V' [W' [I [B _]]]]]]]]; [congruence|].
    assert (s' = s) by congruence. subst s'. apply words_unique in W, W'. subst ws ws'.
    clear -G I B. induction G as [|v x ws xs H G IH]; [destruct I|]. destruct I as [-> |I]; [now apply (B x)|now apply IH].
Qed.
Print Assumptions C67_bad.

(** Words of the form 0x.. (any two characters before the digits) stand for the
    number their hexadecimal digits spell. *)
Theorem C67_hex : forall u a b cs ds, cs <> [] -> Forall2 hex_is cs ds -> channel_word u (a :: b :: cs) (base16 ds).
Proof.
  intros u a b cs ds N F. exists cs. split; [right; now exists a, b|].
  exists cs, [], [], [], cs, ds, []. cbn [app]. rewrite app_nil_r.
  assert (M : hex_numeral cs ds).
  { clear a b. induction F as [|c d cs ds H F IH]; [contradiction|]. destruct F as [|c' d' cs ds H' F].
    - now constructor.
    - constructor; [exact H|]. apply IH. discriminate. }
  split.
  - apply ascii_map. clear N M. induction F as [|c d cs ds H F IH]; [reflexivity|]. cbn [map]. rewrite <- IH. f_equal.
    unfold int_normalise. apply hex_digit_char in H. replace (c <? 127) with true by lia. reflexivity.
  - split; [reflexivity|]. split; [constructor|]. split; [constructor|]. split; [now left|]. split; [exact M|]. now left.
Qed.
Print Assumptions C67_hex.

Example C67_case :
  let pp n v := mkParameter (Some (txt n)) (Some (txt v)) in
  let x := mkUnit (Some (txt "Dimmer")) (Some 7) None None None None
             [pp "Colour" "red"; pp "GroupAddress" "0x20 0xFf"; pp "GroupAddress" "0x1_0"]%string in
  let app n := mkApplication (Some 56) (Some (txt n)) None [mkGroup (Some 1) (Some (txt "a")); mkGroup None None; mkGroup (Some 1) (Some (txt "b"))] in
  let net n := mkNetwork (Some 254) (Some (txt n)) None None [app "one"; app "two"]%string [x] in
  let first := JObj [(txt "name", JStr (txt "last")); (txt "address", JNum (PInt 254)); (txt "networknumber", JNull);
    (txt "applications", JObj [(txt "56", JObj [(txt "name", JStr (txt "two")); (txt "address", JNum (PInt 56)); (txt "description", JNull);
       (txt "groups", JObj [(txt "1", JStr (txt "b")); (txt "null", JNull)])])]);
    (txt "units", JObj [(txt "7", JObj [(txt "name", JStr (txt "Dimmer")); (txt "address", JNum (PInt 7)); (txt "unittype", JNull);
       (txt "unitname", JNull); (txt "serial", JNull); (txt "catalog", JNull);
       (txt "groups", JArr [JNum (PInt 32); JNum (PInt 255); JNum (PInt 16)])])])] in
  dump_labels plain_unicode [net "first"; net "last"]%string = Ok (JObj [(txt "254", first)])
  /\ unit_channels plain_unicode [pp "GroupAddress" "0x20 "]%string = Raise ValueError
  /\ unit_channels plain_unicode [mkParameter (Some (txt "GroupAddress")) None] = Raise AttributeError.
Proof. vm_compute. repeat split. Qed.

(** ** C68 *)

Lemma map_res_ok {A B} (f : A -> res B) l : (forall a, In a l -> exists b, f a = Ok b) ->
  exists bs, map_res f l = Ok bs /\ Forall2 (fun a b => f a = Ok b) l bs.
Proof.
  induction l as [|a l IH]; intros H; [exists []; split; constructor|].
  destruct (H a (or_introl eq_refl)) as [b E]. destruct IH as [bs [M F]]; [intros a' I; apply H; now right|].
  exists (b :: bs). cbn [map_res]. rewrite E. cbn [rbind]. rewrite M. split; [reflexivity|now constructor].
Qed.
Lemma Forall2_left {A B} (R : A -> B -> Prop) l m : Forall2 R l m -> forall a, In a l -> exists b, In b m /\ R a b.
Proof.
  induction 1 as [|a b l m H F IH]; intros x I; [destruct I|]. destruct I as [<-|I]; [exists b; split; [now left|exact H]|].
  destruct (IH x I) as [y [J Q]]. exists y. split; [now right|exact Q].
Qed.
Lemma Forall2_right {A B} (R : A -> B -> Prop) l m : Forall2 R l m -> forall b, In b m -> exists a, In a l /\ R a b.
Proof.
  induction 1 as [|a b l m H F IH]; intros x I; [destruct I|]. destruct I as [<-|I]; [exists a; split; [now left|exact H]|].
  destruct (IH x I) as [y [J Q]]. exists y. split; [now right|exact Q].
Qed.
Lemma ints_read zs : jints (JArr (map (fun z => JNum (PInt z)) zs)) = Ok zs.
Proof. cbn [jints]. induction zs as [|z zs IH]; [reflexivity|]. cbn [map map_res rbind]. rewrite IH. reflexivity. Qed.
Lemma unit_graph x zs : graph_unit (dump_unit x zs) =
  Ok (json_text (u_tag_name x), zs, map (fun z => (json_text (u_tag_name x), ga_node z)) (filter (fun z => negb (z =? 255)) zs)).
Proof.
  unfold graph_unit. change (jindex (dump_unit x zs) (txt "name")) with (@Ok json (json_text (u_tag_name x))).
  change (jindex (dump_unit x zs) (txt "groups")) with (@Ok json (JArr (map (fun z => JNum (PInt z)) zs))). cbn [rbind].
  rewrite ints_read. reflexivity.
Qed.
Lemma ga_node_is z j : group_node z j <-> j = ga_node z.
Proof.
  unfold group_node, ga_node. split.
  - intros [d [D ->]]. now rewrite (decimal_unique z d (py_str z) D (py_str_decimal z)).
  - intros ->. exists (py_str z). split; [apply py_str_decimal|reflexivity].
Qed.
Lemma sound_channels u x zs : sound_unit u x -> channels u (u_pp x) zs <-> zs = chan u x.
Proof.
  intros [ys E]. assert (C := channels_spec u (u_pp x)). unfold chan. rewrite E in *. split; [|now intros ->].
  intros D. now apply (channels_unique u (u_pp x)).
Qed.
Lemma network_graph u n : Forall (sound_unit u) (n_units n) ->
  exists g, graph_network (json_key (n_address n), dump_network n (net_units u n)) = Ok g /\ graph_of u n g.
Proof.
  intros S. rewrite Forall_forall in S. unfold graph_network. cbn [fst snd].
  change (jindex (dump_network n (net_units u n)) (txt "units")) with (Ok (json_dict (net_units u n))). cbn [rbind].
  cbn [jitems json_dict rbind]. destruct (dict_fold u_address (fun x => dump_unit x (chan u x)) (n_units n)) as [_ D].
  fold (net_units u n) in D. set (items := map _ (net_units u n)).
  assert (I : forall k v, In (k, v) items -> exists x, final u_address (n_units n) x /\ v = dump_unit x (chan u x)).
  { intros k v J. apply in_map_iff in J. destruct J as [[k' v'] [E J]]. cbn [fst snd] in E. inversion E. subst. apply D in J.
    destruct J as [x [L ->]]. exists x. split; [|reflexivity]. assert (K := proj2 (last_such_in _ _ _ L)). subst k'. exact L. }
  assert (I' : forall x, final u_address (n_units n) x -> exists k, In (k, dump_unit x (chan u x)) items).
  { intros x L. exists (json_key (u_address x)). apply in_map_iff. exists (u_address x, dump_unit x (chan u x)). split; [reflexivity|].
    apply D. now exists x. }
  destruct (map_res_ok (fun i : text * json => graph_unit (snd i)) items) as [l [M F]].
  { intros [k v] J. destruct (I k v J) as [x [_ ->]]. cbn [snd]. rewrite unit_graph. now eexists. }
  rewrite M. cbn [rbind]. eexists. split; [reflexivity|].
  assert (L1 : forall y, In y l -> exists x, final u_address (n_units n) x /\ y =
    (json_text (u_tag_name x), chan u x, map (fun z => (json_text (u_tag_name x), ga_node z)) (filter (fun z => negb (z =? 255)) (chan u x)))).
  { intros y J. destruct (Forall2_right _ _ _ F y J) as [[k v] [K E]]. destruct (I k v K) as [x [L ->]]. exists x. split; [exact L|].
    cbn [snd] in E. rewrite unit_graph in E. now inversion E. }
  assert (L2 : forall x, final u_address (n_units n) x -> In
    (json_text (u_tag_name x), chan u x, map (fun z => (json_text (u_tag_name x), ga_node z)) (filter (fun z => negb (z =? 255)) (chan u x))) l).
  { intros x L. destruct (I' x L) as [k K]. destruct (Forall2_left _ _ _ F _ K) as [y [J E]]. cbn [snd] in E. rewrite unit_graph in E.
    inversion E. now subst. }
  assert (C : forall x z, controls u n x z <-> final u_address (n_units n) x /\ In z (chan u x)).
  { intros x z. unfold controls. split.
    - intros [L [zs [Z J]]]. split; [exact L|]. apply sound_channels in Z; [now subst|]. apply S. now apply last_such_in in L.
    - intros [L J]. split; [exact L|]. exists (chan u x). split; [|exact J]. apply sound_channels; [|reflexivity].
      apply S. now apply last_such_in in L. }
  split; [|split]; cbn [sg_name sg_nodes sg_edges].
  - exists (json_key (n_address n)). split; [apply key_is|reflexivity].
  - intros j. rewrite in_app_iff, !in_map_iff. split.
    + intros [[y [<- J]]|[z [<- J]]].
      * destruct (L1 y J) as [x [L ->]]. left. exists x. split; [exact L|reflexivity].
      * apply nodup_In in J. apply in_flat_map in J. destruct J as [y [J K]]. destruct (L1 y J) as [x [L ->]]. cbn [fst snd] in K.
        right. exists x, z. split; [apply C; now split|]. now apply ga_node_is.
    + intros [[x [L ->]]|[x [z [K G]]]].
      * left. eexists. split; [|exact (L2 x L)]. reflexivity.
      * right. apply C in K. destruct K as [L K]. exists z. apply ga_node_is in G. split; [now symmetry|]. apply nodup_In.
        apply in_flat_map. eexists. split; [exact (L2 x L)|]. exact K.
  - intros a b. rewrite in_flat_map. split.
    + intros [y [J K]]. destruct (L1 y J) as [x [L ->]]. cbn [snd] in K. apply in_map_iff in K. destruct K as [z [E K]].
      apply filter_In in K. destruct K as [K Z]. inversion E. subst. exists x, z. split; [apply C; now split|].
      split; [lia|]. split; [reflexivity|]. now apply ga_node_is.
    + intros [x [z [K [Z [-> G]]]]]. apply C in K. destruct K as [L K]. apply ga_node_is in G. subst b.
      eexists. split; [exact (L2 x L)|]. cbn [snd]. apply in_map_iff. exists z. split; [reflexivity|]. apply filter_In. split; [exact K|lia].
Qed.

(** The graph of a dump has one subgraph per network address: a node for every
    unit and every group address one of them has as a channel, and an edge from
    a unit to each of its channels except 255. *)
Theorem C68_graph : forall u ns j, dump_labels u ns = Ok j ->
  exists gs, generate_graph j = Ok gs
    /\ (forall n, final n_address ns n -> exists g, In g gs /\ graph_of u n g)
    /\ (forall g, In g gs -> exists n, final n_address ns n /\ graph_of u n g).
Proof.
  intros u ns j. unfold dump_labels. assert (N := networks_dump u ns []). destruct (dump_networks u ns []) as [d|x]; cbn [rbind]; [|discriminate].
  destruct N as [S ->]. intros E. inversion E as [E']. clear E. subst j. rewrite Forall_forall in S. unfold generate_graph. cbn [jitems json_dict rbind].
  destruct (dict_fold n_address (fun n => dump_network n (net_units u n)) ns) as [_ D]. set (d := fold_left _ _ _) in *. set (items := map _ d).
  assert (G : forall n, final n_address ns n ->
    exists g, graph_network (json_key (n_address n), dump_network n (net_units u n)) = Ok g /\ graph_of u n g).
  { intros n L. apply network_graph. apply S. now apply last_such_in in L. }
  assert (I : forall k v, In (k, v) items -> exists n, final n_address ns n /\ k = json_key (n_address n) /\ v = dump_network n (net_units u n)).
  { intros k v J. apply in_map_iff in J. destruct J as [[k' v'] [E J]]. cbn [fst snd] in E. inversion E. subst. apply D in J.
    destruct J as [n [L ->]]. assert (K := proj2 (last_such_in _ _ _ L)). subst k'. exists n. split; [exact L|]. now split. }
  destruct (map_res_ok graph_network items) as [gs [M F]].
  { intros [k v] J. destruct (I k v J) as [n [L [-> ->]]]. destruct (G n L) as [g [E _]]. now exists g. }
  exists gs. split; [exact M|]. split.
  - intros n L. assert (J : In (json_key (n_address n), dump_network n (net_units u n)) items).
    { apply in_map_iff. exists (n_address n, dump_network n (net_units u n)). split; [reflexivity|]. apply D. now exists n. }
    destruct (Forall2_left _ _ _ F _ J) as [g [K E]]. exists g. split; [exact K|]. destruct (G n L) as [g' [E' Q]]. congruence.
  - intros g J. destruct (Forall2_right _ _ _ F g J) as [[k v] [K E]]. destruct (I k v K) as [n [L [-> ->]]]. exists n. split; [exact L|].
    destruct (G n L) as [g' [E' Q]]. congruence.
Qed.
Print Assumptions C68_graph.

(** The unused channel 255 is a node, without edges. *)
Theorem C68_unused : forall u n g a, graph_of u n g -> ~ In (a, JStr (txt "GA 255")) (sg_edges g).
Proof.
  intros u n g a [_ [_ H]] I. apply H in I. destruct I as [x [z [_ [Z [_ [d [D E]]]]]]]. inversion E as [E']. apply Z.
  subst d.
  apply (decimal_number z 255 (txt "255") D). exact (py_str_decimal 255).
Qed.
Print Assumptions C68_unused.

(** Any JSON document of the documented shape is drawn, one subgraph per network
    in the order of the document; one with a missing part is not. *)
Lemma jindex_at j k v : jindex j k = Ok v <-> json_at j k v.
Proof.
  unfold json_at. destruct j; cbn [jindex]; try (split; [discriminate|intros (l' & E & _); discriminate]).
  destruct (jlookup k l) as [w|] eqn:E.
  - split; [intros H; injection H as <-; exists l; split; [reflexivity|now apply jlookup_has]|].
    intros (l' & H & K). injection H as <-. apply jlookup_has in K. congruence.
  - split; [discriminate|]. intros (l' & H & K). injection H as <-. apply jlookup_has in K. congruence.
Qed.
Lemma jindex_none j k : (forall v, ~ json_at j k v) -> exists e, jindex j k = Raise e.
Proof. intros N. destruct (jindex j k) as [v|e] eqn:E; [|eauto]. exfalso. apply (N v), jindex_at, E. Qed.
Lemma map_res_raise {A B} (f : A -> res B) l a e : In a l -> f a = Raise e -> exists e', map_res f l = Raise e'.
Proof.
  induction l as [|b l IH]; intros I E; [destruct I|]. cbn [map_res].
  destruct (f b) as [y|e1] eqn:Eb; cbn [rbind]; [|eauto]. destruct I as [->|I]; [congruence|].
  destruct (IH I E) as [e' ->]. cbn. eauto.
Qed.
Lemma bad_groups_raise v : bad_groups v -> exists e, jints v = Raise e.
Proof.
  intros [|b|n|l x I K]; cbn [jints]; eauto. apply (map_res_raise _ l x TypeError I).
  destruct K as [(m & ->)|(m & ->)]; reflexivity.
Qed.
Lemma bad_unit_raise j : bad_unit j -> exists e, graph_unit j = Raise e.
Proof.
  intros B. unfold graph_unit. destruct (jindex j (txt "name")) as [n|] eqn:N; cbn [rbind]; [|eauto].
  destruct (jindex j (txt "groups")) as [g|] eqn:G; cbn [rbind]; [|eauto].
  destruct B as [B|[B|(v & H & B)]].
  - exfalso. apply (B n), jindex_at, N.
  - exfalso. apply (B g), jindex_at, G.
  - apply jindex_at in H. assert (v = g) by congruence. subst v. destruct (bad_groups_raise g B) as [e ->]. cbn. eauto.
Qed.
Lemma readable_unit_graph j name zs : readable_unit j name zs -> graph_unit j =
  Ok (name, zs, map (fun x => (name, ga_node x)) (filter (fun x => negb (x =? 255)) zs)).
Proof.
  intros (N & G). apply jindex_at in N. apply jindex_at in G. unfold graph_unit. rewrite N. cbn [rbind]. rewrite G.
  cbn [rbind]. rewrite ints_read. reflexivity.
Qed.
Lemma group_node_is z x : group_node z x <-> x = ga_node z.
Proof.
  unfold group_node, ga_node. split.
  - intros [d [D ->]]. now rewrite (decimal_unique z d (py_str z) D (py_str_decimal z)).
  - intros ->. exists (py_str z). split; [apply py_str_decimal|reflexivity].
Qed.
Lemma ga_node_inj a b : ga_node a = ga_node b -> a = b.
Proof.
  intros E. unfold ga_node in E. inversion E as [E'].
  apply (decimal_number a b (py_str a)); [apply py_str_decimal|]. rewrite E'. apply py_str_decimal.
Qed.
Lemma nodup_map_inj {A B} (f : A -> B) l : (forall a b, f a = f b -> a = b) -> NoDup l -> NoDup (map f l).
Proof.
  intros J. induction 1 as [|a l N D IH]; cbn [map]; constructor; [|exact IH].
  intros I. apply in_map_iff in I. destruct I as (b & E & I). apply J in E. subst b. contradiction.
Qed.
Lemma readable_network_graph k j : readable_network j -> exists g, graph_network (k, j) = Ok g /\ network_drawn k j g.
Proof.
  intros (us & U & R). unfold graph_network. cbn [fst snd]. pose proof U as U'. apply jindex_at in U'. rewrite U'.
  cbn [rbind jitems].
  assert (P : exists parts, Forall2 (fun u p => readable_unit (snd u) (fst p) (snd p)) us parts
    /\ map_res (fun i : text * json => graph_unit (snd i)) us
       = Ok (map (fun p : json * list Z => (fst p, snd p,
              map (fun x => (fst p, ga_node x)) (filter (fun x => negb (x =? 255)) (snd p)))) parts)).
  { clear U U'. induction us as [|u us IH]; [exists []; split; [constructor|reflexivity]|].
    destruct (R u (or_introl eq_refl)) as (n & zs & Q).
    destruct IH as (parts & F & M); [intros v I; apply R; right; exact I|].
    exists ((n, zs) :: parts). split; [constructor; assumption|]. cbn [map_res map fst snd].
    rewrite (readable_unit_graph _ _ _ Q). cbn [rbind]. rewrite M. reflexivity. }
  destruct P as (parts & F & M). rewrite M. cbn [rbind]. eexists. split; [reflexivity|].
  set (ps := map _ parts).
  assert (Gz : forall z, In z (nodup Z.eq_dec (flat_map (fun x : json * list Z * list (json * json) => snd (fst x)) ps))
                 <-> exists p, In p parts /\ In z (snd p)).
  { intros z. rewrite nodup_In, in_flat_map. unfold ps. split.
    - intros (x & I & J). apply in_map_iff in I. destruct I as (p & <- & I). exists p. auto.
    - intros (p & I & J). eexists. split; [apply in_map_iff; exists p; split; [reflexivity|exact I]|exact J]. }
  exists us, parts, (map ga_node (nodup Z.eq_dec (flat_map (fun x : json * list Z * list (json * json) => snd (fst x)) ps))).
  cbn [sg_name sg_nodes sg_edges]. split; [exact U|]. split; [exact F|]. split; [reflexivity|].
  split; [f_equal; unfold ps; rewrite map_map; reflexivity|].
  split; [apply nodup_map_inj; [exact ga_node_inj|apply NoDup_nodup]|]. split.
  - intros x. rewrite in_map_iff. split.
    + intros (z & <- & I). apply Gz in I. destruct I as (p & I & J). exists p, z. rewrite group_node_is. auto.
    + intros (p & z & I & J & K). apply group_node_is in K. subst x. exists z. split; [reflexivity|]. apply Gz. eauto.
  - intros a b. rewrite in_flat_map. unfold ps. split.
    + intros (x & I & J). apply in_map_iff in I. destruct I as (p & <- & I). cbn [snd] in J.
      apply in_map_iff in J. destruct J as (z & E & J). inversion E; subst. apply filter_In in J. destruct J as (J & N).
      exists p, z. rewrite group_node_is. repeat split; auto. destruct (Z.eqb_spec z 255); [discriminate|assumption].
    + intros (p & z & I & J & N & -> & K). apply group_node_is in K. subst b.
      eexists. split; [apply in_map_iff; exists p; split; [reflexivity|exact I]|]. cbn [snd].
      apply in_map_iff. exists z. split; [reflexivity|]. apply filter_In. split; [exact J|].
      destruct (Z.eqb_spec z 255); [contradiction|reflexivity].
Qed.
Theorem C68_document : forall nets, (forall k j, In (k, j) nets -> readable_network j) ->
  exists gs, generate_graph (JObj nets) = Ok gs /\ Forall2 (fun n g => network_drawn (fst n) (snd n) g) nets gs.
Proof.
  intros nets R. unfold generate_graph. cbn [jitems rbind]. induction nets as [|[k j] nets IH].
  { exists []. split; [reflexivity|constructor]. }
  destruct (readable_network_graph k j (R k j (or_introl eq_refl))) as (g & G & D).
  destruct IH as (gs & M & F); [intros k' j' I; apply (R k' j'); right; exact I|].
  exists (g :: gs). cbn [map_res]. rewrite G. cbn [rbind]. rewrite M. split; [reflexivity|]. constructor; [exact D|exact F].
Qed.
Print Assumptions C68_document.

Theorem C68_incomplete : forall j,
  (forall l, j <> JObj l) \/ (exists l n, j = JObj l /\ In n l /\ bad_network (snd n)) ->
  exists e, generate_graph j = Raise e.
Proof.
  intros j [N|(l & [k v] & -> & I & B)].
  { destruct j; cbn; eauto. exfalso. apply (N l). reflexivity. }
  unfold generate_graph. cbn [jitems rbind].
  assert (E : exists e, graph_network (k, v) = Raise e).
  { unfold graph_network. cbn [fst snd] in *.
    destruct (jindex v (txt "units")) as [us|] eqn:U; cbn [rbind]; [|eauto].
    destruct (jitems us) as [its|] eqn:It; cbn [rbind]; [|eauto].
    destruct us; cbn in It; try discriminate. injection It as <-. apply jindex_at in U.
    destruct B as [B|(us & u & U' & Iu & B)]; [exfalso; exact (B _ U)|].
    apply jindex_at in U. apply jindex_at in U'. assert (l0 = us) by congruence. subst l0.
    destruct (bad_unit_raise _ B) as [e Eu].
    destruct (map_res_raise (fun i : text * json => graph_unit (snd i)) us u e Iu Eu) as [e' ->]. cbn. eauto. }
  destruct E as [e E]. exact (map_res_raise graph_network l (k, v) e I E).
Qed.
Print Assumptions C68_incomplete.

(** A document by hand with two networks, and the same with a unit that has no
    groups. *)
Example C68_document_case :
  let unit n g := JObj [(txt "groups", JArr g); (txt "name", JStr (txt n))] in
  let n i := JNum (PInt i) in
  let net us := JObj [(txt "units", JObj us)] in
  let good := net [(txt "1", unit "Dimmer"%string [n 7; n 255; n 7]); (txt "2", unit "Key"%string [n 7])] in
  let bad := net [(txt "1", JObj [(txt "name", JStr (txt "Key"))])] in
  readable_network good /\ bad_network bad
  /\ generate_graph (JObj [(txt "254", good); (txt "wired", net [])])
     = Ok [mkSubgraph (txt "Network_254") [JStr (txt "Dimmer"); JStr (txt "Key"); JStr (txt "GA 255"); JStr (txt "GA 7")]
             [(JStr (txt "Dimmer"), JStr (txt "GA 7")); (JStr (txt "Dimmer"), JStr (txt "GA 7"));
              (JStr (txt "Key"), JStr (txt "GA 7"))];
           mkSubgraph (txt "Network_wired") [] []]
  /\ generate_graph (JObj [(txt "254", good); (txt "wired", bad)]) = Raise KeyError.
Proof.
  cbv zeta. split; [|split; [|split; vm_compute; reflexivity]].
  - eexists. split; [apply jindex_at; vm_compute; reflexivity|]. intros u [<-|[<-|[]]]; cbn [snd]; do 2 eexists; split;
      apply jindex_at; [vm_compute; reflexivity|instantiate (1 := [7; 255; 7]); vm_compute; reflexivity|vm_compute; reflexivity|instantiate (1 := [7]); vm_compute; reflexivity].
  - right. eexists. eexists. split; [apply jindex_at; vm_compute; reflexivity|]. split; [left; reflexivity|].
    right. left. intros v H. apply jindex_at in H. vm_compute in H. discriminate.
Qed.

Example C68_case :
  let x n a v := mkUnit (Some (txt n)) (Some a) None None None None [mkParameter (Some (txt "GroupAddress")) (Some (txt v))] in
  let net := mkNetwork (Some 254) None None None [] [x "old" 1 "0x05"; x "Dimmer" 1 "0x20 0xFF"; x "Key" 2 "0x20"]%string in
  match dump_labels plain_unicode [net] with
  | Ok j => generate_graph j = Ok [mkSubgraph (txt "Network_254")
      [JStr (txt "Dimmer"); JStr (txt "Key"); JStr (txt "GA 255"); JStr (txt "GA 32")]
      [(JStr (txt "Dimmer"), JStr (txt "GA 32")); (JStr (txt "Key"), JStr (txt "GA 32"))]]
  | Raise _ => False
  end.
Proof. vm_compute. reflexivity. Qed.
