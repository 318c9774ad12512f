(** Lemmas on Sal.v. *)
From Coq Require Import List ZArith QArith Qround Bool Lia ZifyBool ZifyNat.
From Verif Require Import Py Common Sal Base Spec Common_facts.
Import ListNotations.
Open Scope Z_scope.
Ltac Zify.zify_post_hook ::= Z.div_mod_to_equations.

Lemma check_ga_ok ga : 0 <= ga <= 255 -> check_ga ga = Ok tt.
Proof.
  intros H. unfold check_ga, validate_ga, MIN_GROUP_ADDR, MAX_GROUP_ADDR.
  replace ((0 <=? ga) && (ga <=? 255)) with true by lia. reflexivity.
Qed.
Lemma check_ga_bad ga : ~ 0 <= ga <= 255 -> check_ga ga = Raise ValueError.
Proof.
  intros H. unfold check_ga, validate_ga, MIN_GROUP_ADDR, MAX_GROUP_ADDR.
  replace ((0 <=? ga) && (ga <=? 255)) with false by lia. reflexivity.
Qed.

(** Concatenated encodings, decoded one by one. *)
Lemma concat_res_app {A} (enc : A -> res bytes) l1 l2 b1 b2 :
  concat_res enc l1 = Ok b1 -> concat_res enc l2 = Ok b2 -> concat_res enc (l1 ++ l2) = Ok (b1 ++ b2).
Proof.
  revert b1. induction l1 as [|a l1 IH]; cbn [concat_res app]; intros b1 H1 H2.
  - inversion H1. assumption.
  - destruct (enc a) as [x|]; [|discriminate]. cbn [rbind] in *.
    destruct (concat_res enc l1) as [y|]; [|discriminate]. cbn [rbind] in *.
    rewrite (IH y eq_refl H2). cbn [rbind]. inversion H1. now rewrite app_assoc.
Qed.

(** ** Lighting *)

Lemma ramp_rate_cases c d : is_ramp_rate c d -> byte c /\ c <> LC_ON /\ c <> LC_OFF /\ c <> LC_TERMINATE_RAMP.
Proof.
  intros [i [Hi [-> _]]]. unfold ramp_rate_code, byte, LC_ON, LC_OFF, LC_TERMINATE_RAMP. lia.
Qed.

Lemma ramp_codes c : mem c (map fst LIGHT_RAMP_RATES) = true <-> exists d, is_ramp_rate c d.
Proof.
  rewrite mem_spec, in_map_iff. split.
  - intros [[a b] [E H]]. simpl in E. subst. exists b. now apply rates_spec.
  - intros [d H]. exists (c, d). split; [reflexivity|]. now apply rates_spec.
Qed.

Lemma handler_ramp c d : is_ramp_rate c d -> light_handler_of c = Some HRamp.
Proof.
  intros H. destruct (ramp_rate_cases c d H) as [_ [H1 [H2 H3]]].
  unfold light_handler_of.
  rewrite (proj2 (Z.eqb_neq _ _) H1), (proj2 (Z.eqb_neq _ _) H2), (proj2 (Z.eqb_neq _ _) H3).
  now rewrite (proj2 (ramp_codes c) (ex_intro _ d H)).
Qed.

Lemma handler_cases c : match light_handler_of c with
  | Some HOn => c = LC_ON
  | Some HOff => c = LC_OFF
  | Some HTerminate => c = LC_TERMINATE_RAMP
  | Some HRamp => exists d, is_ramp_rate c d
  | None => ~ light_code c
  end.
Proof.
  unfold light_handler_of.
  destruct (c =? LC_ON) eqn:E1; [lia|]. destruct (c =? LC_OFF) eqn:E2; [lia|].
  destruct (c =? LC_TERMINATE_RAMP) eqn:E3; [lia|].
  destruct (mem c (map fst LIGHT_RAMP_RATES)) eqn:E4; [now apply ramp_codes|].
  unfold light_code, LC_ON, LC_OFF, LC_TERMINATE_RAMP in *.
  intros [H|[H|[H|H]]]; try lia. apply ramp_codes in H. congruence.
Qed.

Lemma mk_bytes_num_ok l : is_bytes l -> mk_bytes_num (map PInt l) = Ok l.
Proof.
  induction l as [|a l IH]; intros H; [reflexivity|].
  apply is_bytes_cons in H. destruct H as [Ha Hl].
  cbn [map mk_bytes_num byte_of_num].
  rewrite (proj2 (byteb_spec a) Ha). cbn [rbind]. now rewrite IH.
Qed.

Lemma ramp_encode_ok ga d level : 0 <= ga <= 255 -> 0 <= level <= 255 ->
  light_ramp_encode ga d (PInt level) = Ok [duration_to_ramp_rate d; ga; level].
Proof.
  intros Hg Hl. unfold light_ramp_encode. cbn [num_ltb num_gtb].
  replace ((level <? 0) || (255 <? level)) with false by lia.
  rewrite check_ga_ok by assumption. cbn [rbind].
  apply (mk_bytes_num_ok [duration_to_ramp_rate d; ga; level]).
  destruct (rounds_to_exists d) as [d' Hd]. apply duration_to_rate_spec in Hd.
  byte_list; unfold byte; try lia. apply (ramp_rate_cases _ _ Hd).
Qed.
Lemma simple_encode_ok code ga : 0 <= ga <= 255 -> byte code ->
  light_simple_encode code ga = Ok [code; ga].
Proof.
  intros Hg Hc. unfold light_simple_encode. rewrite check_ga_ok by assumption. cbn [rbind].
  apply mk_bytes_ok. byte_list; unfold byte in *; lia.
Qed.

(** One encoded lighting command at the head of the data. *)
Lemma light_step s s' : valid_light s -> light_received s s' ->
  exists b, sal_encode s = Ok b /\ is_bytes b /\
    forall rest, decode_lighting (b ++ rest) = wmap (cons s') (decode_lighting rest).
Proof.
  intros Hv Hr. destruct Hr as [ga|ga|ga|ga sec d level Hd]; cbn [valid_light sal_encode] in *.
  - exists [LC_ON; ga]. rewrite simple_encode_ok by (unfold byte, LC_ON; lia).
    split; [reflexivity|]. split; [byte_list; unfold byte, LC_ON; lia|]. intros rest.
    cbn [app decode_lighting]. change (light_handler_of LC_ON) with (Some HOn). cbn iota beta.
    unfold new_light_on. rewrite check_ga_ok by assumption. cbn [rbind]. rewrite wbind_lift_ok. reflexivity.
  - exists [LC_OFF; ga]. rewrite simple_encode_ok by (unfold byte, LC_OFF; lia).
    split; [reflexivity|]. split; [byte_list; unfold byte, LC_OFF; lia|]. intros rest.
    cbn [app decode_lighting]. change (light_handler_of LC_OFF) with (Some HOff). cbn iota beta.
    unfold new_light_off. rewrite check_ga_ok by assumption. cbn [rbind]. rewrite wbind_lift_ok. reflexivity.
  - exists [LC_TERMINATE_RAMP; ga]. rewrite simple_encode_ok by (unfold byte, LC_TERMINATE_RAMP; lia).
    split; [reflexivity|]. split; [byte_list; unfold byte, LC_TERMINATE_RAMP; lia|]. intros rest.
    cbn [app decode_lighting].
    change (light_handler_of LC_TERMINATE_RAMP) with (Some HTerminate). cbn iota beta.
    unfold new_light_terminate. rewrite check_ga_ok by assumption. cbn [rbind]. rewrite wbind_lift_ok. reflexivity.
  - destruct level as [level| | |]; try contradiction. destruct Hv as [Hg Hl].
    exists [duration_to_ramp_rate sec; ga; level].
    rewrite ramp_encode_ok by assumption. split; [reflexivity|].
    assert (Hrate := duration_to_rate_spec _ _ Hd).
    split. { byte_list; unfold byte; try lia. apply (ramp_rate_cases _ _ Hrate). }
    intros rest. cbn [app decode_lighting].
    rewrite (handler_ramp _ _ Hrate). cbn iota beta.
    rewrite (rate_to_duration_ok _ _ Hrate). rewrite wbind_lift_ok.
    unfold new_light_ramp. rewrite check_ga_ok by assumption. cbn [rbind]. rewrite wbind_lift_ok. reflexivity.
Qed.

Lemma wmap_ok {A B} (f : A -> B) (m : W A) a : m = ([], Ok a) -> wmap f m = ([], Ok (f a)).
Proof. intros ->. reflexivity. Qed.

Lemma light_roundtrip cmds cmds' : Forall valid_light cmds -> Forall2 light_received cmds cmds' ->
  exists b, concat_res sal_encode cmds = Ok b /\ is_bytes b /\ decode_lighting b = ([], Ok cmds').
Proof.
  intros Hv H. induction H as [|s s' l l' Hs Hl IH].
  - exists []. repeat split; constructor.
  - inversion Hv as [|? ? Hv1 Hv2]; subst.
    destruct (IH Hv2) as [b [E [Hb D]]].
    destruct (light_step s s' Hv1 Hs) as [a [Ea [Ha Da]]].
    exists (a ++ b). cbn [concat_res]. rewrite Ea. cbn [rbind]. rewrite E. cbn [rbind].
    split; [reflexivity|]. split; [apply is_bytes_app; auto|].
    rewrite Da, D. reflexivity.
Qed.

Lemma decoded_light_encode code d ga level : is_ramp_rate code d -> byte ga -> byte level ->
  light_ramp_encode ga d (PInt level) = Ok [code; ga; level].
Proof.
  intros H Hg Hl. rewrite ramp_encode_ok by (unfold byte in *; lia).
  assert (Hd : In d ramp_seconds). { destruct H as [i [_ [_ H]]]. eapply nth_error_In, H. }
  assert (R := duration_to_rate_spec _ _ (rounds_to_idem d Hd)).
  now rewrite (rate_code_unique _ _ _ R H).
Qed.

Lemma light_total_aux n data : (length data <= n)%nat -> is_bytes data ->
  exists cmds ws covered rest,
    decode_lighting data = (ws, Ok cmds) /\ data = covered ++ rest
    /\ concat_res sal_encode cmds = Ok covered
    /\ Forall valid_light cmds
    /\ ((rest = [] /\ ws = []) \/ exists w, ws = [w] /\ light_undecodable rest w).
Proof.
  revert data. induction n as [|n IH]; intros data Hn Hb.
  { destruct data; [|simpl in Hn; lia]. exists [], [], [], []. repeat split; auto. }
  destruct data as [|c [|ga rest]].
  - exists [], [], [], []. repeat split; auto.
  - exists [], [WLightStray], [], [c]. repeat split; auto.
    right. exists WLightStray. split; [reflexivity|constructor].
  - apply is_bytes_cons in Hb. destruct Hb as [Hc Hb].
    apply is_bytes_cons in Hb. destruct Hb as [Hga Hb].
    assert (HC := handler_cases c). cbn [decode_lighting].
    destruct (light_handler_of c) as [h|] eqn:Eh.
    + assert (Hr : (length rest <= n)%nat) by (simpl in Hn; lia).
      destruct h; cbn iota beta.
      * destruct (IH rest Hr Hb) as [cmds [ws [cov [r [E [Ed [Ec [Hv Hw]]]]]]]].
        exists (LightOn ga :: cmds), ws, (c :: ga :: cov), r.
        unfold new_light_on. rewrite check_ga_ok by (unfold byte in Hga; lia). cbn [rbind].
        rewrite wbind_lift_ok, E. cbn [wmap]. subst c. split; [reflexivity|].
        split; [rewrite Ed; reflexivity|]. split.
        { cbn [concat_res sal_encode]. rewrite simple_encode_ok by (unfold byte in *; try lia; assumption).
          cbn [rbind]. rewrite Ec. reflexivity. }
        split; [constructor; [exact Hga|exact Hv]|exact Hw].
      * destruct (IH rest Hr Hb) as [cmds [ws [cov [r [E [Ed [Ec [Hv Hw]]]]]]]].
        exists (LightOff ga :: cmds), ws, (c :: ga :: cov), r.
        unfold new_light_off. rewrite check_ga_ok by (unfold byte in Hga; lia). cbn [rbind].
        rewrite wbind_lift_ok, E. cbn [wmap]. subst c. split; [reflexivity|].
        split; [rewrite Ed; reflexivity|]. split.
        { cbn [concat_res sal_encode]. rewrite simple_encode_ok by (unfold byte in *; try lia; assumption).
          cbn [rbind]. rewrite Ec. reflexivity. }
        split; [constructor; [exact Hga|exact Hv]|exact Hw].
      * destruct (IH rest Hr Hb) as [cmds [ws [cov [r [E [Ed [Ec [Hv Hw]]]]]]]].
        exists (LightTerminate ga :: cmds), ws, (c :: ga :: cov), r.
        unfold new_light_terminate. rewrite check_ga_ok by (unfold byte in Hga; lia). cbn [rbind].
        rewrite wbind_lift_ok, E. cbn [wmap]. subst c. split; [reflexivity|].
        split; [rewrite Ed; reflexivity|]. split.
        { cbn [concat_res sal_encode]. rewrite simple_encode_ok by (unfold byte in *; try lia; assumption).
          cbn [rbind]. rewrite Ec. reflexivity. }
        split; [constructor; [exact Hga|exact Hv]|exact Hw].
      * destruct HC as [d Hd]. rewrite (rate_to_duration_ok _ _ Hd), wbind_lift_ok.
        destruct rest as [|level rest].
        { exists [], [WLightNoLevel], [], [c; ga]. repeat split; auto.
          right. exists WLightNoLevel. split; [reflexivity|]. econstructor; eassumption. }
        apply is_bytes_cons in Hb. destruct Hb as [Hlv Hb].
        destruct (IH rest) as [cmds [ws [cov [r [E [Ed [Ec [Hv Hw]]]]]]]]; [simpl in Hr; lia|exact Hb|].
        exists (LightRamp ga d (PInt level) :: cmds), ws, (c :: ga :: level :: cov), r.
        unfold new_light_ramp. rewrite check_ga_ok by (unfold byte in Hga; lia). cbn [rbind].
        rewrite wbind_lift_ok, E. cbn [wmap]. split; [reflexivity|].
        split; [rewrite Ed; reflexivity|]. split.
        { cbn [concat_res sal_encode].
          rewrite (decoded_light_encode c d ga level) by assumption.
          cbn [rbind]. rewrite Ec. reflexivity. }
        split; [constructor; [split; [exact Hga|exact Hlv]|exact Hv]|exact Hw].
    + exists [], [WLightUnknown], [], (c :: ga :: rest). repeat split; auto.
      right. exists WLightUnknown. split; [reflexivity|]. now constructor.
Qed.

(** ** Clock *)

Lemma divb a y : 0 < a -> (y mod a =? 0) = true <-> (a | y).
Proof. intros Ha. rewrite Z.eqb_eq. apply Z.mod_divide. lia. Qed.

Lemma is_leap_spec y : is_leap y = true <-> leap_year y.
Proof.
  unfold is_leap, leap_year. rewrite andb_true_iff, orb_true_iff, negb_true_iff.
  rewrite !divb by lia. rewrite <- (divb 100 y) by lia.
  destruct (y mod 100 =? 0); intuition congruence.
Qed.

Lemma days_in_month_spec y m n : 1 <= m <= 12 -> days_in_month y m = n <-> month_length y m n.
Proof.
  intros Hm. unfold days_in_month, month_length. rewrite <- is_leap_spec.
  assert (m = 1 \/ m = 2 \/ m = 3 \/ m = 4 \/ m = 5 \/ m = 6 \/ m = 7 \/ m = 8 \/ m = 9
          \/ m = 10 \/ m = 11 \/ m = 12) as C by lia.
  repeat (destruct C as [->|C]); try subst m; cbn [In mem existsb];
    cbn -[is_leap]; destruct (is_leap y); intuition (try congruence; try lia).
Qed.

Lemma date_ok_spec y m d : date_ok y m d = true <-> valid_date y m d.
Proof.
  unfold date_ok, valid_date. split.
  - intros H. bool_hyps. split; [lia|]. exists (days_in_month y m).
    split; [apply days_in_month_spec; [lia|reflexivity]|lia].
  - intros [Hy [n [Hn Hd]]].
    assert (Hm : 1 <= m <= 12) by (unfold month_length in Hn; cbn [In] in Hn; lia).
    apply days_in_month_spec in Hn; [|exact Hm]. subst n. lia.
Qed.

Lemma time_ok_spec h mi s us : time_ok h mi s us = true <-> valid_time h mi s us.
Proof. unfold time_ok, valid_time. lia. Qed.

Lemma weekday_range y m d : 0 <= weekday y m d <= 6.
Proof. unfold weekday. lia. Qed.

Lemma pack_B_ok x : byte x -> pack_B x = Ok [x].
Proof. intros H. unfold pack_B. now rewrite (proj2 (byteb_spec x) H). Qed.
Lemma pack_H_ok x : 0 <= x <= 65535 -> pack_H x = Ok [x / 256; x mod 256].
Proof. intros H. unfold pack_H. replace ((0 <=? x) && (x <=? 65535)) with true by lia. reflexivity. Qed.

Lemma valid_date_bounds y m d : valid_date y m d -> 1 <= y <= 9999 /\ 1 <= m <= 12 /\ 1 <= d <= 31.
Proof.
  intros [Hy [n [Hn Hd]]]. unfold month_length in Hn. cbn [In] in Hn. lia.
Qed.

Lemma date_encode_ok y m d : valid_date y m d ->
  clock_date_encode y m d = Ok [14; 2; y / 256; y mod 256; m; d; weekday y m d].
Proof.
  intros Hv. apply valid_date_bounds in Hv.
  unfold clock_date_encode. rewrite pack_H_ok by lia. cbn [rbind].
  rewrite !pack_B_ok by (unfold byte; try (pose proof (weekday_range y m d)); lia). reflexivity.
Qed.
Lemma time_encode_ok h mi s us : valid_time h mi s us ->
  clock_time_encode h mi s = Ok [13; 1; h; mi; s; 255].
Proof.
  intros Hv. unfold valid_time in Hv.
  unfold clock_time_encode. rewrite !pack_B_ok by (unfold byte; lia). reflexivity.
Qed.

(** Fuel. *)
Lemma clock_update_decode_shorter data c ws r :
  clock_update_decode data c = (ws, Ok r) -> (length (snd r) <= length data)%nat.
Proof.
  unfold clock_update_decode. unfold wbind, wlift.
  destruct (py_index data 0) as [var|e]; [|discriminate]. cbn [fst snd app].
  set (dl := Z.to_nat (Z.land c 7)).
  assert (L : forall a b, (length (skipn a (skipn b data)) <= length data)%nat)
    by (intros; rewrite !skipn_length; lia).
  assert (L1 := L 0%nat dl). cbn [skipn] in L1.
  destruct (var =? CLOCK_DATE).
  { destruct (negb (Nat.eqb dl 6)); [intros H; inversion H; exact L1|].
    destruct (py_slice 1 dl data) as [|y1 [|y0 [|m [|d [|w [|? ?]]]]]]; try discriminate.
    destruct (date_ok _ _ _); [intros H; inversion H; exact L1|discriminate]. }
  destruct (var =? CLOCK_TIME).
  { destruct (negb (Nat.eqb dl 5)); [intros H; inversion H; exact L1|].
    destruct (py_slice 1 dl data) as [|y1 [|y0 [|m [|d [|? ?]]]]]; try discriminate.
    destruct (time_ok _ _ _ _); [intros H; inversion H; exact L1|discriminate]. }
  intros H. inversion H. apply L.
Qed.

Lemma clock_request_decode_shorter data ws r :
  clock_request_decode data = (ws, Ok r) -> (length (snd r) <= length data)%nat.
Proof.
  unfold clock_request_decode, wbind, wlift.
  destruct (py_index data 0) as [var|e]; [|discriminate]. cbn [fst snd app].
  assert (L : (length (skipn 1 data) <= length data)%nat) by (rewrite skipn_length; lia).
  destruct (negb (var =? 3)); intros H; inversion H; exact L.
Qed.

Lemma decode_clock_fuel_eq f1 f2 data :
  (length data <= f1)%nat -> (length data <= f2)%nat ->
  decode_clock_fuel f1 data = decode_clock_fuel f2 data.
Proof.
  revert f2 data. induction f1 as [|f1 IH]; intros f2 data H1 H2.
  - destruct data; [|simpl in H1; lia]. now destruct f2.
  - destruct data as [|c data]; [now destruct f2|]. destruct f2 as [|f2]; [simpl in H2; lia|].
    cbn [decode_clock_fuel length] in *.
    destruct (Z.land c 128 =? 128); [reflexivity|].
    destruct (negb (Z.land c 224 =? 0)); [reflexivity|].
    destruct (Z.land c 248 =? CLOCK_UPDATE_NETWORK_VARIABLE).
    + destruct (clock_update_decode data c) as [ws [r|e]] eqn:E; [|reflexivity].
      apply clock_update_decode_shorter in E. unfold wbind.
      rewrite (IH f2 (snd r)) by lia. reflexivity.
    + destruct (c =? CLOCK_REQUEST_REFRESH); [|reflexivity].
      destruct (clock_request_decode data) as [ws [r|e]] eqn:E; [|reflexivity].
      apply clock_request_decode_shorter in E. unfold wbind.
      rewrite (IH f2 (snd r)) by lia. reflexivity.
Qed.

Lemma decode_clock_fuel_enough f data :
  (length data <= f)%nat -> decode_clock_fuel f data = decode_clock data.
Proof. intros H. apply decode_clock_fuel_eq; lia. Qed.

(** The decoder without fuel. *)
Lemma decode_clock_cons c data :
  decode_clock (c :: data) =
  if Z.land c 0x80 =? 0x80 then wwarn WClockLong (wret [])
  else if negb (Z.land c 0xE0 =? 0) then wwarn WClockBits (wret [])
  else if Z.land c 0xf8 =? CLOCK_UPDATE_NETWORK_VARIABLE then
    wbind (clock_update_decode data c) (fun r => wmap (opt_cons (fst r)) (decode_clock (snd r)))
  else if c =? CLOCK_REQUEST_REFRESH then
    wbind (clock_request_decode data) (fun r => wmap (opt_cons (fst r)) (decode_clock (snd r)))
  else wwarn WClockUnknown (wret []).
Proof.
  unfold decode_clock at 1. cbn [length decode_clock_fuel].
  destruct (Z.land c 128 =? 128); [reflexivity|].
  destruct (negb (Z.land c 224 =? 0)); [reflexivity|].
  destruct (Z.land c 248 =? CLOCK_UPDATE_NETWORK_VARIABLE).
  - destruct (clock_update_decode data c) as [ws [r|e]] eqn:E; [|reflexivity].
    apply clock_update_decode_shorter in E. unfold wbind.
    rewrite decode_clock_fuel_enough by exact E. reflexivity.
  - destruct (c =? CLOCK_REQUEST_REFRESH); [|reflexivity].
    destruct (clock_request_decode data) as [ws [r|e]] eqn:E; [|reflexivity].
    apply clock_request_decode_shorter in E. unfold wbind.
    rewrite decode_clock_fuel_enough by exact E. reflexivity.
Qed.

Lemma clock_step s : valid_clock s ->
  exists b, sal_encode s = Ok b /\ is_bytes b /\
    forall rest, decode_clock (b ++ rest) = wmap (cons (clock_received s)) (decode_clock rest).
Proof.
  intros Hv.
  assert (D : forall y m d, valid_date y m d -> exists b,
    clock_date_encode y m d = Ok b /\ is_bytes b /\
    forall rest, decode_clock (b ++ rest)
      = wmap (cons (ClockUpdate (CDate y m d))) (decode_clock rest)).
  { intros y m d H. rewrite date_encode_ok by exact H. eexists. split; [reflexivity|].
    pose proof (valid_date_bounds _ _ _ H) as B. pose proof (weekday_range y m d) as Wd.
    split; [byte_list; unfold byte; lia|].
    intros rest. cbn [app]. rewrite decode_clock_cons.
    cbn [Z.land Pos.land Z.eqb Pos.eqb Pos.Ndouble Pos.Nsucc_double Z.of_N negb
         CLOCK_UPDATE_NETWORK_VARIABLE].
    unfold clock_update_decode. cbn [py_index nth_error]. rewrite wbind_lift_ok.
    change (Z.to_nat (Z.land 14 7)) with 6%nat.
    cbn [py_slice Nat.sub skipn firstn Nat.eqb negb].
    change (2 =? CLOCK_DATE) with true. cbn iota.
    replace (256 * (y / 256) + y mod 256) with y by lia.
    rewrite (proj2 (date_ok_spec y m d) H). rewrite wbind_ret. reflexivity. }
  destruct s as [| | | |v| | | |]; cbn [valid_clock] in Hv; try contradiction.
  - destruct v as [y m d|h mi s us|y m d h mi s us|]; cbn [sal_encode clock_update_encode clock_received];
      try contradiction.
    + apply D, Hv.
    + rewrite (time_encode_ok h mi s us) by exact Hv. eexists. split; [reflexivity|].
      unfold valid_time in Hv. split; [byte_list; unfold byte; lia|].
      intros rest. cbn [app]. rewrite decode_clock_cons.
      cbn [Z.land Pos.land Z.eqb Pos.eqb Pos.Ndouble Pos.Nsucc_double Z.of_N negb
           CLOCK_UPDATE_NETWORK_VARIABLE].
      unfold clock_update_decode. cbn [py_index nth_error]. rewrite wbind_lift_ok.
      change (Z.to_nat (Z.land 13 7)) with 5%nat.
      cbn [py_slice Nat.sub skipn firstn Nat.eqb negb].
      change (1 =? CLOCK_DATE) with false. change (1 =? CLOCK_TIME) with true. cbn iota.
      replace (time_ok h mi s 0) with true by (symmetry; apply time_ok_spec; unfold valid_time; lia).
      rewrite wbind_ret. reflexivity.
    + apply D, Hv.
  - exists [17; 3]. split; [reflexivity|]. split; [byte_list; unfold byte; lia|].
    intros rest. cbn [app]. rewrite decode_clock_cons.
    change (clock_request_decode (3 :: rest)) with (wret (Some ClockRequest, rest)).
    cbn [Z.land Pos.land Z.eqb Pos.eqb Pos.Ndouble Pos.Nsucc_double Z.of_N negb
         CLOCK_UPDATE_NETWORK_VARIABLE CLOCK_REQUEST_REFRESH].
    rewrite wbind_ret. reflexivity.
Qed.

Lemma clock_roundtrip cmds : Forall valid_clock cmds ->
  exists b, concat_res sal_encode cmds = Ok b /\ is_bytes b
    /\ decode_clock b = ([], Ok (map clock_received cmds)).
Proof.
  induction 1 as [|s l Hs Hl [b [E [Hb D]]]].
  - exists []. repeat split; constructor.
  - destruct (clock_step s Hs) as [a [Ea [Ha Da]]].
    exists (a ++ b). cbn [concat_res]. rewrite Ea. cbn [rbind]. rewrite E. cbn [rbind].
    split; [reflexivity|]. split; [apply is_bytes_app; auto|].
    rewrite Da, D. reflexivity.
Qed.

(** C08.  A clock variable of [n] bytes. *)
Lemma clock_cmd_bits n : 0 <= n <= 7 ->
  (Z.land (8 + n) 0x80 =? 0x80) = false /\ negb (Z.land (8 + n) 0xE0 =? 0) = false
  /\ (Z.land (8 + n) 0xf8 =? CLOCK_UPDATE_NETWORK_VARIABLE) = true /\ Z.land (8 + n) 7 = n.
Proof.
  intros H.
  assert (S : forallb (fun n => negb (Z.land (8 + n) 0x80 =? 0x80) && (Z.land (8 + n) 0xE0 =? 0)
    && (Z.land (8 + n) 0xf8 =? CLOCK_UPDATE_NETWORK_VARIABLE) && (Z.land (8 + n) 7 =? n)) (upto 8) = true)
    by (vm_compute; reflexivity).
  assert (S' := sweep 8 _ S n ltac:(lia)). cbv beta in S'. bool_hyps.
  repeat split; auto; lia.
Qed.

Lemma hd_error_py_index {A} (l : list A) a : hd_error l = Some a -> py_index l 0 = Ok a.
Proof. destruct l; [discriminate|]. cbn. congruence. Qed.

Lemma wbind_warn {A B} w (a : A) (f : A -> W B) :
  wbind (wwarn w (wret a)) f = wwarn w (f a).
Proof. unfold wbind, wwarn, wret. cbn. destruct (f a). reflexivity. Qed.
Lemma wmap_opt_none {A} (m : W (list A)) : wmap (opt_cons None) m = m.
Proof. destruct m as [w [a|e]]; reflexivity. Qed.

Lemma clock_wrong_length n body rest var :
  Z.of_nat (length body) = n -> 0 <= n <= 7 ->
  hd_error (body ++ rest) = Some var ->
  (var = 2 /\ n <> 6) \/ (var = 1 /\ n <> 5) ->
  decode_clock ((8 + n) :: body ++ rest)
  = wwarn (if var =? 2 then WClockDateLen else WClockTimeLen) (decode_clock rest).
Proof.
  intros Hl Hn Hv Hcase. rewrite decode_clock_cons.
  destruct (clock_cmd_bits n Hn) as [-> [-> [-> E7]]].
  unfold clock_update_decode. rewrite (hd_error_py_index _ _ Hv), wbind_lift_ok, E7.
  rewrite skipn_app_exact by lia.
  destruct Hcase as [[-> Hne]|[-> Hne]].
  - change (2 =? CLOCK_DATE) with true. change (2 =? 2) with true. cbn iota.
    replace (Nat.eqb (Z.to_nat n) 6) with false by lia. cbn [negb].
    rewrite wbind_warn. cbn [fst snd]. now rewrite wmap_opt_none.
  - change (1 =? CLOCK_DATE) with false. change (1 =? CLOCK_TIME) with true.
    change (1 =? 2) with false. cbn iota.
    replace (Nat.eqb (Z.to_nat n) 5) with false by lia. cbn [negb].
    rewrite wbind_warn. cbn [fst snd]. now rewrite wmap_opt_none.
Qed.

Lemma clock_unknown_variable n body rest var :
  Z.of_nat (length body) = n -> 0 <= n <= 7 ->
  hd_error (body ++ rest) = Some var -> var <> 1 -> var <> 2 ->
  decode_clock ((8 + n) :: body ++ rest)
  = wwarn WClockVar (decode_clock (skipn (Z.to_nat n) rest)).
Proof.
  intros Hl Hn Hv H1 H2. rewrite decode_clock_cons.
  destruct (clock_cmd_bits n Hn) as [-> [-> [-> E7]]].
  unfold clock_update_decode. rewrite (hd_error_py_index _ _ Hv), wbind_lift_ok, E7.
  rewrite skipn_app_exact by lia.
  unfold CLOCK_DATE, CLOCK_TIME.
  rewrite (proj2 (Z.eqb_neq var 2) H2), (proj2 (Z.eqb_neq var 1) H1).
  rewrite wbind_warn. cbn [fst snd]. now rewrite wmap_opt_none.
Qed.

(** The clock decoder never runs out of fuel. *)
Lemma clock_update_decode_no_fuel data c : snd (clock_update_decode data c) <> Raise OutOfFuel.
Proof.
  unfold clock_update_decode, wbind, wlift, py_index.
  destruct (nth_error data 0); [|discriminate]. cbn [fst snd app].
  destruct (z =? CLOCK_DATE).
  { destruct (negb _); [discriminate|].
    destruct (py_slice _ _ data) as [|y1 [|y0 [|m [|d [|w [|? ?]]]]]]; try discriminate.
    destruct (date_ok _ _ _); discriminate. }
  destruct (z =? CLOCK_TIME).
  { destruct (negb _); [discriminate|].
    destruct (py_slice _ _ data) as [|y1 [|y0 [|m [|d [|? ?]]]]]; try discriminate.
    destruct (time_ok _ _ _ _); discriminate. }
  discriminate.
Qed.

Lemma decode_clock_no_fuel data : snd (decode_clock data) <> Raise OutOfFuel.
Proof.
  remember (length data) as n eqn:Hn. assert (H : (length data <= n)%nat) by lia. clear Hn.
  revert data H. induction n as [|n IH]; intros data H.
  { destruct data; [discriminate|simpl in H; lia]. }
  destruct data as [|c data]; [discriminate|]. rewrite decode_clock_cons. cbn [length] in H.
  destruct (Z.land c 128 =? 128); [discriminate|].
  destruct (negb (Z.land c 224 =? 0)); [discriminate|].
  assert (K : forall (m : W (option sal * bytes)), snd m <> Raise OutOfFuel ->
    (forall ws r, m = (ws, Ok r) -> (length (snd r) <= length data)%nat) ->
    snd (wbind m (fun r => wmap (opt_cons (fst r)) (decode_clock (snd r)))) <> Raise OutOfFuel).
  { intros [ws [r|e]] Hm Hs; cbn in Hm |- *; [|congruence].
    specialize (Hs ws r eq_refl). specialize (IH (snd r) ltac:(lia)).
    destruct (decode_clock (snd r)) as [w [a|e]]; cbn in *; congruence. }
  destruct (Z.land c 248 =? CLOCK_UPDATE_NETWORK_VARIABLE).
  - apply K; [apply clock_update_decode_no_fuel|]. intros ws r. apply clock_update_decode_shorter.
  - destruct (c =? CLOCK_REQUEST_REFRESH); [|discriminate].
    apply K; [|intros ws r; apply clock_request_decode_shorter].
    unfold clock_request_decode, wbind, wlift, py_index.
    destruct (nth_error data 0); [|discriminate]. cbn.
    destruct (negb _); discriminate.
Qed.

(** ** Temperature *)

Lemma qfloor_bounds (q : Q) : (0 <= q)%Q -> (q <= 6375 # 100)%Q -> 0 <= Qfloor (4 * q) <= 255.
Proof.
  intros H0 H1. split.
  - change 0 with (Qfloor 0). apply Qfloor_resp_le.
    setoid_replace 0%Q with (4 * 0)%Q by reflexivity. apply Qmult_le_l; [reflexivity|exact H0].
  - change 255 with (Qfloor 255). apply Qfloor_resp_le.
    setoid_replace 255%Q with (4 * (6375 # 100))%Q by reflexivity.
    apply Qmult_le_l; [reflexivity|exact H1].
Qed.

Lemma num_between_spec lo hi n : num_between lo hi n = true <->
  exists q, num_value n = Some q /\ (lo <= q)%Q /\ (q <= hi)%Q.
Proof.
  destruct n as [z|q| |b]; cbn [num_between num_value]; rewrite ?andb_true_iff, ?Qle_bool_iff.
  - split; [intros H; exists (inject_Z z); tauto|intros [q [E H]]; inversion E; subst; tauto].
  - split; [intros H; exists q; tauto|intros [q' [E H]]; inversion E; subst; tauto].
  - split; [discriminate|intros [q [E _]]; discriminate].
  - split; [discriminate|intros [q [E _]]; discriminate].
Qed.

Lemma int_times_4_spec t q : num_value t = Some q -> int_times_4 t = Qfloor (4 * q).
Proof.
  destruct t as [z|p| |]; cbn [num_value int_times_4]; intros H; inversion H; subst.
  - rewrite <- (Qfloor_Z (z * 4)). apply Qfloor_comp. rewrite inject_Z_mult. ring.
  - apply Qfloor_comp. ring.
Qed.

Lemma temp_step s s' : valid_temp s -> temp_received s s' ->
  exists b, sal_encode s = Ok b /\ is_bytes b /\
    forall rest, decode_temperature (b ++ rest) = wmap (cons s') (decode_temperature rest).
Proof.
  intros Hv Hr. destruct Hr as [ga t q q' Hq ->]. cbn [valid_temp] in Hv. destruct Hv as [Hga [q0 [Hq0 [H0 H1]]]].
  rewrite Hq in Hq0. inversion Hq0; subst q0.
  assert (Hf := qfloor_bounds q H0 H1).
  exists [2; ga; Qfloor (4 * q)]. cbn [sal_encode]. unfold temp_encode.
  rewrite (proj2 (num_between_spec 0 (6375 # 100) t)) by eauto. cbn [negb].
  rewrite check_ga_ok by assumption. cbn [rbind]. rewrite (int_times_4_spec t q Hq).
  assert (HB : is_bytes [2; ga; Qfloor (4 * q)]) by (byte_list; unfold byte; lia).
  split; [apply mk_bytes_ok, HB|]. split; [exact HB|].
  intros rest. reflexivity.
Qed.

Lemma temp_roundtrip cmds cmds' : Forall valid_temp cmds -> Forall2 temp_received cmds cmds' ->
  exists b, concat_res sal_encode cmds = Ok b /\ is_bytes b /\ decode_temperature b = ([], Ok cmds').
Proof.
  intros Hv H. induction H as [|s s' l l' Hs Hl IH].
  - exists []. repeat split; constructor.
  - inversion Hv as [|? ? Hv1 Hv2]; subst.
    destruct (IH Hv2) as [b [E [Hb D]]].
    destruct (temp_step s s' Hv1 Hs) as [a [Ea [Ha Da]]].
    exists (a ++ b). cbn [concat_res]. rewrite Ea. cbn [rbind]. rewrite E. cbn [rbind].
    split; [reflexivity|]. split; [apply is_bytes_app; auto|].
    rewrite Da, D. reflexivity.
Qed.

Lemma temp_reject ga t : ~ valid_temp (TempBroadcast ga t) ->
  sal_encode (TempBroadcast ga t) = Raise ValueError.
Proof.
  intros H. cbn [sal_encode valid_temp] in *. unfold temp_encode.
  destruct (num_between 0 (6375 # 100) t) eqn:E; cbn [negb]; [|reflexivity].
  apply num_between_spec in E. rewrite check_ga_bad; [reflexivity|]. tauto.
Qed.

Lemma quarter_floor (q : Q) : ((Qfloor (4 * q) # 4) <= q)%Q /\ (q < (Qfloor (4 * q) # 4) + (1 # 4))%Q.
Proof.
  assert (H1 := Qfloor_le (4 * q)). assert (H2 := Qlt_floor (4 * q)).
  rewrite inject_Z_plus in H2.
  assert (E : ((Qfloor (4 * q) # 4) == inject_Z (Qfloor (4 * q)) * (1 # 4))%Q)
    by (unfold Qeq, inject_Z, Qmult; cbn; ring).
  rewrite E. split.
  - setoid_replace q with ((4 * q) * (1 # 4))%Q at 2 by ring.
    apply Qmult_le_r; [reflexivity|exact H1].
  - setoid_replace (inject_Z (Qfloor (4 * q)) * (1 # 4) + (1 # 4))%Q
      with ((inject_Z (Qfloor (4 * q)) + inject_Z 1) * (1 # 4))%Q
      by (change (inject_Z 1) with 1%Q; ring).
    setoid_replace q with ((4 * q) * (1 # 4))%Q at 1 by ring.
    apply Qmult_lt_r; [reflexivity|exact H2].
Qed.

(** ** Enable *)

Lemma enable_step s : is_enable s ->
  exists b, sal_encode s = Ok b /\ is_bytes b /\
    forall rest, decode_enable (b ++ rest) = wmap (cons (enable_received s)) (decode_enable rest).
Proof.
  destruct s as [| | | | | | |v x|]; cbn [is_enable]; try contradiction. intros _.
  exists [2; v mod 256; x mod 256]. cbn [sal_encode enable_received]. unfold enable_encode.
  rewrite !land_255. assert (HB : is_bytes [2; v mod 256; x mod 256]) by (byte_list; unfold byte; lia).
  split; [apply mk_bytes_ok, HB|]. split; [exact HB|]. intros rest. reflexivity.
Qed.

Lemma enable_roundtrip cmds : Forall is_enable cmds ->
  exists b, concat_res sal_encode cmds = Ok b /\ is_bytes b
    /\ decode_enable b = ([], Ok (map enable_received cmds)).
Proof.
  induction 1 as [|s l Hs Hl [b [E [Hb D]]]].
  - exists []. repeat split; constructor.
  - destruct (enable_step s Hs) as [a [Ea [Ha Da]]].
    exists (a ++ b). cbn [concat_res]. rewrite Ea. cbn [rbind]. rewrite E. cbn [rbind].
    split; [reflexivity|]. split; [apply is_bytes_app; auto|].
    rewrite Da, D. reflexivity.
Qed.

Lemma list_ind3 {A} (P : list A -> Prop) :
  P [] -> (forall a, P [a]) -> (forall a b, P [a; b]) ->
  (forall a b c l, P l -> P (a :: b :: c :: l)) -> forall l, P l.
Proof.
  intros H0 H1 H2 H3 l.
  assert (H : P l /\ (forall a, P (a :: l)) /\ forall a b, P (a :: b :: l)).
  { induction l as [|x l [IH1 [IH2 IH3]]]; [auto|].
    split; [apply IH2|]. split; [intros a; apply IH3|]. intros a b. apply H3, IH1. }
  apply H.
Qed.

Lemma enable_total data : exists ws cmds, decode_enable data = (ws, Ok cmds) /\ (length ws <= 1)%nat
  /\ Forall is_enable cmds.
Proof.
  induction data as [|a|a b|a b c l IH] using list_ind3; cbn [decode_enable].
  - exists [], []. repeat split; auto.
  - exists [WEnableStray], []. repeat split; auto.
  - exists [WEnableStray], []. repeat split; auto.
  - destruct (Z.land a 128 =? 128); [exists [WEnableCmd], []; repeat split; auto|].
    destruct (negb _); [exists [WEnableLen], []; repeat split; auto|].
    destruct IH as [ws [cmds [-> [Hw Hc]]]]. exists ws, (EnableSet b c :: cmds).
    repeat split; auto. constructor; [exact I|exact Hc].
Qed.

Lemma temperature_total data : exists ws cmds, decode_temperature data = (ws, Ok cmds) /\ (length ws <= 1)%nat.
Proof.
  induction data as [|a|a b|a b c l IH] using list_ind3; cbn [decode_temperature].
  - exists [], []. repeat split; auto.
  - exists [WTempStray], []. repeat split; auto.
  - exists [WTempStray], []. repeat split; auto.
  - destruct (Z.land a 128 =? 128); [exists [WTempCmd], []; repeat split; auto|].
    destruct (negb _); [exists [WTempLen], []; repeat split; auto|].
    destruct IH as [ws [cmds [-> Hw]]].
    exists ws, (TempBroadcast b (PFloat (c # 4)) :: cmds). repeat split; auto.
Qed.

(** ** Status requests *)

Lemma status_fields_shorter data ws x y r :
  status_fields data = (ws, Ok (x, y, r)) -> (length r <= length data)%nat.
Proof.
  unfold status_fields. destruct data as [|c [|g rest]]; try discriminate.
  destruct (negb _); [discriminate|]. intros H. inversion H. cbn [length]. lia.
Qed.

Lemma decode_status_fuel_eq f1 f2 data :
  (length data <= f1)%nat -> (length data <= f2)%nat ->
  decode_status_fuel f1 data = decode_status_fuel f2 data.
Proof.
  revert f2 data. induction f1 as [|f1 IH]; intros f2 data H1 H2.
  - destruct data; [|simpl in H1; lia]. now destruct f2.
  - destruct data as [|c data]; [now destruct f2|]. destruct f2 as [|f2]; [simpl in H2; lia|].
    cbn [decode_status_fuel length] in *.
    destruct (mem c [122; 250]).
    + destruct (status_fields data) as [ws [[[x y] r]|e]] eqn:E; [|reflexivity].
      apply status_fields_shorter in E. unfold wbind.
      rewrite (IH f2 r) by lia. reflexivity.
    + destruct (starts_with [115; 7] (c :: data)); [|reflexivity].
      destruct (status_fields (skipn 2 (c :: data))) as [ws [[[x y] r]|e]] eqn:E; [|reflexivity].
      apply status_fields_shorter in E. rewrite skipn_length in E. cbn [length] in E.
      unfold wbind. rewrite (IH f2 r) by lia. reflexivity.
Qed.

Lemma decode_status_cons c data :
  decode_status (c :: data) =
  if mem c [0x7a; 0xfa] then
    wbind (status_fields data) (fun '(child, ga, rest) =>
    wmap (cons (StatusRequest false ga child)) (decode_status rest))
  else if starts_with [0x73; 0x07] (c :: data) then
    wbind (status_fields (skipn 2 (c :: data))) (fun '(child, ga, rest) =>
    wmap (cons (StatusRequest true ga child)) (decode_status rest))
  else wraise NotImplementedError.
Proof.
  unfold decode_status at 1. cbn [length decode_status_fuel].
  destruct (mem c [122; 250]).
  - destruct (status_fields data) as [ws [[[x y] r]|e]] eqn:E; [|reflexivity].
    apply status_fields_shorter in E. unfold wbind, decode_status.
    rewrite (decode_status_fuel_eq (length data) (length r) r) by lia. reflexivity.
  - destruct (starts_with [115; 7] (c :: data)); [|reflexivity].
    destruct (status_fields (skipn 2 (c :: data))) as [ws [[[x y] r]|e]] eqn:E; [|reflexivity].
    apply status_fields_shorter in E. rewrite skipn_length in E. cbn [length] in E.
    unfold wbind, decode_status.
    rewrite (decode_status_fuel_eq (length data) (length r) r) by lia. reflexivity.
Qed.

Lemma land_224 x : Z.land x 224 = 32 * ((x mod 256) / 32).
Proof.
  assert (E : Z.land x 224 = Z.land (x mod 256) 224).
  { rewrite <- land_255. rewrite <- Z.land_assoc. reflexivity. }
  rewrite E. apply Z.eqb_eq.
  apply (byte_sweep (fun b => Z.land b 224 =? 32 * (b / 32))); [vm_compute; reflexivity|apply byte_mod].
Qed.

Lemma div32 ga : (Z.land ga 31 =? 0) = true <-> (32 | ga).
Proof. rewrite land_31. apply divb. lia. Qed.

Lemma status_step s : is_status_request s ->
  exists b, sal_encode s = Ok b /\ is_bytes b /\
    forall rest, decode_status (b ++ rest) = wmap (cons (status_received s)) (decode_status rest).
Proof.
  destruct s as [| | | | | | | |lvl ga child]; cbn [is_status_request]; try contradiction. intros _.
  cbn [sal_encode status_received]. unfold status_encode. rewrite land_224, land_255.
  set (g := 32 * (ga mod 256 / 32)). set (c := child mod 256).
  assert (Hc : byte c) by apply byte_mod.
  assert (Hg : byte g) by (unfold byte, g; lia).
  assert (D : (Z.land g 31 =? 0) = true) by (apply div32; exists (ga mod 256 / 32); unfold g; ring).
  destruct lvl.
  - rewrite mk_bytes_ok by (byte_list; assumption). cbn [rbind app].
    eexists. split; [reflexivity|]. split; [byte_list; try assumption; unfold byte; lia|].
    intros rest. cbn [app]. rewrite decode_status_cons.
    change (mem 115 [122; 250]) with false. cbn [starts_with Z.eqb Pos.eqb andb].
    cbn [skipn status_fields]. rewrite D. cbn [negb]. rewrite wbind_ret. reflexivity.
  - assert (HB : is_bytes [122; c; g]) by (byte_list; try assumption; unfold byte; lia).
    rewrite mk_bytes_ok by exact HB. eexists. split; [reflexivity|]. split; [exact HB|].
    intros rest. cbn [app]. rewrite decode_status_cons.
    change (mem 122 [122; 250]) with true. cbn iota.
    cbn [status_fields]. rewrite D. cbn [negb]. rewrite wbind_ret. reflexivity.
Qed.

Lemma status_roundtrip cmds : Forall is_status_request cmds ->
  exists b, concat_res sal_encode cmds = Ok b /\ is_bytes b
    /\ decode_status b = ([], Ok (map status_received cmds)).
Proof.
  induction 1 as [|s l Hs Hl [b [E [Hb D]]]].
  - exists []. repeat split; constructor.
  - destruct (status_step s Hs) as [a [Ea [Ha Da]]].
    exists (a ++ b). cbn [concat_res]. rewrite Ea. cbn [rbind]. rewrite E. cbn [rbind].
    split; [reflexivity|]. split; [apply is_bytes_app; auto|].
    rewrite Da, D. reflexivity.
Qed.

Lemma status_stream_decode data l : status_stream data l -> decode_status data = ([], Ok l).
Proof.
  induction 1 as [|c child ga rest l Hc Hg Hs IH|child ga rest l Hg Hs IH].
  - reflexivity.
  - rewrite decode_status_cons.
    replace (mem c [122; 250]) with true by (destruct Hc; subst; reflexivity).
    cbn [status_fields]. rewrite (proj2 (div32 ga) Hg). cbn [negb]. rewrite wbind_ret, IH. reflexivity.
  - rewrite decode_status_cons.
    change (mem 115 [122; 250]) with false. cbn [starts_with Z.eqb Pos.eqb andb].
    cbn [skipn status_fields]. rewrite (proj2 (div32 ga) Hg). cbn [negb].
    rewrite wbind_ret, IH. reflexivity.
Qed.

Lemma status_decode_stream_aux n data ws l : (length data <= n)%nat ->
  decode_status data = (ws, Ok l) -> status_stream data l /\ ws = [].
Proof.
  revert data ws l. induction n as [|n IH]; intros data ws l Hn.
  { destruct data; [|simpl in Hn; lia]. intros H. inversion H. split; [constructor|reflexivity]. }
  destruct data as [|c data]; [intros H; inversion H; split; [constructor|reflexivity]|].
  cbn [length] in Hn. rewrite decode_status_cons.
  destruct (mem c [122; 250]) eqn:Em.
  - destruct data as [|child [|ga rest]]; cbn [status_fields]; try discriminate.
    destruct (Z.land ga 31 =? 0) eqn:Eg; cbn [negb]; [|discriminate]. rewrite wbind_ret.
    destruct (decode_status rest) as [w [r|e]] eqn:E; [|discriminate].
    cbn [wmap]. intros H. inversion H; subst.
    destruct (IH rest ws r) as [Hs ->]; [cbn [length] in Hn; lia|exact E|].
    split; [|reflexivity]. constructor; [|now apply div32|exact Hs].
    apply mem_spec in Em. cbn [In] in Em. lia.
  - destruct (starts_with [115; 7] (c :: data)) eqn:Es; [|discriminate].
    destruct data as [|c2 data]; cbn [starts_with] in Es; [rewrite andb_false_r in Es; discriminate|].
    bool_hyps. cbn [skipn].
    destruct data as [|child [|ga rest]]; cbn [status_fields]; try discriminate.
    destruct (Z.land ga 31 =? 0) eqn:Eg; cbn [negb]; [|discriminate]. rewrite wbind_ret.
    destruct (decode_status rest) as [w [r|e]] eqn:E; [|discriminate].
    cbn [wmap]. intros K. inversion K; subst.
    destruct (IH rest ws r) as [Hs ->]; [cbn [length] in Hn; lia|exact E|].
    split; [|reflexivity]. replace c with 115 by lia. replace c2 with 7 by lia.
    constructor; [now apply div32|exact Hs].
Qed.

Lemma status_decode_iff data l :
  decode_status data = ([], Ok l) <-> status_stream data l.
Proof.
  split; [|apply status_stream_decode].
  intros H. eapply status_decode_stream_aux in H; [apply H|reflexivity].
Qed.

Lemma status_decode_raises data : (forall l, ~ status_stream data l) ->
  exists ws e, decode_status data = (ws, Raise e) /\ e <> OutOfFuel.
Proof.
  intros H. destruct (decode_status data) as [ws [l|e]] eqn:E.
  - exfalso. apply (H l). eapply status_decode_stream_aux in E; [apply E|reflexivity].
  - exists ws, e. split; [reflexivity|]. intros ->. clear H.
    remember (length data) as n eqn:Hn. assert (Hl : (length data <= n)%nat) by lia. clear Hn.
    revert data ws Hl E. induction n as [|n IH]; intros data ws Hl E.
    { destruct data; [discriminate|simpl in Hl; lia]. }
    destruct data as [|c data]; [discriminate|]. rewrite decode_status_cons in E.
    cbn [length] in Hl.
    assert (K : forall b d, (length d <= length data)%nat ->
      wbind (status_fields d) (fun '(child, ga, rest) =>
        wmap (cons (StatusRequest b ga child)) (decode_status rest)) <> (ws, Raise OutOfFuel)).
    { intros b d Hd. destruct (status_fields d) as [w [[[x y] r]|e]] eqn:Ef.
      - assert (Hr := status_fields_shorter _ _ _ _ _ Ef). unfold wbind.
        destruct (decode_status r) as [w2 [a|e]] eqn:Er; cbn; [discriminate|].
        intros K. inversion K; subst. apply (IH r w2); [lia|exact Er].
      - cbn. intros K. inversion K; subst. unfold status_fields in Ef.
        destruct d as [|? [|? ?]]; try discriminate. destruct (negb _); discriminate. }
    destruct (mem c [122; 250]); [now apply (K false data) in E; [|lia]|].
    destruct (starts_with [115; 7] (c :: data)); [|discriminate].
    apply (K true) in E; [exact E|]. rewrite skipn_length. cbn [length]. lia.
Qed.

(** ** Statements used in Prop_sal.v *)

Lemma light_total data : is_bytes data ->
  exists cmds ws covered rest,
    decode_lighting data = (ws, Ok cmds) /\ data = covered ++ rest
    /\ concat_res sal_encode cmds = Ok covered
    /\ Forall valid_light cmds
    /\ ((rest = [] /\ ws = []) \/ exists w, ws = [w] /\ light_undecodable rest w).
Proof. apply (light_total_aux (length data) data (le_n _)). Qed.

Lemma light_received_fun s a b : light_received s a -> light_received s b -> a = b.
Proof.
  intros Ha Hb. destruct Ha; inversion Hb; subst; try reflexivity.
  f_equal. eapply rounds_to_unique; eauto.
Qed.

Lemma light_received_total cmds : Forall valid_light cmds ->
  exists cmds', Forall2 light_received cmds cmds'
    /\ forall other, Forall2 light_received cmds other -> other = cmds'.
Proof.
  induction 1 as [|s l Hs Hl [l' [H HU]]].
  - exists []. split; [constructor|]. intros other Ho. now inversion Ho.
  - assert (E : exists s', light_received s s').
    { destruct s; cbn in Hs; try contradiction; try (eexists; constructor; fail).
      destruct (rounds_to_exists duration) as [d Hd]. eexists. constructor. exact Hd. }
    destruct E as [s' E]. exists (s' :: l'). split; [now constructor|].
    intros other Ho. inversion Ho as [|? s2 ? l2 H1 H2]; subst.
    f_equal; [eapply light_received_fun; eauto|auto].
Qed.
