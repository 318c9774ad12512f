(** Decoded packets have valid fields. *)
From Coq Require Import List ZArith QArith Bool Lia ZifyBool ZifyNat.
From Verif Require Import Py Common Sal Cal Packet Base Spec Spec_sound Common_facts Sal_facts Packet_facts Packet_roundtrip Packet_total.
Import ListNotations.
Open Scope Z_scope.

Lemma wbind_ok {A B} (m : W A) (f : A -> W B) ws b : wbind m f = (ws, Ok b) ->
  exists w1 a w2, m = (w1, Ok a) /\ f a = (w2, Ok b).
Proof.
  destruct m as [w1 [a|e]]; cbn [wbind]; intros H; [|discriminate H].
  exists w1, a, (fst (f a)). split; [reflexivity|]. destruct (f a) as [w2 r]. cbn in *. congruence.
Qed.
Lemma wmap_ok_inv {A B} (f : A -> B) (m : W A) ws b : wmap f m = (ws, Ok b) ->
  exists w1 a, m = (w1, Ok a) /\ b = f a.
Proof. destruct m as [w1 [a|e]]; cbn [wmap]; intros H; [|discriminate H]. exists w1, a. split; [reflexivity|congruence]. Qed.
Lemma wlift_ok {A} (r : res A) ws a : wlift r = (ws, Ok a) -> r = Ok a.
Proof. unfold wlift. congruence. Qed.
Lemma rbind_ok {A B} (m : res A) (f : A -> res B) b : rbind m f = Ok b -> exists a, m = Ok a /\ f a = Ok b.
Proof. destruct m as [a|e]; cbn [rbind]; intros H; [eauto|discriminate H]. Qed.
Lemma index_ok {A} (l : list A) i a : py_index l i = Ok a -> nth_error l i = Some a.
Proof. unfold py_index. destruct (nth_error l i); congruence. Qed.
Lemma index_byte l i a : is_bytes l -> py_index l i = Ok a -> byte a.
Proof.
  intros F E. apply index_ok in E. unfold is_bytes in F. rewrite Forall_forall in F. apply F. eapply nth_error_In, E.
Qed.
Lemma slice_bytes a b l : is_bytes l -> is_bytes (py_slice a b l).
Proof. intros F. unfold py_slice. now apply is_bytes_firstn, is_bytes_skipn. Qed.

(** ** Commands *)

Definition sound_for (id : Z) (s : sal) : Prop := sound_sal s /\ application_of s = id.

Lemma lighting_sound n : forall data ws l, (length data <= n)%nat -> is_bytes data ->
  decode_lighting data = (ws, Ok l) -> Forall (sound_for 0x38) l.
Proof.
  induction n as [|n IH]; intros data ws l L F E.
  { destruct data; [|cbn in L; lia]. inversion E. constructor. }
  destruct data as [|code [|ga rest]]; cbn [decode_lighting] in E.
  - inversion E. constructor.
  - inversion E. constructor.
  - apply is_bytes_cons in F. destruct F as [_ F]. apply is_bytes_cons in F. destruct F as [G F].
    cbn [length] in L.
    destruct (light_handler_of code) as [[| | |]|] eqn:H.
    + apply wbind_ok in E. destruct E as [w1 [s [w2 [E1 E2]]]]. apply wlift_ok in E1.
      apply wmap_ok_inv in E2. destruct E2 as [w3 [l' [E3 ->]]].
      constructor; [|eapply IH; [| |exact E3]; [lia|exact F]].
      unfold new_light_on in E1. apply rbind_ok in E1. destruct E1 as [? [_ E1]]. inversion E1. split; [exact G|reflexivity].
    + apply wbind_ok in E. destruct E as [w1 [s [w2 [E1 E2]]]]. apply wlift_ok in E1.
      apply wmap_ok_inv in E2. destruct E2 as [w3 [l' [E3 ->]]].
      constructor; [|eapply IH; [| |exact E3]; [lia|exact F]].
      unfold new_light_off in E1. apply rbind_ok in E1. destruct E1 as [? [_ E1]]. inversion E1. split; [exact G|reflexivity].
    + apply wbind_ok in E. destruct E as [w1 [s [w2 [E1 E2]]]]. apply wlift_ok in E1.
      apply wmap_ok_inv in E2. destruct E2 as [w3 [l' [E3 ->]]].
      constructor; [|eapply IH; [| |exact E3]; [lia|exact F]].
      unfold new_light_terminate in E1. apply rbind_ok in E1. destruct E1 as [? [_ E1]]. inversion E1. split; [exact G|reflexivity].
    + apply wbind_ok in E. destruct E as [w1 [d [w2 [E1 E2]]]]. apply wlift_ok in E1.
      destruct rest as [|level rest]; [inversion E2; constructor|].
      apply is_bytes_cons in F. destruct F as [V F].
      apply wbind_ok in E2. destruct E2 as [w3 [s [w4 [E3 E4]]]]. apply wlift_ok in E3.
      apply wmap_ok_inv in E4. destruct E4 as [w5 [l' [E5 ->]]].
      constructor; [|eapply IH; [| |exact E5]; [cbn [length] in L; lia|exact F]].
      unfold new_light_ramp in E3. apply rbind_ok in E3. destruct E3 as [? [_ E3]]. inversion E3.
      split; [|reflexivity]. split; [exact G|]. split; [|eauto].
      apply (proj1 (rate_to_duration_iff code)) in E1. destruct E1 as [i [_ [_ N]]]. eapply nth_error_In, N.
    + inversion E. constructor.
Qed.

Lemma clock_update_sound data c ws o rest : is_bytes data -> clock_update_decode data c = (ws, Ok (o, rest)) ->
  is_bytes rest /\ forall s, o = Some s -> sound_for 0xdf s.
Proof.
  intros F E. unfold clock_update_decode in E. apply wbind_ok in E. destruct E as [w1 [v [w2 [E1 E]]]].
  cbv zeta in E.
  assert (S : forall n, is_bytes (skipn n data)) by (intros n; now apply is_bytes_skipn).
  assert (SS : forall n m, is_bytes (skipn n (skipn m data))) by (intros n m; now apply is_bytes_skipn, is_bytes_skipn).
  destruct (v =? CLOCK_DATE).
  - destruct (negb (Nat.eqb (Z.to_nat (Z.land c 7)) 6)).
    + inversion E; subst. split; [apply S|discriminate].
    + destruct (py_slice 1 (Z.to_nat (Z.land c 7)) data) as [|y1 [|y0 [|m [|d [|z [|]]]]]]; try discriminate E.
      destruct (date_ok (256 * y1 + y0) m d) eqn:D; [|discriminate E]. inversion E; subst.
      split; [apply S|]. intros s H. inversion H; subst. split; [|reflexivity]. now apply date_ok_spec.
  - destruct (v =? CLOCK_TIME).
    + destruct (negb (Nat.eqb (Z.to_nat (Z.land c 7)) 5)).
      * inversion E; subst. split; [apply S|discriminate].
      * destruct (py_slice 1 (Z.to_nat (Z.land c 7)) data) as [|h [|mi [|s [|z [|]]]]]; try discriminate E.
        destruct (time_ok h mi s 0) eqn:D; [|discriminate E]. inversion E; subst.
        split; [apply S|]. intros x H. inversion H; subst. split; [|reflexivity]. split; [|reflexivity].
        now apply time_ok_spec.
    + inversion E; subst. split; [apply SS|discriminate].
Qed.
Lemma clock_sound n : forall data ws l, is_bytes data ->
  decode_clock_fuel n data = (ws, Ok l) -> Forall (sound_for 0xdf) l.
Proof.
  induction n as [|n IH]; intros data ws l F E.
  { destruct data; cbn in E; [inversion E; constructor|discriminate E]. }
  destruct data as [|c data]; cbn [decode_clock_fuel] in E; [inversion E; constructor|].
  apply is_bytes_cons in F. destruct F as [_ F].
  destruct (Z.land c 128 =? 128); [inversion E; constructor|].
  destruct (negb (Z.land c 224 =? 0)); [inversion E; constructor|].
  assert (G : forall o l', (forall s, o = Some s -> sound_for 0xdf s) -> Forall (sound_for 0xdf) l' ->
    Forall (sound_for 0xdf) (opt_cons o l')).
  { intros [s|] l' H H'; cbn [opt_cons]; [constructor; auto|assumption]. }
  destruct (Z.land c 248 =? CLOCK_UPDATE_NETWORK_VARIABLE).
  - apply wbind_ok in E. destruct E as [w1 [[o rest] [w2 [E1 E2]]]]. cbn [fst snd] in E2.
    apply wmap_ok_inv in E2. destruct E2 as [w3 [l' [E3 ->]]].
    destruct (clock_update_sound _ _ _ _ _ F E1) as [R S]. apply G; [exact S|]. eapply IH; [exact R|exact E3].
  - destruct (c =? CLOCK_REQUEST_REFRESH); [|inversion E; constructor].
    apply wbind_ok in E. destruct E as [w1 [[o rest] [w2 [E1 E2]]]]. cbn [fst snd] in E2.
    apply wmap_ok_inv in E2. destruct E2 as [w3 [l' [E3 ->]]].
    unfold clock_request_decode in E1. apply wbind_ok in E1. destruct E1 as [w4 [a [w5 [_ E1]]]].
    assert (R : is_bytes (skipn 1 data)) by now apply is_bytes_skipn.
    destruct (negb (a =? 3)); inversion E1; subst.
    + apply G; [discriminate|]. eapply IH; [exact R|exact E3].
    + apply G; [|eapply IH; [exact R|exact E3]]. intros s H. inversion H. now split.
Qed.

Lemma temperature_sound n : forall data ws l, (length data <= n)%nat -> is_bytes data ->
  decode_temperature data = (ws, Ok l) -> Forall (sound_for 0x19) l.
Proof.
  induction n as [|n IH]; intros data ws l L F E.
  { destruct data; [|cbn in L; lia]. inversion E. constructor. }
  destruct data as [|c [|ga [|t rest]]]; cbn [decode_temperature] in E; try (inversion E; constructor).
  apply is_bytes_cons in F. destruct F as [_ F]. apply is_bytes_cons in F. destruct F as [G F].
  apply is_bytes_cons in F. destruct F as [T F]. cbn [length] in L.
  destruct (Z.land c 128 =? 128); [inversion E; constructor|].
  destruct (negb (Z.land c 7 =? 2)); [inversion E; constructor|].
  apply wmap_ok_inv in E. destruct E as [w1 [l' [E ->]]].
  constructor; [|eapply IH; [| |exact E]; [lia|exact F]].
  split; [|reflexivity]. split; [exact G|]. eauto.
Qed.
Lemma enable_sound n : forall data ws l, (length data <= n)%nat -> is_bytes data ->
  decode_enable data = (ws, Ok l) -> Forall (sound_for 0xcb) l.
Proof.
  induction n as [|n IH]; intros data ws l L F E.
  { destruct data; [|cbn in L; lia]. inversion E. constructor. }
  destruct data as [|c [|ga [|t rest]]]; cbn [decode_enable] in E; try (inversion E; constructor).
  apply is_bytes_cons in F. destruct F as [_ F]. apply is_bytes_cons in F. destruct F as [G F].
  apply is_bytes_cons in F. destruct F as [T F]. cbn [length] in L.
  destruct (Z.land c 128 =? 128); [inversion E; constructor|].
  destruct (negb (Z.land c 7 =? 2)); [inversion E; constructor|].
  apply wmap_ok_inv in E. destruct E as [w1 [l' [E ->]]].
  constructor; [|eapply IH; [| |exact E]; [lia|exact F]].
  split; [|reflexivity]. now split.
Qed.
Lemma status_fields_sound data ws child ga rest : is_bytes data ->
  status_fields data = (ws, Ok (child, ga, rest)) -> byte child /\ byte ga /\ (32 | ga) /\ is_bytes rest.
Proof.
  intros F E. destruct data as [|x [|y data]]; try discriminate E. cbn [status_fields] in E.
  destruct (negb (Z.land y 31 =? 0)) eqn:D; [discriminate E|]. inversion E; subst.
  apply is_bytes_cons in F. destruct F as [X F]. apply is_bytes_cons in F. destruct F as [Y F].
  split; [exact X|]. split; [exact Y|]. split; [|exact F].
  apply negb_false_iff in D. change 31 with (Z.ones 5) in D. rewrite Z.land_ones in D by lia.
  exists (ga / 32). change (2 ^ 5) with 32 in D. lia.
Qed.
Lemma status_sound n : forall data ws l, is_bytes data ->
  decode_status_fuel n data = (ws, Ok l) -> Forall (sound_for 0xff) l.
Proof.
  induction n as [|n IH]; intros data ws l F E.
  { destruct data; cbn in E; [inversion E; constructor|discriminate E]. }
  destruct data as [|c data]; cbn [decode_status_fuel] in E; [inversion E; constructor|].
  assert (F' := F). apply is_bytes_cons in F'. destruct F' as [_ F'].
  destruct (mem c [122; 250]).
  - apply wbind_ok in E. destruct E as [w1 [[[child ga] rest] [w2 [E1 E2]]]].
    apply wmap_ok_inv in E2. destruct E2 as [w3 [l' [E3 ->]]].
    destruct (status_fields_sound _ _ _ _ _ F' E1) as [A [B [C D]]].
    constructor; [|eapply IH; [exact D|exact E3]]. split; [|reflexivity]. now split.
  - destruct (starts_with [115; 7] (c :: data)); [|discriminate E].
    apply wbind_ok in E. destruct E as [w1 [[[child ga] rest] [w2 [E1 E2]]]].
    apply wmap_ok_inv in E2. destruct E2 as [w3 [l' [E3 ->]]].
    destruct (status_fields_sound _ _ _ _ _ (is_bytes_skipn 2 _ F) E1) as [A [B [C D]]].
    constructor; [|eapply IH; [exact D|exact E3]]. split; [|reflexivity]. now split.
Qed.

Lemma sals_sound id a data ws l : is_bytes data -> get_application id = Ok a -> app_decode_sals a data = (ws, Ok l) ->
  known_application id /\ Forall sound_sal l /\ exists id', Forall (fun s => application_of s = id') l.
Proof.
  intros F G E.
  assert (K : known_application id).
  { unfold get_application, APP_TEMPERATURE, APP_LIGHTING_FIRST, APP_LIGHTING_LAST, APP_CLOCK, APP_ENABLE, APP_STATUS_REQUEST in G.
    unfold known_application. repeat match type of G with (if ?b then _ else _) = _ => destruct b eqn:?; [lia|] end. discriminate G. }
  assert (S : exists id', Forall (sound_for id') l).
  { destruct a; cbn [app_decode_sals] in E.
    - exists 0x19. eapply temperature_sound; [reflexivity|exact F|exact E].
    - exists 0x38. eapply lighting_sound; [reflexivity|exact F|exact E].
    - exists 0xdf. eapply clock_sound; [exact F|exact E].
    - exists 0xcb. eapply enable_sound; [reflexivity|exact F|exact E].
    - exists 0xff. eapply status_sound; [exact F|exact E]. }
  destruct S as [id' S]. split; [exact K|]. rewrite Forall_forall in S. split.
  - apply Forall_forall. intros x I. now apply S.
  - exists id'. apply Forall_forall. intros x I. now apply S.
Qed.
Lemma application_same s : sal_application s = application_of s.
Proof. destruct s; reflexivity. Qed.

(** ** CALs *)

Lemma index_of_range x l n : index_of x l = Ok n -> 0 <= n < Z.of_nat (length l).
Proof.
  revert n. induction l as [|a l IH]; intros n E; cbn [index_of] in E; [discriminate E|]. cbn [length].
  destruct (a =? x); [inversion E; lia|]. apply rbind_ok in E. destruct E as [m [E E']]. inversion E'. apply IH in E. lia.
Qed.
Lemma manchester_byte b v : manchester_decode b = Ok (Some v) -> byte v.
Proof.
  unfold manchester_decode. intros E.
  match type of E with match ?r with _ => _ end = _ => destruct r as [z|e] eqn:R end;
    [|destruct e; discriminate E].
  inversion E; subst. apply rbind_ok in R. destruct R as [b0 [_ R]].
  apply rbind_ok in R. destruct R as [n0 [H0 R]]. apply rbind_ok in R. destruct R as [n1 [H1 R]].
  apply rbind_ok in R. destruct R as [b1 [_ R]].
  apply rbind_ok in R. destruct R as [n2 [H2 R]]. apply rbind_ok in R. destruct R as [n3 [H3 R]].
  apply index_of_range in H0, H1, H2, H3. cbn [MANCHESTER_NIBBLES length Z.of_nat] in *.
  apply Ok_inj in R. subst v.
  assert (X : forall n, 0 <= n < 4 -> n = 0 \/ n = 1 \/ n = 2 \/ n = 3) by lia.
  change (Z.of_nat 4) with 4 in *.
  destruct (X n0 H0) as [->|[->|[->| ->]]], (X n1 H1) as [->|[->|[->| ->]]],
    (X n2 H2) as [->|[->|[->| ->]]], (X n3 H3) as [->|[->|[->| ->]]]; unfold byte; cbn; lia.
Qed.
Lemma level_pairs_sound n : forall data l, (length data <= n)%nat -> level_decode_pairs data = Ok l ->
  Forall (fun l => match l with Some v => byte v | None => True end) l /\ (2 * length l <= length data)%nat.
Proof.
  induction n as [|n IH]; intros data l L E.
  { destruct data; [|cbn in L; lia]. inversion E. split; [constructor|cbn; lia]. }
  destruct data as [|a [|b data]]; cbn [level_decode_pairs] in E; try (inversion E; split; [constructor|cbn; lia]).
  apply rbind_ok in E. destruct E as [v [E1 E]]. apply rbind_ok in E. destruct E as [r [E2 E]]. inversion E; subst.
  cbn [length] in *. destruct (IH data r) as [A B]; [lia|exact E2|]. split; [|lia].
  constructor; [|exact A]. destruct v as [v|]; [|exact I]. eapply manchester_byte, E1.
Qed.
Lemma two_bits x : 0 <= Z.land x 3 <= 3.
Proof. change 3 with (Z.ones 2) at 1 2. rewrite Z.land_ones by lia. change (2 ^ 2) with 4. change (Z.ones 2) with 3. lia. Qed.
Lemma binary_sound data : Forall group_state (binary_decode data) /\ length (binary_decode data) = (4 * length data)%nat.
Proof.
  induction data as [|c data [IH1 IH2]]; [split; [constructor|reflexivity]|].
  cbn [binary_decode flat_map]. change (flat_map _ data) with (binary_decode data).
  split; [|cbn [app length]; lia].
  apply Forall_app. split; [|exact IH1]. repeat constructor; apply two_bits.
Qed.

Lemma cal_sound data c n : is_bytes data -> decode_cal data = Ok (c, n) -> sound_cal c.
Proof.
  intros F E. unfold decode_cal in E. apply rbind_ok in E. destruct E as [cmd [E0 E]]. cbv zeta in E.
  assert (K : (Z.to_nat (Z.land cmd 31) <= 31)%nat).
  { change 31 with (Z.ones 5) at 1. rewrite Z.land_ones by lia. change (2 ^ 5) with 32. lia. }
  assert (SB : forall a b, is_bytes (py_slice a b data)) by (intros a b; now apply slice_bytes).
  assert (SL : (length (py_slice 1 (Z.to_nat (Z.land cmd 31) + 1) data) <= 31)%nat).
  { unfold py_slice. rewrite firstn_length. lia. }
  set (body := py_slice 1 (Z.to_nat (Z.land cmd 31) + 1) data) in *.
  assert (FB : is_bytes body) by apply SB.
  destruct (Z.land cmd 224 =? CAL_REPLY).
  { match type of E with (if ?b then _ else _) = _ => destruct b; [discriminate E|] end.
    apply rbind_ok in E. destruct E as [r [E1 E]]. assert (r = c) by congruence. subst r.
    unfold reply_decode in E1. apply rbind_ok in E1. destruct E1 as [p [E1 E2]].
    apply Ok_inj in E2. subst c. clear E.
    split; [eapply index_byte; [|exact E1]; exact FB|]. split; [now apply is_bytes_skipn|]. rewrite skipn_length. lia. }
  destruct (Z.land cmd 224 =? CAL_STANDARD_STATUS); [discriminate E|].
  destruct (Z.land cmd 224 =? CAL_EXTENDED_STATUS).
  { match type of E with (if ?b then _ else _) = _ => destruct b; [discriminate E|] end.
    apply rbind_ok in E. destruct E as [r [E1 E]]. assert (r = c) by congruence. subst r. clear E.
    unfold extended_decode in E1. apply rbind_ok in E1. destruct E1 as [coding [C E1]]. cbv zeta in E1.
    apply rbind_ok in E1. destruct E1 as [child [CH E1]]. apply rbind_ok in E1. destruct E1 as [block [BL E1]].
    assert (PL : (length (skipn 3 body) <= 28)%nat) by (rewrite skipn_length; lia).
    assert (BC : byte child) by (eapply index_byte; [|exact CH]; exact FB).
    assert (BB : byte block) by (eapply index_byte; [|exact BL]; exact FB).
    destruct (Z.land coding 7 =? EXT_BINARY).
    - apply Ok_inj in E1. subst c. split; [exact BC|]. split; [exact BB|]. destruct (binary_sound (skipn 3 body)) as [A B].
      split; [exact A|]. rewrite B. split; [lia|]. rewrite Nat.mul_comm. now apply Nat.mod_mul.
    - destruct (Z.land coding 7 =? EXT_LEVEL); [|discriminate E1].
      apply rbind_ok in E1. destruct E1 as [l [LV E1]]. apply Ok_inj in E1. subst c.
      unfold level_decode in LV. match type of LV with (if ?b then _ else _) = _ => destruct b; [discriminate LV|] end.
      split; [exact BC|]. split; [exact BB|].
      destruct (level_pairs_sound _ _ _ (le_n _) LV) as [A B]. split; [exact A|lia]. }
  destruct (cmd =? CAL_IDENTIFY).
  { apply rbind_ok in E. destruct E as [a [_ E]]. apply rbind_ok in E. destruct E as [b [E1 E]]. inversion E; subst.
    unfold identify_attribute in E1. destruct ((0 <=? a) && (a <=? 17)) eqn:R; [|discriminate E1]. inversion E1; subst.
    cbn. lia. }
  destruct (cmd =? CAL_RECALL); [|discriminate E].
  apply rbind_ok in E. destruct E as [a [E1 E]]. apply rbind_ok in E. destruct E as [b [E2 E]]. inversion E; subst.
  split; [eapply index_byte; [|exact E1]; exact F|eapply index_byte; [|exact E2]; exact F].
Qed.
Lemma cals_sound n : forall data l, is_bytes data -> decode_cals_fuel n data = Ok l -> Forall sound_cal l.
Proof.
  induction n as [|n IH]; intros data l F E.
  { destruct data; cbn in E; [inversion E; constructor|discriminate E]. }
  destruct data as [|x data]; [cbn in E; inversion E; constructor|]. cbn [decode_cals_fuel] in E.
  apply rbind_ok in E. destruct E as [[c m] [E1 E]]. apply rbind_ok in E. destruct E as [r [E2 E]]. inversion E; subst.
  constructor; [eapply cal_sound; [|exact E1]; exact F|]. eapply IH; [|exact E2]. now apply is_bytes_skipn.
Qed.

(** ** Packets *)

Lemma new_pm_result ck prio id sals p : new_pm ck prio (Some id) sals = Ok p ->
  p = PktPM (mkHdr ck prio None None) (Some id) sals /\ Forall (fun s => application_of s = id) sals.
Proof.
  unfold new_pm. intros E. apply rbind_ok in E. destruct E as [[a l] [E1 E2]]. inversion E2; subst. clear E2.
  assert (G : forall sals pre a l, append_sals (Some id, pre) sals = Ok (a, l) ->
    a = Some id /\ l = pre ++ sals /\ Forall (fun s => application_of s = id) sals).
  { clear. induction sals as [|s sals IH]; intros pre a l E; cbn [append_sals] in E.
    - inversion E. rewrite app_nil_r. repeat split. constructor.
    - apply rbind_ok in E. destruct E as [st [E1 E2]]. unfold append_sal in E1. cbn [fst snd] in E1.
      destruct (id =? sal_application s) eqn:Q; [|discriminate E1]. inversion E1; subst.
      destruct (IH _ _ _ E2) as [A [B C]]. split; [exact A|]. split; [now rewrite B, <- app_assoc|].
      constructor; [rewrite <- application_same; lia|exact C]. }
  destruct (G _ _ _ _ E1) as [-> [-> H]]. now split.
Qed.

Definition plain_packet (p : packet) : Prop :=
  match p with
  | PktPM h a sals =>
      h_source h = None /\ h_confirm h = None /\ (exists id, a = Some id /\ known_application id
        /\ Forall (fun s => application_of s = id) sals) /\ Forall sound_sal sals
  | PktPP h u hops cals =>
      h_source h = None /\ h_confirm h = None /\ byte u /\ Forall sound_cal cals
      /\ match hops with Some l => is_bytes l /\ (length l <= 5)%nat | None => True end
  | PktDM h parameter value => h_source h = None /\ h_confirm h = None /\ byte parameter /\ byte value
  | _ => False
  end.
Definition packet_priority (p : packet) : Z :=
  match p with PktPM h _ _ | PktPP h _ _ _ | PktDM h _ _ => h_priority h | _ => 0 end.

Lemma pm_sound data ck prio ws p : is_bytes data -> pm_decode data ck prio = (ws, Ok p) ->
  plain_packet p /\ packet_priority p = prio.
Proof.
  intros F E. unfold pm_decode in E. apply wbind_ok in E. destruct E as [w1 [id [w2 [_ E]]]].
  apply wbind_ok in E. destruct E as [w3 [d1 [w4 [_ E]]]].
  destruct (negb (d1 =? 0)); [discriminate E|].
  apply wbind_ok in E. destruct E as [w5 [h [w6 [H E]]]]. apply wlift_ok in H.
  apply wbind_ok in E. destruct E as [w7 [sals [w8 [D E]]]]. apply wlift_ok in E.
  destruct (new_pm_result _ _ _ _ _ E) as [-> A].
  destruct (sals_sound _ _ _ _ _ (is_bytes_skipn 2 _ F) H D) as [K [S _]].
  split; [|reflexivity]. split; [reflexivity|]. split; [reflexivity|]. split; [|exact S]. eauto.
Qed.
Lemma dm_sound data ck prio p : is_bytes data -> dm_decode data ck prio = Ok p ->
  plain_packet p /\ packet_priority p = prio.
Proof.
  intros F E. unfold dm_decode in E. apply rbind_ok in E. destruct E as [a [A E]].
  apply rbind_ok in E. destruct E as [d1 [_ E]]. destruct (negb (d1 =? 0)); [discriminate E|].
  apply rbind_ok in E. destruct E as [v [V E]].
  destruct (negb (Nat.eqb (length data) 3)); [discriminate E|]. inversion E; subst.
  split; [|reflexivity]. split; [reflexivity|]. split; [reflexivity|].
  split; [eapply index_byte; [|exact A]; exact F|eapply index_byte; [|exact V]; exact F].
Qed.
Lemma take_hops_sound n : forall data l rest, is_bytes data -> take_hops n data = Ok (l, rest) ->
  is_bytes l /\ length l = n /\ is_bytes rest.
Proof.
  induction n as [|n IH]; intros data l rest F E; cbn [take_hops] in E.
  - inversion E; subst. split; [apply is_bytes_nil|]. now split.
  - destruct data as [|x data]; [discriminate E|]. apply rbind_ok in E. destruct E as [[l' d] [E1 E]]. inversion E; subst.
    apply is_bytes_cons in F. destruct F as [X F]. destruct (IH _ _ _ F E1) as [A [B C]].
    split; [now apply is_bytes_cons|]. split; [cbn [length]; lia|exact C].
Qed.
Lemma pp_sound data ck prio p : is_bytes data -> pp_decode data ck prio = Ok p ->
  plain_packet p /\ packet_priority p = prio.
Proof.
  intros F E. unfold pp_decode in E. apply rbind_ok in E. destruct E as [d1 [_ E]].
  apply rbind_ok in E. destruct E as [d0 [D0 E]].
  assert (B0 : byte d0) by (eapply index_byte; [|exact D0]; exact F).
  destruct (d1 =? 0).
  - apply rbind_ok in E. destruct E as [cals [C E]]. apply cals_sound in C; [|now apply is_bytes_skipn].
    unfold new_pp in E. destruct (negb (0 =? 0)); [discriminate E|]. inversion E; subst.
    split; [|reflexivity]. split; [reflexivity|]. split; [reflexivity|]. now repeat (split; [assumption|]).
  - apply rbind_ok in E. destruct E as [n [N E]]. apply rbind_ok in E. destruct E as [[hops rest] [T E]].
    apply take_hops_sound in T; [|now apply is_bytes_skipn]. destruct T as [TH [TL TR]].
    apply rbind_ok in E. destruct E as [u [U E]]. apply rbind_ok in E. destruct E as [cals [C E]].
    assert (BU : byte u) by (eapply index_byte; [|exact U]; exact TR).
    apply cals_sound in C; [|now apply is_bytes_skipn].
    unfold new_pp in E. destruct (d0 <=? 0); [discriminate E|]. inversion E; subst.
    split; [|reflexivity]. split; [reflexivity|]. split; [reflexivity|]. split; [exact BU|]. split; [exact C|].
    split; [exact TH|]. unfold bridge_length in N.
    repeat match type of N with (if ?b then _ else _) = _ => destruct b; [inversion N; lia|] end. discriminate N.
Qed.

Lemma plain_attrs strict fp conf src p : plain_packet p -> 0 <= packet_priority p <= 3 ->
  match src with Some a => byte a | None => True end ->
  match conf with Some c => fp = false -> strict = true -> is_code c | None => True end ->
  sound_packet strict fp (set_attrs p fp conf src).
Proof.
  intros P Q S C.
  assert (H : forall h, h_source h = None -> h_confirm h = None -> 0 <= h_priority h <= 3 ->
    sound_header strict fp (set_hdr h fp conf src)).
  { intros h A B R. unfold set_hdr, sound_header. destruct fp; cbn [negb].
    - destruct src as [a|].
      + destruct (a =? 0) eqn:Z; [rewrite A, B; auto|]. cbn. unfold byte in S. repeat split; lia.
      + rewrite A, B. auto.
    - cbn. split; [lia|]. split; [reflexivity|]. destruct conf; [now apply C|exact I]. }
  destruct p as [| |co su| | |pl ex|h a sals|h u hops cals|h a v|ch bl st ck|c]; try contradiction;
    cbn [set_attrs sound_packet plain_packet packet_priority] in *.
  - destruct P as [A [B [K L]]]. split; [now apply H|]. now split.
  - destruct P as [A [B [K [L M]]]]. split; [now apply H|]. now split.
  - destruct P as [A [B [K L]]]. split; [now apply H|]. now split.
Qed.

Lemma payload_sound strict ck fp cal conf src n at_ prio dp data ws p m : is_bytes data -> 0 <= prio <= 3 ->
  match src with Some a => byte a | None => True end ->
  match conf with Some c => fp = false -> strict = true -> is_code c | None => True end ->
  (cal = true -> fp = false) ->
  decode_payload ck fp cal conf src n at_ prio dp data = (ws, Ok (p, m)) -> sound_packet strict fp p.
Proof.
  intros F P S C L E. unfold decode_payload in E. cbv zeta in E.
  destruct dp.
  { apply wmap_ok_inv in E. destruct E as [w1 [q [E1 E2]]]. inversion E2; subst. apply wlift_ok in E1.
    destruct (dm_sound _ _ _ _ F E1) as [A B]. apply plain_attrs; [exact A|lia|exact S|exact C]. }
  destruct cal.
  { apply wlift_ok in E. apply rbind_ok in E. destruct E as [[c l] [E1 E]]. inversion E; subst.
    split; [now apply L|]. eapply cal_sound; [|exact E1]; exact F. }
  destruct (at_ =? DAT_PP).
  { apply wmap_ok_inv in E. destruct E as [w1 [q [E1 E2]]]. inversion E2; subst. apply wlift_ok in E1.
    destruct (pp_sound _ _ _ _ F E1) as [A B]. apply plain_attrs; [exact A|lia|exact S|exact C]. }
  destruct (at_ =? DAT_PM); [|discriminate E].
  apply wmap_ok_inv in E. destruct E as [w1 [q [E1 E2]]]. inversion E2; subst.
  destruct (pm_sound _ _ _ _ _ F E1) as [A B]. apply plain_attrs; [exact A|lia|exact S|exact C].
Qed.

Lemma frame_sound strict ck fp cal conf n fl data ws p m : is_bytes data ->
  match conf with Some c => fp = false -> strict = true -> is_code c | None => True end ->
  (cal = true -> fp = false) ->
  decode_frame ck fp cal conf n fl data = (ws, Ok (p, m)) -> sound_packet strict fp p.
Proof.
  intros F C L E. unfold decode_frame in E. cbv zeta in E.
  destruct (destination_address_type (Z.land fl 7)) as [at_|e]; [|inversion E; exact I].
  assert (P : 0 <= Z.land (Z.shiftr fl 6) 3 <= 3) by apply two_bits.
  assert (T : forall (mm : W (packet * nat)) (h : exn -> packet * nat) ws r,
    wtry mm h = (ws, Ok r) -> mm = (ws, Ok r) \/ exists e, r = h e).
  { clear. intros [w [a|e]] h ws r H; cbn [wtry] in H; inversion H; subst; eauto. }
  assert (F1 : is_bytes (skipn 1 data)) by now apply is_bytes_skipn.
  destruct fp.
  - destruct (skipn 1 data) as [|source data']; [inversion E; exact I|].
    apply is_bytes_cons in F1. destruct F1 as [B1 F1]. apply T in E. destruct E as [E|[e E]].
    + eapply payload_sound; [| | | | |exact E]; try assumption.
    + inversion E. exact I.
  - apply T in E. destruct E as [E|[e E]].
    + eapply payload_sound; [| | | | |exact E]; try assumption. exact I.
    + inversion E. exact I.
Qed.

Lemma hex_sound strict ck fp cal conf n digits ws p m :
  match conf with Some c => fp = false -> strict = true -> is_code c | None => True end ->
  (cal = true -> fp = false) ->
  decode_hex ck strict fp cal conf n digits = (ws, Ok (Some p, m)) -> sound_packet strict fp p.
Proof.
  intros C L E. unfold decode_hex in E.
  destruct (forallb (fun c => mem c HEX_CHARS) digits) eqn:H; cbn [negb] in E; [|inversion E; exact I].
  assert (F : Forall hex_char digits).
  { apply Forall_forall. intros x I. rewrite forallb_forall in H. apply hex_mem, H, I. }
  apply wbind_ok in E. destruct E as [w1 [raw [w2 [E1 E]]]]. apply wlift_ok in E1. cbv zeta in E.
  assert (B : is_bytes raw) by (destruct (b16decode_hex digits F) as [[r [R [Q _]]]|[R _]]; congruence).
  assert (G : forall data ws, is_bytes data ->
    wbind (wlift (py_index data 0)) (fun fl => wmap (fun '(p0, n0) => (Some p0, n0)) (decode_frame ck fp cal conf n fl data))
    = (ws, Ok (Some p, m)) -> sound_packet strict fp p).
  { clear - C L. intros data ws B E. apply wbind_ok in E. destruct E as [w1 [fl [w2 [_ E]]]].
    apply wmap_ok_inv in E. destruct E as [w3 [[q k] [E1 E2]]]. inversion E2; subst.
    eapply frame_sound; [| | |exact E1]; assumption. }
  assert (PI : is_bytes (py_init raw)).
  { unfold py_init. unfold is_bytes in *. rewrite Forall_forall in *. intros x I. apply B.
    destruct raw as [|y raw]; [exact I|]. clear - I. revert y I. induction raw as [|z raw IH]; intros y I; [destruct I|].
    destruct I as [I|I]; [now left|]. right. now apply IH. }
  destruct ck; [|eapply G; [|exact E]; exact B].
  apply wbind_ok in E. destruct E as [w3 [ok [w4 [_ E]]]].
  destruct ok; [eapply G; [|exact E]; exact PI|].
  destruct strict; [inversion E; exact I|].
  unfold wwarn in E. apply (f_equal snd) in E. cbn [snd] in E. eapply G; [exact PI|].
  rewrite surjective_pairing at 1. rewrite E. reflexivity.
Qed.

Lemma line_sound strict ck fp n line ws p m :
  decode_line ck strict fp n line = (ws, Ok (Some p, m)) -> sound_packet strict fp p.
Proof.
  intros E. destruct line as [|c0 tl]; [discriminate E|]. unfold decode_line in E. destruct fp.
  { eapply hex_sound; [| |exact E]; [exact I|discriminate]. }
  match type of E with (let '(_, _) := ?x in _) = _ => destruct x as [[ck' cal] data] end.
  apply wbind_ok in E. destruct E as [w1 [l [w2 [_ E]]]].
  destruct (mem l HEX_CHARS). { eapply hex_sound; [| |exact E]; [exact I|reflexivity]. }
  destruct (mem l CONFIRMATION_CODES) eqn:K.
  { eapply hex_sound; [| |exact E]; [|reflexivity]. intros _ _. apply mem_spec in K. now apply code_spec. }
  destruct strict; [inversion E; exact I|].
  unfold wwarn in E. apply (f_equal snd) in E. cbn [snd] in E.
  eapply (hex_sound false ck' false cal (Some l) n (py_init data) _ p m).
  - intros _ Q. discriminate Q.
  - reflexivity.
  - rewrite surjective_pairing at 1. rewrite E. reflexivity.
Qed.

Lemma decode_sound data ck strict fp ws p n :
  decode_packet data ck strict fp = (ws, Ok (Some p, n)) -> sound_packet strict fp p.
Proof.
  intros E. destruct data as [|c0 tl]; [discriminate E|]. unfold decode_packet in E. destruct fp.
  - destruct (c0 =? 43); [inversion E; reflexivity|]. destruct (c0 =? 33); [inversion E; reflexivity|].
    destruct tl as [|c1 tl]; [discriminate E|].
    destruct (mem c0 CONFIRMATION_CODES) eqn:K.
    { inversion E. split; [reflexivity|]. exists c0. split; [reflexivity|]. apply mem_spec in K. now apply code_spec. }
    destruct (find END_RESPONSE (c0 :: c1 :: tl)); [|discriminate E]. eapply line_sound, E.
  - destruct (c0 =? 126); [inversion E; reflexivity|].
    match type of E with (if ?b then _ else _) = _ => destruct b; [discriminate E|] end.
    match type of E with (if ?b then _ else _) = _ => destruct b; [inversion E; reflexivity|] end.
    destruct (find END_COMMAND (c0 :: tl)) as [e|]; [|discriminate E].
    destruct (find [63] (c0 :: tl)) as [q|].
    + destruct (Nat.ltb q e); [discriminate E|]. eapply line_sound, E.
    + eapply line_sound, E.
Qed.
