(** Lemmas for C100. *)
From Coq Require Import List ZArith QArith Bool Lia ZifyBool ZifyNat.
From Verif Require Import Py Common Sal Cal Packet Base Spec Spec_wire Spec_reading Common_facts Sal_facts
  Cal_facts Packet_facts Packet_roundtrip Packet_decode Packet_total.
Import ListNotations.
Open Scope Z_scope.
Ltac Zify.zify_post_hook ::= Z.div_mod_to_equations.

Lemma wmap_inv {A B} (f : A -> B) (m : W A) ws b : wmap f m = (ws, Ok b) ->
  exists a, m = (ws, Ok a) /\ b = f a.
Proof.
  unfold wmap. destruct m as [w [a|e]]; cbn; intros E; [|discriminate].
  injection E as <- <-. eauto.
Qed.
Lemma wmap_fwd {A B} (f : A -> B) (m : W A) ws a : m = (ws, Ok a) -> wmap f m = (ws, Ok (f a)).
Proof. now intros ->. Qed.
Lemma wwarn_inv {A} w (m : W A) ws a : wwarn w m = (ws, Ok a) -> exists ws', ws = w :: ws' /\ m = (ws', Ok a).
Proof. unfold wwarn. destruct m as [w' r]. cbn. intros E. injection E as <- ->. eauto. Qed.
Lemma wwarn_fwd {A} w (m : W A) ws a : m = (ws, Ok a) -> wwarn w m = (w :: ws, Ok a).
Proof. now intros ->. Qed.

(** ** Commands *)

Ltac new_light := unfold new_light_on, new_light_off, new_light_terminate, new_light_ramp;
  rewrite check_ga_ok by (unfold byte in *; lia); cbn [rbind]; rewrite ?wbind_lift_ok.

Lemma light_read n data ws l : (length data <= n)%nat -> is_bytes data ->
  decode_lighting data = (ws, Ok l) -> light_says data l ws.
Proof.
  revert data ws l. induction n as [|n IH]; intros data ws l Hn Hb E.
  { destruct data; [|simpl in Hn; lia]. injection E as <- <-. constructor. }
  destruct data as [|c [|ga rest]].
  - injection E as <- <-. constructor.
  - injection E as <- <-. apply light_stop. constructor.
  - apply is_bytes_cons in Hb. destruct Hb as [Hc Hb]. apply is_bytes_cons in Hb. destruct Hb as [Hga Hb].
    assert (HC := handler_cases c). cbn [decode_lighting] in E. cbn [length] in Hn.
    destruct (light_handler_of c) as [[]|].
    + revert E. new_light. intros E. apply wmap_inv in E. destruct E as [l' [E ->]]. subst c.
      apply light_on, IH; auto; lia.
    + revert E. new_light. intros E. apply wmap_inv in E. destruct E as [l' [E ->]]. subst c.
      apply light_off, IH; auto; lia.
    + revert E. new_light. intros E. apply wmap_inv in E. destruct E as [l' [E ->]]. subst c.
      apply light_terminate, IH; auto; lia.
    + destruct HC as [d Hd]. rewrite (rate_to_duration_ok _ _ Hd), wbind_lift_ok in E.
      destruct rest as [|level rest].
      { injection E as <- <-. apply light_stop. econstructor; eassumption. }
      apply is_bytes_cons in Hb. destruct Hb as [Hlv Hb].
      revert E. new_light. intros E. apply wmap_inv in E. destruct E as [l' [E ->]].
      apply light_ramp; [exact Hd|]. cbn [length] in Hn. apply IH; auto; lia.
    + injection E as <- <-. apply light_stop. now constructor.
Qed.

Lemma light_written data l ws : light_says data l ws -> is_bytes data -> decode_lighting data = (ws, Ok l).
Proof.
  induction 1 as [|ga rest l ws L IH|ga rest l ws L IH|ga rest l ws L IH|code d ga level rest l ws R L IH|rest w U];
    intros Hb; cbn [app] in *; repeat (rewrite is_bytes_cons in Hb).
  - reflexivity.
  - destruct Hb as [_ [Hga Hb]]. cbn [decode_lighting]. change (light_handler_of 121) with (Some HOn).
    cbn iota. new_light. now apply wmap_fwd, IH.
  - destruct Hb as [_ [Hga Hb]]. cbn [decode_lighting]. change (light_handler_of 1) with (Some HOff).
    cbn iota. new_light. now apply wmap_fwd, IH.
  - destruct Hb as [_ [Hga Hb]]. cbn [decode_lighting]. change (light_handler_of 9) with (Some HTerminate).
    cbn iota. new_light. now apply wmap_fwd, IH.
  - destruct Hb as [_ [Hga [Hlv Hb]]]. cbn [decode_lighting]. rewrite (handler_ramp _ _ R), (rate_to_duration_ok _ _ R), wbind_lift_ok.
    new_light. now apply wmap_fwd, IH.
  - destruct U as [c|c x r N|c ga d R]; cbn [decode_lighting]; [reflexivity| |].
    + assert (HC := handler_cases c). unfold light_code in N. destruct (light_handler_of c) as [[]|]; [exfalso; apply N..|reflexivity];
        unfold LC_ON, LC_OFF, LC_TERMINATE_RAMP in HC; tauto.
    + now rewrite (handler_ramp _ _ R), (rate_to_duration_ok _ _ R), wbind_lift_ok.
Qed.
Lemma light_iff data l ws : is_bytes data -> (decode_lighting data = (ws, Ok l) <-> light_says data l ws).
Proof.
  intros B. split; intros H; [eapply light_read; [reflexivity|exact B|exact H]|now apply light_written].
Qed.

(** Bits of a byte. *)
Lemma land_128 c : byte c -> (Z.land c 128 =? 128) = (128 <=? c).
Proof.
  intros B. apply eqb_prop. apply (byte_sweep (fun c => eqb (Z.land c 128 =? 128) (128 <=? c))); [vm_compute; reflexivity|exact B].
Qed.
Lemma land_224_zero c : byte c -> (Z.land c 224 =? 0) = (c <? 32).
Proof.
  intros B. apply eqb_prop. apply (byte_sweep (fun c => eqb (Z.land c 224 =? 0) (c <? 32))); [vm_compute; reflexivity|exact B].
Qed.
Lemma land_248_8 c : byte c -> (Z.land c 248 =? 8) = ((8 <=? c) && (c <=? 15)).
Proof.
  intros B. apply eqb_prop. apply (byte_sweep (fun c => eqb (Z.land c 248 =? 8) ((8 <=? c) && (c <=? 15)))); [vm_compute; reflexivity|exact B].
Qed.

Lemma temperature_iff data l ws : is_bytes data -> (decode_temperature data = (ws, Ok l) <-> temperature_says data l ws).
Proof.
  revert l ws. induction data as [|a|a b|a b c rest IH] using list_ind3; intros l ws B.
  - split; [intros E; injection E as <- <-; constructor|]. intros S. inversion S; subst; [reflexivity|cbn [length] in *; lia].
  - split; [intros E; injection E as <- <-; constructor; cbn [length]; lia|]. intros S. now inversion S.
  - split; [intros E; injection E as <- <-; constructor; cbn [length]; lia|]. intros S. now inversion S.
  - rewrite !is_bytes_cons in B. destruct B as [Ba [Bb [Bc Br]]]. cbn [decode_temperature].
    rewrite land_128 by exact Ba. rewrite land_7. split.
    + destruct (128 <=? a) eqn:L; [intros E; injection E as <- <-; apply (temperature_long a b c rest); lia|].
      destruct (a mod 8 =? 2) eqn:M; cbn [negb]; [|intros E; injection E as <- <-; apply (temperature_length a b c rest); lia].
      intros E. apply wmap_inv in E. destruct E as [l' [E ->]]. apply (temperature_value a b c rest); [lia..|now apply IH].
    + intros S. remember (a :: b :: c :: rest) as d eqn:Q.
      destruct S as [|code ga t rest' l ws Lt Mo S|code x y rest' Lt|code x y rest' Lt Mo|rest' Len]; cbn [app] in Q;
        try (injection Q as -> -> -> ->); try discriminate.
      * replace (128 <=? a) with false by lia. replace (a mod 8 =? 2) with true by lia. cbn [negb]. now apply wmap_fwd, IH.
      * now replace (128 <=? a) with true by lia.
      * replace (128 <=? a) with false by lia. now replace (a mod 8 =? 2) with false by lia.
      * subst rest'. cbn [length] in Len. lia.
Qed.
Lemma enable_iff data l ws : is_bytes data -> (decode_enable data = (ws, Ok l) <-> enable_says data l ws).
Proof.
  revert l ws. induction data as [|a|a b|a b c rest IH] using list_ind3; intros l ws B.
  - split; [intros E; injection E as <- <-; constructor|]. intros S. inversion S; subst; [reflexivity|cbn [length] in *; lia].
  - split; [intros E; injection E as <- <-; constructor; cbn [length]; lia|]. intros S. now inversion S.
  - split; [intros E; injection E as <- <-; constructor; cbn [length]; lia|]. intros S. now inversion S.
  - rewrite !is_bytes_cons in B. destruct B as [Ba [Bb [Bc Br]]]. cbn [decode_enable].
    rewrite land_128 by exact Ba. rewrite land_7. split.
    + destruct (128 <=? a) eqn:L; [intros E; injection E as <- <-; apply (enable_long a b c rest); lia|].
      destruct (a mod 8 =? 2) eqn:M; cbn [negb]; [|intros E; injection E as <- <-; apply (enable_length a b c rest); lia].
      intros E. apply wmap_inv in E. destruct E as [l' [E ->]]. apply (enable_value a b c rest); [lia..|now apply IH].
    + intros S. remember (a :: b :: c :: rest) as d eqn:Q.
      destruct S as [|code ga t rest' l ws Lt Mo S|code x y rest' Lt|code x y rest' Lt Mo|rest' Len]; cbn [app] in Q;
        try (injection Q as -> -> -> ->); try discriminate.
      * replace (128 <=? a) with false by lia. replace (a mod 8 =? 2) with true by lia. cbn [negb]. now apply wmap_fwd, IH.
      * now replace (128 <=? a) with true by lia.
      * replace (128 <=? a) with false by lia. now replace (a mod 8 =? 2) with false by lia.
      * subst rest'. cbn [length] in Len. lia.
Qed.

Lemma wbind_some {A B} (m : W A) (f : A -> W B) ws b : wbind m f = (ws, Ok b) ->
  exists w1 w2 a, m = (w1, Ok a) /\ f a = (w2, Ok b) /\ ws = w1 ++ w2.
Proof.
  unfold wbind. destruct m as [w1 [a|e]]; intros E; [|discriminate].
  destruct (f a) as [w2 r] eqn:F. cbn in E. injection E as <- ->. eauto 6.
Qed.
Lemma skipn_bytes n l : is_bytes l -> is_bytes (skipn n l).
Proof. intros H. apply Forall_forall. intros x Hx. apply (proj1 (Forall_forall _ _) H). rewrite <- (firstn_skipn n l). apply in_or_app. now right. Qed.

Lemma clock_read n data ws l : (length data <= n)%nat -> is_bytes data ->
  decode_clock data = (ws, Ok l) -> clock_says data l ws.
Proof.
  revert data ws l. induction n as [|n IH]; intros data ws l Hn Hb E.
  { destruct data; [|simpl in Hn; lia]. injection E as <- <-. constructor. }
  destruct data as [|c data]; [injection E as <- <-; constructor|].
  rewrite decode_clock_cons in E. apply is_bytes_cons in Hb. destruct Hb as [Hc Hb]. cbn [length] in Hn.
  rewrite land_128, land_224_zero in E by exact Hc. change CLOCK_UPDATE_NETWORK_VARIABLE with 8 in E.
  rewrite land_248_8 in E by exact Hc.
  destruct (128 <=? c) eqn:L; [injection E as <- <-; apply clock_long; lia|].
  destruct (c <? 32) eqn:L2; cbn [negb] in E; [|injection E as <- <-; apply clock_bits; lia].
  destruct ((8 <=? c) && (c <=? 15)) eqn:R.
  - apply wbind_some in E. destruct E as [w1 [w2 [[o rest] [E1 [E2 ->]]]]]. cbn [fst snd] in E2.
    apply wmap_inv in E2. destruct E2 as [l' [E2 ->]].
    assert (Qc : c = 8 + Z.of_nat (Z.to_nat (c - 8))) by lia.
    assert (Ln : Z.to_nat (Z.land c 7) = Z.to_nat (c - 8)) by (rewrite land_7; lia).
    unfold clock_update_decode in E1. rewrite Ln in E1. set (k := Z.to_nat (c - 8)) in *.
    assert (Lk : (k <= 7)%nat) by lia. clear Ln. clearbody k.
    destruct data as [|var data]; [discriminate|]. cbn [py_index nth_error] in E1. rewrite wbind_lift_ok in E1. cbv zeta in E1.
    assert (IHk : forall w x j, decode_clock (skipn j (var :: data)) = (w, Ok x) -> clock_says (skipn j (var :: data)) x w).
    { intros w x j. apply IH; [rewrite skipn_length; lia|now apply skipn_bytes]. }
    change CLOCK_DATE with 2 in E1. change CLOCK_TIME with 1 in E1.
    destruct (var =? 2) eqn:V2.
    + assert (var = 2) by lia. subst var. destruct (Nat.eqb k 6) eqn:K; cbn [negb] in E1.
      * assert (k = 6)%nat by lia. subst k. change (8 + Z.of_nat 6) with 14 in Qc. subst c.
        destruct data as [|y1 [|y0 [|m [|d [|any data]]]]]; try discriminate. cbn [py_slice Nat.sub skipn firstn] in E1.
        destruct (date_ok (256 * y1 + y0) m d) eqn:D; [|discriminate]. injection E1 as <- <- <-.
        apply date_ok_spec in D. apply (clock_date y1 y0 m d any data); [exact D|]. exact (IHk _ _ 6%nat E2).
      * apply wwarn_inv in E1. destruct E1 as [w' [-> E1]]. injection E1 as <- <- <-. rewrite Qc.
        cbn [opt_cons app]. apply clock_date_length; [lia|lia|]. now apply IHk.
    + destruct (var =? 1) eqn:V1.
      * assert (var = 1) by lia. subst var. destruct (Nat.eqb k 5) eqn:K; cbn [negb] in E1.
        -- assert (k = 5)%nat by lia. subst k. change (8 + Z.of_nat 5) with 13 in Qc. subst c.
           destruct data as [|h [|mi [|s [|any data]]]]; try discriminate. cbn [py_slice Nat.sub skipn firstn] in E1.
           destruct (time_ok h mi s 0) eqn:D; [|discriminate]. injection E1 as <- <- <-.
           apply time_ok_spec in D. apply (clock_time h mi s any data); [exact D|]. exact (IHk _ _ 5%nat E2).
        -- apply wwarn_inv in E1. destruct E1 as [w' [-> E1]]. injection E1 as <- <- <-. rewrite Qc.
           cbn [opt_cons app]. apply clock_time_length; [lia|lia|]. now apply IHk.
      * apply wwarn_inv in E1. destruct E1 as [w' [-> E1]]. injection E1 as <- <- <-. rewrite Qc.
        cbn [opt_cons app]. rewrite skipn_skipn in E2. apply clock_variable; [lia..|]. now apply IHk.
  - change CLOCK_REQUEST_REFRESH with 17 in E. destruct (c =? 17) eqn:C17; [|injection E as <- <-; apply clock_unknown; lia].
    assert (c = 17) by lia. subst c.
    apply wbind_some in E. destruct E as [w1 [w2 [[o rest] [E1 [E2 ->]]]]]. cbn [fst snd] in E2.
    apply wmap_inv in E2. destruct E2 as [l' [E2 ->]]. unfold clock_request_decode in E1.
    destruct data as [|x data]; [discriminate|]. cbn [py_index nth_error] in E1. rewrite wbind_lift_ok in E1. cbv zeta in E1.
    apply is_bytes_cons in Hb. destruct Hb as [Hx Hb]. cbn [length] in Hn. cbn [skipn] in E1.
    destruct (x =? 3) eqn:X3; cbn [negb] in E1.
    + assert (x = 3) by lia. subst x. injection E1 as <- <- <-. apply clock_ask. apply IH; [lia|exact Hb|exact E2].
    + apply wwarn_inv in E1. destruct E1 as [w' [-> E1]]. injection E1 as <- <- <-.
      apply (clock_ask_odd x data); [lia|]. apply IH; [lia|exact Hb|exact E2].
Qed.

Lemma clock_head n data : (n <= 7)%nat ->
  decode_clock (8 + Z.of_nat n :: data)
  = wbind (clock_update_decode data (8 + Z.of_nat n)) (fun r => wmap (opt_cons (fst r)) (decode_clock (snd r))).
Proof.
  intros H. rewrite decode_clock_cons. do 8 (destruct n as [|n]; [reflexivity|]). lia.
Qed.
Lemma clock_head_length n : (n <= 7)%nat -> Z.to_nat (Z.land (8 + Z.of_nat n) 7) = n.
Proof. intros H. rewrite land_7. lia. Qed.

Lemma clock_written data l ws : clock_says data l ws -> is_bytes data -> decode_clock data = (ws, Ok l).
Proof.
  induction 1 as [|y1 y0 m d any rest l ws V S IH|h mi s any rest l ws V S IH|rest l ws S IH|x rest l ws N S IH
    |n rest l ws L N S IH|n rest l ws L N S IH|n var rest l ws L N1 N2 S IH|c rest L|c rest L|c rest L N1 N2];
    intros Hb; cbn [app] in *.
  - reflexivity.
  - rewrite !is_bytes_cons in Hb. change 14 with (8 + Z.of_nat 6). rewrite clock_head by lia. unfold clock_update_decode.
    cbn [py_index nth_error]. rewrite wbind_lift_ok. rewrite clock_head_length by lia. cbn [py_slice Nat.sub skipn firstn].
    change (2 =? CLOCK_DATE) with true. cbn [Nat.eqb negb]. rewrite (proj2 (date_ok_spec _ _ _) V).
    rewrite wbind_ret. cbn [fst snd]. now rewrite (wmap_fwd _ _ _ _ (IH ltac:(tauto))).
  - rewrite !is_bytes_cons in Hb. change 13 with (8 + Z.of_nat 5). rewrite clock_head by lia. unfold clock_update_decode.
    cbn [py_index nth_error]. rewrite wbind_lift_ok. rewrite clock_head_length by lia. cbn [py_slice Nat.sub skipn firstn].
    change (1 =? CLOCK_DATE) with false. change (1 =? CLOCK_TIME) with true. cbn [Nat.eqb negb].
    rewrite (proj2 (time_ok_spec _ _ _ _) V). rewrite wbind_ret. cbn [fst snd]. now rewrite (wmap_fwd _ _ _ _ (IH ltac:(tauto))).
  - rewrite !is_bytes_cons in Hb. rewrite decode_clock_cons. change (Z.land 17 128 =? 128) with false.
    change (Z.land 17 224 =? 0) with true. change (Z.land 17 248 =? _) with false. change (17 =? _) with true. cbn [negb].
    unfold clock_request_decode. cbn [py_index nth_error]. rewrite wbind_lift_ok. cbn [skipn]. change (3 =? 3) with true. cbn [negb].
    rewrite wbind_ret. cbn [fst snd]. now rewrite (wmap_fwd _ _ _ _ (IH ltac:(tauto))).
  - rewrite !is_bytes_cons in Hb. rewrite decode_clock_cons. change (Z.land 17 128 =? 128) with false.
    change (Z.land 17 224 =? 0) with true. change (Z.land 17 248 =? _) with false. change (17 =? _) with true. cbn [negb].
    unfold clock_request_decode. cbn [py_index nth_error]. rewrite wbind_lift_ok. cbn [skipn]. replace (x =? 3) with false by lia. cbn [negb].
    rewrite wbind_warn. cbn [fst snd]. apply wwarn_fwd. now rewrite (wmap_fwd _ _ _ _ (IH ltac:(tauto))).
  - rewrite is_bytes_cons in Hb. rewrite clock_head by exact L. unfold clock_update_decode. cbn [py_index nth_error].
    rewrite wbind_lift_ok. rewrite clock_head_length by exact L. change (2 =? CLOCK_DATE) with true. cbv zeta.
    replace (Nat.eqb n 6) with false by lia. cbn [negb]. rewrite wbind_warn. cbn [fst snd]. apply wwarn_fwd.
    now rewrite (wmap_fwd _ _ _ _ (IH ltac:(apply skipn_bytes; tauto))).
  - rewrite is_bytes_cons in Hb. rewrite clock_head by exact L. unfold clock_update_decode. cbn [py_index nth_error].
    rewrite wbind_lift_ok. rewrite clock_head_length by exact L. change (1 =? CLOCK_DATE) with false. change (1 =? CLOCK_TIME) with true. cbv zeta.
    replace (Nat.eqb n 5) with false by lia. cbn [negb]. rewrite wbind_warn. cbn [fst snd]. apply wwarn_fwd.
    now rewrite (wmap_fwd _ _ _ _ (IH ltac:(apply skipn_bytes; tauto))).
  - rewrite is_bytes_cons in Hb. rewrite clock_head by exact L. unfold clock_update_decode. cbn [py_index nth_error].
    rewrite wbind_lift_ok. rewrite clock_head_length by exact L. cbv zeta. unfold CLOCK_DATE, CLOCK_TIME.
    replace (var =? 2) with false by lia. replace (var =? 1) with false by lia. rewrite wbind_warn. cbn [fst snd]. apply wwarn_fwd.
    rewrite skipn_skipn. now rewrite (wmap_fwd _ _ _ _ (IH ltac:(apply skipn_bytes; tauto))).
  - rewrite is_bytes_cons in Hb. rewrite decode_clock_cons, land_128 by tauto. now replace (128 <=? c) with true by lia.
  - rewrite is_bytes_cons in Hb. rewrite decode_clock_cons, land_128, land_224_zero by tauto.
    replace (128 <=? c) with false by lia. now replace (c <? 32) with false by lia.
  - rewrite is_bytes_cons in Hb. rewrite decode_clock_cons, land_128, land_224_zero by tauto.
    replace (128 <=? c) with false by lia. replace (c <? 32) with true by lia. cbn [negb].
    unfold CLOCK_UPDATE_NETWORK_VARIABLE, CLOCK_REQUEST_REFRESH. rewrite land_248_8 by tauto.
    replace ((8 <=? c) && (c <=? 15)) with false by lia. now replace (c =? 17) with false by lia.
Qed.
Lemma clock_iff data l ws : is_bytes data -> (decode_clock data = (ws, Ok l) <-> clock_says data l ws).
Proof.
  intros B. split; intros H; [eapply clock_read; [reflexivity|exact B|exact H]|now apply clock_written].
Qed.
Lemma status_iff data l ws : decode_status data = (ws, Ok l) <-> ws = [] /\ status_stream data l.
Proof.
  split.
  - intros E. eapply status_decode_stream_aux in E; [tauto|reflexivity].
  - intros [-> S]. now apply status_stream_decode.
Qed.

(** ** Management messages *)

Lemma land_224_128 c : byte c -> (Z.land c 224 =? 128) = ((128 <=? c) && (c <=? 159)).
Proof.
  intros B. apply eqb_prop. apply (byte_sweep (fun c => eqb (Z.land c 224 =? 128) ((128 <=? c) && (c <=? 159)))); [vm_compute; reflexivity|exact B].
Qed.
Lemma land_224_192 c : byte c -> (Z.land c 224 =? 192) = ((192 <=? c) && (c <=? 223)).
Proof.
  intros B. apply eqb_prop. apply (byte_sweep (fun c => eqb (Z.land c 224 =? 192) ((192 <=? c) && (c <=? 223)))); [vm_compute; reflexivity|exact B].
Qed.
Lemma land_224_224 c : byte c -> (Z.land c 224 =? 224) = (224 <=? c).
Proof.
  intros B. apply eqb_prop. apply (byte_sweep (fun c => eqb (Z.land c 224 =? 224) (224 <=? c))); [vm_compute; reflexivity|exact B].
Qed.
Lemma land_64_bit c : byte c -> (0 <? Z.land c 64) = (64 <=? c mod 128).
Proof.
  intros B. apply eqb_prop. apply (byte_sweep (fun c => eqb (0 <? Z.land c 64) (64 <=? c mod 128))); [vm_compute; reflexivity|exact B].
Qed.
Lemma coding_parts c : byte c -> c = c mod 8 + 8 * (c mod 64 / 8) + (if 64 <=? c mod 128 then 64 else 0) + 128 * (c / 128).
Proof.
  intros B. apply Z.eqb_eq.
  apply (byte_sweep (fun c => c =? c mod 8 + 8 * (c mod 64 / 8) + (if 64 <=? c mod 128 then 64 else 0) + 128 * (c / 128)));
    [vm_compute; reflexivity|exact B].
Qed.
Lemma coding_iff c kind ext : byte c -> 0 <= kind <= 7 ->
  (coding_says c kind ext <-> Z.land c 7 = kind /\ (0 <? Z.land c 64) = ext).
Proof.
  intros B K. rewrite land_7, land_64_bit by exact B. unfold coding_says, byte in *. split.
  - intros [i [j [Hi [Hj Q]]]].
    assert (M8 : kind = c mod 8) by (apply (Z.mod_unique_pos c 8 (i + (if ext then 8 else 0) + 16 * j)); destruct ext; lia).
    assert (M128 : kind + 8 * i + (if ext then 64 else 0) = c mod 128) by (apply (Z.mod_unique_pos c 128 j); destruct ext; lia).
    rewrite <- M8, <- M128. split; [reflexivity|]. destruct ext; lia.
  - intros [M Q]. exists (c mod 64 / 8), (c / 128). split; [lia|]. split; [lia|]. rewrite <- Q, <- M. now apply coding_parts.
Qed.

Lemma pair_bits c : byte c ->
  [Z.land c 3; Z.land (Z.shiftr c 2) 3; Z.land (Z.shiftr c 4) 3; Z.land (Z.shiftr c 6) 3]
  = [c mod 4; c / 4 mod 4; c / 16 mod 4; c / 64].
Proof.
  intros B. rewrite !land_3, !Z.shiftr_div_pow2 by lia. change (2 ^ 2) with 4. change (2 ^ 4) with 16. change (2 ^ 6) with 64.
  unfold byte in B. now replace (c / 64 mod 4) with (c / 64) by lia.
Qed.
Lemma states_iff w l : is_bytes w -> (states_say w l <-> l = binary_decode w).
Proof.
  revert l. induction w as [|x w IH]; intros l B.
  - split; [now inversion 1|intros ->; constructor].
  - apply is_bytes_cons in B. destruct B as [Bx Bw]. unfold binary_decode. cbn [flat_map]. rewrite pair_bits by exact Bx.
    fold (binary_decode w). cbn [app]. split.
    + intros H. remember (x :: w) as xw eqn:Q. destruct H as [|a b c d w' l Ha Hb Hc Hd H]; [discriminate|].
      assert (Q1 : a + 4 * b + 16 * c + 64 * d = x) by congruence. assert (w' = w) by congruence. subst w'. clear Q. apply IH in H; [|exact Bw]. unfold group_state, byte in *. subst l.
      assert (x mod 4 = a) by lia. assert (x / 4 mod 4 = b) by lia. assert (x / 16 mod 4 = c) by lia. assert (x / 64 = d) by lia. congruence.
    + intros ->. replace x with (x mod 4 + 4 * (x / 4 mod 4) + 16 * (x / 16 mod 4) + 64 * (x / 64)) at 1 by lia.
      unfold byte in Bx. constructor; unfold group_state; try lia. now apply IH.
Qed.
Lemma levels_iff w l : is_bytes w -> (levels_say w l <-> level_decode w = Ok l).
Proof.
  intros B. transitivity ((length w mod 2 = 0)%nat /\ level_decode_pairs w = Ok l).
  2:{ unfold level_decode. destruct (Nat.eqb (length w mod 2) 0) eqn:E; cbn [negb].
      - apply Nat.eqb_eq in E. tauto.
      - apply Nat.eqb_neq in E. split; [tauto|discriminate]. }
  revert l B. induction w as [|a|a b w IH] using list_ind2; intros l B.
  - split; [inversion 1; auto|]. intros [_ E]. injection E as <-. constructor.
  - split; [now inversion 1|]. intros [E _]. discriminate.
  - rewrite !is_bytes_cons in B. destruct B as [Ba [Bb Bw]]. cbn [level_decode_pairs].
    assert (P : (length (a :: b :: w) mod 2 = 0)%nat <-> (length w mod 2 = 0)%nat).
    { cbn [length]. split; intros; lia. }
    rewrite P. split.
    + intros H. remember (a :: b :: w) as xw eqn:Q. destruct H as [|v b0 b1 w' l M H|b0 b1 w' l M H]; [discriminate| |];
        injection Q as -> -> ->; apply IH in H; try exact Bw; destruct H as [H1 H2]; (split; [exact H1|]).
      * apply (manchester_decode_iff a b v Ba Bb) in M. rewrite M. cbn [rbind]. now rewrite H2.
      * rewrite manchester_decode_none by assumption. cbn [rbind]. now rewrite H2.
    + intros [H1 H2]. destruct (manchester_decode [a; b]) as [v|e] eqn:M; cbn [rbind] in H2; [|discriminate].
      destruct (level_decode_pairs w) as [r|] eqn:R; cbn [rbind] in H2; [|discriminate]. injection H2 as <-.
      destruct v as [v|].
      * apply manchester_decode_iff in M; [|assumption..]. apply levels_say_some; [exact M|]. apply IH; auto.
      * apply levels_say_none; [|apply IH; auto]. intros v Hv. apply (manchester_decode_iff a b v Ba Bb) in Hv. congruence.
Qed.

Lemma firstn_bytes n l : is_bytes l -> is_bytes (firstn n l).
Proof. intros H. apply Forall_forall. intros x Hx. apply (proj1 (Forall_forall _ _) H). rewrite <- (firstn_skipn n l). apply in_or_app. now left. Qed.
Lemma slice_from_1 n x (l : bytes) : py_slice 1 (n + 1) (x :: l) = firstn n l.
Proof. unfold py_slice. cbn [skipn]. f_equal. lia. Qed.

Lemma cal_read data c k : is_bytes data -> decode_cal data = Ok (c, k) ->
  exists b rest, data = b ++ rest /\ cal_says b c /\ k = length b.
Proof.
  intros B E. unfold decode_cal in E. destruct data as [|cmd data]; [discriminate|]. cbn [py_index nth_error rbind] in E.
  apply is_bytes_cons in B. destruct B as [Bc B].
  change CAL_REPLY with 128 in E. change CAL_STANDARD_STATUS with 192 in E. change CAL_EXTENDED_STATUS with 224 in E.
  rewrite land_224_128, land_224_192, land_224_224, land_31 in E by exact Bc. cbv zeta in E.
  set (n := Z.to_nat (cmd mod 32)) in *. rewrite slice_from_1 in E. cbn [length] in E.
  assert (Sp : data = firstn n data ++ skipn n data) by (symmetry; apply firstn_skipn).
  assert (Bf := firstn_bytes n data B).
  destruct ((128 <=? cmd) && (cmd <=? 159)) eqn:R1.
  { destruct (Nat.ltb (S (length data)) (n + 1)) eqn:L; [discriminate|].
    assert (Lf : length (firstn n data) = n) by (rewrite firstn_length; lia).
    unfold reply_decode in E. destruct (firstn n data) as [|p d] eqn:F; [discriminate|].
    cbn [py_index nth_error rbind skipn] in E. injection E as <- <-.
    exists (cmd :: p :: d), (skipn n data). split; [cbn [app]; f_equal; exact Sp|]. split.
    - replace cmd with (128 + Z.of_nat (length (p :: d))) at 1 by (rewrite Lf; unfold n; lia).
      apply (say_reply p d). cbn [length] in Lf. lia.
    - cbn [length] in *. lia. }
  destruct ((192 <=? cmd) && (cmd <=? 223)) eqn:R2; [discriminate|].
  destruct (224 <=? cmd) eqn:R3.
  { destruct (Nat.ltb (S (length data)) (n + 1)) eqn:L; [discriminate|].
    assert (Lf : length (firstn n data) = n) by (rewrite firstn_length; lia).
    unfold extended_decode in E. destruct (firstn n data) as [|coding [|child [|block w]]] eqn:F; try discriminate.
    cbn [py_index nth_error rbind skipn] in E. rewrite !is_bytes_cons in Bf. destruct Bf as [B1 [B2 [B3 Bw]]].
    assert (Lw : (length w <= 28)%nat) by (cbn [length] in Lf; unfold byte in Bc; lia).
    assert (Qc : cmd = 224 + Z.of_nat (3 + length w)) by (cbn [length] in Lf; unfold n, byte in *; lia).
    change EXT_BINARY with 0 in E. change EXT_LEVEL with 7 in E.
    exists (cmd :: coding :: child :: block :: w), (skipn n data). split; [cbn [app]; f_equal; exact Sp|].
    destruct (Z.land coding 7 =? 0) eqn:K0.
    - cbn [rbind] in E. injection E as <- <-. split; [|cbn [length] in *; lia]. rewrite Qc.
      apply (say_binary coding _ child block w); [apply coding_iff; [exact B1|lia|split; [lia|reflexivity]]|exact Lw|].
      now apply states_iff.
    - destruct (Z.land coding 7 =? 7) eqn:K7; [|discriminate].
      destruct (level_decode w) as [lv|] eqn:D; [|discriminate]. cbn [rbind] in E. injection E as <- <-.
      split; [|cbn [length] in *; lia]. rewrite Qc.
      apply (say_level coding _ child block w); [apply coding_iff; [exact B1|lia|split; [lia|reflexivity]]|exact Lw|].
      now apply levels_iff. }
  change CAL_IDENTIFY with 33 in E. change CAL_RECALL with 26 in E.
  destruct (cmd =? 33) eqn:I.
  { destruct data as [|a data]; [discriminate|]. cbn [py_index nth_error rbind] in E. unfold identify_attribute in E.
    destruct ((0 <=? a) && (a <=? 17)) eqn:A; [|discriminate]. cbn [rbind] in E. injection E as <- <-.
    exists [cmd; a], data. split; [reflexivity|]. split; [|reflexivity]. replace cmd with 33 by lia. constructor. lia. }
  destruct (cmd =? 26) eqn:I2; [|discriminate].
  destruct data as [|a [|b data]]; [discriminate|cbn in E; discriminate|]. cbn [py_index nth_error rbind] in E. injection E as <- <-.
  exists [cmd; a; b], data. split; [reflexivity|]. split; [|reflexivity]. replace cmd with 26 by lia. constructor.
Qed.

Lemma cal_written b c rest : cal_says b c -> is_bytes (b ++ rest) -> decode_cal (b ++ rest) = Ok (c, length b).
Proof.
  intros H B. destruct H as [a Ha|p n|p data L|coding ext child block w states K L Hs|coding ext child block w levels K L Hs].
  - cbn [app decode_cal py_index nth_error rbind]. unfold decode_cal. cbn [py_index nth_error rbind].
    change (Z.land 33 224 =? CAL_REPLY) with false. change (Z.land 33 224 =? CAL_STANDARD_STATUS) with false.
    change (Z.land 33 224 =? CAL_EXTENDED_STATUS) with false. change (33 =? CAL_IDENTIFY) with true. cbn iota.
    unfold identify_attribute. replace ((0 <=? a) && (a <=? 17)) with true by lia. reflexivity.
  - reflexivity.
  - cbn [app length] in *. rewrite !is_bytes_cons in B. destruct B as [Bc [Bp B]].
    unfold decode_cal. cbn [py_index nth_error rbind]. change CAL_REPLY with 128. rewrite land_224_128, land_31 by exact Bc.
    replace ((128 <=? _) && _) with true by lia. cbv zeta.
    replace (Z.to_nat ((128 + Z.of_nat (S (length data))) mod 32)) with (S (length data)) by lia.
    rewrite slice_from_1. cbn [firstn length]. rewrite app_length. replace (Nat.ltb _ _) with false by lia.
    rewrite firstn_app_length. unfold reply_decode. cbn [py_index nth_error rbind skipn]. do 2 f_equal. lia.
  - cbn [app length] in *. rewrite !is_bytes_cons in B. destruct B as [Bc [Bp [B1 [B2 B]]]].
    unfold decode_cal. cbn [py_index nth_error rbind]. change CAL_REPLY with 128. change CAL_STANDARD_STATUS with 192.
    change CAL_EXTENDED_STATUS with 224. rewrite land_224_128, land_224_192, land_224_224, land_31 by exact Bc.
    replace ((128 <=? _) && _) with false by lia. replace ((192 <=? _) && _) with false by lia.
    replace (224 <=? _) with true by lia. cbv zeta.
    replace (Z.to_nat ((224 + Z.of_nat (3 + length w)) mod 32)) with (S (S (S (length w)))) by lia.
    rewrite slice_from_1. cbn [firstn length]. rewrite app_length. replace (Nat.ltb _ _) with false by lia.
    rewrite firstn_app_length. unfold extended_decode. cbn [py_index nth_error rbind skipn].
    apply coding_iff in K; [|exact Bp|lia]. destruct K as [K1 K2]. rewrite K1, K2. change (0 =? EXT_BINARY) with true. cbn iota.
    apply states_iff in Hs; [|apply is_bytes_app in B; tauto]. subst states. cbn [rbind]. do 2 f_equal. lia.
  - cbn [app length] in *. rewrite !is_bytes_cons in B. destruct B as [Bc [Bp [B1 [B2 B]]]].
    unfold decode_cal. cbn [py_index nth_error rbind]. change CAL_REPLY with 128. change CAL_STANDARD_STATUS with 192.
    change CAL_EXTENDED_STATUS with 224. rewrite land_224_128, land_224_192, land_224_224, land_31 by exact Bc.
    replace ((128 <=? _) && _) with false by lia. replace ((192 <=? _) && _) with false by lia.
    replace (224 <=? _) with true by lia. cbv zeta.
    replace (Z.to_nat ((224 + Z.of_nat (3 + length w)) mod 32)) with (S (S (S (length w)))) by lia.
    rewrite slice_from_1. cbn [firstn length]. rewrite app_length. replace (Nat.ltb _ _) with false by lia.
    rewrite firstn_app_length. unfold extended_decode. cbn [py_index nth_error rbind skipn].
    apply coding_iff in K; [|exact Bp|lia]. destruct K as [K1 K2]. rewrite K1, K2.
    change (7 =? EXT_BINARY) with false. change (7 =? EXT_LEVEL) with true. cbn iota.
    apply levels_iff in Hs; [|apply is_bytes_app in B; tauto]. rewrite Hs. cbn [rbind]. do 2 f_equal. lia.
Qed.

Lemma cal_says_nonempty b c : cal_says b c -> b <> [].
Proof. destruct 1; discriminate. Qed.

Lemma cals_iff data l : is_bytes data -> (decode_cals data = Ok l <-> cals_say data l).
Proof.
  intros B. split.
  - remember (length data) as n eqn:En. assert (Hn : (length data <= n)%nat) by lia. clear En.
    revert data l B Hn. induction n as [|n IH]; intros data l B Hn E.
    { destruct data; [|simpl in Hn; lia]. injection E as <-. constructor. }
    destruct data as [|x data]; [injection E as <-; constructor|].
    rewrite decode_cals_cons in E. destruct (decode_cal (x :: data)) as [[c k]|] eqn:D; [|discriminate]. cbn [rbind] in E.
    apply cal_read in D; [|exact B]. destruct D as [b [rest [Q [S ->]]]]. rewrite Q in *. rewrite skipn_app_length in E.
    destruct (decode_cals rest) as [l'|] eqn:R; [|discriminate]. cbn [rbind] in E. injection E as <-.
    apply is_bytes_app in B. constructor; [exact S|]. apply IH; [tauto| |exact R].
    apply cal_says_nonempty in S. destruct b as [|y b]; [congruence|]. cbn [length app] in Hn. rewrite app_length in Hn. lia.
  - intros S. induction S as [|b c rest l C S IH]; [reflexivity|].
    assert (N := cal_says_nonempty b c C). destruct b as [|x b]; [congruence|]. cbn [app]. rewrite decode_cals_cons.
    change (x :: b ++ rest) with ((x :: b) ++ rest). rewrite (cal_written _ _ _ C B). cbn [rbind].
    rewrite skipn_app_length. apply is_bytes_app in B. now rewrite IH by tauto.
Qed.

(** ** Messages *)

Lemma new_pm_iff ck prio a l p : new_pm ck prio (Some a) l = Ok p
  <-> p = PktPM (mkHdr ck prio None None) (Some a) l /\ Forall (fun s => sal_application s = a) l.
Proof.
  unfold new_pm.
  assert (K : forall pre l, Forall (fun s => sal_application s = a) l -> append_sals (Some a, pre) l = Ok (Some a, pre ++ l)).
  { intros pre m F. revert pre. induction F as [|s m Hs F IH]; intros pre; cbn [append_sals]; [now rewrite app_nil_r|].
    unfold append_sal. cbn [fst snd]. replace (a =? sal_application s) with true by lia. cbn [rbind]. rewrite IH, <- app_assoc. reflexivity. }
  assert (K2 : forall l pre st, append_sals (Some a, pre) l = Ok st -> Forall (fun s => sal_application s = a) l).
  { induction l0 as [|s m IH]; intros pre st E; [constructor|]. cbn [append_sals] in E. unfold append_sal in E. cbn [fst snd] in E.
    destruct (a =? sal_application s) eqn:Q; [|discriminate]. cbn [rbind] in E. apply IH in E. constructor; [lia|exact E]. }
  split.
  - intros E. destruct (append_sals (Some a, []) l) as [st|] eqn:A; [|discriminate]. assert (F := K2 _ _ _ A).
    rewrite K in A by exact F. injection A as <-. cbn [rbind app] in E. injection E as <-. auto.
  - intros [-> F]. rewrite K by exact F. reflexivity.
Qed.

Lemma light_says_app data l ws : light_says data l ws -> Forall (fun s => sal_application s = 0x38) l.
Proof. induction 1; auto; constructor; auto. Qed.
Lemma clock_says_app data l ws : clock_says data l ws -> Forall (fun s => sal_application s = 0xDF) l.
Proof. induction 1; auto; constructor; auto. Qed.
Lemma temperature_says_app data l ws : temperature_says data l ws -> Forall (fun s => sal_application s = 0x19) l.
Proof. induction 1; auto; constructor; auto. Qed.
Lemma enable_says_app data l ws : enable_says data l ws -> Forall (fun s => sal_application s = 0xCB) l.
Proof. induction 1; auto; constructor; auto. Qed.
Lemma status_says_app data l : status_stream data l -> Forall (fun s => sal_application s = 0xFF) l.
Proof. induction 1; auto; constructor; auto. Qed.

Definition app_reads (a : Z) (data : bytes) (l : list sal) (ws : list warn) : Prop :=
  exists handler, get_application a = Ok handler /\ app_decode_sals handler data = (ws, Ok l)
    /\ Forall (fun s => sal_application s = a) l.
Lemma commands_iff a data l ws : is_bytes data -> (app_reads a data l ws <-> commands_say a data l ws).
Proof.
  intros B. split.
  - intros [h [G [D F]]]. unfold get_application, APP_TEMPERATURE, APP_LIGHTING_FIRST, APP_LIGHTING_LAST, APP_CLOCK, APP_ENABLE,
      APP_STATUS_REQUEST in G.
    destruct (a =? 0x19) eqn:A1.
    { injection G as <-. cbn [app_decode_sals] in D. apply temperature_iff in D; [|exact B]. replace a with 0x19 by lia. now constructor. }
    destruct ((0x30 <=? a) && (a <=? 0x5f)) eqn:A2.
    { injection G as <-. cbn [app_decode_sals] in D. apply light_iff in D; [|exact B].
      destruct (Z.eq_dec a 0x38) as [->|N]; [now constructor|]. destruct l as [|s l]; [apply say_other_light; [lia|exact D]|].
      apply light_says_app in D. inversion D; subst. inversion F; subst. congruence. }
    destruct (a =? 0xdf) eqn:A3.
    { injection G as <-. cbn [app_decode_sals] in D. apply clock_iff in D; [|exact B]. replace a with 0xdf by lia. now constructor. }
    destruct (a =? 0xcb) eqn:A4.
    { injection G as <-. cbn [app_decode_sals] in D. apply enable_iff in D; [|exact B]. replace a with 0xcb by lia. now constructor. }
    destruct (a =? 0xff) eqn:A5; [|discriminate].
    injection G as <-. cbn [app_decode_sals] in D. apply status_iff in D. destruct D as [-> D]. replace a with 0xff by lia. now constructor.
  - intros C. destruct C as [d m w S|a' d w R S|d m w S|d m w S|d m w S|d m S].
    + exists AppLighting. split; [reflexivity|]. split; [now apply light_iff|now apply light_says_app in S].
    + exists AppLighting. split.
      { unfold get_application, APP_TEMPERATURE, APP_LIGHTING_FIRST, APP_LIGHTING_LAST. replace (a' =? 25) with false by lia.
        now replace ((48 <=? a') && (a' <=? 95)) with true by lia. }
      split; [now apply light_iff|constructor].
    + exists AppClock. split; [reflexivity|]. split; [now apply clock_iff|now apply clock_says_app in S].
    + exists AppTemperature. split; [reflexivity|]. split; [now apply temperature_iff|now apply temperature_says_app in S].
    + exists AppEnable. split; [reflexivity|]. split; [now apply enable_iff|now apply enable_says_app in S].
    + exists AppStatusRequest. split; [reflexivity|]. split; [now apply status_iff|now apply status_says_app in S].
Qed.
Lemma get_application_enum a h : get_application a = Ok h -> application_enum a = Ok a.
Proof.
  unfold get_application, application_enum. intros G.
  assert (K : is_application a = true); [|now rewrite K]. unfold is_application.
  destruct (a =? APP_TEMPERATURE); [reflexivity|]. destruct (_ && _); [reflexivity|].
  destruct (a =? APP_CLOCK); [reflexivity|]. destruct (a =? APP_ENABLE); [reflexivity|].
  destruct (a =? APP_STATUS_REQUEST); [reflexivity|discriminate].
Qed.
Lemma pm_iff data ck prio p ws : is_bytes data -> (pm_decode data ck prio = (ws, Ok p)
  <-> exists a d l, data = a :: 0 :: d /\ commands_say a d l ws /\ p = PktPM (mkHdr ck prio None None) (Some a) l).
Proof.
  intros B. unfold pm_decode. split.
  - intros E. destruct data as [|a data]; [discriminate|]. cbn [py_index nth_error rbind] in E.
    destruct (application_enum a) as [x|] eqn:Ae; [|discriminate].
    assert (x = a) by (unfold application_enum in Ae; destruct (is_application a); congruence). subst x.
    rewrite wbind_lift_ok in E. destruct data as [|d1 data]; [discriminate|]. cbn [py_index nth_error] in E. rewrite wbind_lift_ok in E.
    destruct (d1 =? 0) eqn:D1; cbn [negb] in E; [|discriminate]. assert (d1 = 0) by lia. subst d1.
    destruct (get_application a) as [h|] eqn:G; [|discriminate]. rewrite wbind_lift_ok in E. cbn [skipn] in E.
    apply wbind_some in E. destruct E as [w1 [w2 [l [E1 [E2 ->]]]]].
    assert (Np : exists q, new_pm ck prio (Some a) l = Ok q).
    { destruct (new_pm ck prio (Some a) l) as [q|]; [eauto|discriminate]. }
    destruct Np as [q Np]. rewrite Np in E2. injection E2 as <- <-. apply new_pm_iff in Np. destruct Np as [-> F]. rewrite app_nil_r.
    rewrite !is_bytes_cons in B. exists a, data, l. split; [reflexivity|]. split; [|reflexivity].
    apply commands_iff; [tauto|]. exists h. auto.
  - intros [a [d [l [-> [C ->]]]]]. rewrite !is_bytes_cons in B. apply commands_iff in C; [|tauto].
    destruct C as [h [G [D F]]]. cbn [py_index nth_error rbind]. rewrite (get_application_enum _ _ G), wbind_lift_ok.
    cbn [py_index nth_error]. rewrite wbind_lift_ok. change (0 =? 0) with true. cbn [negb]. rewrite G, wbind_lift_ok. cbn [skipn]. rewrite D.
    assert (Np := proj2 (new_pm_iff ck prio a l _) (conj eq_refl F)). unfold wbind. rewrite Np. cbn. now rewrite app_nil_r.
Qed.

Lemma take_hops_inv n data hops rest : take_hops n data = Ok (hops, rest) -> data = hops ++ rest /\ length hops = n.
Proof.
  revert data hops. induction n as [|n IH]; intros data hops E; cbn [take_hops] in E; [injection E as <- <-; auto|].
  destruct data as [|x data]; [discriminate|]. destruct (take_hops n data) as [[h r]|] eqn:T; [|discriminate].
  cbn [rbind] in E. injection E as <- <-. apply IH in T. destruct T as [-> <-]. auto.
Qed.
Lemma bridge_length_inv x n : bridge_length x = Ok n -> x = 9 * (Z.of_nat n + 1) /\ (n <= 5)%nat.
Proof.
  unfold bridge_length. intros E.
  repeat match type of E with (if ?c then _ else _) = _ => destruct c eqn:?; [injection E as <-; lia|] end. discriminate.
Qed.
Lemma pp_iff data ck prio p : is_bytes data -> (pp_decode data ck prio = Ok p
  <-> (exists u d cals, data = u :: 0 :: d /\ cals_say d cals /\ p = PktPP (mkHdr ck prio None None) u None cals)
      \/ exists bridge hops u d cals, data = [bridge; 9 * (Z.of_nat (length hops) + 1)] ++ hops ++ [u] ++ d
           /\ bridge <> 0 /\ (length hops <= 5)%nat /\ cals_say d cals
           /\ p = PktPP (mkHdr ck prio None None) u (Some hops) cals).
Proof.
  intros B. unfold pp_decode. split.
  - intros E. destruct data as [|d0 [|d1 data]]; try discriminate. cbn [py_index nth_error rbind skipn] in E.
    rewrite !is_bytes_cons in B. destruct B as [B0 [B1 B]]. destruct (d1 =? 0) eqn:D1.
    + left. assert (d1 = 0) by lia. subst. destruct (decode_cals data) as [cals|] eqn:C; [|discriminate]. cbn in E. injection E as <-.
      apply cals_iff in C; [|exact B]. eauto 7.
    + right. destruct (bridge_length d1) as [n|] eqn:L; [|discriminate]. cbn [rbind] in E.
      destruct (take_hops n data) as [[hops rest]|] eqn:T; [|discriminate]. cbn [rbind] in E.
      apply take_hops_inv in T. destruct T as [-> <-]. apply bridge_length_inv in L. destruct L as [-> L].
      apply is_bytes_app in B. destruct B as [Bh B].
      destruct rest as [|u rest]; [discriminate|]. cbn [py_index nth_error rbind skipn] in E. apply is_bytes_cons in B.
      destruct (decode_cals rest) as [cals|] eqn:C; [|discriminate]. cbn [rbind] in E. unfold new_pp in E.
      destruct (d0 <=? 0) eqn:D0; [discriminate|]. injection E as <-. apply cals_iff in C; [|tauto].
      exists d0, hops, u, rest, cals. repeat split; auto. lia.
  - intros [[u [d [cals [-> [C ->]]]]]|[bridge [hops [u [d [cals [-> [N [L [C ->]]]]]]]]]].
    + cbn [py_index nth_error rbind skipn]. change (0 =? 0) with true. cbn iota. rewrite !is_bytes_cons in B.
      apply cals_iff in C; [|tauto]. now rewrite C.
    + assert (Bb : byte bridge /\ is_bytes d).
      { cbn [app] in B. rewrite !is_bytes_cons in B. destruct B as [B0 [_ B]]. apply is_bytes_app in B. destruct B as [_ B].
        apply is_bytes_cons in B. tauto. }
      apply cals_iff in C; [|tauto]. assert (P := pp_decode_bridged ck prio bridge hops u d cals L C). cbn [app] in *.
      unfold pp_decode in P. unfold bytes in *. rewrite P. unfold byte in Bb. now replace (bridge <=? 0) with false by lia.
Qed.
Lemma dm_iff data ck prio p : dm_decode data ck prio = Ok p
  <-> exists par v, data = [par; 0; v] /\ p = PktDM (mkHdr ck prio None None) par v.
Proof.
  unfold dm_decode. split.
  - intros E. destruct data as [|par data]; [discriminate|]. cbn [py_index nth_error rbind] in E.
    destruct data as [|d1 data]; [discriminate|]. cbn [py_index nth_error rbind] in E. destruct (d1 =? 0) eqn:D1; cbn [negb] in E; [|discriminate].
    destruct data as [|v data]; [discriminate|]. cbn [py_index nth_error rbind length] in E.
    destruct data; [|discriminate]. cbn in E. injection E as <-. exists par, v. split; [|reflexivity]. repeat f_equal. lia.
  - intros [par [v [-> ->]]]. reflexivity.
Qed.

(** The header a decoded packet gets. *)
Definition header_of (ck : bool) (prio : Z) (fp : bool) (conf src : option Z) : hdr :=
  set_hdr (mkHdr ck prio None None) fp conf src.
Lemma payload_iff ck fp bare conf src n t prio dp data ws p m : is_bytes data ->
  (decode_payload ck fp bare conf src n t prio dp data = (ws, Ok (p, m))
   <-> exists extra, m = (n + extra)%nat /\ message_says bare (header_of ck prio fp conf src) t dp data p extra ws).
Proof.
  intros B. unfold decode_payload. cbv zeta. split.
  - intros E. destruct dp.
    { apply wmap_inv in E. destruct E as [q [E Q]]. injection Q as -> ->. destruct (dm_decode data ck prio) as [q'|] eqn:D; [|discriminate].
      injection E as <- <-. apply dm_iff in D. destruct D as [par [v [-> ->]]]. exists 0%nat. split; [lia|]. constructor. }
    destruct bare.
    { destruct (decode_cal data) as [[c k]|] eqn:D; [|discriminate]. cbn in E. injection E as <- <- <-.
      apply cal_read in D; [|exact B]. destruct D as [b [rest [-> [C ->]]]]. exists (length b). split; [reflexivity|]. now constructor. }
    destruct (t =? DAT_PP) eqn:T6.
    { apply wmap_inv in E. destruct E as [q [E Q]]. injection Q as -> ->. destruct (pp_decode data ck prio) as [q'|] eqn:D; [|discriminate].
      injection E as <- <-. change DAT_PP with 6 in T6. assert (t = 6) by lia. subst t. exists 0%nat. split; [lia|].
      apply pp_iff in D; [|exact B].
      destruct D as [[u [d [cals [-> [C ->]]]]]|[bridge [hops [u [d [cals [-> [N [L [C ->]]]]]]]]]]; cbn [set_attrs].
      - now apply (say_point _ u d).
      - now apply say_bridged. }
    destruct (t =? DAT_PM) eqn:T5; [|discriminate].
    apply wmap_inv in E. destruct E as [q [E Q]]. injection Q as -> ->. change DAT_PM with 5 in T5. assert (t = 5) by lia. subst t.
    exists 0%nat. split; [lia|]. apply pm_iff in E; [|exact B]. destruct E as [a [d [l [-> [C ->]]]]]. cbn [set_attrs].
    now apply (say_multipoint _ a d).
  - intros [extra [-> S]]. remember (header_of ck prio fp conf src) as hd eqn:Hh in S.
    destruct S as [bare h t par v|h t b c rest C|h u data cals C|h bridge hops u data cals N L C|h a data l ws C]; subst; unfold header_of.
    + rewrite Nat.add_0_r. rewrite (proj2 (dm_iff _ ck prio _) (ex_intro _ par (ex_intro _ v (conj eq_refl eq_refl)))). reflexivity.
    + rewrite (cal_written _ _ _ C B). reflexivity.
    + rewrite Nat.add_0_r. change (6 =? DAT_PP) with true. cbn iota.
      rewrite (proj2 (pp_iff _ ck prio (PktPP (mkHdr ck prio None None) u None cals) B)); [reflexivity|]. left. now exists u, data, cals.
    + rewrite Nat.add_0_r. change (6 =? DAT_PP) with true. cbn iota.
      rewrite (proj2 (pp_iff _ ck prio (PktPP (mkHdr ck prio None None) u (Some hops) cals) B)); [reflexivity|]. right.
      now exists bridge, hops, u, data, cals.
    + rewrite Nat.add_0_r. change (5 =? DAT_PP) with false. change (5 =? DAT_PM) with true. cbn iota.
      rewrite (proj2 (pm_iff _ ck prio (PktPM (mkHdr ck prio None None) (Some a) l) ws B)); [reflexivity|]. now exists a, data, l.
Qed.

Lemma flags_parts f : byte f -> f = f mod 8 + 8 * (f mod 32 / 8) + (if 32 <=? f mod 64 then 32 else 0) + 64 * (f / 64).
Proof.
  intros B. apply Z.eqb_eq.
  apply (byte_sweep (fun f => f =? f mod 8 + 8 * (f mod 32 / 8) + (if 32 <=? f mod 64 then 32 else 0) + 64 * (f / 64)));
    [vm_compute; reflexivity|exact B].
Qed.
Lemma land_32_bit c : byte c -> (Z.land c 32 =? 32) = (32 <=? c mod 64).
Proof.
  intros B. apply eqb_prop. apply (byte_sweep (fun c => eqb (Z.land c 32 =? 32) (32 <=? c mod 64))); [vm_compute; reflexivity|exact B].
Qed.
Lemma flags_iff f t dp prio : byte f ->
  (flags_say f t dp prio <-> destination_address_type (Z.land f 7) = Ok t /\ (Z.land f 32 =? 32) = dp
     /\ Z.land (Z.shiftr f 6) 3 = prio).
Proof.
  intros B. rewrite land_7, land_3, land_32_bit by exact B. rewrite Z.shiftr_div_pow2 by lia. change (2 ^ 6) with 64.
  unfold destination_address_type. change [DAT_UNSET; DAT_PPM; DAT_PM; DAT_PP] with [0; 3; 5; 6]. unfold flags_say, byte in *. split.
  - intros [T [P [k [Hk Q]]]].
    assert (M8 : t = f mod 8) by (apply (Z.mod_unique_pos f 8 (k + (if dp then 4 else 0) + 8 * prio)); cbn [In] in T; destruct dp; lia).
    assert (M64 : t + 8 * k + (if dp then 32 else 0) = f mod 64) by (apply (Z.mod_unique_pos f 64 prio); cbn [In] in T; destruct dp; lia).
    rewrite <- M8, <- M64. rewrite (proj2 (mem_spec _ _) T). split; [reflexivity|]. split.
    + cbn [In] in T. destruct dp; lia.
    + clear M8 M64. assert (f / 64 = prio); [|lia]. symmetry. apply (Z.div_unique_pos f 64 prio (t + 8 * k + (if dp then 32 else 0)));
        cbn [In] in T; destruct dp; lia.
  - intros [T [D P]]. destruct (mem (f mod 8) [0; 3; 5; 6]) eqn:M; [|discriminate]. injection T as <-. apply mem_spec in M.
    split; [exact M|]. split; [lia|]. exists (f mod 32 / 8). split; [lia|]. rewrite <- D. replace prio with (f / 64) by lia.
    now apply flags_parts.
Qed.

Lemma wtry_inv {A} (m : W A) h ws a : wtry m h = (ws, Ok a) -> (forall e, a <> h e) -> m = (ws, Ok a).
Proof. unfold wtry. destruct m as [w [x|e]]; intros E N; [exact E|]. injection E as <- <-. now destruct (N e). Qed.

Lemma frame_heard ck n fl body ws p m : byte fl -> is_bytes body -> data_packet p ->
  (decode_frame ck true false None n fl (fl :: body) = (ws, Ok (p, m))
   <-> exists extra, m = (n + extra)%nat /\ heard_says ck (fl :: body) p extra ws).
Proof.
  intros Bf B Dp. unfold decode_frame. cbn [skipn]. split.
  - intros E. destruct (destination_address_type (Z.land fl 7)) as [t|] eqn:T; [|injection E as <- <- <-; contradiction].
    destruct body as [|src data]; [injection E as <- <- <-; contradiction|]. cbv zeta in E.
    apply wtry_inv in E; [|intros e Q; injection Q as -> ->; contradiction].
    apply is_bytes_cons in B. apply payload_iff in E; [|tauto]. destruct E as [extra [-> S]]. exists extra. split; [reflexivity|].
    apply (say_heard ck fl t (Z.land fl 32 =? 32) (Z.land (Z.shiftr fl 6) 3) src data); [now apply flags_iff|].
    unfold header_of, set_hdr in S. cbn [negb h_checksum h_priority] in S. destruct (src =? 0); exact S.
  - intros [extra [-> S]]. remember (fl :: body) as fb eqn:Q. destruct S as [f t dp prio src data p extra ws F S].
    cbn [app] in Q. injection Q as -> <-. apply flags_iff in F; [|exact Bf]. destruct F as [F1 [F2 F3]].
    rewrite F1, F2, F3. cbv zeta. apply is_bytes_cons in B.
    rewrite (proj2 (payload_iff ck true false None (Some src) n t prio dp data ws p (n + extra)%nat ltac:(tauto))); [reflexivity|].
    exists extra. split; [reflexivity|]. unfold header_of, set_hdr. cbn [negb h_checksum h_priority]. destruct (src =? 0); exact S.
Qed.
Lemma frame_order ck bare conf n fl body ws p m : byte fl -> is_bytes body -> data_packet p ->
  (decode_frame ck false bare conf n fl (fl :: body) = (ws, Ok (p, m))
   <-> exists extra, m = (n + extra)%nat /\ order_says ck bare conf (fl :: body) p extra ws).
Proof.
  intros Bf B Dp. unfold decode_frame. cbn [skipn]. split.
  - intros E. destruct (destination_address_type (Z.land fl 7)) as [t|] eqn:T; [|injection E as <- <- <-; contradiction].
    cbv zeta in E. apply wtry_inv in E; [|intros e Q; injection Q as -> ->; contradiction].
    apply payload_iff in E; [|tauto]. destruct E as [extra [-> S]]. exists extra. split; [reflexivity|].
    apply (say_order ck bare conf fl t (Z.land fl 32 =? 32) (Z.land (Z.shiftr fl 6) 3) body); [now apply flags_iff|exact S].
  - intros [extra [-> S]]. remember (fl :: body) as fb eqn:Q. destruct S as [f t dp prio data p extra ws F S].
    cbn [app] in Q. injection Q as -> <-. apply flags_iff in F; [|exact Bf]. destruct F as [F1 [F2 F3]].
    rewrite F1, F2, F3. cbv zeta.
    rewrite (proj2 (payload_iff ck false bare conf None n t prio dp data ws p (n + extra)%nat B)); [reflexivity|].
    exists extra. split; [reflexivity|]. exact S.
Qed.

(** ** Lines *)

Lemma digit_nibble n c : digit n c <-> nibble_of_hex c = Some n.
Proof.
  unfold nibble_of_hex. split.
  - intros [m H|m H].
    + replace ((48 <=? 48 + m) && (48 + m <=? 57)) with true by lia. f_equal. lia.
    + replace ((48 <=? 65 + (m - 10)) && (65 + (m - 10) <=? 57)) with false by lia.
      replace ((65 <=? 65 + (m - 10)) && (65 + (m - 10) <=? 70)) with true by lia. f_equal. lia.
  - destruct ((48 <=? c) && (c <=? 57)) eqn:A.
    + intros E. injection E as <-. replace c with (48 + (c - 48)) at 2 by lia. constructor. lia.
    + destruct ((65 <=? c) && (c <=? 70)) eqn:A2; [|discriminate]. intros E. injection E as <-.
      replace c with (65 + (c - 55 - 10)) at 2 by lia. constructor. lia.
Qed.
Lemma spelled_decode l w : spelled l w <-> b16decode w = Ok l.
Proof.
  split.
  - induction 1 as [|hi lo c1 c2 l w D1 D2 S IH]; [reflexivity|]. cbn [b16decode]. apply digit_nibble in D1, D2.
    rewrite D1, D2, IH. reflexivity.
  - revert l. induction w as [|a|a b w IH] using list_ind2; intros l E; [injection E as <-; constructor|discriminate|].
    cbn [b16decode] in E. destruct (nibble_of_hex a) as [x|] eqn:Ea; [|discriminate].
    destruct (nibble_of_hex b) as [y|] eqn:Eb; [|discriminate]. destruct (b16decode w) as [r|] eqn:R; [|discriminate].
    cbn [rbind] in E. injection E as <-. constructor; [now apply digit_nibble|now apply digit_nibble|now apply IH].
Qed.
Lemma spelled_hex l w : spelled l w -> Forall hex_char w /\ is_bytes l /\ (length w = 2 * length l)%nat.
Proof.
  induction 1 as [|hi lo c1 c2 l w D1 D2 S [IH1 [IH2 IH3]]]; [split; [constructor|split; [constructor|reflexivity]]|].
  apply digit_nibble in D1, D2. apply nibble_some in D1, D2. destruct D1 as [H1 R1], D2 as [H2 R2].
  split; [constructor; [exact H1|constructor; [exact H2|exact IH1]]|]. split; [constructor; [unfold byte; lia|exact IH2]|]. cbn [length]. lia.
Qed.

Lemma hex_iff ck strict fp bare conf n (says : bytes -> packet -> nat -> list warn -> Prop) digits ws p m :
  (forall fl body w q k, byte fl -> is_bytes body -> data_packet q ->
     (decode_frame ck fp bare conf n fl (fl :: body) = (w, Ok (q, k))
      <-> exists extra, k = (n + extra)%nat /\ says (fl :: body) q extra w)) ->
  (forall q extra w, ~ says [] q extra w) -> data_packet p ->
  (decode_hex ck strict fp bare conf n digits = (ws, Ok (Some p, m))
   <-> exists extra, m = (n + extra)%nat /\ digits_say ck strict says digits p extra ws).
Proof.
  intros Fr Ne Dp. assert (O := decode_hex_outcome ck strict fp bare conf n digits).
  remember (decode_hex ck strict fp bare conf n digits) as R eqn:ER. clear ER. split.
  - intros ->. remember (ws, Ok (Some p, m)) as R eqn:ER in O.
    destruct O as [N|F Odd|Nil|raw F D NE Hc Hs S|ws' raw F D L1 Hc Q W|ws' raw msg fl body F D B M C S W];
      try discriminate; try (injection ER as <- <- <-; contradiction).
    assert (Lp : exists w, decode_frame ck fp bare conf n fl msg = (w, Ok (p, m)) /\ ws = ws' ++ w).
    { destruct (decode_frame ck fp bare conf n fl msg) as [w [[q k]|e]]; cbn in ER; [|discriminate].
      injection ER as <- <- <-. eauto. }
    destruct Lp as [w [Df ->]]. rewrite C in *.
    assert (Bm : is_bytes (fl :: body)).
    { rewrite M. destruct ck; [|exact B]. destruct (list_snoc_case raw) as [->|[i [l ->]]]; [exact B|].
      rewrite py_init_app. apply is_bytes_app in B. tauto. }
    apply is_bytes_cons in Bm. apply Fr in Df; [|tauto..]. destruct Df as [extra [-> Sy]]. exists extra. split; [reflexivity|].
    apply spelled_decode in D. unfold checksum_of in W. destruct ck; cbn [negb orb] in W.
    + destruct (list_snoc_case raw) as [->|[i [l ->]]]; [discriminate|]. rewrite py_init_app in M. subst i.
      destruct (sum ((fl :: body) ++ [l]) mod 256 =? 0) eqn:Z0; subst ws'.
      * eapply digits_sum; [reflexivity|exact D|lia|exact Sy].
      * assert (Es : strict = false) by (destruct strict; [exfalso; lia|reflexivity]).
        eapply digits_no_sum; [reflexivity|exact Es|exact D|lia|exact Sy].
    + subst ws' raw. eapply digits_plain; [reflexivity|exact D|exact Sy].
  - intros [extra [-> Sy]].
    assert (K : exists raw' raw w0 w, spelled raw' digits /\ raw = (if ck then py_init raw' else raw')
        /\ says raw p extra w /\ ws = w0 ++ w /\ (ck = true -> raw' = raw ++ [last raw' 0])
        /\ w0 = (if checksum_of ck raw' then [] else [WChecksum]) /\ (ck = true -> strict = true -> sum raw' mod 256 = 0)).
    { unfold checksum_of. destruct Sy as [raw w q extra ws Hc Sp Sy|raw c w q extra ws Hc Sp Z0 Sy|raw c w q extra ws Hc Hs Sp Z0 Sy]; subst ck.
      - exists raw, raw, [], ws. repeat split; auto; discriminate.
      - exists (raw ++ [c]), raw, [], ws. rewrite py_init_app, last_last. repeat split; auto.
        cbn [negb orb]. now replace (sum (raw ++ [c]) mod 256 =? 0) with true by lia.
      - exists (raw ++ [c]), raw, [WChecksum], ws. rewrite py_init_app, last_last. repeat split; auto.
        + cbn [negb orb]. now replace (sum (raw ++ [c]) mod 256 =? 0) with false by lia.
        + congruence. }
    destruct K as [raw' [raw [w0 [w [Sp [Qr [Sr [-> [Ql [Q0 St]]]]]]]]]].
    assert (H := spelled_hex _ _ Sp). destruct H as [Hh [Bb Ln]]. apply spelled_decode in Sp.
    destruct raw as [|fl body]; [now apply Ne in Sr|].
    assert (NE : raw' <> []) by (intros ->; destruct ck; cbn in Qr; discriminate).
    destruct O as [N|F Odd|Nil|raw2 F D NE2 Hc Hs S|ws' raw2 F D L1 Hc Q W|ws' raw2 msg fl2 body2 F D B M C S W].
    + contradiction.
    + rewrite Ln in Odd. exfalso. rewrite Nat.mul_comm, Nat.mod_mul in Odd by discriminate. discriminate.
    + subst digits. cbn [length] in Ln. destruct raw'; [congruence|discriminate].
    + exfalso. rewrite Sp in D. injection D as <-. apply S, St; assumption.
    + exfalso. rewrite Sp in D. injection D as <-. specialize (Ql Hc). rewrite Ql in L1. rewrite app_length in L1. cbn in L1. lia.
    + rewrite Sp in D. injection D as <-. rewrite <- Qr in M. rewrite M in C. injection C as <- <-. subst msg ws' w0.
      assert (Bm : byte fl /\ is_bytes body).
      { apply is_bytes_cons. rewrite Qr. destruct ck; [|exact Bb]. rewrite Ql in Bb |- * by reflexivity.
        rewrite py_init_app. apply is_bytes_app in Bb. tauto. }
      rewrite (proj2 (Fr fl body w p (n + extra)%nat (proj1 Bm) (proj2 Bm) Dp)); [reflexivity|]. eauto.
Qed.

Lemma heard_nonempty ck q extra w : ~ heard_says ck [] q extra w.
Proof. inversion 1. Qed.
Lemma order_nonempty ck bare letter q extra w : ~ order_says ck bare letter [] q extra w.
Proof. inversion 1. Qed.
Lemma digits_hex ck strict says w p extra ws : (forall q e v, ~ says [] q e v) ->
  digits_say ck strict says w p extra ws -> Forall hex_char w /\ w <> [].
Proof.
  intros Ne H. destruct H as [raw w p extra ws Hc Sp Sy|raw c w p extra ws Hc Sp Z0 Sy|raw c w p extra ws Hc Hs Sp Z0 Sy];
    apply spelled_hex in Sp; destruct Sp as [F [_ L]]; (split; [exact F|]); intros ->; cbn [length] in L.
  - destruct raw; [now apply Ne in Sy|cbn [length] in L; lia].
  - rewrite app_length in L. cbn [length] in L. lia.
  - rewrite app_length in L. cbn [length] in L. lia.
Qed.

Lemma reply_line_iff data ck strict p n ws : data_packet p ->
  (decode_packet data ck strict true = (ws, Ok (Some p, n)) <-> reply_line_says ck strict data p n ws).
Proof.
  intros Dp. split.
  - intros H. destruct (from_pci_cases data ck strict) as [[E N]|[C [[q [m [B [P E]]]]|[line [rest [E [R F]]]]]]].
    + rewrite E in H. discriminate.
    + specialize (E []). rewrite app_nil_r in E. rewrite E in H. injection H as <- <- <-.
      destruct P as [->|[->|[c [s ->]]]]; contradiction.
    + subst data. rewrite from_pci_line in H; [|intros a b X; specialize (F [] a b); rewrite app_nil_r in F; auto|exact R].
      destruct line as [|x line]; [discriminate|]. cbn [decode_line] in H.
      apply (hex_iff ck strict true false None _ (heard_says ck)) in H;
        [|intros; now apply frame_heard|apply heard_nonempty|exact Dp].
      destruct H as [extra [-> H]]. now apply (say_reply_line ck strict (x :: line) rest).
  - intros H. revert Dp. destruct H as [w rest p extra ws S]. intros Dp. assert (H := digits_hex _ _ _ _ _ _ _ (heard_nonempty ck) S). destruct H as [F N].
    destruct w as [|c w]; [congruence|]. assert (Hc := proj1 (Forall_forall _ _) F c (or_introl eq_refl)).
    assert (K := hex_facts c Hc). destruct K as [K1 [K2 [K3 _]]]. apply mem_false in K3.
    cbn [app]. change (c :: w ++ 13 :: 10 :: rest) with ((c :: w) ++ 13 :: 10 :: rest).
    rewrite (decode_from_pci (c :: w) rest ck strict c w); [|reflexivity| |lia|lia|exact K3].
    + apply (hex_iff ck strict true false None _ (heard_says ck)); [intros; now apply frame_heard|apply heard_nonempty|exact Dp|].
      exists extra. split; [reflexivity|exact S].
    + intros I. apply (proj1 (Forall_forall _ _) F) in I. unfold hex_char in I. lia.
Qed.

Lemma prefix_iff prefix ck ck' bare : prefix_says prefix ck ck' bare
  <-> In prefix [[]; [64]; [92]] /\ ck' = prefix_checksum prefix ck /\ bare = dm_cal_of prefix.
Proof.
  unfold prefix_says. cbn [In]. split.
  - intros [[-> [-> ->]]|[[-> [-> ->]]|[-> [-> ->]]]]; auto 6.
  - intros [[<-|[<-|[<-|[]]]] [-> ->]]; auto 6.
Qed.

Lemma order_line_iff data ck strict p n ws : data_packet p ->
  (decode_packet data ck strict false = (ws, Ok (Some p, n)) <-> order_line_says ck strict data p n ws).
Proof.
  intros Dp. split.
  - intros H. destruct (to_pci_cases data ck strict) as [[E N]|[C [[q [m [B [P E]]]]|[line [rest [E [R1 [R2 R3]]]]]]]].
    + rewrite E in H. discriminate.
    + specialize (E []). rewrite app_nil_r in E. rewrite E in H. injection H as <- -> <-.
      destruct P as [Q|[Q|Q]]; inversion Q; subst; contradiction.
    + subst data. rewrite to_pci_line in H by assumption. destruct line as [|x line]; [discriminate|].
      destruct (decode_line_outcome ck strict (length (x :: line) + 1) (x :: line)) as [prefix [body [Ep [Hpre [Hnp O]]]]]; [discriminate|].
      rewrite H in O. clear H. rewrite Ep in *. clear Ep x line.
      assert (Hp : prefix_says prefix ck (prefix_checksum prefix ck) (dm_cal_of prefix)) by now apply prefix_iff.
      remember (ws, Ok (Some p, n)) as R eqn:ER in O.
      assert (K : forall letter w ws1 ws2, body = w ++ opt_code letter -> letter_says strict letter ws1 -> ws = ws1 ++ ws2 ->
        decode_hex (prefix_checksum prefix ck) strict false (dm_cal_of prefix) letter (length (prefix ++ body) + 1) w = (ws2, Ok (Some p, n)) ->
        order_line_says ck strict ((prefix ++ body) ++ 13 :: rest) p n ws).
      { intros letter w ws1 ws2 -> Hl -> H.
        apply (hex_iff _ strict false _ letter _ (order_says (prefix_checksum prefix ck) (dm_cal_of prefix) letter)) in H;
          [|intros; now apply frame_order|apply order_nonempty|exact Dp].
        destruct H as [extra [-> H]].
        assert (L := say_order_line ck strict prefix _ _ w letter rest p extra ws1 ws2 Hp Hl H).
        rewrite <- !app_assoc. exact L. }
      destruct O as [Nb|i l Hb Hl|i l Hb Hl|i l Hb Hl1 Hl2 Hs|i l Hb Hl1 Hl2 Hs].
      * discriminate.
      * apply (K None body [] ws); [now rewrite app_nil_r|constructor|reflexivity|exact ER].
      * apply (K (Some l) i [] ws); [exact Hb|now constructor|reflexivity|exact ER].
      * injection ER as <- <- <-. contradiction.
      * apply wwarn_inv in ER. destruct ER as [ws' [-> ER]]. apply (K (Some l) i [WConfirmCode] ws'); [exact Hb| |reflexivity|exact ER].
        assert (In l (prefix ++ body)) by (rewrite Hb; apply in_or_app; right; apply in_or_app; right; now left).
        apply letter_other; [exact Hl2|exact Hl1| | |exact Hs]; intros ->; contradiction.
  - intros H. revert Dp. destruct H as [prefix ck' bare w letter rest p extra ws1 ws2 Hp Hl S]. intros Dp.
    assert (H := digits_hex _ _ _ _ _ _ _ (order_nonempty ck' bare letter) S). destruct H as [F N].
    apply prefix_iff in Hp. destruct Hp as [Hp [-> ->]].
    destruct w as [|c w]; [congruence|]. assert (Hc := proj1 (Forall_forall _ _) F c (or_introl eq_refl)).
    assert (Hx : forall x, In x (c :: w) -> hex_char x) by now apply Forall_forall.
    assert (Lx : forall x, In x (opt_code letter) -> x <> 13 /\ x <> 63 /\ ~ hex_char x).
    { intros x I. destruct Hl as [|l Hl|l Hl1 Hl2 Hl3 Hl4 Hl5]; cbn [opt_code In] in I; [contradiction| |]; destruct I as [<-|[]].
      - unfold is_code, hex_char in *. lia.
      - auto. }
    assert (Px : forall x, In x prefix -> x = 64 \/ x = 92).
    { intros x I. cbn [In] in Hp. destruct Hp as [<-|[<-|[<-|[]]]]; cbn [In] in I; intuition lia. }
    set (body := (c :: w) ++ opt_code letter).
    assert (A13 : ~ In 13 (prefix ++ body) /\ ~ In 63 (prefix ++ body)).
    { split; intros I; apply in_app_or in I; destruct I as [I|I]; try (apply Px in I; lia); apply in_app_or in I;
        destruct I as [I|I]; try (apply Hx in I; unfold hex_char in I; lia); apply Lx in I; lia. }
    assert (Pl : plain_line (prefix ++ body)).
    { unfold hex_char in Hc. unfold plain_line, body. cbn [In] in Hp. destruct Hp as [<-|[<-|[<-|[]]]]; cbn [app hd_error starts_with];
        (split; [intros Q; injection Q as Q; lia|]); (split; [try reflexivity; now replace (110 =? c) with false by lia|]);
        split; intros Q; injection Q as Q; lia. }
    replace (prefix ++ (c :: w) ++ opt_code letter ++ [13] ++ rest) with ((prefix ++ body) ++ 13 :: rest)
      by (unfold body; rewrite <- !app_assoc; reflexivity).
    fold body. rewrite to_pci_line by tauto.
    assert (O := line_parse ck strict (length (prefix ++ body) + 1) prefix body Hp).
    assert (O' : line_outcome ck strict (length (prefix ++ body) + 1) prefix body
                   (decode_line ck strict false (length (prefix ++ body) + 1) (prefix ++ body))).
    { apply O.
      - intros _. unfold body. cbn [app hd_error]. unfold hex_char in Hc. split; intros Q; injection Q as Q; lia.
      - unfold body. destruct prefix; discriminate. }
    clear O.
    assert (D : decode_hex (prefix_checksum prefix ck) strict false (dm_cal_of prefix) letter (length (prefix ++ body) + 1) (c :: w)
                = (ws2, Ok (Some p, (length (prefix ++ body) + 1 + extra)%nat))).
    { apply (hex_iff _ strict false _ letter _ (order_says (prefix_checksum prefix ck) (dm_cal_of prefix) letter));
        [intros; now apply frame_order|apply order_nonempty|exact Dp|]. eauto. }
    remember (decode_line ck strict false (length (prefix ++ body) + 1) (prefix ++ body)) as R eqn:ER. clear ER.
    destruct letter as [l|]; cbn [opt_code] in *.
    + specialize (Lx l (or_introl eq_refl)).
      destruct O' as [Nb|i l' Hb Hl'|i l' Hb Hl'|i l' Hb Hl1 Hl2 Hs|i l' Hb Hl1 Hl2 Hs];
        [discriminate|..]; unfold body in Hb; apply app_inj_tail in Hb; destruct Hb as [<- <-].
      * tauto.
      * inversion Hl; subst; [exact D|contradiction].
      * inversion Hl; subst; [contradiction|discriminate].
      * inversion Hl; subst; [contradiction|]. now apply wwarn_fwd.
    + inversion Hl; subst ws1. unfold body in *. rewrite app_nil_r in *.
      destruct O' as [Nb|i l' Hb Hl'|i l' Hb Hl'|i l' Hb Hl1 Hl2 Hs|i l' Hb Hl1 Hl2 Hs]; [discriminate|exact D|..];
        exfalso; (assert (hex_char l') by (apply Hx; rewrite Hb; apply in_or_app; right; now left));
        try contradiction; unfold is_code, hex_char in *; lia.
Qed.
