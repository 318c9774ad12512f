(** C60: the length of what the client writes. *)
From Coq Require Import String List ZArith Bool Lia.
From Verif Require Import Py Common Sal Cal Packet Text Mqtt Buffered Client Base Spec Spec_client Common_facts
  Buffer_facts Client_facts Prop_client.
Import ListNotations.
Open Scope Z_scope.
Notation length := List.length.

Definition brief (e : cev) : Prop := match e with CWrite w => (length w <= 47)%nat | _ => True end.

(** ** Encodings *)

Lemma mk_bytes_num_length l : forall b, mk_bytes_num l = Ok b -> length b = length l.
Proof.
  induction l as [|n l IH]; intros b E; cbn [mk_bytes_num] in E; [now inversion E|].
  unfold rbind in E. destruct (byte_of_num n); [|discriminate]. destruct (mk_bytes_num l); [|discriminate].
  inversion E. cbn [length]. now rewrite (IH _ eq_refl).
Qed.
Lemma pack_length x b : pack_B x = Ok b -> length b = 1%nat.
Proof. unfold pack_B. destruct (_ && _); intros E; now inversion E. Qed.
Lemma pack_H_length x b : pack_H x = Ok b -> length b = 2%nat.
Proof. unfold pack_H. destruct (_ && _); intros E; now inversion E. Qed.

Lemma time_length h mi s b : clock_time_encode h mi s = Ok b -> length b = 6%nat.
Proof.
  unfold clock_time_encode, rbind. intros E. cbv zeta in E.
  destruct (pack_B h) as [x|] eqn:A; [|discriminate]. destruct (pack_B mi) as [y|] eqn:B; [|discriminate].
  destruct (pack_B s) as [z|] eqn:C; [|discriminate].
  destruct (mk_bytes _) as [t|] eqn:D in E; [|discriminate]. apply mk_bytes_inv in D. destruct D as [-> _].
  apply (f_equal (fun r => match r with Ok x => length x | Raise _ => 0%nat end)) in E. cbv beta iota in E. rewrite <- E.
  apply pack_length in A, B, C. cbn [app length]. rewrite !app_length. cbn [length]. lia.
Qed.
Lemma date_length y m d b : clock_date_encode y m d = Ok b -> length b = 7%nat.
Proof.
  unfold clock_date_encode, rbind. intros E. cbv zeta in E.
  destruct (pack_H y) as [x|] eqn:A; [|discriminate]. destruct (pack_B m) as [u|] eqn:B; [|discriminate].
  destruct (pack_B d) as [z|] eqn:C; [|discriminate]. destruct (pack_B (weekday y m d)) as [w|] eqn:F; [|discriminate].
  destruct (mk_bytes _) as [t|] eqn:D in E; [|discriminate]. apply mk_bytes_inv in D. destruct D as [-> _].
  apply (f_equal (fun r => match r with Ok x => length x | Raise _ => 0%nat end)) in E. cbv beta iota in E. rewrite <- E.
  apply pack_length in B, C, F. apply pack_H_length in A. cbn [app length]. rewrite !app_length. lia.
Qed.
Lemma clock_length v b : clock_update_encode v = Ok b -> (length b <= 7)%nat.
Proof.
  destruct v; cbn [clock_update_encode]; intros E; try discriminate.
  - apply date_length in E. lia.
  - apply time_length in E. lia.
  - apply date_length in E. lia.
Qed.
Lemma simple_length code ga b : light_simple_encode code ga = Ok b -> length b = 2%nat.
Proof.
  unfold light_simple_encode, rbind. destruct (check_ga ga); [|discriminate]. intros E.
  apply mk_bytes_inv in E. now destruct E as [-> _].
Qed.
Lemma ramp_length ga d level b : light_ramp_encode ga d level = Ok b -> length b = 3%nat.
Proof.
  unfold light_ramp_encode, rbind. destruct (_ || _); [discriminate|]. destruct (check_ga ga); [|discriminate].
  intros E. now apply mk_bytes_num_length in E.
Qed.

Lemma concat_length {A} (enc : A -> res bytes) k l : Forall (fun a => forall b, enc a = Ok b -> (length b <= k)%nat) l ->
  forall b, concat_res enc l = Ok b -> (length b <= k * length l)%nat.
Proof.
  induction 1 as [|a l H F IH]; intros b E; cbn [concat_res] in E; [inversion E; cbn; lia|].
  unfold rbind in E. destruct (enc a) as [x|]; [|discriminate]. destruct (concat_res enc l) as [y|]; [|discriminate].
  inversion E. specialize (H x eq_refl). specialize (IH y eq_refl). rewrite app_length. cbn [length].
  rewrite Nat.mul_succ_r. lia.
Qed.

Lemma pm_append l : forall a l0 st, append_sals (a, l0) l = Ok st -> snd st = l0 ++ l.
Proof.
  induction l as [|s l IH]; intros a l0 st E; cbn [append_sals] in E.
  - inversion E. now rewrite app_nil_r.
  - unfold append_sal, rbind in E. cbn [fst snd] in E.
    destruct a as [a|]; [destruct (a =? sal_application s); [|discriminate]|];
      apply IH in E; now rewrite E, <- app_assoc.
Qed.

(** A packet for at most 18 bytes of commands. *)
Lemma pm_length k sals p w : new_pm true CLASS_4 None sals = Ok p ->
  Forall (fun s => forall b, sal_encode s = Ok b -> (length b <= k)%nat) sals -> (k * length sals <= 18)%nat ->
  encode_packet p = Ok w -> (length w <= 44)%nat.
Proof.
  intros N F L E. unfold new_pm, rbind in N.
  destruct (append_sals (None, []) sals) as [[a l]|] eqn:A; [|discriminate]. apply pm_append in A. cbn [snd app] in A. subst l.
  inversion N; subst. cbn [encode_packet] in E. unfold pm_encode, rbind in E. destruct a as [a|]; [|discriminate].
  destruct (_ || _); [discriminate|]. destruct (concat_res sal_encode sals) as [o|] eqn:C; [|discriminate].
  destruct (header_encode _ _ _) as [hd|] eqn:H; [|discriminate]. inversion E. apply (concat_length _ _ _ F) in C.
  apply mk_bytes_inv in H. destruct H as [-> _]. rewrite b16_length.
  cbn [h_checksum with_checksum]. unfold add_cbus_checksum. rewrite !app_length. cbn [length]. lia.
Qed.

(** ** Calls *)

Definition briefly {A} (m : M A) : Prop := forall c c' ev r, m c = (c', ev, r) -> Forall brief ev.
Lemma briefly_lift {A} (r : res A) : briefly (mlift r).
Proof. intros c c' ev r' E. inversion E. constructor. Qed.
Lemma briefly_ret {A} (a : A) : briefly (mret a).
Proof. intros c c' ev r E. inversion E. constructor. Qed.
Lemma briefly_bind {A B} (m : M A) (f : A -> M B) : briefly m -> (forall a, briefly (f a)) -> briefly (mbind m f).
Proof.
  intros Hm Hf c c' ev r E. unfold mbind in E. destruct (m c) as [[c1 ev1] [a|e]] eqn:Em.
  - destruct (f a c1) as [[c2 ev2] r2] eqn:Ef. inversion E; subst. apply Forall_app. split; [eapply Hm|eapply Hf]; eassumption.
  - inversion E; subst. eapply Hm; eassumption.
Qed.
Lemma briefly_seq {A B} (m : M A) (k : M B) : briefly m -> briefly k -> briefly (mseq m k).
Proof. intros. now apply briefly_bind. Qed.
Lemma briefly_lift_bind {A B} (x : res A) (f : A -> M B) : (forall a, x = Ok a -> briefly (f a)) -> briefly (mbind (mlift x) f).
Proof.
  intros H c c' ev r E. unfold mbind, mlift in E. destruct x as [a|e]; [|inversion E; constructor].
  destruct (f a c) as [[c2 ev2] r2] eqn:Ef. inversion E; subst. eapply H; [reflexivity|exact Ef].
Qed.
Lemma briefly_emit e : brief e -> briefly (memit e).
Proof. intros H c c' ev r E. inversion E; subst. now repeat constructor. Qed.

Lemma briefly_send p cf bm : (forall w, encode_packet p = Ok w -> (length w <= 44)%nat) -> briefly (send p cf bm).
Proof.
  intros S c c' ev r E. unfold send in E.
  destruct (negb (cl_transport c)); [inversion E; constructor|].
  destruct (negb (is_base_packet p)); [inversion E; constructor|].
  destruct (encode_packet p) as [b|e]; [|inversion E; constructor]. specialize (S b eq_refl).
  assert (L : (length (if (bm || is_special_client p)%bool return bytes then b else 92%Z :: b) <= 45)%nat) by
    (destruct (bm || is_special_client p); cbn [length]; lia).
  revert L E; generalize (if (bm || is_special_client p)%bool return bytes then b else 92 :: b). intros y L E.
  destruct (cf && negb (is_special_client p)).
  - revert E. apply briefly_bind.
    + intros x x' ev' r' E. unfold get_confirmation_code in E. destruct (nth_error _ _); inversion E; constructor.
    + intros a. apply briefly_seq; [|apply briefly_ret]. apply briefly_emit. cbn [brief]. rewrite !app_length.
      change (length END_COMMAND) with 1%nat. cbn [length].
      lia.
  - revert E. apply briefly_seq; [|apply briefly_ret]. apply briefly_emit. cbn [brief]. rewrite !app_length.
    change (length END_COMMAND) with 1%nat. lia.
Qed.

Lemma briefly_groups new gas : (forall g s b, new g = Ok s -> sal_encode s = Ok b -> (length b <= 2)%nat) ->
  briefly (send_groups new gas).
Proof.
  intros H. unfold send_groups. destruct (Nat.ltb 9 (length gas)) eqn:L; [intros c c' ev r E; inversion E; constructor|].
  apply Nat.ltb_ge in L. apply briefly_lift_bind. intros sals M. apply briefly_lift_bind. intros p N.
  apply briefly_send. intros w. apply (pm_length 2 sals); [exact N| |].
  - clear N L. revert sals M. induction gas as [|g gas IH]; intros sals M; cbn [map_res] in M; [inversion M; constructor|].
    unfold rbind in M. destruct (new g) as [s|] eqn:G; [|discriminate]. destruct (map_res new gas) as [l|]; [|discriminate].
    inversion M; subst. constructor; [|now apply IH]. intros b. now apply (H g).
  - assert (K : length sals = length gas).
    { clear N L. revert sals M. induction gas as [|g gas IH]; intros sals M; cbn [map_res] in M; [now inversion M|].
      unfold rbind in M. destruct (new g); [|discriminate]. destruct (map_res new gas) as [l|]; [|discriminate].
      inversion M; subst. cbn [length]. now rewrite (IH l eq_refl). }
    lia.
Qed.

Lemma briefly_clock now w : briefly (clock_datetime now w).
Proof.
  unfold clock_datetime. apply briefly_bind.
  - intros c c' ev r E. destruct w; inversion E; constructor.
  - intros v. apply briefly_lift_bind. intros sals S. apply briefly_lift_bind. intros p N. apply briefly_send.
    intros b. apply (pm_length 7 sals); [exact N| |].
    + destruct v; cbn [clock_update_sal] in S; inversion S; subst; repeat (apply Forall_cons; [intros x; apply clock_length|]); apply Forall_nil.
    + destruct v; cbn [clock_update_sal] in S; inversion S; subst; cbn [length]; lia.
Qed.
Lemma briefly_reset : briefly pci_reset.
Proof.
  unfold pci_reset. repeat (apply briefly_seq; [apply briefly_send; intros w E; vm_compute in E; inversion E; cbn [length]; lia|]).
  apply briefly_ret.
Qed.
Lemma briefly_api now o : briefly (api now o).
Proof.
  assert (G : forall new code, (forall g, new g = rbind (check_ga g) (fun _ => Ok (code g))) ->
     (forall g b, sal_encode (code g) = Ok b -> length b = 2%nat) -> forall gas, briefly (send_groups new gas)).
  { intros new code H K gas. apply briefly_groups. intros g s b E1 E2. rewrite H in E1. unfold rbind in E1.
    destruct (check_ga g); [|discriminate]. inversion E1; subst. apply K in E2. lia. }
  destruct o as [| |b|gas|gas|gas|ga d l|u a|w| |]; cbn [api]; try apply briefly_clock; try apply briefly_ret;
    try (apply briefly_seq; [|apply briefly_ret]).
  - intros c c' ev r. unfold connection_made. apply briefly_seq; [apply briefly_reset|].
    intros x x' ev' r' E. destruct (cl_frequency x =? 0); inversion E; repeat constructor.
  - intros c c' ev r E. unfold connection_lost in E. cbv zeta in E.
    destruct (cl_future (set_transport c false)); inversion E; repeat constructor.
  - apply (G new_light_on LightOn); [reflexivity|]. intros g b. apply simple_length.
  - apply (G new_light_off LightOff); [reflexivity|]. intros g b. apply simple_length.
  - apply (G new_light_terminate LightTerminate); [reflexivity|]. intros g b. apply simple_length.
  - unfold lighting_group_ramp. apply briefly_lift_bind. intros s N. apply briefly_lift_bind. intros p P.
    apply briefly_send. intros w. apply (pm_length 3 [s]); [exact P| |cbn [length]; lia].
    constructor; [|constructor]. intros b E. unfold new_light_ramp, rbind in N. destruct (check_ga ga); [|discriminate].
    inversion N; subst. apply ramp_length in E. lia.
  - unfold identify. apply briefly_lift_bind. intros p N. apply briefly_send. intros w E.
    cbn in N. inversion N; subst. cbn [encode_packet] in E. unfold pp_encode, rbind in E.
    destruct (mk_bytes [u; 0]) as [o|] eqn:A; [|discriminate].
    destruct (concat_res cal_encode [CIdentify a]) as [c|] eqn:C; [|discriminate].
    destruct (header_encode _ _ _) as [hd|] eqn:H; [|discriminate]. inversion E.
    apply mk_bytes_inv in A, H. destruct A as [-> _]. destruct H as [-> _].
    assert (L : (length c <= 2 * 1)%nat).
    { apply (concat_length cal_encode 2 [CIdentify a]); [|exact C]. constructor; [|constructor].
      intros b Q. cbn [cal_encode] in Q. apply mk_bytes_inv in Q. now destruct Q as [-> _]. }
    rewrite b16_length. cbn [h_checksum with_checksum]. unfold add_cbus_checksum. rewrite !app_length. cbn [length]. lia.
  - apply briefly_reset.
  - intros c c' ev r E. unfold timesync_step in E. destruct (Nat.eqb (cl_tasks c) 0); [inversion E; constructor|].
    destruct (cl_frequency c <=? 0); [inversion E; constructor|].
    destruct (clock_datetime now None c) as [[c1 ev1] [x|e]] eqn:D; inversion E; subst; eapply briefly_clock; exact D.
Qed.

Lemma briefly_relay ms : briefly (relay ms).
Proof.
  assert (A : forall l, briefly (memit_all (map CPublish l))).
  { induction l as [|m l IH]; cbn [map memit_all]; [apply briefly_ret|]. apply briefly_seq; [now apply briefly_emit|exact IH]. }
  intros c c' ev r E. unfold relay in E. destruct (cl_class c); [eapply briefly_ret; exact E|].
  destruct (cl_mqtt c); [eapply A; exact E|eapply briefly_ret; exact E].
Qed.
Lemma briefly_sal now src s : briefly (dispatch_sal now src s).
Proof.
  destruct s as [ga d lv|ga|ga|ga|v| |ga t|vr vl|lvl ga ch]; cbn [dispatch_sal]; try apply briefly_ret;
    try (apply briefly_seq; [apply briefly_emit; exact Logic.I|apply briefly_relay]);
    try (apply briefly_emit; exact Logic.I).
  unfold on_clock_request. apply briefly_seq; [now apply briefly_emit|].
  assert (K : briefly (mseq (clock_datetime now None) (mret tt))) by (apply briefly_seq; [apply briefly_clock|apply briefly_ret]).
  intros c c' ev r E. destruct (cl_class c); [destruct (cl_handle_clock c)|];
    first [eapply K; exact E|eapply briefly_ret; exact E].
Qed.
Lemma briefly_packet now p : briefly (handle_cbus_packet now p).
Proof.
  destruct p as [| |co su| | |pl ex|h a sals|h u hops cals|h a v|ch bl st ck|c]; cbn [handle_cbus_packet];
    try apply briefly_ret; try (apply briefly_emit; exact Logic.I).
  induction sals as [|s sals IH]; cbn [dispatch_sals]; [apply briefly_ret|].
  apply briefly_seq; [apply briefly_sal|exact IH].
Qed.
Lemma brief_data now c buf c' ev r : handle_data now c buf = (c', ev, r) -> Forall brief ev.
Proof.
  assert (W : forall ws, Forall brief (map CWarn ws)) by (induction ws; constructor; [exact Logic.I|assumption]).
  unfold handle_data. intros E. destruct (decode_packet buf true true true) as [ws [[p n]|e]] eqn:D;
    [|inversion E; apply W].
  destruct p as [p|]; [|inversion E; apply W].
  assert (S := briefly_packet now p c).
  destruct (handle_cbus_packet now p c) as [[c2 ev2] [[]|e]]; inversion E; subst;
    apply Forall_app; (split; [apply W|eapply S; reflexivity]).
Qed.

(** Over any history of any client, from any state, with any clock and any
    arguments, nothing longer than 47 bytes is written. *)
Theorem C60_brief : forall now ops st st' tr,
  client_run now st ops = (st', tr) -> Forall (fun w => (length w <= 47)%nat) (writes (effects tr)).
Proof.
  assert (X : forall evs, Forall brief evs -> Forall (fun w => (length w <= 47)%nat) (writes evs)).
  { induction 1 as [|e evs H F IH]; [constructor|]. destruct e; try exact IH. cbn [writes flat_map app]. constructor; assumption. }
  intros now ops st st' tr E. apply X. revert st st' tr E.
  induction ops as [|o ops IH]; intros st st' tr E; cbn [client_run] in E; [inversion E; constructor|].
  destruct (client_step now st o) as [[st1 ev] r] eqn:S.
  destruct (client_run now st1 ops) as [st2 tr2] eqn:T. inversion E; subst.
  cbn [effects flat_map fst]. fold (effects tr2). apply Forall_app. split; [|eapply IH; exact T].
  assert (K : match api now o (fst st) with (c, ev, r) => ((c, snd st), ev, r) end = (st1, ev, r) -> Forall brief ev).
  { intros F. destruct (api now o (fst st)) as [[c1 ev1] r1] eqn:A. inversion F; subst. eapply briefly_api; exact A. }
  destruct o; cbn [client_step] in S; try (apply K; exact S). clear K.
  assert (P : forall c buf calls c' buf' ev out, processes (handle_data now) c buf calls c' buf' ev out -> Forall brief ev).
  { induction 1; try constructor; try (eapply brief_data; eassumption).
    apply Forall_app. split; [eapply brief_data; eassumption|assumption]. }
  destruct (data_received (handle_data now) MAX_BUFFER_SIZE (fst st) (snd st) b) as [[[c1 b1] ev1] o1] eqn:D.
  assert (Q : ev = ev1) by (destruct o1 as [[]|e]; inversion S; reflexivity). subst ev1.
  unfold data_received in D. destruct (Nat.ltb _ (length b)); [inversion D; constructor|].
  destruct (Nat.ltb _ (length (snd st) + length b)); [inversion D; constructor|].
  apply process_buffer_spec in D. destruct D as [calls D]. eapply P; exact D.
Qed.
Print Assumptions C60_brief.

(** The bound is attained: nine groups in one call. *)
Theorem C60_attained : exists now ops st' tr w,
  client_run now (new_client ClassPCI 0 true Pending, []) ops = (st', tr)
  /\ In w (writes (effects tr)) /\ length w = 47%nat.
Proof.
  exists noon, [OpConnect; OpOn [1; 2; 3; 4; 5; 6; 7; 8; 9]]. eexists. eexists.
  exists (txt "\053800790179027903790479057906790779087909" ++ txt "55k" ++ [13]). split; [vm_compute; reflexivity|]. split; [|reflexivity].
  vm_compute. tauto.
Qed.
Print Assumptions C60_attained.
