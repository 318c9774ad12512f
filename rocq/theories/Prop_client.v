(** Properties C28-C32, C39 and C52: the client protocol. *)
From Coq Require Import String.
From Coq Require Import List ZArith Bool Lia.
From Verif Require Import Py Common Sal Cal Packet Text Mqtt Buffered Client Base Spec Spec_client Common_facts Packet_roundtrip
  Packet_facts Packet_decode Packet_total Buffer_facts Client_facts Client_steps Client_send Client_calls Client_dispatch.
Import ListNotations.
Open Scope Z_scope.

(** C28 *)
Theorem C28_cycle : forall now class frequency handle_clock f ops st tr,
  client_run now (new_client class frequency handle_clock f, []) ops = (st, tr) ->
  (forall k code, nth_error (wire_codes (effects tr)) k = Some code -> code = nth (k mod 20) code_order 0)
  /\ cl_index (fst st) = (length (wire_codes (effects tr)) mod 20)%nat
  /\ counter_ok (fst st)
  /\ Forall write_form (effects tr).
Proof.
  intros now class frequency handle_clock f ops st tr E. apply codes_run in E.
  destruct E as [A [B [C D]]]; [cbn; lia|]. split; [|split; [exact B|split; [exact A|exact D]]].
  intros k code H. rewrite C in H. rewrite nth_error_map in H.
  destruct (nth_error (seq 0 (length (wire_codes (effects tr)))) k) as [j|] eqn:J; [|discriminate].
  assert (K : (k < length (wire_codes (effects tr)))%nat).
  { apply nth_error_Some. rewrite C, nth_error_map, J. discriminate. }
  apply nth_error_nth with (d := 0%nat) in J. rewrite seq_nth in J by exact K.
  inversion H. subst j. reflexivity.
Qed.
Print Assumptions C28_cycle.

(** Any 20 consecutive codes are pairwise distinct. *)
Theorem C28_distinct : forall now class frequency handle_clock f ops st tr before window after,
  client_run now (new_client class frequency handle_clock f, []) ops = (st, tr) ->
  wire_codes (effects tr) = before ++ window ++ after -> (length window <= 20)%nat -> NoDup window.
Proof.
  intros now class frequency handle_clock f ops st tr before window post E W L. apply codes_run in E.
  destruct E as [_ [_ [C _]]]; [cbn; lia|]. rewrite W in C at 1. symmetry in C.
  now apply codes_window in C.
Qed.
Print Assumptions C28_distinct.

(** The outcome of every command call, in one lemma. *)
Lemma command_outcome now o c : is_command o -> python_value o -> clock_works now -> counter_ok c ->
  (cl_transport c = true /\ acceptable o /\ o <> OpReset /\
     exists w c', api now o c = (c', [CWrite w], Ok (Some (code_at (cl_index c) 0)))
       /\ command_line w (code_at (cl_index c) 0) /\ same_client (set_index c ((cl_index c + 1) mod 20)) c')
  \/ (cl_transport c = true /\ o = OpReset /\ exists c' ev, api now o c = (c', ev, Ok None))
  \/ (exists c' e, api now o c = (c', [], Raise e) /\ same_client c c'
      /\ ~ (cl_transport c = true /\ acceptable o)
      /\ (e = OSError -> cl_transport c = false) /\ (acceptable o -> e = OSError)).
Proof.
  intros K V N I.
  assert (SR : same_client c c) by (unfold same_client; destruct c; reflexivity).
  assert (SI : forall i, same_client (set_index c i) (set_index c i)) by (intros i; destruct c; reflexivity).
  assert (G : forall new k gas, group_command new k ->
     (cl_transport c = true /\ (gas <> [] /\ (length gas <= 9)%nat /\ Forall group_address gas) /\
       exists w, send_groups new gas c = (set_index c ((cl_index c + 1) mod 20), [CWrite w], Ok (Some (code_at (cl_index c) 0)))
         /\ command_line w (code_at (cl_index c) 0))
     \/ exists e, send_groups new gas c = (c, [], Raise e)
      /\ ~ (cl_transport c = true /\ (gas <> [] /\ (length gas <= 9)%nat /\ Forall group_address gas))
      /\ (e = OSError -> cl_transport c = false)
      /\ ((gas <> [] /\ (length gas <= 9)%nat /\ Forall group_address gas) -> e = OSError)).
  { intros new k gas C. destruct (groups_outcome new k gas c C I) as [B1 [B2 [B3 B4]]].
    destruct (Nat.le_gt_cases (length gas) 9) as [L|L].
    - destruct (forall_dec_groups gas) as [F|F].
      + destruct (cl_transport c) eqn:T.
        * destruct gas as [|g gas].
          -- right. exists ValueError. split; [now apply B3|]. split; [|split]; try discriminate; tauto.
          -- left. split; [reflexivity|]. split; [split; [discriminate|auto]|].
             destruct B4 as [w [E [H _]]]; auto; [discriminate|]. now exists w.
        * right. exists OSError. split; [now apply B2|]. repeat split; try reflexivity. intros [H _]. discriminate H.
      + right. exists ValueError. split; [apply B1; now right|]. split; [|split]; try discriminate; tauto.
    - right. exists ValueError. split; [apply B1; now left|]. split; [|split]; try discriminate; lia. }
  destruct o as [ | |b|gas|gas|gas|ga d level|u a|w| |]; try contradiction; cbn [api acceptable].
  - destruct (G _ _ gas group_on) as [[T [A [w [E L]]]]|[e [E [A H]]]].
    + left. split; [exact T|]. split; [exact A|]. split; [discriminate|].
      exists w, (set_index c ((cl_index c + 1) mod 20)). auto.
    + right. right. exists c, e. auto.
  - destruct (G _ _ gas group_off) as [[T [A [w [E L]]]]|[e [E [A H]]]].
    + left. split; [exact T|]. split; [exact A|]. split; [discriminate|].
      exists w, (set_index c ((cl_index c + 1) mod 20)). auto.
    + right. right. exists c, e. auto.
  - destruct (G _ _ gas group_terminate) as [[T [A [w [E L]]]]|[e [E [A H]]]].
    + left. split; [exact T|]. split; [exact A|]. split; [discriminate|].
      exists w, (set_index c ((cl_index c + 1) mod 20)). auto.
    + right. right. exists c, e. auto.
  - destruct (ramp_outcome ga d level c I) as [B1 [B2 [B3 B4]]].
    assert (GD : group_address ga \/ ~ group_address ga) by (unfold group_address; lia).
    destruct GD as [GA|GA].
    + destruct (cl_transport c) eqn:T.
      * assert (LD : int_level level \/ ~ int_level level).
        { destruct level as [z| | |]; try (right; intros [z [Q _]]; discriminate Q).
          destruct (Z_le_dec 0 z); [destruct (Z_le_dec z 255)|].
          - left. now exists z.
          - right. intros [y [Q ?]]. inversion Q. subst. lia.
          - right. intros [y [Q ?]]. inversion Q. subst. lia. }
        destruct LD as [LV|LV].
        -- left. split; [reflexivity|]. split; [split; [exact GA|exact LV]|]. split; [discriminate|].
           destruct (B4 GA eq_refl LV) as [w [d' [E [L _]]]].
           exists w, (set_index c ((cl_index c + 1) mod 20)). auto.
        -- right. right. destruct (B3 GA eq_refl LV) as [E|E]; eexists; eexists; (split; [exact E|]);
             (split; [exact SR|]); (split; [intros [_ [_ H]]; exact (LV H)|]);
             (split; [discriminate|]); intros [_ H]; destruct (LV H).
      * right. right. exists c, OSError. rewrite (B2 GA eq_refl). repeat split; auto. intros [H _]. discriminate H.
    + right. right. exists c, ValueError. rewrite (B1 GA). repeat split; auto; try discriminate; tauto.
  - destruct (identify_outcome u a c I) as [B1 [B2 B3]].
    destruct (cl_transport c) eqn:T.
    + assert (D : byte u \/ ~ byte u) by (unfold byte; lia). destruct D as [D|D].
      * left. split; [reflexivity|]. split; [unfold byte in D; lia|]. split; [discriminate|].
        destruct (B3 eq_refl D) as [w [E [L _]]]. exists w, (set_index c ((cl_index c + 1) mod 20)). auto.
      * right. right. exists c, ValueError. rewrite (B2 eq_refl D). unfold byte in D.
        repeat split; auto; try discriminate; lia.
    + right. right. exists c, OSError. rewrite (B1 eq_refl). repeat split; auto. intros [H _]. discriminate H.
  - destruct (clock_outcome now w c I) as [B1 [B2 B3]]; [|exact N|].
    { intros v ->. exact V. }
    set (v := match w with Some v => v | None => now (cl_reads c) end) in *.
    set (c1 := match w with Some _ => c | None => set_reads c (S (cl_reads c)) end) in *.
    assert (VD : v = COther \/ v <> COther) by (destruct v; [right|right|right|left]; congruence).
    assert (S1 : same_client c c1) by (subst c1; destruct w; destruct c; reflexivity).
    assert (AC : v <> COther -> match w with Some v => v <> COther | None => True end) by (subst v; destruct w; auto).
    assert (NA : v = COther -> ~ match w with Some v => v <> COther | None => True end).
    { subst v. destruct w as [v|]; [tauto|]. intros Q.
      destruct (N (cl_reads c)) as [? [? [? [? [? [? [? [Q2 _]]]]]]]]. congruence. }
    destruct VD as [VO|VO].
    + right. right. exists c1, TypeError. rewrite (B1 VO). specialize (NA VO).
      repeat split; auto; try discriminate; tauto.
    + destruct (cl_transport c) eqn:T.
      * left. split; [reflexivity|]. split; [now apply AC|]. split; [discriminate|].
        destruct (B3 VO eq_refl) as [b [E [L _]]].
        exists b, (set_index c1 ((cl_index c + 1) mod 20)). split; [exact E|]. split; [exact L|].
        subst c1. destruct w; destruct c; reflexivity.
      * right. right. exists c1, OSError. rewrite (B2 VO eq_refl).
        repeat split; auto. intros [H _]. discriminate H.
  - destruct (cl_transport c) eqn:T.
    + right. left. split; [reflexivity|]. split; [reflexivity|]. unfold mseq, mbind.
      rewrite (reset_connected c T I). eexists. eexists. reflexivity.
    + right. right. exists c, OSError. unfold mseq, mbind. rewrite (reset_outcome c T).
      repeat split; auto. intros [H _]. discriminate H.
Qed.

(** The code returned by a call ends its only write, and is the next one. *)
Theorem C28_return : forall now o c c' ev code,
  is_command o -> python_value o -> clock_works now -> counter_ok c ->
  api now o c = (c', ev, Ok (Some code)) ->
  code = code_at (cl_index c) 0 /\ exists body, ev = [CWrite (body ++ [code; 13])].
Proof.
  intros now o c c' ev code K V N I E.
  destruct (command_outcome now o c K V N I) as [[_ [_ [_ [w [c1 [E1 [L _]]]]]]]|[[_ [_ [c1 [ev1 E1]]]]|[c1 [e [E1 _]]]]];
    rewrite E1 in E; inversion E; subst.
  split; [reflexivity|]. destruct L as [digits [raw [-> _]]]. exists ([92] ++ digits).
  now rewrite <- app_assoc.
Qed.
Print Assumptions C28_return.

Definition noon (n : nat) : clockval := CDateTime 2024 2 29 12 0 0 0.
Lemma noon_works : clock_works noon.
Proof.
  intros n. exists 2024, 2, 29, 12, 0, 0, 0. split; [reflexivity|]. unfold valid_date, valid_time.
  split; [|lia]. split; [lia|]. exists 29. split; [|lia]. right. right. left. split; [reflexivity|].
  split; [|reflexivity]. split; [now exists 506|]. left. intros [k H]. lia.
Qed.

(** 25 calls, some of which fail, around a reconnection. *)
Example C28_case :
  wire_codes (effects (snd (client_run noon (new_client ClassPCI 0 true NoFuture, [])
    ([OpOn [1]; OpConnect; OpOn [1]; OpOff []; OpReset; OpClock None; OpLost; OpOff [3]; OpConnect]
     ++ repeat (OpIdentify 4 0) 16))))
  = txt "hijklmnopqrstuvwxyzghijklm" ++ txt "n".
Proof. vm_compute. reflexivity. Qed.

(** C29 *)
Theorem C29_no_effect : forall now o c c' ev e,
  is_command o -> python_value o -> clock_works now -> counter_ok c ->
  api now o c = (c', ev, Raise e) -> ev = [] /\ same_client c c'.
Proof.
  intros now o c c' ev e K V N I E.
  destruct (command_outcome now o c K V N I) as [[_ [_ [_ [w [c1 [E1 _]]]]]]|[[_ [_ [c1 [ev1 E1]]]]|[c1 [e1 [E1 [S _]]]]]];
    rewrite E1 in E; inversion E; subst. auto.
Qed.
Print Assumptions C29_no_effect.

Theorem C29_raises_iff : forall now o c c' ev r,
  is_command o -> python_value o -> clock_works now -> counter_ok c ->
  api now o c = (c', ev, r) ->
  ((exists e, r = Raise e) <-> cl_transport c = false \/ ~ acceptable o)
  /\ (forall e, r = Raise e -> (acceptable o -> e = OSError) /\ (cl_transport c = true -> e <> OSError)).
Proof.
  intros now o c c' ev r K V N I E.
  destruct (command_outcome now o c K V N I)
    as [[T [A [_ [w [c1 [E1 _]]]]]]|[[T [-> [c1 [ev1 E1]]]]|[c1 [e1 [E1 [S [A [Q1 Q2]]]]]]]];
    rewrite E1 in E; inversion E; subst.
  - split; [|discriminate]. split; [intros [e H]; discriminate H|]. rewrite T. intros [H|H]; [discriminate H|tauto].
  - split; [|discriminate]. split; [intros [e H]; discriminate H|]. rewrite T. cbn. intros [H|H]; [discriminate H|tauto].
  - split.
    + split; [|eauto]. intros _. destruct (cl_transport c); [right; tauto|now left].
    + intros e H. inversion H; subst. split; [exact Q2|]. intros T H2. rewrite (Q1 H2) in T. discriminate T.
Qed.
Print Assumptions C29_raises_iff.

Example C29_case : let c := mkClient ClassPCI true 7 10 true Pending false 3 1 in
  map (fun o => api noon o c)
    [OpOn []; OpOn [1; 2; 3; 4; 5; 6; 7; 8; 9; 10]; OpOff [0; 256]; OpRamp 1 4 (PInt 256); OpRamp (-1) 4 (PInt 25);
     OpIdentify 256 0; OpClock (Some COther)]
  = map (fun e => (c, [], Raise e)) [ValueError; ValueError; ValueError; ValueError; ValueError; ValueError; TypeError]
  /\ api noon (OpOn [1]) (set_transport c false) = (set_transport c false, [], Raise OSError).
Proof. vm_compute. split; reflexivity. Qed.

(** C30 *)
Theorem C30_commands : forall now o c c' ev r,
  match o with OpOn _ | OpOff _ | OpTerminate _ | OpRamp _ _ _ | OpClock _ => True | _ => False end ->
  python_value o -> clock_works now -> counter_ok c ->
  api now o c = (c', ev, Ok r) ->
  exists w code app cmds,
    ev = [CWrite w] /\ r = Some code /\ command_line w code /\ requests now c o app cmds /\ cmds <> []
    /\ forall strict rest, decode_packet (w ++ rest) true strict false
       = ([], Ok (Some (PktPM (mkHdr true 0 None (Some code)) (Some app) cmds), length w)).
Proof.
  intros now o c c' ev r K V N I E.
  assert (K2 : is_command o) by (destruct o; try contradiction; exact Logic.I).
  destruct (command_outcome now o c K2 V N I)
    as [[T [A _]]|[[T [-> _]]|[c1 [e1 [E1 _]]]]]; [|contradiction|rewrite E1 in E; discriminate E].
  assert (MN : forall (k : Z -> sal) gas, gas <> [] -> map k gas <> []).
  { intros k [|g gas] H; [congruence|discriminate]. }
  destruct o as [ | |b|gas|gas|gas|ga d level|u a|w| |]; try contradiction; cbn [api acceptable] in *.
  - destruct A as [A1 [A2 A3]]. destruct (groups_outcome _ _ gas c group_on I) as [_ [_ [_ B]]].
    destruct (B A2 A3 T A1) as [w [E1 [L D]]]. change (send_groups new_light_on gas c) with (lighting_group_on gas c) in E1.
    rewrite E1 in E. inversion E; subst.
    eexists. eexists. exists 0x38, (map LightOn gas). split; [reflexivity|]. split; [reflexivity|].
    split; [exact L|]. split; [constructor|]. split; [now apply MN|exact D].
  - destruct A as [A1 [A2 A3]]. destruct (groups_outcome _ _ gas c group_off I) as [_ [_ [_ B]]].
    destruct (B A2 A3 T A1) as [w [E1 [L D]]]. change (send_groups new_light_off gas c) with (lighting_group_off gas c) in E1.
    rewrite E1 in E. inversion E; subst.
    eexists. eexists. exists 0x38, (map LightOff gas). split; [reflexivity|]. split; [reflexivity|].
    split; [exact L|]. split; [constructor|]. split; [now apply MN|exact D].
  - destruct A as [A1 [A2 A3]]. destruct (groups_outcome _ _ gas c group_terminate I) as [_ [_ [_ B]]].
    destruct (B A2 A3 T A1) as [w [E1 [L D]]].
    change (send_groups new_light_terminate gas c) with (lighting_group_terminate_ramp gas c) in E1.
    rewrite E1 in E. inversion E; subst.
    eexists. eexists. exists 0x38, (map LightTerminate gas). split; [reflexivity|]. split; [reflexivity|].
    split; [exact L|]. split; [constructor|]. split; [now apply MN|exact D].
  - destruct A as [A1 A2]. destruct (ramp_outcome ga d level c I) as [_ [_ [_ B]]].
    destruct (B A1 T A2) as [w [d' [E1 [L [R D]]]]]. rewrite E1 in E. inversion E; subst.
    eexists. eexists. exists 0x38, [LightRamp ga d' level]. split; [reflexivity|]. split; [reflexivity|].
    split; [exact L|]. split; [now constructor|]. split; [discriminate|exact D].
  - destruct (clock_outcome now w c I) as [_ [_ B]]; [intros v ->; exact V|exact N|].
    assert (VO : match w with Some v => v | None => now (cl_reads c) end <> COther).
    { destruct w as [v|]; [exact A|]. destruct (N (cl_reads c)) as [? [? [? [? [? [? [? [Q _]]]]]]]]. congruence. }
    destruct (B VO T) as [b [E1 [L D]]]. rewrite E1 in E. inversion E; subst.
    eexists. eexists. exists 0xdf, (clock_commands (match w with Some v => v | None => now (cl_reads c) end)).
    split; [reflexivity|]. split; [reflexivity|]. split; [exact L|].
    split; [destruct w; constructor|]. split; [|exact D].
    destruct (match w with Some v => v | None => now (cl_reads c) end); [discriminate|discriminate|discriminate|congruence].
Qed.
Print Assumptions C30_commands.

Theorem C30_identify : forall now u a c c' ev r, counter_ok c ->
  api now (OpIdentify u a) c = (c', ev, Ok r) ->
  exists w code, ev = [CWrite w] /\ r = Some code /\ command_line w code
    /\ (0 <= a <= 17 -> forall strict rest, decode_packet (w ++ rest) true strict false
          = ([], Ok (Some (PktPP (mkHdr true 0 None (Some code)) u None [CIdentify a]), length w))).
Proof.
  intros now u a c c' ev r I E. cbn [api] in E. destruct (identify_outcome u a c I) as [B1 [B2 B3]].
  destruct (cl_transport c) eqn:T; [|rewrite B1 in E by reflexivity; discriminate E].
  assert (D : byte u \/ ~ byte u) by (unfold byte; lia).
  destruct D as [D|D]; [|rewrite (B2 eq_refl D) in E; discriminate E].
  destruct (B3 eq_refl D) as [w [E1 [L Q]]]. rewrite E1 in E. inversion E; subst. eexists. eexists. eauto.
Qed.
Print Assumptions C30_identify.

(** The attribute goes out modulo 256; what is then no attribute of the guide is
    an invalid packet for a PCI. *)
Theorem C30_attribute : forall now u a c c' ev r, counter_ok c ->
  api now (OpIdentify u a) c = (c', ev, Ok r) ->
  exists w code, ev = [CWrite w] /\ r = Some code
    /\ forall strict rest, decode_packet (w ++ rest) true strict false
       = ([], Ok (Some (if a mod 256 <=? 17 then PktPP (mkHdr true 0 None (Some code)) u None [CIdentify (a mod 256)]
                        else PktInvalid [u; 0; 0x21; a mod 256] ValueError), length w)).
Proof.
  intros now u a c c' ev r I E. cbn [api] in E. destruct (identify_outcome u a c I) as [B1 [B2 _]].
  destruct (cl_transport c) eqn:T; [|rewrite B1 in E by reflexivity; discriminate E].
  assert (Hu : byte u \/ ~ byte u) by (unfold byte; lia).
  destruct Hu as [Hu|Hu]; [|rewrite (B2 eq_refl Hu) in E; discriminate E].
  set (code := code_at (cl_index c) 0). pose proof (code_at_code (cl_index c) 0) as C. fold code in C.
  set (p := PktPP (mkHdr true CLASS_4 None None) u None [CIdentify a]).
  assert (H : hex_packet p) by (repeat constructor). pose proof (byte_mod a) as Ba.
  set (body := [u; 0; 0x21; a mod 256]).
  assert (W : encode_packet p = Ok (wire true (flags DAT_PP 0 false 0 :: body))).
  { unfold p. cbn [encode_packet]. rewrite (pp_encode_cals _ u [CIdentify a] [CAL_IDENTIFY; a mod 256] Hu); [reflexivity|].
    cbn [concat_res cal_encode]. rewrite land_255, mk_bytes_ok; [reflexivity|].
    byte_list; [unfold byte; vm_compute; split; discriminate|exact Ba]. }
  assert (Q : identify u a c = (set_index c ((cl_index c + 1) mod 20), [CWrite ([92] ++ wire true (flags DAT_PP 0 false 0 :: body) ++ [code; 13])], Ok (Some code))).
  { unfold identify, new_pp. cbn [Z.eqb negb]. unfold mbind at 1, mlift. fold p. rewrite (send_confirmed p false c _ H T I W). reflexivity. }
  rewrite Q in E. injection E as _ <- <-. exists ([92] ++ wire true (flags DAT_PP 0 false 0 :: body) ++ [code; 13]), code.
  split; [reflexivity|]. split; [reflexivity|]. intros strict rest. clear Q.
  assert (L := line_to_pci [92] true true false strict DAT_PP false 0 body (Some code) rest eq_refl).
  cbv zeta in L. cbn [opt_code] in L.
  replace (([92] ++ wire true (flags DAT_PP 0 false 0 :: body) ++ [code; 13]) ++ rest)
    with ([92] ++ wire true (flags DAT_PP 0 false 0 :: body) ++ [code] ++ 13 :: rest) by (rewrite <- !app_assoc; reflexivity).
  rewrite L; [|right; right; reflexivity|lia|unfold body; byte_list; try assumption; unfold byte; lia|exact C].
  unfold decode_payload. cbn [DAT_PM DAT_PP Z.eqb Pos.eqb]. unfold body. unfold byte in Ba.
  destruct (a mod 256 <=? 17) eqn:A.
  - assert (D : decode_cals [0x21; a mod 256] = Ok [CIdentify (a mod 256)]).
    { unfold decode_cals. cbn -[identify_attribute Z.modulo]. unfold identify_attribute.
      replace (_ && _) with true by lia. reflexivity. }
    rewrite (pp_decode_cals u [0x21; a mod 256] _ true 0 D). reflexivity.
  - assert (D : decode_cals [0x21; a mod 256] = Raise ValueError).
    { unfold decode_cals. cbn -[identify_attribute Z.modulo]. unfold identify_attribute.
      replace (_ && _) with false by lia. reflexivity. }
    unfold pp_decode. cbn [py_index nth_error rbind Z.eqb skipn]. rewrite D. reflexivity.
Qed.
Print Assumptions C30_attribute.

Example C30_case : let c := mkClient ClassPCI true 7 10 true Pending false 3 1 in
  api noon (OpRamp 5 9 (PInt 200)) c = (set_index c 8, [CWrite (txt "\0538001A05C8DC" ++ [111; 13])], Ok (Some 111))
  /\ api noon (OpIdentify 4 2) c = (set_index c 8, [CWrite (txt "\0604002102D3" ++ [111; 13])], Ok (Some 111))
  /\ api noon (OpIdentify 4 20) c = (set_index c 8, [CWrite (txt "\0604002114C1" ++ [111; 13])], Ok (Some 111)).
Proof. vm_compute. repeat split; reflexivity. Qed.

(** C31 *)
Theorem C31_dispatch : forall now c buf c' ev n,
  handle_data now c buf = (c', ev, Ok n) ->
  exists ws p size, decode_packet buf true true true = (ws, Ok (p, size)) /\ n = Z.of_nat size
    /\ callbacks ev = match p with Some p => callbacks_of p | None => [] end.
Proof.
  intros now c buf c' ev n E. unfold handle_data in E.
  assert (W : forall ws, callbacks (map CWarn ws) = []) by (induction ws; auto).
  destruct (decode_packet buf true true true) as [ws [[p size]|e]]; [|discriminate E].
  exists ws, p, size. split; [reflexivity|]. destruct p as [p|]; [|inversion E; subst; auto].
  destruct (handle_cbus_packet now p c) as [[c2 ev2] [[]|e]] eqn:H; inversion E; subst.
  split; [reflexivity|]. rewrite callbacks_app, W. cbn [app].
  destruct p; cbn [handle_cbus_packet callbacks_of] in *; try (inversion H; reflexivity).
  destruct (dispatch_prefix now _ _ _ _ _ _ H) as [tl [T1 T2]]. rewrite (T2 eq_refl), app_nil_r in T1. now symmetry.
Qed.
Print Assumptions C31_dispatch.

(** A connected client misses none: handling a packet only raises if decoding it does. *)
Theorem C31_complete : forall now c buf ws p size,
  cl_transport c = true -> counter_ok c -> clock_works now ->
  decode_packet buf true true true = (ws, Ok (p, size)) ->
  exists c' ev, handle_data now c buf = (c', ev, Ok (Z.of_nat size)) /\ cl_transport c' = true /\ counter_ok c'
    /\ callbacks ev = match p with Some p => callbacks_of p | None => [] end.
Proof.
  intros now c buf ws p size T I N D.
  assert (X : exists c' ev, handle_data now c buf = (c', ev, Ok (Z.of_nat size)) /\ cl_transport c' = true /\ counter_ok c').
  { unfold handle_data. rewrite D. destruct p as [p|]; [|eauto].
    destruct p; cbn [handle_cbus_packet]; try (unfold memit, mret; eauto).
    destruct (dispatch_list now (h_source h) sals N c I T) as [ev [E _]]. rewrite E.
    eexists. eexists. split; [reflexivity|]. split; [exact T|]. apply after_fields. }
  destruct X as [c' [ev [E [T2 I2]]]]. exists c', ev. repeat split; auto.
  destruct (C31_dispatch _ _ _ _ _ _ E) as [ws2 [p2 [size2 [D2 [_ C]]]]]. rewrite D in D2. inversion D2; subst. exact C.
Qed.
Print Assumptions C31_complete.

(** Also when an exception ends the handling, nothing but the callbacks due has
    been fired, in order. *)
Theorem C31_raise : forall now c buf c' ev e,
  handle_data now c buf = (c', ev, Raise e) ->
  callbacks ev = []
  \/ exists ws p size rest, decode_packet buf true true true = (ws, Ok (Some p, size))
       /\ callbacks_of p = callbacks ev ++ rest.
Proof.
  intros now c buf c' ev e E. unfold handle_data in E.
  assert (W : forall ws, callbacks (map CWarn ws) = []) by (induction ws; auto).
  destruct (decode_packet buf true true true) as [ws [[p size]|e1]]; [|inversion E; subst; left; apply W].
  destruct p as [p|]; [|discriminate E].
  destruct (handle_cbus_packet now p c) as [[c2 ev2] [[]|e1]] eqn:H; inversion E; subst.
  right. exists ws, p, size. rewrite callbacks_app, W. cbn [app].
  destruct p; cbn [handle_cbus_packet callbacks_of] in *; try discriminate H.
  destruct (dispatch_prefix now _ _ _ _ _ _ H) as [tl [T1 _]]. now exists tl.
Qed.
Print Assumptions C31_raise.

(** Two groups switched on by unit 5, then a ramp. *)
Example C31_case : let c := mkClient ClassPCI true 0 0 false NoFuture false 0 0 in
  let line := txt "05053800790179020203FFC5" ++ [13; 10] in
  callbacks (snd (fst (handle_data noon c line)))
  = [COn (Some 5) 1; COn (Some 5) 2; CRamp (Some 5) 3 0 (PInt 255)].
Proof. vm_compute. reflexivity. Qed.

(** C32 *)
Theorem C32_connect : forall c, counter_ok c ->
  exists c', connection_made c = (c',
    map CWrite [txt "~" ++ [13]; txt "~" ++ [13]; txt "~" ++ [13];
                txt "A3210038" ++ [code_at (cl_index c) 0; 13];
                txt "A342000E" ++ [code_at (cl_index c) 1; 13];
                txt "A3300059" ++ [code_at (cl_index c) 2; 13]]
    ++ (if cl_frequency c =? 0 then [] else [CSpawnTimesync]), Ok tt)
  /\ cl_transport c' = true
  /\ cl_tasks c' = (cl_tasks c + (if (cl_frequency c =? 0)%Z then 0 else 1))%nat.
Proof.
  intros c I. eexists. rewrite (connect_outcome c I). split; [reflexivity|].
  cbn zeta. destruct (cl_frequency c =? 0); cbn; split; try reflexivity; lia.
Qed.
Print Assumptions C32_connect.

(** What those lines mean to a PCI: three resets, then the parameters. *)
Theorem C32_meaning : forall c, counter_ok c ->
  let dm p v k := PktDM (mkHdr false CLASS_2 None (Some (code_at (cl_index c) k))) p v in
  forall c' ev, connection_made c = (c', ev, Ok tt) ->
  map (fun w => decode_packet w false true false) (writes ev)
  = map (fun p => ([], Ok (Some (fst p), snd p)))
      [(PktReset, 1%nat); (PktReset, 1%nat); (PktReset, 1%nat);
       (dm 0x21 0x38 0%nat, 10%nat); (dm 0x42 0x0E 1%nat, 10%nat); (dm 0x30 0x59 2%nat, 10%nat)].
Proof.
  intros c I dm c' ev E. rewrite (connect_outcome c I) in E.
  assert (W : writes ev = [txt "~" ++ [13]; txt "~" ++ [13]; txt "~" ++ [13];
     txt "A3210038" ++ [code_at (cl_index c) 0; 13]; txt "A342000E" ++ [code_at (cl_index c) 1; 13];
     txt "A3300059" ++ [code_at (cl_index c) 2; 13]]).
  { inversion E. destruct (cl_frequency c =? 0); reflexivity. }
  rewrite W. subst dm. clear -I. unfold counter_ok in I. revert I. generalize (cl_index c). clear c.
  intros i I. do 20 (destruct i as [|i]; [vm_compute; reflexivity|]). lia.
Qed.
Print Assumptions C32_meaning.

Example C32_case : connection_made (new_client ClassHandler 300 true Pending)
  = (mkClient ClassHandler true 3 300 true Pending false 0 1,
     map CWrite [[126; 13]; [126; 13]; [126; 13]; txt "A3210038h" ++ [13]; txt "A342000Ei" ++ [13]; txt "A3300059j" ++ [13]]
     ++ [CSpawnTimesync], Ok tt).
Proof. vm_compute. reflexivity. Qed.

(** C39 *)
Theorem C39_answers : forall now c buf ws h a sals size,
  cl_transport c = true -> counter_ok c -> clock_works now ->
  decode_packet buf true true true = (ws, Ok (Some (PktPM h a sals), size)) ->
  exists c' ev, handle_data now c buf = (c', ev, Ok (Z.of_nat size))
    /\ answers now c (answered c sals) (writes ev).
Proof.
  intros now c buf ws h a sals size T I N D. unfold handle_data. rewrite D. cbn [handle_cbus_packet].
  destruct (dispatch_list now (h_source h) sals N c I T) as [ev [E [_ [A _]]]]. rewrite E.
  eexists. eexists. split; [reflexivity|]. rewrite writes_app.
  assert (W : writes (map CWarn ws) = []) by (clear; induction ws; auto). rewrite W. exact A.
Qed.
Print Assumptions C39_answers.

(** Nothing else that is received makes the client write. *)
Theorem C39_only : forall now c buf ws p size c' ev r,
  decode_packet buf true true true = (ws, Ok (p, size)) ->
  match p with Some (PktPM _ _ sals) => answered c sals = 0%nat | _ => True end ->
  cl_transport c = true -> counter_ok c -> clock_works now ->
  handle_data now c buf = (c', ev, r) -> writes ev = [].
Proof.
  intros now c buf ws p size c' ev r D P T I N E.
  assert (W : writes (map CWarn ws) = []) by (clear; induction ws; auto).
  destruct p as [p|]; [|unfold handle_data in E; rewrite D in E; inversion E; subst; exact W].
  destruct p; try (unfold handle_data in E; rewrite D in E; cbn in E; inversion E; subst; rewrite ?writes_app, W; reflexivity).
  destruct (C39_answers _ _ _ _ _ _ _ _ T I N D) as [c2 [ev2 [E2 [A _]]]]. rewrite E2 in E. inversion E; subst.
  rewrite P in A. now destruct (writes ev).
Qed.
Print Assumptions C39_only.

(** The setting of --no-clock does not reach the daemon's handler. *)
Theorem C39_handler_respects_setting_refuted : ~ forall now c buf c' ev r,
  cl_handle_clock c = false -> handle_data now c buf = (c', ev, r) -> writes ev = [].
Proof.
  intros H.
  specialize (H noon (mkClient ClassHandler true 0 0 false NoFuture false 0 0) (txt "0505DF00110303" ++ [13; 10])).
  destruct (handle_data noon _ _) as [[c' ev] r] eqn:E in H. specialize (H c' ev r eq_refl eq_refl).
  vm_compute in E. inversion E; subst. discriminate H.
Qed.
Print Assumptions C39_handler_respects_setting_refuted.

Example C39_case : let buf := txt "0505DF0011031103EF" ++ [13; 10] in
  map (fun k => length (writes (snd (fst (handle_data noon (mkClient (fst k) true 0 0 (snd k) NoFuture false 0 0) buf)))))
    [(ClassPCI, true); (ClassPCI, false); (ClassHandler, true); (ClassHandler, false)] = [2; 0; 2; 2]%nat.
Proof. vm_compute. reflexivity. Qed.

(** C52 *)
Theorem C52_silent : forall now ops st st' tr,
  ~ In OpConnect ops -> cl_transport (fst st) = false ->
  client_run now st ops = (st', tr) ->
  writes (effects tr) = [] /\ cl_transport (fst st') = false /\ cl_index (fst st') = cl_index (fst st).
Proof.
  intros now ops.
  set (R := fun c ev c' => cl_transport c = false ->
              writes ev = [] /\ cl_transport c' = false /\ cl_index c' = cl_index c).
  assert (Step : forall st o st' ev r, o <> OpConnect -> client_step now st o = (st', ev, r) -> R (fst st) ev (fst st')).
  { intros st o st' ev r NC E.
    assert (RR : forall c, R c [] c) by (intros c H; auto).
    assert (RT : forall c e1 c1 e2 c2, R c e1 c1 -> R c1 e2 c2 -> R c (e1 ++ e2) c2).
    { intros c e1 c1 e2 c2 H1 H2 T. destruct (H1 T) as [A1 [A2 A3]]. destruct (H2 A2) as [B1 [B2 B3]].
      rewrite writes_app, A1, B1. split; [reflexivity|]. split; [exact B2|congruence]. }
    destruct (match o with OpLost => true | _ => false end) eqn:L.
    - destruct o; try discriminate L. cbn in E. destruct st as [c buf]. cbn [fst snd] in *.
      unfold mseq, mbind, connection_lost in E. cbn [cl_future set_transport] in E.
      destruct (cl_future c); inversion E; subst; intros T; cbn; auto.
    - apply (keeps_step R RR RT) with (now := now) (o := o) (r := r); auto.
      + intros c n H; auto.
      + intros c e W _ _ H. destruct e; auto; discriminate W.
      + intros p b S c c1 ev1 r1 F T. rewrite send_disconnected in F by exact T. inversion F; subst; auto.
      + intros c n H; auto.
      + split; [exact NC|]. destruct o; congruence. }
  induction ops as [|o ops IH]; intros st st' tr NI T E; cbn [client_run] in E.
  - inversion E; subst. auto.
  - destruct (client_step now st o) as [[st1 ev] r] eqn:S.
    destruct (client_run now st1 ops) as [st2 tr2] eqn:Q. inversion E; subst.
    destruct (Step _ _ _ _ _ (fun H => NI (or_introl H)) S T) as [A1 [A2 A3]].
    destruct (IH _ _ _ (fun H => NI (or_intror H)) A2 Q) as [B1 [B2 B3]].
    cbn [effects flat_map fst]. fold (effects tr2). rewrite writes_app, A1, B1.
    split; [reflexivity|]. split; [exact B2|congruence].
Qed.
Print Assumptions C52_silent.

(** After a loss, and until the next connection, every command call raises. *)
Theorem C52_raises : forall now ops st st' tr o,
  ~ In OpConnect ops -> cl_transport (fst st) = false -> counter_ok (fst st) -> clock_works now ->
  client_run now st ops = (st', tr) -> is_command o -> python_value o ->
  exists c' e, api now o (fst st') = (c', [], Raise e) /\ (acceptable o -> e = OSError).
Proof.
  intros now ops st st' tr o NC T I N E K V. destruct (C52_silent _ _ _ _ _ NC T E) as [_ [T2 I2]].
  assert (I3 : counter_ok (fst st')) by (unfold counter_ok in *; congruence).
  destruct (command_outcome now o (fst st') K V N I3) as [[H _]|[[H _]|[c1 [e [E1 [_ [_ [_ Q]]]]]]]];
    [congruence|congruence|]. now exists c1, e.
Qed.
Print Assumptions C52_raises.

(** The loss is signalled through the future, at most once in any history. *)
Theorem C52_lost : forall c,
  exists c' ev r, connection_lost c = (c', ev, r) /\ cl_transport c' = false /\ cl_index c' = cl_index c
  /\ match cl_future c with
     | Pending => r = Ok tt /\ ev = [CFutureDone] /\ cl_future c' = Done
     | Done => r = Raise InvalidStateError /\ ev = [] /\ cl_future c' = Done
     | NoFuture => r = Raise AttributeError /\ ev = [] /\ cl_future c' = NoFuture
     end.
Proof.
  intros c. unfold connection_lost. cbn [cl_future set_transport].
  destruct (cl_future c) eqn:F; eexists; eexists; eexists; (split; [reflexivity|]); cbn; auto.
Qed.
Print Assumptions C52_lost.

Theorem C52_once : forall now ops st st' tr, client_run now st ops = (st', tr) ->
  signals (effects tr) = match cl_future (fst st) with
                         | Pending => if existsb (fun o => match o with OpLost => true | _ => false end) ops then 1%nat else 0%nat
                         | _ => 0%nat
                         end
  /\ (cl_future (fst st') = Done <->
      cl_future (fst st) = Done \/ (cl_future (fst st) = Pending /\ In OpLost ops)).
Proof.
  intros now.
  assert (SA : forall a b, signals (a ++ b) = (signals a + signals b)%nat).
  { intros a b. unfold signals. now rewrite filter_app, app_length. }
  set (R := fun c ev c' => cl_future c' = cl_future c /\ signals ev = 0%nat).
  assert (Quiet : forall st o st' ev r, o <> OpLost -> client_step now st o = (st', ev, r) -> R (fst st) ev (fst st')).
  { intros st o st' ev r NL E.
    assert (RR : forall c, R c [] c) by (intros c; split; reflexivity).
    assert (RT : forall c e1 c1 e2 c2, R c e1 c1 -> R c1 e2 c2 -> R c (e1 ++ e2) c2).
    { intros c e1 c1 e2 c2 [A1 A2] [B1 B2]. split; [congruence|]. rewrite SA, A2, B2. reflexivity. }
    assert (RD : forall c n, R c [] (set_reads c n)) by (intros; split; reflexivity).
    assert (RE : forall c e, is_write e = false -> e <> CFutureDone -> e <> CSpawnTimesync -> R c [e] c).
    { intros c e _ H _. split; [reflexivity|]. destruct e; try reflexivity. congruence. }
    assert (RS : forall p b, sendable p -> keeps R (send p true b)).
    { intros p b S c c1 ev1 r1 F. unfold send in F.
      destruct (negb (cl_transport c)); [inversion F; split; reflexivity|].
      destruct (negb (is_base_packet p)); [inversion F; split; reflexivity|].
      destruct (encode_packet p); [|inversion F; split; reflexivity].
      destruct (true && negb (is_special_client p)).
      + unfold mbind, get_confirmation_code in F.
        destruct (nth_error CONFIRMATION_CODES (cl_index c)); inversion F; split; reflexivity.
      + inversion F; split; reflexivity. }
    assert (RK : forall c n, R c [] (set_tasks c n)) by (intros; split; reflexivity).
    destruct (match o with OpConnect => true | _ => false end) eqn:L.
    - destruct o; try discriminate L. cbn [client_step api] in E. destruct st as [c buf]. cbn [fst snd] in *.
      destruct (mseq connection_made (mret (@None Z)) c) as [[c1 ev1] r1] eqn:D. inversion E; subst. cbn [fst].
      revert D. apply (keeps_seq R RT connection_made (mret None)); [|now apply keeps_ret].
      apply keeps_connect; auto; intros; split; reflexivity.
    - apply (keeps_step R RR RT RD RE RS RK) with (now := now) (o := o) (r := r); auto.
      split; [destruct o; congruence|exact NL]. }
  induction ops as [|o ops IH]; intros st st' tr E; cbn [client_run] in E.
  - inversion E; subst. cbn. split; [destruct (cl_future (fst st')); reflexivity|].
    split; [auto|]. intros [H|[_ []]]. exact H.
  - destruct (client_step now st o) as [[st1 ev] r] eqn:S.
    destruct (client_run now st1 ops) as [st2 tr2] eqn:Q. inversion E; subst.
    destruct (IH _ _ _ Q) as [B1 B2].
    cbn [effects flat_map fst existsb]. fold (effects tr2). rewrite SA, B1.
    destruct (match o with OpLost => true | _ => false end) eqn:L.
    + destruct o; try discriminate L. cbn [orb]. cbn [client_step api] in S.
      unfold mseq, mbind, connection_lost in S. cbn [cl_future set_transport] in S.
      destruct (cl_future (fst st)) eqn:F; inversion S; subst; cbn [fst cl_future set_transport set_future] in *;
        rewrite ?F in *; cbn; split; try reflexivity; rewrite B2; cbn.
      * split; [intros [H|[H _]]; discriminate H|intros [H|[H _]]; discriminate H].
      * split; intros _; [right; auto|now left].
      * split; intros _; now left.
    + assert (NL : o <> OpLost) by (destruct o; congruence).
      destruct (Quiet _ _ _ _ _ NL S) as [A1 A2]. rewrite A1 in *. rewrite A2. cbn [orb plus].
      split; [reflexivity|]. rewrite B2. cbn [In].
      split; (intros [H|[H1 H2]]; [now left|right; split; [exact H1|]]); [now right|destruct H2; [congruence|assumption]].
Qed.
Print Assumptions C52_once.

(** Partial input and the confirmation counter survive a reconnection. *)
Theorem C52_survives : forall now c buf, counter_ok c ->
  exists c2 tr, client_run now (c, buf) [OpLost; OpConnect] = ((c2, buf), tr)
    /\ cl_index c2 = ((cl_index c + 3) mod 20)%nat
    /\ wire_codes (effects tr) = map (code_at (cl_index c)) [0; 1; 2]%nat
    /\ cl_transport c2 = true.
Proof.
  intros now c buf I. destruct (client_run now (c, buf) [OpLost; OpConnect]) as [[c2 b2] tr] eqn:E.
  pose proof E as E0. apply codes_run in E0. destruct E0 as [_ [_ [C _]]]; [exact I|]. cbn [fst] in C.
  cbn [client_run client_step api] in E. destruct (C52_lost c) as [c1 [ev1 [r1 [L [T1 [I1 _]]]]]].
  unfold mseq at 1, mbind at 1 in E. cbn [fst snd] in E. rewrite L in E.
  assert (IO : counter_ok c1) by (unfold counter_ok in *; congruence).
  assert (W1 : wire_codes ev1 = []).
  { unfold connection_lost in L. cbn [cl_future set_transport] in L. destruct (cl_future c); inversion L; reflexivity. }
  assert (Fin : forall c3 ev3 r3, mseq connection_made (mret (@None Z)) c1 = (c3, ev3, r3) ->
    cl_index c3 = ((cl_index c + 3) mod 20)%nat /\ cl_transport c3 = true /\ length (wire_codes ev3) = 3%nat).
  { intros c3 ev3 r3 F. unfold mseq, mbind in F. rewrite (connect_outcome c1 IO) in F. unfold mret in F.
    inversion F; subst. rewrite I1. cbn zeta. split; [destruct (cl_frequency c1 =? 0); reflexivity|].
    split; [destruct (cl_frequency c1 =? 0); reflexivity|].
    destruct (cl_frequency c1 =? 0); clear -I; unfold counter_ok in I; revert I; generalize (cl_index c); clear c;
    intros i I; do 20 (destruct i as [|i]; [vm_compute; reflexivity|]); lia. }
  destruct (mseq connection_made (mret (@None Z)) c1) as [[c3 ev3] r3] eqn:D.
  destruct (Fin _ _ _ eq_refl) as [F1 [F2 F3]].
  assert (X : c2 = c3 /\ b2 = buf /\ length (wire_codes (effects tr)) = 3%nat).
  { destruct r1 as [u|e]; cbn in E; rewrite ?app_nil_r in E; rewrite D in E; inversion E; subst;
      cbn [effects flat_map fst]; rewrite app_nil_r; unfold wire_codes in *; rewrite flat_map_app, W1; auto. }
  destruct X as [-> [-> X]]. rewrite X in C. exists c3, tr. auto.
Qed.
Print Assumptions C52_survives.

Example C52_case :
  map snd (snd (client_run noon (new_client ClassPCI 10 true Pending, [])
    [OpConnect; OpData (txt "05"); OpLost; OpOn [1]; OpTimesync; OpLost; OpConnect; OpOn [1]]))
  = [Ok None; Ok None; Ok None; Raise OSError; Raise OSError; Raise InvalidStateError; Ok None; Ok (Some 110)].
Proof. vm_compute. reflexivity. Qed.
