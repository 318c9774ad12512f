(** Lemmas on the command calls of the client: when they raise, what they
    write. *)
From Coq Require Import List ZArith QArith Bool Lia.
From Verif Require Import Py Common Sal Cal Packet Text Mqtt Buffered Client Base Spec Spec_client Common_facts
  Sal_facts Cal_facts Packet_facts Packet_roundtrip Packet_decode Packet_total Buffer_facts Client_facts
  Client_steps Client_send.
Import ListNotations.
Open Scope Z_scope.

(** A confirmed send of commands with valid fields. *)
Lemma send_commands c a cmds cmds' : cl_transport c = true -> counter_ok c ->
  application_id a -> Forall2 (command_received a) cmds cmds' ->
  let code := code_at (cl_index c) 0 in
  exists w, send (PktPM (mkHdr true CLASS_4 None None) (Some a) cmds) true false c
      = (set_index c ((cl_index c + 1) mod 20), [CWrite w], Ok (Some code))
    /\ command_line w code
    /\ forall strict rest, decode_packet (w ++ rest) true strict false
       = ([], Ok (Some (PktPM (mkHdr true 0 None (Some code)) (Some a) cmds'), length w)).
Proof.
  intros T I Ha F code. set (p := PktPM (mkHdr true CLASS_4 None None) (Some a) cmds).
  assert (C : is_code code) by apply code_at_code.
  assert (K : forall strict rest, exists w, encode_packet p = Ok w
     /\ decode_packet ([92] ++ w ++ [code] ++ [13] ++ rest) true strict false
       = ([], Ok (Some (PktPM (mkHdr true 0 None (Some code)) (Some a) cmds'),
                  length ([92] ++ w ++ [code] ++ [13%Z])))).
  { intros strict rest. destruct (pm_to_pci true strict 0 a cmds cmds' (Some code) rest Ha F) as [w [E D]];
      [lia|exact C|]. exists w. split; [exact E|exact D]. }
  destruct (K true []) as [w [E _]]. exists ([92] ++ w ++ [code; 13]).
  assert (H : hex_packet p) by exact Logic.I.
  split; [exact (send_confirmed p false c w H T I E)|]. split.
  - destruct (hex_packet_raw p w H E) as [raw [_ [_ [N [F1 [_ [D S]]]]]]].
    exists w, raw. split; [reflexivity|]. split; [exact F1|]. split; [exact D|]. split; [exact N|].
    split; [now apply S|exact C].
  - intros strict rest. destruct (K strict rest) as [w' [E' D]]. assert (w' = w) by congruence. subst w'.
    rewrite <- !app_assoc. exact D.
Qed.

(** ** Lists of groups *)

Definition group_command (new : Z -> res sal) (k : Z -> sal) : Prop :=
  (forall ga, new ga = rbind (check_ga ga) (fun _ => Ok (k ga)))
  /\ (forall ga, group_address ga -> command_received 0x38 (k ga) (k ga))
  /\ (forall ga, sal_application (k ga) = 0x38).

Lemma group_on : group_command new_light_on LightOn.
Proof. repeat split. intros ga H. apply recv_lighting; [exact H|constructor]. Qed.
Lemma group_off : group_command new_light_off LightOff.
Proof. repeat split. intros ga H. apply recv_lighting; [exact H|constructor]. Qed.
Lemma group_terminate : group_command new_light_terminate LightTerminate.
Proof. repeat split. intros ga H. apply recv_lighting; [exact H|constructor]. Qed.

Lemma map_groups new k gas : group_command new k ->
  (Forall group_address gas -> map_res new gas = Ok (map k gas))
  /\ (~ Forall group_address gas -> map_res new gas = Raise ValueError).
Proof.
  intros [N _]. induction gas as [|ga gas [IH1 IH2]].
  - split; [reflexivity|]. intros H. exfalso. apply H. constructor.
  - cbn [map_res map]. rewrite N. destruct (Z_le_dec 0 ga) as [L|L]; [destruct (Z_le_dec ga 255) as [U|U]|].
    + rewrite check_ga_ok by lia. cbn [rbind]. split.
      * intros F. inversion F; subst. now rewrite IH1.
      * intros F. rewrite IH2; [reflexivity|]. intros G. apply F. constructor; [split; assumption|exact G].
    + rewrite check_ga_bad by lia. split; [|reflexivity].
      intros F. inversion F; subst. unfold group_address in *. lia.
    + rewrite check_ga_bad by lia. split; [|reflexivity].
      intros F. inversion F; subst. unfold group_address in *. lia.
Qed.

Lemma forall_dec_groups gas : Forall group_address gas \/ ~ Forall group_address gas.
Proof.
  destruct (Forall_dec group_address) with (l := gas) as [H|H]; auto.
  intros ga. unfold group_address. destruct (Z_le_dec 0 ga); [destruct (Z_le_dec ga 255)|]; [left|right|right]; lia.
Qed.

Lemma new_pm_groups (k : Z -> sal) (gas : list Z) : (forall ga, sal_application (k ga) = 0x38) -> gas <> [] ->
  new_pm true CLASS_4 None (map k gas) = Ok (PktPM (mkHdr true CLASS_4 None None) (Some 0x38) (map k gas)).
Proof.
  intros A N. destruct gas as [|ga gas]; [congruence|]. unfold new_pm. cbn [map append_sals].
  unfold append_sal. cbn [fst snd]. rewrite A. cbn [rbind app].
  rewrite append_sals_same; [reflexivity|].
  apply Forall_forall. intros s I. apply in_map_iff in I. destruct I as [g [<- _]]. apply A.
Qed.

Lemma groups_outcome new k gas c : group_command new k -> counter_ok c ->
  let code := code_at (cl_index c) 0 in
  ((length gas > 9)%nat \/ ~ Forall group_address gas ->
     send_groups new gas c = (c, [], Raise ValueError))
  /\ ((length gas <= 9)%nat -> Forall group_address gas -> cl_transport c = false ->
     send_groups new gas c = (c, [], Raise OSError))
  /\ (gas = [] -> cl_transport c = true -> send_groups new gas c = (c, [], Raise ValueError))
  /\ ((length gas <= 9)%nat -> Forall group_address gas -> cl_transport c = true -> gas <> [] ->
     exists w, send_groups new gas c = (set_index c ((cl_index c + 1) mod 20), [CWrite w], Ok (Some code))
       /\ command_line w code
       /\ forall strict rest, decode_packet (w ++ rest) true strict false
          = ([], Ok (Some (PktPM (mkHdr true 0 None (Some code)) (Some 0x38) (map k gas)), length w))).
Proof.
  intros G I code. destruct (map_groups new k gas G) as [M1 M2]. destruct G as [G1 [G2 G3]].
  unfold send_groups.
  assert (NP : (length gas <= 9)%nat -> Forall group_address gas -> exists a,
     (gas <> [] -> a = Some 0x38) /\
     mbind (mlift (map_res new gas)) (fun sals =>
       mbind (mlift (new_pm true CLASS_4 None sals)) (fun p => send p true false)) c
     = send (PktPM (mkHdr true CLASS_4 None None) a (map k gas)) true false c).
  { intros _ F. rewrite (M1 F). unfold mbind, mlift.
    assert (P : exists a, (gas <> [] -> a = Some 0x38) /\
      new_pm true CLASS_4 None (map k gas) = Ok (PktPM (mkHdr true CLASS_4 None None) a (map k gas))).
    { destruct gas as [|g gas]; [exists None; split; [congruence|reflexivity]|].
      exists (Some 0x38). split; [reflexivity|]. apply new_pm_groups; [exact G3|discriminate]. }
    destruct P as [a [Pa P]]. exists a. split; [exact Pa|]. rewrite P.
    destruct (send _ true false c) as [[c2 ev2] [r|e]]; reflexivity. }
  repeat split.
  - intros H. destruct (Nat.ltb 9 (length gas)) eqn:L; [reflexivity|]. apply Nat.ltb_ge in L.
    destruct H as [H|H]; [lia|]. rewrite (M2 H). reflexivity.
  - intros L F T. replace (Nat.ltb 9 (length gas)) with false by (symmetry; apply Nat.ltb_ge; lia).
    destruct (NP L F) as [a [_ ->]]. now apply send_disconnected.
  - intros -> T. cbn [length]. change (Nat.ltb 9 0) with false. cbn iota.
    unfold mbind, mlift. cbn [map_res new_pm append_sals rbind].
    rewrite (send_fails _ true false c ValueError); [reflexivity|exact Logic.I|exact T|reflexivity].
  - intros L F T N. replace (Nat.ltb 9 (length gas)) with false by (symmetry; apply Nat.ltb_ge; lia).
    destruct (NP L F) as [a [Ha ->]]. rewrite (Ha N).
    apply send_commands; auto; [now left|].
    clear -F G2. induction F as [|ga gas Hg F IH]; [constructor|]. cbn [map]. constructor; auto.
Qed.

(** ** Ramps *)

Lemma ramp_rate_byte d : byte (duration_to_ramp_rate d).
Proof.
  destruct (first_rate_cases d) as [x [_ H]]. unfold LIGHT_RAMP_RATES in H. cbn [In] in H. unfold byte.
  repeat (destruct H as [H|H]; [inversion H; lia|]). destruct H.
Qed.
Lemma rounds_total d : exists d', rounds_to d d'.
Proof. destruct (first_rate_cases d) as [x [H _]]. eauto. Qed.

Definition int_level (level : pynum) : Prop := exists z, level = PInt z /\ 0 <= z <= 255.

Lemma ramp_encode_bad ga d level : group_address ga -> ~ int_level level ->
  light_ramp_encode ga d level = Raise ValueError \/ light_ramp_encode ga d level = Raise TypeError.
Proof.
  intros G N. unfold light_ramp_encode.
  destruct (num_ltb level 0 || num_gtb level 255) eqn:B; [now left|].
  rewrite check_ga_ok by exact G. cbn [rbind mk_bytes_num byte_of_num].
  assert (R : byte (duration_to_ramp_rate d)) by apply ramp_rate_byte.
  unfold byte in R. replace ((0 <=? duration_to_ramp_rate d) && (duration_to_ramp_rate d <=? 255)) with true by lia.
  unfold group_address in G. replace ((0 <=? ga) && (ga <=? 255)) with true by lia. cbn [rbind].
  destruct level as [z| | |]; try now right.
  exfalso. apply N. exists z. split; [reflexivity|]. cbn in B. lia.
Qed.

Lemma ramp_outcome ga d level c : counter_ok c ->
  let code := code_at (cl_index c) 0 in
  (~ group_address ga -> lighting_group_ramp ga d level c = (c, [], Raise ValueError))
  /\ (group_address ga -> cl_transport c = false ->
      lighting_group_ramp ga d level c = (c, [], Raise OSError))
  /\ (group_address ga -> cl_transport c = true -> ~ int_level level ->
      lighting_group_ramp ga d level c = (c, [], Raise ValueError)
      \/ lighting_group_ramp ga d level c = (c, [], Raise TypeError))
  /\ (group_address ga -> cl_transport c = true -> int_level level ->
     exists w d', lighting_group_ramp ga d level c
       = (set_index c ((cl_index c + 1) mod 20), [CWrite w], Ok (Some code))
       /\ command_line w code /\ rounds_to d d'
       /\ forall strict rest, decode_packet (w ++ rest) true strict false
          = ([], Ok (Some (PktPM (mkHdr true 0 None (Some code)) (Some 0x38) [LightRamp ga d' level]), length w))).
Proof.
  intros I code. unfold lighting_group_ramp, new_light_ramp.
  assert (NP : group_address ga ->
     mbind (mlift (rbind (check_ga ga) (fun _ => Ok (LightRamp ga d level)))) (fun s =>
       mbind (mlift (new_pm true CLASS_4 None [s])) (fun p => send p true false)) c
     = send (PktPM (mkHdr true CLASS_4 None None) (Some 0x38) [LightRamp ga d level]) true false c).
  { intros G. rewrite check_ga_ok by exact G. unfold mbind, mlift. cbn [rbind new_pm append_sals append_sal fst snd app sal_application].
    change APP_LIGHTING with 0x38.
    destruct (send _ true false c) as [[c2 ev2] [r|e]]; reflexivity. }
  repeat split.
  - intros G. rewrite check_ga_bad by exact G. reflexivity.
  - intros G T. rewrite (NP G). now apply send_disconnected.
  - intros G T N. rewrite (NP G).
    assert (E : forall e, light_ramp_encode ga d level = Raise e ->
      send (PktPM (mkHdr true CLASS_4 None None) (Some 0x38) [LightRamp ga d level]) true false c = (c, [], Raise e)).
    { intros e E. apply send_fails; [exact Logic.I|exact T|]. cbn [encode_packet pm_encode Z.ltb Z.compare orb].
      cbn [concat_res sal_encode]. rewrite E. reflexivity. }
    destruct (ramp_encode_bad ga d level G N) as [B|B]; [left|right]; now apply E.
  - intros G T [z [-> Hz]]. rewrite (NP G).
    destruct (rounds_total d) as [d' Hd].
    destruct (send_commands c 0x38 [LightRamp ga d (PInt z)] [LightRamp ga d' (PInt z)] T I) as [w [E [L D]]].
    + now left.
    + constructor; [|constructor]. apply recv_lighting; [split; assumption|]. now constructor.
    + exists w, d'. auto.
Qed.

(** ** Identify *)

Lemma identify_outcome u a c : counter_ok c ->
  let code := code_at (cl_index c) 0 in
  (cl_transport c = false -> identify u a c = (c, [], Raise OSError))
  /\ (cl_transport c = true -> ~ byte u -> identify u a c = (c, [], Raise ValueError))
  /\ (cl_transport c = true -> byte u ->
     exists w, identify u a c = (set_index c ((cl_index c + 1) mod 20), [CWrite w], Ok (Some code))
       /\ command_line w code
       /\ (0 <= a <= 17 -> forall strict rest, decode_packet (w ++ rest) true strict false
          = ([], Ok (Some (PktPP (mkHdr true 0 None (Some code)) u None [CIdentify a]), length w)))).
Proof.
  intros I code. unfold identify, new_pp. cbn [Z.eqb negb].
  set (p := PktPP (mkHdr true CLASS_4 None None) u None [CIdentify a]).
  assert (H : hex_packet p) by (repeat constructor).
  assert (B : mbind (mlift (Ok p)) (fun p => send p true false) c = send p true false c).
  { unfold mbind, mlift. destruct (send p true false c) as [[c2 ev2] [r|e]]; reflexivity. }
  rewrite B. repeat split.
  - intros T. now apply send_disconnected.
  - intros T N. apply send_fails; [exact H|exact T|]. unfold p. cbn [encode_packet pp_encode].
    unfold mk_bytes. cbn [forallb]. unfold byte in N.
    replace ((0 <=? u) && (u <=? 255)) with false by lia. reflexivity.
  - intros T Hu. pose proof (code_at_code (cl_index c) 0) as C. fold code in C.
    assert (W : exists w, encode_packet p = Ok w).
    { unfold p. cbn [encode_packet]. rewrite (pp_encode_cals _ u [CIdentify a] [CAL_IDENTIFY; Z.land a 255] Hu).
      - cbn [rbind]. eauto.
      - cbn [concat_res cal_encode]. rewrite mk_bytes_ok; [reflexivity|].
        byte_list; [unfold byte; vm_compute; split; discriminate|rewrite land_255; apply byte_mod]. }
    destruct W as [w W]. exists ([92] ++ w ++ [code; 13]).
    split; [exact (send_confirmed p false c w H T I W)|]. split.
    + destruct (hex_packet_raw p w H W) as [raw [_ [_ [N [F1 [_ [D S]]]]]]].
      exists w, raw. split; [reflexivity|]. split; [exact F1|]. split; [exact D|]. split; [exact N|].
      split; [now apply S|exact C].
    + intros Ha strict rest.
      destruct (pp_to_pci true strict 0 u [CIdentify a] [CIdentify a] (Some code) rest) as [w' [E D]];
        try assumption; try lia.
      * constructor; [exact Ha|constructor].
      * constructor; [constructor|constructor].
      * assert (w' = w) by (change (encode_packet p = Ok w') in E; congruence). subst w'.
        rewrite <- !app_assoc. exact D.
Qed.

(** ** Clock *)

Lemma clock_outcome now w c : counter_ok c -> (forall v, w = Some v -> clock_object v) -> clock_works now ->
  let code := code_at (cl_index c) 0 in
  let v := match w with Some v => v | None => now (cl_reads c) end in
  let c1 := match w with Some _ => c | None => set_reads c (S (cl_reads c)) end in
  (v = COther -> clock_datetime now w c = (c1, [], Raise TypeError))
  /\ (v <> COther -> cl_transport c = false -> clock_datetime now w c = (c1, [], Raise OSError))
  /\ (v <> COther -> cl_transport c = true ->
     exists b, clock_datetime now w c = (set_index c1 ((cl_index c + 1) mod 20), [CWrite b], Ok (Some code))
       /\ command_line b code
       /\ forall strict rest, decode_packet (b ++ rest) true strict false
          = ([], Ok (Some (PktPM (mkHdr true 0 None (Some code)) (Some 0xdf) (clock_commands v)), length b))).
Proof.
  intros I Hw Hn code v c1.
  assert (E : clock_datetime now w c =
    mbind (mlift (clock_update_sal v)) (fun sals =>
    mbind (mlift (new_pm true CLASS_4 None sals)) (fun p => send p true false)) c1).
  { unfold clock_datetime, v, c1, mbind, mlift. destruct w as [x|].
    - destruct (clock_update_sal x) as [sals|e]; [|reflexivity].
      destruct (new_pm true CLASS_4 None sals) as [p|e]; [|reflexivity].
      destruct (send p true false c) as [[c2 ev2] [r|e]]; reflexivity.
    - destruct (clock_update_sal (now (cl_reads c))) as [sals|e]; [|reflexivity].
      destruct (new_pm true CLASS_4 None sals) as [p|e]; [|reflexivity].
      destruct (send p true false (set_reads c (S (cl_reads c)))) as [[c2 ev2] [r|e]]; reflexivity. }
  assert (T1 : cl_transport c1 = cl_transport c) by (unfold c1; now destruct w).
  assert (X1 : cl_index c1 = cl_index c) by (unfold c1; now destruct w).
  assert (I1 : counter_ok c1) by (unfold counter_ok; now rewrite X1).
  assert (V : clock_object v).
  { unfold v. destruct w as [x|]; [now apply Hw|].
    destruct (Hn (cl_reads c)) as [y [m [d [h [mi [s [us [-> [D1 D2]]]]]]]]]. now split. }
  assert (S : v <> COther -> exists cmds, clock_update_sal v = Ok cmds /\ cmds <> []
     /\ Forall2 (command_received 0xdf) cmds (clock_commands v)
     /\ new_pm true CLASS_4 None cmds = Ok (PktPM (mkHdr true CLASS_4 None None) (Some 0xdf) cmds)).
  { intros N. destruct v as [y m d|h mi s us|y m d h mi s us|]; [| | |congruence]; cbn [clock_update_sal clock_commands].
    - eexists. split; [reflexivity|]. split; [discriminate|]. split; [|reflexivity].
      constructor; [|constructor]. exact (recv_clock (ClockUpdate (CDate y m d)) V).
    - eexists. split; [reflexivity|]. split; [discriminate|]. split; [|reflexivity].
      constructor; [|constructor]. exact (recv_clock (ClockUpdate (CTime h mi s us)) V).
    - eexists. split; [reflexivity|]. split; [discriminate|]. split; [|reflexivity]. destruct V as [V1 V2].
      constructor; [exact (recv_clock (ClockUpdate (CDate y m d)) V1)|].
      constructor; [exact (recv_clock (ClockUpdate (CTime h mi s us)) V2)|constructor]. }
  assert (B : v <> COther -> exists cmds, Forall2 (command_received 0xdf) cmds (clock_commands v)
     /\ clock_datetime now w c = send (PktPM (mkHdr true CLASS_4 None None) (Some 0xdf) cmds) true false c1).
  { intros N. destruct (S N) as [cmds [S1 [_ [S2 S3]]]]. exists cmds. split; [exact S2|].
    rewrite E, S1. unfold mbind, mlift. rewrite S3.
    destruct (send _ true false c1) as [[c2 ev2] [r|e]]; reflexivity. }
  repeat split.
  - intros Q. rewrite E, Q. reflexivity.
  - intros N T. destruct (B N) as [cmds [_ ->]]. apply send_disconnected. congruence.
  - intros N T. destruct (B N) as [cmds [F ->]].
    destruct (send_commands c1 0xdf cmds (clock_commands v)) as [b [D1 [D2 D3]]]; auto.
    + congruence.
    + right. now left.
    + unfold code. rewrite <- X1. exists b. auto.
Qed.

(** ** All calls *)

Lemma reset_outcome c : (cl_transport c = false -> pci_reset c = (c, [], Raise OSError)).
Proof. intros T. unfold pci_reset, mseq, mbind. now rewrite send_disconnected. Qed.
