(** C99: the bytes on the wire. *)
From Coq Require Import List ZArith QArith Qround Bool Lia ZifyBool ZifyNat.
From Verif Require Import Py Common Sal Cal Packet Base Spec Common_facts Sal_facts Cal_facts Packet_facts
  Packet_roundtrip Prop_dates Spec_wire.
Import ListNotations.
Open Scope Z_scope.
Ltac Zify.zify_post_hook ::= Z.div_mod_to_equations.

(** ** Commands *)

Lemma check_ga_ok ga : check_ga ga = if (0 <=? ga) && (ga <=? 255) then Ok tt else Raise ValueError.
Proof. reflexivity. Qed.

Lemma simple_iff code ga b : byte code ->
  (light_simple_encode code ga = Ok b <-> byte ga /\ b = [code; ga]).
Proof.
  intros C. unfold light_simple_encode. rewrite check_ga_ok. unfold byte in *.
  destruct ((0 <=? ga) && (ga <=? 255)) eqn:E; cbn [rbind].
  - rewrite mk_bytes_ok by (byte_list; unfold byte; lia). split.
    + intros Q. apply Ok_inj in Q. subst b. split; [lia|reflexivity].
    + intros [_ ->]. reflexivity.
  - split; [discriminate|]. intros [G _]. lia.
Qed.

Lemma rate_unique s d code : rounds_to s d -> is_ramp_rate code d -> duration_to_ramp_rate s = code.
Proof.
  intros R I. assert (J := duration_to_rate_spec s d R).
  destruct (rate_to_duration_iff code) as [A _]. destruct (rate_to_duration_iff (duration_to_ramp_rate s)) as [B _].
  apply A in I. apply B in J. destruct quantisation as [_ [_ [_ U]]]. exact (U _ _ d J I).
Qed.
Lemma rate_byte code d : is_ramp_rate code d -> byte code.
Proof. intros [i [L [-> _]]]. unfold ramp_rate_code, byte. lia. Qed.

Lemma ramp_iff ga s level b :
  light_ramp_encode ga s level = Ok b <-> command_bytes (LightRamp ga s level) b.
Proof.
  split.
  - intros E. unfold light_ramp_encode in E.
    destruct (num_ltb level 0 || num_gtb level 255) eqn:L; [discriminate|].
    rewrite check_ga_ok in E. destruct ((0 <=? ga) && (ga <=? 255)) eqn:G; [|discriminate].
    cbn [rbind] in E. destruct level as [z|q| |pos];
      try (exfalso; revert E; cbn [mk_bytes_num byte_of_num];
           destruct ((0 <=? duration_to_ramp_rate s) && _); [|discriminate];
           cbn [rbind]; rewrite G; discriminate).
    cbn [num_ltb num_gtb] in L.
    destruct (rounding_total s) as [[d [R _]] _]. assert (I := duration_to_rate_spec s d R).
    assert (Bc := rate_byte _ _ I). unfold byte in Bc.
    assert (M := mk_bytes_num_ok [duration_to_ramp_rate s; ga; z]). cbn [map] in M.
    rewrite M in E by (byte_list; unfold byte; lia). apply Ok_inj in E. subst b.
    apply wire_ramp with (d := d); unfold byte; try lia; assumption.
  - intros W. inversion W as [| | |ga' s' d code l Bg Bl R I| | | | | | | |]; subst.
    unfold light_ramp_encode. unfold byte in Bg, Bl.
    replace (num_ltb (PInt l) 0 || num_gtb (PInt l) 255) with false by (cbn [num_ltb num_gtb]; lia).
    rewrite check_ga_ok. replace ((0 <=? ga) && (ga <=? 255)) with true by lia. cbn [rbind].
    rewrite (rate_unique s d code R I). assert (Bc := rate_byte _ _ I). unfold byte in Bc.
    apply (mk_bytes_num_ok [code; ga; l]). byte_list; unfold byte; lia.
Qed.

Lemma later_ord n : forall y m d, days_later (1, 1, 1) n (y, m, d) ->
  1 <= m <= 12 /\ ymd2ord y m d = Z.of_nat n + 1.
Proof.
  induction n as [|n IH]; intros y m d D.
  - inversion D; subst. split; [lia|reflexivity].
  - inversion D as [|a n' b c D' X]; subst. destruct b as [[y' m'] d'].
    destruct (IH _ _ _ D') as [M O]. assert (X' := X). apply ord_next in X'; [|exact M].
    split; [|lia]. inversion X; subst; lia.
Qed.
Lemma day_iff y m d w : valid_date y m d -> (day_of_week y m d w <-> w = weekday y m d).
Proof.
  intros V. assert (P := ord_positive y m d V).
  assert (A : forall n, ymd2ord y m d = Z.of_nat n + 1 -> Z.of_nat n mod 7 = weekday y m d).
  { intros n O. unfold weekday. rewrite O. replace (Z.of_nat n + 1 + 6) with (Z.of_nat n + 1 * 7) by lia.
    now rewrite Z.mod_add by lia. }
  split.
  - intros [n [D ->]]. apply later_ord in D. apply A, D.
  - intros ->. exists (Z.to_nat (ymd2ord y m d - 1)).
    assert (O : ymd2ord y m d = Z.of_nat (Z.to_nat (ymd2ord y m d - 1)) + 1) by lia.
    split; [apply counted; assumption|]. symmetry. apply A, O.
Qed.

Lemma date_encoded y m d : valid_date y m d ->
  clock_date_encode y m d = Ok [14; 2; y / 256; y mod 256; m; d; weekday y m d].
Proof.
  intros V. assert (M := valid_month y m d V). destruct V as [Y [n [L D]]].
  assert (n <= 31) by (unfold month_length in L; lia). unfold clock_date_encode, pack_H, pack_B.
  assert (W := weekday_range y m d).
  replace ((0 <=? y) && (y <=? 65535)) with true by lia.
  rewrite (proj2 (andb_true_iff (0 <=? m) _)) by lia. rewrite (proj2 (andb_true_iff (0 <=? d) _)) by lia.
  rewrite (proj2 (andb_true_iff (0 <=? weekday y m d) _)) by lia. reflexivity.
Qed.
Lemma time_encoded h mi s us : valid_time h mi s us -> clock_time_encode h mi s = Ok [13; 1; h; mi; s; 255].
Proof.
  intros [H [M [S _]]]. unfold clock_time_encode, pack_B.
  replace ((0 <=? h) && (h <=? 255)) with true by lia. replace ((0 <=? mi) && (mi <=? 255)) with true by lia.
  replace ((0 <=? s) && (s <=? 255)) with true by lia. reflexivity.
Qed.

Lemma land_e0 x : Z.land x 0xe0 = 32 * (x mod 256 / 32).
Proof.
  replace (Z.land x 0xe0) with (Z.land (x mod 256) 0xe0).
  - assert (B : forall b, byte b -> (Z.land b 0xe0 =? 32 * (b / 32)) = true)
      by (apply byte_sweep; vm_compute; reflexivity).
    apply Z.eqb_eq, B, byte_mod.
  - rewrite <- land_255, <- Z.land_assoc. reflexivity.
Qed.

Lemma num_between_iff t : num_between 0 (6375 # 100) t = true <->
  exists q, num_value t = Some q /\ (0 <= q)%Q /\ (q <= 6375 # 100)%Q.
Proof.
  destruct t as [z|q| |pos]; cbn [num_between num_value]; try (split; [discriminate|intros [q [X _]]; discriminate]).
  - rewrite andb_true_iff, !Qle_bool_iff. split.
    + intros [A B]. eauto.
    + intros [q [X [A B]]]. injection X as <-. auto.
  - rewrite andb_true_iff, !Qle_bool_iff. split.
    + intros [A B]. eauto.
    + intros [q' [X [A B]]]. injection X as <-. auto.
Qed.
Lemma times_4 t q : num_value t = Some q -> int_times_4 t = Qfloor (4 * q).
Proof.
  destruct t as [z|q'| |pos]; cbn [num_value]; intros X; try discriminate; injection X as <-; cbn [int_times_4].
  - rewrite <- (Qfloor_Z (z * 4)). apply Qfloor_comp. rewrite inject_Z_mult. ring.
  - apply Qfloor_comp. ring.
Qed.
Lemma times_4_byte q : (0 <= q)%Q -> (q <= 6375 # 100)%Q -> byte (Qfloor (4 * q)).
Proof.
  intros A B. split.
  - change 0 with (Qfloor 0). apply Qfloor_resp_le. setoid_replace 0%Q with (4 * 0)%Q by ring.
    apply Qmult_le_l; [reflexivity|exact A].
  - change 255 with (Qfloor 255). apply Qfloor_resp_le. setoid_replace 255%Q with (4 * (6375 # 100))%Q by reflexivity.
    apply Qmult_le_l; [reflexivity|exact B].
Qed.
Lemma temp_iff ga t b : temp_encode ga t = Ok b <-> command_bytes (TempBroadcast ga t) b.
Proof.
  split.
  - intros E. unfold temp_encode in E. destruct (num_between 0 (6375 # 100) t) eqn:N; [|discriminate].
    apply num_between_iff in N. destruct N as [q [V [A B]]]. cbn [negb] in E.
    rewrite check_ga_ok in E. destruct ((0 <=? ga) && (ga <=? 255)) eqn:G; [|discriminate]. cbn [rbind] in E.
    apply mk_bytes_inv in E. destruct E as [-> _]. rewrite (times_4 t q V).
    apply wire_temperature; try assumption. unfold byte. lia.
  - intros W. inversion W as [| | | | | | | |ga' t' q Bg V A B| | |]; subst. unfold temp_encode.
    rewrite (proj2 (num_between_iff t)) by eauto. cbn [negb]. rewrite check_ga_ok. unfold byte in Bg.
    replace ((0 <=? ga) && (ga <=? 255)) with true by lia. cbn [rbind]. rewrite (times_4 t q V).
    apply mk_bytes_ok. byte_list; try (unfold byte, TEMPERATURE_BROADCAST; lia). apply times_4_byte; assumption.
Qed.

Lemma byte_block x : byte (32 * (x mod 256 / 32)).
Proof. unfold byte. lia. Qed.

(** A command is encoded exactly if it has a form on the wire, and to that form. *)
Theorem C99_commands : forall s b, possible_command s -> (sal_encode s = Ok b <-> command_bytes s b).
Proof.
  intros s b P. destruct s as [ga du l|ga|ga|ga|v| |ga t|v x|lvl ga child]; cbn [sal_encode].
  - apply ramp_iff.
  - rewrite simple_iff by (unfold byte, LC_ON; lia). split.
    + intros [B ->]. now constructor.
    + intros W. inversion W; subst. auto.
  - rewrite simple_iff by (unfold byte, LC_OFF; lia). split.
    + intros [B ->]. now constructor.
    + intros W. inversion W; subst. auto.
  - rewrite simple_iff by (unfold byte, LC_TERMINATE_RAMP; lia). split.
    + intros [B ->]. now constructor.
    + intros W. inversion W; subst. auto.
  - destruct v as [y m d|h mi s us|y m d h mi s us|]; cbn [clock_update_encode]; cbn [possible_command valid_clock] in P.
    + rewrite (date_encoded y m d P). split.
      * intros E. apply Ok_inj in E. subst b. constructor. now apply day_iff.
      * intros W. inversion W as [| | | | |y' m' d' w D| | | | | |]; subst. apply (day_iff y m d w P) in D. now subst w.
    + rewrite (time_encoded h mi s us P). split.
      * intros E. apply Ok_inj in E. subst b. constructor.
      * intros W. inversion W; subst. reflexivity.
    + rewrite (date_encoded y m d P). split.
      * intros E. apply Ok_inj in E. subst b. constructor. now apply day_iff.
      * intros W. inversion W as [| | | | | |y' m' d' h' mi' s' us' w D| | | | |]; subst.
        apply (day_iff y m d w P) in D. now subst w.
    + split; [discriminate|]. intros W. inversion W.
  - change clock_request_encode with (Ok (A := bytes) [0x11; 0x03]). split.
    + intros E. apply Ok_inj in E. subst b. constructor.
    + intros W. inversion W; subst. reflexivity.
  - apply temp_iff.
  - unfold enable_encode. rewrite !land_255.
    rewrite mk_bytes_ok by (byte_list; try apply byte_mod; unfold byte, ENABLE_SET_NETWORK_VARIABLE; lia). split.
    + intros E. apply Ok_inj in E. subst b. constructor.
    + intros W. inversion W; subst. reflexivity.
  - unfold status_encode. rewrite land_255, land_e0. destruct lvl.
    + rewrite mk_bytes_ok by (byte_list; [apply byte_mod|apply byte_block]). cbn [rbind app]. split.
      * intros E. apply Ok_inj in E. subst b. constructor.
      * intros W. inversion W; subst. reflexivity.
    + rewrite mk_bytes_ok by (byte_list; [unfold byte; lia|apply byte_mod|apply byte_block]). split.
      * intros E. apply Ok_inj in E. subst b. constructor.
      * intros W. inversion W; subst. reflexivity.
Qed.
Print Assumptions C99_commands.

(** ** Management messages *)

Lemma pack4_sum a b c d : group_state a -> group_state b -> group_state c -> group_state d ->
  pack4 a b c d = a + 4 * b + 16 * c + 64 * d.
Proof.
  unfold group_state. intros Ha Hb Hc Hd.
  assert (S : forallb (fun a => forallb (fun b => forallb (fun c => forallb (fun d =>
    pack4 a b c d =? a + 4 * b + 16 * c + 64 * d) (upto 4)) (upto 4)) (upto 4)) (upto 4) = true)
    by (vm_compute; reflexivity).
  apply (sweep 4) with (z := a) in S; [|lia]. apply (sweep 4) with (z := b) in S; [|lia].
  apply (sweep 4) with (z := c) in S; [|lia]. apply (sweep 4) with (z := d) in S; [|lia].
  cbv beta in S. lia.
Qed.
Lemma states_unique l w : states_bytes l w -> forall w', states_bytes l w' -> w' = w.
Proof.
  induction 1 as [|a|a b|a b c|a b c d l w W IH]; intros w' W'; inversion W'; subst; try reflexivity.
  f_equal. now apply IH.
Qed.
Lemma states_packed l : Forall group_state l ->
  states_bytes l (pack_states (l ++ repeat 0 (padding (length l)))).
Proof.
  assert (G0 : group_state 0) by (unfold group_state; lia).
  induction l as [|a|a b|a b c|a b c d l IH] using list_ind4; intros F.
  - constructor.
  - inversion F; subst. cbn [length padding Nat.modulo Nat.divmod Nat.sub Nat.eqb repeat app pack_states].
    change (states_bytes [a] [pack4 a 0 0 0]). rewrite pack4_sum by assumption.
    replace (a + 4 * 0 + 16 * 0 + 64 * 0) with a by lia. constructor.
  - inversion F as [|? ? A F1]; subst. inversion F1; subst.
    change (states_bytes [a; b] [pack4 a b 0 0]). rewrite pack4_sum by assumption.
    replace (a + 4 * b + 16 * 0 + 64 * 0) with (a + 4 * b) by lia. constructor.
  - inversion F as [|? ? A F1]; subst. inversion F1 as [|? ? B F2]; subst. inversion F2; subst.
    change (states_bytes [a; b; c] [pack4 a b c 0]). rewrite pack4_sum by assumption.
    replace (a + 4 * b + 16 * c + 64 * 0) with (a + 4 * b + 16 * c) by lia. constructor.
  - inversion F as [|? ? A F1]; subst. inversion F1 as [|? ? B F2]; subst. inversion F2 as [|? ? C F3]; subst.
    inversion F3 as [|? ? D F4]; subst.
    replace (padding (length (a :: b :: c :: d :: l))) with (padding (length l))
      by (unfold padding; cbn [length]; replace (S (S (S (S (length l)))) mod 4)%nat with (length l mod 4)%nat by lia;
          reflexivity).
    cbn [app pack_states]. fold (pack4 a b c d). rewrite pack4_sum by assumption. constructor. now apply IH.
Qed.
Lemma binary_iff states b : Forall group_state states -> (binary_encode states = Ok b <-> states_bytes states b).
Proof.
  intros F. assert (P := states_packed states F). rewrite binary_encode_padded.
  destruct (binary_roundtrip states F) as [b' [E [B _]]]. rewrite binary_encode_padded in E.
  apply mk_bytes_inv in E. destruct E as [-> _]. rewrite mk_bytes_ok by exact B. split.
  - intros E. apply Ok_inj in E. now subst b.
  - intros W. now rewrite (states_unique _ _ P _ W).
Qed.

Lemma code_unique v n n' : code_word v n -> code_word v n' -> n' = n.
Proof. unfold code_word. lia. Qed.
Lemma code_range v n : code_word v n -> 0 <= v <= 3.
Proof. unfold code_word. lia. Qed.
Lemma manchester_unique v b0 b1 b0' b1' : manchester v b0 b1 -> manchester v b0' b1' -> b0' = b0 /\ b1' = b1.
Proof.
  intros (p0 & p1 & p2 & p3 & n0 & n1 & n2 & n3 & A0 & A1 & A2 & A3 & E & -> & ->)
         (q0 & q1 & q2 & q3 & m0 & m1 & m2 & m3 & B0 & B1 & B2 & B3 & E' & -> & ->).
  assert (R := (code_range _ _ A0, code_range _ _ A1, code_range _ _ A2, code_range _ _ A3)).
  assert (R' := (code_range _ _ B0, code_range _ _ B1, code_range _ _ B2, code_range _ _ B3)).
  destruct R as [[[? ?] ?] ?], R' as [[[? ?] ?] ?].
  assert (q0 = p0 /\ q1 = p1 /\ q2 = p2 /\ q3 = p3) as (-> & -> & -> & ->) by lia.
  rewrite (code_unique _ _ _ A0 B0), (code_unique _ _ _ A1 B1), (code_unique _ _ _ A2 B2), (code_unique _ _ _ A3 B3).
  auto.
Qed.
Lemma levels_unique l w : levels_bytes l w -> forall w', levels_bytes l w' -> w' = w.
Proof.
  induction 1 as [|l w W IH|v b0 b1 l w M W IH]; intros w' W'; inversion W' as [|? ? V|? ? ? ? ? M' V]; subst.
  - reflexivity.
  - now rewrite (IH _ V).
  - rewrite (IH _ V). destruct (manchester_unique _ _ _ _ _ M M') as [-> ->]. reflexivity.
Qed.
Lemma levels_packed l : levels_bytes l (flat_map level_bytes l).
Proof.
  induction l as [|[v|] l IH]; cbn [flat_map level_bytes app]; constructor; try exact IH.
  destruct (manchester_in_place v [] 0 0 []) as [b0 [b1 [M [E _]]]].
  change (manchester_encode (Some v) (Some ([] ++ 0 :: 0 :: [])) (length (@nil Z)))
    with (Ok (A := bytes) [manchester_lo (Z.land v 255); manchester_hi (Z.land v 255)]) in E.
  rewrite land_255 in E. apply Ok_inj in E. injection E as -> ->. exact M.
Qed.
Lemma report_iff r b : valid_report r ->
  (report_encode r = Ok b <-> report_bytes r (Z.land (report_block_type r) 7) b).
Proof.
  intros V. destruct r as [states|levels]; cbn [report_encode report_block_type].
  - rewrite binary_iff by exact V. split; [now constructor|]. intros W. now inversion W; subst.
  - rewrite level_encode_eq. split.
    + intros E. apply Ok_inj in E. subst b. constructor. apply levels_packed.
    + intros W. inversion W as [|? ? L]; subst. now rewrite (levels_unique _ _ (levels_packed levels) _ L).
Qed.
Lemma report_ok r : valid_report r -> exists b, report_encode r = Ok b /\ is_bytes b /\ length b = report_size r.
Proof.
  intros V. destruct r as [states|levels]; cbn [report_encode report_size].
  - destruct (binary_roundtrip states V) as [b [E [B [_ L]]]]. exists b. split; [exact E|]. split; [exact B|].
    destruct (padding_spec (length states)) as [P _]. lia.
  - destruct (level_roundtrip levels) as [b [E [B [L _]]]]. eauto.
Qed.
Lemma coding_unique r c c' w w' : report_bytes r c w -> report_bytes r c' w' -> c' = c.
Proof. intros W W'. destruct r; inversion W; inversion W'; subst; reflexivity. Qed.

Lemma lor_top t n : t = 0x80 \/ t = 0xC0 \/ t = 0xE0 -> 0 <= n <= 31 -> Z.lor t n = t + n.
Proof.
  intros T N. assert (S : forallb (fun t => forallb (fun n => Z.lor t n =? t + n) (upto 32)) [0x80; 0xC0; 0xE0] = true)
    by (vm_compute; reflexivity).
  rewrite forallb_forall in S. specialize (S t). cbv beta in S.
  assert (I : In t [128; 192; 224]) by (cbn [In]; lia). apply S in I. apply (sweep 32) with (z := n) in I; [|lia].
  cbv beta in I. lia.
Qed.
Lemma coding_eq ext r : coding_byte ext r = (if ext then 0x40 else 0) + Z.land (report_block_type r) 7.
Proof. destruct ext, r; reflexivity. Qed.
Lemma coding_range ext r : byte (coding_byte ext r).
Proof. destruct ext, r; unfold byte; cbn; lia. Qed.

Theorem C99_management : forall c b, possible_cal c -> (cal_encode c = Ok b <-> cal_bytes c b).
Proof.
  intros c b P. destruct c as [a|p n|p data|ext child block r]; cbn [cal_encode].
  - rewrite land_255, mk_bytes_ok by (byte_list; [unfold byte, CAL_IDENTIFY; lia|apply byte_mod]). split.
    + intros E. apply Ok_inj in E. subst b. constructor.
    + intros W. inversion W; subst. reflexivity.
  - rewrite !land_255, mk_bytes_ok by (byte_list; try apply byte_mod; unfold byte, CAL_RECALL; lia). split.
    + intros E. apply Ok_inj in E. subst b. constructor.
    + intros W. inversion W; subst. reflexivity.
  - cbv zeta. assert (L : (length (firstn 30 data) <= 30)%nat) by (rewrite firstn_length; lia).
    unfold CAL_REPLY. rewrite lor_top by lia. rewrite land_255.
    rewrite mk_bytes_ok by (byte_list; [unfold byte; lia|apply byte_mod]). cbn [rbind].
    replace (128 + (Z.of_nat (length (firstn 30 data)) + 1)) with (0x80 + Z.of_nat (length (firstn 30 data)) + 1) by lia.
    split.
    + intros E. apply Ok_inj in E. subst b. now constructor.
    + intros W. inversion W; subst. reflexivity.
  - cbn [possible_cal] in P. destruct P as [V S]. destruct (report_ok r V) as [w [E [B L]]]. rewrite E. cbn [rbind].
    unfold CAL_EXTENDED_STATUS. rewrite lor_top by lia. rewrite !land_255.
    rewrite mk_bytes_ok by (byte_list; try apply byte_mod; try apply coding_range; unfold byte; lia). cbn [rbind].
    rewrite coding_eq. apply (report_iff r w V) in E.
    replace (224 + (Z.of_nat (length w) + 3)) with (0xE0 + Z.of_nat (length w) + 3) by lia. split.
    + intros Q. apply Ok_inj in Q. subst b. now constructor.
    + intros W. inversion W as [| | |e' c' b' r' coding w' R]; subst.
      assert (K := coding_unique _ _ _ _ _ E R). subst coding. apply (report_iff r w' V) in R. apply (report_iff r w V) in E.
      rewrite E in R. apply Ok_inj in R. now subst w'.
Qed.
Print Assumptions C99_management.

(** ** Packets *)

Lemma concat_iff {A} (enc : A -> res bytes) (spec : A -> bytes -> Prop) l :
  Forall (fun a => forall b, enc a = Ok b <-> spec a b) l ->
  forall o, concat_res enc l = Ok o <-> exists parts, Forall2 spec l parts /\ o = concat parts.
Proof.
  induction 1 as [|a l Ha F IH]; intros o; cbn [concat_res].
  - split.
    + intros E. apply Ok_inj in E. subst o. exists []. split; [constructor|reflexivity].
    + intros [parts [P ->]]. inversion P; subst. reflexivity.
  - split.
    + destruct (enc a) as [b|e] eqn:E; [|discriminate]. cbn [rbind].
      destruct (concat_res enc l) as [o'|e] eqn:E'; [|discriminate]. cbn [rbind]. intros Q. apply Ok_inj in Q. subst o.
      destruct (proj1 (IH o') eq_refl) as [parts [P ->]]. exists (b :: parts). split; [|reflexivity].
      constructor; [now apply Ha|exact P].
    + intros [parts [P ->]]. inversion P as [|? b ? parts' S P']; subst. apply Ha in S. rewrite S. cbn [rbind].
      rewrite (proj2 (IH (concat parts'))) by eauto. reflexivity.
Qed.

Lemma header_ok dat dp h : header_encode dat dp h
  = Ok ([dat mod 8 + (if dp then 32 else 0) + priority_bits h] ++ source_bytes h).
Proof.
  unfold header_encode, source_bytes, priority_bits.
  destruct (flags_facts dat 0 dp (h_priority h)) as [B [_ [_ [_ E]]]].
  change (0 / 2 mod 2) with 0 in E. rewrite Z.mul_0_r, Z.add_0_r in E. rewrite E in *.
  destruct (h_source h) as [s|].
  - rewrite land_255. apply mk_bytes_ok. byte_list; [exact B|apply byte_mod].
  - apply mk_bytes_ok. byte_list. exact B.
Qed.

Lemma closed_iff ck l w : closed ck l w <-> w = with_checksum ck l.
Proof.
  destruct ck; cbn [with_checksum].
  - destruct (add_checksum_spec l) as [c [E [B [S U]]]]. rewrite E. split.
    + intros C. inversion C as [|l' c' B' S']; subst. now rewrite (U c' B' S').
    + intros ->. now constructor.
  - split; [intros C; now inversion C|intros ->; constructor].
Qed.

Lemma digit_iff n c : 0 <= n <= 15 -> (digit n c <-> c = hex_of_nibble n).
Proof.
  intros N. assert (S : forallb (fun n => hex_of_nibble n =? (if n <=? 9 then 48 + n else 65 + (n - 10))) (upto 16) = true)
    by (vm_compute; reflexivity).
  apply (sweep 16) with (z := n) in S; [|lia]. cbv beta in S. apply Z.eqb_eq in S. rewrite S. split.
  - intros D. inversion D; subst; destruct (n <=? 9) eqn:L; lia.
  - intros ->. destruct (n <=? 9) eqn:L; constructor; lia.
Qed.
Lemma spelled_iff l w : is_bytes l -> (spelled l w <-> w = b16encode l).
Proof.
  revert w. induction l as [|b l IH]; intros w B.
  - split; [intros S; now inversion S|intros ->; constructor].
  - apply is_bytes_cons in B. destruct B as [Bb Bl]. unfold byte in Bb.
    cbn [b16encode flat_map b16_byte app]. fold (b16encode l). split.
    + intros S. remember (b :: l) as bl eqn:Q. destruct S as [|hi lo c1 c2 l' w' D1 D2 S']; [discriminate|].
      assert (Qb : b = 16 * hi + lo) by congruence. assert (Ql : l' = l) by congruence. clear Q. subst l'.
      assert (R1 : 0 <= hi <= 15) by (inversion D1; lia). assert (R2 : 0 <= lo <= 15) by (inversion D2; lia).
      apply digit_iff in D1; [|exact R1]. apply digit_iff in D2; [|exact R2].
      apply (IH w' Bl) in S'. rewrite Qb. subst c1 c2 w'. replace ((16 * hi + lo) / 16) with hi by lia.
      replace ((16 * hi + lo) mod 16) with lo by lia. reflexivity.
    + intros ->. replace b with (16 * (b / 16) + b mod 16) at 1 by lia.
      constructor; [apply digit_iff; [lia|reflexivity]|apply digit_iff; [lia|reflexivity]|now apply IH].
Qed.
Lemma closed_bytes ck l : is_bytes l -> is_bytes (with_checksum ck l).
Proof.
  intros B. destruct ck; [|exact B]. cbn [with_checksum]. destruct (add_checksum_spec l) as [c [-> [C _]]].
  apply is_bytes_app. split; [exact B|byte_list; exact C].
Qed.

Lemma commands_iff l : Forall possible_command l ->
  Forall (fun s => forall b, sal_encode s = Ok b <-> command_bytes s b) l.
Proof. intros F. eapply Forall_impl; [|exact F]. intros s P b. now apply C99_commands. Qed.
Lemma cals_iff l : Forall possible_cal l -> Forall (fun c => forall b, cal_encode c = Ok b <-> cal_bytes c b) l.
Proof. intros F. eapply Forall_impl; [|exact F]. intros s P b. now apply C99_management. Qed.

(** What [encode] returns before base16. *)
Lemma raw_iff p : possible_packet p -> forall r, raw_encode p = Some r -> forall whole,
  r = Ok whole <-> exists ck raw, packet_bytes p ck raw /\ closed ck raw whole.
Proof.
  intros P r R whole. destruct p as [| | | | | |h a l|h u hops l|h q v|child block states ck|]; try discriminate;
    cbn [raw_encode] in R; injection R as <-; cbn [possible_packet] in P.
  - unfold pm_encode. split.
    + intros E. destruct a as [a|]; [|discriminate]. destruct ((a <? 0) || (0xff <? a)) eqn:A; [discriminate|].
      destruct (concat_res sal_encode l) as [o|e] eqn:C; [|discriminate]. cbn [rbind] in E. rewrite header_ok in E.
      cbn [rbind] in E. apply Ok_inj in E. apply (concat_iff _ _ _ (commands_iff l P)) in C. destruct C as [parts [F ->]].
      exists (h_checksum h), ([0x05 + priority_bits h] ++ source_bytes h ++ [a; 0x00] ++ concat parts). split.
      * constructor; [unfold byte; lia|exact F].
      * apply closed_iff. rewrite <- E, <- app_assoc. reflexivity.
    + intros [ck [raw [B C]]]. inversion B as [h' a' l' parts Ba F| | |]; subst. unfold byte in Ba.
      replace ((a' <? 0) || (0xff <? a')) with false by lia.
      rewrite (proj2 (concat_iff _ _ _ (commands_iff l P) (concat parts))) by eauto. cbn [rbind]. rewrite header_ok.
      cbn [rbind]. apply closed_iff in C. subst whole. rewrite <- app_assoc. reflexivity.
  - unfold pp_encode. split.
    + intros E. destruct hops as [hops|]; [discriminate|]. destruct (mk_bytes [u; 0]) as [o|e] eqn:U; [|discriminate].
      apply mk_bytes_inv in U. destruct U as [-> Bu]. apply is_bytes_cons in Bu. destruct Bu as [Bu _].
      cbn [rbind] in E. destruct (concat_res cal_encode l) as [o|e] eqn:C; [|discriminate].
      cbn [rbind] in E. rewrite header_ok in E.
      cbn [rbind] in E. apply Ok_inj in E. apply (concat_iff _ _ _ (cals_iff l P)) in C. destruct C as [parts [F ->]].
      exists (h_checksum h), ([0x06 + priority_bits h] ++ source_bytes h ++ [u; 0x00] ++ concat parts). split.
      * constructor; assumption.
      * apply closed_iff. rewrite <- E, <- app_assoc. reflexivity.
    + intros [ck [raw [B C]]]. inversion B as [|h' u' l' parts Bu F| |]; subst.
      rewrite mk_bytes_ok by (byte_list; [exact Bu|unfold byte; lia]). cbn [rbind].
      rewrite (proj2 (concat_iff _ _ _ (cals_iff l P) (concat parts))) by eauto. cbn [rbind]. rewrite header_ok.
      cbn [rbind]. apply closed_iff in C. subst whole. rewrite <- app_assoc. reflexivity.
  - unfold dm_encode. rewrite header_ok, !land_255. cbn [rbind]. split.
    + intros E. apply Ok_inj in E.
      exists (h_checksum h), ([0x23 + priority_bits h] ++ source_bytes h ++ [q mod 256; 0x00; v mod 256]).
      split; [constructor|]. apply closed_iff. rewrite <- E, <- app_assoc. reflexivity.
    + intros [ck [raw [B C]]]. inversion B; subst. apply closed_iff in C. subst whole. rewrite <- app_assoc. reflexivity.
  - destruct P as [G L]. destruct (report_ok (RBinary states) G) as [w [E [B Lw]]]. cbn [report_encode report_size] in E, Lw.
    unfold std_cal_encode. rewrite E. cbn [rbind]. unfold CAL_STANDARD_STATUS. rewrite lor_top by lia. rewrite !land_255.
    rewrite mk_bytes_ok by (byte_list; try apply byte_mod; unfold byte; lia). cbn [rbind].
    replace (192 + (Z.of_nat (length w) + 3)) with (0xC0 + Z.of_nat (length w) + 3) by lia.
    apply (binary_iff states w G) in E. split.
    + intros Q. apply Ok_inj in Q. eexists ck, _. split; [constructor; exact E|]. apply closed_iff. now rewrite <- Q.
    + intros [ck' [raw [W C]]]. inversion W as [| | |? ? ? ? w' S]; subst. apply closed_iff in C.
      now rewrite C, (states_unique _ _ E _ S).
Qed.
Lemma possible_typed p : possible_packet p -> packet_typed p.
Proof.
  destruct p as [| | | | | | |h u hops l| | |]; cbn [possible_packet packet_typed]; auto. intros F.
  eapply Forall_impl; [|exact F]. intros c. destruct c; cbn [possible_cal cal_typed]; tauto.
Qed.

(** A packet is sent exactly if it has a form on the line, and in that form. *)
Theorem C99_packets : forall p w, possible_packet p -> (encode_packet p = Ok w <-> packet_text p w).
Proof.
  intros p w P. destruct (raw_encode p) as [r|] eqn:R.
  - rewrite (raw_encode_packet p r R). assert (I := raw_iff p P r R). split.
    + destruct r as [whole|e]; [|discriminate]. cbn [rbind]. intros E. apply Ok_inj in E. subst w.
      destruct (raw_encode_bytes p whole R (possible_typed p P)) as [B _].
      destruct (proj1 (I whole) eq_refl) as [ck [raw [X C]]]. econstructor; [exact X|exact C|].
      now apply spelled_iff.
    + intros T. destruct T as [p ck raw whole w X C S| | | | | | |]; try discriminate R.
      assert (E : r = Ok whole) by (apply I; eauto). subst r.
      destruct (raw_encode_bytes p whole R (possible_typed p P)) as [B _]. cbn [rbind]. f_equal. symmetry.
      now apply spelled_iff.
  - destruct p; try discriminate R; cbn [encode_packet]; split;
      try (intros E; apply Ok_inj in E; subst w); try (destruct success); try constructor;
      try (intros T; inversion T as [? ? ? ? ? X| | | | | | |]; subst; try reflexivity; now inversion X);
      discriminate.
Qed.
Print Assumptions C99_packets.

(** ** Reading *)

Lemma received_possible a s s' : command_received a s s' -> possible_command s.
Proof.
  intros R. destruct R as [s s' V|s V|s s' V|s V|s V]; destruct s as [| | | |v| | | |]; cbn in V |- *; try tauto;
    destruct v; cbn in V |- *; tauto.
Qed.
Lemma all_possible a l l' : Forall2 (command_received a) l l' -> Forall possible_command l.
Proof. induction 1; constructor; [eapply received_possible; eassumption|assumption]. Qed.
Lemma cals_possible l : Forall valid_cal l -> Forall possible_cal l.
Proof. intros F. eapply Forall_impl; [|exact F]. intros c. destruct c; cbn; tauto. Qed.

(** A line with these characters is read as what it says. *)
Theorem C99_read_commands : forall checksum strict prio src a cmds cmds' w rest,
  application_id a -> Forall2 (command_received a) cmds cmds' -> 0 <= prio <= 3 -> byte src ->
  packet_text (PktPM (mkHdr checksum prio (Some src) None) (Some a) cmds) w ->
  decode_packet (w ++ [13; 10] ++ rest) checksum strict true
  = ([], Ok (Some (PktPM (mkHdr checksum prio (if src =? 0 then None else Some src) None)
                     (Some a) cmds'), (length w + 2)%nat)).
Proof.
  intros ck strict prio src a l l' w rest A F P B T.
  destruct (pm_from_pci ck strict prio src a l l' rest A F P B) as [w' [E D]].
  apply C99_packets in T; [|exact (all_possible _ _ _ F)]. rewrite T in E. apply Ok_inj in E. now subst w'.
Qed.
Print Assumptions C99_read_commands.

Theorem C99_read_management : forall checksum strict prio src u cals cals' w rest,
  Forall valid_cal cals -> Forall2 cal_received cals cals' -> 0 <= prio <= 3 -> byte src -> byte u ->
  packet_text (PktPP (mkHdr checksum prio (Some src) None) u None cals) w ->
  decode_packet (w ++ [13; 10] ++ rest) checksum strict true
  = ([], Ok (Some (PktPP (mkHdr checksum prio (if src =? 0 then None else Some src) None)
                     u None cals'), (length w + 2)%nat)).
Proof.
  intros ck strict prio src u l l' w rest V F P B Bu T.
  destruct (pp_from_pci ck strict prio src u l l' rest V F P B Bu) as [w' [E D]].
  apply C99_packets in T; [|exact (cals_possible _ V)]. rewrite T in E. apply Ok_inj in E. now subst w'.
Qed.
Print Assumptions C99_read_management.

Theorem C99_read_device : forall checksum strict prio src p v w rest,
  0 <= prio <= 3 -> byte src ->
  packet_text (PktDM (mkHdr checksum prio (Some src) None) p v) w ->
  decode_packet (w ++ [13; 10] ++ rest) checksum strict true
  = ([], Ok (Some (PktDM (mkHdr checksum prio (if src =? 0 then None else Some src) None)
                     (p mod 256) (v mod 256)), (length w + 2)%nat)).
Proof.
  intros ck strict prio src p v w rest P B T.
  destruct (dm_from_pci ck strict prio src p v rest P B) as [w' [E D]].
  apply C99_packets in T; [|exact I]. rewrite T in E. apply Ok_inj in E. now subst w'.
Qed.
Print Assumptions C99_read_device.

(** The same for the orders a client sends, behind a backslash. *)
Theorem C99_read_orders : forall checksum strict prio a cmds cmds' code w rest,
  application_id a -> Forall2 (command_received a) cmds cmds' -> 0 <= prio <= 3 ->
  (match code with Some k => is_code k | None => True end) ->
  packet_text (PktPM (mkHdr checksum prio None code) (Some a) cmds) w ->
  decode_packet ([92] ++ w ++ opt_code code ++ [13] ++ rest) checksum strict false
  = ([], Ok (Some (PktPM (mkHdr checksum prio None code) (Some a) cmds'),
             length ([92] ++ w ++ opt_code code ++ [13]))).
Proof.
  intros ck strict prio a l l' code w rest A F P B T.
  destruct (pm_to_pci ck strict prio a l l' code rest A F P B) as [w' [E D]].
  apply C99_packets in T; [|exact (all_possible _ _ _ F)]. rewrite T in E. apply Ok_inj in E. now subst w'.
Qed.
Print Assumptions C99_read_orders.

Theorem C99_read_requests : forall checksum strict prio u cals cals' code w rest,
  Forall valid_cal cals -> Forall2 cal_received cals cals' -> 0 <= prio <= 3 -> byte u ->
  (match code with Some k => is_code k | None => True end) ->
  packet_text (PktPP (mkHdr checksum prio None code) u None cals) w ->
  decode_packet ([92] ++ w ++ opt_code code ++ [13] ++ rest) checksum strict false
  = ([], Ok (Some (PktPP (mkHdr checksum prio None code) u None cals'),
             length ([92] ++ w ++ opt_code code ++ [13]))).
Proof.
  intros ck strict prio u l l' code w rest V F P B K T.
  destruct (pp_to_pci ck strict prio u l l' code rest V F P B K) as [w' [E D]].
  apply C99_packets in T; [|exact (cals_possible _ V)]. rewrite T in E. apply Ok_inj in E. now subst w'.
Qed.
Print Assumptions C99_read_requests.

(** "Group 7 to level 100 in 8 seconds", asked for as 5 seconds, from unit 4. *)
Example C99_case :
  packet_text (PktPM (mkHdr true 0 (Some 4) None) (Some 0x38) [LightRamp 7 5 (PInt 100)])
    [48;53; 48;52; 51;56; 48;48; 49;50; 48;55; 54;52; 52;50]
  /\ command_bytes (ClockUpdate (CDate 2024 2 29)) [0x0E; 0x02; 7; 232; 2; 29; 3].
Proof.
  split.
  - apply C99_packets; [|vm_compute; reflexivity]. constructor; [exact I|constructor].
  - apply C99_commands; [|vm_compute; reflexivity]. cbn. split; [lia|]. exists 29. split; [|lia]. right. right. left.
    split; [reflexivity|]. split; [|reflexivity]. split; [exists 506; reflexivity|]. left. intros [k K]. lia.
Qed.
