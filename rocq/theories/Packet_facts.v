(** Lemmas on Packet.v: framing and round trips. *)
From Coq Require Import List ZArith QArith Qround Bool Lia ZifyBool ZifyNat.
From Verif Require Import Py Common Sal Cal Packet Base Spec Common_facts Sal_facts Cal_facts.
Import ListNotations.
Open Scope Z_scope.
Ltac Zify.zify_post_hook ::= Z.div_mod_to_equations.

(** ** Header flags *)

Definition mod8 := upto 8.
Lemma flags_facts dat rc dp priority :
  byte (flags dat rc dp priority)
  /\ Z.land (flags dat rc dp priority) 0x07 = dat mod 8
  /\ (Z.land (flags dat rc dp priority) 0x20 =? 0x20) = dp
  /\ Z.land (Z.shiftr (flags dat rc dp priority) 6) 0x03 = priority mod 4
  /\ flags dat rc dp priority
     = dat mod 8 + 16 * (rc / 2 mod 2) + (if dp then 32 else 0) + 64 * (priority mod 4).
Proof.
  unfold flags. rewrite (land_7 dat).
  assert (R : Z.land rc 0x02 = 2 * (rc / 2 mod 2)).
  { change (rc / 2) with (rc / 2 ^ 1). rewrite <- (Z.shiftr_div_pow2 rc 1) by lia.
    change 2 with (2 ^ 1) at 3. rewrite <- Z.land_ones by lia.
    change (2 * Z.land (Z.shiftr rc 1) (Z.ones 1)) with (2 ^ 1 * Z.land (Z.shiftr rc 1) (Z.ones 1)).
    rewrite Z.mul_comm, <- Z.shiftl_mul_pow2 by lia. rewrite Z.shiftl_land.
    apply Z.bits_inj'. intros k Hk. rewrite !Z.land_spec.
    destruct (Z.eq_dec k 0) as [->|].
    - rewrite (Z.shiftl_spec_low _ 1 0) by lia.
      change (Z.testbit 2 0) with false. now rewrite andb_false_r.
    - rewrite (Z.shiftl_spec (Z.shiftr rc 1)) by lia. rewrite Z.shiftr_spec by lia.
      replace (k - 1 + 1) with k by lia. change (Z.shiftl (Z.ones 1) 1) with 2. reflexivity. }
  rewrite R. rewrite !(land_3 priority).
  assert (H1 : 0 <= dat mod 8 < 8) by lia. assert (H2 : 0 <= rc / 2 mod 2 < 2) by lia.
  assert (H3 : 0 <= priority mod 4 < 4) by lia.
  clear R. generalize dependent (dat mod 8). generalize dependent (rc / 2 mod 2).
  generalize dependent (priority mod 4). clear. intros p Hp r Hr d Hd.
  assert (S : forallb (fun d => forallb (fun r => forallb (fun p => forallb (fun dp : bool =>
     let f := Z.lor (Z.lor (Z.lor d (Z.shiftl (2 * r) 3)) (if dp then 32 else 0)) (Z.shiftl p 6) in
     (0 <=? f) && (f <=? 255) && (Z.land f 7 =? d) && (Bool.eqb (Z.land f 32 =? 32) dp)
     && (Z.land (Z.shiftr f 6) 3 =? p)
     && (f =? d + 16 * r + (if dp then 32 else 0) + 64 * p))
     [true; false]) (upto 4)) (upto 2)) (upto 8) = true) by (vm_compute; reflexivity).
  apply (sweep 8) with (z := d) in S; [|lia]. apply (sweep 2) with (z := r) in S; [|lia].
  apply (sweep 4) with (z := p) in S; [|lia]. cbv beta in S.
  rewrite forallb_forall in S. specialize (S dp). 
  assert (I : In dp [true; false]) by (destruct dp; cbn; auto).
  specialize (S I). cbv beta zeta in S. bool_hyps. unfold byte.
  repeat split; try lia. now apply eqb_prop.
Qed.

(** ** Encodings are byte strings *)

Lemma concat_bytes {A} (enc : A -> res bytes) l b :
  (forall a x, In a l -> enc a = Ok x -> is_bytes x) -> concat_res enc l = Ok b -> is_bytes b.
Proof.
  revert b. induction l as [|a l IH]; intros b H E; cbn [concat_res] in E.
  - inversion E. constructor.
  - destruct (enc a) as [x|] eqn:Ea; [|discriminate]. cbn [rbind] in E.
    destruct (concat_res enc l) as [y|] eqn:El; [|discriminate]. cbn [rbind] in E.
    inversion E. apply is_bytes_app. split; [apply (H a); [now left|exact Ea]|].
    apply IH; [|reflexivity]. intros a' x' Hin. apply H. now right.
Qed.

Lemma mk_bytes_num_bytes l b : mk_bytes_num l = Ok b -> is_bytes b.
Proof.
  revert b. induction l as [|n l IH]; intros b E; cbn [mk_bytes_num] in E.
  - inversion E. constructor.
  - destruct (byte_of_num n) as [z|] eqn:En; [|discriminate]. cbn [rbind] in E.
    destruct (mk_bytes_num l) as [y|] eqn:El; [|discriminate]. cbn [rbind] in E.
    inversion E. apply is_bytes_cons. split; [|now apply IH].
    unfold byte_of_num in En. destruct n; try discriminate.
    destruct (_ && _) eqn:B; [|discriminate]. inversion En. subst. now apply byteb_spec.
Qed.

Lemma pack_B_bytes x b : pack_B x = Ok b -> is_bytes b.
Proof.
  unfold pack_B. destruct (_ && _) eqn:B; [|discriminate]. intros E. inversion E.
  apply is_bytes_cons. split; [now apply byteb_spec|constructor].
Qed.
Lemma pack_H_bytes x b : pack_H x = Ok b -> is_bytes b.
Proof.
  unfold pack_H. destruct (_ && _) eqn:B; [|discriminate]. intros E. inversion E.
  bool_hyps. byte_list; unfold byte; lia.
Qed.

Ltac res_step H :=
  match type of H with
  | rbind ?m _ = Ok _ =>
      let E := fresh "E" in destruct m eqn:E; [cbn [rbind] in H|discriminate]
  end.

Lemma sal_encode_bytes s b : sal_encode s = Ok b -> is_bytes b.
Proof.
  destruct s; cbn [sal_encode]; intros H.
  - unfold light_ramp_encode in H. destruct (_ || _); [discriminate|].
    res_step H. now apply mk_bytes_num_bytes in H.
  - unfold light_simple_encode in H. res_step H. apply mk_bytes_inv in H. now destruct H as [-> H].
  - unfold light_simple_encode in H. res_step H. apply mk_bytes_inv in H. now destruct H as [-> H].
  - unfold light_simple_encode in H. res_step H. apply mk_bytes_inv in H. now destruct H as [-> H].
  - destruct v; cbn [clock_update_encode] in H; try discriminate;
      unfold clock_date_encode, clock_time_encode in H; repeat res_step H; inversion H;
      repeat match goal with
      | E : pack_B _ = Ok _ |- _ => apply pack_B_bytes in E
      | E : pack_H _ = Ok _ |- _ => apply pack_H_bytes in E
      | E : mk_bytes _ = Ok _ |- _ => apply mk_bytes_inv in E; destruct E as [-> E]
      end; byte_list; try assumption;
      try (apply is_bytes_cons in E3; unfold byte; lia); try (unfold byte; lia);
      repeat match goal with E : is_bytes (_ :: _) |- _ => apply is_bytes_cons in E; destruct E end;
      assumption.
  - unfold clock_request_encode in H. apply mk_bytes_inv in H. now destruct H as [-> H].
  - unfold temp_encode in H. destruct (negb _); [discriminate|]. res_step H.
    apply mk_bytes_inv in H. now destruct H as [-> H].
  - unfold enable_encode in H. apply mk_bytes_inv in H. now destruct H as [-> H].
  - unfold status_encode in H. destruct level_request.
    + res_step H. apply mk_bytes_inv in E. destruct E as [-> E]. inversion H.
      apply is_bytes_cons. split; [unfold byte; lia|].
      apply is_bytes_cons. split; [unfold byte; lia|exact E].
    + apply mk_bytes_inv in H. now destruct H as [-> H].
Qed.

(** The payload of a reply is a Python bytes object. *)
Definition cal_typed (c : cal) : Prop :=
  match c with CReply _ data => is_bytes data | _ => True end.

Lemma cal_encode_bytes c b : cal_typed c -> cal_encode c = Ok b -> is_bytes b.
Proof.
  destruct c as [a|p n|p d|e ch bl r]; cbn [cal_encode cal_typed]; intros T H.
  - apply mk_bytes_inv in H. now destruct H as [-> H].
  - apply mk_bytes_inv in H. now destruct H as [-> H].
  - res_step H. apply mk_bytes_inv in E. destruct E as [-> E]. apply Ok_inj in H; subst.
    apply is_bytes_app. split; [exact E|now apply is_bytes_firstn].
  - res_step H. apply report_encode_bytes in E. res_step H.
    apply mk_bytes_inv in E0. destruct E0 as [-> E0]. apply Ok_inj in H; subst.
    repeat match goal with E : is_bytes (_ :: _) |- _ => apply is_bytes_cons in E; destruct E end.
    byte_list; assumption.
Qed.

Lemma with_checksum_bytes ck b : is_bytes b -> is_bytes (with_checksum ck b).
Proof. destruct ck; cbn; [apply add_checksum_bytes|auto]. Qed.

Lemma header_bytes dat dp h : header_encode dat dp h
  = Ok (flags dat 0 dp (h_priority h)
        :: match h_source h with Some s => [s mod 256] | None => [] end).
Proof.
  unfold header_encode. assert (F := flags_facts dat 0 dp (h_priority h)). destruct F as [F _].
  destruct (h_source h).
  - rewrite land_255. apply mk_bytes_ok. byte_list; [exact F|apply byte_mod].
  - apply mk_bytes_ok. byte_list. exact F.
Qed.
Lemma header_is_bytes dat dp h p : header_encode dat dp h = Ok p -> is_bytes p.
Proof.
  rewrite header_bytes. intros E. inversion E. apply is_bytes_cons.
  split; [apply flags_facts|]. destruct (h_source h); byte_list. apply byte_mod.
Qed.

Definition packet_typed (p : packet) : Prop :=
  match p with PktPP _ _ _ cals => Forall cal_typed cals | _ => True end.

Lemma pm_encode_bytes h a sals b : pm_encode h a sals = Ok b -> is_bytes b /\ b <> [].
Proof.
  unfold pm_encode. intros H. destruct a as [a|]; [|discriminate].
  destruct ((a <? 0) || (255 <? a)) eqn:R; [discriminate|].
  res_step H. rewrite header_bytes in H. cbn [rbind] in H. inversion H. split.
  - apply with_checksum_bytes. byte_list.
    + apply flags_facts.
    + destruct (h_source h); byte_list. apply byte_mod.
    + unfold byte; lia.
    + unfold byte; lia.
    + apply (concat_bytes sal_encode sals); [|exact E]. intros s x _. apply sal_encode_bytes.
  - destruct (h_checksum h); discriminate.
Qed.
Lemma pp_encode_bytes h u hops cals b : Forall cal_typed cals ->
  pp_encode h u hops cals = Ok b -> is_bytes b /\ b <> [].
Proof.
  unfold pp_encode. intros T H. destruct hops; [discriminate|].
  res_step H. res_step H. rewrite header_bytes in H. cbn [rbind] in H. apply Ok_inj in H; subst.
  apply mk_bytes_inv in E. destruct E as [-> E]. split.
  - apply with_checksum_bytes. byte_list.
    + apply flags_facts.
    + destruct (h_source h); byte_list. apply byte_mod.
    + apply is_bytes_cons in E. tauto.
    + unfold byte; lia.
    + apply (concat_bytes cal_encode cals); [|exact E0]. intros s x Hin.
      rewrite Forall_forall in T. apply cal_encode_bytes, T, Hin.
  - destruct (h_checksum h); discriminate.
Qed.
Lemma dm_encode_eq h p v : dm_encode h p v
  = Ok (with_checksum (h_checksum h) (flags DAT_PPM 0 true (h_priority h)
        :: match h_source h with Some s => [s mod 256] | None => [] end
        ++ [p mod 256; 0; v mod 256])).
Proof. unfold dm_encode. rewrite header_bytes. cbn [rbind]. now rewrite !land_255. Qed.
Lemma dm_encode_bytes h p v b : dm_encode h p v = Ok b -> is_bytes b /\ b <> [].
Proof.
  rewrite dm_encode_eq. intros H. inversion H. split.
  - apply with_checksum_bytes. byte_list; try apply byte_mod.
    + apply flags_facts.
    + destruct (h_source h); byte_list. apply byte_mod.
    + unfold byte; lia.
  - destruct (h_checksum h); discriminate.
Qed.
Lemma std_cal_encode_bytes c bl s b : std_cal_encode c bl s = Ok b -> is_bytes b /\ b <> [].
Proof.
  unfold std_cal_encode. intros H. res_step H. res_step H.
  apply mk_bytes_inv in E0. destruct E0 as [-> E0]. apply Ok_inj in H; subst.
  split; [|discriminate].
  repeat match goal with E : is_bytes (_ :: _) |- _ => apply is_bytes_cons in E; destruct E end.
  byte_list; try assumption.
  apply (report_encode_bytes (RBinary s)). exact E.
Qed.

Lemma raw_encode_bytes p r : raw_encode p = Some (Ok r) -> packet_typed p -> is_bytes r /\ r <> [].
Proof.
  destruct p; cbn [raw_encode packet_typed]; intros H T; try discriminate.
  - assert (H' : pm_encode h application sals = Ok r) by congruence. now apply pm_encode_bytes in H'.
  - assert (H' : pp_encode h unit_address hops cals = Ok r) by congruence. now apply pp_encode_bytes in H'.
  - assert (H' : dm_encode h parameter value = Ok r) by congruence. now apply dm_encode_bytes in H'.
  - destruct (std_cal_encode child block states) as [b|] eqn:E; cbn [rbind] in H; [|discriminate].
    assert (H' : r = with_checksum checksum b) by congruence.
    apply std_cal_encode_bytes in E. destruct E as [E N]. rewrite H'.
    split; [now apply with_checksum_bytes|]. destruct checksum; [destruct b; discriminate|exact N].
Qed.

Lemma raw_encode_packet p r : raw_encode p = Some r ->
  encode_packet p = rbind r (fun b => Ok (b16encode b)).
Proof.
  destruct p; cbn [raw_encode encode_packet]; intros H; inversion H; try reflexivity.
  unfold std_cal_encode_packet. destruct (std_cal_encode _ _ _); reflexivity.
Qed.

Lemma encode_packet_hex p w r : raw_encode p = Some r -> packet_typed p ->
  encode_packet p = Ok w ->
  exists raw, r = Ok raw /\ w = b16encode raw /\ is_bytes raw /\ raw <> []
    /\ Forall hex_char w /\ length w = (2 * length raw)%nat /\ b16decode w = Ok raw.
Proof.
  intros R T E. rewrite (raw_encode_packet _ _ R) in E. res_step E. inversion E. subst.
  destruct (raw_encode_bytes _ _ R T) as [B N].
  exists a. repeat split; auto using b16_hex, b16_length, b16_roundtrip.
Qed.

(** ** Framing *)

Lemma hex_no_cr l : Forall hex_char l -> ~ In 13 l.
Proof. intros H I. rewrite Forall_forall in H. apply H in I. unfold hex_char in I. lia. Qed.

Lemma starts_with_app p l : starts_with p (p ++ l) = true.
Proof. induction p as [|a p IH]; [reflexivity|]. cbn. now rewrite Z.eqb_refl, IH. Qed.

Lemma find_app a p l x : p <> [] -> hd_error p = Some x -> ~ In x a ->
  find p (a ++ p ++ l) = Some (length a).
Proof.
  intros N Hx. induction a as [|y a IH]; intros Hn.
  - cbn [app length]. destruct p as [|b p]; [congruence|]. unfold find.
    cbn [app]. change (b :: p ++ l) with ((b :: p) ++ l). now rewrite starts_with_app.
  - cbn [app length find]. destruct p as [|b p]; [congruence|]. cbn in Hx. inversion Hx; subst b.
    cbn [starts_with]. destruct (x =? y) eqn:E; [exfalso; apply Hn; left; lia|].
    cbn [andb]. change ((x :: p) ++ l) with (x :: p ++ l) in *. rewrite IH; [reflexivity|].
    intros H. apply Hn. now right.
Qed.

Lemma find_cr a l : ~ In 13 a -> find END_COMMAND (a ++ 13 :: l) = Some (length a).
Proof. intros H. apply (find_app a [13] l 13); [discriminate|reflexivity|exact H]. Qed.
Lemma find_crlf a l : ~ In 13 a -> find END_RESPONSE (a ++ 13 :: 10 :: l) = Some (length a).
Proof. intros H. apply (find_app a [13; 10] l 13); [discriminate|reflexivity|exact H]. Qed.
Lemma find_none p l x : hd_error p = Some x -> ~ In x l -> find p l = None.
Proof.
  intros Hx. destruct p as [|b p]; [discriminate|]. cbn in Hx. inversion Hx; subst b.
  induction l as [|y l IH]; intros Hn; [reflexivity|]. cbn [find starts_with].
  destruct (x =? y) eqn:E; [exfalso; apply Hn; left; lia|]. cbn [andb].
  rewrite IH; [reflexivity|]. intros H. apply Hn. now right.
Qed.

(** decode_hex on well-formed, correctly checksummed hex. *)
Definition lift_packet (x : W (packet * nat)) : W (option packet * nat) :=
  wmap (fun '(p, n) => (Some p, n)) x.

Lemma decode_hex_ok ck strict from_pci dm_cal conf n raw fl rest :
  is_bytes raw -> raw = fl :: rest ->
  decode_hex ck strict from_pci dm_cal conf n (b16encode (with_checksum ck raw))
  = lift_packet (decode_frame ck from_pci dm_cal conf n fl raw).
Proof.
  intros B ->. unfold decode_hex. rewrite b16_hex_forallb by now apply with_checksum_bytes.
  cbn [negb]. rewrite b16_roundtrip by now apply with_checksum_bytes. rewrite wbind_lift_ok.
  destruct ck; cbn [with_checksum].
  - rewrite validate_add, wbind_lift_ok. unfold add_cbus_checksum. rewrite py_init_app.
    cbn [py_index nth_error]. rewrite wbind_lift_ok. reflexivity.
  - cbn [py_index nth_error]. rewrite wbind_lift_ok. reflexivity.
Qed.

Lemma b16_nonempty l : l <> [] -> exists c t, b16encode l = c :: t.
Proof. destruct l as [|b l]; [congruence|]. cbn. eauto. Qed.

Lemma hex_facts c : hex_char c ->
  (c =? 43) = false /\ (c =? 33) = false /\ mem c CONFIRMATION_CODES = false
  /\ (c =? 126) = false /\ (c =? 110) = false /\ (c =? 124) = false /\ (c =? 64) = false
  /\ (c =? 92) = false /\ (c =? 63) = false.
Proof.
  unfold hex_char. intros H. repeat split; try lia.
  apply mem_false. unfold CONFIRMATION_CODES. cbn [In]. lia.
Qed.

(** A line from a PCI. *)
Lemma decode_from_pci line rest ck strict c t :
  line = c :: t -> ~ In 13 line -> c <> 43 -> c <> 33 -> ~ In c CONFIRMATION_CODES ->
  decode_packet (line ++ 13 :: 10 :: rest) ck strict true
  = decode_hex ck strict true false None (length line + 2) line.
Proof.
  intros -> H13 N1 N2 N3. cbn [app]. unfold decode_packet.
  replace (c =? 43) with false by lia. replace (c =? 33) with false by lia.
  apply mem_false in N3.
  destruct (t ++ 13 :: 10 :: rest) as [|c1 r] eqn:E; [destruct t; discriminate|].
  rewrite N3. rewrite <- E. change (c :: t ++ 13 :: 10 :: rest) with ((c :: t) ++ 13 :: 10 :: rest).
  rewrite find_crlf by exact H13. rewrite firstn_app_length. reflexivity.
Qed.

(** The prefix of a line to a PCI: checksum flag and CAL flag it selects. *)
Definition prefix_mode (prefix : bytes) (ck : bool) : option (bool * bool) :=
  match prefix with
  | [] => Some (ck, true)
  | [c] => if c =? 64 then Some (false, true) else if c =? 92 then Some (ck, false) else None
  | _ => None
  end.

(** A line to a PCI with an optional confirmation code. *)
Lemma decode_to_pci prefix ck ck' dm_cal body code rest strict c t :
  prefix_mode prefix ck = Some (ck', dm_cal) ->
  body = c :: t -> Forall hex_char body ->
  (match code with Some k => In k CONFIRMATION_CODES | None => True end) ->
  decode_packet (prefix ++ body ++ match code with Some k => [k] | None => [] end ++ 13 :: rest)
    ck strict false
  = decode_hex ck' strict false dm_cal code
      (length prefix + length body + (match code with Some _ => 2 | None => 1 end))%nat body.
Proof.
  intros Hp -> Hh Hc.
  set (tail := match code with Some k => [k] | None => [] end).
  assert (Hc13 : ~ In 13 tail /\ ~ In 63 tail).
  { unfold tail. destruct code as [k|]; cbn [In]; [|tauto].
    unfold CONFIRMATION_CODES in Hc. cbn [In] in Hc. lia. }
  assert (Hb13 : ~ In 13 (c :: t) /\ ~ In 63 (c :: t)).
  { rewrite Forall_forall in Hh. split; intros I; apply Hh in I; unfold hex_char in I; lia. }
  assert (Hp13 : ~ In 13 prefix /\ ~ In 63 prefix).
  { unfold prefix_mode in Hp. destruct prefix as [|x [|]]; try discriminate; [cbn; tauto|].
    cbn [In]. destruct (x =? 64) eqn:E1; [lia|]. destruct (x =? 92) eqn:E2; [lia|discriminate]. }
  set (line := prefix ++ (c :: t) ++ tail).
  assert (N13 : ~ In 13 line /\ ~ In 63 line).
  { unfold line. rewrite !in_app_iff. tauto. }
  replace (prefix ++ (c :: t) ++ tail ++ 13 :: rest) with (line ++ 13 :: rest)
    by (unfold line; rewrite <- !app_assoc; reflexivity).
  assert (HC : hex_char c) by (inversion Hh; assumption).
  destruct (hex_facts c HC) as [_ [_ [_ [E126 [E110 [E124 [E64 [E92 _]]]]]]]].
  assert (Hl : exists x y l', line = x :: y :: l' /\ (x =? 126) = false /\ (x =? 110) = false
       /\ (x =? 124) = false \/ exists x, line = [x] /\ (x =? 126) = false /\ (x =? 110) = false
       /\ (x =? 124) = false).
  { unfold line, prefix_mode in *. destruct prefix as [|x [|]]; try discriminate; cbn [app] in *.
    - destruct (t ++ tail) as [|y l'] eqn:E.
      + exists 0, 0, []. right. exists c. auto.
      + exists c, y, l'. left. auto.
    - exists x, c, (t ++ tail). left. split; [reflexivity|].
      destruct (x =? 64) eqn:E1; [repeat split; lia|].
      destruct (x =? 92) eqn:E2; [repeat split; lia|discriminate]. }
  assert (D : decode_packet (line ++ 13 :: rest) ck strict false
      = decode_line ck strict false (length line + 1) line).
  { unfold decode_packet.
    assert (F := find_cr line rest (proj1 N13)).
    assert (Q : match find [63] (line ++ 13 :: rest) with
                | Some q => Nat.ltb q (length line) = false | None => True end).
    { destruct (find [63] (line ++ 13 :: rest)) as [q|] eqn:EQ; [|exact I].
      apply Nat.ltb_ge. destruct N13 as [_ N63]. clear - N63 EQ. revert q EQ.
      induction line as [|x l IH]; intros q EQ; [cbn; lia|].
      cbn [app find starts_with length] in EQ. cbn [length].
      destruct (63 =? x) eqn:E; [exfalso; apply N63; left; lia|]. cbn [andb] in EQ.
      destruct (find [63] (l ++ 13 :: rest)) as [q'|] eqn:E'; [|discriminate].
      cbn [option_map] in EQ. inversion EQ. assert (length l <= q')%nat; [|lia].
      apply IH; [|reflexivity]. intros H. apply N63. now right. }
    destruct Hl as [x [y [l' [[El [H1 [H2 H3]]]|[x' [El [H1 [H2 H3]]]]]]]].
    - rewrite El in *. cbn [app]. rewrite H1. cbn [starts_with].
      replace (110 =? x) with false by lia. replace (124 =? x) with false by lia. cbn [andb orb].
      change (x :: y :: l' ++ 13 :: rest) with ((x :: y :: l') ++ 13 :: rest) in *. rewrite F.
      destruct (find [63] _) as [q|]; [rewrite Q|]; rewrite firstn_app_length; reflexivity.
    - rewrite El in *. cbn [app]. rewrite H1. cbn [starts_with].
      replace (110 =? x') with false by lia. replace (124 =? x') with false by lia. cbn [andb orb].
      change (x' :: 13 :: rest) with ([x'] ++ 13 :: rest) in *. rewrite F.
      destruct (find [63] _) as [q|]; [rewrite Q|]; rewrite firstn_app_length; reflexivity. }
  rewrite D.
  assert (Len : (length line + 1)%nat = (length prefix + length (c :: t)
      + match code with Some _ => 2 | None => 1 end)%nat).
  { unfold line, tail. rewrite !app_length. destruct code; cbn [length]; lia. }
  rewrite Len. generalize (length prefix + length (c :: t)
      + match code with Some _ => 2 | None => 1 end)%nat. intros n. clear D Len Hl.
  (* decode_line *)
  assert (Body : wbind (wlift (py_last ((c :: t) ++ tail))) (fun l =>
        if mem l HEX_CHARS then decode_hex ck' strict false dm_cal None n ((c :: t) ++ tail)
        else if mem l CONFIRMATION_CODES then
          decode_hex ck' strict false dm_cal (Some l) n (py_init ((c :: t) ++ tail))
        else if strict then wret (Some (PktInvalid ((c :: t) ++ tail) ValueError), n)
        else wwarn WConfirmCode
               (decode_hex ck' strict false dm_cal (Some l) n (py_init ((c :: t) ++ tail))))
     = decode_hex ck' strict false dm_cal code n (c :: t)).
  { unfold tail. destruct code as [k|].
    - rewrite py_last_app, py_init_app, wbind_lift_ok.
      replace (mem k HEX_CHARS) with false.
      + replace (mem k CONFIRMATION_CODES) with true; [reflexivity|].
        symmetry. now apply mem_spec.
      + symmetry. apply mem_false. intros I. apply mem_spec, hex_mem in I.
        unfold CONFIRMATION_CODES in Hc. cbn [In] in Hc. unfold hex_char in I. lia.
    - rewrite app_nil_r. destruct (list_snoc_case (c :: t)) as [|[i [l El]]]; [discriminate|].
      rewrite El at 1. rewrite py_last_app, wbind_lift_ok.
      replace (mem l HEX_CHARS) with true; [reflexivity|]. symmetry. apply hex_mem.
      rewrite El in Hh. apply Forall_app in Hh. destruct Hh as [_ Hh]. now inversion Hh. }
  unfold decode_line, line. unfold prefix_mode in Hp.
  destruct prefix as [|x [|]]; try discriminate; cbn [app].
  - inversion Hp; subst. rewrite E64, E92. exact Body.
  - destruct (x =? 64) eqn:E1.
    + inversion Hp; subst. exact Body.
    + destruct (x =? 92) eqn:E2; [|discriminate]. inversion Hp; subst. exact Body.
Qed.
