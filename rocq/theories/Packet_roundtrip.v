(** Round trips of whole packets through [encode_packet] and [decode_packet]. *)
From Coq Require Import List ZArith QArith Qround Bool Lia ZifyBool ZifyNat.
From Verif Require Import Py Common Sal Cal Packet Base Spec Common_facts Sal_facts Cal_facts
  Packet_facts.
Import ListNotations.
Open Scope Z_scope.
Ltac Zify.zify_post_hook ::= Z.div_mod_to_equations.

Lemma code_spec c : In c CONFIRMATION_CODES <-> is_code c.
Proof. unfold CONFIRMATION_CODES, is_code. cbn [In]. lia. Qed.

(** ** Frames *)

Definition known_type (dat : Z) : Prop := dat = DAT_PPM \/ dat = DAT_PM \/ dat = DAT_PP.
Lemma known_type_facts dat : known_type dat ->
  0 <= dat < 8 /\ destination_address_type dat = Ok dat.
Proof.
  unfold known_type, DAT_PPM, DAT_PM, DAT_PP. intros H. split; [lia|].
  destruct H as [->|[->| ->]]; reflexivity.
Qed.

Lemma flags_eq dat dp prio : known_type dat -> 0 <= prio <= 3 ->
  flags dat 0 dp prio = dat + (if dp then 32 else 0) + 64 * prio.
Proof.
  intros Hd Hp. destruct (known_type_facts dat Hd) as [Hr _].
  destruct (flags_facts dat 0 dp prio) as [_ [_ [_ [_ ->]]]].
  rewrite (Z.mod_small dat), (Z.mod_small prio) by lia. change (0 / 2 mod 2) with 0. lia.
Qed.

Lemma frame_from_pci ck dm_cal conf n dat dp prio s body : known_type dat -> 0 <= prio <= 3 ->
  decode_frame ck true dm_cal conf n (flags dat 0 dp prio) (flags dat 0 dp prio :: s :: body)
  = wtry (decode_payload ck true dm_cal conf (Some s) n dat prio dp body)
         (fun e => (PktInvalid body e, n)).
Proof.
  intros Hd Hp. destruct (known_type_facts dat Hd) as [Hr Hk].
  destruct (flags_facts dat 0 dp prio) as [_ [F1 [F2 [F3 _]]]].
  unfold decode_frame. rewrite F1, F2, F3. rewrite !Z.mod_small by lia. rewrite Hk. reflexivity.
Qed.
Lemma frame_to_pci ck dm_cal conf n dat dp prio body : known_type dat -> 0 <= prio <= 3 ->
  decode_frame ck false dm_cal conf n (flags dat 0 dp prio) (flags dat 0 dp prio :: body)
  = wtry (decode_payload ck false dm_cal conf None n dat prio dp body)
         (fun e => (PktInvalid body e, n)).
Proof.
  intros Hd Hp. destruct (known_type_facts dat Hd) as [Hr Hk].
  destruct (flags_facts dat 0 dp prio) as [_ [F1 [F2 [F3 _]]]].
  unfold decode_frame. rewrite F1, F2, F3. rewrite !Z.mod_small by lia. rewrite Hk. reflexivity.
Qed.

Definition wire (ck : bool) (raw : bytes) : bytes := b16encode (with_checksum ck raw).

Lemma wire_nonempty ck x l : exists c t, wire ck (x :: l) = c :: t.
Proof. unfold wire. apply b16_nonempty. destruct ck; discriminate. Qed.
Lemma wire_hex ck raw : is_bytes raw -> Forall hex_char (wire ck raw).
Proof. intros H. apply b16_hex. now apply with_checksum_bytes. Qed.

(** A base16 line from a PCI. *)
Lemma line_from_pci ck strict dat dp prio s body rest :
  known_type dat -> 0 <= prio <= 3 -> byte s -> is_bytes body ->
  let w := wire ck (flags dat 0 dp prio :: s :: body) in
  decode_packet (w ++ 13 :: 10 :: rest) ck strict true
  = lift_packet (wtry (decode_payload ck true false None (Some s) (length w + 2) dat prio dp body)
         (fun e => (PktInvalid body e, (length w + 2)%nat))).
Proof.
  intros Hd Hp Hs Hb w.
  assert (B : is_bytes (flags dat 0 dp prio :: s :: body)).
  { byte_list; try assumption. apply flags_facts. }
  assert (HH := wire_hex ck _ B). fold w in HH.
  destruct (wire_nonempty ck (flags dat 0 dp prio) (s :: body)) as [c [t E]]. fold w in E.
  assert (Hc : hex_char c) by (rewrite E in HH; now inversion HH).
  rewrite (decode_from_pci w rest ck strict c t E).
  - unfold w at 2. unfold wire. rewrite (decode_hex_ok _ _ _ _ _ _ _ _ _ B eq_refl).
    rewrite frame_from_pci by assumption. reflexivity.
  - now apply hex_no_cr.
  - unfold hex_char in Hc. lia.
  - unfold hex_char in Hc. lia.
  - rewrite code_spec. unfold is_code, hex_char in *. lia.
Qed.

(** A base16 line to a PCI. *)
Lemma line_to_pci prefix ck ck' dm_cal strict dat dp prio body code rest :
  prefix_mode prefix ck = Some (ck', dm_cal) ->
  known_type dat -> 0 <= prio <= 3 -> is_bytes body ->
  (match code with Some k => is_code k | None => True end) ->
  let w := wire ck' (flags dat 0 dp prio :: body) in
  let n := length (prefix ++ w ++ opt_code code ++ [13]) in
  decode_packet (prefix ++ w ++ opt_code code ++ 13 :: rest) ck strict false
  = lift_packet (wtry (decode_payload ck' false dm_cal code None n dat prio dp body)
         (fun e => (PktInvalid body e, n))).
Proof.
  intros Hpre Hd Hp Hb Hcode w n.
  assert (B : is_bytes (flags dat 0 dp prio :: body)).
  { byte_list; try assumption. apply flags_facts. }
  assert (HH := wire_hex ck' _ B). fold w in HH.
  destruct (wire_nonempty ck' (flags dat 0 dp prio) body) as [c [t E]]. fold w in E.
  assert (Hcode' : match code with Some k => In k CONFIRMATION_CODES | None => True end).
  { destruct code; [now apply code_spec|exact I]. }
  etransitivity; [exact (decode_to_pci prefix ck ck' dm_cal w code rest strict c t Hpre E HH Hcode')|].
  assert (N : (length prefix + length w + match code with Some _ => 2 | None => 1 end)%nat = n).
  { unfold n, opt_code. rewrite !app_length. destruct code; cbn [length]; lia. }
  rewrite N. unfold w at 1. unfold wire. rewrite (decode_hex_ok _ _ _ _ _ _ _ _ _ B eq_refl).
  rewrite frame_to_pci by assumption. reflexivity.
Qed.

(** ** Commands *)

Lemma command_application a s s' : command_received a s s' ->
  sal_application s = a /\ sal_application s' = a.
Proof.
  intros H. destruct H as [s s' Hv Hr|s Hv|s s' Hv Hr|s Hv|s Hv].
  - destruct Hr; split; reflexivity.
  - destruct s as [| | | |[]| | | |]; try contradiction; split; reflexivity.
  - destruct Hr; split; reflexivity.
  - destruct s; try contradiction; split; reflexivity.
  - destruct s; try contradiction; split; reflexivity.
Qed.

Definition app_handler (a : Z) : app_class :=
  if a =? 0x38 then AppLighting else if a =? 0xdf then AppClock
  else if a =? 0x19 then AppTemperature else if a =? 0xcb then AppEnable else AppStatusRequest.
Lemma app_handler_spec a : application_id a ->
  get_application a = Ok (app_handler a) /\ is_application a = true /\ byte a.
Proof.
  unfold application_id, byte. intros H. split; [|split; [|lia]];
    repeat (destruct H as [->|H]; [reflexivity|]); subst; reflexivity.
Qed.

Lemma command_step a s s' : command_received a s s' ->
  exists b, sal_encode s = Ok b /\ is_bytes b /\ forall rest,
    app_decode_sals (app_handler a) (b ++ rest)
    = wmap (cons s') (app_decode_sals (app_handler a) rest).
Proof.
  intros H. destruct H as [s s' Hv Hr|s Hv|s s' Hv Hr|s Hv|s Hv].
  - exact (light_step s s' Hv Hr).
  - exact (clock_step s Hv).
  - exact (temp_step s s' Hv Hr).
  - exact (enable_step s Hv).
  - exact (status_step s Hv).
Qed.

Lemma commands_roundtrip a cmds cmds' : Forall2 (command_received a) cmds cmds' ->
  exists b, concat_res sal_encode cmds = Ok b /\ is_bytes b
    /\ app_decode_sals (app_handler a) b = ([], Ok cmds')
    /\ Forall (fun s => sal_application s = a) cmds
    /\ Forall (fun s => sal_application s = a) cmds'.
Proof.
  intros H. induction H as [|s s' l l' Hs Hl IH].
  - exists []. repeat split; try constructor.
    unfold app_handler. repeat (destruct (_ =? _); [reflexivity|]). reflexivity.
  - destruct IH as [b [E [B [D [A A']]]]]. destruct (command_step a s s' Hs) as [x [Ex [Bx Dx]]].
    destruct (command_application a s s' Hs) as [S S'].
    exists (x ++ b). cbn [concat_res]. rewrite Ex, E. cbn [rbind]. split; [reflexivity|].
    split; [apply is_bytes_app; auto|]. split; [rewrite Dx, D; reflexivity|].
    split; constructor; assumption.
Qed.

Lemma append_sals_same a l acc : Forall (fun s => sal_application s = a) l ->
  append_sals (Some a, acc) l = Ok (Some a, acc ++ l).
Proof.
  intros H. revert acc. induction H as [|s l Hs Hl IH]; intros acc; cbn [append_sals].
  - now rewrite app_nil_r.
  - unfold append_sal. cbn [fst snd]. rewrite Hs, Z.eqb_refl. cbn [rbind]. rewrite IH.
    now rewrite <- app_assoc.
Qed.

Lemma pm_decode_commands a b cmds' ck prio : application_id a ->
  app_decode_sals (app_handler a) b = ([], Ok cmds') ->
  Forall (fun s => sal_application s = a) cmds' ->
  pm_decode (a :: 0 :: b) ck prio
  = ([], Ok (PktPM (mkHdr ck prio None None) (Some a) cmds')).
Proof.
  intros Ha D A. destruct (app_handler_spec a Ha) as [G [I _]].
  unfold pm_decode. cbn [py_index nth_error rbind]. unfold application_enum. rewrite I.
  rewrite !wbind_lift_ok. cbn [Z.eqb negb]. rewrite G, wbind_lift_ok. cbn [skipn]. rewrite D.
  unfold wbind. unfold new_pm. rewrite append_sals_same by exact A. reflexivity.
Qed.

Lemma pm_encode_commands h a cmds b : byte a -> concat_res sal_encode cmds = Ok b ->
  pm_encode h (Some a) cmds = Ok (with_checksum (h_checksum h)
    (flags DAT_PM 0 false (h_priority h)
     :: match h_source h with Some s => [s mod 256] | None => [] end ++ a :: 0 :: b)).
Proof.
  unfold byte. intros Ha E. unfold pm_encode. replace (_ || _) with false by lia.
  rewrite E. cbn [rbind]. rewrite header_bytes. reflexivity.
Qed.

(** C15 *)
Lemma pm_from_pci ck strict prio src a cmds cmds' rest :
  application_id a -> Forall2 (command_received a) cmds cmds' ->
  0 <= prio <= 3 -> byte src ->
  exists w, encode_packet (PktPM (mkHdr ck prio (Some src) None) (Some a) cmds) = Ok w
    /\ decode_packet (w ++ [13; 10] ++ rest) ck strict true
       = ([], Ok (Some (PktPM (mkHdr ck prio (if src =? 0 then None else Some src) None)
                          (Some a) cmds'), (length w + 2)%nat)).
Proof.
  intros Ha Hc Hp Hs. destruct (commands_roundtrip a cmds cmds' Hc) as [b [E [B [D [A A']]]]].
  destruct (app_handler_spec a Ha) as [_ [_ Hba]].
  cbn [encode_packet]. rewrite (pm_encode_commands _ a cmds b Hba E).
  cbn [rbind h_source h_priority h_checksum]. rewrite mod_of_byte by exact Hs.
  eexists. split; [reflexivity|].
  cbn [app]. change (b16encode (with_checksum ck (flags DAT_PM 0 false prio :: src :: a :: 0 :: b)))
    with (wire ck (flags DAT_PM 0 false prio :: src :: a :: 0 :: b)).
  rewrite line_from_pci; [|right; left; reflexivity|exact Hp|exact Hs|].
  - unfold decode_payload. cbn [DAT_PM DAT_PP Z.eqb Pos.eqb].
    rewrite (pm_decode_commands a b cmds' ck prio Ha D A'). cbn [wmap wtry lift_packet set_attrs].
    unfold set_hdr. cbn [negb h_checksum h_priority]. destruct (src =? 0); reflexivity.
  - byte_list; try assumption. unfold byte; lia.
Qed.

(** C16 *)
Lemma pm_to_pci ck strict prio a cmds cmds' code rest :
  application_id a -> Forall2 (command_received a) cmds cmds' ->
  0 <= prio <= 3 -> (match code with Some k => is_code k | None => True end) ->
  exists w, encode_packet (PktPM (mkHdr ck prio None code) (Some a) cmds) = Ok w
    /\ decode_packet ([92] ++ w ++ opt_code code ++ [13] ++ rest) ck strict false
       = ([], Ok (Some (PktPM (mkHdr ck prio None code) (Some a) cmds'),
                  length ([92] ++ w ++ opt_code code ++ [13]))).
Proof.
  intros Ha Hc Hp Hcode. destruct (commands_roundtrip a cmds cmds' Hc) as [b [E [B [D [A A']]]]].
  destruct (app_handler_spec a Ha) as [_ [_ Hba]].
  cbn [encode_packet]. rewrite (pm_encode_commands _ a cmds b Hba E).
  cbn [rbind h_source h_priority h_checksum app].
  eexists. split; [reflexivity|].
  change (b16encode (with_checksum ck (flags DAT_PM 0 false prio :: a :: 0 :: b)))
    with (wire ck (flags DAT_PM 0 false prio :: a :: 0 :: b)).
  assert (L := line_to_pci [92] ck ck false strict DAT_PM false prio (a :: 0 :: b) code rest eq_refl).
  cbn [app] in L. rewrite L; [|right; left; reflexivity|exact Hp| |exact Hcode].
  - unfold decode_payload. cbn [DAT_PM DAT_PP Z.eqb Pos.eqb].
    rewrite (pm_decode_commands a b cmds' ck prio Ha D A'). cbn [wmap wtry lift_packet set_attrs].
    unfold set_hdr. cbn [negb h_checksum h_priority]. reflexivity.
  - byte_list; try assumption. unfold byte; lia.
Qed.

(** C17 *)
Lemma dm_from_pci ck strict prio src p v rest :
  0 <= prio <= 3 -> byte src ->
  exists w, encode_packet (PktDM (mkHdr ck prio (Some src) None) p v) = Ok w
    /\ decode_packet (w ++ [13; 10] ++ rest) ck strict true
       = ([], Ok (Some (PktDM (mkHdr ck prio (if src =? 0 then None else Some src) None)
                          (p mod 256) (v mod 256)), (length w + 2)%nat)).
Proof.
  intros Hp Hs. cbn [encode_packet]. rewrite dm_encode_eq.
  cbn [rbind h_source h_priority h_checksum app]. rewrite mod_of_byte by exact Hs.
  eexists. split; [reflexivity|].
  fold (wire ck (flags DAT_PPM 0 true prio :: src :: [p mod 256; 0; v mod 256])).
  rewrite line_from_pci; [|left; reflexivity|exact Hp|exact Hs|].
  - unfold decode_payload, dm_decode. cbn [py_index nth_error rbind Z.eqb negb length Nat.eqb wlift wmap wtry lift_packet set_attrs].
    unfold set_hdr. cbn [negb h_checksum h_priority]. destruct (src =? 0); reflexivity.
  - byte_list; try apply byte_mod. unfold byte; lia.
Qed.

Lemma dm_to_pci prefix ck ck' dm_cal strict prio p v code rest :
  prefix_mode prefix ck = Some (ck', dm_cal) ->
  0 <= prio <= 3 -> (match code with Some k => is_code k | None => True end) ->
  exists w, encode_packet (PktDM (mkHdr ck' prio None code) p v) = Ok w
    /\ decode_packet (prefix ++ w ++ opt_code code ++ [13] ++ rest) ck strict false
       = ([], Ok (Some (PktDM (mkHdr ck' prio None code) (p mod 256) (v mod 256)),
                  length (prefix ++ w ++ opt_code code ++ [13]))).
Proof.
  intros Hpre Hp Hcode. cbn [encode_packet]. rewrite dm_encode_eq.
  cbn [rbind h_source h_priority h_checksum app].
  eexists. split; [reflexivity|].
  fold (wire ck' (flags DAT_PPM 0 true prio :: [p mod 256; 0; v mod 256])).
  rewrite (line_to_pci prefix ck ck' dm_cal); [|exact Hpre|left; reflexivity|exact Hp| |exact Hcode].
  - unfold decode_payload, dm_decode. cbn [py_index nth_error rbind Z.eqb negb length Nat.eqb wlift wmap wtry lift_packet set_attrs].
    unfold set_hdr. cbn [negb h_checksum h_priority]. reflexivity.
  - byte_list; try apply byte_mod. unfold byte; lia.
Qed.

(** Payloads that are not parameter, 0, value. *)
Lemma dm_decode_bad body ck prio : (forall p v, body <> [p; 0; v]) ->
  exists e, dm_decode body ck prio = Raise e /\ (e = IndexError \/ e = ValueError).
Proof.
  intros H. unfold dm_decode. destruct body as [|p [|z [|v [|x body]]]];
    cbn [py_index nth_error rbind length Nat.eqb]; [eauto|eauto| | |];
    destruct (z =? 0) eqn:Z0; cbn [negb]; eauto.
  exfalso. apply (H p v). repeat f_equal. lia.
Qed.

Lemma dm_bad_from_pci ck strict dat prio src body rest : known_type dat ->
  0 <= prio <= 3 -> byte src -> is_bytes body -> (forall p v, body <> [p; 0; v]) ->
  exists e : exn,
    let w := b16encode (with_checksum ck ((dat + 32 + 64 * prio) :: src :: body)) in
    decode_packet (w ++ [13; 10] ++ rest) ck strict true
    = ([], Ok (Some (PktInvalid body e), (length w + 2)%nat)).
Proof.
  intros Hd Hp Hs Hb Hbad. destruct (dm_decode_bad body ck prio Hbad) as [e [E _]]. exists e.
  replace (dat + 32 + 64 * prio) with (flags dat 0 true prio).
  - cbv zeta. fold (wire ck (flags dat 0 true prio :: src :: body)).
    cbn [app]. rewrite line_from_pci by assumption.
    unfold decode_payload. rewrite E. reflexivity.
  - now rewrite flags_eq.
Qed.

Lemma dm_bad_to_pci prefix ck ck' dm_cal strict dat prio body code rest :
  prefix_mode prefix ck = Some (ck', dm_cal) -> known_type dat ->
  0 <= prio <= 3 -> is_bytes body -> (forall p v, body <> [p; 0; v]) ->
  (match code with Some k => is_code k | None => True end) ->
  exists e,
    let w := b16encode (with_checksum ck' ((dat + 32 + 64 * prio) :: body)) in
    decode_packet (prefix ++ w ++ opt_code code ++ [13] ++ rest) ck strict false
    = ([], Ok (Some (PktInvalid body e), length (prefix ++ w ++ opt_code code ++ [13]))).
Proof.
  intros Hpre Hd Hp Hb Hbad Hcode. destruct (dm_decode_bad body ck' prio Hbad) as [e [E _]]. exists e.
  replace (dat + 32 + 64 * prio) with (flags dat 0 true prio).
  - cbv zeta. fold (wire ck' (flags dat 0 true prio :: body)).
    cbn [app]. rewrite (line_to_pci prefix ck ck' dm_cal) by assumption.
    unfold decode_payload. rewrite E. reflexivity.
  - now rewrite flags_eq.
Qed.

(** C18 *)
Lemma pp_decode_cals u b cals' ck prio : decode_cals b = Ok cals' ->
  pp_decode (u :: 0 :: b) ck prio = Ok (PktPP (mkHdr ck prio None None) u None cals').
Proof. intros D. unfold pp_decode. cbn [py_index nth_error rbind Z.eqb skipn]. rewrite D. reflexivity. Qed.

Lemma pp_encode_cals h u cals b : byte u -> concat_res cal_encode cals = Ok b ->
  pp_encode h u None cals = Ok (with_checksum (h_checksum h)
    (flags DAT_PP 0 false (h_priority h)
     :: match h_source h with Some s => [s mod 256] | None => [] end ++ u :: 0 :: b)).
Proof.
  intros Hu E. unfold pp_encode. rewrite mk_bytes_ok by (byte_list; [exact Hu|unfold byte; lia]).
  cbn [rbind]. rewrite E. cbn [rbind]. rewrite header_bytes. reflexivity.
Qed.

Lemma pp_from_pci ck strict prio src u cals cals' rest :
  Forall valid_cal cals -> Forall2 cal_received cals cals' ->
  0 <= prio <= 3 -> byte src -> byte u ->
  exists w, encode_packet (PktPP (mkHdr ck prio (Some src) None) u None cals) = Ok w
    /\ decode_packet (w ++ [13; 10] ++ rest) ck strict true
       = ([], Ok (Some (PktPP (mkHdr ck prio (if src =? 0 then None else Some src) None)
                          u None cals'), (length w + 2)%nat)).
Proof.
  intros Hv Hr Hp Hs Hu. destruct (cals_roundtrip cals cals' Hv Hr) as [b [E [B D]]].
  cbn [encode_packet]. rewrite (pp_encode_cals _ u cals b Hu E).
  cbn [rbind h_source h_priority h_checksum app]. rewrite mod_of_byte by exact Hs.
  eexists. split; [reflexivity|].
  fold (wire ck (flags DAT_PP 0 false prio :: src :: u :: 0 :: b)).
  rewrite line_from_pci; [|right; right; reflexivity|exact Hp|exact Hs|].
  - unfold decode_payload. cbn [DAT_PM DAT_PP Z.eqb Pos.eqb].
    rewrite (pp_decode_cals u b cals' ck prio D). cbn [wlift wmap wtry lift_packet set_attrs].
    unfold set_hdr. cbn [negb h_checksum h_priority]. destruct (src =? 0); reflexivity.
  - byte_list; try assumption. unfold byte; lia.
Qed.

Lemma pp_to_pci ck strict prio u cals cals' code rest :
  Forall valid_cal cals -> Forall2 cal_received cals cals' ->
  0 <= prio <= 3 -> byte u -> (match code with Some k => is_code k | None => True end) ->
  exists w, encode_packet (PktPP (mkHdr ck prio None code) u None cals) = Ok w
    /\ decode_packet ([92] ++ w ++ opt_code code ++ [13] ++ rest) ck strict false
       = ([], Ok (Some (PktPP (mkHdr ck prio None code) u None cals'),
                  length ([92] ++ w ++ opt_code code ++ [13]))).
Proof.
  intros Hv Hr Hp Hu Hcode. destruct (cals_roundtrip cals cals' Hv Hr) as [b [E [B D]]].
  cbn [encode_packet]. rewrite (pp_encode_cals _ u cals b Hu E).
  cbn [rbind h_source h_priority h_checksum app].
  eexists. split; [reflexivity|].
  fold (wire ck (flags DAT_PP 0 false prio :: u :: 0 :: b)).
  assert (L := line_to_pci [92] ck ck false strict DAT_PP false prio (u :: 0 :: b) code rest eq_refl).
  cbn [app] in L. rewrite L; [|right; right; reflexivity|exact Hp| |exact Hcode].
  - unfold decode_payload. cbn [DAT_PM DAT_PP Z.eqb Pos.eqb].
    rewrite (pp_decode_cals u b cals' ck prio D). cbn [wlift wmap wtry lift_packet set_attrs].
    unfold set_hdr. cbn [negb h_checksum h_priority]. reflexivity.
  - byte_list; try assumption. unfold byte; lia.
Qed.

Lemma take_hops_app hops rest : take_hops (length hops) (hops ++ rest) = Ok (hops, rest).
Proof. induction hops as [|x l IH]; [reflexivity|]. cbn [length app take_hops]. now rewrite IH. Qed.

Lemma bridge_length_spec n : (n <= 5)%nat -> bridge_length (9 * (Z.of_nat n + 1)) = Ok n.
Proof. intros H. do 6 (destruct n as [|n]; [reflexivity|]). lia. Qed.

Lemma pp_decode_bridged ck prio bridge hops u b cals' : (length hops <= 5)%nat ->
  decode_cals b = Ok cals' ->
  pp_decode (bridge :: 9 * (Z.of_nat (length hops) + 1) :: hops ++ u :: b) ck prio
  = if bridge <=? 0 then Raise ValueError
    else Ok (PktPP (mkHdr ck prio None None) u (Some hops) cals').
Proof.
  intros Hl D. unfold pp_decode. cbn [py_index nth_error rbind skipn].
  replace (9 * (Z.of_nat (length hops) + 1) =? 0) with false by lia.
  rewrite bridge_length_spec by exact Hl. cbn [rbind]. rewrite take_hops_app. cbn [rbind nth_error skipn].
  rewrite D. cbn [rbind new_pp]. reflexivity.
Qed.

Lemma pp_bridged_from_pci ck strict prio src bridge hops u cals cals' rest :
  (length hops <= 5)%nat -> is_bytes hops -> byte bridge -> byte u ->
  Forall valid_cal cals -> Forall2 cal_received cals cals' ->
  0 <= prio <= 3 -> byte src ->
  exists b, concat_res cal_encode cals = Ok b /\
    let body := bridge :: 9 * (Z.of_nat (length hops) + 1) :: hops ++ u :: b in
    let w := b16encode (with_checksum ck ((6 + 64 * prio) :: src :: body)) in
    decode_packet (w ++ [13; 10] ++ rest) ck strict true
    = ([], Ok (Some (if bridge =? 0 then PktInvalid body ValueError
                     else PktPP (mkHdr ck prio (if src =? 0 then None else Some src) None)
                            u (Some hops) cals'), (length w + 2)%nat)).
Proof.
  intros Hl Hh Hbr Hu Hv Hr Hp Hs. destruct (cals_roundtrip cals cals' Hv Hr) as [b [E [B D]]].
  exists b. split; [exact E|]. cbv zeta.
  replace (6 + 64 * prio) with (flags DAT_PP 0 false prio).
  - fold (wire ck (flags DAT_PP 0 false prio :: src :: bridge :: 9 * (Z.of_nat (length hops) + 1) :: hops ++ u :: b)).
    cbn [app]. rewrite line_from_pci; [|right; right; reflexivity|exact Hp|exact Hs|].
    + unfold decode_payload. cbn [DAT_PM DAT_PP Z.eqb Pos.eqb].
      rewrite (pp_decode_bridged ck prio bridge hops u b cals' Hl D).
      unfold byte in Hbr. destruct (bridge =? 0) eqn:B0.
      * replace (bridge <=? 0) with true by lia. reflexivity.
      * replace (bridge <=? 0) with false by lia. cbn [wlift wmap wtry lift_packet set_attrs].
        unfold set_hdr. cbn [negb h_checksum h_priority]. destruct (src =? 0); reflexivity.
    + byte_list; try assumption. unfold byte; lia.
  - rewrite flags_eq; [unfold DAT_PP; lia|right; right; reflexivity|exact Hp].
Qed.
