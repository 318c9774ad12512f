(** Properties C03 (packets), C15-C23, C45, C46 and C50: packets and the line
    protocol. *)
From Coq Require Import List ZArith Bool Lia.
From Verif Require Import Py Common Sal Cal Packet Base Spec Common_facts Sal_facts Cal_facts
  Packet_facts Packet_roundtrip Packet_decode Packet_total.
Import ListNotations.
Open Scope Z_scope.

(** C03 *)
Theorem C03_encode_packet : forall p w, hex_packet p -> encode_packet p = Ok w ->
  exists raw, raw_encode p = Some (Ok raw) /\ Forall hex_char w
    /\ length w = (2 * length raw)%nat /\ b16decode w = Ok raw
    /\ ~ In 13 w /\ ~ In 10 w /\ (forall c, is_code c -> ~ In c w).
Proof.
  intros p w H E. destruct (hex_packet_raw p w H E) as [raw [R [B [N [F [L [D _]]]]]]].
  exists raw. repeat split; try assumption; try intros c C; intros I; apply (in_hex _ w F) in I;
    unfold hex_char, is_code in *; lia.
Qed.
Print Assumptions C03_encode_packet.

(** C15 *)
Theorem C15_pm_from_pci : forall checksum strict prio src a cmds cmds' rest,
  application_id a -> Forall2 (command_received a) cmds cmds' ->
  0 <= prio <= 3 -> byte src ->
  exists w, encode_packet (PktPM (mkHdr checksum prio (Some src) None) (Some a) cmds) = Ok w
    /\ decode_packet (w ++ [13; 10] ++ rest) checksum strict true
       = ([], Ok (Some (PktPM (mkHdr checksum prio (if src =? 0 then None else Some src) None)
                          (Some a) cmds'), (length w + 2)%nat)).
Proof. exact pm_from_pci. Qed.
Print Assumptions C15_pm_from_pci.

Theorem C15_source_zero_refuted :
  ~ (forall src cmds cmds' rest, Forall2 (command_received 0x38) cmds cmds' -> byte src ->
     exists w, encode_packet (PktPM (mkHdr true 0 (Some src) None) (Some 0x38) cmds) = Ok w
     /\ exists n, decode_packet (w ++ [13; 10] ++ rest) true true true
        = ([], Ok (Some (PktPM (mkHdr true 0 (Some src) None) (Some 0x38) cmds'), n))).
Proof.
  intros H. destruct (H 0 [LightOn 1] [LightOn 1] []) as [w [E [n D]]].
  - constructor; [|constructor]. apply recv_lighting; [cbn; lia|constructor].
  - unfold byte. lia.
  - vm_compute in E. apply Ok_inj in E. subst w. vm_compute in D. discriminate.
Qed.
Print Assumptions C15_source_zero_refuted.

Example C15_case :
  Forall2 (command_received 0x38) [LightOn 3; LightRamp 7 5 (PInt 100)] [LightOn 3; LightRamp 7 8 (PInt 100)]
  /\ encode_packet (PktPM (mkHdr true 1 (Some 16) None) (Some 0x38) [LightOn 3; LightRamp 7 5 (PInt 100)])
     = Ok [52;53;49;48;51;56;48;48;55;57;48;51;49;50;48;55;54;52;55;65]
  /\ decode_packet ([52;53;49;48;51;56;48;48;55;57;48;51;49;50;48;55;54;52;55;65] ++ [13; 10] ++ [42])
       true true true
     = ([], Ok (Some (PktPM (mkHdr true 1 (Some 16) None) (Some 0x38)
                        [LightOn 3; LightRamp 7 8 (PInt 100)]), 22%nat)).
Proof.
  split; [|vm_compute; auto].
  constructor; [|constructor; [|constructor]].
  - apply recv_lighting; [cbn; lia|constructor].
  - apply recv_lighting; [cbn; repeat split; lia|]. constructor.
    unfold rounds_to, ramp_seconds. cbn [In]. split; [lia|]. left. split; [lia|]. intros. lia.
Qed.

(** C16 *)
Theorem C16_pm_to_pci : forall checksum strict prio a cmds cmds' code rest,
  application_id a -> Forall2 (command_received a) cmds cmds' ->
  0 <= prio <= 3 -> (match code with Some k => is_code k | None => True end) ->
  exists w, encode_packet (PktPM (mkHdr checksum prio None code) (Some a) cmds) = Ok w
    /\ decode_packet ([92] ++ w ++ opt_code code ++ [13] ++ rest) checksum strict false
       = ([], Ok (Some (PktPM (mkHdr checksum prio None code) (Some a) cmds'),
                  length ([92] ++ w ++ opt_code code ++ [13]))).
Proof. exact pm_to_pci. Qed.
Print Assumptions C16_pm_to_pci.

Example C16_case :
  encode_packet (PktPM (mkHdr true 0 None (Some 103)) (Some 0xdf) [ClockUpdate (CDate 2024 2 29)])
  = Ok [48;53;68;70;48;48;48;69;48;50;48;55;69;56;48;50;49;68;48;51;70;66]
  /\ decode_packet ([92] ++ [48;53;68;70;48;48;48;69;48;50;48;55;69;56;48;50;49;68;48;51;70;66]
       ++ [103; 13; 63]) true true false
     = ([], Ok (Some (PktPM (mkHdr true 0 None (Some 103)) (Some 0xdf)
                        [ClockUpdate (CDate 2024 2 29)]), 25%nat)).
Proof. vm_compute. auto. Qed.

(** C17 *)
Theorem C17_dm_from_pci : forall checksum strict prio src p v rest,
  0 <= prio <= 3 -> byte src ->
  exists w, encode_packet (PktDM (mkHdr checksum prio (Some src) None) p v) = Ok w
    /\ decode_packet (w ++ [13; 10] ++ rest) checksum strict true
       = ([], Ok (Some (PktDM (mkHdr checksum prio (if src =? 0 then None else Some src) None)
                          (p mod 256) (v mod 256)), (length w + 2)%nat)).
Proof. exact dm_from_pci. Qed.
Print Assumptions C17_dm_from_pci.

(** [prefix] is nothing, '@' (which switches the checksum off) or a backslash. *)
Theorem C17_dm_to_pci : forall prefix checksum strict prio p v code rest,
  In prefix [[]; [64]; [92]] ->
  0 <= prio <= 3 -> (match code with Some k => is_code k | None => True end) ->
  let checksum' := prefix_checksum prefix checksum in
  exists w, encode_packet (PktDM (mkHdr checksum' prio None code) p v) = Ok w
    /\ decode_packet (prefix ++ w ++ opt_code code ++ [13] ++ rest) checksum strict false
       = ([], Ok (Some (PktDM (mkHdr checksum' prio None code) (p mod 256) (v mod 256)),
                  length (prefix ++ w ++ opt_code code ++ [13]))).
Proof.
  intros prefix ck strict prio p v code rest Hp. 
  assert (M : exists dm, prefix_mode prefix ck = Some (prefix_checksum prefix ck, dm)).
  { cbn [In] in Hp. destruct Hp as [<-|[<-|[<-|[]]]]; cbn; eauto. }
  destruct M as [dm M]. exact (fun H1 H2 => dm_to_pci _ _ _ _ strict prio p v code rest M H1 H2).
Qed.
Print Assumptions C17_dm_to_pci.

Theorem C17_malformed_from_pci : forall checksum strict dat prio src body rest,
  dat = 3 \/ dat = 5 \/ dat = 6 ->
  0 <= prio <= 3 -> byte src -> is_bytes body -> (forall p v, body <> [p; 0; v]) ->
  exists e : exn,
    let w := b16encode (with_checksum checksum ((dat + 32 + 64 * prio) :: src :: body)) in
    decode_packet (w ++ [13; 10] ++ rest) checksum strict true
    = ([], Ok (Some (PktInvalid body e), (length w + 2)%nat)).
Proof. exact dm_bad_from_pci. Qed.
Print Assumptions C17_malformed_from_pci.

Theorem C17_malformed_to_pci : forall prefix checksum strict dat prio body code rest,
  In prefix [[]; [64]; [92]] -> dat = 3 \/ dat = 5 \/ dat = 6 ->
  0 <= prio <= 3 -> is_bytes body -> (forall p v, body <> [p; 0; v]) ->
  (match code with Some k => is_code k | None => True end) ->
  exists e : exn,
    let w := b16encode (with_checksum (prefix_checksum prefix checksum) ((dat + 32 + 64 * prio) :: body)) in
    decode_packet (prefix ++ w ++ opt_code code ++ [13] ++ rest) checksum strict false
    = ([], Ok (Some (PktInvalid body e), length (prefix ++ w ++ opt_code code ++ [13]))).
Proof.
  intros prefix ck strict dat prio body code rest Hp. 
  assert (M : exists dm, prefix_mode prefix ck = Some (prefix_checksum prefix ck, dm)).
  { cbn [In] in Hp. destruct Hp as [<-|[<-|[<-|[]]]]; cbn; eauto. }
  destruct M as [dm M].
  exact (fun Hd H1 H2 H3 H4 => dm_bad_to_pci _ _ _ _ strict dat prio body code rest M Hd H1 H2 H3 H4).
Qed.
Print Assumptions C17_malformed_to_pci.

Example C17_case :
  encode_packet (PktDM (mkHdr false 0 None None) 0x21 0xff) = Ok [50;51;50;49;48;48;70;70]
  /\ decode_packet ([64] ++ [50;51;50;49;48;48;70;70] ++ [13; 65]) true true false
     = ([], Ok (Some (PktDM (mkHdr false 0 None None) 0x21 0xff), 10%nat))
  /\ decode_packet ([64] ++ [50;51;50;49;48;49;70;70] ++ [13; 65]) true true false
     = ([], Ok (Some (PktInvalid [0x21; 1; 0xff] ValueError), 10%nat)).
Proof. vm_compute. auto. Qed.

(** C18 *)
Theorem C18_pp_from_pci : forall checksum strict prio src u cals cals' rest,
  Forall valid_cal cals -> Forall2 cal_received cals cals' ->
  0 <= prio <= 3 -> byte src -> byte u ->
  exists w, encode_packet (PktPP (mkHdr checksum prio (Some src) None) u None cals) = Ok w
    /\ decode_packet (w ++ [13; 10] ++ rest) checksum strict true
       = ([], Ok (Some (PktPP (mkHdr checksum prio (if src =? 0 then None else Some src) None)
                          u None cals'), (length w + 2)%nat)).
Proof. exact pp_from_pci. Qed.
Print Assumptions C18_pp_from_pci.

Theorem C18_pp_to_pci : forall checksum strict prio u cals cals' code rest,
  Forall valid_cal cals -> Forall2 cal_received cals cals' ->
  0 <= prio <= 3 -> byte u -> (match code with Some k => is_code k | None => True end) ->
  exists w, encode_packet (PktPP (mkHdr checksum prio None code) u None cals) = Ok w
    /\ decode_packet ([92] ++ w ++ opt_code code ++ [13] ++ rest) checksum strict false
       = ([], Ok (Some (PktPP (mkHdr checksum prio None code) u None cals'),
                  length ([92] ++ w ++ opt_code code ++ [13]))).
Proof. exact pp_to_pci. Qed.
Print Assumptions C18_pp_to_pci.

Theorem C18_bridged_encode : forall h u hops cals,
  encode_packet (PktPP h u (Some hops) cals) = Raise NotImplementedError.
Proof. reflexivity. Qed.
Print Assumptions C18_bridged_encode.

(** A bridged packet as it comes from the network: bridge address, route byte
    9 * (hops + 1), hops, unit address, CALs. *)
Theorem C18_bridged_decode : forall checksum strict prio src bridge hops u cals cals' rest,
  (length hops <= 5)%nat -> is_bytes hops -> byte bridge -> byte u ->
  Forall valid_cal cals -> Forall2 cal_received cals cals' ->
  0 <= prio <= 3 -> byte src ->
  exists b, concat_res cal_encode cals = Ok b /\
    let body := bridge :: 9 * (Z.of_nat (length hops) + 1) :: hops ++ u :: b in
    let w := b16encode (with_checksum checksum ((6 + 64 * prio) :: src :: body)) in
    decode_packet (w ++ [13; 10] ++ rest) checksum strict true
    = ([], Ok (Some (if bridge =? 0 then PktInvalid body ValueError
                     else PktPP (mkHdr checksum prio (if src =? 0 then None else Some src) None)
                            u (Some hops) cals'), (length w + 2)%nat)).
Proof. exact pp_bridged_from_pci. Qed.
Print Assumptions C18_bridged_decode.

Theorem C18_bridged_to_pci : forall checksum strict prio bridge hops u cals cals' code rest,
  (length hops <= 5)%nat -> is_bytes hops -> byte bridge -> byte u ->
  Forall valid_cal cals -> Forall2 cal_received cals cals' ->
  0 <= prio <= 3 -> (match code with Some k => is_code k | None => True end) ->
  exists b, concat_res cal_encode cals = Ok b /\
    let body := bridge :: 9 * (Z.of_nat (length hops) + 1) :: hops ++ u :: b in
    let line := [92] ++ b16encode (with_checksum checksum ((6 + 64 * prio) :: body)) ++ opt_code code ++ [13] in
    decode_packet (line ++ rest) checksum strict false
    = ([], Ok (Some (if bridge =? 0 then PktInvalid body ValueError
                     else PktPP (mkHdr checksum prio None code) u (Some hops) cals'), length line)).
Proof.
  intros ck strict prio bridge hops u cals cals' code rest Hl Hh Hbr Hu Hv Hr Hp Hcode.
  destruct (cals_roundtrip cals cals' Hv Hr) as [b [E [B D]]]. exists b. split; [exact E|]. cbv zeta.
  replace (6 + 64 * prio) with (flags DAT_PP 0 false prio)
    by (rewrite flags_eq; [unfold DAT_PP; lia|right; right; reflexivity|exact Hp]).
  set (body := bridge :: 9 * (Z.of_nat (length hops) + 1) :: hops ++ u :: b).
  fold (wire ck (flags DAT_PP 0 false prio :: body)).
  assert (L := line_to_pci [92] ck ck false strict DAT_PP false prio body code rest eq_refl). cbv zeta in L.
  replace (([92] ++ wire ck (flags DAT_PP 0 false prio :: body) ++ opt_code code ++ [13]) ++ rest)
    with ([92] ++ wire ck (flags DAT_PP 0 false prio :: body) ++ opt_code code ++ 13 :: rest) by (rewrite <- !app_assoc; reflexivity).
  rewrite L; [|right; right; reflexivity|exact Hp|unfold body; byte_list; try assumption; unfold byte; lia|exact Hcode].
  unfold decode_payload. cbn [DAT_PM DAT_PP Z.eqb Pos.eqb].
  pose proof (pp_decode_bridged ck prio bridge hops u b cals' Hl D) as P. fold body in P. rewrite P. unfold byte in Hbr. destruct (bridge =? 0) eqn:B0.
  - replace (bridge <=? 0) with true by lia. reflexivity.
  - replace (bridge <=? 0) with false by lia. cbn [wlift wmap wtry lift_packet set_attrs].
    unfold set_hdr. cbn [negb h_checksum h_priority]. reflexivity.
Qed.
Print Assumptions C18_bridged_to_pci.
(** A second byte that is neither 0 nor one of the route bytes makes the packet
    invalid, whatever follows. *)
Theorem C18_no_route : forall checksum strict prio src first route body rest,
  route <> 0 -> ~ In route [9; 18; 27; 36; 45; 54] ->
  is_bytes (first :: route :: body) -> 0 <= prio <= 3 -> byte src ->
  let w := b16encode (with_checksum checksum ((6 + 64 * prio) :: src :: first :: route :: body)) in
  decode_packet (w ++ [13; 10] ++ rest) checksum strict true
  = ([], Ok (Some (PktInvalid (first :: route :: body) KeyError), (length w + 2)%nat)).
Proof.
  intros ck strict prio src first route body rest R0 R Hb Hp Hs w.
  unfold w. replace (6 + 64 * prio) with (flags DAT_PP 0 false prio)
    by (rewrite flags_eq; [unfold DAT_PP; lia|right; right; reflexivity|exact Hp]).
  fold (wire ck (flags DAT_PP 0 false prio :: src :: first :: route :: body)).
  cbn [app]. rewrite line_from_pci; [|right; right; reflexivity|exact Hp|exact Hs|exact Hb].
  unfold decode_payload. cbn [DAT_PM DAT_PP Z.eqb Pos.eqb]. unfold pp_decode. cbn [py_index nth_error rbind].
  replace (route =? 0) with false by lia. cbn [In] in R. unfold bridge_length.
  repeat (match goal with |- context [route =? ?n] => replace (route =? n) with false by lia end). reflexivity.
Qed.
Print Assumptions C18_no_route.
(** The same on the way to a PCI. *)
Theorem C18_no_route_to_pci : forall checksum strict prio first route body code rest,
  route <> 0 -> ~ In route [9; 18; 27; 36; 45; 54] ->
  is_bytes (first :: route :: body) -> 0 <= prio <= 3 ->
  (match code with Some k => is_code k | None => True end) ->
  let line := [92] ++ b16encode (with_checksum checksum ((6 + 64 * prio) :: first :: route :: body)) ++ opt_code code ++ [13] in
  decode_packet (line ++ rest) checksum strict false
  = ([], Ok (Some (PktInvalid (first :: route :: body) KeyError), length line)).
Proof.
  intros ck strict prio first route body code rest R0 R Hb Hp Hcode. cbv zeta.
  replace (6 + 64 * prio) with (flags DAT_PP 0 false prio)
    by (rewrite flags_eq; [unfold DAT_PP; lia|right; right; reflexivity|exact Hp]).
  fold (wire ck (flags DAT_PP 0 false prio :: first :: route :: body)).
  assert (L := line_to_pci [92] ck ck false strict DAT_PP false prio (first :: route :: body) code rest eq_refl). cbv zeta in L.
  rewrite <- !app_assoc. cbn [app] in L |- *.
  rewrite L; [|right; right; reflexivity|exact Hp|exact Hb|exact Hcode].
  unfold decode_payload. cbn [DAT_PM DAT_PP Z.eqb Pos.eqb]. unfold pp_decode. cbn [py_index nth_error rbind].
  replace (route =? 0) with false by lia. cbn [In] in R. unfold bridge_length.
  repeat (match goal with |- context [route =? ?n] => replace (route =? n) with false by lia end). reflexivity.
Qed.
Print Assumptions C18_no_route_to_pci.

Example C18_case :
  Forall valid_cal [CRecall 0x21 5; CReply 0x30 [1; 2]]
  /\ Forall2 cal_received [CRecall 0x21 5; CReply 0x30 [1; 2]] [CRecall 0x21 5; CReply 0x30 [1; 2]]
  /\ encode_packet (PktPP (mkHdr true 0 (Some 4) None) 9 None [CRecall 0x21 5; CReply 0x30 [1; 2]])
     = Ok [48;54;48;52;48;57;48;48;49;65;50;49;48;53;56;51;51;48;48;49;48;50;70;55]
  /\ decode_packet [48;54;48;52;48;57;48;48;49;65;50;49;48;53;56;51;51;48;48;49;48;50;70;55;13;10]
       true true true
     = ([], Ok (Some (PktPP (mkHdr true 0 (Some 4) None) 9 None
                        [CRecall 0x21 5; CReply 0x30 [1; 2]]), 26%nat)).
Proof.
  split. { repeat constructor; unfold is_bytes, byte; repeat constructor; lia. }
  split; [|vm_compute; auto].
  constructor; [exact (cr_recall 0x21 5)|]. constructor; [exact (cr_reply 0x30 [1; 2])|constructor].
Qed.

(** C19 *)
Theorem C19_position_from_pci : forall data checksum strict ws r n,
  decode_packet data checksum strict true = (ws, Ok (r, n)) ->
  (n <= length data)%nat /\ (r <> None -> (1 <= n)%nat) /\ (forall c, r <> Some (PktCal c)).
Proof. exact from_pci_position. Qed.
Print Assumptions C19_position_from_pci.

Theorem C19_position_to_pci : forall data checksum strict ws r n,
  decode_packet data checksum strict false = (ws, Ok (r, n)) ->
  ((n <= length data)%nat /\ (r <> None -> (1 <= n)%nat) /\ (forall c, r <> Some (PktCal c)))
  \/ exists prefix digits conf rest raw c k,
       data = prefix ++ digits ++ conf ++ [13] ++ rest
       /\ (prefix = [] \/ prefix = [64]) /\ Forall hex_char digits /\ (length conf <= 1)%nat /\ ~ In 13 conf
       /\ b16decode digits = Ok raw
       /\ decode_cal (skipn 1 (if prefix_checksum prefix checksum then py_init raw else raw)) = Ok (c, k)
       /\ r = Some (PktCal c) /\ (1 <= k)%nat
       /\ n = (length (prefix ++ digits ++ conf ++ [13%Z]) + k)%nat.
Proof. exact to_pci_position. Qed.
Print Assumptions C19_position_to_pci.

(** The bytes lost to a bare CAL are those of the next command. *)
Theorem C19_bare_cal_refuted :
  ~ (forall data ws r n, decode_packet data true true false = (ws, Ok (r, n)) -> (n <= length data)%nat).
Proof.
  intros H.
  specialize (H [64;48;54;49;65;50;49;48;53;13] [] (Some (PktCal (CRecall 0x21 5))) 13%nat).
  cbn [length] in H. assert (13 <= 10)%nat; [|lia]. apply H. vm_compute. reflexivity.
Qed.
Print Assumptions C19_bare_cal_refuted.

Example C19_case :
  decode_packet [43; 1; 2] true true true = ([], Ok (Some PktPowerOn, 1%nat))
  /\ decode_packet [64;48;54;49;65;50;49;48;53;13; 1; 2; 3; 4] true true false
     = ([], Ok (Some (PktCal (CRecall 0x21 5)), 13%nat)).
Proof. vm_compute. auto. Qed.

(** C20 *)
Theorem C20_stable_from_pci : forall data ext checksum strict,
  (decode_packet data checksum strict true = ([], Ok (None, 0%nat)) /\ ~ pci_complete data)
  \/ (pci_complete data
      /\ (forall ws r n, decode_packet data checksum strict true = (ws, Ok (r, n)) -> (1 <= n)%nat)
      /\ decode_packet (data ++ ext) checksum strict true = decode_packet data checksum strict true).
Proof.
  intros data ext ck strict. destruct (from_pci_cases data ck strict) as [H|[C _]]; [now left|right].
  split; [exact C|]. split; [exact (fun ws r n => complete_position data ck strict true ws r n C)|].
  now apply from_pci_stable.
Qed.
Print Assumptions C20_stable_from_pci.

Theorem C20_stable_to_pci : forall data ext checksum strict,
  (decode_packet data checksum strict false = ([], Ok (None, 0%nat)) /\ ~ command_complete data)
  \/ (command_complete data
      /\ (forall ws r n, decode_packet data checksum strict false = (ws, Ok (r, n)) -> (1 <= n)%nat)
      /\ decode_packet (data ++ ext) checksum strict false = decode_packet data checksum strict false).
Proof.
  intros data ext ck strict. destruct (to_pci_cases data ck strict) as [H|[C _]]; [now left|right].
  split; [exact C|]. split; [exact (fun ws r n => complete_position data ck strict false ws r n C)|].
  now apply to_pci_stable.
Qed.
Print Assumptions C20_stable_to_pci.

Example C20_case :
  pci_complete [65; 65; 13; 10] /\ ~ pci_complete [65; 65; 13]
  /\ command_complete [126] /\ ~ command_complete [65; 65].
Proof.
  split; [right; right; right; now exists [65; 65], []|].
  split.
  - intros [[r H]|[[r H]|[[c [r [x [C H]]]]|[l [r H]]]]]; try discriminate.
    + inversion H; subst. unfold is_code in C. lia.
    + destruct l as [|a [|b [|c l]]]; try discriminate. destruct l; discriminate.
  - split; [left; now exists []|].
    intros [[r H]|[[r H]|[l [r H]]]]; try discriminate.
    destruct l as [|a [|b [|c l]]]; try discriminate.
Qed.

(** C21 *)
Theorem C21_raises_from_pci : forall data checksum strict,
  (exists ws e, decode_packet data checksum strict true = (ws, Raise e))
  <-> pci_raises checksum strict data.
Proof. exact raises_from_pci. Qed.
Print Assumptions C21_raises_from_pci.

Theorem C21_raises_to_pci : forall data checksum strict,
  (exists ws e, decode_packet data checksum strict false = (ws, Raise e))
  <-> command_raises checksum strict data.
Proof. exact raises_to_pci. Qed.
Print Assumptions C21_raises_to_pci.

Theorem C21_exceptions : forall data checksum strict from_pci ws e,
  decode_packet data checksum strict from_pci = (ws, Raise e) -> e = BinasciiError \/ e = IndexError.
Proof. exact decode_packet_exn. Qed.
Print Assumptions C21_exceptions.

Theorem C21_exception_free_refuted :
  ~ (forall data checksum strict from_pci, exists ws r,
     decode_packet data checksum strict from_pci = (ws, Ok r)).
Proof.
  intros H. destruct (H [65; 13; 10] true true true) as [ws [r E]]. vm_compute in E. discriminate.
Qed.
Print Assumptions C21_exception_free_refuted.

Example C21_case :
  decode_packet [65; 13; 10] true true true = ([], Raise BinasciiError)
  /\ decode_packet [48; 48; 13; 10] true true true = ([], Raise IndexError)
  /\ decode_packet [64; 13] true true false = ([], Raise IndexError)
  /\ decode_packet [92; 103; 13] true true false = ([], Raise IndexError)
  /\ decode_packet [103; 13] true true false = ([], Raise IndexError)
  /\ pci_raises true true [65; 13; 10] /\ command_raises true true [103; 13].
Proof.
  repeat (split; [vm_compute; reflexivity|]). split.
  - exists [65], []. split; [reflexivity|]. split; [discriminate|]. split; [|now left].
    constructor; [unfold hex_char; lia|constructor].
  - exists [], [], (Some 103), []. split; [reflexivity|]. split; [now left|]. split; [constructor|].
    split; [right; now left|]. unfold hex_char, is_code. lia.
Qed.

(** C22 *)
Theorem C22_strict_from_pci : forall data ws p n,
  decode_packet data true true true = (ws, Ok (Some p, n)) -> data_packet p ->
  exists digits rest raw, data = digits ++ [13; 10] ++ rest /\ Forall hex_char digits
    /\ b16decode digits = Ok raw /\ raw <> [] /\ sum raw mod 256 = 0
    /\ n = (length digits + 2)%nat.
Proof. exact strict_from_pci. Qed.
Print Assumptions C22_strict_from_pci.

Theorem C22_strict_to_pci : forall data ws p n,
  decode_packet data true true false = (ws, Ok (Some p, n)) -> data_packet p ->
  exists prefix digits conf rest raw,
    data = prefix ++ digits ++ opt_code conf ++ [13] ++ rest /\ In prefix [[]; [64]; [92]]
    /\ Forall hex_char digits /\ (match conf with Some c => is_code c | None => True end)
    /\ b16decode digits = Ok raw /\ raw <> [] /\ (prefix <> [64] -> sum raw mod 256 = 0).
Proof. exact strict_to_pci. Qed.
Print Assumptions C22_strict_to_pci.

Theorem C22_wrong_checksum_from_pci : forall digits raw rest,
  Forall hex_char digits -> b16decode digits = Ok raw -> sum raw mod 256 <> 0 ->
  decode_packet (digits ++ [13; 10] ++ rest) true true true
  = ([], Ok (Some (PktInvalid raw ValueError), (length digits + 2)%nat)).
Proof. exact bad_sum_from_pci. Qed.
Print Assumptions C22_wrong_checksum_from_pci.

Theorem C22_wrong_checksum_to_pci : forall prefix digits conf raw rest, prefix = [] \/ prefix = [92] ->
  Forall hex_char digits -> (match conf with Some c => is_code c | None => True end) ->
  b16decode digits = Ok raw -> sum raw mod 256 <> 0 ->
  decode_packet (prefix ++ digits ++ opt_code conf ++ [13] ++ rest) true true false
  = ([], Ok (Some (PktInvalid raw ValueError), length (prefix ++ digits ++ opt_code conf ++ [13%Z]))).
Proof. exact bad_sum_to_pci. Qed.
Print Assumptions C22_wrong_checksum_to_pci.

Example C22_case :
  decode_packet [92;48;53;51;56;48;48;55;57;48;49;52;57;103;13] true true false
  = ([], Ok (Some (PktPM (mkHdr true 0 None (Some 103)) (Some 0x38) [LightOn 1]), 15%nat))
  /\ sum [0x05; 0x38; 0; 0x79; 1; 0x49] mod 256 = 0
  /\ decode_packet [92;48;53;51;56;48;48;55;57;48;49;52;65;103;13] true true false
     = ([], Ok (Some (PktInvalid [0x05; 0x38; 0; 0x79; 1; 0x4a] ValueError), 15%nat)).
Proof. vm_compute. auto. Qed.

(** C23 *)
Theorem C23_corrupt_from_pci : forall p w a c d b rest,
  hex_packet p -> checksummed p -> encode_packet p = Ok w ->
  w = a ++ c :: b -> hex_char d -> d <> c ->
  exists raw, decode_packet ((a ++ d :: b) ++ [13; 10] ++ rest) true true true
    = ([], Ok (Some (PktInvalid raw ValueError), (length w + 2)%nat)).
Proof.
  intros p w a c d b rest H C E W Hd N. destruct (hex_packet_raw p w H E) as [raw [_ [_ [_ [F [_ [D S]]]]]]].
  subst w. exact (corrupt_from_pci a c d b raw rest F Hd N D (S C)).
Qed.
Print Assumptions C23_corrupt_from_pci.

Theorem C23_corrupt_to_pci : forall prefix p w a c d b conf rest,
  prefix = [] \/ prefix = [92] ->
  hex_packet p -> checksummed p -> encode_packet p = Ok w ->
  w = a ++ c :: b -> hex_char d -> d <> c ->
  (match conf with Some k => is_code k | None => True end) ->
  exists raw, decode_packet (prefix ++ (a ++ d :: b) ++ opt_code conf ++ [13] ++ rest) true true false
    = ([], Ok (Some (PktInvalid raw ValueError), length (prefix ++ w ++ opt_code conf ++ [13%Z]))).
Proof.
  intros prefix p w a c d b conf rest Hp H C E W Hd N Hc.
  destruct (hex_packet_raw p w H E) as [raw [_ [_ [_ [F [_ [D S]]]]]]].
  subst w. exact (corrupt_to_pci prefix conf a c d b raw rest Hp Hc F Hd N D (S C)).
Qed.
Print Assumptions C23_corrupt_to_pci.

Example C23_case :
  encode_packet (PktPM (mkHdr true 0 None None) (Some 0x38) [LightOn 1])
  = Ok ([48;53;51;56;48;48] ++ 55 :: [57;48;49;52;57])
  /\ decode_packet (([48;53;51;56;48;48] ++ 48 :: [57;48;49;52;57]) ++ [13; 10]) true true true
  = ([], Ok (Some (PktInvalid [0x05; 0x38; 0; 0x09; 1; 0x49] ValueError), 14%nat)).
Proof. vm_compute. auto. Qed.

(** C45 *)
Theorem C45_construction : forall checksum prio a sals p, new_pm checksum prio a sals = Ok p ->
  exists a', p = PktPM (mkHdr checksum prio None None) a' sals /\ homogeneous (a', sals)
    /\ (forall x, a = Some x -> a' = Some x).
Proof. exact new_pm_spec. Qed.
Print Assumptions C45_construction.

Theorem C45_history : forall checksum prio a0 sals a p ops st outs,
  new_pm checksum prio a0 sals = Ok p -> p = PktPM (mkHdr checksum prio None None) a sals ->
  pm_calls (a, sals) ops = (st, outs) ->
  homogeneous st /\ length outs = length ops /\ snd st = held sals (combine ops outs).
Proof.
  intros ck prio a0 sals a p ops st outs H -> E. apply new_pm_spec in H.
  destruct H as [a' [H [Hh _]]]. inversion H; subst a'. exact (pm_calls_spec ops _ _ _ Hh E).
Qed.
Print Assumptions C45_history.

Theorem C45_append_outcome : forall st s, homogeneous st ->
  (fst st <> None -> fst st <> Some (sal_application s) -> pm_call st (PAppend s) = (st, Some ValueError))
  /\ (fst st = None \/ fst st = Some (sal_application s) ->
      pm_call st (PAppend s) = ((Some (sal_application s), snd st ++ [s]), None))
  /\ pm_call st PClear = ((None, []), None).
Proof.
  intros st s H. destruct (append_sal_spec st s H) as [H1 H2]. cbn [pm_call].
  split; [intros A B; now rewrite (H1 A B)|]. split; [intros A; now rewrite (proj1 (H2 A))|reflexivity].
Qed.
Print Assumptions C45_append_outcome.

Example C45_case :
  pm_calls (Some 0x38, [LightOn 1]) [PAppend (LightOff 2); PAppend ClockRequest; PClear; PAppend ClockRequest]
  = ((Some 0xdf, [ClockRequest]), [None; Some ValueError; None; None]).
Proof. vm_compute. reflexivity. Qed.

(** C46 *)
Theorem C46_lighting_from_pci : forall checksum strict prio src body rest,
  is_bytes body -> 0 <= prio <= 3 -> byte src ->
  let line a := b16encode (with_checksum checksum (5 + 64 * prio :: src :: a :: 0 :: body)) ++ [13; 10] in
  let src' := if src =? 0 then None else Some src in
  exists ws cmds,
    decode_packet (line 0x38 ++ rest) checksum strict true
    = (ws, Ok (Some (PktPM (mkHdr checksum prio src' None) (Some 0x38) cmds), length (line 0x38)))
    /\ forall a, 0x30 <= a <= 0x5f -> a <> 0x38 ->
       decode_packet (line a ++ rest) checksum strict true
       = (ws, Ok (Some (match cmds with
                        | [] => PktPM (mkHdr checksum prio src' None) (Some a) []
                        | _ => PktInvalid (a :: 0 :: body) ValueError
                        end), length (line a))).
Proof.
  intros ck strict prio src body rest Hb Hp Hs line src'.
  destruct (lighting_from_pci ck strict prio src 0x38 body rest ltac:(lia) Hb Hp Hs) as [ws [cmds [D E]]].
  exists ws, cmds. unfold line. rewrite <- app_assoc. split.
  - etransitivity; [exact E|]. rewrite (app_length _ [13; 10]). reflexivity.
  - intros a Ha Na. destruct (lighting_from_pci ck strict prio src a body rest Ha Hb Hp Hs) as [ws' [cmds' [D' E']]].
    rewrite D in D'. inversion D'; subst ws' cmds'. rewrite <- app_assoc. etransitivity; [exact E'|].
    rewrite (app_length _ [13; 10]). unfold lighting_result. replace (a =? 56) with false by lia.
    destruct cmds; reflexivity.
Qed.
Print Assumptions C46_lighting_from_pci.

Theorem C46_lighting_to_pci : forall checksum strict prio body conf rest,
  is_bytes body -> 0 <= prio <= 3 -> (match conf with Some k => is_code k | None => True end) ->
  let line a := [92] ++ b16encode (with_checksum checksum (5 + 64 * prio :: a :: 0 :: body))
                ++ opt_code conf ++ [13] in
  exists ws cmds,
    decode_packet (line 0x38 ++ rest) checksum strict false
    = (ws, Ok (Some (PktPM (mkHdr checksum prio None conf) (Some 0x38) cmds), length (line 0x38)))
    /\ forall a, 0x30 <= a <= 0x5f -> a <> 0x38 ->
       decode_packet (line a ++ rest) checksum strict false
       = (ws, Ok (Some (match cmds with
                        | [] => PktPM (mkHdr checksum prio None conf) (Some a) []
                        | _ => PktInvalid (a :: 0 :: body) ValueError
                        end), length (line a))).
Proof.
  intros ck strict prio body conf rest Hb Hp Hc line.
  destruct (lighting_to_pci ck strict prio 0x38 body conf rest ltac:(lia) Hb Hp Hc) as [ws [cmds [D E]]].
  exists ws, cmds. unfold line. rewrite <- !app_assoc. split; [exact E|].
  intros a Ha Na. destruct (lighting_to_pci ck strict prio a body conf rest Ha Hb Hp Hc) as [ws' [cmds' [D' E']]].
  rewrite D in D'. inversion D'; subst ws' cmds'. rewrite <- !app_assoc. etransitivity; [exact E'|].
  unfold lighting_result. replace (a =? 56) with false by lia. destruct cmds; reflexivity.
Qed.
Print Assumptions C46_lighting_to_pci.

Theorem C46_other_lighting_applications_refuted :
  ~ (forall a, 0x30 <= a <= 0x5f -> exists w n,
     encode_packet (PktPM (mkHdr true 0 None None) (Some a) [LightOn 1]) = Ok w
     /\ decode_packet ([92] ++ w ++ [13]) true true false
        = ([], Ok (Some (PktPM (mkHdr true 0 None None) (Some a) [LightOn 1]), n))).
Proof.
  intros H. destruct (H 0x30 ltac:(lia)) as [w [n [E D]]].
  vm_compute in E. apply Ok_inj in E. subst w. vm_compute in D. discriminate.
Qed.
Print Assumptions C46_other_lighting_applications_refuted.

Example C46_case :
  decode_packet [92;48;53;51;49;48;48;55;57;48;49;53;48;13] true true false
  = ([], Ok (Some (PktInvalid [0x31; 0; 0x79; 1] ValueError), 14%nat)).
Proof. vm_compute. reflexivity. Qed.

(** C50 *)
Theorem C50_flags : forall dat rc dp priority,
  byte (flags dat rc dp priority)
  /\ Z.land (flags dat rc dp priority) 0x07 = dat mod 8
  /\ (Z.land (flags dat rc dp priority) 0x20 =? 0x20) = dp
  /\ Z.land (Z.shiftr (flags dat rc dp priority) 6) 0x03 = priority mod 4
  /\ flags dat rc dp priority
     = dat mod 8 + 16 * (rc / 2 mod 2) + (if dp then 32 else 0) + 64 * (priority mod 4).
Proof. exact flags_facts. Qed.
Print Assumptions C50_flags.

Theorem C50_reserved_low_bit_lost : forall dat dp priority,
  flags dat 1 dp priority = flags dat 0 dp priority
  /\ flags dat 3 dp priority = flags dat 2 dp priority
  /\ flags dat 2 dp priority = flags dat 0 dp priority + 16.
Proof.
  intros dat dp pr.
  destruct (flags_facts dat 0 dp pr) as [_ [_ [_ [_ ->]]]]. destruct (flags_facts dat 1 dp pr) as [_ [_ [_ [_ ->]]]].
  destruct (flags_facts dat 2 dp pr) as [_ [_ [_ [_ ->]]]]. destruct (flags_facts dat 3 dp pr) as [_ [_ [_ [_ ->]]]].
  change (0 / 2 mod 2) with 0. change (1 / 2 mod 2) with 0. change (2 / 2 mod 2) with 1. change (3 / 2 mod 2) with 1. lia.
Qed.
Print Assumptions C50_reserved_low_bit_lost.

Theorem C50_reserved_field_refuted :
  ~ (forall dat rc dp priority, 0 <= rc <= 3 ->
     Z.land (Z.shiftr (flags dat rc dp priority) 3) 0x03 = rc).
Proof. intros H. specialize (H 5 1 false 0 ltac:(lia)). vm_compute in H. discriminate. Qed.
Print Assumptions C50_reserved_field_refuted.

Example C50_case : flags 6 2 true 3 = 0xf6 /\ flags 5 1 false 1 = 0x45.
Proof. vm_compute. auto. Qed.
