(** C81: the example scripts together with the daemon. *)
From Coq Require Import String List ZArith QArith Bool Lia.
From Verif Require Import Py Common Sal Packet Text Mqtt Buffered Client Cmqttd Daemon Json Scripts Base Spec Spec_client Spec_sound
  Spec_mqtt Spec_daemon Spec_json Client_dispatch Client_facts Mqtt_facts Json_facts Utf_facts Prop_client Prop_sound Prop_mqtt
  Prop_discovery Prop_daemon Prop_json.
Import ListNotations.
Open Scope Z_scope.
Notation length := List.length.

(** [carried_out u lib d c s ga w]: the script [s] makes the daemon send the one
    command that [w] asks for, with the next confirmation code, and report it. *)
Definition carried_out (u : unicode) (lib : json_library) (d : nat) (c : client) (s : script) (ga : Z) (w : wish) : Prop :=
  exists line code command messages,
    through_broker u lib d s c
      = (set_index c ((cl_index c + 1) mod 20), CWrite line :: map CPublish messages, Ok tt)
    /\ code = code_at (cl_index c) 0 /\ command_line line code
    /\ wish_command ga w command
    /\ (forall strict rest, decode_packet (line ++ rest) true strict false
          = ([], Ok (Some (PktPM (mkHdr true 0 None (Some code)) (Some 0x38) [command]), length line)))
    /\ wish_report ga w messages.
Definition nothing (u : unicode) (lib : json_library) (d : nat) (c : client) (s : script) : Prop :=
  through_broker u lib d s c = (c, [], Ok tt).

Lemma natural_str ga a : 0 <= ga -> natural ga a -> a = py_str ga.
Proof.
  intros G N. apply (decimal_unique ga); [left; auto|]. apply py_str_decimal.
Qed.
Lemma subscribed_spec topic : subscribed topic = true <-> exists ga, group_address ga /\ topic = set_topic ga.
Proof.
  unfold subscribed. rewrite existsb_exists. split.
  - intros (ga & I & E). apply text_eqb_eq in E. exists ga. split; [apply range_in, I|congruence].
  - intros (ga & G & ->). exists ga. split; [apply range_in, G|]. apply text_eqb_eq. reflexivity.
Qed.
Lemma topic_argument a : subscribed (txt "homeassistant/light/cbus_" ++ a ++ txt "/set") = true
  <-> exists ga, group_address ga /\ natural ga a.
Proof.
  rewrite subscribed_spec. split; intros (ga & G & H); exists ga; (split; [exact G|]); unfold group_address, byte in G.
  - unfold set_topic, LIGHT_TOPIC_PREFIX, TOPIC_SET_SUFFIX in H. apply app_inv_head, app_inv_tail in H. subst a.
    destruct (py_str_decimal ga) as [(_ & N)|(L & _)]; [exact N|lia].
  - rewrite (natural_str ga a) by (try lia; exact H). reflexivity.
Qed.
Lemma commands_topic u ga : group_address ga -> commands u (set_topic ga) ga.
Proof.
  intros G. split; [apply (topic_addresses u LightSet ga _ eq_refl (topic_is LightSet ga))|]. split; [exact G|].
  exists (LIGHT_TOPIC_PREFIX ++ py_str ga). unfold set_topic. rewrite app_assoc. reflexivity.
Qed.

(** The payload of cbus_ramp for two JSON texts. *)
Definition ramp_payload (d l : text) : text :=
  txt "{ ""state"": ""ON"", ""transition"": " ++ d ++ txt ", ""brightness"": " ++ l ++ txt " }".
Lemma chars_plain t : forallb (fun c => (32 <=? c) && negb (c =? 34) && negb (c =? 92)) t = true -> characters t t.
Proof.
  induction t as [|c t IH]; intros H; [constructor|]. cbn [forallb] in H.
  rewrite !andb_true_iff, !negb_true_iff, Z.leb_le, !Z.eqb_neq in H. destruct H as (((A & B) & C) & D). apply ch_plain; auto.
Qed.
Lemma spaces_one : spaces [32].
Proof. repeat constructor. Qed.
Lemma ramp_document lib n dt d lt l : denotes lib n dt d -> denotes lib n lt l ->
  document lib (S n) (ramp_payload dt lt)
    (JObj [(txt "state", JStr (txt "ON")); (txt "transition", d); (txt "brightness", l)]).
Proof.
  intros D L. exists [], (ramp_payload dt lt), []. rewrite app_nil_r. split; [reflexivity|].
  split; [apply spaces_nil|]. split; [apply spaces_nil|].
  set (l0 := [(txt "state", JStr (txt "ON")); (txt "transition", d); (txt "brightness", l)]).
  replace (JObj l0) with (JObj (dict_of l0)).
  2:{ rewrite dict_of_new; [reflexivity|]. cbn [map fst l0]. repeat constructor; cbn; intuition discriminate. }
  replace (ramp_payload dt lt) with
    ([123] ++ ([32] ++ [34] ++ txt "state" ++ [34] ++ [] ++ [58] ++ [32] ++ ([34] ++ txt "ON" ++ [34]) ++ [] ++ [44]
       ++ ([32] ++ [34] ++ txt "transition" ++ [34] ++ [] ++ [58] ++ [32] ++ dt ++ [] ++ [44]
       ++ ([32] ++ [34] ++ txt "brightness" ++ [34] ++ [] ++ [58] ++ [32] ++ lt ++ [32]))) ++ [125]).
  2:{ unfold ramp_payload. cbn [txt app]. repeat (rewrite <- !app_assoc; cbn [app]). reflexivity. }
  apply j_obj. unfold l0.
  apply o_more; auto using spaces_one, spaces_nil; [apply chars_plain; reflexivity|constructor; apply chars_plain; reflexivity|].
  apply o_more; auto using spaces_one, spaces_nil; [apply chars_plain; reflexivity|].
  apply o_one; auto using spaces_one, spaces_nil. apply chars_plain; reflexivity.
Qed.
Lemma state_document lib n s : s = txt "ON" \/ s = txt "OFF" ->
  document lib (S n) (txt "{ ""state"": """ ++ s ++ txt """ }") (JObj [(txt "state", JStr s)]).
Proof.
  intros S. exists [], (txt "{ ""state"": """ ++ s ++ txt """ }"), []. rewrite app_nil_r. split; [reflexivity|].
  split; [apply spaces_nil|]. split; [apply spaces_nil|].
  change [(txt "state", JStr s)] with (dict_of [(txt "state", JStr s)]).
  replace (txt "{ ""state"": """ ++ s ++ txt """ }") with
    ([123] ++ ([32] ++ [34] ++ txt "state" ++ [34] ++ [] ++ [58] ++ [32] ++ ([34] ++ s ++ [34]) ++ [32]) ++ [125]).
  2:{ cbn [txt app]. repeat (rewrite <- !app_assoc; cbn [app]). reflexivity. }
  apply j_obj. apply o_one; auto using spaces_one, spaces_nil; [apply chars_plain; reflexivity|].
  constructor. destruct S as [-> | ->]; apply chars_plain; reflexivity.
Qed.
Lemma printable_states lib d s v : printable s -> document lib d s v -> is_bytes s /\ states lib d s v.
Proof.
  intros P D. split; [apply printable_bytes, P|]. exists InUtf8, s, s. split; [|split; [|exact D]].
  - apply ascii_utf8. eapply Forall_impl; [|exact P]. cbv beta. lia.
  - right. split; [|reflexivity]. destruct P; cbn; lia.
Qed.
Lemma integer_printable t z : integer t z -> printable t.
Proof.
  assert (N : forall m t, natural m t -> printable t).
  { intros m t' (_ & F & _). eapply Forall_impl; [|exact F]. unfold digit. cbv beta. lia. }
  intros [t' n H|t' n H]; [|apply Forall_cons; [lia|]]; eapply N; exact H.
Qed.
Lemma natural_filled n t : natural n t -> is_empty t = false.
Proof. intros (N & _). destruct t; [contradiction|reflexivity]. Qed.
Lemma integer_filled t z : integer t z -> is_empty t = false.
Proof. intros [t' n H|t' n H]; [eapply natural_filled; exact H|reflexivity]. Qed.
Lemma bracket_false sh b : b = false -> bracket_test sh b = false.
Proof. intros ->. destruct sh; reflexivity. Qed.

Lemma payload_carried u lib d c ga a b l on br t w :
  group_address ga -> natural ga a -> printable b -> document lib d b (JObj l) -> asks u l on br t -> wishes on br t w ->
  cl_transport c = true -> counter_ok c ->
  carried_out u lib d c (Publish (txt "homeassistant/light/cbus_" ++ a ++ txt "/set") b) ga w.
Proof.
  intros G N P D A W T I. unfold carried_out. cbn [through_broker].
  rewrite (proj2 (topic_argument a) ltac:(eauto)).
  assert (E : a = py_str ga) by (apply natural_str; [unfold group_address, byte in G; lia|exact N]). subst a.
  destruct (printable_states lib d b _ P D) as (Nb & S).
  exact (C79_command u lib d (set_topic ga) ga b l on br t w c (commands_topic u ga G) Nb S A W T I).
Qed.

(** cbus_on and cbus_off switch the group they are given, under either shell. *)
Theorem C81_on : forall u lib d c sh args ga, group_address ga -> natural ga (argument args 0) ->
  cl_transport c = true -> counter_ok c -> carried_out u lib (S d) c (cbus_on sh args) ga WishOn.
Proof.
  intros u lib d c sh args ga G N T I. unfold cbus_on. rewrite bracket_false by (eapply natural_filled; exact N).
  apply payload_carried with (l := [(txt "state", JStr (txt "ON"))]) (on := true) (br := 255) (t := 0); auto.
  - plain.
  - apply (state_document lib d (txt "ON")). auto.
  - exists (txt "ON"). split; [exists [], []; split; [reflexivity|intros ? []]|].
    split; [unfold on_text; tauto|]. split; left; (split; [|reflexivity]); intros v [H|[]]; discriminate H.
  - constructor; lia.
Qed.
Print Assumptions C81_on.
Theorem C81_off : forall u lib d c sh args ga, group_address ga -> natural ga (argument args 0) ->
  cl_transport c = true -> counter_ok c -> carried_out u lib (S d) c (cbus_off sh args) ga WishOff.
Proof.
  intros u lib d c sh args ga G N T I. unfold cbus_off. rewrite bracket_false by (eapply natural_filled; exact N).
  apply payload_carried with (l := [(txt "state", JStr (txt "OFF"))]) (on := false) (br := 255) (t := 0); auto.
  - plain.
  - apply (state_document lib d (txt "OFF")). auto.
  - exists (txt "OFF"). split; [exists [], []; split; [reflexivity|intros ? []]|].
    split; [split; [discriminate|intros [H|[H|[H|H]]]; discriminate H]|].
    split; left; (split; [|reflexivity]); intros v [H|[]]; discriminate H.
  - constructor.
Qed.
Print Assumptions C81_off.
Lemma ramp_asks u dur lev :
  asks u [(txt "state", JStr (txt "ON")); (txt "transition", JNum (PInt dur)); (txt "brightness", JNum (PInt lev))] true lev dur.
Proof.
  exists (txt "ON"). split; [apply jlookup_has; reflexivity|]. split; [unfold on_text; tauto|].
  split; right; eexists; (split; [apply jlookup_has; reflexivity|constructor]).
Qed.
Lemma ramp_printable dt dur lt lev : integer dt dur -> integer lt lev -> printable (ramp_payload dt lt).
Proof.
  intros D L. unfold ramp_payload. apply printable_app; [plain|]. apply printable_app; [eapply integer_printable; exact D|].
  apply printable_app; [plain|]. apply printable_app; [eapply integer_printable; exact L|plain].
Qed.
(** cbus_ramp with whole numbers ramps the group to the level over the duration
    (or switches it on: [wishes]). *)
Theorem C81_ramp : forall u lib d c sh args ga dur lev w, group_address ga -> natural ga (argument args 0) ->
  integer (argument args 1) dur -> integer (argument args 2) lev -> wishes true lev dur w ->
  cl_transport c = true -> counter_ok c -> carried_out u lib (S d) c (cbus_ramp sh args) ga w.
Proof.
  intros u lib d c sh args ga dur lev w G N D L W T I. unfold cbus_ramp.
  rewrite bracket_false.
  2:{ rewrite (natural_filled _ _ N), (integer_filled _ _ D), (integer_filled _ _ L). reflexivity. }
  apply payload_carried with
    (l := [(txt "state", JStr (txt "ON")); (txt "transition", JNum (PInt dur)); (txt "brightness", JNum (PInt lev))])
    (on := true) (br := lev) (t := dur); auto.
  - exact (ramp_printable _ _ _ _ D L).
  - apply (ramp_document lib d (argument args 1) _ (argument args 2)); constructor; assumption.
  - apply ramp_asks.
Qed.
Print Assumptions C81_ramp.
(** A negative level is an error in the daemon: no command. *)
Theorem C81_negative : forall u lib d c sh args ga dur lev, group_address ga -> natural ga (argument args 0) ->
  integer (argument args 1) dur -> integer (argument args 2) lev -> lev < 0 ->
  cl_transport c = true -> counter_ok c -> through_broker u lib (S d) (cbus_ramp sh args) c = (c, [], Raise TypeError).
Proof.
  intros u lib d c sh args ga dur lev G N D L W T I. unfold cbus_ramp.
  rewrite bracket_false.
  2:{ rewrite (natural_filled _ _ N), (integer_filled _ _ D), (integer_filled _ _ L). reflexivity. }
  cbn [through_broker]. rewrite (proj2 (topic_argument (argument args 0)) ltac:(eauto)).
  assert (E : argument args 0 = py_str ga) by (apply natural_str; [unfold group_address, byte in G; lia|exact N]). rewrite E.
  change (txt "homeassistant/light/cbus_" ++ py_str ga ++ txt "/set") with (set_topic ga).
  unfold on_payload.
  destruct (printable_states lib (S d) (ramp_payload (argument args 1) (argument args 2)) _ (ramp_printable _ _ _ _ D L)
              (ramp_document lib d _ _ _ _ (j_int lib d _ _ D) (j_int lib d _ _ L))) as (Nb & St).
  apply (loads_states lib (S d) _ _ Nb) in St. unfold ramp_payload in St. rewrite St.
  eapply C42_negative; [apply commands_topic, G|apply ramp_asks|exact W|exact T|exact I].
Qed.
Print Assumptions C81_negative.

(** With a first argument that is not a group address in plain decimal, nothing
    happens at the daemon. *)
Theorem C81_address : forall u lib d c sh args, (forall ga, group_address ga -> ~ natural ga (argument args 0)) ->
  nothing u lib d c (cbus_on sh args) /\ nothing u lib d c (cbus_off sh args) /\ nothing u lib d c (cbus_ramp sh args).
Proof.
  intros u lib d c sh args F.
  assert (E : subscribed (txt "homeassistant/light/cbus_" ++ argument args 0 ++ txt "/set") = false).
  { apply not_true_is_false. rewrite topic_argument. intros (ga & G & N). exact (F ga G N). }
  unfold nothing, cbus_on, cbus_off, cbus_ramp.
  repeat split; match goal with |- context [bracket_test ?s ?b] => destruct (bracket_test s b) end;
    cbn [through_broker]; rewrite ?E; reflexivity.
Qed.
Print Assumptions C81_address.

(** What a JSON parser makes of the payload of cbus_ramp: after the value come a
    brace or a comma and more. *)
Definition goes_on (lib : json_library) (f d : nat) (s : text) (out : json * text) : Prop :=
  exists c s', skip_space s = c :: s'
    /\ (c = 125 \/ (c = 44 /\ exists acc, members lib f d acc (skip_space s') = Got out)).
Lemma value_then lib f d k acc x out :
  jbind (scan lib f d (skip_space x)) (fun p => let (v, s4) := p in
     match skip_space s4 with
     | x :: s5 =>
         if x =? 125 then Got (JObj (dict_set k v acc), s5)
         else if x =? 44 then members lib f d (dict_set k v acc) (skip_space s5)
         else Wrong
     | [] => Wrong
     end) = Got out ->
  exists v s4, scan lib f d (skip_space x) = Got (v, s4) /\ goes_on lib f d s4 out.
Proof.
  destruct (scan lib f d (skip_space x)) as [[v s4]| | |]; cbn [jbind]; intros E; [|discriminate E..].
  exists v, s4. split; [reflexivity|]. unfold goes_on. destruct (skip_space s4) as [|c s5]; [discriminate E|].
  exists c, s5. split; [reflexivity|]. destruct (Z.eqb_spec c 125); [auto|]. destruct (Z.eqb_spec c 44); [|discriminate E]. eauto.
Qed.
Lemma ramp_scan lib fuel depth x out : scan lib fuel depth (txt "{ ""state"": ""ON"", ""transition"": " ++ x) = Got out ->
  exists f d v s4, scan lib f d (skip_space x) = Got (v, s4) /\ goes_on lib f d s4 out.
Proof.
  destruct fuel as [|[|[|[|fuel]]]]; destruct depth as [|depth]; try discriminate.
  intros E. exists (S fuel), depth. apply (value_then lib (S fuel) depth (txt "transition") (dict_set (txt "state") (JStr (txt "ON")) [])). exact E.
Qed.
Lemma level_members lib f d acc x out : members lib f d acc (txt """brightness"": " ++ x) = Got out ->
  exists f' d' v s4, scan lib f' d' (skip_space x) = Got (v, s4) /\ goes_on lib f' d' s4 out.
Proof.
  destruct f as [|f]; [discriminate|]. intros E. exists f, d. apply (value_then lib f d (txt "brightness") acc). exact E.
Qed.
(** Spellings that are no JSON number: nothing at all, a superfluous zero, a plus
    sign, no digit before the point, a unit after the number. *)
Inductive misread : text -> Prop :=
| mis_empty : misread []
| mis_zero c r : digit c -> misread (48 :: c :: r)
| mis_sign c r : c = 43 \/ c = 46 -> misread (c :: r)
| mis_unit i z c r : integer i z -> (65 <= c <= 90 /\ c <> 69) \/ (97 <= c <= 122 /\ c <> 101) -> misread (i ++ c :: r).
(** The start of the text where the value should be. *)
Inductive bad_start : text -> Prop :=
| bad_char c r : c = 43 \/ c = 46 \/ c = 44 \/ c = 125 -> bad_start (c :: r)
| bad_zero c r : digit c -> bad_start (48 :: c :: r)
| bad_unit i z c r : integer i z -> (65 <= c <= 90 /\ c <> 69) \/ (97 <= c <= 122 /\ c <> 101) -> bad_start (i ++ c :: r).

Lemma scan_bad lib f d x : bad_start x -> skip_space x = x /\
  ((forall v r, scan lib f d x <> Got (v, r)) \/
   exists n c r, scan lib f d x = Got (JNum n, c :: r) /\ ~ space c /\ c <> 125 /\ c <> 44).
Proof.
  intros B. destruct f as [|f].
  { split; [|left; discriminate]. apply skip_no_space. destruct B as [c r H|c r H|i z c r I H]; cbn; unfold space; try lia.
    destruct (integer_head _ _ I) as (c0 & t' & -> & K). unfold digit in K. cbn. unfold space. lia. }
  destruct B as [c r H|c r H|i z c r I H].
  - split; [apply skip_no_space; cbn; unfold space; lia|]. left. intros v q E.
    destruct H as [->|[->|[->| ->]]]; discriminate E.
  - split; [apply skip_no_space; cbn; unfold space; lia|]. right. exists (PInt 0), c, r.
    unfold digit in H. split; [|unfold space; lia].
    assert (M : match_number lib (48 :: c :: r) = Some (PInt 0, c :: r)).
    { unfold match_number. cbn. destruct (Z.eqb_spec c 46); [lia|]. cbn. destruct (Z.eqb_spec c 101); [lia|]. destruct (Z.eqb_spec c 69); [lia|]. reflexivity. }
    cbn [scan Z.eqb Pos.eqb]. rewrite constant_none by (left; unfold digit; lia). rewrite M. reflexivity.
  - destruct (integer_head _ _ I) as (c0 & t' & E0 & K).
    split; [apply skip_no_space; rewrite E0; cbn; unfold digit in K; unfold space; lia|]. right. exists (PInt z), c, r.
    split; [|unfold space; lia].
    destruct (scan_complete lib) as (Sc & _).
    assert (En : ends (c :: r)) by (cbn; unfold digit; lia).
    pose proof (number_int lib i z (c :: r) I En) as M. rewrite E0 in *. cbn [app] in *.
    cbn [scan]. assert (c0 <> 34 /\ c0 <> 123 /\ c0 <> 91) as (N1 & N2 & N3) by (unfold digit in K; lia).
    apply Z.eqb_neq in N1, N2, N3. rewrite N1, N2, N3, M.
    rewrite constant_none; [reflexivity|].
    destruct K as [K|(-> & c' & t'' & -> & K)]; [auto|]. right. split; [reflexivity|]. cbn. eauto.
Qed.
Lemma utf8_prefix p : ascii p -> forall b s, is_bytes (p ++ b) -> utf8_text s (p ++ b) -> exists s', s = p ++ s' /\ utf8_text s' b.
Proof.
  intros A b s B U. apply utf8_decodes in U; [|exact B].
  assert (E : utf8_decode (p ++ b) = option_map (app p) (utf8_decode b)).
  { clear U B. induction A as [|c p C _ IH]; cbn [app]; [destruct (utf8_decode b); reflexivity|].
    cbn [utf8_decode]. destruct (Z.ltb_spec c 128); [|lia]. rewrite IH. destruct (utf8_decode b); reflexivity. }
  rewrite E in U. destruct (utf8_decode b) as [s'|] eqn:Q; [|discriminate]. inversion U; subst. exists s'.
  split; [reflexivity|]. apply utf8_decodes; [apply is_bytes_app in B; apply B|exact Q].
Qed.
Lemma printable_ascii s : printable s -> ascii s.
Proof. intros P. eapply Forall_impl; [|exact P]. cbv beta. lia. Qed.
(** Where a misspelt argument stands, the decoded text has a bad start. *)
Lemma misread_start p t q s : ascii p -> misread t -> (exists w c q', q = w ++ c :: q' /\ spaces w /\ (c = 44 \/ c = 125)) ->
  is_bytes (p ++ t ++ q) -> utf8_text s (p ++ t ++ q) -> exists x, s = p ++ x /\ bad_start (skip_space x).
Proof.
  intros A M (w & c & q' & -> & W & C) B U.
  assert (Q : ascii w) by (eapply Forall_impl; [|exact W]; unfold space; cbv beta; lia).
  assert (K : forall x, bad_start x -> bad_start (skip_space x)).
  { intros x H. rewrite (proj1 (scan_bad (mkJsonLibrary (fun _ => PInt 0) (fun _ => [])) 0 0 x H)). exact H. }
  destruct M as [|c0 r D|c0 r D|i z c0 r I D].
  - destruct (utf8_prefix (p ++ w ++ [c]) ltac:(apply Forall_app; split; [exact A|
      apply Forall_app; split; [exact Q|repeat constructor; lia]]) q' s) as (s' & -> & _);
      [rewrite <- !app_assoc; exact B|rewrite <- !app_assoc; exact U|].
    exists (w ++ c :: s'). split; [rewrite <- !app_assoc; reflexivity|].
    rewrite skip_complete; [constructor; lia|exact W|cbn; unfold space; lia].
  - unfold digit in D. destruct (utf8_prefix (p ++ [48; c0]) ltac:(apply Forall_app; split; [exact A|repeat constructor; lia]) (r ++ w ++ c :: q') s) as (s' & -> & _);
      [rewrite <- app_assoc; exact B|rewrite <- app_assoc; exact U|].
    exists (48 :: c0 :: s'). split; [rewrite <- app_assoc; reflexivity|]. apply K, bad_zero. exact D.
  - destruct (utf8_prefix (p ++ [c0]) ltac:(apply Forall_app; split; [exact A|repeat constructor; lia]) (r ++ w ++ c :: q') s) as (s' & -> & _);
      [rewrite <- app_assoc; exact B|rewrite <- app_assoc; exact U|].
    exists (c0 :: s'). split; [rewrite <- app_assoc; reflexivity|]. apply K. constructor. lia.
  - destruct (utf8_prefix (p ++ i ++ [c0])
      ltac:(apply Forall_app; split; [exact A|apply Forall_app; split; [apply printable_ascii; eapply integer_printable; exact I|repeat constructor; lia]])
      (r ++ w ++ c :: q') s) as (s' & -> & _);
      [rewrite <- !app_assoc; cbn [app]; rewrite <- app_assoc in B; exact B|rewrite <- !app_assoc; cbn [app]; rewrite <- app_assoc in U; exact U|].
    exists (i ++ c0 :: s'). split; [rewrite <- !app_assoc; reflexivity|]. apply K. eapply bad_unit; [exact I|exact D].
Qed.

Lemma unread_states lib d b : narrow b -> (forall s v, utf8_text s b -> ~ document lib d s v) -> (forall r, b <> 239 :: r) ->
  forall v, ~ states lib d b v.
Proof.
  intros N F M v (e & s & s' & U & K & D). rewrite (narrow_encoded _ _ _ _ _ _ _ N U K D) in U.
  cbn [encoded] in U. destruct K as [->|(_ & ->)]; [|exact (F s v U D)].
  assert (H := proj1 (mark_bytes _ _ U) eq_refl). apply starts_with_spec in H. destruct H as (r & ->). exact (M (187 :: 191 :: r) eq_refl).
Qed.
Lemma bad_goes_on lib f d x v s out : bad_start (skip_space x) -> scan lib f d (skip_space x) = Got (v, s) -> ~ goes_on lib f d s out.
Proof.
  intros B E (c & s' & Q & C). destruct (scan_bad lib f d _ B) as (_ & [N|(n & c' & q & E' & A & A' & A'')]); [exact (N _ _ E)|].
  rewrite E in E'. inversion E'; subst. rewrite skip_no_space in Q by exact A. inversion Q; subst. destruct C as [C|(C & _)]; contradiction.
Qed.
Lemma document_scan lib d s v : document lib d s v -> skip_space s = s -> exists fuel r, scan lib fuel d s = Got (v, r).
Proof.
  intros D K. apply decode_document in D. unfold decode_text in D. rewrite K in D.
  destruct (scan lib (2 * length s + 2) d s) as [[v' r]| | |] eqn:Q; [|discriminate D..]. cbn [jbind] in D.
  destruct (skip_space r); [|discriminate D]. inversion D; subst. eauto.
Qed.
Lemma ramp_unread lib d x v : bad_start (skip_space x) ->
  ~ document lib d (txt "{ ""state"": ""ON"", ""transition"": " ++ x) v.
Proof.
  intros B D. apply document_scan in D; [|reflexivity]. destruct D as (fuel & r & D).
  apply ramp_scan in D. destruct D as (f & d' & v' & s4 & E & G). exact (bad_goes_on _ _ _ _ _ _ _ B E G).
Qed.
Lemma integer_scan lib f d i z x : integer i z -> ends x -> scan lib (S f) d (skip_space (i ++ x)) = Got (JNum (PInt z), x).
Proof.
  intros I En. destruct (integer_head _ _ I) as (c0 & t' & E0 & K).
  rewrite skip_no_space by (rewrite E0; cbn; unfold digit in K; unfold space; lia).
  pose proof (number_int lib i z x I En) as M. rewrite E0 in *. cbn [app] in *.
  cbn [scan]. assert (c0 <> 34 /\ c0 <> 123 /\ c0 <> 91) as (N1 & N2 & N3) by (unfold digit in K; lia).
  apply Z.eqb_neq in N1, N2, N3. rewrite N1, N2, N3, M.
  rewrite constant_none; [reflexivity|].
  destruct K as [K|(-> & c' & t'' & -> & K)]; [auto|]. right. split; [reflexivity|]. cbn. eauto.
Qed.
Lemma ramp_unread_level lib d i z x v : integer i z -> bad_start (skip_space x) ->
  ~ document lib d (txt "{ ""state"": ""ON"", ""transition"": " ++ i ++ txt ", ""brightness"": " ++ x) v.
Proof.
  intros I B D. apply document_scan in D; [|reflexivity]. destruct D as (fuel & r & D).
  apply ramp_scan in D. destruct D as (f & d' & v' & s4 & E & (c & s' & Q & C)).
  destruct f as [|f]; [discriminate E|].
  rewrite integer_scan with (z := z) in E; [|exact I|cbn; unfold digit; lia]. inversion E; subst v' s4. clear E.
  rewrite skip_no_space in Q by (cbn; unfold space; lia).
  assert (Hq : c = 44 /\ s' = txt " ""brightness"": " ++ x) by (inversion Q; split; reflexivity).
  destruct Hq as (-> & ->). destruct C as [C|(_ & acc & M)]; [discriminate C|].
  change (skip_space (txt " ""brightness"": " ++ x)) with (txt """brightness"": " ++ x) in M.
  apply level_members in M. destruct M as (f' & d1 & v1 & s1 & E1 & G). exact (bad_goes_on _ _ _ _ _ _ _ B E1 G).
Qed.

(** A misspelt duration or level: the script ends with its usage or the daemon
    drops the message; the light stays as it is. *)
Theorem C81_misread : forall u lib d c sh args, Forall (Forall (fun c => 1 <= c <= 255)) args ->
  misread (argument args 1) \/ (exists dur, integer (argument args 1) dur) /\ misread (argument args 2) ->
  nothing u lib d c (cbus_ramp sh args).
Proof.
  intros u lib d c sh args F M. unfold nothing, cbus_ramp.
  destruct (bracket_test sh _); [reflexivity|]. cbn [through_broker]. destruct (subscribed _); [|reflexivity].
  set (b := txt "{ ""state"": ""ON"", ""transition"": " ++ argument args 1 ++ txt ", ""brightness"": " ++ argument args 2 ++ txt " }").
  assert (Ar : forall n, Forall (fun c => 1 <= c <= 255) (argument args n)).
  { intros n. unfold argument. destruct (nth_in_or_default n args []) as [I|E].
    - rewrite Forall_forall in F. apply F, I.
    - unfold bytes in *. rewrite E. constructor. }
  assert (By : Forall (fun c => 1 <= c <= 255) b).
  { assert (Pr : forall p, forallb (fun c => (32 <=? c) && (c <=? 126)) p = true -> Forall (fun c => 1 <= c <= 255) p).
    { intros p H. eapply Forall_impl; [|exact (printable_test p H)]. cbv beta. lia. }
    unfold b. repeat (apply Forall_app; split); try apply Ar; apply Pr; reflexivity. }
  assert (Ib : is_bytes b) by (unfold is_bytes; eapply Forall_impl; [|exact By]; unfold byte; cbv beta; lia).
  assert (Nb : narrow b).
  { split; [exact Ib|]. split; [intros Z; rewrite Forall_forall in By; specialize (By 0 Z); lia|]. split; intros r; discriminate. }
  apply C79_ignored; [exact Ib|]. apply unread_states; [exact Nb| |intros r; discriminate].
  assert (Pl : forall p, forallb (fun c => (32 <=? c) && (c <=? 126)) p = true -> ascii p).
  { intros p H. apply printable_ascii, printable_test, H. }
  intros s v U. destruct M as [M|((dur & D) & M)].
  - destruct (misread_start (txt "{ ""state"": ""ON"", ""transition"": ") (argument args 1)
      (txt ", ""brightness"": " ++ argument args 2 ++ txt " }") s) as (x & -> & Bx).
    + apply Pl. reflexivity.
    + exact M.
    + exists [], 44. eexists. split; [reflexivity|]. split; [apply spaces_nil|lia].
    + exact Ib.
    + exact U.
    + apply ramp_unread. exact Bx.
  - destruct (misread_start (txt "{ ""state"": ""ON"", ""transition"": " ++ argument args 1 ++ txt ", ""brightness"": ") (argument args 2)
      (txt " }") s) as (x & -> & Bx).
    + apply Forall_app. split; [apply Pl; reflexivity|]. apply Forall_app. split; [|apply Pl; reflexivity].
      apply printable_ascii. eapply integer_printable. exact D.
    + exact M.
    + exists [32], 125, []. split; [reflexivity|]. split; [apply spaces_one|lia].
    + rewrite <- !app_assoc. exact Ib.
    + rewrite <- !app_assoc. exact U.
    + rewrite <- !app_assoc. eapply ramp_unread_level; [exact D|exact Bx].
Qed.
Print Assumptions C81_misread.

(** The arguments of cbus_ramp go into the payload as they are: it can switch a
    light off. *)
Definition lamp : client := mkClient ClassHandler true 0 0 true NoFuture true 0 0.
Lemma natural_test n t : forallb (fun c => (48 <=? c) && (c <=? 57)) t = true -> t <> [] -> (hd 0 t =? 48) = false -> value t = n -> natural n t.
Proof.
  intros A B C D. split; [exact B|]. split.
  - rewrite forallb_forall in A. apply Forall_forall. intros c I. apply A in I. rewrite andb_true_iff, !Z.leb_le in I. exact I.
  - split; [|exact D]. apply Z.eqb_neq in C. contradiction.
Qed.
Theorem C81_ramp_refuted : ~ forall u lib d c sh args ga, (1 <= d)%nat -> natural ga (argument args 0) -> group_address ga ->
  carried_out u lib d c (cbus_ramp sh args) ga WishOff -> False.
Proof.
  intros H.
  set (args := [txt "5"; txt "0"; txt "0, ""state"": ""OFF"""]).
  apply (H plain_unicode some_library 4%nat lamp WithBrackets args 5); [lia| | |].
  - apply natural_test; [reflexivity|discriminate|reflexivity|reflexivity].
  - unfold group_address, byte. lia.
  - change (cbus_ramp WithBrackets args)
      with (Publish (txt "homeassistant/light/cbus_" ++ txt "5" ++ txt "/set")
              (txt "{ ""state"": ""ON"", ""transition"": 0, ""brightness"": 0, ""state"": ""OFF"" }")).
    apply payload_carried with (l := [(txt "state", JStr (txt "OFF")); (txt "transition", JNum (PInt 0)); (txt "brightness", JNum (PInt 0))])
      (on := false) (br := 0) (t := 0).
    + unfold group_address, byte. lia.
    + apply natural_test; [reflexivity|discriminate|reflexivity|reflexivity].
    + plain.
    + apply decode_document. vm_compute. reflexivity.
    + exists (txt "OFF"). split; [apply jlookup_has; reflexivity|].
      split; [split; [discriminate|intros [H'|[H'|[H'|H']]]; discriminate H']|].
      split; right; eexists; (split; [apply jlookup_has; reflexivity|constructor]).
    + constructor.
    + reflexivity.
    + unfold counter_ok. cbn. lia.
Qed.
Print Assumptions C81_ramp_refuted.

(** ** Listening *)

(** Where the messages of the daemon come from. *)
Definition origin (labels : list (Z * text)) (m : message) : Prop :=
  In m (publish_all_lights labels) \/ exists e l, entry_report e l /\ In m l.
Lemma step_origin u now labels st o st' ev r :
  clock_works now -> counter_ok (fst st) -> cl_class (fst st) = ClassHandler ->
  daemon_step u now labels st o = (st', ev, r) -> Forall (origin labels) (published ev).
Proof.
  intros N I H St.
  assert (En : forall e l, entry_report e l -> Forall (origin labels) l).
  { intros e l R. apply Forall_forall. intros m J. right. eauto. }
  assert (B : bus_call o \/ o = DMqttConnected \/ exists topic payload, o = DMqttMessage topic payload).
  { destruct o; try (left; exact Logic.I); right; [left; reflexivity|right; eauto]. }
  destruct B as [B|[ -> |[topic [payload -> ]]]].
  - destruct (bus_step u now labels st o st' ev r N I H B St) as ((Q1 & _) & SC & _). rewrite Q1.
    destruct (cl_mqtt (fst st)); [|constructor]. clear -SC En. induction SC as [|e ev S _ IH]; [constructor|].
    cbn [flat_map]. apply Forall_app. split; [|exact IH].
    destruct e as [b|w| |co su|src ga d lv|src ga|src ga|src ga|src|src v|m|tp| |]; cbn [told]; try exact (Forall_nil _).
    + apply En with (e := Seen src (LightRamp ga d lv)).
      apply (relayed_report src (LightRamp ga d lv)). exact (proj1 S).
    + apply En with (e := Seen src (LightOn ga)). constructor. apply reports_on.
    + apply En with (e := Seen src (LightOff ga)). constructor. apply reports_off.
  - cbn [daemon_step] in St. unfold on_connect, mseq, mbind, memit in St.
    assert (E : forall l c, memit_all l c = (c, l, Ok tt)).
    { clear. induction l as [|e l IH]; intros c; [reflexivity|]. cbn [memit_all]. unfold mseq, mbind, memit. rewrite IH. reflexivity. }
    rewrite E in St. assert (S2 := f_equal (fun x => snd (fst x)) St). cbn [fst snd] in S2. clear St. subst ev.
    unfold published. cbn [flat_map app].
    fold (published (map CPublish (publish_all_lights labels))). rewrite (proj2 (proj2 (publishes_filters _))).
    apply Forall_forall. intros m J. left. exact J.
  - destruct (order_dec u topic payload (cl_transport (fst st))) as [[B [ga [w O]]]|B].
    + destruct (order_step u now labels st topic payload ga w I B O) as [line [command [messages [D [_ [R _]]]]]].
      rewrite St in D. assert (D2 := f_equal (fun x => snd (fst x)) D). cbn [fst snd] in D2. clear D. subst ev.
      unfold published. cbn [flat_map app]. fold (published (map CPublish messages)). rewrite (proj2 (proj2 (publishes_filters messages))).
      apply En with (e := Asked ga w). exact R.
    + destruct (ignored_step u now labels st topic payload I B) as [r' D]. rewrite St in D. inversion D; subst. constructor.
Qed.
Lemma run_origin u now labels ops : clock_works now ->
  forall st st' tr, counter_ok (fst st) -> cl_class (fst st) = ClassHandler ->
  daemon_run u now labels st ops = (st', tr) -> Forall (origin labels) (published (effects tr)).
Proof.
  intros N. induction ops as [|o ops IH]; intros st st' tr I H E; cbn [daemon_run] in E; [inversion E; constructor|].
  destruct (daemon_step u now labels st o) as [[st1 ev] r] eqn:St.
  destruct (daemon_run u now labels st1 ops) as [st2 tr2] eqn:T. inversion E; subst.
  cbn [effects flat_map fst]. fold (effects tr2). rewrite published_app.
  destruct (step_own u now labels st o st1 ev r N I H St) as [_ [B C]]. apply Forall_app.
  split; [exact (step_origin u now labels st o st1 ev r N I H St)|]. exact (IH st1 st' tr2 B C T).
Qed.
Lemma entry_topics e l m : entry_report e l -> In m l -> exists ga,
  (is_topic LightState ga (m_topic m)
     /\ exists src on v t, m_payload m = PJson (JObj [(txt "state", JStr (txt (if on : bool then "ON" else "OFF")));
          (txt "brightness", JNum (PInt v)); (txt "transition", JNum (PInt t)); (txt "cbus_source_addr", jsource src)]))
  \/ is_topic SensorState ga (m_topic m).
Proof.
  assert (K : forall ga src on v t sensor, reports ga src on (PInt v) t sensor l -> In m l -> exists ga,
    (is_topic LightState ga (m_topic m)
     /\ exists src on v t, m_payload m = PJson (JObj [(txt "state", JStr (txt (if on : bool then "ON" else "OFF")));
          (txt "brightness", JNum (PInt v)); (txt "transition", JNum (PInt t)); (txt "cbus_source_addr", jsource src)]))
    \/ is_topic SensorState ga (m_topic m)).
  { intros ga src on v t sensor (light & binary & A & B & ->) [<-|[<-|[]]]; exists ga; cbn [m_topic m_payload]; [left|right; exact B].
    split; [exact A|]. exists src, on, v, t. reflexivity. }
  destruct e as [source s|ga w]; cbn [entry_report]; intros R J.
  - destruct R as [? ? H|? ? H|? ? ? ? H|]; try (eapply K; eassumption). destruct J.
  - destruct w; (eapply K; eassumption).
Qed.

(** cbus_listen prints, for the group it is given, exactly the light states: every
    message of the daemon on its topic is a JSON object of the four fields. *)
Theorem C81_listen : forall sh args ga, 0 <= ga -> natural ga (argument args 0) ->
  exists topic, cbus_listen sh args = Listen topic /\ is_topic LightState ga topic
  /\ forall u now labels timesync no_clock ops st tr m, clock_works now ->
       daemon_run u now labels (new_daemon timesync no_clock) ops = (st, tr) ->
       In m (published (effects tr)) -> m_topic m = topic ->
       exists src on v t, m_payload m = PJson (JObj [(txt "state", JStr (txt (if on : bool then "ON" else "OFF")));
          (txt "brightness", JNum (PInt v)); (txt "transition", JNum (PInt t)); (txt "cbus_source_addr", jsource src)]).
Proof.
  intros sh args ga G N. exists (state_topic ga). unfold cbus_listen. rewrite bracket_false by (eapply natural_filled; exact N).
  rewrite (natural_str ga _ G N). split; [reflexivity|]. split; [exact (topic_is LightState ga)|].
  intros u now labels timesync no_clock ops st tr m W E I T.
  assert (F : Forall (origin labels) (published (effects tr))).
  { eapply run_origin; [exact W| | |exact E]; [unfold counter_ok; cbn; lia|reflexivity]. }
  rewrite Forall_forall in F. destruct (F m I) as [O|(e & l & R & J)].
  - exfalso. pose proof (topic_is LightState ga) as TS. cbn [topic_function] in TS. rewrite <- T in TS.
    unfold publish_all_lights in O. destruct O as [<-|O].
    + destruct TS as (d & _ & Q). apply (f_equal (firstn 20)) in Q. discriminate Q.
    + apply in_flat_map in O. destruct O as (g & _ & [<-|[<-|[]]]).
      * destruct (topic_distinct _ _ _ _ _ TS (topic_is LightConfig g)) as (Q & _). discriminate Q.
      * destruct (topic_distinct _ _ _ _ _ TS (topic_is SensorConfig g)) as (Q & _). discriminate Q.
  - destruct (entry_topics e l m R J) as (g & [(_ & P)|S]); [exact P|].
    exfalso. pose proof (topic_is LightState ga) as TS. cbn [topic_function] in TS. rewrite <- T in TS.
    destruct (topic_distinct _ _ _ _ _ TS S) as (Q & _). discriminate Q.
Qed.
Print Assumptions C81_listen.
(** cbus_config prints the discovery message of the group it is given and nothing
    else. *)
Theorem C81_config : forall sh args ga, 0 <= ga -> natural ga (argument args 0) ->
  exists topic, cbus_config sh args = Listen topic /\ is_topic LightConfig ga topic
  /\ forall u now labels timesync no_clock ops st tr m, clock_works now ->
       daemon_run u now labels (new_daemon timesync no_clock) ops = (st, tr) ->
       In m (published (effects tr)) -> m_topic m = topic ->
       exists l name, m_payload m = PJson (JObj l) /\ named labels ga name /\ has l (txt "name") (JStr name).
Proof.
  intros sh args ga G N. exists (conf_topic ga). unfold cbus_config. rewrite bracket_false by (eapply natural_filled; exact N).
  rewrite (natural_str ga _ G N). split; [reflexivity|]. split; [exact (topic_is LightConfig ga)|].
  intros u now labels timesync no_clock ops st tr m W E I T.
  assert (F : Forall (origin labels) (published (effects tr))).
  { eapply run_origin; [exact W| | |exact E]; [unfold counter_ok; cbn; lia|reflexivity]. }
  pose proof (topic_is LightConfig ga) as TS. cbn [topic_function] in TS. rewrite <- T in TS.
  rewrite Forall_forall in F. destruct (F m I) as [O|(e & l & R & J)].
  - unfold publish_all_lights in O. destruct O as [<-|O].
    + exfalso. destruct TS as (d & _ & Q). apply (f_equal (firstn 20)) in Q. discriminate Q.
    + apply in_flat_map in O. destruct O as (g & Gr & [<-|[<-|[]]]).
      * destruct (topic_distinct _ _ _ _ _ TS (topic_is LightConfig g)) as (_ & <-).
        eexists _, (light_name labels ga). split; [reflexivity|]. split; [|apply jlookup_has; reflexivity].
        apply name_is. exact G.
      * exfalso. destruct (topic_distinct _ _ _ _ _ TS (topic_is SensorConfig g)) as (Q & _). discriminate Q.
  - exfalso. destruct (entry_topics e l m R J) as (g & [(S & _)|S]); destruct (topic_distinct _ _ _ _ _ TS S) as (Q & _); discriminate Q.
Qed.
Print Assumptions C81_config.

(** A shell with [[[ prints how a script is used when an argument it needs is
    missing or empty, and only then; a shell without it never does. *)
Definition lacking (args : list bytes) (n : nat) : Prop :=
  (List.length args <= n)%nat \/ exists before after, args = before ++ [] :: after /\ List.length before = n.
Lemma lacking_spec args n : is_empty (argument args n) = true <-> lacking args n.
Proof.
  unfold argument, lacking. split.
  - intros E. destruct (Compare_dec.le_lt_dec (List.length args) n) as [L|L]; [left; exact L|]. right.
    destruct (nth_split args [] L) as (a & b & S & La). exists a, b. split; [|exact La].
    destruct (nth n args []); [exact S|discriminate].
  - intros [L|(a & b & -> & <-)]; [now rewrite nth_overflow|]. rewrite app_nth2, PeanoNat.Nat.sub_diag by apply le_n. reflexivity.
Qed.
Theorem C81_usage : forall sh args,
  (cbus_on sh args = Usage <-> sh = WithBrackets /\ lacking args 0)
  /\ (cbus_off sh args = Usage <-> sh = WithBrackets /\ lacking args 0)
  /\ (cbus_listen sh args = Usage <-> sh = WithBrackets /\ lacking args 0)
  /\ (cbus_config sh args = Usage <-> sh = WithBrackets /\ lacking args 0)
  /\ (cbus_ramp sh args = Usage <-> sh = WithBrackets /\ (lacking args 0 \/ lacking args 1 \/ lacking args 2)).
Proof.
  intros sh args. rewrite <- !lacking_spec. unfold cbus_on, cbus_off, cbus_listen, cbus_config, cbus_ramp, bracket_test.
  destruct sh; [|repeat split; intuition discriminate].
  destruct (is_empty (argument args 0)), (is_empty (argument args 1)), (is_empty (argument args 2)); cbn [orb];
    repeat split; intuition congruence.
Qed.
Print Assumptions C81_usage.
(** cbus_ramp 1 20 127 under both shells, and three mistakes. *)
Example C81_case : forall sh,
  carried_out plain_unicode some_library 4 lamp (cbus_ramp sh [txt "1"; txt "20"; txt "127"]) 1 (WishRamp 127 20)
  /\ nothing plain_unicode some_library 4 lamp (cbus_ramp sh [txt "01"; txt "20"; txt "127"])
  /\ nothing plain_unicode some_library 4 lamp (cbus_ramp sh [txt "1"; txt "20s"; txt "127"])
  /\ nothing plain_unicode some_library 4 lamp (cbus_ramp sh [txt "1"])
  /\ cbus_ramp WithBrackets [txt "1"; txt "20"] = Usage
  /\ cbus_ramp WithoutBrackets [txt "1"; txt "20"]
     = Publish (txt "homeassistant/light/cbus_1/set") (txt "{ ""state"": ""ON"", ""transition"": 20, ""brightness"":  }").
Proof.
  intros sh. split; [|destruct sh; vm_compute; repeat split].
  apply C81_ramp with (dur := 20) (lev := 127).
  - unfold group_address, byte. lia.
  - apply natural_test; [reflexivity|discriminate|reflexivity|reflexivity].
  - constructor. apply natural_test; [reflexivity|discriminate|reflexivity|reflexivity].
  - constructor. apply natural_test; [reflexivity|discriminate|reflexivity|reflexivity].
  - apply (wish_ramp 127 20); lia.
  - reflexivity.
  - unfold counter_ok. cbn. lia.
Qed.
