(** Lemmas on the emulated PCI. *)
From Coq Require Import List ZArith QArith Bool Lia.
From Verif Require Import Py Common Sal Cal Packet Buffered Server Base Spec Spec_server Common_facts Sal_facts
  Cal_facts Packet_facts Packet_roundtrip Packet_decode Packet_total Buffer_facts Client_facts.
Import ListNotations.
Open Scope Z_scope.

(** ** Confirmation codes of decoded packets *)
Definition confirm_of (p : packet) : option Z :=
  match p with
  | PktPM h _ _ | PktPP h _ _ _ | PktDM h _ _ => h_confirm h
  | _ => None
  end.

Lemma mem_codes c : mem c CONFIRMATION_CODES = true -> is_code c.
Proof. intros H. apply code_spec. now apply mem_spec. Qed.

Lemma payload_code ck dm conf src n at_ prio dp data ws p m :
  decode_payload ck false dm conf src n at_ prio dp data = (ws, Ok (p, m)) ->
  confirm_of p = conf \/ confirm_of p = None.
Proof.
  assert (SA : forall q, confirm_of (set_attrs q false conf src) = conf \/ confirm_of (set_attrs q false conf src) = None).
  { intros q. destruct q; cbn; auto. }
  unfold decode_payload, wmap, wlift, wbind. intros H.
  destruct dp.
  { destruct (dm_decode data ck prio) as [q|e]; inversion H; subst. apply SA. }
  destruct dm.
  { destruct (decode_cal data) as [[c l]|e]; inversion H; subst. right. reflexivity. }
  destruct (at_ =? DAT_PP).
  { destruct (pp_decode data ck prio) as [q|e]; inversion H; subst. apply SA. }
  destruct (at_ =? DAT_PM).
  { destruct (pm_decode data ck prio) as [w [q|e]]; inversion H; subst. apply SA. }
  discriminate H.
Qed.

Lemma frame_code ck dm conf n fl data ws p m :
  decode_frame ck false dm conf n fl data = (ws, Ok (p, m)) ->
  confirm_of p = conf \/ confirm_of p = None.
Proof.
  unfold decode_frame. destruct (destination_address_type (Z.land fl 7)) as [at_|e].
  - unfold wtry. destruct (decode_payload ck false dm conf None n at_ _ _ (skipn 1 data)) as [w [[q k]|e]] eqn:D.
    + intros H. inversion H; subst. exact (payload_code _ _ _ _ _ _ _ _ _ _ _ _ D).
    + intros H. inversion H; subst. right. reflexivity.
  - intros H. inversion H; subst. right. reflexivity.
Qed.

Lemma hex_code ck strict dm conf n data ws p m :
  decode_hex ck strict false dm conf n data = (ws, Ok (Some p, m)) ->
  confirm_of p = conf \/ confirm_of p = None.
Proof.
  intros E. assert (O := decode_hex_outcome ck strict false dm conf n data). rewrite E in O.
  remember (ws, Ok (Some p, m)) as R eqn:ER in O.
  destruct O as [N|F Odd|Nil|raw F D NE Hc Hs S|ws' raw F D L1 Hc Q W|ws' raw msg fl body F D B M C S W];
    try discriminate.
  - inversion ER. now right.
  - inversion ER. now right.
  - assert (ER' := f_equal snd ER). cbn [snd] in ER'.
    unfold lift_packet in ER'. destruct (decode_frame ck false dm conf n fl msg) as [w [[q k]|e]] eqn:G;
      cbn in ER'; inversion ER'; subst. exact (frame_code _ _ _ _ _ _ _ _ _ G).
Qed.

Lemma packet_code data ck ws p n c :
  decode_packet data ck true false = (ws, Ok (Some p, n)) -> confirm_of p = Some c -> is_code c.
Proof.
  intros D C. destruct (to_pci_cases data ck true) as [[H _]|[_ [[q [m [_ [P H]]]]|[line [rest [E [R1 [R2 R3]]]]]]]].
  - rewrite H in D. discriminate D.
  - specialize (H []). rewrite app_nil_r in H. rewrite H in D. inversion D; subst.
    destruct P as [P|[P|P]]; inversion P; subst; discriminate C.
  - subst data. rewrite to_pci_line in D by assumption.
    destruct line as [|c0 tl]; [discriminate D|].
    destruct (decode_line_outcome ck true (length (c0 :: tl) + 1) (c0 :: tl)) as [prefix [body [_ [_ [_ O]]]]]; [discriminate|].
    rewrite D in O. remember (ws, Ok (Some p, n)) as R eqn:ER in O.
    destruct O as [B|i l B L|i l B L|i l B L1 L2 St|i l B L1 L2 St]; try discriminate.
    + apply hex_code in ER. destruct ER; congruence.
    + apply hex_code in ER. destruct ER as [Q|Q]; [|congruence]. congruence.
    + inversion ER; subst. discriminate C.
Qed.

(** ** Lines sent by units *)

Lemma with_checksum_tail ck raw : is_bytes raw ->
  exists tail, with_checksum ck raw = raw ++ tail
    /\ if ck then exists c, tail = [c] /\ byte c /\ sum (raw ++ tail) mod 256 = 0 else tail = [].
Proof.
  intros B. destruct ck; cbn [with_checksum].
  - exists [cbus_checksum raw]. split; [reflexivity|]. eexists. split; [reflexivity|].
    split; [apply checksum_byte|]. rewrite sum_app, cbus_checksum_eq. simpl. lia.
  - exists []. now rewrite app_nil_r.
Qed.

Lemma hex_line_encode raw : is_bytes raw -> hex_line raw (b16encode raw ++ [13; 10]).
Proof.
  intros B. exists (b16encode raw). split; [reflexivity|]. split; [now apply b16_hex|now apply b16_roundtrip].
Qed.

Lemma unit_packet_any ck src s body : is_bytes body ->
  sal_application s = 0x38 -> sal_encode s = Ok body ->
  exists p w, unit_packet ck src (Ok s) = Ok p /\ serialize_packet p = Ok w /\ unit_line ck (src mod 256) body w.
Proof.
  intros Hb A E. unfold unit_packet. cbn [rbind]. unfold new_pm. cbn [append_sals].
  unfold append_sal. cbn [fst snd]. rewrite A. cbn [rbind append_sals app].
  eexists. eexists. split; [reflexivity|].
  unfold serialize_packet. cbn [encode_packet]. rewrite (pm_encode_commands _ 0x38 [s] body).
  2:unfold byte; lia. 2:cbn [concat_res]; rewrite E; cbn [rbind]; now rewrite app_nil_r.
  cbn [rbind h_checksum h_priority h_source app]. split; [reflexivity|].
  change (flags DAT_PM 0 false CLASS_4) with 5.
  assert (B : is_bytes ([5; src mod 256; 56; 0] ++ body)) by (byte_list; try assumption; unfold byte; try lia; pose proof (Z.mod_pos_bound src 256); lia).
  destruct (with_checksum_tail ck _ B) as [tail [W T]]. exists tail. split.
  - rewrite app_assoc, <- W. now apply hex_line_encode, with_checksum_bytes.
  - destruct ck; [|exact T]. destruct T as [c T]. exists c. now rewrite app_assoc.
Qed.

Lemma unit_packet_line ck src s body : byte src -> is_bytes body ->
  sal_application s = 0x38 -> sal_encode s = Ok body ->
  exists p w, unit_packet ck src (Ok s) = Ok p /\ serialize_packet p = Ok w /\ unit_line ck src body w.
Proof. intros Hs. pose proof (unit_packet_any ck src s body) as U. rewrite (mod_of_byte src Hs) in U. exact U. Qed.

(** ** The presence report *)
Definition block_line (x : nat) : bytes :=
  match serialize_packet (status_block x) with Ok w => w | Raise _ => [] end.

Lemma block_raw x raw : serialize_packet (status_block x) = Ok (b16encode raw ++ [13; 10]) ->
  is_bytes raw -> hex_line raw (block_line x).
Proof. intros E B. unfold block_line. rewrite E. now apply hex_line_encode. Qed.

Lemma blocks_present : presence_lines (block_line 0) (block_line 88) (block_line 176)
  /\ forall x, In x [0; 88; 176]%nat -> serialize_packet (status_block x) = Ok (block_line x).
Proof.
  assert (N0 : Forall (fun b => 0 <= b <= 255) ([217; 255; 0] ++ [84; 85; 21] ++ repeat 0 19 ++ [106])).
  { repeat constructor; discriminate. }
  assert (N1 : Forall (fun b => 0 <= b <= 255) ([217; 255; 88] ++ repeat 0 22 ++ [208])).
  { repeat constructor; discriminate. }
  assert (N2 : Forall (fun b => 0 <= b <= 255) ([215; 255; 176] ++ (repeat 0 19 ++ [4]) ++ [118])).
  { repeat constructor; discriminate. }
  split.
  - split; [|split].
    + exists 217, ([84; 85; 21] ++ repeat 0 19), 106. split; [|split; [reflexivity|split; [reflexivity|reflexivity]]].
      apply block_raw; [vm_compute; reflexivity|exact N0].
    + exists 217, (repeat 0 22), 208. split; [|split; [reflexivity|split; [reflexivity|reflexivity]]].
      apply block_raw; [vm_compute; reflexivity|exact N1].
    + exists 215, (repeat 0 19 ++ [4]), 118. split; [|split; [reflexivity|split; [reflexivity|reflexivity]]].
      apply block_raw; [vm_compute; reflexivity|exact N2].
  - intros x [<-|[<-|[<-|[]]]]; vm_compute; reflexivity.
Qed.

(** ** Steps of the emulator *)

Lemma ssend_ok cmd b s : sv_transport s = true -> serialize_packet cmd = Ok b ->
  ssend cmd s = (set_queue s [], map SWrite (b :: sv_queue s), Ok tt).
Proof.
  intros T E. unfold ssend, sbind, slift, sseq. rewrite E. unfold sbind, swrite. rewrite T.
  assert (K : forall l s', sv_transport s' = true -> swrite_all l s' = (s', map SWrite l, Ok tt)).
  { clear. induction l as [|x l IH]; intros s' T; [reflexivity|]. cbn [swrite_all map].
    unfold sseq, sbind, swrite. rewrite T, IH by exact T. reflexivity. }
  rewrite K by exact T. reflexivity.
Qed.

Lemma swrites_app a b : swrites (a ++ b) = swrites a ++ swrites b.
Proof. unfold swrites. apply flat_map_app. Qed.
Lemma scallbacks_app a b : scallbacks (a ++ b) = scallbacks a ++ scallbacks b.
Proof. unfold scallbacks. apply filter_app. Qed.
Lemma swrites_map l : swrites (map SWrite l) = l.
Proof. induction l as [|x l IH]; [reflexivity|]. change (x :: swrites (map SWrite l) = x :: l). now rewrite IH. Qed.
Lemma scallbacks_map l : scallbacks (map SWrite l) = [].
Proof. induction l as [|x l IH]; [reflexivity|exact IH]. Qed.

(** The state after queueing and drawing. *)
Definition moved (s : server) (q : list bytes) (d : nat) : server := set_draws (set_queue s q) d.

Lemma moved_same s : moved s (sv_queue s) (sv_draws s) = s.
Proof. destruct s; reflexivity. Qed.
Lemma moved_moved s q d q' d' : moved (moved s q d) q' d' = moved s q' d'.
Proof. reflexivity. Qed.

Lemma status_ok ga s : sv_transport s = true -> sv_basic s = true ->
  exists ev, on_master_application_status ga s = (moved s [] (sv_draws s), ev, Ok tt)
    /\ swrites ev = [block_line 0] ++ sv_queue s ++ [block_line 88; block_line 176]
    /\ scallbacks ev = [SMasterStatus ga].
Proof.
  intros T B. destruct blocks_present as [_ E].
  unfold on_master_application_status, sseq. unfold sbind at 1. cbn [semit].
  rewrite B. unfold sbind.
  rewrite (ssend_ok _ (block_line 0)); [|exact T|apply E; cbn; auto].
  rewrite (ssend_ok _ (block_line 88)); [|exact T|apply E; cbn; auto].
  rewrite (ssend_ok _ (block_line 176)); [|exact T|apply E; cbn; auto].
  eexists. split; [reflexivity|].
  set (b0 := block_line 0). set (b1 := block_line 88). set (b2 := block_line 176).
  cbn [sv_queue set_queue]. split.
  - rewrite !swrites_app, !swrites_map. reflexivity.
  - rewrite !scallbacks_app, !scallbacks_map. reflexivity.
Qed.

Lemma clock_ok rnd v s : randint_works rnd ->
  let d := sv_draws s in
  exists on off ev, s_on_clock_update rnd v s = (moved s (sv_queue s ++ [on; off]) (4 + d), ev, Ok tt)
    /\ unit_line (sv_checksum s) (rnd (1 + d)%nat) [0x79; rnd d] on
    /\ unit_line (sv_checksum s) (rnd (3 + d)%nat) [0x01; rnd (2 + d)%nat] off
    /\ swrites ev = [] /\ scallbacks ev = [SClockUpdate v].
Proof.
  intros R d.
  assert (K : forall n, byte (rnd n)) by (intros n; specialize (R n); unfold byte; lia).
  assert (C : forall n, check_ga (rnd n) = Ok tt).
  { intros n. specialize (R n). unfold check_ga, validate_ga, MIN_GROUP_ADDR, MAX_GROUP_ADDR.
    replace (_ && _) with true by lia. reflexivity. }
  assert (KB : forall c n, byte c -> is_bytes [c; rnd n]) by (intros c n H; byte_list; auto).
  destruct (unit_packet_line (sv_checksum s) (rnd (1 + d)%nat) (LightOn (rnd d)) [0x79; rnd d]) as [p1 [w1 [P1 [S1 U1]]]];
    [auto|apply KB; unfold byte; lia|reflexivity| |].
  { cbn [sal_encode]. unfold light_simple_encode. rewrite C. cbn [rbind]. apply mk_bytes_ok.
    apply KB; unfold byte; lia. }
  destruct (unit_packet_line (sv_checksum s) (rnd (3 + d)%nat) (LightOff (rnd (2 + d)%nat)) [0x01; rnd (2 + d)%nat])
    as [p2 [w2 [P2 [S2 U2]]]];
    [auto|apply KB; unfold byte; lia|reflexivity| |].
  { cbn [sal_encode]. unfold light_simple_encode. rewrite C. cbn [rbind]. apply mk_bytes_ok.
    apply KB; unfold byte; lia. }
  exists w1, w2. eexists. split; [|split; [exact U1|split; [exact U2|]]].
  - unfold s_on_clock_update, sseq, sbind, semit, draw, slift, send_later, sbind, slift.
    fold d. cbn [set_draws sv_checksum sv_draws sv_queue set_queue].
    fold d. unfold new_light_on, new_light_off. rewrite !C. cbn [rbind].
    change (1 + d)%nat with (S d) in P1. change (2 + d)%nat with (S (S d)) in P2.
    change (3 + d)%nat with (S (S (S d))) in P2.
    rewrite P1, S1. cbn [set_draws sv_checksum sv_draws sv_queue set_queue].
    rewrite C. cbn [rbind]. rewrite P2, S2. cbn [set_draws sv_checksum sv_draws sv_queue set_queue app].
    unfold moved. cbn [set_draws set_queue sv_transport sv_basic sv_connect sv_checksum sv_monitor sv_idmon
      sv_app1 sv_app2 sv_queue sv_draws]. rewrite <- app_assoc. reflexivity.
  - split; reflexivity.
Qed.

(** ** The commands of a packet *)

Definition refuses (s : server) (l : list sal) : bool :=
  negb (sv_basic s) && existsb presence_request (heard l).

Lemma sseq_ok {A B} (m : MS A) (k : MS B) s s1 ev1 a s2 ev2 r :
  m s = (s1, ev1, Ok a) -> k s1 = (s2, ev2, r) -> sseq m k s = (s2, ev1 ++ ev2, r).
Proof. intros E F. unfold sseq, sbind. rewrite E, F. reflexivity. Qed.

Lemma dispatch_ok rnd l : randint_works rnd -> forall s, sv_transport s = true -> refuses s l = false ->
  exists ev out q d, s_dispatch_sals rnd l s = (moved s q d, ev, Ok (forallb understood l))
    /\ emits rnd (sv_checksum s) (heard l) (sv_queue s) (sv_draws s) out q d
    /\ swrites ev = out /\ scallbacks ev = flat_map scallback_of (heard l).
Proof.
  intros R. induction l as [|x l IH]; intros s T F.
  - exists [], [], (sv_queue s), (sv_draws s). cbn [s_dispatch_sals heard forallb flat_map].
    rewrite moved_same. repeat split. constructor.
  - assert (Q : forall e, presence_request x = false -> understood x = true ->
        (match x with LightRamp _ _ _ | LightOn _ | LightOff _ | LightTerminate _ | ClockRequest => True | _ => False end) ->
        scallback_of x = [e] -> is_scallback e = true -> swrites [e] = [] ->
        s_dispatch_sals rnd (x :: l) s = sseq (semit e) (s_dispatch_sals rnd l) s ->
        exists ev out q d, s_dispatch_sals rnd (x :: l) s = (moved s q d, ev, Ok (forallb understood (x :: l)))
    /\ emits rnd (sv_checksum s) (heard (x :: l)) (sv_queue s) (sv_draws s) out q d
    /\ swrites ev = out /\ scallbacks ev = flat_map scallback_of (heard (x :: l))).
    { intros e P U K C I W E. unfold refuses in F. cbn [heard] in F |- *. rewrite U in F |- *.
      cbn [existsb] in F. rewrite P in F.
      destruct (IH s T F) as [ev [out [q [d [E1 [E2 [E3 E4]]]]]]].
      exists (e :: ev), out, q, d. rewrite E. rewrite (sseq_ok _ _ _ s [e] tt _ _ _ eq_refl E1).
      cbn [forallb]. rewrite U. split; [reflexivity|]. split; [now apply em_quiet|].
      change (e :: ev) with ([e] ++ ev). rewrite swrites_app, scallbacks_app, W, E3, E4.
      split; [reflexivity|]. cbn [flat_map]. rewrite C. unfold scallbacks. cbn [filter]. rewrite I. reflexivity. }
    destruct x as [ga dur lv|ga|ga|ga|v| |ga t|var val|lvl ga child];
      try (eapply Q; reflexivity).
    + clear Q. unfold refuses in F. cbn [heard understood existsb presence_request orb] in F.
      destruct (clock_ok rnd v s R) as [on [off [ev1 [E [U1 [U2 [W C]]]]]]].
      destruct (IH (moved s (sv_queue s ++ [on; off]) (4 + sv_draws s)) T F) as [ev [out [q [d [E1 [E2 [E3 E4]]]]]]].
      cbn [s_dispatch_sals]. rewrite (sseq_ok _ _ _ _ _ _ _ _ _ E E1).
      exists (ev1 ++ ev), out, q, d. split; [reflexivity|].
      split; [cbn [heard understood]; now apply em_clock with on off|].
      rewrite swrites_app, scallbacks_app, W, C, E3, E4. split; reflexivity.
    + cbn [s_dispatch_sals heard understood forallb flat_map andb].
      exists [], [], (sv_queue s), (sv_draws s). rewrite moved_same. repeat split. constructor.
    + cbn [s_dispatch_sals heard understood forallb flat_map andb].
      exists [], [], (sv_queue s), (sv_draws s). rewrite moved_same. repeat split. constructor.
    + clear Q. cbn [s_dispatch_sals heard understood forallb]. change APP_STATUS_REQUEST with 0xff.
      unfold refuses in F. cbn [heard understood] in F. rewrite (andb_comm (child =? 0xff)).
      destruct (negb lvl && (child =? 0xff)) eqn:K.
      * apply andb_prop in K. destruct K as [K1 K2]. apply Z.eqb_eq in K2. subst child.
        destruct lvl; [discriminate|]. cbn [existsb presence_request negb Z.eqb Pos.eqb andb orb] in F.
        assert (B : sv_basic s = true) by (destruct (sv_basic s); [reflexivity|discriminate]).
        destruct (status_ok ga s T B) as [ev1 [E [W C]]].
        destruct (IH (moved s [] (sv_draws s)) T) as [ev [out [q [d [E1 [E2 [E3 E4]]]]]]].
        { unfold refuses. cbn [moved set_draws set_queue sv_basic]. now rewrite B. }
        rewrite (sseq_ok _ _ _ _ _ _ _ _ _ E E1). eexists. eexists. exists q, d. split; [reflexivity|].
        split; [apply em_status; [apply blocks_present|exact E2]|].
        rewrite swrites_app, scallbacks_app, W, C, E3, E4. split; [|reflexivity].
        rewrite <- !app_assoc. reflexivity.
      * exists [], [], (sv_queue s), (sv_draws s). rewrite moved_same. repeat split. constructor.
Qed.

Lemma dispatch_refused rnd l : randint_works rnd -> forall s, refuses s l = true ->
  exists pre ga post ev q d, heard l = pre ++ StatusRequest false ga 0xff :: post
    /\ s_dispatch_sals rnd l s = (moved s q d, ev, Raise NotImplementedError)
    /\ emits rnd (sv_checksum s) pre (sv_queue s) (sv_draws s) [] q d
    /\ swrites ev = [] /\ scallbacks ev = flat_map scallback_of pre ++ [SMasterStatus ga].
Proof.
  intros R. induction l as [|x l IH]; intros s F.
  - unfold refuses in F. cbn in F. rewrite andb_false_r in F. discriminate.
  - assert (Q : forall e, presence_request x = false -> understood x = true ->
        (match x with LightRamp _ _ _ | LightOn _ | LightOff _ | LightTerminate _ | ClockRequest => True | _ => False end) ->
        scallback_of x = [e] -> is_scallback e = true -> swrites [e] = [] ->
        s_dispatch_sals rnd (x :: l) s = sseq (semit e) (s_dispatch_sals rnd l) s ->
        exists pre ga post ev q d, heard (x :: l) = pre ++ StatusRequest false ga 0xff :: post
    /\ s_dispatch_sals rnd (x :: l) s = (moved s q d, ev, Raise NotImplementedError)
    /\ emits rnd (sv_checksum s) pre (sv_queue s) (sv_draws s) [] q d
    /\ swrites ev = [] /\ scallbacks ev = flat_map scallback_of pre ++ [SMasterStatus ga]).
    { intros e P U K C I W E. unfold refuses in F. cbn [heard] in F |- *. rewrite U in F |- *.
      cbn [existsb] in F. rewrite P in F.
      destruct (IH s F) as [pre [ga [post [ev [q [d [E0 [E1 [E2 [E3 E4]]]]]]]]]].
      exists (x :: pre), ga, post, (e :: ev), q, d. rewrite E0. split; [reflexivity|].
      rewrite E. rewrite (sseq_ok _ _ _ s [e] tt _ _ _ eq_refl E1).
      split; [reflexivity|]. split; [now apply em_quiet|].
      change (e :: ev) with ([e] ++ ev). rewrite swrites_app, scallbacks_app, W, E3, E4.
      split; [reflexivity|]. cbn [flat_map]. rewrite C. unfold scallbacks. cbn [filter]. rewrite I. reflexivity. }
    destruct x as [ga dur lv|ga|ga|ga|v| |ga t|var val|lvl ga child];
      try (eapply Q; reflexivity).
    + clear Q. unfold refuses in F. cbn [heard understood existsb presence_request orb] in F.
      destruct (clock_ok rnd v s R) as [on [off [ev1 [E [U1 [U2 [W C]]]]]]].
      destruct (IH (moved s (sv_queue s ++ [on; off]) (4 + sv_draws s)) F)
        as [pre [ga [post [ev [q [d [E0 [E1 [E2 [E3 E4]]]]]]]]]].
      cbn [s_dispatch_sals]. rewrite (sseq_ok _ _ _ _ _ _ _ _ _ E E1).
      exists (ClockUpdate v :: pre), ga, post, (ev1 ++ ev), q, d. cbn [heard understood]. rewrite E0.
      split; [reflexivity|]. split; [reflexivity|].
      split; [now apply em_clock with on off|].
      rewrite swrites_app, scallbacks_app, W, C, E3, E4. split; reflexivity.
    + unfold refuses in F. cbn in F. rewrite andb_false_r in F. discriminate.
    + unfold refuses in F. cbn in F. rewrite andb_false_r in F. discriminate.
    + clear Q. cbn [s_dispatch_sals heard understood]. change APP_STATUS_REQUEST with 0xff.
      unfold refuses in F. cbn [heard understood] in F. rewrite (andb_comm (child =? 0xff)).
      destruct (negb lvl && (child =? 0xff)) eqn:K.
      * apply andb_prop in K. destruct K as [K1 K2]. apply Z.eqb_eq in K2. subst child.
        destruct lvl; [discriminate|].
        assert (B : sv_basic s = false) by (destruct (sv_basic s); [discriminate|reflexivity]).
        exists [], ga, (heard l). eexists. exists (sv_queue s), (sv_draws s). split; [reflexivity|].
        rewrite moved_same. unfold on_master_application_status, sseq, sbind, semit. rewrite B.
        split; [reflexivity|]. split; [constructor|]. split; reflexivity.
      * cbn in F. rewrite andb_false_r in F. discriminate.
Qed.

(** ** A whole packet *)

Definition advance (m : modes) (p : packet) : modes :=
  match p with
  | PktReset => defaults
  | PktDM _ parameter v => if sets_options parameter then options v else m
  | PktSmartConnect => mkModes false true (m_checksum m) (m_monitor m) (m_idmon m)
  | _ => m
  end.
Lemma latest_advance p ps : latest (p :: ps) = advance (latest ps) p.
Proof. destruct p; reflexivity. Qed.

Definition refused (s : server) (p : packet) : bool :=
  match p with PktPM _ _ l => refuses s l | _ => false end.

Lemma bit_testbit x n : 0 <= n -> bit_set x (2 ^ n) = Z.testbit x n.
Proof.
  intros N. unfold bit_set. destruct (Z.testbit x n) eqn:T.
  - apply negb_true_iff. apply Z.eqb_neq. intros H.
    assert (Z.testbit (Z.land x (2 ^ n)) n = true).
    { rewrite Z.land_spec, T, Z.pow2_bits_true by lia. reflexivity. }
    rewrite H, Z.bits_0 in *. discriminate.
  - apply negb_false_iff. apply Z.eqb_eq. apply Z.bits_inj'. intros k K. rewrite Z.land_spec, Z.bits_0.
    destruct (Z.eq_dec k n) as [->|D]; [now rewrite T|].
    rewrite Z.pow2_bits_false by lia. apply andb_false_r.
Qed.

Lemma confirm_ok h s c : sv_transport s = true -> h_confirm h = Some c -> is_code c ->
  confirm_if h true s = (moved s [] (sv_draws s), map SWrite (confirmation c :: sv_queue s), Ok tt).
Proof.
  intros T H C. unfold confirm_if. rewrite H. unfold send_confirmation, sbind, slift.
  assert (E : new_confirmation [c] true = Ok (PktConfirm [c] true)).
  { unfold new_confirmation. replace (mem c CONFIRMATION_CODES) with true; [reflexivity|].
    symmetry. now apply mem_spec, code_spec. }
  rewrite E. rewrite (ssend_ok _ (confirmation c)) by (auto; reflexivity). reflexivity.
Qed.

Lemma swrites_confirm h s : sv_transport s = true -> (forall c, h_confirm h = Some c -> is_code c) ->
  exists ev q, confirm_if h true s = (moved s q (sv_draws s), ev, Ok tt) /\ scallbacks ev = []
    /\ ((exists c, h_confirm h = Some c /\ swrites ev = confirmation c :: sv_queue s /\ q = [])
       \/ h_confirm h = None /\ swrites ev = [] /\ q = sv_queue s).
Proof.
  intros T C. destruct (h_confirm h) as [c|] eqn:H.
  - exists (map SWrite (confirmation c :: sv_queue s)), []. rewrite (confirm_ok h s c) by auto. split; [reflexivity|].
    split; [apply scallbacks_map|]. left. exists c. rewrite swrites_map. auto.
  - exists [], (sv_queue s). unfold confirm_if. rewrite H, moved_same. split; [reflexivity|]. auto.
Qed.

Lemma handle_packet_ok rnd p s : randint_works rnd -> live s -> refused s p = false ->
  (forall c, confirm_of p = Some c -> is_code c) ->
  exists s' ev out, s_handle_cbus_packet rnd p s = (s', ev, Ok tt)
    /\ replies rnd (sv_checksum s) p (sv_queue s) (sv_draws s) out (sv_queue s') (sv_draws s')
    /\ swrites ev = out /\ scallbacks ev = scallbacks_of p
    /\ live s' /\ modes_of s' = advance (modes_of s) p.
Proof.
  intros R L F C.
  assert (T : sv_transport s = true) by apply L.
  assert (Q : match p with PktPM _ _ _ | PktDM _ _ _ => False | _ => True end ->
    replies rnd (sv_checksum s) p (sv_queue s) (sv_draws s) [] (sv_queue s) (sv_draws s)).
  { destruct p; intros []; apply rp_none; try constructor; reflexivity. }
  destruct p as [| | | | | |h a l|h u hp cals|h prm v| |]; cbn [s_handle_cbus_packet];
    try (exists s, [], []; repeat split; try apply L; apply Q; exact Logic.I).
  - eexists. eexists. exists []. split; [reflexivity|].
    split; [apply Q; exact Logic.I|]. repeat split. exact T.
  - eexists. eexists. exists []. split; [reflexivity|].
    split; [apply Q; exact Logic.I|]. repeat split; apply L.
  - destruct (dispatch_ok rnd l R s T F) as [ev [out [q [d [E [M [W B]]]]]]].
    unfold sbind. rewrite E. destruct (forallb understood l) eqn:U.
    + destruct (swrites_confirm h (moved s q d) T C) as [ev2 [q2 [E2 [B2 K]]]]. rewrite E2.
      eexists. eexists. eexists. split; [reflexivity|]. rewrite moved_moved.
      rewrite swrites_app, scallbacks_app, B2, app_nil_r. split; [|split; [reflexivity|]].
      * destruct K as [[c [K1 [K2 K3]]]|[K1 [K2 K3]]]; rewrite K2, W, K3.
        -- apply rp_some; [exact M|]. cbn [confirmed]. now rewrite U, K1.
        -- rewrite app_nil_r. apply rp_none; [exact M|]. cbn [confirmed]. now rewrite U, K1.
      * split; [exact B|]. split; [exact L|reflexivity].
    + cbn [confirm_if sret]. eexists. eexists. eexists. split; [reflexivity|]. rewrite app_nil_r.
      split; [|split; [reflexivity|split; [exact B|split; [exact L|reflexivity]]]].
      rewrite W. apply rp_none; [exact M|]. cbn [confirmed]. now rewrite U.
  - assert (K : exists s1, s_device_management prm v s = (s1, [], Ok (known_parameter prm))
      /\ live s1 /\ sv_queue s1 = sv_queue s /\ sv_draws s1 = sv_draws s
      /\ modes_of s1 = advance (modes_of s) (PktDM h prm v)).
    { unfold s_device_management, known_parameter, advance, sets_options. cbn [mem existsb].
      unfold options. rewrite <- !bit_testbit by lia.
      destruct (prm =? 33) eqn:P1; [exists s; replace (prm =? 48) with false by lia;
        replace (prm =? 65) with false by lia; repeat split; apply L|].
      destruct (prm =? 34) eqn:P2; [exists s; replace (prm =? 48) with false by lia;
        replace (prm =? 65) with false by lia; repeat split; apply L|].
      destruct (prm =? 62) eqn:P3; [exists s; replace (prm =? 48) with false by lia;
        replace (prm =? 65) with false by lia; repeat split; apply L|].
      destruct (prm =? 66) eqn:P4; [exists s; replace (prm =? 48) with false by lia;
        replace (prm =? 65) with false by lia; repeat split; apply L|].
      cbn [orb]. destruct (prm =? 48) eqn:P5; cbn [orb];
        [eexists; split; [reflexivity|]; split; [exact L|now repeat split]|].
      destruct (prm =? 65) eqn:P6; cbn [orb];
        [eexists; split; [reflexivity|]; split; [exact L|now repeat split]|].
      exists s. repeat split; apply L. }
    destruct K as [s1 [E [L1 [K1 [K2 K3]]]]]. unfold sbind. rewrite E.
    destruct (known_parameter prm) eqn:U.
    + destruct (swrites_confirm h s1 ltac:(apply L1) C) as [ev2 [q2 [E2 [B2 K]]]]. rewrite E2.
      eexists. eexists. eexists. split; [reflexivity|]. cbn [app sv_queue sv_draws moved set_draws set_queue].
      split; [|split; [reflexivity|split; [exact B2|split; [exact L1|exact K3]]]].
      rewrite K2. rewrite K1 in K.
      destruct K as [[c [J1 [J2 J3]]]|[J1 [J2 J3]]]; rewrite J2, J3.
      * apply (rp_some rnd (sv_checksum s) _ _ _ [] (sv_queue s)); [constructor|]. cbn [confirmed]. now rewrite U, J1.
      * apply rp_none; [constructor|]. cbn [confirmed]. now rewrite U, J1.
    + cbn [confirm_if sret]. exists s1. eexists. exists []. split; [reflexivity|]. rewrite K1, K2.
      split; [|split; [reflexivity|split; [reflexivity|split; [exact L1|exact K3]]]].
      apply rp_none; [constructor|]. cbn [confirmed]. now rewrite U.
Qed.

(** ** A message *)

Lemma decode_position data ck ws r n : decode_packet data ck true false = (ws, Ok (r, n)) ->
  (ws = [] /\ r = None /\ n = 0%nat) \/ (0 < n)%nat.
Proof.
  intros D. destruct (to_pci_cases data ck true) as [[H N]|[C _]].
  - rewrite H in D. inversion D. auto.
  - right. assert (P := complete_position data ck true false ws r n C D). lia.
Qed.

Lemma swrites_warn ws : swrites (map SWarn ws) = [].
Proof. induction ws as [|w ws IH]; [reflexivity|exact IH]. Qed.
Lemma scallbacks_warn ws : scallbacks (map SWarn ws) = [].
Proof. induction ws as [|w ws IH]; [reflexivity|exact IH]. Qed.

Lemma echo_ok s data : live s -> echo data s = (s, map SWrite (echo_of (modes_of s) data), Ok tt).
Proof.
  intros L. unfold echo, echo_of, swrite. cbn [modes_of m_basic]. destruct (sv_basic s); [|reflexivity].
  replace (sv_transport s) with true by (symmetry; apply L). reflexivity.
Qed.

Lemma handle_data_wait rnd s buf ws : decode_packet buf (sv_checksum s) true false = (ws, Ok (None, 0%nat)) ->
  s_handle_data rnd s buf = (s, [], Ok 0).
Proof.
  intros D. unfold s_handle_data. rewrite D.
  destruct (decode_position _ _ _ _ _ D) as [[-> _]|P]; [reflexivity|lia].
Qed.

Lemma handle_data_error rnd s buf ws e : decode_packet buf (sv_checksum s) true false = (ws, Raise e) ->
  s_handle_data rnd s buf = (s, [], Raise e).
Proof.
  intros D. unfold s_handle_data. rewrite D. apply decode_packet_quiet in D. now subst.
Qed.

Lemma handle_data_nothing rnd s buf ws n : live s ->
  decode_packet buf (sv_checksum s) true false = (ws, Ok (None, n)) ->
  (0 < n)%nat -> exists ev, s_handle_data rnd s buf = (s, ev, Ok (Z.of_nat n))
    /\ swrites ev = echo_of (modes_of s) (firstn n buf) /\ scallbacks ev = [].
Proof.
  intros L D P. unfold s_handle_data. rewrite D. apply Nat.ltb_lt in P. rewrite P.
  rewrite (sseq_ok _ _ _ _ _ _ _ _ _ (echo_ok s (firstn n buf) L) eq_refl).
  eexists. split; [reflexivity|]. rewrite !swrites_app, !scallbacks_app, swrites_map, swrites_warn,
    scallbacks_map, scallbacks_warn. cbn [app swrites flat_map]. rewrite app_nil_r. split; reflexivity.
Qed.

Lemma handle_data_packet rnd s buf ws p n : randint_works rnd -> live s ->
  decode_packet buf (sv_checksum s) true false = (ws, Ok (Some p, n)) -> refused s p = false ->
  exists s' ev out, s_handle_data rnd s buf = (s', ev, Ok (Z.of_nat n))
    /\ replies rnd (sv_checksum s) p (sv_queue s) (sv_draws s) out (sv_queue s') (sv_draws s')
    /\ swrites ev = echo_of (modes_of s) (firstn n buf) ++ out /\ scallbacks ev = scallbacks_of p
    /\ live s' /\ modes_of s' = advance (modes_of s) p.
Proof.
  intros R L D F.
  destruct (handle_packet_ok rnd p s R L F (fun c => packet_code _ _ _ _ _ c D))
    as [s' [ev [out [E [M [W [B [L' K]]]]]]]].
  unfold s_handle_data. rewrite D.
  destruct (decode_position _ _ _ _ _ D) as [[_ [X _]]|P]; [discriminate|]. apply Nat.ltb_lt in P. rewrite P.
  rewrite (sseq_ok _ _ _ _ _ _ _ _ _ (echo_ok s (firstn n buf) L) E).
  exists s'. eexists. exists out. split; [reflexivity|]. split; [exact M|].
  rewrite !swrites_app, !scallbacks_app, swrites_map, swrites_warn, scallbacks_map, scallbacks_warn, W, B.
  cbn [app]. auto.
Qed.

Lemma handle_data_refused rnd s buf ws p n : randint_works rnd -> live s ->
  decode_packet buf (sv_checksum s) true false = (ws, Ok (Some p, n)) -> refused s p = true ->
  exists pre ga post ev q d, heard (commands_of p) = pre ++ StatusRequest false ga 0xff :: post
    /\ sv_basic s = false
    /\ s_handle_data rnd s buf = (moved s q d, ev, Raise NotImplementedError)
    /\ emits rnd (sv_checksum s) pre (sv_queue s) (sv_draws s) [] q d
    /\ swrites ev = [] /\ scallbacks ev = flat_map scallback_of pre ++ [SMasterStatus ga].
Proof.
  intros R L D F. destruct p as [| | | | | |h a l| | | |]; try discriminate. cbn [refused commands_of] in *.
  assert (B : sv_basic s = false) by (unfold refuses in F; destruct (sv_basic s); [discriminate|reflexivity]).
  destruct (dispatch_refused rnd l R s F) as [pre [ga [post [ev [q [d [E0 [E1 [E2 [E3 E4]]]]]]]]]].
  exists pre, ga, post. eexists. exists q, d. split; [exact E0|]. split; [exact B|]. split.
  - unfold s_handle_data. rewrite D.
    destruct (decode_position _ _ _ _ _ D) as [[_ [X _]]|P]; [discriminate|]. apply Nat.ltb_lt in P. rewrite P.
    unfold sseq at 1. unfold sbind at 1. rewrite (echo_ok s (firstn n buf) L).
    unfold echo_of. cbn [modes_of m_basic]. rewrite B.
    cbn [s_handle_cbus_packet map]. unfold sbind. rewrite E1. reflexivity.
  - split; [exact E2|]. rewrite !swrites_app, !scallbacks_app, swrites_warn, scallbacks_warn, E3, E4. split; reflexivity.
Qed.

(** ** Sessions *)

Definition shows (s : server) (ps : list packet) (buf : bytes) : session :=
  mkSession ps buf (sv_queue s) (sv_draws s).

Lemma until_presence_pre rnd ck pre q d out q' d' ga post : emits rnd ck pre q d out q' d' -> out = [] ->
  until_presence (pre ++ StatusRequest false ga 0xff :: post) = pre ++ [StatusRequest false ga 0xff].
Proof.
  induction 1 as [|s sals q d out q' d' K E IH|v sals on off q d out q' d' U1 U2 E IH|]; intros O.
  - reflexivity.
  - cbn [app until_presence]. rewrite IH by exact O. destruct s; try destruct K; reflexivity.
  - cbn [app until_presence]. rewrite IH by exact O. reflexivity.
  - discriminate.
Qed.

Lemma refused_callbacks rnd ck p pre q d q' d' ga post : emits rnd ck pre q d [] q' d' ->
  heard (commands_of p) = pre ++ StatusRequest false ga 0xff :: post ->
  flat_map scallback_of pre ++ [SMasterStatus ga] = flat_map action_callbacks [Refused p].
Proof.
  intros E H. cbn [flat_map action_callbacks]. rewrite H, app_nil_r.
  rewrite (until_presence_pre _ _ _ _ _ _ _ _ ga post E eq_refl), flat_map_app. reflexivity.
Qed.

Lemma handles_refines rnd : randint_works rnd -> forall s buf calls s' buf' ev r,
  processes (s_handle_data rnd) s buf calls s' buf' ev r ->
  forall ps, live s -> modes_of s = latest ps ->
  exists acts ps', handles rnd (shows s ps buf) acts r (shows s' ps' buf')
    /\ live s' /\ modes_of s' = latest ps' /\ ps' = rev (flat_map action_packet acts) ++ ps
    /\ swrites ev = flat_map action_writes acts /\ scallbacks ev = flat_map action_callbacks acts.
Proof.
  intros R s buf calls s' buf' ev r P.
  assert (DM : forall s ps, modes_of s = latest ps -> sv_checksum s = m_checksum (latest ps) /\ sv_basic s = m_basic (latest ps)).
  { intros s0 ps0 M. rewrite <- M. split; reflexivity. }
  induction P as [st|st buf st' ev e N H|st buf st' ev N H|st buf st' ev N H
                 |st buf st' ev r N H Rr|st buf st' ev r calls st'' buf' ev' out N H Rr P IH]; intros ps L M.
  - exists [], ps. split; [apply hs_empty|]. auto.
  - destruct (DM _ _ M) as [Mc Mb].
    destruct (decode_packet buf (sv_checksum st) true false) as [ws [[[p|] n]|e']] eqn:D.
    + destruct (refused st p) eqn:F.
      * destruct (handle_data_refused rnd st buf ws p n R L D F) as [pre [ga [post [ev1 [q [d [E0 [B [E1 [E2 [E3 E4]]]]]]]]]]].
        rewrite E1 in H. inversion H; subst. rewrite Mc in D, E2. exists [Refused p], ps.
        split; [apply (hs_refused rnd ps buf _ _ ws p n pre ga post q d); auto; congruence|].
        split; [exact L|]. split; [exact M|]. split; [reflexivity|]. split; [exact E3|].
        rewrite E4. exact (refused_callbacks _ _ _ _ _ _ _ _ _ _ E2 E0).
      * destruct (handle_data_packet rnd st buf ws p n R L D F) as [s1 [ev1 [out [E1 _]]]]. congruence.
    + destruct (decode_position _ _ _ _ _ D) as [[_ [_ ->]]|Q].
      * rewrite (handle_data_wait _ _ _ _ D) in H. discriminate.
      * destruct (handle_data_nothing rnd st buf ws n L D Q) as [ev1 [E1 _]]. congruence.
    + rewrite (handle_data_error _ _ _ _ _ D) in H. inversion H; subst. rewrite Mc in D.
      exists [], ps. split; [now apply hs_error with ws|]. auto.
  - destruct (DM _ _ M) as [Mc Mb].
    destruct (decode_packet buf (sv_checksum st) true false) as [ws [[[p|] n]|e']] eqn:D.
    + destruct (decode_position _ _ _ _ _ D) as [[_ [X _]]|Q]; [discriminate|].
      destruct (refused st p) eqn:F.
      * destruct (handle_data_refused rnd st buf ws p n R L D F) as [pre [ga [post [ev1 [q [d [E0 [B [E1 _]]]]]]]]]. congruence.
      * destruct (handle_data_packet rnd st buf ws p n R L D F) as [s1 [ev1 [out [E1 _]]]].
        rewrite E1 in H. inversion H. lia.
    + destruct (decode_position _ _ _ _ _ D) as [[-> [_ ->]]|Q].
      * rewrite (handle_data_wait _ _ _ _ D) in H. inversion H; subst. rewrite Mc in D.
        exists [], ps. split; [now apply hs_wait|]. auto.
      * destruct (handle_data_nothing rnd st buf ws n L D Q) as [ev1 [E1 _]]. rewrite E1 in H. inversion H. lia.
    + rewrite (handle_data_error _ _ _ _ _ D) in H. discriminate.
  - exfalso. destruct (decode_packet buf (sv_checksum st) true false) as [ws [[p n]|e']] eqn:D.
    + unfold s_handle_data in H. rewrite D in H.
      destruct (sseq _ _ st) as [[s1 ev1] [[]|]]; [|discriminate]. inversion H. lia.
    + rewrite (handle_data_error _ _ _ _ _ D) in H. discriminate.
  - exfalso. destruct (decode_packet buf (sv_checksum st) true false) as [ws [[p n]|e']] eqn:D.
    + unfold s_handle_data in H. rewrite D in H.
      destruct (sseq _ _ st) as [[s1 ev1] [[]|]]; [|discriminate]. inversion H. lia.
    + rewrite (handle_data_error _ _ _ _ _ D) in H. discriminate.
  - destruct (DM _ _ M) as [Mc Mb].
    destruct (decode_packet buf (sv_checksum st) true false) as [ws [[[p|] n]|e']] eqn:D.
    + destruct (decode_position _ _ _ _ _ D) as [[_ [X _]]|Q]; [discriminate|].
      destruct (refused st p) eqn:F.
      * destruct (handle_data_refused rnd st buf ws p n R L D F) as [pre [ga [post [ev1 [q [d [E0 [B [E1 _]]]]]]]]]. congruence.
      * destruct (handle_data_packet rnd st buf ws p n R L D F) as [s1 [ev1 [out1 [E1 [E2 [E3 [E4 [E5 E6]]]]]]]].
        rewrite E1 in H. inversion H; subst st' ev r. rewrite Nat2Z.id in *.
        rewrite M in E6. rewrite <- latest_advance in E6.
        destruct (IH (p :: ps) E5 E6) as [acts [ps' [I1 [I2 [I3 [I4 [I5 I6]]]]]]].
        eexists. exists ps'. rewrite Mc in D, E2. split.
        { eapply (hs_packet rnd ps buf _ _ ws p n out1 (sv_queue s1) (sv_draws s1) acts out); [exact D|exact Q| |exact E2|exact I1].
          intros B. destruct p; try reflexivity. cbn [refused commands_of] in F |- *. unfold refuses in F.
          rewrite Mb, B in F. exact F. }
        split; [exact I2|]. split; [exact I3|]. cbn [flat_map action_packet action_writes action_callbacks]. split.
        { rewrite I4, rev_app_distr, <- app_assoc. reflexivity. }
        rewrite swrites_app, scallbacks_app, E3, E4, I5, I6, M. split; reflexivity.
    + destruct (decode_position _ _ _ _ _ D) as [[-> [_ ->]]|Q].
      * rewrite (handle_data_wait _ _ _ _ D) in H. inversion H; subst. lia.
      * destruct (handle_data_nothing rnd st buf ws n L D Q) as [ev1 [E1 [E2 E3]]].
        rewrite E1 in H. inversion H; subst st' ev r. rewrite Nat2Z.id in *.
        destruct (IH ps L M) as [acts [ps' [I1 [I2 [I3 [I4 [I5 I6]]]]]]].
        eexists. exists ps'. rewrite Mc in D. split.
        { eapply (hs_nothing rnd ps buf _ _ ws n acts out); [exact D|exact Q|exact I1]. }
        split; [exact I2|]. split; [exact I3|]. cbn [flat_map action_packet action_writes action_callbacks app]. split; [exact I4|].
        rewrite swrites_app, scallbacks_app, E2, E3, I5, I6, M, app_nil_r. split; reflexivity.
    + rewrite (handle_data_error _ _ _ _ _ D) in H. discriminate.
Qed.

Lemma off_scale_spec level : num_ltb level 0 || num_gtb level 255 = true <-> off_scale level.
Proof.
  destruct level as [z|q| |[|]]; cbn [num_ltb num_gtb off_scale negb].
  - rewrite orb_true_iff, !Z.ltb_lt. reflexivity.
  - assert (A : forall x y, negb (Qle_bool x y) = true <-> (y < x)%Q).
    { intros x y. rewrite negb_true_iff, <- not_true_iff_false, Qle_bool_iff. split; intros H.
      - now apply Qnot_le_lt.
      - now apply Qlt_not_le. }
    rewrite orb_true_iff, !A. reflexivity.
  - split; [discriminate|contradiction].
  - split; auto.
  - split; auto.
Qed.

Lemma ga_spec ga : check_ga ga = if (0 <=? ga) && (ga <=? 255) then Ok tt else Raise ValueError.
Proof. reflexivity. Qed.

(** A call that is not data either writes a message and what was queued, or
    raises. *)
Definition calls_as (o : sop) (s : server) (r : server * list sev * res unit) : Prop :=
  (exists b, announces (sv_checksum s) o b /\ r = (set_queue s [], map SWrite (b :: sv_queue s), Ok tt))
  \/ exists e, declines o e /\ r = (s, [], Raise e).

Lemma unit_calls o s src new x body : live s -> new = Ok x -> is_bytes body ->
  sal_application x = 0x38 -> sal_encode x = Ok body ->
  (forall w, unit_line (sv_checksum s) (src mod 256) body w -> announces (sv_checksum s) o w) ->
  calls_as o s (s_unit src new s).
Proof.
  intros L -> B A E N. destruct (unit_packet_any (sv_checksum s) src x body B A E) as [p [w [P [S U]]]].
  left. exists w. split; [now apply N|]. unfold s_unit, sbind at 1, slift. rewrite P.
  rewrite (ssend_ok p w s); [reflexivity|apply L|exact S].
Qed.

Lemma unit_raises o s src e : declines o e -> calls_as o s (s_unit src (Raise e) s).
Proof. intros D. right. exists e. split; [exact D|reflexivity]. Qed.
Lemma unit_unencodable o s src x e : sal_application x = 0x38 -> sal_encode x = Raise e -> declines o e ->
  calls_as o s (s_unit src (Ok x) s).
Proof.
  intros A E D. right. exists e. split; [exact D|]. unfold s_unit, unit_packet. cbn [rbind].
  unfold new_pm. cbn [append_sals]. unfold append_sal. cbn [fst snd]. rewrite A. cbn [rbind append_sals app].
  unfold sbind, slift, ssend, serialize_packet. cbn [encode_packet]. unfold pm_encode. cbn [concat_res]. rewrite E. reflexivity.
Qed.

Lemma announces_not_data ck o w : announces ck o w -> forall data, o <> SOpData data.
Proof. intros A data ->. inversion A. Qed.
Lemma declines_not_data o e : declines o e -> forall data, o <> SOpData data.
Proof.
  intros D data ->. inversion D as [o src ga G C| | |]; subst.
  destruct C as [C|[C|[C|[x [y C]]]]]; discriminate C.
Qed.

Ltac bytes_in := repeat constructor; unfold byte; lia.

Lemma api_calls o s : live s -> (forall data, o <> SOpData data) -> calls_as o s (s_api o s).
Proof.
  intros L N. destruct o as [|data|src ga|src ga|src ga d lv|src ga| |code ok]; cbn [s_api].
  - left. exists [43; 43; 13; 10]. split; [constructor|]. unfold s_connection_made.
    destruct s as [tr ba co ck mo im a1 a2 qu dr]; destruct L as [L1 [L2 L3]]; cbn in L1, L2, L3; subst.
    now apply ssend_ok.
  - now destruct (N data).
  - unfold new_light_on. rewrite ga_spec. destruct (_ && _) eqn:G; cbn [rbind].
    + apply unit_calls with (LightOn ga) [0x79; ga]; auto; [bytes_in| |intros w U; apply an_on; [lia|exact U]].
      cbn [sal_encode]. unfold light_simple_encode. rewrite ga_spec, G. cbn [rbind]. unfold mk_bytes. cbn [forallb]. now rewrite G.
    + apply unit_raises. apply dc_group with src ga; [lia|auto].
  - unfold new_light_off. rewrite ga_spec. destruct (_ && _) eqn:G; cbn [rbind].
    + apply unit_calls with (LightOff ga) [0x01; ga]; auto; [bytes_in| |intros w U; apply an_off; [lia|exact U]].
      cbn [sal_encode]. unfold light_simple_encode. rewrite ga_spec, G. cbn [rbind]. unfold mk_bytes. cbn [forallb]. now rewrite G.
    + apply unit_raises. apply dc_group with src ga; [lia|auto].
  - unfold new_light_ramp. rewrite ga_spec. destruct (_ && _) eqn:G; cbn [rbind].
    + destruct (num_ltb lv 0 || num_gtb lv 255) eqn:O.
      * apply unit_unencodable with ValueError; [reflexivity| |apply dc_level; now apply off_scale_spec].
        cbn [sal_encode]. unfold light_ramp_encode. now rewrite O.
      * assert (F : (forall z, lv <> PInt z) -> calls_as (SOpRamp src ga d lv) s (s_unit src (Ok (LightRamp ga d lv)) s)).
        { intros F. apply unit_unencodable with TypeError; [reflexivity| |].
          - cbn [sal_encode]. unfold light_ramp_encode. rewrite O, ga_spec, G. cbn [rbind mk_bytes_num].
            destruct (rounding_total d) as [[d' [D _]] _]. destruct (duration_to_rate_spec d d' D) as [i [I [R _]]].
            rewrite R. unfold ramp_rate_code, byte_of_num at 1 2. rewrite G.
            replace ((0 <=? 2 + 8 * Z.of_nat i) && (2 + 8 * Z.of_nat i <=? 255)) with true by lia.
            cbn [rbind]. destruct lv; [now destruct (F z)|reflexivity..].
          - apply dc_float; [lia| |exact F]. rewrite <- off_scale_spec. congruence. }
        destruct lv as [z|q| |b]; try (apply F; discriminate).
        cbn [num_ltb num_gtb] in O. apply orb_false_iff in O. rewrite !Z.ltb_ge in O.
        destruct (rounding_total d) as [[d' [D _]] _]. pose proof (duration_to_rate_spec d d' D) as R.
        apply unit_calls with (LightRamp ga d (PInt z)) [duration_to_ramp_rate d; ga; z]; auto.
        -- destruct R as [i [I [R _]]]. rewrite R. unfold ramp_rate_code. bytes_in.
        -- cbn [sal_encode]. apply ramp_encode_ok; lia.
        -- intros w U. apply an_ramp with d' (duration_to_ramp_rate d); auto; lia.
    + apply unit_raises. apply dc_group with src ga; [lia|eauto 10].
  - unfold new_light_terminate. rewrite ga_spec. destruct (_ && _) eqn:G; cbn [rbind].
    + apply unit_calls with (LightTerminate ga) [0x09; ga]; auto; [bytes_in| |intros w U; apply an_terminate; [lia|exact U]].
      cbn [sal_encode]. unfold light_simple_encode. rewrite ga_spec, G. cbn [rbind]. unfold mk_bytes. cbn [forallb]. now rewrite G.
    + apply unit_raises. apply dc_group with src ga; [lia|auto].
  - left. exists [33; 13; 10]. split; [constructor|]. apply ssend_ok; [apply L|reflexivity].
  - unfold send_confirmation, new_confirmation, sbind at 1, slift. destruct code as [|c rest].
    + left. exists [if ok then 46 else 35]. split; [constructor|]. rewrite (ssend_ok _ [if ok then 46 else 35]); [reflexivity|apply L|reflexivity].
    + destruct (mem c CONFIRMATION_CODES) eqn:C.
      * left. exists [c; if ok then 46 else 35]. split; [constructor; now apply mem_codes|].
        rewrite (ssend_ok _ [c; if ok then 46 else 35]); [reflexivity|apply L|reflexivity].
      * right. exists ValueError. split; [|reflexivity]. apply dc_code. intros I. apply code_spec, mem_spec in I. congruence.
Qed.

Lemma performs_refines rnd s buf o st' ev r ps : randint_works rnd -> live s -> modes_of s = latest ps ->
  server_step rnd (s, buf) o = (st', ev, r) ->
  exists acts ps', performs rnd (shows s ps buf) o acts r (shows (fst st') ps' (snd st'))
    /\ live (fst st') /\ modes_of (fst st') = latest ps' /\ ps' = rev (flat_map action_packet acts) ++ ps
    /\ swrites ev = flat_map action_writes acts /\ scallbacks ev = flat_map action_callbacks acts.
Proof.
  intros R L M E.
  destruct (match o with SOpData _ => true | _ => false end) eqn:T.
  2:{ assert (N : forall data, o <> SOpData data) by (intros data ->; discriminate).
      assert (Q : server_step rnd (s, buf) o = match s_api o s with (s, ev, r) => ((s, buf), ev, r) end).
      { destruct o; try reflexivity. discriminate. }
      destruct (api_calls o s L N) as [[b [A K]]|[e [A K]]]; rewrite Q, K in E; inversion E; subst; cbn [fst snd].
      - exists [Sent b (sv_queue s)], ps. split.
        { apply pf_send. replace (m_checksum (latest ps)) with (sv_checksum s); [exact A|]. now rewrite <- M. }
        split; [exact L|]. split; [exact M|]. split; [reflexivity|]. cbn [flat_map action_writes]. rewrite app_nil_r.
        split; [exact (swrites_map (b :: sv_queue s))|exact (scallbacks_map (b :: sv_queue s))].
      - exists [], ps. split; [now apply pf_fail|]. auto. }
  destruct o as [|data|src ga|src ga|src ga d lv|src ga| |code ok]; try discriminate T. clear T.
  - cbn [server_step fst snd] in E. unfold data_received in E. unfold MAX_BUFFER_SIZE in E.
    destruct (Nat.ltb 256 (length data)) eqn:B1.
    { apply Nat.ltb_lt in B1. inversion E; subst; cbn [fst snd]. exists [], ps. split; [now apply pf_too_large|]. auto. }
    apply Nat.ltb_ge in B1. destruct (Nat.ltb 256 (length buf + length data)) eqn:B2.
    { apply Nat.ltb_lt in B2. inversion E; subst; cbn [fst snd]. exists [], ps. split; [now apply pf_overflow|]. auto. }
    apply Nat.ltb_ge in B2.
    destruct (process_buffer (s_handle_data rnd) s (buf ++ data)) as [[[s1 buf1] ev1] r1] eqn:P.
    inversion E; subst; cbn [fst snd]. apply process_buffer_spec in P. destruct P as [calls P].
    destruct (handles_refines rnd R _ _ _ _ _ _ _ P ps L M) as [acts [ps' [H1 H2]]].
    exists acts, ps'. split; [now apply pf_data|exact H2].
Qed.

Lemma proceeds_refines rnd ops : randint_works rnd -> forall s buf st' tr ps, live s -> modes_of s = latest ps ->
  server_run rnd (s, buf) ops = (st', tr) ->
  exists log ps', proceeds rnd (shows s ps buf) ops log (shows (fst st') ps' (snd st'))
    /\ live (fst st') /\ modes_of (fst st') = latest ps' /\ ps' = rev (flat_map action_packet (actions log)) ++ ps
    /\ Forall2 (fun x y => swrites (fst x) = flat_map action_writes (fst y)
         /\ scallbacks (fst x) = flat_map action_callbacks (fst y) /\ snd x = snd y) tr log.
Proof.
  intros R. induction ops as [|o ops IH]; intros s buf st' tr ps L M E; cbn [server_run] in E.
  - inversion E; subst. exists [], ps. split; [constructor|]. split; [exact L|]. split; [exact M|]. split; [reflexivity|constructor].
  - destruct (server_step rnd (s, buf) o) as [[st1 ev] r] eqn:S.
    destruct (server_run rnd st1 ops) as [st2 tr2] eqn:T. inversion E; subst.
    destruct (performs_refines rnd s buf o st1 ev r ps R L M S) as [acts [ps1 [P1 [P2 [P3 [P4 [P5 P6]]]]]]].
    destruct st1 as [s1 buf1]. cbn [fst snd] in *.
    destruct (IH s1 buf1 st' tr2 ps1 P2 P3 T) as [log [ps' [Q1 [Q2 [Q3 [Q4 Q5]]]]]].
    exists ((acts, r) :: log), ps'. split; [now apply pc_call with (shows s1 ps1 buf1)|].
    split; [exact Q2|]. split; [exact Q3|]. split.
    + rewrite Q4, P4. unfold actions. cbn [flat_map fst]. rewrite flat_map_app, rev_app_distr, app_assoc. reflexivity.
    + constructor; [|exact Q5]. auto.
Qed.

(** ** Confirmations among the written messages *)

Lemma consumed_no_confirmation data ck ws r n : decode_packet data ck true false = (ws, Ok (r, n)) -> (0 < n)%nat ->
  is_confirmation (firstn n data) = false.
Proof.
  intros D N. destruct (is_confirmation (firstn n data)) eqn:C; [exfalso|reflexivity].
  destruct n as [|[|n]]; [lia|destruct data; discriminate|].
  destruct data as [|c [|x rest]]; [discriminate|discriminate|]. cbn [firstn] in C.
  destruct (firstn n rest) eqn:F; [|discriminate]. unfold is_confirmation in C.
  unfold decode_packet in D. replace (c =? 126) with false in D by lia.
  assert (S1 : starts_with [110; 117; 108; 108] (c :: x :: rest) = false).
  { cbn [starts_with]. replace (110 =? c) with (c =? 110) by lia. destruct (c =? 110) eqn:Q; [|reflexivity].
    replace (117 =? x) with false by lia. reflexivity. }
  assert (S2 : starts_with (124 :: END_COMMAND) (c :: x :: rest)
               || starts_with (124 :: 124 :: END_COMMAND) (c :: x :: rest) = false).
  { cbn [starts_with]. replace (124 =? c) with false by lia. reflexivity. }
  rewrite S1, S2 in D. destruct (find END_COMMAND (c :: x :: rest)) as [e|] eqn:E; [|discriminate].
  assert (Le : (2 <= e)%nat).
  { apply find_some in E. destruct E as [_ [E _]]. destruct e as [|[|e]]; [| |lia]; cbn in E; inversion E; lia. }
  destruct rest as [|y rest].
  { apply find_some in E. destruct E as [_ [E _]]. apply (f_equal (@length Z)) in E.
    rewrite !app_length, firstn_length in E. cbn [length END_COMMAND] in E. lia. }
  assert (n = 0%nat) by (destruct n; [reflexivity|discriminate]). subst n.
  assert (L : forall m, decode_line ck true false (e + 1) (firstn e (c :: x :: y :: rest)) = (ws, Ok (r, m)) -> (e + 1 <= m)%nat).
  { intros m H. now apply line_pos in H. }
  destruct (find [63] (c :: x :: y :: rest)) as [q|] eqn:Q.
  - destruct (Nat.ltb q e).
    + inversion D. assert (q = 1%nat) by lia. subst q. apply find_some in Q. destruct Q as [_ [Q _]].
      cbn in Q. inversion Q. lia.
    + apply L in D. lia.
  - apply L in D. lia.
Qed.

Definition quiet (w : bytes) : Prop := is_confirmation w = false.

Lemma hex_line_quiet raw w : hex_line raw w -> quiet w.
Proof.
  intros [digits [-> [F _]]]. unfold quiet. destruct digits as [|a [|b [|c l]]]; reflexivity.
Qed.

Lemma unit_line_quiet ck src body w : unit_line ck src body w -> quiet w.
Proof. intros [tail [H _]]. now apply hex_line_quiet in H. Qed.

Lemma status_line_quiet b states w : status_line b states w -> quiet w.
Proof. intros [h [p [c [H _]]]]. now apply hex_line_quiet in H. Qed.

Lemma emits_quiet rnd ck l q d out q' d' : emits rnd ck l q d out q' d' -> Forall quiet q ->
  Forall quiet out /\ Forall quiet q'.
Proof.
  induction 1 as [q d|s sals q d out q' d' K E IH|v sals on off q d out q' d' U1 U2 E IH
                 |ga sals l0 l1 l2 q d out q' d' [P0 [P1 P2]] E IH]; intros Q.
  - auto.
  - auto.
  - apply IH. apply Forall_app. split; [exact Q|].
    constructor; [exact (unit_line_quiet _ _ _ _ U1)|]. constructor; [exact (unit_line_quiet _ _ _ _ U2)|constructor].
  - destruct (IH ltac:(constructor)) as [I1 I2]. split; [|exact I2]. cbn [app].
    constructor; [exact (status_line_quiet _ _ _ P0)|]. apply Forall_app. split; [exact Q|].
    constructor; [exact (status_line_quiet _ _ _ P1)|]. constructor; [exact (status_line_quiet _ _ _ P2)|exact I1].
Qed.

Lemma filter_quiet l : Forall quiet l -> filter is_confirmation l = [].
Proof. induction 1 as [|w l H F IH]; [reflexivity|]. cbn [filter]. unfold quiet in H. now rewrite H. Qed.

Lemma confirmed_code data ck ws p n c : decode_packet data ck true false = (ws, Ok (Some p, n)) ->
  confirmed p = [c] -> is_code c.
Proof.
  intros D C. apply (packet_code _ _ _ _ _ c D). destruct p; try discriminate; cbn [confirmed confirm_of] in *.
  - destruct (forallb understood sals); [|discriminate]. destruct (h_confirm h); inversion C. reflexivity.
  - destruct (known_parameter parameter); [|discriminate]. destruct (h_confirm h); inversion C. reflexivity.
Qed.

Lemma code_confirmation c : is_code c -> is_confirmation (confirmation c) = true.
Proof. unfold is_code, is_confirmation, confirmation. intros H. lia. Qed.

Lemma replies_quiet rnd ck p q d out q' d' : replies rnd ck p q d out q' d' -> Forall quiet q ->
  (forall c, confirmed p = [c] -> is_code c) ->
  filter is_confirmation out = map confirmation (confirmed p) /\ Forall quiet q'.
Proof.
  intros R Q C. destruct R as [out q1 d1 c E K|out q1 d1 E K]; apply emits_quiet in E; try exact Q; destruct E as [E1 E2].
  - rewrite filter_app. cbn [filter]. rewrite code_confirmation by auto.
    rewrite (filter_quiet _ E1), (filter_quiet _ E2), K. split; [reflexivity|constructor].
  - rewrite (filter_quiet _ E1), K. split; [reflexivity|exact E2].
Qed.

Lemma handles_confirm rnd s acts r s' : handles rnd s acts r s' -> Forall quiet (queued s) ->
  filter is_confirmation (flat_map action_writes acts) = map confirmation (flat_map confirmed (flat_map action_packet acts))
  /\ Forall quiet (queued s').
Proof.
  induction 1 as [ps q d|ps buf q d N D|ps buf q d ws e D|ps buf q d ws p n pre ga post q' d' D B H E
                 |ps buf q d ws p n out q' d' acts r s' D N B R H IH|ps buf q d ws n acts r s' D N H IH];
    intros Q; cbn [queued] in *; try (split; [reflexivity|exact Q]).
  - split; [reflexivity|]. now apply emits_quiet in E.
  - destruct (replies_quiet _ _ _ _ _ _ _ _ R Q (fun c => confirmed_code _ _ _ _ _ c D)) as [R1 R2].
    destruct (IH R2) as [I1 I2]. split; [|exact I2].
    cbn [flat_map action_writes action_packet app]. rewrite !filter_app, R1, I1, map_app.
    unfold echo_of. destruct (m_basic (latest ps)); cbn [filter app]; [|reflexivity].
    rewrite (consumed_no_confirmation _ _ _ _ _ D N). reflexivity.
  - destruct (IH Q) as [I1 I2]. split; [|exact I2].
    cbn [flat_map action_writes action_packet app]. rewrite !filter_app, I1.
    unfold echo_of. destruct (m_basic (latest ps)); cbn [filter app]; [|reflexivity].
    rewrite (consumed_no_confirmation _ _ _ _ _ D N). reflexivity.
Qed.

Lemma proceeds_confirm rnd s ops log s' : proceeds rnd s ops log s' ->
  Forall (fun o => exists data, o = SOpData data) ops -> Forall quiet (queued s) ->
  filter is_confirmation (flat_map action_writes (actions log))
  = map confirmation (flat_map confirmed (flat_map action_packet (actions log)))
  /\ Forall quiet (queued s').
Proof.
  induction 1 as [s|s o ops acts r log s1 s2 P H IH]; intros F Q; [split; [reflexivity|exact Q]|].
  inversion F as [|? ? [data ->] F']; subst.
  assert (K : filter is_confirmation (flat_map action_writes acts)
    = map confirmation (flat_map confirmed (flat_map action_packet acts)) /\ Forall quiet (queued s1)).
  { inversion P; subst; try (split; [reflexivity|exact Q]).
    - match goal with H : handles _ _ _ _ _ |- _ => exact (handles_confirm _ _ _ _ _ H Q) end.
    - match goal with A : announces _ _ _ |- _ => inversion A end. }
  destruct K as [K1 K2]. destruct (IH F' K2) as [I1 I2]. split; [|exact I2].
  unfold actions in *. cbn [flat_map fst]. rewrite !flat_map_app, filter_app, map_app, K1, I1. reflexivity.
Qed.

(** ** Deferred messages *)

Lemma deferred_app rnd d l d' : deferred rnd d l d' -> forall l2 d2, deferred rnd d' l2 d2 -> deferred rnd d (l ++ l2) d2.
Proof.
  induction 1 as [d|ck d on off l d' U1 U2 H IH]; intros l2 d2 E; [exact E|].
  cbn [app]. apply df_update with ck; auto.
Qed.

Lemma unblock_app a b : unblock (a ++ b) = unblock a ++ unblock b.
Proof. apply flat_map_app. Qed.

Definition status_head (w : bytes) : Prop := exists l0 l1 l2, presence_lines l0 l1 l2 /\ In w [l0; l1; l2].

Lemma emits_blocks rnd ck l q d out q' d' : emits rnd ck l q d out q' d' ->
  exists bs new, out = unblock bs /\ Forall (fun b => status_head (fst b)) bs
    /\ q ++ new = flat_map snd bs ++ q' /\ deferred rnd d new d'
    /\ d' = (d + 4 * length (filter is_clock_update l))%nat.
Proof.
  induction 1 as [q d|s sals q d out q' d' K E IH|v sals on off q d out q' d' U1 U2 E IH
                 |ga sals l0 l1 l2 q d out q' d' P E IH].
  - exists [], []. cbn [app flat_map filter length]. rewrite app_nil_r. repeat split; try constructor. lia.
  - destruct IH as [bs [new [I1 [I2 [I3 [I4 I5]]]]]]. exists bs, new. repeat split; try assumption.
    rewrite I5. destruct s; try destruct K; reflexivity.
  - destruct IH as [bs [new [I1 [I2 [I3 [I4 I5]]]]]]. exists bs, (on :: off :: new). split; [exact I1|].
    split; [exact I2|]. split; [rewrite <- app_assoc in I3; exact I3|]. split; [now apply df_update with ck|].
    cbn [filter is_clock_update length]. lia.
  - destruct IH as [bs [new [I1 [I2 [I3 [I4 I5]]]]]]. exists ((l0, q) :: (l1, []) :: (l2, []) :: bs), new.
    split; [|split; [|split; [|split; [exact I4|]]]].
    + unfold unblock in *. cbn [flat_map fst snd app]. rewrite I1. reflexivity.
    + repeat constructor; try exact I2; exists l0, l1, l2; (split; [exact P|cbn; auto]).
    + cbn [flat_map snd app]. cbn [app] in I3. rewrite <- app_assoc, <- I3. reflexivity.
    + exact I5.
Qed.

Lemma until_presence_updates pre ga post :
  length (filter is_clock_update (pre ++ [StatusRequest false ga post])) = length (filter is_clock_update pre).
Proof. rewrite filter_app, app_length. cbn. lia. Qed.

Lemma handles_blocks rnd s acts r s' : handles rnd s acts r s' ->
  exists bss new, Forall2 arranged acts bss /\ queued s ++ new = flat_map snd (concat bss) ++ queued s'
    /\ deferred rnd (drawn s) new (drawn s') /\ drawn s' = (drawn s + 4 * updates acts)%nat.
Proof.
  assert (Z0 : forall s : session, exists (bss : list (list block)) (new : list bytes), Forall2 arranged [] bss
    /\ queued s ++ new = flat_map snd (concat bss) ++ queued s
    /\ deferred rnd (drawn s) new (drawn s) /\ drawn s = (drawn s + 4 * updates [])%nat).
  { intros s0. exists [], []. cbn [concat flat_map app updates fold_right]. rewrite app_nil_r.
    split; [constructor|]. split; [reflexivity|]. split; [constructor|lia]. }
  induction 1 as [ps q d|ps buf q d N D|ps buf q d ws e D|ps buf q d ws p n pre ga post q' d' D B H E
                 |ps buf q d ws p n out q' d' acts r s' D N B R H IH|ps buf q d ws n acts r s' D N H IH];
    try apply Z0.
  - destruct (emits_blocks _ _ _ _ _ _ _ _ E) as [bs [new [I1 [I2 [I3 [I4 I5]]]]]].
    destruct bs as [|b bs]; [|discriminate]. exists [[]], new. cbn [queued drawn concat flat_map app] in *.
    split; [constructor; [split; [reflexivity|constructor]|constructor]|]. split; [exact I3|]. split; [exact I4|].
    cbn [updates fold_right action_updates]. rewrite H.
    rewrite (until_presence_pre _ _ _ _ _ _ _ _ ga post E eq_refl), until_presence_updates. lia.
  - cbn [queued drawn] in *. destruct IH as [bss [new [J1 [J2 [J3 J4]]]]].
    assert (K : exists bs new1, arranged (Got (firstn n buf) (Some p) (echo_of (latest ps) (firstn n buf)) out) bs
      /\ q ++ new1 = flat_map snd bs ++ q' /\ deferred rnd d new1 d'
      /\ d' = (d + 4 * length (filter is_clock_update (heard (commands_of p))))%nat).
    { assert (HC : (match p with PktPM _ _ sals => heard sals | _ => [] end) = heard (commands_of p)) by (destruct p; reflexivity).
      destruct R as [out q1 d1 c E C|out q1 d1 E C]; rewrite HC in E;
        destruct (emits_blocks _ _ _ _ _ _ _ _ E) as [bs [new1 [I1 [I2 [I3 [I4 I5]]]]]].
      - exists (bs ++ [(confirmation c, q1)]), new1. split; [split|].
        + cbn [action_reply]. rewrite unblock_app, I1. unfold unblock. cbn [flat_map fst snd app]. rewrite app_nil_r. reflexivity.
        + apply Forall_app. split.
          * eapply Forall_impl; [|exact I2]. intros b X. right. exact X.
          * constructor; [|constructor]. left. rewrite C. now left.
        + split; [|split; [exact I4|exact I5]]. rewrite flat_map_app. cbn [flat_map snd]. rewrite !app_nil_r. exact I3.
      - exists bs, new1. split; [split|].
        + exact I1.
        + eapply Forall_impl; [|exact I2]. intros b X. right. exact X.
        + split; [exact I3|]. split; [exact I4|exact I5]. }
    destruct K as [bs [new1 [K1 [K2 [K3 K4]]]]]. exists (bs :: bss), (new1 ++ new).
    split; [now constructor|]. split; [|split].
    + cbn [concat]. rewrite flat_map_app, app_assoc, K2, <- !app_assoc, J2. reflexivity.
    + exact (deferred_app _ _ _ _ K3 _ _ J3).
    + cbn [updates fold_right action_updates]. unfold updates in J4. lia.
  - cbn [queued drawn] in *. destruct IH as [bss [new [J1 [J2 [J3 J4]]]]]. exists ([] :: bss), new.
    split; [constructor; [split; [reflexivity|constructor]|exact J1]|]. split; [exact J2|]. split; [exact J3|exact J4].
Qed.

Lemma total_app a b : updates (a ++ b) = (updates a + updates b)%nat.
Proof. unfold updates. induction a as [|x a IH]; [reflexivity|]. cbn [app fold_right]. lia. Qed.

Lemma proceeds_blocks rnd s ops log s' : proceeds rnd s ops log s' ->
  exists bss new, Forall2 arranged (actions log) bss /\ queued s ++ new = flat_map snd (concat bss) ++ queued s'
    /\ deferred rnd (drawn s) new (drawn s') /\ drawn s' = (drawn s + 4 * updates (actions log))%nat.
Proof.
  induction 1 as [s|s o ops acts r log s1 s2 P H IH].
  - exists [], []. cbn. rewrite app_nil_r. split; [constructor|]. split; [reflexivity|]. split; [constructor|lia].
  - destruct IH as [bss [new [J1 [J2 [J3 J4]]]]].
    assert (K : exists bss1 new1, Forall2 arranged acts bss1 /\ queued s ++ new1 = flat_map snd (concat bss1) ++ queued s1
      /\ deferred rnd (drawn s) new1 (drawn s1) /\ drawn s1 = (drawn s + 4 * updates acts)%nat).
    { assert (Z0 : queued s1 = queued s -> drawn s1 = drawn s -> acts = [] ->
        exists bss1 new1, Forall2 arranged acts bss1 /\ queued s ++ new1 = flat_map snd (concat bss1) ++ queued s1
        /\ deferred rnd (drawn s) new1 (drawn s1) /\ drawn s1 = (drawn s + 4 * updates acts)%nat).
      { intros -> -> ->. exists [], []. cbn. rewrite app_nil_r. split; [constructor|]. split; [reflexivity|].
        split; [constructor|lia]. }
      inversion P; subst; try (apply Z0; reflexivity).
      - match goal with H : handles _ _ _ _ _ |- _ => exact (handles_blocks _ _ _ _ _ H) end.
      - exists [[(b, q)]], []. cbn [queued drawn concat flat_map snd app updates fold_right action_updates].
        rewrite !app_nil_r. split; [constructor; [|constructor]|].
        + split; [unfold unblock; cbn; now rewrite app_nil_r|]. constructor; [reflexivity|constructor].
        + split; [reflexivity|]. split; [constructor|lia]. }
    destruct K as [bss1 [new1 [K1 [K2 [K3 K4]]]]]. exists (bss1 ++ bss), (new1 ++ new).
    unfold actions in *. cbn [flat_map fst]. split; [now apply Forall2_app|]. split; [|split].
    + rewrite concat_app, flat_map_app, app_assoc, K2, <- !app_assoc, J2. reflexivity.
    + exact (deferred_app _ _ _ _ K3 _ _ J3).
    + rewrite total_app. lia.
Qed.

(** ** Accounting for the bytes *)

Lemma handles_account rnd s acts r s' : handles rnd s acts r s' ->
  pending s = flat_map action_consumed acts ++ pending s'.
Proof.
  induction 1 as [ps q d|ps buf q d N D|ps buf q d ws e D|ps buf q d ws p n pre ga post q' d' D B H E
                 |ps buf q d ws p n out q' d' acts r s' D N B R H IH|ps buf q d ws n acts r s' D N H IH];
    try reflexivity; cbn [flat_map action_consumed pending] in *; rewrite <- app_assoc, <- IH;
    symmetry; apply firstn_skipn.
Qed.

Lemma proceeds_account rnd s ops log s' : proceeds rnd s ops log s' ->
  Forall (fun x => snd x <> Raise ValueError) log ->
  pending s ++ concat (chunks_of ops) = flat_map action_consumed (actions log) ++ pending s'.
Proof.
  induction 1 as [s|s o ops acts r log s1 s2 P H IH]; intros L.
  - cbn. now rewrite app_nil_r.
  - inversion L as [|? ? L1 L2]; subst. cbn [snd] in L1. unfold actions in *. cbn [flat_map fst]. rewrite flat_map_app.
    specialize (IH L2).
    assert (K2 : (forall data, o <> SOpData data) -> pending s1 = pending s -> flat_map action_consumed acts = [] ->
      pending s ++ concat (chunks_of (o :: ops))
      = (flat_map action_consumed acts ++ flat_map action_consumed (flat_map fst log)) ++ pending s2).
    { intros N E A. rewrite A. assert (C : chunks_of (o :: ops) = chunks_of ops) by (destruct o; try reflexivity; now elim (N b)).
      rewrite C, <- E. exact IH. }
    destruct P as [s data G|ps buf q d data G1 G2|ps buf q d data acts r s1 G A|ps buf q d o b N|s o e N].
    + congruence.
    + congruence.
    + apply handles_account in A. cbn [pending chunks_of flat_map concat app] in *.
      fold (chunks_of ops) in *. rewrite app_assoc, A, <- !app_assoc. f_equal. exact IH.
    + apply K2; [|reflexivity..]. exact (announces_not_data _ _ _ N).
    + apply K2; [|reflexivity..]. exact (declines_not_data _ _ N).
Qed.

(** Packets that leave basic mode on. *)
Lemma basic_kept p ps : m_basic (latest ps) = true -> stays_basic p = true -> m_basic (latest (p :: ps)) = true.
Proof.
  intros B S. rewrite latest_advance. destruct p; try exact B; try reflexivity; try discriminate. cbn in S |- *.
  destruct (sets_options parameter); [exact S|exact B].
Qed.

Lemma handles_echo rnd s acts r s' : handles rnd s acts r s' -> m_basic (latest (past s)) = true ->
  Forall (fun p => stays_basic p = true) (flat_map action_packet acts) ->
  concat (flat_map action_echo acts) = flat_map action_consumed acts /\ m_basic (latest (past s')) = true.
Proof.
  induction 1 as [ps q d|ps buf q d N D|ps buf q d ws e D|ps buf q d ws p n pre ga post q' d' D B H E
                 |ps buf q d ws p n out q' d' acts r s' D N B R H IH|ps buf q d ws n acts r s' D N H IH];
    intros M F; cbn [past] in *; try (split; [reflexivity|exact M]).
  - cbn [flat_map action_packet app] in F. inversion F as [|? ? F1 F2]; subst.
    destruct (IH (basic_kept _ _ M F1) F2) as [I1 I2]. split; [|exact I2].
    cbn [flat_map action_echo action_consumed]. rewrite concat_app, I1. unfold echo_of. rewrite M. cbn [concat].
    now rewrite app_nil_r.
  - destruct (IH M F) as [I1 I2]. split; [|exact I2].
    cbn [flat_map action_echo action_consumed]. rewrite concat_app, I1. unfold echo_of. rewrite M. cbn [concat].
    now rewrite app_nil_r.
Qed.

Lemma proceeds_echo rnd s ops log s' : proceeds rnd s ops log s' -> m_basic (latest (past s)) = true ->
  Forall (fun p => stays_basic p = true) (flat_map action_packet (actions log)) ->
  concat (flat_map action_echo (actions log)) = flat_map action_consumed (actions log).
Proof.
  induction 1 as [s|s o ops acts r log s1 s2 P H IH]; intros M F; [reflexivity|].
  unfold actions in *. cbn [flat_map fst] in F |- *. rewrite flat_map_app in F. apply Forall_app in F. destruct F as [F1 F2].
  assert (K : concat (flat_map action_echo acts) = flat_map action_consumed acts /\ m_basic (latest (past s1)) = true).
  { destruct P; try (split; [reflexivity|exact M]). now apply (handles_echo _ _ _ _ _ H1). }
  destruct K as [K1 K2]. rewrite !flat_map_app, concat_app, K1. now rewrite IH.
Qed.

(** ** The wedge *)

Lemma decoded_complete data ck ws p n : decode_packet data ck true false = (ws, Ok (Some p, n)) -> command_complete data.
Proof.
  intros D. destruct (to_pci_cases data ck true) as [[H _]|[C _]]; [|exact C]. rewrite H in D. discriminate.
Qed.

Lemma wedge rnd p n ws : randint_works rnd -> forall chunks s buf, live s -> refused s p = true ->
  decode_packet buf (sv_checksum s) true false = (ws, Ok (Some p, n)) ->
  (length buf + length (concat chunks) <= 256)%nat ->
  exists q d tr, server_run rnd (s, buf) (map SOpData chunks) = ((moved s q d, buf ++ concat chunks), tr)
    /\ length tr = length chunks
    /\ Forall (fun x => snd x = Raise NotImplementedError /\ swrites (fst x) = []
         /\ scallbacks (fst x) = flat_map scallback_of (until_presence (heard (commands_of p)))) tr.
Proof.
  intros R. induction chunks as [|data chunks IH]; intros s buf L F D B.
  - exists (sv_queue s), (sv_draws s), []. rewrite moved_same. cbn. rewrite app_nil_r. auto.
  - assert (C := decoded_complete _ _ _ _ _ D).
    assert (D2 : decode_packet (buf ++ data) (sv_checksum s) true false = (ws, Ok (Some p, n)))
      by (rewrite to_pci_stable; assumption).
    destruct (handle_data_refused rnd s (buf ++ data) ws p n R L D2 F) as [pre [ga [post [ev [q [d [E0 [Bs [E1 [E2 [E3 E4]]]]]]]]]]].
    cbn [concat] in B. rewrite app_length in B.
    assert (P : process_buffer (s_handle_data rnd) s (buf ++ data) = (moved s q d, buf ++ data, ev, Raise NotImplementedError)).
    { apply processes_buffer with [buf ++ data]. apply pr_raise; [|exact E1].
      destruct buf; [discriminate D|discriminate]. }
    destruct (IH (moved s q d) (buf ++ data) L F D2) as [q2 [d2 [tr [I1 [I2 I3]]]]].
    { rewrite app_length. lia. }
    cbn [map server_run server_step fst snd]. unfold data_received, MAX_BUFFER_SIZE.
    replace (Nat.ltb 256 (length data)) with false by (symmetry; apply Nat.ltb_ge; lia).
    replace (Nat.ltb 256 (length buf + length data)) with false by (symmetry; apply Nat.ltb_ge; lia).
    rewrite P, I1. exists q2, d2. eexists. split; [cbn [concat]; rewrite app_assoc; reflexivity|].
    split; [cbn [length]; now rewrite I2|]. constructor; [|exact I3]. cbn [fst snd]. split; [reflexivity|].
    split; [exact E3|]. rewrite E4. rewrite (refused_callbacks _ _ p _ _ _ _ _ _ _ E2 E0).
    cbn [flat_map action_callbacks]. apply app_nil_r.
Qed.
