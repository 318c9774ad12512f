(** C100: a line is read exactly as what it says. *)
From Coq Require Import List ZArith QArith Bool Lia.
From Verif Require Import Py Common Sal Cal Packet Base Spec Spec_wire Spec_reading Common_facts
  Packet_facts Packet_decode Packet_total Reading_facts.
Import ListNotations.
Open Scope Z_scope.

(** From the PCI. *)
Theorem C100_from_pci : forall data checksum strict p n ws, data_packet p ->
  (decode_packet data checksum strict true = (ws, Ok (Some p, n))
   <-> reply_line_says checksum strict data p n ws).
Proof. intros. now apply reply_line_iff. Qed.
Print Assumptions C100_from_pci.

(** To the PCI. *)
Theorem C100_to_pci : forall data checksum strict p n ws, data_packet p ->
  (decode_packet data checksum strict false = (ws, Ok (Some p, n))
   <-> order_line_says checksum strict data p n ws).
Proof. intros. now apply order_line_iff. Qed.
Print Assumptions C100_to_pci.

Lemma message_data bare h t device data p extra ws : message_says bare h t device data p extra ws -> data_packet p.
Proof. destruct 1; exact Logic.I. Qed.
Lemma reply_line_data ck strict data p n ws : reply_line_says ck strict data p n ws -> data_packet p.
Proof.
  intros [w rest q extra v D]. destruct D as [raw w q extra v _ _ D|raw c w q extra v _ _ _ D|raw c w q extra v _ _ _ _ D];
    destruct D; eapply message_data; eassumption.
Qed.
Lemma order_line_data ck strict data p n ws : order_line_says ck strict data p n ws -> data_packet p.
Proof.
  intros [prefix ck' bare w letter rest q extra w1 w2 _ _ D].
  destruct D as [raw w q extra v _ _ D|raw c w q extra v _ _ _ D|raw c w q extra v _ _ _ _ D];
    destruct D; eapply message_data; eassumption.
Qed.

(** No line says two things. *)
Theorem C100_one_meaning : forall checksum strict data p n ws p' n' ws',
  (reply_line_says checksum strict data p n ws -> reply_line_says checksum strict data p' n' ws' ->
     p = p' /\ n = n' /\ ws = ws')
  /\ (order_line_says checksum strict data p n ws -> order_line_says checksum strict data p' n' ws' ->
     p = p' /\ n = n' /\ ws = ws').
Proof.
  intros. split; intros A B.
  - assert (DA := reply_line_data _ _ _ _ _ _ A). assert (DB := reply_line_data _ _ _ _ _ _ B).
    apply C100_from_pci in A, B; try assumption. rewrite A in B. injection B as <- <- <-. auto.
  - assert (DA := order_line_data _ _ _ _ _ _ A). assert (DB := order_line_data _ _ _ _ _ _ B).
    apply C100_to_pci in A, B; try assumption. rewrite A in B. injection B as <- <- <-. auto.
Qed.
Print Assumptions C100_one_meaning.

Lemma frame_invalid ck n fl body ws r : byte fl -> is_bytes body ->
  decode_frame ck true false None n fl (fl :: body) = (ws, r) ->
  exists p m, r = Ok (p, m) /\ (data_packet p \/ exists d e, p = PktInvalid d e /\ m = n).
Proof.
  intros Bf B E. unfold decode_frame in E. cbn [skipn] in E.
  destruct (destination_address_type (Z.land fl 7)) as [t|e]; [|injection E as <- <-; eauto 8].
  destruct body as [|src data]; [injection E as <- <-; eauto 8|]. cbv zeta in E. apply is_bytes_cons in B.
  destruct (decode_payload _ _ _ _ _ _ _ _ _ data) as [w [[p m]|e]] eqn:D; cbn [wtry] in E; injection E as <- <-; [|eauto 8].
  apply payload_iff in D; [|tauto]. destruct D as [extra [-> D]]. apply message_data in D. eauto 6.
Qed.

(** A line of digits that says nothing is invalid, or it makes the decoder raise. *)
Theorem C100_otherwise : forall w rest checksum strict, w <> [] -> Forall hex_char w ->
  (forall p n ws, ~ reply_line_says checksum strict (w ++ [13; 10] ++ rest) p n ws) ->
  (exists ws bytes why, decode_packet (w ++ [13; 10] ++ rest) checksum strict true
                        = (ws, Ok (Some (PktInvalid bytes why), (length w + 2)%nat)))
  \/ (exists ws e, decode_packet (w ++ [13; 10] ++ rest) checksum strict true = (ws, Raise e)).
Proof.
  intros w rest ck strict N F H. destruct w as [|c w]; [congruence|].
  assert (Hc := proj1 (Forall_forall _ _) F c (or_introl eq_refl)).
  assert (K := hex_facts c Hc). destruct K as [K1 [K2 [K3 _]]]. apply mem_false in K3.
  assert (E : decode_packet ((c :: w) ++ [13; 10] ++ rest) ck strict true
              = decode_hex ck strict true false None (length (c :: w) + 2) (c :: w)).
  { apply (decode_from_pci (c :: w) rest ck strict c w); [reflexivity| |lia|lia|exact K3].
    intros I. apply (proj1 (Forall_forall _ _) F) in I. unfold hex_char in I. lia. }
  destruct (decode_packet ((c :: w) ++ [13; 10] ++ rest) ck strict true) as [ws [[[p|] m]|e]] eqn:R; [|exfalso|eauto].
  - left. assert (Nd : ~ data_packet p) by (intros Dp; apply C100_from_pci in R; [now apply H in R|exact Dp]).
    assert (O := decode_hex_outcome ck strict true false None (length (c :: w) + 2) (c :: w)). rewrite <- E in O.
    remember (ws, Ok (Some p, m)) as Q eqn:ER in O.
    destruct O as [Nh|Fh Odd|Nil|raw Fh D NE Hk Hs S|ws' raw Fh D L1 Hk Q W|ws' raw msg fl body Fh D B M C S W];
      try discriminate; try (injection ER as <- <- <-; eauto; fail).
    destruct (decode_frame ck true false None (length (c :: w) + 2) fl msg) as [v r] eqn:Df.
    assert (Bm : is_bytes (fl :: body)).
    { rewrite <- C, M. destruct ck; [|exact B]. destruct (list_snoc_case raw) as [->|[i [l ->]]]; [exact B|].
      rewrite py_init_app. apply is_bytes_app in B. tauto. }
    apply is_bytes_cons in Bm. rewrite C in Df. apply frame_invalid in Df; [|tauto..].
    destruct Df as [q [k [-> V]]]. cbn in ER. injection ER as <- <- <-. destruct V as [V|[d [e [-> ->]]]]; [contradiction|eauto].
  - symmetry in E. apply decode_hex_position in E. destruct E as [p [E _]]. discriminate.
Qed.
Print Assumptions C100_otherwise.


(** 05 04 38 00 79 0A 3C, a lamp switched on by unit 4; and 05 00 DF 00 0E 02 07
    EA 02 1E 00, the 30th of February; a command with a wrong checksum and an odd
    letter, read with two warnings; a request of the toolkit kind; and a report of
    two levels, the second unknown, with a reply behind it, from unit 4. *)
Example C100_case :
  reply_line_says true true ([48;53;48;52;51;56;48;48;55;57;48;65] ++ [51;67] ++ [13; 10] ++ [65])
    (PktPM (mkHdr true 0 (Some 4) None) (Some 0x38) [LightOn 10]) 16 []
  /\ (forall p n ws, ~ reply_line_says false true
       ([48;53;48;48;68;70;48;48;48;69;48;50;48;55;69;65;48;50;49;69;48;48] ++ [13; 10]) p n ws)
  /\ order_line_says true false ([92] ++ [48;53;51;56;48;48;55;57;48;65;52;49] ++ [64] ++ [13])
       (PktPM (mkHdr true 0 None (Some 64)) (Some 0x38) [LightOn 10]) 15 [WConfirmCode; WChecksum]
  /\ order_line_says true true ([64] ++ [48;54;50;49;48;52] ++ [103] ++ [13]) (PktCal (CIdentify 4)) 11 []
  /\ reply_line_says false true (b16encode [0x86; 4; 1; 0; 0xE7; 0x47; 0x38; 0x20; 0x55; 0x55; 0xFF; 0xFF; 0x83; 1; 65; 66] ++ [13; 10])
       (PktPP (mkHdr false 2 (Some 4) None) 1 None
          [CExtended true 0x38 0x20 (RLevel [Some 255; None]); CReply 1 [65; 66]]) 34 [].
Proof.
  split; [apply C100_from_pci; [exact Logic.I|vm_compute; reflexivity]|]. split.
  - intros p n ws H. assert (D := reply_line_data _ _ _ _ _ _ H). apply C100_from_pci in H; [|exact D].
    vm_compute in H. injection H as _ <- _. exact D.
  - split; [apply C100_to_pci; [exact Logic.I|vm_compute; reflexivity]|].
    split; [apply C100_to_pci; [exact Logic.I|vm_compute; reflexivity]|].
    apply C100_from_pci; [exact Logic.I|vm_compute; reflexivity].
Qed.
