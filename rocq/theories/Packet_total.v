(** Lemmas for C19-C23: positions, stability, raising and checksums of
    [decode_packet] on arbitrary input. *)
From Coq Require Import List ZArith Bool Lia ZifyBool ZifyNat.
From Verif Require Import Py Common Sal Cal Packet Base Spec Common_facts Sal_facts Cal_facts
  Packet_facts Packet_roundtrip Packet_decode.
Import ListNotations.
Open Scope Z_scope.
Ltac Zify.zify_post_hook ::= Z.div_mod_to_equations.

(** ** C20: stability *)

Lemma from_pci_stable data ext ck strict : pci_complete data ->
  decode_packet (data ++ ext) ck strict true = decode_packet data ck strict true.
Proof.
  intros C. destruct (from_pci_cases data ck strict) as [[_ N]|[_ [[p [n [_ [_ H]]]]|[line [rest [E [R F]]]]]]].
  - contradiction.
  - rewrite H. specialize (H []). rewrite app_nil_r in H. congruence.
  - subst data. rewrite <- app_assoc. cbn [app].
    rewrite from_pci_line; [|intros a b H; exact (F ext a b H)|exact R].
    rewrite from_pci_line; [reflexivity| |exact R]. intros a b H. specialize (F [] a b).
    rewrite app_nil_r in F. auto.
Qed.

Lemma to_pci_stable data ext ck strict : command_complete data ->
  decode_packet (data ++ ext) ck strict false = decode_packet data ck strict false.
Proof.
  intros C. destruct (to_pci_cases data ck strict) as [[_ N]|[_ [[p [n [_ [_ H]]]]|[line [rest [E [R1 [R2 R3]]]]]]]].
  - contradiction.
  - rewrite H. specialize (H []). rewrite app_nil_r in H. congruence.
  - subst data. rewrite <- app_assoc. cbn [app]. now rewrite !to_pci_line.
Qed.

Lemma from_pci_incomplete data ck strict : ~ pci_complete data ->
  decode_packet data ck strict true = wret (None, 0%nat).
Proof. intros N. destruct (from_pci_cases data ck strict) as [[H _]|[C _]]; [exact H|contradiction]. Qed.
Lemma to_pci_incomplete data ck strict : ~ command_complete data ->
  decode_packet data ck strict false = wret (None, 0%nat).
Proof. intros N. destruct (to_pci_cases data ck strict) as [[H _]|[C _]]; [exact H|contradiction]. Qed.

(** ** C19: positions *)

Lemma decode_hex_pos ck strict fp dm_cal conf n digits ws r m :
  decode_hex ck strict fp dm_cal conf n digits = (ws, Ok (r, m)) -> (n <= m)%nat.
Proof.
  intros H. apply decode_hex_position in H.
  destruct H as [p [_ [[-> _]|[_ [raw [c [k [_ [_ [_ [_ ->]]]]]]]]]]]; lia.
Qed.

Lemma wwarn_ok {A} w (m : W A) ws a : wwarn w m = (ws, Ok a) ->
  exists ws', ws = w :: ws' /\ m = (ws', Ok a).
Proof. unfold wwarn, wbind. destruct m as [x r]. cbn. intros H. inversion H. eauto. Qed.
Lemma wwarn_raise {A} w (m : W A) ws e : wwarn w m = (ws, Raise e) ->
  exists ws', ws = w :: ws' /\ m = (ws', Raise e).
Proof. unfold wwarn, wbind. destruct m as [x r]. cbn. intros H. inversion H. eauto. Qed.

Lemma line_pos ck strict fp n line ws r m : decode_line ck strict fp n line = (ws, Ok (r, m)) -> (n <= m)%nat.
Proof.
  destruct line as [|c tl]; [intros H; inversion H; lia|]. destruct fp.
  { cbn [decode_line]. apply decode_hex_pos. }
  intros H. destruct (decode_line_outcome ck strict n (c :: tl)) as [prefix [body [_ [_ [_ O]]]]]; [discriminate|].
  rewrite H in O. remember (ws, Ok (r, m)) as R eqn:ER in O.
  destruct O as [N|i l Hb Hl|i l Hb Hl|i l Hb Hl1 Hl2 Hs|i l Hb Hl1 Hl2 Hs].
  - discriminate.
  - now apply decode_hex_pos in ER.
  - now apply decode_hex_pos in ER.
  - inversion ER. lia.
  - apply wwarn_ok in ER. destruct ER as [ws' [_ ER]]. now apply decode_hex_pos in ER.
Qed.

Lemma complete_position data ck strict (fp : bool) ws r n :
  (if fp then pci_complete data else command_complete data) ->
  decode_packet data ck strict fp = (ws, Ok (r, n)) -> (1 <= n)%nat.
Proof.
  intros C H. destruct fp.
  - destruct (from_pci_cases data ck strict) as [[_ N]|[_ [[p [m [B [_ E]]]]|[line [rest [E [R F]]]]]]].
    + contradiction.
    + specialize (E []). rewrite app_nil_r in E. rewrite E in H. inversion H. lia.
    + subst data. rewrite from_pci_line in H; [|intros a b X; specialize (F [] a b); rewrite app_nil_r in F; auto|exact R].
      apply line_pos in H. lia.
  - destruct (to_pci_cases data ck strict) as [[_ N]|[_ [[p [m [B [_ E]]]]|[line [rest [E [R1 [R2 R3]]]]]]]].
    + contradiction.
    + specialize (E []). rewrite app_nil_r in E. rewrite E in H. inversion H. lia.
    + subst data. rewrite to_pci_line in H by assumption. apply line_pos in H. lia.
Qed.

Lemma from_pci_position data ck strict ws r n :
  decode_packet data ck strict true = (ws, Ok (r, n)) ->
  (n <= length data)%nat /\ (r <> None -> (1 <= n)%nat) /\ (forall c, r <> Some (PktCal c)).
Proof.
  intros H. destruct (from_pci_cases data ck strict) as [[E N]|[C [[p [m [B [P E]]]]|[line [rest [E [R F]]]]]]].
  - rewrite E in H. inversion H. split; [lia|]. split; [congruence|discriminate].
  - specialize (E []). rewrite app_nil_r in E. rewrite E in H. inversion H; subst.
    split; [lia|]. split; [lia|]. destruct P as [->|[->|[c [s ->]]]]; discriminate.
  - assert (1 <= n)%nat by (eapply (complete_position _ _ _ true); eassumption).
    subst data. rewrite from_pci_line in H; [|intros a b X; specialize (F [] a b); rewrite app_nil_r in F; auto|exact R].
    rewrite app_length. cbn [length]. destruct line as [|x line].
    + inversion H; subst. cbn [length]. split; [lia|]. split; [lia|discriminate].
    + cbn [decode_line] in H. apply decode_hex_position in H.
      destruct H as [p [-> [[-> Hn]|[D _]]]]; [|discriminate]. split; [lia|].
      split; [lia|]. intros c Q. inversion Q. now apply (Hn c).
Qed.

Lemma to_pci_position data ck strict ws r n :
  decode_packet data ck strict false = (ws, Ok (r, n)) ->
  ((n <= length data)%nat /\ (r <> None -> (1 <= n)%nat) /\ (forall c, r <> Some (PktCal c)))
  \/ exists prefix digits conf rest raw c k,
       data = prefix ++ digits ++ conf ++ [13] ++ rest
       /\ (prefix = [] \/ prefix = [64]) /\ Forall hex_char digits /\ (length conf <= 1)%nat /\ ~ In 13 conf
       /\ b16decode digits = Ok raw
       /\ decode_cal (skipn 1 (if prefix_checksum prefix ck then py_init raw else raw)) = Ok (c, k)
       /\ r = Some (PktCal c) /\ (1 <= k)%nat
       /\ n = (length (prefix ++ digits ++ conf ++ [13%Z]) + k)%nat.
Proof.
  intros H. destruct (to_pci_cases data ck strict) as [[E N]|[C [[p [m [B [P E]]]]|[line [rest [E [R1 [R2 R3]]]]]]]].
  - rewrite E in H. inversion H. left. split; [lia|]. split; [congruence|discriminate].
  - left. specialize (E []). rewrite app_nil_r in E. rewrite E in H. inversion H; subst.
    split; [lia|]. split; [lia|]. destruct P as [->|[->| ->]]; discriminate.
  - assert (P : (1 <= n)%nat) by (eapply (complete_position _ _ _ false); eassumption).
    subst data. rewrite to_pci_line in H by assumption.
    assert (L : length (line ++ 13 :: rest) = (length line + 1 + length rest)%nat)
      by (rewrite app_length; cbn [length]; lia).
    destruct line as [|x line].
    { left. inversion H; subst. split; [rewrite L; cbn [length]; lia|]. split; [lia|discriminate]. }
    destruct (decode_line_outcome ck strict (length (x :: line) + 1) (x :: line)) as [prefix [body [Ep [Hpre [Hnp O]]]]]; [discriminate|].
    rewrite H in O.
    assert (K : forall conf digits ws, body = digits ++ opt_code conf ->
      (match conf with Some c => c <> 13 | None => True end) ->
      decode_hex (prefix_checksum prefix ck) strict false (dm_cal_of prefix) conf
         (length (x :: line) + 1) digits = (ws, Ok (r, n)) ->
      ((n <= length (x :: line ++ 13%Z :: rest))%nat /\ (r <> None -> (1 <= n)%nat) /\ (forall c, r <> Some (PktCal c)))
      \/ exists prefix digits conf rest' raw c k,
       x :: line ++ 13 :: rest = prefix ++ digits ++ conf ++ [13] ++ rest'
       /\ (prefix = [] \/ prefix = [64]) /\ Forall hex_char digits /\ (length conf <= 1)%nat /\ ~ In 13 conf
       /\ b16decode digits = Ok raw
       /\ decode_cal (skipn 1 (if prefix_checksum prefix ck then py_init raw else raw)) = Ok (c, k)
       /\ r = Some (PktCal c) /\ (1 <= k)%nat
       /\ n = (length (prefix ++ digits ++ conf ++ [13%Z]) + k)%nat).
    { intros conf digits ws' Eb H13 D. assert (D0 := D). apply decode_hex_position in D.
      destruct D as [p [-> [[-> Hn]|[D1 [raw [c [k [Hr [-> [Hc [Hk ->]]]]]]]]]]].
      - left. change (x :: line ++ 13 :: rest) with ((x :: line) ++ 13 :: rest).
        split; [lia|]. split; [lia|]. intros c Q. inversion Q. now apply (Hn c).
      - right. exists prefix, digits, (opt_code conf), rest, raw, c, k.
        split.
        { change (x :: line ++ 13 :: rest) with ((x :: line) ++ 13 :: rest). rewrite Ep, Eb.
          rewrite <- !app_assoc. reflexivity. }
        split. { destruct Hpre as [<-|[<-|[<-|[]]]]; auto. discriminate. }
        split.
        { destruct (decode_hex_outcome (prefix_checksum prefix ck) strict false (dm_cal_of prefix) conf
            (length (x :: line) + 1) digits); auto; try (rewrite D0 in *; discriminate).
          - exfalso. inversion D0.
          - subst. constructor. }
        split; [destruct conf; cbn; lia|].
        split; [destruct conf as [z|]; cbn [opt_code In]; [intros [Q|[]]; congruence|tauto]|].
        split; [exact Hr|]. split; [exact Hc|]. split; [reflexivity|]. split; [exact Hk|].
        rewrite Ep, Eb, !app_length. cbn [length]. lia. }
    change ((x :: line) ++ 13 :: rest) with (x :: line ++ 13 :: rest).
    assert (N13 : forall i l, body = i ++ [l] -> l <> 13).
    { intros i l Eb ->. apply R1. rewrite Ep, Eb. apply in_or_app. right. apply in_or_app. right. now left. }
    remember (ws, Ok (r, n)) as R eqn:ER in O.
    destruct O as [Nb|i l Hb Hl|i l Hb Hl|i l Hb Hl1 Hl2 Hs|i l Hb Hl1 Hl2 Hs].
    + discriminate.
    + apply (K None body ws); [now rewrite app_nil_r|exact I|exact ER].
    + apply (K (Some l) i ws); [exact Hb|now apply (N13 i)|exact ER].
    + left. inversion ER; subst r n. split; [|split; [lia|discriminate]].
      cbn [length]. rewrite app_length. cbn [length]. lia.
    + apply wwarn_ok in ER. destruct ER as [ws' [_ ER]].
      apply (K (Some l) i ws'); [exact Hb|now apply (N13 i)|exact ER].
Qed.

(** ** C21: exactly when it raises *)

Lemma raises_from_pci data ck strict :
  (exists ws e, decode_packet data ck strict true = (ws, Raise e)) <-> pci_raises ck strict data.
Proof.
  split.
  - intros [ws [e H]].
    destruct (from_pci_cases data ck strict) as [[E N]|[C [[p [m [B [P E]]]]|[line [rest [E [R F]]]]]]].
    + rewrite E in H. discriminate.
    + specialize (E []). rewrite app_nil_r in E. rewrite E in H. discriminate.
    + subst data. rewrite from_pci_line in H; [|intros a b X; specialize (F [] a b); rewrite app_nil_r in F; auto|exact R].
      destruct line as [|x line]; [discriminate|]. cbn [decode_line] in H.
      assert (D : exists ws e, decode_hex ck strict true false None (length (x :: line) + 2) (x :: line) = (ws, Raise e)) by eauto.
      apply decode_hex_raises in D. destruct D as [D1 D2]. exists (x :: line), rest.
      split; [reflexivity|]. split; [discriminate|]. auto.
  - intros [line [rest [-> [NE [F B]]]]]. destruct line as [|x line]; [congruence|].
    cbn [app]. change (x :: line ++ 13 :: 10 :: rest) with ((x :: line) ++ 13 :: 10 :: rest).
    assert (Hx : hex_char x) by now inversion F.
    rewrite (decode_from_pci (x :: line) rest ck strict x line eq_refl).
    + apply decode_hex_raises. auto.
    + now apply hex_no_cr.
    + unfold hex_char in Hx. lia.
    + unfold hex_char in Hx. lia.
    + rewrite code_spec. unfold is_code, hex_char in *. lia.
Qed.

Lemma wwarn_res {A} w (m : W A) : wwarn w m = (w :: fst m, snd m).
Proof. destruct m. reflexivity. Qed.

Lemma in_hex x l : Forall hex_char l -> In x l -> hex_char x.
Proof. rewrite Forall_forall. auto. Qed.

Lemma hex_last digits : Forall hex_char digits -> digits = [] \/ exists i l, digits = i ++ [l] /\ hex_char l.
Proof.
  intros F. destruct (list_snoc_case digits) as [->|[i [l ->]]]; [now left|right].
  exists i, l. split; [reflexivity|]. apply (in_hex l _ F). apply in_or_app. right. now left.
Qed.

Lemma line_parse ck strict n prefix body : In prefix [[]; [64]; [92]] ->
  (prefix = [] -> hd_error body <> Some 64 /\ hd_error body <> Some 92) -> prefix ++ body <> [] ->
  line_outcome ck strict n prefix body (decode_line ck strict false n (prefix ++ body)).
Proof.
  intros Hp Hnp NE. destruct (decode_line_outcome ck strict n (prefix ++ body) NE) as [p' [b' [E [Hp' [Hnp' O]]]]].
  assert (Q : prefix = p' /\ body = b').
  { cbn [In] in Hp, Hp'.
    destruct Hp as [<-|[<-|[<-|[]]]]; destruct Hp' as [<-|[<-|[<-|[]]]]; cbn [app] in E;
      try (inversion E; auto; fail).
    - exfalso. subst body. destruct (Hnp eq_refl) as [A _]. now apply A.
    - exfalso. subst body. destruct (Hnp eq_refl) as [_ A]. now apply A.
    - exfalso. subst b'. destruct (Hnp' eq_refl) as [A _]. now apply A.
    - exfalso. subst b'. destruct (Hnp' eq_refl) as [_ A]. now apply A. }
  destruct Q as [<- <-]. exact O.
Qed.

Lemma raise_line ck strict n prefix digits conf R ws r :
  Forall hex_char digits -> bad_hex (prefix_checksum prefix ck) strict digits ->
  (match conf with
   | None => prefix ++ digits <> []
   | Some c => ~ hex_char c /\ c <> 13 /\ c <> 63 /\ (is_code c \/ strict = false)
               /\ (prefix = [] -> digits = [] -> c <> 126 /\ c <> 124)
   end) ->
  line_outcome ck strict n prefix (digits ++ opt_code conf) R -> R = (ws, Ok r) -> False.
Proof.
  intros F Bad Hc O ER.
  assert (K : forall cf w, decode_hex (prefix_checksum prefix ck) strict false (dm_cal_of prefix) cf n digits
       = (w, Ok r) -> False).
  { intros cf w E. assert (D : exists ws e, decode_hex (prefix_checksum prefix ck) strict false (dm_cal_of prefix) cf n digits
       = (ws, Raise e)) by (apply decode_hex_raises; auto).
    destruct D as [w' [e D]]. congruence. }
  destruct conf as [c|]; cbn [opt_code] in O.
  - destruct O as [Nb|i l Hb Hl|i l Hb Hl|i l Hb Hl1 Hl2 Hs|i l Hb Hl1 Hl2 Hs].
    + discriminate.
    + apply app_inj_tail in Hb. destruct Hb as [<- <-]. tauto.
    + apply app_inj_tail in Hb. destruct Hb as [<- <-]. eauto.
    + apply app_inj_tail in Hb. destruct Hb as [<- <-]. destruct Hc as [_ [_ [_ [[?|?] _]]]]; [tauto|congruence].
    + apply app_inj_tail in Hb. destruct Hb as [<- <-]. apply wwarn_ok in ER. destruct ER as [w [_ ER]]. eauto.
  - rewrite app_nil_r in O.
    destruct O as [Nb|i l Hb Hl|i l Hb Hl|i l Hb Hl1 Hl2 Hs|i l Hb Hl1 Hl2 Hs].
    + discriminate.
    + eauto.
    + exfalso. assert (hex_char l) by (apply (in_hex l digits F); rewrite Hb; apply in_or_app; right; now left).
      unfold is_code, hex_char in *. lia.
    + exfalso. apply Hl1. apply (in_hex l digits F). rewrite Hb. apply in_or_app. right. now left.
    + exfalso. apply Hl1. apply (in_hex l digits F). rewrite Hb. apply in_or_app. right. now left.
Qed.

Lemma raises_to_pci data ck strict :
  (exists ws e, decode_packet data ck strict false = (ws, Raise e)) <-> command_raises ck strict data.
Proof.
  split.
  - intros [ws [e H]].
    destruct (to_pci_cases data ck strict) as [[E N]|[C [[p [m [B [P E]]]]|[line [rest [E [R1 [R2 R3]]]]]]]].
    + rewrite E in H. discriminate.
    + specialize (E []). rewrite app_nil_r in E. rewrite E in H. discriminate.
    + subst data. rewrite to_pci_line in H by assumption.
      destruct line as [|x line]; [discriminate|].
      destruct (decode_line_outcome ck strict (length (x :: line) + 1) (x :: line)) as [prefix [body [Ep [Hpre [Hnp O]]]]]; [discriminate|].
      rewrite H in O. remember (ws, Raise e) as R eqn:ER in O.
      assert (N13 : forall i l, body = i ++ [l] -> l <> 13 /\ l <> 63).
      { intros i l Eb. split; intros ->; [apply R1|apply R2]; rewrite Ep, Eb; apply in_or_app; right;
          apply in_or_app; right; now left. }
      assert (N124 : forall l, prefix = [] -> body = [l] -> l <> 126 /\ l <> 124).
      { intros l -> ->. cbn [app] in Ep. destruct R3 as [P1 [_ [P3 _]]]. rewrite Ep in P1, P3. cbn in P1.
        split; congruence. }
      destruct O as [Nb|i l Hb Hl|i l Hb Hl|i l Hb Hl1 Hl2 Hs|i l Hb Hl1 Hl2 Hs].
      * exists prefix, [], None, rest. rewrite Ep, Nb, app_nil_r.
        split; [reflexivity|]. split; [exact Hpre|]. split; [constructor|]. split; [right; now left|].
        intros Q. subst. discriminate.
      * assert (D := conj ER I). destruct D as [D _].
        assert (D' : exists ws e, decode_hex (prefix_checksum prefix ck) strict false (dm_cal_of prefix) None
           (length (x :: line) + 1) body = (ws, Raise e)) by eauto.
        apply decode_hex_raises in D'. destruct D' as [D1 D2].
        exists prefix, body, None, rest. split.
        { rewrite Ep, <- app_assoc. reflexivity. }
        split; [exact Hpre|]. split; [exact D1|]. split; [exact D2|]. rewrite <- Ep. discriminate.
      * assert (D' : exists ws e, decode_hex (prefix_checksum prefix ck) strict false (dm_cal_of prefix) (Some l)
           (length (x :: line) + 1) i = (ws, Raise e)) by eauto.
        apply decode_hex_raises in D'. destruct D' as [D1 D2].
        exists prefix, i, (Some l), rest. split.
        { rewrite Ep, Hb, <- !app_assoc. reflexivity. }
        split; [exact Hpre|]. split; [exact D1|]. split; [exact D2|].
        destruct (N13 i l Hb). unfold is_code, hex_char in *. repeat split; try lia; try tauto.
      * discriminate.
      * apply wwarn_raise in ER. destruct ER as [ws' [_ ER]].
        assert (D' : exists ws e, decode_hex (prefix_checksum prefix ck) strict false (dm_cal_of prefix) (Some l)
           (length (x :: line) + 1) i = (ws, Raise e)) by eauto.
        apply decode_hex_raises in D'. destruct D' as [D1 D2].
        exists prefix, i, (Some l), rest. split.
        { rewrite Ep, Hb, <- !app_assoc. reflexivity. }
        split; [exact Hpre|]. split; [exact D1|]. split; [exact D2|].
        destruct (N13 i l Hb). repeat split; auto.
        -- apply (N124 l); [assumption|]. subst i. exact Hb.
        -- apply (N124 l); [assumption|]. subst i. exact Hb.
  - intros [prefix [digits [conf [rest [-> [Hpre [F [Bad Hc]]]]]]]].
    set (body := digits ++ opt_code conf).
    replace (prefix ++ digits ++ opt_code conf ++ [13] ++ rest) with ((prefix ++ body) ++ 13 :: rest)
      by (unfold body; now rewrite <- !app_assoc).
    assert (NE : prefix ++ body <> []).
    { unfold body. destruct conf as [c|].
      - destruct prefix; [|discriminate]. destruct digits; discriminate.
      - cbn [opt_code]. rewrite app_nil_r. exact Hc. }
    assert (Good : forall z, In z (prefix ++ body) -> z = 64 \/ z = 92 \/ hex_char z
               \/ exists c, conf = Some c /\ z = c).
    { intros z I. apply in_app_or in I. destruct I as [I|I].
      - cbn [In] in Hpre. destruct Hpre as [<-|[<-|[<-|[]]]]; cbn [In] in I; intuition.
      - unfold body in I. apply in_app_or in I. destruct I as [I|I].
        + right. right. left. now apply (in_hex z digits).
        + destruct conf as [c|]; [|destruct I]. destruct I as [<-|[]]. right. right. right. eauto. }
    assert (Bar : forall z, conf = Some z -> z <> 13 /\ z <> 63 /\ (prefix = [] -> digits = [] -> z <> 126 /\ z <> 124)).
    { intros z ->. tauto. }
    rewrite to_pci_line.
    + destruct (list_eq_dec Z.eq_dec prefix []) as [Pn|Pn].
      * (* a lone '@' or backslash in non-strict mode *)
        destruct (match hd_error body with Some 64 => true | Some 92 => true | _ => false end) eqn:Hhd.
        { assert (T : exists z, body = [z] /\ (z = 64 \/ z = 92)).
          { unfold body in *. destruct digits as [|d digits].
            - destruct conf as [c|]; cbn [opt_code app hd_error] in *; [|discriminate].
              exists c. split; [reflexivity|].
              destruct (Z.eq_dec c 64); [auto|]. destruct (Z.eq_dec c 92); [auto|].
              exfalso. destruct c as [|p|]; try discriminate.
              do 7 (destruct p as [p|p|]; try discriminate; try lia).
            - exfalso. cbn [app hd_error] in Hhd. assert (hex_char d) by now inversion F.
              unfold hex_char in *. destruct d as [|p|]; try discriminate.
              do 7 (destruct p as [p|p|]; try discriminate; try lia). }
          destruct T as [z [Eb Hz]]. rewrite Pn, Eb. cbn [app].
          destruct Hz as [-> | ->]; cbn; unfold wraise; eauto. }
        assert (O := line_parse ck strict (length (prefix ++ body) + 1) prefix body Hpre
          (fun _ => ltac:(split; intros Q; rewrite Q in Hhd; discriminate)) NE).
        destruct (decode_line ck strict false (length (prefix ++ body) + 1) (prefix ++ body)) as [ws [r|e]]; [exfalso|eauto].
        remember (ws, Ok r) as R eqn:ER in O.
        eapply raise_line; eassumption.
      * assert (O := line_parse ck strict (length (prefix ++ body) + 1) prefix body Hpre
          (fun Q => False_ind _ (Pn Q)) NE).
        destruct (decode_line ck strict false (length (prefix ++ body) + 1) (prefix ++ body)) as [ws [r|e]]; [exfalso|eauto].
        remember (ws, Ok r) as R eqn:ER in O.
        eapply raise_line; eassumption.
    + intros I. apply Good in I. destruct I as [I|[I|[I|[c [Ec Iz]]]]]; try (unfold hex_char in I; lia).
      apply Bar in Ec. lia.
    + intros I. apply Good in I. destruct I as [I|[I|[I|[c [Ec Iz]]]]]; try (unfold hex_char in I; lia).
      apply Bar in Ec. lia.
    + assert (H0 : forall z, hd_error (prefix ++ body) = Some z -> z = 64 \/ z = 92 \/ hex_char z
                 \/ (prefix = [] /\ digits = [] /\ conf = Some z)).
      { intros z Hz. destruct prefix as [|p0 prefix].
        - unfold body in Hz. cbn [app] in Hz. destruct digits as [|d digits].
          + destruct conf; cbn in Hz; inversion Hz. do 3 right. repeat split.
          + cbn in Hz. inversion Hz. subst. assert (hex_char z) by now inversion F. auto.
        - cbn in Hz. inversion Hz. subst. cbn [In] in Hpre.
          destruct Hpre as [Q|[Q|[Q|[]]]]; inversion Q; auto. }
      assert (One : forall z, prefix = [] -> digits = [] -> conf = Some z -> prefix ++ body = [z]).
      { intros z -> -> ->. reflexivity. }
      unfold plain_line. split.
      { intros Hz. destruct (H0 126 Hz) as [Q|[Q|[Q|[Q1 [Q2 Q3]]]]]; try (unfold hex_char in Q; lia).
        apply Bar in Q3. destruct Q3 as [_ [_ Q3]]. destruct (Q3 Q1 Q2). congruence. }
      split.
      { apply not_true_iff_false. intros S. apply starts_with_spec in S. destruct S as [r S].
        assert (Hz : hd_error (prefix ++ body) = Some 110) by now rewrite S.
        destruct (H0 110 Hz) as [Q|[Q|[Q|[Q1 [Q2 Q3]]]]]; try (unfold hex_char in Q; lia).
        rewrite (One 110 Q1 Q2 Q3) in S. discriminate. }
      split; intros S.
      * assert (Hz : hd_error (prefix ++ body) = Some 124) by now rewrite S.
        destruct (H0 124 Hz) as [Q|[Q|[Q|[Q1 [Q2 Q3]]]]]; try (unfold hex_char in Q; lia).
        apply Bar in Q3. destruct Q3 as [_ [_ Q3]]. destruct (Q3 Q1 Q2). congruence.
      * assert (Hz : hd_error (prefix ++ body) = Some 124) by now rewrite S.
        destruct (H0 124 Hz) as [Q|[Q|[Q|[Q1 [Q2 Q3]]]]]; try (unfold hex_char in Q; lia).
        rewrite (One 124 Q1 Q2 Q3) in S. discriminate.
Qed.

(** Only two exceptions are possible. *)
Lemma decode_hex_exn ck strict fp dm_cal conf n digits ws e :
  decode_hex ck strict fp dm_cal conf n digits = (ws, Raise e) -> e = BinasciiError \/ e = IndexError.
Proof.
  intros H. assert (O := decode_hex_outcome ck strict fp dm_cal conf n digits). rewrite H in O.
  remember (ws, Raise e) as R eqn:ER in O.
  destruct O as [N|F Odd|Nil|raw F D NE Hc Hs S|ws' raw F D L1 Hc Q W|ws' raw msg fl body F D B M C S W];
    try discriminate; try (inversion ER; auto; fail).
  destruct (lift_frame ck fp dm_cal conf n fl msg) as [w [p [k [E' _]]]]. rewrite E' in ER. discriminate.
Qed.
Lemma decode_packet_exn data ck strict fp ws e :
  decode_packet data ck strict fp = (ws, Raise e) -> e = BinasciiError \/ e = IndexError.
Proof.
  intros H. destruct fp.
  - destruct (from_pci_cases data ck strict) as [[E N]|[C [[p [m [B [P E]]]]|[line [rest [E [R F]]]]]]].
    + rewrite E in H. discriminate.
    + specialize (E []). rewrite app_nil_r in E. rewrite E in H. discriminate.
    + subst data. rewrite from_pci_line in H; [|intros a b X; specialize (F [] a b); rewrite app_nil_r in F; auto|exact R].
      destruct line as [|x line]; [discriminate|]. cbn [decode_line] in H. now apply decode_hex_exn in H.
  - destruct (to_pci_cases data ck strict) as [[E N]|[C [[p [m [B [P E]]]]|[line [rest [E [R1 [R2 R3]]]]]]]].
    + rewrite E in H. discriminate.
    + specialize (E []). rewrite app_nil_r in E. rewrite E in H. discriminate.
    + subst data. rewrite to_pci_line in H by assumption. destruct line as [|x line]; [discriminate|].
      destruct (decode_line_outcome ck strict (length (x :: line) + 1) (x :: line)) as [prefix [body [Ep [Hpre [Hnp O]]]]]; [discriminate|].
      rewrite H in O. remember (ws, Raise e) as R eqn:ER in O.
      destruct O as [Nb|i l Hb Hl|i l Hb Hl|i l Hb Hl1 Hl2 Hs|i l Hb Hl1 Hl2 Hs];
        try discriminate; try (inversion ER; auto; fail);
        try (now apply decode_hex_exn in ER).
      apply wwarn_raise in ER. destruct ER as [ws' [_ ER]]. now apply decode_hex_exn in ER.
Qed.

(** ** C22: strict mode *)

Lemma decode_hex_strict fp dm_cal conf n digits ck ws p m :
  decode_hex ck true fp dm_cal conf n digits = (ws, Ok (Some p, m)) -> data_packet p ->
  ws = fst (decode_hex ck true fp dm_cal conf n digits) /\
  Forall hex_char digits /\ exists raw, b16decode digits = Ok raw /\ raw <> []
    /\ (ck = true -> sum raw mod 256 = 0).
Proof.
  intros H Dp. split; [now rewrite H|].
  assert (O := decode_hex_outcome ck true fp dm_cal conf n digits). rewrite H in O.
  remember (ws, Ok (Some p, m)) as R eqn:ER in O.
  destruct O as [N|F Odd|Nil|raw F D NE Hc Hs S|ws' raw F D L1 Hc Q W|ws' raw msg fl body F D B M C S W];
    try discriminate; try (inversion ER; subst; contradiction).
  split; [exact F|]. exists raw. split; [exact D|]. split; [|auto].
  intros ->. subst msg. destruct ck; discriminate.
Qed.

Lemma strict_from_pci data ws p n :
  decode_packet data true true true = (ws, Ok (Some p, n)) -> data_packet p ->
  exists digits rest raw, data = digits ++ [13; 10] ++ rest /\ Forall hex_char digits
    /\ b16decode digits = Ok raw /\ raw <> [] /\ sum raw mod 256 = 0
    /\ n = (length digits + 2)%nat.
Proof.
  intros H Dp.
  destruct (from_pci_cases data true true) as [[E N]|[C [[q [m [B [P E]]]]|[line [rest [E [R F]]]]]]].
  - rewrite E in H. discriminate.
  - specialize (E []). rewrite app_nil_r in E. rewrite E in H. inversion H; subst.
    destruct P as [->|[->|[c [s ->]]]]; contradiction.
  - subst data. rewrite from_pci_line in H; [|intros a b X; specialize (F [] a b); rewrite app_nil_r in F; auto|exact R].
    destruct line as [|x line]; [discriminate|]. cbn [decode_line] in H.
    assert (H' := H). apply decode_hex_strict in H'; [|exact Dp].
    destruct H' as [_ [Fh [raw [D [NE S]]]]]. apply decode_hex_position in H.
    destruct H as [p' [_ [[-> _]|[X _]]]]; [|discriminate].
    exists (x :: line), rest, raw. repeat split; auto.
Qed.

Lemma strict_to_pci data ws p n :
  decode_packet data true true false = (ws, Ok (Some p, n)) -> data_packet p ->
  exists prefix digits conf rest raw,
    data = prefix ++ digits ++ opt_code conf ++ [13] ++ rest /\ In prefix [[]; [64]; [92]]
    /\ Forall hex_char digits /\ (match conf with Some c => is_code c | None => True end)
    /\ b16decode digits = Ok raw /\ raw <> [] /\ (prefix <> [64] -> sum raw mod 256 = 0).
Proof.
  intros H Dp.
  destruct (to_pci_cases data true true) as [[E N]|[C [[q [m [B [P E]]]]|[line [rest [E [R1 [R2 R3]]]]]]]].
  - rewrite E in H. discriminate.
  - specialize (E []). rewrite app_nil_r in E. rewrite E in H. inversion H; subst.
    destruct P as [Q|[Q|Q]]; inversion Q; subst; contradiction.
  - subst data. rewrite to_pci_line in H by assumption. destruct line as [|x line]; [discriminate|].
    destruct (decode_line_outcome true true (length (x :: line) + 1) (x :: line)) as [prefix [body [Ep [Hpre [Hnp O]]]]]; [discriminate|].
    rewrite H in O. remember (ws, Ok (Some p, n)) as R eqn:ER in O.
    assert (Q : prefix <> [64] -> prefix_checksum prefix true = true).
    { cbn [In] in Hpre. destruct Hpre as [<-|[<-|[<-|[]]]]; try reflexivity. congruence. }
    destruct O as [Nb|i l Hb Hl|i l Hb Hl|i l Hb Hl1 Hl2 Hs|i l Hb Hl1 Hl2 Hs].
    + discriminate.
    + apply decode_hex_strict in ER; [|exact Dp]. destruct ER as [_ [Fh [raw [D [NE S]]]]].
      exists prefix, body, None, rest, raw. split; [rewrite Ep, <- app_assoc; reflexivity|].
      repeat split; auto.
    + apply decode_hex_strict in ER; [|exact Dp]. destruct ER as [_ [Fh [raw [D [NE S]]]]].
      exists prefix, i, (Some l), rest, raw. split; [rewrite Ep, Hb, <- !app_assoc; reflexivity|].
      repeat split; auto; unfold is_code in Hl; lia.
    + inversion ER; subst. contradiction.
    + discriminate.
Qed.

Lemma decode_hex_bad_sum fp dm_cal conf n digits raw :
  Forall hex_char digits -> b16decode digits = Ok raw -> sum raw mod 256 <> 0 ->
  decode_hex true true fp dm_cal conf n digits = wret (Some (PktInvalid raw ValueError), n).
Proof.
  intros F D S. destruct (b16decode_hex _ F) as [[r [D' [B _]]]|[D' _]]; [|congruence].
  assert (r = raw) by congruence. subst r.
  unfold decode_hex. replace (forallb _ digits) with true.
  - cbn [negb]. rewrite D, wbind_lift_ok. rewrite validate_spec; [|exact B|intros ->; now cbn in S].
    rewrite wbind_lift_ok. destruct (sum raw mod 256 =? 0) eqn:E; [lia|reflexivity].
  - symmetry. apply forallb_forall. intros c Hc. apply hex_mem. now apply (in_hex c digits).
Qed.

Lemma bad_sum_from_pci digits raw rest :
  Forall hex_char digits -> b16decode digits = Ok raw -> sum raw mod 256 <> 0 ->
  decode_packet (digits ++ [13; 10] ++ rest) true true true
  = ([], Ok (Some (PktInvalid raw ValueError), (length digits + 2)%nat)).
Proof.
  intros F D S. destruct digits as [|c t].
  { inversion D; subst. exfalso. apply S. reflexivity. }
  assert (Hc : hex_char c) by now inversion F.
  cbn [app]. change (c :: t ++ 13 :: 10 :: rest) with ((c :: t) ++ 13 :: 10 :: rest).
  rewrite (decode_from_pci (c :: t) rest true true c t eq_refl).
  - now apply decode_hex_bad_sum.
  - now apply hex_no_cr.
  - unfold hex_char in Hc. lia.
  - unfold hex_char in Hc. lia.
  - rewrite code_spec. unfold is_code, hex_char in *. lia.
Qed.

Lemma bad_sum_to_pci prefix digits conf raw rest : prefix = [] \/ prefix = [92] ->
  Forall hex_char digits -> (match conf with Some c => is_code c | None => True end) ->
  b16decode digits = Ok raw -> sum raw mod 256 <> 0 ->
  decode_packet (prefix ++ digits ++ opt_code conf ++ [13] ++ rest) true true false
  = ([], Ok (Some (PktInvalid raw ValueError), length (prefix ++ digits ++ opt_code conf ++ [13%Z]))).
Proof.
  intros Hp F Hc D S. destruct digits as [|c t].
  { inversion D; subst. exfalso. apply S. reflexivity. }
  assert (M : exists dm, prefix_mode prefix true = Some (true, dm)).
  { destruct Hp as [->| ->]; cbn; eauto. }
  destruct M as [dm M]. unfold opt_code. cbn [app].
  assert (Hc' : match conf with Some k => In k CONFIRMATION_CODES | None => True end).
  { destruct conf; [now apply code_spec|exact I]. }
  assert (G := decode_to_pci prefix true true dm (c :: t) conf rest true c t M eq_refl F Hc').
  cbn [app] in G. etransitivity; [exact G|]. rewrite (decode_hex_bad_sum _ _ _ _ _ _ F D S).
  unfold wret. do 3 f_equal.
  destruct conf; rewrite app_length; cbn [app length]; rewrite app_length; cbn [length]; lia.
Qed.

(** ** C23: corrupted digits *)

Lemma b16decode_app a b x y : b16decode a = Ok x -> b16decode b = Ok y -> b16decode (a ++ b) = Ok (x ++ y).
Proof.
  revert x. induction a as [|c|c d a IH] using list_ind2; intros x Ha Hb.
  - inversion Ha. exact Hb.
  - cbn in Ha. destruct (nibble_of_hex c); discriminate.
  - cbn [app b16decode] in *. destruct (nibble_of_hex c); [|discriminate].
    destruct (nibble_of_hex d); [|discriminate].
    destruct (b16decode a) as [r|] eqn:E; [|discriminate]. cbn [rbind] in Ha. apply Ok_inj in Ha. subst x.
    rewrite (IH r eq_refl Hb). reflexivity.
Qed.

(** Changing one digit changes exactly one byte. *)
Lemma digit_change a c d b raw : Forall hex_char (a ++ c :: b) -> hex_char d -> d <> c ->
  b16decode (a ++ c :: b) = Ok raw ->
  exists pre x y post, raw = pre ++ x :: post /\ b16decode (a ++ d :: b) = Ok (pre ++ y :: post)
    /\ byte x /\ byte y /\ x <> y.
Proof.
  revert raw. induction a as [|e|e f a IH] using list_ind2; intros raw F Hd Ne D.
  - cbn [app] in *. destruct b as [|g b]; [cbn in D; destruct (nibble_of_hex c); discriminate|].
    cbn [b16decode] in *.
    destruct (nibble_of_hex c) as [nc|] eqn:Ec; [|discriminate].
    destruct (nibble_of_hex g) as [ng|] eqn:Eg; [|discriminate].
    destruct (b16decode b) as [r|] eqn:Er; [|discriminate]. cbn [rbind] in D. apply Ok_inj in D. subst raw.
    destruct (nibble_hex_char d Hd) as [nd End]. rewrite End. cbn [rbind].
    apply nibble_some in Ec as Rc. apply nibble_some in End as Rd. apply nibble_some in Eg as Rg.
    assert (nc <> nd). { intros ->. apply Ne. eapply nibble_inj; eassumption. }
    exists [], (16 * nc + ng), (16 * nd + ng), r. cbn [app]. unfold byte.
    repeat split; try lia.
  - cbn [app] in *. cbn [b16decode] in *.
    destruct (nibble_of_hex e) as [ne|] eqn:Ee; [|discriminate].
    destruct (nibble_of_hex c) as [nc|] eqn:Ec; [|discriminate].
    destruct (b16decode b) as [r|] eqn:Er; [|discriminate]. cbn [rbind] in D. apply Ok_inj in D. subst raw.
    destruct (nibble_hex_char d Hd) as [nd End]. rewrite End. cbn [rbind].
    apply nibble_some in Ec as Rc. apply nibble_some in End as Rd. apply nibble_some in Ee as Re.
    assert (nc <> nd). { intros ->. apply Ne. eapply nibble_inj; eassumption. }
    exists [], (16 * ne + nc), (16 * ne + nd), r. cbn [app]. unfold byte.
    repeat split; try lia.
  - cbn [app] in *. cbn [b16decode] in *.
    destruct (nibble_of_hex e) as [ne|] eqn:Ee; [|discriminate].
    destruct (nibble_of_hex f) as [nf|] eqn:Ef; [|discriminate].
    destruct (b16decode (a ++ c :: b)) as [r|] eqn:Er; [|discriminate]. cbn [rbind] in D. apply Ok_inj in D. subst raw.
    inversion F as [|? ? F1 F2]; subst. inversion F2 as [|? ? F3 F4]; subst.
    destruct (IH r F4 Hd Ne eq_refl) as [pre [x [y [post [-> [D' H]]]]]].
    rewrite D'. cbn [rbind]. exists ((16 * ne + nf) :: pre), x, y, post. split; [reflexivity|].
    split; [reflexivity|exact H].
Qed.

Lemma digit_change_sum a c d b raw : Forall hex_char (a ++ c :: b) -> hex_char d -> d <> c ->
  b16decode (a ++ c :: b) = Ok raw -> sum raw mod 256 = 0 ->
  exists raw', b16decode (a ++ d :: b) = Ok raw' /\ sum raw' mod 256 <> 0.
Proof.
  intros F Hd Ne D S. destruct (digit_change a c d b raw F Hd Ne D) as [pre [x [y [post [-> [D' [Bx [By Nxy]]]]]]]].
  exists (pre ++ y :: post). split; [exact D'|]. rewrite sum_app in *. cbn [sum fold_right] in *.
  unfold byte in *. change (fold_right Z.add 0 post) with (sum post) in *. lia.
Qed.

Lemma hex_replace a c d b : Forall hex_char (a ++ c :: b) -> hex_char d -> Forall hex_char (a ++ d :: b).
Proof.
  rewrite !Forall_app. intros [H1 H2] Hd. split; [exact H1|]. inversion H2; subst. now constructor.
Qed.

Lemma corrupt_from_pci a c d b raw rest :
  Forall hex_char (a ++ c :: b) -> hex_char d -> d <> c ->
  b16decode (a ++ c :: b) = Ok raw -> sum raw mod 256 = 0 ->
  exists raw', decode_packet ((a ++ d :: b) ++ [13; 10] ++ rest) true true true
    = ([], Ok (Some (PktInvalid raw' ValueError), (length (a ++ c :: b) + 2)%nat)).
Proof.
  intros F Hd Ne D S. destruct (digit_change_sum a c d b raw F Hd Ne D S) as [raw' [D' S']].
  exists raw'. rewrite (bad_sum_from_pci _ raw' rest (hex_replace _ _ _ _ F Hd) D' S').
  rewrite !app_length. reflexivity.
Qed.
Lemma corrupt_to_pci prefix conf a c d b raw rest : prefix = [] \/ prefix = [92] ->
  (match conf with Some c => is_code c | None => True end) ->
  Forall hex_char (a ++ c :: b) -> hex_char d -> d <> c ->
  b16decode (a ++ c :: b) = Ok raw -> sum raw mod 256 = 0 ->
  exists raw', decode_packet (prefix ++ (a ++ d :: b) ++ opt_code conf ++ [13] ++ rest) true true false
    = ([], Ok (Some (PktInvalid raw' ValueError),
               length (prefix ++ (a ++ c :: b) ++ opt_code conf ++ [13%Z]))).
Proof.
  intros Hp Hc F Hd Ne D S. destruct (digit_change_sum a c d b raw F Hd Ne D S) as [raw' [D' S']].
  exists raw'. rewrite (bad_sum_to_pci prefix _ conf raw' rest Hp (hex_replace _ _ _ _ F Hd) Hc D' S').
  rewrite !app_length. reflexivity.
Qed.

(** ** C46: lighting applications *)

Lemma light_apps cmds : Forall valid_light cmds -> Forall (fun s => sal_application s = 0x38) cmds.
Proof. intros H. eapply Forall_impl; [|exact H]. intros s Hs. destruct s; try contradiction; reflexivity. Qed.

Lemma pm_decode_lighting a body ck prio : 0x30 <= a <= 0x5f -> is_bytes body ->
  exists ws cmds, decode_lighting body = (ws, Ok cmds)
    /\ Forall (fun s => sal_application s = 0x38) cmds
    /\ pm_decode (a :: 0 :: body) ck prio
       = (ws, if (a =? 0x38) || match cmds with [] => true | _ => false end
              then Ok (PktPM (mkHdr ck prio None None) (Some a) cmds) else Raise ValueError).
Proof.
  intros Ha Hb. destruct (light_total body Hb) as [cmds [ws [_ [_ [D [_ [_ [V _]]]]]]]].
  exists ws, cmds. split; [exact D|]. apply light_apps in V. split; [exact V|].
  assert (I : is_application a = true).
  { unfold is_application, APP_LIGHTING_FIRST, APP_LIGHTING_LAST. replace (_ && _) with true by lia.
    rewrite orb_true_r. reflexivity. }
  assert (G : get_application a = Ok AppLighting).
  { unfold get_application, APP_LIGHTING_FIRST, APP_LIGHTING_LAST, APP_TEMPERATURE.
    replace (a =? 25) with false by lia. replace (_ && _) with true by lia. reflexivity. }
  unfold pm_decode. cbn [py_index nth_error rbind]. unfold application_enum. rewrite I.
  rewrite !wbind_lift_ok. cbn [Z.eqb negb]. rewrite G, wbind_lift_ok. cbn [skipn app_decode_sals].
  rewrite D. unfold wbind, new_pm. destruct (a =? 56) eqn:E.
  - assert (a = 56) by lia. subst. rewrite append_sals_same by exact V. cbn. now rewrite app_nil_r.
  - destruct cmds as [|s cmds]; [cbn; now rewrite app_nil_r|].
    cbn [append_sals append_sal fst snd]. unfold append_sal. cbn [fst snd].
    assert (S : sal_application s = 56) by now inversion V. rewrite S, E. cbn. now rewrite app_nil_r.
Qed.

Definition lighting_result ck prio src conf a body (cmds : list sal) : packet :=
  if (a =? 0x38) || match cmds with [] => true | _ => false end
  then PktPM (mkHdr ck prio src conf) (Some a) cmds else PktInvalid (a :: 0 :: body) ValueError.

Lemma lighting_from_pci ck strict prio src a body rest : 0x30 <= a <= 0x5f -> is_bytes body ->
  0 <= prio <= 3 -> byte src ->
  let w := b16encode (with_checksum ck (5 + 64 * prio :: src :: a :: 0 :: body)) in
  exists ws cmds, decode_lighting body = (ws, Ok cmds) /\
    decode_packet (w ++ [13; 10] ++ rest) ck strict true
    = (ws, Ok (Some (lighting_result ck prio (if src =? 0 then None else Some src) None a body cmds),
               (length w + 2)%nat)).
Proof.
  intros Ha Hb Hp Hs. cbv zeta.
  destruct (pm_decode_lighting a body ck prio Ha Hb) as [ws [cmds [D [_ P]]]]. exists ws, cmds.
  split; [exact D|].
  replace (5 + 64 * prio) with (flags DAT_PM 0 false prio).
  - fold (wire ck (flags DAT_PM 0 false prio :: src :: a :: 0 :: body)).
    cbn [app]. rewrite line_from_pci; [|right; left; reflexivity|exact Hp|exact Hs|].
    + unfold decode_payload. cbn [DAT_PM DAT_PP Z.eqb Pos.eqb]. rewrite P. unfold lighting_result.
      destruct (_ || _); cbn [wlift wmap wtry lift_packet set_attrs]; [|reflexivity].
      unfold set_hdr. cbn [negb h_checksum h_priority]. destruct (src =? 0); reflexivity.
    + byte_list; try assumption; unfold byte; lia.
  - rewrite flags_eq; [unfold DAT_PM; lia|right; left; reflexivity|exact Hp].
Qed.

Lemma lighting_to_pci ck strict prio a body conf rest : 0x30 <= a <= 0x5f -> is_bytes body ->
  0 <= prio <= 3 -> (match conf with Some k => is_code k | None => True end) ->
  let w := b16encode (with_checksum ck (5 + 64 * prio :: a :: 0 :: body)) in
  exists ws cmds, decode_lighting body = (ws, Ok cmds) /\
    decode_packet ([92] ++ w ++ opt_code conf ++ [13] ++ rest) ck strict false
    = (ws, Ok (Some (lighting_result ck prio None conf a body cmds),
               length ([92] ++ w ++ opt_code conf ++ [13]))).
Proof.
  intros Ha Hb Hp Hc. cbv zeta.
  destruct (pm_decode_lighting a body ck prio Ha Hb) as [ws [cmds [D [_ P]]]]. exists ws, cmds.
  split; [exact D|].
  replace (5 + 64 * prio) with (flags DAT_PM 0 false prio).
  - fold (wire ck (flags DAT_PM 0 false prio :: a :: 0 :: body)).
    assert (G := line_to_pci [92] ck ck false strict DAT_PM false prio (a :: 0 :: body) conf rest eq_refl
       (or_intror (or_introl eq_refl)) Hp).
    assert (B : is_bytes (a :: 0 :: body)) by (byte_list; try assumption; unfold byte; lia).
    specialize (G B Hc). cbv zeta in G. etransitivity; [exact G|].
    unfold decode_payload. cbn [DAT_PM DAT_PP Z.eqb Pos.eqb]. rewrite P. unfold lighting_result.
    destruct (_ || _); cbn [wlift wmap wtry lift_packet set_attrs]; reflexivity.
  - rewrite flags_eq; [unfold DAT_PM; lia|right; left; reflexivity|exact Hp].
Qed.

(** ** C45: append_sal and clear_sal *)

(** One call: the object afterwards and the exception, if any. *)
Definition pm_call (st : option Z * list sal) (op : pm_op) : (option Z * list sal) * option exn :=
  match op with
  | PClear => (clear_sal st, None)
  | PAppend s => match append_sal st s with Ok st' => (st', None) | Raise e => (st, Some e) end
  end.
Fixpoint pm_calls (st : option Z * list sal) (ops : list pm_op)
  : (option Z * list sal) * list (option exn) :=
  match ops with
  | [] => (st, [])
  | op :: ops' => let '(st1, o) := pm_call st op in
                  let '(st2, os) := pm_calls st1 ops' in (st2, o :: os)
  end.

Lemma append_sal_spec st s : homogeneous st ->
  (fst st <> None -> fst st <> Some (sal_application s) -> append_sal st s = Raise ValueError)
  /\ (fst st = None \/ fst st = Some (sal_application s) ->
      append_sal st s = Ok (Some (sal_application s), snd st ++ [s])
      /\ homogeneous (Some (sal_application s), snd st ++ [s])).
Proof.
  unfold append_sal, homogeneous. destruct st as [[a|] l]; cbn [fst snd]; intros H.
  - split.
    + intros _ N. destruct (a =? sal_application s) eqn:E; [|reflexivity]. exfalso. apply N. f_equal. lia.
    + intros [N|N]; [discriminate|]. inversion N; subst. rewrite Z.eqb_refl. split; [reflexivity|].
      apply Forall_app. split; [exact H|]. repeat constructor.
  - split; [congruence|]. intros _. split; [reflexivity|]. subst l. repeat constructor.
Qed.

Lemma pm_calls_spec ops : forall st st' outs, homogeneous st -> pm_calls st ops = (st', outs) ->
  homogeneous st' /\ length outs = length ops /\ snd st' = held (snd st) (combine ops outs).
Proof.
  induction ops as [|op ops IH]; intros st st' outs H E; cbn [pm_calls] in E.
  - inversion E; subst. auto.
  - destruct (pm_call st op) as [st1 o] eqn:C. destruct (pm_calls st1 ops) as [st2 os] eqn:R.
    inversion E; subst. destruct op as [s|]; cbn [pm_call] in C.
    + destruct (append_sal st s) as [x|e] eqn:A; inversion C; subst.
      * assert (K : st1 = (Some (sal_application s), snd st ++ [s]) /\ homogeneous st1).
        { destruct (append_sal_spec st s H) as [S1 S2].
          destruct (fst st) as [a|] eqn:F.
          - destruct (Z.eq_dec a (sal_application s)) as [->|N].
            + destruct (S2 (or_intror eq_refl)) as [S2' S3]. rewrite A in S2'. inversion S2'; subst. auto.
            + rewrite S1 in A; [discriminate|discriminate|congruence].
          - destruct (S2 (or_introl eq_refl)) as [S2' S3]. rewrite A in S2'. inversion S2'; subst. auto. }
        destruct K as [-> Hh]. destruct (IH _ _ _ Hh R) as [I1 [I2 I3]].
        split; [exact I1|]. split; [cbn; lia|]. exact I3.
      * destruct (IH _ _ _ H R) as [I1 [I2 I3]].
        split; [exact I1|]. split; [cbn; lia|]. exact I3.
    + inversion C; subst. assert (Hh : homogeneous (clear_sal st)) by reflexivity.
      destruct (IH _ _ _ Hh R) as [I1 [I2 I3]]. split; [exact I1|]. split; [cbn; lia|]. exact I3.
Qed.

Lemma append_sals_spec l : forall st st', homogeneous st -> append_sals st l = Ok st' ->
  homogeneous st' /\ snd st' = snd st ++ l.
Proof.
  induction l as [|s l IH]; intros st st' H E; cbn [append_sals] in E.
  - inversion E; subst. now rewrite app_nil_r.
  - destruct (append_sal_spec st s H) as [S1 S2].
    destruct (fst st) as [a|] eqn:F.
    + destruct (Z.eq_dec a (sal_application s)) as [->|N].
      * destruct (S2 (or_intror eq_refl)) as [S2' S3]. rewrite S2' in E. cbn [rbind] in E.
        destruct (IH _ _ S3 E) as [I1 I2]. split; [exact I1|]. rewrite I2. cbn [snd]. now rewrite <- app_assoc.
      * rewrite S1 in E; [discriminate|discriminate|congruence].
    + destruct (S2 (or_introl eq_refl)) as [S2' S3]. rewrite S2' in E. cbn [rbind] in E.
      destruct (IH _ _ S3 E) as [I1 I2]. split; [exact I1|]. rewrite I2. cbn [snd]. now rewrite <- app_assoc.
Qed.

Lemma new_pm_spec ck prio a sals p : new_pm ck prio a sals = Ok p ->
  exists a', p = PktPM (mkHdr ck prio None None) a' sals /\ homogeneous (a', sals)
    /\ (forall x, a = Some x -> a' = Some x).
Proof.
  unfold new_pm. intros H. res_step H. destruct a0 as [a' l]. inversion H; subst.
  assert (Hh : homogeneous (a, [])) by (unfold homogeneous; destruct a; cbn; auto).
  assert (E' := E). apply append_sals_spec in E'; [|exact Hh]. cbn [fst snd app] in E'.
  destruct E' as [E1 E2]. subst l. exists a'. split; [reflexivity|]. split; [exact E1|].
  intros x ->. clear -E. assert (G : forall l st st', append_sals st l = Ok st' -> fst st = Some x -> fst st' = Some x).
  { induction l as [|s l IH]; intros st st' E' F; cbn [append_sals] in E'; [inversion E'; now subst|].
    unfold append_sal in E'. rewrite F in E'. destruct (x =? sal_application s); [|discriminate].
    cbn [rbind] in E'. eapply IH; [exact E'|reflexivity]. }
  exact (G _ _ _ E eq_refl).
Qed.

(** ** Encoded packets *)

Lemma hex_packet_raw p w : hex_packet p -> encode_packet p = Ok w ->
  exists raw, raw_encode p = Some (Ok raw) /\ is_bytes raw /\ raw <> [] /\ Forall hex_char w
    /\ length w = (2 * length raw)%nat /\ b16decode w = Ok raw
    /\ (checksummed p -> sum raw mod 256 = 0).
Proof.
  intros H E.
  assert (T : packet_typed p).
  { destruct p; cbn in H |- *; auto. }
  assert (R : exists r, raw_encode p = Some r). { destruct p; cbn in H |- *; eauto; contradiction. }
  destruct R as [r R]. destruct (encode_packet_hex p w r R T E) as [raw [-> [_ [B [N [F [L D]]]]]]].
  exists raw. repeat split; try assumption. intros C.
  assert (X : exists b, raw = with_checksum true b).
  { destruct p; cbn in C |- *; try contradiction; cbn [raw_encode] in R.
    - inversion R as [R']. unfold pm_encode in R'. destruct application as [a|]; [|discriminate].
      destruct (_ || _); [discriminate|]. res_step R'. res_step R'. rewrite C in R'. apply Ok_inj in R'. eauto.
    - inversion R as [R']. unfold pp_encode in R'. destruct hops; [discriminate|]. res_step R'. res_step R'.
      res_step R'. rewrite C in R'. apply Ok_inj in R'. eauto.
    - inversion R as [R']. unfold dm_encode in R'. res_step R'. rewrite C in R'. apply Ok_inj in R'. eauto.
    - inversion R as [R']. res_step R'. rewrite C in R'. apply Ok_inj in R'. eauto. }
  destruct X as [b ->]. cbn [with_checksum]. destruct (add_checksum_spec b) as [c [-> [_ [S _]]]]. exact S.
Qed.

(** ** In strict mode a raising decode has logged nothing *)

Lemma decode_hex_quiet ck fp dm_cal conf n digits ws e :
  decode_hex ck true fp dm_cal conf n digits = (ws, Raise e) -> ws = [].
Proof.
  intros E. assert (O := decode_hex_outcome ck true fp dm_cal conf n digits). rewrite E in O.
  remember (ws, Raise e) as R eqn:ER in O.
  destruct O as [N|F Odd|Nil|raw F D NE Hc Hs S|ws' raw F D L1 Hc Q W|ws' raw msg fl body F D B M C S W].
  - discriminate.
  - now inversion ER.
  - now inversion ER.
  - discriminate.
  - inversion ER; subst. destruct Q as [Q|Q]; [discriminate|]. now rewrite Q.
  - exfalso. destruct (lift_frame ck fp dm_cal conf n fl msg) as [w [p [m [E' _]]]].
    rewrite E' in ER. discriminate.
Qed.

Lemma decode_packet_quiet data ck fp ws e :
  decode_packet data ck true fp = (ws, Raise e) -> ws = [].
Proof.
  intros H. destruct fp.
  - destruct (from_pci_cases data ck true) as [[E N]|[C [[p [m [B [P E]]]]|[line [rest [E [R F]]]]]]].
    + rewrite E in H. discriminate.
    + specialize (E []). rewrite app_nil_r in E. rewrite E in H. discriminate.
    + subst data. rewrite from_pci_line in H; [|intros a b X; specialize (F [] a b); rewrite app_nil_r in F; auto|exact R].
      destruct line as [|x line]; [discriminate|]. cbn [decode_line] in H.
      now apply decode_hex_quiet in H.
  - destruct (to_pci_cases data ck true) as [[E N]|[C [[p [m [B [P E]]]]|[line [rest [E [R1 [R2 R3]]]]]]]].
    + rewrite E in H. discriminate.
    + specialize (E []). rewrite app_nil_r in E. rewrite E in H. discriminate.
    + subst data. rewrite to_pci_line in H by assumption.
      destruct line as [|x line]; [discriminate|].
      destruct (decode_line_outcome ck true (length (x :: line) + 1) (x :: line)) as [prefix [body [Ep [Hpre [Hnp O]]]]]; [discriminate|].
      rewrite H in O. remember (ws, Raise e) as R eqn:ER in O.
      destruct O as [Nb|i l Hb Hl|i l Hb Hl|i l Hb Hl1 Hl2 Hs|i l Hb Hl1 Hl2 Hs].
      * now inversion ER.
      * now apply decode_hex_quiet in ER.
      * now apply decode_hex_quiet in ER.
      * discriminate.
      * discriminate.
Qed.
