(** Lemmas on [decode_packet] for arbitrary input. *)
From Coq Require Import List ZArith Bool Lia ZifyBool ZifyNat.
From Verif Require Import Py Common Sal Cal Packet Base Spec Common_facts Sal_facts Cal_facts
  Packet_facts Packet_roundtrip.
Import ListNotations.
Open Scope Z_scope.
Ltac Zify.zify_post_hook ::= Z.div_mod_to_equations.

(** ** Searching *)

Lemma starts_with_spec p l : starts_with p l = true <-> exists r, l = p ++ r.
Proof.
  revert l. induction p as [|a p IH]; intros l; cbn [starts_with].
  - split; [intros _; exists l; reflexivity|reflexivity].
  - destruct l as [|b l].
    + split; [discriminate|intros [r H]; discriminate].
    + rewrite andb_true_iff, IH. split.
      * intros [H [r ->]]. exists r. cbn. f_equal. lia.
      * intros [r H]. cbn in H. inversion H; subst. split; [lia|eauto].
Qed.

Lemma starts_with_more p l x : starts_with p l = true -> starts_with p (l ++ x) = true.
Proof. rewrite !starts_with_spec. intros [r ->]. exists (r ++ x). now rewrite app_assoc. Qed.

Lemma find_some p l e : find p l = Some e ->
  (e <= length l)%nat /\ l = firstn e l ++ p ++ skipn (e + length p) l
  /\ forall a b, l = a ++ p ++ b -> (e <= length a)%nat.
Proof.
  revert e. induction l as [|x l IH]; intros e H; unfold find in H; fold find in H.
  - destruct (starts_with p []) eqn:E; [|discriminate]. inversion H; subst. clear H.
    apply starts_with_spec in E. destruct E as [r E]. symmetry in E. apply app_eq_nil in E.
    destruct E as [-> ->]. cbn. repeat split; intros; lia.
  - destruct (starts_with p (x :: l)) eqn:E.
    + inversion H; subst. clear H. apply starts_with_spec in E. destruct E as [r E].
      split; [lia|]. split; [|intros; lia]. cbn [firstn app Nat.add]. rewrite E.
      now rewrite skipn_app_length.
    + destruct (find p l) as [e'|] eqn:F; [|discriminate]. cbn [option_map] in H. inversion H; subst.
      destruct (IH e' eq_refl) as [H1 [H2 H3]]. cbn [length firstn app Nat.add skipn].
      split; [lia|]. split; [now rewrite <- H2|].
      intros a b Hab. destruct a as [|y a].
      * exfalso. cbn [app] in Hab. assert (starts_with p (x :: l) = true); [|congruence].
        apply starts_with_spec. eauto.
      * cbn [app] in Hab. inversion Hab; subst. apply H3 in H5 || idtac.
        assert (L := H3 a b eq_refl). cbn [length]. lia.
Qed.

Lemma find_exists p l a b : l = a ++ p ++ b -> exists e, find p l = Some e.
Proof.
  revert a. induction l as [|x l IH]; intros a H.
  - symmetry in H. apply app_eq_nil in H. destruct H as [-> H]. apply app_eq_nil in H.
    destruct H as [-> ->]. exists 0%nat. reflexivity.
  - unfold find; fold find. destruct (starts_with p (x :: l)) eqn:E; [eauto|].
    destruct a as [|y a].
    + exfalso. assert (starts_with p (x :: l) = true); [|congruence].
      apply starts_with_spec. eauto.
    + cbn [app] in H. inversion H; subst. destruct (IH a eq_refl) as [e ->].
      cbn. eauto.
Qed.

Lemma find_none_iff p l : find p l = None <-> forall a b, l <> a ++ p ++ b.
Proof.
  split.
  - intros H a b E. destruct (find_exists p l a b E). congruence.
  - intros H. destruct (find p l) as [e|] eqn:F; [|reflexivity]. exfalso.
    apply find_some in F. destruct F as [_ [F _]]. now apply H in F.
Qed.

Lemma find_unique p l a b : l = a ++ p ++ b ->
  (forall a' b', l = a' ++ p ++ b' -> (length a <= length a')%nat) -> find p l = Some (length a).
Proof.
  intros E H. destruct (find_exists p l a b E) as [e F]. rewrite F. f_equal.
  apply find_some in F. destruct F as [H1 [H2 H3]].
  assert (A := H3 _ _ E). assert (B := H _ _ H2). rewrite firstn_length in B. lia.
Qed.

Lemma find_cr_split l e : find END_COMMAND l = Some e ->
  exists rest, l = firstn e l ++ 13 :: rest /\ ~ In 13 (firstn e l) /\ length (firstn e l) = e.
Proof.
  intros F. apply find_some in F. destruct F as [H1 [H2 H3]].
  exists (skipn (e + 1) l). split; [exact H2|].
  assert (L : length (firstn e l) = e) by (rewrite firstn_length; lia).
  split; [|exact L]. intros I. apply in_split in I. destruct I as [a [b Hab]].
  assert (E : l = a ++ END_COMMAND ++ b ++ END_COMMAND ++ skipn (e + length END_COMMAND) l).
  { rewrite H2 at 1. rewrite Hab. rewrite <- app_assoc. reflexivity. }
  apply H3 in E. rewrite Hab, app_length in L. cbn [length] in L. lia.
Qed.

(** ** Lines to a PCI *)

Definition plain_line (line : bytes) : Prop :=
  hd_error line <> Some 126 /\ starts_with [110; 117; 108; 108] line = false
  /\ line <> [124] /\ line <> [124; 124].

Lemma starts_with_before p line x : ~ In 13 p ->
  starts_with p (line ++ 13 :: x) = starts_with p line.
Proof.
  revert line. induction p as [|a p IH]; intros line H; [reflexivity|].
  cbn [In] in H. destruct line as [|b line]; cbn [app starts_with].
  - replace (a =? 13) with false by lia. reflexivity.
  - rewrite IH by tauto. reflexivity.
Qed.

Lemma bar_line line x : ~ In 13 line ->
  starts_with (124 :: END_COMMAND) (line ++ 13 :: x)
    || starts_with (124 :: 124 :: END_COMMAND) (line ++ 13 :: x) = true
  <-> line = [124] \/ line = [124; 124].
Proof.
  intros H13. unfold END_COMMAND. destruct line as [|a [|b [|c line]]].
  - cbn. split; [discriminate|intros [|]; discriminate].
  - cbn [app starts_with]. change (13 =? 13) with true. change (124 =? 13) with false.
    rewrite !andb_true_r. cbn [andb]. rewrite andb_false_r. destruct (124 =? a) eqn:E; cbn [andb orb].
    + split; [intros _; left; f_equal; lia|auto].
    + split; [discriminate|]. intros [H|H]; inversion H. lia.
  - assert (b <> 13) by (cbn in H13; intros ->; tauto).
    cbn [app starts_with]. change (13 =? 13) with true. replace (13 =? b) with false by lia.
    rewrite !andb_true_r. cbn [andb]. rewrite andb_false_r. cbn [orb].
    destruct (124 =? a) eqn:E1; cbn [andb]; [|split; [discriminate|intros [H'|H']; inversion H'; lia]].
    destruct (124 =? b) eqn:E2; split; try discriminate; try (intros [H'|H']; inversion H'; lia); auto.
    intros _. right. repeat f_equal; lia.
  - assert (b <> 13 /\ c <> 13) by (cbn in H13; split; intros ->; tauto).
    cbn [app starts_with]. replace (13 =? b) with false by lia. replace (13 =? c) with false by lia.
    cbn [andb]. rewrite !andb_false_r. split; [discriminate|intros [|]; discriminate].
Qed.

Lemma question_after line rest : ~ In 63 line ->
  match find [63] (line ++ 13 :: rest) with
  | Some q => Nat.ltb q (length line) = false | None => True end.
Proof.
  intros N63. destruct (find [63] (line ++ 13 :: rest)) as [q|] eqn:EQ; [|exact I].
  apply Nat.ltb_ge. apply find_some in EQ. destruct EQ as [H1 [H2 _]].
  destruct (Nat.le_gt_cases (length line) q) as [|G]; [assumption|exfalso].
  apply N63. assert (E : nth_error (line ++ 13 :: rest) q = Some 63).
  { rewrite H2. rewrite nth_error_app2 by (rewrite firstn_length; lia).
    rewrite firstn_length. replace (q - Nat.min q _)%nat with 0%nat by lia. reflexivity. }
  rewrite nth_error_app1 in E by exact G. now apply nth_error_In in E.
Qed.

Lemma to_pci_line line rest ck strict : ~ In 13 line -> ~ In 63 line -> plain_line line ->
  decode_packet (line ++ 13 :: rest) ck strict false
  = decode_line ck strict false (length line + 1) line.
Proof.
  intros H13 H63 [P1 [P2 [P3 P4]]].
  destruct (line ++ 13 :: rest) as [|c0 tl] eqn:E; [destruct line; discriminate|].
  unfold decode_packet. rewrite <- E.
  assert (C0 : (c0 =? 126) = false).
  { destruct line as [|a line]; cbn [app] in E; inversion E; subst; [reflexivity|].
    destruct (c0 =? 126) eqn:Q; [|reflexivity]. exfalso. apply P1. cbn. f_equal. lia. }
  rewrite C0, starts_with_before, P2 by (cbn; lia).
  assert (B := bar_line line rest H13).
  destruct (_ || _); [exfalso; destruct (proj1 B eq_refl); auto|].
  rewrite (find_cr line rest H13). assert (Q := question_after line rest H63).
  destruct (find [63] _) as [q|]; [rewrite Q|]; rewrite firstn_app_length; reflexivity.
Qed.

(** What [decode_packet] does on data to a PCI: wait, return something that
    needs no decoding, or decode a line. *)
Lemma to_pci_cases data ck strict :
  (decode_packet data ck strict false = wret (None, 0%nat) /\ ~ command_complete data)
  \/ (command_complete data /\
      ((exists p n, (1 <= n <= length data)%nat
        /\ (p = None \/ p = Some PktReset \/ p = Some PktSmartConnect)
        /\ forall ext, decode_packet (data ++ ext) ck strict false = wret (p, n))
      \/ exists line rest, data = line ++ 13 :: rest /\ ~ In 13 line /\ ~ In 63 line /\ plain_line line)).
Proof.
  destruct data as [|c0 tl].
  { left. split; [reflexivity|]. intros [[r H]|[[r H]|[l [r H]]]]; try discriminate.
    destruct l; discriminate. }
  unfold decode_packet at 1. destruct (c0 =? 126) eqn:E126.
  { right. assert (c0 = 126) by lia. subst. split; [left; eauto|]. left. exists (Some PktReset), 1%nat.
    split; [cbn [length]; lia|]. split; [auto|]. reflexivity. }
  destruct (starts_with [110; 117; 108; 108] (c0 :: tl)) eqn:Enull.
  { right. assert (S := Enull). apply starts_with_spec in S. destruct S as [r S].
    split; [right; left; eauto|]. left. exists None, 4%nat.
    split; [rewrite S, app_length; cbn [length]; lia|]. split; [auto|]. intros ext.
    assert (S2 := starts_with_more _ _ ext Enull). cbn [app] in S2 |- *. unfold decode_packet.
    rewrite E126, S2. reflexivity. }
  destruct (find END_COMMAND (c0 :: tl)) as [e|] eqn:F.
  - right. assert (F0 := F). apply find_cr_split in F. destruct F as [rest [Hd [H13 He]]].
    set (line := firstn e (c0 :: tl)) in *.
    split; [right; right; exists line, rest; exact Hd|].
    destruct (starts_with (124 :: END_COMMAND) (c0 :: tl)
              || starts_with (124 :: 124 :: END_COMMAND) (c0 :: tl)) eqn:Bar.
    + left. exists (Some PktSmartConnect), (e + 1)%nat.
      assert (L : length (c0 :: tl) = (e + S (length rest))%nat)
        by (rewrite Hd, app_length, He; reflexivity).
      split; [lia|]. split; [auto|]. intros ext. unfold decode_packet. cbn [app]. rewrite E126.
      change (c0 :: tl ++ ext) with ((c0 :: tl) ++ ext).
      replace ((c0 :: tl) ++ ext) with (line ++ 13 :: rest ++ ext)
        by (rewrite Hd, <- app_assoc; reflexivity).
      rewrite starts_with_before by (cbn; lia).
      rewrite Hd, starts_with_before in Enull by (cbn; lia). rewrite Enull.
      assert (Bar2 : starts_with (124 :: END_COMMAND) (line ++ 13 :: rest ++ ext)
              || starts_with (124 :: 124 :: END_COMMAND) (line ++ 13 :: rest ++ ext) = true).
      { apply bar_line; [exact H13|]. rewrite Hd in Bar. apply bar_line in Bar; assumption. }
      rewrite Bar2, find_cr by exact H13. rewrite He. reflexivity.
    + destruct (find [63] (c0 :: tl)) as [q|] eqn:Q.
      * destruct (Nat.ltb q e) eqn:Lt.
        -- left. exists None, (q + 1)%nat.
           assert (L : length (c0 :: tl) = (e + S (length rest))%nat)
             by (rewrite Hd, app_length, He; reflexivity).
           split; [lia|]. split; [auto|]. intros ext. unfold decode_packet. cbn [app]. rewrite E126.
           change (c0 :: tl ++ ext) with ((c0 :: tl) ++ ext).
           assert (Fq : find [63] ((c0 :: tl) ++ ext) = Some q).
           { assert (G := find_some _ _ _ Q). destruct G as [G1 [G2 G3]].
             replace (Some q) with (Some (length (firstn q (c0 :: tl)))) by (rewrite firstn_length; f_equal; lia).
             apply (find_unique _ _ _ (skipn (q + 1) (c0 :: tl) ++ ext)).
             - rewrite G2 at 1. rewrite <- !app_assoc. reflexivity.
             - intros a b Hab. rewrite firstn_length.
               destruct (Nat.le_gt_cases q (length a)) as [|Gt]; [lia|exfalso].
               assert (En : nth_error (c0 :: tl) (length a) = Some 63).
               { rewrite <- (nth_error_app1 (c0 :: tl) ext) by lia.
                 rewrite Hab. rewrite nth_error_app2, Nat.sub_diag by lia. reflexivity. }
               apply nth_error_split in En. destruct En as [a' [b' [En La]]].
               specialize (G3 a' b' En). lia. }
           rewrite Fq.
           replace ((c0 :: tl) ++ ext) with (line ++ 13 :: rest ++ ext)
             by (rewrite Hd, <- app_assoc; reflexivity).
           rewrite starts_with_before by (cbn; lia).
           rewrite Hd, starts_with_before in Enull by (cbn; lia). rewrite Enull.
           assert (Bar2 : starts_with (124 :: END_COMMAND) (line ++ 13 :: rest ++ ext)
              || starts_with (124 :: 124 :: END_COMMAND) (line ++ 13 :: rest ++ ext) = false).
           { apply not_true_iff_false. intros BB.
             apply bar_line in BB; [|exact H13]. rewrite Hd in Bar.
             apply (bar_line line rest H13) in BB. congruence. }
           rewrite Bar2, find_cr by exact H13. rewrite He, Lt. reflexivity.
        -- right. exists line, rest. split; [exact Hd|]. split; [exact H13|].
           split; [|split].
           ++ intros I. apply in_split in I. destruct I as [a [b Hab]].
              assert (G := find_some _ _ _ Q). destruct G as [_ [_ G3]].
              assert (G4 := G3 a (b ++ 13 :: rest)). rewrite Hd, Hab, <- app_assoc in G4.
              specialize (G4 eq_refl). rewrite Hab, app_length in He. cbn [length] in He. lia.
           ++ unfold line. destruct e; cbn [firstn hd_error]; [discriminate|].
              intros HH. inversion HH. lia.
           ++ rewrite Hd in Enull, Bar. rewrite starts_with_before in Enull by (cbn; lia).
              split; [exact Enull|]. split; intros HH;
              assert (BB : starts_with (124 :: END_COMMAND) (line ++ 13 :: rest)
                || starts_with (124 :: 124 :: END_COMMAND) (line ++ 13 :: rest) = true)
                by (apply bar_line; auto); congruence.
      * right. exists line, rest. split; [exact Hd|]. split; [exact H13|]. split; [|split].
        -- intros I. apply in_split in I. destruct I as [a [b Hab]].
           rewrite find_none_iff in Q. apply (Q a (b ++ 13 :: rest)).
           rewrite Hd, Hab, <- app_assoc. reflexivity.
        -- unfold line. destruct e; cbn [firstn hd_error]; [discriminate|].
           intros HH. inversion HH. lia.
        -- rewrite Hd in Enull, Bar. rewrite starts_with_before in Enull by (cbn; lia).
           split; [exact Enull|]. split; intros HH;
           assert (BB : starts_with (124 :: END_COMMAND) (line ++ 13 :: rest)
             || starts_with (124 :: 124 :: END_COMMAND) (line ++ 13 :: rest) = true)
             by (apply bar_line; auto); congruence.
  - left. assert (Bar : starts_with (124 :: END_COMMAND) (c0 :: tl)
              || starts_with (124 :: 124 :: END_COMMAND) (c0 :: tl) = false).
    { apply not_true_iff_false. intros BB. rewrite find_none_iff in F.
      apply orb_true_iff in BB. rewrite !starts_with_spec in BB. destruct BB as [[r BB]|[r BB]].
      - apply (F [124] r). exact BB.
      - apply (F [124; 124] r). exact BB. }
    rewrite Bar. split; [reflexivity|]. intros [[r H]|[[r H]|[l [r H]]]].
    + inversion H. lia.
    + rewrite H in Enull. now rewrite starts_with_app in Enull.
    + rewrite find_none_iff in F. now apply (F l r).
Qed.

(** ** Lines from a PCI *)

Definition response_line (line : bytes) : Prop :=
  match line with [] => True | c :: _ => c <> 43 /\ c <> 33 /\ ~ is_code c end.

Lemma from_pci_line line rest ck strict :
  (forall a b, line ++ [13; 10] ++ rest = a ++ [13; 10] ++ b -> (length line <= length a)%nat) ->
  response_line line ->
  decode_packet (line ++ 13 :: 10 :: rest) ck strict true
  = decode_line ck strict true (length line + 2) line.
Proof.
  intros Hf Hr. assert (F := find_unique END_RESPONSE _ line rest eq_refl Hf).
  cbn [app END_RESPONSE] in F.
  destruct line as [|c line]; cbn [app] in *.
  - unfold decode_packet. cbn [Z.eqb Pos.eqb mem existsb CONFIRMATION_CODES orb].
    rewrite F. reflexivity.
  - destruct Hr as [H1 [H2 H3]]. rewrite <- code_spec in H3. apply mem_false in H3.
    unfold decode_packet. replace (c =? 43) with false by lia. replace (c =? 33) with false by lia.
    destruct (line ++ 13 :: 10 :: rest) as [|c1 tl] eqn:E; [destruct line; discriminate|].
    rewrite H3, F. rewrite <- E. change (c :: line ++ 13 :: 10 :: rest) with ((c :: line) ++ 13 :: 10 :: rest).
    rewrite firstn_app_length. reflexivity.
Qed.

Lemma from_pci_cases data ck strict :
  (decode_packet data ck strict true = wret (None, 0%nat) /\ ~ pci_complete data)
  \/ (pci_complete data /\
      ((exists p n, (1 <= n <= length data)%nat
        /\ (p = PktPowerOn \/ p = PktError \/ exists c s, p = PktConfirm [c] s)
        /\ forall ext, decode_packet (data ++ ext) ck strict true = wret (Some p, n))
      \/ exists line rest, data = line ++ 13 :: 10 :: rest /\ response_line line
         /\ forall ext a b, line ++ [13; 10] ++ rest ++ ext = a ++ [13; 10] ++ b -> (length line <= length a)%nat)).
Proof.
  destruct data as [|c0 tl].
  { left. split; [reflexivity|].
    intros [[r H]|[[r H]|[[c [r [x [_ H]]]]|[l [r H]]]]]; try discriminate.
    destruct l; discriminate. }
  unfold decode_packet at 1. destruct (c0 =? 43) eqn:E43.
  { right. assert (c0 = 43) by lia. subst. split; [left; eauto|]. left. exists PktPowerOn, 1%nat.
    split; [cbn [length]; lia|]. split; [auto|]. reflexivity. }
  destruct (c0 =? 33) eqn:E33.
  { right. assert (c0 = 33) by lia. subst. split; [right; left; eauto|]. left. exists PktError, 1%nat.
    split; [cbn [length]; lia|]. split; [auto|]. reflexivity. }
  destruct tl as [|c1 tl].
  { left. split; [reflexivity|].
    intros [[r H]|[[r H]|[[c [r [x [_ H]]]]|[l [r H]]]]]; try discriminate.
    - inversion H. lia.
    - inversion H. lia.
    - destruct l as [|a [|b l]]; discriminate. }
  destruct (mem c0 CONFIRMATION_CODES) eqn:Ecode.
  { right. assert (Hc : is_code c0) by (apply code_spec, mem_spec, Ecode).
    split; [right; right; left; exists c0, c1, tl; auto|]. left.
    exists (PktConfirm [c0] (c1 =? 46)), 2%nat. split; [cbn [length]; lia|].
    split; [right; right; eauto|]. intros ext. cbn [app]. unfold decode_packet.
    rewrite E43, E33, Ecode. reflexivity. }
  destruct (find END_RESPONSE (c0 :: c1 :: tl)) as [e|] eqn:F.
  - right. assert (G := find_some _ _ _ F). destruct G as [G1 [G2 G3]].
    set (line := firstn e (c0 :: c1 :: tl)) in *.
    set (rest := skipn (e + length END_RESPONSE) (c0 :: c1 :: tl)) in *.
    assert (Le : length line = e) by (unfold line; rewrite firstn_length; lia).
    split; [right; right; right; exists line, rest; exact G2|]. right. exists line, rest.
    split; [exact G2|]. split.
    + unfold line. destruct e; cbn [firstn response_line]; [exact I|].
      rewrite <- code_spec, <- mem_false. repeat split; [lia|lia|exact Ecode].
    + intros ext a b H. destruct (Nat.le_gt_cases (length line) (length a)) as [|Gt]; [assumption|exfalso].
      (* the earlier occurrence would lie inside line ++ [13] *)
      assert (P : exists b', line ++ [13; 10] ++ rest = a ++ [13; 10] ++ b').
      { exists (skipn (length a + 2) (line ++ [13; 10] ++ rest)).
        rewrite <- (firstn_skipn (length a) (line ++ [13; 10] ++ rest)) at 1.
        assert (FA : firstn (length a) (line ++ [13; 10] ++ rest) = a).
        { assert (X : firstn (length a) ((line ++ [13; 10] ++ rest) ++ ext) = a).
          { rewrite <- !app_assoc. rewrite H. apply firstn_app_length. }
          rewrite firstn_app in X.
          replace (length a - length (line ++ [13; 10]%Z ++ rest))%nat with 0%nat in X
            by (rewrite app_length; lia).
          cbn [firstn] in X. now rewrite app_nil_r in X. }
        rewrite FA. f_equal.
        assert (SA : skipn (length a) (line ++ [13; 10] ++ rest) ++ ext = [13; 10] ++ b).
        { assert (X : skipn (length a) ((line ++ [13; 10] ++ rest) ++ ext) = [13; 10] ++ b).
          { rewrite <- !app_assoc. rewrite H. apply skipn_app_length. }
          rewrite skipn_app in X.
          replace (length a - length (line ++ [13; 10]%Z ++ rest))%nat with 0%nat in X
            by (rewrite app_length; lia). exact X. }
        assert (LS : (2 <= length (skipn (length a) (line ++ [13; 10]%Z ++ rest)))%nat).
        { rewrite skipn_length, !app_length. cbn [length]. lia. }
        replace (length a + 2)%nat with (2 + length a)%nat by lia.
        rewrite <- skipn_skipn.
        destruct (skipn (length a) (line ++ [13; 10] ++ rest)) as [|y [|z s]]; cbn [length] in LS; try lia.
        cbn [app] in SA. inversion SA. reflexivity. }
      destruct P as [b' P]. change (line ++ [13; 10] ++ rest) with (line ++ END_RESPONSE ++ rest) in P.
      rewrite <- G2 in P. apply G3 in P. lia.
  - left. split; [reflexivity|]. rewrite find_none_iff in F.
    intros [[r H]|[[r H]|[[c [r [x [Hc H]]]]|[l [r H]]]]].
    + inversion H. lia.
    + inversion H. lia.
    + inversion H; subst. apply code_spec, mem_spec in Hc. congruence.
    + now apply (F l r).
Qed.

(** ** decode_frame never raises *)

Lemma wtry_ok {A} (m : W A) h : exists ws a, wtry m h = (ws, Ok a).
Proof. destruct m as [ws [a|e]]; cbn; eauto. Qed.

Definition cal_position (dm_cal : bool) (payload : bytes) (n : nat) (p : packet) (m : nat) : Prop :=
  (m = n /\ forall c, p <> PktCal c)
  \/ (dm_cal = true /\ exists c k, p = PktCal c /\ decode_cal payload = Ok (c, k)
                              /\ (1 <= k)%nat /\ m = (n + k)%nat).

Lemma dm_decode_not_cal body ck prio q : dm_decode body ck prio = Ok q -> exists h x y, q = PktDM h x y.
Proof.
  unfold dm_decode. intros H. res_step H. res_step H. destruct (negb _); [discriminate|]. res_step H.
  destruct (negb _); [discriminate|]. inversion H. eauto.
Qed.
Lemma new_pp_not_cal ck prio u br hops cals q : new_pp ck prio u br hops cals = Ok q ->
  exists h x y z, q = PktPP h x y z.
Proof.
  unfold new_pp. destruct hops.
  - destruct (_ <=? _); [discriminate|]. intros H. inversion H. eauto.
  - destruct (negb _); [discriminate|]. intros H. inversion H. eauto.
Qed.
Lemma pp_decode_not_cal body ck prio q : pp_decode body ck prio = Ok q ->
  exists h x y z, q = PktPP h x y z.
Proof.
  unfold pp_decode. intros H. res_step H. res_step H. destruct (_ =? 0).
  - res_step H. now apply new_pp_not_cal in H.
  - res_step H. res_step H. destruct a2. res_step H. res_step H. now apply new_pp_not_cal in H.
Qed.
Lemma pm_decode_not_cal body ck prio ws q : pm_decode body ck prio = (ws, Ok q) ->
  exists h x y, q = PktPM h x y.
Proof.
  unfold pm_decode. destruct (rbind _ _) as [a|]; [rewrite wbind_lift_ok|discriminate].
  destruct (py_index body 1) as [d|]; [rewrite wbind_lift_ok|discriminate].
  destruct (negb _); [discriminate|].
  destruct (get_application a) as [h|]; [rewrite wbind_lift_ok|discriminate].
  unfold wbind. destruct (app_decode_sals _ _) as [w [l|e]]; [|discriminate].
  unfold new_pm, wlift. destruct (append_sals _ _) as [[a' l']|]; cbn [rbind]; intros H; inversion H. eauto.
Qed.

Lemma decode_payload_position ck fp dm_cal conf src n dat prio dp body ws p m :
  decode_payload ck fp dm_cal conf src n dat prio dp body = (ws, Ok (p, m)) ->
  cal_position dm_cal body n p m.
Proof.
  unfold decode_payload. destruct dp.
  { destruct (dm_decode body ck prio) as [q|] eqn:D; cbn; intros H; inversion H. left.
    split; [reflexivity|]. apply dm_decode_not_cal in D. destruct D as [h [x [y ->]]]. discriminate. }
  destruct dm_cal.
  { destruct (decode_cal body) as [[c k]|] eqn:D; cbn; intros H; inversion H. right.
    split; [reflexivity|]. exists c, k. assert (P := decode_cal_pos _ _ _ D). auto. }
  destruct (dat =? DAT_PP).
  { destruct (pp_decode body ck prio) as [q|] eqn:D; cbn; intros H; inversion H. left.
    split; [reflexivity|]. apply pp_decode_not_cal in D. destruct D as [h [x [y [z ->]]]]. discriminate. }
  destruct (dat =? DAT_PM).
  { destruct (pm_decode body ck prio) as [w [q|e]] eqn:D; cbn; intros H; inversion H. left.
    split; [reflexivity|]. apply pm_decode_not_cal in D. destruct D as [h [x [y ->]]]. discriminate. }
  discriminate.
Qed.

Lemma decode_frame_ok ck fp dm_cal conf n fl data :
  exists ws p m, decode_frame ck fp dm_cal conf n fl data = (ws, Ok (p, m))
    /\ cal_position dm_cal (skipn (if fp then 2 else 1) data) n p m.
Proof.
  unfold decode_frame.
  assert (T : forall src body h, (forall e, exists d x, h e = (PktInvalid d x, n)) ->
    exists ws p m, wtry (decode_payload ck fp dm_cal conf src n (Z.land fl 7)
       (Z.land (Z.shiftr fl 6) 3) (Z.land fl 32 =? 32) body) h = (ws, Ok (p, m))
       /\ cal_position dm_cal body n p m).
  { intros src body h Hh.
    destruct (decode_payload ck fp dm_cal conf src n (Z.land fl 7)
       (Z.land (Z.shiftr fl 6) 3) (Z.land fl 32 =? 32) body) as [ws [[p m]|e]] eqn:D.
    - exists ws, p, m. split; [reflexivity|]. eapply decode_payload_position, D.
    - destruct (Hh e) as [d [x E]]. cbn [wtry]. rewrite E. eexists ws, _, n.
      split; [reflexivity|]. left. split; [reflexivity|discriminate]. }
  unfold destination_address_type. destruct (mem _ _).
  - destruct fp.
    + destruct data as [|f [|s body]]; cbn [skipn].
      * eexists _, _, n. split; [reflexivity|]. left. split; [reflexivity|discriminate].
      * eexists _, _, n. split; [reflexivity|]. left. split; [reflexivity|discriminate].
      * apply T. eauto.
    + apply T. eauto.
  - eexists _, _, n. split; [reflexivity|]. left. split; [reflexivity|discriminate].
Qed.

(** ** decode_hex *)

Definition checksum_of (ck : bool) (raw : bytes) : bool :=
  negb ck || (sum raw mod 256 =? 0).

Inductive hex_outcome (ck strict fp dm_cal : bool) (conf : option Z) (n : nat) (digits : bytes)
  : W (option packet * nat) -> Prop :=
| ho_not_hex : ~ Forall hex_char digits ->
    hex_outcome ck strict fp dm_cal conf n digits (wret (Some (PktInvalid digits ValueError), n))
| ho_odd : Forall hex_char digits -> (length digits mod 2 = 1)%nat ->
    hex_outcome ck strict fp dm_cal conf n digits (wraise BinasciiError)
| ho_empty : digits = [] ->
    hex_outcome ck strict fp dm_cal conf n digits (wraise IndexError)
| ho_checksum raw : Forall hex_char digits -> b16decode digits = Ok raw -> raw <> [] ->
    ck = true -> strict = true -> sum raw mod 256 <> 0 ->
    hex_outcome ck strict fp dm_cal conf n digits (wret (Some (PktInvalid raw ValueError), n))
| ho_short ws raw : Forall hex_char digits -> b16decode digits = Ok raw ->
    length raw = 1%nat -> ck = true -> (strict = false \/ sum raw mod 256 = 0) ->
    ws = (if sum raw mod 256 =? 0 then [] else [WChecksum]) ->
    hex_outcome ck strict fp dm_cal conf n digits (ws, Raise IndexError)
| ho_frame ws raw msg fl body : Forall hex_char digits -> b16decode digits = Ok raw ->
    is_bytes raw -> msg = (if ck then py_init raw else raw) -> msg = fl :: body ->
    (ck = true -> strict = true -> sum raw mod 256 = 0) ->
    ws = (if checksum_of ck raw then [] else [WChecksum]) ->
    hex_outcome ck strict fp dm_cal conf n digits
      (ws ++ fst (lift_packet (decode_frame ck fp dm_cal conf n fl msg)),
       snd (lift_packet (decode_frame ck fp dm_cal conf n fl msg))).

Lemma decode_hex_outcome ck strict fp dm_cal conf n digits :
  hex_outcome ck strict fp dm_cal conf n digits (decode_hex ck strict fp dm_cal conf n digits).
Proof.
  unfold decode_hex. destruct (forallb (fun c => mem c HEX_CHARS) digits) eqn:H; cbn [negb].
  2:{ apply ho_not_hex. intros F. apply not_true_iff_false in H. apply H, forallb_forall.
      intros x Hx. apply hex_mem. rewrite Forall_forall in F. auto. }
  assert (F : Forall hex_char digits).
  { apply Forall_forall. intros x Hx. rewrite forallb_forall in H. now apply hex_mem, H. }
  destruct (b16decode_hex digits F) as [[raw [D [B L]]]|[D L]]; rewrite D.
  2:{ now apply ho_odd. }
  rewrite wbind_lift_ok. destruct raw as [|x raw].
  { cbn [length] in L. assert (digits = []) by (destruct digits; [reflexivity|discriminate]).
    subst. destruct ck; apply ho_empty; reflexivity. }
  set (go := fun data => wbind (wlift (py_index data 0)) (fun fl =>
      wmap (fun '(p, n) => (Some p, n)) (decode_frame ck fp dm_cal conf n fl data))).
  assert (Go : forall fl body, go (fl :: body) = lift_packet (decode_frame ck fp dm_cal conf n fl (fl :: body))).
  { intros fl body. unfold go. cbn [py_index nth_error]. rewrite wbind_lift_ok. reflexivity. }
  destruct ck.
  - rewrite validate_spec by (exact B || discriminate). rewrite wbind_lift_ok.
    destruct (sum (x :: raw) mod 256 =? 0) eqn:S.
    + fold (go (py_init (x :: raw))).
      destruct (py_init (x :: raw)) as [|fl body] eqn:I.
      * assert (raw = []). { unfold py_init in I. cbn in I. destruct raw; [reflexivity|discriminate]. }
        subst. unfold go. cbn. eapply ho_short; try eassumption; try reflexivity; [right; lia|].
        now rewrite S.
      * rewrite Go.
        assert (O := ho_frame true strict fp dm_cal conf n digits [] (x :: raw) (fl :: body) fl body F D B).
        rewrite I in O. specialize (O eq_refl eq_refl (fun _ _ => ltac:(lia))).
        unfold checksum_of in O. rewrite S in O. specialize (O eq_refl). cbn [app] in O.
        destruct (lift_packet _). exact O.
    + destruct strict.
      * eapply ho_checksum; try eassumption; try reflexivity; [discriminate|lia].
      * fold (go (py_init (x :: raw))).
        destruct (py_init (x :: raw)) as [|fl body] eqn:I.
        -- assert (raw = []). { unfold py_init in I. cbn in I. destruct raw; [reflexivity|discriminate]. }
           subst. unfold go. cbn. eapply ho_short; try eassumption; try reflexivity; [now left|].
           now rewrite S.
        -- rewrite Go.
           assert (O := ho_frame true false fp dm_cal conf n digits [WChecksum] (x :: raw) (fl :: body) fl body F D B).
           rewrite I in O. specialize (O eq_refl eq_refl (fun _ Q => ltac:(discriminate))).
           unfold checksum_of in O. rewrite S in O. specialize (O eq_refl). cbn [app] in O.
           unfold wwarn. exact O.
  - fold (go (x :: raw)). rewrite Go.
    assert (O := ho_frame false strict fp dm_cal conf n digits [] (x :: raw) (x :: raw) x raw F D B eq_refl eq_refl
       (fun Q _ => ltac:(discriminate)) eq_refl). cbn [app] in O.
    destruct (lift_packet _). exact O.
Qed.

Lemma lift_frame ck fp dm_cal conf n fl msg : exists ws p m,
  lift_packet (decode_frame ck fp dm_cal conf n fl msg) = (ws, Ok (Some p, m))
  /\ decode_frame ck fp dm_cal conf n fl msg = (ws, Ok (p, m))
  /\ cal_position dm_cal (skipn (if fp then 2 else 1) msg) n p m.
Proof.
  destruct (decode_frame_ok ck fp dm_cal conf n fl msg) as [ws [p [m [E C]]]].
  exists ws, p, m. rewrite E. auto.
Qed.

(** Exact raise condition of decode_hex. *)
Lemma two_digits digits raw : Forall hex_char digits -> b16decode digits = Ok raw ->
  length raw = 1%nat ->
  length digits = 2%nat /\ (sum raw mod 256 = 0 <-> digits = [48; 48]).
Proof.
  intros F D L. destruct digits as [|a [|b [|c d]]]; try discriminate.
  - inversion D; subst. discriminate.
  - split; [reflexivity|]. cbn [b16decode] in D.
    destruct (nibble_of_hex a) as [x|] eqn:Ea; [|discriminate].
    destruct (nibble_of_hex b) as [y|] eqn:Eb; [|discriminate].
    cbn [rbind] in D. apply Ok_inj in D. subst raw. cbn [sum fold_right].
    apply nibble_some in Ea as Ha. apply nibble_some in Eb as Hb. split.
    + intros H. assert (HH : x = 0 /\ y = 0) by lia. destruct HH as [-> ->].
      assert (nibble_of_hex 48 = Some 0) by reflexivity.
      rewrite (nibble_inj a 48 0), (nibble_inj b 48 0) by assumption. reflexivity.
    + intros H. inversion H; subst. cbn in Ea, Eb. inversion Ea; inversion Eb; subst. reflexivity.
  - exfalso. destruct (b16decode_hex _ F) as [[r [D' [_ L']]]|[D' _]]; [|congruence].
    assert (r = raw) by congruence. subst. cbn [length] in L'. lia.
Qed.

Lemma decode_hex_raises ck strict fp dm_cal conf n digits :
  ((exists ws e, decode_hex ck strict fp dm_cal conf n digits = (ws, Raise e))
   <-> Forall hex_char digits /\ bad_hex ck strict digits).
Proof.
  assert (O := decode_hex_outcome ck strict fp dm_cal conf n digits). split.
  - intros [ws [e E]]. rewrite E in O. unfold bad_hex.
    remember (ws, Raise e) as R eqn:ER in O.
    destruct O as [N|F Odd|Nil|raw F D NE Hc Hs S|ws' raw F D L1 Hc Q W|ws' raw msg fl body F D B M C S W].
    + discriminate.
    + auto.
    + subst. split; [constructor|auto].
    + discriminate.
    + destruct (two_digits _ _ F D L1) as [L S]. split; [assumption|].
      right. right. split; [exact Hc|]. split; [exact L|]. destruct Q; [now left|right; now apply S].
    + exfalso. destruct (lift_frame ck fp dm_cal conf n fl msg) as [w [p [m [E' _]]]].
      rewrite E' in ER. discriminate.
  - intros [F Bad]. destruct (decode_hex ck strict fp dm_cal conf n digits) as [ws [r|e]]; [exfalso|eauto].
    remember (ws, Ok r) as R eqn:ER in O.
    assert (One : forall raw, b16decode digits = Ok raw -> length digits = 2%nat -> length raw = 1%nat).
    { intros raw D L2. destruct (b16decode_hex digits F) as [[r' [D' [_ L]]]|[D' L]]; [|lia].
      assert (r' = raw) by congruence. subst. lia. }
    assert (Even : forall raw, b16decode digits = Ok raw -> (length digits mod 2 = 1)%nat -> False).
    { intros raw D L2. destruct (b16decode_hex digits F) as [[r' [D' [_ L]]]|[D' L]]; [lia|congruence]. }
    destruct O as [N|F' Odd|Nil|raw F' D NE Hc Hs S|ws' raw F' D L1 Hc Q W|ws' raw msg fl body F' D B M C S W];
      try discriminate.
    + contradiction.
    + destruct Bad as [Odd|[Nil|[_ [Two Q]]]].
      * eauto.
      * subst. inversion D; subst. congruence.
      * destruct (two_digits _ _ F D (One _ D Two)) as [_ S']. destruct Q as [Q|Q]; [congruence|].
        apply S' in Q. contradiction.
    + destruct Bad as [Odd|[Nil|[Hc [Two Q]]]].
      * eauto.
      * rewrite Nil in D. inversion D; subst raw. subst msg. destruct ck; discriminate.
      * specialize (One _ D Two). destruct raw as [|y [|z raw]]; try discriminate.
        subst msg. rewrite Hc in C. discriminate.
Qed.

Lemma decode_hex_position ck strict fp dm_cal conf n digits ws r m :
  decode_hex ck strict fp dm_cal conf n digits = (ws, Ok (r, m)) ->
  exists p, r = Some p /\
    ((m = n /\ forall c, p <> PktCal c)
     \/ (dm_cal = true /\ exists raw c k, b16decode digits = Ok raw /\ p = PktCal c
         /\ decode_cal (skipn (if fp then 2 else 1) (if ck then py_init raw else raw)) = Ok (c, k)
         /\ (1 <= k)%nat /\ m = (n + k)%nat)).
Proof.
  intros E. assert (O := decode_hex_outcome ck strict fp dm_cal conf n digits). rewrite E in O.
  remember (ws, Ok (r, m)) as R eqn:ER in O.
  destruct O as [N|F Odd|Nil|raw F D NE Hc Hs S|ws' raw F D L1 Hc Q W|ws' raw msg fl body F D B M C S W];
    try discriminate.
  - inversion ER. eexists. split; [reflexivity|]. left. split; [reflexivity|discriminate].
  - inversion ER. eexists. split; [reflexivity|]. left. split; [reflexivity|discriminate].
  - destruct (lift_frame ck fp dm_cal conf n fl msg) as [w [p [k [E' [_ K]]]]].
    rewrite E' in ER. inversion ER; subst r m. exists p. split; [reflexivity|].
    destruct K as [K|[K1 [c [j [K2 [K3 K4]]]]]]; [now left|right].
    split; [exact K1|]. exists raw, c, j. rewrite <- M. auto.
Qed.

(** ** Lines to a PCI *)

Definition dm_cal_of (prefix : bytes) : bool := match prefix with [92] => false | _ => true end.

Inductive line_outcome (ck strict : bool) (n : nat) (prefix body : bytes) : W (option packet * nat) -> Prop :=
| lo_empty : body = [] -> line_outcome ck strict n prefix body (wraise IndexError)
| lo_plain i l : body = i ++ [l] -> hex_char l ->
    line_outcome ck strict n prefix body
      (decode_hex (prefix_checksum prefix ck) strict false (dm_cal_of prefix) None n body)
| lo_code i l : body = i ++ [l] -> is_code l ->
    line_outcome ck strict n prefix body
      (decode_hex (prefix_checksum prefix ck) strict false (dm_cal_of prefix) (Some l) n i)
| lo_strict i l : body = i ++ [l] -> ~ hex_char l -> ~ is_code l -> strict = true ->
    line_outcome ck strict n prefix body (wret (Some (PktInvalid body ValueError), n))
| lo_warn i l : body = i ++ [l] -> ~ hex_char l -> ~ is_code l -> strict = false ->
    line_outcome ck strict n prefix body (wwarn WConfirmCode
      (decode_hex (prefix_checksum prefix ck) strict false (dm_cal_of prefix) (Some l) n i)).

Lemma decode_line_outcome ck strict n line : line <> [] ->
  exists prefix body, line = prefix ++ body /\ In prefix [[]; [64]; [92]]
    /\ (prefix = [] -> hd_error body <> Some 64 /\ hd_error body <> Some 92)
    /\ line_outcome ck strict n prefix body (decode_line ck strict false n line).
Proof.
  intros NE. destruct line as [|c0 tl]; [congruence|]. clear NE. unfold decode_line.
  assert (K : forall prefix body, line_outcome ck strict n prefix body
    (wbind (wlift (py_last body)) (fun l =>
        if mem l HEX_CHARS then decode_hex (prefix_checksum prefix ck) strict false (dm_cal_of prefix) None n body
        else if mem l CONFIRMATION_CODES then
          decode_hex (prefix_checksum prefix ck) strict false (dm_cal_of prefix) (Some l) n (py_init body)
        else if strict then wret (Some (PktInvalid body ValueError), n)
        else wwarn WConfirmCode
               (decode_hex (prefix_checksum prefix ck) strict false (dm_cal_of prefix) (Some l) n (py_init body))))).
  { intros prefix body. destruct (list_snoc_case body) as [->|[i [l E]]].
    - now apply lo_empty.
    - rewrite E at 2. rewrite py_last_app, wbind_lift_ok.
      destruct (mem l HEX_CHARS) eqn:H1; [apply hex_mem in H1; now apply lo_plain with i l|].
      assert (N1 : ~ hex_char l) by (rewrite <- hex_mem; congruence).
      replace (py_init body) with i by (rewrite E; now rewrite py_init_app).
      destruct (mem l CONFIRMATION_CODES) eqn:H2.
      + apply mem_spec, code_spec in H2. now apply lo_code.
      + apply mem_false in H2. rewrite code_spec in H2.
        destruct strict eqn:S; [now apply lo_strict with i l|now apply lo_warn]. }
  destruct (c0 =? 64) eqn:E1.
  { assert (c0 = 64) by lia. subst. exists [64], tl. split; [reflexivity|].
    split; [cbn; auto|]. split; [discriminate|]. exact (K [64] tl). }
  destruct (c0 =? 92) eqn:E2.
  { assert (c0 = 92) by lia. subst. exists [92], tl. split; [reflexivity|].
    split; [cbn; auto|]. split; [discriminate|]. exact (K [92] tl). }
  exists [], (c0 :: tl). split; [reflexivity|]. split; [cbn; auto|].
  split; [|exact (K [] (c0 :: tl))]. intros _. cbn. split; intros H; inversion H; lia.
Qed.
