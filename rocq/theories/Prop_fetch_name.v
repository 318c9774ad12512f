(** C76, continued: the name of a document's file for any link. *)
From Coq Require Import List ZArith Bool String Lia ZifyBool.
From Verif Require Import Py Text Base Spec_json Fetch Spec_fetch Spec_fetch_name Fetch_facts Fetch_names.
Import ListNotations.
Notation length := List.length.
Open Scope Z_scope.

(** ** The shape of a character *)

Definition shape (c : Z) (x : bytes) : Prop :=
  match x with
  | [p] => 0 <= p < 128 /\ c = p
  | [p; q] => 0xC2 <= p <= 0xDF /\ cont q = true /\ c = (p - 0xC0) * 64 + (q - 0x80)
  | [p; q; r] => 0xE0 <= p <= 0xEF /\ second_ok p q = true /\ cont r = true
                 /\ c = ((p - 0xE0) * 64 + (q - 0x80)) * 64 + (r - 0x80)
  | [p; q; r; s] => 0xF0 <= p <= 0xF4 /\ second_ok p q = true /\ cont r = true /\ cont s = true
                    /\ c = (((p - 0xF0) * 64 + (q - 0x80)) * 64 + (r - 0x80)) * 64 + (s - 0x80)
  | _ => False
  end.
Lemma cont_is q : cont q = true <-> 128 <= q <= 191.
Proof. unfold cont, in_range. lia. Qed.
Lemma second_is p q : second_ok p q = true <->
  128 <= q <= 191 /\ (p = 0xE0 -> 0xA0 <= q) /\ (p = 0xED -> q <= 0x9F) /\ (p = 0xF0 -> 0x90 <= q) /\ (p = 0xF4 -> q <= 0x8F).
Proof.
  unfold second_ok, second_range, in_range.
  destruct (Z.eqb_spec p 0xE0); [cbn [fst snd]; lia|]. destruct (Z.eqb_spec p 0xED); [cbn [fst snd]; lia|].
  destruct (Z.eqb_spec p 0xF0); [cbn [fst snd]; lia|]. destruct (Z.eqb_spec p 0xF4); cbn [fst snd]; lia.
Qed.
Lemma character_shape c x : character c x <-> shape c x.
Proof.
  split.
  - intros (U & N). destruct U as [c A|a e A B|a e f A B C D|a e f g A B C D E]; cbn [shape];
      rewrite ?second_is, ?cont_is; lia.
  - intros H. destruct x as [|p [|q [|r [|s [|]]]]]; cbn [shape] in H; try contradiction;
      rewrite ?second_is, ?cont_is in H.
    + destruct H as (H & ->). split; [constructor; lia|lia].
    + destruct H as (A & B & ->). split; [|lia].
      replace p with (0xc0 + (p - 0xc0)) at 2 by lia. replace q with (0x80 + (q - 0x80)) at 2 by lia. constructor; lia.
    + destruct H as (A & B & C & ->). split; [|lia].
      replace p with (0xe0 + (p - 0xe0)) at 2 by lia. replace q with (0x80 + (q - 0x80)) at 2 by lia.
      replace r with (0x80 + (r - 0x80)) at 2 by lia.
      replace (((p - 0xe0) * 64 + (q - 0x80)) * 64 + (r - 0x80)) with ((p - 0xe0) * 4096 + (q - 0x80) * 64 + (r - 0x80)) by lia.
      constructor; lia.
    + destruct H as (A & B & C & D & ->). split; [|lia].
      replace p with (0xf0 + (p - 0xf0)) at 2 by lia. replace q with (0x80 + (q - 0x80)) at 2 by lia.
      replace r with (0x80 + (r - 0x80)) at 2 by lia. replace s with (0x80 + (s - 0x80)) at 2 by lia.
      replace ((((p - 0xf0) * 64 + (q - 0x80)) * 64 + (r - 0x80)) * 64 + (s - 0x80))
        with ((p - 0xf0) * 262144 + (q - 0x80) * 4096 + (r - 0x80) * 64 + (s - 0x80)) by lia.
      constructor; lia.
Qed.
Definition starting (x : bytes) : Prop :=
  match x with
  | [] => True
  | [p] => 0 <= p < 128 \/ 0xC2 <= p <= 0xF4
  | [p; q] => (0xC2 <= p <= 0xDF /\ cont q = true) \/ (0xE0 <= p <= 0xF4 /\ second_ok p q = true)
  | [p; q; r] => 0xE0 <= p <= 0xF4 /\ second_ok p q = true /\ cont r = true
  | [p; q; r; s] => 0xF0 <= p <= 0xF4 /\ second_ok p q = true /\ cont r = true /\ cont s = true
  | _ => False
  end.
Lemma begins_starting x : begins x -> starting x.
Proof.
  intros (c & y & H). apply character_shape in H.
  destruct x as [|p [|q [|r [|s [|]]]]]; destruct y as [|p' [|q' [|r' [|s' [|]]]]]; cbn [app shape starting] in H |- *; try contradiction; intuition lia.
Qed.
Ltac build := eexists; eexists; apply character_shape; cbn [app shape]; rewrite ?second_is, ?cont_is;
  repeat split; try reflexivity; try lia.
Lemma starting_begins x : starting x -> begins x.
Proof.
  destruct x as [|p [|q [|r [|s [|]]]]]; cbn [starting]; rewrite ?second_is, ?cont_is; intros H; try contradiction.
  - exists 0, [0]. apply character_shape. cbn. lia.
  - destruct H as [H|H]; [exists p, []; apply character_shape; cbn; lia|].
    destruct (Z_le_gt_dec p 0xDF).
    { exists ((p - 0xC0) * 64 + (0x80 - 0x80)), [0x80]. apply character_shape. cbn [app shape]. rewrite ?cont_is. lia. }
    assert (Q : exists q, second_ok p q = true).
    { destruct (Z.eq_dec p 0xE0); [exists 0xA0; apply second_is; lia|].
      destruct (Z.eq_dec p 0xF0); [exists 0x90; apply second_is; lia|]. exists 0x80. apply second_is. lia. }
    destruct Q as (q & Q). destruct (Z_le_gt_dec p 0xEF).
    + eexists. exists [q; 0x80]. apply character_shape. cbn [app shape]. rewrite cont_is. repeat split; try lia; exact Q.
    + eexists. exists [q; 0x80; 0x80]. apply character_shape. cbn [app shape]. rewrite cont_is. repeat split; try lia; exact Q.
  - destruct H as [H|(H & Q)].
    { eexists. exists []. apply character_shape. cbn [app shape]. rewrite cont_is. repeat split; lia. }
    apply second_is in Q. destruct (Z_le_gt_dec p 0xEF).
    + eexists. exists [0x80]. apply character_shape. cbn [app shape]. rewrite cont_is. repeat split; try lia; exact Q.
    + eexists. exists [0x80; 0x80]. apply character_shape. cbn [app shape]. rewrite cont_is. repeat split; try lia; exact Q.
  - destruct H as (H & Q & C). apply second_is in Q. destruct (Z_le_gt_dec p 0xEF).
    + eexists. exists []. apply character_shape. cbn [app shape]. rewrite cont_is. repeat split; try lia; exact Q.
    + eexists. exists [0x80]. apply character_shape. cbn [app shape]. rewrite !cont_is. repeat split; try lia; exact Q.
  - destruct H as (H & Q & C & D). apply second_is in Q.
    eexists. exists []. apply character_shape. cbn [app shape]. rewrite !cont_is. repeat split; try lia; exact Q.
Qed.

(** ** Decoding *)

Lemma nil_or_cons_eq (a b : Z) (s t : bytes) : a :: s = b :: t -> a = b /\ s = t.
Proof. intros E. injection E as -> ->. split; reflexivity. Qed.
Ltac match_front E :=
  repeat match type of E with
  | _ :: _ = _ :: _ => apply nil_or_cons_eq in E; let A := fresh "A" in destruct E as (A & E); rewrite <- ?A in *
  end.
Ltac no_char := let c := fresh "c" in let y := fresh "y" in let r := fresh "r" in let E := fresh "E" in let C := fresh "C" in
  intros c y r E C; apply character_shape in C;
  destruct y as [|?p [|?q [|?r [|?s [|]]]]]; cbn [shape] in C; try contradiction; cbn [app] in E; match_front E;
  rewrite ?second_is, ?cont_is in *; try discriminate E; subst; lia.
Ltac longest := let y := fresh "y" in let r := fresh "r" in let E := fresh "E" in let B := fresh "B" in
  intros y r E B; apply begins_starting in B;
  destruct y as [|?p [|?q [|?r [|?s [|]]]]]; cbn [starting] in B; try contradiction; cbn [app] in E; match_front E;
  cbn [length]; try lia; rewrite ?second_is, ?cont_is in *; try discriminate E; subst; exfalso; intuition lia.

Lemma cont_not q : cont q = false <-> ~ 128 <= q <= 191.
Proof. rewrite <- cont_is. destruct (cont q); intuition discriminate. Qed.
Lemma second_not p q : second_ok p q = false <->
  ~ (128 <= q <= 191 /\ (p = 0xE0 -> 0xA0 <= q) /\ (p = 0xED -> q <= 0x9F) /\ (p = 0xF0 -> 0x90 <= q) /\ (p = 0xF4 -> q <= 0x8F)).
Proof. rewrite <- second_is. destruct (second_ok p q); intuition discriminate. Qed.
Lemma range_is a b p : in_range a b p = true <-> a <= p <= b.
Proof. unfold in_range. lia. Qed.
Lemma range_not a b p : in_range a b p = false <-> ~ a <= p <= b.
Proof. unfold in_range. lia. Qed.

Lemma replaced_is n : forall s, (length s <= n)%nat -> is_bytes s -> replaced s (utf8_replace s).
Proof.
  induction n as [|n IH]; intros s L B; destruct s as [|p s1]; try (cbn in L; lia); try constructor.
  cbn [length] in L. apply is_bytes_cons in B. destruct B as (Bp & B1). unfold byte in Bp.
  assert (R1 : replaced s1 (utf8_replace s1)) by (apply IH; [lia|exact B1]).
  cbn [utf8_replace]. destruct (Z.ltb_spec p 128).
  { change (p :: s1) with ([p] ++ s1). apply rep_char; [apply character_shape; cbn; lia|exact R1]. }
  destruct (in_range 0xC2 0xDF p) eqn:P2.
  { apply range_is in P2. destruct s1 as [|q s2].
    { change [p] with ([p] ++ []). apply rep_bad; [no_char|left; apply starting_begins; cbn; lia|discriminate|longest|constructor]. }
    cbn [length] in L. destruct (cont q) eqn:Q.
    - change (p :: q :: s2) with ([p; q] ++ s2). apply rep_char; [apply character_shape; cbn [shape]; repeat split; first [assumption|lia]|].
      apply is_bytes_cons in B1. apply IH; [lia|apply B1].
    - apply cont_not in Q. change (p :: q :: s2) with ([p] ++ q :: s2).
      apply rep_bad; [no_char|left; apply starting_begins; cbn; lia|discriminate|longest|exact R1]. }
  apply range_not in P2. destruct (in_range 0xE0 0xEF p) eqn:P3.
  { apply range_is in P3. destruct s1 as [|q s2].
    { change [p] with ([p] ++ []). apply rep_bad; [no_char|left; apply starting_begins; cbn; lia|discriminate|longest|constructor]. }
    cbn [length] in L. destruct (second_ok p q) eqn:Q.
    2:{ apply second_not in Q. change (p :: q :: s2) with ([p] ++ q :: s2).
        apply rep_bad; [no_char|left; apply starting_begins; cbn; lia|discriminate|longest|exact R1]. }
    apply is_bytes_cons in B1. destruct B1 as (_ & B2).
    assert (R2 : replaced s2 (utf8_replace s2)) by (apply IH; [lia|exact B2]).
    destruct s2 as [|r s3].
    { change [p; q] with ([p; q] ++ []).
      apply rep_bad; [no_char|left; apply starting_begins; cbn [starting]; rewrite ?second_is, ?cont_is in *; lia|discriminate|longest|constructor]. }
    cbn [length] in L. destruct (cont r) eqn:R.
    - change (p :: q :: r :: s3) with ([p; q; r] ++ s3). apply rep_char; [apply character_shape; cbn [shape]; repeat split; first [assumption|lia]|].
      apply is_bytes_cons in B2. apply IH; [lia|apply B2].
    - apply cont_not in R. change (p :: q :: r :: s3) with ([p; q] ++ r :: s3).
      apply rep_bad; [no_char|left; apply starting_begins; cbn [starting]; rewrite ?second_is, ?cont_is in *; lia|discriminate|longest|exact R2]. }
  apply range_not in P3. destruct (in_range 0xF0 0xF4 p) eqn:P4.
  { apply range_is in P4. destruct s1 as [|q s2].
    { change [p] with ([p] ++ []). apply rep_bad; [no_char|left; apply starting_begins; cbn; lia|discriminate|longest|constructor]. }
    cbn [length] in L. destruct (second_ok p q) eqn:Q.
    2:{ apply second_not in Q. change (p :: q :: s2) with ([p] ++ q :: s2).
        apply rep_bad; [no_char|left; apply starting_begins; cbn; lia|discriminate|longest|exact R1]. }
    apply is_bytes_cons in B1. destruct B1 as (_ & B2).
    assert (R2 : replaced s2 (utf8_replace s2)) by (apply IH; [lia|exact B2]).
    destruct s2 as [|r s3].
    { change [p; q] with ([p; q] ++ []).
      apply rep_bad; [no_char|left; apply starting_begins; cbn [starting]; rewrite ?second_is, ?cont_is in *; lia|discriminate|longest|constructor]. }
    cbn [length] in L. destruct (cont r) eqn:R.
    2:{ apply cont_not in R. change (p :: q :: r :: s3) with ([p; q] ++ r :: s3).
        apply rep_bad; [no_char|left; apply starting_begins; cbn [starting]; rewrite ?second_is, ?cont_is in *; lia|discriminate|longest|exact R2]. }
    apply is_bytes_cons in B2. destruct B2 as (_ & B3).
    assert (R3 : replaced s3 (utf8_replace s3)) by (apply IH; [lia|exact B3]).
    destruct s3 as [|t s4].
    { change [p; q; r] with ([p; q; r] ++ []).
      apply rep_bad; [no_char|left; apply starting_begins; cbn [starting]; rewrite ?second_is, ?cont_is in *; lia|discriminate|longest|constructor]. }
    cbn [length] in L. destruct (cont t) eqn:T.
    - change (p :: q :: r :: t :: s4) with ([p; q; r; t] ++ s4). apply rep_char; [apply character_shape; cbn [shape]; repeat split; first [assumption|lia]|].
      apply is_bytes_cons in B3. apply IH; [lia|apply B3].
    - apply cont_not in T. change (p :: q :: r :: t :: s4) with ([p; q; r] ++ t :: s4).
      apply rep_bad; [no_char|left; apply starting_begins; cbn [starting]; rewrite ?second_is, ?cont_is in *; lia|discriminate|longest|exact R3]. }
  apply range_not in P4. change (p :: s1) with ([p] ++ s1).
  apply rep_bad; [no_char|right; reflexivity|discriminate|longest|exact R1].
Qed.

(** The decoding is determined. *)
Lemma prefix_eq (x x' b b' : bytes) : x ++ b = x' ++ b' -> length x = length x' -> x = x' /\ b = b'.
Proof.
  revert x'. induction x as [|c x IH]; intros [|c' x'] E L; cbn in L; try discriminate; [split; [reflexivity|exact E]|].
  cbn in E. injection E as -> E. injection L as L. destruct (IH _ E L) as (-> & ->). split; reflexivity.
Qed.
Lemma character_front c c' x x' b b' : x ++ b = x' ++ b' -> character c x -> character c' x' -> c = c' /\ b = b'.
Proof.
  intros E H H'. apply character_shape in H. apply character_shape in H'.
  destruct x as [|p [|q [|r [|s [|]]]]]; cbn [shape] in H; try contradiction;
  destruct x' as [|p' [|q' [|r' [|s' [|]]]]]; cbn [shape] in H'; try contradiction; cbn [app] in E; match_front E;
    subst; try (exfalso; lia); (split; [lia|reflexivity]).
Qed.
Lemma replaced_fun s t : replaced s t -> forall t', replaced s t' -> t = t'.
Proof.
  induction 1 as [|c x b t C R IH|x b t N G K M R IH]; intros t' H'.
  - remember [] as s eqn:E in H'. destruct H' as [|c x b t C R|x b t N G K M R]; [reflexivity| |].
    + destruct x; [apply character_shape in C; destruct C|discriminate E].
    + destruct x; [contradiction K; reflexivity|discriminate E].
  - remember (x ++ b) as s eqn:E. destruct H' as [|c' x' b' t' C' R'|x' b' t' N' G' K' M' R'].
    + destruct x; [apply character_shape in C; destruct C|discriminate E].
    + destruct (character_front c' c x' x b' b E C' C) as (-> & ->). f_equal. apply IH. exact R'.
    + exfalso. exact (N' c x b E C).
  - remember (x ++ b) as s eqn:E. destruct H' as [|c' x' b' t' C' R'|x' b' t' N' G' K' M' R'].
    + destruct x; [contradiction K; reflexivity|discriminate E].
    + exfalso. exact (N c' x' b' eq_refl C').
    + assert (L1 : (length x <= length x')%nat).
      { destruct G as [G|G]; [exact (M' x b E G)|]. destruct x'; [contradiction K'; reflexivity|cbn; lia]. }
      assert (L2 : (length x' <= length x)%nat).
      { destruct G' as [G'|G']; [exact (M x' b' eq_refl G')|]. destruct x; [contradiction K; reflexivity|cbn; lia]. }
      destruct (prefix_eq _ _ _ _ E) as (-> & ->); [lia|]. f_equal. apply IH. exact R'.
Qed.

Lemma hex_value_is c d : hex_value c = Some d <-> hex_is c d.
Proof.
  unfold hex_value, hex_is. destruct ((48 <=? c) && (c <=? 57)) eqn:A;
    [split; [intros E; injection E as <-; lia|intros H; f_equal; lia]|].
  destruct ((65 <=? c) && (c <=? 70)) eqn:B; [split; [intros E; injection E as <-; lia|intros H; f_equal; lia]|].
  destruct ((97 <=? c) && (c <=? 102)) eqn:C; [split; [intros E; injection E as <-; lia|intros H; f_equal; lia]|].
  split; [discriminate|lia].
Qed.
Lemma unescaped_bytes n : forall s, (length s <= n)%nat -> Forall (fun c => 0 <= c < 128) s ->
  is_bytes (unquote_to_bytes s) /\ unescaped s (unquote_to_bytes s).
Proof.
  induction n as [|n IH]; intros s L A; destruct s as [|c s1]; try (cbn in L; lia); try (split; constructor).
  all: cbn [length] in L; pose proof (Forall_inv A) as Ac; cbv beta in Ac; pose proof (Forall_inv_tail A) as A1;
    destruct (IH s1 ltac:(lia) A1) as (B1 & U1); cbn [unquote_to_bytes]; destruct (Z.eqb_spec c 37) as [->|N].
  - destruct s1 as [|h [|l s2]].
    + split; [apply is_bytes_cons; unfold byte; split; [lia|exact B1]|]. apply une_percent; [intros; discriminate|exact U1].
    + split; [apply is_bytes_cons; unfold byte; split; [lia|exact B1]|]. apply une_percent; [intros; discriminate|exact U1].
    + destruct (hex_value h) as [x|] eqn:Hh; [destruct (hex_value l) as [y|] eqn:Hl|].
      * apply hex_value_is in Hh. apply hex_value_is in Hl. cbn [length] in L.
        destruct (IH s2 ltac:(lia) (Forall_inv_tail (Forall_inv_tail A1))) as (B2 & U2).
        split; [apply is_bytes_cons; unfold byte; split; [unfold hex_is in *; lia|exact B2]|]. apply une_escape; assumption.
      * split; [apply is_bytes_cons; unfold byte; split; [lia|exact B1]|]. apply une_percent; [|exact U1].
        intros h' l' r x' y' E X Y. injection E as <- <- <-. apply hex_value_is in Y. congruence.
      * split; [apply is_bytes_cons; unfold byte; split; [lia|exact B1]|]. apply une_percent; [|exact U1].
        intros h' l' r x' y' E X Y. injection E as <- <- <-. apply hex_value_is in X. congruence.
  - split; [apply is_bytes_cons; unfold byte; split; [lia|exact B1]|]. apply une_plain; assumption.
Qed.
Lemma unescaped_fun s b : unescaped s b -> unquote_to_bytes s = b.
Proof.
  induction 1 as [|c s b N U IH|h l a b s t Hh Hl U IH|s b N U IH]; cbn [unquote_to_bytes]; [reflexivity| | |].
  - destruct (Z.eqb_spec c 37); [contradiction|]. f_equal. exact IH.
  - change (37 =? 37) with true. cbv iota. apply hex_value_is in Hh. apply hex_value_is in Hl. rewrite Hh, Hl. f_equal. exact IH.
  - change (37 =? 37) with true. cbv iota. destruct s as [|h [|l s2]]; [f_equal; exact IH|f_equal; exact IH|].
    destruct (hex_value h) as [x|] eqn:Hh; [|f_equal; exact IH]. destruct (hex_value l) as [y|] eqn:Hl; [|f_equal; exact IH].
    exfalso. apply (N h l s2 x y eq_refl); now apply hex_value_is.
Qed.
Lemma unquote_run_split s : forall run c s', Forall (fun c => 0 <= c < 128) s -> 128 <= c ->
  unquote_run run (s ++ c :: s') = utf8_replace (unquote_to_bytes (run ++ s)) ++ c :: unquote_run [] s'.
Proof.
  induction s as [|d s IH]; intros run c s' A C; cbn [app unquote_run].
  - destruct (Z.ltb_spec c 128); [lia|]. rewrite app_nil_r. reflexivity.
  - pose proof (Forall_inv A) as Ad. cbv beta in Ad. destruct (Z.ltb_spec d 128); [|lia].
    rewrite IH by (exact (Forall_inv_tail A) || exact C). rewrite <- app_assoc. reflexivity.
Qed.
Lemma stands_for_unquote s t : stands_for s t -> unquote s = t.
Proof.
  assert (K : forall s b t, Forall (fun c => 0 <= c < 128) s -> unescaped s b -> replaced b t ->
                utf8_replace (unquote_to_bytes s) = t).
  { clear. intros s b t A U R. destruct (unescaped_bytes _ s (le_n _) A) as (B & _). rewrite (unescaped_fun _ _ U) in *.
    exact (replaced_fun _ _ (replaced_is _ _ (le_n _) B) _ R). }
  unfold unquote. induction 1 as [s b t A U R|s b t c s' t' A U R C S IH].
  - rewrite (unquote_run_ascii s [] A). cbn [app]. exact (K _ _ _ A U R).
  - rewrite unquote_run_split by assumption. cbn [app]. rewrite (K _ _ _ A U R), IH. reflexivity.
Qed.
Lemma ascii_run s : Forall (fun c => 0 <= c) s ->
  Forall (fun c => 0 <= c < 128) s
  \/ exists a c s', s = a ++ c :: s' /\ Forall (fun c => 0 <= c < 128) a /\ 128 <= c /\ (length s' < length s)%nat
                    /\ Forall (fun c => 0 <= c) s'.
Proof.
  induction 1 as [|c s Hc H IH]; [left; constructor|]. destruct (Z_lt_le_dec c 128).
  - destruct IH as [IH|(a & d & s' & -> & A & D & L & N)]; [left; constructor; [lia|exact IH]|].
    right. exists (c :: a), d, s'. split; [reflexivity|]. split; [constructor; [lia|exact A]|]. split; [exact D|].
    split; [cbn [length]; lia|exact N].
  - right. exists [], c, s. split; [reflexivity|]. split; [constructor|]. split; [assumption|]. split; [cbn; lia|exact H].
Qed.
Lemma unquote_stands_for n : forall s, (length s <= n)%nat -> Forall (fun c => 0 <= c) s -> stands_for s (unquote s).
Proof.
  induction n as [|n IH]; intros s L P; destruct (ascii_run s P) as [A|(a & c & s' & E & A & C & L' & P')].
  1,3: unfold unquote; rewrite (unquote_run_ascii s [] A); cbn [app];
    destruct (unescaped_bytes _ s (le_n _) A) as (B & U); exact (sf_last _ _ _ A U (replaced_is _ _ (le_n _) B)).
  - lia.
  - subst s. unfold unquote. rewrite unquote_run_split by assumption. cbn [app].
    destruct (unescaped_bytes _ a (le_n _) A) as (B & U).
    apply (sf_more _ _ _ _ _ _ A U (replaced_is _ _ (le_n _) B) C). apply IH; [lia|exact P'].
Qed.
Lemma last_of_path l seg : ~ In 47 seg -> (u_path l = seg \/ exists before, u_path l = before ++ txt "/" ++ seg) ->
  last_segment (u_path l) = seg.
Proof.
  intros N [->|(before & ->)].
  - rewrite <- (app_nil_l seg) at 1. rewrite last_segment_app by exact N. reflexivity.
  - rewrite app_assoc, last_segment_app by exact N.
    assert (L : last_segment (before ++ txt "/") = []).
    { clear. induction before as [|c b IH]; [reflexivity|]. cbn [app last_segment].
      replace (mem 47 (b ++ txt "/")) with true; [exact IH|]. symmetry. apply mem_spec.
      apply in_or_app. right. left. reflexivity. }
    rewrite L. reflexivity.
Qed.

(** Whatever the link, the name of the file is the text that the last part of its
    path stands for, escapes being UTF-8 and damaged UTF-8 being replaced. *)
Theorem C76_name : forall l seg name, ~ In 47 seg -> Forall (fun c => 0 <= c) seg ->
  (u_path l = seg \/ exists before, u_path l = before ++ txt "/" ++ seg) ->
  (short_name l = name <-> stands_for seg name).
Proof.
  intros l seg name N P Q. unfold short_name. rewrite (last_of_path l seg N Q). split.
  - intros <-. exact (unquote_stands_for _ seg (le_n _) P).
  - apply stands_for_unquote.
Qed.

(** "Caf%C3%A9%80%E2%82-%zz.pdf": an accented letter, a stray byte, the first two
    bytes of a sign of three, and a percent sign without digits. *)
Example C76_name_case :
  stands_for (txt "Caf%C3%A9%80%E2%82-%zz.pdf")
    (txt "Caf" ++ [0xe9; 0xfffd; 0xfffd] ++ txt "-%zz.pdf")
  /\ ~ stands_for (txt "%ED%A0%80") [0xd800].
Proof.
  split.
  - exact (eq_ind _ (fun t => stands_for _ t)
             (unquote_stands_for _ (txt "Caf%C3%A9%80%E2%82-%zz.pdf") (le_n _) ltac:(repeat constructor; discriminate))
             _ ltac:(vm_compute; reflexivity)).
  - intros H. apply stands_for_unquote in H. vm_compute in H. discriminate.
Qed.
Print Assumptions C76_name.
