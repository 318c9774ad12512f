(** Lemmas on Common.v and base16. *)
From Coq Require Import List ZArith Bool Lia ZifyBool ZifyNat.
From Verif Require Import Py Common Base Spec.
Import ListNotations.
Open Scope Z_scope.
Ltac Zify.zify_post_hook ::= Z.div_mod_to_equations.

(** ** Checksums *)

Lemma fold_left_sum l a : fold_left (fun c x => c + x) l a = a + sum l.
Proof.
  revert a. induction l as [|x l IH]; intros a; simpl; [lia|]. rewrite IH. lia.
Qed.

Lemma lxor_255 x : byte x -> Z.lxor x 255 = 255 - x.
Proof.
  intros Hx. apply Z.eqb_eq.
  apply (byte_sweep (fun x => Z.lxor x 255 =? 255 - x)); [vm_compute; reflexivity|exact Hx].
Qed.

Lemma cbus_checksum_eq l : cbus_checksum l = (- sum l) mod 256.
Proof.
  unfold cbus_checksum. rewrite fold_left_sum, !land_255.
  rewrite lxor_255 by apply byte_mod. lia.
Qed.

Lemma sum_app a b : sum (a ++ b) = sum a + sum b.
Proof. induction a as [|x a IH]; simpl; [lia|]. rewrite IH. lia. Qed.

Lemma checksum_byte l : byte (cbus_checksum l).
Proof. rewrite cbus_checksum_eq. apply byte_mod. Qed.

Lemma add_checksum_spec m : exists c,
  add_cbus_checksum m = m ++ [c] /\ byte c /\ sum (m ++ [c]) mod 256 = 0
  /\ forall c', byte c' -> sum (m ++ [c']) mod 256 = 0 -> c' = c.
Proof.
  exists (cbus_checksum m). split; [reflexivity|]. split; [apply checksum_byte|].
  rewrite cbus_checksum_eq. split.
  - rewrite sum_app. simpl. lia.
  - intros c' Hc. unfold byte in Hc. rewrite sum_app. simpl. lia.
Qed.

Lemma add_checksum_bytes m : is_bytes m -> is_bytes (add_cbus_checksum m).
Proof.
  intros H. unfold add_cbus_checksum. byte_list; [exact H|apply checksum_byte].
Qed.

Lemma validate_snoc m c : byte c ->
  validate_cbus_checksum (m ++ [c]) = Ok (sum (m ++ [c]) mod 256 =? 0).
Proof.
  intros Hc. unfold validate_cbus_checksum. rewrite py_last_app. cbn [rbind].
  unfold get_real_cbus_checksum. rewrite py_init_app, cbus_checksum_eq, sum_app. simpl.
  f_equal. unfold byte in Hc. lia.
Qed.

Lemma validate_spec x : is_bytes x -> x <> [] ->
  validate_cbus_checksum x = Ok (sum x mod 256 =? 0).
Proof.
  intros Hx Hn. destruct (list_snoc_case x) as [->|[i [c ->]]]; [congruence|].
  apply validate_snoc. apply is_bytes_app in Hx. destruct Hx as [_ Hx].
  apply is_bytes_cons in Hx. tauto.
Qed.

Lemma validate_add m : validate_cbus_checksum (add_cbus_checksum m) = Ok true.
Proof.
  unfold add_cbus_checksum. rewrite validate_snoc by apply checksum_byte.
  rewrite cbus_checksum_eq, sum_app. simpl. f_equal. lia.
Qed.

Lemma corrupt_detected pre b b' post :
  is_bytes (pre ++ b :: post) -> byte b' -> b' <> b ->
  validate_cbus_checksum (pre ++ b :: post) = Ok true ->
  validate_cbus_checksum (pre ++ b' :: post) = Ok false.
Proof.
  intros Hm Hb' Hne Hv.
  assert (Hm' := Hm). apply is_bytes_app in Hm'. destruct Hm' as [Hpre Hpost].
  apply is_bytes_cons in Hpost. destruct Hpost as [Hb Hpost].
  rewrite validate_spec in Hv by (auto; destruct pre; discriminate).
  rewrite validate_spec.
  - f_equal. inversion Hv as [Hv']. rewrite sum_app in *. simpl in *.
    unfold byte in *. lia.
  - byte_list; auto.
  - destruct pre; discriminate.
Qed.

(** ** Base16 *)

Lemma nibble_hex n : 0 <= n < 16 ->
  nibble_of_hex (hex_of_nibble n) = Some n /\ hex_char (hex_of_nibble n).
Proof.
  intros Hn. assert (H : forallb (fun n =>
     match nibble_of_hex (hex_of_nibble n) with Some m => m =? n | None => false end
     && (((48 <=? hex_of_nibble n) && (hex_of_nibble n <=? 57))
         || ((65 <=? hex_of_nibble n) && (hex_of_nibble n <=? 70)))) (upto 16) = true)
    by (vm_compute; reflexivity).
  assert (H' := sweep 16 _ H n Hn). cbv beta in H'. unfold hex_char.
  destruct (nibble_of_hex (hex_of_nibble n)) as [m|]; [|discriminate].
  split; [f_equal; lia|lia].
Qed.

Lemma b16_roundtrip l : is_bytes l -> b16decode (b16encode l) = Ok l.
Proof.
  induction l as [|b l IH]; intros H; [reflexivity|].
  apply is_bytes_cons in H. destruct H as [Hb Hl]. unfold byte in Hb.
  cbn [b16encode flat_map b16_byte app b16decode].
  destruct (nibble_hex (b / 16)) as [-> _]; [lia|].
  destruct (nibble_hex (b mod 16)) as [-> _]; [lia|].
  unfold b16encode in IH. rewrite IH by assumption. cbn [rbind].
  do 2 f_equal. lia.
Qed.

Lemma b16_hex l : is_bytes l -> Forall hex_char (b16encode l).
Proof.
  induction l as [|b l IH]; intros H; [constructor|].
  apply is_bytes_cons in H. destruct H as [Hb Hl]. unfold byte in Hb.
  cbn [b16encode flat_map b16_byte app].
  constructor; [apply nibble_hex; lia|]. constructor; [apply nibble_hex; lia|].
  apply IH, Hl.
Qed.

Lemma b16_length l : length (b16encode l) = (2 * length l)%nat.
Proof.
  induction l as [|b l IH]; [reflexivity|].
  cbn [b16encode flat_map b16_byte app length]. unfold b16encode in IH. rewrite IH. lia.
Qed.

Lemma b16encode_app a b : b16encode (a ++ b) = b16encode a ++ b16encode b.
Proof. unfold b16encode. apply flat_map_app. Qed.

Lemma hex_mem c : mem c HEX_CHARS = true <-> hex_char c.
Proof.
  rewrite mem_spec. unfold HEX_CHARS, hex_char. simpl. lia.
Qed.

Lemma b16_hex_forallb l : is_bytes l -> forallb (fun c => mem c HEX_CHARS) (b16encode l) = true.
Proof.
  intros H. apply forallb_forall. intros c Hc. apply hex_mem.
  assert (F := b16_hex l H). rewrite Forall_forall in F. auto.
Qed.

Lemma nibble_some c n : nibble_of_hex c = Some n -> hex_char c /\ 0 <= n < 16.
Proof.
  unfold nibble_of_hex, hex_char.
  destruct ((48 <=? c) && (c <=? 57)) eqn:E1; [intros H; inversion H; lia|].
  destruct ((65 <=? c) && (c <=? 70)) eqn:E2; [intros H; inversion H; lia|discriminate].
Qed.
Lemma nibble_hex_char c : hex_char c -> exists n, nibble_of_hex c = Some n.
Proof.
  unfold hex_char, nibble_of_hex. intros H.
  destruct ((48 <=? c) && (c <=? 57)) eqn:E1; [eauto|].
  destruct ((65 <=? c) && (c <=? 70)) eqn:E2; [eauto|lia].
Qed.
Lemma nibble_inj c c' n : nibble_of_hex c = Some n -> nibble_of_hex c' = Some n -> c = c'.
Proof.
  unfold nibble_of_hex.
  destruct ((48 <=? c) && (c <=? 57)) eqn:E1; destruct ((48 <=? c') && (c' <=? 57)) eqn:E2;
  destruct ((65 <=? c) && (c <=? 70)) eqn:E3; destruct ((65 <=? c') && (c' <=? 70)) eqn:E4;
  intros H H'; inversion H; inversion H'; lia.
Qed.

(** Induction two characters at a time. *)
Lemma list_ind2 {A} (P : list A -> Prop) :
  P [] -> (forall a, P [a]) -> (forall a b l, P l -> P (a :: b :: l)) -> forall l, P l.
Proof.
  intros H0 H1 H2 l.
  assert (H : P l /\ forall a, P (a :: l)).
  { induction l as [|x l [IH1 IH2]]; [auto|]. split; [apply IH2|].
    intros a. apply H2, IH1. }
  apply H.
Qed.

(** On hex characters, decoding succeeds exactly for an even length. *)
Lemma b16decode_hex l : Forall hex_char l ->
  (exists r, b16decode l = Ok r /\ is_bytes r /\ length l = (2 * length r)%nat)
  \/ (b16decode l = Raise BinasciiError /\ (length l mod 2 = 1)%nat).
Proof.
  induction l as [|a|a b l IH] using list_ind2; intros H.
  - left. exists []. repeat split; constructor.
  - right. split; reflexivity.
  - inversion H as [|? ? Ha H1]; subst. inversion H1 as [|? ? Hb Hl]; subst.
    destruct (nibble_hex_char a Ha) as [x Ex]. destruct (nibble_hex_char b Hb) as [y Ey].
    cbn [b16decode]. rewrite Ex, Ey.
    destruct (IH Hl) as [[r [E [Hr Hlen]]]|[E Hlen]].
    + left. rewrite E. exists (16 * x + y :: r). cbn [rbind]. split; [reflexivity|].
      apply nibble_some in Ex, Ey. split.
      * apply is_bytes_cons. split; [unfold byte; lia|exact Hr].
      * cbn [length]. lia.
    + right. rewrite E. split; [reflexivity|]. cbn [length]. lia.
Qed.

(** ** Ramp rates *)

Lemma rates_spec code d : In (code, d) LIGHT_RAMP_RATES <-> is_ramp_rate code d.
Proof.
  unfold is_ramp_rate. split.
  - intros H. unfold LIGHT_RAMP_RATES in H. cbn [In] in H.
    repeat (destruct H as [H|H]; [inversion H; subst; clear H|]); [..|contradiction];
      [exists 0%nat|exists 1%nat|exists 2%nat|exists 3%nat|exists 4%nat|exists 5%nat
      |exists 6%nat|exists 7%nat|exists 8%nat|exists 9%nat|exists 10%nat|exists 11%nat
      |exists 12%nat|exists 13%nat|exists 14%nat|exists 15%nat];
      (split; [lia|split; reflexivity]).
  - intros [i [Hi [-> Hd]]].
    do 16 (destruct i as [|i]; [inversion Hd; subst; cbn; tauto|]). lia.
Qed.

Lemma first_rate_cases s : exists d, rounds_to s d /\ In (duration_to_ramp_rate s, d) LIGHT_RAMP_RATES.
Proof.
  unfold duration_to_ramp_rate, LIGHT_RAMP_DURATION_TO_RATE, LIGHT_RAMP_RATES, rounds_to, ramp_seconds.
  cbn [map fst snd first_rate].
  repeat match goal with
  | |- exists d, _ /\ In (if s <=? ?e then _ else _, _) _ =>
      destruct (s <=? e) eqn:?;
      [ exists e; (split; [split; [cbn [In]; tauto|left; split; [lia|]; cbn [In]; intros d' Hd'; lia]
                       | cbn [In]; tauto]) |]
  end.
  exists 1020. split; [split; [cbn [In]; tauto|right; lia]|cbn [In]; tauto].
Qed.

Lemma rounds_to_unique s d d' : rounds_to s d -> rounds_to s d' -> d = d'.
Proof.
  intros [H1 H2] [H3 H4].
  assert (B : forall x, In x ramp_seconds -> x <= 1020)
    by (unfold ramp_seconds; cbn [In]; intros x Hx; lia).
  destruct H2 as [[H2 M]|[H2 ->]]; destruct H4 as [[H4 M']|[H4 ->]].
  - specialize (M d' H3 H4). specialize (M' d H1 H2). lia.
  - specialize (B d H1). lia.
  - specialize (B d' H3). lia.
  - reflexivity.
Qed.

Lemma duration_to_rate_spec s d :
  rounds_to s d -> is_ramp_rate (duration_to_ramp_rate s) d.
Proof.
  intros H. destruct (first_rate_cases s) as [d' [H' Hin]].
  rewrite (rounds_to_unique s d d' H H'). now apply rates_spec.
Qed.

Lemma rate_unique code d d' : is_ramp_rate code d -> is_ramp_rate code d' -> d = d'.
Proof.
  unfold is_ramp_rate, ramp_rate_code.
  intros [i [Hi [-> E]]] [j [Hj [H E']]]. assert (i = j) by lia. subst. congruence.
Qed.
Lemma rate_code_unique c c' d : is_ramp_rate c d -> is_ramp_rate c' d -> c = c'.
Proof.
  rewrite <- !rates_spec. unfold LIGHT_RAMP_RATES. cbn [In]. intros H H'.
  repeat (destruct H as [H|H]; [inversion H; subst; clear H|]); try contradiction;
  repeat (destruct H' as [H'|H']; [inversion H'; subst; reflexivity|]); contradiction.
Qed.

Lemma assoc_rates code : match ramp_rate_to_duration code with
  | Ok d => is_ramp_rate code d
  | Raise e => e = KeyError /\ forall d, ~ is_ramp_rate code d
  end.
Proof.
  unfold ramp_rate_to_duration.
  assert (G : forall l, (forall x, In x l -> In x LIGHT_RAMP_RATES) ->
    match assoc code l with Ok d => is_ramp_rate code d
    | Raise e => e = KeyError /\ forall d, ~ In (code, d) l end).
  { induction l as [|[a b] l IH]; intros Hs; cbn [assoc]; [split; [reflexivity|auto]|].
    destruct (code =? a) eqn:E.
    - apply Z.eqb_eq in E. subst. apply rates_spec, Hs. now left.
    - specialize (IH (fun x Hx => Hs x (or_intror Hx))).
      destruct (assoc code l); [exact IH|]. destruct IH as [-> IH]. split; [reflexivity|].
      intros d [H|H]; [inversion H; lia|]. apply (IH d H). }
  specialize (G LIGHT_RAMP_RATES (fun x Hx => Hx)).
  destruct (assoc code LIGHT_RAMP_RATES) as [d|e]; [exact G|].
  destruct G as [-> G]. split; [reflexivity|]. intros d Hd. apply (G d). now apply rates_spec.
Qed.

Lemma rate_to_duration_ok code d : is_ramp_rate code d -> ramp_rate_to_duration code = Ok d.
Proof.
  intros H. assert (A := assoc_rates code).
  destruct (ramp_rate_to_duration code) as [d'|e].
  - f_equal. eapply rate_unique; eauto.
  - destruct A as [_ A]. now destruct (A d).
Qed.

Lemma rounds_to_exists s : exists d, rounds_to s d.
Proof. destruct (first_rate_cases s) as [d [H _]]. eauto. Qed.

Lemma rounds_to_mono s s' d d' : s <= s' -> rounds_to s d -> rounds_to s' d' -> d <= d'.
Proof.
  intros Hs [H1 H2] [H3 H4].
  assert (B : forall x, In x ramp_seconds -> x <= 1020)
    by (unfold ramp_seconds; cbn [In]; intros x Hx; lia).
  destruct H4 as [[H4 M']|[H4 ->]]; [|apply B; assumption].
  destruct H2 as [[H2 M]|[H2 ->]]; [apply M; [assumption|lia]|].
  specialize (B d' H3). lia.
Qed.

Lemma rounds_to_idem d : In d ramp_seconds -> rounds_to d d.
Proof. intros H. split; [exact H|]. left. split; [lia|auto]. Qed.

Lemma rounds_to_negative s : s <= 0 -> rounds_to s 0.
Proof.
  intros H. split; [now left|]. left. split; [exact H|].
  unfold ramp_seconds. cbn [In]. intros d' Hd'. lia.
Qed.

(** ** Statements used in Prop_common.v *)

Lemma validate_iff x : is_bytes x ->
  (validate_cbus_checksum x = Ok true <-> x <> [] /\ sum x mod 256 = 0)
  /\ (validate_cbus_checksum x = Ok false <-> x <> [] /\ sum x mod 256 <> 0)
  /\ (validate_cbus_checksum x = Raise IndexError <-> x = []).
Proof.
  intros H. destruct x as [|a x].
  - cbn. intuition congruence.
  - rewrite validate_spec by (auto; discriminate).
    destruct (sum (a :: x) mod 256 =? 0) eqn:E;
      [apply Z.eqb_eq in E|apply Z.eqb_neq in E]; intuition congruence.
Qed.

Lemma rounding_total s :
  (exists d, rounds_to s d /\ forall d', rounds_to s d' -> d' = d) /\ (s <= 0 -> rounds_to s 0).
Proof.
  split; [|apply rounds_to_negative].
  destruct (rounds_to_exists s) as [d H]. exists d. split; [exact H|].
  intros d' H'. eapply rounds_to_unique; eauto.
Qed.

Lemma rate_to_duration_iff code :
  (forall d, ramp_rate_to_duration code = Ok d <-> is_ramp_rate code d)
  /\ ((forall d, ~ is_ramp_rate code d) -> ramp_rate_to_duration code = Raise KeyError).
Proof.
  assert (A := assoc_rates code). split.
  - intros d. split; [|apply rate_to_duration_ok]. intros H. now rewrite H in A.
  - intros H. destruct (ramp_rate_to_duration code) as [d|e]; [now destruct (H d)|].
    destruct A as [-> _]. reflexivity.
Qed.

Lemma quantisation :
  (forall d, In d ramp_seconds -> ramp_rate_to_duration (duration_to_ramp_rate d) = Ok d)
  /\ (forall s d, ramp_rate_to_duration (duration_to_ramp_rate s) = Ok d ->
        duration_to_ramp_rate d = duration_to_ramp_rate s)
  /\ (forall s s' d d', s <= s' ->
        ramp_rate_to_duration (duration_to_ramp_rate s) = Ok d ->
        ramp_rate_to_duration (duration_to_ramp_rate s') = Ok d' -> d <= d')
  /\ (forall c c' d, ramp_rate_to_duration c = Ok d -> ramp_rate_to_duration c' = Ok d -> c = c').
Proof.
  assert (R : forall s d, ramp_rate_to_duration (duration_to_ramp_rate s) = Ok d -> rounds_to s d).
  { intros s d H. destruct (rounds_to_exists s) as [d' Hd].
    assert (Hr := duration_to_rate_spec _ _ Hd). rewrite (rate_to_duration_ok _ _ Hr) in H.
    inversion H; subst. exact Hd. }
  repeat split.
  - intros d Hd. apply rate_to_duration_ok, duration_to_rate_spec, rounds_to_idem, Hd.
  - intros s d H. apply R in H. assert (Hd : In d ramp_seconds) by apply H.
    assert (H1 := duration_to_rate_spec _ _ H).
    assert (H2 := duration_to_rate_spec _ _ (rounds_to_idem d Hd)).
    eapply rate_code_unique; eauto.
  - intros s s' d d' Hs H H'. apply R in H, H'. eapply rounds_to_mono; eauto.
  - intros c c' d H H'. apply rate_to_duration_iff in H, H'. eapply rate_code_unique; eauto.
Qed.
