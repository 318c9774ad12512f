(** UTF-16 and UTF-32, and how [json.loads] finds out about them. *)
From Coq Require Import String List ZArith QArith Bool Lia ZifyBool.
From Verif Require Import Py Base Common_facts Text Spec_mqtt Json Spec_json Mqtt_facts Json_facts.
Import ListNotations.
Open Scope Z_scope.
Notation length := List.length.

(** ** UTF-32 *)
Lemma utf32_complete big s b : spelt (utf32_of big) s b -> utf32_decode big b = Some s.
Proof.
  induction 1 as [|c s x b U T IH]; [reflexivity|]. destruct U as [p q r P Q R]. unfold in_order.
  destruct big; cbn [rev app utf32_decode].
  - destruct (Z.leb_spec (0 * 16777216 + p * 65536 + q * 256 + r) 0x10ffff); [|lia]. rewrite IH. reflexivity.
  - destruct (Z.leb_spec (0 * 16777216 + p * 65536 + q * 256 + r) 0x10ffff); [|lia]. rewrite IH. reflexivity.
Qed.
Lemma utf32_sound big n : forall b s, (length b <= n)%nat -> is_bytes b -> utf32_decode big b = Some s -> spelt (utf32_of big) s b.
Proof.
  induction n as [|n IH]; intros b s L B E; destruct b as [|x [|y [|z [|w r]]]]; try (cbn in L; lia); try discriminate;
    try (cbn in E; injection E as <-; constructor).
  cbn [length] in L. cbn [utf32_decode] in E. repeat (apply is_bytes_cons in B; destruct B as [? B]). unfold byte in *.
  destruct big.
  - destruct (Z.leb_spec (x * 16777216 + y * 65536 + z * 256 + w) 0x10ffff); [|discriminate].
    apply option_cons in E. destruct E as (s' & E & ->). assert (x = 0) by lia. subst x.
    replace (0 * 16777216 + y * 65536 + z * 256 + w) with (y * 65536 + z * 256 + w) by lia.
    change (0 :: y :: z :: w :: r) with (in_order true [0; y; z; w] ++ r). constructor; [constructor; lia|apply IH; [lia|exact B|exact E]].
  - destruct (Z.leb_spec (w * 16777216 + z * 65536 + y * 256 + x) 0x10ffff); [|discriminate].
    apply option_cons in E. destruct E as (s' & E & ->). assert (w = 0) by lia. subst w.
    replace (0 * 16777216 + z * 65536 + y * 256 + x) with (z * 65536 + y * 256 + x) by lia.
    change (x :: y :: z :: 0 :: r) with (in_order false [0; z; y; x] ++ r). constructor; [constructor; lia|apply IH; [lia|exact B|exact E]].
Qed.
Lemma utf32_decodes big b s : is_bytes b -> (utf32_decode big b = Some s <-> spelt (utf32_of big) s b).
Proof. intros B. split; [apply (utf32_sound big _ b s (le_n _) B)|apply utf32_complete]. Qed.

(** ** UTF-16 *)
Definition unit16 (n : Z) : Prop := 0 <= n <= 65535.
Definition is_pair (h l : Z) : bool := (0xd800 <=? h) && (h <=? 0xdbff) && (0xdc00 <=? l) && (l <=? 0xdfff).
Lemma is_pair_spec h l : is_pair h l = true <-> high h /\ low l.
Proof. unfold is_pair, high, low. lia. Qed.
Lemma join_cons h l : utf16_join (h :: l) = match l with
  | [] => [h]
  | w :: l2 => if is_pair h w then 65536 + (h - 0xd800) * 1024 + (w - 0xdc00) :: utf16_join l2 else h :: utf16_join l end.
Proof. destruct l; reflexivity. Qed.

Lemma unit_bytes big n x : unit16 n -> utf16_of big n x -> x = in_order big [n / 256; n mod 256].
Proof.
  intros U H. unfold unit16 in U. remember n as m eqn:M in H. destruct H as [a b A B|h l x y Hh Hl _ _].
  - subst n. f_equal. f_equal; [|f_equal].
    + apply Z.div_unique with b; lia.
    + apply Z.mod_unique with a; lia.
  - unfold high, low in *. lia.
Qed.
Lemma unit_of big n : unit16 n -> utf16_of big n (in_order big [n / 256; n mod 256]).
Proof.
  intros U. unfold unit16 in U. assert (D := Z.div_mod n 256 ltac:(lia)). assert (M := Z.mod_pos_bound n 256 ltac:(lia)).
  rewrite D at 1. replace (256 * (n / 256)) with (n / 256 * 256) by lia. constructor; lia.
Qed.

(** The units of the bytes. *)
Lemma units_sound big n : forall b l, (length b <= n)%nat -> is_bytes b -> utf16_units big b = Some l ->
  Forall unit16 l /\ b = flat_map (fun u => in_order big [u / 256; u mod 256]) l.
Proof.
  induction n as [|n IH]; intros b l L B E; destruct b as [|x [|y r]]; try (cbn in L; lia); try discriminate;
    try (cbn in E; injection E as <-; split; [constructor|reflexivity]).
  cbn [length] in L. cbn [utf16_units] in E. apply is_bytes_cons in B. destruct B as [Bx B]. apply is_bytes_cons in B. destruct B as [By B].
  unfold byte in *. destruct (utf16_units big r) as [l'|] eqn:E'; [|discriminate]. injection E as <-.
  destruct (IH r l' ltac:(lia) B E') as [F ->]. set (u := if big then x * 256 + y else y * 256 + x).
  split; [constructor; [unfold unit16, u; destruct big; lia|exact F]|]. cbn [flat_map].
  assert (Q : in_order big [u / 256; u mod 256] = [x; y]); [|now rewrite Q].
  unfold u, in_order. destruct big; cbn [rev app].
  - f_equal; [|f_equal]; symmetry; [apply Z.div_unique with y|apply Z.mod_unique with x]; lia.
  - f_equal; [|f_equal]; symmetry; [apply Z.mod_unique with y|apply Z.div_unique with x]; lia.
Qed.
Lemma units_complete big l : Forall unit16 l -> utf16_units big (flat_map (fun u => in_order big [u / 256; u mod 256]) l) = Some l.
Proof.
  induction 1 as [|u l U F IH]; [reflexivity|]. cbn [flat_map]. unfold in_order at 1.
  assert (D := Z.div_mod u 256 ltac:(lia)).
  destruct big; cbn [rev app utf16_units]; rewrite IH; cbn [option_map]; do 2 f_equal; lia.
Qed.

(** The characters of the units. *)
Lemma join_sound big n : forall l, (length l <= n)%nat -> Forall unit16 l ->
  spelt (utf16_of big) (utf16_join l) (flat_map (fun u => in_order big [u / 256; u mod 256]) l) /\ joined_up (utf16_join l)
  /\ (forall c s, utf16_join l = c :: s -> low c -> exists l', l = c :: l').
Proof.
  assert (N0 : joined_up []) by (intros [|a1 [|a2 a3]] h w b E; discriminate).
  induction n as [|n IH]; intros l L F; destruct l as [|h l]; try (apply Forall_cons_iff in F; destruct F as [H F]).
  - split; [constructor|]. split; [exact N0|]. discriminate.
  - cbn [length] in L. lia.
  - split; [constructor|]. split; [exact N0|]. discriminate.
  - cbn [length] in L. rewrite join_cons. destruct l as [|w l2].
    + split; [cbn [flat_map]; constructor; [now apply unit_of|constructor]|]. split.
      * intros [|a1 [|a2 a3]] x y b E; discriminate.
      * intros c s E. injection E as <- <-. eauto.
    + assert (F0 := F). apply Forall_cons_iff in F. destruct F as [W F2]. destruct (is_pair h w) eqn:P.
      * apply is_pair_spec in P. destruct P as [Ph Pw]. destruct (IH l2 ltac:(cbn [length] in L; lia) F2) as [I1 [I2 I3]]. split.
        { cbn [flat_map]. rewrite app_assoc. constructor; [|exact I1]. constructor; auto using unit_of. }
        split.
        { intros [|a0 a] x y b E Hx Hy.
          - apply (f_equal (hd 0)) in E. cbn [app hd] in E. unfold high, low in *. lia.
          - injection E as _ E. exact (I2 a x y b E Hx Hy). }
        { intros c s E Lc. apply (f_equal (hd 0)) in E. cbn [hd] in E. unfold high, low in *. lia. }
      * destruct (IH (w :: l2) ltac:(lia) F0) as [I1 [I2 I3]]. split.
        { change (flat_map (fun u => in_order big [u / 256; u mod 256]) (h :: w :: l2))
            with (in_order big [h / 256; h mod 256] ++ flat_map (fun u => in_order big [u / 256; u mod 256]) (w :: l2)).
          constructor; [now apply unit_of|exact I1]. }
        split.
        { intros [|a0 a] x y b E Hx Hy.
          - injection E as <- E. destruct (I3 y b E Hy) as [l' Q]. injection Q as -> _.
            assert (is_pair h y = true) by (apply is_pair_spec; auto). congruence.
          - injection E as _ E. exact (I2 a x y b E Hx Hy). }
        { intros c s E Lc. injection E as <- _. eauto. }
Qed.
Definition units_of (c : Z) : list Z :=
  if c <? 65536 then [c] else [0xd800 + (c - 65536) / 1024; 0xdc00 + (c - 65536) mod 1024].
Lemma char_units big c x : utf16_of big c x ->
  Forall unit16 (units_of c) /\ x = flat_map (fun u => in_order big [u / 256; u mod 256]) (units_of c).
Proof.
  intros [a b A B|h l x1 y1 Hh Hl X Y]; unfold units_of.
  - destruct (Z.ltb_spec (a * 256 + b) 65536); [|lia].
    assert (U : unit16 (a * 256 + b)) by (unfold unit16; lia). split; [constructor; [exact U|constructor]|].
    cbn [flat_map]. rewrite app_nil_r. apply unit_bytes; [exact U|now constructor].
  - assert (Uh : unit16 h) by (unfold unit16, high in *; lia). assert (Ul : unit16 l) by (unfold unit16, low in *; lia).
    unfold high, low in Hh, Hl. destruct (Z.ltb_spec (65536 + (h - 0xd800) * 1024 + (l - 0xdc00)) 65536); [lia|].
    replace (65536 + (h - 0xd800) * 1024 + (l - 0xdc00) - 65536) with ((h - 0xd800) * 1024 + (l - 0xdc00)) by lia.
    assert (Q1 : ((h - 0xd800) * 1024 + (l - 0xdc00)) / 1024 = h - 0xd800) by (symmetry; apply Z.div_unique with (l - 0xdc00); lia).
    assert (Q2 : ((h - 0xd800) * 1024 + (l - 0xdc00)) mod 1024 = l - 0xdc00) by (symmetry; apply Z.mod_unique with (h - 0xd800); lia).
    rewrite Q1, Q2. replace (0xd800 + (h - 0xd800)) with h by lia. replace (0xdc00 + (l - 0xdc00)) with l by lia.
    split; [apply Forall_cons; [exact Uh|apply Forall_cons; [exact Ul|apply Forall_nil]]|]. cbn [flat_map]. rewrite app_nil_r.
    now rewrite <- (unit_bytes big h x1 Uh X), <- (unit_bytes big l y1 Ul Y).
Qed.
Lemma text_units big s b : spelt (utf16_of big) s b ->
  Forall unit16 (flat_map units_of s) /\ b = flat_map (fun u => in_order big [u / 256; u mod 256]) (flat_map units_of s)
  /\ Forall (fun c => 0 <= c <= 0x10ffff) s.
Proof.
  induction 1 as [|c s x b U T [I1 [I2 I3]]]; [repeat split; constructor|]. cbn [flat_map].
  assert (R : 0 <= c <= 0x10ffff) by (destruct U; unfold high, low in *; lia).
  apply char_units in U. destruct U as [U1 ->].
  split; [apply Forall_app; auto|]. rewrite flat_map_app, <- I2. auto.
Qed.
Lemma units_join s : Forall (fun c => 0 <= c <= 0x10ffff) s -> joined_up s -> utf16_join (flat_map units_of s) = s.
Proof.
  induction 1 as [|c s C F IH]; intros J; [reflexivity|]. cbn [flat_map].
  assert (Js : joined_up s) by (intros a h l b ->; apply (J (c :: a) h l b); reflexivity).
  specialize (IH Js). unfold units_of at 1. destruct (Z.ltb_spec c 65536) as [L|L].
  - cbn [app]. rewrite join_cons. destruct s as [|c2 s]; [reflexivity|].
    destruct (flat_map units_of (c2 :: s)) as [|w l2] eqn:E; [destruct (c2 <? 65536) eqn:K; cbn [flat_map] in E; unfold units_of in E; rewrite K in E; discriminate|].
    destruct (is_pair c w) eqn:P; [exfalso|now rewrite IH].
    apply is_pair_spec in P. destruct P as [Pc Pw]. cbn [flat_map] in E. unfold units_of at 1 in E.
    apply Forall_inv in F. cbv beta in F. apply (f_equal (hd 0)) in E.
    destruct (Z.ltb_spec c2 65536) as [L2|L2]; cbn [app hd] in E.
    + subst w. exact (J [] c c2 s eq_refl Pc Pw).
    + unfold low in Pw. assert (B := Z.div_lt_upper_bound (c2 - 65536) 1024 1024 ltac:(lia) ltac:(lia)). lia.
  - cbn [app]. rewrite join_cons.
    assert (D := Z.div_mod (c - 65536) 1024 ltac:(lia)). assert (M := Z.mod_pos_bound (c - 65536) 1024 ltac:(lia)).
    assert (B := Z.div_lt_upper_bound (c - 65536) 1024 1024 ltac:(lia) ltac:(lia)).
    assert (B2 := Z.div_pos (c - 65536) 1024 ltac:(lia) ltac:(lia)).
    assert (P : is_pair (0xd800 + (c - 65536) / 1024) (0xdc00 + (c - 65536) mod 1024) = true)
      by (apply is_pair_spec; unfold high, low; lia).
    rewrite P, IH. f_equal. lia.
Qed.
Lemma utf16_decodes big b s : is_bytes b -> (utf16_decode big b = Some s <-> spelt (utf16_of big) s b /\ joined_up s).
Proof.
  intros B. unfold utf16_decode. split.
  - destruct (utf16_units big b) as [l|] eqn:E; [|discriminate]. intros Q. injection Q as <-.
    destruct (units_sound big _ b l (le_n _) B E) as [F ->]. destruct (join_sound big _ l (le_n _) F) as [J1 [J2 _]]. auto.
  - intros [S J]. destruct (text_units _ _ _ S) as [F [-> R]]. rewrite (units_complete big _ F). cbn [option_map].
    now rewrite units_join.
Qed.

(** ** What begins a document *)
Definition positive (t : text) : Prop := Forall (fun c => 1 <= c) t.
Lemma positive_app a b : positive a -> positive b -> positive (a ++ b).
Proof. intros A B. now apply Forall_app. Qed.
Lemma positive_spaces w : spaces w -> positive w.
Proof. intros F. eapply Forall_impl; [|exact F]. unfold space. cbv beta. lia. Qed.
Lemma positive_digits t : Forall digit t -> positive t.
Proof. intros F. eapply Forall_impl; [|exact F]. unfold digit. cbv beta. lia. Qed.
Lemma positive_integer t z : integer t z -> positive t.
Proof.
  intros [t' n (_ & F & _)|t' n (_ & F & _)]; [now apply positive_digits|]. constructor; [lia|now apply positive_digits].
Qed.
Lemma positive_escape t n : u_escape t n -> positive t.
Proof.
  intros (a & b & c & d & na & nb & nc & nd & -> & A & B & C & D & _). unfold hex_value in *. repeat constructor; lia.
Qed.
Lemma positive_characters t s : characters t s -> positive t.
Proof.
  induction 1 as [|c t s A B C H IH|e c t s E H IH|h n l m t s E1 _ E2 _ H IH|h n t s E H IH _].
  - constructor.
  - constructor; [lia|exact IH].
  - constructor; [lia|]. constructor; [destruct E; lia|exact IH].
  - apply positive_app; [eapply positive_escape; eauto|]. apply positive_app; [eapply positive_escape; eauto|exact IH].
  - apply positive_app; [eapply positive_escape; eauto|exact IH].
Qed.
Lemma positive_fractional t : fractional t -> positive t.
Proof.
  intros (i & n & f & e & I & -> & F & E & _). apply positive_app; [eapply positive_integer; eauto|]. apply positive_app.
  - destruct F as [->|(d & (_ & D) & ->)]; [constructor|]. constructor; [lia|now apply positive_digits].
  - destruct E as [->|(x & g & d & X & G & (_ & D) & ->)]; [constructor|]. constructor; [lia|]. apply positive_app; [|now apply positive_digits].
    destruct G as [->|[->| ->]]; repeat constructor; lia.
Qed.
Lemma positive_json lib :
  (forall d t v, denotes lib d t v -> positive t)
  /\ (forall d t l, array_body lib d t l -> positive t)
  /\ (forall d t l, object_body lib d t l -> positive t).
Proof.
  apply json_ind3; intros;
    repeat first [apply positive_app | apply positive_spaces; assumption | eapply positive_characters; eassumption | assumption
      | eapply positive_integer; eassumption | apply positive_fractional; assumption
      | constructor; [lia|] | constructor].
  all: cbn; lia.
Qed.
Lemma document_head lib d s v : document lib d s v -> exists c r, s = c :: r /\ 1 <= c <= 127 /\ positive s.
Proof.
  intros (w & t & w' & -> & W & W' & D).
  assert (P : positive (w ++ t ++ w')).
  { apply positive_app; [now apply positive_spaces|]. apply positive_app; [|now apply positive_spaces].
    exact (proj1 (positive_json lib) _ _ _ D). }
  destruct W as [|c w C W].
  - assert (H : exists c r, t = c :: r /\ 1 <= c <= 127).
    { destruct D; try (eexists _, _; split; [reflexivity|cbn; lia]).
      - destruct (integer_head _ _ H) as (c & t' & -> & G). exists c, t'. unfold digit in G. split; [reflexivity|lia].
      - destruct (fractional_head _ H) as (c & t' & -> & G). exists c, t'. unfold digit in G. split; [reflexivity|lia]. }
    destruct H as (c & r & -> & C). exists c, (r ++ w'). auto.
  - exists c, (w ++ t ++ w'). split; [reflexivity|]. unfold space in C. split; [lia|exact P].
Qed.

(** ** Detection *)
Lemma second_utf8 s b : utf8_text s b -> positive s -> forall y r, b = y :: r -> y <> 0.
Proof.
  intros U P y r E. destruct U as [|c s x b C T]; [discriminate|]. apply Forall_inv in P. cbv beta in P.
  destruct C; cbn [app] in E; apply (f_equal (hd 1)) in E; cbn [hd] in E; lia.
Qed.
Lemma detect_plain c r : 1 <= c <= 127 -> (forall y q, r = y :: q -> y <> 0) -> detect_encoding (c :: r) = Utf8.
Proof.
  intros C N. unfold detect_encoding.
  assert (H : forall a l, a = 0 \/ 128 <= a -> starts_with (a :: l) (c :: r) = false).
  { intros a l A. cbn [starts_with]. destruct (Z.eqb_spec a c); [lia|reflexivity]. }
  rewrite !H by lia. cbn [orb].
  destruct r as [|y r]; [reflexivity|]. specialize (N y r eq_refl).
  destruct (Z.eqb_spec c 0); [lia|]. destruct (Z.eqb_spec y 0); [lia|]. destruct r as [|z [|w r]]; reflexivity.
Qed.

Lemma first_char big c x : 1 <= c <= 127 -> utf16_of big c x -> x = in_order big [0; c].
Proof.
  intros C U. apply unit_bytes in U; [|unfold unit16; lia]. rewrite Z.div_small, Z.mod_small in U by lia. exact U.
Qed.
Lemma next_char big s b : spelt (utf16_of big) s b -> positive s ->
  b = [] \/ exists y z q, b = y :: z :: q /\ (y <> 0 \/ z <> 0).
Proof.
  intros U P. destruct U as [|c s x b C T]; [now left|right]. apply Forall_inv in P. cbv beta in P.
  assert (U : exists u l, units_of c = u :: l /\ unit16 u /\ u <> 0).
  { destruct (char_units _ _ _ C) as [F _]. unfold units_of in *. destruct (Z.ltb_spec c 65536).
    - apply Forall_inv in F. exists c, []. split; [reflexivity|]. split; [exact F|lia].
    - assert (B2 := Z.div_pos (c - 65536) 1024 ltac:(lia) ltac:(lia)). apply Forall_inv in F.
      eexists _, _. split; [reflexivity|]. split; [exact F|lia]. }
  destruct U as (u & l & E & U & N). apply char_units in C. destruct C as [_ ->]. rewrite E. cbn [flat_map].
  assert (D := Z.div_mod u 256 ltac:(lia)).
  unfold in_order at 1. destruct big; cbn [rev app]; eexists _, _, _; (split; [reflexivity|lia]).
Qed.
Lemma joined_tail c s : joined_up (c :: s) -> joined_up s.
Proof. intros J a h l b ->. apply (J (c :: a) h l b). reflexivity. Qed.
Lemma joined_mark s : joined_up s -> joined_up (0xfeff :: s).
Proof.
  intros J [|a0 a] h l b E H; [injection E as <- _; unfold high in H; lia|]. injection E as _ E. exact (J a h l b E H).
Qed.
Lemma mark16 big x : utf16_of big 0xfeff x -> x = in_order big [254; 255].
Proof. intros U. apply unit_bytes in U; [exact U|unfold unit16; lia]. Qed.
Lemma char32 big c x : 0 <= c <= 65535 -> utf32_of big c x -> x = in_order big [0; 0; c / 256; c mod 256].
Proof.
  intros C U. remember c as n eqn:N in U. destruct U as [p q r P Q R]. assert (p = 0) by lia. subst p.
  assert (c / 256 = q) by (symmetry; apply Z.div_unique with r; lia).
  assert (c mod 256 = r) by (symmetry; apply Z.mod_unique with q; lia). congruence.
Qed.
Lemma spelt_bytes big s b : spelt (utf16_of big) s b -> is_bytes b.
Proof.
  assert (G : forall c x, utf16_of big c x -> is_bytes x).
  { induction 1 as [p q P Q|h l x y _ _ _ IH1 _ IH2].
    - unfold in_order. destruct big; cbn [rev app]; repeat (apply is_bytes_cons; split; [unfold byte; lia|]); constructor.
    - apply is_bytes_app. auto. }
  induction 1 as [|c s x b C T IH]; [constructor|]. apply is_bytes_app. eauto.
Qed.

Theorem decoded_encoded b s' : is_bytes b -> (exists c r, s' = c :: r /\ 1 <= c <= 127 /\ positive s') ->
  (decoded b = Some s' <-> exists e s, encoded e s b /\ unmarked s s').
Proof.
  intros B (c & r & Es & C & P). split.
  - assert (Plain : unmarked s' s') by (right; split; [rewrite Es; cbn [hd]; lia|reflexivity]).
    unfold decoded. destruct (detect_encoding b) as [| | | |big|big] eqn:K; intros D.
    + exists InUtf8, s'. split; [now apply utf8_decodes|exact Plain].
    + assert (M : starts_with [239; 187; 191] b = true).
      { unfold detect_encoding in K. destruct (_ || _); [discriminate|]. destruct (_ || _); [discriminate|].
        destruct (starts_with [239; 187; 191] b); [reflexivity|]. destruct b as [|x [|y [|z [|w q]]]]; try discriminate;
        repeat match type of K with context [if ?t then _ else _] => destruct t end; discriminate. }
      apply starts_with_spec in M. destruct M as (q & ->). change (skipn 3 ([239; 187; 191] ++ q)) with q in D.
      apply is_bytes_app in B. destruct B as [_ B]. apply utf8_decodes in D; [|exact B].
      exists InUtf8, (0xfeff :: s'). split; [|now left].
      change ([239; 187; 191] ++ q) with ([0xe0 + 15; 0x80 + 59; 0x80 + 63] ++ q).
      change 0xfeff with (15 * 4096 + 59 * 64 + 63). constructor; [constructor; lia|exact D].
    + assert (M : exists q, b = in_order (starts_with [254; 255] b) [254; 255] ++ q).
      { unfold detect_encoding in K. destruct (_ || _); [discriminate|]. destruct (starts_with [254; 255] b) eqn:M1.
        - apply starts_with_spec in M1. exact M1.
        - destruct (starts_with [255; 254] b) eqn:M2; [apply starts_with_spec in M2; exact M2|]. cbn [orb] in K.
          destruct (starts_with [239; 187; 191] b); [discriminate|]. destruct b as [|x [|y [|z [|w q]]]]; try discriminate;
          repeat match type of K with context [if ?t then _ else _] => destruct t end; discriminate. }
      destruct (starts_with [254; 255] b) as [|] eqn:Q; destruct M as (q & M); exists (InUtf16 (starts_with [254; 255] b)), (0xfeff :: s');
        rewrite Q; (split; [|now left]).
      * rewrite M in B, D |- *. apply is_bytes_app in B. destruct B as [_ B]. apply utf16_decodes in D; [|exact B].
        destruct D as [D J]. split; [|now apply joined_mark]. constructor; [apply (unit_of true 0xfeff); unfold unit16; lia|exact D].
      * rewrite M in B, D |- *. apply is_bytes_app in B. destruct B as [_ B]. apply utf16_decodes in D; [|exact B].
        destruct D as [D J]. split; [|now apply joined_mark]. constructor; [apply (unit_of false 0xfeff); unfold unit16; lia|exact D].
    + assert (M : exists q, b = in_order (starts_with [0; 0; 254; 255] b) [0; 0; 254; 255] ++ q).
      { unfold detect_encoding in K. destruct (starts_with [0; 0; 254; 255] b) eqn:M1.
        - apply starts_with_spec in M1. exact M1.
        - destruct (starts_with [255; 254; 0; 0] b) eqn:M2; [apply starts_with_spec in M2; exact M2|]. cbn [orb] in K.
          destruct (_ || _); [discriminate|].
          destruct (starts_with [239; 187; 191] b); [discriminate|]. destruct b as [|x [|y [|z [|w q]]]]; try discriminate;
          repeat match type of K with context [if ?t then _ else _] => destruct t end; discriminate. }
      destruct (starts_with [0; 0; 254; 255] b) as [|] eqn:Q; destruct M as (q & M); exists (InUtf32 (starts_with [0; 0; 254; 255] b)), (0xfeff :: s');
        rewrite Q; (split; [|now left]).
      * rewrite M in B, D |- *. apply is_bytes_app in B. destruct B as [_ B]. apply utf32_decodes in D; [|exact B].
        constructor; [apply (wide_four true 0 254 255); lia|exact D].
      * rewrite M in B, D |- *. apply is_bytes_app in B. destruct B as [_ B]. apply utf32_decodes in D; [|exact B].
        constructor; [apply (wide_four false 0 254 255); lia|exact D].
    + exists (InUtf16 big), s'. split; [now apply utf16_decodes|exact Plain].
    + exists (InUtf32 big), s'. split; [now apply utf32_decodes|exact Plain].
  - intros (e & s & E & U). destruct e as [|big|big]; cbn [encoded] in E.
    + destruct U as [->|(_ & ->)].
      * inversion E as [|m s0 x q M T]; subst. apply utf8_of_char in M. subst x. change (utf8_char 65279) with [239; 187; 191].
        unfold decoded. change (detect_encoding ([239; 187; 191] ++ q)) with Utf8Sig.
        change (skipn 3 ([239; 187; 191] ++ q)) with q. now apply utf8_complete.
      * assert (E0 := E). inversion E as [|m s0 x q M T]; subst; [discriminate|]. injection H as <- <-.
        assert (x = [m]) by (destruct M; try lia; reflexivity). subst x. unfold decoded. cbn [app].
        rewrite detect_plain; [now apply utf8_complete|exact C|]. eapply second_utf8; [exact T|].
        now apply Forall_inv_tail in P.
    + destruct E as [E J]. destruct U as [->|(_ & ->)].
      * inversion E as [|m s0 x q M T]; subst. apply mark16 in M. subst x. apply joined_tail in J.
        assert (Bq : is_bytes q) by (eapply spelt_bytes; eauto).
        assert (D : utf16_decode big q = Some (c :: r)) by (apply utf16_decodes; auto).
        unfold decoded. destruct big.
        -- change (detect_encoding (in_order true [254; 255] ++ q)) with Utf16. exact D.
        -- assert (K : detect_encoding (in_order false [254; 255] ++ q) = Utf16).
           { inversion T as [|m s0 x q' M' T']; subst. apply first_char in M'; [|exact C]. subst x.
             unfold detect_encoding, in_order. cbn [rev app starts_with]. destruct (Z.eqb_spec 0 c); [lia|]. reflexivity. }
           rewrite K. exact D.
      * assert (D : utf16_decode big b = Some (c :: r)) by (apply utf16_decodes; subst; auto).
        subst s. inversion E as [|m s0 x q M T]; subst. apply first_char in M; [|exact C]. subst x.
        assert (Nx := next_char _ _ _ T (Forall_inv_tail P)).
        unfold decoded. assert (K : detect_encoding (in_order big [0; c] ++ q) = Utf16Order big); [|rewrite K; exact D].
        unfold detect_encoding, in_order. destruct big; cbn [rev app].
        -- destruct Nx as [->|(y & z & q' & -> & N)]; cbn [starts_with].
           ++ destruct (Z.eqb_spec 0 c); [lia|]. reflexivity.
           ++ destruct (Z.eqb_spec 0 c); [lia|]. cbn. destruct (Z.eqb_spec c 0); [lia|]. reflexivity.
        -- assert (H : forall a l q, a = 0 \/ 128 <= a -> starts_with (a :: l) (c :: q) = false).
           { intros a l q0 A. cbn [starts_with]. destruct (Z.eqb_spec a c); [lia|reflexivity]. }
           rewrite !H by lia. cbn [orb]. destruct (Z.eqb_spec c 0); [lia|].
           destruct Nx as [->|(y & z & q' & -> & N)]; [reflexivity|]. cbn [Z.eqb].
           destruct (Z.eqb_spec y 0); destruct (Z.eqb_spec z 0); try reflexivity. lia.
    + destruct U as [->|(_ & ->)].
      * inversion E as [|m s0 x q M T]; subst. apply char32 in M; [|lia]. change (65279 / 256) with 254 in M. change (65279 mod 256) with 255 in M.
        subst x. assert (D := utf32_complete _ _ _ T). unfold decoded. destruct big.
        -- change (detect_encoding (in_order true [0; 0; 254; 255] ++ q)) with Utf32. exact D.
        -- change (detect_encoding (in_order false [0; 0; 254; 255] ++ q)) with Utf32. exact D.
      * subst s. assert (D := utf32_complete _ _ _ E). inversion E as [|m s0 x q M T]; subst.
        apply char32 in M; [|lia]. rewrite Z.div_small, Z.mod_small in M by lia. subst x.
        unfold decoded. assert (K : detect_encoding (in_order big [0; 0; 0; c] ++ q) = Utf32Order big); [|rewrite K; exact D].
        unfold detect_encoding, in_order. destruct big; cbn [rev app]; [reflexivity|].
        assert (H : forall a l q, a = 0 \/ 128 <= a -> starts_with (a :: l) (c :: q) = false).
        { intros a l q0 A. cbn [starts_with]. destruct (Z.eqb_spec a c); [lia|reflexivity]. }
        rewrite !H by lia. cbn [orb]. destruct (Z.eqb_spec c 0); [lia|]. reflexivity.
Qed.

(** ** Bytes that can only be UTF-8 *)
Definition narrow (b : bytes) : Prop :=
  is_bytes b /\ ~ In 0 b /\ (forall r, b <> 0xfe :: 0xff :: r) /\ (forall r, b <> 0xff :: 0xfe :: r).
Lemma narrow_encoded lib d e s b s' v : narrow b -> encoded e s b -> unmarked s s' -> document lib d s' v -> e = InUtf8.
Proof.
  intros (B & Z & M1 & M2) E U D. destruct (document_head _ _ _ _ D) as (c & r & -> & C & P).
  assert (Zr : forall big x y q, In 0 x -> b = in_order big x ++ y ++ q -> False).
  { intros big x y q I ->. apply Z. apply in_or_app. left. unfold in_order. destruct big; [exact I|now apply in_rev in I]. }
  destruct e as [|big|big]; [reflexivity|exfalso|exfalso]; cbn [encoded] in E.
  - destruct E as [E _]. destruct U as [->|(_ & <-)]; inversion E as [|m s0 x q M T]; subst.
    + apply mark16 in M. subst x. destruct big; [apply (M1 q)|apply (M2 q)]; reflexivity.
    + apply first_char in M; [|exact C]. subst x. apply (Zr big [0; c] [] q); [now left|reflexivity].
  - destruct U as [->|(_ & <-)]; inversion E as [|m s0 x q M T]; subst;
      (destruct M as [p k l P1 P2 P3]; apply (Zr big [0; p; k; l] [] q); [now left|reflexivity]).
Qed.
Lemma narrow_encoding b : narrow b -> detect_encoding b = if starts_with [239; 187; 191] b then Utf8Sig else Utf8.
Proof.
  intros (_ & Z & A & B). unfold detect_encoding.
  destruct (starts_with [0; 0; 254; 255] b) eqn:E1.
  { exfalso. apply starts_with_spec in E1. destruct E1 as (r & ->). apply Z. left. reflexivity. }
  destruct (starts_with [255; 254; 0; 0] b) eqn:E0.
  { exfalso. apply starts_with_spec in E0. destruct E0 as (r & ->). exact (B _ eq_refl). }
  destruct (starts_with [255; 254] b) eqn:E2.
  { exfalso. apply starts_with_spec in E2. destruct E2 as (r & ->). exact (B r eq_refl). }
  destruct (starts_with [254; 255] b) eqn:E3.
  { exfalso. apply starts_with_spec in E3. destruct E3 as (r & ->). exact (A r eq_refl). }
  cbn [orb]. destruct (starts_with [239; 187; 191] b); [reflexivity|].
  destruct b as [|x [|y r]]; [reflexivity|reflexivity|].
  destruct (Z.eqb_spec x 0) as [->|]; [exfalso; apply Z; left; reflexivity|].
  destruct (Z.eqb_spec y 0) as [->|]; [exfalso; apply Z; right; left; reflexivity|].
  destruct r as [|z [|w r]]; reflexivity.
Qed.
Lemma mark_bytes s b : utf8_text s b -> (hd 0 s = 0xfeff <-> starts_with [239; 187; 191] b = true).
Proof.
  intros U. split.
  - intros H. inversion U as [|c s' x b' C T]; subst; [discriminate|]. cbn [hd] in H. subst c.
    apply utf8_of_char in C. subst x. apply starts_with_spec. exists b'. reflexivity.
  - intros H. apply starts_with_spec in H. destruct H as (r & ->). apply utf8_complete in U. cbn in U.
    destruct (utf8_decode r); [|discriminate]. inversion U. reflexivity.
Qed.
