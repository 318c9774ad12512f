(** Lemmas on Cal.v. *)
From Coq Require Import List ZArith Bool Lia ZifyBool ZifyNat.
From Verif Require Import Py Common Cal Base Spec Common_facts.
Import ListNotations.
Open Scope Z_scope.
Ltac Zify.zify_post_hook ::= Z.div_mod_to_equations.

(** ** Binary reports *)

Lemma list_ind4 {A} (P : list A -> Prop) :
  P [] -> (forall a, P [a]) -> (forall a b, P [a; b]) -> (forall a b c, P [a; b; c]) ->
  (forall a b c d l, P l -> P (a :: b :: c :: d :: l)) -> forall l, P l.
Proof.
  intros H0 H1 H2 H3 H4 l.
  assert (H : P l /\ (forall a, P (a :: l)) /\ (forall a b, P (a :: b :: l))
              /\ forall a b c, P (a :: b :: c :: l)).
  { induction l as [|x l [IH1 [IH2 [IH3 IH4]]]]; [auto|].
    split; [apply IH2|]. split; [intros a; apply IH3|]. split; [intros a b; apply IH4|].
    intros a b c. apply H4, IH1. }
  apply H.
Qed.

Definition pack4 a b c d := Z.lor (Z.lor (Z.lor a (Z.shiftl b 2)) (Z.shiftl c 4)) (Z.shiftl d 6).
Definition unpack4 c := [Z.land c 0x3; Z.land (Z.shiftr c 2) 0x3;
                         Z.land (Z.shiftr c 4) 0x3; Z.land (Z.shiftr c 6) 0x3].

Lemma pack4_spec a b c d : group_state a -> group_state b -> group_state c -> group_state d ->
  byte (pack4 a b c d) /\ unpack4 (pack4 a b c d) = [a; b; c; d].
Proof.
  unfold group_state. intros Ha Hb Hc Hd.
  assert (S : forallb (fun a => forallb (fun b => forallb (fun c => forallb (fun d =>
    (0 <=? pack4 a b c d) && (pack4 a b c d <=? 255) &&
    match unpack4 (pack4 a b c d) with
    | [w; x; y; z] => (w =? a) && (x =? b) && (y =? c) && (z =? d)
    | _ => false end) (upto 4)) (upto 4)) (upto 4)) (upto 4) = true)
    by (vm_compute; reflexivity).
  apply (sweep 4) with (z := a) in S; [|lia]. apply (sweep 4) with (z := b) in S; [|lia].
  apply (sweep 4) with (z := c) in S; [|lia]. apply (sweep 4) with (z := d) in S; [|lia].
  cbv beta in S. bool_hyps. split; [unfold byte; lia|].
  unfold unpack4 in *. bool_hyps. repeat f_equal; lia.
Qed.

Lemma unpack4_pack c : byte c -> pack4 (Z.land c 0x3) (Z.land (Z.shiftr c 2) 0x3)
    (Z.land (Z.shiftr c 4) 0x3) (Z.land (Z.shiftr c 6) 0x3) = c.
Proof.
  intros H. apply Z.eqb_eq. revert c H. apply byte_sweep. vm_compute. reflexivity.
Qed.

Lemma pack_states_decode l : (length l mod 4 = 0)%nat -> Forall group_state l ->
  is_bytes (pack_states l) /\ binary_decode (pack_states l) = l
  /\ (4 * length (pack_states l) = length l)%nat.
Proof.
  induction l as [|a|a b|a b c|a b c d l IH] using list_ind4; intros Hl Hs;
    try (cbn in Hl; discriminate).
  - repeat split; constructor.
  - inversion Hs as [|? ? Ha Hs1]; subst. inversion Hs1 as [|? ? Hb Hs2]; subst.
    inversion Hs2 as [|? ? Hc Hs3]; subst. inversion Hs3 as [|? ? Hd Hs4]; subst.
    destruct (pack4_spec a b c d Ha Hb Hc Hd) as [B U].
    destruct IH as [IB [ID IL]]; [cbn [length] in Hl; lia|exact Hs4|].
    cbn [pack_states]. fold (pack4 a b c d). split; [|split].
    + apply is_bytes_cons. auto.
    + cbn [binary_decode flat_map]. fold (unpack4 (pack4 a b c d)). rewrite U.
      cbn [app]. unfold binary_decode in ID. now rewrite ID.
    + cbn [length]. lia.
Qed.

Definition padding (n : nat) : nat := if Nat.eqb (n mod 4) 0 then 0 else 4 - n mod 4.

Lemma padding_spec n : (padding n < 4)%nat /\ ((n + padding n) mod 4 = 0)%nat
  /\ (padding n = 0 <-> n mod 4 = 0)%nat.
Proof. unfold padding. destruct (Nat.eqb (n mod 4) 0) eqn:E; lia. Qed.

Lemma binary_encode_padded states :
  binary_encode states = mk_bytes (pack_states (states ++ repeat 0 (padding (length states)))).
Proof.
  unfold binary_encode, padding. destruct (Nat.eqb (length states mod 4) 0); [|reflexivity].
  cbn [repeat]. now rewrite app_nil_r.
Qed.

Lemma binary_roundtrip states : Forall group_state states ->
  exists b, binary_encode states = Ok b /\ is_bytes b
    /\ binary_decode b = states ++ repeat 0 (padding (length states))
    /\ (4 * length b = length states + padding (length states))%nat.
Proof.
  intros H. rewrite binary_encode_padded.
  destruct (padding_spec (length states)) as [_ [P _]].
  destruct (pack_states_decode (states ++ repeat 0 (padding (length states)))) as [B [D L]].
  - rewrite app_length, repeat_length. exact P.
  - apply Forall_app. split; [exact H|]. apply Forall_forall. intros x Hx.
    apply repeat_spec in Hx. subst. unfold group_state. lia.
  - rewrite mk_bytes_ok by exact B. eexists. split; [reflexivity|].
    rewrite app_length, repeat_length in L. auto.
Qed.

Lemma binary_decode_length data : length (binary_decode data) = (4 * length data)%nat.
Proof.
  induction data as [|c l IH]; [reflexivity|]. cbn [binary_decode flat_map app length].
  unfold binary_decode in IH. rewrite IH. lia.
Qed.

Lemma binary_decode_states data : Forall group_state (binary_decode data).
Proof.
  induction data as [|c l IH]; [constructor|]. cbn [binary_decode flat_map app].
  unfold group_state. rewrite !land_3. repeat (constructor; [lia|]). exact IH.
Qed.

Lemma pack_binary_decode data : is_bytes data -> pack_states (binary_decode data) = data.
Proof.
  induction data as [|c l IH]; intros H; [reflexivity|].
  apply is_bytes_cons in H. destruct H as [Hc Hl].
  cbn [binary_decode flat_map app pack_states]. unfold binary_decode in IH. rewrite IH by exact Hl.
  f_equal. apply unpack4_pack, Hc.
Qed.

Lemma binary_reencode data : is_bytes data -> binary_encode (binary_decode data) = Ok data.
Proof.
  intros H. rewrite binary_encode_padded, binary_decode_length.
  assert (P : padding (4 * length data) = 0%nat).
  { apply padding_spec. lia. }
  rewrite P. cbn [repeat]. rewrite app_nil_r, pack_binary_decode by exact H.
  apply mk_bytes_ok, H.
Qed.

(** ** Manchester code *)

Definition decode2 (b0 b1 : Z) : option Z :=
  match manchester_decode [b0; b1] with Ok v => v | Raise _ => None end.

Lemma manchester_decode2 b0 b1 : manchester_decode [b0; b1] = Ok (decode2 b0 b1).
Proof.
  unfold decode2, manchester_decode. cbn [py_index nth_error rbind].
  assert (I : forall x l, index_of x l = Raise ValueError \/ exists n, index_of x l = Ok n).
  { intros x l. induction l as [|a l IH]; cbn [index_of]; [auto|].
    destruct (a =? x); [eauto|]. destruct IH as [->|[n ->]]; cbn; eauto. }
  destruct (I (Z.land b0 15) MANCHESTER_NIBBLES) as [->|[n0 ->]]; cbn [rbind]; [reflexivity|].
  destruct (I (Z.shiftr b0 4) MANCHESTER_NIBBLES) as [->|[n1 ->]]; cbn [rbind]; [reflexivity|].
  destruct (I (Z.land b1 15) MANCHESTER_NIBBLES) as [->|[n2 ->]]; cbn [rbind]; [reflexivity|].
  destruct (I (Z.shiftr b1 4) MANCHESTER_NIBBLES) as [->|[n3 ->]]; cbn [rbind]; reflexivity.
Qed.

(** Bit pair of a nibble. *)
Definition pair_of (n : Z) : option Z :=
  if n =? 10 then Some 0 else if n =? 9 then Some 1 else if n =? 6 then Some 2
  else if n =? 5 then Some 3 else None.
Lemma pair_of_spec n v : pair_of n = Some v <-> code_word v n.
Proof.
  unfold pair_of, code_word.
  destruct (n =? 10) eqn:E1; [split; [intros H; inversion H|intros H; f_equal]; lia|].
  destruct (n =? 9) eqn:E2; [split; [intros H; inversion H|intros H; f_equal]; lia|].
  destruct (n =? 6) eqn:E3; [split; [intros H; inversion H|intros H; f_equal]; lia|].
  destruct (n =? 5) eqn:E4; [split; [intros H; inversion H|intros H; f_equal]; lia|].
  split; [discriminate|lia].
Qed.
Definition level_of (b0 b1 : Z) : option Z :=
  match pair_of (b0 mod 16), pair_of (b0 / 16), pair_of (b1 mod 16), pair_of (b1 / 16) with
  | Some p0, Some p1, Some p2, Some p3 => Some (p0 + 4 * p1 + 16 * p2 + 64 * p3)
  | _, _, _, _ => None
  end.
Definition opt_eqb (a b : option Z) : bool :=
  match a, b with Some x, Some y => x =? y | None, None => true | _, _ => false end.
Lemma opt_eqb_eq a b : opt_eqb a b = true -> a = b.
Proof. destruct a, b; cbn; intros H; try discriminate; f_equal; lia. Qed.

Lemma decode2_level b0 b1 : byte b0 -> byte b1 -> decode2 b0 b1 = level_of b0 b1.
Proof.
  intros H0 H1. apply opt_eqb_eq. revert b0 b1 H0 H1. apply byte_sweep2.
  vm_compute. reflexivity.
Qed.

Lemma code_word_facts v n : code_word v n -> 0 <= v <= 3 /\ 5 <= n <= 10.
Proof. unfold code_word. lia. Qed.
Lemma level_of_spec b0 b1 v : byte b0 -> byte b1 ->
  (level_of b0 b1 = Some v <-> manchester v b0 b1).
Proof.
  unfold byte. intros H0 H1. unfold level_of. split.
  - destruct (pair_of (b0 mod 16)) as [p0|] eqn:E0; [|discriminate].
    destruct (pair_of (b0 / 16)) as [p1|] eqn:E1; [|discriminate].
    destruct (pair_of (b1 mod 16)) as [p2|] eqn:E2; [|discriminate].
    destruct (pair_of (b1 / 16)) as [p3|] eqn:E3; [|discriminate].
    apply pair_of_spec in E0, E1, E2, E3. intros H. inversion H.
    exists p0, p1, p2, p3, (b0 mod 16), (b0 / 16), (b1 mod 16), (b1 / 16).
    repeat split; try assumption; lia.
  - intros [p0 [p1 [p2 [p3 [n0 [n1 [n2 [n3 [C0 [C1 [C2 [C3 [-> [-> ->]]]]]]]]]]]]]].
    assert (F0 := code_word_facts _ _ C0). assert (F1 := code_word_facts _ _ C1).
    assert (F2 := code_word_facts _ _ C2). assert (F3 := code_word_facts _ _ C3).
    replace ((n0 + 16 * n1) mod 16) with n0 by lia.
    replace ((n0 + 16 * n1) / 16) with n1 by lia.
    replace ((n2 + 16 * n3) mod 16) with n2 by lia.
    replace ((n2 + 16 * n3) / 16) with n3 by lia.
    apply pair_of_spec in C0, C1, C2, C3. now rewrite C0, C1, C2, C3.
Qed.

Lemma manchester_decode_iff b0 b1 v : byte b0 -> byte b1 ->
  (manchester_decode [b0; b1] = Ok (Some v) <-> manchester v b0 b1).
Proof.
  intros H0 H1. rewrite manchester_decode2, decode2_level by assumption.
  rewrite <- level_of_spec by assumption. split; [intros H; now inversion H|now intros ->].
Qed.
Lemma manchester_decode_none b0 b1 : byte b0 -> byte b1 ->
  (forall v, ~ manchester v b0 b1) -> manchester_decode [b0; b1] = Ok None.
Proof.
  intros H0 H1 H. rewrite manchester_decode2, decode2_level by assumption.
  destruct (level_of b0 b1) as [v|] eqn:E; [|reflexivity].
  apply level_of_spec in E; [|assumption..]. now apply H in E.
Qed.

Lemma lo_hi_spec v : byte v ->
  byte (manchester_lo v) /\ byte (manchester_hi v)
  /\ level_of (manchester_lo v) (manchester_hi v) = Some v.
Proof.
  intros H.
  assert (S : forallb (fun v => (0 <=? manchester_lo v) && (manchester_lo v <=? 255)
     && (0 <=? manchester_hi v) && (manchester_hi v <=? 255)
     && opt_eqb (level_of (manchester_lo v) (manchester_hi v)) (Some v)) (upto 256) = true)
    by (vm_compute; reflexivity).
  assert (S' := byte_sweep _ S v H). cbv beta in S'. bool_hyps.
  unfold byte. repeat split; try lia. now apply opt_eqb_eq.
Qed.

Lemma code_word_unique v n m : code_word v n -> code_word v m -> n = m.
Proof. unfold code_word. lia. Qed.

Lemma manchester_unique v b0 b1 c0 c1 : manchester v b0 b1 -> manchester v c0 c1 -> b0 = c0 /\ b1 = c1.
Proof.
  intros [p0 [p1 [p2 [p3 [n0 [n1 [n2 [n3 [C0 [C1 [C2 [C3 [-> [-> ->]]]]]]]]]]]]]]
         [q0 [q1 [q2 [q3 [m0 [m1 [m2 [m3 [D0 [D1 [D2 [D3 [E [-> ->]]]]]]]]]]]]]].
  assert (p0 = q0 /\ p1 = q1 /\ p2 = q2 /\ p3 = q3) as [-> [-> [-> ->]]].
  { apply code_word_facts in C0, C1, C2, C3, D0, D1, D2, D3. lia. }
  rewrite (code_word_unique _ _ _ C0 D0), (code_word_unique _ _ _ C1 D1),
    (code_word_unique _ _ _ C2 D2), (code_word_unique _ _ _ C3 D3). auto.
Qed.

Lemma manchester_bytes v b0 b1 : manchester v b0 b1 -> byte v /\ byte b0 /\ byte b1.
Proof.
  intros [p0 [p1 [p2 [p3 [n0 [n1 [n2 [n3 [C0 [C1 [C2 [C3 [-> [-> ->]]]]]]]]]]]]]].
  apply code_word_facts in C0, C1, C2, C3. unfold byte. lia.
Qed.

Lemma set_nth_app pre x post v : set_nth (length pre) v (pre ++ x :: post) = pre ++ v :: post.
Proof. induction pre as [|a pre IH]; cbn; [reflexivity|now rewrite IH]. Qed.

(** manchester_encode writes exactly the two bytes at its offset. *)
Lemma manchester_encode_at v pre x y post :
  manchester_encode (Some v) (Some (pre ++ x :: y :: post)) (length pre)
  = Ok (pre ++ manchester_lo (v mod 256) :: manchester_hi (v mod 256) :: post).
Proof.
  unfold manchester_encode. rewrite app_length. cbn [length].
  replace (Nat.ltb _ _) with false by lia. rewrite land_255, set_nth_app.
  replace (length pre + 1)%nat with (length (pre ++ [manchester_lo (v mod 256)]))
    by (rewrite app_length; cbn; lia).
  change (pre ++ manchester_lo (v mod 256) :: y :: post)
    with (pre ++ [manchester_lo (v mod 256)] ++ y :: post).
  rewrite app_assoc, set_nth_app, <- app_assoc. reflexivity.
Qed.

(** ** Level reports *)

Definition level_bytes (o : option Z) : bytes :=
  match o with
  | None => [0; 0]
  | Some v => [manchester_lo (v mod 256); manchester_hi (v mod 256)]
  end.

Lemma level_encode_loop_eq levels pre i : length pre = (i * 2)%nat ->
  level_encode_loop i levels (pre ++ repeat 0 (length levels * 2))
  = Ok (pre ++ flat_map level_bytes levels).
Proof.
  revert pre i. induction levels as [|o levels IH]; intros pre i Hi.
  - reflexivity.
  - replace (repeat 0 (length (o :: levels) * 2)) with (0 :: 0 :: repeat 0 (length levels * 2))
      by reflexivity.
    cbn [level_encode_loop flat_map]. rewrite <- Hi.
    assert (E : manchester_encode o (Some (pre ++ 0 :: 0 :: repeat 0 (length levels * 2))) (length pre)
      = Ok ((pre ++ level_bytes o) ++ repeat 0 (length levels * 2))).
    { destruct o as [v|].
      - rewrite manchester_encode_at, <- app_assoc. reflexivity.
      - unfold manchester_encode. rewrite app_length. cbn [length].
        replace (Nat.ltb _ _) with false by lia. rewrite <- app_assoc. reflexivity. }
    unfold bytes in *. rewrite E. cbn [rbind]. rewrite IH.
    + now rewrite <- app_assoc.
    + rewrite app_length. destruct o; cbn; lia.
Qed.

Lemma level_encode_eq levels : level_encode levels = Ok (flat_map level_bytes levels).
Proof. apply (level_encode_loop_eq levels [] 0). reflexivity. Qed.

Lemma level_bytes_facts o :
  is_bytes (level_bytes o) /\ length (level_bytes o) = 2%nat /\
  forall rest, level_decode_pairs (level_bytes o ++ rest)
    = rbind (level_decode_pairs rest) (fun r => Ok (option_map (fun v => v mod 256) o :: r)).
Proof.
  destruct o as [v|]; cbn [level_bytes].
  - destruct (lo_hi_spec (v mod 256) (byte_mod v)) as [B0 [B1 L]].
    split; [byte_list; assumption|]. split; [reflexivity|]. intros rest.
    cbn [app level_decode_pairs]. rewrite manchester_decode2, decode2_level, L by assumption.
    reflexivity.
  - split; [byte_list; unfold byte; lia|]. split; [reflexivity|]. intros rest.
    cbn [app level_decode_pairs]. reflexivity.
Qed.

Lemma flat_level_length levels : length (flat_map level_bytes levels) = (2 * length levels)%nat.
Proof.
  induction levels as [|o l IH]; [reflexivity|]. cbn [flat_map length]. rewrite app_length, IH.
  destruct (level_bytes_facts o) as [_ [-> _]]. lia.
Qed.
Lemma flat_level_bytes levels : is_bytes (flat_map level_bytes levels).
Proof.
  induction levels as [|o l IH]; [constructor|]. cbn [flat_map]. apply is_bytes_app.
  split; [apply level_bytes_facts|exact IH].
Qed.

Lemma level_pairs_flat levels :
  level_decode_pairs (flat_map level_bytes levels) = Ok (map (option_map (fun v => v mod 256)) levels).
Proof.
  induction levels as [|o l IH]; [reflexivity|]. cbn [flat_map map].
  destruct (level_bytes_facts o) as [_ [_ ->]]. rewrite IH. reflexivity.
Qed.

Lemma level_roundtrip levels :
  exists b, level_encode levels = Ok b /\ is_bytes b /\ length b = (2 * length levels)%nat
    /\ level_decode b = Ok (map (option_map (fun v => v mod 256)) levels).
Proof.
  rewrite level_encode_eq. eexists. split; [reflexivity|].
  split; [apply flat_level_bytes|]. split; [apply flat_level_length|].
  unfold level_decode. rewrite flat_level_length.
  replace (Nat.eqb _ 0) with true by lia. apply level_pairs_flat.
Qed.

Lemma level_decode_odd data : (length data mod 2 = 1)%nat -> level_decode data = Raise ValueError.
Proof. intros H. unfold level_decode. now rewrite H. Qed.

Lemma level_decode_even data : (length data mod 2 = 0)%nat ->
  exists l, level_decode data = Ok l /\ (2 * length l = length data)%nat.
Proof.
  intros H. unfold level_decode. rewrite H. cbn [Nat.eqb negb]. revert H.
  induction data as [|a|a b l IH] using list_ind2; intros H.
  - exists []. auto.
  - discriminate.
  - destruct IH as [r [E L]]; [cbn [length] in H; lia|].
    cbn [level_decode_pairs]. rewrite manchester_decode2, E. cbn [rbind].
    eexists. split; [reflexivity|]. cbn [length]. lia.
Qed.

Lemma manchester_reencode b0 b1 v : byte b0 -> byte b1 ->
  manchester_decode [b0; b1] = Ok (Some v) -> manchester_encode (Some v) None 0 = Ok [b0; b1].
Proof.
  intros H0 H1 H. apply manchester_decode_iff in H; [|assumption..].
  destruct (manchester_bytes _ _ _ H) as [Hv _].
  destruct (lo_hi_spec v Hv) as [B0 [B1 L]]. apply level_of_spec in L; [|assumption..].
  destruct (manchester_unique _ _ _ _ _ H L) as [-> ->].
  assert (E := manchester_encode_at v [] 0 0 []). cbn [app length] in E.
  rewrite mod_of_byte in E by exact Hv. exact E.
Qed.

(** A single flipped bit. *)
Lemma manchester_bit_flip v k : byte v -> 0 <= k <= 7 ->
  manchester_decode [Z.lxor (manchester_lo v) (2 ^ k); manchester_hi v] = Ok None
  /\ manchester_decode [manchester_lo v; Z.lxor (manchester_hi v) (2 ^ k)] = Ok None.
Proof.
  intros Hv Hk. rewrite !manchester_decode2.
  assert (S : forallb (fun v => forallb (fun k =>
     opt_eqb (decode2 (Z.lxor (manchester_lo v) (2 ^ k)) (manchester_hi v)) None
     && opt_eqb (decode2 (manchester_lo v) (Z.lxor (manchester_hi v) (2 ^ k))) None)
     (upto 8)) (upto 256) = true) by (vm_compute; reflexivity).
  assert (S1 := byte_sweep _ S v Hv). cbv beta in S1.
  assert (S2 := sweep 8 _ S1 k ltac:(lia)). cbv beta in S2. bool_hyps.
  split; f_equal; apply opt_eqb_eq; assumption.
Qed.

(** ** CAL encodings *)

Lemma report_encode_bytes r b : report_encode r = Ok b -> is_bytes b.
Proof.
  destruct r as [s|l]; cbn [report_encode].
  - unfold binary_encode. intros H. apply mk_bytes_inv in H. destruct H as [-> H1]. exact H1.
  - rewrite level_encode_eq. intros H. inversion H. apply flat_level_bytes.
Qed.

Lemma padding_size n : ((n + padding n) / 4 = (n + 3) / 4)%nat.
Proof. unfold padding. destruct (Nat.eqb (n mod 4) 0) eqn:E; lia. Qed.

Lemma padding_unique n p : (p < 4)%nat -> ((n + p) mod 4 = 0)%nat -> p = padding n.
Proof. unfold padding. destruct (Nat.eqb (n mod 4) 0) eqn:E; lia. Qed.

Definition report_decode (binary : bool) (b : bytes) : res report :=
  if binary then Ok (RBinary (binary_decode b))
  else rbind (level_decode b) (fun l => Ok (RLevel l)).
Definition is_binary (r : report) : bool := match r with RBinary _ => true | RLevel _ => false end.

Lemma report_roundtrip r r' : valid_report r -> report_received r r' ->
  exists b, report_encode r = Ok b /\ is_bytes b /\ length b = report_size r
    /\ report_decode (is_binary r) b = Ok r'.
Proof.
  intros Hv Hr. destruct Hr as [states pad P1 P2|levels]; cbn [report_encode is_binary report_decode].
  - destruct (binary_roundtrip states Hv) as [b [E [B [D L]]]]. exists b.
    split; [exact E|]. split; [exact B|]. split.
    + cbn [report_size]. assert (H := padding_size (length states)). lia.
    + rewrite D, (padding_unique _ _ P1 P2). reflexivity.
  - destruct (level_roundtrip levels) as [b [E [B [L D]]]]. exists b.
    split; [exact E|]. split; [exact B|]. split; [exact L|]. rewrite D. reflexivity.
Qed.

Lemma report_received_total r : exists r', report_received r r'.
Proof.
  destruct r as [s|l]; [|eexists; constructor].
  destruct (padding_spec (length s)) as [P1 [P2 _]].
  eexists. eapply rr_binary; eassumption.
Qed.
Lemma report_received_fun r a b : report_received r a -> report_received r b -> a = b.
Proof.
  intros Ha Hb. destruct Ha as [s p P1 P2|l].
  - inversion Hb as [s' p' Q1 Q2|]; subst.
    now rewrite (padding_unique _ _ P1 P2), (padding_unique _ _ Q1 Q2).
  - now inversion Hb.
Qed.
Lemma cal_received_total c : exists c', cal_received c c'.
Proof.
  destruct c as [a|p n|p d|e ch bl r]; try (eexists; constructor; fail).
  destruct (report_received_total r) as [r' H]. eexists. constructor. exact H.
Qed.
Lemma cal_received_fun c a b : cal_received c a -> cal_received c b -> a = b.
Proof.
  intros Ha Hb. destruct Ha; inversion Hb; subst; try reflexivity.
  f_equal. eapply report_received_fun; eassumption.
Qed.

Definition cmd_sweep (base : Z) (n : Z) : bool :=
  (Z.land (Z.lor base n) 0xE0 =? base) && (Z.land (Z.lor base n) 0x1F =? n)
  && (0 <=? Z.lor base n) && (Z.lor base n <=? 255).
Lemma cmd_bits base n : In base [CAL_REPLY; CAL_STANDARD_STATUS; CAL_EXTENDED_STATUS] ->
  0 <= n < 32 ->
  byte (Z.lor base n) /\ Z.land (Z.lor base n) 0xE0 = base /\ Z.land (Z.lor base n) 0x1F = n.
Proof.
  intros Hb Hn.
  assert (S : forallb (fun base => forallb (cmd_sweep base) (upto 32))
     [CAL_REPLY; CAL_STANDARD_STATUS; CAL_EXTENDED_STATUS] = true) by (vm_compute; reflexivity).
  rewrite forallb_forall in S. specialize (S base Hb).
  apply (sweep 32) with (z := n) in S; [|lia]. unfold cmd_sweep in S. bool_hyps.
  unfold byte. lia.
Qed.

Lemma slice_body {A} (c : A) (body rest : list A) :
  py_slice 1 (S (length body)) (c :: body ++ rest) = body.
Proof.
  unfold py_slice. cbn [skipn]. rewrite Nat.sub_succ, Nat.sub_0_r. apply firstn_app_length.
Qed.

Lemma decode_reply_cmd n p data rest : 0 <= n < 32 -> length data = (Z.to_nat n - 1)%nat ->
  1 <= n ->
  decode_cal (Z.lor CAL_REPLY n :: p :: data ++ rest) = Ok (CReply p data, S (S (length data))).
Proof.
  intros Hn Hl H1. destruct (cmd_bits CAL_REPLY n) as [_ [E1 E2]]; [cbn; auto|exact Hn|].
  unfold decode_cal. cbn [py_index nth_error rbind]. rewrite E1, E2, Z.eqb_refl.
  replace (Z.to_nat n + 1)%nat with (S (length (p :: data))) by (cbn [length]; lia).
  replace (Nat.ltb _ _) with false by (cbn [length]; rewrite app_length; lia).
  change (p :: data ++ rest) with ((p :: data) ++ rest). rewrite slice_body. reflexivity.
Qed.

Lemma coding_byte_facts ext r : byte (coding_byte ext r)
  /\ (0 <? Z.land (coding_byte ext r) 0x40) = ext
  /\ Z.land (coding_byte ext r) 0x7 = report_block_type r.
Proof. unfold byte. destruct ext, r; cbn; repeat split; lia. Qed.

Lemma decode_extended_cmd ext child block r b r' rest :
  is_bytes b -> (length b <= 28)%nat ->
  report_decode (is_binary r) b = Ok r' ->
  decode_cal (Z.lor CAL_EXTENDED_STATUS (Z.of_nat (length b) + 3)
              :: coding_byte ext r :: child :: block :: b ++ rest)
  = Ok (CExtended ext child block r', (4 + length b)%nat).
Proof.
  intros Hb Hl D.
  destruct (cmd_bits CAL_EXTENDED_STATUS (Z.of_nat (length b) + 3)) as [_ [E1 E2]]; [cbn; auto|lia|].
  unfold decode_cal. cbn [py_index nth_error rbind]. rewrite E1, E2.
  cbn [Z.eqb Pos.eqb CAL_EXTENDED_STATUS CAL_REPLY CAL_STANDARD_STATUS].
  replace (Z.to_nat (Z.of_nat (length b) + 3) + 1)%nat
    with (S (length (coding_byte ext r :: child :: block :: b))) by (cbn [length]; lia).
  replace (Nat.ltb _ _) with false by (cbn [length]; rewrite app_length; lia).
  change (coding_byte ext r :: child :: block :: b ++ rest)
    with ((coding_byte ext r :: child :: block :: b) ++ rest). rewrite slice_body.
  unfold extended_decode. cbn [py_index nth_error rbind skipn].
  destruct (coding_byte_facts ext r) as [_ [-> ->]].
  destruct r; cbn [is_binary report_decode] in D;
    cbn [report_block_type EXT_BINARY EXT_LEVEL Z.eqb Pos.eqb].
  - inversion D. reflexivity.
  - destruct (level_decode b); cbn [rbind] in *; inversion D. reflexivity.
Qed.

Lemma cal_step c c' : valid_cal c -> cal_received c c' ->
  exists b, cal_encode c = Ok b /\ is_bytes b /\ b <> []
    /\ forall rest, decode_cal (b ++ rest) = Ok (c', length b).
Proof.
  intros Hv Hr. destruct Hr as [a|p n|p d|ext child block r r' Hr]; cbn [valid_cal] in Hv.
  - assert (B : is_bytes [CAL_IDENTIFY; Z.land a 255]).
    { byte_list; [unfold byte, CAL_IDENTIFY; lia|apply byte_land]. }
    exists [CAL_IDENTIFY; Z.land a 255]. split; [apply mk_bytes_ok, B|].
    split; [exact B|]. split; [discriminate|]. intros rest.
    rewrite land_255, Z.mod_small by lia. cbn -[identify_attribute].
    unfold identify_attribute. replace (_ && _) with true by lia. reflexivity.
  - assert (B : is_bytes [CAL_RECALL; Z.land p 255; Z.land n 255]).
    { byte_list; [unfold byte, CAL_RECALL; lia|apply byte_land..]. }
    exists [CAL_RECALL; Z.land p 255; Z.land n 255]. split; [apply mk_bytes_ok, B|].
    split; [exact B|]. split; [discriminate|]. intros rest.
    rewrite !land_255. cbn -[Z.modulo]. reflexivity.
  - assert (L := firstn_le_length 30 d). cbn [cal_encode]. set (dd := firstn 30 d) in *.
    destruct (cmd_bits CAL_REPLY (Z.of_nat (length dd) + 1)) as [E0 _]; [cbn; auto|lia|].
    assert (B : is_bytes [Z.lor CAL_REPLY (Z.of_nat (length dd) + 1); Z.land p 255]).
    { byte_list; [exact E0|apply byte_land]. }
    rewrite mk_bytes_ok by exact B. cbn [rbind].
    eexists. split; [reflexivity|]. split.
    { apply is_bytes_app. split; [exact B|]. apply is_bytes_firstn, Hv. }
    split; [discriminate|]. intros rest. cbn [app length].
    rewrite decode_reply_cmd by lia. rewrite land_255. reflexivity.
  - destruct Hv as [Hv Hs]. destruct (report_roundtrip r r' Hv Hr) as [b [E [B [L D]]]].
    cbn [cal_encode]. rewrite E. cbn [rbind].
    destruct (cmd_bits CAL_EXTENDED_STATUS (Z.of_nat (length b) + 3)) as [E0 _]; [cbn; auto|lia|].
    assert (Bh : is_bytes [Z.lor CAL_EXTENDED_STATUS (Z.of_nat (length b) + 3);
        coding_byte ext r; Z.land child 255; Z.land block 255]).
    { byte_list; [exact E0|apply coding_byte_facts|apply byte_land..]. }
    rewrite mk_bytes_ok by exact Bh. cbn [rbind].
    eexists. split; [reflexivity|]. split; [apply is_bytes_app; auto|].
    split; [discriminate|]. intros rest. cbn [app length].
    rewrite decode_extended_cmd with (r' := r') by (auto; lia). rewrite !land_255. reflexivity.
Qed.

(** ** CAL sequences *)

Lemma decode_cal_pos data c n : decode_cal data = Ok (c, n) -> (1 <= n)%nat.
Proof.
  unfold decode_cal. destruct data as [|cmd data]; [discriminate|].
  cbn [py_index nth_error rbind].
  destruct (Z.land cmd 0xE0 =? CAL_REPLY).
  { destruct (Nat.ltb _ _); [discriminate|]. destruct (reply_decode _); [|discriminate].
    cbn [rbind]. intros H. inversion H. lia. }
  destruct (Z.land cmd 0xE0 =? CAL_STANDARD_STATUS); [discriminate|].
  destruct (Z.land cmd 0xE0 =? CAL_EXTENDED_STATUS).
  { destruct (Nat.ltb _ _); [discriminate|]. destruct (extended_decode _); [|discriminate].
    cbn [rbind]. intros H. inversion H. lia. }
  destruct (cmd =? CAL_IDENTIFY).
  { destruct (py_index _ 1) as [a|]; [|discriminate]. cbn [rbind].
    destruct (identify_attribute a); [|discriminate]. cbn [rbind].
    intros H. inversion H. lia. }
  destruct (cmd =? CAL_RECALL); [|discriminate].
  destruct (py_index _ 1) as [a|]; [|discriminate]. cbn [rbind].
  destruct (py_index _ 2) as [b|]; [|discriminate]. cbn [rbind].
  intros H. inversion H. lia.
Qed.

Lemma decode_cals_fuel_eq data : forall f, (length data <= f)%nat ->
  decode_cals_fuel f data = decode_cals data.
Proof.
  unfold decode_cals. remember (length data) as n eqn:E. revert data E.
  induction n as [n IH] using (well_founded_induction Wf_nat.lt_wf). intros data -> f Hf.
  destruct data as [|x data]; [destruct f; reflexivity|].
  cbn [length] in *. destruct f as [|f]; [lia|]. cbn [decode_cals_fuel].
  destruct (decode_cal (x :: data)) as [[c k]|] eqn:D; [|reflexivity]. cbn [rbind].
  apply decode_cal_pos in D.
  assert (L : (length (skipn k (x :: data)) <= length data)%nat).
  { rewrite skipn_length. cbn [length]. lia. }
  rewrite (IH (length (skipn k (x :: data)))) with (f := f) by lia.
  rewrite (IH (length (skipn k (x :: data)))) with (f := length data) by lia. reflexivity.
Qed.

Lemma decode_cals_cons x data : decode_cals (x :: data)
  = rbind (decode_cal (x :: data)) (fun '(c, cal_len) =>
    rbind (decode_cals (skipn cal_len (x :: data))) (fun l => Ok (c :: l))).
Proof.
  unfold decode_cals at 1. cbn [length decode_cals_fuel].
  destruct (decode_cal (x :: data)) as [[c k]|] eqn:D; [|reflexivity]. cbn [rbind].
  apply decode_cal_pos in D. rewrite decode_cals_fuel_eq; [reflexivity|].
  rewrite skipn_length. cbn [length]. lia.
Qed.

Lemma decode_cals_no_fuel data : decode_cals data <> Raise OutOfFuel.
Proof.
  remember (length data) as n eqn:E. revert data E.
  induction n as [n IH] using (well_founded_induction Wf_nat.lt_wf). intros data ->.
  destruct data as [|x data]; [discriminate|]. rewrite decode_cals_cons.
  destruct (decode_cal (x :: data)) as [[c k]|e] eqn:D; cbn [rbind].
  - apply decode_cal_pos in D.
    assert (L : (length (skipn k (x :: data)) < length (x :: data))%nat).
    { rewrite skipn_length. cbn [length]. lia. }
    specialize (IH _ L _ eq_refl).
    destruct (decode_cals (skipn k (x :: data))); cbn [rbind]; congruence.
  - intros H. assert (e = OutOfFuel) by congruence. subst. revert D.
    unfold decode_cal. cbn [py_index nth_error rbind].
    assert (PI : forall (A : Type) (l : list A) i, py_index l i <> Raise OutOfFuel).
    { intros A l i. unfold py_index. destruct (nth_error l i); discriminate. }
    destruct (_ =? CAL_REPLY).
    { destruct (Nat.ltb _ _); [discriminate|]. unfold reply_decode.
      destruct (py_index _ 0) eqn:P; cbn [rbind]; [discriminate|]. congruence. }
    destruct (_ =? CAL_STANDARD_STATUS); [discriminate|].
    destruct (_ =? CAL_EXTENDED_STATUS).
    { destruct (Nat.ltb _ _); [discriminate|]. unfold extended_decode.
      destruct (py_index _ 0) eqn:P0; cbn [rbind]; [|congruence].
      destruct (py_index _ 1) eqn:P1; cbn [rbind]; [|congruence].
      destruct (py_index _ 2) eqn:P2; cbn [rbind]; [|congruence].
      destruct (_ =? EXT_BINARY); [discriminate|]. destruct (_ =? EXT_LEVEL); [|discriminate].
      match goal with |- context [level_decode ?d] => set (dd := d) end.
      destruct (Nat.eqb (length dd mod 2) 0) eqn:Par.
      - destruct (level_decode_even dd ltac:(lia)) as [l [-> _]]. discriminate.
      - rewrite level_decode_odd by lia. discriminate. }
    destruct (x =? CAL_IDENTIFY).
    { destruct (py_index _ 1) as [a|] eqn:P; cbn [rbind]; [|congruence].
      unfold identify_attribute. destruct (_ && _); discriminate. }
    destruct (x =? CAL_RECALL); [|discriminate].
    destruct (py_index _ 1) eqn:P1; cbn [rbind]; [|congruence].
    destruct (py_index _ 2) eqn:P2; cbn [rbind]; [discriminate|congruence].
Qed.

Lemma cals_step c c' : valid_cal c -> cal_received c c' ->
  exists b, cal_encode c = Ok b /\ is_bytes b
    /\ forall rest, decode_cals (b ++ rest)
         = rbind (decode_cals rest) (fun l => Ok (c' :: l)).
Proof.
  intros Hv Hr. destruct (cal_step c c' Hv Hr) as [b [E [B [N D]]]].
  exists b. split; [exact E|]. split; [exact B|]. intros rest.
  destruct b as [|x b]; [congruence|]. cbn [app]. rewrite decode_cals_cons.
  change (x :: b ++ rest) with ((x :: b) ++ rest). rewrite D. cbn [rbind].
  now rewrite skipn_app_length.
Qed.

Lemma cals_roundtrip cals cals' : Forall valid_cal cals -> Forall2 cal_received cals cals' ->
  exists b, concat_res cal_encode cals = Ok b /\ is_bytes b /\ decode_cals b = Ok cals'.
Proof.
  intros Hv Hr. induction Hr as [|c c' l l' Hc Hl IH].
  - exists []. repeat split; constructor.
  - inversion Hv as [|? ? Hvc Hvl]; subst. destruct (IH Hvl) as [b [E [B D]]].
    destruct (cals_step c c' Hvc Hc) as [a [Ea [Ba Da]]].
    exists (a ++ b). cbn [concat_res]. rewrite Ea, E. cbn [rbind].
    split; [reflexivity|]. split; [apply is_bytes_app; auto|]. rewrite Da, D. reflexivity.
Qed.

Lemma cals_received_total cals :
  exists cals', Forall2 cal_received cals cals'
    /\ forall other, Forall2 cal_received cals other -> other = cals'.
Proof.
  induction cals as [|c l [l' [H U]]].
  - exists []. split; [constructor|]. intros o Ho. now inversion Ho.
  - destruct (cal_received_total c) as [c' Hc]. exists (c' :: l'). split; [constructor; auto|].
    intros o Ho. inversion Ho; subst. f_equal; [eapply cal_received_fun; eassumption|auto].
Qed.

(** ** Lengths *)

Lemma lor_ge a n : 0 <= a -> 0 <= n -> n <= Z.lor a n.
Proof.
  intros Ha Hn.
  assert (E : Z.ldiff (Z.lor a n) n = Z.lor a n - n).
  { apply eq_sym, Z.sub_nocarry_ldiff. apply Z.bits_inj'. intros k _.
    rewrite Z.ldiff_spec, Z.lor_spec, Z.bits_0.
    destruct (Z.testbit n k); destruct (Z.testbit a k); reflexivity. }
  assert (0 <= Z.ldiff (Z.lor a n) n); [|lia].
  apply Z.ldiff_nonneg. left. apply Z.lor_nonneg. auto.
Qed.
Lemma lor_byte a n : byte a -> 0 <= n -> (byte (Z.lor a n) <-> byte n).
Proof.
  unfold byte. intros Ha Hn. split.
  - intros H. assert (L := lor_ge a n). lia.
  - intros H. assert (S : forallb (fun a => forallb (fun n =>
       (0 <=? Z.lor a n) && (Z.lor a n <=? 255)) (upto 256)) (upto 256) = true)
      by (vm_compute; reflexivity).
    assert (S1 := byte_sweep2 _ S a n Ha H). cbv beta in S1. lia.
Qed.

Lemma report_encode_ok r : valid_report r ->
  exists b, report_encode r = Ok b /\ is_bytes b /\ length b = report_size r.
Proof.
  intros H. destruct (report_received_total r) as [r' Hr].
  destruct (report_roundtrip r r' H Hr) as [b [E [B [L _]]]]. eauto.
Qed.

Lemma extended_length ext child block r : valid_report r ->
  ((report_size r > 252)%nat /\ cal_encode (CExtended ext child block r) = Raise ValueError)
  \/ exists first following,
       cal_encode (CExtended ext child block r) = Ok (first :: following)
       /\ length following = (report_size r + 3)%nat /\ (report_size r <= 252)%nat
       /\ first = 0xE0 + Z.of_nat (length following) mod 32.
Proof.
  intros Hv. destruct (report_encode_ok r Hv) as [rep [E [B L]]].
  cbn [cal_encode]. rewrite E. cbn [rbind]. rewrite L.
  set (n := Z.of_nat (report_size r) + 3).
  destruct (Nat.leb (report_size r) 252) eqn:Hn.
  - right. assert (Bn : byte n) by (unfold byte; lia).
    rewrite mk_bytes_ok.
    + cbn [rbind app]. eexists _, _. split; [reflexivity|]. cbn [length]. rewrite L.
      split; [lia|]. split; [lia|].
      assert (S : forallb (fun n => Z.lor CAL_EXTENDED_STATUS n =? 0xE0 + n mod 32) (upto 256) = true)
        by (vm_compute; reflexivity).
      assert (S1 := byte_sweep _ S n Bn). cbv beta in S1. lia.
    + byte_list; [apply lor_byte; [unfold byte, CAL_EXTENDED_STATUS; lia|lia|exact Bn]
                 |apply coding_byte_facts|apply byte_land..].
  - left. split; [lia|]. destruct (mk_bytes _) as [h|e] eqn:M.
    + apply mk_bytes_inv in M. destruct M as [_ M]. apply is_bytes_cons in M. destruct M as [M _].
      apply lor_byte in M; [unfold byte in M; lia|unfold byte, CAL_EXTENDED_STATUS; lia|lia].
    + cbn [rbind]. unfold mk_bytes in M. destruct (forallb _ _); inversion M. reflexivity.
Qed.

Lemma reply_length p data : exists following,
  cal_encode (CReply p data) = Ok ((0x80 + Z.of_nat (length following)) :: following)
  /\ length following = S (Nat.min 30 (length data)).
Proof.
  cbn [cal_encode]. rewrite firstn_length.
  set (n := Z.of_nat (Nat.min 30 (length data)) + 1).
  destruct (cmd_bits CAL_REPLY n) as [E0 _]; [cbn; auto|lia|].
  rewrite mk_bytes_ok by (byte_list; [exact E0|apply byte_land]).
  cbn [rbind app]. exists (Z.land p 255 :: firstn 30 data).
  split; [|cbn [length]; now rewrite firstn_length].
  f_equal. f_equal. cbn [length]. rewrite firstn_length.
  assert (S : forallb (fun n => Z.lor CAL_REPLY n =? 0x80 + n) (upto 32) = true)
    by (vm_compute; reflexivity).
  apply (sweep 32) with (z := n) in S; [|lia]. cbv beta in S. apply Z.eqb_eq in S. rewrite S. lia.
Qed.

Lemma standard_length child block states : Forall group_state states ->
  let size := report_size (RBinary states) in
  ((size > 252)%nat /\ std_cal_encode child block states = Raise ValueError)
  \/ exists first following,
       std_cal_encode child block states = Ok (first :: following)
       /\ length following = (size + 2)%nat /\ (size <= 252)%nat
       /\ first = Z.lor 0xC0 (Z.of_nat (length following) + 1).
Proof.
  intros Hv size. destruct (report_encode_ok (RBinary states) Hv) as [rep [E [B L]]].
  fold size in L. cbn [report_encode] in E. unfold std_cal_encode. rewrite E. cbn [rbind]. rewrite L.
  set (n := Z.of_nat size + 3).
  destruct (Nat.leb size 252) eqn:Hn.
  - right. assert (Bn : byte n) by (unfold byte; lia).
    rewrite mk_bytes_ok.
    + cbn [rbind app]. eexists _, _. split; [reflexivity|]. cbn [length]. rewrite L.
      split; [lia|]. split; [lia|]. unfold CAL_STANDARD_STATUS. f_equal. lia.
    + byte_list; [apply lor_byte; [unfold byte, CAL_STANDARD_STATUS; lia|lia|exact Bn]
                 |apply byte_land..].
  - left. split; [lia|]. destruct (mk_bytes _) as [h|e] eqn:M.
    + apply mk_bytes_inv in M. destruct M as [_ M]. apply is_bytes_cons in M. destruct M as [M _].
      apply lor_byte in M; [unfold byte in M; lia|unfold byte, CAL_STANDARD_STATUS; lia|lia].
    + cbn [rbind]. unfold mk_bytes in M. destruct (forallb _ _); inversion M. reflexivity.
Qed.

Lemma standard_command_bits n : 0 <= n <= 255 ->
  (n <= 31 -> Z.lor 0xC0 n = 0xC0 + n)
  /\ (32 <= n <= 63 -> Z.lor 0xC0 n = 0xE0 + (n - 32)).
Proof.
  intros H.
  assert (S : forallb (fun n => (implb (n <=? 31) (Z.lor 0xC0 n =? 0xC0 + n))
     && (implb ((32 <=? n) && (n <=? 63)) (Z.lor 0xC0 n =? 0xE0 + (n - 32)))) (upto 256) = true)
    by (vm_compute; reflexivity).
  assert (S1 := byte_sweep _ S n H). cbv beta in S1. lia.
Qed.

Lemma standard_length_exact child block states : Forall group_state states ->
  let size := report_size (RBinary states) in
  ((size > 252)%nat /\ std_cal_encode child block states = Raise ValueError)
  \/ exists first following,
       std_cal_encode child block states = Ok (first :: following)
       /\ length following = (size + 2)%nat /\ (size <= 252)%nat
       /\ ((size <= 28)%nat -> first = 0xC0 + (Z.of_nat (length following) + 1))
       /\ ((29 <= size <= 60)%nat -> first = 0xE0 + (Z.of_nat (length following) + 1 - 32)).
Proof.
  intros H size. destruct (standard_length child block states H) as [L|[f [fo [E [L [Hs F]]]]]];
    [now left|right]. fold size in L, Hs. exists f, fo. split; [exact E|]. split; [exact L|].
  split; [exact Hs|]. destruct (standard_command_bits (Z.of_nat (length fo) + 1)) as [F1 F2]; [lia|].
  rewrite F. split; intros; [apply F1|apply F2]; lia.
Qed.

Lemma manchester_encode_none v : byte v ->
  manchester_encode (Some v) None 0 = Ok [manchester_lo v; manchester_hi v].
Proof.
  intros Hv. assert (E := manchester_encode_at v [] 0 0 []). cbn [app length] in E.
  rewrite mod_of_byte in E by exact Hv. exact E.
Qed.

Lemma manchester_flip_detected v : byte v ->
  exists b0 b1, manchester_encode (Some v) None 0 = Ok [b0; b1]
    /\ manchester_decode [b0; b1] = Ok (Some v)
    /\ forall k, 0 <= k <= 7 ->
       manchester_decode [Z.lxor b0 (2 ^ k); b1] = Ok None
       /\ manchester_decode [b0; Z.lxor b1 (2 ^ k)] = Ok None.
Proof.
  intros Hv. exists (manchester_lo v), (manchester_hi v).
  split; [apply manchester_encode_none, Hv|]. destruct (lo_hi_spec v Hv) as [B0 [B1 L]].
  split; [rewrite manchester_decode2, decode2_level, L by assumption; reflexivity|].
  intros k Hk. now apply manchester_bit_flip.
Qed.

Lemma manchester_in_place v before x y after :
  exists b0 b1, manchester (v mod 256) b0 b1
    /\ manchester_encode (Some v) (Some (before ++ x :: y :: after)) (length before)
       = Ok (before ++ b0 :: b1 :: after)
    /\ manchester_encode None (Some (before ++ x :: y :: after)) (length before)
       = Ok (before ++ x :: y :: after).
Proof.
  destruct (lo_hi_spec (v mod 256) (byte_mod v)) as [B0 [B1 L]].
  apply level_of_spec in L; [|assumption..].
  eexists _, _. split; [exact L|]. split; [apply manchester_encode_at|].
  unfold manchester_encode. rewrite app_length. cbn [length].
  replace (Nat.ltb _ _) with false by lia. reflexivity.
Qed.

Lemma manchester_encode_short v buf off : (length buf < off + 2)%nat ->
  manchester_encode v (Some buf) off = Raise IndexError.
Proof. intros H. unfold manchester_encode. now replace (Nat.ltb _ _) with true by lia. Qed.

Lemma cal_received_same c :
  match c with
  | CIdentify a => 0 <= a <= 17
  | CRecall p n => byte p /\ byte n
  | CReply p data => byte p /\ is_bytes data /\ (length data <= 30)%nat
  | CExtended _ child block (RBinary states) =>
      byte child /\ byte block /\ Forall group_state states /\ (length states mod 4 = 0)%nat
  | CExtended _ child block (RLevel levels) =>
      byte child /\ byte block /\ Forall (fun l => match l with Some v => byte v | None => True end) levels
  end -> cal_received c c.
Proof.
  destruct c as [a|p n|p d|e ch bl [s|l]].
  - constructor.
  - intros [H1 H2]. assert (C := cr_recall p n). now rewrite !mod_of_byte in C by assumption.
  - intros [H1 [H2 H3]]. assert (C := cr_reply p d).
    now rewrite mod_of_byte, firstn_all2 in C by assumption.
  - intros [H1 [H2 [H3 H4]]].
    assert (R := rr_binary s 0 ltac:(lia) ltac:(rewrite Nat.add_0_r; exact H4)).
    cbn [repeat] in R. rewrite app_nil_r in R. apply (cr_extended e ch bl) in R.
    now rewrite !mod_of_byte in R by assumption.
  - intros [H1 [H2 H3]]. assert (R := cr_extended e ch bl _ _ (rr_level l)).
    rewrite !mod_of_byte in R by assumption.
    replace (map (option_map (fun v => v mod 256)) l) with l in R; [exact R|].
    clear R. induction H3 as [|o l Ho Hl IH]; [reflexivity|]. cbn [map]. f_equal.
    + destruct o as [v|]; [|reflexivity]. cbn. now rewrite mod_of_byte.
    + exact IH.
Qed.
