(** Facts about the text written by dump_labels. *)
From Coq Require Import String List ZArith QArith Bool Lia ZifyBool ZifyNat.
From Verif Require Import Py Common Text Project Mqtt Client Cmqttd Cbz Toolkit Json Tools Base Spec Spec_client Spec_mqtt
  Spec_json Spec_cbz Spec_toolkit Spec_tools Mqtt_facts Json_facts Utf_facts Cbz_facts Prop_mqtt Prop_discovery Prop_cbz Prop_toolkit
  Prop_json.
Import ListNotations.
Open Scope Z_scope.
Notation length := List.length.

(** ** The text stands for the value *)

Lemma new_line_spaces n level : spaces (new_line n level).
Proof.
  unfold new_line. apply Forall_cons; [right; right; left; reflexivity|]. apply Forall_forall. intros c I. apply repeat_spec in I.
  left. exact I.
Qed.
Lemma array_separated lib d w w' f l : spaces w -> spaces w' -> l <> [] ->
  (forall v, In v l -> denotes lib d (f v) v) ->
  array_body lib d (w ++ separated (44 :: w) (map f l) ++ w') l.
Proof.
  intros W W'. induction l as [|v l IH]; intros N F; [contradiction|]. destruct l as [|u l].
  - cbn [map separated]. constructor; [exact W|apply F; left; reflexivity|exact W'].
  - change (separated (44 :: w) (map f (v :: u :: l))) with (f v ++ (44 :: w) ++ separated (44 :: w) (map f (u :: l))).
    replace (w ++ (f v ++ (44 :: w) ++ separated (44 :: w) (map f (u :: l))) ++ w')
      with (w ++ f v ++ [] ++ [44] ++ (w ++ separated (44 :: w) (map f (u :: l)) ++ w'))
      by (rewrite <- !app_assoc; reflexivity).
    constructor; [exact W|apply F; left; reflexivity|apply spaces_nil|].
    apply IH; [discriminate|]. intros. apply F. right. assumption.
Qed.
Lemma object_separated lib d w w' (f : json -> text) l : spaces w -> spaces w' -> l <> [] ->
  (forall k v, In (k, v) l -> whole k /\ denotes lib d (f v) v) ->
  object_body lib d (w ++ separated (44 :: w) (map (fun p => match p with (k, v) => quote k ++ [58; 32] ++ f v end) l) ++ w') l.
Proof.
  intros W W'. set (g := fun p : text * json => match p with (k, v) => quote k ++ [58; 32] ++ f v end).
  assert (S32 : spaces [32]) by (repeat constructor).
  induction l as [|[k v] l IH]; intros N F; [contradiction|]. destruct (F k v (or_introl eq_refl)) as (K & D).
  destruct l as [|u l].
  - cbn [map separated]. unfold g, quote.
    replace (w ++ (([34] ++ flat_map escape_char k ++ [34]) ++ [58; 32] ++ f v) ++ w')
      with (w ++ [34] ++ flat_map escape_char k ++ [34] ++ [] ++ [58] ++ [32] ++ f v ++ w')
      by (rewrite <- !app_assoc; reflexivity).
    apply o_one; auto using spaces_nil, quote_characters.
  - change (separated (44 :: w) (map g ((k, v) :: u :: l)))
      with (g (k, v) ++ (44 :: w) ++ separated (44 :: w) (map g (u :: l))).
    set (more := separated (44 :: w) (map g (u :: l))) in *. unfold g at 1, quote.
    replace (w ++ ((([34] ++ flat_map escape_char k ++ [34]) ++ [58; 32] ++ f v) ++ (44 :: w) ++ more) ++ w')
      with (w ++ [34] ++ flat_map escape_char k ++ [34] ++ [] ++ [58] ++ [32] ++ f v ++ [] ++ [44] ++ (w ++ more ++ w'))
      by (rewrite <- !app_assoc; reflexivity).
    apply o_more; auto using spaces_nil, quote_characters. apply IH; [discriminate|]. intros. apply F. right. assumption.
Qed.
Lemma indent_denotes lib n d j : publishable d j -> forall level, denotes lib d (dumps_indent lib n level j) j.
Proof.
  induction 1 as [d|d b|d x|d s W|d l _ IH|d l N W _ IH]; intros level.
  - constructor.
  - destruct b; constructor.
  - constructor. apply py_str_integer.
  - constructor. apply quote_characters, W.
  - cbn [dumps_indent]. destruct l as [|v l].
    { change ([91] ++ indented n level (map (dumps_indent lib n (S level)) []) ++ [93]) with ([91] ++ [] ++ [93]).
      constructor. apply spaces_nil. }
    apply j_arr. apply array_separated; [apply new_line_spaces|apply new_line_spaces|discriminate|].
    intros u I. apply IH, I.
  - cbn [dumps_indent]. destruct l as [|e l].
    { match goal with |- denotes _ _ ?t _ => change t with ([123] ++ [] ++ [125]) end. constructor. apply spaces_nil. }
    rewrite <- (dict_of_new (e :: l) N) at 2. apply j_obj.
    apply object_separated; [apply new_line_spaces|apply new_line_spaces|discriminate|].
    intros k v I. split; [apply W; exact (in_map fst _ _ I)|apply (IH k v I)].
Qed.
(** Printable characters and new lines. *)
Definition visible (s : text) : Prop := Forall (fun c => c = 10 \/ 32 <= c <= 126) s.
Lemma visible_app s t : visible s -> visible t -> visible (s ++ t).
Proof. intros. apply Forall_app. auto. Qed.
Lemma printable_visible s : printable s -> visible s.
Proof. apply Forall_impl. auto. Qed.
Lemma new_line_visible n level : visible (new_line n level).
Proof.
  apply Forall_cons; [left; reflexivity|]. apply Forall_forall. intros c I. apply repeat_spec in I. lia.
Qed.
Lemma separated_visible sep l : visible sep -> Forall visible l -> visible (separated sep l).
Proof.
  intros S. induction 1 as [|t l T F IH]; [constructor|]. destruct l as [|u l]; [exact T|].
  change (visible (t ++ sep ++ separated sep (u :: l))). repeat apply visible_app; assumption.
Qed.
Lemma indented_visible n level l : Forall visible l -> visible (indented n level l).
Proof.
  intros F. unfold indented. destruct l as [|t l]; [constructor|].
  repeat apply visible_app; try apply new_line_visible. apply separated_visible; [|exact F].
  apply Forall_cons; [lia|apply new_line_visible].
Qed.
Lemma indent_visible lib n d j : publishable d j -> forall level, visible (dumps_indent lib n level j).
Proof.
  assert (K : forall a t b, 32 <= a <= 126 -> 32 <= b <= 126 -> visible t -> visible ([a] ++ t ++ [b])).
  { intros. apply visible_app; [repeat constructor; lia|]. apply visible_app; [assumption|repeat constructor; lia]. }
  induction 1 as [d|d b|d x|d s W|d l _ IH|d l N W _ IH]; intros level.
  - apply printable_visible, printable_test. reflexivity.
  - destruct b; apply printable_visible, printable_test; reflexivity.
  - apply printable_visible, decimal_printable.
  - apply printable_visible, quote_printable.
  - apply K; [lia|lia|]. apply indented_visible. apply Forall_map, Forall_forall. intros v I. apply IH, I.
  - apply K; [lia|lia|]. apply indented_visible. apply Forall_map, Forall_forall. intros [k v] I.
    apply visible_app; [apply printable_visible, quote_printable|].
    apply visible_app; [repeat (apply Forall_cons; [lia|]); constructor|apply (IH k v I)].
Qed.
Lemma text_denotes lib p d j : publishable d j -> denotes lib d (dump_text lib p j) j.
Proof.
  intros P. unfold dump_text. destruct p as [n|]; [destruct (n =? 0)|]; [apply dumps_denotes| |apply dumps_denotes]; try exact P.
  now apply indent_denotes.
Qed.
Lemma text_visible lib p d j : publishable d j -> visible (dump_text lib p j).
Proof.
  intros P. unfold dump_text. destruct p as [n|]; [destruct (n =? 0)|].
  - apply printable_visible. now apply (dumps_printable lib d).
  - now apply (indent_visible lib _ d).
  - apply printable_visible. now apply (dumps_printable lib d).
Qed.
Lemma visible_narrow s : visible s -> narrow s.
Proof.
  intros Q. assert (R : forall c, In c s -> c = 10 \/ 32 <= c <= 126) by (apply Forall_forall; exact Q).
  split; [|split; [|split]].
  - unfold is_bytes. eapply Forall_impl; [|exact Q]. unfold byte. cbv beta. lia.
  - intros Z. specialize (R 0 Z). lia.
  - intros r E0. specialize (R 0xfe). rewrite E0 in R. specialize (R (or_introl eq_refl)). lia.
  - intros r E0. specialize (R 0xff). rewrite E0 in R. specialize (R (or_introl eq_refl)). lia.
Qed.
Lemma visible_bytes s : visible s -> is_bytes s.
Proof. intros V. apply visible_narrow, V. Qed.
Lemma visible_ascii s : visible s -> ascii s.
Proof. apply Forall_impl. intros. lia. Qed.
Lemma text_states lib d s j : visible s -> denotes lib d s j -> states lib d s j.
Proof.
  intros V D. exists InUtf8, s, s. split; [apply ascii_utf8, visible_ascii, V|]. split.
  - right. split; [|reflexivity]. destruct V; cbn; lia.
  - exists [], s, []. rewrite app_nil_r. repeat split; try apply spaces_nil. exact D.
Qed.
Lemma deeper n d j : publishable n j -> (n <= d)%nat -> publishable d j.
Proof.
  intros P. revert d. induction P as [d|d b|d n|d s W|d l _ IH|d l N W _ IH]; intros [|d'] L; try lia; try (constructor; assumption).
  - apply p_arr. intros v I. apply IH; [exact I|lia].
  - apply p_obj; [exact N|exact W|]. intros k v I. apply (IH k v I). lia.
Qed.

(** ** A cut-off text stands for nothing *)

Lemma integer_start t n : integer t n -> exists c t', t = c :: t' /\ (digit c \/ c = 45).
Proof.
  intros [t' m (N & F & _)|t' m _]; [|exists 45, t'; auto]. destruct t' as [|c t']; [contradiction|].
  apply Forall_cons_iff in F. exists c, t'. split; [reflexivity|]. left. apply F.
Qed.
(** An object is read up to its closing bracket, whatever follows. *)
Lemma object_read lib d u v r fuel : denotes lib d (123 :: u) v -> (2 * S (length u) + 1 <= fuel)%nat ->
  scan lib fuel d ((123 :: u) ++ r) = Got (v, r).
Proof.
  intros D G.
  assert (O : (exists d' w, d = S d' /\ u = w ++ [125] /\ spaces w /\ v = JObj [])
    \/ (exists d' b l, d = S d' /\ u = b ++ [125] /\ object_body lib d' b l /\ v = JObj (dict_of l))).
  { remember (123 :: u) as t eqn:T.
    destruct D as [d|d|d|d|d|d|d t n I|d t (i & n & f & e & I & -> & _)|d t s H|d w W|d t l B|d w W|d t l B]; try discriminate T.
    - exfalso. apply integer_start in I. destruct I as (c & t' & -> & C). inversion T; subst. unfold digit in C. lia.
    - exfalso. apply integer_start in I. destruct I as (c & t' & -> & C). inversion T; subst. unfold digit in C. lia.
    - left. exists d, w. inversion T. auto.
    - right. exists d, t, l. inversion T. auto. }
  clear D. destruct fuel as [|f]; [lia|]. cbn [app scan]. change (123 =? 34) with false. change (123 =? 123) with true.
  cbv iota. destruct O as [(d' & w & -> & -> & W & ->)|(d' & b & l & -> & -> & B & ->)].
  - cbv zeta. rewrite <- app_assoc. rewrite skip_complete; [|exact W|cbn; unfold space; lia]. reflexivity.
  - destruct (scan_complete lib) as (_ & _ & M).
    assert (Q : members lib f d' [] (skip_space ((b ++ [125]) ++ r)) = Got (JObj (dict_of l), r)).
    { rewrite <- app_assoc, <- adds_dict. apply M; [exact B|]. rewrite app_length in G. cbn in G. lia. }
    cbv zeta. clear M. destruct (skip_space ((b ++ [125]) ++ r)) as [|x s2] eqn:E.
    + destruct f; [lia|]. cbn [members] in Q. discriminate.
    + destruct (Z.eqb_spec x 125) as [->|]; [|exact Q]. destruct f; [lia|]. cbn [members] in Q. discriminate.
Qed.

Lemma denotes_nonempty lib d t v : denotes lib d t v -> t <> [].
Proof.
  intros [ | | | | | |d' t' n Q|d' t' (i & n & f & e & Q & -> & _)| | | | | ]; try discriminate.
  - apply integer_start in Q. destruct Q as (c & x & -> & _). discriminate.
  - apply integer_start in Q. destruct Q as (c & x & -> & _). discriminate.
Qed.
(** No proper beginning of an object is a document. *)
Lemma cut_off lib d u v p q v' : denotes lib d (123 :: u) v -> 123 :: u = p ++ q -> document lib d p v' -> q = [].
Proof.
  intros D E (w & t & w' & -> & W & W' & T).
  assert (w = []).
  { destruct w as [|c w]; [reflexivity|]. inversion E; subst. apply Forall_cons_iff in W. destruct W as [X _]. unfold space in X. lia. }
  subst w. destruct t as [|c t]; [exfalso; exact (denotes_nonempty lib d [] v' T eq_refl)|].
  assert (c = 123) by (inversion E; reflexivity). subst c.
  assert (L : (length t <= length u)%nat).
  { assert (X := f_equal (@List.length Z) E). rewrite !app_length in X. cbn in X. lia. }
  pose proof (object_read lib d u v [] (2 * S (length u) + 1) D (le_n _)) as A.
  pose proof (object_read lib d t v' (w' ++ q) (2 * S (length u) + 1) T ltac:(lia)) as B.
  replace ((123 :: t) ++ w' ++ q) with ((123 :: u) ++ []) in B by (rewrite app_nil_r, E, <- !app_assoc; reflexivity).
  rewrite A in B. inversion B as [[X Y]]. symmetry in Y. apply app_eq_nil in Y. apply Y.
Qed.
Lemma cut_states lib d s v p q v' : visible s -> denotes lib d s v -> (exists u, s = 123 :: u) -> s = p ++ q ->
  states lib d p v' -> q = [].
Proof.
  intros V D (u & ->) E (e & x & x' & U & M & Q).
  assert (Vp : visible p) by (rewrite E in V; apply Forall_app in V; apply V).
  rewrite (narrow_encoded _ _ _ _ _ _ _ (visible_narrow _ Vp) U M Q) in U. cbn [encoded] in U.
  assert (x = p).
  { pose proof (utf8_decodes p x) as (_ & X1). { unfold is_bytes. eapply Forall_impl; [|exact Vp]. unfold byte. cbv beta. lia. }
    pose proof (utf8_decodes p p) as (_ & X2). { unfold is_bytes. eapply Forall_impl; [|exact Vp]. unfold byte. cbv beta. lia. }
    specialize (X1 U). specialize (X2 (ascii_utf8 p (visible_ascii p Vp))). congruence. }
  subst x. assert (x' = p).
  { destruct M as [M|[_ M]]; [|exact M]. exfalso. rewrite M in Vp. apply Forall_cons_iff in Vp. destruct Vp as [X _]. lia. }
  subst x'. exact (cut_off lib d u v p q v' D E Q).
Qed.

(** ** Too deep *)

Lemma skip_ends r y q e : skip_space r = y :: q -> y = 93 \/ y = 44 \/ y = 125 -> ends (r ++ e) /\ skip_space (r ++ e) = y :: q ++ e.
Proof.
  intros Q Y. destruct (skip_sound r) as (w & W & E). rewrite Q in E. rewrite E, <- app_assoc. split.
  - apply ends_spaces; [exact W|]. cbn. unfold digit. lia.
  - cbn [app]. rewrite skip_complete; [reflexivity|exact W|cbn; unfold space; lia].
Qed.
Lemma skip_more r y q e : skip_space r = y :: q -> skip_space (r ++ e) = y :: q ++ e.
Proof.
  intros Q. pose proof (skip_after r) as N. destruct (skip_sound r) as (w & W & E). rewrite Q in E, N. rewrite E, <- app_assoc.
  cbn [app]. rewrite skip_complete; [reflexivity|exact W|exact N].
Qed.
(** What is too deep stays so whatever follows. *)
Lemma scan_deep lib fuel :
  (forall d s e f', scan lib fuel d s = TooDeep -> (2 * length s + 1 <= f')%nat -> scan lib f' d (s ++ e) = TooDeep)
  /\ (forall d acc acc' s e f', Json.elements lib fuel d acc s = TooDeep -> (2 * length s + 2 <= f')%nat -> Json.elements lib f' d acc' (s ++ e) = TooDeep)
  /\ (forall d acc acc' s e f', Json.members lib fuel d acc s = TooDeep -> (2 * length s + 2 <= f')%nat -> Json.members lib f' d acc' (s ++ e) = TooDeep).
Proof.
  induction fuel as [|fuel (IHs & IHe & IHm)]; [repeat split; intros; discriminate|].
  destruct (scan_sound lib fuel) as (Snd & _). destruct (scan_complete lib) as (Cmp & _).
  repeat split.
  - intros d s e f' H L. destruct f' as [|f']; [lia|]. cbn [scan] in H. destruct s as [|c s1]; [discriminate|]. cbn [length] in L.
    cbn [app scan]. pose proof (skip_length s1) as K. destruct (c =? 34).
    { destruct (scanstring s1) as [[? ?]|]; discriminate. }
    destruct (c =? 123).
    { destruct d as [|d]; [reflexivity|]. cbv zeta in H |- *. destruct (skip_space s1) as [|x q] eqn:Q; [discriminate|].
      rewrite (skip_more s1 x q e Q). destruct (x =? 125); [discriminate|]. change (x :: q ++ e) with ((x :: q) ++ e).
      eapply IHm; [exact H|lia]. }
    destruct (c =? 91).
    { destruct d as [|d]; [reflexivity|]. cbv zeta in H |- *. destruct (skip_space s1) as [|x q] eqn:Q; [discriminate|].
      rewrite (skip_more s1 x q e Q). destruct (x =? 93); [discriminate|]. change (x :: q ++ e) with ((x :: q) ++ e).
      eapply IHe; [exact H|lia]. }
    destruct (scan_constant constants (c :: s1)); [discriminate|].
    destruct (match_number lib (c :: s1)) as [[? ?]|]; discriminate.
  - intros d acc acc' s e f' H L. destruct f' as [|f']; [lia|]. cbn [Json.elements] in H |- *.
    destruct (scan lib fuel d s) as [[v s1]| | |] eqn:Q; cbn [jbind] in H; try discriminate.
    + destruct (Snd _ _ _ _ Q) as (t & -> & D). rewrite app_length in L. pose proof (skip_length s1) as K.
      pose proof (denotes_head _ _ _ _ D) as (c & t' & Et & _). assert (0 < length t)%nat by (rewrite Et; cbn; lia).
      destruct (skip_space s1) as [|y q] eqn:Y; [discriminate|]. destruct (Z.eqb_spec y 93); [discriminate|].
      destruct (Z.eqb_spec y 44) as [->|]; [|discriminate]. destruct (skip_ends s1 44 q e Y ltac:(auto)) as (En & Sk).
      rewrite <- app_assoc, (Cmp d t v D) by (try exact En; lia). cbn [jbind]. rewrite Sk. cbn [Z.eqb Pos.eqb].
      cbn [length] in K. pose proof (skip_length q) as K2. destruct (skip_space q) as [|z q2] eqn:Y2.
      { exfalso. destruct fuel as [|[|fuel]]; cbn in H; discriminate. }
      rewrite (skip_more q z q2 e Y2). change (z :: q2 ++ e) with ((z :: q2) ++ e). eapply IHe; [exact H|lia].
    + rewrite (IHs d s e f' Q) by lia. reflexivity.
  - intros d acc acc' s e f' H L. destruct f' as [|f']; [lia|]. cbn [Json.members] in H. destruct s as [|x s1]; [discriminate|].
    cbn [length] in L. cbn [app Json.members]. destruct (negb (x =? 34)); [discriminate|].
    destruct (scanstring s1) as [[k s2]|] eqn:Q1; [|discriminate].
    destruct (scanstring_sound _ _ _ _ (le_n _) Q1) as (kt & -> & C). rewrite app_length in L. cbn [length] in L.
    rewrite <- app_assoc. cbn [app]. rewrite (scanstring_complete kt k C). pose proof (skip_length s2) as K.
    destruct (skip_space s2) as [|y s3] eqn:Y; [discriminate|]. cbn [length] in K. rewrite (skip_more s2 y s3 e Y).
    destruct (negb (y =? 58)); [discriminate|]. pose proof (skip_length s3) as K3.
    destruct (skip_space s3) as [|z q3] eqn:Y3. { exfalso. destruct fuel as [|[|fuel]]; cbn in H; discriminate. }
    rewrite (skip_more s3 z q3 e Y3). change (z :: q3 ++ e) with ((z :: q3) ++ e).
    destruct (scan lib fuel d (z :: q3)) as [[v s4]| | |] eqn:Q; cbn [jbind] in H; try discriminate.
    + destruct (Snd _ _ _ _ Q) as (t & Et & D). rewrite Et in K3 |- *. rewrite app_length in K3. pose proof (skip_length s4) as K4.
      destruct (skip_space s4) as [|a q] eqn:A; [discriminate|]. destruct (Z.eqb_spec a 125); [discriminate|].
      destruct (Z.eqb_spec a 44) as [->|]; [|discriminate]. destruct (skip_ends s4 44 q e A ltac:(auto)) as (En & Sk).
      rewrite <- app_assoc, (Cmp d t v D) by (try exact En; lia). cbn [jbind]. rewrite Sk. cbn [Z.eqb Pos.eqb].
      cbn [length] in K4. pose proof (skip_length q) as K5. destruct (skip_space q) as [|b q2] eqn:Y2.
      { exfalso. destruct fuel as [|[|fuel]]; cbn in H; discriminate. }
      rewrite (skip_more q b q2 e Y2). change (b :: q2 ++ e) with ((b :: q2) ++ e). eapply IHm; [exact H|lia].
    + rewrite (IHs d (z :: q3) e f' Q) by lia. reflexivity.
Qed.
Lemma decode_deep lib d s e : decode_text lib d s = TooDeep -> decode_text lib d (s ++ e) = TooDeep.
Proof.
  unfold decode_text. pose proof (skip_length s) as K.
  destruct (scan lib (2 * length s + 2) d (skip_space s)) as [[v r]| | |] eqn:Q; cbn [jbind]; try discriminate.
  { destruct (skip_space r); discriminate. }
  intros _. destruct (skip_space s) as [|z q] eqn:Y; [replace (2 * length s + 2)%nat with (S (2 * length s + 1)) in Q by lia; discriminate|].
  rewrite (skip_more s z q e Y). change (z :: q ++ e) with ((z :: q) ++ e).
  destruct (scan_deep lib (2 * length s + 2)) as (H & _). rewrite (H d (z :: q) e _ Q); [reflexivity|].
  rewrite app_length. lia.
Qed.
(** A document that is nested deeper than what can be read is read or too deep. *)
Lemma scan_less lib fuel :
  (forall d d' s p, scan lib fuel d' s = Got p -> scan lib fuel d s = Got p \/ scan lib fuel d s = TooDeep)
  /\ (forall d d' acc s p, Json.elements lib fuel d' acc s = Got p -> Json.elements lib fuel d acc s = Got p \/ Json.elements lib fuel d acc s = TooDeep)
  /\ (forall d d' acc s p, Json.members lib fuel d' acc s = Got p -> Json.members lib fuel d acc s = Got p \/ Json.members lib fuel d acc s = TooDeep).
Proof.
  induction fuel as [|fuel (IHs & IHe & IHm)]; [repeat split; intros; discriminate|]. repeat split.
  - intros d d' s p. cbn [scan]. destruct s as [|c s1]; [discriminate|]. destruct (c =? 34); [auto|].
    destruct (c =? 123).
    { destruct d'; [discriminate|]. destruct d as [|d]; [auto|]. cbv zeta. destruct (skip_space s1) as [|x q]; [auto|].
      destruct (x =? 125); [auto|]. apply IHm. }
    destruct (c =? 91).
    { destruct d'; [discriminate|]. destruct d as [|d]; [auto|]. cbv zeta. destruct (skip_space s1) as [|x q]; [auto|].
      destruct (x =? 93); [auto|]. apply IHe. }
    auto.
  - intros d d' acc s p. cbn [Json.elements]. destruct (scan lib fuel d' s) as [[v r]| | |] eqn:Q; cbn [jbind]; try discriminate.
    destruct (IHs d d' s _ Q) as [->| ->]; cbn [jbind]; [|auto]. destruct (skip_space r) as [|x q]; [discriminate|].
    destruct (x =? 93); [auto|]. destruct (x =? 44); [|auto]. apply IHe.
  - intros d d' acc s p. cbn [Json.members]. destruct s as [|q s1]; [discriminate|]. destruct (negb (q =? 34)); [discriminate|].
    destruct (scanstring s1) as [[k s2]|]; [|discriminate]. destruct (skip_space s2) as [|c s3]; [discriminate|].
    destruct (negb (c =? 58)); [discriminate|].
    destruct (scan lib fuel d' (skip_space s3)) as [[v r]| | |] eqn:Q; cbn [jbind]; try discriminate.
    destruct (IHs d d' _ _ Q) as [->| ->]; cbn [jbind]; [|auto]. destruct (skip_space r) as [|x w]; [discriminate|].
    destruct (x =? 125); [auto|]. destruct (x =? 44); [|auto]. apply IHm.
Qed.
Lemma decode_less lib d d' s v : decode_text lib d' s = Got v -> decode_text lib d s = Got v \/ decode_text lib d s = TooDeep.
Proof.
  unfold decode_text. destruct (scan lib (2 * length s + 2) d' (skip_space s)) as [[x r]| | |] eqn:Q; cbn [jbind]; try discriminate.
  destruct (scan_less lib (2 * length s + 2)) as (H & _). destruct (H d d' _ _ Q) as [->| ->]; cbn [jbind]; [|auto].
  auto.
Qed.
Lemma visible_decoded b : visible b -> decoded b = Some b.
Proof.
  intros V. unfold decoded. rewrite (narrow_encoding b (visible_narrow b V)).
  destruct (starts_with [239; 187; 191] b) eqn:M.
  - exfalso. apply starts_with_spec in M. destruct M as (r & ->). inversion V; lia.
  - apply utf8_complete, ascii_utf8, visible_ascii, V.
Qed.

(** ** The dump is such a value *)

Lemma proper_publishable d o : proper_text o -> publishable d (json_text o).
Proof. destruct o; cbn [json_text proper_text]; intros; constructor; assumption. Qed.
Lemma int_publishable d o : publishable d (json_int o).
Proof. destruct o; constructor. Qed.
Lemma key_whole k : whole (json_key k).
Proof. apply printable_whole. destruct k; [apply decimal_printable|apply printable_test; reflexivity]. Qed.
Lemma dict_publishable {A} (key : A -> option Z) (val : A -> json) d l :
  (forall x, In x l -> publishable d (val x)) ->
  publishable (S d) (json_dict (fold_left (fun d x => Project.dict_set (key x) (val x) d) l [])).
Proof.
  intros P. destruct (dict_fold key val l) as [N I]. unfold json_dict. apply p_obj; [now apply json_keys_nodup| |].
  - intros k K. rewrite map_map in K. apply in_map_iff in K. destruct K as (e & <- & _). apply key_whole.
  - intros k v K. apply in_map_iff in K. destruct K as ([k' v'] & E & K). cbn [fst snd] in E. inversion E; subst.
    apply I in K. destruct K as (x & L & ->). apply P. destruct L as (a & b & -> & _). apply in_or_app. right. left. reflexivity.
Qed.
Lemma application_publishable a : proper_application a -> publishable 2 (dump_application a).
Proof.
  intros (T & D & G). unfold dump_application. apply p_obj; [keys|key|]. each.
  - now apply proper_publishable.
  - apply int_publishable.
  - now apply proper_publishable.
  - apply (dict_publishable g_address (fun g => json_text (g_tag_name g))). intros g I. apply proper_publishable.
    rewrite Forall_forall in G. exact (G g I).
Qed.
Lemma unit_publishable x zs : proper_unit x -> publishable 2 (dump_unit x zs).
Proof.
  intros (A & B & C & D & E). unfold dump_unit. apply p_obj; [keys|key|]. each; try (now apply proper_publishable); try apply int_publishable.
  apply p_arr. intros v I. apply in_map_iff in I. destruct I as (z & <- & _). constructor.
Qed.
Lemma network_publishable u n : proper_network n -> publishable 4 (dump_network n (net_units u n)).
Proof.
  intros (T & A & U). rewrite Forall_forall in A, U. unfold dump_network. apply p_obj; [keys|key|]. each.
  - now apply proper_publishable.
  - apply int_publishable.
  - apply int_publishable.
  - apply (dict_publishable a_address dump_application). intros a I. now apply application_publishable, A.
  - apply (dict_publishable u_address (fun x => dump_unit x (chan u x))). intros x I. now apply unit_publishable, U.
Qed.
Lemma dump_publishable u ns j : Forall proper_network ns -> dump_labels u ns = Ok j -> publishable 5 j.
Proof.
  intros F. rewrite Forall_forall in F. unfold dump_labels. assert (N := networks_dump u ns []).
  destruct (dump_networks u ns []) as [d|x]; cbn [rbind]; [|discriminate]. destruct N as [_ ->]. intros E. inversion E.
  apply (dict_publishable n_address (fun n => dump_network n (net_units u n))). intros n I. now apply network_publishable, F.
Qed.
Lemma dump_object lib p u ns j : dump_labels u ns = Ok j -> exists r, dump_text lib p j = 123 :: r.
Proof.
  unfold dump_labels. destruct (dump_networks u ns []) as [d|x]; cbn [rbind]; [|discriminate]. intros E. inversion E.
  unfold dump_text, json_dict. destruct p as [n|]; [destruct (n =? 0)|]; eexists; reflexivity.
Qed.

(** ** Layout *)

Definition walk (t : text) (st : place * Z) : place * Z := fold_left reads t st.
Lemma walk_app a b st : walk (a ++ b) st = walk b (walk a st).
Proof. apply fold_left_app. Qed.
(** Every new line in [t], which is followed by [tail], is as it should be. *)
Definition neat (n : Z) (st : place * Z) (t tail : text) : Prop :=
  forall before after, t = before ++ 10 :: after ->
    exists k c rest, after ++ tail = repeat 32 k ++ c :: rest /\ c <> 32
      /\ ((closing c /\ Z.of_nat k = n * (snd (walk before st) - 1))
          \/ (~ closing c /\ Z.of_nat k = n * snd (walk before st))).
Lemma neat_app n st a b tail : neat n st a (b ++ tail) -> neat n (walk a st) b tail -> neat n st (a ++ b) tail.
Proof.
  intros A B before after E. apply app_eq_app in E. destruct E as (m & [(-> & E)|(-> & E)]).
  - destruct m as [|c m].
    + rewrite app_nil_r in *. destruct (B [] after) as (k & c & rest & R); [exact (eq_sym E)|].
      exists k, c, rest. cbn [walk fold_left] in R. exact R.
    + inversion E; subst. destruct (A before m eq_refl) as (k & c & rest & R). exists k, c, rest.
      rewrite <- app_assoc. exact R.
  - destruct (B m after E) as (k & c & rest & R). exists k, c, rest. rewrite walk_app. exact R.
Qed.
Lemma neat_printable n st t tail : printable t -> neat n st t tail.
Proof.
  intros P before after ->. exfalso. apply Forall_app in P. destruct P as [_ P]. apply Forall_cons_iff in P. lia.
Qed.
Lemma neat_line n st tail level c rest : tail = c :: rest -> c <> 32 ->
  (closing c /\ Z.of_nat level = snd st - 1) \/ (~ closing c /\ Z.of_nat level = snd st) ->
  neat (Z.of_nat n) st (new_line n level) tail.
Proof.
  intros -> C H before after E. unfold new_line in E. destruct before as [|x before].
  - cbn [app] in E. inversion E. exists (n * level)%nat, c, rest. split; [reflexivity|]. split; [exact C|]. cbn [walk fold_left].
    destruct H as [(Q & H)|(Q & H)]; [left|right]; (split; [exact Q|nia]).
  - exfalso. inversion E as [[X Y]]. assert (Q : In 10 (repeat 32 (n * level))).
    { rewrite Y. apply in_or_app. right. left. reflexivity. }
    apply repeat_spec in Q. discriminate.
Qed.
Lemma walk_neutral t k : Forall (fun c => c <> 34 /\ c <> 91 /\ c <> 93 /\ c <> 123 /\ c <> 125) t ->
  walk t (Outside, k) = (Outside, k).
Proof.
  induction 1 as [|c t C F IH]; [reflexivity|]. unfold walk in *. cbn [fold_left reads].
  destruct C as (C1 & C2 & C3 & C4 & C5). apply Z.eqb_neq in C1, C2, C3, C4, C5. rewrite C1, C2, C3, C4, C5. exact IH.
Qed.
Lemma walk_line n level k : walk (new_line n level) (Outside, k) = (Outside, k).
Proof.
  apply walk_neutral. apply Forall_cons; [lia|]. apply Forall_forall. intros c I. apply repeat_spec in I. lia.
Qed.
Lemma walk_inside t k : Forall (fun c => c <> 34 /\ c <> 92) t -> walk t (Inside, k) = (Inside, k).
Proof.
  induction 1 as [|c t (A & B) F IH]; [reflexivity|]. unfold walk in *. cbn [fold_left reads].
  apply Z.eqb_neq in A, B. rewrite A, B. exact IH.
Qed.
Lemma hex_inside n : Forall (fun c => c <> 34 /\ c <> 92) (hex4 n).
Proof.
  assert (H : forall m, 0 <= m < 16 -> hex_digit m <> 34 /\ hex_digit m <> 92).
  { intros m M. unfold hex_digit. destruct (Z.ltb_spec m 10); lia. }
  unfold hex4. repeat (apply Forall_cons; [apply H, Z.mod_pos_bound; lia|]). constructor.
Qed.
Lemma walk_escape c k : walk (escape_char c) (Inside, k) = (Inside, k).
Proof.
  unfold escape_char.
  destruct (Z.eqb_spec c 34); [reflexivity|]. destruct (Z.eqb_spec c 92); [reflexivity|].
  destruct (c =? 8); [reflexivity|]. destruct (c =? 12); [reflexivity|]. destruct (c =? 10); [reflexivity|].
  destruct (c =? 13); [reflexivity|]. destruct (c =? 9); [reflexivity|].
  destruct ((32 <=? c) && (c <=? 126)); [apply walk_inside; repeat constructor; assumption|].
  assert (U : walk [92; 117] (Inside, k) = (Inside, k)) by reflexivity.
  destruct (c <? 65536).
  - rewrite walk_app, U. apply walk_inside, hex_inside.
  - rewrite !walk_app, U, (walk_inside _ k (hex_inside _)), U. apply walk_inside, hex_inside.
Qed.
Lemma walk_quote s k : walk (quote s) (Outside, k) = (Outside, k).
Proof.
  unfold quote. rewrite !walk_app. change (walk [34] (Outside, k)) with (Inside, k).
  assert (E : walk (flat_map escape_char s) (Inside, k) = (Inside, k)).
  { induction s as [|c s IH]; [reflexivity|]. cbn [flat_map]. rewrite walk_app, walk_escape. exact IH. }
  rewrite E. reflexivity.
Qed.

Definition good (n level : nat) (t : text) : Prop :=
  (exists c r, t = c :: r /\ c <> 32 /\ ~ closing c)
  /\ walk t (Outside, Z.of_nat level) = (Outside, Z.of_nat level)
  /\ forall tail, neat (Z.of_nat n) (Outside, Z.of_nat level) t tail.
Lemma good_printable n level t : printable t -> (exists c r, t = c :: r /\ c <> 32 /\ ~ closing c) ->
  Forall (fun c => c <> 34 /\ c <> 91 /\ c <> 93 /\ c <> 123 /\ c <> 125) t -> good n level t.
Proof. intros P H F. split; [exact H|]. split; [now apply walk_neutral|]. intros tail. now apply neat_printable. Qed.
Lemma good_string n level s : good n level (quote s).
Proof.
  split; [|split].
  - exists 34, (flat_map escape_char s ++ [34]). split; [reflexivity|]. unfold closing. lia.
  - apply walk_quote.
  - intros tail. apply neat_printable, quote_printable.
Qed.
Lemma good_int n level z : good n level (py_str z).
Proof.
  assert (K : forall m t, natural m t -> Forall digit t) by (intros m t (_ & F & _); exact F).
  pose proof (py_str_integer z) as P. pose proof (integer_start _ _ P) as (c & r & E & C). apply good_printable.
  - apply decimal_printable.
  - exists c, r. split; [exact E|]. unfold digit, closing in *. lia.
  - destruct P as [t m N|t m N]; [|apply Forall_cons; [lia|]]; (eapply Forall_impl; [|exact (K _ _ N)]);
      unfold digit; cbv beta; lia.
Qed.
Lemma good_separated n level items : items <> [] -> Forall (good n (S level)) items ->
  good n (S level) (separated (44 :: new_line n (S level)) items).
Proof.
  intros N F. induction F as [|t l T F IH]; [contradiction|]. destruct l as [|u l]; [exact T|].
  specialize (IH ltac:(discriminate)).
  change (separated (44 :: new_line n (S level)) (t :: u :: l))
    with (t ++ [44] ++ new_line n (S level) ++ separated (44 :: new_line n (S level)) (u :: l)).
  set (more := separated (44 :: new_line n (S level)) (u :: l)) in *.
  destruct T as ((c & r & -> & C) & TW & TN), IH as ((c' & r' & E' & C' & C'') & MW & MN). split; [|split].
  - exists c. eexists. split; [reflexivity|exact C].
  - rewrite !walk_app, TW. change (walk [44] (Outside, Z.of_nat (S level))) with (Outside, Z.of_nat (S level)).
    rewrite walk_line. exact MW.
  - intros tail. apply neat_app; [apply TN|]. rewrite TW. apply neat_app; [apply neat_printable, printable_test; reflexivity|].
    change (walk [44] (Outside, Z.of_nat (S level))) with (Outside, Z.of_nat (S level)). apply neat_app.
    + eapply neat_line; [rewrite E'; reflexivity|exact C'|]. right. split; [exact C''|reflexivity].
    + rewrite walk_line. apply MN.
Qed.
Lemma good_brackets n level a b items : (a = 91 /\ b = 93) \/ (a = 123 /\ b = 125) -> Forall (good n (S level)) items ->
  good n level ([a] ++ indented n level items ++ [b]).
Proof.
  intros AB F.
  assert (WA : walk [a] (Outside, Z.of_nat level) = (Outside, Z.of_nat (S level))).
  { rewrite Nat2Z.inj_succ. destruct AB as [(-> & ->)|(-> & ->)]; cbn; f_equal; lia. }
  assert (WB : walk [b] (Outside, Z.of_nat (S level)) = (Outside, Z.of_nat level)).
  { rewrite Nat2Z.inj_succ. destruct AB as [(-> & ->)|(-> & ->)]; cbn; f_equal; lia. }
  assert (PA : printable [a]) by (destruct AB as [(-> & ->)|(-> & ->)]; apply printable_test; reflexivity).
  assert (PB : printable [b]) by (destruct AB as [(-> & ->)|(-> & ->)]; apply printable_test; reflexivity).
  assert (CB : closing b) by (destruct AB as [(-> & ->)|(-> & ->)]; [left|right]; reflexivity).
  assert (HA : exists c r, [a] ++ indented n level items ++ [b] = c :: r /\ c <> 32 /\ ~ closing c).
  { exists a. eexists. split; [reflexivity|]. unfold closing. lia. }
  split; [exact HA|]. clear HA. destruct items as [|t l].
  { cbn [indented app]. change [a; b] with ([a] ++ [b]). split.
    - rewrite walk_app, WA. exact WB.
    - intros tail. apply neat_printable, printable_app; assumption. }
  pose proof (good_separated n level (t :: l) ltac:(discriminate) F) as ((c & r & E & C & C') & MW & MN).
  unfold indented. set (more := separated (44 :: new_line n (S level)) (t :: l)) in *. clearbody more. split.
  - rewrite !walk_app, WA, walk_line, MW, walk_line. exact WB.
  - intros tail. apply neat_app; [now apply neat_printable|]. rewrite WA. rewrite <- !app_assoc. apply neat_app.
    + eapply neat_line; [rewrite E; reflexivity|exact C|]. right. split; [exact C'|reflexivity].
    + rewrite walk_line. apply neat_app; [apply MN|]. rewrite MW. apply neat_app.
      * eapply neat_line; [reflexivity|unfold closing in CB; lia|]. left. split; [exact CB|]. cbn [snd]. lia.
      * rewrite walk_line. now apply neat_printable.
Qed.
Lemma good_indent lib n d j : publishable d j -> forall level, good n level (dumps_indent lib n level j).
Proof.
  assert (K : forall level t, forallb (fun c => negb ((c =? 34) || (c =? 91) || (c =? 93) || (c =? 123) || (c =? 125))) t = true ->
    printable t -> (exists c r, t = c :: r /\ c <> 32 /\ ~ closing c) -> good n level t).
  { intros level t T P H. apply good_printable; [exact P|exact H|]. rewrite forallb_forall in T. apply Forall_forall. intros c I.
    specialize (T c I). lia. }
  induction 1 as [d|d b|d x|d s W|d l _ IH|d l N W _ IH]; intros level.
  - apply K; [reflexivity|apply printable_test; reflexivity|]. exists 110. eexists. split; [reflexivity|]. unfold closing. lia.
  - destruct b; (apply K; [reflexivity|apply printable_test; reflexivity|]); [exists 116|exists 102]; eexists;
      (split; [reflexivity|]); unfold closing; lia.
  - apply good_int.
  - apply good_string.
  - cbn [dumps_indent]. apply good_brackets; [auto|]. apply Forall_map, Forall_forall. intros v I. apply IH, I.
  - cbn [dumps_indent]. apply good_brackets; [auto|]. apply Forall_map, Forall_forall. intros [k v] I.
    destruct (IH k v I (S level)) as (H & A & B).
    assert (C : walk [58; 32] (Outside, Z.of_nat (S level)) = (Outside, Z.of_nat (S level))) by reflexivity.
    split; [|split].
    + exists 34. eexists. split; [reflexivity|]. unfold closing. lia.
    + rewrite !walk_app, walk_quote, C. exact A.
    + intros tail. apply neat_app; [apply neat_printable, quote_printable|]. rewrite walk_quote.
      apply neat_app; [apply neat_printable, printable_test; reflexivity|]. rewrite C. apply B.
Qed.
Lemma indent_laid_out lib n d j : publishable d j -> laid_out (Z.of_nat n) (dumps_indent lib n 0 j).
Proof.
  intros P before after E. destruct (good_indent lib n d j P 0%nat) as (_ & _ & Nt).
  destruct (Nt [] before after E) as (k & c & rest & R). exists k, c, rest. rewrite app_nil_r in R. exact R.
Qed.
