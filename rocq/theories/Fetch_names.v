(** Lemmas about addresses and file names of the documentation fetcher. *)
From Coq Require Import List ZArith Bool Lia String.
From Verif Require Import Py Text Mqtt_facts Fetch Spec_fetch Fetch_facts.
Import ListNotations.
Notation length := List.length.
Open Scope Z_scope.

Lemma terms_document : document TERMS_U.
Proof. apply wanted_document. vm_compute. reflexivity. Qed.

Lemma document_on_server u : document u -> on_server (urlunparse u).
Proof.
  intros (Sc & Nl & stem & Pa). unfold urlunparse. rewrite Nl.
  set (p0 := if is_nil (u_params u) then u_path u else u_path u ++ txt ";" ++ u_params u).
  assert (P0 : exists c x, p0 = c :: x).
  { unfold p0. rewrite Pa. destruct (is_nil (u_params u)); destruct stem; cbn; eauto. }
  destruct P0 as (c & x & P0). rewrite P0.
  assert (P1 : exists y, (if c =? 47 then c :: x else 47 :: c :: x) = 47 :: y).
  { destruct (c =? 47) eqn:Ec; [apply Z.eqb_eq in Ec; subst c|]; eauto. }
  destruct P1 as (y & ->).
  set (tail := fun q : text => if is_nil (u_fragment u) then q else q ++ txt "#" ++ u_fragment u).
  set (mid := fun q : text => if is_nil (u_query u) then q else q ++ txt "?" ++ u_query u).
  assert (T : forall a b, exists z, tail (mid (a ++ b)) = a ++ z).
  { intros a b. unfold tail, mid.
    destruct (is_nil (u_query u)), (is_nil (u_fragment u)); rewrite <- ?app_assoc; eauto. }
  destruct Sc as [-> | ->].
  - destruct (T (txt "http://updates.clipsal.com/") y) as (z & E). exists z. left. exact E.
  - destruct (T (txt "https://updates.clipsal.com/") y) as (z & E). exists z. right. exact E.
Qed.

Lemma index_on_server : on_server (urlunparse INDEX_U).
Proof.
  exists (txt "ClipsalSoftwareDownload/DL/downloads/OpenCBus/OpenCBusProtocolDownloads.html").
  right. vm_compute. reflexivity.
Qed.

(** ** Segments *)

Lemma mem_spec c l : mem c l = true <-> In c l.
Proof.
  unfold mem. rewrite existsb_exists. split.
  - intros (x & H & E). apply Z.eqb_eq in E. subst. exact H.
  - intros H. exists c. split; [exact H|apply Z.eqb_refl].
Qed.

Lemma last_segment_app s x : ~ In 47 x -> last_segment (s ++ x) = last_segment s ++ x.
Proof.
  intros N. induction s as [|c s IH]; cbn [app last_segment].
  - induction x as [|d x IHx]; [reflexivity|]. cbn [last_segment].
    destruct (mem 47 x) eqn:M; [apply mem_spec in M; exfalso; apply N; right; exact M|].
    destruct (d =? 47) eqn:Ed; [apply Z.eqb_eq in Ed; subst; exfalso; apply N; left; reflexivity|].
    reflexivity.
  - assert (M : mem 47 (s ++ x) = mem 47 s).
    { destruct (mem 47 s) eqn:M.
      - apply mem_spec. apply mem_spec in M. apply in_or_app. auto.
      - destruct (mem 47 (s ++ x)) eqn:M'; [|reflexivity]. apply mem_spec in M'.
        apply in_app_or in M'. destruct M' as [M'|M']; [|contradiction].
        apply mem_spec in M'. congruence. }
    rewrite M. destruct (mem 47 s); [exact IH|]. destruct (c =? 47); reflexivity.
Qed.
Lemma last_segment_no_slash s : ~ In 47 (last_segment s).
Proof.
  induction s as [|c s IH]; cbn; [auto|].
  destruct (mem 47 s) eqn:M; [exact IH|].
  assert (N : ~ In 47 s) by (rewrite <- mem_spec, M; discriminate).
  destruct (c =? 47) eqn:Ec; [exact N|]. apply Z.eqb_neq in Ec. cbn. intros [H|H]; auto.
Qed.

(** ** Unquoting *)

Lemma hex_ascii c v : hex_value c = Some v -> 48 <= c <= 102 /\ 0 <= v < 16 /\ c <> 47 /\ c <> 46.
Proof.
  unfold hex_value. intros H.
  destruct ((48 <=? c) && (c <=? 57)) eqn:E1; [inversion H; lia|].
  destruct ((65 <=? c) && (c <=? 70)) eqn:E2; [inversion H; lia|].
  destruct ((97 <=? c) && (c <=? 102)) eqn:E3; [inversion H; lia|discriminate].
Qed.

(** A full stop ends any escape. *)
Lemma unquote_bytes_dot n : forall s x, (length s <= n)%nat ->
  unquote_to_bytes (s ++ 46 :: x) = unquote_to_bytes s ++ 46 :: unquote_to_bytes x.
Proof.
  induction n as [|n IH]; intros s x L.
  - destruct s; [reflexivity|cbn in L; lia].
  - destruct s as [|c s1]; [reflexivity|]. cbn [length] in L.
    cbn [app unquote_to_bytes]. destruct (c =? 37); [|cbn [app]; f_equal; apply IH; lia].
    destruct s1 as [|h s1'].
    + cbn [app]. destruct x as [|l x']; [reflexivity|]. change (hex_value 46) with (@None Z).
      cbn. reflexivity.
    + destruct s1' as [|l s2].
      * cbn [app]. change (hex_value 46) with (@None Z).
        destruct (hex_value h); cbn [app]; f_equal; apply (IH [h] x); cbn in *; lia.
      * cbn [app]. destruct (hex_value h); [destruct (hex_value l)|];
          cbn [app]; f_equal; try (apply IH; cbn in *; lia);
          exact (IH (h :: l :: s2) x ltac:(cbn in *; lia)).
Qed.

Lemma cont_low c : 0 <= c < 128 -> cont c = false.
Proof. unfold cont, in_range. lia. Qed.
Lemma second_low b c : 0 <= c < 128 -> second_ok b c = false.
Proof.
  intros H. unfold second_ok, second_range, in_range.
  destruct (b =? 0xE0), (b =? 0xED), (b =? 0xF0), (b =? 0xF4); cbn [fst snd]; lia.
Qed.

(** An ASCII byte is never part of a longer sequence. *)
Lemma utf8_ascii n : forall b c x, (length b <= n)%nat -> 0 <= c < 128 ->
  utf8_replace (b ++ c :: x) = utf8_replace b ++ c :: utf8_replace x.
Proof.
  induction n as [|n IH]; intros b c x L R.
  - destruct b; [|cbn in L; lia]. cbn [app utf8_replace].
    replace (c <? 0x80) with true by lia. reflexivity.
  - destruct b as [|a b1].
    { cbn [app utf8_replace]. replace (c <? 0x80) with true by lia. reflexivity. }
    cbn [length] in L.
    assert (I1 : utf8_replace (b1 ++ c :: x) = utf8_replace b1 ++ c :: utf8_replace x)
      by (apply IH; [lia|exact R]).
    assert (I0 : utf8_replace (c :: x) = c :: utf8_replace x)
      by (cbn [utf8_replace]; replace (c <? 0x80) with true by lia; reflexivity).
    cbn [app]. cbn [utf8_replace].
    destruct (a <? 0x80); [cbn [app]; f_equal; exact I1|].
    destruct (in_range 0xC2 0xDF a).
    { destruct b1 as [|c1 b2]; cbn [app] in *.
      - rewrite (cont_low c R). f_equal. exact I0.
      - destruct (cont c1); cbn [app]; f_equal; [apply IH; cbn in L; lia|exact I1]. }
    destruct (in_range 0xE0 0xEF a).
    { destruct b1 as [|c1 b2]; cbn [app] in *.
      - rewrite (second_low a c R). f_equal. exact I0.
      - destruct (second_ok a c1); [|cbn [app]; f_equal; exact I1].
        destruct b2 as [|d b3]; cbn [app] in *.
        + rewrite (cont_low c R). f_equal. exact I0.
        + destruct (cont d); cbn [app]; f_equal;
            [apply IH; cbn in L; lia|apply (IH (d :: b3)); cbn in *; lia]. }
    destruct (in_range 0xF0 0xF4 a); [|cbn [app]; f_equal; exact I1].
    destruct b1 as [|c1 b2]; cbn [app] in *.
    { rewrite (second_low a c R). f_equal. exact I0. }
    destruct (second_ok a c1); [|cbn [app]; f_equal; exact I1].
    destruct b2 as [|d b3]; cbn [app] in *.
    { rewrite (cont_low c R). f_equal. exact I0. }
    destruct (cont d); [|cbn [app]; f_equal; apply (IH (d :: b3)); cbn in *; lia].
    destruct b3 as [|e b4]; cbn [app] in *.
    { rewrite (cont_low c R). f_equal. exact I0. }
    destruct (cont e); cbn [app]; f_equal;
      [apply IH; cbn in L; lia|apply (IH (e :: b4)); cbn in *; lia].
Qed.

Lemma unquote_run_pdf s : forall run,
  unquote_run run (s ++ txt ".pdf") = unquote_run run s ++ txt ".pdf".
Proof.
  induction s as [|c s IH]; intros run.
  - cbn [app]. change (txt ".pdf") with [46; 112; 100; 102].
    cbn [unquote_run]. change (46 <? 128) with true. change (112 <? 128) with true.
    change (100 <? 128) with true. change (102 <? 128) with true.
    cbv iota. rewrite <- !app_assoc. cbn [app].
    rewrite (unquote_bytes_dot _ run [112; 100; 102] (le_n _)).
    change (unquote_to_bytes [112; 100; 102]) with [112; 100; 102].
    rewrite (utf8_ascii _ (unquote_to_bytes run) 46 [112; 100; 102] (le_n _)) by lia.
    reflexivity.
  - cbn [app unquote_run]. destruct (c <? 128); [apply IH|].
    rewrite IH, <- app_assoc. reflexivity.
Qed.

Lemma short_name_pdf u : document u -> exists stem, short_name u = stem ++ txt ".pdf".
Proof.
  intros (_ & _ & stem & P). unfold short_name. rewrite P.
  rewrite last_segment_app by (vm_compute; intuition discriminate).
  unfold unquote. rewrite unquote_run_pdf. eauto.
Qed.

(** ** Slashes *)

Lemma escaped_cons c s : escaped_slash s -> escaped_slash (c :: s).
Proof. intros (a & b & [-> | ->]); exists (c :: a), b; auto. Qed.
Lemma escaped_prefix r s : escaped_slash s -> escaped_slash (r ++ s).
Proof. intros (a & b & [-> | ->]); exists (r ++ a), b; rewrite app_assoc; auto. Qed.
Lemma escaped_suffix r s : escaped_slash s -> escaped_slash (s ++ r).
Proof. intros (a & b & [-> | ->]); exists a, (b ++ r); rewrite <- !app_assoc; auto. Qed.

Lemma hex_slash h l a b : hex_value h = Some a -> hex_value l = Some b -> a * 16 + b = 47 ->
  h = 50 /\ (l = 70 \/ l = 102).
Proof.
  intros H L E. destruct (hex_ascii _ _ H) as (_ & Ha & _). destruct (hex_ascii _ _ L) as (_ & Hb & _).
  assert (a = 2) by lia. assert (b = 15) by lia. subst a b. clear E Ha Hb.
  unfold hex_value in H, L.
  destruct ((48 <=? h) && (h <=? 57)) eqn:E1; [inversion H|
    destruct ((65 <=? h) && (h <=? 70)) eqn:E2; [inversion H; lia|
      destruct ((97 <=? h) && (h <=? 102)) eqn:E3; [inversion H; lia|discriminate]]].
  destruct ((48 <=? l) && (l <=? 57)) eqn:F1; [inversion L; lia|
    destruct ((65 <=? l) && (l <=? 70)) eqn:F2; [inversion L; lia|
      destruct ((97 <=? l) && (l <=? 102)) eqn:F3; [inversion L; lia|discriminate]]].
Qed.

Lemma bytes_slash n : forall s, (length s <= n)%nat -> In 47 (unquote_to_bytes s) ->
  In 47 s \/ escaped_slash s.
Proof.
  induction n as [|n IH]; intros s L H.
  - destruct s; [destruct H|cbn in L; lia].
  - destruct s as [|c s1]; [destruct H|]. cbn [length] in L. cbn [unquote_to_bytes] in H.
    assert (R1 : In 47 (unquote_to_bytes s1) -> In 47 (c :: s1) \/ escaped_slash (c :: s1)).
    { intros K. destruct (IH s1 ltac:(lia) K) as [J|J]; [left; right; exact J|
        right; apply escaped_cons; exact J]. }
    destruct (c =? 37) eqn:Ec.
    + apply Z.eqb_eq in Ec.
      assert (R2 : In 47 (37 :: unquote_to_bytes s1) -> In 47 (c :: s1) \/ escaped_slash (c :: s1))
        by (intros [K|K]; [discriminate|auto]).
      destruct s1 as [|h s1']; [auto|]. destruct s1' as [|l s2]; [auto|].
      destruct (hex_value h) as [a|] eqn:Eh; [|auto].
      destruct (hex_value l) as [b|] eqn:El; [|auto].
      destruct H as [K|K].
      * destruct (hex_slash _ _ _ _ Eh El K) as (-> & Hl). right. subst c.
        exists [], s2. destruct Hl as [-> | ->]; [left|right]; reflexivity.
      * destruct (IH s2 ltac:(cbn in L; lia) K) as [J|J].
        -- left. right. right. right. exact J.
        -- right. do 3 apply escaped_cons. exact J.
    + destruct H as [K|K]; [left; left; exact K|auto].
Qed.

Lemma utf8_slash n : forall b, (length b <= n)%nat -> In 47 (utf8_replace b) -> In 47 b.
Proof.
  induction n as [|n IH]; intros b L H.
  - destruct b; [destruct H|cbn in L; lia].
  - destruct b as [|a b1]; [destruct H|]. cbn [length] in L. cbn [utf8_replace] in H.
    assert (R1 : In 47 (utf8_replace b1) -> In 47 (a :: b1))
      by (intros K; right; apply IH; [lia|exact K]).
    assert (R2 : In 47 (REPLACEMENT :: utf8_replace b1) -> In 47 (a :: b1))
      by (intros [K|K]; [discriminate|auto]).
    assert (R0 : In 47 [REPLACEMENT] -> In 47 (a :: b1)) by (intros [K|[]]; discriminate).
    destruct (a <? 0x80); [destruct H as [K|K]; [left; exact K|auto]|].
    destruct (in_range 0xC2 0xDF a) eqn:Ra.
    { destruct b1 as [|c b2]; [auto|]. destruct (cont c) eqn:Cc; [|auto].
      unfold cont, in_range in *. destruct H as [K|K]; [lia|].
      right. right. apply IH; [cbn in L; lia|exact K]. }
    destruct (in_range 0xE0 0xEF a) eqn:Rb.
    { destruct b1 as [|c b2]; [auto|]. destruct (second_ok a c) eqn:Cc; [|auto].
      assert (Hc : 128 <= c /\ (a = 0xE0 -> 0xA0 <= c)).
      { unfold second_ok, second_range, in_range in Cc.
        destruct (a =? 0xE0) eqn:A0; [cbn [fst snd] in Cc; lia|].
        destruct (a =? 0xED) eqn:A1; [cbn [fst snd] in Cc; lia|].
        destruct (a =? 0xF0) eqn:A2; [cbn [fst snd] in Cc; lia|].
        destruct (a =? 0xF4) eqn:A3; cbn [fst snd] in Cc; lia. }
      destruct b2 as [|d b3]; [auto|]. destruct (cont d) eqn:Cd.
      - unfold cont, in_range in *. destruct H as [K|K]; [lia|].
        right. right. right. apply IH; [cbn in L; lia|exact K].
      - destruct H as [K|K]; [discriminate|].
        right. right. apply IH; [cbn in *; lia|exact K]. }
    destruct (in_range 0xF0 0xF4 a) eqn:Rc; [|auto].
    destruct b1 as [|c b2]; [auto|]. destruct (second_ok a c) eqn:Cc; [|auto].
    assert (Hc : 128 <= c /\ (a = 0xF0 -> 0x90 <= c)).
    { unfold second_ok, second_range, in_range in Cc.
      destruct (a =? 0xE0) eqn:A0; [cbn [fst snd] in Cc; lia|].
      destruct (a =? 0xED) eqn:A1; [cbn [fst snd] in Cc; lia|].
      destruct (a =? 0xF0) eqn:A2; [cbn [fst snd] in Cc; lia|].
      destruct (a =? 0xF4) eqn:A3; cbn [fst snd] in Cc; lia. }
    destruct b2 as [|d b3]; [auto|]. destruct (cont d) eqn:Cd.
    + destruct b3 as [|x b4]; [auto|]. destruct (cont x) eqn:Cx.
      * unfold cont, in_range in *. destruct H as [K|K]; [lia|].
        right. right. right. right. apply IH; [cbn in L; lia|exact K].
      * destruct H as [K|K]; [discriminate|].
        right. right. right. apply IH; [cbn in *; lia|exact K].
    + destruct H as [K|K]; [discriminate|].
      right. right. apply IH; [cbn in *; lia|exact K].
Qed.

Lemma unquote_run_slash s : forall run, In 47 (unquote_run run s) ->
  In 47 (run ++ s) \/ escaped_slash (run ++ s).
Proof.
  induction s as [|c s IH]; intros run H; cbn [unquote_run] in H.
  - rewrite app_nil_r. apply (bytes_slash _ _ (le_n _)). apply (utf8_slash _ _ (le_n _)). exact H.
  - destruct (c <? 128) eqn:Ec.
    + specialize (IH _ H). rewrite <- app_assoc in IH. exact IH.
    + apply in_app_or in H. destruct H as [H|[H|H]].
      * apply (utf8_slash _ _ (le_n _)) in H. apply (bytes_slash _ _ (le_n _)) in H.
        destruct H as [H|H]; [left; apply in_or_app; auto|right; apply escaped_suffix; exact H].
      * subst c. discriminate.
      * specialize (IH _ H). cbn [app] in IH. destruct IH as [K|K].
        -- left. apply in_or_app. right. right. exact K.
        -- right. apply escaped_prefix. apply escaped_cons. exact K.
Qed.

Lemma short_name_slash u : In 47 (short_name u) -> escaped_slash (last_segment (u_path u)).
Proof.
  intros H. destruct (unquote_run_slash _ [] H) as [K|K]; [|exact K].
  exfalso. exact (last_segment_no_slash _ K).
Qed.

(** ** Encoded names *)

Lemma hex_is_value c d : hex_is c d -> hex_value c = Some d.
Proof.
  unfold hex_is, hex_value. intros [[H ->]|[[H ->]|[H ->]]].
  - replace ((48 <=? c) && (c <=? 57)) with true by lia. reflexivity.
  - replace ((48 <=? c) && (c <=? 57)) with false by lia. replace ((65 <=? c) && (c <=? 70)) with true by lia. reflexivity.
  - replace ((48 <=? c) && (c <=? 57)) with false by lia. replace ((65 <=? c) && (c <=? 70)) with false by lia.
    replace ((97 <=? c) && (c <=? 102)) with true by lia. reflexivity.
Qed.
Lemma spells_ascii s t : spells s t ->
  Forall (fun c => 0 <= c < 128) s /\ Forall (fun c => 0 <= c < 128) t /\ unquote_to_bytes s = t.
Proof.
  induction 1 as [|c s t R N _ (I1 & I2 & I3)|h l a b s t Hh Hl R _ (I1 & I2 & I3)].
  - repeat split; constructor.
  - repeat split; try (constructor; assumption). cbn [unquote_to_bytes].
    replace (c =? 37) with false by lia. f_equal. exact I3.
  - apply hex_is_value in Hh, Hl. destruct (hex_ascii _ _ Hh) as (A1 & A2 & _). destruct (hex_ascii _ _ Hl) as (B1 & B2 & _).
    repeat split.
    + repeat (constructor; [lia|]). exact I1.
    + constructor; [lia|exact I2].
    + cbn [unquote_to_bytes]. rewrite Hh, Hl. cbn. f_equal. exact I3.
Qed.
Lemma utf8_plain t : Forall (fun c => 0 <= c < 128) t -> utf8_replace t = t.
Proof.
  induction 1 as [|c t R _ IH]; [reflexivity|]. cbn [utf8_replace].
  replace (c <? 0x80) with true by lia. f_equal. exact IH.
Qed.
Lemma unquote_run_ascii s : forall run, Forall (fun c => 0 <= c < 128) s ->
  unquote_run run s = utf8_replace (unquote_to_bytes (run ++ s)).
Proof.
  induction s as [|c s IH]; intros run F; cbn [unquote_run]; [rewrite app_nil_r; reflexivity|].
  inversion F; subst. replace (c <? 128) with true by lia. rewrite IH by assumption.
  rewrite <- app_assoc. reflexivity.
Qed.
Lemma unquote_spells s t : spells s t -> unquote s = t.
Proof.
  intros H. destruct (spells_ascii _ _ H) as (A & B & C).
  unfold unquote. rewrite unquote_run_ascii by exact A. cbn [app]. rewrite C.
  apply utf8_plain. exact B.
Qed.

(** ** Joining *)

Lemma place_inside dst l : dst <> [] -> ~ In 47 (short_name l) ->
  place dst l = (if ends_with (txt "/") dst then dst else dst ++ txt "/") ++ short_name l.
Proof.
  intros D N. unfold place, path_join.
  destruct (starts_with (txt "/") (short_name l)) eqn:E.
  - apply starts_with_spec in E. destruct E as (r & E). exfalso. apply N. rewrite E. left. reflexivity.
  - destruct dst as [|c dst]; [contradiction|]. cbn [is_nil orb].
    destruct (ends_with (txt "/") (c :: dst)); [reflexivity|]. rewrite <- app_assoc. reflexivity.
Qed.
Lemma path_join_ends dst n : exists a, path_join dst n = a ++ n.
Proof.
  unfold path_join. destruct (starts_with (txt "/") n); [exists []; reflexivity|].
  destruct (is_nil dst || ends_with (txt "/") dst); [exists dst; reflexivity|].
  exists (dst ++ txt "/"). rewrite <- app_assoc. reflexivity.
Qed.
