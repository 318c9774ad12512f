(** C64, C65 and C66: reading project files. *)
From Coq Require Import String List ZArith Bool Lia ZifyBool ZifyNat.
From Verif Require Import Py Common Text Project Mqtt Client Cmqttd Cbz Base Spec Spec_client Spec_mqtt Mqtt_facts
  Spec_cbz Cbz_facts Prop_mqtt Prop_discovery.
Import ListNotations.
Open Scope Z_scope.

(** ** C64 *)

Lemma classes_distinct lib c : In c project_classes -> distinct lib (c_fields c).
Proof.
  unfold project_classes, distinct. cbn [In].
  intros H; repeat (destruct H as [<-|H]; [vm_compute; repeat constructor; cbn [In]; intuition discriminate|]); destruct H.
Qed.

Lemma instance lib e c l : distinct lib (c_fields c) ->
  from_element lib e c = Ok (VObj l) <->
  readable lib e c /\ Forall2 (fun f p => fst p = fst f /\ field_value lib e (fst f) (snd f) (snd p)) (c_fields c) l.
Proof.
  intros D. rewrite readable_spec. assert (S := element_spec lib e c D).
  assert (F : Forall (attr_ok lib (c_fields c)) (x_attrs e) -> Forall (child_ok lib (c_fields c)) (x_children e) ->
    forall fs, incl fs (c_fields c) -> forall l,
    Forall2 (fun f p => fst p = fst f /\ field_value lib e (fst f) (snd f) (snd p)) fs l <->
    l = state fs (fun f => fold_left (cstep lib f) (x_children e) (fold_left (astep lib f) (x_attrs e) (new_field (snd f))))).
  { intros A C. induction fs as [|[name t] fs IH]; intros I m.
    - split; [intros H; now inversion H|intros ->; constructor].
    - assert (X : forall v, field_value lib e name t v <->
        v = fold_left (cstep lib (name, t)) (x_children e) (fold_left (astep lib (name, t)) (x_attrs e) (new_field t))).
      { intros v. apply field_spec.
        - eapply Forall_impl; [|exact A]. intros kv H f [<-|[]] Q. apply (H (name, t)); [apply I; now left|exact Q].
        - eapply Forall_impl; [|exact C]. intros kv H f [<-|[]] Q. apply (H (name, t)); [apply I; now left|exact Q]. }
      assert (I' : incl fs (c_fields c)) by (intros f J; apply I; now right).
      unfold state. cbn [map fst snd]. split.
      + intros H. inversion H as [|f p fs' m' [N V] G]; subst. destruct p as [n v]. cbn [fst snd] in *. subst n.
        apply X in V. subst v. f_equal. now apply (IH I').
      + intros ->. constructor; [|now apply (IH I')]. cbn [fst snd]. split; [reflexivity|]. now apply X. }
  destruct (from_element lib e c) as [v|x].
  - destruct S as [A [C ->]]. split.
    + intros H. inversion H. split; [auto|]. apply (F A C (c_fields c)); [apply incl_refl|reflexivity].
    + intros [_ H]. apply (F A C (c_fields c)) in H; [now subst|apply incl_refl].
  - destruct S as [_ S]. split; [discriminate|]. intros [H _]. contradiction.
Qed.

(** An instance has one value per field of its class, the value the element
    gives to that field; the element must be readable. *)
Theorem C64_instance : forall lib e c l, In c project_classes ->
  from_element lib e c = Ok (VObj l) <->
  readable lib e c /\ Forall2 (fun f p => fst p = fst f /\ field_value lib e (fst f) (snd f) (snd p)) (c_fields c) l.
Proof. intros lib e c l I. apply instance. now apply classes_distinct. Qed.
Print Assumptions C64_instance.

(** An element that is not readable raises ValueError or TypeError, and nothing
    else does. *)
Theorem C64_unreadable : forall lib e c, In c project_classes ->
  (readable lib e c /\ exists l, from_element lib e c = Ok (VObj l))
  \/ (~ readable lib e c /\ (from_element lib e c = Raise ValueError \/ from_element lib e c = Raise TypeError)).
Proof.
  intros lib e c I. apply (classes_distinct lib) in I. assert (S := element_spec lib e c I). rewrite readable_spec.
  destruct (from_element lib e c) as [v|x].
  - left. destruct S as [A [C ->]]. split; [auto|]. now eexists.
  - right. destruct S as [[-> | ->] S]; auto.
Qed.
Print Assumptions C64_unreadable.

Lemma documented_entry (c c' : cls) (s s' : schema) (n n' : list string) :
  (c, s, n) = (c', s', n') -> c = c' /\ s = s' /\ n = n'.
Proof. intros H. inversion H. auto. Qed.
Ltac schema_fits :=
  match goal with M : forall fs es, _ |- fits _ ?c ?s =>
    apply (M (c_fields c) (entries s)); [unfold project_classes; cbn [In]; tauto|];
    unfold c_fields, entries; repeat (apply Forall2_cons; [split; [apply called_spec; vm_compute; reflexivity|first [assumption|constructor; assumption|constructor]]|]); apply Forall2_nil
  end.

(** An element is readable exactly if it is as the schema of its class says; its
    instance then has the attributes of its class. *)
Lemma classes_fit lib c s names : In (c, s, names) documented ->
  fits lib c s /\ map fst (c_fields c) = map txt names /\ In c project_classes.
Proof.
  assert (D : forall c, In c project_classes -> distinct lib (c_fields c)) by apply classes_distinct.
  assert (M : forall fs es, In (Class fs) project_classes ->
    Forall2 (fun f e => called lib (fst f) (fst e) /\ fits_type lib (snd f) (snd e)) fs es -> fits lib (Class fs) (Schema es)).
  { intros fs es I F. constructor; [exact (D _ I)|exact F]. }
  assert (P : fits lib PP_class parameter_schema) by schema_fits.
  assert (I : fits lib Interface_class interface_schema) by schema_fits.
  assert (U : fits lib Unit_class unit_schema) by schema_fits.
  assert (L : fits lib Level_class level_schema) by schema_fits.
  assert (G : fits lib Group_class group_schema) by schema_fits.
  assert (A : fits lib Application_class application_schema) by schema_fits.
  assert (N : fits lib Network_class network_schema) by schema_fits.
  assert (J : fits lib Project_class project_schema) by schema_fits.
  assert (R : fits lib Installer_class installer_schema) by schema_fits.
  assert (E : fits lib InstallationDetail_class detail_schema) by schema_fits.
  assert (Z : fits lib Installation_class installation_schema) by schema_fits.
  unfold documented. cbn [In]. intros H.
  repeat (destruct H as [H|H]; [apply documented_entry in H; destruct H as (<- & <- & <-);
    split; [assumption|split; [vm_compute; reflexivity|unfold project_classes; cbn [In]; tauto]]|]).
  destruct H.
Qed.
Theorem C64_valid : forall lib e c s names, In (c, s, names) documented ->
  (readable lib e c <-> valid lib s e)
  /\ ((exists v, from_element lib e c = Ok v) <-> valid lib s e)
  /\ (forall l, from_element lib e c = Ok (VObj l) -> map fst l = map txt names).
Proof.
  intros lib e c s names I. destruct (classes_fit lib c s names I) as (F & N & C).
  assert (V : (exists v, from_element lib e c = Ok v) <-> valid lib s e) by (apply (valid_fits lib (S (xml_size e))); [lia|exact F]).
  split; [|split; [exact V|]].
  - rewrite <- V. destruct (C64_unreadable lib e c C) as [[R [l E]]|[R E]].
    + split; [intros _; now exists (VObj l)|auto].
    + split; [contradiction|]. intros [v X]. destruct E as [E|E]; congruence.
  - intros l E. apply (C64_instance lib e c l C) in E. destruct E as [_ E]. rewrite <- N. clear -E.
    induction E as [|f p fs ps [A _] F IH]; [reflexivity|]. cbn [map]. now rewrite A, IH.
Qed.
Print Assumptions C64_valid.

Lemma root_valid lib root :
  (valid lib installation_schema root /\ exists l, from_element lib root Installation_class = Ok (VObj l))
  \/ (~ valid lib installation_schema root
      /\ (from_element lib root Installation_class = Raise ValueError \/ from_element lib root Installation_class = Raise TypeError)).
Proof.
  assert (I : exists names, In (Installation_class, installation_schema, names) documented)
    by (eexists; unfold documented; cbn [In]; repeat (first [left; reflexivity|right])).
  destruct I as [names I]. destruct (C64_valid lib root _ _ _ I) as (V & _). rewrite <- V.
  apply C64_unreadable. unfold project_classes. cbn [In]. tauto.
Qed.

(** Unknown attributes, unknown children, the element's own name and its text do
    not matter (for a class of any shape). *)
Theorem C64_unknown : forall lib c tag tag' body body' attrs attrs' children children' ,
  let known name := exists f, In f (c_fields c) /\ called lib name (fst f) in
  (exists kvs, picks (fun kv => known (fst kv)) attrs kvs /\ picks (fun kv => known (fst kv)) attrs' kvs) ->
  (exists chs, picks (fun ch => known (x_tag ch)) children chs /\ picks (fun ch => known (x_tag ch)) children' chs) ->
  from_element lib (Elem tag attrs body children) c = from_element lib (Elem tag' attrs' body' children') c.
Proof.
  intros lib c tag tag' body body' attrs attrs' children children' known [kvs [A A']] [chs [C C']].
  rewrite !from_element_eq. cbn [x_attrs x_children].
  assert (K : forall name, match find_field lib (c_fields c) name with Some f => known name | None => ~ known name end).
  { intros name. unfold find_field, known. clear. induction (c_fields c) as [|f fs IH].
    - intros [f [[] _]].
    - cbn [List.find]. destruct (text_eqb (normalise_name lib (fst f)) (normalise_name lib name)) eqn:E.
      + exists f. split; [now left|]. apply called_spec. symmetry. now apply text_eqb_eq.
      + destruct (List.find _ fs).
        * destruct IH as [g [J Q]]. exists g. split; [now right|exact Q].
        * intros [g [[J|J] Q]]; [|apply IH; now exists g]. subst g. apply called_spec in Q. apply text_eqb_neq in E. congruence. }
  assert (RA : forall l r, picks (fun kv : text * text => known (fst kv)) l r ->
    forall p, read_attributes lib (c_fields c) l p = read_attributes lib (c_fields c) r p).
  { induction 1 as [|[k s] l r H P IH|[k s] l r H P IH]; intros p; [reflexivity| |]; cbn [read_attributes fst] in *;
      specialize (K k); destruct (find_field lib (c_fields c) k) as [[name t]|]; try contradiction; [|apply IH].
    destruct (from_attribute lib t s); cbn [rbind]; [apply IH|reflexivity]. }
  assert (RC : forall l r, picks (fun ch => known (x_tag ch)) l r ->
    forall p, read_children lib c l p = read_children lib c r p).
  { induction 1 as [|ch l r H P IH|ch l r H P IH]; intros p; [reflexivity| |]; cbn [read_children];
      specialize (K (x_tag ch)); destruct (find_field lib (c_fields c) (x_tag ch)) as [[name t]|]; try contradiction; [|apply IH].
    destruct t; (match goal with |- context [rbind ?m _] => destruct m end); cbn [rbind]; try apply IH; reflexivity. }
  rewrite (RA _ _ A), (RA _ _ A'). destruct (read_attributes _ _ _ _); cbn [rbind]; [|reflexivity].
  now rewrite (RC _ _ C), (RC _ _ C').
Qed.
Print Assumptions C64_unknown.

(** ** C65 *)

Lemma last_such_iff {A} (P Q : A -> Prop) l x : (forall y, P y <-> Q y) -> last_such P l x <-> last_such Q l x.
Proof.
  intros H. unfold last_such. split; intros [a [b [-> [X F]]]]; exists a, b; (split; [reflexivity|]); (split; [now apply H|]);
    (eapply Forall_impl; [|exact F]); intros y N Y; apply N; now apply H.
Qed.
Lemma picks_iff {A} (P Q : A -> Prop) : (forall y, P y <-> Q y) -> forall l r, picks P l r <-> picks Q l r.
Proof.
  intros H l r. split; induction 1; constructor; auto; try (now apply H); intros Y; apply H in Y; contradiction.
Qed.
Lemma none_iff {A} (P Q : A -> Prop) l : (forall y, P y <-> Q y) -> Forall (fun y => ~ P y) l <-> Forall (fun y => ~ Q y) l.
Proof. intros H. rewrite !Forall_forall. split; intros F y I Y; apply (F y I); now apply H. Qed.
Lemma field_value_called lib e a b t v : called lib a b -> field_value lib e a t v <-> field_value lib e b t v.
Proof.
  intros E. apply called_spec in E.
  assert (C : forall ch, child_called lib a ch <-> child_called lib b ch).
  { intros ch. unfold child_called. rewrite !called_spec. split; congruence. }
  assert (K : forall kv, attr_called lib a kv <-> attr_called lib b kv).
  { intros kv. unfold attr_called. rewrite !called_spec. split; congruence. }
  destruct t; unfold field_value.
  6:{ split; intros [chs [vs [P R]]]; exists chs, vs; (split; [|exact R]); now apply (picks_iff _ _ C). }
  all: rewrite (none_iff _ _ (x_children e) C), (none_iff _ _ (x_attrs e) K);
    (split; (intros [[x [L R]]|[[F [x [L R]]]|H]];
       [left; exists x; split; [now apply (last_such_iff _ _ _ _ C)|exact R]
       |right; left; split; [exact F|]; exists x; split; [now apply (last_such_iff _ _ _ _ K)|exact R]
       |right; right; exact H])).
Qed.

Section Fields.
Context (lib : library) (c : cls) (D : In c project_classes).
Lemma field_of e v name t : from_element lib e c = Ok v -> In (name, t) (c_fields c) ->
  exists w, attribute v name = Ok w /\ field_value lib e name t w.
Proof.
  intros E I. assert (D' := classes_distinct lib c D). destruct (C64_unreadable lib e c D) as [[_ [l L]]|[_ [L|L]]]; try congruence.
  assert (v = VObj l) by congruence. subst v. apply (instance lib e c l D') in E. destruct E as [_ F]. clear L. revert F.
  assert (N : NoDup (map fst (c_fields c))).
  { clear -D'. unfold distinct in D'. revert D'. generalize (c_fields c). intros fs. induction fs as [|f fs IH]; intros D; [constructor|].
    cbn [map] in *. apply NoDup_cons_iff in D. destruct D as [D1 D2]. constructor; [|now apply IH]. intros J. apply D1.
    apply in_map_iff in J. destruct J as [f' [E J]]. rewrite <- E. apply (in_map (fun f => normalise_name lib (fst f))). exact J. }
  unfold attribute. clear D'. revert l. induction (c_fields c) as [|f fs IH]; intros l F; [destruct I|].
  inversion F as [|f' p fs' m [Q V] G]; subst. cbn [map] in N. apply NoDup_cons_iff in N. destruct N as [N1 N2]. cbn [List.find].
  destruct (text_eqb (fst p) name) eqn:T.
  - apply text_eqb_eq in T. destruct p as [n w]. cbn [fst snd] in *. exists w. split; [reflexivity|].
    destruct I as [-> |I]; [exact V|]. exfalso. apply N1. apply (in_map fst) in I. cbn [fst] in I. congruence.
  - destruct I as [-> |I]; [apply text_eqb_neq in T; cbn [fst] in *; congruence|]. now apply (IH I N2).
Qed.
Lemma text_of e v name name' : from_element lib e c = Ok v -> In (name, FText) (c_fields c) -> called lib name name' ->
  exists o, text_attribute v name = Ok o /\ says_text lib e name' o.
Proof.
  intros E I N. destruct (field_of e v name FText E I) as [w [A V]]. unfold text_attribute. rewrite A. cbn [rbind].
  apply (field_value_called lib e name name' FText w N) in V.
  assert (K : (exists s, w = VText s) \/ w = VNone).
  { cbn [field_value] in V. destruct V as [[ch [_ V]]|[[_ [kv [_ V]]]|[_ [_ V]]]]; cbn [child_says attr_says] in V; eauto. }
  destruct K as [[s ->]| ->]; [exists (Some s)|exists None]; split; try reflexivity; exact V.
Qed.
Lemma int_of e v name name' : from_element lib e c = Ok v -> In (name, FInt) (c_fields c) -> called lib name name' ->
  exists o, int_attribute v name = Ok o /\ says_int lib e name' o.
Proof.
  intros E I N. destruct (field_of e v name FInt E I) as [w [A V]]. unfold int_attribute. rewrite A. cbn [rbind].
  apply (field_value_called lib e name name' FInt w N) in V.
  assert (K : (exists s, w = VInt s) \/ w = VNone).
  { cbn [field_value] in V. destruct V as [[ch [_ V]]|[[_ [kv [_ V]]]|[_ [_ V]]]]; cbn [child_says attr_says] in V; auto.
    - destruct V as [s [z [_ [_ ->]]]]. eauto.
    - destruct V as [z [_ ->]]. eauto. }
  destruct K as [[s ->]| ->]; [exists (Some s)|exists None]; split; try reflexivity; exact V.
Qed.
Lemma list_of {A} (f : datum -> res A) (P : xml -> A -> Prop) d e v name name' :
  from_element lib e c = Ok v -> In (name, FSeq d) (c_fields c) -> called lib name name' ->
  (forall ch w, from_element lib ch d = Ok w -> exists a, f w = Ok a /\ P ch a) ->
  exists l, list_attribute f v name = Ok l /\ elements lib e name' P l.
Proof.
  intros E I N H. destruct (field_of e v name (FSeq d) E I) as [w [X V]]. unfold list_attribute. rewrite X. cbn [rbind].
  apply (field_value_called lib e name name' (FSeq d) w N) in V. destruct V as [chs [vs [K [F ->]]]].
  assert (M : exists l, map_res f vs = Ok l /\ Forall2 P chs l).
  { clear -F H. induction F as [|ch w chs vs E F [l [M G]]]; [exists []; split; constructor|].
    destruct (H ch w E) as [a [Fa Pa]]. exists (a :: l). cbn [map_res]. rewrite Fa. cbn [rbind]. rewrite M. cbn [rbind].
    split; [reflexivity|now constructor]. }
  destruct M as [l [M G]]. exists l. split; [exact M|]. now exists chs.
Qed.
End Fields.

Ltac known := cbn; repeat (first [left; reflexivity | right]); fail.
Ltac same_name := apply called_spec; reflexivity.
Ltac of_text e v E c n n' o A S :=
  destruct (text_of _ c ltac:(known) e v (txt n) (txt n') E ltac:(known) ltac:(same_name)) as [o [A S]];
  rewrite A; cbn [rbind].
Ltac of_int e v E c n n' o A S :=
  destruct (int_of _ c ltac:(known) e v (txt n) (txt n') E ltac:(known) ltac:(same_name)) as [o [A S]];
  rewrite A; cbn [rbind].
Ltac of_list e v E c f P d n n' o A S H :=
  destruct (list_of _ c ltac:(known) f P d e v (txt n) (txt n') E ltac:(known) ltac:(same_name) H) as [o [A S]];
  rewrite A; cbn [rbind].

Lemma parameter_read lib e v : from_element lib e PP_class = Ok v ->
  exists p, parameter_of v = Ok p /\ parameter_element lib e p.
Proof.
  intros E. unfold parameter_of. of_text e v E PP_class "name"%string "Name"%string n A1 S1.
  of_text e v E PP_class "value"%string "Value"%string x A2 S2. exists (mkParameter n x). split; [reflexivity|]. now split.
Qed.
Lemma unit_read lib e v : from_element lib e Unit_class = Ok v -> exists u, unit_of v = Ok u /\ unit_element lib e u.
Proof.
  intros E. unfold unit_of.
  of_text e v E Unit_class "tag_name"%string "TagName"%string tn A1 S1.
  of_int e v E Unit_class "address"%string "Address"%string a A2 S2.
  of_text e v E Unit_class "unit_type"%string "UnitType"%string ut A3 S3.
  of_text e v E Unit_class "unit_name"%string "UnitName"%string un A4 S4.
  of_text e v E Unit_class "serial_number"%string "SerialNumber"%string sn A5 S5.
  of_text e v E Unit_class "catalog_number"%string "CatalogNumber"%string cn A6 S6.
  of_list e v E Unit_class parameter_of (parameter_element lib) PP_class "pp"%string "PP"%string pp A7 S7 (parameter_read lib).
  eexists. split; [reflexivity|]. repeat (split; [assumption|]). assumption.
Qed.
Lemma group_read lib e v : from_element lib e Group_class = Ok v -> exists g, group_of v = Ok g /\ group_element lib e g.
Proof.
  intros E. unfold group_of.
  of_int e v E Group_class "address"%string "Address"%string a A2 S2.
  of_text e v E Group_class "tag_name"%string "TagName"%string tn A1 S1.
  eexists. split; [reflexivity|]. now split.
Qed.
Lemma application_read lib e v : from_element lib e Application_class = Ok v ->
  exists a, application_of v = Ok a /\ application_element lib e a.
Proof.
  intros E. unfold application_of.
  of_int e v E Application_class "address"%string "Address"%string a A2 S2.
  of_text e v E Application_class "tag_name"%string "TagName"%string tn A1 S1.
  of_text e v E Application_class "description"%string "Description"%string d A3 S3.
  of_list e v E Application_class group_of (group_element lib) Group_class "groups"%string "Group"%string gs A7 S7 (group_read lib).
  eexists. split; [reflexivity|]. repeat (split; [assumption|]). assumption.
Qed.
(** A field that is an element cannot be given by an attribute. *)
Lemma element_of lib c d e v name name' : In c project_classes -> from_element lib e c = Ok v ->
  In (name, FElem d) (c_fields c) -> called lib name name' ->
  (exists ch w, attribute v name = Ok w /\ last_such (child_called lib name') (x_children e) ch /\ from_element lib ch d = Ok w)
  \/ (attribute v name = Ok VNone /\ Forall (fun ch => ~ child_called lib name' ch) (x_children e)).
Proof.
  intros D E I N. destruct (field_of lib c D e v name (FElem d) E I) as [w [X V]].
  apply (field_value_called lib e name name' (FElem d) w N) in V. cbn [field_value child_says attr_says] in V.
  destruct V as [[ch [L V]]|[[_ [kv [_ []]]]|[F [_ ->]]]]; [left; now exists ch, w|now right].
Qed.
Lemma object_of lib e c v : In c project_classes -> from_element lib e c = Ok v -> exists l, v = VObj l.
Proof. intros D E. destruct (C64_unreadable lib e c D) as [[_ [l L]]|[_ [L|L]]]; try congruence. exists l. congruence. Qed.
Lemma network_read lib e v : from_element lib e Network_class = Ok v -> exists n, network_of v = Ok n /\ network_element lib e n.
Proof.
  intros E. unfold network_of.
  of_int e v E Network_class "address"%string "Address"%string a A2 S2.
  of_text e v E Network_class "tag_name"%string "TagName"%string tn A1 S1.
  of_int e v E Network_class "network_number"%string "NetworkNumber"%string nn A3 S3.
  assert (I : exists i, interface_of v = Ok i /\ interface_element lib e i).
  { unfold interface_of.
    destruct (element_of lib Network_class Interface_class e v (txt "interface") (txt "Interface") ltac:(known) E ltac:(known) ltac:(same_name))
      as [[ch [w [A [L C]]]]|[A F]]; rewrite A; cbn [rbind].
    - destruct (object_of lib ch Interface_class w ltac:(known) C) as [l ->].
      of_text ch (VObj l) C Interface_class "interface_type"%string "InterfaceType"%string t A4 S4.
      exists (Some t). split; [reflexivity|]. now exists ch.
    - exists None. split; [reflexivity|exact F]. }
  destruct I as [i [AI SI]]. rewrite AI. cbn [rbind].
  of_list e v E Network_class application_of (application_element lib) Application_class "applications"%string "Application"%string aps A5 S5 (application_read lib).
  of_list e v E Network_class unit_of (unit_element lib) Unit_class "units"%string "Unit"%string us A6 S6 (unit_read lib).
  eexists. split; [reflexivity|]. repeat (split; [assumption|]). assumption.
Qed.

(** A document describes its networks in only one way. *)
Lemma says_unique lib t ch v w : child_says lib t ch v -> child_says lib t ch w -> v = w.
Proof. rewrite !child_value_spec. congruence. Qed.
Lemma field_unique lib e name t v w : field_value lib e name t v -> field_value lib e name t w -> v = w.
Proof.
  assert (CS : forall ch, same lib (x_tag ch) name = true <-> child_called lib name ch) by (intros; apply same_spec).
  destruct t as [| | | |c|c]; cbn [field_value].
  6:{ intros [l1 [v1 [P1 [F1 ->]]]] [l2 [v2 [P2 [F2 ->]]]]. apply (picks_filter _ _ CS) in P1, P2. subst l1 l2. f_equal.
      clear -F1 F2. revert v2 F2. induction F1 as [|ch v l vs H F IH]; intros ws G; inversion G; subst; [reflexivity|].
      f_equal; [congruence|now apply IH]. }
  all: intros [[x [L R]]|[[F [x [L R]]]|[F [F' ->]]]] [[y [L2 R2]]|[[G [y [L2 R2]]]|[G [G' ->]]]];
    try reflexivity;
    try (match goal with L : last_such _ ?l _, F : Forall _ ?l |- _ => destruct (last_such_none _ _ _ L F) end);
    rewrite <- (last_such_unique _ _ _ _ L L2) in R2;
    first [exact (says_unique _ _ _ _ _ R R2)|apply attr_value_spec in R, R2; congruence].
Qed.
Lemma text_unique lib e n o o' : says_text lib e n o -> says_text lib e n o' -> o = o'.
Proof.
  destruct o, o'; cbn [says_text]; intros A B; assert (X := field_unique _ _ _ _ _ _ A B); congruence.
Qed.
Lemma int_unique lib e n o o' : says_int lib e n o -> says_int lib e n o' -> o = o'.
Proof.
  destruct o, o'; cbn [says_int]; intros A B; assert (X := field_unique _ _ _ _ _ _ A B); congruence.
Qed.
Lemma elements_unique {A} lib e n (P : xml -> A -> Prop) : (forall ch a b, P ch a -> P ch b -> a = b) ->
  forall l l', elements lib e n P l -> elements lib e n P l' -> l = l'.
Proof.
  assert (CS : forall ch, same lib (x_tag ch) n = true <-> child_called lib n ch) by (intros; apply same_spec).
  intros U l l' [c1 [P1 F1]] [c2 [P2 F2]]. apply (picks_filter _ _ CS) in P1, P2. subst c1 c2.
  revert l' F2. induction F1 as [|ch v l vs H F IH]; intros ws G; inversion G; subst; [reflexivity|].
  f_equal; [now apply (U ch)|now apply IH].
Qed.
Lemma parameter_unique lib e p q : parameter_element lib e p -> parameter_element lib e q -> p = q.
Proof. destruct p, q. intros [A B] [C D]. cbn in *. f_equal; eapply text_unique; eassumption. Qed.
Lemma unit_unique lib e p q : unit_element lib e p -> unit_element lib e q -> p = q.
Proof.
  destruct p, q. unfold unit_element; cbn. intros [A1 [A2 [A3 [A4 [A5 [A6 A7]]]]]] [B1 [B2 [B3 [B4 [B5 [B6 B7]]]]]].
  f_equal; try (eapply text_unique; eassumption); try (eapply int_unique; eassumption).
  eapply elements_unique; [|eassumption|eassumption]. apply parameter_unique.
Qed.
Lemma group_unique lib e p q : group_element lib e p -> group_element lib e q -> p = q.
Proof.
  destruct p, q. intros [A B] [C D]. cbn in *. f_equal; [eapply int_unique|eapply text_unique]; eassumption.
Qed.
Lemma application_unique lib e p q : application_element lib e p -> application_element lib e q -> p = q.
Proof.
  destruct p, q. unfold application_element; cbn. intros [A1 [A2 [A3 A4]]] [B1 [B2 [B3 B4]]].
  f_equal; try (eapply text_unique; eassumption); try (eapply int_unique; eassumption).
  eapply elements_unique; [|eassumption|eassumption]. apply group_unique.
Qed.
Lemma interface_unique lib e i j : interface_element lib e i -> interface_element lib e j -> i = j.
Proof.
  destruct i, j; cbn [interface_element]; [|intros [ch [L _]] F|intros F [ch [L _]]|reflexivity].
  - intros [x [L A]] [y [M B]]. rewrite <- (last_such_unique _ _ _ _ L M) in B. f_equal. eapply text_unique; eassumption.
  - destruct (last_such_none _ _ _ L F).
  - destruct (last_such_none _ _ _ L F).
Qed.
Lemma network_unique lib e p q : network_element lib e p -> network_element lib e q -> p = q.
Proof.
  destruct p, q. unfold network_element; cbn. intros [A1 [A2 [A3 [A4 [A5 A6]]]]] [B1 [B2 [B3 [B4 [B5 B6]]]]].
  f_equal; try (eapply text_unique; eassumption); try (eapply int_unique; eassumption).
  - eapply interface_unique; eassumption.
  - eapply elements_unique; [|eassumption|eassumption]. apply application_unique.
  - eapply elements_unique; [|eassumption|eassumption]. apply unit_unique.
Qed.
Lemma describes_unique lib root a b : describes lib root a -> describes lib root b -> a = b.
Proof.
  intros [p [L A]] [q [M B]]. rewrite <- (last_such_unique _ _ _ _ L M) in B.
  eapply elements_unique; [|eassumption|eassumption]. apply network_unique.
Qed.
Lemma describes_none lib root ns : describes lib root ns ->
  ~ Forall (fun ch => ~ child_called lib (txt "Project") ch) (x_children root).
Proof. intros [p [L _]]. now apply last_such_none in L. Qed.

(** The networks read from a document are those it describes; without a Project
    element there is an AttributeError. *)
Theorem C65_networks : forall lib root v, from_element lib root Installation_class = Ok v ->
  (exists ns, describes lib root ns
     /\ forall ns', project_networks v = Ok ns' <-> describes lib root ns')
  \/ (Forall (fun ch => ~ child_called lib (txt "Project") ch) (x_children root)
      /\ project_networks v = Raise AttributeError).
Proof.
  intros lib root v E. unfold project_networks.
  destruct (element_of lib Installation_class Project_class root v (txt "project") (txt "Project") ltac:(known) E ltac:(known) ltac:(same_name))
    as [[ch [w [A [L C]]]]|[A F]]; rewrite A; cbn [rbind].
  - left. destruct (list_of lib Project_class ltac:(known) network_of (network_element lib) Network_class ch w (txt "network") (txt "Network")
      C ltac:(known) ltac:(same_name) (network_read lib)) as [ns [N S]].
    assert (D : describes lib root ns) by (now exists ch).
    exists ns. split; [exact D|]. intros ns'. rewrite N. split.
    + intros X. inversion X. now subst.
    + intros X. f_equal. now apply (describes_unique lib root).
  - right. split; [exact F|]. reflexivity.
Qed.
Print Assumptions C65_networks.

Lemma holds_spec s root : holds s root <-> cbz_root s = Ok root.
Proof.
  assert (X : forall n, ends_with (txt ".xml") n = true <-> exists base, n = base ++ txt ".xml").
  { intros n. apply ends_with_spec. }
  split.
  - intros H. destruct H as [n e B|n e B|e]; cbn [cbz_root]; try (apply X in B; rewrite B); reflexivity.
  - destruct s as [c|c]; destruct c as [[|[n x] [|y l]]|x]; cbn [cbz_root]; try discriminate.
    + destruct (ends_with (txt ".xml") n) eqn:B; [|discriminate]. apply X in B. destruct x; [|discriminate].
      intros Q. inversion Q. subst. now constructor.
    + destruct x; [|discriminate]. intros Q. inversion Q. constructor.
    + destruct (ends_with (txt ".xml") n) eqn:B; [|discriminate]. apply X in B. destruct x; [|discriminate].
      intros Q. inversion Q. subst. now constructor.
Qed.

(** What read_cbz_labels gives for a file. *)
Theorem C65_file : forall lib s root, holds s root ->
  (~ valid lib installation_schema root ->
     read_cbz_file lib s = Raise ValueError \/ read_cbz_file lib s = Raise TypeError)
  /\ (valid lib installation_schema root ->
      Forall (fun ch => ~ child_called lib (txt "Project") ch) (x_children root) ->
      read_cbz_file lib s = Raise AttributeError)
  /\ (valid lib installation_schema root -> forall ns, describes lib root ns ->
      read_cbz_file lib s = read_cbz_labels (lib_unicode lib) ns).
Proof.
  intros lib s root H. apply holds_spec in H. unfold read_cbz_file, cbz_installation. rewrite H. cbn [rbind].
  assert (P : In Installation_class project_classes) by known.
  destruct (root_valid lib root) as [[R [l E]]|[R E]].
  - rewrite E. cbn [rbind]. split; [contradiction|]. destruct (C65_networks lib root _ E) as [[ns [D N]]|[F N]].
    + split; [intros _ F; destruct (describes_none _ _ _ D F)|]. intros _ ns' D'. apply N in D'. rewrite D'. reflexivity.
    + rewrite N. split; [reflexivity|]. intros _ ns D. destruct (describes_none _ _ _ D F).
  - split; [|split; contradiction]. intros _. destruct E as [-> | ->]; auto.
Qed.
Print Assumptions C65_file.

Lemma int_labels_in l a t : In (a, t) (int_labels l) <-> In (Some a, t) l.
Proof.
  unfold int_labels. rewrite in_flat_map. split.
  - intros [[[b|] s] [I J]]; cbn in J; [|destruct J]. destruct J as [J|[]]. inversion J. now subst.
  - intros I. exists (Some a, t). split; [exact I|]. now left.
Qed.
Lemma int_labels_nodup l : NoDup (map fst l) -> NoDup (map fst (int_labels l)).
Proof.
  induction l as [|[[b|] s] l IH]; intros N; [constructor| |]; cbn [map fst] in N; apply NoDup_cons_iff in N; destruct N as [N1 N2].
  - change (NoDup (b :: map fst (int_labels l))). constructor; [|now apply IH]. intros I. apply in_map_iff in I.
    destruct I as [[b' t] [E I]]. cbn in E. subst b'. apply int_labels_in in I. apply N1. apply in_map_iff. now exists (Some b, t).
  - change (NoDup (map fst (int_labels l))). now apply IH.
Qed.

(** The names under which the daemon announces the groups: for every document
    with one direct network with one lighting application, the name the document
    gives, otherwise the default name. *)
Theorem C65_announced : forall lib s root ns gs, holds s root -> valid lib installation_schema root -> describes lib root ns ->
  Forall (fun n => n_interface n <> None) ns -> lighting_groups ns gs -> Forall (fun g => g_tag_name g <> None) gs ->
  exists labels, read_cbz_file lib s = Ok labels
    /\ forall ga name, group_address ga -> named (int_labels labels) ga name <->
         last_named (lib_unicode lib) gs (Some ga) name
         \/ ((forall n, ~ last_named (lib_unicode lib) gs (Some ga) n)
             /\ exists d, three_digits ga d /\ name = txt "C-Bus Light " ++ d).
Proof.
  intros lib s root ns gs H R D I L G. destruct (C65_file lib s root H) as [_ [_ F]]. rewrite (F R ns D).
  destruct (C49_labels (lib_unicode lib) ns gs I L G) as [labels [E [N M]]]. exists labels. split; [exact E|].
  intros ga name _. assert (K : forall n, In (ga, n) (int_labels labels) <-> last_named (lib_unicode lib) gs (Some ga) n).
  { intros n. rewrite int_labels_in. apply M. }
  unfold named. split.
  - intros [[a [b [Q _]]]|[Q W]].
    + left. apply K. rewrite Q. apply in_or_app. right. now left.
    + right. split; [|exact W]. intros n X. apply K in X. now apply (Q n).
  - intros [X|[Q W]].
    + left. apply K in X. apply int_labels_nodup in N. apply in_split in X. destruct X as [a [b X]]. exists a, b. split; [exact X|].
      intros n J. rewrite X, map_app in N. cbn [map fst] in N. apply NoDup_remove_2 in N. apply N. apply in_or_app. left.
      apply in_map_iff. now exists (ga, n).
    + right. split; [|exact W]. intros n X. apply K in X. now apply (Q n).
Qed.
Print Assumptions C65_announced.

(** ** C66 *)

(** Which files load. *)
Theorem C66_loads : forall lib s,
  (exists v, cbz_installation lib s = Ok v) <-> exists root, holds s root /\ valid lib installation_schema root.
Proof.
  intros lib s. unfold cbz_installation. assert (P : In Installation_class project_classes) by known. split.
  - intros [v E]. destruct (cbz_root s) as [root|] eqn:R; cbn [rbind] in E; [|discriminate]. exists root.
    split; [now apply holds_spec|]. destruct (root_valid lib root) as [[Q _]|[_ [Q|Q]]]; [exact Q| |]; congruence.
  - intros [root [H R]]. apply holds_spec in H. rewrite H. cbn [rbind].
    destruct (root_valid lib root) as [[_ [l E]]|[Q _]]; [now exists (VObj l)|contradiction].
Qed.
Print Assumptions C66_loads.

(** The exception otherwise: an archive of the wrong form, a document that does
    not parse or an XML document given as an open file, or a document that
    cannot be read. *)
Theorem C66_fails : forall lib s x, cbz_installation lib s = Raise x ->
  match s with
  | FileName (Archive [(n, d)]) | OpenFile (Archive [(n, d)]) =>
      ((~ exists base, n = base ++ txt ".xml") /\ x = CBZException)
      \/ ((exists base, n = base ++ txt ".xml") /\ d = None /\ x = ParseError)
      \/ (exists root, holds s root /\ ~ valid lib installation_schema root /\ (x = ValueError \/ x = TypeError))
  | FileName (Archive _) | OpenFile (Archive _) => x = CBZException
  | FileName (Plain d) =>
      (d = None /\ x = ParseError)
      \/ (exists root, holds s root /\ ~ valid lib installation_schema root /\ (x = ValueError \/ x = TypeError))
  | OpenFile (Plain _) => x = ParseError
  end.
Proof.
  intros lib s x. unfold cbz_installation. assert (P : In Installation_class project_classes) by known.
  assert (B : forall n, (ends_with (txt ".xml") n = true <-> exists base, n = base ++ txt ".xml")).
  { intros n. apply ends_with_spec. }
  assert (U : forall root, from_element lib root Installation_class = Raise x ->
    ~ valid lib installation_schema root /\ (x = ValueError \/ x = TypeError)).
  { intros root E. destruct (root_valid lib root) as [[_ [l Q]]|[R Q]]; [congruence|].
    split; [exact R|]. destruct Q as [Q|Q]; rewrite E in Q; inversion Q; auto. }
  destruct s as [c|c]; destruct c as [[|[n d] [|y l]]|d]; cbn [cbz_root]; try (intros E; cbn [rbind] in E; inversion E; reflexivity).
  - destruct (ends_with (txt ".xml") n) eqn:N.
    + apply B in N. destruct d as [root|]; cbn [parsed rbind]; intros E.
      * right. right. exists root. split; [now constructor|]. now apply U.
      * right. left. inversion E. auto.
    + intros E. cbn [rbind] in E. inversion E. left. split; [|reflexivity]. rewrite <- B. congruence.
  - destruct d as [root|]; cbn [parsed rbind]; intros E.
    + right. exists root. split; [constructor|]. now apply U.
    + left. inversion E. auto.
  - destruct (ends_with (txt ".xml") n) eqn:N.
    + apply B in N. destruct d as [root|]; cbn [parsed rbind]; intros E.
      * right. right. exists root. split; [now constructor|]. now apply U.
      * right. left. inversion E. auto.
    + intros E. cbn [rbind] in E. inversion E. left. split; [|reflexivity]. rewrite <- B. congruence.
Qed.
Print Assumptions C66_fails.

(** The daemon opens the project file itself (cmqttd.py 412-415 offers "CBZ or
    XML"), so an XML project never gives it labels. *)
Theorem C66_daemon_xml : forall lib d, read_cbz_file lib (OpenFile (Plain d)) = Raise ParseError.
Proof. reflexivity. Qed.
Print Assumptions C66_daemon_xml.
Theorem C66_xml_refuted : ~ forall lib root ns, valid lib installation_schema root -> describes lib root ns ->
  read_cbz_file lib (OpenFile (Plain (Some root))) = read_cbz_labels (lib_unicode lib) ns.
Proof.
  intros H. set (lib := mkLibrary plain_unicode (fun c => [c]) (fun _ => Some 0) (fun _ => Some 0)).
  set (root := Elem (txt "Installation") [] None [Elem (txt "Project") [] None []]).
  assert (E : exists v, from_element lib root Installation_class = Ok v) by (eexists; vm_compute; reflexivity). destruct E as [v E].
  assert (R : valid lib installation_schema root).
  { destruct (root_valid lib root) as [[R _]|[_ [Q|Q]]]; [exact R| |]; congruence. }
  destruct (C65_networks lib root v E) as [[ns [D _]]|[F _]].
  - specialize (H lib root ns R D). assert (X : read_cbz_labels (lib_unicode lib) ns <> Raise ParseError).
    { destruct D as [p [L [chs [P F]]]]. assert (p = Elem (txt "Project") [] None []).
      { apply last_such_in in L. destruct L as [[L|[]] _]. congruence. }
      subst p. cbn in P. inversion P. subst. inversion F. discriminate. }
    apply X. rewrite <- H. reflexivity.
  - apply Forall_cons_iff in F. destruct F as [F _]. apply F. apply called_spec. reflexivity.
Qed.
Print Assumptions C66_xml_refuted.

(** ** Cases *)

Definition case_library : library := mkLibrary plain_unicode (fun c => [c]) (fun s => match s with [] => None | _ => Some 7 end) (fun _ => Some 0).
Definition leaf (tag body : string) : xml := Elem (txt tag) [] (Some (txt body)) [].
Definition case_root : xml :=
  let grp a n := Elem (txt "Group") [] None [leaf "OID" "x"; leaf "TagName" n; leaf "Address" a; leaf "Colour" "red"] in
  let app a gs := Elem (txt "Application") [(txt "ADDRESS", txt a)] None gs in
  let net i l := Elem (txt "Network") [] None (leaf "Address" "254" :: Elem (txt "Interface") [] None [leaf "InterfaceType" i] :: l) in
  Elem (txt "Installation") [(txt "DB_Version", txt "2.2")] None
    [leaf "Modified" "2004-10-12"; Elem (txt "Project") [] None
      [net "bridge" []; leaf "Colour" "blue";
       net "serial" [app "56" [grp "1" " Hall "; grp "2" "Group 2"; grp "0_3" "first"; grp "3" "last";
                               Elem (txt "Group") [] None [leaf "Address" "4"; Elem (txt "TagName") [] None []]];
                     app "48" []]]]%string.
(** A document is read; a group with an empty name is called None; the
    difference between a name and an open file; errors. *)
Example C65_case :
  read_cbz_file case_library (OpenFile (Archive [(txt "HOME.xml", Some case_root)]))
    = Ok [(Some 1, txt "Hall"); (Some 3, txt "last"); (Some 4, txt "None")]
  /\ read_cbz_file case_library (FileName (Plain (Some case_root)))
    = Ok [(Some 1, txt "Hall"); (Some 3, txt "last"); (Some 4, txt "None")]
  /\ read_cbz_file case_library (OpenFile (Plain (Some case_root))) = Raise ParseError
  /\ read_cbz_file case_library (OpenFile (Archive [(txt "A.xml", Some case_root); (txt "B.xml", None)])) = Raise CBZException
  /\ from_element case_library (Elem [] [] None [leaf "Address" "0x38"]) Group_class = Raise ValueError
  /\ from_element case_library (Elem [] [] None [Elem (txt "Address") [] None []]) Group_class = Raise TypeError
  /\ from_element case_library (Elem [] [(txt "Levels", txt "1")] None []) Group_class = Raise TypeError.
Proof. vm_compute. repeat split. Qed.
(** It satisfies the hypotheses of C65_announced. *)
Example C65_case_described : exists ns gs, readable case_library case_root Installation_class
  /\ describes case_library case_root ns /\ Forall (fun n => n_interface n <> None) ns /\ lighting_groups ns gs
  /\ Forall (fun g => g_tag_name g <> None) gs /\ List.length gs = 5%nat
  /\ last_named plain_unicode gs (Some 4) (txt "None").
Proof.
  assert (E : exists v, from_element case_library case_root Installation_class = Ok v) by (eexists; vm_compute; reflexivity).
  destruct E as [v E].
  assert (R : readable case_library case_root Installation_class).
  { destruct (C64_unreadable case_library case_root Installation_class ltac:(known)) as [[R _]|[_ [Q|Q]]]; [exact R| |]; congruence. }
  destruct (C65_networks case_library case_root v E) as [[ns [D N]]|[F X]].
  2:{ exfalso. revert X. rewrite <- (f_equal (fun r => match r with Ok x => x | _ => v end) E). vm_compute. discriminate. }
  assert (V : project_networks v = Ok ns) by (now apply N).
  assert (V' : rbind (from_element case_library case_root Installation_class) project_networks = Ok ns) by (rewrite E; exact V).
  vm_compute in V'. injection V' as V'. clear N V E.
  exists ns. subst ns. eexists. split; [exact R|]. split; [exact D|]. split; [repeat constructor; discriminate|]. split.
  { eexists _, _. split; [|split; [|reflexivity]].
    - eexists [_], []. split; [reflexivity|]. split; [discriminate|]. repeat constructor. intros X. apply X. reflexivity.
    - eexists [], [_]. split; [reflexivity|]. split; [reflexivity|]. repeat constructor. discriminate. }
  split; [repeat constructor; discriminate|]. split; [reflexivity|].
  eexists [_; _; _; _], _, []. split; [reflexivity|]. split; [|intros g n []].
  apply named_spec. exists (txt "None"). repeat split.
Qed.
