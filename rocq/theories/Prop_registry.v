(** C44: the application registry. *)
From Coq Require Import List ZArith Bool Lia ZifyBool ZifyNat Permutation.
From Verif Require Import Py Common Sal Registry Spec_sound.
Import ListNotations.
Open Scope Z_scope.

(** The application each id belongs to. *)
Definition serves (a : app_class) (id : Z) : Prop :=
  match a with
  | AppTemperature => id = 0x19
  | AppLighting => 0x30 <= id <= 0x5f
  | AppEnable => id = 0xcb
  | AppClock => id = 0xdf
  | AppStatusRequest => id = 0xff
  end.
(** A registry as a partial function. *)
Definition bound (r : registry) (id : Z) (a : app_class) : Prop := registry_get_application r id = Ok a.

Lemma app_eqb_eq a b : app_eqb a b = true <-> a = b.
Proof. destruct a, b; cbn; split; intros; congruence || reflexivity. Qed.
Lemma bound_get r id a : bound r id a <-> reg_get id r = Some a.
Proof. unfold bound, registry_get_application. destruct (reg_get id r); split; congruence. Qed.
Lemma get_cons r i a id : reg_get id ((i, a) :: r) = if i =? id then Some a else reg_get id r.
Proof. reflexivity. Qed.

Lemma register_ids_ok app : forall ids r, (forall i a, In i ids -> reg_get i r = Some a -> a = app) ->
  exists r', register_ids app ids r = Ok r'
    /\ forall id, reg_get id r' = if existsb (Z.eqb id) ids then Some app else reg_get id r.
Proof.
  induction ids as [|i ids IH]; intros r H.
  - exists r. split; reflexivity.
  - cbn [register_ids].
    assert (G : (exists r', register_ids app ids ((i, app) :: r) = Ok r'
       /\ forall id, reg_get id r' = if existsb (Z.eqb id) (i :: ids) then Some app else reg_get id r)).
    { destruct (IH ((i, app) :: r)) as [r' [E F]].
      - intros j a J. rewrite get_cons. destruct (i =? j); [congruence|]. apply H. now right.
      - exists r'. split; [exact E|]. intros id. rewrite F, get_cons. cbn [existsb].
        replace (id =? i) with (i =? id) by lia. destruct (existsb (Z.eqb id) ids), (i =? id); reflexivity. }
    destruct (reg_get i r) as [a|] eqn:R; [|exact G].
    rewrite (H i a (or_introl eq_refl) R). rewrite (proj2 (app_eqb_eq app app) eq_refl). exact G.
Qed.
Lemma register_ids_clash app i a : a <> app -> forall ids r, In i ids -> reg_get i r = Some a ->
  register_ids app ids r = Raise ValueError.
Proof.
  intros N. induction ids as [|j ids IH]; intros r I R; [destruct I|]. cbn [register_ids].
  assert (K : forall b, reg_get j r = Some b -> b <> app -> app_eqb b app = false).
  { intros b _ B. destruct (app_eqb b app) eqn:X; [|reflexivity]. apply app_eqb_eq in X. congruence. }
  destruct (Z.eq_dec j i) as [->|D].
  - rewrite R, (K a R N). reflexivity.
  - destruct I as [I|I]; [congruence|].
    assert (G : register_ids app ids ((j, app) :: r) = Raise ValueError).
    { apply IH; [exact I|]. rewrite get_cons. replace (j =? i) with false by lia. exact R. }
    destruct (reg_get j r) as [b|]; [destruct (app_eqb b app)|]; auto.
Qed.

(** One registration, of any class with any ids in any order. *)
Theorem C44_outcome : forall app ids r,
  ((forall i, In i ids -> 0 <= i <= 255) -> (forall i a, In i ids -> bound r i a -> a = app) ->
     exists r', register_with app ids r = (r', Ok tt)
       /\ forall id a, bound r' id a <-> (In id ids /\ a = app) \/ (~ In id ids /\ bound r id a))
  /\ ((exists i, In i ids /\ ~ 0 <= i <= 255) \/ (exists i a, In i ids /\ bound r i a /\ a <> app) ->
     register_with app ids r = (r, Raise ValueError)).
Proof.
  intros app ids r. split.
  - intros B U. destruct (register_ids_ok app ids r) as [r' [E F]].
    { intros i a I G. apply (U i a I). now apply bound_get. }
    exists r'. split.
    + unfold register_with.
      replace (forallb (fun i => (0 <=? i) && (i <=? 255)) ids) with true; [cbn [negb]; now rewrite E|].
      symmetry. apply forallb_forall. intros i I. specialize (B i I). lia.
    + intros id a. rewrite !bound_get, F. destruct (existsb (Z.eqb id) ids) eqn:X.
      * apply existsb_exists in X. destruct X as [j [J K]]. assert (j = id) by lia. subst j.
        split; [intros Q; inversion Q; auto|]. intros [[_ ->]|[N _]]; [reflexivity|contradiction].
      * assert (N : ~ In id ids).
        { intros I. assert (existsb (Z.eqb id) ids = true) by (apply existsb_exists; exists id; split; [exact I|lia]). congruence. }
        split; [auto|]. intros [[I _]|[_ Q]]; [contradiction|exact Q].
  - intros H. unfold register_with.
    destruct (forallb (fun i => (0 <=? i) && (i <=? 255)) ids) eqn:X; cbn [negb]; [|reflexivity].
    destruct H as [[i [I N]]|[i [a [I [G N]]]]].
    + rewrite forallb_forall in X. specialize (X i I). lia.
    + apply bound_get in G. now rewrite (register_ids_clash app i a N ids r I G).
Qed.
Print Assumptions C44_outcome.

(** A history of registrations, each with the ids of its class in some order;
    exceptions do not stop it. *)
Fixpoint registrations (l : list (app_class * list Z)) (r : registry) : registry * list (res unit) :=
  match l with
  | [] => (r, [])
  | (a, ids) :: l' =>
      let (r', o) := register_with a ids r in let (r'', os) := registrations l' r' in (r'', o :: os)
  end.
Definition own_ids (p : app_class * list Z) : Prop := forall id, In id (snd p) <-> serves (fst p) id.

Lemma in_set {A} (x id : Z) (f : Z -> bool) (g : A -> Z) (l : list A) :
  In id (x :: filter f (map g l)) <-> x = id \/ ((exists n, g n = id /\ In n l) /\ f id = true).
Proof. cbn [In]. rewrite filter_In, in_map_iff. reflexivity. Qed.
Lemma supported a : own_ids (a, supported_applications a).
Proof.
  intros id. destruct a; try (cbn; unfold APP_TEMPERATURE, APP_CLOCK, APP_ENABLE, APP_STATUS_REQUEST; intuition congruence).
  unfold supported_applications, fst, snd, serves. rewrite in_set. unfold APP_LIGHTING, APP_LIGHTING_FIRST. split.
  - intros [<-|[[n [<- I]] _]]; [lia|]. apply in_seq in I. lia.
  - intros H. destruct (Z.eq_dec id 56) as [->|N]; [now left|]. right. split; [|lia].
    exists (Z.to_nat (id - 48)). split; [lia|]. apply in_seq. lia.
Qed.
Lemma serves_unique a b id : serves a id -> serves b id -> a = b.
Proof. destruct a, b; cbn [serves]; intros; reflexivity || lia. Qed.

Lemma serves_dec a id : serves a id \/ ~ serves a id.
Proof. destruct a; cbn [serves]; lia. Qed.
(** Whatever the order of the classes, of their ids, and however often: every
    registration succeeds and the ids of exactly the registered classes are
    bound, each to its class. *)
Theorem C44_order : forall l, Forall own_ids l ->
  exists r, registrations l [] = (r, map (fun _ => Ok tt) l)
    /\ forall id a, bound r id a <-> In a (map fst l) /\ serves a id.
Proof.
  assert (G : forall l r, Forall own_ids l -> (forall id a, bound r id a -> serves a id) ->
    exists r', registrations l r = (r', map (fun _ => Ok tt) l)
      /\ forall id a, bound r' id a <-> bound r id a \/ (In a (map fst l) /\ serves a id)).
  { induction l as [|[a ids] l IH]; intros r F B; cbn [registrations map].
    - exists r. split; [reflexivity|]. intros id a. split; [auto|]. now intros [H|[[] _]].
    - apply Forall_cons_iff in F. destruct F as [O F]. cbn in O.
      destruct (C44_outcome a ids r) as [S _]. destruct S as [r1 [E H1]].
      { intros i I. apply O in I. destruct a; cbn [fst serves] in I; lia. }
      { intros i b I Hb. apply O in I. apply B in Hb. exact (serves_unique _ _ _ Hb I). }
      rewrite E. destruct (IH r1 F) as [r2 [E2 H2]].
      { intros id b Hb. apply H1 in Hb. destruct Hb as [[I ->]|[_ Hb]]; [now apply O|now apply B]. }
      rewrite E2. exists r2. split; [reflexivity|]. intros id b. rewrite H2, H1. cbn [fst In].
      assert (Q := O id). cbn [fst snd] in Q. rewrite Q. split.
      + intros [[[I ->]|[_ I]]|[I S]]; auto.
      + intros [I|[[<-|I] S]]; [|auto|auto].
        destruct (serves_dec a id) as [S|S]; [|auto]. left. left. split; [exact S|].
        exact (serves_unique _ _ _ (B _ _ I) S). }
  intros l F. destruct (G l [] F) as [r [E H]].
  - intros id a Hb. apply bound_get in Hb. discriminate Hb.
  - exists r. split; [exact E|]. intros id a. rewrite H. split; [|auto]. intros [Hb|Hb]; [|exact Hb].
    apply bound_get in Hb. discriminate Hb.
Qed.
Print Assumptions C44_order.

Lemma all_registrations : forall apps r, (forall o, In o (snd (registrations (map (fun a => (a, supported_applications a)) apps) r)) -> o = Ok tt) ->
  register_all apps r = (fst (registrations (map (fun a => (a, supported_applications a)) apps) r), Ok tt).
Proof.
  induction apps as [|a apps IH]; intros r H; [reflexivity|]. cbn [register_all map registrations] in *.
  unfold register_application. destruct (register_with a (supported_applications a) r) as [r1 o].
  destruct (registrations (map (fun a => (a, supported_applications a)) apps) r1) as [r2 os] eqn:E. cbn [fst snd] in *.
  assert (o = Ok tt) by (apply H; now left). subst o. rewrite IH; rewrite E; cbn [fst snd]; [reflexivity|].
  intros o I. apply H. now right.
Qed.
(** Importing the package: the loop over the five classes in any order gives
    the lookup the packet decoder uses, and a handler to every application id
    of the protocol. *)
Theorem C44_import : forall apps, Permutation apps APPLICATIONS ->
  exists r, register_all apps [] = (r, Ok tt)
    /\ (forall id a, registry_get_application r id = Ok a <-> serves a id)
    /\ (forall id, (forall a, ~ serves a id) -> registry_get_application r id = Raise KeyError)
    /\ (forall id, registry_get_application r id = get_application id)
    /\ (forall id, known_application id <-> exists a, registry_get_application r id = Ok a).
Proof.
  intros apps P.
  destruct (C44_order (map (fun a => (a, supported_applications a)) apps)) as [r [E H]].
  { apply Forall_forall. intros p I. apply in_map_iff in I. destruct I as [a [<- _]]. apply supported. }
  assert (A : forall a, In a apps).
  { intros a. apply (Permutation_in _ (Permutation_sym P)). destruct a; cbn; auto 10. }
  assert (H' : forall id a, registry_get_application r id = Ok a <-> serves a id).
  { intros id a. unfold bound in H. rewrite H, map_map, map_id. split; [tauto|]. auto. }
  exists r. split.
  - rewrite all_registrations; rewrite E; [reflexivity|]. cbn [snd]. intros o I. apply in_map_iff in I.
    now destruct I as [x [<- _]].
  - split; [exact H'|].
    assert (K : forall id, (forall a, ~ serves a id) -> registry_get_application r id = Raise KeyError).
    { intros id N. destruct (registry_get_application r id) as [a|e] eqn:G.
      - apply H' in G. exfalso. now apply (N a).
      - unfold registry_get_application in G. destruct (reg_get id r); congruence. }
    split; [exact K|]. split.
    + intros id. destruct (get_application id) as [a|e] eqn:G.
      * apply H'. unfold get_application, APP_TEMPERATURE, APP_LIGHTING_FIRST, APP_LIGHTING_LAST, APP_CLOCK, APP_ENABLE, APP_STATUS_REQUEST in G.
        repeat match type of G with (if ?b then _ else _) = _ => destruct b eqn:?; [inversion G; cbn [serves]; lia|] end.
        discriminate G.
      * unfold get_application, APP_TEMPERATURE, APP_LIGHTING_FIRST, APP_LIGHTING_LAST, APP_CLOCK, APP_ENABLE, APP_STATUS_REQUEST in G.
        repeat match type of G with (if ?b then _ else _) = _ => destruct b eqn:?; [discriminate G|] end.
        inversion G; subst e. apply K. intros a. destruct a; cbn [serves]; lia.
    + intros id. split.
      * intros [->|[L|[->|[->| ->]]]];
          [exists AppTemperature|exists AppLighting|exists AppEnable|exists AppClock|exists AppStatusRequest];
          apply H'; cbn [serves]; lia.
      * intros [a G]. apply H' in G. unfold known_application. destruct a; cbn [serves] in G; lia.
Qed.
Print Assumptions C44_import.

(** Were an id taken already by another class, the import would stop there: what
    was registered before stays, and no later class is registered. *)
Theorem C44_aborts : forall before a after r r1, register_all before r = (r1, Ok tt) ->
  (exists i b, serves a i /\ bound r1 i b /\ b <> a) ->
  register_all (before ++ a :: after) r = (r1, Raise ValueError).
Proof.
  induction before as [|x before IH]; intros a after r r1 E [i [b [S [B N]]]]; cbn [register_all app] in *.
  - inversion E; subst. unfold register_application.
    rewrite (proj2 (C44_outcome a (supported_applications a) r1)); [reflexivity|]. right. exists i, b.
    split; [now apply (supported a)|now split].
  - destruct (register_application x r) as [r2 [[]|e]]; [|discriminate]. apply IH; [exact E|eauto].
Qed.
Print Assumptions C44_aborts.
Example C44_aborts_case : let r := [(0xcb, AppClock)] in
  exists r1, register_all [AppLighting] r = (r1, Ok tt) /\ bound r1 0xcb AppClock
    /\ register_all [AppLighting; AppEnable; AppTemperature] r = (r1, Raise ValueError).
Proof. eexists. vm_compute. repeat split. Qed.

(** Registering a class again changes nothing. *)
Theorem C44_again : forall app ids r r', register_with app ids r = (r', Ok tt) ->
  exists r'', register_with app ids r' = (r'', Ok tt) /\ forall id a, bound r'' id a <-> bound r' id a.
Proof.
  intros app ids r r' E.
  destruct (C44_outcome app ids r) as [A B].
  assert (I : forall i, In i ids -> 0 <= i <= 255).
  { intros i I. destruct (Z_le_dec 0 i), (Z_le_dec i 255); try lia;
      rewrite B in E by (left; exists i; split; [exact I|lia]); discriminate E. }
  assert (U : forall i a, In i ids -> bound r i a -> a = app).
  { intros i a J H. destruct (app_eqb a app) eqn:X; [now apply app_eqb_eq|].
    rewrite B in E; [discriminate E|]. right. exists i, a. split; [exact J|]. split; [exact H|].
    intros ->. rewrite (proj2 (app_eqb_eq app app) eq_refl) in X. discriminate X. }
  destruct (A I U) as [r1 [E1 H1]]. rewrite E1 in E. inversion E; subst r1.
  destruct (C44_outcome app ids r') as [A' _]. destruct (A' I) as [r2 [E2 H2]].
  { intros i a J H. apply H1 in H. destruct H as [[_ ->]|[N _]]; [reflexivity|contradiction]. }
  exists r2. split; [exact E2|]. intros id a. rewrite H2. split.
  - intros [[J ->]|[_ H]]; [apply H1; left; auto|exact H].
  - intros H. destruct (in_dec Z.eq_dec id ids) as [J|J]; [|auto]. left. split; [exact J|].
    apply H1 in H. destruct H as [[_ ->]|[N _]]; [reflexivity|contradiction].
Qed.
Print Assumptions C44_again.

Example C44_case :
  let r := fst (register_all (rev APPLICATIONS) []) in
  map (registry_get_application r) [0x19; 0x2f; 0x30; 0x38; 0x5f; 0x60; 0xcb; 0xdf; 0xff; -1]
  = [Ok AppTemperature; Raise KeyError; Ok AppLighting; Ok AppLighting; Ok AppLighting; Raise KeyError;
     Ok AppEnable; Ok AppClock; Ok AppStatusRequest; Raise KeyError]
  /\ register_with AppClock [0x10; 0x38] r = (r, Raise ValueError)
  /\ register_with AppClock [0x100] r = (r, Raise ValueError).
Proof. vm_compute. repeat split. Qed.
