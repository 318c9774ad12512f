(** Facts about the reader of project files. *)
From Coq Require Import String List ZArith Bool Lia ZifyBool ZifyNat.
From Verif Require Import Py Common Text Project Mqtt Client Cmqttd Cbz Base Spec Spec_mqtt Mqtt_facts Spec_cbz.
Import ListNotations.
Open Scope Z_scope.

(** ** Names *)

Lemma lower_is lib s : py_lower lib s = List.concat (map (lower_of lib) s).
Proof.
  unfold py_lower. rewrite flat_map_concat_map. f_equal. apply map_ext. intros c. unfold lower_of.
  destruct (c <? 128) eqn:L, ((65 <=? c) && (c <=? 90)) eqn:A; try reflexivity. lia.
Qed.
Lemma rev_repeat {A} (x : A) n : rev (repeat x n) = repeat x n.
Proof. induction n; [reflexivity|]. cbn [repeat rev]. rewrite IHn. symmetry. apply repeat_cons. Qed.
Lemma last_rev {A} (d : A) l : last l d = hd d (rev l).
Proof.
  induction l as [|x l _] using rev_ind; [reflexivity|]. rewrite rev_app_distr, last_last. reflexivity.
Qed.
Lemma stem_spec lib s t : stem lib s t <-> t = normalise_name lib s.
Proof.
  unfold stem, normalise_name. rewrite lower_is. set (x := filter _ _). split.
  - intros [n [E L]]. rewrite E, rev_app_distr, rev_repeat, drop_while_app.
    2:{ apply Forall_forall. intros c I. apply repeat_spec in I. subst. reflexivity. }
    rewrite last_rev in L. destruct (rev t) as [|c r] eqn:R.
    + apply (f_equal (@rev Z)) in R. rewrite rev_involutive in R. now rewrite R.
    + cbn [hd] in L. rewrite drop_while_stop by lia. rewrite <- R. symmetry. apply rev_involutive.
  - intros ->. destruct (drop_while_split (fun c => c =? 115) (rev x)) as [a [E F]].
    exists (List.length a). split.
    + apply (f_equal (@rev Z)) in E. rewrite rev_involutive, rev_app_distr in E. rewrite E at 1. f_equal.
      clear E. assert (G : a = repeat 115 (List.length a)).
      { induction a as [|c a IH]; [reflexivity|]. apply Forall_cons_iff in F. destruct F as [F1 F2].
        cbn [List.length repeat]. rewrite <- (IH F2). f_equal. lia. }
      rewrite G at 1. apply rev_repeat.
    + rewrite last_rev, rev_involutive. destruct (drop_while_head (fun c => c =? 115) (rev x)) as [-> |[c [m [-> D]]]]; cbn [hd]; lia.
Qed.
Lemma called_spec lib a b : called lib a b <-> normalise_name lib a = normalise_name lib b.
Proof.
  unfold called. split.
  - intros [t [A B]]. apply stem_spec in A, B. congruence.
  - intros E. exists (normalise_name lib a). split; apply stem_spec; auto.
Qed.
Lemma called_sym lib a b : called lib a b <-> called lib b a.
Proof. rewrite !called_spec. split; congruence. Qed.
Definition same (lib : library) (a b : text) : bool := text_eqb (normalise_name lib a) (normalise_name lib b).
Lemma same_spec lib a b : same lib a b = true <-> called lib a b.
Proof. unfold same. rewrite text_eqb_eq, called_spec. tauto. Qed.
Lemma same_false lib a b : same lib a b = false <-> ~ called lib a b.
Proof. rewrite <- same_spec. destruct (same lib a b); split; congruence. Qed.

(** ** Reading one element *)

(** [read_children] of Cbz.from_element. *)
Definition read_children (lib : library) (c : cls) :=
  fix read_children (l : list xml) (params : list (text * datum)) {struct l} : res (list (text * datum)) :=
    match l with
    | [] => Ok params
    | child :: l' =>
        match find_field lib (c_fields c) (x_tag child) with
        | None => read_children l' params
        | Some (name, FSeq c') =>
            rbind (from_element lib child c') (fun v => read_children l' (put_last name v params))
        | Some (name, FElem c') =>
            rbind (from_element lib child c') (fun v => read_children l' (put name v params))
        | Some (name, t) =>
            rbind (from_text lib t (x_body child)) (fun v => read_children l' (put name v params))
        end
    end.
Lemma from_element_eq lib e c : from_element lib e c =
  rbind (read_attributes lib (c_fields c) (x_attrs e) (map (fun f => (fst f, new_field (snd f))) (c_fields c))) (fun params =>
  rbind (read_children lib c (x_children e) params) (fun params => Ok (VObj params))).
Proof. destruct e. reflexivity. Qed.

(** What a child says, as a function. *)
Definition child_value (lib : library) (t : ftype) (ch : xml) : res datum :=
  match t with
  | FElem c | FSeq c => from_element lib ch c
  | _ => from_text lib t (x_body ch)
  end.
Lemma child_value_spec lib t ch v : child_says lib t ch v <-> child_value lib t ch = Ok v.
Proof.
  unfold child_says, child_value. destruct t; cbn [from_text]; try tauto.
  - destruct (x_body ch); split; congruence.
  - destruct (x_body ch) as [s|]; [|split; [intros [s [z [X _]]]; discriminate X|discriminate]].
    destruct (py_int_of_text (lib_unicode lib) s) as [z|] eqn:E; cbn [rbind]; split.
    + intros [s' [z' [X [Y ->]]]]. apply int_reads in Y. congruence.
    + intros X. inversion X. subst. apply int_reads in E. now exists s, z.
    + intros [s' [z' [X [Y _]]]]. apply int_reads in Y. congruence.
    + discriminate.
  - destruct (x_body ch) as [s|]; [|split; [intros [s [z [X _]]]; discriminate X|discriminate]].
    destruct (lib_uuid lib s) as [z|] eqn:E; split.
    + intros [s' [z' [X [Y ->]]]]. congruence.
    + intros X. inversion X. now exists s, z.
    + intros [s' [z' [X [Y _]]]]. congruence.
    + discriminate.
  - destruct (x_body ch) as [s|]; [|split; [intros [s [z [X _]]]; discriminate X|discriminate]].
    destruct (lib_date lib s) as [z|] eqn:E; split.
    + intros [s' [z' [X [Y ->]]]]. congruence.
    + intros X. inversion X. now exists s, z.
    + intros [s' [z' [X [Y _]]]]. congruence.
    + discriminate.
Qed.
Lemma attr_value_spec lib t s v : attr_says lib t s v <-> from_attribute lib t s = Ok v.
Proof.
  unfold attr_says. destruct t; cbn [from_attribute]; try (split; [intros []|discriminate]).
  - split; congruence.
  - destruct (py_int_of_text (lib_unicode lib) s) as [z|] eqn:E; cbn [rbind]; split.
    + intros [z' [X ->]]. apply int_reads in X. congruence.
    + intros X. inversion X. subst. apply int_reads in E. now exists z.
    + intros [z' [X _]]. apply int_reads in X. congruence.
    + discriminate.
  - destruct (lib_uuid lib s) as [z|]; split.
    + intros [z' [X ->]]. congruence.
    + intros X. inversion X. now exists z.
    + intros [z' [X _]]. congruence.
    + discriminate.
Qed.

(** Fields whose names cannot be confused. *)
Definition distinct (lib : library) (fields : list (text * ftype)) : Prop :=
  NoDup (map (fun f => normalise_name lib (fst f)) fields).
Definition wrong (e : exn) : Prop := e = ValueError \/ e = TypeError.

(** The effect of one attribute and of one child on one field. *)
Definition astep (lib : library) (f : text * ftype) (w : datum) (kv : text * text) : datum :=
  if same lib (fst kv) (fst f) then match from_attribute lib (snd f) (snd kv) with Ok v => v | _ => w end else w.
Definition extend (t : ftype) (w v : datum) : datum :=
  match t with FSeq _ => match w with VList l => VList (l ++ [v]) | _ => w end | _ => v end.
Definition cstep (lib : library) (f : text * ftype) (w : datum) (ch : xml) : datum :=
  if same lib (x_tag ch) (fst f) then match child_value lib (snd f) ch with Ok v => extend (snd f) w v | _ => w end else w.
Definition state (fields : list (text * ftype)) (g : text * ftype -> datum) : list (text * datum) :=
  map (fun f => (fst f, g f)) fields.

Lemma find_spec lib fields key : distinct lib fields ->
  match find_field lib fields key with
  | Some f => In f fields /\ same lib key (fst f) = true
      /\ forall f', In f' fields -> same lib key (fst f') = true -> f' = f
  | None => forall f, In f fields -> same lib key (fst f) = false
  end.
Proof.
  unfold distinct, find_field. induction fields as [|f l IH]; intros D; [intros f []|].
  cbn [map] in D. apply NoDup_cons_iff in D. destruct D as [D1 D2]. specialize (IH D2).
  cbn [List.find]. destruct (text_eqb (normalise_name lib (fst f)) (normalise_name lib key)) eqn:E.
  - apply text_eqb_eq in E. split; [now left|]. split; [unfold same; now apply text_eqb_eq|].
    intros f' [<-|I] S; [reflexivity|]. exfalso. apply D1. unfold same in S. apply text_eqb_eq in S.
    rewrite E, S. apply (in_map (fun f => normalise_name lib (fst f))). exact I.
  - assert (E' : same lib key (fst f) = false).
    { unfold same. apply text_eqb_neq. apply text_eqb_neq in E. congruence. }
    destruct (List.find _ l) as [f0|].
    + destruct IH as [I [S U]]. split; [now right|]. split; [exact S|]. intros f' [<-|J] Q; [congruence|now apply U].
    + intros f' [<-|J]; [exact E'|now apply IH].
Qed.
Lemma name_field lib fields f f' : distinct lib fields -> In f fields -> In f' fields -> fst f = fst f' -> f = f'.
Proof.
  intros D I J E. assert (S := find_spec lib fields (fst f) D).
  destruct (find_field lib fields (fst f)) as [f0|].
  - destruct S as [_ [_ U]]. rewrite (U f I), (U f' J); [reflexivity| |]; unfold same; apply text_eqb_eq; congruence.
  - specialize (S f I). unfold same in S. apply text_eqb_neq in S. congruence.
Qed.
Lemma put_state lib fields g f h : distinct lib fields -> In f fields -> h f = g f ->
  forall v, put (fst f) v (state fields h) = state fields (fun f' => if text_eqb (fst f') (fst f) then v else h f').
Proof.
  intros D I _ v. unfold put, state. rewrite map_map. apply map_ext. intros f'. cbn [fst].
  destruct (text_eqb (fst f') (fst f)) eqn:E; [|reflexivity]. apply text_eqb_eq in E. congruence.
Qed.
Lemma state_ext fields g h : (forall f, In f fields -> g f = h f) -> state fields g = state fields h.
Proof. intros H. apply map_ext_in. intros f I. now rewrite H. Qed.

Lemma int_errors u s e : py_int_of_text u s = Raise e -> e = ValueError.
Proof.
  unfold py_int_of_text. cbv zeta.
  match goal with |- context [match ?x with Some _ => Ok _ | None => _ end] => destruct x end; [discriminate|].
  intros X. now inversion X.
Qed.
Lemma attribute_errors lib t s e : from_attribute lib t s = Raise e -> wrong e.
Proof.
  unfold wrong. destruct t; cbn [from_attribute]; try (intros X; inversion X; now right).
  - destruct (py_int_of_text (lib_unicode lib) s) as [z|x] eqn:E; cbn [rbind]; [discriminate|].
    intros X. inversion X. subst. left. now apply int_errors in E.
  - destruct (lib_uuid lib s); [discriminate|]. intros X. inversion X. now left.
Qed.
Lemma text_errors lib t s e : from_text lib t s = Raise e -> wrong e.
Proof.
  unfold wrong. destruct t, s as [s|]; cbn [from_text]; try (intros X; inversion X; now right); try discriminate.
  - destruct (py_int_of_text (lib_unicode lib) s) as [z|x] eqn:E; cbn [rbind]; [discriminate|].
    intros X. inversion X. subst. left. now apply int_errors in E.
  - destruct (lib_uuid lib s); [discriminate|]. intros X. inversion X. now left.
  - destruct (lib_date lib s); [discriminate|]. intros X. inversion X. now left.
Qed.

Definition attr_ok (lib : library) (fields : list (text * ftype)) (kv : text * text) : Prop :=
  forall f, In f fields -> same lib (fst kv) (fst f) = true -> exists v, from_attribute lib (snd f) (snd kv) = Ok v.
Definition child_ok (lib : library) (fields : list (text * ftype)) (ch : xml) : Prop :=
  forall f, In f fields -> same lib (x_tag ch) (fst f) = true -> exists v, child_value lib (snd f) ch = Ok v.

Lemma attributes_spec lib fields : distinct lib fields -> forall attrs g,
  match read_attributes lib fields attrs (state fields g) with
  | Ok params => Forall (attr_ok lib fields) attrs /\ params = state fields (fun f => fold_left (astep lib f) attrs (g f))
  | Raise e => wrong e /\ ~ Forall (attr_ok lib fields) attrs
  end.
Proof.
  intros D attrs. induction attrs as [|[key s] attrs IH]; intros g; [split; [constructor|reflexivity]|].
  cbn [read_attributes]. assert (S := find_spec lib fields key D).
  destruct (find_field lib fields key) as [[name t]|].
  - destruct S as [I [S U]]. destruct (from_attribute lib t s) as [v|e] eqn:E; cbn [rbind].
    + rewrite (put_state lib fields g (name, t) g D I eq_refl).
      specialize (IH (fun f' => if text_eqb (fst f') name then v else g f')). cbn [fst].
      assert (OK : attr_ok lib fields (key, s)).
      { intros f J Q. cbn [fst snd] in *. rewrite (U f J Q). now exists v. }
      destruct (read_attributes _ _ _ _) as [params|x].
      * destruct IH as [F ->]. split; [now constructor|]. apply state_ext. intros f J. cbn [fold_left]. f_equal.
        unfold astep at 1. cbn [fst snd].
        destruct (text_eqb (fst f) name) eqn:N.
        -- apply text_eqb_eq in N. assert (f = (name, t)) by (apply (name_field lib fields); auto). subst f.
           rewrite S. cbn [snd]. now rewrite E.
        -- destruct (same lib key (fst f)) eqn:Q; [|reflexivity]. rewrite (U f J Q) in N. cbn in N.
           apply text_eqb_neq in N. congruence.
      * destruct IH as [W F]. split; [exact W|]. intros X. apply F. now apply Forall_cons_iff in X.
    + split; [now apply (attribute_errors lib t s)|]. intros X. apply Forall_cons_iff in X. destruct X as [X _].
      destruct (X (name, t) I S) as [v Y]. cbn [snd] in Y. congruence.
  - specialize (IH g). assert (OK : attr_ok lib fields (key, s)).
    { intros f J Q. cbn [fst] in Q. rewrite (S f J) in Q. discriminate. }
    destruct (read_attributes _ _ _ _) as [params|x].
    + destruct IH as [F ->]. split; [now constructor|]. apply state_ext. intros f J. cbn [fold_left]. f_equal.
      unfold astep. cbn [fst]. now rewrite (S f J).
    + destruct IH as [W F]. split; [exact W|]. intros X. apply F. now apply Forall_cons_iff in X.
Qed.

(** Sequences hold lists. *)
Definition seq_lists (fields : list (text * ftype)) (g : text * ftype -> datum) : Prop :=
  forall f, In f fields -> match snd f with FSeq _ => exists l, g f = VList l | _ => True end.

Lemma children_spec lib c : distinct lib (c_fields c) ->
  forall l, (forall ch t e, In ch l -> child_value lib t ch = Raise e -> wrong e) -> forall g,
  match read_children lib c l (state (c_fields c) g) with
  | Ok params => Forall (child_ok lib (c_fields c)) l /\ params = state (c_fields c) (fun f => fold_left (cstep lib f) l (g f))
  | Raise e => wrong e /\ ~ Forall (child_ok lib (c_fields c)) l
  end.
Proof.
  intros D l. induction l as [|ch l IH]; intros W g; [split; [constructor|reflexivity]|].
  assert (W' : forall ch t e, In ch l -> child_value lib t ch = Raise e -> wrong e) by (intros ch' t e I E; apply (W ch' t e); [now right|exact E]).
  specialize (IH W'). cbn [read_children]. assert (S := find_spec lib (c_fields c) (x_tag ch) D).
  destruct (find_field lib (c_fields c) (x_tag ch)) as [[name t]|].
  - destruct S as [I [S U]]. cbn [fst] in S.
    assert (G : match rbind (child_value lib t ch) (fun v => read_children lib c l
        (match t with FSeq _ => put_last name v (state (c_fields c) g) | _ => put name v (state (c_fields c) g) end)) with
      | Ok params => Forall (child_ok lib (c_fields c)) (ch :: l)
          /\ params = state (c_fields c) (fun f => fold_left (cstep lib f) (ch :: l) (g f))
      | Raise e => wrong e /\ ~ Forall (child_ok lib (c_fields c)) (ch :: l) end).
    { destruct (child_value lib t ch) as [v|e] eqn:E; cbn [rbind].
      - assert (P : (match t with FSeq _ => put_last name v (state (c_fields c) g) | _ => put name v (state (c_fields c) g) end)
          = state (c_fields c) (fun f => cstep lib f (g f) ch)).
        { assert (Q : forall f, In f (c_fields c) -> (f = (name, t) /\ cstep lib f (g f) ch = extend t (g f) v)
            \/ (text_eqb (fst f) name = false /\ cstep lib f (g f) ch = g f)).
          { intros f J. destruct (same lib (x_tag ch) (fst f)) eqn:Q.
            - left. rewrite (U f J Q). split; [reflexivity|]. unfold cstep. cbn [fst snd]. now rewrite S, E.
            - right. split; [|unfold cstep; now rewrite Q]. apply text_eqb_neq. intros N.
              rewrite N in Q. congruence. }
          destruct t; cbn [extend] in *.
          6:{ unfold put_last, state. rewrite map_map. apply map_ext_in. intros f J. cbn [fst snd].
              destruct (Q f J) as [[-> ->]|[N ->]]; cbn [fst snd].
              - rewrite (proj2 (text_eqb_eq name name) eq_refl). now destruct (g _).
              - now rewrite N. }
          all: unfold put, state; rewrite map_map; apply map_ext_in; intros f J; cbn [fst snd];
            destruct (Q f J) as [[-> ->]|[N ->]]; cbn [fst snd];
              [now rewrite (proj2 (text_eqb_eq name name) eq_refl)|now rewrite N]. }
        rewrite P. specialize (IH (fun f => cstep lib f (g f) ch)).
        assert (OK : child_ok lib (c_fields c) ch).
        { intros f J Q. rewrite (U f J Q). now exists v. }
        destruct (read_children _ _ _ _) as [params|x].
        + destruct IH as [F ->]. split; [now constructor|]. reflexivity.
        + destruct IH as [X F]. split; [exact X|]. intros Y. apply F. now apply Forall_cons_iff in Y.
      - split; [apply (W ch t e); [now left|exact E]|]. intros X. apply Forall_cons_iff in X. destruct X as [X _].
        destruct (X (name, t) I S) as [v Y]. cbn [snd] in Y. congruence. }
    destruct t; exact G.
  - specialize (IH g). assert (OK : child_ok lib (c_fields c) ch).
    { intros f J Q. rewrite (S f J) in Q. discriminate. }
    destruct (read_children _ _ _ _) as [params|x].
    + destruct IH as [F ->]. split; [now constructor|]. apply state_ext. intros f J. cbn [fold_left]. f_equal.
      unfold cstep. now rewrite (S f J).
    + destruct IH as [X F]. split; [exact X|]. intros Y. apply F. now apply Forall_cons_iff in Y.
Qed.

(** ** Fields of an element *)

Fixpoint xml_size (e : xml) : nat := match e with Elem _ _ _ l => S (list_sum (map xml_size l)) end.
Lemma child_smaller e ch : In ch (x_children e) -> (xml_size ch < xml_size e)%nat.
Proof.
  destruct e as [t a b l]. cbn [x_children xml_size]. intros I. induction l as [|x l IH]; [destruct I|].
  cbn [map list_sum fold_right]. destruct I as [->|I]; [lia|]. specialize (IH I). change (fold_right Nat.add 0%nat (map xml_size l)) with (list_sum (map xml_size l)). lia.
Qed.

Lemma element_errors lib : forall n e c x, (xml_size e < n)%nat -> from_element lib e c = Raise x -> wrong x.
Proof.
  induction n as [|n IH]; intros e c x L; [lia|]. rewrite from_element_eq.
  set (p := map _ _). clearbody p. assert (A : forall attrs p x, read_attributes lib (c_fields c) attrs p = Raise x -> wrong x).
  { induction attrs as [|[k s] attrs IA]; [discriminate|]. intros q y. cbn [read_attributes].
    destruct (find_field _ _ _) as [[name t]|]; [|apply IA]. destruct (from_attribute lib t s) as [v|z] eqn:E; cbn [rbind]; [apply IA|].
    intros X. inversion X. subst. now apply attribute_errors in E. }
  destruct (read_attributes _ _ _ _) as [q|y] eqn:R; cbn [rbind]; [|intros X; inversion X; subst; now apply A in R].
  assert (C : forall l q y, (forall ch, In ch l -> (xml_size ch < n)%nat) -> read_children lib c l q = Raise y -> wrong y).
  { induction l as [|ch l IC]; [discriminate|]. intros r y S. cbn [read_children].
    assert (S' : forall ch, In ch l -> (xml_size ch < n)%nat) by (intros; apply S; now right).
    assert (S0 : (xml_size ch < n)%nat) by (apply S; now left).
    destruct (find_field _ _ _) as [[name t]|]; [|now apply IC].
    destruct t; (match goal with |- context [rbind ?m _] => destruct m as [v|z] eqn:E end); cbn [rbind];
      try (now apply IC); intros X; inversion X; subst; try (now apply text_errors in E); now apply (IH ch c0). }
  destruct (read_children _ _ _ _) as [r|y] eqn:Q; cbn [rbind]; [discriminate|]. intros X. inversion X. subst.
  apply (C (x_children e) q x); [|exact Q]. intros ch I. assert (H := child_smaller e ch I). lia.
Qed.
Lemma child_errors lib t ch x : child_value lib t ch = Raise x -> wrong x.
Proof.
  destruct t; cbn [child_value]; try apply text_errors; apply (element_errors lib (S (xml_size ch))); lia.
Qed.

Lemma element_spec lib e c : distinct lib (c_fields c) ->
  match from_element lib e c with
  | Ok v => Forall (attr_ok lib (c_fields c)) (x_attrs e) /\ Forall (child_ok lib (c_fields c)) (x_children e)
      /\ v = VObj (state (c_fields c) (fun f => fold_left (cstep lib f) (x_children e)
                                                 (fold_left (astep lib f) (x_attrs e) (new_field (snd f)))))
  | Raise x => wrong x /\ ~ (Forall (attr_ok lib (c_fields c)) (x_attrs e) /\ Forall (child_ok lib (c_fields c)) (x_children e))
  end.
Proof.
  intros D. rewrite from_element_eq.
  change (map (fun f => (fst f, new_field (snd f))) (c_fields c)) with (state (c_fields c) (fun f => new_field (snd f))).
  assert (A := attributes_spec lib (c_fields c) D (x_attrs e) (fun f => new_field (snd f))).
  destruct (read_attributes _ _ _ _) as [p|x]; cbn [rbind]; [|split; [apply A|intros [X _]; now apply A]].
  destruct A as [A ->].
  assert (C := children_spec lib c D (x_children e) (fun ch t e _ => child_errors lib t ch e)
    (fun f => fold_left (astep lib f) (x_attrs e) (new_field (snd f)))).
  destruct (read_children _ _ _ _) as [q|x]; cbn [rbind]; [|split; [apply C|intros [_ X]; now apply C]].
  destruct C as [C ->]. auto.
Qed.

Lemma readable_spec lib e c : readable lib e c <->
  Forall (attr_ok lib (c_fields c)) (x_attrs e) /\ Forall (child_ok lib (c_fields c)) (x_children e).
Proof.
  unfold readable. rewrite !Forall_forall. unfold attr_ok, child_ok, attr_called, child_called. split; intros [A C]; split.
  - intros kv I [name t] J S. apply same_spec in S. destruct (A kv name t I J S) as [v X]. exists v. now apply attr_value_spec.
  - intros ch I [name t] J S. apply same_spec in S. destruct (C ch name t I J S) as [v X]. exists v. now apply child_value_spec.
  - intros kv name t I J S. apply same_spec in S. destruct (A kv I (name, t) J S) as [v X]. exists v. now apply attr_value_spec.
  - intros ch name t I J S. apply same_spec in S. destruct (C ch I (name, t) J S) as [v X]. exists v. now apply child_value_spec.
Qed.

(** ** Schemas *)

Inductive fits (lib : library) : cls -> schema -> Prop :=
| fits_intro fs es : distinct lib fs ->
    Forall2 (fun f e => called lib (fst f) (fst e) /\ fits_type lib (snd f) (snd e)) fs es ->
    fits lib (Class fs) (Schema es)
with fits_type (lib : library) : ftype -> kind -> Prop :=
| fits_text : fits_type lib FText Words
| fits_int : fits_type lib FInt Number
| fits_uuid : fits_type lib FUuid Identifier
| fits_date : fits_type lib FDate Moment
| fits_elem c s : fits lib c s -> fits_type lib (FElem c) (Part s)
| fits_seq c s : fits lib c s -> fits_type lib (FSeq c) (Parts s).

Lemma attribute_fits lib t k s : fits_type lib t k ->
  (exists v, from_attribute lib t s = Ok v) <-> attribute_good lib k s.
Proof.
  intros F. destruct F; cbn [from_attribute attribute_good].
  - split; [trivial|]. intros _. eexists; reflexivity.
  - split.
    + intros [v E]. destruct (py_int_of_text (lib_unicode lib) s) as [z|] eqn:Z; [|discriminate]. exists z. now apply int_reads.
    + intros [z Z]. apply int_reads in Z. rewrite Z. eexists; reflexivity.
  - destruct (lib_uuid lib s); split; [discriminate|intros _; eexists; reflexivity|intros [v E]; discriminate|congruence].
  - split; [intros [v E]; discriminate|intros []].
  - split; [intros [v E]; discriminate|intros []].
  - split; [intros [v E]; discriminate|intros []].
Qed.
Lemma body_fits lib t k b : fits_type lib t k -> match k with Part _ | Parts _ => False | _ => True end ->
  (exists v, from_text lib t b = Ok v) <-> body_good lib k b.
Proof.
  intros F P. destruct F; try contradiction; destruct b as [s|]; cbn [from_text body_good];
    try (split; [intros [v E]; discriminate|intros []]).
  - split; [trivial|]. intros _. eexists; reflexivity.
  - split; [trivial|]. intros _. eexists; reflexivity.
  - split.
    + intros [v E]. destruct (py_int_of_text (lib_unicode lib) s) as [z|] eqn:Z; [|discriminate]. exists z. now apply int_reads.
    + intros [z Z]. apply int_reads in Z. rewrite Z. eexists; reflexivity.
  - destruct (lib_uuid lib s); split; [discriminate|intros _; eexists; reflexivity|intros [v E]; discriminate|congruence].
  - destruct (lib_date lib s); split; [discriminate|intros _; eexists; reflexivity|intros [v E]; discriminate|congruence].
Qed.
Lemma fits_left lib fs es f :
  Forall2 (fun f e => called lib (fst f) (fst e) /\ fits_type lib (snd f) (snd e)) fs es -> In f fs ->
  exists n k, In (n, k) es /\ called lib (fst f) n /\ fits_type lib (snd f) k.
Proof.
  induction 1 as [|g [n k] fs es [A B] F IH]; intros I; [destruct I|]. destruct I as [->|I].
  - exists n, k. split; [now left|]. split; assumption.
  - destruct (IH I) as (n' & k' & J & R). exists n', k'. split; [now right|exact R].
Qed.
Lemma fits_right lib fs es n k :
  Forall2 (fun f e => called lib (fst f) (fst e) /\ fits_type lib (snd f) (snd e)) fs es -> In (n, k) es ->
  exists f, In f fs /\ called lib (fst f) n /\ fits_type lib (snd f) k.
Proof.
  induction 1 as [|g e fs es [A B] F IH]; intros I; [destruct I|]. destruct I as [->|I].
  - exists g. split; [now left|]. split; assumption.
  - destruct (IH I) as (f & J & R). exists f. split; [now right|exact R].
Qed.
Lemma called_trans lib a b c : called lib a b -> called lib b c -> called lib a c.
Proof. rewrite !called_spec. congruence. Qed.

Lemma valid_eq lib s e : valid lib s e <->
  (forall kv n k, In kv (x_attrs e) -> In (n, k) (entries s) -> called lib (fst kv) n -> attribute_good lib k (snd kv))
  /\ (forall ch n k, In ch (x_children e) -> In (n, k) (entries s) -> called lib (x_tag ch) n ->
        match k with Part s' | Parts s' => valid lib s' ch | _ => body_good lib k (x_body ch) end).
Proof.
  destruct e as [t a b l]. cbn [valid x_attrs x_children].
  match goal with |- _ /\ ?Q <-> _ /\ ?R => assert (X : Q <-> R) end.
  { induction l as [|ch l IH]; [split; [intros _ ch n k []|trivial]|]. rewrite IH. split.
    - intros [A B] y n k [<-|I]; [apply A|now apply B].
    - intros H. split; [intros n k; apply H; now left|]. intros y n k I. apply H. now right. }
  rewrite X. reflexivity.
Qed.

Lemma valid_fits lib : forall m e c s, (xml_size e < m)%nat -> fits lib c s ->
  (exists v, from_element lib e c = Ok v) <-> valid lib s e.
Proof.
  induction m as [|m IH]; intros e c s L F; [lia|].
  destruct F as [fs es D F]. assert (S := element_spec lib e (Class fs) D). cbn [c_fields] in S.
  assert (E : (exists v, from_element lib e (Class fs) = Ok v) <->
    Forall (attr_ok lib fs) (x_attrs e) /\ Forall (child_ok lib fs) (x_children e)).
  { destruct (from_element lib e (Class fs)) as [v|x].
    - destruct S as (A & B & _). split; [auto|]. intros _. now exists v.
    - destruct S as [_ S]. split; [intros [v X]; discriminate|contradiction]. }
  rewrite E, valid_eq. cbn [entries]. clear S E. rewrite !Forall_forall. unfold attr_ok, child_ok.
  assert (C : forall ch t k, In ch (x_children e) -> fits_type lib t k ->
    (exists v, child_value lib t ch = Ok v) <->
    match k with Part s' | Parts s' => valid lib s' ch | _ => body_good lib k (x_body ch) end).
  { intros ch t k I T. assert (Z := child_smaller e ch I).
    destruct T; cbn [child_value]; try (apply body_fits; [constructor|exact Logic.I]); apply IH; try assumption; lia. }
  split; intros [A B]; split.
  - intros kv n k I J N. destruct (fits_right lib fs es n k F J) as (f & K & M & T).
    apply (attribute_fits lib _ _ _ T). apply (A kv I f K). apply same_spec. apply (called_trans lib _ n); [exact N|].
    now apply called_sym.
  - intros ch n k I J N. destruct (fits_right lib fs es n k F J) as (f & K & M & T).
    apply (C ch _ k I T). apply (B ch I f K). apply same_spec. apply (called_trans lib _ n); [exact N|]. now apply called_sym.
  - intros kv I f J N. apply same_spec in N. destruct (fits_left lib fs es f F J) as (n & k & K & M & T).
    apply (attribute_fits lib _ _ _ T). apply (A kv n k I K). now apply (called_trans lib _ (fst f)).
  - intros ch I f J N. apply same_spec in N. destruct (fits_left lib fs es f F J) as (n & k & K & M & T).
    apply (C ch _ k I T). apply (B ch n k I K). now apply (called_trans lib _ (fst f)).
Qed.

(** Folds over attributes and children. *)
Lemma last_such_fold {A B} (P : A -> Prop) (dec : A -> bool) (step : B -> A -> B) :
  (forall x, dec x = true <-> P x) -> (forall w x, dec x = false -> step w x = w) ->
  forall l w, (Forall (fun x => ~ P x) l /\ fold_left step l w = w)
    \/ (exists x w', last_such P l x /\ fold_left step l w = step w' x).
Proof.
  intros S N l. induction l as [|x l IH] using rev_ind; intros w; [left; split; [constructor|reflexivity]|].
  rewrite fold_left_app. cbn [fold_left]. destruct (dec x) eqn:E.
  - right. exists x, (fold_left step l w). split; [|reflexivity]. exists l, []. split; [reflexivity|]. split; [now apply S|constructor].
  - rewrite (N _ _ E). assert (NP : ~ P x) by (rewrite <- S; congruence).
    destruct (IH w) as [[F Q]|[y [w' [[a [b [-> [Py F]]]] Q]]]].
    + left. split; [|exact Q]. apply Forall_app. split; [exact F|]. now constructor.
    + right. exists y, w'. split; [|exact Q]. exists a, (b ++ [x]). split; [now rewrite <- app_assoc|]. split; [exact Py|].
      apply Forall_app. split; [exact F|]. now constructor.
Qed.
Lemma last_such_in {A} (P : A -> Prop) l x : last_such P l x -> In x l /\ P x.
Proof. intros [a [b [-> [H _]]]]. split; [apply in_or_app; right; now left|exact H]. Qed.
Lemma last_such_unique {A} (P : A -> Prop) l x y : last_such P l x -> last_such P l y -> x = y.
Proof.
  intros [a [b [E [X F]]]] [a' [b' [E' [Y G]]]]. subst l. revert a' E'. induction a as [|z a IH]; intros [|z' a'] E'; inversion E'; subst.
  - reflexivity.
  - exfalso. apply Forall_app in F. destruct F as [_ F]. apply Forall_cons_iff in F. now destruct F.
  - exfalso. apply Forall_app in G. destruct G as [_ G]. apply Forall_cons_iff in G. now destruct G.
  - now apply (IH a').
Qed.
Lemma last_such_none {A} (P : A -> Prop) l x : last_such P l x -> ~ Forall (fun y => ~ P y) l.
Proof. intros L F. apply last_such_in in L. destruct L as [I H]. rewrite Forall_forall in F. now apply (F x I). Qed.
Lemma picks_filter {A} (P : A -> Prop) (dec : A -> bool) : (forall x, dec x = true <-> P x) ->
  forall l r, picks P l r <-> r = filter dec l.
Proof.
  intros S. induction l as [|x l IH]; intros r; cbn [filter].
  - split; [intros H; now inversion H|intros ->; constructor].
  - destruct (dec x) eqn:E.
    + split.
      * intros H. inversion H; subst; [f_equal; now apply IH|]. apply S in E. contradiction.
      * intros ->. constructor; [now apply S|now apply IH].
    + assert (NP : ~ P x) by (rewrite <- S; congruence). split.
      * intros H. inversion H; subst; [contradiction|]. now apply IH.
      * intros ->. constructor; [exact NP|now apply IH].
Qed.

(** The values in [VList] of a sequence field. *)
Lemma seq_fold lib f c : snd f = FSeq c -> forall l w,
  Forall (fun ch => same lib (x_tag ch) (fst f) = true -> exists v, from_element lib ch c = Ok v) l ->
  exists vs, Forall2 (fun ch v => from_element lib ch c = Ok v) (filter (fun ch => same lib (x_tag ch) (fst f)) l) vs
    /\ fold_left (cstep lib f) l (VList w) = VList (w ++ vs).
Proof.
  intros T l. induction l as [|ch l IH]; intros w F; [exists []; split; [constructor|now rewrite app_nil_r]|].
  apply Forall_cons_iff in F. destruct F as [F1 F2]. cbn [filter fold_left]. unfold cstep at 2. rewrite T.
  destruct (same lib (x_tag ch) (fst f)) eqn:E.
  - destruct (F1 eq_refl) as [v V]. cbn [child_value]. rewrite V. cbn [extend]. destruct (IH (w ++ [v]) F2) as [vs [A ->]].
    exists (v :: vs). split; [now constructor|]. now rewrite <- app_assoc.
  - now apply IH.
Qed.
Lemma seq_attrs lib f c attrs : snd f = FSeq c -> forall w, fold_left (astep lib f) attrs w = w.
Proof.
  intros T. induction attrs as [|kv attrs IH]; intros w; [reflexivity|]. cbn [fold_left]. rewrite IH.
  unfold astep. rewrite T. cbn [from_attribute]. now destruct (same _ _ _).
Qed.

Lemma field_spec lib e name t v :
  Forall (attr_ok lib [(name, t)]) (x_attrs e) -> Forall (child_ok lib [(name, t)]) (x_children e) ->
  field_value lib e name t v <->
    v = fold_left (cstep lib (name, t)) (x_children e) (fold_left (astep lib (name, t)) (x_attrs e) (new_field t)).
Proof.
  intros A C. set (f := (name, t)).
  assert (CS : forall ch, same lib (x_tag ch) name = true <-> child_called lib name ch) by (intros; apply same_spec).
  assert (AS : forall kv : text * text, same lib (fst kv) name = true <-> attr_called lib name kv) by (intros; apply same_spec).
  assert (C' : forall ch, In ch (x_children e) -> same lib (x_tag ch) name = true -> exists w, child_value lib t ch = Ok w).
  { intros ch I S. rewrite Forall_forall in C. apply (C ch I (name, t)); [now left|exact S]. }
  assert (A' : forall kv, In kv (x_attrs e) -> same lib (fst kv) name = true -> exists w, from_attribute lib t (snd kv) = Ok w).
  { intros kv I S. rewrite Forall_forall in A. apply (A kv I (name, t)); [now left|exact S]. }
  destruct t as [| | | |c|c].
  6:{ cbn [field_value new_field]. rewrite (seq_attrs lib f c) by reflexivity.
      destruct (seq_fold lib f c eq_refl (x_children e) []) as [vs [F E]].
      { apply Forall_forall. intros ch I S. now apply (C' ch I). }
      fold f in E. rewrite E. cbn [app]. split.
      - intros [chs [ws [P [G ->]]]]. apply (picks_filter _ _ CS) in P. subst chs. f_equal. clear -F G.
        cbn [f fst] in F. revert ws G. induction F as [|ch v l vs H F IH]; intros ws G; inversion G; subst; [reflexivity|].
        f_equal; [congruence|now apply IH].
      - intros ->. exists (filter (fun ch => same lib (x_tag ch) name) (x_children e)), vs.
        split; [now apply (picks_filter _ _ CS)|]. split; [exact F|reflexivity]. }
  all: assert (SC : forall w ch, same lib (x_tag ch) name = false -> cstep lib f w ch = w)
         by (intros w ch N; unfold cstep; cbn [f fst]; now rewrite N);
       assert (SA : forall w kv, same lib (fst kv) name = false -> astep lib f w kv = w)
         by (intros w kv N; unfold astep; cbn [f fst]; now rewrite N);
       cbn [field_value new_field];
       destruct (last_such_fold (child_called lib name) _ (cstep lib f) CS SC (x_children e)
                  (fold_left (astep lib f) (x_attrs e) VNone)) as [[FC EC]|[ch [w [LC EC]]]];
       rewrite EC;
       [destruct (last_such_fold (attr_called lib name) _ (astep lib f) AS SA (x_attrs e) VNone) as [[FA EA]|[kv [w [LA EA]]]];
        rewrite EA; [split; [intros [[x [L _]]|[[_ [x [L _]]]|[_ [_ ->]]]];
                             [destruct (last_such_none _ _ _ L FC)|destruct (last_such_none _ _ _ L FA)|reflexivity]
                            |intros ->; right; right; auto]|]|];
       try (destruct (last_such_in _ _ _ LA) as [IA HA]; apply AS in HA; destruct (A' kv IA HA) as [a VA];
            unfold astep; cbn [f fst snd]; rewrite HA, VA; split;
            [intros [[x [L _]]|[[_ [x [L Y]]]|[_ [F _]]]];
              [destruct (last_such_none _ _ _ L FC)
              |rewrite <- (last_such_unique _ _ _ _ LA L) in Y; apply attr_value_spec in Y; congruence
              |destruct (last_such_none _ _ _ LA F)]
            |intros ->; right; left; split; [exact FC|]; exists kv; split; [exact LA|]; now apply attr_value_spec]);
       destruct (last_such_in _ _ _ LC) as [IC HC]; apply CS in HC; destruct (C' ch IC HC) as [a VC];
       unfold cstep; cbn [f fst snd]; rewrite HC, VC; cbn [extend]; split;
       [intros [[x [L Y]]|[[F _]|[F _]]];
         [rewrite <- (last_such_unique _ _ _ _ LC L) in Y; apply child_value_spec in Y; congruence
         |destruct (last_such_none _ _ _ LC F)|destruct (last_such_none _ _ _ LC F)]
       |intros ->; left; exists ch; split; [exact LC|]; now apply child_value_spec].
Qed.
