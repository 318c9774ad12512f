(** Lemmas on the receive buffer used by several threads. *)
From Coq Require Import List ZArith Bool Lia Wf_nat Relation_Operators Lexicographic_Product Inverse_Image.
From Verif Require Import Py Common Buffered Base Spec Buffer_facts Threads Spec_threads.
Import ListNotations.
Open Scope Z_scope.

Lemma put_length {A} (l : list A) : forall i t, length (put i t l) = length l.
Proof. induction l as [|x l IH]; intros [|i] t; cbn; auto. Qed.

Lemma put_same {A} (l : list A) : forall i t x, nth_error l i = Some x -> nth_error (put i t l) i = Some t.
Proof. induction l as [|y l IH]; intros [|i] t x H; cbn in *; try discriminate; eauto. Qed.

Lemma put_other {A} (l : list A) : forall i j t, i <> j -> nth_error (put i t l) j = nth_error l j.
Proof. induction l as [|y l IH]; intros [|i] [|j] t H; cbn in *; try congruence; auto. Qed.

Lemma put_split {A} (l : list A) : forall i x t, nth_error l i = Some x ->
  exists before after, l = before ++ x :: after /\ put i t l = before ++ t :: after /\ length before = i.
Proof.
  induction l as [|y l IH]; intros [|i] x t H; cbn in *; try discriminate.
  - inversion H; subst. now exists [], l.
  - destruct (IH _ _ t H) as [b [a [-> [E L]]]]. exists (y :: b), a. cbn. rewrite E, L. auto.
Qed.

(** Whether a thread is inside one of the with blocks. *)
Definition holds {Ev} (a : place Ev) : bool :=
  match a with
  | Away | Called _ | Wants _ | Enters => false
  | _ => true
  end.

Section General.
  Context {St Ev : Type} (p : program St Ev) (limit : nat).

  Definition inv (w : world St Ev) : Prop :=
    (length (w_buf w) <= limit)%nat
    /\ (forall i t, nth_error (w_threads w) i = Some t -> (holds (t_at t) = true <-> w_lock w = Some i))
    /\ (forall i, w_lock w = Some i -> exists t, nth_error (w_threads w) i = Some t)
    /\ (forall i t d, nth_error (w_threads w) i = Some t -> t_at t = Adds d -> (length (w_buf w) + length d <= limit)%nat).

  (** The four parts of [inv] after a step of thread [i]. *)
  Lemma inv_put w i t t' st buf lock : inv w -> nth_error (w_threads w) i = Some t ->
    (length buf <= limit)%nat ->
    (holds (t_at t') = true -> lock = Some i) ->
    (holds (t_at t') = false -> lock <> Some i) ->
    ((holds (t_at t) = true \/ w_lock w = None) /\ (lock = Some i \/ lock = None)
     \/ lock = w_lock w /\ buf = w_buf w /\ holds (t_at t') = holds (t_at t)) ->
    (forall d, t_at t' = Adds d -> (length buf + length d <= limit)%nat) ->
    inv (mkWorld st buf lock (put i t' (w_threads w))).
  Proof.
    intros [B [H [X A]]] T L1 H1 H2 C A1. split; [exact L1|]. split; [|split].
    - cbn [w_threads w_lock]. intros j u U. destruct (Nat.eq_dec i j) as [<-|N].
      + rewrite (put_same _ _ _ _ T) in U. inversion U; subst.
        split; [exact H1|]. intros E. destruct (holds (t_at u)); [reflexivity|]. now apply H2 in E.
      + rewrite put_other in U by exact N. pose proof (H _ _ U) as HU.
        destruct C as [[[C|C] [D|D]]|[C _]].
        * apply (H _ _ T) in C. rewrite HU, C, D. split; congruence.
        * apply (H _ _ T) in C. rewrite HU, C, D. split; congruence.
        * rewrite HU, C, D. split; congruence.
        * rewrite HU, C, D. split; congruence.
        * now rewrite C.
    - cbn [w_threads w_lock]. intros j E. destruct (Nat.eq_dec i j) as [<-|N].
      + exists t'. now apply put_same with t.
      + rewrite put_other by exact N. destruct C as [[_ [D|D]]|[C _]]; try congruence.
        apply X. congruence.
    - cbn [w_threads w_buf]. intros j u d U E. destruct (Nat.eq_dec i j) as [<-|N].
      + rewrite (put_same _ _ _ _ T) in U. inversion U; subst. now apply A1.
      + rewrite put_other in U by exact N. destruct C as [[C _]|[_ [-> _]]]; [|now apply (A _ _ _ U)].
        pose proof (H _ _ U) as HU. rewrite E in HU. cbn in HU. destruct HU as [HU _]. specialize (HU eq_refl).
        destruct C as [C|C]; [apply (H _ _ T) in C|]; congruence.
  Qed.

End General.

(** Split the step of a thread into its cases. *)
Ltac crack w i S :=
  let T := fresh "T" in
  unfold step in S; destruct (nth_error (w_threads w) i) as [[todo at_]|] eqn:T; [|discriminate];
  unfold thread_step in S; cbn [t_at t_todo] in S;
  destruct at_ as [|d|d|d|d|d| | | |[|[e|d] l] [r|x]|out]; cbn [t_at t_todo] in S;
  repeat match type of S with
    | match ?l with [] => _ | _ => _ end = _ => destruct l eqn:?
    | (if ?b then _ else _) = _ => destruct b eqn:?
    | (match ?x with (_, _) => _ end) = _ => destruct x as [[? ?] ?] eqn:?
    end; try discriminate; inversion S; subst; clear S.

Section Steps.
  Context {St Ev : Type} (p : program St Ev) (limit : nat).

  Lemma inv_step w i w' n : inv limit w -> step p limit w i = Some (w', n) -> inv limit w'.
  Proof.
    intros V S. pose proof V as [B [H [X A]]]. crack w i S;
    pose proof (H _ _ T) as HT; cbn [t_at holds] in HT;
    (eapply inv_put; [exact V|exact T|try exact B| | | | ]; cbn [t_at holds];
     try solve [intros; congruence | intros; discriminate | intros ? E; rewrite E in *; destruct HT as [_ HT]; discriminate (HT eq_refl)
               | right; auto | left; split; [left; reflexivity|auto]; left; apply HT; reflexivity
               | intros _; apply HT; reflexivity]).
    all: try solve [intros; discriminate].
    all: try solve [intros _ E; destruct HT as [_ HT]; discriminate (HT E)].
    all: try solve [destruct (w_lock w); [discriminate|]; left; auto].
    all: try solve [cbn; lia].
    all: try solve [rewrite ?app_length, ?skipn_length; pose proof (A _ _ _ T eq_refl); lia].
    all: try solve [rewrite ?skipn_length; lia].
    all: try solve [left; split; [now left|]; left; now apply HT].
    - intros d0 E. inversion E; subst. match goal with Q : Nat.ltb _ _ = false |- _ => apply Nat.ltb_ge in Q; exact Q end.
  Qed.
End Steps.

Lemma run_ind {St Ev} (p : program St Ev) limit w0 (P : world St Ev -> list (note Ev) -> Prop) :
  P w0 [] -> (forall w tr i w' n, P w tr -> step p limit w i = Some (w', n) -> P w' (tr ++ n)) ->
  forall l w tr, run p limit w0 l = (w, tr) -> P w tr.
Proof.
  intros P0 PS l. cut (forall w1 tr1, P w1 tr1 -> forall w tr, run p limit w1 l = (w, tr) -> P w (tr1 ++ tr)).
  { intros K w tr R. apply (K _ _ P0 _ _ R). }
  induction l as [|i l IH]; intros w1 tr1 Q w tr R; cbn [run] in R.
  - inversion R; subst. now rewrite app_nil_r.
  - destruct (step p limit w1 i) as [[w2 n]|] eqn:S.
    + destruct (run p limit w2 l) as [w3 n3] eqn:R2. inversion R; subst. rewrite app_assoc.
      eapply IH; [|exact R2]. eapply PS; eassumption.
    + eapply IH; eassumption.
Qed.

Lemma start_thread {St Ev} (st : St) parts i t :
  nth_error (w_threads (@start St Ev st parts)) i = Some t ->
  exists ds, nth_error parts i = Some ds /\ t = mkThread ds Away.
Proof.
  unfold start. cbn [w_threads]. intros H. rewrite nth_error_map in H.
  destruct (nth_error parts i) as [ds|]; [|discriminate]. inversion H. eauto.
Qed.

Lemma start_inv {St Ev} (st : St) parts limit : inv limit (@start St Ev st parts).
Proof.
  split; [cbn; lia|]. split; [|split].
  - intros i t H. apply start_thread in H. destruct H as [ds [_ ->]]. cbn. split; discriminate.
  - discriminate.
  - intros i t d H E. apply start_thread in H. destruct H as [ds [_ ->]]. discriminate.
Qed.

Lemma run_inv {St Ev} (p : program St Ev) limit st parts l w tr :
  run p limit (start st parts) l = (w, tr) -> inv limit w.
Proof.
  apply (run_ind p limit _ (fun w _ => inv limit w)); [apply start_inv|].
  intros w0 tr0 i w1 n V S. eapply inv_step; eassumption.
Qed.

(** * Calls of the handler do not overlap *)
Lemma oaat_app {Ev} (t1 : list (note Ev)) : forall o1 o2 o3 t2,
  one_at_a_time o1 t1 o2 -> one_at_a_time o2 t2 o3 -> one_at_a_time o1 (t1 ++ t2) o3.
Proof. intros o1 o2 o3 t2 H. induction H; intros K; cbn [app]; try constructor; auto. Qed.

Definition handling {Ev} (a : place Ev) : bool := match a with Handles _ _ => true | _ => false end.

Lemma oaat_run {St Ev} (p : program St Ev) limit st parts l w tr :
  run p limit (start st parts) l = (w, tr) ->
  exists o, one_at_a_time None tr o
    /\ forall i, o = Some i <-> exists t, nth_error (w_threads w) i = Some t /\ handling (t_at t) = true.
Proof.
  intros R. cut (inv limit w /\ exists o, one_at_a_time None tr o
    /\ forall i, o = Some i <-> exists t, nth_error (w_threads w) i = Some t /\ handling (t_at t) = true); [tauto|].
  revert l w tr R. apply run_ind.
  - split; [apply start_inv|]. exists None. split; [constructor|]. intros i. split; [discriminate|].
    intros [t [H E]]. apply start_thread in H. destruct H as [ds [_ ->]]. discriminate.
  - intros w tr i w' n [V [o [O F]]] S. split; [eapply inv_step; eassumption|].
    assert (K : forall t t' buf st' lock', nth_error (w_threads w) i = Some t ->
      w' = mkWorld st' buf lock' (put i t' (w_threads w)) ->
      (handling (t_at t) = true -> handling (t_at t') = true ->
         one_at_a_time (Some i) n (Some i)) ->
      (handling (t_at t) = true -> handling (t_at t') = false -> one_at_a_time (Some i) n None) ->
      (handling (t_at t) = false -> handling (t_at t') = true -> o = None /\ one_at_a_time None n (Some i)) ->
      (handling (t_at t) = false -> handling (t_at t') = false -> one_at_a_time o n o) ->
      exists o', one_at_a_time None (tr ++ n) o'
        /\ forall j, o' = Some j <-> exists t, nth_error (w_threads w') j = Some t /\ handling (t_at t) = true).
    { intros t t' buf st' lock' T -> K1 K2 K3 K4. cbn [w_threads].
      destruct (handling (t_at t)) eqn:A, (handling (t_at t')) eqn:B.
      - assert (o = Some i) as -> by (apply F; eauto).
        exists (Some i). split; [eapply oaat_app; [exact O|auto]|]. intros j. destruct (Nat.eq_dec i j) as [<-|N].
        + split; [|auto]. intros _. exists t'. split; [now apply put_same with t|exact B].
        + rewrite put_other by exact N. apply F.
      - assert (o = Some i) as -> by (apply F; eauto).
        exists None. split; [eapply oaat_app; [exact O|auto]|]. intros j. split; [discriminate|].
        intros [u [U E]]. destruct (Nat.eq_dec i j) as [<-|N].
        + rewrite (put_same _ _ _ _ T) in U. inversion U; subst. congruence.
        + rewrite put_other in U by exact N. assert (Some i = Some j) by (apply F; eauto). congruence.
      - destruct (K3 eq_refl eq_refl) as [-> Q]. exists (Some i). split; [eapply oaat_app; [exact O|auto]|].
        intros j. destruct (Nat.eq_dec i j) as [<-|N].
        + split; [|auto]. intros _. exists t'. split; [now apply put_same with t|exact B].
        + split; [congruence|]. rewrite put_other by exact N. intros E. apply F in E. discriminate.
      - exists o. split; [eapply oaat_app; [exact O|auto]|]. intros j. destruct (Nat.eq_dec i j) as [<-|N].
        + rewrite F. split; intros [u [U E]]; exfalso.
          * rewrite T in U. inversion U; subst. congruence.
          * rewrite (put_same _ _ _ _ T) in U. inversion U; subst. congruence.
        + rewrite put_other by exact N. apply F. }
    assert (M : forall t, nth_error (w_threads w) i = Some t -> holds (t_at t) = true -> handling (t_at t) = false -> o = None).
    { intros t T Hd Hn. destruct o as [j|]; [|reflexivity]. exfalso.
      destruct (proj1 (F j) eq_refl) as [u [U E]]. destruct V as [_ [H _]].
      assert (w_lock w = Some i) by now apply (H _ _ T).
      assert (w_lock w = Some j) by (apply (H _ _ U); destruct (t_at u); try discriminate; reflexivity).
      assert (i = j) by congruence. subst j. rewrite T in U. inversion U; subst. congruence. }
    assert (X : forall t, nth_error (w_threads w) i = Some t -> handling (t_at t) = false -> o <> Some i).
    { intros t T Hn E. destruct (proj1 (F i) E) as [u [U E2]]. rewrite T in U. inversion U; subst. congruence. }
    crack w i S; (eapply K; [reflexivity|reflexivity| | | |]; cbn [t_at handling]; intros; try discriminate;
      try solve [repeat constructor; exact (X _ eq_refl eq_refl)]).
    + split; [exact (M _ eq_refl eq_refl eq_refl)|repeat constructor].
Qed.

(** * Every thread can finish *)
Fixpoint total {A} (f : A -> nat) (l : list A) : nat := match l with [] => 0 | x :: l' => f x + total f l' end.

Lemma total_put {A} (f : A -> nat) (l : list A) : forall i t t', nth_error l i = Some t ->
  (total f (put i t' l) + f t = total f l + f t')%nat.
Proof.
  induction l as [|x l IH]; intros [|i] t t' H; cbn in *; try discriminate.
  - inversion H; subst. lia.
  - specialize (IH _ _ t' H). lia.
Qed.

Definition waiting_bytes {Ev} (t : thread Ev) : nat :=
  (total (@length Z) (t_todo t)
   + match t_at t with Called d | Wants d | Checks d | Drops d | Adds d => length d | _ => 0 end)%nat.
Definition rank {Ev} (t : thread Ev) : nat :=
  (20 * length (t_todo t)
   + match t_at t with
     | Away => 0 | Called _ => 12 | Wants _ => 11 | Checks _ => 10 | Adds _ => 9 | Added => 8 | Enters => 7
     | Loops => 6 | Handles _ _ => 5 | Drops _ => 4 | Leaves _ => 1
     end)%nat.
Definition acts_left {Ev} (t : thread Ev) : nat := match t_at t with Handles l _ => length l | _ => 0%nat end.

Section Ending.
  Context {St Ev : Type} (p : program St Ev) (limit : nat).

  Definition supply (w : world St Ev) : nat := (length (w_buf w) + total waiting_bytes (w_threads w))%nat.

  Definition inv2 (w : world St Ev) : Prop :=
    inv limit w /\ forall i t, nth_error (w_threads w) i = Some t -> handling (t_at t) = true -> w_buf w <> [].

  Lemma inv2_step w i w' n : inv2 w -> step p limit w i = Some (w', n) -> inv2 w'.
  Proof.
    intros [V B] S. split; [eapply inv_step; eassumption|].
    pose proof V as [_ [H _]].
    assert (K : forall j u, nth_error (w_threads w) j = Some u -> handling (t_at u) = true -> w_lock w = Some j).
    { intros j u U E. apply (H _ _ U). destruct (t_at u); try discriminate; reflexivity. }
    assert (E : forall t', exists t, nth_error (w_threads w) i = Some t /\
      (w_threads w' = put i t' (w_threads w) ->
       (handling (t_at t') = true -> w_buf w' <> []) ->
       (w_buf w' = w_buf w \/ w_lock w = Some i \/ w_lock w = None) ->
       forall j u, nth_error (w_threads w') j = Some u -> handling (t_at u) = true -> w_buf w' <> [])).
    { intros t'. unfold step in S. destruct (nth_error (w_threads w) i) as [t|] eqn:T; [|discriminate].
      exists t. split; [reflexivity|]. intros W N C j u U Q. destruct (Nat.eq_dec i j) as [<-|D].
      - rewrite W, (put_same _ _ _ _ T) in U. inversion U; subst. auto.
      - rewrite W, put_other in U by exact D. pose proof (K _ _ U Q) as L. destruct C as [C|[C|C]]; try congruence.
        rewrite C. now apply (B _ _ U). }
    crack w i S; try rewrite T in E; pose proof (H _ _ T) as HT; cbn [t_at holds] in HT;
      (match goal with |- forall j u, nth_error (w_threads (mkWorld _ _ _ (put _ ?t' _))) j = Some u -> _ =>
         destruct (E t') as [? [_ E']]; apply E'; clear E E' end;
       cbn [w_threads w_buf t_at handling]; [reflexivity|try discriminate; try (intros _; apply (B _ _ T eq_refl))|];
       try (left; reflexivity); try (right; left; apply HT; reflexivity)).
    all: first [right; right; destruct (w_lock w); [discriminate|reflexivity] | intros _; congruence].
  Qed.

  Lemma step_smaller w i w' n : inv2 w -> step p limit w i = Some (w', n) ->
    (supply w' < supply w)%nat
    \/ ((supply w' <= supply w)%nat /\ (total rank (w_threads w') < total rank (w_threads w))%nat)
    \/ ((supply w' <= supply w)%nat /\ (total rank (w_threads w') <= total rank (w_threads w))%nat
        /\ (total acts_left (w_threads w') < total acts_left (w_threads w))%nat).
  Proof.
    intros [V B] S. unfold supply.
    crack w i S; cbn [w_buf w_threads];
    match goal with |- context [put i ?t' _] =>
      pose proof (total_put waiting_bytes _ _ _ t' T) as X1;
      pose proof (total_put rank _ _ _ t' T) as X2;
      pose proof (total_put acts_left _ _ _ t' T) as X3 end;
    unfold waiting_bytes, rank, acts_left in X1, X2, X3; cbn [t_at t_todo total length] in X1, X2, X3;
    fold (@waiting_bytes Ev) in X1; fold (@rank Ev) in X2; fold (@acts_left Ev) in X3;
    rewrite ?app_length, ?skipn_length; cbn [length]; try lia.
    pose proof (B _ _ T eq_refl) as N.
    match goal with Q : (0 <? _) = true |- _ => apply Z.ltb_lt in Q end.
    assert (1 <= length (w_buf w))%nat by (destruct (w_buf w); [congruence|cbn; lia]). lia.
  Qed.

  Lemma step_acc : forall a r k w, inv2 w -> (supply w <= a)%nat -> (total rank (w_threads w) <= r)%nat ->
    (total acts_left (w_threads w) <= k)%nat ->
    Acc (fun w' w => exists i n, step p limit w i = Some (w', n)) w.
  Proof.
    induction a as [a IA] using lt_wf_ind. induction r as [r IR] using lt_wf_ind.
    induction k as [k IK] using lt_wf_ind. intros w V HA HR HK. constructor. intros w' [i [n S]].
    pose proof (inv2_step _ _ _ _ V S) as V'.
    destruct (step_smaller _ _ _ _ V S) as [L|[[L1 L2]|[L1 [L2 L3]]]].
    - eapply (IA (supply w')); [lia|exact V'|lia|reflexivity|reflexivity].
    - eapply (IR (total rank (w_threads w'))); [lia|exact V'|lia|lia|reflexivity].
    - eapply (IK (total acts_left (w_threads w'))); [lia|exact V'|lia|lia|reflexivity].
  Qed.

  Lemma inv2_acc w : inv2 w -> Acc (fun w' w => exists i n, step p limit w i = Some (w', n)) w.
  Proof. intros V. eapply step_acc; [exact V|reflexivity..]. Qed.

  Lemma start_inv2 st parts : inv2 (start st parts).
  Proof.
    split; [apply start_inv|]. intros i t H E. apply start_thread in H. destruct H as [ds [_ ->]]. discriminate.
  Qed.

  Lemma run_inv2 w0 l w tr : inv2 w0 -> run p limit w0 l = (w, tr) -> inv2 w.
  Proof.
    intros V. apply (run_ind p limit _ (fun w _ => inv2 w)); [exact V|].
    intros w1 tr1 i w2 n V1 S. eapply inv2_step; eassumption.
  Qed.

  Lemma run_app w l1 l2 : run p limit w (l1 ++ l2)
    = match run p limit w l1 with (w1, t1) => match run p limit w1 l2 with (w2, t2) => (w2, t1 ++ t2) end end.
  Proof.
    revert w. induction l1 as [|i l1 IH]; intros w; cbn [app run].
    - now destruct (run p limit w l2).
    - destruct (step p limit w i) as [[w1 n]|]; [|apply IH]. rewrite IH.
      destruct (run p limit w1 l1) as [w2 t2]. destruct (run p limit w2 l2) as [w3 t3]. now rewrite app_assoc.
  Qed.

  Lemma no_endless w0 : inv2 w0 ->
    ~ exists f : nat -> nat, forall n, exists x, step p limit (fst (run p limit w0 (map f (seq 0 n)))) (f n) = Some x.
  Proof.
    intros V0 [f F].
    assert (K : forall w, Acc (fun w' w => exists i n, step p limit w i = Some (w', n)) w ->
      forall n, fst (run p limit w0 (map f (seq 0 n))) = w -> False).
    { intros w A. induction A as [w _ IH]. intros n E. destruct (F n) as [[w' x] Q]. rewrite E in Q.
      apply (IH w') with (Datatypes.S n); [eauto|].
      replace (seq 0 (Datatypes.S n)) with (seq 0 n ++ [n]) by (rewrite <- seq_S; reflexivity).
      rewrite map_app, run_app. destruct (run p limit w0 (map f (seq 0 n))) as [w1 t1]. cbn [fst] in E. subst w1.
      cbn [map run]. rewrite Q. reflexivity. }
    apply (K _ (inv2_acc _ V0) 0%nat). reflexivity.
  Qed.
End Ending.

(** * Without a handler that calls back, somebody can always go on *)
Section Plain.
  Context {St Ev : Type} (h : handler St Ev) (limit : nat).

  Definition mild (w : world St Ev) : Prop :=
    forall i t l r, nth_error (w_threads w) i = Some t -> t_at t = Handles l r -> exists ev, l = map Does ev.

  Lemma mild_step w i w' n : mild w -> step (plain h) limit w i = Some (w', n) -> mild w'.
  Proof.
    intros M S. crack w i S; cbv [mild]; cbn [w_threads]; intros j u l0 r0 U E;
      (destruct (Nat.eq_dec i j) as [<-|N];
       [rewrite (put_same _ _ _ _ T) in U; inversion U; subst; cbn [t_at] in E; try discriminate; inversion E; subst
       |rewrite put_other in U by exact N; now apply (M _ _ _ _ U E)]).
    - match goal with Q : plain h ?a ?b = _ |- _ => unfold plain in Q; destruct (h a b) as [[? ev] ?]; inversion Q; subst end.
      eauto.
    - destruct (M _ _ _ _ T eq_refl) as [[|? ev] Q]; [discriminate|]. inversion Q; subst. eauto.
    - destruct (M _ _ _ _ T eq_refl) as [[|? ev] Q]; [discriminate|]. inversion Q; subst. eauto.
    - destruct (M _ _ _ _ T eq_refl) as [[|? ev] Q]; discriminate.
    - destruct (M _ _ _ _ T eq_refl) as [[|? ev] Q]; discriminate.
  Qed.

  Lemma progress w : inv limit w -> mild w -> finished w \/ exists i w' n, step (plain h) limit w i = Some (w', n).
  Proof.
    intros [B [H [X _]]] M. destruct (w_lock w) as [i|] eqn:L.
    - right. destruct (X i eq_refl) as [t T]. pose proof (proj2 (H _ _ T) eq_refl) as HT.
      exists i. unfold step. rewrite T. unfold thread_step. destruct (t_at t) as [|d|d|d|d|d| | | |l r|out] eqn:A; try discriminate.
      + destruct (Nat.ltb limit (length (w_buf w) + length d)); eauto.
      + eauto.
      + eauto.
      + eauto.
      + destruct (w_buf w) as [|z b]; [eauto|]. destruct (plain h (w_st w) (z :: b)) as [[? ?] ?]. eauto.
      + destruct (M _ _ _ _ T A) as [[|e ev] ->]; cbn [map]; [|eauto].
        destruct r as [r|]; [|eauto]. destruct (r <? 0); [eauto|]. destruct (0 <? r); eauto.
      + eauto.
    - assert (D : finished w \/ exists i t, nth_error (w_threads w) i = Some t /\ ~ (t_todo t = [] /\ t_at t = Away)).
      { unfold finished. clear. induction (w_threads w) as [|t l IH]; [left; constructor|].
        destruct IH as [IH|[i [u [U N]]]].
        - destruct t as [[|d todo] at_]; [destruct at_|]; try (right; exists 0%nat; eexists; split; [reflexivity|]; cbn; intros [? ?]; congruence).
          left. constructor; [split; reflexivity|exact IH].
        - right. exists (S i), u. auto. }
      destruct D as [D|[i [t [T N]]]]; [now left|]. right. exists i. unfold step. rewrite T.
      pose proof (H _ _ T) as HT. unfold thread_step. rewrite L. destruct (t_at t) as [|d|d|d|d|d| | | |l r|out] eqn:A; cbn [holds] in HT;
        try (destruct HT as [HT _]; discriminate (HT eq_refl)).
      + destruct (t_todo t); [tauto|eauto].
      + destruct (Nat.ltb limit (length d)); eauto.
      + cbn [free]. eauto.
      + cbn [free]. eauto.
  Qed.

  Lemma can_finish w : inv2 limit w -> mild w -> exists l, finished (fst (run (plain h) limit w l)).
  Proof.
    intros V. pose proof (inv2_acc (plain h) limit w V) as A. induction A as [w _ IH]. intros M.
    destruct (progress w (proj1 V) M) as [F|[i [w' [n S]]]].
    - now exists [].
    - destruct (IH w') as [l F]; [eauto|eapply inv2_step; eassumption|eapply mild_step; eassumption|].
      exists (i :: l). cbn [run]. rewrite S. now destruct (run (plain h) limit w' l).
  Qed.

  Lemma run_mild st parts l w tr : run (plain h) limit (start st parts) l = (w, tr) -> mild w.
  Proof.
    apply (run_ind (plain h) limit _ (fun w _ => mild w)).
    - intros i t ll r H E. apply start_thread in H. destruct H as [ds [_ ->]]. discriminate.
    - intros w1 tr1 i w2 n V1 S. eapply mild_step; eassumption.
  Qed.
End Plain.

(** * A handler that calls back *)
Section Deadlock.
  Context {St Ev : Type} (p : program St Ev) (limit : nat).

  Lemma stuck_step w i t dd rest rr j w' n : inv limit w -> nth_error (w_threads w) i = Some t ->
    t_at t = Handles (Feeds dd :: rest) rr -> (length dd <= limit)%nat ->
    step p limit w j = Some (w', n) ->
    nth_error (w_threads w') i = Some t /\ (n = [] \/ (j <> i /\ n = [NReturn j (Raise ValueError)])).
  Proof.
    intros V T A L S. pose proof V as [_ [H _]].
    assert (K : w_lock w = Some i) by (apply (H _ _ T); now rewrite A).
    destruct (Nat.eq_dec j i) as [->|N].
    - unfold step in S. rewrite T in S. unfold thread_step in S. rewrite A in S.
      replace (Nat.ltb limit (length dd)) with false in S by (symmetry; now apply Nat.ltb_ge). discriminate.
    - assert (G : forall u, nth_error (w_threads w) j = Some u -> holds (t_at u) = false).
      { intros u U. destruct (holds (t_at u)) eqn:E; [|reflexivity]. apply (H _ _ U) in E. congruence. }
      crack w j S; try discriminate (G _ eq_refl); try (rewrite K in *; discriminate);
        cbn [w_threads]; (split; [rewrite put_other by exact N; exact T|auto]).
  Qed.

  Lemma stuck w i t d rest r l : inv limit w -> nth_error (w_threads w) i = Some t ->
    t_at t = Handles (Feeds d :: rest) r -> (length d <= limit)%nat ->
    forall n, In n (snd (run p limit w l)) -> exists j, j <> i /\ n = NReturn j (Raise ValueError).
  Proof.
    intros V T A L. revert w V T. induction l as [|j l IH]; intros w V T n I; cbn [run] in I; [destruct I|].
    destruct (step p limit w j) as [[w' m]|] eqn:S; [|now apply (IH w V T)].
    destruct (stuck_step _ _ _ _ _ _ _ _ _ V T A L S) as [T' Q].
    pose proof (inv_step p limit _ _ _ _ V S) as V'. specialize (IH w' V' T').
    destruct (run p limit w' l) as [w2 m2]. cbn [snd] in *. apply in_app_or in I. destruct I as [I|I]; [|now apply IH].
    destruct Q as [->|[Q ->]]; [destruct I|]. destruct I as [<-|[]]. eauto.
  Qed.
End Deadlock.
