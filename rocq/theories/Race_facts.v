(** Lemmas on commands sent from several threads. *)
From Coq Require Import List ZArith Bool Lia.
From Verif Require Import Py Common Packet Client Base Spec_client Threads Threads_facts Race Spec_race.
Import ListNotations.
Open Scope Z_scope.

(** A client by itself, with a transport and a counter. *)
Definition one (t : bool) (k : nat) : client := set_index (set_transport (new_client ClassPCI 0 false NoFuture) t) k.

(** The part of [send] after the packet was encoded. *)
Definition coded (p : packet) (cf bm : bool) (b : bytes) : Prop :=
  forall c, cl_transport c = true -> send p cf bm c
    = mbind get_confirmation_code (fun code => mseq (memit (CWrite (b ++ [code] ++ END_COMMAND))) (mret (Some code))) c.

Lemma begin_codes tr p cf bm t b : begin_send tr p cf bm = Ok (Codes t b) -> tr = Some t /\ coded p cf bm b.
Proof.
  unfold begin_send. destruct tr as [t'|]; [|discriminate].
  destruct (is_base_packet p) eqn:B; cbn [negb]; [|discriminate].
  destruct (encode_packet p) as [x|e] eqn:E; [|discriminate].
  destruct (cf && negb (is_special_client p)) eqn:C; [|discriminate].
  intros H. inversion H; subst. split; [reflexivity|]. intros c T. unfold send. rewrite T, B. cbn [negb].
  rewrite E, C. reflexivity.
Qed.

Lemma begin_writes tr p cf bm t b code : begin_send tr p cf bm = Ok (Writes t b code) ->
  tr = Some t /\ forall c, cl_transport c = true -> send p cf bm c = (c, [CWrite b], Ok code).
Proof.
  unfold begin_send. destruct tr as [t'|]; [|discriminate].
  destruct (is_base_packet p) eqn:B; cbn [negb]; [|discriminate].
  destruct (encode_packet p) as [x|e] eqn:E; [|discriminate].
  destruct (cf && negb (is_special_client p)) eqn:C; [discriminate|].
  intros H. inversion H; subst. split; [reflexivity|]. intros c T. unfold send. rewrite T, B. cbn [negb].
  rewrite E, C. reflexivity.
Qed.

Lemma begin_other tr p cf bm a : begin_send tr p cf bm = Ok a ->
  (exists t b, a = Codes t b) \/ exists t b, a = Writes t b None.
Proof.
  unfold begin_send. destruct tr as [t'|]; [|discriminate].
  destruct (is_base_packet p); cbn [negb]; [|discriminate].
  destruct (encode_packet p) as [x|e]; [|discriminate].
  destruct (cf && negb (is_special_client p)); intros H; inversion H; eauto.
Qed.

Lemma begin_raises tr p cf bm e : begin_send tr p cf bm = Raise e ->
  forall c, cl_transport c = (match tr with Some _ => true | None => false end) -> send p cf bm c = (c, [], Raise e).
Proof.
  unfold begin_send. destruct tr as [t|]; intros H c T; unfold send; rewrite T; cbn [negb].
  - destruct (is_base_packet p); cbn [negb] in *; [|now inversion H].
    destruct (encode_packet p) as [x|e']; [discriminate|now inversion H].
  - now inversion H.
Qed.

Lemma coded_ok p cf bm b k o : coded p cf bm b -> nth_error CONFIRMATION_CODES k = Some o ->
  send p cf bm (one true k) = (set_index (one true k) (S k mod 20), [CWrite (b ++ [o] ++ END_COMMAND)], Ok (Some o)).
Proof.
  intros C N. rewrite C by reflexivity. unfold mbind at 1, get_confirmation_code. cbn [cl_index one set_index].
  rewrite N. reflexivity.
Qed.

Lemma coded_index p cf bm b k : coded p cf bm b -> nth_error CONFIRMATION_CODES k = None ->
  send p cf bm (one true k) = (one true k, [], Raise IndexError).
Proof.
  intros C N. rewrite C by reflexivity. unfold mbind at 1, get_confirmation_code. cbn [cl_index one set_index].
  rewrite N. reflexivity.
Qed.

Lemma code_small k o : nth_error CONFIRMATION_CODES k = Some o -> (k < 20)%nat.
Proof. intros H. change 20%nat with (length CONFIRMATION_CODES). apply nth_error_Some. congruence. Qed.

(** What thread [i], which was given [ds], has done so far. *)
Definition book (i : nat) (ds : list request) (q : caller) (seen : list sight) : Prop :=
  match q_at q with
  | Outside => exists past, ds = past ++ q_todo q /\ served i past seen
  | Codes _ b => exists past p cf bm, ds = past ++ Send p cf bm :: q_todo q /\ served i past seen /\ coded p cf bm b
  | Loads _ b o | Stores _ b o _ | Loads' _ b o | Stores' _ b o _ =>
      exists past p cf bm, ds = past ++ Send p cf bm :: q_todo q /\ served i past seen /\ coded p cf bm b
        /\ exists k, nth_error CONFIRMATION_CODES k = Some o
  | Writes _ b code =>
      exists past p cf bm, ds = past ++ Send p cf bm :: q_todo q /\ served i past seen
        /\ exists c c', counter_ok c /\ send p cf bm c = (c', [CWrite b], Ok code)
  end.

Definition books (parts : list (list request)) (w : race) (tr : list sight) : Prop :=
  forall i q ds, nth_error (q_callers w) i = Some q -> nth_error parts i = Some ds -> book i ds q (sights_of i tr).

Lemma some_pair {A B} (a a' : A) (b b' : B) : Some (a, b) = Some (a', b') -> a' = a /\ b' = b.
Proof. intros H. now inversion H. Qed.

Ltac split_step w i S :=
  let T := fresh "T" in
  unfold race_step in S; destruct (nth_error (q_callers w) i) as [[todo at_]|] eqn:T; [|discriminate];
  unfold caller_step in S; cbn [q_at q_todo] in S;
  destruct at_ as [|t b|t b o|t b o v|t b o|t b o v|t b code]; cbn [q_at q_todo] in S;
  [destruct todo as [|[p cf bm|t] todo]; [discriminate|destruct (begin_send (q_transport w) p cf bm) as [a|e] eqn:BS|]
  |destruct (nth_error CONFIRMATION_CODES (q_index w)) as [o|] eqn:NE | | | | | ];
  apply some_pair in S; destruct S as [-> ->].

Lemma sights_app i a b : sights_of i (a ++ b) = sights_of i a ++ sights_of i b.
Proof. apply filter_app. Qed.

Lemma sights_mine i (n : list sight) : Forall (fun x => match x with Wrote j _ _ | Ended j _ => j = i end) n ->
  sights_of i n = n /\ forall j, j <> i -> sights_of j n = [].
Proof.
  induction 1 as [|x n H F [IH1 IH2]]; [split; reflexivity|]. unfold sights_of in *. cbn [filter].
  split; [|intros j J; specialize (IH2 j J)]; destruct x as [k t l|k r]; subst k; rewrite ?Nat.eqb_refl.
  - now rewrite IH1.
  - now rewrite IH1.
  - destruct (Nat.eqb_spec i j); [congruence|exact IH2].
  - destruct (Nat.eqb_spec i j); [congruence|exact IH2].
Qed.

Lemma book_put parts w tr i q q' transport index n : books parts w tr -> nth_error (q_callers w) i = Some q ->
  Forall (fun x => match x with Wrote j _ _ | Ended j _ => j = i end) n ->
  (forall ds seen, book i ds q seen -> book i ds q' (seen ++ n)) ->
  books parts (mkRace transport index (put i q' (q_callers w))) (tr ++ n).
Proof.
  intros B T F K j u ds U P. destruct (sights_mine i n F) as [M N]. cbn [q_callers] in U. rewrite sights_app. destruct (Nat.eq_dec i j) as [<-|X].
  - rewrite (put_same _ _ _ _ T) in U. inversion U; subst. rewrite M. apply K. now apply B.
  - rewrite put_other in U by exact X. rewrite (N j) by congruence. rewrite app_nil_r. now apply B.
Qed.

Lemma book_step parts w tr i w' n : books parts w tr -> race_step w i = Some (w', n) -> books parts w' (tr ++ n).
Proof.
  intros B S. split_step w i S; (eapply book_put; [exact B|exact T|repeat constructor|]);
    intros ds seen; unfold book; cbn [q_at q_todo]; rewrite ?app_nil_r.
  - intros [past [E V]]. destruct (begin_other _ _ _ _ _ BS) as [[t [b ->]]|[t [b ->]]].
    + destruct (begin_codes _ _ _ _ _ _ BS) as [_ C]. exists past, p, cf, bm. auto.
    + destruct (begin_writes _ _ _ _ _ _ _ BS) as [_ C]. exists past, p, cf, bm. split; [exact E|]. split; [exact V|].
      exists (one true 0), (one true 0). split; [unfold counter_ok; cbn; lia|]. now apply C.
  - intros [past [E V]]. exists (past ++ [Send p cf bm]). split; [now rewrite <- app_assoc|].
    eapply sv_raised; [exact V|]. apply (begin_raises _ _ _ _ _ BS (one (match q_transport w with Some _ => true | None => false end) 0)).
    reflexivity.
  - intros [past [E V]]. exists (past ++ [Transport t]). split; [now rewrite <- app_assoc|]. now constructor.
  - intros [past [p [cf [bm [E [V C]]]]]]. exists past, p, cf, bm. eauto 6.
  - intros [past [p [cf [bm [E [V C]]]]]]. exists (past ++ [Send p cf bm]). split; [now rewrite <- app_assoc|].
    eapply sv_raised; [exact V|]. eapply coded_index; eassumption.
  - auto.
  - auto.
  - auto.
  - intros [past [p [cf [bm [E [V [C [k K]]]]]]]]. exists past, p, cf, bm. split; [exact E|]. split; [exact V|].
    exists (one true k). eexists. split; [apply (code_small _ _ K)|]. eapply coded_ok; eassumption.
  - intros [past [p [cf [bm [E [V [c [c' [K C]]]]]]]]]. exists (past ++ [Send p cf bm]). split; [now rewrite <- app_assoc|].
    eapply sv_sent; eassumption.
Qed.

Lemma race_ind (P : race -> list sight -> Prop) w0 :
  P w0 [] -> (forall w tr i w' n, P w tr -> race_step w i = Some (w', n) -> P w' (tr ++ n)) ->
  forall l w tr, race_run w0 l = (w, tr) -> P w tr.
Proof.
  intros P0 PS l. cut (forall w1 tr1, P w1 tr1 -> forall w tr, race_run w1 l = (w, tr) -> P w (tr1 ++ tr)).
  { intros K w tr R. apply (K _ _ P0 _ _ R). }
  induction l as [|i l IH]; intros w1 tr1 H w tr R; cbn [race_run] in R.
  - inversion R; subst. now rewrite app_nil_r.
  - destruct (race_step w1 i) as [[w2 n]|] eqn:S; [|now apply IH with w1].
    destruct (race_run w2 l) as [w3 m] eqn:R2. inversion R; subst. rewrite app_assoc. eapply IH; [|exact R2].
    eapply PS; eassumption.
Qed.

Lemma start_caller t k parts i q : nth_error (q_callers (race_start t k parts)) i = Some q ->
  exists ds, nth_error parts i = Some ds /\ q = mkCaller ds Outside.
Proof.
  unfold race_start. cbn [q_callers]. intros H. rewrite nth_error_map in H.
  destruct (nth_error parts i) as [ds|]; [|discriminate]. inversion H. eauto.
Qed.

Lemma race_books t k parts l w tr : race_run (race_start t k parts) l = (w, tr) -> books parts w tr.
Proof.
  apply (race_ind (books parts)).
  - intros i q ds Q P. apply start_caller in Q. destruct Q as [ds' [P' ->]]. rewrite P in P'. inversion P'; subst.
    exists []. split; [reflexivity|constructor].
  - intros w1 tr1 i w' n B S. eapply book_step; eassumption.
Qed.

Lemma step_length w i w' n : race_step w i = Some (w', n) -> length (q_callers w') = length (q_callers w).
Proof. intros S. split_step w i S; cbn [q_callers]; apply put_length. Qed.

Lemma race_length t k parts l w tr : race_run (race_start t k parts) l = (w, tr) -> length (q_callers w) = length parts.
Proof.
  apply (race_ind (fun w _ => length (q_callers w) = length parts)).
  - unfold race_start. cbn. apply map_length.
  - intros w1 tr1 i w' n B S. apply step_length in S. congruence.
Qed.

(** * The counter *)
Definition fixing (a : at_line) : bool := match a with Loads' _ _ _ | Stores' _ _ _ _ => true | _ => false end.

Definition counted (w : race) : Prop :=
  (20 <= q_index w)%nat -> exists i q, nth_error (q_callers w) i = Some q /\ fixing (q_at q) = true.

Lemma counted_step w i w' n : counted w -> race_step w i = Some (w', n) -> counted w'.
Proof.
  intros C S.
  assert (K : forall q q' tr, nth_error (q_callers w) i = Some q -> (fixing (q_at q) = true -> fixing (q_at q') = true) ->
    counted (mkRace tr (q_index w) (put i q' (q_callers w)))).
  { intros q q' tr T F L. cbn [q_index q_callers] in *. destruct (C L) as [j [u [U V]]]. destruct (Nat.eq_dec i j) as [<-|N].
    - exists i, q'. split; [eapply put_same; exact T|]. apply F. congruence.
    - exists j, u. split; [now rewrite put_other|exact V]. }
  split_step w i S; try (eapply K; [reflexivity|]; cbn [q_at fixing]; congruence).
  - intros _. exists i. eexists. cbn [q_callers]. split; [eapply put_same; exact T|reflexivity].
  - intros L. cbn [q_index] in L. pose proof (Nat.mod_upper_bound v 20 (Nat.neq_succ_0 19)).
    change (length CONFIRMATION_CODES) with 20%nat in L. lia.
Qed.

Lemma race_counted t k parts l w tr : (k < 20)%nat -> race_run (race_start t k parts) l = (w, tr) -> counted w.
Proof.
  intros K. apply (race_ind (fun w _ => counted w)).
  - intros L. cbn in L. lia.
  - intros w1 tr1 i w' n B S. eapply counted_step; eassumption.
Qed.

(** * The connection *)
Definition on_line (a : at_line) : option nat :=
  match a with
  | Outside => None
  | Codes t _ | Loads t _ _ | Stores t _ _ _ | Loads' t _ _ | Stores' t _ _ _ | Writes t _ _ => Some t
  end.

Definition steady (t : nat) (parts : list (list request)) (w : race) (tr : list sight) : Prop :=
  q_transport w = Some t
  /\ (forall i q, nth_error (q_callers w) i = Some q ->
        (forall t', on_line (q_at q) = Some t' -> t' = t)
        /\ exists ds past, nth_error parts i = Some ds /\ ds = past ++ q_todo q)
  /\ (forall i t' b, In (Wrote i t' b) tr -> t' = t)
  /\ (forall i e, In (Ended i (Raise e)) tr -> e = IndexError
        \/ exists ds p cf bm, nth_error parts i = Some ds /\ In (Send p cf bm) ds
             /\ forall c, cl_transport c = true -> send p cf bm c = (c, [], Raise e)).

Lemma steady_step tt0 parts w tr i w' n : keeps_transport parts -> steady tt0 parts w tr ->
  race_step w i = Some (w', n) -> steady tt0 parts w' (tr ++ n).
Proof.
  intros KT [ST [SC [SW SE]]] S.
  assert (K : forall q q' k m, nth_error (q_callers w) i = Some q ->
    (forall t', on_line (q_at q') = Some t' -> t' = tt0) ->
    (exists past, q_todo q = past ++ q_todo q') ->
    (forall i t' b, In (Wrote i t' b) m -> t' = tt0) ->
    (forall j e, In (Ended j (Raise e)) m -> e = IndexError
        \/ exists ds p cf bm, nth_error parts j = Some ds /\ In (Send p cf bm) ds
             /\ forall c, cl_transport c = true -> send p cf bm c = (c, [], Raise e)) ->
    steady tt0 parts (mkRace (q_transport w) k (put i q' (q_callers w))) (tr ++ m)).
  { intros q q' k m T O [past1 D] MW ME. split; [exact ST|]. split; [|split].
    - intros j u U. cbn [q_callers] in U. destruct (Nat.eq_dec i j) as [<-|N].
      + rewrite (put_same _ _ _ _ T) in U. inversion U; subst. split; [exact O|].
        destruct (SC _ _ T) as [_ [ds [past [P E]]]]. exists ds, (past ++ past1). split; [exact P|].
        rewrite E, D. apply app_assoc.
      + rewrite put_other in U by exact N. now apply SC.
    - intros j t' b I. apply in_app_or in I. destruct I as [I|I]; eauto.
    - intros j e I. apply in_app_or in I. destruct I as [I|I]; eauto. }
  split_step w i S; pose proof (SC _ _ T) as [OL [ds [past [P E]]]]; cbn [q_at q_todo on_line] in OL, E;
    try (eapply K; [reflexivity|cbn [q_at on_line]; solve [exact OL|discriminate]
                   |exists []; reflexivity|intros ? ? ? Q; exact (False_ind _ Q)|intros ? ? Q; exact (False_ind _ Q)]).
  - eapply K; [reflexivity| |now exists [Send p cf bm]|intros ? ? ? []|intros ? ? []].
    intros t' L. cbn [q_at] in L. rewrite ST in BS. destruct (begin_other _ _ _ _ _ BS) as [[t0 [b ->]]|[t0 [b ->]]].
    + destruct (begin_codes _ _ _ _ _ _ BS) as [X _]. cbn in L. congruence.
    + destruct (begin_writes _ _ _ _ _ _ _ BS) as [X _]. cbn in L. congruence.
  - eapply K; [reflexivity|discriminate|now exists [Send p cf bm]|intros ? ? ? [|[]]; discriminate|].
    intros j e0 [Q|[]]. inversion Q; subst. right. exists (past ++ Send p cf bm :: todo), p, cf, bm.
    split; [exact P|]. split; [apply in_elt|]. intros c C. apply (begin_raises _ _ _ _ _ BS). now rewrite ST.
  - exfalso. apply (KT ds t); [eapply nth_error_In; exact P|]. rewrite E. apply in_elt.
  - eapply K; [reflexivity|discriminate|now exists []|intros ? ? ? [|[]]; discriminate|].
    intros j e0 [Q|[]]. inversion Q; subst. now left.
  - eapply K; [reflexivity|discriminate|now exists []| |].
    + intros j t' b' [Q|[Q|[]]]; [|discriminate]. inversion Q; subst. now apply OL.
    + intros j e0 [Q|[Q|[]]]; discriminate.
Qed.

Lemma race_steady t k parts l w tr : keeps_transport parts ->
  race_run (race_start (Some t) k parts) l = (w, tr) -> steady t parts w tr.
Proof.
  intros KT. apply (race_ind (steady t parts)).
  - split; [reflexivity|]. split; [|split; [intros ? ? ? []|intros ? ? []]].
    intros i q Q. apply start_caller in Q. destruct Q as [ds [P ->]]. split; [discriminate|].
    exists ds, []. split; [exact P|reflexivity].
  - intros w1 tr1 i w' n B S. eapply steady_step; eassumption.
Qed.

(** * One call by itself *)
Lemma race_app w l1 l2 : race_run w (l1 ++ l2)
  = let (w1, t1) := race_run w l1 in let (w2, t2) := race_run w1 l2 in (w2, t1 ++ t2).
Proof.
  revert w. induction l1 as [|i l1 IH]; intros w; cbn [app race_run].
  - now destruct (race_run w l2).
  - destruct (race_step w i) as [[w1 n]|]; [|apply IH]. rewrite IH.
    destruct (race_run w1 l1) as [w2 t2]. destruct (race_run w2 l2) as [w3 t3]. now rewrite app_assoc.
Qed.

Lemma step_at w i q : nth_error (q_callers w) i = Some q -> race_step w i = caller_step w i q.
Proof. intros H. unfold race_step. now rewrite H. Qed.

Lemma put_put {A} (l : list A) : forall i x y, put i x (put i y l) = put i x l.
Proof. induction l as [|z l IH]; intros [|i] x y; cbn; auto. now rewrite IH. Qed.
