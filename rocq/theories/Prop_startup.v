(** C70: how the daemon starts. *)
From Coq Require Import String List ZArith Bool Lia.
From Verif Require Import Py Text Client Cmqttd Daemon Cbz Startup Spec_mqtt Mqtt_facts Cbz_facts Spec_startup.
Import ListNotations.
Open Scope Z_scope.

Notation length := List.length.

(** ** Text *)

Lemma given_spec x : if given x then exists s, has x s else unset x.
Proof. destruct x as [[|c s]|]; cbn; [now right| |now left]. exists (c :: s). now split. Qed.
Lemma or_none_spec x s : or_none x = Some s <-> has x s.
Proof.
  unfold or_none, has. destruct x as [[|c t]|]; cbn; split.
  - discriminate.
  - intros [H N]. inversion H. now subst.
  - intros H. split; [exact H|]. inversion H. discriminate.
  - intros [H _]. exact H.
  - discriminate.
  - intros [H _]. exact H.
Qed.
Lemma or_none_none x : or_none x = None <-> unset x.
Proof.
  unfold or_none, unset. destruct x as [[|c t]|]; cbn; split; auto; try discriminate. intros [|]; discriminate.
Qed.

Lemma white_spec u c : str_space u c = true <-> white u c.
Proof. unfold str_space, white. destruct (c <? 127) eqn:L; destruct (u_space u c); intuition (try lia; try discriminate). Qed.

Lemma drop_spec f l : exists a, l = a ++ drop_while f l /\ Forall (fun c => f c = true) a
  /\ forall c t, drop_while f l = c :: t -> f c = false.
Proof.
  induction l as [|c l [a [E [F H]]]]; cbn [drop_while].
  - exists []. split; [reflexivity|]. split; [constructor|]. discriminate.
  - destruct (f c) eqn:Q.
    + exists (c :: a). split; [cbn; now rewrite <- E|]. split; [now constructor|exact H].
    + exists []. split; [reflexivity|]. split; [constructor|]. intros c' t X. inversion X. now subst.
Qed.

Lemma strip_trimmed u s : trimmed u s (py_strip u s).
Proof.
  unfold py_strip, strip_by. set (f := str_space u).
  destruct (drop_spec f s) as [a [E [A H]]]. set (s1 := drop_while f s) in *.
  destruct (drop_spec f (rev s1)) as [b [E2 [B H2]]]. set (s2 := drop_while f (rev s1)) in *.
  assert (E3 : s1 = rev s2 ++ rev b) by (rewrite <- rev_app_distr, <- E2; symmetry; apply rev_involutive).
  exists a, (rev b). split; [now rewrite <- E3|].
  assert (W : forall l, Forall (fun c => f c = true) l -> Forall (white u) l).
  { intros l. apply Forall_impl. intros c. apply white_spec. }
  assert (NW : forall c, f c = false -> ~ white u c).
  { intros c F X. apply white_spec in X. subst f. congruence. }
  split; [now apply W|]. split; [now apply W, Forall_rev|]. split.
  - intros c t Q. apply NW. apply (H c (t ++ rev b)). rewrite E3, Q. reflexivity.
  - intros c t Q. apply NW. apply (H2 c (rev t)). rewrite <- (rev_involutive s2), Q, rev_app_distr. reflexivity.
Qed.

Lemma drop_all f a x : Forall (fun c => f c = true) a -> drop_while f (a ++ x) = drop_while f x.
Proof. induction 1 as [|c a H _ IH]; cbn; [reflexivity|now rewrite H]. Qed.
Lemma drop_keep f x : (forall c t, x = c :: t -> f c = false) -> drop_while f x = x.
Proof. destruct x as [|c x]; intros H; [reflexivity|]. cbn. now rewrite (H c x eq_refl). Qed.

Lemma trimmed_strip u s t : trimmed u s t -> py_strip u s = t.
Proof.
  intros [a [b [-> [A [B [H1 H2]]]]]]. unfold py_strip, strip_by. set (f := str_space u).
  assert (W : forall l, Forall (white u) l -> Forall (fun c => f c = true) l).
  { intros l. apply Forall_impl. intros c. apply white_spec. }
  assert (NW : forall c, ~ white u c -> f c = false).
  { intros c X. destruct (f c) eqn:F; [|reflexivity]. destruct X. now apply white_spec. }
  rewrite drop_all by now apply W.
  destruct t as [|c t]; cbn [app].
  - rewrite <- (app_nil_r b), drop_all by now apply W. reflexivity.
  - change (c :: t ++ b) with ((c :: t) ++ b). rewrite (drop_keep f ((c :: t) ++ b)).
    + rewrite rev_app_distr, drop_all by now apply Forall_rev, W.
      rewrite drop_keep; [apply rev_involutive|]. intros d x E. apply NW. apply (H2 d (rev x)).
      rewrite <- (rev_involutive (c :: t)), E. reflexivity.
    + intros d x E. inversion E; subst. apply NW. now apply (H1 d t).
Qed.

Lemma trimmed_unique u s t1 t2 : trimmed u s t1 -> trimmed u s t2 -> t1 = t2.
Proof. intros A B. apply trimmed_strip in A. apply trimmed_strip in B. congruence. Qed.

Lemma trimmed_newline u s t : trimmed u s t -> trimmed u (s ++ [10]) t.
Proof.
  intros [a [b [-> [A [B H]]]]]. exists a, (b ++ [10]). split; [now rewrite <- !app_assoc|]. split; [exact A|].
  split; [|exact H]. apply Forall_app. split; [exact B|]. repeat constructor; lia.
Qed.

Lemma readline_spec s : exists first, ~ In 10 first
  /\ ((readline s = (first ++ [10], snd (readline s)) /\ s = first ++ [10] ++ snd (readline s))
      \/ (readline s = (first, []) /\ s = first)).
Proof.
  induction s as [|c s [l [N [[E F]|[E F]]]]]; cbn [readline].
  - exists []. split; [auto|]. now right.
  - destruct (c =? 10) eqn:Q.
    + exists []. split; [auto|]. left. apply Z.eqb_eq in Q. subst c. now split.
    + exists (c :: l). apply Z.eqb_neq in Q. split; [intros [|]; auto|]. left. rewrite E at 1.
      destruct (readline s) as [x y]. cbn [snd] in *. split; [reflexivity|]. cbn [app]. now rewrite F at 1.
  - destruct (c =? 10) eqn:Q.
    + exists []. split; [auto|]. left. apply Z.eqb_eq in Q. subst c. now split.
    + exists (c :: l). apply Z.eqb_neq in Q. split; [intros [|]; auto|]. right. rewrite E.
      split; [reflexivity|]. now rewrite F at 1.
Qed.

Lemma line_unique s l1 r1 l2 r2 : line_of s l1 r1 -> line_of s l2 r2 -> l1 = l2 /\ r1 = r2.
Proof.
  intros [N1 E1] [N2 E2]. revert s l2 N2 E1 E2. induction l1 as [|c l1 IH]; intros s l2 N2 E1 E2.
  - destruct l2 as [|d l2].
    + destruct E1 as [->|[-> ->]], E2 as [E2|[E2 ->]]; try discriminate; auto. now inversion E2.
    + destruct E1 as [->|[-> ->]], E2 as [E2|[E2 ->]]; try discriminate; cbn in E2; inversion E2; subst; destruct N2; now left.
  - destruct l2 as [|d l2].
    + destruct E2 as [->|[-> ->]], E1 as [E1|[E1 ->]]; try discriminate; cbn in E1; inversion E1; subst; destruct N1; now left.
    + destruct s as [|x s]; [destruct E1 as [E|[E _]]; discriminate|].
      destruct (IH (fun H => N1 (or_intror H)) s l2) as [-> ->]; auto.
      * intros H. apply N2. now right.
      * destruct E1 as [E|[E ->]]; inversion E; subst; auto.
      * destruct E2 as [E|[E ->]]; inversion E; subst; auto.
      * split; [|reflexivity]. f_equal. destruct E1 as [E|[E _]], E2 as [F|[F _]]; inversion E; inversion F; congruence.
Qed.

Lemma read_auth_spec u file : exists name password,
  read_auth u file = SetLogin name password /\ credentials u file name password.
Proof.
  unfold read_auth. destruct (readline_spec file) as [l1 [N1 H1]].
  destruct (readline file) as [x1 rest] eqn:R1.
  destruct (readline_spec rest) as [l2 [N2 H2]]. destruct (readline rest) as [x2 rest2] eqn:R2. cbn [snd] in *.
  exists (py_strip u x1), (py_strip u x2). split; [reflexivity|].
  exists l1, rest, l2, rest2.
  assert (T : forall x l, x = l ++ [10] \/ x = l -> trimmed u l (py_strip u x)).
  { intros x l [->| ->]; [|apply strip_trimmed]. pose proof (strip_trimmed u l) as S.
    rewrite (trimmed_strip u (l ++ [10]) (py_strip u l)); [exact S|now apply trimmed_newline]. }
  split; [split; [exact N1|destruct H1 as [[_ ->]|[E ->]]; [now left|right; inversion E; auto]]|].
  split; [split; [exact N2|destruct H2 as [[_ ->]|[E ->]]; [now left|right; inversion E; auto]]|].
  split; apply T; [destruct H1 as [[E _]|[E _]]|destruct H2 as [[E _]|[E _]]]; inversion E; auto.
Qed.

(** A file has one user name and one password. *)
Lemma credentials_unique u file n1 p1 n2 p2 :
  credentials u file n1 p1 -> credentials u file n2 p2 -> n1 = n2 /\ p1 = p2.
Proof.
  intros [l1 [r1 [l2 [r2 [A [B [C D]]]]]]] [k1 [q1 [k2 [q2 [E [F [G H]]]]]]].
  destruct (line_unique _ _ _ _ _ A E) as [-> ->]. destruct (line_unique _ _ _ _ _ B F) as [-> ->].
  split; eapply trimmed_unique; eassumption.
Qed.

Lemma split_colon_spec n s : 
  (~ In 58 s /\ split_colon (S n) s = [s])
  \/ exists a r, ~ In 58 a /\ s = a ++ 58 :: r /\ split_colon (S n) s = a :: split_colon n r.
Proof.
  cbn [split_colon].
  assert (G : forall s acc,
    (~ In 58 s /\ (fix go (acc s : text) : list text :=
       match s with [] => [rev acc] | c :: s' => if c =? 58 then rev acc :: split_colon n s' else go (c :: acc) s' end) acc s
       = [rev acc ++ s])
    \/ exists a r, ~ In 58 a /\ s = a ++ 58 :: r /\ (fix go (acc s : text) : list text :=
       match s with [] => [rev acc] | c :: s' => if c =? 58 then rev acc :: split_colon n s' else go (c :: acc) s' end) acc s
       = (rev acc ++ a) :: split_colon n r).
  { clear s. induction s as [|c s IH]; intros acc.
    - left. split; [auto|]. now rewrite app_nil_r.
    - destruct (c =? 58) eqn:Q.
      + right. exists [], s. apply Z.eqb_eq in Q. subst. split; [auto|]. split; [reflexivity|]. now rewrite app_nil_r.
      + apply Z.eqb_neq in Q. destruct (IH (c :: acc)) as [[N E]|[a [r [N [-> E]]]]].
        * left. split; [intros [|]; auto|]. rewrite E. cbn [rev]. now rewrite <- app_assoc.
        * right. exists (c :: a), r. split; [intros [|]; auto|]. split; [reflexivity|].
          rewrite E. cbn [rev]. now rewrite <- app_assoc. }
  exact (G s []).
Qed.

Lemma colon_unique a r : forall b q, ~ In 58 a -> ~ In 58 b -> a ++ 58 :: r = b ++ 58 :: q -> a = b /\ r = q.
Proof.
  induction a as [|c a IH]; intros [|d b] q A B E; cbn in E; inversion E; subst.
  - auto.
  - destruct B. now left.
  - destruct A. now left.
  - destruct (IH b q) as [-> ->]; auto; intros X; [apply A|apply B]; now right.
Qed.

(** The parts that the daemon takes. *)
Lemma tcp_parts s :
  (~ In 58 s /\ nth_error (split_colon 2 s) 1 = None)
  \/ exists host port, address_of s host port
     /\ nth_error (split_colon 2 s) 0 = Some host /\ nth_error (split_colon 2 s) 1 = Some port.
Proof.
  destruct (split_colon_spec 1 s) as [[N E]|[a [r [N [-> E]]]]]; rewrite E.
  - left. now split.
  - right. destruct (split_colon_spec 0 r) as [[N2 E2]|[b [q [N2 [-> E2]]]]]; rewrite E2.
    + exists a, r. split; [|now split]. split; [exact N|]. split; [exact N2|]. now left.
    + exists a, b. split; [|now split]. split; [exact N|]. split; [exact N2|]. right. now exists q.
Qed.

Lemma address_unique s h1 p1 h2 p2 : address_of s h1 p1 -> address_of s h2 p2 -> h1 = h2 /\ p1 = p2.
Proof.
  intros [A [B C]] [D [E F]].
  assert (X : forall h p, s = h ++ [58] ++ p \/ (exists r, s = h ++ [58] ++ p ++ [58] ++ r) ->
    exists t, s = h ++ 58 :: t /\ (t = p \/ exists r, t = p ++ 58 :: r)).
  { intros h p [->|[r ->]]; eexists; (split; [reflexivity|]); [now left|right; now exists r]. }
  apply X in C. apply X in F. destruct C as [t [C1 C2]]. destruct F as [v [F1 F2]].
  rewrite C1 in F1. apply colon_unique in F1; auto. destruct F1 as [-> ->]. split; [reflexivity|].
  destruct C2 as [->|[r ->]], F2 as [F2|[q F2]]; auto.
  - destruct B. rewrite F2. apply in_or_app. right. now left.
  - destruct E. rewrite <- F2. apply in_or_app. right. now left.
  - apply colon_unique in F2; tauto.
Qed.

Lemma pci_of_spec u o labels :
  match pci_of u o labels with
  | Ok a => pci_step u o labels a /\ forall b, pci_step u o labels b -> b = a
  | Raise e => (forall b, ~ pci_step u o labels b)
      /\ ((unset (o_serial o) /\ unset (o_tcp o) /\ e = UnboundLocalError)
          \/ (unset (o_serial o) /\ exists s, has (o_tcp o) s /\ ~ In 58 s /\ e = IndexError)
          \/ (unset (o_serial o) /\ exists s host port, has (o_tcp o) s /\ address_of s host port
              /\ (forall v, ~ int_text u port v) /\ e = ValueError))
  end.
Proof.
  unfold pci_of.
  assert (HU : forall x s, has x s -> unset x -> False).
  { intros x s [-> N] [|E]; [discriminate|]. inversion E. contradiction. }
  assert (HH : forall x s t, has x s -> has x t -> s = t).
  { intros x s t [-> _] [E _]. now inversion E. }
  destruct (or_none (o_serial o)) as [dev|] eqn:S.
  - apply or_none_spec in S. split; [now constructor|]. intros b B. destruct B as [d D|s h p v N _ _ _].
    + now rewrite (HH _ _ _ S D).
    + destruct (HU _ _ S N).
  - apply or_none_none in S. destruct (or_none (o_tcp o)) as [addr|] eqn:T.
    + apply or_none_spec in T. destruct (tcp_parts addr) as [[N E]|[host [port [A [E0 E1]]]]].
      * rewrite E. assert (forall b, ~ pci_step u o labels b) as X.
        { intros b B. destruct B as [d D|s h p v _ H [_ [_ Q]] _]; [exact (HU _ _ D S)|].
          rewrite (HH _ _ _ T H) in N. apply N. destruct Q as [->|[r ->]]; apply in_or_app; right; now left. }
        destruct (nth_error (split_colon 2 addr) 0); (split; [exact X|]); right; left; eauto.
      * rewrite E0, E1. destruct (py_int_of_text u port) as [v|e] eqn:P; cbn [rbind].
        -- apply int_reads in P. split; [now apply ps_tcp with addr port|].
           intros b B. destruct B as [d D|s h p v' _ H Q V]; [destruct (HU _ _ D S)|].
           rewrite <- (HH _ _ _ T H) in Q. destruct (address_unique _ _ _ _ _ A Q) as [-> ->].
           apply int_reads in P. apply int_reads in V. rewrite P in V. now inversion V.
        -- assert (NV : forall v, ~ int_text u port v).
           { intros v V. apply int_reads in V. congruence. }
           split.
           ++ intros b B. destruct B as [d D|s h p v' _ H Q V]; [exact (HU _ _ D S)|].
              rewrite <- (HH _ _ _ T H) in Q. destruct (address_unique _ _ _ _ _ A Q) as [-> ->]. now apply (NV v').
           ++ right. right. split; [exact S|]. exists addr, host, port. apply int_errors in P. auto.
    + apply or_none_none in T. split; [|left; auto].
      intros b B. destruct B as [d D|s h p v _ H _ _]; [exact (HU _ _ D S)|exact (HU _ _ H T)].
Qed.

Lemma act_follows w a l k : follows w l (fst k) (snd k) -> follows w (a :: l) (fst (act w a k)) (snd (act w a k)).
Proof.
  intros F. unfold act. destruct (w a) as [[]|e] eqn:E; destruct k as [tr r]; cbn [fst snd] in *; now constructor.
Qed.

(** ** C70 *)

(** A certificate without its key, or a key without its certificate, is a usage
    error: nothing is opened. *)
Theorem C70_usage : forall lib w o, half_certificate o -> _main lib w o = ([Usage], Raise SystemExit).
Proof.
  intros lib w o H. unfold _main. pose proof (given_spec (o_cert o)) as C. pose proof (given_spec (o_key o)) as K.
  assert (HU : forall x, (exists s, has x s) -> unset x -> False).
  { intros x [s [-> N]] [|E]; [discriminate|]. inversion E. contradiction. }
  destruct (given (o_cert o)), (given (o_key o)); try reflexivity; exfalso;
    destruct H as [[A B]|[A B]]; eauto.
Qed.
Print Assumptions C70_usage.

(** Otherwise the daemon reads the labels and then carries out the one plan that
    its options describe, step by step, until a step raises. *)
Theorem C70_plan : forall lib w o tr r, ~ half_certificate o -> _main lib w o = (tr, r) ->
  match labels_of lib o with
  | Raise e => tr = [] /\ r = Raise e
  | Ok labels =>
      (exists l, plan (lib_unicode lib) o labels l /\ follows w l tr r
         /\ forall l', plan (lib_unicode lib) o labels l' -> l' = l)
      \/ ((forall l, ~ plan (lib_unicode lib) o labels l) /\ tr = []
          /\ ((unset (o_serial o) /\ unset (o_tcp o) /\ r = Raise UnboundLocalError)
              \/ (unset (o_serial o) /\ exists s, has (o_tcp o) s /\ ~ In 58 s /\ r = Raise IndexError)
              \/ (unset (o_serial o) /\ exists s host port, has (o_tcp o) s /\ address_of s host port
                  /\ (forall v, ~ int_text (lib_unicode lib) port v) /\ r = Raise ValueError)))
  end.
Proof.
  intros lib w o tr r H E. unfold _main in E.
  pose proof (given_spec (o_cert o)) as C. pose proof (given_spec (o_key o)) as K.
  assert (X : xorb (given (o_cert o)) (given (o_key o)) = false).
  { destruct (given (o_cert o)), (given (o_key o)); try reflexivity; destruct H; [left|right]; now split. }
  rewrite X in E. fold (labels_of lib o) in E.
  destruct (labels_of lib o) as [labels|e]; [|inversion E; auto].
  set (u := lib_unicode lib) in *.
  pose proof (pci_of_spec u o labels) as P. destruct (pci_of u o labels) as [pci|e].
  2: { right. inversion E; subst. destruct P as [P Q]. split.
       - intros l [a [? [? [? [A _]]]]]. now apply (P a).
       - split; [reflexivity|]. destruct Q as [[? [? ->]]|[[? [s [? [? ->]]]]|[? [s [h [p [? [? [? ->]]]]]]]]];
           [left|right; left|right; right]; eauto 10. }
  left. destruct P as [P PU].
  set (login := match o_auth o with None => [] | Some f => [read_auth u f] end).
  set (tls := if o_disable_tls o then [] else [TlsSet (or_none (o_ca o)) (or_none (o_cert o))
                                    (if given (o_cert o) then o_key o else None)]).
  set (port := if o_port o =? 0 then if o_disable_tls o then 1883 else 8883 else o_port o).
  assert (LS : login_step u o login).
  { unfold login. destruct (o_auth o) as [f|] eqn:A; [|now constructor].
    destruct (read_auth_spec u f) as [n [p [-> Q]]]. now apply ls_file with f. }
  assert (KS : forall s, (if given (o_cert o) then o_key o else None) = Some s <-> has (o_key o) s).
  { intros s. destruct (given (o_cert o)).
    - assert (G : given (o_key o) = true) by (destruct (given (o_key o)); [reflexivity|discriminate]).
      rewrite <- or_none_spec. unfold or_none. now rewrite G.
    - assert (G : given (o_key o) = false) by (destruct (given (o_key o)); [discriminate|reflexivity]).
      rewrite <- or_none_spec. unfold or_none. now rewrite G. }
  assert (TS : tls_step o tls).
  { unfold tls. destruct (o_disable_tls o) eqn:D; [now constructor|]. constructor; auto; intros; apply or_none_spec. }
  assert (BP : broker_port o port).
  { unfold port, broker_port. destruct (o_port o =? 0) eqn:Q; [apply Z.eqb_eq in Q|apply Z.eqb_neq in Q]; auto. }
  exists ([pci] ++ login ++ tls ++ [Helper; BrokerConnect (o_address o) port (o_keepalive o); WaitLost]).
  split; [now exists pci, login, tls, port|]. split.
  - change tr with (fst (tr, r)). change r with (snd (tr, r)) at 2. rewrite <- E. cbn [app].
    apply act_follows. unfold login, tls, port.
    destruct (o_auth o) as [f|], (o_disable_tls o); cbn [app]; repeat apply act_follows; constructor.
  - intros l' [pci' [login' [tls' [port' [A [B [D [F ->]]]]]]]].
    rewrite (PU _ A). f_equal. f_equal; [|f_equal; [|repeat f_equal]].
    + destruct LS as [N|f n p A1 A2], B as [N'|f' n' p' B1 B2]; try congruence.
      rewrite A1 in B1. inversion B1; subst. destruct (credentials_unique _ _ _ _ _ _ A2 B2) as [-> ->]. reflexivity.
    + assert (OE : forall x y : option text, (forall s, x = Some s <-> y = Some s) -> x = y).
      { intros x y Q. destruct x as [s|]; [symmetry; now apply Q|]. destruct y as [s|]; [now apply Q|reflexivity]. }
      inversion TS; inversion D; subst; try congruence.
      rewrite (OE ca0 ca), (OE cert0 cert), (OE key0 key); [reflexivity| | |]; intros s;
        repeat match goal with Q : forall s, _ = Some s <-> has _ s |- _ => specialize (Q s) end; tauto.
    + unfold broker_port in *. destruct BP as [[? ->]|[? ->]], F as [[? ->]|[? ->]]; congruence.
Qed.
Print Assumptions C70_plan.

Lemma follows_prefix w l tr r : follows w l tr r -> exists rest, l = tr ++ rest
  /\ (r = Ok tt -> rest = []) /\ (forall a b, tr = a ++ b -> b <> [] -> Forall (fun x => w x = Ok tt) a).
Proof.
  induction 1 as [|a l tr r W F [rest [-> [R P]]]|a l e W].
  - exists []. split; [reflexivity|]. split; [auto|]. intros [|x a] [|y b] E N; try discriminate; constructor.
  - exists rest. split; [reflexivity|]. split; [exact R|]. intros [|x c] b E N; [constructor|].
    cbn in E. inversion E; subst. constructor; [exact W|]. now apply (P c b).
  - exists l. split; [reflexivity|]. split; [discriminate|]. intros [|x c] b E N; [constructor|].
    cbn in E. inversion E as [[Q1 Q2]]. destruct c, b; try discriminate. congruence.
Qed.

(** The daemon contacts the broker only at the given address and port, after it
    is connected to the interface, has set the credentials if there are any,
    and has turned TLS on with the given certificates, unless the options
    disable TLS; then it never turns it on. *)
Theorem C70_broker : forall lib w o tr r host port keepalive, _main lib w o = (tr, r) ->
  In (BrokerConnect host port keepalive) tr ->
  host = o_address o /\ keepalive = o_keepalive o /\ broker_port o port
  /\ exists labels pci login tls after, tr = [pci] ++ login ++ tls ++ [Helper] ++ BrokerConnect host port keepalive :: after
     /\ labels_of lib o = Ok labels /\ pci_step (lib_unicode lib) o labels pci
     /\ login_step (lib_unicode lib) o login /\ tls_step o tls
     /\ Forall (fun x => w x = Ok tt) ([pci] ++ login ++ tls)
     /\ (after = [] \/ after = [WaitLost]).
Proof.
  intros lib w o tr r host port ka E I.
  assert (H : ~ half_certificate o).
  { intros H. rewrite (C70_usage lib w o H) in E. inversion E; subst. destruct I as [I|[]]. discriminate. }
  pose proof (C70_plan lib w o tr r H E) as P. destruct (labels_of lib o) as [labels|e] eqn:L.
  2: { destruct P as [-> _]. destruct I. }
  destruct P as [[l [[pci [login [tls [p [A [B [C [D ->]]]]]]]] [F _]]]|[_ [-> _]]]; [|destruct I].
  pose proof F as F0. apply follows_prefix in F. destruct F as [rest [S [_ W]]].
  assert (N1 : forall x y z, ~ In (BrokerConnect x y z) ([pci] ++ login ++ tls ++ [Helper])).
  { intros x y z J. repeat (apply in_app_iff in J; destruct J as [J|J]).
    - destruct J as [J|[]]. rewrite J in A. inversion A.
    - destruct B; cbn in J; [contradiction|]. destruct J as [J|[]]. discriminate.
    - destruct C; cbn in J; [contradiction|]. destruct J as [J|[]]. discriminate.
    - destruct J as [J|[]]. discriminate. }
  set (pre := [pci] ++ login ++ tls ++ [Helper]) in *.
  assert (Q : exists after, tr = pre ++ BrokerConnect (o_address o) p (o_keepalive o) :: after
              /\ (after = [] \/ after = [WaitLost])
              /\ BrokerConnect host port ka = BrokerConnect (o_address o) p (o_keepalive o)).
  { assert (S' : pre ++ [BrokerConnect (o_address o) p (o_keepalive o); WaitLost] = tr ++ rest).
    { rewrite <- S. unfold pre. rewrite <- !app_assoc. reflexivity. }
    clear S W F0 E. clearbody pre. revert pre N1 S'. induction tr as [|x tr IH]; intros pre N1 S.
    - destruct I.
    - destruct pre as [|y pre]; cbn [app] in S; inversion S; subst.
      + destruct I as [I|I].
        * destruct tr as [|z [|z' tr]]; cbn [app] in *.
          -- exists []. auto.
          -- exists [WaitLost]. injection H2 as <- _. auto.
          -- discriminate.
        * exfalso. destruct tr as [|z [|z' tr]]; cbn [app] in *; [destruct I| |]; inversion H2; subst.
          destruct I as [I|[]]. discriminate.
      + destruct I as [I|I]; [destruct (N1 host port ka); now left|].
        destruct (IH I pre) as [after [-> R]]; [intros a b c J; apply (N1 a b c); now right|exact H2|].
        exists after. auto. }
  destruct Q as [after [-> [Q1 Q2]]]. inversion Q2; subst. repeat (split; [auto; fail|]).
  exists labels, pci, login, tls, after.
  split; [unfold pre; rewrite <- !app_assoc; reflexivity|].
  repeat (split; [auto; fail|]). split; [|exact Q1].
  apply (W _ ([Helper] ++ BrokerConnect (o_address o) p (o_keepalive o) :: after)); [|discriminate].
  unfold pre. rewrite <- !app_assoc. reflexivity.
Qed.
Print Assumptions C70_broker.

(** TLS in particular. *)
Theorem C70_tls : forall lib w o tr r host port keepalive, _main lib w o = (tr, r) ->
  In (BrokerConnect host port keepalive) tr -> o_disable_tls o = false ->
  exists before ca cert key between after,
    tr = before ++ TlsSet ca cert key :: between ++ BrokerConnect host port keepalive :: after
    /\ w (TlsSet ca cert key) = Ok tt
    /\ (forall s, ca = Some s <-> has (o_ca o) s)
    /\ ((exists c k, cert = Some c /\ key = Some k /\ has (o_cert o) c /\ has (o_key o) k)
        \/ (cert = None /\ key = None)).
Proof.
  intros lib w o tr r h p ka E I D.
  assert (H : ~ half_certificate o).
  { intros H. rewrite (C70_usage lib w o H) in E. inversion E; subst. destruct I as [I|[]]. discriminate. }
  destruct (C70_broker lib w o tr r h p ka E I) as [_ [_ [_ [labels [pci [login [tls [after [-> [_ [_ [_ [T [W _]]]]]]]]]]]]]].
  destruct T as [X|ca cert key _ A B C]; [congruence|].
  exists ([pci] ++ login), ca, cert, key, [Helper], after.
  split; [now rewrite <- !app_assoc|]. split.
  { rewrite app_assoc in W. apply Forall_app in W. destruct W as [_ W]. now inversion W. }
  split; [exact A|].
  pose proof (given_spec (o_cert o)) as GC. pose proof (given_spec (o_key o)) as GK.
  assert (NU : forall x s, unset x -> ~ has x s).
  { intros x s [->| ->] [Q N]; [discriminate|]. inversion Q. now destruct N. }
  destruct (given (o_cert o)), (given (o_key o)).
  - left. destruct GC as [c GC], GK as [k GK]. exists c, k. rewrite (B c), (C k). auto.
  - destruct H. left. auto.
  - destruct H. right. auto.
  - right. split.
    + destruct cert as [s|]; [|reflexivity]. destruct (NU _ s GC). now apply B.
    + destruct key as [s|]; [|reflexivity]. destruct (NU _ s GK). now apply C.
Qed.
Print Assumptions C70_tls.

(** Without TLS the certificate options have no effect at all. *)
Theorem C70_plaintext : forall lib w o tr r, o_disable_tls o = true -> _main lib w o = (tr, r) ->
  forall ca cert key, ~ In (TlsSet ca cert key) tr.
Proof.
  intros lib w o tr r D E ca cert key I.
  assert (H : ~ half_certificate o).
  { intros H. rewrite (C70_usage lib w o H) in E. inversion E; subst. destruct I as [I|[]]. discriminate. }
  pose proof (C70_plan lib w o tr r H E) as P. destruct (labels_of lib o) as [labels|e].
  2: { destruct P as [-> _]. destruct I. }
  destruct P as [[l [[pci [login [tls [p [A [B [C [_ ->]]]]]]]] [F _]]]|[_ [-> _]]]; [|destruct I].
  apply follows_prefix in F. destruct F as [rest [S _]].
  assert (J : In (TlsSet ca cert key) ([pci] ++ login ++ tls ++ [Helper; BrokerConnect (o_address o) p (o_keepalive o); WaitLost])).
  { rewrite S. apply in_or_app. now left. }
  repeat (apply in_app_iff in J; destruct J as [J|J]).
  - destruct J as [J|[]]. rewrite J in A. inversion A.
  - destruct B; cbn in J; [contradiction|]. destruct J as [J|[]]. discriminate.
  - destruct C; [contradiction|congruence].
  - destruct J as [J|[J|[J|[]]]]; discriminate.
Qed.
Print Assumptions C70_plaintext.

(** An IPv6 address cannot be given: the text between its first two colons is
    taken for the port. *)
Definition plain : unicode := mkUnicode (fun _ => false) (fun _ => None).
Definition plain_library : library := mkLibrary plain (fun c => [c]) (fun _ => Some 0) (fun _ => Some 0).
Definition options_for (tcp : text) : options :=
  mkOptions (txt "broker") 0 60 false (Some (txt " user " ++ [10] ++ txt "secret" ++ [10])) (Some []) (Some (txt "c.pem"))
    (Some (txt "k.pem")) None (Some tcp) 300 false None.
Theorem C70_tcp_refuted : ~ forall lib w o host port tr r,
  o_serial o = None -> o_tcp o = Some (host ++ [58] ++ py_str port) -> ~ half_certificate o -> o_project o = None ->
  _main lib w o = (tr, r) -> exists labels h, hd_error tr = Some (OpenTcp host port h labels).
Proof.
  intros H. specialize (H plain_library (fun _ => Ok tt) (options_for (txt "[::1]:10001")) (txt "[::1]") 10001 [] (Raise ValueError)).
  destruct H as [l [h E]]; try reflexivity; [|discriminate].
  intros [[_ [N|N]]|[_ [N|N]]]; discriminate.
Qed.
Print Assumptions C70_tcp_refuted.

(** A start with TLS, client certificate and credentials. *)
Example C70_case :
  _main plain_library (fun _ => Ok tt) (options_for (txt "192.0.2.1:10001"))
  = ([OpenTcp (txt "192.0.2.1") 10001 (fst (new_daemon 300 false)) []; SetLogin (txt "user") (txt "secret");
      TlsSet None (Some (txt "c.pem")) (Some (txt "k.pem")); Helper; BrokerConnect (txt "broker") 8883 60; WaitLost], Ok tt)
  /\ ~ half_certificate (options_for (txt "192.0.2.1:10001")).
Proof.
  split; [vm_compute; reflexivity|]. intros [[_ [N|N]]|[_ [N|N]]]; discriminate.
Qed.
