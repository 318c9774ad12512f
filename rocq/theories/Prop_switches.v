(** C97: the command line of the redirector. *)
From Coq Require Import List ZArith Bool Lia ZifyBool String.
From Verif Require Import Py Text Cmdline Redirect RedirectLine Spec_redirect Base Spec_switches Mqtt_facts Switches_facts Prop_redirect.
Import ListNotations.
Open Scope Z_scope.

Lemma upper_same a b : ~ 97 <= b <= 122 -> (upper_char a = b <-> same_letter a b).
Proof. unfold upper_char, same_letter. intros N. destruct ((97 <=? a) && (a <=? 122)) eqn:E; split; intros H; lia. Qed.
Lemma upper_all m t : Forall (fun b => ~ 97 <= b <= 122) t -> (py_upper m = t <-> Forall2 same_letter m t).
Proof.
  intros F. revert m. induction F as [|b t N F IH]; intros m.
  - split; [destruct m; [constructor|discriminate]|intros H; inversion H; reflexivity].
  - destruct m as [|a m]; [split; [discriminate|intros H; inversion H]|]. cbn [py_upper map]. split.
    + intros E. injection E as E1 E2. constructor; [now apply upper_same|now apply IH].
    + intros H. inversion H as [|? ? ? ? S R]; subst. f_equal; [now apply upper_same|now apply IH].
Qed.
Lemma newline_spec m n : newline m = Some n <-> newline_kind m n.
Proof.
  assert (C : Forall (fun b => ~ 97 <= b <= 122) (txt "CR")) by (vm_compute; repeat (constructor; [intros [H1 H2]; first [now apply H1|now apply H2]|]); constructor).
  assert (L : Forall (fun b => ~ 97 <= b <= 122) (txt "LF")) by (vm_compute; repeat (constructor; [intros [H1 H2]; first [now apply H1|now apply H2]|]); constructor).
  assert (CL : Forall (fun b => ~ 97 <= b <= 122) (txt "CR+LF")) by (vm_compute; repeat (constructor; [intros [H1 H2]; first [now apply H1|now apply H2]|]); constructor).
  assert (CL' : Forall (fun b => ~ 97 <= b <= 122) (txt "CRLF")) by (vm_compute; repeat (constructor; [intros [H1 H2]; first [now apply H1|now apply H2]|]); constructor).
  unfold newline. cbv zeta. split.
  - destruct (text_eqb (py_upper m) (txt "CR")) eqn:E1.
    { intros H. injection H as <-. constructor. apply upper_all; [exact C|now apply text_eqb_eq]. }
    destruct (text_eqb (py_upper m) (txt "LF")) eqn:E2.
    { intros H. injection H as <-. constructor. apply upper_all; [exact L|now apply text_eqb_eq]. }
    destruct (text_eqb (py_upper m) (txt "CR+LF")) eqn:E3.
    { intros H. injection H as <-. apply kind_crlf. apply upper_all; [exact CL|now apply text_eqb_eq]. }
    destruct (text_eqb (py_upper m) (txt "CRLF")) eqn:E4; [|discriminate].
    intros H. injection H as <-. apply kind_crlf'. apply upper_all; [exact CL'|now apply text_eqb_eq].
  - intros [m' F|m' F|m' F|m' F]; apply upper_all in F; try assumption; rewrite F; reflexivity.
Qed.
Lemma kind_fun m a b : newline_kind m a -> newline_kind m b -> a = b.
Proof. rewrite <- !newline_spec. congruence. Qed.
Lemma itself_fun (x a b : text) : itself x a -> itself x b -> a = b.
Proof. unfold itself. congruence. Qed.

(** The wanted settings that belong to options and arguments. *)
Definition want_of (v : values) (port : option text) (baud : Z) (net ser : bytes) : wanted :=
  mkWanted port baud (v_parity v) (v_rtscts v) (v_xonxoff v) (v_rts v) (v_dtr v) (v_local v)
    (if v_convert v then Some (ser, net) else None).
Lemma none_given {A} s (r : text -> A -> Prop) gs : final s (some r) None gs None -> forall x, ~ In (s, x) gs.
Proof. intros F. inversion F as [gs0 N|gs0 x gs' a N (b & _ & E)]; subst; [exact N|discriminate E]. Qed.
Lemma port_spec nu gs args v p b : Forall shaped gs -> amount nu gs v ->
  (port_and_baud nu v args = Some (p, b) <-> port_asked nu gs args p b).
Proof.
  intros S (_ & _ & A3 & A4 & _). unfold port_and_baud. split.
  - destruct args as [|q args]; [intros H; injection H as <- <-; now constructor|].
    destruct (v_port v) as [x|] eqn:V; [discriminate|]. assert (N := none_given _ _ _ A3).
    destruct args as [|t args]; [intros H; injection H as <- <-; now constructor|].
    destruct (nu 10 t) as [z|] eqn:Z; [|discriminate]. destruct args; [|discriminate].
    intros H. injection H as <- <-. now constructor.
  - intros H. destruct H as [p b F1 F2|p b N F|p t b N T].
    + f_equal. f_equal; [apply (final_fun _ _ _ _ (some_fun _ itself_fun) _ _ A3 F1)|
        apply (final_fun _ _ _ _ (fun x => number_fun nu x) _ _ A4 F2)].
    + assert (V : v_port v = None) by (inversion A3; subst; [reflexivity|exfalso; eapply N; apply in_or_app; right; now left]).
      rewrite V. f_equal. f_equal. apply (final_fun _ _ _ _ (fun x => number_fun nu x) _ _ A4 F).
    + assert (V : v_port v = None) by (inversion A3; subst; [reflexivity|exfalso; eapply N; apply in_or_app; right; now left]).
      now rewrite V, T.
Qed.
Lemma flag_fun s gs a b : flagged s gs a -> flagged s gs b -> a = b.
Proof. unfold flagged. intros A B. destruct a, b; try reflexivity; [symmetry; apply B, A; reflexivity|apply A, B; reflexivity]. Qed.
Lemma flag_dec s gs (b : bool) : flagged s gs b -> (b = false <-> ~ In (s, None) gs).
Proof. unfold flagged. intros A. destruct b; split; intros H; try congruence; [exfalso; apply H, A; reflexivity|intros I; apply A in I; discriminate I]. Qed.
(** What the model finds is what is asked for. *)
Lemma asked_spec nu gs args v want : Forall shaped gs -> amount nu gs v ->
  (asked nu gs args want <->
   exists port baud net ser, port_and_baud nu v args = Some (port, baud) /\ newline (v_net v) = Some net
     /\ newline (v_ser v) = Some ser /\ want = want_of v port baud net ser).
Proof.
  intros S A. assert (A' := A). destruct A' as (A1 & A2 & A3 & A4 & A5 & A6 & A7 & A8 & A9 & A10 & A11 & A12 & A13). split.
  - intros (P & Q & R & X & T & D & L & net & ser & nn & sn & N1 & N2 & K1 & K2 & C1 & C2).
    exists (w_port want), (w_baud want), nn, sn. split; [now apply (port_spec nu gs)|].
    assert (E1 := final_fun _ _ _ _ itself_fun _ _ A12 N1). assert (E2 := final_fun _ _ _ _ itself_fun _ _ A13 N2).
    rewrite E1, E2. split; [now apply newline_spec|]. split; [now apply newline_spec|].
    destruct want as [wp wb wpar wr wx wrts wdtr wl wn]. unfold want_of. cbn in *. f_equal.
    + exact (final_fun _ _ _ _ itself_fun _ _ Q A5).
    + exact (flag_fun _ _ _ _ R A6).
    + exact (flag_fun _ _ _ _ X A7).
    + exact (final_fun _ _ _ _ (some_fun _ (fun x => number_fun nu x)) _ _ T A8).
    + exact (final_fun _ _ _ _ (some_fun _ (fun x => number_fun nu x)) _ _ D A9).
    + exact (final_fun _ _ _ _ (fun x => number_fun nu x) _ _ L A10).
    + destruct (v_convert v) eqn:V; [apply C1, A11; reflexivity|apply C2, (flag_dec _ _ _ A11); reflexivity].
  - intros (port & baud & net & ser & P & N1 & N2 & ->). unfold want_of, asked. cbn.
    split; [now apply (port_spec nu gs args v)|]. do 6 (split; [assumption|]).
    exists (v_net v), (v_ser v), net, ser. split; [assumption|]. split; [assumption|].
    split; [now apply newline_spec|]. split; [now apply newline_spec|]. split.
    + intros I. apply A11 in I. now rewrite I.
    + intros I. apply (flag_dec _ _ _ A11) in I. now rewrite I.
Qed.
Lemma steps_of v port baud net ser : steps (want_of v port baud net ser) = preparation v port baud.
Proof. reflexivity. Qed.
Lemma redirector_reads nu w ws gs args want : reads ws gs args -> Forall (proper nu) gs -> asked nu gs args want ->
  redirector nu w ws = prepare w (w_newlines want) (steps want).
Proof.
  intros R P A. assert (S := reads_shaped _ _ _ R). assert (G := give_amount nu gs S). unfold redirector.
  rewrite (reads_process nu _ _ _ R). destruct (give_all nu gs unset) as [v|]; [|contradiction]. destruct G as [_ G].
  apply (asked_spec nu gs args v want S G) in A. destruct A as (port & baud & net & ser & E1 & E2 & E3 & ->).
  cbn [app]. rewrite E1, E2, E3. reflexivity.
Qed.
Lemma redirector_cases nu w ws :
  (redirector nu w ws = ([], Helped) /\ exists gs, asks ws gs /\ Forall (proper nu) gs)
  \/ redirector nu w ws = ([], Misused)
  \/ (exists gs args want, reads ws gs args /\ Forall (proper nu) gs /\ asked nu gs args want
      /\ redirector nu w ws = prepare w (w_newlines want) (steps want)).
Proof.
  assert (L := process_line nu ws [] unset). unfold redirector. destruct (process nu ws [] unset) as [| |v a].
  - left. split; [reflexivity|]. destruct L as (gs & A & G). exists gs. split; [exact A|].
    assert (M := give_amount nu gs (asks_shaped _ _ A)). destruct (give_all nu gs unset); [apply M|congruence].
  - right. now left.
  - destruct L as (gs & args & R & G & ->). assert (S := reads_shaped _ _ _ R). assert (M := give_amount nu gs S).
    rewrite G in M. destruct M as [P M]. cbn [app].
    destruct (port_and_baud nu v args) as [[port baud]|] eqn:E1; [|right; now left].
    destruct (newline (v_net v)) as [net|] eqn:E2; [|right; now left].
    destruct (newline (v_ser v)) as [ser|] eqn:E3; [|right; now left].
    right. right. exists gs, args, (want_of v port baud net ser). split; [exact R|]. split; [exact P|]. split; [|reflexivity].
    apply (asked_spec nu gs args v _ S M). exists port, baud, net, ser. now repeat split.
Qed.
Lemma prepare_end w cv l : let '(done, e) := prepare w cv l in
  (e = Serves cv /\ done = l /\ Forall (fun a => w a = Returns) l)
  \/ (exists before a after, l = before ++ a :: after /\ done = before ++ [a] /\ Forall (fun a => w a = Returns) before
      /\ ((w a = SerialTrouble /\ e = match a with OpenPort => ExitsOne | _ => Dies None end)
          \/ exists x, w a = Throws x /\ e = Dies (Some x))).
Proof.
  induction l as [|a l IH]; [left; repeat split; constructor|]. cbn [prepare]. destruct (w a) eqn:W.
  - destruct (prepare w cv l) as [done e]. destruct IH as [(-> & -> & F)|(b & c & d & -> & -> & F & E)].
    + left. repeat split. now constructor.
    + right. exists (a :: b), c, d. repeat split; [now constructor|exact E].
  - right. exists [], a, l. repeat split; [constructor|left; now split].
  - right. exists [], a, l. repeat split; [constructor|right; now exists e].
Qed.

(** A proper line starts the program with what is asked for. *)
Theorem C97_runs : forall nu w ws gs args want,
  reads ws gs args -> Forall (proper nu) gs -> asked nu gs args want ->
  (forall a, In a (steps want) -> w a = Returns) ->
  redirector nu w ws = (steps want, Serves (w_newlines want)).
Proof.
  intros nu w ws gs args want R P A W. rewrite (redirector_reads nu w ws gs args want R P A).
  induction (steps want) as [|a l IH]; [reflexivity|]. cbn [prepare]. rewrite (W a) by now left.
  rewrite IH; [reflexivity|]. intros x I. apply W. now right.
Qed.
Print Assumptions C97_runs.
(** If one of the steps fails, it is the last: with status 1 if the port cannot be
    opened, otherwise with the exception. *)
Theorem C97_fails : forall nu w ws gs args want before a after,
  reads ws gs args -> Forall (proper nu) gs -> asked nu gs args want ->
  steps want = before ++ a :: after -> (forall x, In x before -> w x = Returns) -> w a <> Returns ->
  exists e, redirector nu w ws = (before ++ [a], e)
    /\ (a = OpenPort -> w a = SerialTrouble -> e = ExitsOne)
    /\ (a <> OpenPort \/ w a <> SerialTrouble -> exists x, e = Dies x).
Proof.
  intros nu w ws gs args want before a after R P A E W N. rewrite (redirector_reads nu w ws gs args want R P A), E.
  clear E. induction before as [|b before IH].
  - cbn [app prepare]. destruct (w a) as [| |x] eqn:Q; [congruence| |].
    + eexists. split; [reflexivity|]. split; [intros -> _; reflexivity|]. intros [H|H]; [|congruence]. exists None. destruct a; congruence.
    + eexists. split; [reflexivity|]. split; [intros _ X; discriminate X|]. intros _. now exists (Some x).
  - destruct IH as (e & I & J); [intros x I; apply W; now right|]. exists e. cbn [app prepare].
    rewrite (W b) by now left. rewrite I. split; [reflexivity|exact J].
Qed.
Print Assumptions C97_fails.
(** Nothing is touched unless the line is a proper one, and then only what it asks for. *)
Theorem C97_only : forall nu w ws done e, redirector nu w ws = (done, e) ->
  done <> [] \/ (exists cv, e = Serves cv) ->
  exists gs args want rest, reads ws gs args /\ Forall (proper nu) gs /\ asked nu gs args want
    /\ steps want = done ++ rest
    /\ (forall cv, e = Serves cv -> rest = [] /\ cv = w_newlines want).
Proof.
  intros nu w ws done e E H.
  destruct (redirector_cases nu w ws) as [[Q _]|[Q|(gs & args & want & R & P & A & Q)]].
  - rewrite Q in E. injection E as <- <-. destruct H as [H|[cv H]]; [congruence|discriminate H].
  - rewrite Q in E. injection E as <- <-. destruct H as [H|[cv H]]; [congruence|discriminate H].
  - exists gs, args, want. rewrite E in Q. assert (X := prepare_end w (w_newlines want) (steps want)).
    rewrite <- Q in X. destruct X as [(-> & -> & F)|(b & a & c & X & -> & F & Y)].
    + exists []. rewrite app_nil_r. do 3 (split; [assumption|]). split; [reflexivity|].
      intros cv I. injection I as <-. now split.
    + exists c. do 3 (split; [assumption|]). split; [rewrite X, <- app_assoc; reflexivity|].
      intros cv ->. destruct Y as [[_ Y]|(x & _ & Y)]; [destruct a; discriminate Y|discriminate Y].
Qed.
Print Assumptions C97_only.
(** Help is what is asked for, and only then. *)
Theorem C97_help : forall nu w ws,
  redirector nu w ws = ([], Helped) <-> exists gs, asks ws gs /\ Forall (proper nu) gs.
Proof.
  intros nu w ws. split.
  - intros E. destruct (redirector_cases nu w ws) as [[_ Q]|[Q|(gs & args & want & R & P & A & Q)]]; [exact Q|congruence|].
    rewrite E in Q. assert (X := prepare_end w (w_newlines want) (steps want)). rewrite <- Q in X.
    destruct X as [(X & _)|(b & a & c & _ & X & _)]; [discriminate X|]. symmetry in X. apply app_eq_nil in X. destruct X as [_ X]. discriminate X.
  - intros (gs & A & P). unfold redirector. rewrite (asks_process nu _ _ A).
    assert (M := give_amount nu gs (asks_shaped _ _ A)). destruct (give_all nu gs unset); [reflexivity|contradiction].
Qed.
Print Assumptions C97_help.
(** Every other line is refused, and nothing is touched. *)
Theorem C97_refused : forall nu w ws,
  redirector nu w ws = ([], Misused) <->
  (~ exists gs args want, reads ws gs args /\ Forall (proper nu) gs /\ asked nu gs args want)
  /\ ~ exists gs, asks ws gs /\ Forall (proper nu) gs.
Proof.
  intros nu w ws. split.
  - intros E. split.
    + intros (gs & args & want & R & P & A). assert (Q := redirector_reads nu w ws gs args want R P A). rewrite E in Q.
      assert (X := prepare_end w (w_newlines want) (steps want)). rewrite <- Q in X.
      destruct X as [(X & _)|(b & a & c & _ & X & _)]; [discriminate X|]. symmetry in X. apply app_eq_nil in X. destruct X as [_ X]. discriminate X.
    + intros A. apply (C97_help nu w) in A. congruence.
  - intros [N M]. destruct (redirector_cases nu w ws) as [[_ Q]|[Q|(gs & args & want & R & P & A & _)]];
      [contradiction|exact Q|exfalso; apply N; now exists gs, args, want].
Qed.
Print Assumptions C97_refused.
(** Unless conversion is asked for, what is served is an unchanged copy. *)
Theorem C97_unchanged : forall nu w ws gs args done cv, reads ws gs args -> ~ In (Convert, None) gs ->
  redirector nu w ws = (done, Serves cv) ->
  cv = None /\ forall l p tr, run cv listening l = (p, tr) ->
    left_of (sent tr) (from_serial tr) /\ (faultless l -> exists rest, from_serial tr = sent tr ++ rest).
Proof.
  intros nu w ws gs args done cv R N E.
  assert (C : cv = None).
  { assert (S := reads_shaped _ _ _ R). assert (G := give_amount nu gs S). unfold redirector in E.
    rewrite (reads_process nu _ _ _ R) in E. destruct (give_all nu gs unset) as [v|]; [|discriminate E]. destruct G as [_ G].
    assert (V : v_convert v = false) by (apply (flag_dec Convert gs); [apply G|exact N]).
    destruct (port_and_baud nu v ([] ++ args)) as [[port baud]|]; [|discriminate E].
    destruct (newline (v_net v)) as [net|]; [|discriminate E]. destruct (newline (v_ser v)) as [ser|]; [|discriminate E].
    rewrite V in E. assert (X := prepare_end w None (preparation v port baud)). rewrite E in X.
    destruct X as [(X & _)|(b & a & c & _ & _ & _ & [[_ Y]|(x & _ & Y)])]; [now injection X|destruct a; discriminate Y|discriminate Y]. }
  split; [exact C|]. subst cv. intros l p tr Q. split; [exact (C86_any l p tr Q)|]. intros F. exact (C86_to_clients l p tr F Q).
Qed.
Print Assumptions C97_unchanged.

(** Numbers as they are usually read: digits below the radix. *)
Definition digits_in : numbers := fun radix t =>
  match t with
  | [] => None
  | _ => if forallb (fun c => (48 <=? c) && (c <? 48 + Z.min radix 10)) t
         then Some (fold_left (fun a c => a * radix + (c - 48)) t 0) else None
  end.
(** One might expect a baud rate to mean the same as an option and as an argument. *)
Theorem C97_same_number_refuted :
  let all_well := fun _ : sact => Returns in
  exists rate, digits_in 10 rate = Some 600
    /\ In (SetBaud 600) (fst (redirector digits_in all_well [txt "/dev/ttyS0"; rate]))
    /\ In (SetBaud 384) (fst (redirector digits_in all_well [txt "-b"; rate; txt "/dev/ttyS0"])).
Proof. exists (txt "0600"). vm_compute. repeat split; tauto. Qed.
Print Assumptions C97_same_number_refuted.

Example C97_case : let w := fun _ : sact => Returns in
  redirector digits_in w [txt "-qcb"; txt "19200"; txt "--ser=cr"; txt "--dt"; txt "1"; txt "/dev/ttyUSB0"]
  = ([SetPort (Some (txt "/dev/ttyUSB0")); SetBaud 19200; SetParity (txt "N"); SetRtscts false; SetXonxoff false;
      SetTimeout 1; OpenPort; SetDTR 1; Bind 7777; Listen 1], Serves (Some ([13], [10])))
  /\ redirector digits_in w [txt "--p"; txt "x"] = ([], Misused)
  /\ redirector digits_in w [txt "-b"; txt "ten"; txt "-h"] = ([], Misused)
  /\ redirector digits_in w [txt "-qh"; txt "--nonsense"] = ([], Helped).
Proof. vm_compute. repeat split. Qed.
Example C97_reads_case : exists gs args, reads [txt "-qcb"; txt "19200"; txt "--ser=cr"; txt "/dev/ttyUSB0"] gs args
  /\ gs = [(Quiet, None); (Convert, None); (Baud, Some (txt "19200")); (SerNl, Some (txt "cr"))] /\ args = [txt "/dev/ttyUSB0"]
  /\ Forall (proper digits_in) gs.
Proof.
  assert (Q : flags (txt "qc") [(Quiet, None); (Convert, None)]).
  { constructor; [apply letter_in; cbn; tauto|now apply takes_plain|discriminate|].
    constructor; [apply letter_in; cbn; tauto|now apply takes_plain|discriminate|constructor]. }
  do 2 eexists. split; [|split; [reflexivity|]; split; [reflexivity|]].
  - apply (reads_item [txt "-qcb"; txt "19200"] [(Quiet, None); (Convert, None); (Baud, Some (txt "19200"))] [] _ _ [txt "/dev/ttyUSB0"]).
    { apply (item_letter_next (txt "qc") [(Quiet, None); (Convert, None)] 98 Baud (txt "19200")); [exact Q|apply letter_in; cbn; tauto|now apply takes_valued]. }
    apply (reads_item [txt "--ser=cr"] [(SerNl, Some (txt "cr"))] [] _ [] [txt "/dev/ttyUSB0"]).
    { apply (item_equals (txt "--ser") SerNl (txt "cr")); [now apply abbrev_spec|now apply takes_valued]. }
    apply (reads_item [txt "/dev/ttyUSB0"] [] [txt "/dev/ttyUSB0"] [] [] []); [|constructor].
    constructor. right. intros r X. discriminate X.
  - repeat constructor; intros [H|[H|[H|[H|[]]]]]; try discriminate H. exists (txt "19200"), 19200.
    split; [reflexivity|]. apply int_spec. vm_compute. reflexivity.
Qed.
