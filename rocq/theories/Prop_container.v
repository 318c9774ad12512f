(** C78: what the environment of the container makes the daemon do. *)
From Coq Require Import List ZArith Bool String Lia.
From Verif Require Import Py Base Text Cbz Cmqttd Daemon Startup Spec_mqtt Spec_startup Mqtt_facts Prop_startup
  Cmdline Spec_cmdline Cmdline_facts Prop_cmdline.
Import ListNotations.
Notation length := List.length.
Open Scope Z_scope.

(** ** Field splitting *)

Lemma fields_from_sep acc a c b : ifs c = true ->
  fields_from acc (a ++ c :: b) = fields_from acc a ++ fields b.
Proof.
  intros C. revert acc. induction a as [|d a IH]; intros acc; cbn [app fields_from].
  - rewrite C. destruct acc; reflexivity.
  - destruct (ifs d); [|apply IH]. destruct acc; [apply IH|]. cbn. rewrite IH. reflexivity.
Qed.
Lemma fields_sep a c b : ifs c = true -> fields (a ++ c :: b) = fields a ++ fields b.
Proof. apply fields_from_sep. Qed.
Lemma fields_from_word w : forall acc, Forall (fun c => ifs c = false) w -> acc ++ w <> [] ->
  fields_from acc w = [rev acc ++ w].
Proof.
  induction w as [|c w IH]; intros acc F N; cbn [fields_from].
  - rewrite !app_nil_r in *. destruct acc; [contradiction|reflexivity].
  - inversion F as [|? ? C F']; subst. rewrite C, IH; [|exact F'|discriminate].
    cbn. rewrite <- app_assoc. reflexivity.
Qed.
Lemma fields_word w : Forall (fun c => ifs c = false) w -> w <> [] -> fields w = [w].
Proof. intros F N. apply (fields_from_word w [] F N). Qed.
Lemma fields_option a w v : fields w = [w] -> fields (a ++ 32 :: w ++ 32 :: v) = fields a ++ w :: fields v.
Proof. intros W. rewrite fields_sep by reflexivity. rewrite fields_sep by reflexivity. rewrite W. reflexivity. Qed.
Lemma fields_flag a w : fields w = [w] -> fields (a ++ 32 :: w) = fields a ++ [w].
Proof. intros W. rewrite fields_sep by reflexivity. rewrite W. reflexivity. Qed.

(** The words of the script. *)
Definition part (b : bool) (l : list text) : list text := if b then l else [].
Definition clock_off (c : container) : bool := negb (text_eqb (or_default (CBUS_CLOCK c) (txt "1")) (txt "1")).
Definition tls_on (c : container) : bool := text_eqb (or_default (MQTT_USE_TLS c) (txt "1")) (txt "1").
Definition script (c : container) : list text :=
  txt "--broker-address" :: fields (value (MQTT_SERVER c))
  ++ txt "--timesync" :: fields (or_default (CBUS_TIMESYNC c) (txt "300"))
  ++ part (non_empty (MQTT_PORT c)) (txt "--broker-port" :: fields (value (MQTT_PORT c)))
  ++ (if non_empty (SERIAL_PORT c) then txt "--serial" :: fields (value (SERIAL_PORT c))
      else txt "--tcp" :: fields (value (CNI_ADDR c)))
  ++ part (clock_off c) [txt "--no-clock"]
  ++ (if tls_on c then
        part (ca_dir c) [txt "--broker-ca"; CA_CERT_PATH]
        ++ part (cert_file c && key_file c)
             [txt "--broker-client-cert"; CLIENT_CERT_PATH; txt "--broker-client-key"; CLIENT_KEY_PATH]
      else [txt "--broker-disable-tls"])
  ++ part (auth_file c) [txt "--broker-auth"; AUTH_FILE]
  ++ part (project_file c) [txt "--project-file"; PROJECT_FILE].

Lemma script_words c :
  match cmqttd_args c with
  | None => non_empty (MQTT_SERVER c) = false
            \/ (non_empty (SERIAL_PORT c) = false /\ non_empty (CNI_ADDR c) = false)
  | Some args => non_empty (MQTT_SERVER c) = true
      /\ (non_empty (SERIAL_PORT c) = true \/ non_empty (CNI_ADDR c) = true)
      /\ fields args = script c
  end.
Proof.
  unfold cmqttd_args. destruct (non_empty (MQTT_SERVER c)); cbn [negb]; [|left; reflexivity].
  set (a0 := txt "--broker-address " ++ _).
  assert (A0 : fields a0 = txt "--broker-address" :: fields (value (MQTT_SERVER c))
                           ++ txt "--timesync" :: fields (or_default (CBUS_TIMESYNC c) (txt "300"))).
  { transitivity (fields ((txt "--broker-address" ++ 32 :: value (MQTT_SERVER c)) ++ 32 :: txt "--timesync"
                            ++ 32 :: or_default (CBUS_TIMESYNC c) (txt "300"))).
    - apply f_equal. rewrite <- app_assoc. reflexivity.
    - rewrite fields_option by reflexivity. rewrite fields_sep by reflexivity. reflexivity. }
  set (a1 := if non_empty (MQTT_PORT c) then _ else a0).
  assert (A1 : fields a1 = fields a0 ++ part (non_empty (MQTT_PORT c))
                 (txt "--broker-port" :: fields (value (MQTT_PORT c)))).
  { unfold a1. destruct (non_empty (MQTT_PORT c)); [|cbn; rewrite app_nil_r; reflexivity].
    exact (fields_option a0 (txt "--broker-port") (value (MQTT_PORT c)) eq_refl). }
  assert (Step : forall (b : bool) a w v, fields w = [w] -> fields v = [v] ->
            fields (if b then a ++ 32 :: w ++ 32 :: v else a) = fields a ++ part b [w; v]).
  { intros b a w v W V. destruct b; cbn [part]; [|rewrite app_nil_r; reflexivity].
    rewrite fields_option by exact W. rewrite V. reflexivity. }
  assert (Rest : forall a2 pci, fields a2 = fields a1 ++ pci ->
    fields (let args := if negb (text_eqb (or_default (CBUS_CLOCK c) (txt "1")) (txt "1"))
                    then a2 ++ txt " --no-clock" else a2 in
        let args :=
          if text_eqb (or_default (MQTT_USE_TLS c) (txt "1")) (txt "1") then
            let args := if ca_dir c then args ++ txt " --broker-ca " ++ CA_CERT_PATH else args in
            if cert_file c && key_file c
            then args ++ txt " --broker-client-cert " ++ CLIENT_CERT_PATH
                      ++ txt " --broker-client-key " ++ CLIENT_KEY_PATH
            else args
          else args ++ txt " --broker-disable-tls" in
        let args := if auth_file c then args ++ txt " --broker-auth " ++ AUTH_FILE else args in
        if project_file c then args ++ txt " --project-file " ++ PROJECT_FILE else args)
    = fields a1 ++ pci ++ part (clock_off c) [txt "--no-clock"]
      ++ (if tls_on c then
            part (ca_dir c) [txt "--broker-ca"; CA_CERT_PATH]
            ++ part (cert_file c && key_file c)
                 [txt "--broker-client-cert"; CLIENT_CERT_PATH; txt "--broker-client-key"; CLIENT_KEY_PATH]
          else [txt "--broker-disable-tls"])
      ++ part (auth_file c) [txt "--broker-auth"; AUTH_FILE]
      ++ part (project_file c) [txt "--project-file"; PROJECT_FILE]).
  { intros a2 pci A2. cbv zeta. 
    change (negb (text_eqb (or_default (CBUS_CLOCK c) (txt "1")) (txt "1"))) with (clock_off c).
    change (text_eqb (or_default (MQTT_USE_TLS c) (txt "1")) (txt "1")) with (tls_on c).
    pose (a3 := if clock_off c then a2 ++ txt " --no-clock" else a2).
    assert (A3 : fields a3 = fields a2 ++ part (clock_off c) [txt "--no-clock"]).
    { unfold a3. destruct (clock_off c); cbn [part]; [|rewrite app_nil_r; reflexivity].
      exact (fields_flag a2 (txt "--no-clock") eq_refl). }
    pose (a5 := if ca_dir c then a3 ++ txt " --broker-ca " ++ CA_CERT_PATH else a3).
    pose (a4 := if tls_on c then
                  if cert_file c && key_file c
                  then a5 ++ txt " --broker-client-cert " ++ CLIENT_CERT_PATH
                          ++ txt " --broker-client-key " ++ CLIENT_KEY_PATH
                  else a5
                else a3 ++ txt " --broker-disable-tls").
    assert (A4 : fields a4 = fields a3 ++ (if tls_on c then
            part (ca_dir c) [txt "--broker-ca"; CA_CERT_PATH]
            ++ part (cert_file c && key_file c)
                 [txt "--broker-client-cert"; CLIENT_CERT_PATH; txt "--broker-client-key"; CLIENT_KEY_PATH]
          else [txt "--broker-disable-tls"])).
    { unfold a4. destruct (tls_on c); [|exact (fields_flag a3 (txt "--broker-disable-tls") eq_refl)].
      assert (A5 : fields a5 = fields a3 ++ part (ca_dir c) [txt "--broker-ca"; CA_CERT_PATH])
        by exact (Step (ca_dir c) a3 (txt "--broker-ca") CA_CERT_PATH eq_refl eq_refl).
      transitivity (fields a5 ++ part (cert_file c && key_file c)
        [txt "--broker-client-cert"; CLIENT_CERT_PATH; txt "--broker-client-key"; CLIENT_KEY_PATH]);
        [|rewrite A5, <- app_assoc; reflexivity].
      destruct (cert_file c && key_file c); cbn [part]; [|rewrite app_nil_r; reflexivity].
      change (a5 ++ txt " --broker-client-cert " ++ CLIENT_CERT_PATH ++ txt " --broker-client-key " ++ CLIENT_KEY_PATH)
        with (a5 ++ 32 :: txt "--broker-client-cert" ++ 32 :: (CLIENT_CERT_PATH ++ 32 :: txt "--broker-client-key" ++ 32 :: CLIENT_KEY_PATH)).
      rewrite fields_option by reflexivity. rewrite fields_option by reflexivity. reflexivity. }
    pose (a6 := if auth_file c then a4 ++ txt " --broker-auth " ++ AUTH_FILE else a4).
    assert (A6 : fields a6 = fields a4 ++ part (auth_file c) [txt "--broker-auth"; AUTH_FILE])
      by exact (Step (auth_file c) a4 (txt "--broker-auth") AUTH_FILE eq_refl eq_refl).
    pose proof (Step (project_file c) a6 (txt "--project-file") PROJECT_FILE eq_refl eq_refl) as A7.
    etransitivity; [exact A7|]. rewrite A6, A4, A3, A2, <- !app_assoc. reflexivity. }
  destruct (non_empty (SERIAL_PORT c)) eqn:Sp; [|destruct (non_empty (CNI_ADDR c)) eqn:Cn].
  - split; [reflexivity|]. split; [left; reflexivity|].
    etransitivity; [apply (Rest (a1 ++ txt " --serial " ++ value (SERIAL_PORT c)));
                    exact (fields_option a1 (txt "--serial") _ eq_refl)|].
    unfold script. rewrite Sp, A1, A0. repeat (cbn [app]; rewrite <- ?app_assoc). reflexivity.
  - split; [reflexivity|]. split; [right; reflexivity|].
    etransitivity; [apply (Rest (a1 ++ txt " --tcp " ++ value (CNI_ADDR c)));
                    exact (fields_option a1 (txt "--tcp") _ eq_refl)|].
    unfold script. rewrite Sp, A1, A0. repeat (cbn [app]; rewrite <- ?app_assoc). reflexivity.
  - right. split; reflexivity.
Qed.

(** ** Variables *)

Lemma non_empty_set x : non_empty x = true <-> exists v, set_to x v.
Proof.
  unfold set_to, non_empty, value. destruct x as [[|c v]|]; split; try discriminate.
  - intros (v & E & N). inversion E; subst. contradiction.
  - intros _. exists (c :: v). split; [reflexivity|discriminate].
  - reflexivity.
  - intros (v & E & _). discriminate.
Qed.
Lemma empty_not_set x : non_empty x = false <-> not_set x.
Proof.
  unfold not_set, non_empty, value. destruct x as [[|c v]|]; split; auto; try discriminate.
  intros [E|E]; discriminate.
Qed.
Lemma yes_spec x : text_eqb (or_default x (txt "1")) (txt "1") = true <-> yes x.
Proof.
  unfold yes, not_set. destruct x as [[|c v]|]; cbn [or_default]; split; auto.
  - intros E. apply text_eqb_eq in E. rewrite E. auto.
  - intros [[E|E]|E]; try discriminate. inversion E. reflexivity.
Qed.

Lemma plain_field v : plain v -> v <> [] -> fields v = [v] /\ is_pattern v = false /\ hd_error v <> Some 45.
Proof.
  intros (F & H) N. split; [|split; [|exact H]].
  - apply fields_word; [|exact N]. eapply Forall_impl; [|exact F]. intros c K. cbv beta in K. unfold ifs.
    repeat match goal with |- context [?a =? ?b] => destruct (Z.eqb_spec a b) end; try reflexivity; lia.
  - unfold is_pattern. clear - F. induction F as [|c v K _ IH]; [reflexivity|]. cbn [existsb]. rewrite IH.
    destruct (mem c (txt "*?[\")) eqn:M; [|reflexivity]. apply mem_spec in M. cbn in M. cbv beta in K. lia.
Qed.

(** The settings of the script. *)
Definition sets (b : bool) (l : list setting) : list setting := if b then l else [].
Definition script_settings (c : container) : list setting :=
  [Value OAddress (value (MQTT_SERVER c)); Value OTimesync (or_default (CBUS_TIMESYNC c) (txt "300"))]
  ++ sets (non_empty (MQTT_PORT c)) [Value OPort (value (MQTT_PORT c))]
  ++ [if non_empty (SERIAL_PORT c) then Value OSerial (value (SERIAL_PORT c)) else Value OTcp (value (CNI_ADDR c))]
  ++ sets (clock_off c) [Flag ONoClock]
  ++ (if tls_on c then
        sets (ca_dir c) [Value OCa CA_CERT_PATH]
        ++ sets (cert_file c && key_file c) [Value OCert CLIENT_CERT_PATH; Value OKey CLIENT_KEY_PATH]
      else [Flag ODisableTls])
  ++ sets (auth_file c) [Value OAuth AUTH_FILE]
  ++ sets (project_file c) [Value OProject PROJECT_FILE].

Lemma line_app a wa b wb : command_line a wa -> command_line b wb -> command_line (a ++ b) (wa ++ wb).
Proof.
  induction 1 as [|s ws ss rest W _ IH|k ts t ws ss rest F _ IH]; intros B; [exact B| |].
  - cbn [app]. rewrite <- app_assoc. constructor; auto.
  - rewrite <- !app_assoc. apply (cl_together k ts t ws (ss ++ b) (rest ++ wb) F). apply IH. exact B.
Qed.
Lemma line_one s ws : writes s ws -> command_line [s] ws.
Proof. intros W. rewrite <- (app_nil_r ws). constructor; [exact W|constructor]. Qed.
Lemma line_part b ss ws : command_line ss ws -> command_line (sets b ss) (part b ws).
Proof. destruct b; [auto|constructor]. Qed.

Lemma script_line c glob : plain_container c -> non_empty (MQTT_SERVER c) = true ->
  non_empty (SERIAL_PORT c) = true \/ non_empty (CNI_ADDR c) = true ->
  command_line (script_settings c) (List.concat (map (expand glob) (script c))).
Proof.
  intros P Ms Pc.
  assert (V : forall x, In x [MQTT_SERVER c; CBUS_TIMESYNC c; MQTT_PORT c; SERIAL_PORT c; CNI_ADDR c] ->
            non_empty x = true -> fields (value x) = [value x] /\ is_pattern (value x) = false
            /\ hd_error (value x) <> Some 45).
  { intros x I N. apply non_empty_set in N. destruct N as (v & -> & N). cbn [value].
    unfold plain_container in P. rewrite Forall_forall in P. apply plain_field; [|exact N]. apply (P _ I). reflexivity. }
  assert (Ts : let v := or_default (CBUS_TIMESYNC c) (txt "300") in
            fields v = [v] /\ is_pattern v = false /\ hd_error v <> Some 45).
  { destruct (non_empty (CBUS_TIMESYNC c)) eqn:N.
    - pose proof (V (CBUS_TIMESYNC c) ltac:(cbn; auto 6) N) as H. apply non_empty_set in N. destruct N as (v & E & N).
      rewrite E in *. destruct v as [|d v]; [contradiction|]. exact H.
    - apply empty_not_set in N. destruct N as [-> | ->]; cbn [or_default];
        (split; [reflexivity|split; [reflexivity|discriminate]]). }
  assert (Ex : forall v, is_pattern v = false -> expand glob v = [v]) by (intros v E; unfold expand; rewrite E; reflexivity).
  assert (One : forall o x n v, takes_value o x n -> fields v = [v] /\ is_pattern v = false /\ hd_error v <> Some 45 ->
            is_pattern (txt "--" ++ txt n) = false ->
            command_line [Value o v] (List.concat (map (expand glob) ((txt "--" ++ txt n) :: fields v)))).
  { intros o x n v T (F & Pv & Hd) Pn. rewrite F. cbn [map List.concat]. rewrite !Ex by assumption.
    cbn [app]. apply line_one. apply (w_long o x n v T (or_introl Hd)). }
  unfold script, script_settings.
  rewrite !app_comm_cons. repeat rewrite map_app, concat_app.
  change [Value OAddress (value (MQTT_SERVER c)); Value OTimesync (or_default (CBUS_TIMESYNC c) (txt "300"))]
    with ([Value OAddress (value (MQTT_SERVER c))] ++ [Value OTimesync (or_default (CBUS_TIMESYNC c) (txt "300"))]).
  rewrite <- (app_assoc [Value OAddress _]).
  apply line_app; [exact (One _ _ _ _ m_address (V (MQTT_SERVER c) ltac:(cbn; auto 6) Ms) eq_refl)|].
  apply line_app; [exact (One _ _ _ _ m_timesync Ts eq_refl)|].
  apply line_app.
  { destruct (non_empty (MQTT_PORT c)) eqn:N; [|constructor].
    exact (One _ _ _ _ m_port (V (MQTT_PORT c) ltac:(cbn; auto 6) N) eq_refl). }
  apply line_app.
  { destruct (non_empty (SERIAL_PORT c)) eqn:N.
    - exact (One _ _ _ _ m_serial (V (SERIAL_PORT c) ltac:(cbn; auto 6) N) eq_refl).
    - destruct Pc as [Pc|Pc]; [discriminate|].
      exact (One _ _ _ _ m_tcp (V (CNI_ADDR c) ltac:(cbn; auto 6) Pc) eq_refl). }
  apply line_app.
  { destruct (clock_off c); [|constructor]. exact (line_one _ _ (w_flag _ _ _ m_clock)). }
  assert (Fix : forall o x n v, takes_value o x n -> hd_error v <> Some 45 ->
            command_line [Value o v] [txt "--" ++ txt n; v])
    by (intros o x n v T H; apply line_one; apply (w_long o x n v T (or_introl H))).
  apply line_app.
  { destruct (tls_on c); [|exact (line_one _ _ (w_flag _ _ _ m_tls))].
    rewrite map_app, concat_app. apply line_app.
    - destruct (ca_dir c); [|constructor]. refine (Fix _ _ _ CA_CERT_PATH m_ca _). discriminate.
    - destruct (cert_file c && key_file c); [|constructor].
      refine (line_app [_] _ [_] _ (Fix _ _ _ CLIENT_CERT_PATH m_cert _) (Fix _ _ _ CLIENT_KEY_PATH m_key _)); discriminate. }
  apply line_app.
  { destruct (auth_file c); [|constructor]. refine (Fix _ _ _ AUTH_FILE m_auth _). discriminate. }
  destruct (project_file c); [|constructor]. refine (Fix _ _ _ PROJECT_FILE m_project _). discriminate.
Qed.

(** ** What the script's settings ask for *)

Lemma script_ns u fs c : ns_of u fs (script_settings c)
  = mkNamespace None (txt "INFO") (Some (value (MQTT_SERVER c)))
      (if non_empty (MQTT_PORT c) then num u 0 (Some (value (MQTT_PORT c))) else 0) 60
      (negb (tls_on c))
      (if auth_file c then read_text fs AUTH_FILE else None)
      (if tls_on c && ca_dir c then Some CA_CERT_PATH else None)
      (if tls_on c && (cert_file c && key_file c) then Some CLIENT_CERT_PATH else None)
      (if tls_on c && (cert_file c && key_file c) then Some CLIENT_KEY_PATH else None)
      (if non_empty (SERIAL_PORT c) then Some (value (SERIAL_PORT c)) else None)
      (if non_empty (SERIAL_PORT c) then None else Some (value (CNI_ADDR c)))
      (num u 300 (Some (or_default (CBUS_TIMESYNC c) (txt "300"))))
      (clock_off c)
      (if project_file c then read_binary fs PROJECT_FILE else None).
Proof.
  unfold script_settings.
  generalize (value (MQTT_SERVER c)) (value (MQTT_PORT c)) (value (SERIAL_PORT c)) (value (CNI_ADDR c))
    (or_default (CBUS_TIMESYNC c) (txt "300")). intros a b d e f.
  destruct (non_empty (MQTT_PORT c)), (non_empty (SERIAL_PORT c)), (clock_off c), (tls_on c), (ca_dir c),
    (cert_file c && key_file c), (auth_file c), (project_file c); reflexivity.
Qed.

Lemma script_good u fs c : Forall (good_value u fs) (script_settings c)
  <-> (exists z, int_text u (or_default (CBUS_TIMESYNC c) (txt "300")) z)
      /\ (non_empty (MQTT_PORT c) = true -> exists z, int_text u (value (MQTT_PORT c)) z)
      /\ (auth_file c = true -> read_text fs AUTH_FILE <> None)
      /\ (project_file c = true -> read_binary fs PROJECT_FILE <> None).
Proof.
  unfold script_settings.
  generalize (value (MQTT_SERVER c)) (value (MQTT_PORT c)) (value (SERIAL_PORT c)) (value (CNI_ADDR c))
    (or_default (CBUS_TIMESYNC c) (txt "300")). intros a b d e f.
  rewrite !Forall_app. unfold sets.
  split.
  - intros (F1 & F2 & _ & _ & _ & F3 & F4). inversion F1 as [|? ? _ F5]; subst. inversion F5 as [|? ? T _]; subst.
    split; [exact T|]. split; [|split].
    + intros E. rewrite E in F2. inversion F2; subst. assumption.
    + intros E. rewrite E in F3. inversion F3; subst. assumption.
    + intros E. rewrite E in F4. inversion F4; subst. assumption.
  - intros (T & Po & A & Pr). split; [constructor; [exact I|]; constructor; [exact T|constructor]|].
    split; [destruct (non_empty (MQTT_PORT c)); constructor; [apply Po; reflexivity|constructor]|].
    split; [destruct (non_empty (SERIAL_PORT c)); constructor; [exact I|constructor|exact I|constructor]|].
    split; [destruct (clock_off c); constructor; [exact I|constructor]|].
    split; [|split].
    + destruct (tls_on c); [|constructor; [exact I|constructor]].
      destruct (ca_dir c), (cert_file c && key_file c); repeat (constructor; try exact I).
    + destruct (auth_file c); constructor; [apply A; reflexivity|constructor].
    + destruct (project_file c); constructor; [apply Pr; reflexivity|constructor].
Qed.

Lemma int_300 u : py_int_of_text u (txt "300") = Ok 300.
Proof. reflexivity. Qed.

Lemma script_wanted u fs c n : non_empty (MQTT_SERVER c) = true ->
  non_empty (SERIAL_PORT c) = true \/ non_empty (CNI_ADDR c) = true ->
  (asked u fs (script_settings c) n /\ complete n <-> wanted u fs c n).
Proof.
  intros Ms Pc. rewrite asked_ns, script_good, script_ns.
  assert (Sv : forall x v, set_to x v -> value x = v) by (intros x v [-> _]; reflexivity).
  assert (Sn : forall x v, set_to x v -> non_empty x = true) by (intros x v H; apply non_empty_set; eauto).
  assert (Nn : forall x, not_set x -> non_empty x = false) by (intros x H; apply empty_not_set; exact H).
  assert (Vs : forall x, non_empty x = true -> set_to x (value x)).
  { intros x H. apply non_empty_set in H. destruct H as (v & H). rewrite (Sv _ _ H). exact H. }
  assert (Nu : forall v d z, int_text u v z -> num u d (Some v) = z).
  { intros v d z H. apply int_reads in H. cbn. rewrite H. reflexivity. }
  assert (Tl : tls_on c = true <-> yes (MQTT_USE_TLS c)) by apply yes_spec.
  assert (Cl : clock_off c = false <-> yes (CBUS_CLOCK c))
    by (rewrite <- yes_spec; unfold clock_off; apply negb_false_iff).
  split.
  - intros (((T & Po & A & Pr) & ->) & _). unfold wanted.
    cbn [n_log n_verbosity n_keepalive n_address n_port n_timesync n_serial n_tcp n_no_clock n_disable_tls n_ca
         n_cert n_key n_auth n_project].
    split; [reflexivity|]. split; [reflexivity|]. split; [reflexivity|].
    split; [exists (value (MQTT_SERVER c)); split; [apply Vs; exact Ms|reflexivity]|].
    split.
    { destruct (non_empty (MQTT_PORT c)) eqn:N.
      - right. exists (value (MQTT_PORT c)). split; [apply Vs; exact N|].
        destruct (Po eq_refl) as (z & Z). rewrite (Nu _ 0 _ Z). exact Z.
      - left. split; [apply empty_not_set; exact N|reflexivity]. }
    split.
    { destruct T as (z & Z). rewrite (Nu _ 300 _ Z). destruct (non_empty (CBUS_TIMESYNC c)) eqn:N.
      - right. apply Vs in N. exists (value (CBUS_TIMESYNC c)). split; [exact N|].
        destruct N as [N N']. rewrite N in Z. cbn [or_default] in Z.
        destruct (value (CBUS_TIMESYNC c)); [contradiction|exact Z].
      - left. apply empty_not_set in N. split; [exact N|]. apply int_reads in Z.
        destruct N as [N|N]; rewrite N in Z; cbn [or_default] in Z; rewrite int_300 in Z; inversion Z; reflexivity. }
    split.
    { destruct (non_empty (SERIAL_PORT c)) eqn:N.
      - left. exists (value (SERIAL_PORT c)). auto.
      - right. split; [apply empty_not_set; exact N|]. destruct Pc as [Pc|Pc]; [discriminate|].
        exists (value (CNI_ADDR c)). auto. }
    split; [exact Cl|]. split; [rewrite <- Tl; destruct (tls_on c); cbn; intuition congruence|].
    split; [destruct (tls_on c), (ca_dir c); reflexivity|].
    split; [destruct (tls_on c), (cert_file c && key_file c); cbn; auto|].
    split; [destruct (auth_file c); auto|destruct (project_file c); auto].
  - intros (W1 & W2 & W3 & (sv & Ws & W4) & W5 & W6 & W7 & W8 & W9 & W10 & W11 & W12 & W13).
    destruct n as [lg vb ad po ke tl au ca ce ky se tc ti cl pr].
    cbn [n_log n_verbosity n_keepalive n_address n_port n_timesync n_serial n_tcp n_no_clock n_disable_tls n_ca
         n_cert n_key n_auth n_project] in *.
    assert (Etl : tl = negb (tls_on c)).
    { destruct tl, (tls_on c); auto; exfalso; [|]; intuition congruence. }
    assert (Ecl : cl = clock_off c).
    { destruct cl, (clock_off c); auto; exfalso; intuition congruence. }
    split.
    + split.
      { split; [|split; [|split]].
        - destruct W6 as [(N & ->)|(v & Sv' & Z)].
          + exists 300. apply int_reads. destruct N as [-> | ->]; reflexivity.
          + exists ti. destruct Sv' as [-> N]. destruct v; [contradiction|exact Z].
        - intros N. destruct W5 as [(N' & _)|(v & Sv' & Z)].
          + rewrite (Nn _ N') in N. discriminate.
          + exists po. rewrite (Sv _ _ Sv'). exact Z.
        - intros N. rewrite N in W12. destruct W12 as [W12 W12']. unfold AUTH_FILE. rewrite <- W12. exact W12'.
        - intros N. rewrite N in W13. destruct W13 as [W13 W13']. unfold PROJECT_FILE. rewrite <- W13. exact W13'. }
      subst lg vb ke ad tl cl. rewrite (Sv _ _ Ws).
      assert (Epo : po = if non_empty (MQTT_PORT c) then num u 0 (Some (value (MQTT_PORT c))) else 0).
      { destruct W5 as [(N & ->)|(v & S' & Z)]; [rewrite (Nn _ N); reflexivity|].
        rewrite (Sn _ _ S'), (Sv _ _ S'). symmetry. apply Nu. exact Z. }
      assert (Eti : ti = num u 300 (Some (or_default (CBUS_TIMESYNC c) (txt "300")))).
      { destruct W6 as [(N & ->)|(v & S' & Z)].
        - destruct N as [-> | ->]; cbn [or_default num]; rewrite int_300; reflexivity.
        - destruct S' as [-> N]. destruct v as [|d v]; [contradiction|]. symmetry. apply Nu. exact Z. }
      assert (Ese : se = (if non_empty (SERIAL_PORT c) then Some (value (SERIAL_PORT c)) else None)
                    /\ tc = (if non_empty (SERIAL_PORT c) then None else Some (value (CNI_ADDR c)))).
      { destruct W7 as [(v & S' & -> & ->)|(N & v & S' & -> & ->)].
        - rewrite (Sn _ _ S'), (Sv _ _ S'). auto.
        - rewrite (Nn _ N), (Sv _ _ S'). auto. }
      destruct Ese as [-> ->]. rewrite <- Epo, <- Eti.
      assert (Eca : ca = if tls_on c && ca_dir c then Some CA_CERT_PATH else None).
      { rewrite W10. destruct (tls_on c), (ca_dir c); reflexivity. }
      assert (Ece : ce = (if tls_on c && (cert_file c && key_file c) then Some CLIENT_CERT_PATH else None)
                    /\ ky = (if tls_on c && (cert_file c && key_file c) then Some CLIENT_KEY_PATH else None)).
      { destruct (tls_on c), (cert_file c && key_file c); cbn in W11 |- *; exact W11. }
      assert (Eau : au = if auth_file c then read_text fs AUTH_FILE else None)
        by (destruct (auth_file c); [exact (proj1 W12)|exact W12]).
      assert (Epr : pr = if project_file c then read_binary fs PROJECT_FILE else None)
        by (destruct (project_file c); [exact (proj1 W13)|exact W13]).
      destruct Ece as [-> ->]. rewrite Eca, <- Eau, <- Epr. reflexivity.
    + unfold complete. cbn [n_address n_serial n_tcp]. split; [exists sv; exact W4|].
      destruct W7 as [(v & _ & -> & ->)|(_ & v & _ & -> & ->)]; exists v; auto.
Qed.

(** C78.  The container starts the daemon exactly when the broker and an interface
    are named, and with plain values the daemon gets exactly the options that the
    variables and the mounted files ask for, or refuses if there are none. *)
Theorem C78_options lib w fs glob c : plain_container c ->
  (entrypoint lib w fs glob c = None
     <-> not_set (MQTT_SERVER c) \/ (not_set (SERIAL_PORT c) /\ not_set (CNI_ADDR c)))
  /\ (forall n, wanted (lib_unicode lib) fs c n ->
        exists o, carries n o /\ entrypoint lib w fs glob c = Some (_main lib w o))
  /\ (entrypoint lib w fs glob c <> None -> (forall n, ~ wanted (lib_unicode lib) fs c n) ->
        entrypoint lib w fs glob c = Some ([Usage], Raise SystemExit)).
Proof.
  intros P. pose proof (script_words c) as SW. unfold entrypoint. destruct (cmqttd_args c) as [args|].
  - destruct SW as (Ms & Pc & F). unfold words. rewrite F.
    pose proof (script_line c glob P Ms Pc) as L. set (ws := List.concat _) in *. clearbody ws.
    split.
    { split; [discriminate|]. intros [N|(N & N')].
      - apply empty_not_set in N. congruence.
      - apply empty_not_set in N, N'. destruct Pc; congruence. }
    split.
    + intros n W. apply (script_wanted (lib_unicode lib) fs c n Ms Pc) in W.
      destruct (C77_options (lib_unicode lib) fs _ _ n L) as ((_ & Q) & _).
      exists (options_of n). split; [apply carries_options, W|]. unfold cmqttd. rewrite (Q W). reflexivity.
    + intros _ W. unfold cmqttd.
      assert (R : parse_args (lib_unicode lib) fs ws = Refused).
      { destruct (C77_options (lib_unicode lib) fs _ _ defaults L) as (_ & (_ & Q)). apply Q. intros m A. apply (W m). apply script_wanted; assumption. }
      rewrite R. reflexivity.
  - split; [|split; [|congruence]].
    + split; [intros _|reflexivity].
      destruct SW as [N|[N N']]; [left; apply empty_not_set, N|right; split; apply empty_not_set; assumption].
    + intros n (_ & _ & _ & (v & Sv & _) & _ & _ & W & _). exfalso.
      assert (Sn : forall x y, set_to x y -> non_empty x = true) by (intros x y H; apply non_empty_set; eauto).
      apply Sn in Sv. destruct SW as [N|[N N']]; [congruence|].
      destruct W as [(y & W & _)|(_ & y & W & _)]; apply Sn in W; congruence.
Qed.
Print Assumptions C78_options.

(** ** TLS *)

(** Every field of a text is a stretch of it at its start or after white space. *)
Lemma fields_from_in v : forall acc w, In w (fields_from acc v) ->
  (exists p b, v = p ++ b /\ w = rev acc ++ p /\ w <> [])
  \/ exists a x b, v = a ++ x :: w ++ b /\ ifs x = true /\ w <> [].
Proof.
  assert (L : forall (acc : text) d, rev (d :: acc) <> []).
  { intros acc d H. apply (f_equal (@length Z)) in H. rewrite rev_length in H. discriminate. }
  induction v as [|c v IH]; intros acc w; cbn [fields_from].
  - destruct acc as [|d acc]; [intros []|]. intros [<-|[]]. left. exists [], []. split; [reflexivity|].
    split; [symmetry; apply app_nil_r|apply L].
  - destruct (ifs c) eqn:C.
    + assert (R : In w (fields_from [] v) -> exists a x b, c :: v = a ++ x :: w ++ b /\ ifs x = true /\ w <> []).
      { intros I. destruct (IH [] w I) as [(p & b & -> & -> & N)|(a & x & b & -> & X & N)].
        - exists [], c, b. auto.
        - exists (c :: a), x, b. auto. }
      destruct acc as [|d acc]; [auto|]. intros [<-|I]; [|auto].
      left. exists [], (c :: v). split; [reflexivity|]. split; [symmetry; apply app_nil_r|apply L].
    + intros I. destruct (IH (c :: acc) w I) as [(p & b & -> & -> & N)|(a & x & b & -> & X & N)].
      * left. exists (c :: p), b. split; [reflexivity|]. split; [|exact N]. cbn. rewrite <- app_assoc. reflexivity.
      * right. exists (c :: a), x, b. auto.
Qed.

Lemma harmless_field v w : harmless v -> In w (fields v) -> is_pattern w = false /\ hd_error w <> Some 45.
Proof.
  intros (F & H) I.
  assert (Q : exists a b, v = a ++ w ++ b /\ forall a' x, a = a' ++ [x] -> ifs x = true).
  { destruct (fields_from_in v [] w I) as [(p & b & -> & -> & _)|(a & x & b & -> & X & _)].
    - exists [], b. split; [reflexivity|]. intros a' x E. destruct a'; discriminate.
    - exists (a ++ [x]), b. split; [rewrite <- app_assoc; reflexivity|]. intros a' y E.
      apply app_inj_tail in E. destruct E as [_ <-]. exact X. }
  destruct Q as (a & b & -> & Q). split.
  - apply Forall_app in F. destruct F as [_ F]. apply Forall_app in F. destruct F as [F _]. clear - F.
    unfold is_pattern. induction F as [|c v K _ IH]; [reflexivity|]. cbn [existsb]. rewrite IH.
    destruct (mem c (txt "*?[\")) eqn:M; [|reflexivity]. apply mem_spec in M. cbn in M. cbv beta in K. lia.
  - intros E. destruct w as [|x w]; [discriminate|]. inversion E; subst x.
    destruct (H a (w ++ b) eq_refl) as (a' & x & -> & X). specialize (Q a' x eq_refl).
    unfold ifs in Q. rewrite !orb_true_iff, !Z.eqb_eq in Q. intuition.
Qed.

Lemma asks_dash w : asks_plaintext w -> hd_error w = Some 45.
Proof. intros (a & b & _ & -> & c & ->). reflexivity. Qed.

Lemma script_secure c glob : harmless_container c -> yes (MQTT_USE_TLS c) ->
  forall x, In x (List.concat (map (expand glob) (script c))) -> ~ asks_plaintext x.
Proof.
  intros H Y x I. apply in_concat in I. destruct I as (l & I & X). apply in_map_iff in I.
  destruct I as (y & <- & I).
  assert (Own : forall n b, txt "--broker-d" <> firstn 10 n -> is_pattern n = false -> In b (expand glob n) -> ~ asks_plaintext b).
  { intros n b D Pn B A. unfold expand in B. rewrite Pn in B. destruct B as [<-|[]].
    destruct A as (a & b & _ & -> & d & ->). apply D. reflexivity. }
  assert (Var : forall v y, In (Some v) [MQTT_SERVER c; CBUS_TIMESYNC c; MQTT_PORT c; SERIAL_PORT c; CNI_ADDR c] ->
            In y (fields v) -> forall b, In b (expand glob y) -> ~ asks_plaintext b).
  { intros v z Iv Iz b B A. unfold harmless_container in H. rewrite Forall_forall in H.
    destruct (harmless_field v z (H _ Iv _ eq_refl) Iz) as (Pz & Hz). unfold expand in B. rewrite Pz in B.
    destruct B as [<-|[]]. apply Hz, asks_dash, A. }
  assert (Val : forall o z, In o [MQTT_SERVER c; CBUS_TIMESYNC c; MQTT_PORT c; SERIAL_PORT c; CNI_ADDR c] ->
            In z (fields (value o)) -> forall b, In b (expand glob z) -> ~ asks_plaintext b).
  { intros [v|] z Io Iz; [exact (Var v z Io Iz)|destruct Iz]. }
  revert y I x X. apply yes_spec in Y. change (tls_on c = true) in Y.
  assert (Sub : forall (P : text -> Prop) l1 l2, (forall y, In y l1 -> P y) -> (forall y, In y l2 -> P y) ->
            forall y, In y (l1 ++ l2) -> P y).
  { intros Pr l1 l2 A B z Z. apply in_app_or in Z. destruct Z; auto. }
  assert (Opt : forall (P : text -> Prop) (b : bool) l, (forall y, In y l -> P y) -> forall y, In y (part b l) -> P y).
  { intros Pr b l A z Z. destruct b; [auto|destruct Z]. }
  assert (Lit : forall n, txt "--broker-d" <> firstn 10 n -> is_pattern n = false ->
            forall b, In b (expand glob n) -> ~ asks_plaintext b) by (intros; eapply Own; eauto).
  unfold script. rewrite Y.
  assert (Cons : forall (P : text -> Prop) a l, P a -> (forall y, In y l -> P y) -> forall y, In y (a :: l) -> P y).
  { intros Pr a l A B z [<-|Z]; auto. }
  set (P := fun y => forall x, In x (expand glob y) -> ~ asks_plaintext x).
  change (forall y, In y (txt "--broker-address" :: fields (value (MQTT_SERVER c))
    ++ txt "--timesync" :: fields (or_default (CBUS_TIMESYNC c) (txt "300"))
    ++ part (non_empty (MQTT_PORT c)) (txt "--broker-port" :: fields (value (MQTT_PORT c)))
    ++ (if non_empty (SERIAL_PORT c) then txt "--serial" :: fields (value (SERIAL_PORT c))
        else txt "--tcp" :: fields (value (CNI_ADDR c)))
    ++ part (clock_off c) [txt "--no-clock"]
    ++ (part (ca_dir c) [txt "--broker-ca"; CA_CERT_PATH]
        ++ part (cert_file c && key_file c)
             [txt "--broker-client-cert"; CLIENT_CERT_PATH; txt "--broker-client-key"; CLIENT_KEY_PATH])
    ++ part (auth_file c) [txt "--broker-auth"; AUTH_FILE]
    ++ part (project_file c) [txt "--project-file"; PROJECT_FILE]) -> P y).
  assert (Nil : forall y, In y [] -> P y) by (intros ? []).
  assert (PL : forall n, txt "--broker-d" <> firstn 10 n -> is_pattern n = false -> P n) by (intros n A B; exact (Lit n A B)).
  apply Cons; [apply PL; [discriminate|reflexivity]|].
  apply Sub; [intros y I; exact (Val (MQTT_SERVER c) y ltac:(cbn; auto 6) I)|].
  apply Cons; [apply PL; [discriminate|reflexivity]|].
  apply Sub.
  { destruct (CBUS_TIMESYNC c) as [[|d v]|] eqn:E; cbn [or_default].
    - intros y [<-|[]]. apply PL; [discriminate|reflexivity].
    - intros y I. exact (Var (d :: v) y ltac:(rewrite <- E; cbn; auto 6) I).
    - intros y [<-|[]]. apply PL; [discriminate|reflexivity]. }
  apply Sub.
  { apply Opt. apply Cons; [apply PL; [discriminate|reflexivity]|].
    intros y I. exact (Val (MQTT_PORT c) y ltac:(cbn; auto 6) I). }
  apply Sub.
  { destruct (non_empty (SERIAL_PORT c)); (apply Cons; [apply PL; [discriminate|reflexivity]|]); intros y I.
    - exact (Val (SERIAL_PORT c) y ltac:(cbn; auto 6) I).
    - exact (Val (CNI_ADDR c) y ltac:(cbn; auto 6) I). }
  repeat (apply Sub); repeat apply Opt;
    repeat (apply Cons; [apply PL; [discriminate|reflexivity]|]); exact Nil.
Qed.

(** C78.  As long as no variable has a word beginning with a dash (or a pattern),
    the broker is contacted only after TLS has been set up, unless MQTT_USE_TLS is
    set to anything but "1"; in that case TLS is never set up, whatever else is
    set. *)
Theorem C78_tls lib w fs glob c tr r : entrypoint lib w fs glob c = Some (tr, r) ->
  (harmless_container c -> yes (MQTT_USE_TLS c) ->
     forall host port keepalive, In (BrokerConnect host port keepalive) tr ->
     exists before ca cert key between after,
       tr = before ++ TlsSet ca cert key :: between ++ BrokerConnect host port keepalive :: after
       /\ w (TlsSet ca cert key) = Ok tt)
  /\ (~ yes (MQTT_USE_TLS c) -> forall ca cert key, ~ In (TlsSet ca cert key) tr).
Proof.
  pose proof (script_words c) as SW. unfold entrypoint. destruct (cmqttd_args c) as [args|]; [|discriminate].
  destruct SW as (_ & _ & F). intros E.
  assert (E' : cmqttd lib w fs (words glob args) = (tr, r)) by (injection E; auto). clear E.
  destruct (C77_secure _ _ _ _ _ _ E') as (A & B). unfold words in A, B. rewrite F in A, B. split.
  - intros H Y. apply A. intros x I. exact (script_secure c glob H Y x I).
  - intros N. apply B. exists (txt "--broker-disable-tls"). split.
    + apply in_concat. exists [txt "--broker-disable-tls"]. split; [|left; reflexivity].
      apply in_map_iff. exists (txt "--broker-disable-tls"). split; [reflexivity|].
      unfold script. destruct (tls_on c) eqn:T; [exfalso; apply N, yes_spec, T|].
      right. rewrite !in_app_iff. right. right. rewrite !in_app_iff. auto 8 with datatypes.
    + exists (txt "--broker-disable-tls"), []. split; [reflexivity|]. split; [reflexivity|].
      exists (txt "isable-tls"). reflexivity.
Qed.
Print Assumptions C78_tls.

(** A word of a value is a word of the script. *)
Lemma white_ifs c : white c <-> ifs c = true.
Proof. unfold white, ifs. rewrite !orb_true_iff, !Z.eqb_eq. tauto. Qed.
Lemma word_field v w : word_of v w -> In w (fields v).
Proof.
  intros (N & F & a & b & -> & A & B).
  assert (W : fields w = [w]).
  { apply fields_word; [|exact N]. eapply Forall_impl; [|exact F]. cbv beta. intros c C. destruct (ifs c) eqn:E; [|reflexivity].
    now apply white_ifs in E. }
  assert (R : In w (fields (w ++ b))).
  { destruct B as [->|(c & b' & -> & C)]; [rewrite app_nil_r, W; now left|].
    rewrite (fields_sep w c b') by now apply white_ifs. rewrite W. now left. }
  destruct A as [->|(a' & c & -> & C)]; [exact R|]. rewrite <- app_assoc. change ([c] ++ w ++ b) with (c :: w ++ b).
  rewrite (fields_sep a' c (w ++ b)) by now apply white_ifs. apply in_or_app. now right.
Qed.
Lemma passed_field c v w : non_empty (MQTT_SERVER c) = true -> passed_on c (Some v) -> In w (fields v) -> In w (script c).
Proof.
  intros M P I. assert (V : v <> []) by (intros ->; destruct I). unfold script.
  assert (NE : forall x, Some v = x -> non_empty x = true /\ value x = v /\ or_default x (txt "300") = v).
  { intros x <-. unfold non_empty, value, or_default. destruct v; [contradiction|auto]. }
  destruct P as [P|[P|[P|[P|[P NS]]]]]; destruct (NE _ P) as (E1 & E2 & E3); right; rewrite ?E1, ?E2, ?E3;
    cbn [part]; repeat (rewrite in_app_iff || cbn [In]).
  - auto.
  - auto 6.
  - auto 8.
  - auto 10.
  - apply empty_not_set in NS. rewrite NS. cbn [In]. auto 10.
Qed.

(** C78.  A word that asks for a connection without TLS, in the value of any of the
    variables passed on, switches TLS off, whatever MQTT_USE_TLS is. *)
Theorem C78_injects lib w fs glob c v x tr r : entrypoint lib w fs glob c = Some (tr, r) ->
  passed_on c (Some v) -> word_of v x -> asks_plaintext x ->
  forall ca cert key, ~ In (TlsSet ca cert key) tr.
Proof.
  pose proof (script_words c) as SW. unfold entrypoint. destruct (cmqttd_args c) as [args|]; [|discriminate].
  destruct SW as (M & _ & F). intros E P I A.
  assert (E' : cmqttd lib w fs (words glob args) = (tr, r)) by (injection E; auto). clear E.
  destruct (C77_secure _ _ _ _ _ _ E') as (_ & B). apply B. exists x. split; [|exact A].
  unfold words. rewrite F. apply in_concat. exists [x]. split; [|now left]. apply in_map_iff. exists x.
  split; [|apply (passed_field c v x M P), word_field, I].
  unfold expand. destruct (is_pattern x) eqn:Q; [exfalso|reflexivity].
  destruct A as (a & b & Eq & -> & _). unfold is_pattern in Q. apply existsb_exists in Q. destruct Q as (d & D & Q).
  assert (T : existsb (fun c => mem c (txt "*?[\")) (txt "--broker-disable-tls") = true).
  { apply existsb_exists. exists d. split; [rewrite Eq; apply in_or_app; now left|exact Q]. }
  discriminate T.
Qed.
Print Assumptions C78_injects.

(** So such a value switches TLS off although MQTT_USE_TLS is
    unset: the values are not quoted. *)
Definition no_glob (w : text) : list text := [w].
Definition plain_case : container :=
  mkContainer (Some (txt "broker")) None (Some (txt "8884")) None (Some (txt "192.0.2.1:10001"))
    (Some (txt "no")) None true true false false false.
Definition injecting : container :=
  mkContainer (Some (txt "broker --broker-disable-tls")) None None None (Some (txt "192.0.2.1:10001"))
    None None false false false false false.
Theorem C78_inject_refuted :
  ~ (forall lib w fs glob c tr r, entrypoint lib w fs glob c = Some (tr, r) -> yes (MQTT_USE_TLS c) ->
       forall host port keepalive, In (BrokerConnect host port keepalive) tr ->
       exists ca cert key, In (TlsSet ca cert key) tr).
Proof.
  intros H.
  destruct (H plain_library (fun _ => Ok tt) no_files no_glob injecting
              [OpenTcp (txt "192.0.2.1") 10001 (fst (new_daemon 300 false)) []; Helper;
               BrokerConnect (txt "broker") 1883 60; WaitLost] (Ok tt)
              ltac:(vm_compute; reflexivity) ltac:(left; left; reflexivity)
              (txt "broker") 1883 60 ltac:(cbn; auto)) as (ca & cert & key & I).
  cbn in I. intuition discriminate.
Qed.
Print Assumptions C78_inject_refuted.

(** So do a tab and a line break in the place of the space. *)
Example C78_separators : forall b, In b [32; 9; 10] ->
  entrypoint plain_library (fun _ => Ok tt) no_files no_glob
    (mkContainer (Some (txt "broker" ++ [b] ++ txt "--broker-disable-tls")) None None None (Some (txt "192.0.2.1:10001"))
       None None false false false false false)
  = Some ([OpenTcp (txt "192.0.2.1") 10001 (fst (new_daemon 300 false)) []; Helper;
           BrokerConnect (txt "broker") 1883 60; WaitLost], Ok tt)
  /\ word_of (txt "broker" ++ [b] ++ txt "--broker-disable-tls") (txt "--broker-disable-tls").
Proof.
  intros b B. split; [destruct B as [<-|[<-|[<-|[]]]]; vm_compute; reflexivity|]. split; [discriminate|].
  split; [cbn; repeat (apply Forall_cons; [unfold white; lia|]); apply Forall_nil|].
  exists (txt "broker" ++ [b]), []. split; [now rewrite <- app_assoc|]. split; [|now left]. right. exists (txt "broker"), b.
  split; [reflexivity|]. unfold white. cbn in B. lia.
Qed.

(** A container with plain values, the same with "true" for MQTT_USE_TLS (which
    switches TLS off), and one without an interface. *)
Example C78_case : plain_container plain_case /\ harmless_container plain_case
  /\ entrypoint plain_library (fun _ => Ok tt) no_files no_glob plain_case
     = Some ([OpenTcp (txt "192.0.2.1") 10001 (fst (new_daemon 300 true)) [];
              TlsSet (Some (txt "/etc/cmqttd/certificates")) None None; Helper;
              BrokerConnect (txt "broker") 8884 60; WaitLost], Ok tt)
  /\ wanted (lib_unicode plain_library) no_files plain_case
       (mkNamespace None (txt "INFO") (Some (txt "broker")) 8884 60 false None
          (Some (txt "/etc/cmqttd/certificates")) None None None (Some (txt "192.0.2.1:10001")) 300 true None)
  /\ ~ yes (Some (txt "true")).
Proof.
  assert (P : plain_container plain_case).
  { unfold plain_container.
    repeat (apply Forall_cons; [intros v E; inversion E; subst; (split; [|discriminate]);
                                cbn; repeat (apply Forall_cons; [lia|]); apply Forall_nil|]).
    apply Forall_nil. }
  split; [exact P|]. split; [|split; [vm_compute; reflexivity|split]].
  - unfold harmless_container, plain_container in *. rewrite Forall_forall in *. intros x I v E.
    specialize (P x I v E). destruct P as (F & Hd). split.
    + eapply Forall_impl; [|exact F]. cbv beta. intros d K. lia.
    + intros a b ->. destruct a as [|y a] using rev_ind; [exfalso; apply Hd; reflexivity|].
      exists a, y. split; [reflexivity|]. rewrite !Forall_app in F. destruct F as ((_ & F) & _).
      inversion F as [|? ? K _]; subst. cbv beta in K. lia.
  - apply script_wanted; [reflexivity|right; reflexivity|]. split.
    + apply asked_ns. split; [|vm_compute; reflexivity]. apply script_good.
      split; [exists 300; apply int_reads; reflexivity|].
      split; [intros _; exists 8884; apply int_reads; reflexivity|]. split; discriminate.
    + split; [eexists; reflexivity|]. eexists. right. split; reflexivity.
  - intros [[E|E]|E]; discriminate.
Qed.
