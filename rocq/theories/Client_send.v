(** Lemmas on sending: confirmation codes, failures, the wire format. *)
From Coq Require Import List ZArith Bool Lia.
From Verif Require Import Py Common Sal Cal Packet Text Mqtt Buffered Client Base Spec Spec_client Common_facts
  Sal_facts Cal_facts Packet_facts Packet_roundtrip Packet_decode Packet_total Buffer_facts Client_facts Client_steps.
Import ListNotations.
Open Scope Z_scope.

Lemma codes_order : CONFIRMATION_CODES = code_order.
Proof. reflexivity. Qed.

Lemma code_at_code i k : is_code (code_at i k).
Proof.
  unfold code_at. assert (H : ((i + k) mod 20 < 20)%nat) by (apply Nat.mod_upper_bound; lia).
  remember ((i + k) mod 20)%nat as n. clear Heqn.
  do 20 (destruct n as [|n]; [unfold is_code; cbn; lia|]). lia.
Qed.

Lemma take_code c : (cl_index c < 20)%nat ->
  get_confirmation_code c = (set_index c ((cl_index c + 1) mod 20), [], Ok (code_at (cl_index c) 0)).
Proof.
  intros H. unfold get_confirmation_code, code_at. rewrite codes_order, Nat.add_0_r, (Nat.mod_small _ _ H).
  change (length code_order) with 20%nat.
  destruct (nth_error code_order (cl_index c)) as [x|] eqn:E.
  - rewrite (nth_error_nth _ _ _ E). now rewrite Nat.add_1_r.
  - apply nth_error_None in E. cbn in E. lia.
Qed.

(** Sending: the three outcomes. *)
Lemma send_disconnected p k b c : cl_transport c = false -> send p k b c = (c, [], Raise OSError).
Proof. intros H. unfold send. now rewrite H. Qed.

Lemma hex_packet_class p : hex_packet p -> is_base_packet p = true /\ is_special_client p = false.
Proof. destruct p; cbn; tauto. Qed.

Lemma send_fails p k b c e : hex_packet p -> cl_transport c = true -> encode_packet p = Raise e ->
  send p k b c = (c, [], Raise e).
Proof.
  intros H T E. destruct (hex_packet_class p H) as [B S]. unfold send. rewrite T, B, E. reflexivity.
Qed.

Lemma send_confirmed p b c w : hex_packet p -> cl_transport c = true -> (cl_index c < 20)%nat ->
  encode_packet p = Ok w ->
  let code := code_at (cl_index c) 0 in
  send p true b c = (set_index c ((cl_index c + 1) mod 20),
                     [CWrite ((if b then [] else [92]) ++ w ++ [code; 13])], Ok (Some code)).
Proof.
  intros H T I E code. destruct (hex_packet_class p H) as [B S].
  unfold send. rewrite T, B, E, S. cbn [negb andb orb]. rewrite orb_false_r.
  unfold mbind, mseq, memit, mret. rewrite (take_code c I). unfold mbind. cbn [app].
  destruct b; cbn [app]; reflexivity.
Qed.

Lemma send_reset k b c : cl_transport c = true ->
  send PktReset k b c = (c, [CWrite [126; 13]], Ok None).
Proof.
  intros T. unfold send. rewrite T. cbn [is_base_packet negb is_special_client encode_packet].
  rewrite orb_true_r, andb_false_r. reflexivity.
Qed.

(** ** Confirmation codes over histories *)

Definition codes_step (c : client) (ev : list cev) (c' : client) : Prop :=
  (cl_index c < 20)%nat ->
  (cl_index c' < 20)%nat
  /\ cl_index c' = ((cl_index c + length (wire_codes ev)) mod 20)%nat
  /\ wire_codes ev = map (code_at (cl_index c)) (seq 0 (length (wire_codes ev)))
  /\ Forall write_form ev.

Lemma seq_shift_from a b : seq a b = map (fun k => (a + k)%nat) (seq 0 b).
Proof.
  revert a. induction b as [|b IH]; intros a; [reflexivity|]. cbn [seq map]. rewrite Nat.add_0_r. f_equal.
  rewrite (IH (S a)), (IH 1%nat), map_map. apply map_ext. intros k. lia.
Qed.

Lemma codes_split i a b :
  map (code_at i) (seq 0 (a + b)) = map (code_at i) (seq 0 a) ++ map (code_at ((i + a) mod 20)) (seq 0 b).
Proof.
  rewrite seq_app, map_app. f_equal. rewrite (seq_shift_from (0 + a)), map_map.
  apply map_ext. intros k. unfold code_at. f_equal.
  rewrite Nat.add_mod_idemp_l by lia. f_equal. lia.
Qed.

Lemma codes_refl c : codes_step c [] c.
Proof.
  intros I. split; [exact I|]. cbn [wire_codes flat_map length seq map]. rewrite Nat.add_0_r.
  split; [symmetry; now apply Nat.mod_small|]. split; constructor.
Qed.
Lemma codes_trans c e1 c1 e2 c2 : codes_step c e1 c1 -> codes_step c1 e2 c2 -> codes_step c (e1 ++ e2) c2.
Proof.
  intros H1 H2 I. destruct (H1 I) as [I1 [X1 [W1 F1]]]. destruct (H2 I1) as [I2 [X2 [W2 F2]]].
  unfold wire_codes in *. rewrite flat_map_app, app_length. split; [exact I2|].
  split.
  { rewrite X2, X1, Nat.add_mod_idemp_l by lia. f_equal. lia. }
  split; [|apply Forall_app; now split].
  rewrite codes_split, <- X1, <- W2, <- W1. reflexivity.
Qed.
Lemma codes_same c c' ev : cl_index c' = cl_index c -> Forall (fun e => is_write e = false) ev ->
  codes_step c ev c'.
Proof.
  intros E F I.
  assert (W : wire_codes ev = [] /\ Forall write_form ev).
  { clear I. induction F as [|e ev He F IH]; [split; [reflexivity|constructor]|].
    destruct IH as [W1 W2]. destruct e; try discriminate; (split; [exact W1|constructor; [exact I|exact W2]]). }
  destruct W as [W1 W2]. rewrite W1. cbn [length seq map]. rewrite E, Nat.add_0_r.
  split; [exact I|]. split; [symmetry; now apply Nat.mod_small|]. split; [reflexivity|exact W2].
Qed.

Lemma write_code_app body code : is_code code -> write_code (CWrite (body ++ [code; 13])) = [code].
Proof.
  intros H. unfold write_code. rewrite rev_app_distr. cbn [rev app].
  unfold is_code in H. replace ((103 <=? code) && (code <=? 122)) with true by lia. reflexivity.
Qed.

Lemma codes_one c body : (cl_index c < 20)%nat -> ~ In 13 body -> body <> [] ->
  codes_step c [CWrite (body ++ [code_at (cl_index c) 0; 13])] (set_index c ((cl_index c + 1) mod 20)).
Proof.
  intros I N E _. pose proof (code_at_code (cl_index c) 0) as C.
  unfold wire_codes. cbn [flat_map]. rewrite (write_code_app _ _ C). cbn [app length seq map].
  cbn [cl_index set_index]. split; [apply Nat.mod_upper_bound; lia|].
  split; [reflexivity|]. split; [reflexivity|].
  constructor; [|constructor]. right. exists body, (code_at (cl_index c) 0). auto.
Qed.

Lemma encode_hex p w : hex_packet p -> encode_packet p = Ok w -> Forall hex_char w.
Proof. intros H E. destruct (hex_packet_raw p w H E) as [raw [_ [_ [_ [F _]]]]]. exact F. Qed.

Lemma hex_cr w : Forall hex_char w -> ~ In 13 w.
Proof. intros F I. apply (in_hex _ w F) in I. unfold hex_char in I. lia. Qed.

(** A base16 packet is never empty. *)
Lemma encode_nonempty p w : hex_packet p -> encode_packet p = Ok w -> w <> [].
Proof.
  intros H E. destruct (hex_packet_raw p w H E) as [raw [_ [_ [N [_ [L _]]]]]].
  intros ->. cbn in L. destruct raw; [congruence|cbn in L; lia].
Qed.

Lemma codes_send p b : sendable p -> keeps codes_step (send p true b).
Proof.
  intros S c c' ev r E.
  destruct (cl_transport c) eqn:T.
  - destruct S as [->|H].
    + rewrite send_reset in E by exact T. inversion E; subst. intros I. split; [exact I|].
      cbn [wire_codes flat_map write_code rev app length seq map]. rewrite Nat.add_0_r.
      split; [symmetry; now apply Nat.mod_small|]. split; [reflexivity|].
      constructor; [now left|constructor].
    + destruct (encode_packet p) as [w|e] eqn:W.
      * intros I. revert I. intros I0. pose proof I0 as I.
        rewrite (send_confirmed p b c w H T I W) in E. inversion E; subst.
        rewrite (app_assoc (if b then [] else [92])).
        apply codes_one; [exact I| | |exact I].
        -- intros X. apply in_app_or in X. destruct X as [X|X].
           ++ destruct b; cbn in X; [exact X|]. destruct X as [X|[]]. lia.
           ++ now apply (hex_cr w (encode_hex p w H W)).
        -- intros X. apply app_eq_nil in X. destruct X as [_ X]. now apply (encode_nonempty p w H W).
      * rewrite (send_fails p true b c e H T W) in E. inversion E; subst. apply codes_refl.
  - rewrite send_disconnected in E by exact T. inversion E; subst. apply codes_refl.
Qed.

Lemma codes_run now ops st st' tr : client_run now st ops = (st', tr) ->
  codes_step (fst st) (effects tr) (fst st').
Proof.
  apply keeps_any_run.
  - exact codes_refl.
  - exact codes_trans.
  - intros c n. apply codes_same; [reflexivity|constructor].
  - intros c e W _ _. apply codes_same; [reflexivity|repeat constructor; exact W].
  - exact codes_send.
  - intros c n. apply codes_same; [reflexivity|constructor].
  - intros c b. apply codes_same; [reflexivity|constructor].
  - intros c n. apply codes_same; [reflexivity|repeat constructor].
  - intros c. apply codes_same; [reflexivity|repeat constructor].
Qed.

Lemma app_inv_length {A} (a b c d : list A) : length a = length c -> a ++ b = c ++ d -> a = c /\ b = d.
Proof.
  revert c. induction a as [|x a IH]; intros [|y c] L E; try discriminate; [auto|].
  cbn [app] in E. inversion E; subst. cbn [length] in L. apply IH in H1; [|lia]. intuition congruence.
Qed.

(** Twenty consecutive codes differ. *)
Lemma code_order_nodup : NoDup code_order.
Proof.
  unfold code_order. repeat (constructor; [cbn [In]; lia|]). constructor.
Qed.
Lemma code_at_inj i j k : (j < 20)%nat -> (k < 20)%nat -> code_at i j = code_at i k -> j = k.
Proof.
  intros J K E. unfold code_at in E.
  assert (Hj : ((i + j) mod 20 < 20)%nat) by (apply Nat.mod_upper_bound; lia).
  assert (Hk : ((i + k) mod 20 < 20)%nat) by (apply Nat.mod_upper_bound; lia).
  apply (proj1 (NoDup_nth code_order 0) code_order_nodup) in E; [|exact Hj|exact Hk].
  rewrite Nat.add_mod, (Nat.add_mod i k) in E by lia.
  assert (Hi : (i mod 20 < 20)%nat) by (apply Nat.mod_upper_bound; lia).
  rewrite (Nat.mod_small j), (Nat.mod_small k) in E by lia.
  remember (i mod 20)%nat as m.
  destruct (Nat.lt_ge_cases (m + j) 20); destruct (Nat.lt_ge_cases (m + k) 20).
  - rewrite !Nat.mod_small in E by lia. lia.
  - rewrite Nat.mod_small in E by lia. rewrite (Nat.mod_eq (m + k)) in E by lia.
    assert ((m + k) / 20 = 1)%nat by (symmetry; apply Nat.div_unique with (m + k - 20)%nat; lia). lia.
  - rewrite (Nat.mod_small (m + k)) in E by lia. rewrite (Nat.mod_eq (m + j)) in E by lia.
    assert ((m + j) / 20 = 1)%nat by (symmetry; apply Nat.div_unique with (m + j - 20)%nat; lia). lia.
  - rewrite !Nat.mod_eq in E by lia.
    assert ((m + j) / 20 = 1)%nat by (symmetry; apply Nat.div_unique with (m + j - 20)%nat; lia).
    assert ((m + k) / 20 = 1)%nat by (symmetry; apply Nat.div_unique with (m + k - 20)%nat; lia). lia.
Qed.
Lemma codes_window i n pre mid post : map (code_at i) (seq 0 n) = pre ++ mid ++ post ->
  (length mid <= 20)%nat -> NoDup mid.
Proof.
  intros E L.
  assert (M : mid = map (code_at (i + length pre)) (seq 0 (length mid))).
  { assert (N : n = (length pre + (length mid + length post))%nat).
    { apply (f_equal (@length Z)) in E. rewrite map_length, seq_length, !app_length in E. exact E. }
    rewrite N, !seq_app, !map_app in E. apply app_inv_length in E; [|now rewrite map_length, seq_length].
    destruct E as [_ E]. apply app_inv_length in E; [|now rewrite map_length, seq_length].
    destruct E as [E _]. rewrite <- E at 1. rewrite (seq_shift_from (0 + length pre)), map_map.
    apply map_ext. intros k. unfold code_at. do 2 f_equal. lia. }
  rewrite M. generalize (i + length pre)%nat as j. intros j.
  assert (K : forall a b, (a + b <= 20)%nat -> NoDup (map (code_at j) (seq a b))).
  { intros a b. revert a. induction b as [|b IH]; intros a H; [constructor|]. cbn [seq map]. constructor.
    - intros X. apply in_map_iff in X. destruct X as [k [X Y]]. apply in_seq in Y.
      apply code_at_inj in X; lia.
    - apply IH. lia. }
  apply K. lia.
Qed.
