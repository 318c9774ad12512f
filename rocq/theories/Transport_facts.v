(** Lemmas on an object on a TCP connection. *)
From Coq Require Import List ZArith Bool Lia Arith.
From Verif Require Import Py Common Buffered Client Cmqttd Daemon Transport Spec Spec_client Spec_transport.
Import ListNotations.
Open Scope Z_scope.

Lemma losses_app {Op Ev R} (a b : list (seen Op Ev R)) : losses (a ++ b) = (losses a + losses b)%nat.
Proof. unfold losses. now rewrite filter_app, app_length. Qed.
Lemma handed_app {Op Ev R} (a b : list (seen Op Ev R)) : handed (a ++ b) = handed a ++ handed b.
Proof. unfold handed. apply flat_map_app. Qed.
Lemma emitted_app {Op Ev R} (a b : list (seen Op Ev R)) : emitted (a ++ b) = emitted a ++ emitted b.
Proof. unfold emitted. apply flat_map_app. Qed.
Lemma data_effects_app {Op Ev R} (a b : list (seen Op Ev R)) : data_effects (a ++ b) = data_effects a ++ data_effects b.
Proof. unfold data_effects. apply flat_map_app. Qed.

Lemma transport_writes_spec ev : transport_writes ev = writes ev.
Proof. induction ev as [|e ev IH]; [reflexivity|]. destruct e; cbn; now rewrite IH. Qed.

(** What holds of a transport when the object was losses [n] times. *)
Definition sound (t : tcp) (n : nat) : Prop :=
  (t_lost t = true -> t_out t = [] /\ t_closing t = true)
  /\ (t_gone t = true -> t_out t = [] /\ t_closing t = true)
  /\ n = (if t_gone t then 1%nat else 0%nat)
  /\ t_due t = (if t_lost t && negb (t_gone t) then 1%nat else 0%nat).

Local Ltac fin :=
  unfold sound; cbn [t_out t_closing t_lost t_due t_gone t_sends t_wire set_out];
  repeat match goal with
         | H : t_lost ?t = _ |- context [t_lost ?t] => rewrite H
         | H : t_gone ?t = _ |- context [t_gone ?t] => rewrite H
         | H : t_due ?t = _ |- context [t_due ?t] => rewrite H
         end; cbn [andb negb];
  repeat match goal with |- _ /\ _ => split end; intros; try discriminate; auto; try congruence; try tauto.

Lemma sound_new : sound new_tcp 0.
Proof. repeat split; discriminate. Qed.

Lemma sound_fresh {St} (st : St) : sound (snd (st, new_tcp)) 0.
Proof. exact sound_new. Qed.

Section Net.
  Variable net : nat -> reply.

  Lemma force_sound t n : sound t n -> t_gone t = false -> sound (force_close t) n.
  Proof.
    intros S G. unfold force_close. destruct (t_lost t) eqn:L; [exact S|]. destruct S as [A [B [C D]]]. rewrite L in D.
    rewrite G in *. cbn in D. unfold sound. cbn. rewrite ?G, D. fin.
  Qed.
  Lemma force_gone t : t_gone (force_close t) = t_gone t /\ t_wire (force_close t) = t_wire t
    /\ (t_lost t = true -> force_close t = t) /\ t_lost (force_close t) = true.
  Proof. unfold force_close. destruct (t_lost t) eqn:L; cbn; auto. repeat split; auto. discriminate. Qed.

  (** One write. *)
  Lemma write_facts t n d : sound t n -> let t' := write net t d in
    sound t' n /\ t_gone t' = t_gone t /\ (t_lost t || t_gone t = true -> t' = t)
    /\ (t_closing t = true -> t_closing t' = true)
    /\ (t_closing t' = true -> t_closing t = true \/ t_lost t' = true)
    /\ ((forall i, net i <> Breaks) -> t_lost t' = t_lost t /\ t_closing t' = t_closing t)
    /\ exists rest, t_wire t ++ t_out t ++ d = t_wire t' ++ t_out t' ++ rest
       /\ (t_lost t' || t_gone t' = false -> rest = []).
  Proof.
    intros S. pose proof S as [A [B [C D]]]. unfold write. cbn zeta.
    destruct d as [|x d].
    { split; [exact S|]. split; [reflexivity|]. split; [auto|]. split; [auto|]. split; [auto|]. split; [auto|].
      exists []. now rewrite !app_nil_r. }
    destruct (t_lost t || t_gone t) eqn:Q.
    { split; [exact S|]. split; [reflexivity|]. split; [auto|]. split; [auto|]. split; [auto|]. split; [auto|].
      exists (x :: d). split; [reflexivity|]. congruence. }
    apply orb_false_iff in Q. destruct Q as [Q1 Q2].
    destruct (t_out t) as [|y o] eqn:O.
    - unfold try_send.
      destruct (net (t_sends t)) as [k| |] eqn:N.
      + cbn. rewrite Q1, Q2 in *. split; [fin|]. split; [reflexivity|]. split; [discriminate|].
        split; [auto|]. split; [auto|]. split; [auto|].
        exists []. split; [|auto]. rewrite app_nil_r, <- app_assoc. f_equal. symmetry. apply firstn_skipn.
      + cbn. rewrite Q1, Q2 in *. split; [fin|]. split; [reflexivity|]. split; [discriminate|].
        split; [auto|]. split; [auto|]. split; [auto|].
        exists []. split; [|auto]. now rewrite app_nil_r.
      + unfold force_close. cbn. rewrite Q1, Q2 in *. cbn in D. rewrite D. cbn.
        split; [fin|]. split; [reflexivity|]. split; [discriminate|].
        split; [auto|]. split; [auto|]. split; [intros H; now destruct (H (t_sends t))|].
        exists (x :: d). split; [reflexivity|discriminate].
    - cbn. rewrite Q1, Q2 in *. split; [fin|]. split; [reflexivity|]. split; [discriminate|].
      split; [auto|]. split; [auto|]. split; [auto|].
      exists []. split; [|auto]. now rewrite app_nil_r.
  Qed.

  (** Several writes. *)
  Lemma writes_facts l : forall t n, sound t n -> let t' := write_all net t l in
    sound t' n /\ t_gone t' = t_gone t /\ (t_lost t || t_gone t = true -> t' = t)
    /\ (t_closing t = true -> t_closing t' = true)
    /\ (t_closing t' = true -> t_closing t = true \/ t_lost t' = true)
    /\ ((forall i, net i <> Breaks) -> t_lost t' = t_lost t /\ t_closing t' = t_closing t)
    /\ exists rest, t_wire t ++ t_out t ++ concat l = t_wire t' ++ t_out t' ++ rest
       /\ (t_lost t' || t_gone t' = false -> rest = []).
  Proof.
    induction l as [|d l IH]; intros t n S; cbn zeta.
    - cbn. split; [exact S|]. split; [reflexivity|]. split; [auto|]. split; [auto|]. split; [auto|]. split; [auto|].
      exists []. auto.
    - destruct (write_facts t n d S) as [S1 [G1 [K1 [C1 [D1 [F1 [r1 [W1 Z1]]]]]]]].
      change (write_all net t (d :: l)) with (write_all net (write net t d) l). set (t1 := write net t d) in *. clearbody t1.
      destruct (IH t1 n S1) as [S2 [G2 [K2 [C2 [D2 [F2 [r2 [W2 Z2]]]]]]]]. set (t2 := write_all net t1 l) in *. clearbody t2.
      split; [exact S2|]. split; [congruence|].
      split; [intros Q; pose proof (K1 Q) as Q1; subst t1; auto|].
      split; [auto|].
      split; [intros Q; destruct (D2 Q) as [E|E]; [|auto]; destruct (D1 E) as [E1|E1]; [auto|right; rewrite K2; [exact E1|now rewrite E1]]|].
      split; [intros H; destruct (F1 H), (F2 H); split; congruence|].
      cbn [concat]. destruct (t_lost t1 || t_gone t1) eqn:Q.
      + assert (E : t2 = t1) by auto. rewrite E in *. exists (r1 ++ concat l). split; [|congruence].
        rewrite app_assoc, app_assoc, <- (app_assoc (t_wire t)), W1. now rewrite <- !app_assoc.
      + exists r2. split; [|exact Z2]. rewrite (Z1 eq_refl), app_nil_r in W1. rewrite <- W2.
        rewrite app_assoc, app_assoc, <- (app_assoc (t_wire t)), W1. now rewrite <- !app_assoc.
  Qed.

  Context {St Op Ev R : Type}.
  Variable p : party St Op Ev R.
  (** All that was given to [transport.write]. *)
  Definition given (tr : list (seen Op Ev R)) : list bytes := flat_map (fun s => p_out p (seen_effects s)) tr.
  Lemma given_app a b : given (a ++ b) = given a ++ given b.
  Proof. unfold given. apply flat_map_app. Qed.

  Lemma close_facts t n : sound t n -> t_closing t = false ->
    sound (close t) n /\ t_closing (close t) = true /\ t_wire (close t) = t_wire t /\ t_out (close t) = t_out t
    /\ t_gone (close t) = t_gone t.
  Proof.
    intros [A [B [C D]]] Q. unfold close. rewrite Q.
    assert (L : t_lost t = false) by (destruct (t_lost t); [destruct (A eq_refl); congruence|reflexivity]).
    assert (G : t_gone t = false) by (destruct (t_gone t); [destruct (B eq_refl); congruence|reflexivity]).
    rewrite L, G in *. cbn in D.
    destruct (t_out t) eqn:O; cbn; unfold sound; cbn; rewrite ?L, ?G, ?D; cbn; fin.
  Qed.

  Lemma call_lost_facts st t w' tr : call_lost p net st t = (w', tr) ->
    exists ev r, tr = [SLost ev r] /\ p_call p st (p_lost p) = (fst w', ev, r)
      /\ snd w' = mkTcp (t_out t) (t_closing t) (t_lost t) (t_due t) true (t_sends t) (t_wire t).
  Proof.
    intros H. unfold call_lost in H. cbn zeta in H. destruct (p_call p st (p_lost p)) as [[st' ev] r]. inversion H; subst.
    exists ev, r. split; [reflexivity|]. split; [reflexivity|]. cbn [snd].
    set (t1 := mkTcp _ _ _ _ _ _ _). assert (K : t_lost t1 || t_gone t1 = true) by (cbn; apply orb_true_r).
    clearbody t1. clear H. induction (p_out p ev) as [|d l IH]; [reflexivity|]. cbn.
    replace (write net t1 d) with t1; [exact IH|]. unfold write. destruct d; [reflexivity|]. now rewrite K.
  Qed.

  (** One event. *)
  Lemma step_facts w o w' tr n : sound (snd w) n -> net_step p net w o = (w', tr) ->
    sound (snd w') (n + losses tr)
    /\ (t_closing (snd w) = true -> t_closing (snd w') = true /\ handed tr = [])
    /\ (t_lost (snd w) = true -> t_lost (snd w') = true /\ t_wire (snd w') = t_wire (snd w))
    /\ (t_gone (snd w) = true -> t_gone (snd w') = true /\ t_wire (snd w') = t_wire (snd w))
    /\ (t_closing (snd w) = false -> map fst (handed tr) = arrived [o] /\ (forall b e, In (b, Raise e) (handed tr) -> t_closing (snd w') = true))
    /\ (forall e ev b, In (SData b ev (Raise e)) tr -> t_lost (snd w') = true /\ t_gone (snd w') = false)
    /\ (exists rest, t_wire (snd w) ++ t_out (snd w) ++ concat (given tr) = t_wire (snd w') ++ t_out (snd w') ++ rest
        /\ (t_lost (snd w') || t_gone (snd w') = false -> rest = [])).
  Proof.
    destruct w as [st t]. cbn [snd]. intros S H. pose proof S as [SA [SB [SC SD]]].
    assert (NotClosing : t_closing t = false -> t_lost t = false /\ t_gone t = false).
    { intros Q. split; [destruct (t_lost t); [destruct (SA eq_refl); congruence|reflexivity]|
                        destruct (t_gone t); [destruct (SB eq_refl); congruence|reflexivity]]. }
    destruct o as [o|b| | |].
    - cbn [net_step] in H. destruct (p_call p st o) as [[st' ev] r]. inversion H; subst; clear H. cbn [snd].
      destruct (writes_facts (p_out p ev) t _ S) as [S1 [G1 [K1 [C1 [D1 [F1 [r1 [W1 Z1]]]]]]]].
      set (t1 := write_all net t (p_out p ev)) in *. clearbody t1.
      cbn [losses filter length handed flat_map given seen_effects map arrived app]. rewrite Nat.add_0_r, app_nil_r.
      split; [exact S1|]. split; [auto|].
      split; [intros L; rewrite K1; [auto|now rewrite L]|].
      split; [intros L; rewrite K1; [auto|rewrite L; apply orb_true_r]|].
      split; [intros _; split; [reflexivity|intros b e []]|].
      split; [intros e ev0 b [X|[]]; discriminate|]. exists r1. auto.
    - cbn [net_step] in H. destruct (t_closing t) eqn:Q.
      + inversion H; subst; clear H. cbn [snd losses filter length handed flat_map given]. rewrite Nat.add_0_r.
        split; [exact S|]. split; [auto|]. split; [auto|]. split; [auto|]. split; [discriminate|]. split; [intros e ev b0 []|].
        exists []. auto.
      + destruct (NotClosing eq_refl) as [L G]. destruct b as [|x b].
        * inversion H; subst; clear H. cbn [snd losses filter length handed flat_map given arrived app map].
          destruct (close_facts t _ S Q) as [C1 [C2 [C3 [C4 C5]]]]. rewrite Nat.add_0_r.
          split; [exact C1|]. split; [discriminate|]. split; [congruence|]. split; [congruence|].
          split; [intros _; split; [reflexivity|intros b e []]|].
          split; [intros e ev b []|]. exists []. rewrite C3, C4. auto.
        * destruct (p_call p st (p_data p (x :: b))) as [[st' ev] r]. inversion H; subst; clear H. cbn [snd].
          destruct (writes_facts (p_out p ev) t _ S) as [S1 [G1 [K1 [C1 [D1 [F1 [r1 [W1 Z1]]]]]]]].
          set (t1 := write_all net t (p_out p ev)) in *. clearbody t1.
          cbn [losses filter length handed flat_map given seen_effects map arrived app fst]. rewrite Nat.add_0_r, app_nil_r.
          assert (G2 : t_gone t1 = false) by congruence.
          split; [destruct r; [exact S1|now apply force_sound]|]. split; [discriminate|]. split; [congruence|]. split; [congruence|].
          split; [intros _; split; [reflexivity|]; intros b0 e [E|[]]; inversion E; subst|].
          { destruct (force_gone t1) as [_ [_ [_ F]]]. now destruct (force_sound t1 _ S1 G2) as [X _]; destruct (X F). }
          split; [intros e ev0 b0 [E|[]]; inversion E; subst; destruct (force_gone t1) as [X [_ [_ F]]]; split; congruence|].
          destruct r as [v|e]; [exists r1; auto|]. destruct (force_gone t1) as [_ [E1 [E2 E3]]].
          exists (t_out t1 ++ r1). rewrite E1, E3. split; [|discriminate]. destruct (t_lost t1) eqn:L1.
          { rewrite E2 by reflexivity. destruct S1 as [X _]. destruct (X L1) as [O _]. now rewrite O in *. }
          unfold force_close. rewrite L1. cbn. exact W1.
    - cbn [net_step] in H. destruct (t_closing t) eqn:Q.
      + inversion H; subst; clear H. cbn [snd losses filter length handed flat_map given]. rewrite Nat.add_0_r.
        split; [exact S|]. split; [auto|]. split; [auto|]. split; [auto|]. split; [discriminate|]. split; [intros e ev b0 []|].
        exists []. auto.
      + destruct (NotClosing eq_refl) as [L G]. inversion H; subst; clear H. cbn [snd losses filter length handed flat_map given arrived app map].
        rewrite Nat.add_0_r. destruct (force_gone t) as [_ [E1 [E2 E3]]].
        split; [now apply force_sound|]. split; [discriminate|]. split; [congruence|]. split; [congruence|].
        split; [intros _; split; [reflexivity|intros b e []]|].
        split; [intros e ev b []|]. exists (t_out t). rewrite E1, E3. split; [|discriminate].
        unfold force_close. rewrite L. cbn. now rewrite app_nil_r.
    - cbn [net_step] in H. destruct (t_lost t) eqn:L.
      { inversion H; subst; clear H. cbn [snd losses filter length handed flat_map given arrived app map]. rewrite Nat.add_0_r, L.
        split; [exact S|]. split; [auto|]. split; [auto|]. split; [auto|]. split; [intros _; split; [reflexivity|intros b e []]|].
        split; [intros e ev b0 []|]. exists []. auto. }
      destruct (t_out t) as [|x out] eqn:O.
      { inversion H; subst; clear H. cbn [snd losses filter length handed flat_map given arrived app map]. rewrite Nat.add_0_r, O, L.
        split; [exact S|]. split; [auto|]. split; [auto|]. split; [auto|]. split; [intros _; split; [reflexivity|intros b e []]|].
        split; [intros e ev b0 []|]. exists []. auto. }
      assert (G : t_gone t = false) by (destruct (t_gone t); [destruct (SB eq_refl); discriminate|reflexivity]).
      rewrite G in *. cbn in SD.
      assert (Rest : forall rest k, (x :: out) = k ++ rest ->
        sound (set_out (mkTcp (x :: out) (t_closing t) (t_lost t) (t_due t) (t_gone t) (Datatypes.S (t_sends t)) (t_wire t ++ k)) rest) n).
      { intros rest k _. unfold sound. cbn. rewrite L, G, SD. fin. }
      unfold try_send in H. rewrite O in H.
      destruct (net (t_sends t)) as [k| |] eqn:N.
      + destruct (skipn k (x :: out)) as [|y rest] eqn:K.
        * destruct (t_closing t) eqn:Q.
          -- set (t1 := set_out _ _) in H. pose proof (firstn_skipn k (x :: out)) as FK. rewrite K, app_nil_r in FK.
             destruct (call_lost_facts st t1 w' tr H) as [ev [r [-> [_ E]]]].
             rewrite E. unfold t1. cbn [snd t_out t_closing t_lost t_due t_gone t_wire t_sends set_out losses filter length handed flat_map
               given arrived app map seen_effects]. rewrite L, SD, FK.
             split; [unfold sound; cbn; rewrite SC; fin|].
             split; [auto|]. split; [discriminate|]. split; [discriminate|].
             split; [discriminate|].
             split; [intros e ev0 b0 [X|[]]; discriminate|].
             exists (concat (p_out p ev ++ [])). rewrite <- !app_assoc. cbn. split; [reflexivity|discriminate].
          -- inversion H; subst w' tr; clear H. cbn [snd losses filter length handed flat_map given arrived app map]. rewrite Nat.add_0_r.
             pose proof (firstn_skipn k (x :: out)) as FK. rewrite K, app_nil_r in FK. rewrite FK.
             split; [apply Rest; now rewrite app_nil_r|].
             cbn [t_closing t_lost t_gone t_wire t_out set_out]. split; [discriminate|]. rewrite L, G. split; [discriminate|]. split; [discriminate|].
             split; [intros _; split; [reflexivity|intros b e []]|].
             split; [intros e ev b0 []|]. exists []. rewrite <- !app_assoc. cbn. auto.
        * inversion H; subst w' tr; clear H. cbn [snd losses filter length handed flat_map given arrived app map]. rewrite Nat.add_0_r.
          pose proof (firstn_skipn k (x :: out)) as FK. rewrite K in FK.
          split; [apply Rest; now symmetry|].
          cbn [t_closing t_lost t_gone t_wire t_out set_out]. split; [auto|]. rewrite L, G. split; [discriminate|]. split; [discriminate|].
          split; [intros _; split; [reflexivity|intros b e []]|].
          split; [intros e ev b0 []|]. exists []. cbn [concat]. rewrite !app_nil_r, <- app_assoc, FK. auto.
      + inversion H; subst w' tr; clear H. cbn [snd losses filter length handed flat_map given arrived app map]. rewrite Nat.add_0_r.
        split; [rewrite <- (app_nil_r (t_wire t)); apply Rest; reflexivity|].
        cbn [t_closing t_lost t_gone t_wire t_out set_out]. split; [auto|]. rewrite L, G. split; [discriminate|]. split; [discriminate|].
        split; [intros _; split; [reflexivity|intros b e []]|].
        split; [intros e ev b0 []|]. exists []. auto.
      + inversion H; subst w' tr; clear H. cbn [snd losses filter length handed flat_map given arrived app map]. rewrite Nat.add_0_r.
        unfold force_close, set_out. cbn [t_lost t_out t_closing t_due t_gone t_sends t_wire]. rewrite L. cbn.
        split; [unfold sound; cbn; rewrite G, SD; fin|].
        split; [auto|]. split; [discriminate|]. rewrite G. split; [discriminate|].
        split; [intros _; split; [reflexivity|intros b e []]|].
        split; [intros e ev b0 []|]. exists (x :: out). split; [now rewrite app_nil_r|discriminate].
    - cbn [net_step] in H. destruct (t_due t) as [|k] eqn:Du.
      { inversion H; subst; clear H. cbn [snd losses filter length handed flat_map given arrived app map]. rewrite Nat.add_0_r.
        split; [exact S|]. split; [auto|]. split; [auto|]. split; [auto|]. split; [intros _; split; [reflexivity|intros b e []]|].
        split; [intros e ev b0 []|]. exists []. auto. }
      destruct (t_lost t) eqn:L; [|discriminate SD]. destruct (t_gone t) eqn:G; [discriminate SD|].
      cbn in SD. assert (k = 0)%nat by lia. subst k. destruct (SA eq_refl) as [O Q].
      destruct (call_lost_facts _ _ _ _ H) as [ev [r [-> [_ E]]]]. rewrite E.
      cbn [snd losses filter length handed flat_map given arrived app map seen_effects t_out t_closing t_lost t_due t_gone t_wire].
      split; [unfold sound; cbn; rewrite O, Q, SC; fin|].
      split; [auto|]. split; [auto|]. split; [discriminate|].
      split; [congruence|]. split; [intros e ev0 b0 [X|[]]; discriminate|].
      eexists. split; [reflexivity|]. now rewrite orb_true_r.
  Qed.

  Lemma net_run_app w l1 l2 : net_run p net w (l1 ++ l2)
    = let '(w1, tr1) := net_run p net w l1 in let '(w2, tr2) := net_run p net w1 l2 in (w2, tr1 ++ tr2).
  Proof.
    revert w. induction l1 as [|o l1 IH]; intros w; cbn [net_run app]; [now destruct (net_run p net w l2)|].
    destruct (net_step p net w o) as [w1 t1]. rewrite IH. destruct (net_run p net w1 l1) as [w2 t2].
    destruct (net_run p net w2 l2) as [w3 t3]. now rewrite app_assoc.
  Qed.

  (** A history. *)
  Lemma run_facts l : forall w w' tr n, sound (snd w) n -> net_run p net w l = (w', tr) ->
    sound (snd w') (n + losses tr)
    /\ (t_closing (snd w) = true -> t_closing (snd w') = true /\ handed tr = [])
    /\ (t_lost (snd w) = true -> t_lost (snd w') = true /\ t_wire (snd w') = t_wire (snd w))
    /\ (t_gone (snd w) = true -> t_gone (snd w') = true /\ t_wire (snd w') = t_wire (snd w))
    /\ (exists rest, arrived l = map fst (handed tr) ++ rest /\ (t_closing (snd w') = false -> rest = []))
    /\ (forall a x e b, handed tr = a ++ (x, Raise e) :: b -> b = [])
    /\ (exists rest, t_wire (snd w) ++ t_out (snd w) ++ concat (given tr) = t_wire (snd w') ++ t_out (snd w') ++ rest
        /\ (t_lost (snd w') || t_gone (snd w') = false -> rest = [])).
  Proof.
    induction l as [|o l IH]; intros w w' tr n S H; cbn [net_run] in H.
    - inversion H; subst. cbn. rewrite Nat.add_0_r. split; [exact S|]. split; [auto|]. split; [auto|]. split; [auto|].
      split; [now exists []|]. split; [intros [|] ? ? ? E; discriminate|]. exists []. auto.
    - destruct (net_step p net w o) as [w1 t1] eqn:E1. destruct (net_run p net w1 l) as [w2 t2] eqn:E2.
      inversion H; subst; clear H.
      destruct (step_facts w o w1 t1 n S E1) as [S1 [A1 [B1 [C1 [D1 [F1 [r1 [W1 Z1]]]]]]]].
      destruct (IH _ _ _ _ S1 E2) as [S2 [A2 [B2 [C2 [[rest [D2 D3]] [F2 [r2 [W2 Z2]]]]]]]]. clear IH.
      rewrite losses_app, handed_app, given_app, Nat.add_assoc. split; [exact S2|].
      split; [intros Q; destruct (A1 Q) as [Q1 Q2]; destruct (A2 Q1) as [Q3 Q4]; now rewrite Q2, Q4|].
      split; [intros Q; destruct (B1 Q) as [Q1 Q2]; destruct (B2 Q1) as [Q3 Q4]; split; congruence|].
      split; [intros Q; destruct (C1 Q) as [Q1 Q2]; destruct (C2 Q1) as [Q3 Q4]; split; congruence|].
      assert (AR : arrived (o :: l) = arrived [o] ++ arrived l).
      { unfold arrived. cbn [flat_map]. now rewrite app_nil_r. }
      split.
      { destruct (t_closing (snd w)) eqn:Q.
        - destruct (A1 eq_refl) as [Q1 Q2]. destruct (A2 Q1) as [Q3 Q4]. rewrite Q2, Q4. exists (arrived (o :: l)).
          split; [reflexivity|congruence].
        - destruct (D1 eq_refl) as [Q1 _]. exists rest. rewrite AR, <- Q1, D2, map_app, app_assoc. auto. }
      split.
      { intros a x e b E. destruct (t_closing (snd w)) eqn:Q.
        - destruct (A1 eq_refl) as [Q1 Q2]. destruct (A2 Q1) as [Q3 Q4]. rewrite Q2, Q4 in E. now destruct a.
        - destruct (D1 eq_refl) as [Q1 Q2].
          destruct (app_eq_app _ _ _ _ E) as [m [[M1 M2]|[M1 M2]]].
          + destruct m as [|y m].
            { cbn in M2. apply (F2 [] x e b). now symmetry. }
            inversion M2; subst y. specialize (Q2 x e). rewrite M1 in Q2. specialize (Q2 (in_elt _ _ _)).
            destruct (A2 Q2) as [_ Q4]. rewrite Q4, app_nil_r in *.
            assert (L : (length (handed t1) <= 1)%nat).
            { rewrite <- (map_length fst), Q1. destruct o as [?|[|]| | |]; cbn; lia. }
            rewrite M1, app_length in L. cbn in L. destruct m; [now subst b|cbn in L; lia].
          + now apply (F2 m x e b). }
      destruct (t_lost (snd w1) || t_gone (snd w1)) eqn:Q.
      + assert (K : (t_lost (snd w') || t_gone (snd w') = true) /\ t_wire (snd w') = t_wire (snd w1)).
        { apply orb_true_iff in Q. destruct Q as [Q|Q]; [destruct (B2 Q) as [X Y]|destruct (C2 Q) as [X Y]]; rewrite X; split; auto.
          apply orb_true_r. }
        destruct K as [K1 K2]. rewrite K1. assert (O : t_out (snd w') = []).
        { destruct S2 as [X [Y _]]. apply orb_true_iff in K1. destruct K1 as [K1|K1]; [now destruct (X K1)|now destruct (Y K1)]. }
        assert (O1 : t_out (snd w1) = []).
        { destruct S1 as [X [Y _]]. apply orb_true_iff in Q. destruct Q as [Q|Q]; [now destruct (X Q)|now destruct (Y Q)]. }
        exists (r1 ++ concat (given t2)). split; [|discriminate]. rewrite O, K2, concat_app. rewrite O1 in W1. cbn in *.
        rewrite (app_assoc (t_wire (snd w1))), <- W1. now rewrite <- !app_assoc.
      + exists r2. split; [|exact Z2]. rewrite (Z1 eq_refl), app_nil_r in W1. rewrite <- W2, concat_app.
        rewrite (app_assoc (t_wire (snd w1))), <- W1. now rewrite <- !app_assoc.
  Qed.

  (** Every event shows the object at most one thing. *)
  Lemma step_one w o w' tr : net_step p net w o = (w', tr) -> (length tr <= 1)%nat.
  Proof.
    destruct w as [st t]. intros H. assert (CL : forall t1 w2 tr2, call_lost p net st t1 = (w2, tr2) -> (length tr2 <= 1)%nat).
    { intros t1 w2 tr2 C. destruct (call_lost_facts _ _ _ _ C) as [ev [r [-> _]]]. cbn. lia. }
    destruct o as [o|b| | |]; cbn [net_step] in H.
    - destruct (p_call p st o) as [[? ?] ?]. inversion H. cbn. lia.
    - destruct (t_closing t); [inversion H; cbn; lia|]. destruct b; [inversion H; cbn; lia|].
      destruct (p_call p st _) as [[? ?] ?]. inversion H. cbn. lia.
    - destruct (t_closing t); inversion H; cbn; lia.
    - destruct (t_lost t); [inversion H; cbn; lia|]. destruct (t_out t); [inversion H; cbn; lia|].
      destruct (try_send net t _) as [t1 [[|]|]]; try (inversion H; cbn; lia).
      destruct (t_closing t); [now apply CL in H|inversion H; cbn; lia].
    - destruct (t_due t); [inversion H; cbn; lia|now apply CL in H].
  Qed.

  Lemma run_split l : forall w w' a s b, net_run p net w l = (w', a ++ s :: b) ->
    exists l1 o l2 w1 w2, l = l1 ++ o :: l2 /\ net_run p net w l1 = (w1, a) /\ net_step p net w1 o = (w2, [s])
      /\ net_run p net w2 l2 = (w', b).
  Proof.
    induction l as [|o l IH]; intros w w' a s b H; cbn [net_run] in H.
    - injection H as _ E. now destruct a.
    - destruct (net_step p net w o) as [w1 t1] eqn:E1. destruct (net_run p net w1 l) as [w2 t2] eqn:E2. injection H as E3 E4. subst w'.
      pose proof (step_one _ _ _ _ E1) as L. destruct t1 as [|x [|? ?]]; [| |cbn in L; lia].
      + cbn in E4. subst t2. destruct (IH _ _ _ _ _ E2) as [l1 [o1 [l2 [v1 [v2 [A [B [C D]]]]]]]].
        exists (o :: l1), o1, l2, v1, v2. rewrite A. split; [reflexivity|]. cbn [net_run]. rewrite E1, B. auto.
      + destruct a as [|y a]; cbn in E4; inversion E4; subst.
        * exists [], o, l, w, w1. cbn [net_run app]. auto.
        * destruct (IH _ _ _ _ _ E2) as [l1 [o1 [l2 [v1 [v2 [A [B [C D]]]]]]]].
          exists (o :: l1), o1, l2, v1, v2. rewrite A. split; [reflexivity|]. cbn [net_run]. rewrite E1, B. auto.
  Qed.

  (** A connection that failed: the object is told when the loop turns. *)
  Lemma failed_run l : forall w w' tr, sound (snd w) 0 -> t_lost (snd w) = true ->
    net_run p net w l = (w', tr) -> losses tr = if turned l then 1%nat else 0%nat.
  Proof.
    induction l as [|o l IH]; intros w w' tr S L H; cbn [net_run] in H; [now inversion H|].
    destruct (net_step p net w o) as [w1 t1] eqn:E1. destruct (net_run p net w1 l) as [w2 t2] eqn:E2. inversion H; subst.
    rewrite losses_app. destruct (step_facts w o w1 t1 0 S E1) as [S1 [_ [B1 _]]]. destruct (B1 L) as [L1 _].
    pose proof S as [SA [_ [SC SD]]]. destruct (SA L) as [_ Q].
    assert (G : t_gone (snd w) = false) by (destruct (t_gone (snd w)); [discriminate|reflexivity]). rewrite L, G in SD. cbn in SD.
    destruct w as [st t]. cbn [snd] in *.
    assert (K : match o with NTurn => losses t1 = 1%nat | _ => losses t1 = 0%nat end).
    { destruct o as [o|b| | |]; cbn [net_step] in E1.
      - destruct (p_call p st o) as [[? ?] ?]. now inversion E1.
      - rewrite Q in E1. now inversion E1.
      - rewrite Q in E1. now inversion E1.
      - rewrite L in E1. now inversion E1.
      - rewrite SD in E1. destruct (call_lost_facts _ _ _ _ E1) as [ev [r [-> _]]]. reflexivity. }
    unfold turned. cbn [existsb]. fold (turned l).
    destruct o as [o|b| | |]; try (rewrite K in *; cbn; now apply (IH w1 w' t2)).
    rewrite K in *. cbn. destruct (run_facts l _ _ _ _ S1 E2) as [[_ [_ [X _]]] _].
    destruct (t_gone (snd w')); lia.
  Qed.
End Net.

Lemma given_client now tr : given (client_party now) tr = writes (emitted tr).
Proof.
  induction tr as [|s tr IH]; [reflexivity|].
  change (given (client_party now) (s :: tr)) with (transport_writes (seen_effects s) ++ given (client_party now) tr).
  change (emitted (s :: tr)) with (seen_effects s ++ emitted tr).
  rewrite transport_writes_spec, IH. symmetry. unfold writes. apply flat_map_app.
Qed.
Lemma given_daemon u now labels tr : given (daemon_party u now labels) tr = writes (emitted tr).
Proof.
  induction tr as [|s tr IH]; [reflexivity|].
  change (given (daemon_party u now labels) (s :: tr)) with (transport_writes (seen_effects s) ++ given (daemon_party u now labels) tr).
  change (emitted (s :: tr)) with (seen_effects s ++ emitted tr).
  rewrite transport_writes_spec, IH. symmetry. unfold writes. apply flat_map_app.
Qed.

Definition entry {Op Ev R} (s : seen Op Ev R) : list Ev * res R := (seen_effects s, seen_result s).

(** What one event shows is one call of a method. *)
Lemma step_history {St Op Ev R} (p : party St Op Ev R) net w o w' tr : net_step p net w o = (w', tr) ->
  (tr = [] /\ fst w' = fst w)
  \/ (exists s, tr = [s] /\ p_call p (fst w) (match s with SCall o _ _ => o | SData b _ _ => p_data p b | SLost _ _ => p_lost p end)
       = (fst w', seen_effects s, seen_result s)
       /\ match s with SCall o' _ _ => o = NCall o' | SData b _ _ => o = NArrives b | SLost _ _ => True end).
Proof.
  destruct w as [st t]. cbn [fst]. intros H.
  assert (CL : forall t1, call_lost p net st t1 = (w', tr) ->
     exists s, tr = [s] /\ p_call p st (match s with SCall o _ _ => o | SData b _ _ => p_data p b | SLost _ _ => p_lost p end)
       = (fst w', seen_effects s, seen_result s)
       /\ match s with SCall o' _ _ => o = NCall o' | SData b _ _ => o = NArrives b | SLost _ _ => True end).
  { intros t1 C. destruct (call_lost_facts net p _ _ _ _ C) as [ev [r [-> [E _]]]]. exists (SLost ev r). auto. }
  destruct o as [o|b| | |]; cbn [net_step] in H.
  - destruct (p_call p st o) as [[st' ev] r] eqn:E. inversion H; subst. right. exists (SCall o ev r). auto.
  - destruct (t_closing t); [left; now inversion H|]. destruct b as [|x b]; [left; now inversion H|].
    destruct (p_call p st _) as [[st' ev] r] eqn:E. inversion H; subst. right. exists (SData (x :: b) ev r). auto.
  - left. destruct (t_closing t); now inversion H.
  - destruct (t_lost t); [left; now inversion H|]. destruct (t_out t); [left; now inversion H|].
    destruct (try_send net t _) as [t1 [[|]|]]; try (left; now inversion H).
    destruct (t_closing t); [right; now apply CL in H|left; now inversion H].
  - destruct (t_due t); [left; now inversion H|right; now apply CL in H].
Qed.
