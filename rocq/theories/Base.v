(** Tactics and general lemmas. *)
From Coq Require Import List ZArith Bool Lia ZifyBool ZifyNat.
From Verif Require Import Py.
Import ListNotations.
Open Scope Z_scope.

Ltac Zify.zify_post_hook ::= Z.div_mod_to_equations.

(** Split boolean conjunctions and disjunctions in hypotheses. *)
Ltac bool_hyps :=
  repeat match goal with
  | H : _ && _ = true |- _ => apply andb_prop in H; destruct H
  | H : _ || _ = false |- _ => apply orb_false_elim in H; destruct H
  | H : negb _ = true |- _ => apply negb_true_iff in H
  | H : negb _ = false |- _ => apply negb_false_iff in H
  end.

(** ** Finite sweeps over bytes *)

Definition upto (n : nat) : list Z := map Z.of_nat (seq 0 n).

Lemma in_upto n z : In z (upto n) <-> 0 <= z < Z.of_nat n.
Proof.
  unfold upto. rewrite in_map_iff. split.
  - intros [k [<- Hk]]. apply in_seq in Hk. lia.
  - intros H. exists (Z.to_nat z). split; [lia|]. apply in_seq. lia.
Qed.

Lemma sweep (n : nat) (P : Z -> bool) :
  forallb P (upto n) = true -> forall z, 0 <= z < Z.of_nat n -> P z = true.
Proof. intros H z Hz. rewrite forallb_forall in H. apply H, in_upto, Hz. Qed.

Lemma byte_sweep (P : Z -> bool) :
  forallb P (upto 256) = true -> forall b, byte b -> P b = true.
Proof. intros H b Hb. apply (sweep 256 P H). unfold byte in Hb. lia. Qed.

Lemma byte_sweep2 (P : Z -> Z -> bool) :
  forallb (fun a => forallb (P a) (upto 256)) (upto 256) = true ->
  forall a b, byte a -> byte b -> P a b = true.
Proof.
  intros H a b Ha Hb. apply (byte_sweep (P a)); [|exact Hb].
  exact (byte_sweep (fun a => forallb (P a) (upto 256)) H a Ha).
Qed.

(** ** Bytes *)

Lemma is_bytes_nil : is_bytes [].
Proof. constructor. Qed.
Lemma is_bytes_cons a l : is_bytes (a :: l) <-> byte a /\ is_bytes l.
Proof. unfold is_bytes. split; intros H; [inversion H; auto|constructor; tauto]. Qed.
Lemma is_bytes_app a b : is_bytes (a ++ b) <-> is_bytes a /\ is_bytes b.
Proof. unfold is_bytes. apply Forall_app. Qed.
Lemma is_bytes_firstn n l : is_bytes l -> is_bytes (firstn n l).
Proof.
  intros H. rewrite <- (firstn_skipn n l) in H. apply is_bytes_app in H. tauto.
Qed.
Lemma is_bytes_skipn n l : is_bytes l -> is_bytes (skipn n l).
Proof.
  intros H. rewrite <- (firstn_skipn n l) in H. apply is_bytes_app in H. tauto.
Qed.
Lemma is_bytes_rev l : is_bytes l -> is_bytes (rev l).
Proof. apply Forall_rev. Qed.

Ltac byte_list := repeat first
  [ apply is_bytes_nil | apply is_bytes_cons; split | apply is_bytes_app; split ].

Lemma land_255 x : Z.land x 255 = x mod 256.
Proof. change 255 with (Z.ones 8). now rewrite Z.land_ones by lia. Qed.
Lemma land_3 x : Z.land x 3 = x mod 4.
Proof. change 3 with (Z.ones 2). now rewrite Z.land_ones by lia. Qed.
Lemma land_7 x : Z.land x 7 = x mod 8.
Proof. change 7 with (Z.ones 3). now rewrite Z.land_ones by lia. Qed.
Lemma land_31 x : Z.land x 31 = x mod 32.
Proof. change 31 with (Z.ones 5). now rewrite Z.land_ones by lia. Qed.

Lemma byte_mod x : byte (x mod 256).
Proof. unfold byte. lia. Qed.
Lemma byte_land x : byte (Z.land x 255).
Proof. rewrite land_255. apply byte_mod. Qed.

Lemma mod_of_byte x : byte x -> x mod 256 = x.
Proof. unfold byte. intros. apply Z.mod_small. lia. Qed.

(** ** mk_bytes *)

Lemma byteb_spec x : (0 <=? x) && (x <=? 255) = true <-> byte x.
Proof. unfold byte. rewrite andb_true_iff. lia. Qed.

Lemma mk_bytes_ok l : is_bytes l -> mk_bytes l = Ok l.
Proof.
  intros H. unfold mk_bytes. replace (forallb _ l) with true; [reflexivity|].
  symmetry. apply forallb_forall. intros x Hx. apply byteb_spec.
  unfold is_bytes in H. rewrite Forall_forall in H. auto.
Qed.
Lemma mk_bytes_inv l r : mk_bytes l = Ok r -> r = l /\ is_bytes l.
Proof.
  unfold mk_bytes. destruct (forallb _ l) eqn:E; [|discriminate].
  intros H. inversion H. split; [reflexivity|].
  apply Forall_forall. intros x Hx. rewrite forallb_forall in E.
  apply byteb_spec. apply E. congruence.
Qed.

Lemma Ok_inj {A} (a b : A) : Ok a = Ok b -> a = b.
Proof. congruence. Qed.

(** ** Misc list lemmas *)

Lemma removelast_app1 {A} (l : list A) x : removelast (l ++ [x]) = l.
Proof. rewrite removelast_app by discriminate. simpl. apply app_nil_r. Qed.

Lemma py_last_app {A} (l : list A) x : py_last (l ++ [x]) = Ok x.
Proof. unfold py_last. rewrite rev_app_distr. reflexivity. Qed.
Lemma py_init_app {A} (l : list A) x : py_init (l ++ [x]) = l.
Proof. apply removelast_app1. Qed.
Lemma py_last_nil {A} : py_last (@nil A) = Raise IndexError.
Proof. reflexivity. Qed.

Lemma list_snoc_case {A} (l : list A) : l = [] \/ exists i x, l = i ++ [x].
Proof.
  destruct l as [|a l] using rev_ind; [now left|right; eauto].
Qed.

Lemma skipn_app_length {A} (a b : list A) : skipn (length a) (a ++ b) = b.
Proof. rewrite skipn_app, skipn_all, Nat.sub_diag. reflexivity. Qed.
Lemma firstn_app_length {A} (a b : list A) : firstn (length a) (a ++ b) = a.
Proof. rewrite firstn_app, firstn_all, Nat.sub_diag. simpl. apply app_nil_r. Qed.
Lemma skipn_app_exact {A} n (a b : list A) : n = length a -> skipn n (a ++ b) = b.
Proof. intros ->. apply skipn_app_length. Qed.
Lemma firstn_app_exact {A} n (a b : list A) : n = length a -> firstn n (a ++ b) = a.
Proof. intros ->. apply firstn_app_length. Qed.

Lemma skipn_skipn {A} (a b : nat) (l : list A) : skipn a (skipn b l) = skipn (a + b) l.
Proof.
  revert l. induction b as [|b IH]; intros l; [now rewrite Nat.add_0_r|].
  rewrite Nat.add_succ_r. destruct l as [|x l]; [now rewrite !skipn_nil|]. apply IH.
Qed.

Lemma mem_spec c l : mem c l = true <-> In c l.
Proof.
  unfold mem. rewrite existsb_exists. split.
  - intros [x [Hx E]]. apply Z.eqb_eq in E. now subst.
  - intros H. exists c. split; [exact H|apply Z.eqb_refl].
Qed.
Lemma mem_false c l : mem c l = false <-> ~ In c l.
Proof. rewrite <- mem_spec. destruct (mem c l); split; congruence. Qed.

(** ** W monad *)

Lemma wbind_ret {A B} (a : A) (f : A -> W B) : wbind (wret a) f = f a.
Proof. unfold wbind, wret. destruct (f a). reflexivity. Qed.
Lemma wbind_lift_ok {A B} (a : A) (f : A -> W B) : wbind (wlift (Ok a)) f = f a.
Proof. unfold wbind, wlift. destruct (f a). reflexivity. Qed.
Lemma wbind_lift_raise {A B} e (f : A -> W B) : wbind (wlift (Raise e)) f = wraise e.
Proof. reflexivity. Qed.
Lemma wmap_ret {A B} (f : A -> B) a : wmap f (wret a) = wret (f a).
Proof. reflexivity. Qed.
