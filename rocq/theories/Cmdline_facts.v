(** Lemmas about the command line of the daemon. *)
From Coq Require Import List ZArith Bool String Lia.
From Verif Require Import Py Text Cbz Cmqttd Startup Spec_mqtt Spec_startup Mqtt_facts Cmdline Spec_cmdline.
Import ListNotations.
Open Scope Z_scope.

(** ** How written words are read *)

Lemma digits_number u ds : ds <> [] -> Forall (fun c => 48 <= c <= 57) ds -> negative_number u (45 :: ds) = true.
Proof.
  intros N F. unfold negative_number.
  assert (C : chop_newline ds = ds).
  { unfold chop_newline. destruct (rev ds) as [|c r] eqn:R; [reflexivity|].
    assert (I : In c ds) by (apply in_rev; rewrite R; now left). rewrite Forall_forall in F. specialize (F c I).
    destruct c as [|q|q]; try reflexivity. do 5 (destruct q as [q|q|]; try reflexivity; try lia). }
  rewrite C. assert (D : drop_while (re_digit u) ds = []).
  { clear N C. induction F as [|c ds H F IH]; [reflexivity|]. cbn [drop_while].
    assert (R : re_digit u c = true).
    { unfold re_digit. rewrite (proj2 (Z.ltb_lt c 127)) by lia. unfold is_digit. apply andb_true_iff. split; apply Z.leb_le; lia. }
    now rewrite R. }
  rewrite D. now destruct ds.
Qed.
Lemma value_kind u v : separate v ->
  text_eqb v (txt "--") = false /\ parse_optional u v = Some KArg.
Proof.
  intros [H|[->|(ds & -> & N & F)]]; [|split; reflexivity|].
  - destruct v as [|c v]; [split; reflexivity|].
    assert (N : (c =? 45) = false) by (apply Z.eqb_neq; intros ->; apply H; reflexivity).
    split; [|unfold parse_optional; rewrite N; reflexivity].
    apply text_eqb_neq. intros E. apply H. rewrite E. reflexivity.
  - pose proof (digits_number u ds N F) as G. destruct ds as [|d ds]; [now destruct N|]. clear N.
    apply Forall_inv in F. assert (D : d <> 45) by lia.
    assert (K : forall r, find_option (45 :: d :: r) option_strings = None).
    { intros r. destruct (find_option (45 :: d :: r) option_strings) as [o|] eqn:X; [|reflexivity]. exfalso.
      assert (I : forall l, find_option (45 :: d :: r) l = Some o -> exists e, In e l /\ nth 1 (fst e) 0 = d).
      { induction l as [|[n q] l IH]; [discriminate|]. cbn [find_option]. destruct (text_eqb n (45 :: d :: r)) eqn:Q.
        - intros _. apply text_eqb_eq in Q. exists (n, q). split; [now left|]. cbn [fst]. now rewrite Q.
        - intros Y. destruct (IH Y) as (e & E1 & E2). exists e. split; [now right|exact E2]. }
      destruct (I _ X) as (e & E1 & E2).
      assert (B : forallb (fun e => negb ((48 <=? nth 1 (fst e) 0) && (nth 1 (fst e) 0 <=? 57))) option_strings = true) by reflexivity.
      rewrite forallb_forall in B. specialize (B e E1). cbv beta in B. unfold text in E2. rewrite E2 in B.
      rewrite (proj2 (Z.leb_le 48 d)), (proj2 (Z.leb_le d 57)) in B by lia. discriminate. }
    split; [apply text_eqb_neq; intros E; inversion E; lia|].
    unfold parse_optional. cbn [Z.eqb Pos.eqb negb]. rewrite K.
    assert (Sp : match split_equals (45 :: d :: ds) with
       | Some (a, b) => match find_option a option_strings with Some o => Some (o, a, b) | None => None end
       | None => None end = None).
    { cbn [split_equals]. rewrite (proj2 (Z.eqb_neq 45 61)) by lia. rewrite (proj2 (Z.eqb_neq d 61)) by lia.
      destruct (split_equals ds) as [[a b]|]; [now rewrite K|reflexivity]. }
    rewrite Sp.
    assert (Ca : candidates (45 :: d :: ds) = []).
    { assert (X : candidates (45 :: d :: ds) = map (fun e => (snd e, fst e, false, Some ds))
          (filter (fun e => text_eqb (fst e) [45; d]) option_strings)).
      { unfold candidates. destruct d as [|q|q]; try reflexivity. do 6 (destruct q as [q|q|]; try reflexivity). contradiction. }
      rewrite X. assert (Y : filter (fun e => text_eqb (fst e) [45; d]) option_strings = []); [|now rewrite Y].
      specialize (K []). revert K. clear. induction option_strings as [|[n q] l IH]; [reflexivity|]. cbn [find_option filter fst].
      destruct (text_eqb n [45; d]); [discriminate|exact IH]. }
    rewrite Ca, G. reflexivity.
Qed.

(** [reads u ws l]: the words are classified as [l], whatever comes after. *)
Definition reads (u : unicode) (ws : list text) (l : list (text * kind)) : Prop :=
  forall rest l', classify u rest = Some l' -> classify u (ws ++ rest) = Some (l ++ l').

Lemma reads_one u w k : text_eqb w (txt "--") = false -> parse_optional u w = Some k ->
  reads u [w] [(w, k)].
Proof. intros N P rest l' E. cbn [app classify]. rewrite N, P, E. reflexivity. Qed.
Lemma reads_app u a b la lb : reads u a la -> reads u b lb -> reads u (a ++ b) (la ++ lb).
Proof. intros A B rest l' E. rewrite <- !app_assoc. apply A. apply B. exact E. Qed.

Lemma long_known u o x n : takes_value o x n \/ flag o x n ->
  reads u [txt "--" ++ txt n] [(txt "--" ++ txt n, KOption (Some o) (txt "--" ++ txt n) false None)].
Proof. intros [H|H]; destruct H; apply reads_one; reflexivity. Qed.
Lemma short_known u o x n : takes_value o (Some x) n \/ flag o (Some x) n ->
  reads u [txt "-" ++ txt x] [(txt "-" ++ txt x, KOption (Some o) (txt "-" ++ txt x) false None)].
Proof. intros [H|H]; inversion H; subst; apply reads_one; reflexivity. Qed.
Lemma long_equals u o x n v : takes_value o x n ->
  exists name, reads u [txt "--" ++ txt n ++ txt "=" ++ v]
    [(txt "--" ++ txt n ++ txt "=" ++ v, KOption (Some o) name true (Some v))].
Proof. intros H. exists (txt "--" ++ txt n). destruct H; apply reads_one; reflexivity. Qed.
Lemma short_equals u o x n v : takes_value o (Some x) n ->
  exists name, reads u [txt "-" ++ txt x ++ txt "=" ++ v]
    [(txt "-" ++ txt x ++ txt "=" ++ v, KOption (Some o) name true (Some v))].
Proof. intros H. exists (txt "-" ++ txt x). inversion H; subst; apply reads_one; reflexivity. Qed.
Lemma attached_kind u x c v o :
  x <> 45 -> c <> 61 -> find_option [45; x] option_strings = Some o ->
  filter (fun e => text_eqb (fst e) [45; x]) option_strings = [([45; x], o)] ->
  (forall s, find_option (45 :: x :: c :: s) option_strings = None) ->
  (x =? 61) = false ->
  parse_optional u (45 :: x :: c :: v) = Some (KOption (Some o) [45; x] false (Some (c :: v))).
Proof.
  intros Nx Nc F Fi No X. unfold parse_optional. cbn [Z.eqb Pos.eqb negb].
  rewrite No. cbn [split_equals Z.eqb Pos.eqb]. rewrite X.
  replace (c =? 61) with false by (symmetry; apply Z.eqb_neq; exact Nc).
  assert (C : forall (A : Type) (p q : A), match x with 45 => p | _ => q end = q).
  { intros A p q. destruct x as [|p0|p0]; try reflexivity.
    do 6 (destruct p0 as [p0|p0|]; try reflexivity). contradiction. }
  destruct (split_equals v) as [[a b]|]; rewrite ?No; unfold candidates; rewrite C, Fi; reflexivity.
Qed.
Lemma short_attached u o x n v : takes_value o (Some x) n -> v <> [] -> hd_error v <> Some 61 ->
  exists name, reads u [txt "-" ++ txt x ++ v] [(txt "-" ++ txt x ++ v, KOption (Some o) name false (Some v))].
Proof.
  intros H N E. destruct v as [|c v]; [contradiction|]. exists (txt "-" ++ txt x).
  assert (C : c <> 61) by (intros ->; apply E; reflexivity).
  inversion H; subst; (apply reads_one; [reflexivity|]);
    (apply attached_kind; [discriminate|exact C|reflexivity|reflexivity|reflexivity|reflexivity]).
Qed.

(** ** Abbreviations *)

Lemma find_in w l o : find_option w l = Some o -> In (w, o) l.
Proof.
  induction l as [|[n x] l IH]; intros L; [discriminate|]. cbn in L. destruct (text_eqb n w) eqn:E.
  - apply text_eqb_eq in E. subst. inversion L. left. reflexivity.
  - right. apply IH, L.
Qed.
Lemma option_no_equals w o : In (w, o) option_strings -> ~ In 61 w.
Proof.
  intros I J. assert (F : forallb (fun e => negb (existsb (Z.eqb 61) (fst e))) option_strings = true) by reflexivity.
  rewrite forallb_forall in F. specialize (F _ I). cbn [fst] in F. apply negb_true_iff in F.
  assert (T : existsb (Z.eqb 61) w = true); [|congruence]. apply existsb_exists. exists 61. split; [exact J|reflexivity].
Qed.
Lemma cut_equals a b : ~ In 61 a -> split_equals (a ++ 61 :: b) = Some (a, b).
Proof.
  induction a as [|c a IH]; intros N; [reflexivity|]. cbn [app split_equals].
  destruct (Z.eqb_spec c 61) as [->|_]; [exfalso; apply N; left; reflexivity|].
  rewrite IH by (intros I; apply N; right; exact I). reflexivity.
Qed.
Lemma no_equals w : ~ In 61 w -> split_equals w = None.
Proof.
  induction w as [|c w IH]; intros N; [reflexivity|]. cbn [split_equals].
  destruct (Z.eqb_spec c 61) as [->|_]; [exfalso; apply N; left; reflexivity|].
  rewrite IH by (intros I; apply N; right; exact I). reflexivity.
Qed.
Lemma long_option w o c a : In (w, o) option_strings -> starts_with (txt "--" ++ c :: a) w = true ->
  exists n, w = txt "--" ++ txt n /\ long_name n.
Proof.
  intros I S. cbn [option_strings In] in I.
  repeat (destruct I as [I|I];
    [apply pair_equal_spec in I; destruct I as (Iw & Io); subst w; first [discriminate S
       |exists "help"%string; split; [reflexivity|left; reflexivity]
       |eexists; split; [|right; exists o; eexists; rewrite <- Io; first [left; constructor|right; constructor]]; reflexivity]|]).
  destruct I.
Qed.
Lemma abbreviated_option a n w o : abbreviates a n -> In (w, o) option_strings ->
  starts_with (txt "--" ++ a) w = true -> w = txt "--" ++ txt n.
Proof.
  intros (Na & _ & U) I S. destruct a as [|c a]; [contradiction|].
  destruct (long_option w o c a I S) as (n' & -> & L). apply starts_with_spec in S. destruct S as (r & S).
  rewrite <- app_assoc in S. apply app_inv_head in S. rewrite (U n' L); [reflexivity|exists r; exact S].
Qed.
Lemma abbreviated_kind u o x n a v : takes_value o x n \/ flag o x n -> abbreviates a n ->
  exists name,
    reads u [txt "--" ++ a] [(txt "--" ++ a, KOption (Some o) name false None)]
    /\ reads u [txt "--" ++ a ++ txt "=" ++ v] [(txt "--" ++ a ++ txt "=" ++ v, KOption (Some o) name true (Some v))].
Proof.
  intros T A.
  assert (Ll : find_option (txt "--" ++ txt n) option_strings = Some o) by (destruct T as [T|T]; destruct T; reflexivity).
  assert (Fo : filter (fun e => text_eqb (fst e) (txt "--" ++ txt n)) option_strings = [(txt "--" ++ txt n, o)])
    by (destruct T as [T|T]; destruct T; reflexivity).
  assert (N : ~ In 61 (txt "--" ++ a)).
  { intros H. apply (option_no_equals _ _ (find_in _ _ _ Ll)). destruct A as (_ & (r & ->) & _).
    rewrite app_assoc. apply in_or_app. left. exact H. }
  assert (Wn : find_option (txt "--" ++ a ++ txt "=" ++ v) option_strings = None).
  { destruct (find_option (txt "--" ++ a ++ txt "=" ++ v) option_strings) as [y|] eqn:K; [|reflexivity].
    exfalso. apply (option_no_equals _ _ (find_in _ _ _ K)). apply in_or_app. right. apply in_or_app. right. left. reflexivity. }
  assert (Sp : split_equals (txt "--" ++ a ++ txt "=" ++ v) = Some (txt "--" ++ a, v)).
  { rewrite app_assoc. apply (cut_equals (txt "--" ++ a) v N). }
  assert (Fi : filter (fun e => starts_with (txt "--" ++ a) (fst e)) option_strings = [(txt "--" ++ txt n, o)]).
  { etransitivity; [|exact Fo]. apply filter_ext_in. intros [w y] M. cbn [fst].
    destruct (starts_with (txt "--" ++ a) w) eqn:S.
    - rewrite (abbreviated_option a n w y A M S). symmetry. apply text_eqb_eq. reflexivity.
    - symmetry. apply text_eqb_neq. intros ->. destruct A as (_ & (r & E) & _).
      assert (X : starts_with (txt "--" ++ a) (txt "--" ++ txt n) = true); [|congruence].
      apply starts_with_spec. exists r. rewrite E. apply app_assoc. }
  assert (Na : a <> []) by apply A. destruct a as [|c a]; [contradiction|].
  remember option_strings as os eqn:Os.
  destruct (find_option (txt "--" ++ c :: a) os) as [d|] eqn:K.
  - assert (E : txt "--" ++ c :: a = txt "--" ++ txt n).
    { subst os. apply (abbreviated_option (c :: a) n _ d A (find_in _ _ _ K)). apply starts_with_spec. exists []. symmetry. apply app_nil_r. }
    exists (txt "--" ++ c :: a). assert (D : d = o) by (rewrite E, Ll in K; inversion K; reflexivity). subst d.
    split; (apply reads_one; [reflexivity|]); unfold parse_optional;
      change (txt "--" ++ c :: a) with (45 :: 45 :: c :: a) in *;
      change (txt "--" ++ (c :: a) ++ txt "=" ++ v) with (45 :: 45 :: c :: a ++ 61 :: v) in *;
      rewrite <- Os; cbn [Z.eqb Pos.eqb negb]; rewrite ?Wn, ?Sp, K; reflexivity.
  - exists (txt "--" ++ txt n).
    split; (apply reads_one; [reflexivity|]); unfold parse_optional;
      change (txt "--" ++ c :: a) with (45 :: 45 :: c :: a) in *;
      change (txt "--" ++ (c :: a) ++ txt "=" ++ v) with (45 :: 45 :: c :: a ++ 61 :: v) in *;
      rewrite <- Os; cbn [Z.eqb Pos.eqb negb].
    + rewrite K, (no_equals _ N). unfold candidates. rewrite (no_equals _ N), <- Os, Fi. reflexivity.
    + rewrite Wn, Sp, K. unfold candidates. rewrite Sp, <- Os, Fi. reflexivity.
Qed.

Lemma long_listed n : long_name n -> exists o, In (txt "--" ++ txt n, o) option_strings.
Proof.
  intros [->|(o & x & [T|T])]; [exists OHelp; apply find_in; reflexivity| |]; exists o; destruct T; apply find_in; reflexivity.
Qed.
Lemma txt_inj a : forall b, txt a = txt b -> a = b.
Proof.
  induction a as [|c a IH]; intros [|d b] E; try discriminate; [reflexivity|].
  cbn in E. inversion E as [[H1 H2]]. f_equal; [|apply IH; exact H2].
  rewrite <- (Ascii.ascii_N_embedding c), <- (Ascii.ascii_N_embedding d). f_equal. lia.
Qed.
Lemma ambiguous_kind u w : ambiguous w -> text_eqb w (txt "--") = false /\ parse_optional u w = None.
Proof.
  intros (a & n1 & n2 & Na & L1 & L2 & D & P1 & P2 & U & W).
  destruct (long_listed n1 L1) as (o1 & I1). destruct (long_listed n2 L2) as (o2 & I2).
  assert (N : ~ In 61 (txt "--" ++ a)).
  { intros H. apply (option_no_equals _ _ I1). destruct P1 as (r & ->). rewrite app_assoc. apply in_or_app. left. exact H. }
  assert (K : find_option (txt "--" ++ a) option_strings = None).
  { destruct (find_option (txt "--" ++ a) option_strings) as [o|] eqn:K; [|reflexivity]. exfalso. destruct a as [|c a]; [contradiction|].
    destruct (long_option _ o c a (find_in _ _ _ K)) as (n & E & L).
    { apply starts_with_spec. exists []. symmetry. apply app_nil_r. }
    apply app_inv_head in E. apply (U n L). symmetry. exact E. }
  assert (Wn : forall v, find_option (txt "--" ++ a ++ txt "=" ++ v) option_strings = None).
  { intros v. destruct (find_option (txt "--" ++ a ++ txt "=" ++ v) option_strings) as [y|] eqn:X; [|reflexivity].
    exfalso. apply (option_no_equals _ _ (find_in _ _ _ X)). apply in_or_app. right. apply in_or_app. right. left. reflexivity. }
  assert (Sp : forall v, split_equals (txt "--" ++ a ++ txt "=" ++ v) = Some (txt "--" ++ a, v)).
  { intros v. rewrite app_assoc. apply (cut_equals (txt "--" ++ a) v N). }
  assert (Fi : exists x y l, filter (fun e => starts_with (txt "--" ++ a) (fst e)) option_strings = x :: y :: l).
  { assert (J : forall n o, In (txt "--" ++ txt n, o) option_strings -> (exists r, txt n = a ++ r) ->
                In (txt "--" ++ txt n, o) (filter (fun e => starts_with (txt "--" ++ a) (fst e)) option_strings)).
    { intros n o I (r & E). apply filter_In. split; [exact I|]. cbn [fst]. apply starts_with_spec. exists r. rewrite E. apply app_assoc. }
    pose proof (J n1 o1 I1 P1) as J1. pose proof (J n2 o2 I2 P2) as J2.
    destruct (filter (fun e => starts_with (txt "--" ++ a) (fst e)) option_strings) as [|x [|y l]]; [destruct J1| |eauto].
    exfalso. destruct J1 as [J1|[]]. destruct J2 as [J2|[]]. rewrite J1 in J2. apply (f_equal fst) in J2. cbn [fst] in J2.
    apply app_inv_head in J2. apply D. apply txt_inj. exact J2. }
  destruct Fi as (x & y & l & Fi). destruct a as [|c a]; [contradiction|].
  remember option_strings as os eqn:Os. destruct W as [->|(v & ->)]; (split; [reflexivity|]); unfold parse_optional;
    [|specialize (Wn v); specialize (Sp v)];
    change (txt "--" ++ c :: a) with (45 :: 45 :: c :: a) in *;
    try change (txt "--" ++ (c :: a) ++ txt "=" ++ v) with (45 :: 45 :: c :: a ++ 61 :: v) in *;
    rewrite <- Os; cbn [Z.eqb Pos.eqb negb].
  - rewrite K, (no_equals _ N). unfold candidates. rewrite (no_equals _ N), <- Os, Fi. destruct x, y. reflexivity.
  - rewrite Wn, Sp, K. unfold candidates. rewrite Sp, <- Os, Fi. destruct x, y. reflexivity.
Qed.

(** ** Carrying out settings *)

Definition apply_setting (u : unicode) (fs : files) (s : setting) (n : namespace) : option namespace :=
  match s with Value o v => store u fs o v n | Flag o => raise_flag o n end.
Fixpoint run (u : unicode) (fs : files) (ss : list setting) (n : namespace) : option namespace :=
  match ss with
  | [] => Some n
  | s :: ss' => match apply_setting u fs s n with Some n' => run u fs ss' n' | None => None end
  end.

Definition known (ss : list setting) : Prop :=
  Forall (fun s => match s with Value o _ => exists x n, takes_value o x n
                              | Flag o => exists x n, flag o x n end) ss.

Lemma value_flag o x n : takes_value o x n -> is_flag o = false.
Proof. destruct 1; reflexivity. Qed.
Lemma flag_flag o x n : flag o x n ->
  is_flag o = true /\ forall m, exists m', raise_flag o m = Some m'.
Proof. destruct 1; (split; [reflexivity|]); intros []; eexists; reflexivity. Qed.

Lemma consume_setting u fs s ws : writes s ws ->
  known [s] /\ exists l, reads u ws l /\ forall l' n,
    consume u fs (l ++ l') false n
    = match apply_setting u fs s n with Some n' => consume u fs l' false n' | None => Refused end.
Proof.
  intros H. destruct H as [o x n v T N|o x n v T N|o x n v T|o x n v T|o x n v T N E|o x n F|o x n F|o x n a v T A N|o x n a v T A|o x n a F A].
  all: match goal with
       | T : takes_value _ _ _ |- _ =>
           pose proof (value_flag _ _ _ T) as NF; split; [constructor; [eexists; eexists; exact T|constructor]|]
       | F : flag _ _ _ |- _ =>
           destruct (flag_flag _ _ _ F) as (IF & R); split; [constructor; [eexists; eexists; exact F|constructor]|]
       end.
  - destruct (value_kind u v N) as (N1 & P).
    eexists. split; [exact (reads_app u [_] [v] _ _ (long_known u o x n (or_introl T)) (reads_one u v _ N1 P))|].
    intros l' m. cbn [app consume option_of]. rewrite NF. reflexivity.
  - destruct (value_kind u v N) as (N1 & P).
    eexists. split; [exact (reads_app u [_] [v] _ _ (short_known u o x n (or_introl T)) (reads_one u v _ N1 P))|].
    intros l' m. cbn [app consume option_of]. rewrite NF. reflexivity.
  - destruct (long_equals u o x n v T) as (name & Rd). eexists. split; [exact Rd|].
    intros l' m. cbn [app consume option_of].
    destruct v; cbn [unfold_cluster]; rewrite NF; rewrite NF; reflexivity.
  - destruct (short_equals u o x n v T) as (name & Rd). eexists. split; [exact Rd|].
    intros l' m. cbn [app consume option_of].
    destruct v; cbn [unfold_cluster]; rewrite NF; rewrite NF; reflexivity.
  - destruct (short_attached u o x n v T N E) as (name & Rd). eexists. split; [exact Rd|].
    intros l' m. cbn [app consume option_of].
    destruct v; cbn [unfold_cluster]; rewrite NF; rewrite NF; reflexivity.
  - eexists. split; [exact (long_known u o x n (or_intror F))|].
    intros l' m. cbn [app consume option_of]. rewrite IF. cbn [app raise_flags apply_setting].
    destruct (R m) as (m' & ->). reflexivity.
  - eexists. split; [exact (short_known u o x n (or_intror F))|].
    intros l' m. cbn [app consume option_of]. rewrite IF. cbn [app raise_flags apply_setting].
    destruct (R m) as (m' & ->). reflexivity.
  - destruct (value_kind u v N) as (N1 & P). destruct (abbreviated_kind u o x n a [] (or_introl T) A) as (name & Rd & _).
    eexists. split; [exact (reads_app u [_] [v] _ _ Rd (reads_one u v _ N1 P))|].
    intros l' m. cbn [app consume option_of]. rewrite NF. reflexivity.
  - destruct (abbreviated_kind u o x n a v (or_introl T) A) as (name & _ & Rd). eexists. split; [exact Rd|].
    intros l' m. cbn [app consume option_of].
    destruct v; cbn [unfold_cluster]; rewrite NF; rewrite NF; reflexivity.
  - destruct (abbreviated_kind u o x n a [] (or_intror F) A) as (name & Rd & _). eexists. split; [exact Rd|].
    intros l' m. cbn [app consume option_of]. rewrite IF. cbn [app raise_flags apply_setting].
    destruct (R m) as (m' & ->). reflexivity.
Qed.

Lemma run_app u fs a b n : run u fs (a ++ b) n
  = match run u fs a n with Some n' => run u fs b n' | None => None end.
Proof.
  revert n. induction a as [|s a IH]; intros n; [reflexivity|]. cbn [app run].
  destruct (apply_setting u fs s n); [apply IH|reflexivity].
Qed.

Lemma follows_head ts t ws k c r : follows ts t ws -> repeat 67 k ++ t = c :: r -> (c =? 61) = false.
Proof.
  intros F. destruct k as [|k]; cbn [repeat app]; intros E; [|inversion E; reflexivity].
  destruct F as [|o x n v T _|o x n v T|o x n v T _ _]; [discriminate| | |]; inversion T; subst; inversion E; reflexivity.
Qed.
Lemma follows_nil ts t ws : follows ts t ws -> t = [] -> ts = [] /\ ws = [].
Proof.
  intros F. destruct F as [|o x n v T S|o x n v T|o x n v T V Q]; [auto| | |]; inversion T; discriminate.
Qed.
Lemma follows_unfold ts t ws : follows ts t ws -> forall k, repeat 67 k ++ t <> [] ->
  exists last e, unfold_cluster ONoClock false false (repeat 67 k ++ t)
                 = Cluster (match ts with [] => repeat ONoClock k | _ => ONoClock :: repeat ONoClock k end) last e
    /\ ((ts = [] /\ last = ONoClock /\ e = None)
        \/ exists v, ts = [Value last v] /\ is_flag last = false
             /\ (e = Some v /\ ws = [] \/ e = None /\ ws = [v] /\ separate v)).
Proof.
  intros F. induction k as [|k IH]; intros N.
  - cbn [repeat app] in *. destruct F as [|o x n v T S|o x n v T|o x n v T V Q]; [contradiction| | |]; exists o.
    + exists None. split; [inversion T; reflexivity|]. right. exists v. split; [reflexivity|].
      split; [exact (value_flag _ _ _ T)|]. right. auto.
    + exists (Some v). split; [inversion T; destruct v; reflexivity|]. right. exists v. split; [reflexivity|].
      split; [exact (value_flag _ _ _ T)|]. left. auto.
    + exists (Some v). split; [|right; exists v; split; [reflexivity|]; split; [exact (value_flag _ _ _ T)|]; left; auto].
      destruct v as [|c v]; [contradiction|].
      assert (C : (c =? 61) = false) by (apply Z.eqb_neq; intros ->; apply Q; reflexivity).
      inversion T; subst; cbn -[Z.eqb]; rewrite C; reflexivity.
  - cbn [repeat app]. change (unfold_cluster ONoClock false false (67 :: repeat 67 k ++ t)) with
      (prepend ONoClock match repeat 67 k ++ t with
                        | [] => Cluster [] ONoClock None
                        | d :: x'' => if d =? 61 then unfold_cluster ONoClock false true x''
                                      else unfold_cluster ONoClock false false (repeat 67 k ++ t)
                        end).
    destruct (repeat 67 k ++ t) as [|d r] eqn:E.
    + exists ONoClock, None. destruct k as [|k]; [|discriminate]. cbn in E.
      destruct (follows_nil _ _ _ F E) as (-> & _). split; [reflexivity|left; auto].
    + rewrite (follows_head _ _ _ _ _ _ F E). destruct IH as (last & e & H & R); [discriminate|].
      exists last, e. rewrite H. split; [destruct ts; reflexivity|exact R].
Qed.
Lemma raise_clocks k n : exists n', raise_flags (repeat ONoClock k) n = Some n'
  /\ forall u fs, run u fs (repeat (Flag ONoClock) k) n = Some n'.
Proof.
  revert n. induction k as [|k IH]; intros n; [exists n; split; reflexivity|].
  cbn [repeat raise_flags run apply_setting]. destruct (flag_flag _ _ _ m_clock) as (_ & R).
  destruct (R n) as (m & ->). apply IH.
Qed.
Lemma consume_together u fs k ts t ws : follows ts t ws ->
  known (Flag ONoClock :: repeat (Flag ONoClock) k ++ ts)
  /\ exists l, reads u ((txt "-C" ++ repeat 67 k ++ t) :: ws) l /\ forall l' n,
    consume u fs (l ++ l') false n
    = match run u fs (Flag ONoClock :: repeat (Flag ONoClock) k ++ ts) n with
      | Some n' => consume u fs l' false n' | None => Refused end.
Proof.
  intros F. assert (KC : exists x n, flag ONoClock x n) by (eexists; eexists; exact m_clock). split.
  { constructor; [exact KC|]. apply Forall_app. split; [induction k; constructor; auto|].
    destruct F as [|o x n v T _|o x n v T|o x n v T _ _]; constructor; try constructor; eexists; eexists; exact T. }
  change (Flag ONoClock :: repeat (Flag ONoClock) k ++ ts) with (repeat (Flag ONoClock) (S k) ++ ts).
  destruct (repeat 67 k ++ t) as [|c r] eqn:E.
  - destruct k as [|k]; [|discriminate]. cbn in E. destruct (follows_nil _ _ _ F E) as (-> & ->).
    eexists. split; [exact (short_known u ONoClock "C" "no-clock" (or_intror m_clock))|].
    intros l' n. destruct n. reflexivity.
  - pose proof (follows_head _ _ _ _ _ _ F E) as C.
    assert (Rd : reads u [txt "-C" ++ c :: r] [(txt "-C" ++ c :: r, KOption (Some ONoClock) [45; 67] false (Some (c :: r)))]).
    { apply reads_one; [reflexivity|].
      apply attached_kind; [discriminate|apply Z.eqb_neq; exact C|reflexivity|reflexivity|reflexivity|reflexivity]. }
    destruct (follows_unfold ts t ws F k) as (last & e & U & R); [rewrite E; discriminate|]. rewrite E in U.
    destruct R as [(-> & -> & ->)|(v & -> & NF & R)].
    + assert (W : ws = []) by (inversion F; reflexivity). subst ws. eexists. split; [exact Rd|]. intros l' n.
      cbn [app consume option_of is_long Z.eqb Pos.eqb]. rewrite U. cbn [is_flag]. rewrite app_nil_r.
      replace (repeat ONoClock k ++ [ONoClock]) with (repeat ONoClock (S k)) by (cbn [repeat]; apply repeat_cons).
      destruct (raise_clocks (S k) n) as (m & -> & ->). reflexivity.
    + assert (RC : forall n, run u fs (repeat (Flag ONoClock) (S k) ++ [Value last v]) n
                   = match raise_flags (repeat ONoClock (S k)) n with Some m => store u fs last v m | None => None end).
      { intros n. rewrite run_app. destruct (raise_clocks (S k) n) as (m & -> & ->). cbn [run apply_setting].
        destruct (store u fs last v m); reflexivity. }
      change (ONoClock :: repeat ONoClock k) with (repeat ONoClock (S k)) in U.
      destruct R as [(-> & ->)|(-> & -> & Sv)].
      * eexists. split; [exact Rd|]. intros l' n. rewrite RC.
        cbn [app consume option_of is_long Z.eqb Pos.eqb]. rewrite U, NF.
        destruct (raise_clocks (S k) n) as (m & -> & _). destruct (store u fs last v m); reflexivity.
      * destruct (value_kind u v Sv) as (N1 & P).
        eexists. split; [exact (reads_app u [_] [v] _ _ Rd (reads_one u v _ N1 P))|]. intros l' n. rewrite RC.
        cbn [app consume option_of is_long Z.eqb Pos.eqb]. rewrite U, NF.
        destruct (raise_clocks (S k) n) as (m & -> & _). destruct (store u fs last v m); reflexivity.
Qed.

Lemma consume_line u fs ss ws : command_line ss ws ->
  known ss /\ exists l, classify u ws = Some l /\ forall n,
    consume u fs l false n
    = match run u fs ss n with Some n' => consume u fs [] false n' | None => Refused end.
Proof.
  induction 1 as [|s ws ss rest W _ (K & l & C & R)|k ts t ws ss rest F _ (K & l & C & R)].
  - split; [constructor|]. exists []. split; [reflexivity|]. reflexivity.
  - destruct (consume_setting u fs s ws W) as (K1 & l1 & Rd & C1).
    split; [inversion K1; constructor; assumption|].
    exists (l1 ++ l). split; [apply Rd; exact C|]. intros n. rewrite C1. cbn [run].
    destruct (apply_setting u fs s n); [apply R|reflexivity].
  - destruct (consume_together u fs k ts t ws F) as (K1 & l1 & Rd & C1).
    split; [apply Forall_app; split; assumption|].
    exists (l1 ++ l). split; [apply Rd; exact C|]. intros n. rewrite C1, run_app.
    destruct (run u fs (Flag ONoClock :: repeat (Flag ONoClock) k ++ ts) n); [apply R|reflexivity].
Qed.

(** ** The namespace of settings *)

Definition opt_eqb (a b : opt) : bool :=
  match a, b with
  | OHelp, OHelp | OLog, OLog | OVerbosity, OVerbosity | OAddress, OAddress | OPort, OPort
  | OKeepalive, OKeepalive | ODisableTls, ODisableTls | OAuth, OAuth | OCa, OCa | OCert, OCert
  | OKey, OKey | OSerial, OSerial | OTcp, OTcp | OTimesync, OTimesync | ONoClock, ONoClock
  | OProject, OProject => true
  | _, _ => false
  end.
Lemma opt_eqb_eq a b : opt_eqb a b = true <-> a = b.
Proof. split; [destruct a, b; (reflexivity || discriminate)|intros ->; destruct b; reflexivity]. Qed.

Definition step_last (o : opt) (acc : option text) (s : setting) : option text :=
  match s with Value p v => if opt_eqb o p then Some v else acc | Flag _ => acc end.
Definition lastv (o : opt) (ss : list setting) : option text := fold_left (step_last o) ss None.
Lemma lastv_snoc o ss s : lastv o (ss ++ [s]) = step_last o (lastv o ss) s.
Proof. unfold lastv. rewrite fold_left_app. reflexivity. Qed.

Lemma lastv_spec o ss x : last_value o ss x <-> lastv o ss = x.
Proof.
  revert x. induction ss as [|s ss IH] using rev_ind; intros x.
  - split.
    + intros H. inversion H as [? N E|a v b N E]; subst; [reflexivity|]. destruct a; discriminate.
    + intros <-. constructor. intros v [].
  - rewrite lastv_snoc. split.
    + intros H. inversion H as [? N E1 E2|a v b N E1 E2]; subst.
      * assert (L : last_value o ss None).
        { constructor. intros v I. apply (N v). apply in_or_app. auto. }
        apply IH in L. rewrite L. destruct s as [p v|p]; cbn; [|reflexivity].
        destruct (opt_eqb o p) eqn:E; [|reflexivity]. apply opt_eqb_eq in E. subst p.
        exfalso. apply (N v). apply in_or_app. right. left. reflexivity.
      * destruct b as [|t b] using rev_ind.
        -- apply app_inj_tail in E1. destruct E1 as [-> <-]. cbn.
           replace (opt_eqb o o) with true by (symmetry; apply opt_eqb_eq; reflexivity). reflexivity.
        -- clear IHb. rewrite app_comm_cons, app_assoc in E1. apply app_inj_tail in E1.
           destruct E1 as [<- <-].
           assert (L : last_value o (a ++ Value o v :: b) (Some v)).
           { constructor. intros v' I. apply (N v'). apply in_or_app. auto. }
           apply IH in L. rewrite L. destruct t as [p w|p]; cbn; [|reflexivity].
           destruct (opt_eqb o p) eqn:E; [|reflexivity]. apply opt_eqb_eq in E. subst p.
           exfalso. apply (N w). apply in_or_app. right. left. reflexivity.
    + intros <-. destruct s as [p v|p]; cbn.
      * destruct (opt_eqb o p) eqn:E.
        -- apply opt_eqb_eq in E. subst p. constructor. intros v' [].
        -- assert (Np : forall w, ~ In (Value o w) [Value p v]).
           { intros w [I|[]]. inversion I; subst. rewrite (proj2 (opt_eqb_eq o o) eq_refl) in E. discriminate. }
           pose proof (proj2 (IH (lastv o ss)) eq_refl) as L. inversion L as [? N E1 E2|a w b N E1 E2].
           ++ constructor. intros w I. apply in_app_or in I. destruct I as [I|I]; [apply (N w I)|apply (Np w I)].
           ++ rewrite <- app_assoc. cbn. apply lv_some. intros w' I. apply in_app_or in I.
              destruct I as [I|I]; [apply (N w' I)|apply (Np w' I)].
      * assert (Np : forall w, ~ In (Value o w) [Flag p]) by (intros w [I|[]]; discriminate).
        pose proof (proj2 (IH (lastv o ss)) eq_refl) as L. inversion L as [? N E1 E2|a w b N E1 E2].
        -- constructor. intros w I. apply in_app_or in I. destruct I as [I|I]; [apply (N w I)|apply (Np w I)].
        -- rewrite <- app_assoc. cbn. apply lv_some. intros w' I. apply in_app_or in I.
           destruct I as [I|I]; [apply (N w' I)|apply (Np w' I)].
Qed.

Definition num (u : unicode) (default : Z) (x : option text) : Z :=
  match x with
  | None => default
  | Some v => match py_int_of_text u v with Ok z => z | Raise _ => default end
  end.
Definition has_flag (o : opt) (ss : list setting) : bool :=
  existsb (fun s => match s with Flag p => opt_eqb o p | Value _ _ => false end) ss.
Lemma has_flag_spec o ss : has_flag o ss = true <-> In (Flag o) ss.
Proof.
  unfold has_flag. rewrite existsb_exists. split.
  - intros ([p v|p] & I & E); [discriminate|]. apply opt_eqb_eq in E. subst. exact I.
  - intros I. exists (Flag o). split; [exact I|]. apply opt_eqb_eq. reflexivity.
Qed.

Definition ns_of (u : unicode) (fs : files) (ss : list setting) : namespace :=
  mkNamespace (lastv OLog ss)
    (match lastv OVerbosity ss with Some v => v | None => txt "INFO" end)
    (lastv OAddress ss) (num u 0 (lastv OPort ss)) (num u 60 (lastv OKeepalive ss))
    (has_flag ODisableTls ss)
    (match lastv OAuth ss with Some v => read_text fs v | None => None end)
    (lastv OCa ss) (lastv OCert ss) (lastv OKey ss) (lastv OSerial ss) (lastv OTcp ss)
    (num u 300 (lastv OTimesync ss)) (has_flag ONoClock ss)
    (match lastv OProject ss with Some v => read_binary fs v | None => None end).

Definition is_some {A} (x : option A) : bool := match x with Some _ => true | None => false end.
Definition is_ok {A} (x : res A) : bool := match x with Ok _ => true | Raise _ => false end.
Definition goodb (u : unicode) (fs : files) (s : setting) : bool :=
  match s with
  | Value OPort v | Value OKeepalive v | Value OTimesync v => is_ok (py_int_of_text u v)
  | Value OAuth v => is_some (read_text fs v)
  | Value OProject v => is_some (read_binary fs v)
  | Value OVerbosity v => existsb (text_eqb v) levels
  | _ => true
  end.
Lemma int_ok u v : is_ok (py_int_of_text u v) = true <-> exists z, int_text u v z.
Proof.
  split.
  - destruct (py_int_of_text u v) as [z|] eqn:E; [|discriminate]. intros _. exists z. apply int_reads. exact E.
  - intros (z & I). apply int_reads in I. rewrite I. reflexivity.
Qed.
Lemma some_not_none {A} (x : option A) : is_some x = true <-> x <> None.
Proof. destruct x; cbn; intuition (try discriminate; try congruence). Qed.
Lemma goodb_spec u fs s : goodb u fs s = true <-> good_value u fs s.
Proof.
  destruct s as [[] v|[]]; cbn [goodb good_value];
    try apply int_ok; try apply some_not_none; try (split; auto; fail).
  rewrite existsb_exists. unfold levels. split.
  - intros (x & I & E). apply text_eqb_eq in E. subst x. cbn in *. intuition.
  - intros I. exists v. split; [cbn in *; intuition|]. apply text_eqb_eq. reflexivity.
Qed.

Definition conflict (ss : list setting) : bool := is_some (lastv OSerial ss) && is_some (lastv OTcp ss).

Lemma has_flag_snoc o ss s : has_flag o (ss ++ [s])
  = has_flag o ss || match s with Flag p => opt_eqb o p | Value _ _ => false end.
Proof. unfold has_flag. rewrite existsb_app. cbn. rewrite orb_false_r. reflexivity. Qed.
Lemma conflict_grows ss s : conflict ss = true -> conflict (ss ++ [s]) = true.
Proof.
  unfold conflict. rewrite !lastv_snoc. intros H. apply andb_true_iff in H. destruct H as [A B].
  destruct s as [p v|p]; cbn [step_last]; [|rewrite A, B; reflexivity].
  destruct (opt_eqb OSerial p), (opt_eqb OTcp p); cbn [is_some]; rewrite ?A, ?B; reflexivity.
Qed.

Lemma run_settings u fs ss : known ss ->
  run u fs ss defaults
  = if forallb (goodb u fs) ss && negb (conflict ss) then Some (ns_of u fs ss) else None.
Proof.
  induction ss as [|s ss IH] using rev_ind; intros K; [reflexivity|].
  unfold known in *. apply Forall_app in K. destruct K as [K Ks]. inversion Ks as [|? ? Hs _]; subst. clear Ks.
  rewrite run_app, (IH K), forallb_app. cbn [forallb]. rewrite andb_true_r. clear IH K.
  destruct (forallb (goodb u fs) ss); cbn [andb]; [|reflexivity].
  destruct (conflict ss) eqn:C; cbn [negb].
  { rewrite (conflict_grows _ _ C), andb_false_r. reflexivity. }
  unfold conflict in *. cbn [run].
  unfold ns_of. rewrite !lastv_snoc, !has_flag_snoc.
  destruct s as [p v|p].
  - destruct Hs as (x & n & T).
    destruct T; cbn [step_last opt_eqb goodb apply_setting store is_some];
      rewrite ?C, ?orb_false_r, ?andb_true_r, ?andb_false_r; cbn [andb negb num];
      try reflexivity.
    + destruct (existsb (text_eqb v) levels); reflexivity.
    + destruct (py_int_of_text u v); reflexivity.
    + destruct (py_int_of_text u v); reflexivity.
    + destruct (read_text fs v); reflexivity.
    + destruct (lastv OTcp ss); reflexivity.
    + destruct (lastv OSerial ss); reflexivity.
    + destruct (py_int_of_text u v); reflexivity.
    + destruct (read_binary fs v); reflexivity.
  - destruct Hs as (x & n & F).
    destruct F; cbn [step_last opt_eqb goodb apply_setting raise_flag is_some];
      rewrite ?C, ?orb_false_r, ?orb_true_r; reflexivity.
Qed.

Lemma int_value_num u ss o d z : (forall v, lastv o ss = Some v -> exists z, int_text u v z) ->
  (int_value u ss o d z <-> z = num u d (lastv o ss)).
Proof.
  intros G. unfold int_value. split.
  - intros (x & L & E). apply lastv_spec in L. rewrite L. destruct x as [v|]; [|exact E].
    cbn. apply int_reads in E. rewrite E. reflexivity.
  - intros ->. exists (lastv o ss). split; [apply lastv_spec; reflexivity|].
    destruct (lastv o ss) as [v|] eqn:L; [|reflexivity]. destruct (G v eq_refl) as (z & I).
    cbn. pose proof I as J. apply int_reads in J. rewrite J. exact I.
Qed.
Lemma lastv_in o ss v : lastv o ss = Some v -> In (Value o v) ss.
Proof.
  intros H. apply lastv_spec in H. inversion H as [|a w b N E]; subst.
  apply in_or_app. right. left. reflexivity.
Qed.

Lemma asked_ns u fs ss n : asked u fs ss n <-> Forall (good_value u fs) ss /\ n = ns_of u fs ss.
Proof.
  assert (GI : Forall (good_value u fs) ss -> forall o v, o = OPort \/ o = OKeepalive \/ o = OTimesync ->
            lastv o ss = Some v -> exists z, int_text u v z).
  { intros G o v O L. apply lastv_in in L. rewrite Forall_forall in G. specialize (G _ L).
    destruct O as [->|[->| ->]]; exact G. }
  assert (B : forall b o, (b = true <-> In (Flag o) ss) <-> b = has_flag o ss).
  { intros b o. rewrite <- has_flag_spec. destruct b, (has_flag o ss); intuition congruence. }
  assert (X : forall (A : Type) o (f : option text -> A) y,
            (exists x, last_value o ss x /\ y = f x) <-> y = f (lastv o ss)).
  { intros A o f y. split.
    - intros (x & L & ->). apply lastv_spec in L. rewrite L. reflexivity.
    - intros ->. exists (lastv o ss). split; [apply lastv_spec; reflexivity|reflexivity]. }
  unfold asked. split.
  - intros (G & A1 & A2 & A3 & A4 & A5 & A6 & A7 & A8 & A9 & A10 & A11 & A12 & A13 & A14 & A15).
    split; [exact G|]. destruct n. cbn in *. unfold ns_of.
    rewrite lastv_spec in A1, A3, A8, A9, A10, A11, A12.
    rewrite int_value_num in A4 by (intros v L; apply (GI G OPort v); auto).
    rewrite int_value_num in A5 by (intros v L; apply (GI G OKeepalive v); auto).
    rewrite int_value_num in A13 by (intros v L; apply (GI G OTimesync v); auto).
    rewrite B in A6, A14.
    apply (X _ OVerbosity (fun x => match x with Some v => v | None => txt "INFO" end)) in A2.
    apply (X _ OAuth (fun x => match x with Some v => read_text fs v | None => None end)) in A7.
    apply (X _ OProject (fun x => match x with Some v => read_binary fs v | None => None end)) in A15.
    clear G GI X B. subst. reflexivity.
  - intros (G & ->). split; [exact G|]. cbn [n_log n_verbosity n_address n_port n_keepalive n_disable_tls n_auth
      n_ca n_cert n_key n_serial n_tcp n_timesync n_no_clock n_project ns_of].
    rewrite !lastv_spec, !B.
    rewrite (int_value_num u ss OPort 0) by (intros v L; apply (GI G OPort v); auto).
    rewrite (int_value_num u ss OKeepalive 60) by (intros v L; apply (GI G OKeepalive v); auto).
    rewrite (int_value_num u ss OTimesync 300) by (intros v L; apply (GI G OTimesync v); auto).
    assert (Y : forall (A : Type) o (f : option text -> A),
              exists x, last_value o ss x /\ f (lastv o ss) = f x)
      by (intros A o f; exists (lastv o ss); split; [apply lastv_spec|]; reflexivity).
    pose proof (Y _ OVerbosity (fun x => match x with Some v => v | None => txt "INFO" end)).
    pose proof (Y _ OAuth (fun x => match x with Some v => read_text fs v | None => None end)).
    pose proof (Y _ OProject (fun x => match x with Some v => read_binary fs v | None => None end)).
    tauto.
Qed.
