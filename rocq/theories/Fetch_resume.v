(** Lemmas for taking up an interrupted run of the documentation fetcher. *)
From Coq Require Import List ZArith Bool Lia String.
From Verif Require Import Py Text Mqtt_facts Fetch Spec_fetch Fetch_facts Fetch_names Prop_fetch.
Import ListNotations.
Notation length := List.length.
Open Scope Z_scope.

Lemma pause_cut a t : pause a t -> cut a t.
Proof. induction 1; constructor; assumption. Qed.
Lemma pause_app a b t : pause (a ++ b) t -> pause a t \/ exists t', pause b t' /\ t = a ++ t'.
Proof.
  revert t. induction a as [|x a IH]; intros t H; cbn in H.
  - right. exists t. split; [exact H|reflexivity].
  - inversion H; subst; try solve [left; constructor].
    match goal with K : pause (a ++ b) ?t |- _ => destruct (IH t K) as [J|(t' & J & ->)] end.
    + left. constructor. exact J.
    + right. exists t'. split; [exact J|reflexivity].
Qed.

(** The links seen to so far. *)
Definition halfway (e : site) (dst : text) (d : disk) (ls : list url) (d' : disk) : Prop :=
  exists j, saved e dst d (firstn j ls) d'.

Lemma halfway_nothing e dst d ls : halfway e dst d ls d.
Proof. exists 0%nat. constructor. apply same_disk_refl. Qed.
Lemma halfway_app e dst d a d1 b d2 :
  saved e dst d a d1 -> halfway e dst d1 b d2 -> halfway e dst d (a ++ b) d2.
Proof.
  intros Sv (j & Sj). exists (length a + j)%nat. rewrite firstn_app_2.
  apply (saved_app _ _ _ _ _ Sv _ _ Sj).
Qed.

Lemma pause_fetch d l p b t :
  pause [FGet l; FCreate p; FWrite p b] t ->
  same_disk (replay d t) d \/ same_disk (replay d t) (with_file d p b).
Proof.
  intros C. inversion C; subst; [left; apply same_disk_refl|].
  match goal with K : pause [FCreate p; FWrite p b] _ |- _ => inversion K; subst end;
    [left; apply same_disk_refl|].
  match goal with K : pause [FWrite p b] _ |- _ => inversion K; subst end.
  match goal with K : pause [] _ |- _ => inversion K; subst end.
  right. apply create_write.
Qed.

Lemma download_files_pause e dst (St : forall n, s_store e n = None) ls : forall s s' tr r t,
  download_files e dst ls s = (s', tr, r) -> pause tr t ->
  halfway e dst (f_disk s) ls (replay (f_disk s) t).
Proof.
  induction ls as [|l ls IH]; intros s s' tr r t E C.
  - cbn in E. inversion E; subst. inversion C; subst. apply halfway_nothing.
  - cbn [download_files] in E. unfold fseq, fbind in E.
    destruct (download_file_outcome e dst l s)
      as [[Ex Ed]|[Ex (s1 & L1 & [(x & Ed)|(n & body & G & [(k & x & Ed)|Ed])])]].
    + rewrite Ed in E. destruct (download_files e dst ls s) as [[s2 ev2] r2] eqn:E2.
      inversion E; subst. destruct (IH _ _ _ _ _ E2 C) as (j & Sj).
      exists (S j). apply saved_old; assumption.
    + rewrite Ed in E. inversion E; subst. inversion C; subst; [apply halfway_nothing|].
      match goal with K : pause [] _ |- _ => inversion K; subst end. apply halfway_nothing.
    + exfalso. clear - Ed St. unfold download_file in Ed. fold (place dst l) in Ed.
      destruct (exists_ (f_disk s) (place dst l)); [discriminate|].
      unfold fbind, fget, fseq, femit, fbind in Ed.
      cbn [f_disk f_links f_gets f_stores apply] in Ed.
      destruct (s_get e (f_gets s) (urlunparse l)) as [b|]; [|discriminate].
      unfold fstore in Ed. cbn [f_disk f_links f_gets f_stores] in Ed.
      destruct (s_open e (f_stores s) (place dst l)); [discriminate|].
      rewrite St in Ed. discriminate.
    + pose proof (in_step_file e dst l s _ _ _ Ed) as D.
      rewrite Ed in E. destruct (download_files e dst ls s1) as [[s2 ev2] r2] eqn:E2.
      inversion E; subst.
      assert (S1 : same_disk (f_disk s1) (with_file (f_disk s) (place dst l) body))
        by (rewrite D; apply create_write).
      change (FGet (urlunparse l) :: FCreate (place dst l) :: FWrite (place dst l) body :: ev2)
        with ([FGet (urlunparse l); FCreate (place dst l); FWrite (place dst l) body] ++ ev2) in C.
      destruct (pause_app _ _ _ C) as [J|(t' & J & ->)].
      * destruct (pause_fetch (f_disk s) _ _ _ _ J) as [H|H].
        -- exists 0%nat. constructor. apply same_disk_sym. exact H.
        -- exists 1%nat. apply (saved_new _ _ _ _ _ _ n body Ex G). constructor.
           apply same_disk_sym. exact H.
      * rewrite replay_app, <- D. destruct (IH _ _ _ _ _ E2 J) as (j & Sj).
        exists (S j). apply (saved_new _ _ _ _ _ _ n body Ex G).
        apply (saved_start _ _ _ _ _ Sj). exact S1.
Qed.

Lemma download_docs_pause e dst s s' tr r t :
  (forall n, s_store e n = None) ->
  download_docs e dst s = (s', tr, r) -> pause tr t ->
  replay (f_disk s) t = f_disk s
  \/ halfway e dst (prepared (f_disk s) dst) [TERMS_U] (replay (f_disk s) t)
  \/ exists us, page_lists e us
     /\ halfway e dst (prepared (f_disk s) dst) (TERMS_U :: f_links s ++ us) (replay (f_disk s) t).
Proof.
  intros St E C. unfold download_docs in E.
  unfold fseq at 1 in E. unfold fbind at 1 in E.
  destruct (prepare_outcome e dst s) as [(x & Ep)|(ev & s1 & Ep & Ev & D1 & D1' & Dd & L1 & _ & _)].
  { rewrite Ep in E. inversion E; subst. inversion C; subst. left. reflexivity. }
  rewrite Ep in E.
  unfold fseq at 1 in E. unfold fbind at 1 in E. rewrite <- terms_as_files in E.
  destruct (download_files e dst [TERMS_U] s1) as [[s2 ev2] r2] eqn:Et.
  destruct (download_files_cut _ _ _ _ _ _ _ Et) as (_ & T2 & T3).
  pose proof (in_step_files _ _ _ _ _ _ _ Et) as Dt.
  rewrite D1' in T2.
  assert (Head : forall t, pause (ev ++ ev2) t ->
            replay (f_disk s) t = f_disk s
            \/ halfway e dst (prepared (f_disk s) dst) [TERMS_U] (replay (f_disk s) t)).
  { intros t0 C0. destruct (pause_app _ _ _ C0) as [J|(t' & J & ->)].
    - destruct Ev as [-> | ->]; inversion J; subst; auto.
      match goal with K : pause [] _ |- _ => inversion K; subst end.
      right. rewrite <- D1, D1'. apply halfway_nothing.
    - right. rewrite replay_app, <- D1, <- D1'.
      exact (download_files_pause _ _ St _ _ _ _ _ _ Et J). }
  destruct r2 as [[]|x].
  2: { inversion E; subst. destruct (Head t C) as [H|H]; auto. }
  specialize (T2 eq_refl).
  assert (Fin : halfway e dst (prepared (f_disk s) dst) [TERMS_U] (f_disk s2))
    by (exists 1%nat; exact T2).
  assert (Quiet : pause (ev ++ ev2 ++ [FGet (urlunparse INDEX_U)]) t ->
            replay (f_disk s) t = f_disk s
            \/ halfway e dst (prepared (f_disk s) dst) [TERMS_U] (replay (f_disk s) t)).
  { rewrite app_assoc. intros C0. destruct (pause_app _ _ _ C0) as [J|(t' & J & ->)]; [auto|].
    right. rewrite replay_app, replay_app, <- D1, <- Dt, (cut_quiet _ _ (pause_cut _ _ J)).
    exact Fin. }
  unfold fbind at 1, fget at 1 in E. unfold fseq at 1 in E. unfold fbind at 1, femit in E.
  cbn [f_disk f_links f_gets f_stores apply app] in E.
  destruct (s_get e (f_gets s2) (urlunparse INDEX_U)) as [page|x] eqn:Eg.
  2: { inversion E; subst. destruct (Quiet C) as [H|H]; auto. }
  unfold fseq at 1 in E. unfold fbind at 1 in E.
  match type of E with context [feed e ?ts ?s0] =>
    destruct (feed_outcome e ts s0) as [(us & Ls & Ef)|(us & x & Ds & _ & Ef)] end; rewrite Ef in E;
    cbn [f_links f_disk f_gets f_stores] in E.
  2: { inversion E; subst. destruct (Quiet C) as [H|H]; auto. }
  rewrite T3, L1 in E.
  match type of E with context [download_files e dst ?ls ?s0] =>
    destruct (download_files e dst ls s0) as [[s3 ev3] r3] eqn:E3 end.
  assert (Pg : page_lists e us) by (exists (f_gets s2), page; auto).
  assert (Et' : tr = ev ++ ev2 ++ [FGet (urlunparse INDEX_U)] ++ ev3).
  { destruct r3 as [[]|x]; inversion E; subst; auto. }
  clear E. subst tr.
  rewrite app_assoc in C. destruct (pause_app _ _ _ C) as [J|(t1 & J & ->)].
  - destruct (Head t J) as [H|H]; auto.
  - rewrite replay_app, replay_app, <- D1, <- Dt.
    destruct (pause_app _ _ _ J) as [J1|(t' & J1 & ->)].
    + right. left. rewrite (cut_quiet _ _ (pause_cut _ _ J1)). exact Fin.
    + right. right. exists us. split; [exact Pg|].
      apply (halfway_app _ _ _ [TERMS_U] _ _ _ T2). rewrite replay_app.
      exact (download_files_pause _ _ St _ _ _ _ _ _ E3 J1).
Qed.

(** ** The contents *)

Definition first_at (dst p : text) (ls : list url) : option url :=
  List.find (fun l => text_eqb (place dst l) p) ls.

Lemma saved_first e dst d ls d' : saved e dst d ls d' -> forall p, file d p = None ->
  match file d' p with
  | Some b => dir d p = false
      /\ exists l n, first_at dst p ls = Some l /\ s_get e n (urlunparse l) = Ok b
  | None => dir d p = true \/ first_at dst p ls = None
  end.
Proof.
  induction 1 as [d d' [H K]|d l ls d' H _ IH|d l ls d' n body H G Sv IH]; intros p N.
  - rewrite <- H, N. right. reflexivity.
  - specialize (IH p N). unfold first_at. cbn [List.find].
    destruct (text_eqb (place dst l) p) eqn:Ep; [|exact IH].
    apply text_eqb_eq in Ep. subst p. unfold exists_ in H. rewrite N in H.
    destruct (file d' (place dst l)) as [b|]; [destruct IH as [J _]; congruence|].
    left. exact H.
  - unfold first_at. cbn [List.find]. destruct (text_eqb (place dst l) p) eqn:Ep.
    + apply text_eqb_eq in Ep. subst p.
      destruct (saved_facts _ _ _ _ _ Sv) as (_ & S1 & _).
      rewrite (S1 (place dst l) body (put_same _ _ _)).
      unfold exists_ in H. rewrite N in H. split; [exact H|]. exists l, n. auto.
    + apply text_eqb_neq in Ep. apply (IH p). cbn. rewrite put_other; assumption.
Qed.

Lemma first_firstn dst p j ls l :
  first_at dst p (firstn j ls) = Some l -> first_at dst p ls = Some l.
Proof.
  revert j. induction ls as [|m ls IH]; intros [|j] H; cbn in *; try discriminate.
  unfold first_at in *. cbn in *. destruct (text_eqb (place dst m) p); [exact H|]. apply (IH j). exact H.
Qed.

Lemma listing_fun e ts us : listing e ts us -> forall us', listing e ts us' -> us = us'.
Proof.
  induction 1 as [|t u ts us L D _ IH|t ts us H _ IH]; intros us' K; inversion K; subst.
  - reflexivity.
  - f_equal; [|auto]. pose proof (links_to_fun _ _ _ _ L ltac:(eassumption)) as E. congruence.
  - exfalso. match goal with J : forall u, links_to e t u -> _ |- _ =>
      destruct (J _ L) as (v & E & Nv) end. inversion E; subst. auto.
  - exfalso. match goal with J : links_to e t (Ok _) |- _ =>
      destruct (H _ J) as (v & E & Nv) end. inversion E; subst. auto.
  - auto.
Qed.
Lemma links_to_site a b t u : (forall v, s_resolve a v = s_resolve b v) ->
  links_to a t u -> links_to b t u.
Proof. intros R L. destruct L. rewrite R. constructor; assumption. Qed.
Lemma listing_site a b ts us : (forall v, s_resolve a v = s_resolve b v) ->
  listing a ts us -> listing b ts us.
Proof.
  intros R. assert (R' : forall v, s_resolve b v = s_resolve a v) by (intros; symmetry; apply R).
  induction 1 as [|t u ts us L D _ IH|t ts us H _ IH].
  - constructor.
  - apply listing_doc; auto. apply (links_to_site a b); assumption.
  - apply listing_other; [|exact IH]. intros u L. apply H. apply (links_to_site b a); assumption.
Qed.
Lemma same_page a b us us' : same_site a b -> page_lists a us -> page_lists b us' -> us = us'.
Proof.
  intros (G & T & H & R) (n & x & Gx & Lx) (m & y & Gy & Ly).
  rewrite (G _ _ _ _ _ Gx Gy) in Lx. rewrite T, H in Lx.
  apply (listing_site a b _ _ R) in Lx. apply (listing_fun _ _ _ Lx _ Ly).
Qed.

(** Seeing to all links from a halfway disk ends where seeing to them at once
    would have ended. *)
Lemma finish_later a b c dst d ls j d1 d2 d3 : same_site a c -> same_site b c ->
  saved a dst d (firstn j ls) d1 -> saved b dst d1 ls d2 -> saved c dst d ls d3 ->
  forall p, file d2 p = file d3 p.
Proof.
  intros Sa Sb A B C p.
  destruct (saved_facts _ _ _ _ _ A) as (A0 & A1 & _).
  destruct (saved_facts _ _ _ _ _ B) as (_ & B1 & _).
  destruct (saved_facts _ _ _ _ _ C) as (_ & C1 & _).
  destruct (file d p) as [x|] eqn:F.
  { rewrite (C1 _ _ F). apply B1. apply A1. exact F. }
  pose proof (saved_first _ _ _ _ _ A p F) as Ap.
  pose proof (saved_first _ _ _ _ _ C p F) as Cp.
  destruct (file d1 p) as [x|] eqn:F1.
  - rewrite (B1 _ _ F1). destruct Ap as (Dp & l & n & Fl & G). apply first_firstn in Fl.
    destruct (file d3 p) as [y|].
    + destruct Cp as (_ & l' & n' & Fl' & G'). rewrite Fl in Fl'. inversion Fl'; subst l'.
      f_equal. apply (proj1 Sa _ _ _ _ _ G G').
    + destruct Cp as [Cp|Cp]; congruence.
  - pose proof (saved_first _ _ _ _ _ B p F1) as Bp. rewrite A0 in Bp.
    destruct (file d2 p) as [x|], (file d3 p) as [y|].
    + destruct Bp as (_ & l & n & Fl & G). destruct Cp as (_ & l' & n' & Fl' & G').
      rewrite Fl in Fl'. inversion Fl'; subst l'. f_equal. apply (proj1 Sb _ _ _ _ _ G G').
    + destruct Bp as (Dp & l & n & Fl & _). destruct Cp as [Cp|Cp]; congruence.
    + destruct Cp as (Dp & l & n & Fl & _). destruct Bp as [Bp|Bp]; congruence.
    + reflexivity.
Qed.

Lemma page_all a b c dst d us j d1 d2 d3 : same_site a c -> same_site b c -> (j <= 1)%nat ->
  saved a dst d (firstn j [TERMS_U]) d1 -> saved b dst d1 (TERMS_U :: us) d2 ->
  saved c dst d (TERMS_U :: us) d3 -> forall p, file d2 p = file d3 p.
Proof.
  intros Sa Sb J A B C. apply (finish_later a b c dst d (TERMS_U :: us) j d1 d2 d3 Sa Sb); auto.
  destruct j as [|[|j]]; [exact A|exact A|lia].
Qed.
