(** Lemmas about the documentation fetcher. *)
From Coq Require Import List ZArith Bool Lia String.
From Verif Require Import Py Text Mqtt_facts Fetch Spec_fetch.
Import ListNotations.
Notation length := List.length.
Open Scope Z_scope.

(** ** Disks *)

Lemma same_disk_refl d : same_disk d d.
Proof. split; reflexivity. Qed.
Lemma same_disk_sym a b : same_disk a b -> same_disk b a.
Proof. intros [H K]. split; intros p; symmetry; auto. Qed.
Lemma same_disk_trans a b c : same_disk a b -> same_disk b c -> same_disk a c.
Proof. intros [H K] [H' K']. split; intros p; [rewrite H; apply H'|rewrite K; apply K']. Qed.
Lemma same_exists a b p : same_disk a b -> exists_ a p = exists_ b p.
Proof. intros [H K]. unfold exists_. rewrite H, K. reflexivity. Qed.
Lemma same_with_file a b p x : same_disk a b -> same_disk (with_file a p x) (with_file b p x).
Proof.
  intros [H K]. split; intros q; cbn; unfold put; [|apply K].
  destruct (text_eqb p q); auto.
Qed.
Lemma text_eqb_refl a : text_eqb a a = true.
Proof. apply text_eqb_eq. reflexivity. Qed.

Lemma put_same {A} (f : text -> A) p v : put f p v p = v.
Proof. unfold put. rewrite text_eqb_refl. reflexivity. Qed.
Lemma put_other {A} (f : text -> A) p q v : p <> q -> put f p v q = f q.
Proof. intros H. unfold put. apply text_eqb_neq in H. rewrite H. reflexivity. Qed.

Lemma create_write d p b : same_disk (apply (apply d (FCreate p)) (FWrite p b)) (with_file d p b).
Proof.
  split; intros q; cbn; [|reflexivity]. unfold put. rewrite text_eqb_refl.
  destruct (text_eqb p q); reflexivity.
Qed.
Lemma create_only d p : same_disk (apply d (FCreate p)) (with_file d p []).
Proof. split; intros q; reflexivity. Qed.

Lemma replay_app d a b : replay d (a ++ b) = replay (replay d a) b.
Proof. apply fold_left_app. Qed.

(** ** Traces *)

Lemma cut_app a b t : cut (a ++ b) t -> cut a t \/ exists t', cut b t' /\ t = a ++ t'.
Proof.
  revert t. induction a as [|x a IH]; intros t H; cbn in H.
  - right. exists t. split; [exact H|reflexivity].
  - inversion H; subst.
    + left. constructor.
    + left. constructor.
    + match goal with K : cut (a ++ b) ?t |- _ => destruct (IH t K) as [J|(t' & J & ->)] end.
      * left. constructor. exact J.
      * right. exists t'. split; [exact J|reflexivity].
Qed.
Lemma cut_all tr : cut tr tr.
Proof. induction tr; constructor; assumption. Qed.

(** Every method keeps the disk in step with its trace. *)
Definition in_step {A} (m : FM A) : Prop := forall s s' tr r,
  m s = (s', tr, r) -> f_disk s' = replay (f_disk s) tr.
Lemma in_step_ret {A} (a : A) : in_step (fret a).
Proof. intros s s' tr r E. inversion E. reflexivity. Qed.
Lemma in_step_raise {A} x : in_step (@fraise A x).
Proof. intros s s' tr r E. inversion E. reflexivity. Qed.
Lemma in_step_bind {A B} (m : FM A) (f : A -> FM B) :
  in_step m -> (forall a, in_step (f a)) -> in_step (fbind m f).
Proof.
  intros H K s s' tr r E. unfold fbind in E.
  destruct (m s) as [[s1 ev1] [a|x]] eqn:Em.
  - destruct (f a s1) as [[s2 ev2] r2] eqn:Ef. inversion E; subst.
    rewrite replay_app, <- (H _ _ _ _ Em). apply (K _ _ _ _ _ Ef).
  - inversion E; subst. apply (H _ _ _ _ Em).
Qed.
Lemma in_step_emit e : in_step (femit e).
Proof. intros s s' tr r E. inversion E. reflexivity. Qed.
Lemma in_step_get e uri : in_step (fget e uri).
Proof.
  apply in_step_bind; [apply in_step_emit|]. intros _ s s' tr r E. inversion E. reflexivity.
Qed.
Lemma in_step_store e p b : in_step (fstore e p b).
Proof.
  intros s s' tr r E. unfold fstore in E. destruct (s_open e (f_stores s) p).
  - inversion E. reflexivity.
  - destruct (s_store e (f_stores s)) as [[k x]|];
      match type of E with ?m ?s0 = _ => assert (H : in_step m) end.
    + apply in_step_bind; [apply in_step_emit|]. intros _.
      apply in_step_bind; [apply in_step_emit|]. intros _. apply in_step_raise.
    + rewrite (H _ _ _ _ E). reflexivity.
    + apply in_step_bind; [apply in_step_emit|]. intros _. apply in_step_emit.
    + rewrite (H _ _ _ _ E). reflexivity.
Qed.
Lemma in_step_file e dst l : in_step (download_file e dst l).
Proof.
  intros s s' tr r E. unfold download_file in E.
  destruct (exists_ (f_disk s) (path_join dst (short_name l))).
  - apply (in_step_ret _ _ _ _ _ E).
  - revert E. apply in_step_bind; [apply in_step_get|apply in_step_store].
Qed.
Lemma in_step_files e dst ls : in_step (download_files e dst ls).
Proof.
  induction ls as [|l ls IH]; [apply in_step_ret|].
  apply in_step_bind; [apply in_step_file|intros _; exact IH].
Qed.

(** ** One link *)

Lemma download_file_outcome e dst l s :
  (exists_ (f_disk s) (place dst l) = true /\ download_file e dst l s = (s, [], Ok tt))
  \/ (exists_ (f_disk s) (place dst l) = false
      /\ exists s', f_links s' = f_links s /\
         ((exists x, download_file e dst l s = (s', [FGet (urlunparse l)], Raise x))
          \/ exists n body, s_get e n (urlunparse l) = Ok body
             /\ ((exists k x, download_file e dst l s =
                    (s', [FGet (urlunparse l); FCreate (place dst l);
                          FWrite (place dst l) (firstn k body)], Raise x))
                 \/ download_file e dst l s =
                    (s', [FGet (urlunparse l); FCreate (place dst l);
                          FWrite (place dst l) body], Ok tt)))).
Proof.
  unfold download_file. fold (place dst l).
  destruct (exists_ (f_disk s) (place dst l)) eqn:Ex; [left; auto|].
  right. split; [reflexivity|].
  unfold fbind, fget, fseq, femit, fbind.
  cbn [f_disk f_links f_gets f_stores apply].
  destruct (s_get e (f_gets s) (urlunparse l)) as [body|x] eqn:Eg.
  - unfold fstore. cbn [f_disk f_links f_gets f_stores].
    destruct (s_open e (f_stores s) (place dst l)) as [x|] eqn:Eo.
    + eexists. split; [|left; exists x; reflexivity]. reflexivity.
    + destruct (s_store e (f_stores s)) as [[k x]|] eqn:Es.
      * eexists. split; [|right; exists (f_gets s), body; split; [exact Eg|];
                           left; exists k, x; reflexivity]. reflexivity.
      * eexists. split; [|right; exists (f_gets s), body; split; [exact Eg|];
                           right; reflexivity]. reflexivity.
  - eexists. split; [|left; exists x; reflexivity]. reflexivity.
Qed.

Lemma saved_start e dst d ls d' : saved e dst d ls d' ->
  forall d0, same_disk d d0 -> saved e dst d0 ls d'.
Proof.
  induction 1 as [d d' H|d l ls d' H _ IH|d l ls d' n b H G _ IH]; intros d0 S.
  - constructor. apply (same_disk_trans _ d); [apply same_disk_sym; exact S|exact H].
  - apply saved_old; [rewrite <- (same_exists _ _ _ S); exact H|apply IH; exact S].
  - apply (saved_new _ _ _ _ _ _ n b);
      [rewrite <- (same_exists _ _ _ S); exact H|exact G|].
    apply IH. apply same_with_file. exact S.
Qed.
Lemma saved_end e dst d ls d' : saved e dst d ls d' ->
  forall d1, same_disk d' d1 -> saved e dst d ls d1.
Proof.
  induction 1 as [d d' H|d l ls d' H _ IH|d l ls d' n b H G _ IH]; intros d1 S.
  - constructor. apply (same_disk_trans _ d'); assumption.
  - apply saved_old; auto.
  - apply (saved_new _ _ _ _ _ _ n b); auto.
Qed.

(** The disk at the moment the process is killed while seeing to the links. *)
Definition interrupted (e : site) (dst : text) (d : disk) (ls : list url) (d' : disk) : Prop :=
  exists j d1, saved e dst d (firstn j ls) d1
    /\ (same_disk d' d1
        \/ exists l n body k, nth_error ls j = Some l
           /\ exists_ d1 (place dst l) = false
           /\ s_get e n (urlunparse l) = Ok body
           /\ same_disk d' (with_file d1 (place dst l) (firstn k body))).

Lemma interrupted_nothing e dst d ls : interrupted e dst d ls d.
Proof.
  exists 0%nat, d. split; [constructor; apply same_disk_refl|left; apply same_disk_refl].
Qed.

Lemma interrupted_partial e dst d l ls d' n body k :
  exists_ d (place dst l) = false -> s_get e n (urlunparse l) = Ok body ->
  same_disk d' (with_file d (place dst l) (firstn k body)) ->
  interrupted e dst d (l :: ls) d'.
Proof.
  intros Ex G S. exists 0%nat, d. split; [constructor; apply same_disk_refl|].
  right. exists l, n, body, k. repeat split; auto; apply S.
Qed.

Lemma interrupted_later e dst d l ls d1 d' :
  (forall x y, saved e dst d1 x y -> saved e dst d (l :: x) y) ->
  interrupted e dst d1 ls d' -> interrupted e dst d (l :: ls) d'.
Proof.
  intros H (j & d2 & Sv & K). exists (S j), d2. split; [apply H; exact Sv|].
  destruct K as [K|(m & n & body & k & N & Ex & G & K)]; [left; exact K|].
  right. exists m, n, body, k. auto.
Qed.

Lemma cut_fetch d l p b t :
  cut [FGet l; FCreate p; FWrite p b] t ->
  same_disk (replay d t) d \/ exists k, same_disk (replay d t) (with_file d p (firstn k b)).
Proof.
  intros C. inversion C; subst; [left; apply same_disk_refl|].
  match goal with K : cut [FCreate p; FWrite p b] _ |- _ => inversion K; subst end;
    [left; apply same_disk_refl|].
  match goal with K : cut [FWrite p b] _ |- _ => inversion K; subst end.
  - right. exists 0%nat. apply create_only.
  - right. exists k. apply create_write.
  - match goal with K : cut [] _ |- _ => inversion K; subst end.
    right. exists (length b). rewrite firstn_all. apply create_write.
Qed.

(** ** All the links *)

Lemma download_files_cut e dst ls : forall s s' tr r,
  download_files e dst ls s = (s', tr, r) ->
  (forall t, cut tr t -> interrupted e dst (f_disk s) ls (replay (f_disk s) t))
  /\ (r = Ok tt -> saved e dst (f_disk s) ls (f_disk s'))
  /\ f_links s' = f_links s.
Proof.
  induction ls as [|l ls IH]; intros s s' tr r E.
  - cbn in E. inversion E; subst. split; [|split; [|reflexivity]].
    + intros t C. inversion C; subst. apply interrupted_nothing.
    + intros _. constructor. apply same_disk_refl.
  - cbn [download_files] in E. unfold fseq, fbind in E.
    destruct (download_file_outcome e dst l s)
      as [[Ex Ed]|[Ex (s1 & L1 & [(x & Ed)|(n & body & G & [(k & x & Ed)|Ed])])]].
    + rewrite Ed in E. destruct (download_files e dst ls s) as [[s2 ev2] r2] eqn:E2.
      inversion E; subst. destruct (IH _ _ _ _ E2) as (I1 & I2 & I3).
      assert (Old : forall x y, saved e dst (f_disk s) x y -> saved e dst (f_disk s) (l :: x) y)
        by (intros x y S; apply saved_old; assumption).
      split; [|split; [|exact I3]].
      * intros t C. apply (interrupted_later _ _ _ _ _ _ _ Old). apply I1. exact C.
      * intros R. apply Old. apply I2. exact R.
    + rewrite Ed in E. inversion E; subst. split; [|split; [discriminate|exact L1]].
      intros t C. inversion C; subst; [apply interrupted_nothing|].
      match goal with K : cut [] _ |- _ => inversion K; subst end. apply interrupted_nothing.
    + rewrite Ed in E. inversion E; subst. split; [|split; [discriminate|exact L1]].
      intros t C. destruct (cut_fetch (f_disk s) _ _ _ _ C) as [H|(k' & H)].
      * exists 0%nat, (f_disk s). split; [constructor; apply same_disk_refl|left; exact H].
      * rewrite firstn_firstn in H. apply (interrupted_partial _ _ _ _ _ _ n body _ Ex G H).
    + pose proof (in_step_file e dst l s _ _ _ Ed) as D.
      rewrite Ed in E. destruct (download_files e dst ls s1) as [[s2 ev2] r2] eqn:E2.
      inversion E; subst. destruct (IH _ _ _ _ E2) as (I1 & I2 & I3).
      assert (S1 : same_disk (f_disk s1) (with_file (f_disk s) (place dst l) body))
        by (rewrite D; apply create_write).
      assert (New : forall x y, saved e dst (f_disk s1) x y -> saved e dst (f_disk s) (l :: x) y).
      { intros x y S. apply (saved_new _ _ _ _ _ _ n body Ex G).
        apply (saved_start _ _ _ _ _ S). exact S1. }
      split; [|split; [|rewrite I3; exact L1]].
      * intros t C. change (FGet (urlunparse l) :: FCreate (place dst l)
                             :: FWrite (place dst l) body :: ev2)
          with ([FGet (urlunparse l); FCreate (place dst l); FWrite (place dst l) body] ++ ev2) in C.
        destruct (cut_app _ _ _ C) as [J|(t' & J & ->)].
        -- destruct (cut_fetch (f_disk s) _ _ _ _ J) as [H|(k & H)].
           ++ exists 0%nat, (f_disk s). split; [constructor; apply same_disk_refl|left; exact H].
           ++ apply (interrupted_partial _ _ _ _ _ _ n body k Ex G H).
        -- rewrite replay_app, <- D. apply (interrupted_later _ _ _ _ _ _ _ New).
           apply I1. exact J.
      * intros R. apply New. apply I2. exact R.
Qed.

(** ** Links *)

Lemma wanted_document u : wanted u = true <-> document u.
Proof.
  unfold wanted, document. rewrite !andb_true_iff, orb_true_iff, !text_eqb_eq, ends_with_spec.
  split; [intros [[H K] L]; auto|intros (H & K & L); auto].
Qed.

Lemma called_lower name s : Forall (fun l => ~ 65 <= l <= 90) name ->
  (called name s <-> map lower_char s = name).
Proof.
  unfold called. revert name. induction s as [|c s IH]; intros name L; cbn [map].
  - split; [intros H; inversion H; reflexivity|intros <-; constructor].
  - split.
    + intros H. inversion H as [|c' l s' name' R F]; subst. apply Forall_cons_iff in L. destruct L as [L1 L2].
      f_equal; [unfold lower_char; destruct ((65 <=? c) && (c <=? 90)) eqn:E; lia|]. now apply IH.
    + intros E. destruct name as [|l name]; [discriminate|]. apply Forall_cons_iff in L. destruct L as [L1 L2].
      injection E as E1 E2. constructor; [unfold lower_char in E1; destruct ((65 <=? c) && (c <=? 90)) eqn:B; lia|].
      now apply IH.
Qed.
Lemma called_a s : called (txt "a") s <-> map lower_char s = txt "a".
Proof. apply called_lower. vm_compute. repeat (constructor; [intros [A B]; congruence|]). constructor. Qed.
Lemma called_href s : called (txt "href") s <-> map lower_char s = txt "href".
Proof. apply called_lower. vm_compute. repeat (constructor; [intros [A B]; congruence|]). constructor. Qed.

Lemma find_href_some e attrs u :
  find_href e attrs = u ->
  match u with
  | Ok None => Forall (fun a => ~ called (txt "href") (fst a)) attrs
  | Ok (Some v) => exists before k w after, attrs = before ++ (k, w) :: after
      /\ Forall (fun a => ~ called (txt "href") (fst a)) before
      /\ called (txt "href") k /\ s_resolve e w = Ok v
  | Raise x => exists before k w after, attrs = before ++ (k, w) :: after
      /\ Forall (fun a => ~ called (txt "href") (fst a)) before
      /\ called (txt "href") k /\ s_resolve e w = Raise x
  end.
Proof.
  revert u. induction attrs as [|[k v] attrs IH]; intros u E; cbn [find_href] in E.
  - subst. constructor.
  - destruct (text_eqb (map lower_char k) (txt "href")) eqn:Ek.
    + apply text_eqb_eq in Ek. apply called_href in Ek. destruct (s_resolve e v) as [w|x] eqn:Er; subst u;
        exists [], k, v, attrs; repeat split; auto.
    + apply text_eqb_neq in Ek. rewrite <- called_href in Ek. specialize (IH u E). destruct u as [[w|]|x].
      * destruct IH as (b & k' & w' & a & -> & F & C & R).
        exists ((k, v) :: b), k', w', a. repeat split; auto.
      * constructor; [exact Ek|exact IH].
      * destruct IH as (b & k' & w' & a & -> & F & C & R).
        exists ((k, v) :: b), k', w', a. repeat split; auto.
Qed.

Lemma first_called before1 : forall before2 k1 k2 (v1 v2 : option text) after1 after2,
  before1 ++ (k1, v1) :: after1 = before2 ++ (k2, v2) :: after2 ->
  Forall (fun a : text * option text => ~ called (txt "href") (fst a)) before1 ->
  Forall (fun a : text * option text => ~ called (txt "href") (fst a)) before2 ->
  called (txt "href") k1 -> called (txt "href") k2 -> v1 = v2.
Proof.
  induction before1 as [|a b1 IH]; intros [|c b2] k1 k2 v1 v2 a1 a2 E F1 F2 C1 C2;
    cbn in E; inversion E; subst.
  - reflexivity.
  - inversion F2; subst. exfalso. auto.
  - inversion F1; subst. exfalso. auto.
  - inversion F1; inversion F2; subst. eapply IH; eauto.
Qed.

Lemma links_to_fun e t u u' : links_to e t u -> links_to e t u' -> u = u'.
Proof.
  intros L L'. destruct L as [name b k v a N F K]. inversion L'; subst.
  match goal with E : _ ++ _ :: _ = b ++ _ :: _ |- _ => symmetry in E;
    rewrite (first_called _ _ _ _ _ _ _ _ E ltac:(assumption) ltac:(assumption)
               ltac:(assumption) ltac:(assumption)) end.
  reflexivity.
Qed.

Lemma handle_links e t : forall u, links_to e t u ->
  handle_starttag e t =
    match u with Ok v => Ok (if wanted v then [v] else []) | Raise x => Raise x end.
Proof.
  intros u H. destruct H as [name before k v after N F K].
  unfold handle_starttag. cbn [fst snd]. apply called_a in N. rewrite N, text_eqb_refl.
  pose proof (find_href_some e (before ++ (k, v) :: after) _ eq_refl) as H.
  destruct (find_href e (before ++ (k, v) :: after)) as [[w|]|x].
  - destruct H as (b & k' & w' & a & E & F' & C & R).
    rewrite (first_called _ _ _ _ _ _ _ _ E F F' K C), R. reflexivity.
  - exfalso. apply Forall_app in H. destruct H as [_ H]. inversion H; subst. auto.
  - destruct H as (b & k' & w' & a & E & F' & C & R).
    rewrite (first_called _ _ _ _ _ _ _ _ E F F' K C), R. reflexivity.
Qed.
Lemma handle_no_link e t : (forall u, ~ links_to e t u) -> handle_starttag e t = Ok [].
Proof.
  intros H. unfold handle_starttag. destruct t as [name attrs]. cbn [fst snd].
  destruct (text_eqb (map lower_char name) (txt "a")) eqn:En; [|reflexivity].
  apply text_eqb_eq in En. apply called_a in En.
  pose proof (find_href_some e attrs _ eq_refl) as K.
  destruct (find_href e attrs) as [[w|]|x]; [|reflexivity|];
    destruct K as (b & k' & w' & a & -> & F' & C & R); exfalso; eapply H; constructor; eauto.
Qed.
(** Every tag either links somewhere or not. *)
Lemma links_to_dec e t : (exists u, links_to e t u) \/ (forall u, ~ links_to e t u).
Proof.
  destruct t as [name attrs].
  destruct (text_eqb (map lower_char name) (txt "a")) eqn:En.
  - apply text_eqb_eq in En. apply called_a in En.
    pose proof (find_href_some e attrs _ eq_refl) as K.
    destruct (find_href e attrs) as [[w|]|x].
    + destruct K as (b & k' & w' & a & -> & F' & C & R). left. eexists. constructor; eauto.
    + right. intros u L. inversion L; subst. apply Forall_app in K. destruct K as [_ K].
      inversion K; subst. auto.
    + destruct K as (b & k' & w' & a & -> & F' & C & R). left. eexists. constructor; eauto.
  - right. intros u L. inversion L; subst. apply text_eqb_neq in En. rewrite <- called_a in En. auto.
Qed.

(** Reading the page: no effects; the links are added in order. *)
Lemma feed_outcome e ts : forall s,
  (exists us, listing e ts us
     /\ feed e ts s = (mkFetch (f_disk s) (f_links s ++ us) (f_gets s) (f_stores s), [], Ok tt))
  \/ (exists us x, Forall document us
     /\ (forall l, ~ listing e ts l)
     /\ feed e ts s = (mkFetch (f_disk s) (f_links s ++ us) (f_gets s) (f_stores s), [], Raise x)).
Proof.
  induction ts as [|t ts IH]; intros s.
  - left. exists []. split; [constructor|]. cbn. rewrite app_nil_r. destruct s; reflexivity.
  - cbn [feed]. destruct (links_to_dec e t) as [[u L]|N].
    + rewrite (handle_links _ _ _ L). destruct u as [v|x].
      * destruct (wanted v) eqn:W.
        -- pose proof (proj1 (wanted_document v) W) as Dv.
           destruct (IH (mkFetch (f_disk s) (f_links s ++ [v]) (f_gets s) (f_stores s)))
             as [(us & Ls & F)|(us & x & Ds & Nl & F)].
           ++ left. exists (v :: us). split; [apply listing_doc; assumption|].
              rewrite F. cbn. rewrite <- app_assoc. reflexivity.
           ++ right. exists (v :: us), x. split; [constructor; assumption|]. split.
              ** intros l Hl. inversion Hl; subst; eapply Nl; eauto.
              ** rewrite F. cbn. rewrite <- app_assoc. reflexivity.
        -- assert (Dv : ~ document v) by (rewrite <- wanted_document, W; discriminate).
           destruct (IH (mkFetch (f_disk s) (f_links s ++ []) (f_gets s) (f_stores s)))
             as [(us & Ls & F)|(us & x & Ds & Nl & F)].
           ++ left. exists us. split.
              ** apply listing_other; [|exact Ls]. intros u L'. exists v. split; [|exact Dv].
                 apply (links_to_fun _ _ _ _ L' L).
              ** rewrite F. cbn. rewrite app_nil_r. reflexivity.
           ++ right. exists us, x. split; [assumption|]. split.
              ** intros l Hl. inversion Hl; subst; eapply Nl; eauto.
              ** rewrite F. cbn. rewrite app_nil_r. reflexivity.
      * right. exists [], x. split; [constructor|]. split.
        -- intros l Hl. inversion Hl; subst.
           ++ match goal with K : links_to e t (Ok _) |- _ =>
                pose proof (handle_links _ _ _ K) as A; rewrite (handle_links _ _ _ L) in A end.
              discriminate.
           ++ match goal with K : forall u, links_to e t u -> _ |- _ =>
                destruct (K _ L) as (v & A & _) end. discriminate.
        -- rewrite app_nil_r. destruct s; reflexivity.
    + rewrite (handle_no_link _ _ N).
      destruct (IH (mkFetch (f_disk s) (f_links s ++ []) (f_gets s) (f_stores s)))
        as [(us & Ls & F)|(us & x & Ds & Nl & F)].
      * left. exists us. split; [apply listing_other; [|exact Ls]|].
        -- intros u L. exfalso. eapply N. exact L.
        -- rewrite F. cbn. rewrite app_nil_r. reflexivity.
      * right. exists us, x. split; [assumption|]. split.
        -- intros l Hl. inversion Hl; subst; eapply Nl; eauto.
        -- rewrite F. cbn. rewrite app_nil_r. reflexivity.
Qed.

Lemma listing_documents e ts us : listing e ts us -> Forall document us.
Proof. induction 1; [constructor|constructor; assumption|assumption]. Qed.

(** ** The requests *)

Lemma missing_ext dst ls : forall h1 h2, (forall p, h1 p = h2 p) ->
  missing h1 dst ls = missing h2 dst ls.
Proof.
  induction ls as [|l ls IH]; intros h1 h2 H; cbn; [reflexivity|].
  rewrite H. destruct (h2 (place dst l)); [apply IH; exact H|].
  f_equal. apply IH. intros p. rewrite H. reflexivity.
Qed.
Lemma requests_app a b : requests (a ++ b) = requests a ++ requests b.
Proof. induction a as [|[]]; cbn; congruence. Qed.

Lemma exists_with_file d p b q : exists_ (with_file d p b) q = text_eqb p q || exists_ d q.
Proof. unfold exists_, with_file. cbn. unfold put. destruct (text_eqb p q); reflexivity. Qed.

Lemma download_files_requests e dst ls : forall s s' tr r,
  download_files e dst ls s = (s', tr, r) ->
  exists more, map urlunparse (missing (exists_ (f_disk s)) dst ls) = requests tr ++ more
               /\ (r = Ok tt -> more = []).
Proof.
  induction ls as [|l ls IH]; intros s s' tr r E.
  - cbn in E. inversion E; subst. exists []. auto.
  - cbn [download_files] in E. unfold fseq, fbind in E. cbn [missing].
    destruct (download_file_outcome e dst l s)
      as [[Ex Ed]|[Ex (s1 & L1 & [(x & Ed)|(n & body & G & [(k & x & Ed)|Ed])])]]; rewrite Ex.
    + rewrite Ed in E. destruct (download_files e dst ls s) as [[s2 ev2] r2] eqn:E2.
      inversion E; subst. exact (IH _ _ _ _ E2).
    + rewrite Ed in E. inversion E; subst. cbn. eexists. split; [reflexivity|discriminate].
    + rewrite Ed in E. inversion E; subst. cbn. eexists. split; [reflexivity|discriminate].
    + pose proof (in_step_file e dst l s _ _ _ Ed) as D.
      rewrite Ed in E. destruct (download_files e dst ls s1) as [[s2 ev2] r2] eqn:E2.
      inversion E; subst. destruct (IH _ _ _ _ E2) as (more & M & K).
      exists more. split; [|exact K]. cbn [map app requests]. f_equal. rewrite <- M. f_equal.
      apply missing_ext. intros p.
      assert (S1 : same_disk (f_disk s1) (with_file (f_disk s) (place dst l) body))
        by (rewrite D; apply create_write).
      rewrite (same_exists _ _ _ S1), exists_with_file. reflexivity.
Qed.

Lemma cut_requests tr t : cut tr t -> exists more, requests tr = requests t ++ more.
Proof.
  induction 1 as [tr|p b k tr|ev tr tr' _ (more & IH)].
  - exists (requests tr). reflexivity.
  - exists (requests tr). reflexivity.
  - exists more. destruct ev; cbn; rewrite IH; reflexivity.
Qed.

(** ** A call *)

Lemma saved_app e dst d a d1 : saved e dst d a d1 -> forall b d2,
  saved e dst d1 b d2 -> saved e dst d (a ++ b) d2.
Proof.
  induction 1 as [d d' H|d l ls d' H _ IH|d l ls d' n b' H G _ IH]; intros b d2 K; cbn [app].
  - apply (saved_start _ _ _ _ _ K). apply same_disk_sym. exact H.
  - apply saved_old; auto.
  - apply (saved_new _ _ _ _ _ _ n b'); auto.
Qed.

Lemma prepare_outcome e dst s :
  (exists x, prepare e dst s = (s, [], Raise x))
  \/ (exists ev s1, prepare e dst s = (s1, ev, Ok tt)
      /\ (ev = [] \/ ev = [FMkdir dst])
      /\ f_disk s1 = replay (f_disk s) ev /\ f_disk s1 = prepared (f_disk s) dst
      /\ dir (f_disk s1) dst = true
      /\ f_links s1 = f_links s /\ f_gets s1 = f_gets s /\ f_stores s1 = f_stores s).
Proof.
  unfold prepare, prepared. destruct (exists_ (f_disk s) dst) eqn:Ex; cbn [negb].
  - destruct (dir (f_disk s) dst) eqn:Ed; cbn [negb]; [|left; eexists; reflexivity].
    right. exists [], s. repeat split; auto.
  - destruct (s_mkdir e dst) as [x|]; [left; eexists; reflexivity|].
    right. exists [FMkdir dst]. eexists. split; [reflexivity|].
    repeat split; auto. cbn. apply put_same.
Qed.

Lemma terms_as_files e dst s :
  download_files e dst [TERMS_U] s = download_file e dst TERMS_U s.
Proof.
  cbn [download_files]. unfold fseq, fbind.
  destruct (download_file_outcome e dst TERMS_U s)
    as [[_ ->]|[_ (s1 & _ & [(x & ->)|(n & body & _ & [(k & x & ->)| ->])])]]; reflexivity.
Qed.

Lemma cut_quiet d t : cut [FGet (urlunparse INDEX_U)] t -> replay d t = d.
Proof.
  intros C. inversion C; subst; [reflexivity|].
  match goal with K : cut [] _ |- _ => inversion K; subst end. reflexivity.
Qed.

Lemma interrupted_finished e dst d ls d' : saved e dst d ls d' -> interrupted e dst d ls d'.
Proof.
  intros S. exists (length ls), d'. rewrite firstn_all. split; [exact S|left; apply same_disk_refl].
Qed.
Lemma interrupted_app e dst d a d1 b d2 :
  saved e dst d a d1 -> interrupted e dst d1 b d2 -> interrupted e dst d (a ++ b) d2.
Proof.
  intros Sv (j & d' & Sj & K). exists (length a + j)%nat, d'.
  rewrite firstn_app_2. split; [apply (saved_app _ _ _ _ _ Sv _ _ Sj)|].
  destruct K as [K|(l & n & body & k & N & Ex & G & K)]; [left; exact K|].
  right. exists l, n, body, k. repeat split; auto; try apply K.
  rewrite nth_error_app2 by lia. rewrite Nat.add_comm, Nat.add_sub. exact N.
Qed.

Lemma download_docs_outcome e dst s s' tr r :
  Forall document (f_links s) -> download_docs e dst s = (s', tr, r) ->
  Forall document (f_links s')
  /\ (exists us, f_links s' = f_links s ++ us)
  /\ (forall t, cut tr t ->
        replay (f_disk s) t = f_disk s
        \/ interrupted e dst (prepared (f_disk s) dst) [TERMS_U] (replay (f_disk s) t)
        \/ exists us, page_lists e us
           /\ interrupted e dst (prepared (f_disk s) dst) (TERMS_U :: f_links s ++ us)
                          (replay (f_disk s) t))
  /\ (exists us more, (us = [] \/ page_lists e us)
        /\ plan (prepared (f_disk s) dst) dst (f_links s ++ us) = requests tr ++ more
        /\ (r = Ok tt -> more = [] /\ page_lists e us /\ f_links s' = f_links s ++ us
              /\ saved e dst (prepared (f_disk s) dst) (TERMS_U :: f_links s') (f_disk s')))
  /\ (r = Ok tt -> exists_ (prepared (f_disk s) dst) dst = true).
Proof.
  intros Dl E. unfold download_docs in E.
  unfold fseq at 1 in E. unfold fbind at 1 in E.
  destruct (prepare_outcome e dst s) as [(x & Ep)|(ev & s1 & Ep & Ev & D1 & D1' & Dd & L1 & _ & _)].
  { rewrite Ep in E. inversion E; subst. split; [exact Dl|]. split; [exists []; rewrite app_nil_r; reflexivity|].
    split; [|split; [|discriminate]].
    - intros t C. inversion C; subst. left. reflexivity.
    - exists []. eexists. split; [auto|]. split; [reflexivity|discriminate]. }
  rewrite Ep in E.
  (* the terms *)
  unfold fseq at 1 in E. unfold fbind at 1 in E. rewrite <- terms_as_files in E.
  destruct (download_files e dst [TERMS_U] s1) as [[s2 ev2] r2] eqn:Et.
  destruct (download_files_cut _ _ _ _ _ _ _ Et) as (T1 & T2 & T3).
  destruct (download_files_requests _ _ _ _ _ _ _ Et) as (mt & Rt & Rt').
  pose proof (in_step_files _ _ _ _ _ _ _ Et) as Dt.
  rewrite D1' in T1, T2, Rt.
  assert (Head : forall t, cut (ev ++ ev2) t ->
            replay (f_disk s) t = f_disk s
            \/ interrupted e dst (prepared (f_disk s) dst) [TERMS_U] (replay (f_disk s) t)).
  { intros t C. destruct (cut_app _ _ _ C) as [J|(t' & J & ->)].
    - destruct Ev as [-> | ->]; inversion J; subst; auto.
      match goal with K : cut [] _ |- _ => inversion K; subst end.
      right. rewrite <- D1, D1'. apply interrupted_nothing.
    - right. rewrite replay_app, <- D1, D1'. apply T1. exact J. }
  destruct r2 as [[]|x].
  2: { inversion E; subst. rewrite T3, L1.
       split; [exact Dl|]. split; [exists []; rewrite app_nil_r; reflexivity|].
       split; [|split; [|discriminate]].
       - intros t C. destruct (Head t C) as [H|H]; auto.
       - exists []. unfold plan. rewrite Rt. rewrite <- !app_assoc.
         assert (Rv : requests ev = []) by (destruct Ev as [-> | ->]; reflexivity).
         rewrite requests_app, Rv. cbn [app].
         eexists. split; [auto|]. split; [reflexivity|discriminate]. }
  assert (Rv : requests ev = []) by (destruct Ev as [-> | ->]; reflexivity).
  specialize (T2 eq_refl). specialize (Rt' eq_refl). subst mt. rewrite app_nil_r in Rt.
  (* the index *)
  unfold fbind at 1, fget at 1 in E. unfold fseq at 1 in E. unfold fbind at 1, femit in E.
  cbn [f_disk f_links f_gets f_stores apply app] in E.
  destruct (s_get e (f_gets s2) (urlunparse INDEX_U)) as [page|x] eqn:Eg.
  2: { inversion E; subst. cbn [f_links f_disk]. rewrite T3, L1.
       split; [exact Dl|]. split; [exists []; rewrite app_nil_r; reflexivity|].
       split; [|split; [|discriminate]].
       - intros t C. rewrite app_assoc in C.
         destruct (cut_app _ _ _ C) as [J|(t' & J & ->)].
         + destruct (Head t J) as [H|H]; auto.
         + right. left. rewrite replay_app, replay_app, <- D1, <- Dt, (cut_quiet _ _ J).
           apply interrupted_finished. exact T2.
       - exists []. unfold plan. rewrite Rt. rewrite !requests_app, Rv. cbn [app requests].
         eexists. split; [auto|]. rewrite <- app_assoc. split; [reflexivity|discriminate]. }
  (* the page *)
  unfold fseq at 1 in E. unfold fbind at 1 in E.
  match type of E with context [feed e ?ts ?s0] =>
    destruct (feed_outcome e ts s0) as [(us & Ls & Ef)|(us & x & Ds & _ & Ef)] end; rewrite Ef in E;
    cbn [f_links f_disk f_gets f_stores] in E.
  2: { inversion E; subst. cbn [f_links f_disk]. rewrite T3, L1.
       split; [apply Forall_app; auto|]. split; [exists us; reflexivity|].
       split; [|split; [|discriminate]].
       - intros t C. rewrite app_assoc in C.
         destruct (cut_app _ _ _ C) as [J|(t' & J & ->)].
         + destruct (Head t J) as [H|H]; auto.
         + right. left. rewrite replay_app, replay_app, <- D1, <- Dt, (cut_quiet _ _ J).
           apply interrupted_finished. exact T2.
       - exists []. unfold plan. rewrite Rt. rewrite !requests_app, Rv. cbn [app requests].
         eexists. split; [auto|]. rewrite <- app_assoc. split; [reflexivity|discriminate]. }
  rewrite T3, L1 in E.
  match type of E with context [download_files e dst ?ls ?s0] =>
    destruct (download_files e dst ls s0) as [[s3 ev3] r3] eqn:E3 end.
  destruct (download_files_cut _ _ _ _ _ _ _ E3) as (F1 & F2 & F3).
  destruct (download_files_requests _ _ _ _ _ _ _ E3) as (mf & Rf & Rf').
  cbn [f_disk f_links] in F1, F2, F3, Rf.
  assert (Pg : page_lists e us) by (exists (f_gets s2), page; auto).
  assert (Es' : s' = s3 /\ tr = ev ++ ev2 ++ [FGet (urlunparse INDEX_U)] ++ ev3 /\ r = r3).
  { destruct r3 as [[]|x]; inversion E; subst; auto. }
  clear E. destruct Es' as (-> & -> & ->). rewrite F3, T3, L1 in *.
  split; [apply Forall_app; split; [exact Dl|apply (listing_documents _ _ _ Ls)]|].
  split; [exists us; reflexivity|]. split; [|split].
  - intros t C. rewrite app_assoc in C.
    destruct (cut_app _ _ _ C) as [J|(t1 & J & ->)].
    + destruct (Head t J) as [H|H]; auto.
    + rewrite replay_app, replay_app, <- D1, <- Dt.
      destruct (cut_app _ _ _ J) as [J1|(t' & J1 & ->)].
      * right. left. rewrite (cut_quiet _ _ J1). apply interrupted_finished. exact T2.
      * right. right. exists us. split; [exact Pg|].
        apply (interrupted_app _ _ _ [TERMS_U] _ _ _ T2).
        rewrite replay_app. exact (F1 _ J1).
  - exists us, mf. split; [auto|]. split.
    + unfold plan. rewrite Rt, !requests_app, Rv. cbn [app requests]. rewrite <- !app_assoc.
      cbn [app]. f_equal. f_equal. rewrite <- Rf. f_equal. apply missing_ext. intros p.
      inversion T2 as [|? ? ? ? Hx Sx|? ? ? ? nx bx Hx Gx Sx]; subst.
      * inversion Sx as [? ? Sm| |]; subst. rewrite <- (same_exists _ _ _ Sm).
        destruct (text_eqb (place dst TERMS_U) p) eqn:Ep'; [|reflexivity].
        apply text_eqb_eq in Ep'. subst p. symmetry. exact Hx.
      * inversion Sx as [? ? Sm| |]; subst. rewrite <- (same_exists _ _ _ Sm).
        rewrite exists_with_file. reflexivity.
    + intros R. split; [auto|]. split; [exact Pg|]. split; [reflexivity|].
      apply (saved_app _ _ _ [TERMS_U] _ T2 (f_links s ++ us)). apply F2. exact R.
  - intros _. rewrite <- D1'. unfold exists_. rewrite Dd. destruct (file (f_disk s1) dst); reflexivity.
Qed.
