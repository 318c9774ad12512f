(** The documentation fetcher (cbus/tools/fetch_protocol_docs.py): what it asks
    the network for, and what it does to the disk, wherever it stops. *)
From Coq Require Import List ZArith Bool Lia String.
From Verif Require Import Py Text Mqtt_facts Fetch Spec_fetch Fetch_facts Fetch_names.
Import ListNotations.
Notation length := List.length.
Open Scope Z_scope.

(** ** Disks between calls *)

Lemma saved_facts e dst d ls d' : saved e dst d ls d' ->
  (forall p, dir d' p = dir d p)
  /\ (forall p b, file d p = Some b -> file d' p = Some b)
  /\ (forall p b, file d' p = Some b -> file d p = None ->
        exists l n, In l ls /\ p = place dst l /\ s_get e n (urlunparse l) = Ok b)
  /\ (forall l, In l ls -> exists_ d' (place dst l) = true)
  /\ (forall p, exists_ d p = true -> exists_ d' p = true).
Proof.
  induction 1 as [d d' [H K]|d l ls d' H _ (I0 & I1 & I2 & I3 & I4)
                 |d l ls d' n body H G _ (I0 & I1 & I2 & I3 & I4)].
  - repeat split.
    + intros p. symmetry. apply K.
    + intros p b E. rewrite <- H. exact E.
    + intros p b E E'. rewrite <- H in E. congruence.
    + intros l [].
    + intros p E. rewrite <- (same_exists d d' p); [exact E|split; assumption].
  - repeat split; auto.
    + intros p b E E'. destruct (I2 p b E E') as (m & k & M & P & Q). exists m, k. split; [right; exact M|auto].
    + intros m [<-|M]; auto.
  - repeat split; auto.
    + intros p b E. apply I1. cbn. rewrite put_other; [exact E|]. intros <-.
      unfold exists_ in H. rewrite E in H. discriminate.
    + intros p b E E'. destruct (list_eq_dec Z.eq_dec (place dst l) p) as [<-|N].
      * assert (F : file (with_file d (place dst l) body) (place dst l) = Some body)
          by (cbn; apply put_same).
        rewrite (I1 _ _ F) in E. inversion E; subst. exists l, n. split; [left; reflexivity|auto].
      * assert (F : file (with_file d (place dst l) body) p = None)
          by (cbn; rewrite put_other; auto).
        destruct (I2 p b E F) as (m & k & M & P & Q). exists m, k. split; [right; exact M|auto].
    + intros m [<-|M]; [|auto]. apply I4. rewrite exists_with_file, text_eqb_refl. reflexivity.
    + intros p E. apply I4. rewrite exists_with_file, E. apply orb_true_r.
Qed.

Lemma prepared_file d dst p : file (prepared d dst) p = file d p.
Proof. unfold prepared. destruct (exists_ d dst); reflexivity. Qed.
Lemma prepared_exists d dst p : exists_ d p = true -> exists_ (prepared d dst) p = true.
Proof.
  unfold prepared. destruct (exists_ d dst); [auto|]. unfold exists_. cbn. unfold put.
  destruct (file d p); [auto|]. destruct (text_eqb dst p); auto.
Qed.

(** What the disk may look like when a call is cut short. *)
Lemma interrupted_facts e dst d ls d' : interrupted e dst d ls d' ->
  (forall p b, file d p = Some b -> file d' p = Some b)
  /\ (forall p b, file d' p = Some b -> file d p = None ->
        exists l n body k, In l ls /\ p = place dst l /\ s_get e n (urlunparse l) = Ok body
                           /\ b = firstn k body)
  /\ (exists pe, forall p b, p <> pe -> file d' p = Some b -> file d p = None ->
        exists l n, In l ls /\ p = place dst l /\ s_get e n (urlunparse l) = Ok b).
Proof.
  intros (j & d1 & Sv & K). destruct (saved_facts _ _ _ _ _ Sv) as (_ & S1 & S2 & _ & _).
  assert (Sub : forall l, In l (firstn j ls) -> In l ls).
  { intros l Hl. rewrite <- (firstn_skipn j ls). apply in_or_app. auto. }
  destruct K as [[K _]|(l & n & body & k & N & Ex & G & [K _])].
  - repeat split.
    + intros p b E. rewrite K. auto.
    + intros p b E E'. rewrite K in E. destruct (S2 p b E E') as (m & i & M & P & Q).
      exists m, i, b, (length b). rewrite firstn_all. auto.
    + exists []. intros p b _ E E'. rewrite K in E. destruct (S2 p b E E') as (m & i & M & P & Q).
      exists m, i. auto.
  - apply nth_error_In in N. repeat split.
    + intros p b E. rewrite K. cbn. rewrite put_other; [auto|]. intros <-.
      apply S1 in E. unfold exists_ in Ex. rewrite E in Ex. discriminate.
    + intros p b E E'. rewrite K in E. cbn in E.
      destruct (list_eq_dec Z.eq_dec (place dst l) p) as [<-|Np].
      * rewrite put_same in E. inversion E; subst. exists l, n, body, k. auto.
      * rewrite put_other in E by exact Np. destruct (S2 p b E E') as (m & i & M & P & Q).
        exists m, i, b, (length b). rewrite firstn_all. auto.
    + exists (place dst l). intros p b Np E E'. rewrite K in E. cbn in E.
      rewrite put_other in E by auto. destruct (S2 p b E E') as (m & i & M & P & Q).
      exists m, i. auto.
Qed.

(** One call, cut short anywhere. *)
Lemma call_cut e dst s s' tr r t :
  Forall document (f_links s) -> download_docs e dst s = (s', tr, r) -> cut tr t ->
  (forall p b, file (f_disk s) p = Some b -> file (replay (f_disk s) t) p = Some b)
  /\ (forall p b, file (replay (f_disk s) t) p = Some b -> file (f_disk s) p = None ->
        exists l n body k, document l /\ p = place dst l /\ s_get e n (urlunparse l) = Ok body
                           /\ b = firstn k body)
  /\ (exists pe, forall p b, p <> pe -> file (replay (f_disk s) t) p = Some b ->
        file (f_disk s) p = None ->
        exists l n, document l /\ p = place dst l /\ s_get e n (urlunparse l) = Ok b).
Proof.
  intros Dl E C. destruct (download_docs_outcome _ _ _ _ _ _ Dl E) as (_ & _ & Cu & _ & _).
  assert (G : forall ls, Forall document ls ->
    interrupted e dst (prepared (f_disk s) dst) ls (replay (f_disk s) t) ->
  (forall p b, file (f_disk s) p = Some b -> file (replay (f_disk s) t) p = Some b)
  /\ (forall p b, file (replay (f_disk s) t) p = Some b -> file (f_disk s) p = None ->
        exists l n body k, document l /\ p = place dst l /\ s_get e n (urlunparse l) = Ok body
                           /\ b = firstn k body)
  /\ (exists pe, forall p b, p <> pe -> file (replay (f_disk s) t) p = Some b ->
        file (f_disk s) p = None ->
        exists l n, document l /\ p = place dst l /\ s_get e n (urlunparse l) = Ok b)).
  { intros ls D I. destruct (interrupted_facts _ _ _ _ _ I) as (I1 & I2 & pe & I3).
    rewrite Forall_forall in D. repeat split.
    - intros p b F. apply I1. rewrite prepared_file. exact F.
    - intros p b F N. destruct (I2 p b F) as (l & n & body & k & M & X);
        [rewrite prepared_file; exact N|]. exists l, n, body, k. auto.
    - exists pe. intros p b Np F N. destruct (I3 p b Np F) as (l & n & M & X);
        [rewrite prepared_file; exact N|]. exists l, n. auto. }
  destruct (Cu t C) as [H|[I|(us & (m & page & _ & Ls) & I)]].
  - rewrite H. repeat split; [auto|congruence|]. exists []. congruence.
  - apply (G [TERMS_U]); [|exact I]. constructor; [apply terms_document|constructor].
  - refine (G _ _ I). constructor; [apply terms_document|].
    apply Forall_app. split; [exact Dl|]. apply (listing_documents _ _ _ Ls).
Qed.

(** ** Histories *)

Lemma docs_in_step e dst : in_step (download_docs e dst).
Proof.
  apply in_step_bind; [|intros _; apply in_step_bind; [apply in_step_file|intros _]].
  - intros s s' tr r E. destruct (prepare_outcome e dst s)
      as [(x & Ep)|(ev & s1 & Ep & _ & D & _)]; rewrite Ep in E; inversion E; subst; auto.
  - apply in_step_bind; [apply in_step_get|]. intros body. apply in_step_bind.
    + intros s s' tr r E. match type of E with feed e ?ts s = _ =>
        destruct (feed_outcome e ts s) as [(us & _ & Ef)|(us & x & _ & _ & Ef)] end;
        rewrite Ef in E; inversion E; reflexivity.
    + intros _ s. apply in_step_files.
Qed.

(** A call in the middle of a history starts from the disk its predecessors left. *)
Lemma fetch_run_call calls : forall s s' trs before tr r after,
  Forall document (f_links s) -> fetch_run s calls = (s', trs) ->
  trs = before ++ (tr, r) :: after ->
  exists s1 s2 e dst, Forall document (f_links s1)
    /\ f_disk s1 = replay (f_disk s) (List.concat (map fst before))
    /\ In (e, dst) calls /\ download_docs e dst s1 = (s2, tr, r).
Proof.
  induction calls as [|[e dst] calls IH]; intros s s' trs before tr r after D E Et; cbn in E.
  - inversion E; subst. destruct before; discriminate.
  - destruct (download_docs e dst s) as [[s1 tr1] r1] eqn:E1.
    destruct (fetch_run s1 calls) as [s2 rest] eqn:E2. inversion E; subst.
    destruct before as [|[tr0 r0] before]; cbn in H1; inversion H1; subst.
    + exists s, s1, e, dst. split; [exact D|]. split; [reflexivity|]. split; [left; reflexivity|exact E1].
    + destruct (download_docs_outcome _ _ _ _ _ _ D E1) as (D1 & _).
      destruct (IH _ _ _ _ _ _ _ D1 E2 eq_refl) as (a & b & e' & dst' & Da & Ka & Ia & Xa).
      exists a, b, e', dst'. split; [exact Da|]. split; [|split; [right; exact Ia|exact Xa]].
      rewrite Ka. cbn [map fst List.concat]. rewrite replay_app.
      rewrite (docs_in_step _ _ _ _ _ _ E1). reflexivity.
Qed.

(** The disk after whole calls. *)
Lemma whole_calls calls : forall s s' trs before after p,
  Forall document (f_links s) -> fetch_run s calls = (s', trs) -> trs = before ++ after ->
  (forall b, file (f_disk s) p = Some b ->
     file (replay (f_disk s) (List.concat (map fst before))) p = Some b)
  /\ (forall b, file (replay (f_disk s) (List.concat (map fst before))) p = Some b ->
        file (f_disk s) p = None ->
        exists e dst l n body k, In (e, dst) calls /\ document l /\ p = place dst l
          /\ s_get e n (urlunparse l) = Ok body /\ b = firstn k body).
Proof.
  induction calls as [|[e dst] calls IH]; intros s s' trs before after p D E Et; cbn in E.
  - inversion E; subst. destruct before; [|discriminate]. cbn. split; [auto|congruence].
  - destruct (download_docs e dst s) as [[s1 tr1] r1] eqn:E1.
    destruct (fetch_run s1 calls) as [s2 rest] eqn:E2. inversion E; subst.
    destruct before as [|[tr0 r0] before]; [cbn; split; [auto|congruence]|].
    cbn in H1. inversion H1; subst.
    destruct (download_docs_outcome _ _ _ _ _ _ D E1) as (D1 & _).
    destruct (call_cut _ _ _ _ _ _ _ D E1 (cut_all _)) as (C1 & C2 & _).
    rewrite <- (docs_in_step _ _ _ _ _ _ E1) in C1, C2.
    destruct (IH _ _ _ before after p D1 E2 eq_refl) as (I1 & I2).
    cbn [map fst List.concat]. rewrite replay_app, <- (docs_in_step _ _ _ _ _ _ E1).
    split; [auto|]. intros b F N.
    destruct (file (f_disk s1) p) as [b1|] eqn:F1.
    + pose proof (I1 b1 eq_refl) as F2. rewrite F2 in F. inversion F; subst.
      destruct (C2 p b F1 N) as (l & n & body & k & X). exists e, dst, l, n, body, k.
      split; [left; reflexivity|exact X].
    + destruct (I2 b F eq_refl) as (e' & dst' & l & n & body & k & M & X).
      exists e', dst', l, n, body, k. split; [right; exact M|exact X].
Qed.

Lemma new_links d : Forall document (f_links (new_process d)).
Proof. constructor. Qed.

(** ** C76 *)

(** Whatever the pages say and however often it is called in one process, only
    the manufacturer's server is asked for anything. *)
Theorem C76_requests d calls s' trs tr r uri :
  fetch_run (new_process d) calls = (s', trs) -> In (tr, r) trs -> In (FGet uri) tr ->
  on_server uri.
Proof.
  intros E H G. apply in_split in H. destruct H as (before & after & ->).
  destruct (fetch_run_call _ _ _ _ _ _ _ _ (new_links d) E eq_refl)
    as (s1 & s2 & e & dst & D1 & _ & _ & E1).
  destruct (download_docs_outcome _ _ _ _ _ _ D1 E1) as (_ & _ & _ & (us & more & Us & P & _) & _).
  assert (M : In uri (plan (prepared (f_disk s1) dst) dst (f_links s1 ++ us))).
  { rewrite P. apply in_or_app. left. clear - G. induction tr as [|ev tr IH]; [destruct G|].
    destruct G as [->|G]; [left; reflexivity|]. destruct ev; cbn; auto. }
  assert (Du : Forall document us).
  { destruct Us as [->|(n & page & _ & Ls)]; [constructor|apply (listing_documents _ _ _ Ls)]. }
  assert (Sub : forall ls h x, In x (missing h dst ls) -> In x ls).
  { clear. induction ls as [|l ls IH]; intros h x H; cbn in H; [destruct H|].
    destruct (h (place dst l)); [right; eapply IH; exact H|].
    destruct H as [->|H]; [left; reflexivity|right; eapply IH; exact H]. }
  unfold plan in M. apply in_app_or in M. destruct M as [M|[M|M]].
  - apply in_map_iff in M. destruct M as (x & <- & M). apply Sub in M. destruct M as [<-|[]].
    apply document_on_server. apply terms_document.
  - subst uri. apply index_on_server.
  - apply in_map_iff in M. destruct M as (x & <- & M). apply Sub in M.
    apply document_on_server. apply in_app_or in M.
    destruct M as [M|M]; [rewrite Forall_forall in D1; auto|rewrite Forall_forall in Du; auto].
Qed.

(** Wherever the process is killed: a file that was there is untouched; a file
    that was not is at the place of a document of that server, under a destination
    it was called with, has a name ending in .pdf, and begins like an answer of the
    server to a request for that document. *)
Theorem C76_disk d calls s' trs t p :
  fetch_run (new_process d) calls = (s', trs) -> killed trs t ->
  (forall b, file d p = Some b -> file (replay d t) p = Some b)
  /\ (forall b, file (replay d t) p = Some b -> file d p = None ->
        (exists stem, p = stem ++ txt ".pdf")
        /\ exists e dst l n body k, In (e, dst) calls /\ document l /\ p = place dst l
             /\ s_get e n (urlunparse l) = Ok body /\ b = firstn k body).
Proof.
  intros E (before & tr & r & after & t' & Et & C & ->).
  destruct (fetch_run_call _ _ _ _ _ _ _ _ (new_links d) E Et)
    as (s1 & s2 & e & dst & D1 & K1 & In1 & E1).
  destruct (whole_calls _ _ _ _ before _ p (new_links d) E Et) as (W1 & W2).
  cbn [f_disk new_process] in *. rewrite replay_app, <- K1 in *.
  destruct (call_cut _ _ _ _ _ _ _ D1 E1 C) as (C1 & C2 & _).
  split; [auto|]. intros b F N.
  assert (X : exists e dst l n body k, In (e, dst) calls /\ document l /\ p = place dst l
             /\ s_get e n (urlunparse l) = Ok body /\ b = firstn k body).
  { destruct (file (f_disk s1) p) as [b1|] eqn:F1.
    - pose proof (C1 p b1 F1) as F2. rewrite F2 in F. inversion F; subst. apply W2; auto.
    - destruct (C2 p b F F1) as (l & n & body & k & Y). exists e, dst, l, n, body, k. auto. }
  split; [|exact X]. destruct X as (e0 & dst0 & l & _ & _ & _ & _ & Dl & -> & _).
  destruct (short_name_pdf _ Dl) as (stem & Hs). destruct (path_join_ends dst0 (short_name l)) as (a & Ha).
  exists (a ++ stem). unfold place. rewrite Ha, Hs, app_assoc. reflexivity.
Qed.

(** In one call at most one of the new files is not whole. *)
Theorem C76_whole e dst d s' tr r t :
  download_docs e dst (new_process d) = (s', tr, r) -> cut tr t ->
  exists pe, forall p b, p <> pe -> file (replay d t) p = Some b -> file d p = None ->
    exists l n, document l /\ p = place dst l /\ s_get e n (urlunparse l) = Ok b.
Proof. intros E C. exact (proj2 (proj2 (call_cut _ _ _ _ _ _ _ (new_links d) E C))). Qed.

(** The address at which a document is requested, and those of the terms and of
    the index. *)
Theorem C76_address : (forall l, document l -> address l (urlunparse l))
  /\ urlunparse TERMS_U =
       txt "https://updates.clipsal.com/ClipsalSoftwareDownload/DL/downloads/OpenCBus/Open%20C-Bus%20Serial%20Protocol%20Agreement.pdf"
  /\ urlunparse INDEX_U =
       txt "https://updates.clipsal.com/ClipsalSoftwareDownload/DL/downloads/OpenCBus/OpenCBusProtocolDownloads.html".
Proof.
  split; [|split; vm_compute; reflexivity]. intros l (Sc & N & stem & P).
  assert (Q : exists c r, u_path l = c :: r) by (rewrite P; destruct stem; eexists; eexists; reflexivity).
  destruct Q as (c & r & Q). exists (if c =? 47 then r else c :: r). split.
  - destruct (c =? 47) eqn:C.
    + left. assert (c = 47) by lia. subst c. exact Q.
    + right. split; [|exact Q]. intros [q E]. rewrite Q in E. inversion E. lia.
  - unfold urlunparse. rewrite N, Q.
    assert (S : is_nil (u_scheme l) = false) by (destruct Sc as [-> | ->]; reflexivity). rewrite S. clear.
    assert (X : forall sign t, part sign t = if is_nil t then [] else sign ++ t) by (intros sign [|y t]; reflexivity).
    rewrite !X. destruct (is_nil (u_params l)), (is_nil (u_query l)), (is_nil (u_fragment l)), (c =? 47) eqn:C;
      cbn [app]; rewrite ?C; try (assert (c = 47) by lia; subst c);
      change (txt "://updates.clipsal.com/") with (txt ":" ++ txt "//" ++ txt "updates.clipsal.com" ++ [47]);
      cbn [app]; repeat (rewrite <- ?app_assoc; cbn [app]); rewrite ?app_nil_r; reflexivity.
Qed.
Print Assumptions C76_address.

(** A call that returns has asked for the terms and then, in the order of the
    page, for every document whose file was missing; each document is on the disk,
    and every new file is whole. *)
Theorem C76_done e dst d s' tr :
  download_docs e dst (new_process d) = (s', tr, Ok tt) ->
  exists us, page_lists e us
    /\ requests tr = plan (prepared d dst) dst us
    /\ (forall l, In l (TERMS_U :: us) -> exists_ (f_disk s') (place dst l) = true)
    /\ (forall p b, file (f_disk s') p = Some b -> file d p = None ->
          exists l n, In l (TERMS_U :: us) /\ p = place dst l /\ s_get e n (urlunparse l) = Ok b).
Proof.
  intros E. destruct (download_docs_outcome _ _ _ _ _ _ (new_links d) E)
    as (_ & _ & _ & (us & more & _ & P & K) & _).
  destruct (K eq_refl) as (-> & Pg & L & Sv). cbn [f_links new_process app f_disk] in *.
  exists us. rewrite L in Sv. split; [exact Pg|]. split; [rewrite P, app_nil_r; reflexivity|].
  destruct (saved_facts _ _ _ _ _ Sv) as (_ & _ & S2 & S3 & _). split; [exact S3|].
  intros p b F N. apply S2; [exact F|]. rewrite prepared_file. exact N.
Qed.

(** A further call in the same process sees to the documents of all earlier pages
    again: the list of links is shared. *)
Theorem C76_again e1 dst1 e2 dst2 d s' tr1 tr2 :
  fetch_run (new_process d) [(e1, dst1); (e2, dst2)] = (s', [(tr1, Ok tt); (tr2, Ok tt)]) ->
  exists us1 us2, page_lists e1 us1 /\ page_lists e2 us2
    /\ requests tr2 = plan (prepared (replay d tr1) dst2) dst2 (us1 ++ us2)
    /\ forall l, In l (TERMS_U :: us1 ++ us2) -> exists_ (f_disk s') (place dst2 l) = true.
Proof.
  intros E. cbn [fetch_run] in E.
  destruct (download_docs e1 dst1 (new_process d)) as [[s1 t1] r1] eqn:E1.
  destruct (download_docs e2 dst2 s1) as [[s2 t2] r2] eqn:E2. inversion E; subst.
  pose proof (docs_in_step _ _ _ _ _ _ E1) as Ds. cbn [f_disk new_process] in Ds. rewrite <- Ds.
  destruct (download_docs_outcome _ _ _ _ _ _ (new_links d) E1)
    as (D1 & _ & _ & (us1 & more1 & _ & P1 & K1) & _).
  destruct (K1 eq_refl) as (_ & Pg1 & L1 & _). cbn [f_links new_process app] in L1.
  destruct (download_docs_outcome _ _ _ _ _ _ D1 E2) as (_ & _ & _ & (us2 & more2 & _ & P2 & K2) & _).
  destruct (K2 eq_refl) as (-> & Pg2 & L2 & Sv). rewrite L1 in *.
  exists us1, us2. split; [exact Pg1|]. split; [exact Pg2|].
  split; [rewrite P2, app_nil_r; reflexivity|].
  rewrite L2 in Sv. exact (proj1 (proj2 (proj2 (proj2 (saved_facts _ _ _ _ _ Sv))))).
Qed.

(** The file of a document is directly in the destination, unless the last part of
    the link's path contains an escaped slash; its name is what the part spells. *)
Theorem C76_place dst l : document l -> dst <> [] ->
  (~ escaped_slash (last_segment (u_path l)) ->
     place dst l = (if ends_with (txt "/") dst then dst else dst ++ txt "/") ++ short_name l
     /\ ~ In 47 (short_name l) /\ exists stem, short_name l = stem ++ txt ".pdf")
  /\ (forall before seg name, u_path l = before ++ txt "/" ++ seg -> ~ In 47 seg -> spells seg name ->
        short_name l = name).
Proof.
  intros D N. split.
  - intros E. assert (S : ~ In 47 (short_name l)) by (intros H; apply E; apply short_name_slash; exact H).
    split; [apply place_inside; assumption|]. split; [exact S|]. apply short_name_pdf. exact D.
  - intros before seg name P Ns Sp. unfold short_name. rewrite P, app_assoc.
    rewrite last_segment_app by exact Ns.
    assert (L : last_segment (before ++ txt "/") = []).
    { clear. induction before as [|c b IH]; [reflexivity|]. cbn [app last_segment].
      replace (mem 47 (b ++ txt "/")) with true; [exact IH|]. symmetry. apply mem_spec.
      apply in_or_app. right. left. reflexivity. }
    rewrite L. cbn [app]. apply unquote_spells. exact Sp.
Qed.
