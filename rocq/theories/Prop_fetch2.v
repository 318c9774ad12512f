(** Taking up an interrupted run of the documentation fetcher, and the limits of
    that. *)
From Coq Require Import List ZArith Bool Lia String.
From Verif Require Import Py Text Mqtt_facts Fetch Spec_fetch Fetch_facts Fetch_names Prop_fetch Fetch_resume.
Import ListNotations.
Notation length := List.length.
Open Scope Z_scope.

(** A run that was stopped (by an exception or by being killed), but not between
    creating a file and filling it, and then started again: once the second run
    returns, the files are those an undisturbed run would have left. *)
Theorem C76_resume a b c dst d sa tra ra t sb trb sc trc :
  same_site a c -> same_site b c -> (forall n, s_store a n = None) ->
  download_docs a dst (new_process d) = (sa, tra, ra) -> pause tra t ->
  download_docs b dst (new_process (replay d t)) = (sb, trb, Ok tt) ->
  download_docs c dst (new_process d) = (sc, trc, Ok tt) ->
  forall p, file (f_disk sb) p = file (f_disk sc) p.
Proof.
  intros Sa Sb St Ea C Eb Ec.
  pose proof (download_docs_pause _ _ _ _ _ _ _ St Ea C) as H. clear Ea C.
  destruct (download_docs_outcome _ _ _ _ _ _ (new_links (replay d t)) Eb)
    as (_ & _ & _ & (usb & mb & _ & _ & Kb) & _).
  destruct (Kb eq_refl) as (_ & Pb & Lb & Vb).
  destruct (download_docs_outcome _ _ _ _ _ _ (new_links d) Ec)
    as (_ & _ & _ & (usc & mc & _ & _ & Kc) & Xc).
  destruct (Kc eq_refl) as (_ & Pc & Lc & Vc). specialize (Xc eq_refl).
  cbn [f_links f_disk new_process app] in *. rewrite Lb in Vb. rewrite Lc in Vc.
  rewrite (same_page _ _ _ _ Sb Pb Pc) in Vb.
  assert (Id : forall a0 dst0 d0 ls j d1, saved a0 dst0 d0 (firstn j ls) d1 ->
            exists_ d0 dst0 = true -> prepared d1 dst0 = d1).
  { intros a0 dst0 d0 ls j d1 Sv X. unfold prepared.
    rewrite (proj2 (proj2 (proj2 (proj2 (saved_facts _ _ _ _ _ Sv)))) _ X). reflexivity. }
  destruct H as [H|[(j & H)|(us & Pa & j & H)]].
  - rewrite H in Vb.
    apply (finish_later b b c dst (prepared d dst) (TERMS_U :: usc) 0 (prepared d dst)); auto.
    constructor. apply same_disk_refl.
  - rewrite (Id _ _ _ _ _ _ H Xc) in Vb.
    apply (page_all a b c dst (prepared d dst) usc (Nat.min j 1) (replay d t)); auto; [lia|].
    destruct j as [|j]; [exact H|]. cbn [firstn] in H. rewrite firstn_nil in H.
    rewrite Nat.min_r by lia. exact H.
  - rewrite (Id _ _ _ _ _ _ H Xc) in Vb. rewrite (same_page _ _ _ _ Sa Pa Pc) in H.
    apply (finish_later a b c dst (prepared d dst) (TERMS_U :: usc) j (replay d t)); auto.
Qed.

(** ** Limits *)

(** A made-up server: the index is the page "index", and any other address answers
    with a text of its own. *)
Definition demo (tags : list starttag) : site :=
  mkSite (fun _ uri => Ok (if text_eqb uri (urlunparse INDEX_U) then txt "index" else txt "%PDF " ++ uri))
         (fun b => b) (fun t => if text_eqb t (txt "index") then tags else [])
         (fun v => Ok (mkUrl (txt "https") HOST (match v with Some p => p | None => [] end) [] [] []))
         (fun _ => None) (fun _ _ => None) (fun _ => None).
Definition link_to (p : text) : url := mkUrl (txt "https") HOST p [] [] [].
Definition two_documents : list starttag :=
  [(txt "p", []);
   (txt "A", [(txt "class", Some (txt "x")); (txt "HREF", Some (txt "/d/Lighting%20Application.pdf"))]);
   (txt "a", [(txt "href", Some (txt "/d/notes.html"))]);
   (txt "a", [(txt "href", Some (txt "/d/Chapter%201.pdf"))]);
   (txt "a", [(txt "href", Some (txt "/d/Lighting%20Application.pdf"))])].
Definition no_disk : disk := mkDisk (fun _ => None) (fun _ => false).

(** A page can make the tool write outside the destination: the part after the
    last slash is unquoted after it was cut off, so "..%2F..%2Fx.pdf" climbs. *)
Theorem C76_outside_refuted :
  ~ forall e dst d s' tr p b,
      download_docs e dst (new_process d) = (s', tr, Ok tt) ->
      file d p = None -> file (f_disk s') p = Some b ->
      exists name, p = dst ++ txt "/" ++ name /\ ~ In 47 name.
Proof.
  intros H.
  set (e := demo [(txt "a", [(txt "href", Some (txt "/d/..%2F..%2Fx.pdf"))])]).
  destruct (download_docs e (txt "docs") (new_process no_disk)) as [[s' tr] r] eqn:E.
  assert (R : r = Ok tt).
  { replace r with (snd (download_docs e (txt "docs") (new_process no_disk))) by (rewrite E; reflexivity).
    vm_compute. reflexivity. }
  assert (F : file (f_disk s') (txt "docs/../../x.pdf")
              = Some (txt "%PDF https://updates.clipsal.com/d/..%2F..%2Fx.pdf")).
  { replace s' with (fst (fst (download_docs e (txt "docs") (new_process no_disk)))) by (rewrite E; reflexivity).
    vm_compute. reflexivity. }
  subst r. destruct (H _ _ _ _ _ _ _ E eq_refl F) as (name & P & N).
  vm_compute in P. inversion P as [P']. rewrite <- P' in N. apply N. right. right. left. reflexivity.
Qed.
Print Assumptions C76_outside_refuted.

(** A file whose contents were cut off by the end of the process is not repaired
    by running the tool again. *)
Theorem C76_repair_refuted :
  ~ forall a b dst d sa tra ra t sb trb p x,
      same_site a b ->
      download_docs a dst (new_process d) = (sa, tra, ra) -> cut tra t ->
      download_docs b dst (new_process (replay d t)) = (sb, trb, Ok tt) ->
      file d p = None -> file (f_disk sb) p = Some x ->
      exists l n, p = place dst l /\ s_get b n (urlunparse l) = Ok x.
Proof.
  intros H. set (e := demo two_documents).
  assert (Se : same_site e e).
  { repeat split. intros n m u x y A B. cbn in A, B. congruence. }
  destruct (download_docs e (txt "docs") (new_process no_disk)) as [[sa tra] ra] eqn:E.
  set (T := txt "docs/Open C-Bus Serial Protocol Agreement.pdf").
  set (t := [FMkdir (txt "docs"); FGet (urlunparse TERMS_U); FCreate T]).
  assert (C : cut tra t).
  { replace tra with (snd (fst (download_docs e (txt "docs") (new_process no_disk))))
      by (rewrite E; reflexivity).
    vm_compute. repeat constructor. }
  destruct (download_docs e (txt "docs") (new_process (replay no_disk t))) as [[sb trb] rb] eqn:Eb.
  assert (R : rb = Ok tt).
  { replace rb with (snd (download_docs e (txt "docs") (new_process (replay no_disk t))))
      by (rewrite Eb; reflexivity). vm_compute. reflexivity. }
  assert (F : file (f_disk sb) T = Some []).
  { replace sb with (fst (fst (download_docs e (txt "docs") (new_process (replay no_disk t)))))
      by (rewrite Eb; reflexivity). vm_compute. reflexivity. }
  subst rb. destruct (H _ _ _ _ _ _ _ _ _ _ _ _ Se E C Eb eq_refl F) as (l & n & _ & G).
  cbn in G. destruct (text_eqb _ _); discriminate.
Qed.
Print Assumptions C76_repair_refuted.

(** ** Examples *)

(** A first run on an empty disk: three requests and the index, the repeated link
    only once. *)
Example C76_first_run :
  match download_docs (demo two_documents) (txt "docs") (new_process no_disk) with
  | (s, tr, r) =>
      r = Ok tt
      /\ requests tr = [urlunparse TERMS_U; urlunparse INDEX_U;
                        txt "https://updates.clipsal.com/d/Lighting%20Application.pdf";
                        txt "https://updates.clipsal.com/d/Chapter%201.pdf"]
      /\ file (f_disk s) (txt "docs/Lighting Application.pdf")
         = Some (txt "%PDF https://updates.clipsal.com/d/Lighting%20Application.pdf")
      /\ f_links s = [link_to (txt "/d/Lighting%20Application.pdf"); link_to (txt "/d/Chapter%201.pdf");
                      link_to (txt "/d/Lighting%20Application.pdf")]
  end.
Proof. vm_compute. repeat split. Qed.

(** Killed in the middle of the second file: its beginning is there. *)
Example C76_killed_case :
  exists s' trs t,
    fetch_run (new_process no_disk) [(demo two_documents, txt "docs")] = (s', trs)
    /\ killed trs t
    /\ file (replay no_disk t) (txt "docs/Lighting Application.pdf") = Some (txt "%PDF ht").
Proof.
  destruct (fetch_run (new_process no_disk) [(demo two_documents, txt "docs")]) as [s' trs] eqn:E.
  set (T := txt "docs/Open C-Bus Serial Protocol Agreement.pdf").
  set (L := txt "docs/Lighting Application.pdf").
  exists s', trs, [FMkdir (txt "docs"); FGet (urlunparse TERMS_U); FCreate T;
                   FWrite T (txt "%PDF " ++ urlunparse TERMS_U); FGet (urlunparse INDEX_U);
                   FGet (txt "https://updates.clipsal.com/d/Lighting%20Application.pdf");
                   FCreate L;
                   FWrite L (firstn 7 (txt "%PDF https://updates.clipsal.com/d/Lighting%20Application.pdf"))].
  split; [reflexivity|]. split; [|vm_compute; reflexivity].
  replace trs with (snd (fetch_run (new_process no_disk) [(demo two_documents, txt "docs")]))
    by (rewrite E; reflexivity).
  exists [], (snd (fst (download_docs (demo two_documents) (txt "docs") (new_process no_disk)))), (Ok tt), [].
  eexists. split; [vm_compute; reflexivity|]. split; [|reflexivity].
  vm_compute. repeat (apply cut_on).
  match goal with |- cut (FWrite ?p ?b :: ?tr) _ => exact (cut_short p b 7 tr) end.
Qed.

(** Interrupted by a failing request, and taken up again. *)
Definition flaky : site :=
  mkSite (fun n uri => match n with 3%nat => Raise OSError | _ => s_get (demo two_documents) n uri end)
         (s_text (demo two_documents)) (s_tags (demo two_documents)) (s_resolve (demo two_documents))
         (fun _ => None) (fun _ _ => None) (fun _ => None).
Example C76_resume_case :
  match download_docs flaky (txt "docs") (new_process no_disk) with
  | (_, tr, r) =>
      r = Raise OSError /\ pause tr tr
      /\ file (replay no_disk tr) (txt "docs/Chapter 1.pdf") = None
      /\ match download_docs (demo two_documents) (txt "docs") (new_process (replay no_disk tr)) with
         | (s2, tr2, r2) =>
             r2 = Ok tt
             /\ requests tr2 = [urlunparse INDEX_U; txt "https://updates.clipsal.com/d/Chapter%201.pdf"]
             /\ file (f_disk s2) (txt "docs/Chapter 1.pdf")
                = Some (txt "%PDF https://updates.clipsal.com/d/Chapter%201.pdf")
         end
  end.
Proof. vm_compute. repeat split. repeat constructor. Qed.
Example C76_resume_same : same_site flaky (demo two_documents).
Proof.
  repeat split. intros n m u x y A B. cbn in A, B.
  destruct n as [|[|[|[|n]]]]; try discriminate; congruence.
Qed.

(** A second page in the same process, into another directory: the first page's
    documents are fetched again. *)
Example C76_again_case :
  match fetch_run (new_process no_disk)
          [(demo two_documents, txt "docs");
           (demo [(txt "a", [(txt "href", Some (txt "/new.pdf"))])], txt "other/")] with
  | (s, [(_, r1); (tr2, r2)]) =>
      r1 = Ok tt /\ r2 = Ok tt
      /\ requests tr2 = [urlunparse TERMS_U; urlunparse INDEX_U;
                         txt "https://updates.clipsal.com/d/Lighting%20Application.pdf";
                         txt "https://updates.clipsal.com/d/Chapter%201.pdf";
                         txt "https://updates.clipsal.com/new.pdf"]
      /\ exists_ (f_disk s) (txt "other/Chapter 1.pdf") = true
  | _ => False
  end.
Proof. vm_compute. repeat split. Qed.

Example C76_place_case :
  document (link_to (txt "/d/Caf%C3%A9%20%2525.pdf"))
  /\ place (txt "docs") (link_to (txt "/d/Lighting%20%2525.pdf")) = txt "docs/Lighting %25.pdf"
  /\ spells (txt "Lighting%20%2525.pdf") (txt "Lighting %25.pdf").
Proof.
  repeat split; try (right; reflexivity).
  - exists (txt "/d/Caf%C3%A9%20%2525"). reflexivity.
  - change (txt "Lighting%20%2525.pdf") with
      ([76; 105; 103; 104; 116; 105; 110; 103; 37; 50; 48; 37; 50; 53; 50; 53; 46; 112; 100; 102]).
    change (txt "Lighting %25.pdf") with
      ([76; 105; 103; 104; 116; 105; 110; 103; 2 * 16 + 0; 2 * 16 + 5; 50; 53; 46; 112; 100; 102]).
    repeat (first [apply spells_nil | apply spells_plain; [lia|lia|]
                  | apply (spells_escape _ _ 2 0); [unfold hex_is; lia|unfold hex_is; lia|lia|] | apply (spells_escape _ _ 2 5); [unfold hex_is; lia|unfold hex_is; lia|lia|]]).
Qed.

Print Assumptions C76_requests.
Print Assumptions C76_disk.
Print Assumptions C76_whole.
Print Assumptions C76_done.
Print Assumptions C76_again.
Print Assumptions C76_place.
Print Assumptions C76_resume.
