(** C82 and C83: dump_labels and graph as programs on files. *)
From Coq Require Import String List ZArith QArith Bool Lia.
From Verif Require Import Py Common Text Project Mqtt Client Cmqttd Cbz Toolkit Json Tools Base Spec Spec_client Spec_mqtt
  Spec_json Spec_cbz Spec_toolkit Spec_tools Mqtt_facts Json_facts Cbz_facts Prop_mqtt Prop_discovery Prop_cbz Prop_toolkit
  Prop_json Tools_facts.
Import ListNotations.
Open Scope Z_scope.
Notation length := List.length.

(** The networks described by the project file that the options name. *)
Definition project_of (lib : library) (s : system) (o : dump_options) (d : disk) (ns : list network) : Prop :=
  exists b root, d (do_input o) = Some b /\ holds (FileName (sys_project s b)) root
    /\ valid lib installation_schema root /\ describes lib root ns.
(** The options are acceptable and the project can be loaded, so that the output
    is opened. *)
Definition accepted (o : dump_options) : Prop := match do_pretty o with Some n => 0 <= n | None => True end.
Definition loadable (lib : library) (s : system) (o : dump_options) (d : disk) : Prop :=
  exists b root, d (do_input o) = Some b /\ holds (FileName (sys_project s b)) root /\ valid lib installation_schema root.
Definition openable (s : system) (o : dump_options) : Prop :=
  match do_output o with Some f => sys_writable s f = true | None => True end.
Definition start_of (o : dump_options) : list act := match do_output o with Some f => [Truncate f] | None => [] end.
Definition write_of (o : dump_options) (t : bytes) : list act :=
  match do_output o with Some f => [Truncate f; Append f t] | None => [Print t] end.

Lemma text_eqb_refl a : text_eqb a a = true.
Proof. now apply text_eqb_eq. Qed.
Lemma loaded lib c v : cbz_installation lib (FileName c) = Ok v ->
  exists root, holds (FileName c) root /\ valid lib installation_schema root /\ from_element lib root Installation_class = Ok v.
Proof.
  intros E. pose proof E as E'. unfold cbz_installation in E'. destruct (cbz_root (FileName c)) as [root|] eqn:R; cbn [rbind] in E'; [|discriminate].
  exists root. apply holds_spec in R. split; [exact R|]. split; [|exact E'].
  destruct (proj1 (C66_loads lib (FileName c)) (ex_intro _ v E)) as (root' & H & Q).
  apply holds_spec in H, R. congruence.
Qed.

(** Every way a run can go. *)
Lemma main_cases lib jl s o d :
  match dump_main lib jl s o d with
  | (acts, Finished) => exists ns j, accepted o /\ openable s o /\ project_of lib s o d ns
      /\ dump_labels (lib_unicode lib) ns = Ok j /\ acts = write_of o (dump_text jl (do_pretty o) j)
  | (acts, Usage) => ~ accepted o /\ acts = []
  | (acts, Raised e) => accepted o
      /\ ((acts = [] /\ (~ loadable lib s o d \/ ~ openable s o))
          \/ (acts = start_of o /\ loadable lib s o d /\ openable s o
              /\ forall ns, project_of lib s o d ns -> dump_labels (lib_unicode lib) ns = Raise e))
  end.
Proof.
  unfold dump_main.
  assert (P : match do_pretty o with Some n => n <? 0 | None => false end = false <-> accepted o).
  { unfold accepted. destruct (do_pretty o); [rewrite Z.ltb_ge|]; intuition. }
  destruct (match do_pretty o with Some n => n <? 0 | None => false end).
  { split; [|reflexivity]. intros A. apply P in A. discriminate. }
  assert (A : accepted o) by (now apply P). clear P.
  destruct (d (do_input o)) as [b|] eqn:B.
  2:{ split; [exact A|]. left. split; [reflexivity|]. left. intros (b & _ & X & _). congruence. }
  destruct (cbz_installation lib (FileName (sys_project s b))) as [i|e] eqn:I.
  2:{ split; [exact A|]. left. split; [reflexivity|]. left. intros (b' & root & X & H & R). assert (b' = b) by congruence. subst b'.
      destruct (proj2 (C66_loads lib (FileName (sys_project s b)))) as (v & Q); [now exists root|]. congruence. }
  destruct (loaded lib _ i I) as (root & H & R & E).
  assert (L : loadable lib s o d) by (exists b, root; auto).
  assert (U : forall ns, project_of lib s o d ns <-> project_networks i = Ok ns).
  { intros ns. destruct (C65_networks lib root i E) as [(ns0 & D0 & N)|(F & N)].
    - rewrite N. split.
      + intros (b' & root' & X & H' & _ & D'). assert (b' = b) by congruence. subst b'.
        apply holds_spec in H, H'. assert (root' = root) by congruence. now subst root'.
      + intros D'. exists b, root. auto.
    - rewrite N. split; [|discriminate]. intros (b' & root' & X & H' & _ & D'). exfalso. assert (b' = b) by congruence. subst b'.
      apply holds_spec in H, H'. assert (root' = root) by congruence. subst root'. exact (describes_none _ _ _ D' F). }
  cbv zeta.
  assert (Z : forall (opened : list act) (write : bytes -> act),
    match (match rbind (project_networks i) (fun ns => dump_labels (lib_unicode lib) ns) with
           | Ok j => (opened ++ [write (dump_text jl (do_pretty o) j)], Finished)
           | Raise e => (opened, Raised e)
           end) with
    | (acts, Finished) => exists ns j, project_of lib s o d ns /\ dump_labels (lib_unicode lib) ns = Ok j
         /\ acts = opened ++ [write (dump_text jl (do_pretty o) j)]
    | (acts, Usage) => False
    | (acts, Raised e) => acts = opened /\ forall ns, project_of lib s o d ns -> dump_labels (lib_unicode lib) ns = Raise e
    end : Prop).
  { intros opened write. destruct (project_networks i) as [ns|e] eqn:N; cbn [rbind].
    - destruct (dump_labels (lib_unicode lib) ns) as [j|e] eqn:J.
      + exists ns, j. split; [now apply U|]. auto.
      + split; [reflexivity|]. intros ns' D. apply U in D. congruence.
    - split; [reflexivity|]. intros ns' D. apply U in D. discriminate. }
  unfold openable, write_of, start_of. destruct (do_output o) as [f|] eqn:O.
  - destruct (sys_writable s f) eqn:W.
    + specialize (Z [Truncate f] (Append f)). destruct (match rbind _ _ with Ok _ => _ | Raise _ => _ end) as [acts [| |e]]; [| |].
      * destruct Z as (ns & j & X & Y & V). exists ns, j. auto.
      * contradiction.
      * split; [exact A|]. right. destruct Z as (X & Y). auto.
    + split; [exact A|]. left. split; [reflexivity|]. right. discriminate.
  - specialize (Z [] Print). destruct (match rbind _ _ with Ok _ => _ | Raise _ => _ end) as [acts [| |e]]; [| |].
    + destruct Z as (ns & j & X & Y & V). exists ns, j. auto.
    + contradiction.
    + split; [exact A|]. right. destruct Z as (X & Y). auto.
Qed.

(** ** C82 *)

(** What a successful run writes: a text of printable characters and new lines
    which is a JSON document for a value that shows the project.  Without an
    indentation it is one line; otherwise every line is indented by the given
    number of spaces for each level. *)
Theorem C82_text : forall lib jl s o d acts, dump_main lib jl s o d = (acts, Finished) ->
  exists ns j t, project_of lib s o d ns /\ table n_address (shows_network (lib_unicode lib)) ns j /\ acts = write_of o t
    /\ (Forall proper_network ns ->
        Forall (fun c => c = 10 \/ 32 <= c <= 126) t
        /\ (forall depth, (5 <= depth)%nat -> states jl depth t j)
        /\ match do_pretty o with
           | Some n => if n =? 0 then ~ In 10 t else laid_out n t
           | None => ~ In 10 t
           end).
Proof.
  intros lib jl s o d acts E. pose proof (main_cases lib jl s o d) as M. rewrite E in M.
  destruct M as (ns & j & A & _ & P & J & ->). exists ns, j, (dump_text jl (do_pretty o) j). split; [exact P|].
  split; [pose proof (C67_dump (lib_unicode lib) ns) as T; now rewrite J in T|]. split; [reflexivity|]. intros F.
  pose proof (dump_publishable _ _ _ F J) as Q. pose proof (text_visible jl (do_pretty o) 5 j Q) as V. split; [exact V|]. split.
  - intros depth D. apply text_states; [exact V|]. apply text_denotes. now apply (deeper 5).
  - assert (L : ~ In 10 (dumps jl j)).
    { intros X. pose proof (dumps_printable jl 5 j Q) as Y. unfold printable in Y. rewrite Forall_forall in Y. apply Y in X. lia. }
    unfold dump_text. unfold accepted in A. destruct (do_pretty o) as [n|]; [|exact L]. destruct (n =? 0); [exact L|].
    rewrite <- (Z2Nat.id n A) at 1. now apply (indent_laid_out jl _ 5).
Qed.
Print Assumptions C82_text.

(** The two programs together: the graph drawn from the file just written is that
    of the project, whatever the indentation. *)
Theorem C82_graph : forall lib jl s o d acts f depth, dump_main lib jl s o d = (acts, Finished) -> do_output o = Some f ->
  (5 <= depth)%nat ->
  exists ns, project_of lib s o d ns
    /\ (Forall proper_network ns -> exists gs, graph_main jl depth f (perform_all d acts) = Drawn gs
        /\ (forall n, final n_address ns n -> exists g, In g gs /\ graph_of (lib_unicode lib) n g)
        /\ (forall g, In g gs -> exists n, final n_address ns n /\ graph_of (lib_unicode lib) n g)).
Proof.
  intros lib jl s o d acts f depth E O D. pose proof (main_cases lib jl s o d) as M. rewrite E in M.
  destruct M as (ns & j & A & _ & P & J & ->). exists ns. split; [exact P|]. intros F.
  destruct (C68_graph (lib_unicode lib) ns j J) as (gs & G & H). exists gs. split; [|exact H].
  unfold write_of. rewrite O. unfold graph_main, perform_all. cbn [fold_left perform]. unfold put.
  rewrite !text_eqb_refl. cbn [app].
  pose proof (dump_publishable _ _ _ F J) as Q. pose proof (text_visible jl (do_pretty o) 5 j Q) as V.
  assert (S : loads jl depth (dump_text jl (do_pretty o) j) = Got j).
  { apply loads_states; [now apply visible_bytes|]. apply text_states; [exact V|]. apply text_denotes. now apply (deeper 5). }
  rewrite S, G. reflexivity.
Qed.
Print Assumptions C82_graph.

(** ** C83 *)

(** A run that fails.  A negative indentation, a project that cannot be loaded or
    an output that cannot be opened leaves every file as it was.  A project that
    loads but cannot be dumped leaves the output file empty, whatever was in it. *)
Theorem C83_failed : forall lib jl s o d acts e, dump_main lib jl s o d = (acts, e) -> e <> Finished ->
  (acts = [] /\ (~ accepted o \/ ~ loadable lib s o d \/ ~ openable s o))
  \/ (accepted o /\ loadable lib s o d /\ openable s o /\ forall f, do_output o = Some f ->
      perform_all d acts f = Some [] /\ forall g, g <> f -> perform_all d acts g = d g).
Proof.
  intros lib jl s o d acts e E N. pose proof (main_cases lib jl s o d) as M. rewrite E in M. destruct e as [| |e]; [contradiction| |].
  - left. destruct M as (A & ->). auto.
  - destruct M as (A & [(-> & H)|(-> & L & O & H)]); [left; auto|]. right. repeat (split; [assumption|]).
    intros f F. unfold start_of. rewrite F. unfold perform_all. cbn [fold_left perform]. unfold put. rewrite text_eqb_refl.
    split; [reflexivity|]. intros g G. destruct (text_eqb g f) eqn:T; [|reflexivity]. apply text_eqb_eq in T. contradiction.
Qed.
Print Assumptions C83_failed.
(** It does fail so for a bad GroupAddress parameter. *)
Theorem C83_bad : forall lib jl s o d ns n y p x, accepted o -> openable s o -> project_of lib s o d ns ->
  In n ns -> In y (n_units n) -> In p (u_pp y) -> bad_parameter (lib_unicode lib) p x ->
  exists e, dump_main lib jl s o d = (start_of o, Raised e).
Proof.
  intros lib jl s o d ns n y p x A O P I J K B.
  destruct (C67_bad (lib_unicode lib) ns n y p x I J K B) as (x' & X).
  pose proof (main_cases lib jl s o d) as M. destruct (dump_main lib jl s o d) as [acts [| |e]].
  - destruct M as (ns' & j & _ & _ & P' & Jn & _). exfalso.
    assert (ns' = ns); [|subst; congruence].
    destruct P as (b & root & B1 & H & _ & D), P' as (b' & root' & B2 & H' & _ & D').
    assert (b' = b) by congruence. subst b'. apply holds_spec in H, H'. assert (root' = root) by congruence. subst root'.
    exact (describes_unique lib root _ _ D' D).
  - destruct M as (Q & _). contradiction.
  - destruct M as (_ & [(_ & [Q|Q])|(-> & _)]).
    + exfalso. apply Q. destruct P as (b & root & B1 & H & R & _). exists b, root. auto.
    + contradiction.
    + exists e. reflexivity.
Qed.
Print Assumptions C83_bad.

Lemma interrupted_write f t d d' : interrupted d [Truncate f; Append f t] d' ->
  d' = d \/ (exists p q, t = p ++ q /\ d' f = Some p /\ forall g, g <> f -> d' g = d g).
Proof.
  assert (O : forall g b b', g <> f -> put (put d f b) f b' g = d g).
  { intros g b b' G. unfold put. destruct (text_eqb g f) eqn:T; [|reflexivity]. apply text_eqb_eq in T. contradiction. }
  assert (O1 : forall g b, g <> f -> put d f b g = d g).
  { intros g b G. unfold put. destruct (text_eqb g f) eqn:T; [|reflexivity]. apply text_eqb_eq in T. contradiction. }
  assert (S : forall (d : disk) b, put d f b f = Some b) by (intros; unfold put; now rewrite text_eqb_refl).
  intros H. inversion H as [l|name b b' l|a l x H1]; subst; [left; reflexivity|]. right.
  cbn [perform] in H1. inversion H1 as [l|name b b' l E|a l x H2]; subst.
  - exists [], t. split; [reflexivity|]. split; [apply S|]. intros g G. now apply O1.
  - exists b, b'. split; [reflexivity|]. cbn [perform]. rewrite (S d []). cbn [app]. split; [apply S|]. intros g G. now apply O.
  - exists t, []. split; [now rewrite app_nil_r|]. cbn [perform] in H2. rewrite (S d []) in H2. cbn [app] in H2. inversion H2; subst.
    split; [apply S|]. intros g G. now apply O.
Qed.
(** And a file that is not there is refused as such; there is no other reason
    for that. *)
Theorem C83_absent : forall jl depth f d, graph_main jl depth f d = GraphUsage <-> d f = None.
Proof.
  intros jl depth f d. unfold graph_main. destruct (d f) as [b|]; [|split; reflexivity].
  split; [|discriminate]. destruct (loads jl depth b) as [j| | |]; try discriminate.
  destruct (generate_graph j); discriminate.
Qed.
Print Assumptions C83_absent.
(** A document that is nested too deep to be read is refused as such, and only
    such a document. *)
Theorem C83_deep : forall jl depth f d b, d f = Some b -> is_bytes b ->
  (graph_main jl depth f d = NotJson -> forall n v, ~ states jl n b v)
  /\ (forall n v, states jl n b v -> (graph_main jl depth f d = Deep <-> ~ states jl depth b v)).
Proof.
  intros jl depth f d b F N.
  assert (Less : forall n v, loads jl n b = Got v -> loads jl depth b = Got v \/ loads jl depth b = TooDeep).
  { intros n v. unfold loads. destruct (decoded b) as [x|]; [|discriminate]. apply decode_less. }
  unfold graph_main. rewrite F. split.
  - intros E n v S. apply loads_states in S; [|exact N]. destruct (Less n v S) as [L|L]; rewrite L in E; [|discriminate].
    destruct (generate_graph v); discriminate.
  - intros n v S. apply loads_states in S; [|exact N]. destruct (Less n v S) as [L|L]; rewrite L.
    + split; [destruct (generate_graph v); discriminate|]. intros H. destruct H. apply loads_states; assumption.
    + split; [|reflexivity]. intros _ H. apply loads_states in H; [|exact N]. congruence.
Qed.
Print Assumptions C83_deep.
(** A run that is killed at any point leaves the output file as it was, or
    complete, or with a beginning of the text, from which no graph is drawn. *)
Theorem C83_killed : forall lib jl s o d acts f d' ns, dump_main lib jl s o d = (acts, Finished) -> do_output o = Some f ->
  project_of lib s o d ns -> Forall proper_network ns -> interrupted d acts d' ->
  (forall g, g <> f -> d' g = d g)
  /\ (d' f = d f
      \/ d' f = perform_all d acts f
      \/ ((exists begun rest, d' f = Some begun /\ perform_all d acts f = Some (begun ++ rest))
          /\ forall depth, (5 <= depth)%nat -> graph_main jl depth f d' = NotJson)).
Proof.
  intros lib jl s o d acts f d' ns E O P F K. pose proof (main_cases lib jl s o d) as M. rewrite E in M.
  destruct M as (ns' & j & A & _ & P' & J & ->).
  assert (ns' = ns).
  { destruct P as (b & root & B1 & H & _ & D), P' as (b' & root' & B2 & H' & _ & D').
    assert (b' = b) by congruence. subst b'. apply holds_spec in H, H'. assert (root' = root) by congruence. subst root'.
    exact (describes_unique lib root _ _ D' D). }
  subst ns'. unfold write_of in *. rewrite O in *. set (t := dump_text jl (do_pretty o) j) in *.
  assert (W : perform_all d [Truncate f; Append f t] f = Some t).
  { unfold perform_all. cbn [fold_left perform]. unfold put. rewrite !text_eqb_refl. reflexivity. }
  destruct (interrupted_write f t d d' K) as [->|(p & q & T & Df & Dg)]; [auto|]. split; [exact Dg|]. right.
  destruct q as [|c q]; [left; rewrite W, Df, T, app_nil_r; reflexivity|]. right.
  split; [exists p, (c :: q); split; [exact Df|rewrite W, T; reflexivity]|]. intros depth Dp.
  pose proof (dump_publishable _ _ _ F J) as Q. pose proof (text_visible jl (do_pretty o) 5 j Q) as V. fold t in V.
  assert (D : denotes jl depth t j) by (apply text_denotes; now apply (deeper 5)).
  unfold graph_main. rewrite Df.
  assert (Vp : visible p) by (rewrite T in V; apply Forall_app in V; apply V).
  destruct (loads jl depth p) as [v| | |] eqn:L; [exfalso|reflexivity|exfalso|exfalso].
  - apply loads_states in L; [|now apply visible_bytes].
    pose proof (cut_states jl depth t j p (c :: q) v V D (dump_object jl (do_pretty o) _ ns j J) T L) as X. discriminate.
  - unfold loads in L. rewrite (visible_decoded p Vp) in L. apply (decode_deep jl depth p (c :: q)) in L. rewrite <- T in L.
    assert (St : loads jl depth t = Got j) by (apply loads_states; [now apply visible_bytes|now apply text_states]).
    unfold loads in St. rewrite (visible_decoded t V) in St. congruence.
  - unfold loads in L. destruct (decoded p); [|discriminate]. exact (decode_fuel _ _ _ L).
Qed.
Print Assumptions C83_killed.

(** ** Cases *)

Definition tools_root (channels : string) : xml :=
  let unit a n := Elem (txt "Unit") [] None [leaf "TagName" n; leaf "Address" a;
        Elem (txt "PP") [(txt "Name", txt "GroupAddress"); (txt "Value", txt channels)] None []] in
  Elem (txt "Installation") [] None
    [Elem (txt "Project") [] None
      [Elem (txt "Network") [] None [leaf "Address" "254"; unit "1" "Dimmer"]]]%string.
Definition tools_system (channels : string) : system := mkSystem (fun _ => Plain (Some (tools_root channels))) (fun _ => true).
Definition tools_disk : disk := fun n => if text_eqb n (txt "home.cbz") then Some [80; 75] else if text_eqb n (txt "home.json") then Some (txt "old") else None.
Definition tools_options : dump_options := mkDumpOptions (txt "home.cbz") (Some (txt "home.json")) (Some 1).
Definition newline_text (l : list string) : text := concat (map (fun s => txt s ++ [10]) l).
(** A dump with an indentation of one space, the graph from it, the graph from
    the file without its last character, a negative indentation and a parameter
    that is not hexadecimal. *)
Example C82_case :
  let '(acts, e) := dump_main case_library some_library (tools_system "0x01 0xFF") tools_options tools_disk in
  let after := perform_all tools_disk acts in
  e = Finished
  /\ option_map (fun t => t ++ [10]) (after (txt "home.json")) = Some (newline_text
    ["{"; " ""254"": {"; "  ""name"": null,"; "  ""address"": 254,"; "  ""networknumber"": null,"; "  ""applications"": {},";
     "  ""units"": {"; "   ""1"": {"; "    ""name"": ""Dimmer"","; "    ""address"": 1,"; "    ""unittype"": null,";
     "    ""unitname"": null,"; "    ""serial"": null,"; "    ""catalog"": null,"; "    ""groups"": ["; "     1,"; "     255";
     "    ]"; "   }"; "  }"; " }"; "}"]%string)
  /\ graph_main some_library 5 (txt "home.json") after
     = Drawn [mkSubgraph (txt "Network_254") [JStr (txt "Dimmer"); JStr (txt "GA 1"); JStr (txt "GA 255")]
                [(JStr (txt "Dimmer"), JStr (txt "GA 1"))]]
  /\ graph_main some_library 5 (txt "home.json")
       (put after (txt "home.json") (match after (txt "home.json") with Some t => removelast t | None => [] end)) = NotJson.
Proof. vm_compute. repeat split. Qed.
Example C82_case_project : exists ns, project_of case_library (tools_system "0x01 0xFF") tools_options tools_disk ns
  /\ Forall proper_network ns /\ accepted tools_options /\ openable (tools_system "0x01 0xFF") tools_options.
Proof.
  pose proof (main_cases case_library some_library (tools_system "0x01 0xFF") tools_options tools_disk) as M.
  destruct (dump_main case_library some_library (tools_system "0x01 0xFF") tools_options tools_disk) as [acts e] eqn:E.
  assert (F : e = Finished) by (assert (X := f_equal snd E); vm_compute in X; symmetry; exact X). subst e.
  destruct M as (ns & j & A & O & P & _ & _). exists ns. split; [exact P|]. split; [|auto].
  assert (Q : project_of case_library (tools_system "0x01 0xFF") tools_options tools_disk
    [mkNetwork (Some 254) None None None [] [mkUnit (Some (txt "Dimmer")) (Some 1) None None None None
       [mkParameter (Some (txt "GroupAddress")) (Some (txt "0x01 0xFF"))]]]).
  { destruct P as (b & root & B & H & R & D). exists b, root. repeat (split; [assumption|]).
    assert (H' : root = tools_root "0x01 0xFF") by (inversion H; reflexivity). subst root.
    destruct (from_element case_library (tools_root "0x01 0xFF") Installation_class) as [v|x] eqn:V; [|vm_compute in V; discriminate].
    destruct (C65_networks case_library _ v V) as [(ns' & _ & N)|(N & _)]; [|destruct (describes_none _ _ _ D N)].
    apply N. assert (W : rbind (from_element case_library (tools_root "0x01 0xFF") Installation_class) project_networks = project_networks v)
      by (rewrite V; reflexivity). rewrite <- W. vm_compute. reflexivity. }
  destruct P as (b & root & B & H & R & D), Q as (b' & root' & B' & H' & R' & D').
  assert (b' = b) by congruence. subst b'. apply holds_spec in H, H'. assert (root' = root) by congruence. subst root'.
  rewrite (describes_unique case_library root _ _ D D'). apply Forall_cons; [|constructor].
  split; [exact I|]. split; [constructor|]. apply Forall_cons; [|constructor]. 
  split; [apply whole_text; reflexivity|]. repeat split.
Qed.
Example C83_case :
  dump_main case_library some_library (tools_system "0xZZ") tools_options tools_disk = ([Truncate (txt "home.json")], Raised ValueError)
  /\ perform_all tools_disk [Truncate (txt "home.json")] (txt "home.json") = Some []
  /\ dump_main case_library some_library (tools_system "0x01") (mkDumpOptions (txt "home.cbz") None (Some (-2))) tools_disk = ([], Usage)
  /\ dump_main case_library some_library (tools_system "0x01") (mkDumpOptions (txt "away.cbz") None None) tools_disk = ([], Raised OSError)
  /\ graph_main some_library 3 (txt "deep.json") (fun _ => Some (txt "{""1"": {""units"": {""2"": {""name"": ""x"", ""groups"": []}}}}")) = Deep
  /\ graph_main some_library 5 (txt "deep.json") (fun _ => Some (txt "{""1"": {""units"": {""2"": {""name"": ""x"", ""groups"": []}}}}"))
     = Drawn [mkSubgraph (txt "Network_1") [JStr (txt "x")] []].
Proof. vm_compute. repeat split. Qed.
