(** * C62: what oro view prints is what the registry's document says.
    [view_npm sp t1 t2 t3] (ViewModel): what oro view obtains for the request [sp] when the registry's three responses have the texts [t1]
    (from which a version is chosen), [t2] (from which the releases are counted) and [t3] (from which the entry is taken); [view_json] is the
    text printed with --json, [view_shown] the parts of the page printed without.
    [best], [listed], [lists], [states]: PackumentSpec; [shows], [page], [good_full_document]: ViewSpec, on the JSON value of the text. *)
From Verif Require Import Base Types StdPath JsonModel JsonSpec JsonRead JsonReadProofs JsonReadThms PropsJsonRead ResolverModel ResolverExamples
  Kdl VersionModel VersionSpec VersionProofs ManifestRead ManifestProofs PropsReplay PackumentModel PackumentSpec PackumentProofs PropsPackument
  BinModel BinProofs PropsBin ViewModel ViewSpec ViewProofs ViewEntry ViewShow ViewThms ViewGood JsonSpec.
From Coq Require Import Permutation Sorted.
Open Scope list_scope.
Open Scope string_scope.

Section Thms.
  Variable vparse : string -> option version.
  Variable vshow : version -> string.
  Variable rnorm : string -> option string.
  Variable uparse : string -> option string.
  Variable is_count : string -> bool.
  Variable number : string -> option string.
  Variable rsat : range -> version -> bool.
  Variable canon : string -> option string.
  Variable is_any : range -> bool.
  Variable iparse : string -> option string.
  Variable default_tag : string.
  Variable at_base : string -> string.
  Hypothesis Hnum : forall s t, number s = Some t -> read_num t = Some (t, "") /\ number t = Some t.
  (** a version reads back as itself *)
  Hypothesis Hshow : forall s x, vparse s = Some x -> vparse (vshow x) = Some x.
  Notation view := (view_npm vparse vshow rnorm uparse is_count number rsat canon is_any iparse default_tag at_base).
  Notation answer := (registry_answer vparse uparse number rsat canon is_any iparse default_tag at_base).
  Notation full := (read_full vparse vshow rnorm uparse is_count number).
  Notation listed := (listed vparse).
  Notation best := (best vparse rsat is_any default_tag).
  Notation states := (states vparse).
  Notation shows := (shows vparse vshow rnorm uparse is_count).
  Notation page := (page vparse uparse).
  Notation jread := (jread number).

  (** A response is readable exactly when it is well formed, every version of it. *)
  Theorem C62_accepts : forall t v, jread t = Some v -> ((exists d, full t = Some d) <-> good_full_document vparse uparse is_count v).
  Proof.
    intros t v H. unfold read_full. rewrite H. cbn [obind]. apply full_doc_ok. now destruct (jread_good Hnum _ H).
  Qed.

  Lemma jtext_field e k : jtext (sget k e) = text_of (JObj e) k.
  Proof. unfold jtext, text_of. cbn [field]. destruct (sget k e) as [[]|]; reflexivity. Qed.
  Lemma text_null o : jtext (unless_null o) = jtext o.
  Proof. destruct o as [[]|]; reflexivity. Qed.
  Lemma jpairs_texts l : Forall (fun e : string * json => is_text (snd e)) l -> map fst (jpairs (Some (JObj l))) = map fst l /\ forall k r, In (k, r) (jpairs (Some (JObj l))) <-> In (k, JStr r) l.
  Proof.
    cbn [jpairs]. induction l as [|[k j] l IH]; intros F; [split; [reflexivity|tauto]|]. inversion F as [|? ? (s & Hs) F']; subst. cbn [snd] in Hs. subst j. destruct (IH F') as (A & B). cbn [flat_map snd fst app map].
    split; [now rewrite A|]. intros k' r. cbn [In]. rewrite B. split; intros [E|E]; auto; left; congruence.
  Qed.
  Lemma jtexts_texts l : Forall is_text l -> JArr l = JArr (map JStr (jtexts (Some (JArr l)))).
  Proof.
    intros F. f_equal. cbn [jtexts]. induction F as [|j l (s & ->) F IH]; [reflexivity|]. cbn [flat_map app map]. now rewrite <- IH.
  Qed.
  Lemma sort_keys l : Permutation (map fst (sort_deps l)) (map fst l).
  Proof. apply Permutation_map, sort_perm. Qed.

  Lemma page_of v d e out : jwf v -> read_full_doc vparse vshow rnorm uparse is_count v = Some d -> jwf e -> good_full_entry vparse uparse is_count e -> shows e (JObj out) ->
    let w := view_shown vparse d out in
    page v e (sh_name w) (sh_version w) (sh_license w) (sh_deps w) (sh_releases w) (sh_description w) (sh_homepage w) (sh_deprecated w) (sh_keywords w)
      (sh_tarball w) (sh_shasum w) (sh_integrity w) (sh_listed w) (sh_more w).
  Proof.
    intros Wv R We (_ & Gs & Gl & _) S w. unfold w, view_shown, ViewSpec.page. cbn [sh_name sh_version sh_license sh_deps sh_releases sh_description sh_homepage sh_deprecated sh_keywords sh_tarball sh_shasum sh_integrity sh_listed sh_more].
    destruct S as (_ & S1 & S2 & Sv & Sl & _ & _ & _ & Sd & _ & _ & _ & _ & _ & _ & (dd & Sdist & Sdk) & _).
    assert (Tx : forall k, In k ["name"; "description"; "homepage"] -> jtext (sget k out) = text_of e k).
    { intros k I. change (sget k out) with (field (JObj out) k). rewrite S1 by (destruct I as [<-|[<-|[<-|[]]]]; repeat (first [left; reflexivity|right])).
      rewrite text_null. unfold jtext, text_of. destruct (field e k) as [[]|]; reflexivity. }
    split; [rewrite Tx by (left; reflexivity); unfold or_else; destruct (text_of e "name"); reflexivity|].
    split.
    { change (sget "version" out) with (field (JObj out) "version"). rewrite Sv. unfold PackumentSpec.states, text_of. assert (G := Gs "version" (nullable (is_version vparse))).
      destruct (field e "version") as [[ | | |s| | ]|] eqn:E; try (right; split; reflexivity).
      destruct (vparse s) as [x|] eqn:Ex.
      - left. exists s. split; [reflexivity|]. cbn. rewrite (Hshow _ _ Ex). exact Ex.
      - exfalso. destruct (G (JStr s)) as [X|(s' & X & Y)]; [repeat (first [left; reflexivity|right])|reflexivity|discriminate|]. injection X as <-. congruence. }
    split.
    { change (sget "license" out) with (field (JObj out) "license"). rewrite Sl. unfold text_of, or_else.
      assert (G : forall k j, In k ["license"; "licence"] -> field e k = Some j -> j = JNull \/ exists s, j = JStr s).
      { intros k j I. apply (Gs k (nullable is_text)). destruct I as [<-|[<-|[]]]; repeat (first [left; reflexivity|right]). }
      destruct (field e "license") as [j|] eqn:E.
      - destruct Gl as [Gl|Gl]; [discriminate|]. rewrite Gl. destruct (G "license" j) as [->|(s & ->)]; [left; reflexivity|exact E|reflexivity|reflexivity].
      - destruct (field e "licence") as [j|] eqn:E'; [|reflexivity]. destruct (G "licence" j) as [->|(s & ->)]; [right; left; reflexivity|exact E'|reflexivity|reflexivity]. }
    split.
    { exists (map fst (pf_versions d)). destruct (full_count vparse vshow rnorm uparse is_count v d Wv R) as (N & C). split; [exact N|]. split; [exact C|]. now rewrite map_length. }
    split; [apply Tx; repeat (first [left; reflexivity|right])|]. split; [apply Tx; repeat (first [left; reflexivity|right])|].
    split.
    { change (sget "deprecated" out) with (field (JObj out) "deprecated"). rewrite Sd. assert (G := Gs "deprecated" (either is_text is_boolean)).
      destruct (field e "deprecated") as [[ |[|]| | | | ]|]; reflexivity. }
    split.
    { change (sget "keywords" out) with (field (JObj out) "keywords"). rewrite S2 by (repeat (first [left; reflexivity|right])). assert (G := Gs "keywords" (list_of is_text)).
      destruct (field e "keywords") as [j|]; [|left; auto]. destruct (G j) as (l & -> & F); [repeat (first [left; reflexivity|right])|reflexivity|].
      right. f_equal. destruct l as [|a l]; [reflexivity|]. cbn [unless_empty]. now apply jtexts_texts. }
    assert (Dt : forall k, In k ["shasum"; "integrity"] -> (match sget "dist" out with Some (JObj l) => jtext (sget k l) | _ => None end) = dist_text e k).
    { intros k I. change (sget "dist" out) with (field (JObj out) "dist"). rewrite Sdist, Sdk. unfold dist_text, text_of.
      destruct I as [<-|[<-|[]]]; cbn [existsb String.eqb Ascii.eqb Bool.eqb orb]; (destruct (field e "dist") as [j|]; [|reflexivity]; cbn [obind]; destruct (field j _) as [[]|]; reflexivity). }
    split.
    { change (sget "dist" out) with (field (JObj out) "dist"). rewrite Sdist, Sdk. unfold dist_text, text_of. cbn [existsb String.eqb Ascii.eqb Bool.eqb orb].
      destruct (field e "dist") as [j|]; [|reflexivity]. cbn [obind]. destruct (field j "tarball") as [[ | | |s| | ]|]; try reflexivity. cbn. destruct (uparse s); reflexivity. }
    split; [apply Dt; left; reflexivity|]. split; [apply Dt; right; left; reflexivity|].
    change (sget "dependencies" out) with (field (JObj out) "dependencies"). rewrite S2 by (left; reflexivity).
    assert (P : exists all, jpairs (unless_empty (field e "dependencies")) = all /\ NoDup (map fst all) /\ forall k r, In (k, r) all <-> records_dep e k r).
    { eexists. split; [reflexivity|]. assert (G := Gs "dependencies" (map_of is_text)). unfold records_dep.
      destruct (field e "dependencies") as [j|] eqn:E; [|split; [constructor|intros k r; split; [intros []|intros (l & X & _); discriminate]]].
      destruct (G j) as (l & -> & F); [repeat (first [left; reflexivity|right])|reflexivity|]. assert (Wl : jwf (JObj l)) by (eapply jwf_field; [exact We|exact E]). apply jwf_nodup in Wl.
      assert (jpairs (unless_empty (Some (JObj l))) = jpairs (Some (JObj l))) as -> by (destruct l; reflexivity). destruct (jpairs_texts l F) as (A & B). rewrite A. split; [exact Wl|].
      intros k r. rewrite B. split.
      - intros I. exists l. split; [reflexivity|]. apply In_aget; [apply seqb_spec|exact Wl|exact I].
      - intros (l' & X & Y). injection X as <-. apply aget_In in Y; [exact Y|apply seqb_spec]. }
    destruct P as (all & -> & N & C). exists (sort_deps all). pose proof (sort_perm all) as Pm.
    split; [eapply Permutation_NoDup; [symmetry; apply sort_keys|exact N]|]. split; [apply sort_sorted|]. split.
    { intros k r. rewrite <- C. split; intros I; [eapply Permutation_in; [exact Pm|exact I]|eapply Permutation_in; [symmetry; exact Pm|exact I]]. }
    split; [symmetry; now apply Permutation_length|]. split; [reflexivity|].
    intros n. destruct (Nat.ltb_spec 25 (List.length all)); split.
    - intros X. injection X as <-. lia.
    - intros (X & Y). f_equal. lia.
    - discriminate.
    - lia.
  Qed.

  (** The entry shown is the one listed under the version that the entry of npm's choice says it is (0.0.0 if it says none), and everything
      printed is what that entry, and the list of releases, say. *)
  Theorem C62_faithful : forall sp sc nm req t1 t2 t3 v1 v2 v3 d out, target sp = SNpm sc nm req -> jread t1 = Some v1 -> jread t2 = Some v2 -> jread t3 = Some v3 ->
    view sp t1 t2 t3 = Ok (d, out) ->
    exists x e1 ver e3, best req v1 x /\ listed v1 x e1
      /\ (states e1 ver \/ (forall s, text_of e1 "version" <> Some s) /\ ver = mkV 0 0 0 [])
      /\ listed v3 ver e3 /\ shows e3 (JObj out)
      /\ let w := view_shown vparse d out in
         page v2 e3 (sh_name w) (sh_version w) (sh_license w) (sh_deps w) (sh_releases w) (sh_description w) (sh_homepage w) (sh_deprecated w) (sh_keywords w)
           (sh_tarball w) (sh_shasum w) (sh_integrity w) (sh_listed w) (sh_more w).
  Proof.
    intros sp sc nm req t1 t2 t3 v1 v2 v3 d out T H1 H2 H3 A. unfold view_npm in A. rewrite T in A. unfold read_packument in A. rewrite H1 in A. cbn [obind] in A.
    destruct (jread_good Hnum _ H1) as (W1 & _ & _). destruct (jread_good Hnum _ H2) as (W2 & _ & _). destruct (jread_good Hnum _ H3) as (W3 & _ & _).
    destruct (read_doc vparse uparse v1) as [d1|] eqn:R1; [|discriminate].
    destruct (get_resolution rsat canon is_any iparse default_tag at_base (request_name sp) sp (pack d1)) as [r| |] eqn:G; [|discriminate|discriminate]. cbn [rbind] in A.
    destruct (first_doc vparse uparse rsat canon is_any iparse default_tag at_base _ _ _ _ _ _ _ _ W1 R1 T G) as (x & e1 & ver & url & integ & B1 & B2 & -> & B3 & B4 & B5).
    destruct (match sp with SAlias _ s => s | s => s end) as [ | |sc' nm' req'| ]; try discriminate.
    unfold read_full in A. rewrite H2, H3 in A. cbn [obind] in A.
    destruct (read_full_doc vparse vshow rnorm uparse is_count v2) as [d2|] eqn:R2; [|discriminate].
    destruct (read_full_doc vparse vshow rnorm uparse is_count v3) as [d3|] eqn:R3; [|discriminate].
    destruct (aget version_eqb ver (pf_versions d3)) as [e|] eqn:Ev; [|discriminate]. injection A as <- <-.
    destruct (full_get vparse vshow rnorm uparse is_count _ _ _ _ W3 R3 Ev) as (e3 & L3 & Re).
    assert (We : jwf e3) by (destruct L3 as (vs & k & A & B & _); eapply jwf_field; [|exact B]; eapply jwf_field; [exact W3|exact A]).
    assert (Gd : good_full_entry vparse uparse is_count e3) by (apply (entry_full_ok vparse vshow rnorm uparse is_count _ We); eauto).
    assert (Sh : shows e3 (JObj e)) by (destruct e3 as [ | | | | |l3]; try discriminate; apply entry_shows; [exact We|exact Re]).
    exists x, e1, ver, e3. split; [exact B1|]. split; [exact B2|]. split; [exact B5|]. split; [exact L3|]. split; [exact Sh|].
    exact (page_of v2 d2 e3 e W2 R2 We Gd Sh).
  Qed.

  (** It is the version that oro add and oro apply would take for the same request, from the same first response. *)
  Theorem C62_same_version : forall sp sc nm req t1 t2 t3 t2' d out p m v3, target sp = SNpm sc nm req -> jread t3 = Some v3 ->
    view sp t1 t2 t3 = Ok (d, out) -> answer sp t1 t2' = Ok (p, m) ->
    exists ver url integ e3, pk_resolved p = RNpm (request_name sp) ver url integ /\ listed v3 ver e3 /\ shows e3 (JObj out).
  Proof.
    intros sp sc nm req t1 t2 t3 t2' d out p m v3 T H3 A B. unfold view_npm in A. unfold registry_answer in B. rewrite T in A, B.
    destruct (jread_good Hnum _ H3) as (W3 & _ & _). unfold read_packument at 1 in A. unfold read_packument at 1 in B.
    destruct (jread t1) as [v1|] eqn:H1; [|discriminate]. cbn [obind] in A, B. destruct (jread_good Hnum _ H1) as (W1 & _ & _). destruct (read_doc vparse uparse v1) as [d1|] eqn:R1; [|discriminate].
    destruct (get_resolution rsat canon is_any iparse default_tag at_base (request_name sp) sp (pack d1)) as [r| |] eqn:G; [|discriminate|discriminate]. cbn [rbind] in A, B.
    destruct (first_doc vparse uparse rsat canon is_any iparse default_tag at_base _ _ _ _ _ _ _ _ W1 R1 T G) as (x & e1 & ver & url & integ & _ & _ & -> & _ & _ & _).
    destruct (match sp with SAlias _ s => s | s => s end) as [ | |sc' nm' req'| ]; try discriminate.
    unfold read_full in A. rewrite H3 in A. cbn [obind] in A. destruct (obind (jread t2) _) as [d2|]; [|discriminate].
    destruct (read_full_doc vparse vshow rnorm uparse is_count v3) as [d3|] eqn:R3; [|discriminate].
    destruct (aget version_eqb ver (pf_versions d3)) as [e|] eqn:Ev; [|discriminate]. injection A as _ <-.
    destruct (full_get vparse vshow rnorm uparse is_count _ _ _ _ W3 R3 Ev) as (e3 & L3 & Re).
    assert (We : jwf e3) by (destruct L3 as (vs & k & A & B' & _); eapply jwf_field; [|exact B']; eapply jwf_field; [exact W3|exact A]).
    assert (Sh : shows e3 (JObj e)) by (destruct e3 as [ | | | | |l3]; try discriminate; apply entry_shows; [exact We|exact Re]).
    destruct (read_packument vparse uparse number t2') as [d2'|]; [|discriminate]. destruct (aget version_eqb ver (dc_versions d2')) as [e'|]; [|discriminate].
    destruct (_ && _); [discriminate|]. injection B as <- <-. exists ver, url, integ, e3. auto.
  Qed.

  (** For a request for a registry package, also under another name, it does not crash. *)
  Theorem C62_no_panic : forall sp t1 t2 t3, (exists sc nm req, sp = SNpm sc nm req \/ exists a, sp = SAlias a (SNpm sc nm req)) -> view sp t1 t2 t3 <> Panic.
  Proof.
    intros sp t1 t2 t3 (sc & nm & req & H). unfold view_npm.
    assert (T : target sp = SNpm sc nm req) by (destruct H as [->|(a & ->)]; reflexivity). rewrite T.
    assert (T' : (match sp with SAlias _ s => s | s => s end) = SNpm sc nm req) by (destruct H as [->|(a & ->)]; reflexivity). rewrite T'.
    destruct (read_packument vparse uparse number t1) as [d1|]; [|discriminate].
    destruct (get_resolution rsat canon is_any iparse default_tag at_base (request_name sp) sp (pack d1)) as [r| |] eqn:G; [|discriminate|].
    - cbn [rbind]. destruct r; try discriminate. destruct (read_full _ _ _ _ _ _ t2); [|discriminate]. destruct (read_full _ _ _ _ _ _ t3); [|discriminate]. destruct (aget _ _ _); discriminate.
    - exfalso. revert G. eapply never_panics.
  Qed.

  (** And it prints something, whenever the request can be answered (C60_answers) and the full document is well formed, the chosen version
      being listed in it. *)
  Theorem C62_answers : forall sp sc nm req t1 t2 t3 t2' v2 v3 p m ver url integ, (exists a, sp = SNpm sc nm req \/ sp = SAlias a (SNpm sc nm req)) ->
    answer sp t1 t2' = Ok (p, m) -> pk_resolved p = RNpm (request_name sp) ver url integ ->
    jread t2 = Some v2 -> good_full_document vparse uparse is_count v2 -> jread t3 = Some v3 -> good_full_document vparse uparse is_count v3 -> lists vparse v3 ver ->
    exists d out, view sp t1 t2 t3 = Ok (d, out).
  Proof.
    intros sp sc nm req t1 t2 t3 t2' v2 v3 p m ver url integ Hs B Hp H2 G2 H3 G3 L. unfold registry_answer in B. unfold view_npm.
    assert (T : target sp = SNpm sc nm req) by (destruct Hs as (a & [->| ->]); reflexivity). rewrite T in *.
    assert (T' : (match sp with SAlias _ s => s | s => s end) = SNpm sc nm req) by (destruct Hs as (a & [->| ->]); reflexivity). rewrite T'.
    destruct (read_packument vparse uparse number t1) as [d1|]; [|discriminate].
    destruct (get_resolution rsat canon is_any iparse default_tag at_base (request_name sp) sp (pack d1)) as [r| |] eqn:G; [|discriminate|discriminate]. cbn [rbind] in *.
    destruct r as [n' ver' url' integ'| | ]; try discriminate. destruct (read_packument vparse uparse number t2') as [d2'|]; [|discriminate]. destruct (aget version_eqb ver' (dc_versions d2')); [|discriminate].
    destruct (_ && _); [discriminate|]. injection B as <- <-. cbn in Hp. injection Hp as _ -> _ _.
    apply (C62_accepts t2 v2 H2) in G2. destruct G2 as (d2 & ->). pose proof (proj2 (C62_accepts t3 v3 H3) G3) as (d3 & R3). rewrite R3.
    destruct (jread_good Hnum _ H3) as (W3 & _ & _). unfold read_full in R3. rewrite H3 in R3. cbn [obind] in R3.
    apply (full_lists vparse vshow rnorm uparse is_count v3 d3 ver W3 R3) in L. destruct L as (e & ->). eauto.
  Qed.

  (** What is printed with --json is a JSON document again, and reads as what was to be shown, every member once. *)
  Theorem C62_reads_back : forall sp t1 t2 t3 d out, view sp t1 t2 t3 = Ok (d, out) ->
    exists text, view_json vparse vshow rnorm uparse is_count number rsat canon is_any iparse default_tag at_base sp t1 t2 t3 = Ok text
      /\ jread text = Some (JObj out) /\ NoDup (map fst out).
  Proof.
    intros sp t1 t2 t3 d out A. unfold view_json. rewrite A. cbn [rbind snd]. eexists. split; [reflexivity|].
    assert (G : good number 127 (JObj out)).
    { unfold view_npm in A. destruct (target sp) as [ | |sc nm req| ]; try discriminate. destruct (read_packument vparse uparse number t1) as [d1|]; [|discriminate].
      destruct (get_resolution _ _ _ _ _ _ _ _ _) as [r| |]; try discriminate. cbn [rbind] in A. destruct r as [n' ver url integ| | ]; try discriminate.
      destruct (match sp with SAlias _ s => s | s => s end); try discriminate. destruct (full t2) as [d2|]; [|discriminate]. unfold read_full in A. destruct (jread t3) as [v3|] eqn:H3; [|discriminate]. cbn [obind] in A.
      pose proof (jread_good Hnum _ H3) as G3. destruct (read_full_doc vparse vshow rnorm uparse is_count v3) as [d3|] eqn:R3; [|discriminate].
      destruct (aget version_eqb ver (pf_versions d3)) as [e|] eqn:Ev; [|discriminate]. injection A as _ <-.
      assert (W3 : jwf v3) by apply G3.
      destruct (full_get vparse vshow rnorm uparse is_count _ _ _ _ W3 R3 Ev) as (e3 & (vs & k & F1 & F2 & _) & Re).
      apply (good_le number 126 127); [lia|]. eapply (metadata_good number) with (n := 125); [|exact Re]. eapply good_field; [|exact F2]. eapply good_field; [|exact F1]. exact G3. }
    destruct G as (W & J & D). rewrite pretty_layout. split; [apply (read_layout (number := number)); auto; reflexivity|]. now apply jwf_nodup.
  Qed.

  (** The commands named on the page of a package whose "bin" is an object of plain names, or a text of an unscoped package, are those
      that installing it links. *)
  Theorem C62_bins : forall walkdir d out nm b dr,
    (exists l, b = BHash l /\ field (JObj out) "bin" = Some (JObj (map (fun e => (fst e, JStr (snd e))) l)) /\ NoDup (map fst l)
       /\ forall n x, In (n, x) l -> single n /\ no_char "\" n = true /\ no_char ":" n = true /\ body x <> [])
    \/ (exists n x, b = BStr x /\ field (JObj out) "bin" = Some (JStr x) /\ text_of (JObj out) "name" = Some n /\ nm = Some n
       /\ single n /\ no_char "\" n = true /\ no_char ":" n = true /\ body x <> []) ->
    exists names, sh_bins (view_shown vparse d out) = Some names
      /\ forall m, normalize walkdir (mkRaw nm (Some b) dr) (Ok m) -> forall n, In n names <-> sget n m <> None.
  Proof.
    intros walkdir d out nm b dr [(l & -> & F & N & P)|(n & x & -> & F & T & -> & H1 & H2 & H3 & H4)]; unfold view_shown; cbn [sh_bins]; change (sget "bin" out) with (field (JObj out) "bin"); rewrite F; eexists; (split; [reflexivity|]); intros m H.
    - intros n. cbn [view_bins]. rewrite map_map. cbn [fst]. change (map (fun x => fst x) l) with (map (@fst string string) l). rewrite (C44_object_exact walkdir l nm dr P N m H n).
      split.
      + intros I. apply in_map_iff in I. destruct I as ((n' & x) & <- & I). cbn [fst]. apply (In_aget _ seqb_spec _ _ _ N) in I. rewrite I. discriminate.
      + intros X. destruct (sget n l) as [x|] eqn:E; [|cbn in X; congruence]. apply aget_In in E; [|apply seqb_spec]. exact (in_map fst _ _ E).
    - cbn [view_bins]. change (sget "name" out) with (field (JObj out) "name"). unfold text_of in T. destruct (field (JObj out) "name") as [[ | | |n'| | ]|]; try discriminate. injection T as ->. cbn [jtext or_else].
      inversion H as [bm order Hbm HP E|]; subst. cbn in Hbm. injection Hbm as <-. apply Permutation_sym, Permutation_length_1_inv in HP. subst order. cbn [norm_loop]. rewrite bin_base_id, bin_target_spec by auto.
      destruct (body x) as [|c cs]; [contradiction|]. intros k. cbn [sput aput aget In]. destruct (String.eqb_spec k n) as [E|E]; [rewrite E; split; [discriminate|auto]|].
      split; [intros [X|[]]; congruence|intros X; cbn in X; congruence].
  Qed.

  Lemma manifest_wf : well_formed (manifest_fields vparse vshow rnorm).
  Proof.
    split; [|split].
    - unfold manifest_fields. cbn [app]. repeat (apply Forall_cons; [intros k v H; cbn in H; contradiction|]). apply Forall_nil.
    - repeat (apply Forall_cons; [discriminate|]). apply Forall_nil.
    - apply nodupb_ok. reflexivity.
  Qed.
  Lemma sget_without k l : k <> "name" -> k <> "version" -> sget k (filter (fun e : string * json => negb (String.eqb (fst e) "name" || String.eqb (fst e) "version")) l) = sget k l.
  Proof.
    intros A B. induction l as [|[x j] l IH]; [reflexivity|]. cbn [filter fst]. destruct (String.eqb_spec x "name") as [E|E].
    - cbn [orb negb]. rewrite IH. cbn [aget]. destruct (String.eqb_spec k x); [congruence|reflexivity].
    - destruct (String.eqb_spec x "version") as [E'|E']; cbn [orb negb].
      + rewrite IH. cbn [aget]. destruct (String.eqb_spec k x); [congruence|reflexivity].
      + cbn [aget]. rewrite IH. reflexivity.
  Qed.
  (** Viewing a directory: its package.json, with the directory's name and 0.0.0 where it has no name or version; members that are not
      interpreted are as they were. *)
  Theorem C62_dir : forall base t v out, jread t = Some v -> view_dir vparse vshow rnorm uparse is_count number base t = Ok out ->
    (exists n, field (JObj out) "name" = Some (JStr n) /\ match text_of v "name" with Some s => n = s | None => base = Some n end)
    /\ (exists w, field (JObj out) "version" = Some (JStr (vshow w)) /\ (states v w \/ text_of v "version" = None /\ w = mkV 0 0 0 []))
    /\ forall k, ~ In k (map fst (shapes vparse uparse is_count)) -> field (JObj out) k = field v k.
  Proof.
    intros base t v out H A. unfold view_dir in A. rewrite H in A. cbn [obind] in A. destruct (jread_good Hnum _ H) as (W & _ & _).
    destruct v as [ | | | | |l]; try discriminate. destruct (read_flat (manifest_fields vparse vshow rnorm) l) as [m|] eqn:E; [|discriminate]. apply jwf_nodup in W.
    assert (Nm : sget "name" m = unless_null (sget "name" l)) by (eapply opt_out; [exact manifest_wf|exact E|exact W|left; reflexivity|exact ex_text]).
    pose proof (@single_out _ l m _ _ _ _ manifest_wf E W (or_intror (or_introl eq_refl))) as Vr. cbn [aget] in Vr.
    assert (Ot : forall k, ~ In k (names (manifest_fields vparse vshow rnorm)) -> sget k m = sget k l) by (intros k; apply flat_other; [exact manifest_wf|exact E]).
    assert (Tn : jtext (sget "name" m) = text_of (JObj l) "name") by (rewrite Nm, text_null; unfold jtext, text_of; cbn [field]; destruct (sget "name" l) as [[]|]; reflexivity).
    rewrite Tn in A. remember (no_dist uparse is_count) as nd. destruct (match text_of (JObj l) "name" with Some n => Some n | None => base end) as [n|] eqn:En; [|discriminate]. injection A as <-.
    split; [|split].
    - exists n. split; [reflexivity|]. destruct (text_of (JObj l) "name"); congruence.
    - assert (V : exists w, or_else (jtext (sget "version" m)) (vshow (mkV 0 0 0 [])) = vshow w /\ (states (JObj l) w \/ text_of (JObj l) "version" = None /\ w = mkV 0 0 0 [])).
      { unfold PackumentSpec.states, text_of. cbn [field]. destruct (sget "version" l) as [j|].
        - destruct Vr as (w & C & ->). destruct j as [ | | |s| | ]; try discriminate C.
          + cbn in C. injection C as <-. cbn. eexists. split; [reflexivity|]. right. split; reflexivity.
          + cbn in C. destruct (vparse s) as [x|] eqn:Ex; [|discriminate]. injection C as <-. cbn. eexists. split; [reflexivity|]. left. eauto.
        - rewrite Vr. cbn. eexists. split; [reflexivity|]. right. split; reflexivity. }
      destruct V as (w & V & S). exists w. split; [|exact S]. cbn [field]. change (Some (JStr (or_else (jtext (sget "version" m)) (vshow (mkV 0 0 0 [])))) = Some (JStr (vshow w))). now rewrite V.
    - intros k K. cbn [field aget]. assert (Kn : k <> "name" /\ k <> "version" /\ k <> "dist").
      { repeat split; intros ->; apply K; repeat (first [left; reflexivity|right]). }
      destruct Kn as (K1 & K2 & K3). destruct (String.eqb_spec k "dist"); [contradiction|]. destruct (String.eqb_spec k "name"); [contradiction|]. destruct (String.eqb_spec k "version"); [contradiction|].
      rewrite sget_without by assumption. apply Ot. intros I. apply K. rewrite <- (metadata_names vparse vshow rnorm uparse is_count). unfold names, metadata_fields. rewrite flat_map_app. apply in_or_app. now right.
  Qed.
End Thms.

(** ** concrete documents *)
Notation vw := (view_npm vp vshow6 Some Some (fun _ => true) int_number ex_rsat ex_canon (fun r => String.eqb r "*") Some "latest" (fun x => x)).
Notation vwj := (view_json vp vshow6 Some Some (fun _ => true) int_number ex_rsat ex_canon (fun r => String.eqb r "*") Some "latest" (fun x => x)).
Lemma vp_show : forall s x, vp s = Some x -> vp (vshow6 x) = Some x.
Proof.
  intros s x H. unfold vp in H. destruct (String.eqb s "1.0.0"); [injection H as <-; reflexivity|]. destruct (String.eqb s "1.1.0"); [injection H as <-; reflexivity|].
  destruct (String.eqb s "2.0.0"); [injection H as <-; reflexivity|discriminate].
Qed.
(** an entry with a person and places, and a member that is not interpreted *)
Definition rich : string := entry "1.0.0" "u1" [mem "license" (q "MIT"); mem "description" (q "d"); mem "keywords" ("[" ++ q "k1" ++ ", " ++ q "k2" ++ "]");
  deps [mem "n" (q "^1.0.0"); mem "b" (q "*")]; mem "bin" (q "cli.js"); mem "author" (obj [mem "name" (q "x")]); mem "gitHead" (q "h"); mem "engines" (q "old")].
Definition doc62 : string := doc [mem "1.0.0" rich; mem "1.1.0" (entry "1.1.0" "u2" [])].
(** the hypotheses of C62_faithful and C62_answers are met; the page *)
Example C62_nonvacuous : jread int_number doc62 = Some (val doc62) /\ good_full_document vp Some (fun _ => true) (val doc62)
  /\ (exists d out, vw (npm "a" (VVersion (v 1 0))) doc62 doc62 doc62 = Ok (d, out)
      /\ view_shown vp d out = mkShown "a" (v 1 0) "MIT" 2 2 (Some "d") None None ["k1"; "k2"] (Some ["a"]) (Some "u1") None (Some "sha512-u1") [("b", "*"); ("n", "^1.0.0")] None
      /\ field (JObj out) "gitHead" = Some (JStr "h") /\ field (JObj out) "engines" = None
      /\ field (JObj out) "author" = Some (JObj [("name", JStr "x"); ("email", JNull); ("url", JNull)])).
Proof.
  split; [vm_compute; reflexivity|]. split.
  - assert (J : jread int_number doc62 = Some (val doc62)) by (vm_compute; reflexivity).
    apply (full_doc_ok vp vshow6 Some Some (fun _ => true)); [now destruct (jread_good int_number_ok _ J)|]. eexists. vm_compute. reflexivity.
  - eexists. eexists. split; [vm_compute; reflexivity|]. repeat split; vm_compute; reflexivity.
Qed.

(** ** where more would be expected *)
(** A package that can be installed may not be viewable: the license of another version is an object, as old packages have it. *)
Theorem C62_refuted_license : exists t, t = doc [mem "1.0.0" (entry "1.0.0" "u1" []); mem "1.1.0" (entry "1.1.0" "u2" [mem "license" (obj [mem "type" (q "MIT")])])]
  /\ (exists p m, ans (npm "a" (VVersion (v 1 0))) t t = Ok (p, m)) /\ forall sp t1 t3, vw sp t1 t t3 <> Panic -> exists e, vw sp t1 t t3 = Err e.
Proof.
  eexists. split; [reflexivity|]. split; [eexists; eexists; vm_compute; reflexivity|].
  intros sp t1 t3 N. unfold view_npm in *. destruct (target sp); try (eexists; reflexivity). destruct (read_packument vp Some int_number t1); [|eexists; reflexivity].
  destruct (get_resolution _ _ _ _ _ _ _ _ _) as [r|e|]; [|eexists; reflexivity|destruct (N eq_refl)]. cbn [rbind] in *. destruct r; try (eexists; reflexivity).
  destruct (match sp with SAlias _ s => s | s => s end); try destruct (N eq_refl).
  assert (read_full vp vshow6 Some Some (fun _ => true) int_number (doc [mem "1.0.0" (entry "1.0.0" "u1" []); mem "1.1.0" (entry "1.1.0" "u2" [mem "license" (obj [mem "type" (q "MIT")])])]) = None) as -> by (vm_compute; reflexivity).
  eexists. reflexivity.
Qed.
(** Members of a person that are not its name, email or url are not shown, and neither is an empty list of dependencies. *)
Theorem C62_refuted_members : exists t d out, t = doc [mem "1.0.0" (entry "1.0.0" "u1" [mem "author" (obj [mem "name" (q "x"); mem "twitter" (q "y")]); deps []])]
  /\ vw (npm "a" (VVersion (v 1 0))) t t t = Ok (d, out) /\ field (JObj out) "author" = Some (JObj [("name", JStr "x"); ("email", JNull); ("url", JNull)]) /\ field (JObj out) "dependencies" = None.
Proof. eexists. eexists. eexists. split; [reflexivity|]. split; [vm_compute; reflexivity|]. split; reflexivity. Qed.
(** The command of a scoped package whose "bin" is a text: the page says "@s/n", installing links "n". *)
Definition scoped : string := obj [mem "versions" (obj [mem "1.0.0" (obj [mem "name" (q "@s/n"); mem "version" (q "1.0.0"); mem "bin" (q "cli.js"); mem "dist" (obj [mem "tarball" (q "u1")])])])].
Theorem C62_refuted_bins : exists d out, vw (npm "@s/n" (VVersion (v 1 0))) scoped scoped scoped = Ok (d, out) /\ sh_bins (view_shown vp d out) = Some ["@s/n"]
  /\ forall walkdir dr m, normalize walkdir (mkRaw (jtext (sget "name" out)) (Some (BStr "cli.js")) dr) (Ok m) -> m = [("n", [CNormal "cli.js"])].
Proof.
  eexists. eexists. split; [vm_compute; reflexivity|]. split; [vm_compute; reflexivity|].
  intros walkdir dr m H. apply (C44_scoped walkdir "@s" "n" "cli.js" dr); [split; [discriminate|split; [reflexivity|split; discriminate]]|reflexivity|reflexivity|discriminate|exact H].
Qed.

Print Assumptions C62_accepts.
Print Assumptions C62_faithful.
Print Assumptions C62_same_version.
Print Assumptions C62_no_panic.
Print Assumptions C62_answers.
Print Assumptions C62_reads_back.
Print Assumptions C62_bins.
Print Assumptions C62_dir.
Print Assumptions C62_refuted_license.
Print Assumptions C62_refuted_members.
Print Assumptions C62_refuted_bins.
