(** * C56: what add and remove write to package.json is what the next command reads and installs.
    [read_manifest] is the reader of package.json used by every command (CorgiManifest); [from_str]/[to_string_pretty] the reader and
    writer of the editing commands; [in_section m t] what a manifest asks for in one section; [dep_of]/[field]: JsonSpec. *)
From Verif Require Import Base Types StdPath JsonModel JsonSpec JsonProofs JsonRead JsonReadProofs JsonReadThms PropsJson PropsJsonRead ResolverModel ResolverProofs ResolverRun ResolverSpec ResolverThms ResolverDecl ResolverExamples
  PropsResolver PropsReplay Kdl CmdModel SpecModel ManifestRead ManifestProofs JsonModel JsonSpec.
Open Scope list_scope.
Open Scope string_scope.

Section Thms.
  Variable vparses : string -> bool.
  Variable number : string -> option string.
  Hypothesis Hnum : forall s t, number s = Some t -> read_num t = Some (t, "") /\ number t = Some t.
  Notation reads := (read_manifest vparses number).
  Notation corgi := (corgi vparses).
  Notation jread := (jread number).

  (** Reading: a package.json is accepted exactly when it is an object, its name is missing, null or a string, its version missing, null or a
      version, at most one of the two spellings of the bundle list is given and it is well formed, and each dependency section is missing or
      an object of strings; and then a manifest asks for exactly what the sections say. *)
  Theorem C56_reads : forall t v, jread t = Some v ->
    ((exists m, reads t = Some m) <-> is_obj v = true /\ plain_header vparses v /\ forall sec, dependency_section sec -> plain_section (field v sec))
    /\ forall m, reads t = Some m -> forall k x, k <> Peer -> dep_of v (section_key k) x = option_map JStr (sget x (in_section m k)).
  Proof.
    intros t v H. unfold read_manifest. rewrite H. cbn [obind]. split; [apply corgi_ok|]. intros m E. exact (corgi_says vparses v m E).
  Qed.

  Section Edit.
    Variable resolve : string -> res err package.
    Variable parse_spec : string -> res err pspec.
    Variable vshow : version -> string.
    Variable gitshow : gitinfo -> string.
    Variable req : pspec -> string.
    Variable prefix : string.
    Notation record_of := (recorded parse_spec vshow gitshow req prefix).
    Notation added := (add_specs resolve parse_spec vshow gitshow req prefix).

    (** add: if package.json could be read before, the text written can be read, and the manifest read from it asks for each requested
        package (the last request, if one is repeated) in the chosen section with the recorded text and in no other section, and for
        everything else as before. *)
    Theorem C56_add : forall dev opt t f m specs v, from_str jread t = Some f -> reads t = Some m -> added dev opt specs (f_value f) = Ok v ->
      exists l m', Forall2 (fun s p => resolve s = Ok (fst p) /\ record_of s (fst p) = Ok (snd p)) specs l
      /\ reads (to_string_pretty (set_value v f)) = Some m'
      /\ (forall l1 p l2, l = (l1 ++ p :: l2)%list -> (forall q, In q l2 -> pk_name (fst q) <> pk_name (fst p)) ->
          forall k, k <> Peer -> sget (pk_name (fst p)) (in_section m' k) = if deptype_eqb k (add_kind dev opt) then Some (snd p) else None)
      /\ (forall x k, k <> Peer -> (forall p, In p l -> pk_name (fst p) <> x) -> sget x (in_section m' k) = sget x (in_section m k)).
    Proof.
      intros dev opt t f m specs v H Hm Ha. pose proof (C54_add number Hnum resolve parse_spec vshow gitshow req prefix dev opt t f specs v H Ha) as R.
      destruct (from_str_ws _ _ H) as (P & _). destruct (jread_good Hnum _ P) as (W & _ & _). unfold read_manifest in Hm. rewrite P in Hm. cbn [obind] in Hm.
      destruct (adds_spec resolve parse_spec vshow gitshow req prefix dev opt specs _ _ W Ha) as (l & F & W' & Hk & Ho & Hp & extra & Hkeys).
      destruct (proj1 (corgi_ok vparses _) (ex_intro _ m Hm)) as (O & Hh & Hs).
      assert (exists m', corgi v = Some m') as (m' & Hm').
      { apply corgi_ok. split; [|split].
        - exact (add_specs_obj _ _ _ _ _ _ _ _ _ _ _ O Ha).
        - exact (header_same vparses _ _ Hk Hh).
        - exact (add_specs_plain _ _ _ _ _ _ _ _ _ _ _ Hs Ha). }
      exists l, m'. split; [exact F|]. split; [unfold read_manifest; rewrite R; exact Hm'|]. split.
      - intros l1 p l2 E1 E2 k Hk'. pose proof (Hp l1 p l2 E1 E2 (section_key k) (section_key_section k)) as Q. rewrite (corgi_says vparses v m' Hm' k _ Hk') in Q.
        destruct (deptype_eqb k (add_kind dev opt)) eqn:Ek.
        + assert (k = add_kind dev opt) as -> by (destruct k, (add_kind dev opt); cbn in Ek; congruence). rewrite add_kind_key, String.eqb_refl in Q.
          destruct (sget _ _) as [s|]; cbn in Q; [injection Q as ->; reflexivity|discriminate Q].
        + destruct (String.eqb_spec (section_key k) (dep_kind dev opt)) as [E|_].
          * rewrite <- add_kind_key in E. apply section_key_inj in E. subst k. destruct (add_kind dev opt); discriminate Ek.
          * destruct (sget _ _) as [s|]; cbn in Q; [discriminate Q|reflexivity].
      - intros x k Hk' Hx. pose proof (Ho (section_key k) x (section_key_section k) Hx) as Q. rewrite (corgi_says vparses v m' Hm' k _ Hk'), (corgi_says vparses _ m Hm k _ Hk') in Q.
        destruct (sget x (in_section m' k)), (sget x (in_section m k)); cbn in Q; congruence.
    Qed.
    (** remove: likewise, and the manifest read asks for none of the named packages *)
    Theorem C56_remove : forall t f m names v n, from_str jread t = Some f -> reads t = Some m -> remove_names parse_spec names (f_value f) 0 = Ok (v, n) ->
      exists m', reads (to_string_pretty (set_value v f)) = Some m' /\ forall x k, k <> Peer ->
        ((exists a, In a names /\ names_package parse_spec a x) -> sget x (in_section m' k) = None)
        /\ (~ (exists a, In a names /\ names_package parse_spec a x) -> sget x (in_section m' k) = sget x (in_section m k)).
    Proof.
      intros t f m names v n H Hm Ha. pose proof (C54_remove number Hnum parse_spec t f names v n H Ha) as R.
      destruct (from_str_ws _ _ H) as (P & _). destruct (jread_good Hnum _ P) as (W & _ & _). unfold read_manifest in Hm. rewrite P in Hm. cbn [obind] in Hm.
      destruct (@remove_names_spec parse_spec names _ _ _ _ W Ha) as (B1 & B2 & B3 & B4 & B5 & B6 & B7 & B8).
      destruct (proj1 (corgi_ok vparses _) (ex_intro _ m Hm)) as (O & Hh & Hs).
      assert (exists m', corgi v = Some m') as (m' & Hm').
      { apply corgi_ok. split; [congruence|]. split; [exact (header_same vparses _ _ B4 Hh)|]. exact (remove_names_plain _ _ _ _ _ _ Hs Ha). }
      exists m'. split; [unfold read_manifest; rewrite R; exact Hm'|]. intros x k Hk. pose proof (section_key_section k) as Sk. split.
      - intros G. pose proof (B5 _ x Sk G) as Q. rewrite (corgi_says vparses v m' Hm' k _ Hk) in Q. destruct (sget _ _) as [s|]; cbn in Q; [discriminate Q|reflexivity].
      - intros G. pose proof (B6 _ x Sk G) as Q. rewrite (corgi_says vparses v m' Hm' k _ Hk), (corgi_says vparses _ m Hm k _ Hk) in Q.
        destruct (sget x (in_section m' k)), (sget x (in_section m k)); cbn in Q; congruence.
    Qed.
  End Edit.

  (** What the resolver makes of a manifest read from package.json: a dependency that is in one section only, with no other spelling of its name
      (the tree does not tell letter case apart), is asked for with its text, and nothing else under that name is.
      Missing: names that differ in letter case only (C56_refuted_case). *)
  Theorem C56_asked_partial : forall t m x k s parse_dep, reads t = Some m -> k <> Peer -> sget x (in_section m k) = Some s ->
    (forall k' y, k' <> Peer -> In y (map fst (in_section m k')) -> ufold y = ufold x -> k' = k /\ y = x) ->
    forall sp ty, asks parse_dep m true (ufold x) sp ty <-> parse_dep x s = Ok sp /\ ty = k.
  Proof.
    intros t m x k s parse_dep Hm Hk G U sp ty. unfold read_manifest in Hm. destruct (jread t) as [v|] eqn:Ev; [|discriminate]. cbn [obind] in Hm.
    destruct (jread_good Hnum _ Ev) as (W & _ & _). pose proof (corgi_nodup vparses v m W Hm) as N.
    assert (L : last_entry (ufold x) (in_section m k) = Some (x, s)).
    { apply last_entry_alone; auto. intros y Hy E. exact (proj2 (U k y Hk Hy E)). }
    assert (L' : forall k', k' <> Peer -> k' <> k -> last_entry (ufold x) (in_section m k') = None).
    { intros k' Hk' Hne. apply last_entry_none. intros y Hy E. apply Hne. exact (proj1 (U k' y Hk' Hy E)). }
    unfold asks. split.
    - intros (nm & str & Hp & H). destruct ty; [| |destruct H|].
      + destruct H as (_ & _ & H). destruct k; [| |contradiction|]; cbn [in_section] in L.
        * rewrite L in H. injection H as <- <-. auto.
        * pose proof (L' Prod ltac:(discriminate) ltac:(discriminate)) as L0; cbn [in_section] in L0; rewrite L0 in H; discriminate H.
        * pose proof (L' Prod ltac:(discriminate) ltac:(discriminate)) as L0; cbn [in_section] in L0; rewrite L0 in H; discriminate H.
      + destruct H as (_ & H). destruct k; [| |contradiction|]; cbn [in_section] in L.
        * pose proof (L' Dev ltac:(discriminate) ltac:(discriminate)) as L0; cbn [in_section] in L0; rewrite L0 in H; discriminate H.
        * rewrite L in H. injection H as <- <-. auto.
        * pose proof (L' Dev ltac:(discriminate) ltac:(discriminate)) as L0; cbn [in_section] in L0; rewrite L0 in H; discriminate H.
      + destruct H as (_ & H). destruct k; [| |contradiction|]; cbn [in_section] in L.
        * pose proof (L' Opt ltac:(discriminate) ltac:(discriminate)) as L0; cbn [in_section] in L0; rewrite L0 in H; discriminate H.
        * pose proof (L' Opt ltac:(discriminate) ltac:(discriminate)) as L0; cbn [in_section] in L0; rewrite L0 in H; discriminate H.
        * rewrite L in H. injection H as <- <-. auto.
    - intros (Hp & ->). exists x, s. split; [exact Hp|]. destruct k; [| |contradiction|]; cbn [in_section] in L.
      + split; [intros _; apply (L' Dev); discriminate|]. split; [apply (L' Opt); discriminate|exact L].
      + split; [reflexivity|exact L].
      + split; [intros _; apply (L' Dev); discriminate|exact L].
  Qed.
  (** A package no section names, in any spelling, is not asked for by the project. *)
  Theorem C56_not_asked : forall t m x parse_dep, reads t = Some m ->
    (forall k y, k <> Peer -> In y (map fst (in_section m k)) -> ufold y <> ufold x) -> forall sp ty, ~ asks parse_dep m true (ufold x) sp ty.
  Proof.
    intros t m x parse_dep _ U sp ty (nm & str & _ & H).
    assert (L' : forall k', k' <> Peer -> last_entry (ufold x) (in_section m k') = None) by (intros k' Hk'; apply last_entry_none; intros y Hy; exact (U k' y Hk' Hy)).
    destruct ty; [| |destruct H|].
    - destruct H as (_ & _ & H). pose proof (L' Prod ltac:(discriminate)) as L0. cbn in L0. congruence.
    - destruct H as (_ & H). pose proof (L' Dev ltac:(discriminate)) as L0. cbn in L0. congruence.
    - destruct H as (_ & H). pose proof (L' Opt ltac:(discriminate)) as L0. cbn in L0. congruence.
  Qed.

  (** From the text to the tree: when the project whose package.json is the text [t] has been resolved, under every schedule, each dependency as
      above has been linked to a package that answers its text. *)
  Section Installed.
    Variable rsat : range -> version -> bool.
    Variable canon : string -> option string.
    Variable parse_dep : string -> string -> res err pspec.
    Variable lnode : Type.
    Variable lpath : lnode -> list string.
    Variable lman : lnode -> manifest.
    Variable topkg : lnode -> res err (option package).
    Variable deliver : pspec -> outcome -> Prop.
    Variable lock : option (lockpkgs lnode).
    Notation reach := (reach rsat canon parse_dep lnode lpath lman topkg deliver lock).
    Theorem C56_installed_partial : forall t m x k s pkg name root st, reads t = Some m -> k <> Peer -> sget x (in_section m k) = Some s ->
      (forall k' y, k' <> Peer -> In y (map fst (in_section m k')) -> ufold y = ufold x -> k' = k /\ y = x) ->
      new_node parse_dep name pkg m true = Ok root -> reach root st -> finished st = true ->
      exists sp c, parse_dep x s = Ok sp /\ linked (s_g st) 0 (ufold x) sp k c /\ acceptable rsat canon deliver (s_g st) c sp.
    Proof.
      intros t m x k s pkg name root st Hm Hk G U Hr Hst Hf. pose proof (C56_asked_partial t m x k s parse_dep Hm Hk G U) as A.
      assert (exists sp, parse_dep x s = Ok sp) as (sp & Hp).
      { apply aget_In in G; [|apply seqb_spec]. exact (new_node_parses parse_dep name pkg m root Hr k x s Hk G). }
      assert (D : declares (s_g st) 0 (ufold x) sp k) by (apply (proj1 (C03_follows_manifests rsat canon parse_dep lnode lpath lman topkg deliver lock root pkg m name Hr st Hst)); apply A; auto).
      destruct (C03_complete rsat canon parse_dep lnode lpath lman topkg deliver lock root pkg m name Hr st Hst Hf 0 (ufold x) sp k D) as (c & L & Ac). eauto.
    Qed.
    (** The two together: package.json is edited by add and the project then resolved from the text written, under any schedule: each requested
        package has been linked, in the chosen section, to a package that answers the recorded text. *)
    Theorem C56_add_installed_partial : forall resolve parse_spec vshow gitshow req prefix dev opt t f m specs v,
      from_str jread t = Some f -> reads t = Some m -> add_specs resolve parse_spec vshow gitshow req prefix dev opt specs (f_value f) = Ok v ->
      exists l m', Forall2 (fun s p => resolve s = Ok (fst p) /\ recorded parse_spec vshow gitshow req prefix s (fst p) = Ok (snd p)) specs l
      /\ reads (to_string_pretty (set_value v f)) = Some m'
      /\ forall l1 p l2, l = (l1 ++ p :: l2)%list -> (forall q, In q l2 -> pk_name (fst q) <> pk_name (fst p)) ->
         (forall q, In q l -> ufold (pk_name (fst q)) = ufold (pk_name (fst p)) -> pk_name (fst q) = pk_name (fst p)) ->
         (forall k y, k <> Peer -> In y (map fst (in_section m k)) -> ufold y = ufold (pk_name (fst p)) -> y = pk_name (fst p)) ->
         forall pkg name root st, new_node parse_dep name pkg m' true = Ok root -> reach root st -> finished st = true ->
         exists sp c, parse_dep (pk_name (fst p)) (snd p) = Ok sp /\ linked (s_g st) 0 (ufold (pk_name (fst p))) sp (add_kind dev opt) c
         /\ acceptable rsat canon deliver (s_g st) c sp.
    Proof.
      intros resolve parse_spec vshow gitshow req prefix dev opt t f m specs v H Hm Ha.
      destruct (C56_add resolve parse_spec vshow gitshow req prefix dev opt t f m specs v H Hm Ha) as (l & m' & F & Hm' & A & B).
      exists l, m'. split; [exact F|]. split; [exact Hm'|]. intros l1 p l2 El Hl U1 U2 pkg name root st Hr Hst Hf.
      pose proof (A l1 p l2 El Hl) as A'. assert (Hk : add_kind dev opt <> Peer) by (destruct dev, opt; discriminate).
      apply (C56_installed_partial _ m' (pk_name (fst p)) (add_kind dev opt) (snd p) pkg name root st Hm' Hk); auto.
      - rewrite A' by exact Hk. destruct dev, opt; reflexivity.
      - intros k' y Hk' Hy E. assert (y = pk_name (fst p)) as ->.
        { destruct (existsb (fun q => String.eqb (pk_name (fst q)) y) l) eqn:Ex.
          - apply existsb_exists in Ex. destruct Ex as (q & Hq & Eq). apply String.eqb_eq in Eq. subst y. exact (U1 q Hq E).
          - apply (U2 k' y Hk'); [|exact E].
            assert (Hn : forall q, In q l -> pk_name (fst q) <> y).
            { intros q Hq Eq. assert (existsb (fun q => String.eqb (pk_name (fst q)) y) l = true) as X; [|congruence]. apply existsb_exists. exists q. split; [exact Hq|]. now apply String.eqb_eq. }
            specialize (B y k' Hk' Hn). destruct (sget y (in_section m' k')) as [s0|] eqn:Es.
            + symmetry in B. apply aget_In in B; [|apply seqb_spec]. apply (in_map fst) in B. exact B.
            + apply aget_None in Es; [contradiction|apply seqb_spec]. }
        split; [|reflexivity]. specialize (A' k' Hk'). destruct (deptype_eqb k' (add_kind dev opt)) eqn:Ek.
        + destruct k', (add_kind dev opt); cbn in Ek; congruence.
        + apply aget_None in A'; [contradiction|apply seqb_spec].
    Qed.
  End Installed.
End Thms.

(** ** the hypotheses are met *)
Definition ex_doc : string := "{ ""name"": ""demo"", ""version"": ""1.2.3""," ++ s1 nl ++ "  ""dependencies"": {""a"": ""1.0.0"", ""n"": ""2.0.0""}, ""devDependencies"": {""t"": ""latest""}, ""x"": [1] }".
Definition ex_vp (s : string) : bool := String.eqb s "1.2.3".
Definition ex_show (_ : version) : string := "1.0.0".
Notation ex_added := (add_specs ex_resolve ex_parse_spec ex_show (fun _ => "") (requested ex_show (fun x => x)) "^" true false ["n"]).
Example ex_doc_reads : read_manifest ex_vp int_number ex_doc = Some (mkMan [("a", "1.0.0"); ("n", "2.0.0")] [] [("t", "latest")]).
Proof. vm_compute. reflexivity. Qed.
(* adding "n" as a development dependency: the text written asks for it there, with the new text, and no longer among the ordinary ones *)
Example ex_doc_added : exists f v, from_str (jread int_number) ex_doc = Some f /\ ex_added (f_value f) = Ok v
  /\ read_manifest ex_vp int_number (to_string_pretty (set_value v f)) = Some (mkMan [("a", "1.0.0")] [] [("t", "latest"); ("n", "^1.0.0")]).
Proof. do 2 eexists. split; [vm_compute; reflexivity|]. split; [vm_compute; reflexivity|]. vm_compute. reflexivity. Qed.
Example ex_doc_removed : exists f v n, from_str (jread int_number) ex_doc = Some f /\ remove_names ex_parse_spec ["n"; "t"] (f_value f) 0 = Ok (v, n)
  /\ read_manifest ex_vp int_number (to_string_pretty (set_value v f)) = Some (mkMan [("a", "1.0.0")] [] []).
Proof. do 3 eexists. split; [vm_compute; reflexivity|]. split; [vm_compute; reflexivity|]. vm_compute. reflexivity. Qed.
Example ex_doc_rejected : map (read_manifest ex_vp int_number) ["[]"; "{""dependencies"": null}"; "{""dependencies"": {""a"": 1}}"; "{""peerDependencies"": []}"; "{""version"": ""x""}"; "{""name"": 1}"] = repeat None 6.
Proof. vm_compute. reflexivity. Qed.

(** a whole run: package.json as a text, two packages, resolved *)
Definition reg_doc : registry := [("a", [(v 1 0, man [("n", "^1.0.0")])]); ("n", [(v 1 1, no_deps)]); ("t", [(v 1 0, no_deps)])].
Definition doc_man : manifest := mkMan [("a", "1.0.0")] [] [("t", "latest"); ("n", "^1.0.0")].
Definition doc_root := mk_root doc_man.
Definition doc_sched : list action :=
  [APop; AChunk 3 [rs reg_doc (npm "a" (VVersion (v 1 0))); rs reg_doc (npm "t" (VTag "latest")); rs reg_doc (npm "n" (VRange "^1.0.0"))]; APop; APop; APop].
Definition doc_end : st := match ex_run (init doc_root) doc_sched with Some s => s | None => init doc_root end.
Lemma doc_run : ex_run (init doc_root) doc_sched = Some doc_end.
Proof. vm_compute. reflexivity. Qed.
Lemma doc_finished : finished doc_end = true.
Proof. vm_compute. reflexivity. Qed.

Lemma doc_reach : ex_reach reg_doc doc_root doc_end.
Proof. apply ex_run_reach with (l := doc_sched); [repeat constructor|exact doc_run]. Qed.
(* after `add --dev n` and `apply`: the project's n is a package the text "^1.0.0" accepts *)
Example ex_doc_installed : exists f v, from_str (jread int_number) ex_doc = Some f /\ ex_added (f_value f) = Ok v
  /\ read_manifest ex_vp int_number (to_string_pretty (set_value v f)) = Some doc_man
  /\ exists c, linked (s_g doc_end) 0 "n" (npm "n" (VRange "^1.0.0")) Dev c /\ acceptable ex_rsat ex_canon (ex_deliver reg_doc) (s_g doc_end) c (npm "n" (VRange "^1.0.0")).
Proof.
  destruct ex_doc_added as (f & w & H1 & H2 & H3). exists f, w. split; [exact H1|]. split; [exact H2|]. split; [exact H3|].
  destruct (C56_installed_partial ex_vp int_number int_number_ok ex_rsat ex_canon ex_parse unit (fun _ => []) (fun _ => no_deps) (fun _ => Ok None) (ex_deliver reg_doc) None
    _ doc_man "n" Dev "^1.0.0" root_pkg "root" doc_root doc_end H3) as (sp & c & Hp & L & A).
  - discriminate.
  - reflexivity.
  - intros k' y Hk Hy E. destruct k'; [| |contradiction|]; cbn [in_section doc_man m_deps m_dev m_opt map fst In] in Hy.
    + destruct Hy as [<-|[]]. discriminate E.
    + destruct Hy as [<-|[<-|[]]]; [discriminate E|auto].
    + destruct Hy.
  - reflexivity.
  - exact doc_reach.
  - exact doc_finished.
  - injection Hp as <-. exists c. auto.
Qed.

(** Names that differ in letter case only: package.json has "Foo" among its development dependencies, `add foo` records "foo" with its text, and
    the project still asks only for "Foo", with the old text. *)
Theorem C56_refuted_case : exists t f w m', from_str (jread int_number) t = Some f
  /\ add_specs ex_resolve ex_parse_spec ex_show (fun _ => "") (requested ex_show (fun x => x)) "^" false false ["foo"] (f_value f) = Ok w
  /\ read_manifest ex_vp int_number (to_string_pretty (set_value w f)) = Some m'
  /\ sget "foo" (m_deps m') = Some "^1.0.0"
  /\ forall parse_dep x sp ty, ufold x = "foo" -> asks parse_dep m' true (ufold x) sp ty -> ty = Dev /\ parse_dep "Foo" "2.0.0" = Ok sp.
Proof.
  exists "{""devDependencies"": {""Foo"": ""2.0.0""}}". do 3 eexists. split; [vm_compute; reflexivity|]. split; [vm_compute; reflexivity|].
  split; [vm_compute; reflexivity|]. split; [reflexivity|]. intros parse_dep x sp ty -> (nm & str & Hp & H).
  destruct ty; cbn [m_deps m_dev m_opt last_entry ufold] in H; [| |destruct H|].
  - destruct H as (H & _). specialize (H eq_refl). discriminate H.
  - destruct H as (_ & H). injection H as <- <-. auto.
  - destruct H as (H & _). specialize (H eq_refl). discriminate H.
Qed.
(** A package.json that gives the bundle list under both of the names npm accepts is rejected, though either alone is read. *)
Theorem C56_refuted_bundle : let head := "{""dependencies"": {""a"": ""1""}" in
  let one := ", ""bundledDependencies"": [""a""]" in let two := ", ""bundleDependencies"": [""a""]" in
  let m := mkMan [("a", "1")] [] [] in
  read_manifest ex_vp int_number (head ++ one ++ "}") = Some m /\ read_manifest ex_vp int_number (head ++ two ++ "}") = Some m
  /\ read_manifest ex_vp int_number (head ++ one ++ two ++ "}") = None.
Proof. vm_compute. auto. Qed.

Print Assumptions C56_reads.
Print Assumptions C56_add.
Print Assumptions C56_remove.
Print Assumptions C56_asked_partial.
Print Assumptions C56_not_asked.
Print Assumptions C56_installed_partial.
Print Assumptions C56_add_installed_partial.
Print Assumptions C56_refuted_case.
Print Assumptions C56_refuted_bundle.
