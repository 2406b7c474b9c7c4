(** * C60: what a request for a registry package is answered with is what the registry's document says.
    [registry_answer sp t1 t2] (PackumentModel): the outcome of the request [sp] when the registry's two responses have the texts [t1] (from
    which a version is chosen) and [t2] (from which its dependencies are taken).
    [listed v x e], [tag_in], [best], [states], [offers_tarball], [offers_integrity], [good_document]: PackumentSpec, on the JSON value of the text. *)
From Verif Require Import Base Types StdPath JsonModel JsonSpec JsonRead JsonReadProofs JsonReadThms PropsJsonRead ResolverModel ResolverProofs ResolverRun ResolverSpec ResolverThms ResolverDecl ResolverExamples
  Kdl VersionModel VersionSpec VersionProofs ManifestRead ManifestProofs PropsReplay PackumentModel PackumentSpec PackumentProofs JsonSpec.
Open Scope list_scope.
Open Scope string_scope.

Section Thms.
  Variable vparse : string -> option version.
  Variable uparse : string -> option string.
  Variable number : string -> option string.
  Variable rsat : range -> version -> bool.
  Variable canon : string -> option string.
  Variable is_any : range -> bool.
  Variable iparse : string -> option string.
  Variable default_tag : string.
  Variable at_base : string -> string.
  Hypothesis Hnum : forall s t, number s = Some t -> read_num t = Some (t, "") /\ number t = Some t.
  Notation answer := (registry_answer vparse uparse number rsat canon is_any iparse default_tag at_base).
  Notation listed := (listed vparse).
  Notation best := (best vparse rsat is_any default_tag).
  Notation states := (states vparse).
  Notation jread := (jread number).

  (** A document is readable exactly when it is well formed, every version of it. *)
  Theorem C60_accepts : forall t v, jread t = Some v -> ((exists d, read_packument vparse uparse number t = Some d) <-> good_document vparse uparse v).
  Proof. intros t v H. unfold read_packument. rewrite H. cbn [obind]. apply doc_ok. Qed.

  (** Every successful answer: the version is npm's choice among those the first document lists; the tarball and integrity are those of
      an entry listed under it; the dependencies are those that the second document lists under the version the entry says it is (0.0.0 if
      it says none). *)
  Theorem C60_faithful : forall sp sc nm req t1 t2 v1 v2 p m, target sp = SNpm sc nm req -> jread t1 = Some v1 -> jread t2 = Some v2 ->
    answer sp t1 t2 = Ok (p, m) ->
    exists x e1 ver url integ e2, best req v1 x /\ listed v1 x e1
      /\ p = mkPkg (request_name sp) sp (RNpm (request_name sp) ver url integ)
      /\ offers_tarball uparse e1 url /\ offers_integrity iparse e1 integ
      /\ (states e1 ver \/ (forall s, text_of e1 "version" <> Some s) /\ ver = mkV 0 0 0 [])
      /\ listed v2 ver e2 /\ forall k y, k <> Peer -> dep_of e2 (section_key k) y = option_map JStr (sget y (in_section m k)).
  Proof.
    intros sp sc nm req t1 t2 v1 v2 p m T H1 H2 A. unfold registry_answer in A. rewrite T in A. unfold read_packument in A. rewrite H1, H2 in A. cbn [obind] in A.
    destruct (jread_good Hnum _ H1) as (W1 & _ & _). destruct (jread_good Hnum _ H2) as (W2 & _ & _).
    destruct (read_doc vparse uparse v1) as [d1|] eqn:R1; [|discriminate].
    destruct (get_resolution rsat canon is_any iparse default_tag at_base (request_name sp) sp (pack d1)) as [r| |] eqn:G; [|discriminate|discriminate]. cbn [rbind] in A.
    destruct (first_doc vparse uparse rsat canon is_any iparse default_tag at_base _ _ _ _ _ _ _ _ W1 R1 T G) as (x & e1 & ver & url & integ & B1 & B2 & -> & B3 & B4 & B5).
    destruct (read_doc vparse uparse v2) as [d2|] eqn:R2; [|discriminate]. destruct (aget version_eqb ver (dc_versions d2)) as [ve|] eqn:Ev; [|discriminate].
    destruct (_ && _); [discriminate|]. injection A as <- <-. destruct (doc_get vparse uparse _ _ W2 R2 _ _ Ev) as (e2 & L2 & Re).
    exists x, e1, ver, url, integ, e2. repeat split; auto; try apply B1. intros k y Hk. destruct (entry_says vparse uparse _ _ Re) as (Hc & _).
    exact (corgi_says (vparses vparse) _ _ Hc k y Hk).
  Qed.

  (** If the document did not change and lists each version once, under the version its entry says it is, then version, tarball, integrity
      and dependencies are all those of the entry of npm's choice ... *)
  Theorem C60_one_document : forall sp sc nm req t v p m, target sp = SNpm sc nm req -> jread t = Some v ->
    own_numbers vparse v -> one_each vparse v -> answer sp t t = Ok (p, m) ->
    exists x e url integ, best req v x /\ listed v x e /\ p = mkPkg (request_name sp) sp (RNpm (request_name sp) x url integ)
      /\ offers_tarball uparse e url /\ offers_integrity iparse e integ
      /\ forall k y, k <> Peer -> dep_of e (section_key k) y = option_map JStr (sget y (in_section m k)).
  Proof.
    intros sp sc nm req t v p m T H O U A. destruct (C60_faithful sp sc nm req t t v v p m T H H A) as (x & e1 & ver & url & integ & e2 & B1 & B2 & B3 & B4 & B5 & B6 & B7 & B8).
    destruct (O _ _ B2) as (s & S1 & S2).
    assert (ver = x) as ->. { destruct B6 as [(s' & S1' & S2')|(N & _)]; [|destruct (N s S1)]. rewrite S1 in S1'. injection S1' as <-. congruence. }
    pose proof (U _ _ _ B2 B7) as E. subst e1. exists x, e2, url, integ. split; [exact B1|]. split; [exact B2|]. split; [exact B3|]. split; [exact B4|]. split; [exact B5|exact B8].
  Qed.

  (** ... and the request succeeds with it, whenever the entry has a tarball, its integrity is well formed, and it is not both deprecated
      and without a name. *)
  Theorem C60_answers : forall sp sc nm req t v x e url integ, target sp = SNpm sc nm req -> jread t = Some v -> good_document vparse uparse v ->
    own_numbers vparse v -> one_each vparse v -> best req v x -> listed v x e -> offers_tarball uparse e url -> offers_integrity iparse e integ ->
    (field e "deprecated" = None \/ field e "deprecated" = Some (JBool false) \/ exists s, text_of e "name" = Some s) ->
    exists m, answer sp t t = Ok (mkPkg (request_name sp) sp (RNpm (request_name sp) x url integ), m)
      /\ forall k y, k <> Peer -> dep_of e (section_key k) y = option_map JStr (sget y (in_section m k)).
  Proof.
    intros sp sc nm req t v x e url integ T H Gd O U B L Ot Oi Dp.
    destruct (jread_good Hnum _ H) as (W & _ & _). apply doc_ok in Gd. destruct Gd as (d & R).
    assert (Hx : exists ve, aget version_eqb x (dc_versions d) = Some ve) by (apply (doc_lists vparse uparse v d W R); exists e; exact L).
    destruct Hx as (ve & Ev). destruct (doc_get vparse uparse v d W R _ _ Ev) as (e' & L' & Re). rewrite (U _ _ _ L' L) in Re. clear L' e'.
    destruct (entry_says vparse uparse _ _ Re) as (Hc & Hv & Ht & Hi & Hs & Hn & Hd).
    assert (Hver : vm_version (ve_meta ve) = Some x). { rewrite Hv. destruct (O _ _ L) as (s & -> & S2). exact S2. }
    apply Ht in Ot.
    assert (G : get_resolution rsat canon is_any iparse default_tag at_base (request_name sp) sp (pack d) = Ok (RNpm (request_name sp) x url integ)).
    { rewrite (get_resolution_npm rsat canon is_any iparse default_tag at_base _ _ _ _ _ _ T). apply (pack_chosen vparse uparse rsat is_any default_tag v d W R) in B.
      apply (pick_chosen rsat is_any default_tag sc nm) in B. rewrite B, vget_pack, Ev. cbn [option_map]. unfold finish. rewrite Hver, Ot, Hi, Hs. unfold offers_integrity in Oi.
      destruct (dist_text e "integrity") as [i|].
      - destruct Oi as (N & E). rewrite E. destruct integ; [reflexivity|congruence].
      - destruct (dist_text e "shasum") as [h|]; [|subst integ; reflexivity]. destruct Oi as (N & E). rewrite E. destruct integ; [reflexivity|congruence]. }
    exists (ve_manifest ve). split; [|intros k y Hk; exact (corgi_says (vparses vparse) _ _ Hc k y Hk)].
    unfold registry_answer. rewrite T. unfold read_packument. rewrite H. cbn [obind]. rewrite R, G. cbn [rbind]. rewrite Ev.
    destruct (ve_deprecated ve && negb (ve_named ve)) eqn:Ed; [|reflexivity]. exfalso. apply andb_true_iff in Ed. destruct Ed as (D1 & D2).
    apply Hd in D1. destruct D1 as (j & J1 & J2). destruct Dp as [X|[X|X]]; [congruence|congruence|]. apply Hn in X. rewrite X in D2. discriminate.
  Qed.

  (** In the tree: when each response of the registry for a package name [nm] has one of the texts [served nm] (the registry may change as
      the run goes on), then in every state of every resolution without a lockfile each package but the project has the tarball and integrity of an entry
      of a document served for the name that was asked for, chosen as npm does, and depends on exactly what a served entry asks for.
      Missing: lockfile entries (C06, C10), directories and git repositories. *)
  Section Tree.
    Variable parse_dep : string -> string -> res err pspec.
    Variable lnode : Type.
    Variable lpath : lnode -> list string.
    Variable lman : lnode -> manifest.
    Variable topkg : lnode -> res err (option package).
    Variable served : string -> string -> Prop.
    Definition from_registry (sp : pspec) (o : outcome) : Prop :=
      exists sc nm req t1 t2, target sp = SNpm sc nm req /\ served nm t1 /\ served nm t2 /\ o = answer sp t1 t2.
    Notation reach := (reach rsat canon parse_dep lnode lpath lman topkg from_registry None).
    Theorem C60_tree_partial : forall root pkg m name, new_node parse_dep name pkg m true = Ok root -> forall s, reach root s ->
      forall i n, getn (s_g s) i = Some n -> i <> 0 ->
      exists sp sc nm req t1 v1 t2 v2, target sp = SNpm sc nm req /\ served nm t1 /\ jread t1 = Some v1 /\ served nm t2 /\ jread t2 = Some v2
        /\ exists x e1 ver url integ, best req v1 x /\ listed v1 x e1 /\ pk_resolved (n_pkg n) = RNpm (request_name sp) ver url integ
        /\ offers_tarball uparse e1 url /\ offers_integrity iparse e1 integ
        /\ exists e2 m', listed v2 ver e2 /\ (forall k y, k <> Peer -> dep_of e2 (section_key k) y = option_map JStr (sget y (in_section m' k)))
        /\ forall y sp' k, declares (s_g s) i y sp' k <-> asks parse_dep m' false y sp' k.
    Proof.
      intros root pkg m name Hr s Hs i n Hn Hi.
      destruct (proj2 (C03_follows_manifests rsat canon parse_dep lnode lpath lman topkg from_registry None root pkg m name Hr s Hs) i n Hn Hi) as (m' & [(sp & sc & nm & req & t1 & t2 & T & S1 & S2 & A)|(lf & ? & ? & X & _)] & D); [|discriminate X].
      symmetry in A.
      destruct (jread t1) as [v1|] eqn:J1; [|unfold registry_answer, read_packument in A; rewrite T, J1 in A; discriminate].
      destruct (jread t2) as [v2|] eqn:J2.
      2:{ unfold registry_answer in A. rewrite T in A. destruct (read_packument vparse uparse number t1); [|discriminate]. destruct (get_resolution _ _ _ _ _ _ _ _ _) as [[]| |]; try discriminate.
          cbn [rbind] in A. unfold read_packument in A. rewrite J2 in A. discriminate. }
      destruct (C60_faithful sp sc nm req t1 t2 v1 v2 _ _ T J1 J2 A) as (x & e1 & ver & url & integ & e2 & B1 & B2 & B3 & B4 & B5 & B6 & B7 & B8).
      exists sp, sc, nm, req, t1, v1, t2, v2. split; [exact T|]. split; [exact S1|]. split; [exact J1|]. split; [exact S2|]. split; [exact J2|].
      exists x, e1, ver, url, integ. split; [exact B1|]. split; [exact B2|]. split; [rewrite B3; reflexivity|]. split; [exact B4|]. split; [exact B5|].
      exists e2, m'. auto.
    Qed.
  End Tree.
End Thms.

(** ** concrete documents *)
Definition q (s : string) : string := s1 dq ++ s ++ s1 dq.
Definition mem (k v : string) : string := q k ++ ": " ++ v.
Definition obj (l : list string) : string := "{" ++ sjoin ", " l ++ "}".
(** an entry that says it is version [w], with tarball [u] and further members *)
Definition entry (w u : string) (more : list string) : string :=
  obj ([mem "name" (q "a"); mem "version" (q w); mem "dist" (obj [mem "tarball" (q u); mem "integrity" (q ("sha512-" ++ u))])] ++ more).
Definition doc (vs : list string) : string := obj [mem "name" (q "a"); mem "dist-tags" (obj [mem "latest" (q "1.0.0")]); mem "versions" (obj vs)].
Definition vp (s : string) : option version :=
  if String.eqb s "1.0.0" then Some (v 1 0) else if String.eqb s "1.1.0" then Some (v 1 1) else if String.eqb s "2.0.0" then Some (v 2 0) else None.
Notation ans := (registry_answer vp Some int_number ex_rsat ex_canon (fun r => String.eqb r "*") Some "latest" (fun x => x)).
Definition deps (l : list string) : string := mem "dependencies" (obj l).
Definition doc0 : string := doc [mem "1.0.0" (entry "1.0.0" "u1" [deps [mem "n" (q "^1.0.0")]]); mem "1.1.0" (entry "1.1.0" "u2" []); mem "2.0.0" (entry "2.0.0" "u3" [mem "deprecated" (q "old")])].
Definition val (t : string) : json := match jread int_number t with Some x => x | None => JNull end.

Lemma own0 : own_numbers vp (val doc0) /\ one_each vp (val doc0).
Proof.
  assert (H : forall x e, listed vp (val doc0) x e ->
     (x = v 1 0 /\ Some e = jread int_number (entry "1.0.0" "u1" [deps [mem "n" (q "^1.0.0")]])) \/ (x = v 1 1 /\ Some e = jread int_number (entry "1.1.0" "u2" []))
     \/ (x = v 2 0 /\ Some e = jread int_number (entry "2.0.0" "u3" [mem "deprecated" (q "old")]))).
  { intros x e (vs & k & A & B & C). vm_compute in A. injection A as <-. cbn [field aget] in B.
    destruct (String.eqb_spec k "1.0.0") as [K|_]; [|destruct (String.eqb_spec k "1.1.0") as [K|_]; [|destruct (String.eqb_spec k "2.0.0") as [K|_]; [|discriminate B]]];
      injection B as <-; rewrite K in C; vm_compute in C; injection C as <-.
    - left. split; [reflexivity|vm_compute; reflexivity].
    - right. left. split; [reflexivity|vm_compute; reflexivity].
    - right. right. split; [reflexivity|vm_compute; reflexivity]. }
  split.
  - intros x e L. destruct (H x e L) as [(-> & E)|[(-> & E)|(-> & E)]]; vm_compute in E; injection E as ->; eexists; (split; [reflexivity|vm_compute; reflexivity]).
  - intros x e e' L L'. destruct (H x e L) as [(-> & E)|[(-> & E)|(-> & E)]]; destruct (H _ e' L') as [(X & E')|[(X & E')|(X & E')]]; try discriminate X; congruence.
Qed.
(** the hypotheses of C60_one_document and C60_answers are met *)
Example C60_nonvacuous : jread int_number doc0 = Some (val doc0) /\ good_document vp Some (val doc0) /\ own_numbers vp (val doc0) /\ one_each vp (val doc0)
  /\ ans (npm "a" (VRange "^1.0.0")) doc0 doc0 = Ok (mkPkg "a" (npm "a" (VRange "^1.0.0")) (RNpm "a" (v 1 0) "u1" (Some "sha512-u1")), man [("n", "^1.0.0")])
  /\ ans (SAlias "b" (npm "a" (VVersion (v 2 0)))) doc0 doc0 = Ok (mkPkg "b" (SAlias "b" (npm "a" (VVersion (v 2 0)))) (RNpm "b" (v 2 0) "u3" (Some "sha512-u3")), no_deps)
  /\ ans (npm "a" (VTag "next")) doc0 doc0 = Err ENoVersion.
Proof.
  split; [vm_compute; reflexivity|]. split.
  - apply (doc_ok vp Some). eexists. vm_compute. reflexivity.
  - split; [exact (proj1 own0)|]. split; [exact (proj2 own0)|]. split; [vm_compute; reflexivity|]. split; vm_compute; reflexivity.
Qed.

(** ** where more would be expected *)
(** One malformed version makes every other version unavailable: 1.0.0 is as in [doc0], and 1.1.0 has "dependencies": []. *)
Theorem C60_refuted_other_version : exists good bad,
  good = doc [mem "1.0.0" (entry "1.0.0" "u1" [])] /\ bad = doc [mem "1.0.0" (entry "1.0.0" "u1" []); mem "1.1.0" (entry "1.1.0" "u2" [mem "dependencies" "[]"])]
  /\ (exists p m, ans (npm "a" (VVersion (v 1 0))) good good = Ok (p, m)) /\ forall sp sc nm req t, target sp = SNpm sc nm req -> ans sp bad t = Err EParse.
Proof.
  eexists. eexists. split; [reflexivity|]. split; [reflexivity|]. split; [eexists; eexists; vm_compute; reflexivity|].
  intros sp sc nm req t T. unfold registry_answer. rewrite T.
  assert (read_packument vp Some int_number (doc [mem "1.0.0" (entry "1.0.0" "u1" []); mem "1.1.0" (entry "1.1.0" "u2" [mem "dependencies" "[]"])]) = None) as -> by (vm_compute; reflexivity).
  reflexivity.
Qed.
(** So does "deprecated": null on any version. *)
Theorem C60_refuted_deprecated_null : exists bad, bad = doc [mem "1.0.0" (entry "1.0.0" "u1" []); mem "1.1.0" (entry "1.1.0" "u2" [mem "deprecated" "null"])]
  /\ forall sp sc nm req t, target sp = SNpm sc nm req -> ans sp bad t = Err EParse.
Proof.
  eexists. split; [reflexivity|]. intros sp sc nm req t T. unfold registry_answer. rewrite T.
  assert (read_packument vp Some int_number (doc [mem "1.0.0" (entry "1.0.0" "u1" []); mem "1.1.0" (entry "1.1.0" "u2" [mem "deprecated" "null"])]) = None) as -> by (vm_compute; reflexivity).
  reflexivity.
Qed.
(** A deprecated version whose entry has no name crashes the command. *)
Theorem C60_refuted_nameless : exists t, t = doc [mem "1.0.0" (obj [mem "version" (q "1.0.0"); mem "deprecated" (q "old"); mem "dist" (obj [mem "tarball" (q "u1")])])]
  /\ ans (npm "a" (VVersion (v 1 0))) t t = Panic.
Proof. eexists. split; [reflexivity|]. vm_compute. reflexivity. Qed.
(** An entry that says it is another version: the request is for 1.0.0 exactly, the tarball is that of 1.0.0, but the package is recorded as
    2.0.0 and given the dependencies of 2.0.0. *)
Theorem C60_refuted_wrong_number : exists t v0 p m, t = doc [mem "1.0.0" (entry "2.0.0" "u1" []); mem "2.0.0" (entry "2.0.0" "u2" [deps [mem "n" (q "^1.0.0")]])]
  /\ jread int_number t = Some v0 /\ one_each vp v0 /\ ans (npm "a" (VVersion (v 1 0))) t t = Ok (p, m)
  /\ pk_resolved p = RNpm "a" (v 2 0) "u1" (Some "sha512-u1") /\ m = man [("n", "^1.0.0")].
Proof.
  eexists. exists (val (doc [mem "1.0.0" (entry "2.0.0" "u1" []); mem "2.0.0" (entry "2.0.0" "u2" [deps [mem "n" (q "^1.0.0")]])])). eexists. eexists.
  split; [reflexivity|]. split; [vm_compute; reflexivity|]. split.
  - intros x e e' (vs & k & A & B & C) (vs' & k' & A' & B' & C'). vm_compute in A, A'. rewrite A in A'. injection A' as <-. injection A as <-. cbn [field aget] in B, B'.
    destruct (String.eqb_spec k "1.0.0") as [K|_]; [|destruct (String.eqb_spec k "2.0.0") as [K|_]; [|discriminate B]];
    (destruct (String.eqb_spec k' "1.0.0") as [K'|_]; [|destruct (String.eqb_spec k' "2.0.0") as [K'|_]; [|discriminate B']]); rewrite K in C; rewrite K' in C'; vm_compute in C, C'; congruence.
  - split; [vm_compute; reflexivity|]. split; vm_compute; reflexivity.
Qed.
(** The registry changes 1.0.0 between the two responses (or two registries answer): the tarball of the first and the dependencies of the second. *)
Theorem C60_refuted_two_responses : exists t1 t2 p m, t1 = doc [mem "1.0.0" (entry "1.0.0" "u1" [])] /\ t2 = doc [mem "1.0.0" (entry "1.0.0" "u2" [deps [mem "n" (q "^1.0.0")]])]
  /\ ans (npm "a" (VVersion (v 1 0))) t1 t2 = Ok (p, m) /\ pk_resolved p = RNpm "a" (v 1 0) "u1" (Some "sha512-u1") /\ m = man [("n", "^1.0.0")].
Proof. eexists. eexists. eexists. eexists. split; [reflexivity|]. split; [reflexivity|]. split; [vm_compute; reflexivity|]. split; vm_compute; reflexivity. Qed.

Print Assumptions C60_accepts.
Print Assumptions C60_faithful.
Print Assumptions C60_one_document.
Print Assumptions C60_answers.
Print Assumptions C60_tree_partial.
Print Assumptions C60_refuted_other_version.
Print Assumptions C60_refuted_deprecated_null.
Print Assumptions C60_refuted_nameless.
Print Assumptions C60_refuted_wrong_number.
Print Assumptions C60_refuted_two_responses.
