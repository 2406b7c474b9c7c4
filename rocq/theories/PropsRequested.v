(** * Properties C31, C08 and C06, continued: dependencies as they are written and read.
    A dependency is read as name@text (graph.rs:90), and written in a lockfile as [requested] text (oro-package-spec/src/lib.rs:86-105).
    [parse], [show]: PackageSpec::from_str and Display; [package_name]: PropsSpec; [plain_spec], [semver_printing], [url_printing]: SpecSpec. *)
From Verif Require Import Base Types Kdl StdPath SpecModel SpecSpec SpecProofs SpecRound SpecKind SpecDep PropsSpec.
From Verif Require Import ResolverModel ResolverProofs ResolverRun ResolverSpec ResolverThms ResolverSteps ResolverFacts ResolverDecl
  ResolverExamples
  LockfileModel LockfileSpec LockfileProofs LockfileGraph LockfileFacts LockfileReplay LockfileView PropsReplay.
Open Scope list_scope.
Open Scope string_scope.

(** [sp] is a request under the name [x] *)
Definition named (x : string) (sp : pspec) : Prop :=
  match sp with SNpm _ n (Some _) => n = x | SAlias n s => n = x /\ is_alias s = false | _ => False end.
(** [w] nowhere in [s] *)
Definition nowhere (w s : string) : Prop := forall a b, s <> a ++ w ++ b.
Definition hosts : list (string * githost) := [("github.com", GitHub); ("gitlab.com", GitLab); ("gist.github.com", Gist); ("bitbucket.org", Bitbucket)].

Lemma named_pkg n : package_name n -> ~ starts_dot n -> exists sc, pkg_name sc n.
Proof. intros [x Hx|sc x Hs Hx] Hd; [exists None; now constructor|exists (Some sc); now constructor]. Qed.
Lemma ends_git_app p : ends_git (p ++ ".git") = true.
Proof. induction p as [|c p IH]; [reflexivity|]. cbn [append ends_git]. rewrite IH. apply orb_true_r. Qed.
Lemma ends_git_in p : ends_git p = true -> exists a, p = a ++ ".git".
Proof.
  induction p as [|c p IH]; [discriminate|]. cbn [ends_git]. intros H. apply orb_true_iff in H. destruct H as [H|H]; [apply String.eqb_eq in H; exists ""; exact H|].
  destruct (IH H) as (a & ->). now exists (String c a).
Qed.
Lemma prefix_app p t : String.prefix p t = true -> exists r, t = p ++ r.
Proof. apply prefix_split. Qed.
Lemma del_git_app p : nowhere ".git" p -> forall n, String.length p + 4 <= n -> del_git n (p ++ ".git") = p.
Proof.
  induction p as [|c p IH]; intros Hn n Hl.
  - destruct n as [|n]; [cbn in Hl; lia|]. cbn. destruct n; reflexivity.
  - destruct n as [|n]; [cbn in Hl; lia|]. assert (E : String.prefix ".git" (String c p ++ ".git") = false).
    { destruct (String.prefix ".git" (String c p ++ ".git")) eqn:E; [|reflexivity]. exfalso. apply prefix_app in E. destruct E as (r & E).
      destruct p as [|c1 [|c2 [|c3 p]]]; cbn in E; try discriminate.
      injection E as E0 E1 E2 E3 _. subst c c1 c2 c3. apply (Hn "" p). reflexivity. }
    change (String c p ++ ".git") with (String c (p ++ ".git")) in *. cbn [del_git]. rewrite E. f_equal. apply IH; [|cbn in Hl; lia].
    intros a b ->. now apply (Hn (String c a) b).
Qed.
Lemma repo_plain p : nowhere ".git" p -> repo_name p = p.
Proof. intros H. unfold repo_name. destruct (ends_git p) eqn:E; [|reflexivity]. apply ends_git_in in E. destruct E as (a & E). exfalso. apply (H a ""). now rewrite E. Qed.
Lemma slength_app a b : String.length (a ++ b) = String.length a + String.length b.
Proof. induction a as [|c a IH]; cbn; [reflexivity|]. now rewrite IH. Qed.
Lemma repo_git p : nowhere ".git" p -> repo_name (p ++ ".git") = p.
Proof. intros H. unfold repo_name. rewrite ends_git_app. apply del_git_app; [exact H|]. rewrite slength_app. cbn. lia. Qed.

Section World.
  Variable vparse : string -> option version.
  Variable vshow : version -> string.
  Variable rparse : string -> option range.
  Variable uparse uhost : string -> option string.
  Variable upath uscheme : string -> string.
  Notation parse := (parse_package_spec vparse rparse uparse uhost upath).
  Notation show := (show_spec vshow uscheme).
  Notation requested := (requested vshow uscheme).
  Notation plain_spec := (plain_spec vparse uparse uhost upath uscheme).

  (** C31: whatever text follows the '@', a dependency on a package name is a request under that name or an error: a version, range or
      tag of the registry package, or an alias *)
  Theorem C31_dependency : forall x t sp, package_name x -> ~ starts_dot x -> parse (x ++ "@" ++ t) = Ok sp -> named x sp.
  Proof.
    intros x t sp Hx Hd H. destruct (named_pkg x Hx Hd) as (sc & Hp). pose proof (parse_target vparse rparse uparse uhost upath _ _ H) as Ta.
    apply (dep_parse vparse rparse uparse uhost upath uscheme sc x t sp Hp) in H.
    destruct H as [(s & Hs & ->)|(_ & q & _ & ->)]; [|reflexivity]. split; [reflexivity|].
    apply (prefixed_inv vparse rparse uparse uhost upath (fun x => x)) in Hs. destruct s; try reflexivity. destruct Hs.
  Qed.
  (** C08: what a lockfile says a package asked for is read back as the same request. Missing: requests that do not print plainly
      (C30_refuted, C30_refuted_ssh). *)
  Lemma requested_show x sp : named x sp -> show sp = x ++ "@" ++ requested sp.
  Proof. destruct sp as [p|n s|sc n [r|]|i]; cbn [named]; try contradiction; [intros [-> _]; reflexivity|intros ->; reflexivity]. Qed.
  Theorem C08_requested_partial : semver_printing vparse vshow rparse -> url_printing uparse -> forall x t sp, package_name x -> ~ starts_dot x ->
    parse (x ++ "@" ++ t) = Ok sp -> plain_spec sp -> parse (x ++ "@" ++ requested sp) = Ok sp.
  Proof.
    intros SP UP x t sp Hx Hd H P. rewrite <- (requested_show x sp) by (eapply C31_dependency; eauto). eapply C30_partial; eauto.
  Qed.
  (** ... and one without a version requirement stands for any version *)
  Theorem C08_requested_any : forall sc x any, pkg_name sc x -> vparse "*" = None -> rparse "*" = Some any ->
    parse (x ++ "@" ++ requested (SNpm sc x None)) = Ok (SNpm sc x (Some (VRange any))).
  Proof.
    intros sc x any Hx Hv Hr. apply (dep_parse vparse rparse uparse uhost upath uscheme sc); [exact Hx|]. right. split; [reflexivity|]. eexists. split; [|reflexivity].
    change (requested (SNpm sc x None)) with "*". unfold version_req. rewrite Hv, Hr. reflexivity.
  Qed.

  (** C31: a git URL on a known host is the repository it names, with or without ".git"; on any other host it is that URL *)
  Theorem C31_git_url : forall t u h, uparse t = Some u -> t <> "" -> no_char "#" t = true -> uhost u = Some h ->
    (forall hg o p, In (h, hg) hosts -> no_char "/" o = true -> no_char "/" p = true -> nowhere ".git" p ->
       (upath u = "/" ++ o ++ "/" ++ p \/ upath u = "/" ++ o ++ "/" ++ p ++ ".git") ->
       parse ("git+" ++ t) = Ok (SGit (GHosted o p hg None None (Some u))))
    /\ ((forall hg, ~ In (h, hg) hosts) -> parse ("git+" ++ t) = Ok (SGit (GUrl u None None))).
  Proof.
    intros t u h Ht Hne Hh Hu. assert (G : forall i, url_info uhost upath u (None, None) = Some i -> parse ("git+" ++ t) = Ok (SGit i)).
    { intros i Hi. apply parse_ok. rewrite (proj1 (parse_git vparse rparse uparse uhost upath "git" "+" ("git+" ++ t) ltac:(cbn; auto) ltac:(exists "git+", t; auto))).
      unfold git_spec. rewrite shorthand_git. cbn [palt]. unfold git_url. rewrite tag_app. cbn [palt pbind]. unfold pres_map.
      assert (T1 : till1 (is hash) t = POk "" t) by (rewrite <- (sapp_nil t) at 1; apply till1_app; [exact Hne|now apply nhash_sall|exact I]). rewrite T1. cbn [pbind]. rewrite Ht. cbn [pbind].
      assert (C : committish rparse "" = POk "" (None, None)) by reflexivity. rewrite C. cbn [pbind]. rewrite Hi. reflexivity. }
    split.
    - intros hg o p Hin Ho Hp Hg Hpath. apply G. unfold url_info. rewrite Hu. assert (K : known_host h = Some hg).
      { cbn in Hin. unfold known_host. destruct Hin as [E|[E|[E|[E|[]]]]]; injection E as <- <-; reflexivity. }
      rewrite K. assert (Hs : exists r, upath u = "/" ++ (o ++ "/" ++ r) /\ no_char "/" r = true /\ repo_name r = p).
      { destruct Hpath as [E|E]; [exists p|exists (p ++ ".git")]; (split; [exact E|]); split; [exact Hp|now apply repo_plain|now rewrite no_char_app, Hp|now apply repo_git]. }
      destruct Hs as (r & E & Hr & Er). rewrite E. cbn [append].
      rewrite (StdPath.split_cons "/" o r Ho), (StdPath.split_whole "/" r Hr). cbn [fst snd]. rewrite Er. reflexivity.
    - intros Hn. apply G. unfold url_info. rewrite Hu. assert (K : known_host h = None).
      { unfold known_host. destruct (String.eqb_spec h "github.com"); [exfalso; subst; apply (Hn GitHub); cbn; auto|]. destruct (String.eqb_spec h "gitlab.com"); [exfalso; subst; apply (Hn GitLab); cbn; auto|].
        destruct (String.eqb_spec h "gist.github.com"); [exfalso; subst; apply (Hn Gist); cbn; auto|]. destruct (String.eqb_spec h "bitbucket.org"); [exfalso; subst; apply (Hn Bitbucket); cbn; auto|]. reflexivity. }
      rewrite K. reflexivity.
  Qed.
  (** C31: the same for git+ssh://user@host:owner/repo, which is not a URL *)
  Theorem C31_git_ssh : semver_printing vparse vshow rparse -> forall user host path, user <> "" -> no_char "@" user = true -> no_char "#" user = true -> host <> "" ->
    no_char ":" host = true -> no_char "#" host = true -> path <> "" -> no_char "#" path = true -> uparse ("ssh://" ++ user ++ "@" ++ host ++ ":" ++ path) = None ->
    (forall hg o p, In (host, hg) hosts -> no_char "/" o = true -> no_char "/" p = true -> nowhere ".git" p -> (path = o ++ "/" ++ p \/ path = o ++ "/" ++ p ++ ".git") ->
       parse ("git+ssh://" ++ user ++ "@" ++ host ++ ":" ++ path) = Ok (SGit (GHosted o p hg None None (Some (user ++ "@" ++ host ++ ":" ++ path)))))
    /\ ((forall hg, ~ In (host, hg) hosts) -> parse ("git+ssh://" ++ user ++ "@" ++ host ++ ":" ++ path) = Ok (SGit (GSsh (user ++ "@" ++ host ++ ":" ++ path) None None))).
  Proof.
    intros SP user host path U1 U2 U3 H1 H2 H3 P1 P2 Hno. set (raw := user ++ "@" ++ host ++ ":" ++ path) in *.
    assert (R : scp_raw (Some user) host (Some path) = raw) by (unfold scp_raw, raw; now rewrite !sapp_assoc).
    assert (Hh : no_char "#" raw = true) by (unfold raw; rewrite !no_char_app, U3, H3, P2; reflexivity).
    assert (G : parse ("git+ssh://" ++ raw) = Ok (SGit (scp_info (Some user) host (Some path) (None, None)))).
    { apply parse_ok. rewrite (proj1 (parse_git vparse rparse uparse uhost upath "git" "+" ("git+ssh://" ++ raw) ltac:(cbn; auto) ltac:(exists "git+", ("ssh://" ++ raw); auto))).
      unfold git_spec. assert (S1 : git_shorthand rparse ("git+ssh://" ++ raw) = PErr) by exact (shorthand_git rparse ("ssh://" ++ raw)). rewrite S1. cbn [palt].
      assert (S2 : git_url rparse uparse uhost upath ("git+ssh://" ++ raw) = PErr).
      { unfold git_url. change ("git+ssh://" ++ raw) with ("git+" ++ ("ssh://" ++ raw)). rewrite tag_app. cbn [palt pbind]. unfold pres_map.
        assert (T1 : till1 (is hash) ("ssh://" ++ raw) = POk "" ("ssh://" ++ raw)) by (rewrite <- (sapp_nil ("ssh://" ++ raw)) at 1; apply till1_app; [easy|apply nhash_sall; now rewrite no_char_app, Hh|exact I]).
        rewrite T1. cbn [pbind]. now rewrite Hno. }
      rewrite S2. cbn [palt]. pose proof (scp_fwd vparse vshow rparse uhost uscheme SP (Some user) host (Some path) None None) as F. rewrite R in F. cbn [show_ref] in F. rewrite sapp_nil in F. rewrite F; auto.
      - cbn. auto.
      - intros p' E. injection E as <-. auto.
      - exact I. }
    rewrite G. unfold scp_info. split.
    - intros hg o p Hin Ho Hp Hg Hpath. assert (K : known_host host = Some hg).
      { cbn in Hin. unfold known_host. destruct Hin as [E|[E|[E|[E|[]]]]]; injection E as <- <-; reflexivity. }
      rewrite K. assert (Hs : exists r, path = o ++ "/" ++ r /\ no_char "/" r = true /\ repo_name (repo_name r) = p).
      { destruct Hpath as [E|E]; [exists p|exists (p ++ ".git")]; (split; [exact E|]); split; [exact Hp|rewrite !(repo_plain p Hg); reflexivity|now rewrite no_char_app, Hp|rewrite (repo_git p Hg), (repo_plain p Hg); reflexivity]. }
      destruct Hs as (r & E & Hr & Er). rewrite E at 1. change ("/" ++ r) with (String "/" r).
      rewrite (StdPath.split_cons "/" o r Ho), (StdPath.split_whole "/" r Hr). cbn [fst snd]. rewrite Er, R. reflexivity.
    - intros Hn. assert (K : known_host host = None).
      { unfold known_host. destruct (String.eqb_spec host "github.com"); [exfalso; subst; apply (Hn GitHub); cbn; auto|]. destruct (String.eqb_spec host "gitlab.com"); [exfalso; subst; apply (Hn GitLab); cbn; auto|].
        destruct (String.eqb_spec host "gist.github.com"); [exfalso; subst; apply (Hn Gist); cbn; auto|]. destruct (String.eqb_spec host "bitbucket.org"); [exfalso; subst; apply (Hn Bitbucket); cbn; auto|]. reflexivity. }
      rewrite K, R. reflexivity.
  Qed.

  (** ** C06 with the spec parser itself in place of the abstract one of C06_partial *)
  Variable rsat : range -> version -> bool.
  Variable canon : string -> option string.
  Variable iparse : string -> option string.
  Variable lookup : string -> res err package.
  Notation gitshow := (show_git uscheme).
  Notation parse_dep := (fun x t => parse (x ++ "@" ++ t)).
  Notation to_package := (to_package vshow parse uparse lookup show).
  Notation reach := (reach rsat canon parse_dep lnode entry_path lnode_manifest to_package).
  Notation steps := (steps rsat canon parse_dep lnode entry_path lnode_manifest to_package).
  Notation exec := (exec rsat canon parse_dep lnode entry_path lnode_manifest to_package).
  (** every package but the project came from an http(s) registry under a package name, its version and integrity had been read from text *)
  Definition from_registry (g : graph) : Prop :=
    forall i n, getn g i = Some n -> i <> 0 -> exists sc nm v url integ t, pk_resolved (n_pkg n) = RNpm nm v url integ
      /\ valid_name (name_of g i) /\ pkg_name sc (name_of g i) /\ vparse t = Some v /\ (forall s, integ = Some s -> iparse s = Some s)
      /\ starts_with "http" url = true /\ uparse url = Some url.
  Theorem C06_text_partial : semver_printing vparse vshow rparse -> url_printing uparse ->
    forall deliver0 lock0 root pkg m name rname dir, new_node parse_dep name pkg m true = Ok root ->
    forall s, reach deliver0 lock0 root s -> finished s = true ->
    from_registry (s_g s) -> pk_resolved pkg = RDir rname dir ->
    (forall i x sp t, declares (s_g s) i x sp t -> named x sp /\ plain_spec sp) ->
    pinned rsat canon (s_g s) ->
    exists lf lf', to_lockfile requested gitshow (s_g s) = Ok lf /\ from_kdl vparse iparse (to_kdl vshow lf) = Ok lf'
    /\ keyed_by_path lf'
    /\ forall deliver n s', steps deliver (Some (lock_view lf')) root n s' ->
         waiting s' = [] /\ n <= size (s_g s)
         /\ (forall a r, exec (Some (lock_view lf')) s' a = Some r -> exists s'', r = Ok s'')
         /\ (finished s' = true -> same_tree (s_g s') (s_g s)).
  Proof.
    intros SP UP deliver0 lock0 root pkg m name rname dir Hroot s Hs Hfin Hreg Hr0 Hdep Hpin.
    apply (C06_partial rsat canon parse_dep requested gitshow vshow vparse iparse parse uparse lookup show deliver0 lock0 root pkg m name rname dir Hroot s Hs Hfin); auto.
    - intros i n Hn Hi. destruct (Hreg i n Hn Hi) as (sc & nm & v & url & integ & t & E & Hv & Hp & Ht & Hi' & Hh & Hu). exists nm, v, url, integ. repeat split; auto; [eapply sp_version; eauto|].
      exists sc, (name_of (s_g s) i), (Some (VVersion v)). change ("@" ++ vshow v)%string with ("@" ++ show_vspec vshow (VVersion v)).
      apply (dep_parse vparse rparse uparse uhost upath uscheme sc); [exact Hp|]. right. destruct (sp_vtext _ _ _ SP _ _ Ht) as (Q1 & Q2 & Q3 & Q4 & Q5 & Q6 & Q7 & Q8). split.
      + apply prefixed_quiet. eapply (req_quiet vparse vshow rparse SP (VVersion v)); [exists t; exact Ht|]. intros ? E'. discriminate E'.
      + exists (VVersion v). split; [|reflexivity]. apply (version_req_fwd vparse vshow rparse SP (VVersion v)); [exists t; exact Ht|exact I].
    - intros i x sp t Hd. destruct (Hdep i x sp t Hd) as [Hn Hp]. rewrite <- (requested_show x sp Hn).
      assert (Ha : exists nm str, parse (nm ++ "@" ++ str) = Ok sp).
      { destruct (declared_manifest rsat canon parse_dep lnode entry_path lnode_manifest to_package deliver0 lock0 root pkg m name Hroot s Hs) as [D0 D1].
        destruct i as [|i]; [apply D0 in Hd; destruct Hd as (nm & str & H & _); eauto|].
        destruct Hd as (n & Hn' & Hd). destruct (D1 (Datatypes.S i) n Hn' ltac:(discriminate)) as (m' & _ & Ha). assert (Hd' : declares (s_g s) (Datatypes.S i) x sp t) by (exists n; auto).
        apply Ha in Hd'. destruct Hd' as (nm & str & H & _). eauto. }
      destruct Ha as (nm & str & Ha). eapply C30_partial; eauto.
  Qed.
End World.

(** ** the hypotheses are met *)
Example C31_git_url_ex : ex_up "https://github.com/foo/bar.git" = Some "https://github.com/foo/bar.git" /\ In ("github.com", GitHub) hosts /\ nowhere ".git" "bar"
  /\ parse_package_spec ex_vp ex_rp ex_up ex_uh ex_upa "git+https://github.com/foo/bar.git" = Ok (SGit (GHosted "foo" "bar" GitHub None None (Some "https://github.com/foo/bar.git"))).
Proof.
  assert (N : nowhere ".git" "bar") by (intros a b E; destruct a as [|c [|d [|e a]]]; cbn in E; try discriminate E; destruct a; discriminate E).
  split; [reflexivity|]. split; [cbn; auto|]. split; [exact N|].
  apply (proj1 (C31_git_url ex_vp ex_rp ex_up ex_uh ex_upa "https://github.com/foo/bar.git" "https://github.com/foo/bar.git" "github.com" eq_refl ltac:(discriminate) eq_refl eq_refl) GitHub "foo" "bar"); auto; cbn; auto.
Qed.
Example C31_git_ssh_ex : parse_package_spec ex_vp ex_rp ex_up ex_uh ex_upa "git+ssh://git@example.com:foo/bar" = Ok (SGit (GSsh "git@example.com:foo/bar" None None))
  /\ parse_package_spec ex_vp ex_rp ex_up ex_uh ex_upa "git+ssh://git@github.com:foo/bar.git" = Ok (SGit (GHosted "foo" "bar" GitHub None None (Some "git@github.com:foo/bar.git"))).
Proof.
  split.
  - apply (proj2 (C31_git_ssh ex_vp ex_vs ex_rp ex_up ex_uh ex_upa ex_us ex_printing "git" "example.com" "foo/bar" ltac:(discriminate) eq_refl eq_refl ltac:(discriminate) eq_refl eq_refl ltac:(discriminate) eq_refl eq_refl)).
    intros hg H. cbn in H. destruct H as [E|[E|[E|[E|[]]]]]; discriminate E.
  - apply (proj1 (C31_git_ssh ex_vp ex_vs ex_rp ex_up ex_uh ex_upa ex_us ex_printing "git" "github.com" "foo/bar.git" ltac:(discriminate) eq_refl eq_refl ltac:(discriminate) eq_refl eq_refl ltac:(discriminate) eq_refl eq_refl) GitHub "foo" "bar"); cbn; auto.
    intros a b E; destruct a as [|c [|d [|e a]]]; cbn in E; try discriminate E; destruct a; discriminate E.
Qed.
(* a@npm:@bar/baz@^1.0.0 is written npm:@bar/baz@>=1.0.0 <2.0.0-0, and read back *)
Example C08_requested_ex : exists sp, parse_package_spec ex_vp ex_rp ex_up ex_uh ex_upa ("foo" ++ "@" ++ "npm:@bar/baz@^1.0.0") = Ok sp
  /\ requested ex_vs ex_us sp = "npm:@bar/baz@>=1.0.0 <2.0.0-0" /\ plain_spec ex_vp ex_up ex_uh ex_upa ex_us sp /\ package_name "foo" /\ ~ starts_dot "foo" /\ named "foo" sp.
Proof.
  eexists. split; [reflexivity|]. split; [reflexivity|]. split; [cbn; repeat split; try discriminate; intros (t & E); discriminate|].
  split; [apply (pn_plain "foo"); split; [discriminate|reflexivity]|]. split; [intros (t & E); discriminate|]. split; reflexivity.
Qed.

(** the tree of C06_nonvacuous, resolved with the spec parser *)
Definition up7 (s : string) : option string := if starts_with "https://r/" s && no_char "#" s then Some s else None.
Definition none7 (_ : string) : option string := None.
Definition parse7 := parse_package_spec vparse6 none7 up7 none7 (fun _ => "").
Definition topkg7 := to_package vshow6 parse7 up7 (fun _ => Err EFetch) (show_spec vshow6 (fun _ => "")).
Definition exec7 := exec ex_rsat ex_canon (fun x t => parse7 (x ++ "@" ++ t)) lnode entry_path lnode_manifest topkg7 None.
Fixpoint run7 (s : st) (l : list action) : option st :=
  match l with [] => Some s | a :: t => match exec7 s a with Some (Ok s') => run7 s' t | _ => None end end.
Lemma printing7 : semver_printing vparse6 vshow6 none7 /\ url_printing up7.
Proof.
  assert (V : forall s w, vparse6 s = Some w -> w = v 1 0 \/ w = v 1 1 \/ w = v 2 0).
  { intros s w. unfold vparse6. destruct (String.eqb s "1.0.0"); [intros H; injection H as <-; auto|]. destruct (String.eqb s "1.1.0"); [intros H; injection H as <-; auto|].
    destruct (String.eqb s "2.0.0"); [intros H; injection H as <-; auto|discriminate]. }
  split; constructor.
  - intros s w H. destruct (V s w H) as [->|[->| ->]]; reflexivity.
  - intros s w H. assert (G : forall t, ~ starts "git+" (String "1" t) /\ ~ starts "git+" (String "2" t)).
    { intros t. split; intros (q & r & E & Hq); (destruct q as [|c q]; [discriminate Hq|]; cbn in E, Hq; injection E as <- _; discriminate Hq). }
    destruct (V s w H) as [->|[->| ->]]; (repeat split; try discriminate; try reflexivity); apply G.
  - intros s r H. discriminate H.
  - intros s r H. discriminate H.
  - intros s u. unfold up7. destruct (_ && _) eqn:E; [|discriminate]. intros H. injection H as <-. now rewrite E.
  - intros s u. unfold up7. destruct (_ && _); [|discriminate]. intros H. now injection H as <-.
  - intros s u. unfold up7. destruct (_ && _) eqn:E; [|discriminate]. intros H. injection H as <-. intros ->. discriminate E.
Qed.
Definition end7 : st := get (run7 (init root5) sched6) root5.
Lemma end7_same : end7 = end6.
Proof. vm_compute. reflexivity. Qed.
Lemma run7_reach : reach ex_rsat ex_canon (fun x t => parse7 (x ++ "@" ++ t)) lnode entry_path lnode_manifest topkg7 (deliver6 reg5) None root5 end7.
Proof.
  assert (G : forall l s s', reach ex_rsat ex_canon (fun x t => parse7 (x ++ "@" ++ t)) lnode entry_path lnode_manifest topkg7 (deliver6 reg5) None root5 s -> Forall (honest6 reg5) l -> run7 s l = Some s' ->
    reach ex_rsat ex_canon (fun x t => parse7 (x ++ "@" ++ t)) lnode entry_path lnode_manifest topkg7 (deliver6 reg5) None root5 s').
  { clear. induction l as [|a t IH]; cbn [run7]; intros s s' Hr Hh H; [inversion H; now subst|].
    inversion Hh; subst. destruct (exec7 s a) as [[s1| |]|] eqn:E; try discriminate H.
    eapply IH; [|eauto|eauto]. econstructor; [exact Hr | | exact E]. destruct a; cbn in *; auto. }
  apply (G sched6 (init root5)); [constructor|repeat constructor|vm_compute; reflexivity].
Qed.
Example C06_text_ex : new_node (fun x t => parse7 (x ++ "@" ++ t)) "root" root_pkg (man [("a", "1.0.0"); ("b", "1.0.0")]) true = Ok root5 /\ finished end7 = true
  /\ from_registry vparse6 up7 Some (s_g end7)
  /\ (forall i x sp t, declares (s_g end7) i x sp t -> named x sp /\ plain_spec vparse6 up7 none7 (fun _ => "") (fun _ => "") sp)
  /\ pinned ex_rsat ex_canon (s_g end7).
Proof.
  rewrite end7_same. split; [vm_compute; reflexivity|]. split; [vm_compute; reflexivity|]. split; [|split; [|exact (proj2 (proj2 (proj2 C06_nonvacuous)))]].
  - intros i n Hn Hi. five i Hn; [exfalso; apply Hi; reflexivity|..].
    all: exists None; do 5 eexists; split; [reflexivity|]; split; [left; split; [vm_compute; reflexivity | vm_compute; discriminate]|].
    all: split; [vm_compute; constructor; [split; [discriminate|reflexivity]|intros (t & E); discriminate E]|].
    all: split; [|split; [intros s E; reflexivity|split; [reflexivity|vm_compute; reflexivity]]].
    1,2,3: instantiate (1 := "1.0.0"); reflexivity. instantiate (1 := "2.0.0"); reflexivity.
  - assert (P : forall n w, In n ["a"; "b"; "x"] -> In w [v 1 0; v 2 0] -> named n (npm n (VVersion w)) /\ plain_spec vparse6 up7 none7 (fun _ => "") (fun _ => "") (npm n (VVersion w))).
    { intros n w Hn Hw. split; [reflexivity|]. cbn [In] in Hn, Hw. destruct Hn as [<-|[<-|[<-|[]]]], Hw as [<-|[<-|[]]]; (split; [intros (t & E); discriminate E|split; [|intros t E; discriminate E]]); repeat split; discriminate. }
    intros i x sp t (n & Hn & H). five i Hn.
    all: apply aget_In in H; [|apply seqb_spec]; cbn [n_reqs In] in H; repeat (destruct H as [H|H]; [injection H as <- <- <-; apply P; cbn [In]; auto|]); destruct H.
Qed.

Print Assumptions C31_dependency.
Print Assumptions C08_requested_partial.
Print Assumptions C08_requested_any.
Print Assumptions C31_git_url.
Print Assumptions C31_git_ssh.
Print Assumptions C06_text_partial.
