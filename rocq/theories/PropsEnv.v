(** * Properties C41, C43, C47: the PATH of scripts, where the lockfile comes from, importing package-lock.json.
    ScriptEnvProofs: [enclosing root rel]: the directories from root/rel up to root, nearest first; [bin_of d]: d/node_modules/.bin.
    NpmProofs: [npm_key p]: the key of the package installed at path [p]; [imports p e n]: entry [n] says what npm entry [e] says. *)
From Verif Require Import Base Types Kdl StdPath ResolverModel LockfileModel LockfileGraph NpmProofs ScriptEnv ScriptEnvProofs LockSource.
Open Scope string_scope.
Open Scope list_scope.

(** ** C41 *)
(** The PATH of the script of a package at root/rel is the PATH of the orogene process followed by the .bin directories of the
    package and of every directory above it up to the root, nearest first, and nothing else; other variables are as they were.
    Missing: this needs the root to be given by its canonical path, and PATH to be set (C41_refuted_root, C41_refuted_unset). *)
Theorem C41_partial : forall env ws root rel, components ws = CRoot :: map CNormal root ->
  Forall single root -> Forall single rel -> Forall (fun n => no_char ":" n = true) (root ++ rel) ->
  exists env', set_all_paths env (Some ws) (rev (root ++ rel)) = Ok env'
  /\ (forall v, lower v = "path" -> In v (map fst env) -> exists p, sget v env' = Some p /\ StdPath.split ":" p = get_existing_paths env ++ map bin_of (enclosing root rel))
  /\ (forall v, lower v <> "path" -> sget v env' = sget v env).
Proof.
  intros env ws root rel Hw Fr Fl Fc. destruct (@set_spec env (Some ws) (rev (root ++ rel)) (map bin_of (enclosing root rel))) as (env' & H1 & H2 & H3 & _).
  - now apply push_inside.
  - apply Forall_map, Forall_forall. intros d Hd. apply bin_of_colon. unfold enclosing in Hd. apply in_map_iff in Hd. destruct Hd as (k & Ek & _). subst d.
    apply Forall_app in Fc. destruct Fc as [F1 F2]. apply Forall_app. split; [exact F1|]. rewrite Forall_forall in F2 |- *. intros x Hx. apply F2.
    rewrite <- (firstn_skipn k rel). apply in_or_app. now left.
  - unfold enclosing. intros E. apply map_eq_nil, map_eq_nil in E. rewrite seq_S, rev_app_distr in E. discriminate.
  - exists env'. split; [exact H1|]. split; [exact H2|exact H3].
Qed.
(** with a single PATH variable, what the shell searches *)
Theorem C41_search_order : forall env p ws root rel, components ws = CRoot :: map CNormal root ->
  Forall single root -> Forall single rel -> Forall (fun n => no_char ":" n = true) (root ++ rel) ->
  (forall v q, In (v, q) env -> lower v = "path" -> v = "PATH" /\ q = p) -> NoDup (map fst env) -> In ("PATH", p) env ->
  exists env' p', set_all_paths env (Some ws) (rev (root ++ rel)) = Ok env' /\ sget "PATH" env' = Some p'
    /\ StdPath.split ":" p' = StdPath.split ":" p ++ map bin_of (enclosing root rel).
Proof.
  intros env p ws root rel Hw Fr Fl Fc Hu N Hin. destruct (C41_partial env ws root rel Hw Fr Fl Fc) as (env' & H1 & H2 & _).
  destruct (H2 "PATH" eq_refl (in_map fst _ _ Hin)) as (p' & H3 & H4). exists env', p'. split; [exact H1|]. split; [exact H3|]. rewrite H4. f_equal.
  assert (G : forall e, NoDup (map fst e) -> (forall v q, In (v, q) e -> lower v = "path" -> v = "PATH" /\ q = p) ->
    get_existing_paths e = if existsb (fun x => String.eqb (fst x) "PATH") e then StdPath.split ":" p else []).
  { clear. intros e. induction e as [|[v q] e IH]; intros N Hu; [reflexivity|]. inversion N as [|? ? Hn N']; subst. unfold get_existing_paths, current_paths in *. cbn [flat_map fst snd existsb].
    specialize (IH N' (fun v q H => Hu v q (or_intror H))). rewrite flat_map_app, IH. destruct (String.eqb (lower v) "path") eqn:E.
    - apply String.eqb_eq in E. destruct (Hu v q (or_introl eq_refl) E) as [-> ->]. cbn [flat_map snd String.eqb Ascii.eqb Bool.eqb orb].
      assert (existsb (fun x => String.eqb (fst x) "PATH") e = false) as ->; [|now rewrite !app_nil_r].
      destruct (existsb _ e) eqn:X; [|reflexivity]. apply existsb_exists in X. destruct X as (y & Hy & Ey). apply String.eqb_eq in Ey. exfalso. apply Hn. cbn [fst]. rewrite <- Ey. now apply in_map.
    - destruct (String.eqb_spec v "PATH") as [-> | Hv]; [discriminate|reflexivity]. }
  rewrite (G env N Hu). assert (existsb (fun x => String.eqb (fst x) "PATH") env = true) as ->; [|reflexivity]. apply existsb_exists. eexists. split; [exact Hin|reflexivity].
Qed.
(** C41 as stated fails when the root is not given by its canonical path (a symlink in it, "..", or a relative path): then the .bin
    directories of every directory up to the root of the file system are added. *)
Theorem C41_refuted_root : forall env ws pkg, (forall k, components ws <> CRoot :: map CNormal (firstn k pkg)) -> Forall single pkg ->
  Forall (fun n => no_char ":" n = true) pkg ->
  exists env', set_all_paths env (Some ws) (rev pkg) = Ok env'
  /\ (forall v, lower v = "path" -> In v (map fst env) -> exists p, sget v env' = Some p /\ StdPath.split ":" p = get_existing_paths env ++ map bin_of (enclosing [] pkg)).
Proof.
  intros env ws pkg Hw Fl Fc. destruct (@set_spec env (Some ws) (rev pkg) (map bin_of (enclosing [] pkg))) as (env' & H1 & H2 & H3 & _).
  - now apply push_outside.
  - apply Forall_map, Forall_forall. intros d Hd. apply bin_of_colon. unfold enclosing in Hd. apply in_map_iff in Hd. destruct Hd as (k & Ek & _). subst d.
    rewrite Forall_forall in Fc |- *. cbn [app]. intros x Hx. apply Fc. rewrite <- (firstn_skipn k pkg). apply in_or_app. now left.
  - unfold enclosing. intros E. apply map_eq_nil, map_eq_nil in E. rewrite seq_S, rev_app_distr in E. discriminate.
  - exists env'. split; [exact H1|exact H2].
Qed.
(** And a process without PATH runs its scripts without one, .bin directories included. *)
Theorem C41_refuted_unset : forall env ws pkg env', (forall v, In v (map fst env) -> lower v <> "path") ->
  set_all_paths env ws pkg = Ok env' -> env' = env.
Proof.
  intros env ws pkg env' H E. unfold set_all_paths in E. assert (current_paths env = []) as C.
  { unfold current_paths. clear E. induction env as [|[v q] env IH]; [reflexivity|]. cbn [flat_map fst snd]. destruct (String.eqb_spec (lower v) "path") as [El | _]; [exfalso; apply (H v); [now left|exact El]|].
    apply IH. intros v' Hv'. apply H. now right. }
  destruct (join_paths _) as [p| |]; try discriminate. cbn [rbind] in E. rewrite C in E. now injection E as <-.
Qed.
Example ex_script_path : exists env', set_all_paths [("HOME", "/h"); ("PATH", "/usr/bin:/bin")] (Some "/home/me/app/") (rev ["home"; "me"; "app"; "node_modules"; "a"]) = Ok env'
  /\ sget "PATH" env' = Some "/usr/bin:/bin:/home/me/app/node_modules/a/node_modules/.bin:/home/me/app/node_modules/node_modules/.bin:/home/me/app/node_modules/.bin".
Proof. eexists. split; vm_compute; reflexivity. Qed.
Example ex_script_hyp : components "/home/me/app/" = CRoot :: map CNormal ["home"; "me"; "app"] /\ components "/home/me/link" <> CRoot :: map CNormal ["home"; "me"; "app"].
Proof. split; [vm_compute; reflexivity|vm_compute; discriminate]. Qed.

(** ** C43 *)
Section Source.
  Variable L : Type.
  Variables from_kdl from_npm : string -> res err L.
  Notation get := (get_lockfile from_kdl from_npm).
  (** a file gives a lockfile *)
  Definition gives (parse : string -> res err L) (f : file_text) (l : L) : Prop := exists s, f = Text s /\ parse s = Ok l.
  Definition never (parse : string -> res err L) (f : file_text) : Prop := forall l, ~ gives parse f l.
  Hypothesis no_panic : forall s, from_kdl s <> Panic /\ from_npm s <> Panic.
  Lemma try_spec parse f next : (forall s, parse s <> Panic) ->
    (exists l, gives parse f l /\ try_file L parse f next = Ok (Some l)) \/ (never parse f /\ try_file L parse f next = next).
  Proof.
    intros NP. unfold never, gives, try_file. destruct f as [| |s]; [right|right|]; try (split; [intros l (s & ? & ?); discriminate|reflexivity]).
    destruct (parse s) as [l|e|] eqn:E; [left|right|now destruct (NP s)].
    - exists l. split; [eauto|reflexivity].
    - split; [|reflexivity]. intros l (s' & [= <-] & E'). congruence.
  Qed.
  (** The lockfile used is the first that can be had of: the KDL lockfile given, the npm lockfile given, package-lock.kdl,
      package-lock.json, npm-shrinkwrap.json. *)
  Theorem C43_precedence_partial : forall kdl npm f1 f2 f3 l, get kdl npm (Some (f1, f2, f3)) = Ok (Some l) <->
    kdl = Some l
    \/ kdl = None /\ npm = Some l
    \/ kdl = None /\ npm = None /\ gives from_kdl f1 l
    \/ kdl = None /\ npm = None /\ never from_kdl f1 /\ gives from_npm f2 l
    \/ kdl = None /\ npm = None /\ never from_kdl f1 /\ never from_npm f2 /\ gives from_npm f3 l.
  Proof.
    intros kdl npm f1 f2 f3 l.
    assert (U : forall p f a b, gives p f a -> gives p f b -> a = b). { intros p f a b (s & -> & H1) (s' & [= <-] & H2). congruence. }
    assert (P1 := fun s => proj1 (no_panic s)). assert (P2 := fun s => proj2 (no_panic s)).
    destruct kdl as [k|]; [cbn; split; [intros [= ->]; auto|intros [[= ->] | [[E _] | [[E _] | [[E _] | [E _]]]]]; try discriminate E; reflexivity]|].
    destruct npm as [k|]; [cbn; split; [intros [= ->]; auto|intros [E | [[_ [= ->]] | [(_ & E & _) | [(_ & E & _) | (_ & E & _)]]]]; try discriminate E; reflexivity]|].
    unfold get_lockfile. destruct (try_spec from_kdl f1 (try_file L from_npm f2 (try_file L from_npm f3 (Ok None))) P1) as [(a & G1 & ->) | [N1 ->]].
    { split; [intros [= ->]; auto 6|]. intros [E | [(_ & E) | [(_ & _ & G) | [(_ & _ & N & _) | (_ & _ & N & _)]]]]; try discriminate E; [rewrite (U _ _ _ _ G G1); reflexivity|destruct (N _ G1)|destruct (N _ G1)]. }
    destruct (try_spec from_npm f2 (try_file L from_npm f3 (Ok None)) P2) as [(a & G2 & ->) | [N2 ->]].
    { split; [intros [= ->]; auto 8|]. intros [E | [(_ & E) | [(_ & _ & G) | [(_ & _ & _ & G) | (_ & _ & _ & N & _)]]]]; try discriminate E; [destruct (N1 _ G)|rewrite (U _ _ _ _ G G2); reflexivity|destruct (N _ G2)]. }
    destruct (try_spec from_npm f3 (Ok None) P2) as [(a & G3 & ->) | [N3 ->]].
    { split; [intros [= ->]; auto 9|]. intros [E | [(_ & E) | [(_ & _ & G) | [(_ & _ & _ & G) | (_ & _ & _ & _ & G)]]]]; try discriminate E; [destruct (N1 _ G)|destruct (N2 _ G)|rewrite (U _ _ _ _ G G3); reflexivity]. }
    split; [discriminate|]. intros [E | [(_ & E) | [(_ & _ & G) | [(_ & _ & _ & G) | (_ & _ & _ & _ & G)]]]]; try discriminate E; [destruct (N1 _ G)|destruct (N2 _ G)|destruct (N3 _ G)].
  Qed.
  (** C43 as stated fails: a lockfile that cannot be read or parsed is never reported; the result is the same as without the file. *)
  Theorem C43_refuted : forall kdl npm f1 f2 f3, (exists o, get kdl npm (Some (f1, f2, f3)) = Ok o)
    /\ (never from_kdl f1 -> get kdl npm (Some (f1, f2, f3)) = get kdl npm (Some (Absent, f2, f3)))
    /\ (never from_npm f2 -> get kdl npm (Some (f1, f2, f3)) = get kdl npm (Some (f1, Absent, f3)))
    /\ (never from_npm f3 -> get kdl npm (Some (f1, f2, f3)) = get kdl npm (Some (f1, f2, Absent))).
  Proof.
    intros kdl npm f1 f2 f3. assert (P1 := fun s => proj1 (no_panic s)). assert (P2 := fun s => proj2 (no_panic s)). destruct kdl; [cbn; eauto|]. destruct npm; [cbn; eauto|]. unfold get_lockfile.
    assert (T : forall p f nx, (forall s, p s <> Panic) -> never p f -> try_file L p f nx = nx). { intros p f nx P Nv. destruct (try_spec p f nx P) as [(a & G & _) | [_ E]]; [destruct (Nv _ G)|exact E]. }
    split; [|split; [|split]].
    - destruct (try_spec from_kdl f1 (try_file L from_npm f2 (try_file L from_npm f3 (Ok None))) P1) as [(a & G1 & ->) | [N1 ->]]; [eauto|].
      destruct (try_spec from_npm f2 (try_file L from_npm f3 (Ok None)) P2) as [(a & G2 & ->) | [N2 ->]]; [eauto|].
      destruct (try_spec from_npm f3 (Ok None) P2) as [(a & G3 & ->) | [N3 ->]]; eauto.
    - intros Nv. now rewrite T.
    - intros Nv. unfold try_file at 1 4. destruct f1 as [| |s]; [..|destruct (from_kdl s); [reflexivity| |reflexivity]]; now rewrite T.
    - intros Nv. rewrite (T from_npm f3 (Ok None) P2 Nv). reflexivity.
  Qed.
End Source.
Definition ex_lock_text (s : string) : res err nat := if String.eqb s "good" then Ok 7 else Err EKdl.
Example ex_precedence : (forall s, ex_lock_text s <> Panic) /\ get_lockfile ex_lock_text ex_lock_text None None (Some (Text "torn", Text "good", Absent)) = Ok (Some 7)
  /\ never nat ex_lock_text (Text "torn").
Proof. split; [intros s; unfold ex_lock_text; destruct (String.eqb s "good"); discriminate|]. split; [reflexivity|]. intros l (s & [= <-] & H). discriminate. Qed.

(** ** C47 *)
Section Npm.
  Variable vparse : string -> option version.
  Variable iparse : string -> option string.
  Notation from_npm := (from_npm vparse iparse).
  (** A package-lock.json of installed packages is imported entry by entry: each at its path, with its name, version, origin,
      integrity and dependencies; plus the root, whose requirements are those of the "" entry. *)
  Theorem C47_import_partial : forall ver re (l : list (list string * npm_entry)) lf,
    Forall (fun e => fst e <> [] /\ Forall npm_name (fst e)) l -> NoDup (map (fun e => ufold (path_key (fst e))) l) ->
    from_npm ver (("", re) :: map (fun e => (npm_key (fst e), snd e)) l) = Ok lf ->
    (exists n, lf_packages lf = ("", lf_root lf) :: n /\ Forall2 (fun e kn => fst kn = path_key (fst e) /\ imports vparse iparse (fst e) (snd e) (snd kn)) l n)
    /\ lf_version lf = match ver with Some v => v | None => 3%N end
    /\ l_is_root (lf_root lf) = true /\ l_path (lf_root lf) = [] /\ l_deps (lf_root lf) = p_deps re /\ l_dev (lf_root lf) = p_dev re /\ l_opt (lf_root lf) = p_opt re /\ l_peer (lf_root lf) = p_peer re.
  Proof. exact (npm_import vparse iparse). Qed.
  (** A lockfile with workspaces is not imported: an entry outside node_modules without a name is an error for the whole file, and with
      a name it takes the key of the root. *)
  Theorem C47_refuted_workspace : forall e re, p_version re = None -> p_integrity re = None -> p_version e = None -> p_integrity e = None ->
    match p_name e with
    | None => from_npm None [("", re); ("packages/a", e)] = Err EMissingName
    | Some n => exists lf ln, from_npm None [("", re); ("packages/a", e)] = Ok lf /\ lf_packages lf = [("", ln)] /\ l_name ln = n
    end.
  Proof.
    intros e re H1 H2 H3 H4. unfold LockfileModel.from_npm, lnode_from_npm, parse_opt. cbn [rmap fst snd]. rewrite H1, H2. cbn [String.eqb rbind]. rewrite H3, H4.
    destruct (p_name e) as [n|]; [|reflexivity]. cbn [rbind]. eexists. eexists. split; [cbn [aget String.eqb rbind]; rewrite H1, H2; reflexivity|]. split; reflexivity.
  Qed.
End Npm.
Definition ex_npm (v : string) (deps : list (string * string)) : npm_entry := mkNpm None (Some v) (Some "https://r/a.tgz") None deps [] [] [].
Example ex_npm_import : exists lf, from_npm (fun _ => Some (mkV 1 0 0 [])) Some (Some 3%N)
    [("", ex_npm "1.0.0" [("a", "^1.0.0")]); ("node_modules/a", ex_npm "1.0.0" [("@s/b", "1")]); ("node_modules/a/node_modules/@s/b", ex_npm "1.0.0" [])] = Ok lf
  /\ map fst (lf_packages lf) = [""; "a"; "a/node_modules/@s/b"] /\ map (fun e => l_path (snd e)) (lf_packages lf) = [[]; ["a"]; ["a"; "@s/b"]].
Proof. eexists. split; [vm_compute; reflexivity|]. split; reflexivity. Qed.
Example ex_npm_names : npm_name "a" /\ npm_name "@s/b" /\ npm_key ["a"; "@s/b"] = "node_modules/a/node_modules/@s/b".
Proof.
  split; [|split; [|reflexivity]].
  - split; [left; split; [reflexivity|intros t; discriminate]|]. split; [discriminate|]. intros s; discriminate.
  - split; [right; exists "s", "b"; split; [reflexivity|split; reflexivity]|]. split; [discriminate|]. intros s E. apply (f_equal String.length) in E. cbn in E. rewrite slen_app in E. cbn in E. lia.
Qed.

Print Assumptions C41_partial.
Print Assumptions C41_search_order.
Print Assumptions C41_refuted_root.
Print Assumptions C41_refuted_unset.
Print Assumptions C43_precedence_partial.
Print Assumptions C43_refuted.
Print Assumptions C47_import_partial.
Print Assumptions C47_refuted_workspace.
