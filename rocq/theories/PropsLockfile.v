(** * Properties C07-C09: writing, reading and comparing lockfiles.
    Vocabulary (LockfileSpec): [same_lockfile a b]: same version, root entry, and entry at every key;
    [same_except_root_origin a b]: the same but for the root entry's name/resolved/integrity;
    [describes g i ln]: entry [ln] says where package [i] of tree [g] is, what it resolved to and its dependencies. *)
From Verif Require Import Base Types Kdl ResolverModel ResolverProofs ResolverRun ResolverSpec ResolverThms ResolverSteps
  ResolverExamples LockfileModel LockfileSpec LockfileProofs LockfileGraph LockfileFacts.
Open Scope string_scope.
Open Scope list_scope.

Section World.
  Variable rsat : range -> version -> bool.
  Variable canon : string -> option string.
  Variable parse_dep : string -> string -> res err pspec.
  Variable lnodeT : Type.
  Variable lpath : lnodeT -> list string.
  Variable lman : lnodeT -> manifest.
  Variable topkg : lnodeT -> res err (option package).
  Variable deliver : pspec -> outcome -> Prop.
  Variable lock : option (lockpkgs lnodeT).
  Variable requested : pspec -> string.
  Variable gitshow : gitinfo -> string.
  Variable vshow : version -> string.
  Variable vparse : string -> option version.
  Variable iparse : string -> option string.
  Notation reach := (reach rsat canon parse_dep lnodeT lpath lman topkg deliver lock).
  Notation to_lockfile := (to_lockfile requested gitshow).
  Notation to_kdl := (to_kdl vshow).
  Notation from_kdl := (from_kdl vparse iparse).
  Notation locked_check := (locked_check requested gitshow).

  (** C07, as far as it goes: for a lockfile whose keys are distinct, --locked succeeds iff the lockfile for the new tree is
      the same as the one supplied, and fails with a mismatch iff it differs; without --locked, or without a
      lockfile, there is no check.
      Missing: that an up-to-date lockfile is the same as the one for the new tree, which never holds (C07_refuted). *)
  Theorem C07_success_iff_partial : forall g lf old, keys_ok old ->
    (forall i n, getn g i = Some n -> NoDup (map fst (n_deps n))) -> to_lockfile g = Ok lf ->
    (locked_check true (Some old) g = Ok tt <-> same_lockfile old lf)
    /\ (locked_check true (Some old) g = Err ELockfileMismatch <-> ~ same_lockfile old lf)
    /\ locked_check true None g = Ok tt /\ (forall o, locked_check false o g = Ok tt).
  Proof.
    exact (fun g lf old Hk Hn H =>
      conj (proj1 (locked_iff requested gitshow g old lf Hk Hn H))
        (conj (proj2 (locked_iff requested gitshow g old lf Hk Hn H)) (conj eq_refl (fun o => eq_refl)))).
  Qed.
  (** C07 is false: the lockfile written for a tree, read back, is rejected by --locked for that very tree. *)
  Theorem C07_refuted : forall g lf lf', to_lockfile g = Ok lf -> from_kdl (to_kdl lf) = Ok lf' ->
    locked_check true (Some lf') g = Err ELockfileMismatch.
  Proof. exact (locked_never vshow vparse iparse requested gitshow). Qed.

  (** C08, for the lockfile of any tree resolved from valid package names and without aliases: it can be written and read back,
      and only the root entry's name, resolved and integrity are lost.
      Missing: the root's "resolved" (C08_refuted), the names of aliased packages (C08_alias_refuted). *)
  Theorem C08_graph_partial : forall root pkg m name, new_node parse_dep name pkg m true = Ok root ->
    (forall v, vparse (vshow v) = Some v) -> forall s, reach root s ->
    (forall i, 0 < i < size (s_g s) -> valid_name (name_of (s_g s) i)) ->
    (forall i n, getn (s_g s) i = Some n -> i <> 0 -> ufold (pk_name (n_pkg n)) = name_of (s_g s) i) ->
    (forall i n nm v u integ, getn (s_g s) i = Some n -> pk_resolved (n_pkg n) = RNpm nm v u (Some integ) -> iparse integ = Some integ) ->
    exists lf lf', to_lockfile (s_g s) = Ok lf /\ from_kdl (to_kdl lf) = Ok lf' /\ same_except_root_origin lf' lf.
  Proof.
    exact (fun root pkg m name Hr Hv => graph_round_trip rsat canon parse_dep lnodeT lpath lman topkg deliver lock requested gitshow
             root pkg m name Hr vshow vparse iparse Hv).
  Qed.
  (** the same for any lockfile whatever its origin *)
  Theorem C08_packages_partial : forall lf, wf_lockfile vshow vparse iparse lf -> (forall k n, In (k, n) (lf_packages lf) -> faithful n) ->
    exists lf', from_kdl (to_kdl lf) = Ok lf' /\ same_except_root_origin lf' lf.
  Proof. exact (round_trip vshow vparse iparse). Qed.
  (** C08 is false: what is read back never equals the lockfile written for a tree. *)
  Theorem C08_refuted : forall g lf lf', to_lockfile g = Ok lf -> from_kdl (to_kdl lf) = Ok lf' -> ~ same_lockfile lf' lf.
  Proof. exact (round_trip_never vshow vparse iparse requested gitshow). Qed.
  (** C08, after the first write: rewriting a lockfile that was read from disk changes nothing on disk ... *)
  Theorem C08_rewrite_stable : forall lf, wf_lockfile vshow vparse iparse lf ->
    exists lf', from_kdl (to_kdl lf) = Ok lf' /\ to_kdl lf' = to_kdl lf.
  Proof. exact (rewrite_stable vshow vparse iparse). Qed.
  (** ... and whatever was read from disk, if it has no root origin, survives writing and reading exactly. *)
  Theorem C08_reread : forall d lf, (forall v s, vparse s = Some v -> vparse (vshow v) = Some v) -> (forall s i, iparse s = Some i -> iparse i = Some i) ->
    from_kdl d = Ok lf -> (lf_version lf < 2 ^ 63)%N ->
    (forall k n, In (k, n) (lf_packages lf) -> l_resolved n = None -> l_integrity n = None) ->
    l_resolved (lf_root lf) = None -> l_integrity (lf_root lf) = None ->
    exists lf', from_kdl (to_kdl lf) = Ok lf' /\ same_lockfile lf' lf.
  Proof. exact (reread vshow vparse iparse). Qed.

  (** C09: for trees resolved from valid package names, the lockfile has exactly one entry per package other than the root,
      under the key of its path, describing it. *)
  Theorem C09_one_entry_per_package : forall root pkg m name, new_node parse_dep name pkg m true = Ok root ->
    forall s, reach root s -> (forall i, 0 < i < size (s_g s) -> valid_name (name_of (s_g s) i)) ->
    exists lf, to_lockfile (s_g s) = Ok lf
      /\ List.length (lf_packages lf) = size (s_g s) - 1
      /\ NoDup (map (fun e => ufold (fst e)) (lf_packages lf))
      /\ describes requested gitshow (s_g s) 0 (lf_root lf)
      /\ (forall i, 0 < i < size (s_g s) -> exists ln, In (path_key (node_path (s_g s) i), ln) (lf_packages lf) /\ describes requested gitshow (s_g s) i ln)
      /\ (forall k ln, In (k, ln) (lf_packages lf) -> exists i, 0 < i < size (s_g s) /\ k = path_key (node_path (s_g s) i) /\ describes requested gitshow (s_g s) i ln).
  Proof. exact (lockfile_complete rsat canon parse_dep lnodeT lpath lman topkg deliver lock requested gitshow). Qed.
End World.
Print Assumptions C07_success_iff_partial.
Print Assumptions C07_refuted.
Print Assumptions C08_graph_partial.
Print Assumptions C08_packages_partial.
Print Assumptions C08_refuted.
Print Assumptions C08_rewrite_stable.
Print Assumptions C08_reread.
Print Assumptions C09_one_entry_per_package.

(** ** concrete cases *)
Definition ex_vshow (x : version) : string :=
  if version_eqb x (v 1 0) then "1.0.0" else if version_eqb x (v 2 0) then "2.0.0" else "?".
Definition ex_vparse (s : string) : option version :=
  if String.eqb s "1.0.0" then Some (v 1 0) else if String.eqb s "2.0.0" then Some (v 2 0) else None.
Definition ex_requested (s : pspec) : string := match s with SNpm _ _ (Some (VVersion x)) => ex_vshow x | _ => "*" end.
Definition ex_git (_ : gitinfo) : string := "".
Definition ex_lf : lockfile := match to_lockfile ex_requested ex_git (s_g end5a) with Ok l => l | _ => mkLf 0 (mkLn "" false [] None None None [] [] [] []) [] end.
Definition ex_back : res err lockfile := from_kdl ex_vparse Some (to_kdl ex_vshow ex_lf).

Example C07_nonvacuous : exists lf', ex_back = Ok lf' /\ List.length (lf_packages lf') = 4
  /\ locked_check ex_requested ex_git true (Some lf') (s_g end5a) = Err ELockfileMismatch
  /\ locked_check ex_requested ex_git true (Some ex_lf) (s_g end5a) = Ok tt.
Proof. eexists. split; [vm_compute; reflexivity|]. vm_compute. auto. Qed.

(** C08 is also false for aliased packages: the entry's name is replaced by the last path component. *)
Definition alias_lf : lockfile :=
  mkLf 1 (mkLn "" true [] None None None [("bar", "npm:foo@1.0.0")] [] [] [])
    [("bar", mkLn "foo" false ["bar"] (Some "https://r/foo.tgz") (Some (v 1 0)) None [] [] [] [])].
Theorem C08_alias_refuted : wf_lockfile ex_vshow ex_vparse Some alias_lf /\
  exists lf', from_kdl ex_vparse Some (to_kdl ex_vshow alias_lf) = Ok lf'
    /\ ~ same_lockfile lf' alias_lf /\ option_map l_name (aget ueqb "bar" (lf_packages lf')) = Some "bar".
Proof.
  split.
  - constructor; cbn.
    + reflexivity.
    + reflexivity.
    + repeat split; cbn; repeat constructor; cbn; try tauto. all: destruct H as [E|[]]; injection E as <- <-; repeat constructor; cbn; tauto.
    + split; [split; discriminate|]. intros k n [E|[]]. injection E as <- <-. split; cbn; intros x E; [injection E as <-; reflexivity | discriminate].
    + intros k n [E|[]]. injection E as <- <-. cbn. repeat split; discriminate.
  - eexists. split; [vm_compute; reflexivity|]. split; [|reflexivity].
    intros (_ & _ & H). specialize (H "bar"). cbn in H. destruct H as [H _]. discriminate.
Qed.
Print Assumptions C08_alias_refuted.

(** a tree meeting the hypotheses of C08_graph_partial and C09: the four packages of reg5, two of them named x *)
Example C09_nonvacuous : ex_reach reg5 root5 end5a /\ (forall i, 0 < i < size (s_g end5a) -> valid_name (name_of (s_g end5a) i))
  /\ (forall i n, getn (s_g end5a) i = Some n -> i <> 0 -> ufold (pk_name (n_pkg n)) = name_of (s_g end5a) i)
  /\ map fst (lf_packages ex_lf) = ["a"; "b"; "x"; "b/node_modules/x"].
Proof.
  split; [exact end5a_reach|]. split; [|split; [|vm_compute; reflexivity]].
  - intros i Hi. assert (size (s_g end5a) = 5) as E by (vm_compute; reflexivity). rewrite E in Hi.
    do 5 (destruct i as [|i]; [first [lia | left; split; [vm_compute; reflexivity | vm_compute; discriminate]]|]). lia.
  - intros i n H Hi. do 5 (destruct i as [|i]; [first [lia | idtac]; vm_compute in H; injection H as <-; vm_compute; reflexivity|]).
    vm_compute in H. destruct i; discriminate.
Qed.
