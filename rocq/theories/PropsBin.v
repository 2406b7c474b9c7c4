(** * Properties C26, C27, C44, C45: the commands a package puts on the PATH.
    [single x] (StdPath): one ordinary path component; [disk names] (PathLookup): the directory of the package installed at
    [names]; [walk_from dir p]: where the path [p] leads from [dir]; [bin_link dir e]: the link created for a bin of the
    package in [dir], and its target. *)
From Verif Require Import Base Types StdPath BinModel BinProofs PathLookup LockfileGraph.
From Coq Require Import Permutation.
Open Scope string_scope.
Open Scope list_scope.

(** a bin declared in package.json, by name and path (an array names each bin after its file) *)
Inductive declares (r : raw) : string -> string -> Prop :=
| d_hash l n b : r_bin r = Some (BHash l) -> In (n, b) l -> declares r n b
| d_str n b : r_bin r = Some (BStr b) -> r_name r = Some n -> declares r n b
| d_array l n b : r_bin r = Some (BArray l) -> In b l -> file_name b = Some n -> declares r n b.

Lemma array_map_in l : forall acc m, array_map l acc = Ok m -> forall n b, In (n, b) m -> In (n, b) acc \/ (In b l /\ file_name b = Some n).
Proof.
  induction l as [|a l IH]; cbn; intros acc m H n b Hin; [injection H as <-; auto|].
  destruct (file_name a) as [x|] eqn:E; [|discriminate]. destruct (IH _ _ H _ _ Hin) as [H'|[H1 H2]]; [|auto].
  clear - H' E. induction acc as [|[k v] acc IHa]; cbn in H'.
  - destruct H' as [H'|[]]. injection H' as <- <-. auto.
  - destruct (String.eqb_spec x k) as [->|].
    + destruct H' as [H'|H']; [injection H' as <- <-; auto|auto with datatypes].
    + destruct H' as [H'|H']; [left; left; auto|]. destruct (IHa H') as [|]; [left; right; auto|auto].
Qed.

Section World.
  Variable walkdir : string -> list (option string).

  Lemma norm_sget r m x p : normalize walkdir r (Ok m) -> sget x m = Some p ->
    exists bm n b, bin_map walkdir r = Ok bm /\ In (n, b) bm /\ bin_base n = Some x /\ bin_target b = Some p.
  Proof.
    intros H Hx. inversion H as [bm order Hbm HP E|]; subst. destruct (norm_loop_in _ _ _ _ Hx) as [(n & b & Hin & H1 & H2)|H']; [|discriminate].
    exists bm, n, b. repeat split; auto. eapply Permutation_in; eauto.
  Qed.
  Lemma c26 r m : normalize walkdir r (Ok m) -> forall x p pre y, good_name y -> sget x m = Some p ->
    exists name, fst (bin_link (disk (pre ++ [y])) (x, p)) = disk pre ++ ["node_modules"; ".bin"; name]
      /\ single name /\ no_char "\" name = true /\ no_char ":" name = true.
  Proof.
    intros H x p pre y Hg Hx. destruct (norm_sget _ _ _ _ H Hx) as (bm & n & b & _ & _ & Hb & _). apply bin_base_safe in Hb.
    exists x. cbn. rewrite hoisted_bin_dir_good by auto. rewrite <- app_assoc. tauto.
  Qed.
  (** C26: whatever the package.json of a package says, each of its links is directly inside the .bin directory beside it, and
      its name is one ordinary path component (without Windows separators either). *)
  Theorem C26 : forall r m, normalize walkdir r (Ok m) -> forall x p pre y, good_name y -> sget x m = Some p ->
    exists name, fst (bin_link (disk (pre ++ [y])) (x, p)) = disk pre ++ ["node_modules"; ".bin"; name]
      /\ single name /\ no_char "\" name = true /\ no_char ":" name = true.
  Proof. exact c26. Qed.

  Lemma declares_map r m n b : r_bin r <> None -> bin_map walkdir r = Ok m -> In (n, b) m -> declares r n b.
  Proof.
    unfold bin_map. intros Hb Hm Hin. destruct (r_bin r) as [[s|l|l]|] eqn:E; [| | |contradiction].
    - destruct (r_name r) as [k|] eqn:En; injection Hm as <-; [|easy]. destruct Hin as [Hin|[]]. injection Hin as <- <-. eapply d_str; eauto.
    - injection Hm as <-. eapply d_hash; eauto.
    - destruct (array_map_in _ _ _ Hm _ _ Hin) as [[]|[H1 H2]]. eapply d_array; eauto.
  Qed.
  Lemma c27 r m : r_bin r <> None -> normalize walkdir r (Ok m) -> (forall n b, declares r n b -> ~ In ".." (split "/" b)) ->
    forall x p dir, sget x m = Some p -> exists names, names <> [] /\ Forall single names
      /\ snd (bin_link dir (x, p)) = map CNormal (dir ++ names).
  Proof.
    intros Hb H Hd x p dir Hx. destruct (norm_sget _ _ _ _ H Hx) as (bm & n & b & Hbm & Hin & _ & Ht).
    destruct (target_inside b p Ht) as (names & -> & Hn & Hs); [eapply Hd, declares_map; eauto|].
    exists names. cbn. rewrite map_app. auto.
  Qed.
  (** C27: if no declared bin path has a ".." component, every link points to a file inside the package; an absolute path is
      taken relative to the package. Missing: paths with ".." (C27_refuted). *)
  Theorem C27_partial : forall r m, r_bin r <> None -> normalize walkdir r (Ok m) -> (forall n b, declares r n b -> ~ In ".." (split "/" b)) ->
    forall x p dir, sget x m = Some p -> exists names, names <> [] /\ Forall single names
      /\ snd (bin_link dir (x, p)) = map CNormal (dir ++ names).
  Proof. exact c27. Qed.

  Lemma c44 r m bm : bin_map walkdir r = Ok bm -> distinct_links bm -> normalize walkdir r (Ok m) ->
    forall x p, sget x m = Some p <-> exists n b, In (n, b) bm /\ bin_base n = Some x /\ bin_target b = Some p.
  Proof. intros Hbm Hd H. inversion H as [bm' order Hbm' HP E|]; subst. rewrite Hbm in Hbm'. injection Hbm' as <-. now apply norm_exact. Qed.
  Lemma c44_det r m m' bm : bin_map walkdir r = Ok bm -> distinct_links bm -> normalize walkdir r (Ok m) -> normalize walkdir r (Ok m') ->
    forall x, sget x m = sget x m'.
  Proof.
    intros Hbm Hd H H' x. destruct (sget x m) as [p|] eqn:E.
    - symmetry. apply (c44 _ _ _ Hbm Hd H'). now apply (c44 _ _ _ Hbm Hd H).
    - destruct (sget x m') as [p'|] eqn:E'; [|auto]. apply (c44 _ _ _ Hbm Hd H') in E'. apply (c44 _ _ _ Hbm Hd H) in E'. congruence.
  Qed.
  (** C44: provided no two bins of the package want the same link, the links do not depend on hash map order. *)
  Theorem C44_partial : forall r m m' bm, bin_map walkdir r = Ok bm -> distinct_links bm ->
    normalize walkdir r (Ok m) -> normalize walkdir r (Ok m') -> forall x, sget x m = sget x m'.
  Proof. exact c44_det. Qed.

  Lemma c44_hash l nm d : (forall n b, In (n, b) l -> single n /\ no_char "\" n = true /\ no_char ":" n = true /\ body b <> []) -> NoDup (map fst l) ->
    forall m, normalize walkdir (mkRaw nm (Some (BHash l)) d) (Ok m) -> forall n, sget n m = option_map body (sget n l).
  Proof.
    intros Hl Hnd m H n. assert (Hd : distinct_links l).
    { intros a b a' b' x H1 H2 E1 E2. destruct (Hl _ _ H1) as (G1 & G2 & G3 & _). destruct (Hl _ _ H2) as (K1 & K2 & K3 & _).
      rewrite bin_base_id in E1, E2 by auto. assert (a = a') by congruence. subst a'.
      pose proof (In_aget _ seqb_spec _ _ _ Hnd H1). pose proof (In_aget _ seqb_spec _ _ _ Hnd H2). congruence. }
    destruct (sget n l) as [b|] eqn:E; cbn.
    - apply (c44 (mkRaw nm (Some (BHash l)) d) _ l eq_refl Hd H). exists n, b. apply aget_In in E; [|apply seqb_spec]. destruct (Hl _ _ E) as (G1 & G2 & G3 & G4).
      split; [auto|]. split; [now apply bin_base_id|]. rewrite bin_target_spec. destruct (body b); [contradiction|auto].
    - destruct (sget n m) as [p|] eqn:E'; [|auto]. apply (c44 (mkRaw nm (Some (BHash l)) d) _ l eq_refl Hd H) in E'. destruct E' as (n' & b & Hin & E1 & _).
      destruct (Hl _ _ Hin) as (G1 & G2 & G3 & _). rewrite bin_base_id in E1 by auto. injection E1 as ->.
      pose proof (In_aget _ seqb_spec _ _ _ Hnd Hin). congruence.
  Qed.
  (** C44: a bin object with ordinary names gives exactly the declared links, whatever order the hash map iterates in. *)
  Theorem C44_object_exact : forall l nm d,
    (forall n b, In (n, b) l -> single n /\ no_char "\" n = true /\ no_char ":" n = true /\ body b <> []) -> NoDup (map fst l) ->
    forall m, normalize walkdir (mkRaw nm (Some (BHash l)) d) (Ok m) -> forall n, sget n m = option_map body (sget n l).
  Proof. exact c44_hash. Qed.
  Lemma c44_scoped sc n b d : single n -> no_char "\" n = true -> no_char ":" n = true -> body b <> [] ->
    forall m, normalize walkdir (mkRaw (Some (sc ++ String "/" n)%string) (Some (BStr b)) d) (Ok m) -> m = [(n, body b)].
  Proof.
    intros H1 H2 H3 H4 m H. inversion H as [bm order Hbm HP E|]; subst. cbn in Hbm. injection Hbm as <-.
    apply Permutation_sym, Permutation_length_1_inv in HP. subst order. cbn. rewrite bin_base_scoped, bin_target_spec by auto.
    destruct (body b); [contradiction|]. reflexivity.
  Qed.
  (** C44: the single bin of a scoped package @scope/name is the command [name]. *)
  Theorem C44_scoped : forall sc n b d, single n -> no_char "\" n = true -> no_char ":" n = true -> body b <> [] ->
    forall m, normalize walkdir (mkRaw (Some (sc ++ String "/" n)%string) (Some (BStr b)) d) (Ok m) -> m = [(n, body b)].
  Proof. exact c44_scoped. Qed.
  Lemma c44_total r : (forall l, r_bin r = Some (BArray l) -> forall b, In b l -> file_name b <> None) -> r_bin r <> None ->
    exists m, normalize walkdir r (Ok m).
  Proof.
    intros Ha Hb. destruct (bin_map walkdir r) as [m|e|] eqn:E.
    - eexists. eapply norm_ok; [exact E | apply Permutation_refl].
    - exfalso. unfold bin_map in E. destruct (r_bin r) as [[s|l|l]|] eqn:Er; try discriminate; [|contradiction].
      specialize (Ha l eq_refl). clear Er Hb. revert E. generalize (@nil (string * string)). induction l as [|a l IH]; cbn; intros acc E; [discriminate|].
      destruct (file_name a) eqn:Ef; [|now apply (Ha a (or_introl eq_refl))]. revert E. apply IH. intros b Hin. apply Ha. now right.
    - exfalso. unfold bin_map in E. destruct (r_bin r) as [[s|l|l]|] eqn:Er; try discriminate; [|contradiction].
      revert E. generalize (@nil (string * string)). clear. induction l as [|a l IH]; cbn; intros acc E; [discriminate|].
      destruct (file_name a); [|discriminate]. eauto.
  Qed.
  (** C44: a package that declares bins is never rejected, except for an array element without a file name. *)
  Theorem C44_accepts : forall r, (forall l, r_bin r = Some (BArray l) -> forall b, In b l -> file_name b <> None) -> r_bin r <> None ->
    exists m, normalize walkdir r (Ok m).
  Proof. exact c44_total. Qed.
End World.

(** ** concrete cases *)
Definition no_walk : string -> list (option string) := fun _ => [None].
Definition ex_raw := mkRaw (Some "@x/tool") (Some (BHash [("tool", "./bin/cli.js"); ("../../etc/tool2", "/lib/t2.js"); ("..", "x")])) None.
Example C26_ex : normalize no_walk ex_raw (Ok [("tool", [CNormal "bin"; CNormal "cli.js"]); ("tool2", [CNormal "lib"; CNormal "t2.js"])]).
Proof. apply (norm_ok no_walk ex_raw _ _ eq_refl (Permutation_refl _)). Qed.
Example C26_ex_names : good_name "@x/tool" /\ good_name "foo".
Proof.
  split.
  - right. exists "x", "tool". repeat split; auto. apply plainb_spec. reflexivity.
  - left. apply plainb_spec. reflexivity.
Qed.
Example C27_ex : r_bin ex_raw <> None /\ (forall n b, declares ex_raw n b -> ~ In ".." (split "/" b)).
Proof.
  split; [discriminate|]. intros n b H. destruct H as [l n b H Hin|n b H|l n b H]; try discriminate.
  injection H as <-. cbn in Hin. destruct Hin as [E|[E|[E|[]]]]; injection E as <- <-; cbn; intuition discriminate.
Qed.
Example C44_ex_distinct : distinct_links [("tool", "./bin/cli.js"); ("../../etc/tool2", "/lib/t2.js"); ("..", "x")].
Proof.
  intros n b n' b' x H1 H2. cbn in H1, H2.
  destruct H1 as [E|[E|[E|[]]]]; injection E as <- <-; destruct H2 as [E|[E|[E|[]]]]; injection E as <- <-; cbn; congruence.
Qed.
Example C44_ex_object : forall n b, In (n, b) [("a", "a.js"); ("b", "./lib/b.js")] ->
  single n /\ no_char "\" n = true /\ no_char ":" n = true /\ body b <> [].
Proof. intros n b H. cbn in H. destruct H as [E|[E|[]]]; injection E as <- <-; repeat split; cbn; discriminate. Qed.

(** C27 is false: a bin path with ".." reaches any file of the project or the machine, and [link_bin] makes it executable *)
Theorem C27_refuted : exists r m p, normalize no_walk r (Ok m) /\ sget "foo" m = Some p
  /\ walk_from [] (snd (bin_link ["node_modules"; "foo"] ("foo", p))) = Some ["package.json"].
Proof.
  exists (mkRaw (Some "foo") (Some (BStr "../../package.json")) None), [("foo", [CParent; CParent; CNormal "package.json"])].
  exists [CParent; CParent; CNormal "package.json"].
  split; [|split; reflexivity]. apply (norm_ok no_walk (mkRaw (Some "foo") (Some (BStr "../../package.json")) None) _ _ eq_refl (Permutation_refl _)).
Qed.
(** C44 is false when two names share a base name: the result depends on the hash map *)
Theorem C44_refuted : exists r m m', normalize no_walk r (Ok m) /\ normalize no_walk r (Ok m') /\ sget "foo" m <> sget "foo" m'.
Proof.
  set (r := mkRaw None (Some (BHash [("a/foo", "x.js"); ("foo", "y.js")])) None).
  exists r, [("foo", [CNormal "y.js"])], [("foo", [CNormal "x.js"])]. split; [|split; [|discriminate]].
  - apply (norm_ok no_walk r _ _ eq_refl (Permutation_refl _)).
  - apply (norm_ok no_walk r _ [("foo", "y.js"); ("a/foo", "x.js")] eq_refl). apply perm_swap.
Qed.
(** C45 is false: directories.bin is looked up in the directory orogene runs in. A package that declares directories.bin makes
    the install fail when the project has no such directory, links the project's files (and the directory itself) when it has,
    and gets no commands at all when it writes "./bin". *)
Theorem C45_refuted : (forall r e, r_bin r = None -> r_dirbin r = Some "bin" -> normalize no_walk r e -> e = Err EIo)
  /\ (forall walkdir r m, walkdir "bin" = [Some "bin"; Some "bin/of-project.js"] -> r_bin r = None -> r_dirbin r = Some "bin" ->
        normalize walkdir r (Ok m) -> sget "bin" m = Some [CNormal "bin"] /\ sget "of-project.js" m = Some [CNormal "bin"; CNormal "of-project.js"])
  /\ (forall walkdir r m, walkdir "./bin" = [Some "./bin"; Some "./bin/cli.js"] -> r_bin r = None -> r_dirbin r = Some "./bin" ->
        normalize walkdir r (Ok m) -> m = []).
Proof.
  split; [|split].
  - intros [n b d] e Hb Hd H. cbn in Hb, Hd. subst. destruct H as [m order H|e H]; cbn in H; congruence.
  - intros walkdir [n b d] m Hw Hb Hd H. cbn in Hb, Hd. subst. inversion H as [bm order Hbm HP E|]; subst. unfold bin_map in Hbm. cbn in Hbm. rewrite Hw in Hbm. cbn in Hbm.
    injection Hbm as <-.
    assert (HD : distinct_links [("bin", "bin"); ("of-project.js", "bin/of-project.js")]).
    { intros n1 b1 n2 b2 x H1 H2. cbn in H1, H2. destruct H1 as [E|[E|[]]]; injection E as <- <-; destruct H2 as [E|[E|[]]]; injection E as <- <-; cbn; congruence. }
    split; apply (norm_exact _ _ HP HD).
    + exists "bin", "bin". cbn. auto.
    + exists "of-project.js", "bin/of-project.js". cbn. auto.
  - intros walkdir [n b d] m Hw Hb Hd H. cbn in Hb, Hd. subst. inversion H as [bm order Hbm HP E|]; subst. unfold bin_map in Hbm. cbn in Hbm. rewrite Hw in Hbm. cbn in Hbm.
    injection Hbm as <-. apply Permutation_sym, Permutation_nil in HP. subst order. reflexivity.
Qed.

Print Assumptions C26.
Print Assumptions C27_partial.
Print Assumptions C27_refuted.
Print Assumptions C44_partial.
Print Assumptions C44_object_exact.
Print Assumptions C44_scoped.
Print Assumptions C44_accepts.
Print Assumptions C44_refuted.
Print Assumptions C45_refuted.
