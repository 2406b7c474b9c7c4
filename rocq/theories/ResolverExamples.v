(** * A concrete registry and concrete runs, used to show that hypotheses are met and as counterexamples *)
From Verif Require Import Base Types ResolverModel ResolverProofs ResolverRun ResolverSpec ResolverThms ResolverSteps
  ResolverTerm ResolverSafe ResolverBarrier.

Open Scope string_scope.
Open Scope list_scope.
Definition v (a b : N) : version := mkV a b 0 [].
(** the specs used below: exact versions, one range, dist-tags otherwise *)
Definition ex_parse (name spec : string) : res err pspec :=
  let npm r := Ok (SNpm None name (Some r)) in
  if String.eqb spec "1.0.0" then npm (VVersion (v 1 0))
  else if String.eqb spec "1.1.0" then npm (VVersion (v 1 1))
  else if String.eqb spec "2.0.0" then npm (VVersion (v 2 0))
  else if String.eqb spec "9.0.0" then npm (VVersion (v 9 0))
  else if String.eqb spec "^1.0.0" then npm (VRange "^1.0.0")
  else npm (VTag spec).
Definition ex_rsat (r : range) (x : version) : bool := String.eqb r "^1.0.0" && N.eqb (v_major x) 1.
Definition ex_canon (p : string) : option string := Some p.

(** a registry: the versions of each package, newest first, with their dependencies *)
Definition registry := list (string * list (version * manifest)).
Definition ex_pick (r : option vspec) (l : list (version * manifest)) : option (version * manifest) :=
  match r with
  | Some (VVersion x) => find (fun e => version_eqb (fst e) x) l
  | Some (VRange g) => find (fun e => ex_rsat g (fst e)) l
  | _ => nth_error l 0
  end.
Definition answer (reg : registry) (s : pspec) : outcome :=
  match s with
  | SNpm None name r =>
      match sget name reg with
      | Some l => match ex_pick r l with
                  | Some (x, m) => Ok (mkPkg name s (RNpm name x name None), m)
                  | None => Err ENoVersion
                  end
      | None => Err EFetch
      end
  | _ => Err EFetch
  end.
Definition ex_deliver (reg : registry) (s : pspec) (o : outcome) : Prop := o = answer reg s.
Definition man (d : list (string * string)) : manifest := mkMan d [] [].
Definition no_deps : manifest := man [].
Definition npm (name : string) (r : vspec) : pspec := SNpm None name (Some r).
Definition root_pkg : package := mkPkg "root" (SDir "/root") (RDir "root" "/root").
Definition mk_root (m : manifest) : node :=
  match new_node ex_parse "root" root_pkg m true with Ok n => n | _ => mkNode "" root_pkg None [] [] [] end.

(** no lockfile *)
Definition ex_exec := exec ex_rsat ex_canon ex_parse unit (fun _ => []) (fun _ => no_deps) (fun _ => Ok None) None.
Definition ex_reach reg := reach ex_rsat ex_canon ex_parse unit (fun _ => []) (fun _ => no_deps) (fun _ => Ok None) (ex_deliver reg) None.
Definition ex_steps reg := steps ex_rsat ex_canon ex_parse unit (fun _ => []) (fun _ => no_deps) (fun _ => Ok None) (ex_deliver reg) None.
(** one result of the registry *)
Definition rs (reg : registry) (s : pspec) : pspec * outcome := (s, answer reg s).

Fixpoint ex_run (s : st) (l : list action) : option st :=
  match l with
  | [] => Some s
  | a :: t => match ex_exec s a with Some (Ok s') => ex_run s' t | _ => None end
  end.
Definition honest (reg : registry) (a : action) : Prop :=
  match a with APop => True | AChunk _ l => Forall (fun r => snd r = answer reg (fst r)) l end.
Lemma ex_run_reach reg root l s' : Forall (honest reg) l -> ex_run (init root) l = Some s' -> ex_reach reg root s'.
Proof.
  assert (G : forall l s s', ex_reach reg root s -> Forall (honest reg) l -> ex_run s l = Some s' -> ex_reach reg root s').
  { clear. induction l as [|a t IH]; cbn; intros s s' Hr Hh H; [inversion H; now subst|].
    inversion Hh; subst. destruct (ex_exec s a) as [[s1| |]|] eqn:E; try discriminate.
    eapply IH; [|eauto|eauto]. econstructor; [exact Hr | | exact E]. destruct a; cbn in *; auto. }
  intros Hh H. eapply G; eauto. constructor.
Qed.

(** the tree as a list of (path, version) for display *)
Definition tree_of (g : graph) : list (list string * version) :=
  map (fun i => (node_path g i,
                 match getn g i with Some n => match pk_resolved (n_pkg n) with RNpm _ x _ _ => x | _ => v 0 0 end | None => v 0 0 end))
      (seq 0 (size g)).

(** ** a run that shadows an already linked dependency (C02) *)
Definition reg2 : registry :=
  [("a", [(v 1 0, man [("n", "2.0.0"); ("b", "1.0.0")])]);
   ("b", [(v 9 0, no_deps); (v 1 0, man [("n", "1.0.0")])]);
   ("n", [(v 2 0, no_deps); (v 1 0, no_deps)])]%string.
Definition root2 := mk_root (man [("a", "1.0.0"); ("n", "1.0.0"); ("b", "9.0.0")]%string).
Definition sched2 : list action :=
  [APop; AChunk 3 [rs reg2 (npm "a" (VVersion (v 1 0))); rs reg2 (npm "n" (VVersion (v 1 0))); rs reg2 (npm "b" (VVersion (v 9 0)))];
   APop; APop; APop;
   AChunk 2 [rs reg2 (npm "b" (VVersion (v 1 0)))]; APop;
   AChunk 0 [rs reg2 (npm "n" (VVersion (v 2 0)))]; APop].

(** ** a tree that depends on the order of two responses (C05) *)
Definition reg5 : registry :=
  [("a", [(v 1 0, man [("x", "1.0.0")])]); ("b", [(v 1 0, man [("x", "2.0.0")])]);
   ("x", [(v 2 0, no_deps); (v 1 0, no_deps)])]%string.
Definition root5 := mk_root (man [("a", "1.0.0"); ("b", "1.0.0")]%string).
Definition x1 := rs reg5 (npm "x" (VVersion (v 1 0))).
Definition x2 := rs reg5 (npm "x" (VVersion (v 2 0))).
Definition sched5 (l : list (pspec * outcome)) : list action :=
  [APop; AChunk 2 [rs reg5 (npm "a" (VVersion (v 1 0))); rs reg5 (npm "b" (VVersion (v 1 0)))]; APop; APop; AChunk 2 l; APop; APop].

Definition get (o : option st) (root : node) : st := match o with Some s => s | None => init root end.
Definition end2 : st := get (ex_run (init root2) sched2) root2.
Definition end5a : st := get (ex_run (init root5) (sched5 [x1; x2])) root5.
Definition end5b : st := get (ex_run (init root5) (sched5 [x2; x1])) root5.

Example tree2 : tree_of (s_g end2) =
  [([], v 0 0); (["a"], v 1 0); (["n"], v 1 0); (["b"], v 9 0); (["a"; "b"], v 1 0); (["a"; "n"], v 2 0)].
Proof. vm_compute. reflexivity. Qed.

Lemma end2_reach : ex_reach reg2 root2 end2.
Proof. apply ex_run_reach with (l := sched2); [repeat constructor | vm_compute; reflexivity]. Qed.
Lemma end5a_reach : ex_reach reg5 root5 end5a.
Proof. apply ex_run_reach with (l := sched5 [x1; x2]); [repeat constructor | vm_compute; reflexivity]. Qed.
Lemma end5b_reach : ex_reach reg5 root5 end5b.
Proof. apply ex_run_reach with (l := sched5 [x2; x1]); [repeat constructor | vm_compute; reflexivity]. Qed.
Lemma root2_new : new_node ex_parse "root" root_pkg (man [("a", "1.0.0"); ("n", "1.0.0"); ("b", "9.0.0")]) true = Ok root2.
Proof. reflexivity. Qed.
Lemma root5_new : new_node ex_parse "root" root_pkg (man [("a", "1.0.0"); ("b", "1.0.0")]) true = Ok root5.
Proof. reflexivity. Qed.

(** walk-up lookup computed *)
Lemma ex_visible reg root pkg m name s : new_node ex_parse name pkg m true = Ok root -> ex_reach reg root s ->
  forall i x c, i < size (s_g s) -> resolve_dep (s_g s) i x = Some c -> visible (s_g s) i x c.
Proof.
  intros Hr Hs i x c Hi He. pose proof (reach_inv _ _ _ _ _ _ _ _ _ _ _ _ _ _ Hr Hs) as [I _ _ _ _].
  apply (lookup_visible _ _ _ _ _ _ I); auto. apply lookup_resolve; auto. eapply ginv_parlt; eauto.
Qed.

Lemma shadowed : exists i x sp t c, declares (s_g end2) i x sp t /\ visible (s_g end2) i x c
  /\ ~ acceptable ex_rsat ex_canon (ex_deliver reg2) (s_g end2) c sp.
Proof.
  exists 4, "n", (npm "n" (VVersion (v 1 0))), Prod, 5. split; [|split].
  - eexists. split; vm_compute; reflexivity.
  - apply (ex_visible _ _ _ _ _ _ root2_new end2_reach); [vm_compute; lia | vm_compute; reflexivity].
  - intros (n & Hn & H). vm_compute in Hn. injection Hn as <-. destruct H as [H|(m & H)]; vm_compute in H; discriminate.
Qed.

Lemma tree_differs : exists path r, tree_res (s_g end5a) path r /\ ~ tree_res (s_g end5b) path r.
Proof.
  exists ["x"], (RNpm "x" (v 1 0) "x" None). split.
  - exists (mkPkg "x" (npm "x" (VVersion (v 1 0))) (RNpm "x" (v 1 0) "x" None)). split; [|reflexivity].
    exists 3. eexists. split; [|split; [vm_compute; reflexivity | reflexivity]].
    change ["x"] with ([] ++ ["x"]). econstructor; [constructor | vm_compute; reflexivity].
  - intros (p & (i & n & Hi & Hn & <-) & Hr).
    inversion Hi as [|p' path' x' c' H' Hc' E0 E].
    assert (path' = [] /\ x' = "x") as [-> ->].
    { change ["x"] with ([] ++ ["x"]) in E. apply app_inj_tail in E. exact E. }
    subst c'. inversion H' as [E1 E2|p2 path2 y2 c2 H2 Hc2 E1 E2]; [subst|destruct path2; discriminate].
    vm_compute in Hc'. injection Hc' as <-. vm_compute in Hn. injection Hn as <-. vm_compute in Hr. discriminate.
Qed.

(** ** a package that depends on a dist-tag of itself (C04) *)
Definition reg4 : registry := [("a", [(v 1 0, man [("a", "latest")])])].
Definition root4 := mk_root (man [("a", "latest")]).
Lemma root4_new : new_node ex_parse "root" root_pkg (man [("a", "latest")]) true = Ok root4.
Proof. reflexivity. Qed.

Lemma reg4_reqs s p m name n : ex_deliver reg4 s (Ok (p, m)) -> new_node ex_parse name p m false = Ok n ->
  n_reqs n = [("a", (npm "a" (VTag "latest"), Prod))].
Proof.
  intros Hd Hn. unfold ex_deliver, answer in Hd.
  destruct s as [| |[sc|] nm r|]; try discriminate.
  destruct (sget nm reg4) as [l|] eqn:E; [|discriminate].
  assert (l = [(v 1 0, man [("a", "latest")])]).
  { unfold reg4 in E. cbn [aget] in E. destruct (String.eqb nm "a"); [injection E as <-; reflexivity | discriminate]. }
  subst l. destruct (ex_pick r _) as [[x m']|] eqn:Ep; [|discriminate]. injection Hd as -> ->.
  assert (m' = man [("a", "latest")]).
  { unfold ex_pick in Ep. destruct r as [[t|w|g]|]; cbn in Ep; try (injection Ep as _ <-; reflexivity).
    - destruct (version_eqb (v 1 0) w); [injection Ep as _ <-; reflexivity | discriminate].
    - destruct (ex_rsat g (v 1 0)); [injection Ep as _ <-; reflexivity | discriminate]. }
  subst m'. vm_compute in Hn. injection Hn as <-. reflexivity.
Qed.

Lemma reg4_tags : forall s p m name n, ex_deliver reg4 s (Ok (p, m)) -> new_node ex_parse name p m false = Ok n ->
  exists x sp t, sget x (n_reqs n) = Some (sp, t) /\ is_tag sp.
Proof.
  intros s p m name n Hd Hn. rewrite (reg4_reqs _ _ _ _ _ Hd Hn). exists "a", (npm "a" (VTag "latest")), Prod.
  split; [reflexivity | exists None, "a", "latest"; reflexivity].
Qed.
Lemma root4_tag : exists x sp t, sget x (n_reqs root4) = Some (sp, t) /\ is_tag sp.
Proof. exists "a", (npm "a" (VTag "latest")), Prod. split; [reflexivity | exists None, "a", "latest"; reflexivity]. Qed.

(** only [a] is ever requested in this world, so nothing can fail *)
Definition reg4J (k : nat) (g : graph) (q : list nat) (P : list dep) : Prop :=
  (forall j y sp t, req_of g j y = Some (sp, t) -> sp = npm "a" (VTag "latest"))
  /\ (forall d, In d P -> d_spec d = npm "a" (VTag "latest")).

Lemma reg4_reach s : ex_reach reg4 root4 s -> reg4J 0 (s_g s) (s_q s) (waiting s).
Proof.
  intros Hs.
  destruct (reach_J ex_rsat ex_canon ex_parse unit (fun _ => []) (fun _ => no_deps) (fun _ => Ok None) (ex_deliver reg4) None 0 reg4J)
    with (1 := fun k g q q' P P' (Hq : Permutation.Permutation q q') HP (H : reg4J k g q P) =>
                 conj (proj1 H) (fun d Hd => proj2 H d (Permutation.Permutation_in d (Permutation.Permutation_sym HP) Hd)) : reg4J k g q' P')
         (5 := root4_new) (k := 0) (s := s) as (k' & _ & H); auto.
  - intros k g q P d g' x I [H1 H2] Hsat. exfalso.
    destruct (satisfy_some _ _ _ _ _ _ Hsat) as (nx & Hr & Hx & Hss & _).
    rewrite (H2 d (or_introl eq_refl)) in Hss. destruct (pk_resolved (n_pkg nx)); discriminate.
  - intros k g q P d p m' tp g' ci I [H1 H2] Hsat Hpr Hpl. exists k. split; [lia|].
    pose proof (ginv_parlt _ _ _ _ _ _ I) as Hp.
    destruct (gi_P _ _ _ _ _ _ I d (or_introl eq_refl)) as (Hdn & _).
    destruct (place_child_inv _ _ _ _ _ _ _ _ _ _ Hdn Hp Hpl) as (cn & tgt & Hcn & -> & U & Htl & Hut & Hpass).
    destruct U as (Usz & Hed & Upar & Uch & Unm & Upk & Urq & Udp & Unr).
    destruct Hpr as [[-> Hdel]|(lf & ln & E & _)]; [|discriminate].
    split; [|intros d' Hd'; apply H2; now right].
    intros j y sp t. rewrite Urq. destruct (Nat.eqb j (size g)); [|apply H1].
    rewrite (reg4_reqs _ _ _ _ _ Hdel Hcn). cbn. destruct (String.eqb y "a"); [intros E; injection E; auto | discriminate].
  - intros k g i q P n I [H1 H2] Hn. exists k. split; [lia|]. split; [auto|].
    intros d Hd. apply in_app_iff in Hd. destruct Hd as [Hd|Hd]; [|auto].
    unfold deps_of in Hd. apply in_map_iff in Hd. destruct Hd as ([x [sp t]] & <- & Hin). cbn.
    eapply (H1 i x sp t). unfold req_of. rewrite Hn. apply In_aget; [apply seqb_spec | eapply gi_reqs; eauto | auto].
  - split; [|intros d []]. intros j y sp t. unfold req_of. destruct j as [|j]; [|destruct j; discriminate].
    change (sget y (n_reqs root4) = Some (sp, t) -> sp = npm "a" (VTag "latest")).
    assert (Er : n_reqs root4 = [("a", (npm "a" (VTag "latest"), Prod))]) by reflexivity. rewrite Er. cbn [aget].
    destruct (String.eqb y "a"); [intros E; injection E; auto | discriminate].
Qed.

Lemma reg4_runs_on n : exists s, ex_steps reg4 root4 n s.
Proof.
  induction n as [|n [s IH]]; [exists (init root4); constructor|].
  pose proof (steps_reach _ _ _ _ _ _ _ _ _ _ _ _ IH) as Hs.
  pose proof (reach_inv _ _ _ _ _ _ _ _ _ _ _ _ _ _ root4_new Hs) as SI.
  pose proof (never_finished _ _ _ _ _ _ _ _ reg4_tags _ _ _ _ root4_new root4_tag s Hs) as Hf.
  assert (Hgo : forall a r, legal (ex_deliver reg4) a -> fine_action false a -> ex_exec s a = Some r -> exists s', ex_steps reg4 root4 (S n) s').
  { intros a r Hl Hfa He. assert (Hfine : fine false r).
    { eapply (exec_fine ex_rsat ex_canon ex_parse unit (fun _ => []) (fun _ => no_deps) (fun _ => Ok None) (ex_deliver reg4) None false); eauto.
      - intros nm sp. unfold ex_parse. repeat match goal with |- fine _ (if ?b then _ else _) => destruct b end; exact Logic.I.
      - intros p. right. discriminate.
      - discriminate. }
    destruct r as [s'|e|]; cbn in Hfine; [|discriminate|destruct Hfine]. exists s'. econstructor; eauto. }
  destruct (progress ex_rsat ex_canon ex_parse unit (fun _ => []) (fun _ => no_deps) (fun _ => Ok None) (ex_deliver reg4) None s SI Hf) as [[r Hr]|(k & spec & Hch)].
  - eapply (Hgo APop); eauto; exact Logic.I.
  - destruct (Hch (answer reg4 spec)) as [r Hr].
    assert (Hspec : spec = npm "a" (VTag "latest")).
    { cbn [exec] in Hr. destruct (s_q s); [|discriminate]. destruct (Nat.eqb (s_inflight s) 0); [discriminate|].
      cbn [existsb fst] in Hr. destruct (aget pspec_eqb spec (s_fetches (pull k s))) as [l|] eqn:E; [|discriminate].
      destruct (pull_inv _ _ _ k s [] SI) as [[_ _ _ S N] HW]. apply aget_In in E; [|apply pspec_eqb_spec].
      destruct l as [|d l]; [exfalso; eapply N; eauto|].
      rewrite <- (S _ _ d E (or_introl eq_refl)). apply (proj2 (reg4_reach s Hs)).
      eapply Permutation.Permutation_in; [exact HW|]. unfold waiting. apply in_app_iff. right.
      apply in_concat. exists (d :: l). split; [|now left]. apply in_map_iff. exists (spec, d :: l). auto. }
    subst spec. eapply (Hgo (AChunk k [_])); [| |exact Hr].
    + constructor; [reflexivity | constructor].
    + constructor; [exact Logic.I | constructor].
Qed.

(** ** non-vacuity: a finished run of a small acyclic registry with a conflict, and of a conflict-free one *)
Example end5a_finished : finished end5a = true. Proof. reflexivity. Qed.
Example end2_finished : finished end2 = true. Proof. reflexivity. Qed.

(** reg5 is acyclic: x has rank 0, a and b rank 1 *)
Definition rk5 (s : pspec) : nat := match s with SNpm None nm _ => if String.eqb nm "x" then 0 else 1 | _ => 1 end.
Lemma reg5_acyclic : forall s p m, ex_deliver reg5 s (Ok (p, m)) ->
  List.length (m_deps m ++ m_opt m) <= 1 /\
  forall nm str s', In (nm, str) (m_deps m ++ m_opt m) -> ex_parse nm str = Ok s' -> rk5 s' < rk5 s.
Proof.
  intros s p m Hd. unfold ex_deliver, answer in Hd.
  destruct s as [| |[sc|] nm r|]; try discriminate.
  destruct (sget nm reg5) as [l|] eqn:E; [|discriminate].
  destruct (ex_pick r l) as [[y m']|] eqn:Ep; [|discriminate]. injection Hd as -> ->.
  assert (Hin : In (y, m') l).
  { unfold ex_pick in Ep. destruct r as [[t|w|g]|]; try (apply nth_error_In in Ep; exact Ep); apply find_some in Ep; apply Ep. }
  unfold reg5 in E. cbn [aget] in E.
  destruct (String.eqb_spec nm "a") as [->|_]; [|destruct (String.eqb_spec nm "b") as [->|_]; [|destruct (String.eqb_spec nm "x") as [->|_]; [|discriminate]]];
    injection E as <-; cbn in Hin;
    repeat match goal with H : _ \/ _ |- _ => destruct H as [H|H] | H : False |- _ => destruct H end;
    injection Hin as <- <-; (split; [cbn; lia|]); intros nm' str s' Hi; cbn in Hi;
    repeat match goal with H : _ \/ _ |- _ => destruct H as [H|H] | H : False |- _ => destruct H end;
    injection Hi as <- <-; cbn; intros Hp; injection Hp as <-; cbn; lia.
Qed.

(** a registry without conflicts: everybody wants the same x *)
Definition reg6 : registry :=
  [("a", [(v 1 0, man [("x", "^1.0.0")])]); ("x", [(v 2 0, no_deps); (v 1 1, man [("a", "1.0.0")]); (v 1 0, no_deps)])].
Definition man6 := man [("a", "1.0.0"); ("x", "^1.0.0")].
Definition root6 := mk_root man6.
Lemma root6_new : new_node ex_parse "root" root_pkg man6 true = Ok root6.
Proof. reflexivity. Qed.
Definition wants6 (x : string) (sp : pspec) : Prop :=
  (x = "a" /\ sp = npm "a" (VVersion (v 1 0))) \/ (x = "x" /\ sp = npm "x" (VRange "^1.0.0")).
Lemma wanted6 x sp : wanted ex_parse (ex_deliver reg6) root6 x sp -> wants6 x sp.
Proof.
  induction 1 as [x sp t H|x sp p m' n y sp' t Hw IH Hd Hn Hy].
  - assert (Er : n_reqs root6 = [("a", (npm "a" (VVersion (v 1 0)), Prod)); ("x", (npm "x" (VRange "^1.0.0"), Prod))]) by reflexivity.
    rewrite Er in H. cbn [aget] in H. destruct (String.eqb_spec x "a") as [->|_]; [injection H as <- _; left; auto|].
    destruct (String.eqb_spec x "x") as [->|_]; [injection H as <- _; right; auto | discriminate].
  - destruct IH as [[-> ->]|[-> ->]]; unfold ex_deliver in Hd; vm_compute in Hd; injection Hd as -> ->; vm_compute in Hn; injection Hn as <-;
      cbn [aget n_reqs] in Hy;
      (destruct (String.eqb_spec y "x") as [->|_]; [injection Hy as <- _; right; auto|]) || idtac;
      (destruct (String.eqb_spec y "a") as [->|_]; [injection Hy as <- _; left; auto|]) || idtac; discriminate.
Qed.
Lemma compat6 : forall x sp sp' p m', wanted ex_parse (ex_deliver reg6) root6 x sp -> wanted ex_parse (ex_deliver reg6) root6 x sp' ->
  ex_deliver reg6 sp (Ok (p, m')) -> satisfies ex_rsat ex_canon (pk_resolved p) sp' = Ok true.
Proof.
  intros x sp sp' p m' H H' Hd. apply wanted6 in H. apply wanted6 in H'.
  destruct H as [[-> ->]|[-> ->]], H' as [[E ->]|[E ->]]; try discriminate;
    unfold ex_deliver in Hd; vm_compute in Hd; injection Hd as -> ->; reflexivity.
Qed.
Lemma same6 : forall x sp sp' p p' m1 m1', wanted ex_parse (ex_deliver reg6) root6 x sp -> wanted ex_parse (ex_deliver reg6) root6 x sp' ->
  ex_deliver reg6 sp (Ok (p, m1)) -> ex_deliver reg6 sp' (Ok (p', m1')) -> pk_resolved p = pk_resolved p' /\ m1 = m1'.
Proof.
  intros x sp sp' p p' m1 m1' H H' Hd Hd'. apply wanted6 in H. apply wanted6 in H'.
  destruct H as [[-> ->]|[-> ->]], H' as [[E ->]|[E ->]]; try discriminate;
    unfold ex_deliver in Hd, Hd'; rewrite <- Hd in Hd'; injection Hd' as -> ->; auto.
Qed.
Lemma finite6 : forall x sp, wanted ex_parse (ex_deliver reg6) root6 x sp -> In x ["a"; "x"].
Proof. intros x sp H. apply wanted6 in H. destruct H as [[-> _]|[-> _]]; cbn; auto. Qed.
Lemma bounded6 : forall x sp p m', wanted ex_parse (ex_deliver reg6) root6 x sp -> ex_deliver reg6 sp (Ok (p, m')) ->
  List.length (m_deps m' ++ m_opt m') <= 1.
Proof.
  intros x sp p m' H Hd. apply wanted6 in H. destruct H as [[-> ->]|[-> ->]]; unfold ex_deliver in Hd; vm_compute in Hd; injection Hd as -> ->; cbn; lia.
Qed.
Definition end6 : st := get (ex_run (init root6)
  [APop; AChunk 2 [rs reg6 (npm "a" (VVersion (v 1 0))); rs reg6 (npm "x" (VRange "^1.0.0"))]; APop; APop]) root6.
Example tree6 : tree_of (s_g end6) = [([], v 0 0); (["a"], v 1 0); (["x"], v 1 1)] /\ finished end6 = true.
Proof. vm_compute. auto. Qed.
Lemma end6_reach : ex_reach reg6 root6 end6.
Proof.
  apply ex_run_reach with (l := [APop; AChunk 2 [rs reg6 (npm "a" (VVersion (v 1 0))); rs reg6 (npm "x" (VRange "^1.0.0"))]; APop; APop]);
    [repeat constructor | vm_compute; reflexivity].
Qed.
(** the run of end5a is a barrier run: no answer is outstanding after any chunk *)
Fixpoint ex_run_b (s : st) (l : list action) : option st :=
  match l with
  | [] => Some s
  | a :: t => match ex_exec s a with
              | Some (Ok s') => match a, waiting s' with APop, _ | AChunk _ _, [] => ex_run_b s' t | _, _ => None end
              | _ => None
              end
  end.
Definition ex_barrier reg := reach_barrier ex_rsat ex_canon ex_parse unit (fun _ => []) (fun _ => no_deps) (fun _ => Ok None) (ex_deliver reg).
Lemma ex_run_barrier reg root l s' : Forall (honest reg) l -> ex_run_b (init root) l = Some s' -> ex_barrier reg root s'.
Proof.
  assert (G : forall l s s', ex_barrier reg root s -> Forall (honest reg) l -> ex_run_b s l = Some s' -> ex_barrier reg root s').
  { clear. induction l as [|a t IH]; cbn [ex_run_b]; intros s s' Hr Hh H; [injection H as <-; exact Hr|].
    inversion Hh; subst. destruct (ex_exec s a) as [[s1| |]|] eqn:E; try discriminate.
    destruct a as [|k l0].
    - eapply IH; [|eauto|exact H]. eapply rb_pop; [exact Hr | exact E].
    - destruct (waiting s1) eqn:W; [|discriminate]. eapply IH; [|eauto|exact H].
      eapply rb_chunk; [exact Hr | | exact E | exact W]. cbn in *; auto. }
  intros Hh H. eapply G; eauto. constructor.
Qed.
Lemma end5a_barrier : ex_barrier reg5 root5 end5a.
Proof. apply ex_run_barrier with (l := sched5 [x1; x2]); [repeat constructor | vm_compute; reflexivity]. Qed.
