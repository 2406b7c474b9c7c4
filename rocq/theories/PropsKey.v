(** * Property C09, continued: what the restriction to valid package names in C09_one_entry_per_package leaves out.
    A dependency name is not checked when package.json is read (graph.rs:90 prepends it to the text of the request), so a name
    may itself contain "/node_modules/". *)
From Verif Require Import Base Types Kdl StdPath SpecModel SpecSpec PropsSpec
  ResolverModel ResolverProofs ResolverRun ResolverSpec ResolverThms ResolverSteps ResolverExamples
  LockfileModel LockfileSpec LockfileProofs LockfileGraph LockfileFacts LockfileReplay LockfileView PropsReplay PropsRequested.
Open Scope list_scope.
Open Scope string_scope.

(** the project: b from the registry, and the directories ./a@x and ./a/node_modules/b@x *)
Definition man9 : manifest := man [("b", "2.0.0"); ("./a", "x"); ("./a/node_modules/b", "x")].
Definition parse9 (x t : string) : res err pspec := parse7 (x ++ "@" ++ t).
(** directories are read from disk (package.json of ./a@x depends on b 1.0.0), the rest comes from the registry *)
Definition reg9 : registry := [("b", [(v 2 0, no_deps); (v 1 0, no_deps)])].
Definition answer9 (s : pspec) : outcome :=
  match s with
  | SDir "./a@x" => Ok (mkPkg "a" s (RDir "a" "/p/a@x"), man [("b", "1.0.0")])
  | SDir "./a/node_modules/b@x" => Ok (mkPkg "b" s (RDir "b" "/p/a/node_modules/b@x"), no_deps)
  | _ => answer6 reg9 s
  end.
Definition deliver9 (s : pspec) (o : outcome) : Prop := o = answer9 s.
Definition reach9 := reach ex_rsat ex_canon parse9 lnode entry_path lnode_manifest topkg7 deliver9 None.
Definition exec9 := exec ex_rsat ex_canon parse9 lnode entry_path lnode_manifest topkg7 None.
Fixpoint run9 (s : st) (l : list action) : option st :=
  match l with [] => Some s | a :: t => match exec9 s a with Some (Ok s') => run9 s' t | _ => None end end.
Definition honest9 (a : action) : Prop :=
  match a with APop => True | AChunk _ l => Forall (fun r => snd r = answer9 (fst r)) l end.
Lemma run9_reach root l s' : Forall honest9 l -> run9 (init root) l = Some s' -> reach9 root s'.
Proof.
  assert (G : forall l s s', reach9 root s -> Forall honest9 l -> run9 s l = Some s' -> reach9 root s').
  { clear. induction l as [|a t IH]; cbn; intros s s' Hr Hh H; [inversion H; now subst|].
    inversion Hh; subst. destruct (exec9 s a) as [[s1| |]|] eqn:E; try discriminate H.
    eapply IH; [|eauto|eauto]. econstructor; [exact Hr | | exact E]. destruct a; cbn in *; auto. }
  intros Hh H. eapply G; eauto. constructor.
Qed.
Definition root9 : node := match new_node parse9 "root" root_pkg man9 true with Ok n => n | _ => mkNode "" root_pkg None [] [] [] end.
Definition rs9 (s : pspec) : pspec * outcome := (s, answer9 s).
Definition sched9 : list action :=
  [APop; AChunk 3 [rs9 (npm "b" (VVersion (v 2 0))); rs9 (SDir "./a@x"); rs9 (SDir "./a/node_modules/b@x")]; APop; APop; APop;
   AChunk 1 [rs9 (npm "b" (VVersion (v 1 0)))]; APop].
Definition end9 : st := get (run9 (init root9) sched9) root9.

(** C09 is false for such names: a finished tree with four packages below the project, of which the lockfile names three;
    nothing in it is about the directory ./a/node_modules/b@x, which the project depends on: its entry is the one of b 1.0.0,
    which ./a@x depends on and which is installed below it. *)
Theorem C09_refuted : new_node parse9 "root" root_pkg man9 true = Ok root9 /\ exists s lf, reach9 root9 s /\ finished s = true
  /\ to_lockfile (requested vshow6 (fun _ => "")) (show_git (fun _ => "")) (s_g s) = Ok lf
  /\ tree_src (s_g s) ["./a"; "b"] (RNpm "b" (v 1 0) "https://r/b-1.0.0" (Some "sha512-x"))
  /\ tree_src (s_g s) ["./a/node_modules/b"] (RDir "b" "/p/a/node_modules/b@x")
  /\ size (s_g s) - 1 = 4 /\ List.length (lf_packages lf) = 3
  /\ forall k ln, In (k, ln) (lf_packages lf) -> l_resolved ln <> Some "/p/a/node_modules/b@x".
Proof.
  split; [vm_compute; reflexivity|]. exists end9. eexists. split; [apply run9_reach with (l := sched9); [repeat constructor|vm_compute; reflexivity]|].
  split; [vm_compute; reflexivity|]. split; [vm_compute; reflexivity|]. split; [|split; [|split; [vm_compute; reflexivity|split; [reflexivity|]]]].
  - eexists. split; [exists 4; eexists; split; [|split; [vm_compute; reflexivity|reflexivity]]|vm_compute; reflexivity].
    change ["./a"; "b"] with ((([] ++ ["./a"]) ++ ["b"])%list : list string). apply (at_child (s_g end9) 2); [|vm_compute; reflexivity]. apply (at_child (s_g end9) 0); [constructor|vm_compute; reflexivity].
  - eexists. split; [exists 3; eexists; split; [|split; [vm_compute; reflexivity|reflexivity]]|vm_compute; reflexivity].
    apply (at_child (s_g end9) 0 []); [constructor|vm_compute; reflexivity].
  - cbn [lf_packages In]. intros k ln [H|[H|[H|[]]]]; injection H as <- <-; intros Y; discriminate Y.
Qed.
Print Assumptions C09_refuted.
