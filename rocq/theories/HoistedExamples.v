(** * Concrete trees and runs of the hoisted linker *)
From Verif Require Import Base Types ResolverModel ResolverProofs ResolverRun ResolverSpec ResolverThms ResolverSteps ResolverFacts
  LockfileModel LockfileGraph PathLookup Fs FsRun HoistedModel HoistedSpec HoistedProofs HoistedThms ResolverExamples.
Open Scope string_scope.
Open Scope list_scope.

Definition digit (n : N) : string := String (Ascii.ascii_of_N (48 + n)) "".
Definition ex_text (r : resolution) : string := match r with RNpm _ x _ _ => digit (v_major x) ++ "." ++ digit (v_minor x) | _ => "" end.
(** each package: a package.json and a file in a subdirectory *)
Definition ex_contents (r : resolution) : list (path * string) := [(["package.json"], ex_text r); (["lib"; "index.js"], ex_text r)].
Lemma ex_plain : plain_contents ex_contents.
Proof.
  intros r f b [H|[H|[]]]; injection H as <- <-; (split; [discriminate|]; split; [discriminate|]);
    intros f' b' [H|[H|[]]] [z Hz]; injection H as <- <-; try discriminate; auto.
Qed.
Definition ex_requested (s : pspec) : string := match s with SNpm _ _ (Some (VTag t)) => t | SNpm _ _ (Some (VVersion x)) => digit (v_major x) ++ "." ++ digit (v_minor x) | _ => "*" end.
Definition ex_gitshow (i : gitinfo) : string := "".
Definition ex_lock (g : graph) : list (string * lnode) := match to_lockfile ex_requested ex_gitshow g with Ok lf => lf_packages lf | _ => [] end.
Definition ex_hsteps f m g := hsteps ex_requested ex_gitshow ex_contents f m g (ex_lock g).
Definition empty_fs : fs := fun _ => None.
Definition ex_doomed := doomed ex_requested ex_gitshow.
Definition ex_orun f m g supp ops := orun _ (ex_doomed f m g) (wipes f m) (hinsts ex_contents g) (ex_lock g) supp (mkW _ f m Pruning) ops.
Definition getw {M} (o : option (world M)) : world M := match o with Some w => w | None => mkW _ empty_fs None Pruning end.
Lemma ex_orun_sound f m g supp ops w : (forall q, f q <> None -> In q supp) -> ex_orun f m g supp ops = Some w -> ex_hsteps f m g w.
Proof. intros H E. unfold ex_hsteps, hsteps. eapply orun_sound; [|exact E]. exact H. Qed.
Definition supp_h (g : graph) : list path := supp_of (hinsts ex_contents g).
Lemma ex_supp f m g w supp : (forall q, f q <> None -> In q supp) -> ex_hsteps f m g w -> forall q, w_fs _ w q <> None -> In q (supp ++ supp_h g).
Proof. intros H S. eapply wsteps_supp; [exact H | exact S]. Qed.
(** a whole first install of a tree, one package after the other *)
Definition fresh_ops (g : graph) : list op :=
  OPruned :: flat_map (fun i => OStart :: map (fun _ => OPut 0) (items i)) (hinsts ex_contents g) ++ [ODone].
Definition fresh (g : graph) : world (list (string * lnode)) := getw (ex_orun empty_fs None g [] (fresh_ops g)).

Definition isSome {A} (o : option A) : bool := match o with Some _ => true | None => false end.
Lemma isSome_getw M (o : option (world M)) : isSome o = true -> o = Some (getw o).
Proof. destruct o; [reflexivity | discriminate]. Qed.
Definition ready (g : graph) : Prop := isSome (ex_orun empty_fs None g [] (fresh_ops g)) = true.
Lemma fresh_run g : ready g -> ex_hsteps empty_fs None g (fresh g).
Proof. intros H. eapply ex_orun_sound; [|exact (isSome_getw _ _ H)]. intros q Hq. destruct (Hq eq_refl). Qed.
Lemma fresh_supp g : ready g -> forall q, w_fs _ (fresh g) q <> None -> In q (supp_h g).
Proof. intros H. apply (ex_supp empty_fs None g (fresh g) []); [intros q Hq; destruct (Hq eq_refl) | now apply fresh_run]. Qed.

(** ** trees *)
Definition fetched (reg : registry) (name : string) (r : vspec) := rs reg (npm name r).
(** one dependency, from registry [reg] *)
Definition one (reg : registry) (name spec : string) (r : vspec) : st :=
  get (ex_run (init (mk_root (man [(name, spec)]))) [APop; AChunk 1 [rs reg (npm name r)]; APop]) (mk_root (man [(name, spec)])).
Definition reg7 : registry := [("foo", [(v 2 0, no_deps); (v 1 0, no_deps)]); ("@s/y", [(v 1 0, no_deps)])].
Definition foo1 := one reg7 "foo" "1.0.0" (VVersion (v 1 0)).
Definition foo2 := one reg7 "foo" "2.0.0" (VVersion (v 2 0)).
Definition scoped := one reg7 "@s/y" "1.0.0" (VVersion (v 1 0)).
Lemma one_reach reg name spec r : ex_run (init (mk_root (man [(name, spec)]))) [APop; AChunk 1 [rs reg (npm name r)]; APop] <> None ->
  ex_reach reg (mk_root (man [(name, spec)])) (one reg name spec r).
Proof.
  intros H. unfold one. destruct (ex_run _ _) as [s|] eqn:E; [|congruence]. cbn [get]. eapply ex_run_reach; [|exact E]. repeat constructor.
Qed.
Definition reg8 (newest : version) : registry :=
  [("a", [(v 1 0, man [("x", "latest")])]); ("x", [(newest, no_deps); (v 1 0, no_deps)])].
Definition man8 := man [("a", "1.0.0"); ("x", "1.0.0")].
Definition root8 := mk_root man8.
Definition sched8 (n : version) : list action :=
  [APop; AChunk 2 [rs (reg8 n) (npm "a" (VVersion (v 1 0))); rs (reg8 n) (npm "x" (VVersion (v 1 0)))]; APop; APop;
   AChunk 1 [rs (reg8 n) (npm "x" (VTag "latest"))]; APop].
Definition end8 (n : version) : st := get (ex_run (init root8) (sched8 n)) root8.
Lemma end8_reach n : ex_run (init root8) (sched8 n) <> None -> ex_reach (reg8 n) root8 (end8 n).
Proof. intros H. unfold end8. destruct (ex_run _ _) as [s|] eqn:E; [|congruence]. cbn [get]. eapply ex_run_reach; [|exact E]. repeat constructor. Qed.
Example end8_tree : tree_of (s_g (end8 (v 1 1))) = [([], v 0 0); (["a"], v 1 0); (["x"], v 1 0); (["a"; "x"], v 1 1)]
  /\ tree_of (s_g (end8 (v 2 0))) = [([], v 0 0); (["a"], v 1 0); (["x"], v 1 0); (["a"; "x"], v 2 0)].
Proof. vm_compute. auto. Qed.
Example ready8 : ready (s_g (end8 (v 1 1))). Proof. vm_compute. reflexivity. Qed.
