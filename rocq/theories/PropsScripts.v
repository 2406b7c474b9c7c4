(** * Properties C11-C14: install scripts during rebuild.
    Vocabulary: [rebuild g has_path pending job_of limit ignore t st]: some legal execution of a rebuild of the packages
    [pending] of tree [g] with at most [limit] scripts at a time (0: unlimited) has shown the observations [t] so far
    and has status [st] (Running / Succeeded / Failed); [job_of e i] is what package [i] has for event [e].
    [depends_on g i j]: i reaches j through dependencies; [required g i]: something depends on i non-optionally. *)
From Verif Require Import Base Types ResolverModel ResolverProofs ResolverRun ResolverExamples ScriptsModel ScriptsProofs ScriptsFacts.
From Coq Require Import Permutation.

Section World.
  Variable g : graph.
  Variable has_path : nat -> nat -> bool.
  Variable pending : list nat.
  Variable job_of : event -> nat -> job.
  Variable limit : nat.
  (** petgraph's reachability test is correct; the packages to rebuild are a set *)
  Hypothesis Hpath : forall a b, has_path a b = true <-> depends_on g a b.
  Hypothesis Hset : NoDup pending.
  Notation rebuild := (rebuild g has_path pending job_of limit).
  Notation sstep e := (sstep g has_path pending e (job_of e) limit).
  Notation runs e := (runs g has_path pending e (job_of e) limit).

  (** C11: when script [e] of package [i] starts, script [e] of every package it depends on has already ended (well, or
      ill but tolerated), every script of the earlier phases has ended, and bins are linked iff this is not preinstall. *)
  Theorem C11_order : forall ignore t st, rebuild ignore t st -> forall t1 t2 e i, t = t1 ++ Began e i :: t2 ->
    (forall j, In j pending -> j <> i -> depends_on g i j -> job_of e j = Script ->
       exists ok, In (Ended e j ok) t1 /\ (ok = true \/ is_optional g j = true))
    /\ (forall e' j, earlier e' e -> In j pending -> job_of e' j = Script -> exists ok, In (Ended e' j ok) t1)
    /\ (In BinsLinked t1 <-> e <> PreInstall).
  Proof. exact (order_all g has_path pending job_of limit Hpath Hset). Qed.

  (** C12: a successful rebuild has started and ended every script of the packages to rebuild exactly once ... *)
  Theorem C12_exactly_once : forall t, rebuild false t Succeeded -> forall e i, In i pending -> job_of e i = Script ->
    times_started e i t = 1 /\ times_ended e i t = 1.
  Proof. exact (exactly_once g has_path pending job_of limit Hset). Qed.
  (** ... and at any time no script has been started twice, none that should not run, and none if scripts are ignored. *)
  Theorem C12_at_most_once : forall ignore t st, rebuild ignore t st -> forall e i,
    times_started e i t <= 1 /\ times_ended e i t <= times_started e i t
    /\ (0 < times_started e i t -> ignore = false /\ In i pending /\ job_of e i = Script).
  Proof. exact (at_most_once g has_path pending job_of limit Hset). Qed.

  (** C13: no execution of a phase has more than 2|pending|+1 steps, cycles or not ... *)
  Theorem C13_bounded : forall e ord n s, Permutation ord pending ->
    ssteps g has_path pending e (job_of e) limit n (sched_init has_path pending ord) s -> n <= 2 * List.length pending + 1.
  Proof. exact (bounded g has_path pending job_of limit Hset). Qed.
  (** ... and it never gets stuck before returning when no two packages to rebuild depend on each other.
      Missing: dependency cycles among the packages to rebuild, where it hangs (C13_refuted). *)
  Theorem C13_no_hang_partial : (forall i j, In i pending -> In j pending -> depends_on g i j -> depends_on g j i -> i = j) ->
    forall e s, runs e s -> sc_status s = Running -> exists s', sstep e s s'.
  Proof. exact (fun Hac e s => no_hang g has_path pending job_of limit Hpath Hset e s Hac). Qed.
  (** with such a cycle no phase ever returns success *)
  Theorem C13_cycle_never_succeeds : forall e i j, In i pending -> In j pending -> i <> j -> depends_on g i j -> depends_on g j i ->
    forall s, runs e s -> sc_status s <> Succeeded.
  Proof. exact (cycle_hangs g has_path pending job_of limit Hpath Hset). Qed.

  (** C14: a failed script of a package that something requires fails the rebuild ... *)
  Theorem C14_required_fails : forall ignore t st e i, rebuild ignore t st -> In (Ended e i false) t -> required g i -> st = Failed.
  Proof. exact (fun ignore t st e i R Hin Hr => required_fails g has_path pending job_of limit Hset ignore t st e i R Hin (proj2 (required_spec g i) Hr)). Qed.
  (** ... and a rebuild only fails because of such a script, an unreadable package.json, or the bin links. *)
  Theorem C14_only_required_fails : forall ignore t, rebuild ignore t Failed ->
    (exists e i, In (Ended e i false) t /\ required g i) \/ (exists e i, In i pending /\ job_of e i = NoManifest)
    \/ (~ In BinsLinked t /\ (ignore = true \/ phase_ok g has_path pending job_of limit PreInstall t)).
  Proof.
    exact (fun ignore t R =>
      match failed_why g has_path pending job_of limit Hset ignore t R with
      | or_introl (ex_intro _ e (ex_intro _ i (conj H1 H2))) => or_introl (ex_intro _ e (ex_intro _ i (conj H1 (proj1 (required_spec g i) H2))))
      | or_intror H => or_intror H
      end).
  Qed.
End World.
Print Assumptions C11_order.
Print Assumptions C12_exactly_once.
Print Assumptions C12_at_most_once.
Print Assumptions C13_bounded.
Print Assumptions C13_no_hang_partial.
Print Assumptions C13_cycle_never_succeeds.
Print Assumptions C14_required_fails.
Print Assumptions C14_only_required_fails.

(** ** concrete cases *)
Fixpoint reachb (es : list edge) (k a b : nat) : bool :=
  Nat.eqb a b || match k with 0 => false | S k' => existsb (fun e => Nat.eqb (e_from e) a && reachb es k' (e_to e) b) es end.
Definition closed_check (es : list edge) (k : nat) : bool :=
  forallb (fun e => forallb (fun c => implb (reachb es k (e_to e) c) (reachb es k (e_from e) c)) (map e_to es)) es.
Lemma reachb_sound g k : forall a b, reachb (g_edges g) k a b = true -> depends_on g a b.
Proof.
  induction k as [|k IH]; cbn; intros a b H; apply orb_true_iff in H; destruct H as [H|H].
  - apply Nat.eqb_eq in H. subst. constructor.
  - discriminate.
  - apply Nat.eqb_eq in H. subst. constructor.
  - apply existsb_exists in H. destruct H as (e & Hin & E). apply andb_true_iff in E. destruct E as [E1 E2]. apply Nat.eqb_eq in E1.
    eapply dep_step; eauto.
Qed.
Lemma reachb_spec g k : closed_check (g_edges g) k = true -> forall a b, reachb (g_edges g) k a b = true <-> depends_on g a b.
Proof.
  intros Hc a b. split; [apply reachb_sound|]. induction 1 as [a|a b c e Hin <- <- H IH].
  - destruct k; cbn; now rewrite Nat.eqb_refl.
  - unfold closed_check in Hc. rewrite forallb_forall in Hc. specialize (Hc e Hin). rewrite forallb_forall in Hc.
    assert (Hcin : In c (map e_to (g_edges g))).
    { clear - Hin H. remember (e_to e) as b. revert e Hin Heqb. induction H as [b|b b' c e' Hin' E1 E2 H IH]; intros e Hin ->; [now apply in_map|].
      eapply IH; [exact Hin' | auto]. }
    specialize (Hc c Hcin). rewrite IH in Hc. exact Hc.
Qed.

(** the tree of reg5 (root needs a and b, a needs x 1.0.0, b needs x 2.0.0), all four packages with an install script *)
Definition g5 : graph := s_g end5a.
Definition hp5 := reachb (g_edges g5) 3.
Definition pend5 := [1; 2; 3; 4].
Definition jobs5 (e : event) (i : nat) : job := match e with Install => Script | _ => NoScript end.
Example C11_C14_nonvacuous : (forall a b, hp5 a b = true <-> depends_on g5 a b) /\ NoDup pend5
  /\ (forall i j, In i pend5 -> In j pend5 -> depends_on g5 i j -> depends_on g5 j i -> i = j)
  /\ depends_on g5 1 3 /\ required g5 3 /\ dependencies hp5 pend5 2 = [4].
Proof.
  assert (H : forall a b, hp5 a b = true <-> depends_on g5 a b) by (apply reachb_spec; vm_compute; reflexivity).
  split; [exact H|]. split; [repeat constructor; cbn; lia|]. split; [|split; [apply H; vm_compute; reflexivity|split; [|vm_compute; reflexivity]]].
  - intros i j Hi Hj H1 H2. apply H in H1, H2. cbn in Hi, Hj.
    repeat match goal with H : _ \/ _ |- _ => destruct H as [<-|H] | H : False |- _ => destruct H end; vm_compute in H1, H2; try reflexivity; try discriminate.
  - apply required_spec. vm_compute. reflexivity.
Qed.

(** executing one script at a time; [ok] says which scripts end well *)
Section Seq.
  Variables (g : graph) (hp : nat -> nat -> bool) (pe : list nat) (e : event) (jo : nat -> job) (ok : nat -> bool).
  Definition seq1 (s : sched) : option sched :=
    match s with
    | mkSched q [i] rem cl Running d t =>
        let '(rem', sent) := unblock i (dependents hp pe i) rem in
        Some (mkSched (q ++ sent) [] rem' (cl || match rem' with [] => true | _ => false end)
          (if (cl && match sent with [] => false | _ => true end) || negb (job_result g jo i (ok i)) then Failed else Running)
          (d ++ [i]) (t ++ match jo i with Script => [Ended e i (ok i)] | _ => [] end))
    | mkSched (i :: q) [] rem cl Running d t => Some (mkSched q [i] rem cl Running d (t ++ match jo i with Script => [Began e i] | _ => [] end))
    | mkSched [] [] rem true Running d t => Some (mkSched [] [] rem true Succeeded d t)
    | _ => None
    end.
  Lemma seq1_step s s' : seq1 s = Some s' -> sstep g hp pe e jo 1 s s'.
  Proof.
    destruct s as [q r rem cl st d t]. unfold seq1. destruct r as [|i [|? ?]].
    - destruct q as [|i q].
      + destruct cl, st; try discriminate. intros E. injection E as <-. constructor.
      + destruct st; try discriminate. intros E. injection E as <-. apply (s_start g hp pe e jo 1 q i [] rem cl d t). right. cbn. lia.
    - destruct st; try (destruct q; discriminate). destruct (unblock i (dependents hp pe i) rem) as [rem' sent] eqn:Eu.
      intros E. pose proof (s_finish g hp pe e jo 1 q [] i [] rem cl d t (ok i) (dependents hp pe i) rem' sent (Permutation_refl _) Eu) as S.
      destruct q as [|q0 q]; injection E as <-; exact S.
    - destruct q; destruct st; discriminate.
  Qed.
  Fixpoint seqn (n : nat) (s : sched) : option sched := match n with 0 => Some s | S n' => match seqn n' s with Some s' => seq1 s' | None => None end end.
  Lemma seqn_runs n s : seqn n (sched_init hp pe pe) = Some s -> runs g hp pe e jo 1 s.
  Proof.
    intros H. exists pe, n. split; [apply Permutation_refl|]. revert s H. induction n as [|n IH]; cbn; intros s H; [injection H as <-; constructor|].
    destruct (seqn n (sched_init hp pe pe)) as [s1|]; [|discriminate]. econstructor; [apply IH; reflexivity | now apply seq1_step].
  Qed.
End Seq.
Definition getsch (o : option sched) : sched := match o with Some s => s | None => mkSched [] [] [] false Running [] [] end.
Definition run5 := getsch (seqn g5 hp5 pend5 Install (jobs5 Install) (fun _ => true) 9 (sched_init hp5 pend5 pend5)).
Example C12_run : runs g5 hp5 pend5 Install (jobs5 Install) 1 run5 /\ sc_status run5 = Succeeded /\ sc_trace run5 =
  [Began Install 3; Ended Install 3 true; Began Install 4; Ended Install 4 true; Began Install 1; Ended Install 1 true; Began Install 2; Ended Install 2 true].
Proof.
  split; [|split; vm_compute; reflexivity]. apply (seqn_runs g5 hp5 pend5 Install (jobs5 Install) (fun _ => true) 9). vm_compute. reflexivity.
Qed.
(** x 1.0.0 fails: the packages depending on it are not started *)
Definition run5f := getsch (seqn g5 hp5 pend5 Install (jobs5 Install) (fun i => negb (Nat.eqb i 3)) 2 (sched_init hp5 pend5 pend5)).
Example C14_failing_run : runs g5 hp5 pend5 Install (jobs5 Install) 1 run5f /\ sc_status run5f = Failed /\ sc_trace run5f = [Began Install 3; Ended Install 3 false].
Proof.
  split; [|split; vm_compute; reflexivity]. apply (seqn_runs g5 hp5 pend5 Install (jobs5 Install) (fun i => negb (Nat.eqb i 3)) 2). vm_compute. reflexivity.
Qed.

(** C13 is false with dependency cycles: packages a and x of this tree need each other; run_scripts starts neither script
    and never returns, whatever the concurrency limit. *)
Lemma pair_stuck g hp i j e jo li : (forall a b, hp a b = true <-> depends_on g a b) -> i <> j -> depends_on g i j -> depends_on g j i ->
  forall s, runs g hp [i; j] e jo li s -> sc_status s = Running /\ sc_trace s = [] /\ ~ exists s', sstep g hp [i; j] e jo li s s'.
Proof.
  intros Hp Hne H1 H2 s (ord & n & Ho & H).
  assert (Hinit : sc_queue (sched_init hp [i; j] ord) = [] /\ sc_closed (sched_init hp [i; j] ord) = false).
  { assert (Hq : forall k, In k ord -> dependencies hp [i; j] k <> []).
    { intros k Hk. apply (Permutation_in _ Ho) in Hk. destruct Hk as [<-|[<-|[]]]; intros E.
      - assert (Hin : In j (dependencies hp [i; j] i)) by (apply (dependencies_in hp [i; j] jo li); split; [right; now left|]; split; [auto | now apply Hp]). rewrite E in Hin. destruct Hin.
      - assert (Hin : In i (dependencies hp [i; j] j)) by (apply (dependencies_in hp [i; j] jo li); split; [now left|]; split; [auto | now apply Hp]). rewrite E in Hin. destruct Hin. }
    unfold sched_init. cbn [sc_queue sc_closed]. destruct ord as [|k l]; [apply Permutation_nil in Ho; discriminate|]. split.
    - clear Ho H. induction (k :: l) as [|a m IH]; [reflexivity|]. cbn [filter]. destruct (dependencies hp [i; j] a) eqn:E; [exfalso; apply (Hq a); [now left | auto]|].
      apply IH. intros; apply Hq; now right.
    - cbn [filter]. destruct (dependencies hp [i; j] k) eqn:E; [exfalso; apply (Hq k); [now left | auto] | reflexivity]. }
  assert (Hst : forall s1, sstep g hp [i; j] e jo li (sched_init hp [i; j] ord) s1 -> False).
  { unfold sched_init in *. cbn [sc_queue sc_closed] in Hinit. destruct Hinit as [Hq Hc]. intros s1 Hs. rewrite Hq, Hc in Hs. inversion Hs. destruct r1; discriminate. }
  remember (sched_init hp [i; j] ord) as s0. induction H as [s|n s s' s'' H IH Hs]; subst.
  - split; [reflexivity|]. split; [reflexivity|]. intros [s' Hs]. eauto.
  - exfalso. destruct (IH eq_refl Hinit Hst) as (_ & _ & Hno). apply Hno. eauto.
Qed.
Definition g6 : graph := s_g end6.
Theorem C13_refuted : exists reg root s m,
  new_node ex_parse "root"%string root_pkg m true = Ok root /\ ex_reach reg root s /\ finished s = true /\
  forall hp, (forall a b, hp a b = true <-> depends_on (s_g s) a b) -> forall e jo limit s', runs (s_g s) hp [1; 2] e jo limit s' ->
    sc_status s' = Running /\ sc_trace s' = [] /\ ~ exists s'', sstep (s_g s) hp [1; 2] e jo limit s' s''.
Proof.
  exists reg6, root6, end6, man6. split; [exact root6_new|]. split; [exact end6_reach|]. split; [reflexivity|].
  intros hp Hp e jo limit. apply pair_stuck; auto.
  - apply (reachb_sound (s_g end6) 3). vm_compute. reflexivity.
  - apply (reachb_sound (s_g end6) 3). vm_compute. reflexivity.
Qed.
Print Assumptions C13_refuted.

(** C14, read transitively, is false: the only way from the root to package 2 is an optional dependency (on 1), yet the
    failure of 2's script fails the rebuild. *)
Definition g14 : graph := mkGraph
  [mkNode "root" root_pkg None [("a", 1); ("b", 2)] [("a", 0)] [("a", (npm "a" (VVersion (v 1 0)), Opt))];
   mkNode "a" root_pkg (Some 0) [] [("b", 1)] [("b", (npm "b" (VVersion (v 1 0)), Prod))];
   mkNode "b" root_pkg (Some 0) [] [] []]%string
  [mkEdge 0 1 (npm "a" (VVersion (v 1 0))) Opt; mkEdge 1 2 (npm "b" (VVersion (v 1 0))) Prod]%string.
Theorem C14_transitive_refuted : exists s, runs g14 (reachb (g_edges g14) 2) [2] Install (fun _ => Script) 1 s
  /\ sc_status s = Failed /\ sc_trace s = [Began Install 2; Ended Install 2 false]
  /\ (forall e, In e (g_edges g14) -> e_from e = 0 -> e_type e = Opt).
Proof.
  exists (getsch (seqn g14 (reachb (g_edges g14) 2) [2] Install (fun _ => Script) (fun _ => false) 2 (sched_init (reachb (g_edges g14) 2) [2] [2]))).
  split; [|split; [vm_compute; reflexivity|split; [vm_compute; reflexivity|]]].
  - apply (seqn_runs g14 _ [2] Install (fun _ => Script) (fun _ => false) 2). vm_compute. reflexivity.
  - intros e [<-|[<-|[]]]; cbn; [reflexivity | discriminate].
Qed.
Print Assumptions C14_transitive_refuted.
