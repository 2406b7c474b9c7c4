(** * C65, continued: what a successful rebuild says about the scripts that ran
    The scheduler (ScriptsModel, C11-C14) treats a script as something that ends well or ill; ScriptRun says what happens in one
    run. Here the two are put together. *)
From Verif Require Import Base Types ResolverModel ResolverProofs ResolverRun ScriptsModel ScriptsProofs ScriptsFacts PropsScripts.
From Verif Require ScriptRun ScriptRunProofs PropsScriptRun ScriptRunInv Utf8Spec.
Set Implicit Arguments.
Open Scope list_scope.

(** ending well, in the scheduler, is the one result [dep_script] gives for what happened in the package *)
Definition kind (a : ScriptRun.attempt) : job :=
  match a with ScriptRun.Unreadable => NoManifest | ScriptRun.NoScript => NoScript | _ => Script end.
Definition well (a : ScriptRun.attempt) : bool :=
  match a with ScriptRun.Ran ScriptRun.Success => true | _ => false end.
Theorem C65_same_result g (job_of : nat -> job) i a : job_of i = kind a ->
  job_result g job_of i (well a) = ScriptRun.dep_script (is_optional g i) a.
Proof. intro E. unfold job_result. rewrite E. destruct a as [| | |[]]; cbn; destruct (is_optional g i); reflexivity. Qed.

(** [run e i]: how the script of package [i] for event [e] ran: not at all ([None]: it could not be started) or up to the state [x] *)
Theorem C65_rebuild g has_path pending job_of limit cap
    (prog_of : event -> nat -> ScriptRun.prog) (exits : event -> nat -> bool) (run : event -> nat -> option ScriptRun.st) t :
  NoDup pending ->
  (forall e i x, run e i = Some x -> ScriptRun.reach cap (prog_of e i) (exits e i) x) ->
  (forall e i ok, In (Ended e i ok) t -> (ok = true <-> exists x, run e i = Some x /\ ScriptRun.returned x = Some ScriptRun.Success)) ->
  rebuild g has_path pending job_of limit false t Succeeded ->
  forall e i, In i pending -> job_of e i = Script -> required g i ->
  exists x, run e i = Some x /\ exits e i = true /\ ScriptRun.sh x = None /\ ScriptRun.bg x = []
    /\ forall s, ScriptRunProofs.Lines (ScriptRun.sent (ScriptRun.ch x s)) (ScriptRunInv.of s (ScriptRun.log x)).
Proof.
  intros ND HR HE HB e i Hi Hj Hq.
  assert (K : exists ok, In (Ended e i ok) t).
  { assert (H1 : times_ended e i t = 1) by (eapply C12_exactly_once; eassumption). unfold times_ended in H1.
    destruct (count_occ obs_dec t (Ended e i true)) eqn:E1.
    - exists false. apply (count_occ_In obs_dec). lia.
    - exists true. apply (count_occ_In obs_dec). lia. }
  destruct K as [[|] K].
  - destruct (proj1 (HE _ _ _ K) eq_refl) as (x & Ex & Er). exists x.
    pose proof (PropsScriptRun.C65_sound (HR _ _ _ Ex) Er) as (A & B & C & D).
    repeat split; auto. intro s. exact (proj2 (D s)).
  - assert (F : Succeeded = Failed) by (eapply C14_required_fails; eassumption). discriminate.
Qed.

(** ** Example: a whole rebuild of the tree of [C12_run], each of whose install scripts prints one line and exits with status 0 *)
Definition ph5 (e : event) := getsch (seqn g5 hp5 pend5 e (jobs5 e) (fun _ => true) 9 (sched_init hp5 pend5 pend5)).
Lemma ph5_runs e : runs g5 hp5 pend5 e (jobs5 e) 1 (ph5 e) /\ sc_status (ph5 e) = Succeeded.
Proof.
  split; [|destruct e; vm_compute; reflexivity].
  apply (seqn_runs g5 hp5 pend5 e (jobs5 e) (fun _ => true) 9). destruct e; vm_compute; reflexivity.
Qed.
Lemma ph5_ok e : phase_ok g5 hp5 pend5 jobs5 1 e (sc_trace (ph5 e)).
Proof. exists (ph5 e). split; [exact (proj1 (ph5_runs e))|split; [exact (proj2 (ph5_runs e))|reflexivity]]. Qed.
Definition t5 : list obs := sc_trace (ph5 PreInstall) ++ BinsLinked :: sc_trace (ph5 Install) ++ sc_trace (ph5 PostInstall).
Example C65_rebuild_nonvacuous : exists run : event -> nat -> option ScriptRun.st,
  rebuild g5 hp5 pend5 jobs5 1 false t5 Succeeded /\ NoDup pend5
  /\ (forall e i x, run e i = Some x -> ScriptRun.reach 1 PropsScriptRun.hi true x)
  /\ (forall e i ok, In (Ended e i ok) t5 -> (ok = true <-> exists x, run e i = Some x /\ ScriptRun.returned x = Some ScriptRun.Success))
  /\ In 3 pend5 /\ jobs5 Install 3 = Script /\ required g5 3.
Proof.
  destruct PropsScriptRun.ex_run as (x & R & Er & _). exists (fun _ _ => Some x).
  split; [|split; [repeat constructor; cbn; lia|split; [|split; [|split; [cbn; auto|split; [reflexivity|]]]]]].
  - unfold t5. apply (rb_post g5 hp5 pend5 jobs5 1 (sc_trace (ph5 PreInstall)) (sc_trace (ph5 Install)) (sc_trace (ph5 PostInstall)) Succeeded (ph5_ok PreInstall) (ph5_ok Install)).
    exists (ph5 PostInstall). split; [exact (proj1 (ph5_runs PostInstall))|split; [exact (proj2 (ph5_runs PostInstall))|reflexivity]].
  - intros e i y E. injection E as <-. exact R.
  - intros e i ok Hin. split; [intros _; exists x; split; [reflexivity|exact Er]|intros _].
    vm_compute in Hin. repeat (destruct Hin as [E|Hin]; [inversion E; reflexivity|]). destruct Hin.
  - apply required_spec. vm_compute. reflexivity.
Qed.

Print Assumptions C65_same_result.
Print Assumptions C65_rebuild.
