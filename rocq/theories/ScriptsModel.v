(** * Install scripts: crates/node-maintainer/src/linkers/mod.rs [rebuild], [run_scripts], [run_dep_script]. *)
From Verif Require Import Base Types ResolverModel.
From Coq Require Import Permutation.

(** crates/node-maintainer/src/graph.rs:170-178 [is_optional]: every incoming edge is an optional one *)
Definition is_optional (g : graph) (i : nat) : bool :=
  forallb (fun e => negb (Nat.eqb (e_to e) i) || deptype_eqb (e_type e) Opt) (g_edges g).

(** what [run_dep_script] (linkers/mod.rs:246-360) finds in the package directory for an event: no readable
    package.json (the error of lines 266-269), no script for the event, or a script *)
Inductive job := NoManifest | NoScript | Script.

(** what an observer sees: a script of package [i] is started; it ended, well or not; the bins were linked *)
Inductive event := PreInstall | Install | PostInstall.
Inductive obs := Began (e : event) (i : nat) | Ended (e : event) (i : nat) (ok : bool) | BinsLinked.

Inductive status := Running | Succeeded | Failed.

Section Run.
  Variable g : graph.
  (** petgraph::algo::has_path_connecting *)
  Variable has_path : nat -> nat -> bool.
  (** the set of packages to rebuild (a HashSet, in any order), the event, and [opts.script_concurrency] *)
  Variable pending : list nat.
  Variable ev : event.
  Variable job_of : nat -> job.
  Variable limit : nat.

  (** linkers/mod.rs:160-174 *)
  Definition dependencies (i : nat) : list nat := filter (fun d => negb (Nat.eqb d i) && has_path i d) pending.
  (** linkers/mod.rs:175-190 *)
  Definition dependents (i : nat) : list nat := filter (fun d => negb (Nat.eqb d i) && has_path d i) pending.

  (** the shared state of linkers/mod.rs:191-239. [sc_done] is not in the code: the packages whose future completed. *)
  Record sched := mkSched {
    sc_queue : list nat;                       (* the channel, oldest first *)
    sc_running : list nat;                     (* futures started by try_for_each_concurrent *)
    sc_remaining : list (nat * list nat);      (* the [remaining] map *)
    sc_closed : bool;
    sc_status : status;
    sc_done : list nat;
    sc_trace : list obs }.

  (** linkers/mod.rs:191-204: packages without dependencies are sent, the others recorded; close when none remain.
      [ord] is the iteration order of the HashMap. *)
  Definition sched_init (ord : list nat) : sched :=
    let ready i := match dependencies i with [] => true | _ => false end in
    let rem := map (fun i => (i, dependencies i)) (filter (fun i => negb (ready i)) ord) in
    mkSched (filter ready ord) [] rem (match rem with [] => true | _ => false end) Running [] [].

  (** linkers/mod.rs:215-229: package [i] completed; [ord] lists its dependents in the iteration order of the HashSet *)
  Definition unblock1 (i : nat) (acc : list (nat * list nat) * list nat) (d : nat) : list (nat * list nat) * list nat :=
    let '(rem, sent) := acc in
    match aget Nat.eqb d rem with
    | Some ds =>
        let ds' := filter (fun x => negb (Nat.eqb x i)) ds in
        match ds' with
        | [] => (adel Nat.eqb d rem, sent ++ [d])
        | _ => (aput Nat.eqb d ds' rem, sent)
        end
    | None => (rem, sent)
    end.
  Definition unblock (i : nat) (ord : list nat) (rem : list (nat * list nat)) : list (nat * list nat) * list nat :=
    fold_left (unblock1 i) ord (rem, []).

  (** linkers/mod.rs:246-360 [run_dep_script]: its result when the script (if any) ends with [ok]; a failing
      script (spawning it, reading its output, or its exit status) is ignored for optional packages *)
  Definition job_result (i : nat) (ok : bool) : bool :=
    match job_of i with
    | NoManifest => false
    | NoScript => true
    | Script => ok || is_optional g i
    end.

  (** futures: try_for_each_concurrent ([limit] 0 means no limit) over the receiver; a failing future ends the
      whole call, dropping the others.  Each future's critical section (under the lock) is one step. *)
  Inductive sstep : sched -> sched -> Prop :=
  | s_start q i r rem cl d t :
      (limit = 0 \/ List.length r < limit) ->
      sstep (mkSched (i :: q) r rem cl Running d t)
            (mkSched q (r ++ [i]) rem cl Running d (t ++ match job_of i with Script => [Began ev i] | _ => [] end))
  | s_finish q r1 i r2 rem cl d t ok ord rem' sent :
      Permutation ord (dependents i) -> unblock i ord rem = (rem', sent) ->
      sstep (mkSched q (r1 ++ i :: r2) rem cl Running d t)
            (mkSched (q ++ sent) (r1 ++ r2) rem' (cl || match rem' with [] => true | _ => false end)
               (* sending on a closed channel is an error (line 227-231) *)
               (if (cl && match sent with [] => false | _ => true end) || negb (job_result i ok) then Failed else Running)
               (d ++ [i]) (t ++ match job_of i with Script => [Ended ev i ok] | _ => [] end))
  | s_end rem d t : sstep (mkSched [] [] rem true Running d t) (mkSched [] [] rem true Succeeded d t).

  (** [ssteps n s s']: n steps *)
  Inductive ssteps : nat -> sched -> sched -> Prop :=
  | ss_0 s : ssteps 0 s s
  | ss_S n s s' s'' : ssteps n s s' -> sstep s' s'' -> ssteps (S n) s s''.
  (** states of a call of run_scripts *)
  Definition runs (s : sched) : Prop := exists ord n, Permutation ord pending /\ ssteps n (sched_init ord) s.
End Run.

Section Rebuild.
  Variable g : graph.
  Variable has_path : nat -> nat -> bool.
  Variable pending : list nat.
  Variable job_of : event -> nat -> job.
  Variable limit : nat.
  Notation runs e := (runs g has_path pending e (job_of e) limit).
  (** a call of run_scripts that succeeded / that is at some point of its execution *)
  Definition phase_ok (e : event) (t : list obs) : Prop := exists s, runs e s /\ sc_status s = Succeeded /\ sc_trace s = t.
  Definition phase_at (e : event) (t : list obs) (st : status) : Prop := exists s, runs e s /\ sc_status s = st /\ sc_trace s = t.
  (** linkers/mod.rs:102-123 [rebuild]: what has been observed at some point, and whether it has returned.
      [link_bins] (line 112) is one step that may fail. *)
  Inductive rebuild : bool -> list obs -> status -> Prop :=
  | rb_pre t st : phase_at PreInstall t st -> st <> Succeeded -> rebuild false t st
  | rb_bins_failed t : phase_ok PreInstall t -> rebuild false t Failed
  | rb_install t t' st : phase_ok PreInstall t -> phase_at Install t' st -> st <> Succeeded -> rebuild false (t ++ BinsLinked :: t') st
  | rb_post t t' t'' st : phase_ok PreInstall t -> phase_ok Install t' -> phase_at PostInstall t'' st ->
      rebuild false (t ++ BinsLinked :: t' ++ t'') st
  | rb_ignore_failed : rebuild true [] Failed
  | rb_ignore : rebuild true [BinsLinked] Succeeded.
End Rebuild.
