(** * C65: a script's outcome is its exit status, its output is passed on line by line, and it cannot hang on its output *)
From Verif Require Import Base ScriptRun ScriptRunProofs Utf8Spec ScriptRunInv.
Set Implicit Arguments.
Open Scope list_scope.

(** what a script that starts no background process writes to a stream *)
Definition writes (s : stream) (p : prog) : bytes := flat_map (fun a => match a with AWrite t b => if same s t then [b] else [] | AFork _ => [] end) p.
Definition plain (p : prog) : Prop := Forall (fun a => match a with AWrite _ _ => True | AFork _ => False end) p.

(** [Lines b ls] (ScriptRunProofs): the lines of [b] are [ls]; every text has exactly one reading as lines. *)
Theorem C65_lines_defined b : exists ls, Lines b ls /\ forall ls', Lines b ls' -> ls' = ls.
Proof.
  destruct (@lines_total (List.length b) b (le_n _)) as [ls H]. exists ls. split; [assumption|]. intros ls' H'. eapply lines_fun; eassumption.
Qed.

Section Thms.
  Variable cap : nat.
  Hypothesis room : 0 < cap.
  Variable p : prog.
  Variable e : bool.
  Notation reach := (reach cap p e).
  Notation step := (step cap).

  (** Success is reported only for a script that succeeded, when it and every process it started have ended, and then the lines
      passed on are those of everything written to the stream, in order. The other outcomes have their cause. *)
  Theorem C65_sound x o : reach x -> returned x = Some o ->
    match o with
    | Success => e = true /\ sh x = None /\ bg x = [] /\ forall s, Utf8 (sent (ch x s)) /\ Lines (sent (ch x s)) (of s (log x))
    | BadStatus => status x = Some false /\ (e = false \/ exists s, ~ Utf8 (sent (ch x s)))
    | BadLine => exists s, ~ Utf8 (sent (ch x s))
    end.
  Proof.
    intros R Ro. pose proof (reach_inv R) as I. pose proof (i_ret I Ro) as J.
    assert (B : forall s, task (ch x s) = Broken -> ~ Utf8 (sent (ch x s))).
    { intros s T U. apply utf8_ok_spec in U. destruct (chan_broken (i_chan I s) T). congruence. }
    destruct o; cbn in J.
    - destruct J as (D1 & D2 & W). pose proof (i_wait I W) as St.
      assert (D : forall s, task (ch x s) = Done) by (intros []; assumption).
      assert (A : alive x = false).
      { destruct (i_chan I SOut) as [(d & _ & _ & _ & K)|(K & _)]; [|assumption]. now rewrite D1 in K. }
      assert (E : true = e) by (destruct (i_exit I St) as [E|[E _]]; [exact E|discriminate]).
      unfold alive in A. destruct (sh x) eqn:Es; [discriminate|]. destruct (bg x) eqn:Eb; [|discriminate].
      repeat split; try (symmetry; assumption); destruct (i_chan I s) as [(d & _ & _ & _ & K)|(_ & _ & _ & L & U)];
        try (rewrite D in K; contradiction); [now apply utf8_ok_spec|assumption].
    - pose proof (i_wait I J) as St. split; [assumption|]. destruct (i_exit I St) as [E|[_ [s T]]]; [left; now symmetry|right; eauto].
    - destruct J as [T|T]; eauto.
  Qed.

  (** At every moment of every run, what has been passed on is the beginning of the lines of what has been written. *)
  Theorem C65_order x s : reach x -> exists later, Lines (sent (ch x s)) (of s (log x) ++ later).
  Proof.
    intros R. pose proof (reach_inv R) as I. destruct (i_chan I s) as [(d & Sd & L & _ & K)|(_ & _ & _ & L & _)]; [|exists []; now rewrite app_nil_r].
    assert (exists r, sent (ch x s) = d ++ r) as [r ->] by (destruct (task (ch x s)); [eauto|contradiction|destruct K as (l & r & -> & _); eauto]).
    destruct (@lines_total (List.length r) r (le_n _)) as [ls H]. exists ls. now apply lines_app.
  Qed.

  (** Nothing hangs: until the outcome is known something can happen, whatever was written where, and every run is finite. *)
  Theorem C65_returns : (forall x, reach x -> (forall y, ~ step x y) -> exists o, returned x = Some o)
    /\ (forall x, Acc (fun b a => step a b) x).
  Proof.
    split.
    - intros x R N. destruct (returned x) eqn:E; [eauto|]. destruct (progress room (reach_inv R) E) as [y H]. now apply N in H.
    - intros x. remember (size x) as n eqn:E. assert (L : size x <= n) by lia. clear E. revert x L.
      induction n as [|n IH]; intros x L; constructor; intros y H; apply step_size in H; [lia|]. apply IH. lia.
  Qed.

  (** a script without background processes *)
  Definition rest (x : st) : prog := match sh x with Some (q, _) => q | None => [] end.
  Definition wr (x : st) : Prop := bg x = [] /\ plain (rest x) /\ (~ broken x -> forall s, sent (ch x s) ++ writes s (rest x) = writes s p).
  Lemma reads_sent al c c' line : reads al c c' line -> sent c' = sent c.
  Proof. now inversion 1. Qed.
  Lemma wr_step x y : wr x -> step x y -> wr y.
  Proof.
    intros (B & P & W) H. inversion H; subst; unfold wr, rest in *; cbn [sh status bg ch waiter log returned] in *; subst.
    all: try (destruct b1; discriminate).
    - inversion H0; subst; inversion P; subst; try contradiction; (split; [reflexivity|split; [assumption|]]).
      + intros N s'. match type of W with ~ broken ?X -> _ => assert (N0 : ~ broken X) end.
        { intros [t T]. apply N. exists t. cbn in *. rewrite (goes_task t H0). exact T. }
        specialize (W N0 s'). cbn [writes flat_map] in W. rewrite <- W.
        match goal with |- context [upd ?s1 _ _ s'] => rename s1 into s2 end. unfold upd. destruct s2, s'; cbn; rewrite <- ?app_assoc; reflexivity.
      + intros N. exfalso. apply N. eexists. exact H1.
    - split; [reflexivity|]. split; [constructor|]. intros N. exfalso. apply N. destruct p0 as [|[s b|] r]; cbn in H0; try contradiction. exists s. exact H0.
    - split; [reflexivity|]. split; [constructor|]. exact W.
    - split; [assumption|]. split; [assumption|]. intros N s'.
      assert (N0 : ~ broken x).
      { intros [t T]. apply N. exists t. cbn. unfold upd. destruct (same s t) eqn:E; [|exact T]. apply same_eq in E as ->.
        destruct (reads_reading H0). congruence. }
      rewrite <- (W N0 s'). f_equal. unfold upd. destruct (same s s') eqn:E; [|reflexivity]. apply same_eq in E as ->. now apply (reads_sent H0).
    - split; [reflexivity|]. split; assumption.
    - split; [assumption|]. split; assumption.
  Qed.
  Lemma reach_wr : plain p -> forall x, reach x -> wr x.
  Proof.
    intros Pp. induction 1 as [|x y _ IH H]; [|exact (wr_step IH H)]. split; [reflexivity|]. split; [exact Pp|]. reflexivity.
  Qed.
  Lemma unbroken : plain p -> (forall s, Utf8 (writes s p)) -> forall x, reach x -> ~ broken x.
  Proof.
    intros Pp U. induction 1 as [|x y R IH H]; [intros [s T]; discriminate|]. intros [s T].
    assert (Ry : reach y) by exact (RS R H). destruct (reach_wr Pp R) as (Bx & _ & Wx). specialize (Wx IH s).
    destruct (chan_broken (i_chan (reach_inv Ry) s) T) as [F FA].
    assert (E : sent (ch y s) = sent (ch x s) /\ sh y = sh x /\ bg y = bg x).
    { assert (Tx : task (ch x s) <> Broken) by (intros Tx; apply IH; exists s; exact Tx).
      inversion H; subst; cbn [sh status bg ch waiter log returned] in *; try contradiction; auto.
      - exfalso. apply Tx. rewrite <- T. symmetry. apply (goes_task s H0).
      - exfalso. apply Tx. rewrite <- T. symmetry. apply (goes_task s H0).
      - split; [|auto]. unfold upd. destruct (same s0 s) eqn:Es; [|reflexivity]. apply same_eq in Es as ->. exact (reads_sent H0). }
    destruct E as (Es & Eh & Eb). specialize (U s). apply utf8_ok_spec in U. rewrite <- Wx in U.
    destruct (alive y) eqn:A.
    - rewrite <- Es, FA in U by reflexivity. discriminate.
    - unfold alive in A. rewrite Eh in A. unfold rest in U. destruct (sh x) as [[]|]; [discriminate|]. cbn in U. rewrite app_nil_r in U. congruence.
  Qed.

  (** For a script without background processes: it succeeds exactly when it exits with success and has written UTF-8, and then
      the handler got exactly its lines, for every schedule of the processes, the tasks and the join. *)
  Theorem C65_outcome x o : plain p -> reach x -> returned x = Some o ->
    (o = Success <-> e = true /\ Utf8 (writes SOut p) /\ Utf8 (writes SErr p)) /\
    (o = Success -> forall s, Lines (writes s p) (of s (log x))).
  Proof.
    intros Pp R Ro. pose proof (C65_sound R Ro) as K. pose proof (reach_inv R) as I.
    assert (S : o = Success -> forall s, sent (ch x s) = writes s p).
    { intros -> s. destruct K as (_ & Hs & _ & _). destruct (reach_wr Pp R) as (_ & _ & W).
      assert (NB : ~ broken x). { intros [t T]. pose proof (i_ret I Ro) as (D1 & D2 & _). destruct t; congruence. }
      specialize (W NB s). unfold rest in W. rewrite Hs in W. cbn in W. now rewrite app_nil_r in W. }
    split; [split|].
    - intros E. specialize (S E). subst o. destruct K as (He & _ & _ & K). repeat split; [exact He|rewrite <- (S SOut); apply K|rewrite <- (S SErr); apply K].
    - intros (He & U1 & U2). assert (NB : ~ broken x) by (apply unbroken; [assumption|intros []; assumption|assumption]).
      destruct o; [reflexivity| |].
      + exfalso. pose proof (i_exit I (proj1 K)) as [E|[_ E]]; [congruence|contradiction].
      + exfalso. apply NB. pose proof (i_ret I Ro) as [T|T]; eexists; exact T.
    - intros E s. rewrite <- (S E s). subst o. apply K.
  Qed.
End Thms.

(** For an optional package a script that was found never fails the installation; for the others it does exactly when it could not
    be started or its outcome is not success. An unreadable package.json is an error for both. *)
Theorem C65_package optional a : dep_script optional a = true <->
  match a with
  | Unreadable => False
  | NoScript => True
  | NotSpawned => optional = true
  | Ran o => optional = true \/ o = Success
  end.
Proof. destruct a as [| | |[]], optional; cbn; intuition congruence. Qed.

(** ** What does not hold *)
Definition text (s : string) : bytes := list_ascii_of_string s.
Definition print (s : stream) (b : bytes) : prog := map (AWrite s) b.

(** A script that writes one byte that is not UTF-8 and exits with success never succeeds. *)
Definition latin1 : prog := print SOut [ascii_of_nat 233; nl].
Lemma not_utf8 : ~ Utf8 [ascii_of_nat 233; nl].
Proof. intros H. apply utf8_ok_spec in H. discriminate. Qed.
Theorem C65_utf8_refuted : forall cap, 0 < cap ->
  (forall x o, reach cap latin1 true x -> returned x = Some o -> o <> Success) /\
  (forall x, reach cap latin1 true x -> (forall y, ~ step cap x y) -> exists o, returned x = Some o).
Proof.
  intros cap Hc. split; [|apply C65_returns; exact Hc]. intros x o R Ro E.
  assert (Pp : plain latin1) by (repeat constructor). destruct (C65_outcome Pp R Ro) as [[K _] _]. destruct (K E) as (_ & U & _). exact (not_utf8 U).
Qed.

(** The join returns as soon as a script has failed, so what it wrote about that may not have been passed on. *)
Definition complains : prog := print SErr (text "oops" ++ [nl]).
Theorem C65_lost_refuted : forall cap, 5 <= cap -> exists x, reach cap complains false x /\ returned x = Some BadStatus /\ log x = [] /\ writes SErr complains = text "oops" ++ [nl].
Proof.
  intros cap room.
  assert (R : exists x, reach cap complains false x /\ returned x = None /\ waiter x = Some false /\ log x = []).
  { assert (reach cap complains false (start complains false)) as R by constructor.
    unfold start, complains, print, text in R. cbn [list_ascii_of_string app map] in R.
    do 5 (eapply RS in R; [|apply SShell; eapply GWrite; [reflexivity|cbn; lia]]).
    eapply RS in R; [|apply SExit]. eapply RS in R; [|apply SWait].
    eexists. split; [exact R|]. repeat split. }
  destruct R as (x & R & Ro & W & L). eexists. split; [eapply RS; [exact R|eapply SJoin; [exact Ro|instantiate (1 := BadStatus); exact W]]|].
  cbn. rewrite L. repeat split.
Qed.

(** ** Examples *)
Example ex_lines : Lines (text "a" ++ [cr; nl; nl] ++ text "b") [text "a"; []; text "b"].
Proof.
  apply (@LCrLf (text "a")); [intros [E|[]]; discriminate|]. apply (@LLf []); [easy|intros [|? ?]; discriminate|]. apply LLast; [discriminate|intros [E|[]]; discriminate].
Qed.
Example ex_utf8 : Utf8 [ascii_of_nat 195; ascii_of_nat 169] /\ ~ Utf8 [ascii_of_nat 237; ascii_of_nat 160; ascii_of_nat 128] /\ ~ Utf8 [ascii_of_nat 192; ascii_of_nat 128].
Proof. split; [|split]; rewrite <- utf8_ok_spec; [reflexivity|intros E; vm_compute in E; discriminate..]. Qed.
(** a run with a full pipe (of one byte) that succeeds *)
Definition hi : prog := print SOut (text "h" ++ [nl]).
Example ex_run : exists x, reach 1 hi true x /\ returned x = Some Success /\ log x = [(SOut, text "h")].
Proof.
  pose (c := fun (p : bytes) t w => Chan p t w).
  set (h := "h"%char).
  assert (reach 1 hi true (start hi true)) as R by constructor.
  eapply RS in R; [|apply SShell; eapply GWrite; [reflexivity|cbn; lia]].
  eapply RS in R; [|eapply (@SRead 1 _ SOut _ None); cbn; apply (@RRead true [] [h] [] [h]); [discriminate|easy]].
  cbn in R. eapply RS in R; [|apply SShell; eapply GWrite; [reflexivity|cbn; lia]].
  eapply RS in R; [|apply SExit].
  eapply RS in R; [|eapply (@SRead 1 _ SOut _ None); cbn; apply (@RRead false [h] [nl] [] [h; nl]); [discriminate|intros [E|[]]; discriminate]].
  eapply RS in R; [|eapply (@SRead 1 _ SOut _ (Some [h])); cbn; apply (@RLine false [h] [] [] [h; nl]); [intros [E|[]]; discriminate|reflexivity]].
  eapply RS in R; [|eapply (@SRead 1 _ SOut _ None); cbn; apply (@REnd false [h; nl]); reflexivity].
  eapply RS in R; [|eapply (@SRead 1 _ SErr _ None); cbn; apply (@REnd false []); reflexivity].
  eapply RS in R; [|apply SWait].
  eapply RS in R; [|eapply SJoin; [reflexivity|instantiate (1 := Success); cbn; auto]].
  eexists. split; [exact R|]. cbn. auto.
Qed.

Print Assumptions C65_lines_defined.
Print Assumptions C65_sound.
Print Assumptions C65_order.
Print Assumptions C65_returns.
Print Assumptions C65_outcome.
Print Assumptions C65_package.
Print Assumptions C65_utf8_refuted.
Print Assumptions C65_lost_refuted.
