(** * The invariants of a run of ScriptRun, progress and termination *)
From Verif Require Import Base ScriptRun ScriptRunProofs.
Set Implicit Arguments.
Open Scope list_scope.

(** the lines of one stream among those passed on *)
Definition of (s : stream) (l : list (stream * bytes)) : list bytes := map snd (filter (fun e => same s (fst e)) l).
Lemma of_app s a b : of s (a ++ b) = of s a ++ of s b.
Proof. unfold of. now rewrite filter_app, map_app. Qed.
Lemma same_refl s : same s s = true. Proof. now destruct s. Qed.
Lemma same_eq s t : same s t = true -> s = t. Proof. destruct s, t; (reflexivity || discriminate). Qed.
Lemma upd_same s c f : upd s c f s = c. Proof. unfold upd. now rewrite same_refl. Qed.
Lemma upd_other s c f t : same s t = false -> upd s c f t = f t. Proof. unfold upd. now intros ->. Qed.

(** a stream, its task, and the lines passed on *)
Definition chan_ok (al : bool) (c : chan) (ls : list bytes) : Prop :=
  (exists d, sealed d /\ Lines d ls /\ utf8_ok d = true /\
     match task c with
     | Reading buf => sent c = d ++ buf ++ pipe c
     | Done => False
     | Broken => exists l r, sent c = d ++ l ++ r /\ ~ In nl l /\ utf8_ok l = false /\ (r = [] /\ al = false \/ exists r', r = nl :: r')
     end)
  \/ (al = false /\ pipe c = [] /\ (task c = Reading [] \/ task c = Done) /\ Lines (sent c) ls /\ utf8_ok (sent c) = true).

Lemma chan_broken al c ls : chan_ok al c ls -> task c = Broken -> utf8_ok (sent c) = false /\ (al = true -> forall z, utf8_ok (sent c ++ z) = false).
Proof.
  intros [(d & Sd & _ & _ & H)|(_ & _ & [H|H] & _)] T; [|congruence..]. rewrite T in H. destruct H as (l & r & E & N & U & R).
  assert (G : forall z, (r = [] /\ z = []) \/ (exists r', r = nl :: r') -> utf8_ok (sent c ++ z) = false).
  { intros z [[-> ->]|[r' ->]].
    - rewrite E, !app_nil_r, utf8_sealed, U by assumption. apply andb_false_r.
    - rewrite E, <- !app_assoc, utf8_sealed by assumption. cbn [app]. rewrite utf8_nl, U. apply andb_false_r. }
  split.
  - rewrite <- (app_nil_r (sent c)). apply G. destruct R as [[R _]|R]; auto.
  - intros Al z. apply G. destruct R as [[_ R]|R]; [congruence|auto].
Qed.
Lemma chan_down al al' c ls : (al = false -> al' = false) -> chan_ok al c ls -> chan_ok al' c ls.
Proof.
  intros D [(d & Sd & Ld & Ud & H)|(A & H)]; [left|right; auto]. exists d. repeat split; try assumption.
  destruct (task c); auto. destruct H as (l & r & E & N & U & R). exists l, r. repeat split; auto. destruct R as [[-> R]|R]; auto.
Qed.
Lemma reads_ok al c c' line ls : reads al c c' line -> chan_ok al c ls ->
  chan_ok al c' (ls ++ match line with Some t => [t] | None => [] end).
Proof.
  intros R K.
  assert (X : forall buf, task c = Reading buf -> (buf <> [] \/ pipe c <> [] -> exists d, sealed d /\ Lines d ls /\ utf8_ok d = true /\ sent c = d ++ buf ++ pipe c)).
  { intros buf T NE. destruct K as [(d & Sd & Ld & Ud & H)|(A & P & [T'|T'] & _)].
    - rewrite T in H. eauto 10.
    - rewrite T in T'. injection T' as ->. destruct NE; contradiction.
    - congruence. }
  inversion R; subst; cbn [task pipe sent] in *.
  - destruct (X _ eq_refl) as (d & Sd & Ld & Ud & E); [right; destruct a; [contradiction|discriminate]|].
    left. exists d. rewrite app_nil_r. repeat split; try assumption. cbn. rewrite E, <- !app_assoc. reflexivity.
  - destruct (X _ eq_refl) as (d & Sd & Ld & Ud & E); [left; destruct l; discriminate|].
    left. exists (d ++ l ++ [nl]). split; [right; exists (d ++ l); now rewrite app_assoc|]. split; [|split].
    + apply lines_app; [assumption..|]. apply (@lines_line l [] []); [assumption|constructor].
    + rewrite utf8_sealed, Ud by assumption. assumption.
    + cbn. rewrite E, <- !app_assoc. reflexivity.
  - destruct (X _ eq_refl) as (d & Sd & Ld & Ud & E); [left; destruct l; discriminate|].
    left. exists d. rewrite app_nil_r. repeat split; try assumption. cbn. exists l, (nl :: r ++ p).
    rewrite utf8_nl1 in *. repeat split; try assumption; [|right; eauto]. rewrite E, <- !app_assoc. reflexivity.
  - destruct (X _ eq_refl) as (d & Sd & Ld & Ud & E); [left; assumption|]. right. cbn. rewrite app_nil_r in E. rewrite E.
    repeat split; auto; [|now rewrite utf8_sealed, Ud by assumption]. apply lines_app; [assumption..|]. now apply LLast.
  - destruct (X _ eq_refl) as (d & Sd & Ld & Ud & E); [left; assumption|]. left. exists d. rewrite app_nil_r. repeat split; try assumption.
    cbn. exists l, []. repeat split; auto.
  - right. rewrite app_nil_r. cbn. destruct K as [(d & Sd & Ld & Ud & E)|(A & P & _ & Ld & Ud)]; cbn in *.
    + rewrite !app_nil_r in E. rewrite E. auto.
    + auto.
Qed.
Lemma reads_reading al c c' line : reads al c c' line -> exists b, task c = Reading b.
Proof. inversion 1; cbn; eauto. Qed.

Section Run.
  Variable cap : nat.
  Variable p0 : prog.
  Variable e0 : bool.
  Notation reach := (reach cap p0 e0).
  Notation step := (step cap).

  Definition broken (x : st) : Prop := exists s, task (ch x s) = Broken.
  Record inv (x : st) : Prop := mkInv {
    i_chan : forall s, chan_ok (alive x) (ch x s) (of s (log x));
    i_status : sh x = None <-> status x <> None;
    i_shell : forall p e, sh x = Some (p, e) -> e = e0;
    i_exit : forall e, status x = Some e -> e = e0 \/ (e = false /\ broken x);
    i_wait : forall e, waiter x = Some e -> status x = Some e;
    i_ret : forall o, returned x = Some o -> joined x o }.

  Lemma goes_ok al f p f' p' new s ls : goes cap f p f' p' new -> al = true -> chan_ok al (f s) ls -> chan_ok al (f' s) ls.
  Proof.
    intros G A K. inversion G; subst; try assumption. unfold upd. destruct (same s0 s) eqn:E; [|assumption]. apply same_eq in E as ->.
    destruct K as [(d & Sd & Ld & Ud & H')|(K & _)]; [|discriminate]. left. exists d. repeat split; try assumption. cbn.
    rewrite H in H'. rewrite H', <- !app_assoc. reflexivity.
  Qed.
  Lemma goes_task f p f' p' new s : goes cap f p f' p' new -> task (f' s) = task (f s).
  Proof. inversion 1; subst; try reflexivity. unfold upd. destruct (same s0 s) eqn:E; [|reflexivity]. apply same_eq in E as ->. now cbn. Qed.

  Lemma inv_step x y : inv x -> step x y -> inv y.
  Proof.
    intros [C St Sh Ex Wt Rt] H. inversion H; subst; cbn [sh status bg ch waiter log returned] in *.
    all: try match goal with G : goes _ _ _ _ _ _ |- _ => rename G into HG end.
    all: try match goal with G : killed _ _, K : step _ _ |- _ => rename G into HK end.
    all: try match goal with G : reads _ _ _ _ |- _ => rename G into HR end.
    all: try match goal with G : joined _ _ |- _ => rename G into HJ end.
    - constructor; cbn [sh status bg ch waiter log returned alive]; auto.
      + intros s. eapply goes_ok; [eassumption|reflexivity|apply C].
      + intuition discriminate.
      + intros q e' E. injection E as <- <-. eauto.
      + intros e' E. destruct (Ex e' E) as [->|[-> [s B]]]; [now left|right; split; [reflexivity|]]. exists s. cbn. erewrite goes_task; eassumption.
      + intros o' E. specialize (Rt _ E). assert (GT : forall s, task (f' s) = task (f s)) by (intros; eapply goes_task; exact HG). destruct o'; cbn in *; rewrite ?GT; exact Rt.
    - constructor; cbn [sh status bg ch waiter log returned alive]; auto.
      + intros s. eapply chan_down; [|apply C]. cbn. discriminate.
      + split; [discriminate|reflexivity].
      + discriminate.
      + intros e' E. injection E as <-. right. split; [reflexivity|]. destruct p as [|[s b'|] r]; cbn in HK; try contradiction. exists s. exact HK.
      + intros e' E. specialize (Wt _ E). assert (Some (p, e) = None) as W by (apply St; rewrite Wt; discriminate). discriminate.
    - constructor; cbn [sh status bg ch waiter log returned alive]; auto.
      + intros s. eapply chan_down; [|apply C]. cbn. discriminate.
      + split; [discriminate|reflexivity].
      + discriminate.
      + intros e' E. injection E as <-. left. eauto.
      + intros e' E. specialize (Wt _ E). assert (Some ([] : prog, e) = None) as W by (apply St; rewrite Wt; discriminate). discriminate.
    - assert (A : alive (mkSt x0 so (b1 ++ p :: b2) f w l o) = true) by (unfold alive; cbn; destruct x0; [reflexivity|destruct b1; reflexivity]).
      assert (A' : alive (mkSt x0 so (b1 ++ p' :: b2 ++ new) f' w l o) = true) by (unfold alive; cbn; destruct x0; [reflexivity|destruct b1; reflexivity]).
      constructor; auto; cbn [sh status bg ch waiter log returned]; auto.
      + intros s. rewrite A'. rewrite A in C. eapply goes_ok; [eassumption|reflexivity|apply C].
      + intros e' E. destruct (Ex e' E) as [->|[-> [s B]]]; [now left|right; split; [reflexivity|]]. exists s. cbn. erewrite goes_task; eassumption.
      + intros o' E. specialize (Rt _ E). assert (GT : forall s, task (f' s) = task (f s)) by (intros; eapply goes_task; exact HG). destruct o'; cbn in *; rewrite ?GT; exact Rt.
    - constructor; auto; cbn [sh status bg ch waiter log returned]; auto.
      intros s. eapply chan_down; [|apply C]. unfold alive; cbn. destruct x0; [discriminate|]. destruct b1; discriminate.
    - constructor; auto; cbn [sh status bg ch waiter log returned]; auto.
      + intros t. rewrite of_app. unfold upd. destruct (same s t) eqn:E.
        * apply same_eq in E as ->. pose proof (reads_ok HR (C t)) as K. destruct line; unfold of at 2; cbn; rewrite ?same_refl; exact K.
        * assert (N : of t match line with Some t0 => [(s, t0)] | None => [] end = []).
          { destruct line; unfold of; cbn; [|reflexivity]. replace (same t s) with false; [reflexivity|]. symmetry. now destruct s, t. }
          rewrite N, app_nil_r. apply C.
      + intros e' E. destruct (Ex e' E) as [->|[-> [t B]]]; [now left|right; split; [reflexivity|]]. exists t. cbn. unfold upd.
        destruct (same s t) eqn:Es; [|assumption]. apply same_eq in Es as ->. destruct (reads_reading HR). congruence.
      + intros o' E. specialize (Rt _ E).
        assert (T : forall t, task (ch x t) = Done \/ task (ch x t) = Broken -> upd s c (ch x) t = ch x t).
        { intros t Ht. unfold upd. destruct (same s t) eqn:Es; [|reflexivity]. apply same_eq in Es as ->. destruct (reads_reading HR), Ht; congruence. }
        destruct o'; cbn in *; [|exact Rt|].
        * destruct Rt as (R1 & R2 & R3). rewrite !T by auto. auto.
        * destruct Rt as [R1|R1]; [left|right]; rewrite T by auto; exact R1.
    - constructor; auto; cbn [sh status bg ch waiter log returned]; auto.
      intros o' E. specialize (Rt _ E). destruct o'; cbn in *; [destruct Rt as (_ & _ & R); discriminate|discriminate|exact Rt].
    - constructor; auto; cbn [sh status bg ch waiter log returned]; auto.
      intros o' E. injection E as <-. destruct o; exact HJ.
  Qed.
  Lemma inv_start : inv (start p0 e0).
  Proof.
    constructor; cbn; try (intros; congruence).
    - intros s. left. exists []. repeat split; try constructor; reflexivity.
    - split; [discriminate|congruence].
  Qed.
  Lemma reach_inv x : reach x -> inv x.
  Proof. induction 1 as [|x y _ IH H]; [exact inv_start|exact (inv_step IH H)]. Qed.

  (** ** something can always happen until the join has returned *)
  Lemma proc_moves f p (Hc : 0 < cap) :
    p = [] \/ (exists f' p' new, goes cap f p f' p' new) \/
    (exists s b r, p = AWrite s b :: r /\ (task (f s) = Done \/ (pipe (f s) <> [] /\ exists buf, task (f s) = Reading buf))).
  Proof.
    destruct p as [|[s b|c] r]; [now left| |].
    - destruct (task (f s)) eqn:T.
      + destruct (Nat.lt_ge_cases (List.length (pipe (f s))) cap) as [L|L].
        * right; left. eauto using goes.
        * right; right. exists s, b, r. split; [reflexivity|right]. split; [|eauto]. intros E. rewrite E in L. cbn in L. lia.
      + right; right. exists s, b, r. auto.
      + right; left. eauto using goes.
    - right; left. eauto using goes.
  Qed.
  Lemma reader_moves al c buf : task c = Reading buf -> (pipe c <> [] \/ al = false) -> exists c' line, reads al c c' line.
  Proof.
    destruct c as [p t w]. cbn. intros -> H. destruct (nl_split buf) as [N|(l & r & -> & N)].
    - destruct p as [|b p].
      + destruct H as [H| -> ]; [contradiction|]. destruct buf as [|b buf].
        * eexists _, _. apply REnd. reflexivity.
        * destruct (utf8_ok (b :: buf)) eqn:U; eexists _, _; [apply RLast|apply RBadLast]; (reflexivity || discriminate || assumption).
      + rewrite <- (app_nil_r (b :: p)). eexists _, _. apply RRead; [discriminate|assumption].
    - destruct (utf8_ok (l ++ [nl])) eqn:U; eexists _, _; [apply RLine|apply RBadLine]; assumption.
  Qed.
  Lemma progress x : 0 < cap -> inv x -> returned x = None -> exists y, step x y.
  Proof.
    intros Hc I R. destruct x as [s so b f w l o]. cbn in R. subst o.
    assert (RD : forall t buf, task (f t) = Reading buf -> (pipe (f t) <> [] \/ alive (mkSt s so b f w l None) = false) -> exists y, step (mkSt s so b f w l None) y).
    { intros t buf T H. destruct (reader_moves _ T H) as (c' & line & Hr). eexists. eapply SRead. exact Hr. }
    assert (DN : alive (mkSt s so b f w l None) = true -> forall t, task (f t) <> Done).
    { intros A t T. pose proof (i_chan I t) as K. rewrite A in K. cbn in K. destruct K as [(d & _ & _ & _ & K)|(K & _)]; [rewrite T in K; contradiction|discriminate]. }
    destruct s as [[p e]|].
    - destruct (proc_moves f p Hc) as [-> | [(f2 & p2 & new & G)|(t & b2 & r2 & -> & [D|(P & buf & T)])]].
      + eexists. apply SExit.
      + eexists. apply SShell. exact G.
      + exfalso. eapply DN; [reflexivity|exact D].
      + eapply RD; [exact T|left; exact P].
    - destruct b as [|p b].
      + destruct (task (f SOut)) as [bo| |] eqn:T1; [eapply RD; [exact T1|right; reflexivity]| |eexists; eapply SJoin; [reflexivity|instantiate (1 := BadLine); left; exact T1]].
        destruct (task (f SErr)) as [be| |] eqn:T2; [eapply RD; [exact T2|right; reflexivity]| |eexists; eapply SJoin; [reflexivity|instantiate (1 := BadLine); right; exact T2]].
        destruct w as [[|]|].
        * eexists; eapply SJoin; [reflexivity|instantiate (1 := Success); cbn; auto].
        * eexists; eapply SJoin; [reflexivity|instantiate (1 := BadStatus); reflexivity].
        * destruct so as [e|]; [eexists; apply SWait|]. exfalso. apply (i_status I); reflexivity.
      + destruct (proc_moves f p Hc) as [-> | [(f2 & p2 & new & G)|(t & b2 & r2 & -> & [D|(P & buf & T)])]].
        * eexists. apply (@SBackEnd cap None so [] b []). now left.
        * eexists. apply (@SBack cap None so [] b). exact G.
        * exfalso. eapply DN; [reflexivity|exact D].
        * eapply RD; [exact T|left; exact P].
  Qed.
End Run.

(** ** every run is finite *)
Fixpoint asize (a : act) : nat :=
  match a with
  | AWrite _ _ => 3
  | AFork c => 2 + (fix go l := match l with [] => 0 | a :: t => asize a + go t end) c
  end.
Fixpoint psize (p : prog) : nat := match p with [] => 0 | a :: t => asize a + psize t end.
Lemma asize_fork c : asize (AFork c) = 2 + psize c.
Proof. reflexivity. Qed.
Fixpoint bsize (b : list prog) : nat := match b with [] => 0 | p :: t => 1 + psize p + bsize t end.
Lemma bsize_app a b : bsize (a ++ b) = bsize a + bsize b.
Proof. induction a as [|p a IH]; [reflexivity|]. cbn. rewrite IH. lia. Qed.
Definition csize (c : chan) : nat := 2 * List.length (pipe c) + match task c with Reading b => 1 + List.length b | _ => 0 end.
Definition size (x : st) : nat :=
  match sh x with Some (p, _) => 1 + psize p | None => 0 end + bsize (bg x) + csize (ch x SOut) + csize (ch x SErr)
  + match waiter x with None => 1 | _ => 0 end + match returned x with None => 1 | _ => 0 end.

Lemma goes_size cap f p f' p' new : goes cap f p f' p' new ->
  psize p' + bsize new + csize (f' SOut) + csize (f' SErr) < psize p + csize (f SOut) + csize (f SErr).
Proof.
  inversion 1; subst.
  - assert (E : csize (Chan (pipe (f s) ++ [b]) (Reading buf) (sent (f s) ++ [b])) = 2 + csize (f s)).
    { unfold csize. cbn. rewrite H0, app_length. cbn. lia. }
    destruct s; unfold upd; cbn [same psize bsize asize]; rewrite E; lia.
  - cbn [psize bsize asize]. lia.
  - cbn [psize bsize]. rewrite asize_fork. lia.
Qed.
Lemma reads_size al c c' line : reads al c c' line -> csize c' < csize c.
Proof.
  inversion 1; subst; unfold csize; cbn [pipe task List.length]; rewrite ?app_length; cbn [List.length]; rewrite ?app_length; cbn [List.length]; try lia.
  - destruct a; [contradiction|]. cbn. lia.
  - destruct l; [contradiction|]. cbn. lia.
Qed.
Lemma step_size cap x y : step cap x y -> size y < size x.
Proof.
  inversion 1; subst; unfold size; cbn [sh status bg ch waiter log returned].
  - pose proof (goes_size H0). rewrite bsize_app. lia.
  - lia.
  - cbn. lia.
  - pose proof (goes_size H0). rewrite !bsize_app. cbn [bsize]. rewrite bsize_app. lia.
  - rewrite !bsize_app. cbn [bsize]. lia.
  - pose proof (reads_size H0). destruct s; unfold upd; cbn [same]; lia.
  - lia.
  - rewrite H0. lia.
Qed.
