(** * Install scripts: lemmas in the form used by PropsScripts *)
From Verif Require Import Base Types ResolverModel ScriptsModel ScriptsProofs.
From Coq Require Import Permutation.

Definition obs_dec : forall a b : obs, {a = b} + {a <> b}.
Proof. decide equality; try apply Nat.eq_dec; decide equality. Defined.
Arguments obs_dec : simpl never.
(** how often script [e] of package [i] was started *)
Definition times_started (e : event) (i : nat) (t : list obs) : nat := count_occ obs_dec t (Began e i).
Definition times_ended (e : event) (i : nat) (t : list obs) : nat := count_occ obs_dec t (Ended e i true) + count_occ obs_dec t (Ended e i false).
(** the order of the phases *)
Inductive earlier : event -> event -> Prop :=
| e_pi : earlier PreInstall Install | e_pp : earlier PreInstall PostInstall | e_ip : earlier Install PostInstall.
(** some package needs [i] non-optionally *)
Definition required (g : graph) (i : nat) : Prop := exists e, In e (g_edges g) /\ e_to e = i /\ e_type e <> Opt.
Lemma required_spec g i : is_optional g i = false <-> required g i.
Proof.
  unfold is_optional, required. rewrite <- not_true_iff_false, forallb_forall. split.
  - intros H. assert (He : existsb (fun e => Nat.eqb (e_to e) i && negb (deptype_eqb (e_type e) Opt)) (g_edges g) = true).
    { apply not_false_iff_true. intros E. apply H. intros e Hin. destruct (Nat.eqb (e_to e) i && negb (deptype_eqb (e_type e) Opt)) eqn:E2.
      - exfalso. rewrite <- not_true_iff_false in E. apply E. apply existsb_exists. eauto.
      - destruct (Nat.eqb (e_to e) i), (deptype_eqb (e_type e) Opt); cbn in *; congruence. }
    apply existsb_exists in He. destruct He as (e & Hin & E). apply andb_true_iff in E. destruct E as [E1 E2]. exists e.
    split; [auto|]. split; [now apply Nat.eqb_eq|]. intros Ht. rewrite Ht in E2. discriminate.
  - intros (e & Hin & E & Ht) H. specialize (H e Hin). rewrite E, Nat.eqb_refl in H. cbn in H. destruct (e_type e); try discriminate. congruence.
Qed.

Section Facts.
  Variable g : graph.
  Variable has_path : nat -> nat -> bool.
  Variable pending : list nat.
  Variable job_of : event -> nat -> job.
  Variable limit : nat.
  Hypothesis Hpath : forall a b, has_path a b = true <-> depends_on g a b.
  Hypothesis Hnd : NoDup pending.
  Notation runs e := (runs g has_path pending e (job_of e) limit).
  Notation phase_at := (phase_at g has_path pending job_of limit).
  Notation phase_ok := (phase_ok g has_path pending job_of limit).
  Notation rebuild := (rebuild g has_path pending job_of limit).

  Lemma count_began e i t : (forall e' j, In (Began e' j) t -> e' = e) -> count_occ obs_dec t (Began e i) = count_occ Nat.eq_dec (began t) i.
  Proof.
    induction t as [|o t IH]; intros H; [reflexivity|]. cbn [count_occ]. rewrite IH by (intros; eapply H; right; eauto).
    unfold began. cbn [flat_map]. rewrite count_occ_app. destruct (obs_dec o (Began e i)) as [->|Hne].
    - cbn. destruct (Nat.eq_dec i i); [reflexivity | congruence].
    - destruct o as [e' j|e' j ok|]; cbn; try reflexivity. destruct (Nat.eq_dec j i) as [->|]; [|reflexivity].
      exfalso. apply Hne. f_equal. eapply H. left. reflexivity.
  Qed.
  Lemma count_ended e i t : (forall e' j ok, In (Ended e' j ok) t -> e' = e) -> times_ended e i t = count_occ Nat.eq_dec (ended t) i.
  Proof.
    unfold times_ended. induction t as [|o t IH]; intros H; [reflexivity|]. cbn [count_occ]. specialize (IH (fun e' j ok Hin => H e' j ok (or_intror Hin))).
    unfold ended in *. cbn [flat_map]. rewrite count_occ_app, <- IH.
    destruct o as [e' j|e' j ok|]; [|pose proof (H e' j ok (or_introl eq_refl)) as ->|]; cbn [count_occ].
    - repeat (destruct (obs_dec _ _); try discriminate). lia.
    - destruct (Nat.eq_dec j i) as [->|Hne].
      + destruct ok; repeat (destruct (obs_dec _ _); try discriminate; try congruence); lia.
      + repeat (destruct (obs_dec _ _) as [E|]; [injection E as E _; congruence|]). lia.
    - repeat (destruct (obs_dec _ _); try discriminate). lia.
  Qed.
  Lemma run_nodup e s : runs e s -> NoDup (sc_running s ++ sc_done s) /\ incl (sc_running s ++ sc_done s) pending.
  Proof.
    intros H. pose proof (runs_SI _ _ _ _ _ _ Hnd _ H) as I. pose proof (si_perm _ _ _ _ _ _ I) as Hp. split.
    - apply (Permutation_NoDup Hp) in Hnd. apply NoDup_app_remove_l in Hnd. rewrite app_assoc in Hnd.
      clear - Hnd. induction (sc_running s ++ sc_done s) as [|a l IH]; [constructor|]. cbn in Hnd. inversion Hnd; subst. constructor; auto.
      intros Hin. apply H1. apply in_app_iff. auto.
    - intros x Hx. eapply Permutation_in; [apply Permutation_sym, Hp|]. rewrite !in_app_iff in *. tauto.
  Qed.
  Lemma run_events e s : runs e s -> (forall e' j, In (Began e' j) (sc_trace s) -> e' = e) /\ (forall e' j ok, In (Ended e' j ok) (sc_trace s) -> e' = e) /\ ~ In BinsLinked (sc_trace s).
  Proof.
    intros H. pose proof (runs_SI _ _ _ _ _ _ Hnd _ H) as I. split; [|split; [apply (si_end_ev _ _ _ _ _ _ I) | apply (si_nobins _ _ _ _ _ _ I)]].
    intros e' j Hin. apply in_split in Hin. destruct Hin as (t1 & t2 & E). now apply (si_order _ _ _ _ _ _ I) in E.
  Qed.
  Lemma run_started e s i : runs e s -> times_started e i (sc_trace s) <= 1
    /\ (times_started e i (sc_trace s) = 1 <-> In i (sc_running s ++ sc_done s) /\ job_of e i = Script).
  Proof.
    intros H. pose proof (runs_SI _ _ _ _ _ _ Hnd _ H) as I. destruct (run_events e s H) as [E1 _].
    unfold times_started. rewrite (count_began e i _ E1).
    rewrite (proj1 (Permutation_count_occ Nat.eq_dec _ _) (si_began _ _ _ _ _ _ I)).
    destruct (run_nodup e s H) as [Hn _]. apply (NoDup_filter (is_script (job_of e))) in Hn.
    pose proof (proj1 (NoDup_count_occ Nat.eq_dec _) Hn i) as Hle. split; [auto|]. split.
    - intros E. assert (Hin : In i (filter (is_script (job_of e)) (sc_running s ++ sc_done s))) by (apply (count_occ_In Nat.eq_dec); lia).
      apply filter_In in Hin. destruct Hin as [Hin Hs]. split; [auto|]. unfold is_script in Hs. destruct (job_of e i); congruence.
    - intros [Hin Hs]. assert (Hin' : In i (filter (is_script (job_of e)) (sc_running s ++ sc_done s))) by (apply filter_In; unfold is_script; now rewrite Hs).
      apply (count_occ_In Nat.eq_dec) in Hin'. lia.
  Qed.
  Lemma run_ended e s i : runs e s -> times_ended e i (sc_trace s) <= times_started e i (sc_trace s).
  Proof.
    intros H. pose proof (runs_SI _ _ _ _ _ _ Hnd _ H) as I. destruct (run_events e s H) as (E1 & E2 & _).
    unfold times_started. rewrite (count_began e i _ E1), (count_ended e i _ E2), (si_ended _ _ _ _ _ _ I).
    rewrite (proj1 (Permutation_count_occ Nat.eq_dec _ _) (si_began _ _ _ _ _ _ I)), filter_app, count_occ_app. lia.
  Qed.
  Lemma succ_done e s : runs e s -> sc_status s = Succeeded -> sc_running s = [] /\ forall i, In i pending -> In i (sc_done s).
  Proof.
    intros H Hs. pose proof (runs_SI _ _ _ _ _ _ Hnd _ H) as I. destruct (si_succ _ _ _ _ _ _ I Hs) as (E1 & E2 & E3). split; [auto|].
    intros i Hi. pose proof (si_perm _ _ _ _ _ _ I) as Hp. rewrite E1, E2, E3 in Hp. cbn in Hp. rewrite app_nil_r in Hp. eapply Permutation_in; eauto.
  Qed.
  Lemma succ_once e s i : runs e s -> sc_status s = Succeeded -> In i pending -> job_of e i = Script ->
    times_started e i (sc_trace s) = 1 /\ times_ended e i (sc_trace s) = 1.
  Proof.
    intros H Hs Hi Hj. destruct (succ_done e s H Hs) as [Er Hd]. pose proof (Hd i Hi) as Hin. destruct (run_started e s i H) as [Hle Hiff].
    assert (E : times_started e i (sc_trace s) = 1) by (apply Hiff; rewrite Er; auto). split; [auto|].
    pose proof (run_ended e s i H) as Hl. destruct (run_events e s H) as (E1 & E2 & _). pose proof (runs_SI _ _ _ _ _ _ Hnd _ H) as I.
    assert (0 < times_ended e i (sc_trace s)); [|lia]. rewrite (count_ended e i _ E2), (si_ended _ _ _ _ _ _ I). apply (count_occ_In Nat.eq_dec).
    apply filter_In. unfold is_script. now rewrite Hj.
  Qed.
  Lemma ended_in e i t : 0 < times_ended e i t -> exists ok, In (Ended e i ok) t.
  Proof.
    unfold times_ended. intros H. destruct (Nat.eq_dec (count_occ obs_dec t (Ended e i true)) 0) as [E|E].
    - exists false. apply (count_occ_In obs_dec). lia.
    - exists true. apply (count_occ_In obs_dec). lia.
  Qed.
  Lemma phase_order e s t1 i t2 : runs e s -> sc_trace s = t1 ++ Began e i :: t2 ->
    forall j, In j pending -> j <> i -> depends_on g i j -> job_of e j = Script -> exists ok, In (Ended e j ok) t1 /\ (ok = true \/ is_optional g j = true).
  Proof.
    intros H E j Hj Hne Hd Hs. pose proof (runs_SI _ _ _ _ _ _ Hnd _ H) as I. destruct (si_order _ _ _ _ _ _ I _ _ _ _ E) as [_ Ho].
    apply Ho; [|unfold is_script; now rewrite Hs]. apply (proj2 (dependencies_in has_path pending (job_of e) limit i j)). split; [auto|]. split; [auto|]. now apply Hpath.
  Qed.

  (** ** whole rebuild: an observation of one phase inside the concatenated trace *)
  Lemma split_in_app A (a b t1 t2 : list A) x : a ++ b = t1 ++ x :: t2 ->
    (exists t2', a = t1 ++ x :: t2') \/ (exists t1', t1 = a ++ t1' /\ b = t1' ++ x :: t2).
  Proof.
    revert t1; induction a as [|y a IH]; intros t1 E; cbn in E; [right; exists t1; auto|].
    destruct t1 as [|z t1]; cbn in E; injection E as <- E.
    - left. exists a. reflexivity.
    - destruct (IH _ E) as [(t2' & ->)|(t1' & -> & ->)]; [left; exists t2'; auto | right; exists t1'; auto].
  Qed.

  Definition done_before (e : event) (t : list obs) : Prop := forall j, In j pending -> job_of e j = Script -> exists ok, In (Ended e j ok) t.
  Lemma ok_done e t : phase_ok e t -> done_before e t.
  Proof. intros (s & H & Hs & <-) j Hj Hjs. apply ended_in. rewrite (proj2 (succ_once e s j H Hs Hj Hjs)). lia. Qed.

  Lemma order_all ignore t st : rebuild ignore t st -> forall t1 t2 e i, t = t1 ++ Began e i :: t2 ->
    (forall j, In j pending -> j <> i -> depends_on g i j -> job_of e j = Script -> exists ok, In (Ended e j ok) t1 /\ (ok = true \/ is_optional g j = true))
    /\ (forall e' j, earlier e' e -> In j pending -> job_of e' j = Script -> exists ok, In (Ended e' j ok) t1)
    /\ (In BinsLinked t1 <-> e <> PreInstall).
  Proof.
    assert (P : forall e0 t st, phase_at e0 t st -> forall t1 t2 e i, t = t1 ++ Began e i :: t2 -> e = e0 /\ ~ In BinsLinked t1 /\
      (forall j, In j pending -> j <> i -> depends_on g i j -> job_of e j = Script -> exists ok, In (Ended e j ok) t1 /\ (ok = true \/ is_optional g j = true))).
    { intros e0 t0 st0 (s & H & Hs & <-) t1 t2 e i E. destruct (run_events e0 s H) as (E1 & E2 & E3).
      assert (e = e0) as -> by (apply (E1 e i); rewrite E; apply in_app_iff; right; now left).
      split; [auto|]. split; [|eapply phase_order; eauto]. intros Hin. apply E3. rewrite E. apply in_app_iff. auto. }
    assert (PO : forall e0 t, phase_ok e0 t -> phase_at e0 t Succeeded) by (intros e0 t0 (s & H & Hs & E); exists s; auto).
    assert (NB : forall e0 t st, phase_at e0 t st -> ~ In BinsLinked t) by (intros e0 t0 st0 (s & H & Hs & <-); apply (run_events e0 s H)).
    assert (W : forall a b e i, a = a -> (forall j, In j pending -> j <> i -> depends_on g i j -> job_of e j = Script -> exists ok, In (Ended e j ok) b /\ (ok = true \/ is_optional g j = true)) ->
       forall j, In j pending -> j <> i -> depends_on g i j -> job_of e j = Script -> exists ok, In (Ended e j ok) (a ++ b) /\ (ok = true \/ is_optional g j = true)).
    { intros a b e i _ Hb j H1 H2 H3 H4. destruct (Hb j H1 H2 H3 H4) as (ok & Hin & Hok). exists ok. split; [apply in_app_iff; auto | auto]. }
    intros R t1 t2 e i E. destruct R as [tr sr Hp Hns|tr Hp|tr t' sr Hp Hp' Hns|tr t' t'' sr Hp Hp' Hp''| |].
    - destruct (P _ _ _ Hp _ _ _ _ E) as (-> & Hb & Ho). split; [auto|]. split; [intros e' j He; inversion He|]. split; [tauto | congruence].
    - destruct (P _ _ _ (PO _ _ Hp) _ _ _ _ E) as (-> & Hb & Ho). split; [auto|]. split; [intros e' j He; inversion He|]. split; [tauto | congruence].
    - destruct (split_in_app _ _ _ _ _ _ E) as [(t2' & E1)|(t1' & -> & E1)].
      + destruct (P _ _ _ (PO _ _ Hp) _ _ _ _ E1) as (-> & Hb & Ho). split; [auto|]. split; [intros e' j He; inversion He|]. split; [tauto | congruence].
      + destruct t1' as [|o t1']; [discriminate|]. cbn in E1. injection E1 as <- E2.
        destruct (P _ _ _ Hp' _ _ _ _ E2) as (-> & Hb & Ho). split; [|split].
        * replace (tr ++ BinsLinked :: t1') with ((tr ++ [BinsLinked]) ++ t1') by (rewrite <- app_assoc; reflexivity). apply W; auto.
        * intros e' j He Hj Hs. inversion He; subst. destruct (ok_done _ _ Hp j Hj Hs) as (ok & Hin). exists ok. apply in_app_iff; auto.
        * split; [discriminate|]. intros _. apply in_app_iff. right. now left.
    - destruct (split_in_app _ _ _ _ _ _ E) as [(t2' & E1)|(t1' & -> & E1)].
      + destruct (P _ _ _ (PO _ _ Hp) _ _ _ _ E1) as (-> & Hb & Ho). split; [auto|]. split; [intros e' j He; inversion He|]. split; [tauto | congruence].
      + destruct t1' as [|o t1']; [discriminate|]. cbn in E1. injection E1 as <- E2.
        assert (HB : In BinsLinked (tr ++ BinsLinked :: t1')) by (apply in_app_iff; right; now left).
        destruct (split_in_app _ _ _ _ _ _ E2) as [(t2' & E')|(t1'' & -> & E')].
        * destruct (P _ _ _ (PO _ _ Hp') _ _ _ _ E') as (-> & Hb & Ho). split; [|split].
          -- replace (tr ++ BinsLinked :: t1') with ((tr ++ [BinsLinked]) ++ t1') by (rewrite <- app_assoc; reflexivity). apply W; auto.
          -- intros e' j He Hj Hs. inversion He; subst. destruct (ok_done _ _ Hp j Hj Hs) as (ok & Hin). exists ok. apply in_app_iff; auto.
          -- split; [discriminate | auto].
        * destruct (P _ _ _ Hp'' _ _ _ _ E') as (-> & Hb & Ho). split; [|split].
          -- replace (tr ++ BinsLinked :: t' ++ t1'') with ((tr ++ BinsLinked :: t') ++ t1'') by (rewrite <- app_assoc; reflexivity). apply W; auto.
          -- intros e' j He Hj Hs. inversion He; subst.
             ++ destruct (ok_done _ _ Hp j Hj Hs) as (ok & Hin). exists ok. apply in_app_iff; auto.
             ++ destruct (ok_done _ _ Hp' j Hj Hs) as (ok & Hin). exists ok. rewrite in_app_iff. right. right. apply in_app_iff. auto.
          -- split; [discriminate | auto].
    - destruct t1; discriminate.
    - destruct t1 as [|o [|]]; discriminate.
  Qed.

  Lemma count_other e e' i s : runs e s -> e' <> e -> times_started e' i (sc_trace s) = 0 /\ times_ended e' i (sc_trace s) = 0.
  Proof.
    intros H Hne. destruct (run_events e s H) as (E1 & E2 & _). unfold times_started, times_ended. split; [|apply Nat.eq_add_0; split];
      apply (count_occ_not_In obs_dec); intros Hin; [apply E1 in Hin | apply E2 in Hin | apply E2 in Hin]; auto.
  Qed.
  Lemma at_once e e' i t st : phase_at e t st -> times_started e' i t <= (if match e, e' with PreInstall, PreInstall | Install, Install | PostInstall, PostInstall => true | _, _ => false end then 1 else 0)
    /\ (0 < times_started e' i t -> In i pending /\ job_of e' i = Script) /\ times_ended e' i t <= times_started e' i t.
  Proof.
    intros (s & H & Hs & <-). assert (He : e' = e \/ e' <> e) by (destruct e, e'; auto; right; discriminate). destruct He as [-> | Hne].
    - destruct (run_started e s i H) as [Hle Hiff]. split; [destruct e; auto|]. split; [|now apply run_ended]. intros Hpos.
      destruct (proj1 Hiff ltac:(lia)) as [Hin Hj]. split; [|auto]. now apply (run_nodup e s H).
    - destruct (count_other e e' i s H Hne) as [-> ->]. split; [lia|]. split; lia.
  Qed.
  Lemma started_app e i a b : times_started e i (a ++ b) = times_started e i a + times_started e i b.
  Proof. apply count_occ_app. Qed.
  Lemma ended_app' e i a b : times_ended e i (a ++ b) = times_ended e i a + times_ended e i b.
  Proof. unfold times_ended. rewrite !count_occ_app. lia. Qed.

  Lemma at_most_once ignore t st : rebuild ignore t st -> forall e i, times_started e i t <= 1 /\ times_ended e i t <= times_started e i t
    /\ (0 < times_started e i t -> ignore = false /\ In i pending /\ job_of e i = Script).
  Proof.
    assert (PO : forall e0 t, phase_ok e0 t -> phase_at e0 t Succeeded) by (intros e0 t0 (s & H & Hs & E); exists s; auto).
    assert (Z : forall e i, times_started e i [BinsLinked] = 0 /\ times_ended e i [BinsLinked] = 0).
    { intros. unfold times_started, times_ended. cbn [count_occ]. repeat (destruct (obs_dec _ _); try discriminate). auto. }
    intros R e i. inversion R as [tr sr Hp Hns|tr Hp|tr t' sr Hp Hp' Hns|tr t' t'' sr Hp Hp' Hp''| |]; subst.
    - destruct (at_once _ e i _ _ Hp) as (A & B & C). destruct e; split; try lia; split; auto; intros; split; auto.
    - destruct (at_once _ e i _ _ (PO _ _ Hp)) as (A & B & C). destruct e; split; try lia; split; auto; intros; split; auto.
    - change (BinsLinked :: t') with ([BinsLinked] ++ t'). rewrite !started_app, !ended_app'. destruct (Z e i) as [-> ->].
      destruct (at_once _ e i _ _ (PO _ _ Hp)) as (A & B & C), (at_once _ e i _ _ Hp') as (A' & B' & C').
      destruct e; split; try lia; split; try lia; intros Hpos; (split; [auto|]); first [apply B; lia | apply B'; lia].
    - change (BinsLinked :: t' ++ t'') with ([BinsLinked] ++ t' ++ t''). rewrite !started_app, !ended_app'. destruct (Z e i) as [-> ->].
      destruct (at_once _ e i _ _ (PO _ _ Hp)) as (A & B & C), (at_once _ e i _ _ (PO _ _ Hp')) as (A' & B' & C'), (at_once _ e i _ _ Hp'') as (A'' & B'' & C'').
      destruct e; split; try lia; split; try lia; intros Hpos; (split; [auto|]); first [apply B; lia | apply B'; lia | apply B''; lia].
    - cbn. split; [lia|]. split; lia.
    - destruct (Z e i) as [-> ->]. split; [lia|]. split; lia.
  Qed.
  Lemma exactly_once t : rebuild false t Succeeded -> forall e i, In i pending -> job_of e i = Script -> times_started e i t = 1 /\ times_ended e i t = 1.
  Proof.
    intros R e i Hi Hj. pose proof (at_most_once _ _ _ R e i) as (M1 & M2 & _).
    assert (G : 1 <= times_ended e i t); [|lia].
    inversion R as [tr sr Hp Hns| |tr t' sr Hp Hp' Hns|tr t' t'' sr Hp Hp' Hp''| |]; subst; try congruence.
    assert (PK : forall e0 t0, phase_ok e0 t0 -> job_of e0 i = Script -> 1 <= times_ended e0 i t0).
    { intros e0 t0 (s & H & Hs & <-) Hj0. rewrite (proj2 (succ_once e0 s i H Hs Hi Hj0)). lia. }
    change (BinsLinked :: t' ++ t'') with ([BinsLinked] ++ t' ++ t''). rewrite !ended_app'.
    destruct e; [pose proof (PK _ _ Hp Hj) | pose proof (PK _ _ Hp' Hj) | pose proof (PK _ _ Hp'' Hj)]; lia.
  Qed.

  (** ** failures *)
  Lemma phase_failed e t : phase_at e t Failed -> (exists i, In i pending /\ job_of e i = NoManifest) \/ exists i, In (Ended e i false) t /\ is_optional g i = false.
  Proof.
    intros (s & H & Hs & <-). pose proof (runs_SI _ _ _ _ _ _ Hnd _ H) as I. destruct (si_failed _ _ _ _ _ _ I Hs) as [(i & Hi & Hj)|(i & Hi)]; [left | right; eauto].
    exists i. split; [|auto]. apply (run_nodup e s H). apply in_app_iff. auto.
  Qed.
  Lemma phase_fine e t st e' i : phase_at e t st -> st <> Failed -> In (Ended e' i false) t -> is_optional g i = true.
  Proof.
    intros (s & H & <- & <-) Hne Hin. pose proof (runs_SI _ _ _ _ _ _ Hnd _ H) as I. pose proof (si_end_ev _ _ _ _ _ _ I _ _ _ Hin) as ->. now apply (si_fine _ _ _ _ _ _ I Hne).
  Qed.
  Lemma required_fails ignore t st e i : rebuild ignore t st -> In (Ended e i false) t -> is_optional g i = false -> st = Failed.
  Proof.
    assert (PO : forall e0 t, phase_ok e0 t -> phase_at e0 t Succeeded) by (intros e0 t0 (s & H & Hs & E); exists s; auto).
    intros R Hin Hopt. assert (Hd : st = Failed \/ st <> Failed) by (destruct st; auto; right; discriminate). destruct Hd as [|Hne]; [auto|exfalso].
    assert (PF : forall e0 t0 st0, phase_at e0 t0 st0 -> st0 <> Failed -> In (Ended e i false) t0 -> False).
    { intros e0 t0 st0 H1 H2 H3. rewrite (phase_fine _ _ _ _ _ H1 H2 H3) in Hopt. discriminate. }
    inversion R as [tr sr Hp Hns|tr Hp|tr t' sr Hp Hp' Hns|tr t' t'' sr Hp Hp' Hp''| |]; subst; try congruence; try (destruct Hin; fail).
    - eapply PF; eauto.
    - apply in_app_iff in Hin. destruct Hin as [Hin|[E|Hin]]; [|discriminate|]; [eapply (PF _ _ _ (PO _ _ Hp)); eauto; discriminate | eapply PF; eauto].
    - apply in_app_iff in Hin. destruct Hin as [Hin|[E|Hin]]; [|discriminate|]; [eapply (PF _ _ _ (PO _ _ Hp)); eauto; discriminate|].
      apply in_app_iff in Hin. destruct Hin as [Hin|Hin]; [eapply (PF _ _ _ (PO _ _ Hp')); eauto; discriminate | eapply PF; eauto].
    - destruct Hin as [E|[]]. discriminate.
  Qed.
  Lemma failed_why ignore t : rebuild ignore t Failed ->
    (exists e i, In (Ended e i false) t /\ is_optional g i = false) \/ (exists e i, In i pending /\ job_of e i = NoManifest)
    \/ (~ In BinsLinked t /\ (ignore = true \/ phase_ok PreInstall t)).
  Proof.
    intros R. inversion R as [tr sr Hp Hns|tr Hp|tr t' sr Hp Hp' Hns|tr t' t'' sr Hp Hp' Hp''| |]; subst.
    - destruct (phase_failed _ _ Hp) as [(i & H)|(i & H)]; eauto 6.
    - right. right. split; [|auto]. destruct Hp as (s & H & _ & <-). apply (run_events _ s H).
    - destruct (phase_failed _ _ Hp') as [(i & H)|(i & H & H')]; [eauto 6|]. left. exists Install, i. split; [apply in_app_iff; right; now right | auto].
    - destruct (phase_failed _ _ Hp'') as [(i & H)|(i & H & H')]; [eauto 6|]. left. exists PostInstall, i. split; [|auto]. apply in_app_iff. right. right. apply in_app_iff. auto.
    - right. right. split; [intros [] | auto].
  Qed.

  (** ** termination *)
  Lemma bounded e ord n s : Permutation ord pending -> ssteps g has_path pending e (job_of e) limit n (sched_init has_path pending ord) s -> n <= 2 * List.length pending + 1.
  Proof. intros Hp H. destruct (steps_bounded g has_path pending e (job_of e) limit Hnd n ord s Hp H). lia. Qed.
  Lemma no_hang e s : (forall i j, In i pending -> In j pending -> depends_on g i j -> depends_on g j i -> i = j) -> runs e s -> sc_status s = Running ->
    exists s', sstep g has_path pending e (job_of e) limit s s'.
  Proof.
    intros Hac H Hs. apply no_deadlock; auto.
    - intros a b c. rewrite !Hpath. apply depends_trans.
    - intros i j Hi Hj Hne H1 H2. apply Hne. apply Hac; auto; now apply Hpath.
    - now apply (runs_SI g has_path pending e (job_of e) limit Hnd).
  Qed.
  Lemma cycle_hangs e i j : In i pending -> In j pending -> i <> j -> depends_on g i j -> depends_on g j i -> forall s, runs e s -> sc_status s <> Succeeded.
  Proof.
    intros Hi Hj Hne H1 H2 s Hs. apply (cycle_never g has_path pending e (job_of e) limit Hnd s i j); auto; now apply Hpath.
  Qed.
End Facts.
