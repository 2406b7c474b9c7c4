(** * Install scripts: invariant of the scheduler *)
From Verif Require Import Base Types ResolverModel ScriptsModel.
From Coq Require Import Permutation.

(** [depends_on g a b]: b is a, or a dependency of a, or a dependency of a dependency of a, ... *)
Inductive depends_on (g : graph) : nat -> nat -> Prop :=
| dep_refl a : depends_on g a a
| dep_step a b c e : In e (g_edges g) -> e_from e = a -> e_to e = b -> depends_on g b c -> depends_on g a c.
Lemma depends_trans g a b c : depends_on g a b -> depends_on g b c -> depends_on g a c.
Proof. induction 1; auto. intros. eapply dep_step; eauto. Qed.

Lemma NoDup_app_remove_l A (l l' : list A) : NoDup (l ++ l') -> NoDup l'.
Proof. induction l as [|a t IH]; cbn; [auto|]. intros H. inversion H; auto. Qed.
Lemma neqb_spec a b : Nat.eqb a b = true <-> a = b.
Proof. apply Nat.eqb_eq. Qed.
Lemma ndel_eq V k (l : list (nat * V)) : aget Nat.eqb k (adel Nat.eqb k l) = None.
Proof. apply aget_adel_eq, neqb_spec. Qed.

Lemma adel_perm V k (v : V) l : NoDup (map fst l) -> aget Nat.eqb k l = Some v -> Permutation (map fst l) (k :: map fst (adel Nat.eqb k l)).
Proof.
  induction l as [|[a w] t IH]; cbn; [discriminate|]. intros Hn H. inversion Hn as [|? ? Hni Hnd]; subst.
  destruct (Nat.eqb_spec k a) as [->|Hne].
  - injection H as ->. cbn. assert (E : adel Nat.eqb a t = t).
    { unfold adel. clear IH Hnd Hn. induction t as [|[b u] t IH]; cbn in *; [easy|].
      destruct (Nat.eqb_spec a b); [subst; tauto|]. cbn. rewrite IH; auto. all: intuition. }
    unfold adel in E. rewrite E. apply Permutation_refl.
  - cbn. eapply perm_trans; [apply perm_skip, IH; auto | apply perm_swap].
Qed.
Lemma aput_keys V k (v : V) l w : aget Nat.eqb k l = Some w -> map fst (aput Nat.eqb k v l) = map fst l.
Proof.
  induction l as [|[a u] t IH]; cbn; [discriminate|]. destruct (Nat.eqb k a); cbn; [auto|]. intros H. now rewrite IH.
Qed.

Definition no1 (i : nat) (ds : list nat) := filter (fun x => negb (Nat.eqb x i)) ds.
Lemma no1_in i ds x : In x (no1 i ds) <-> In x ds /\ x <> i.
Proof. unfold no1. rewrite filter_In, negb_true_iff, Nat.eqb_neq. tauto. Qed.

Lemma unblock_spec i : forall ord rem0 sent0 rem sent, NoDup ord -> NoDup (map fst rem0) ->
  fold_left (unblock1 i) ord (rem0, sent0) = (rem, sent) ->
  NoDup (map fst rem)
  /\ (exists new, sent = sent0 ++ new /\ Permutation (map fst rem0) (new ++ map fst rem)
       /\ forall d, In d new -> In d ord /\ exists ds, aget Nat.eqb d rem0 = Some ds /\ no1 i ds = [])
  /\ forall d ds, aget Nat.eqb d rem = Some ds ->
       (~ In d ord /\ aget Nat.eqb d rem0 = Some ds)
       \/ (In d ord /\ ds <> [] /\ exists ds0, aget Nat.eqb d rem0 = Some ds0 /\ ds = no1 i ds0).
Proof.
  induction ord as [|a t IH]; intros rem0 sent0 rem sent Hno Hn H; cbn in H.
  - injection H as <- <-. split; [auto|]. split; [|intros d ds E; left; split; [intros [] | auto]].
    exists []. rewrite app_nil_r. repeat split; auto; destruct H.
  - inversion Hno as [|? ? Hni Hnt]; subst.
    destruct (aget Nat.eqb a rem0) as [ds0|] eqn:Ea.
    + fold (no1 i ds0) in H. destruct (no1 i ds0) as [|y l] eqn:Ef.
      * pose proof (adel_perm _ _ _ _ Hn Ea) as Hp.
        assert (Hn' : NoDup (map fst (adel Nat.eqb a rem0))).
        { apply (Permutation_NoDup Hp) in Hn. now inversion Hn. }
        destruct (IH _ _ _ _ Hnt Hn' H) as (R1 & (new & -> & R2 & R3) & R4). split; [auto|]. split.
        -- exists (a :: new). rewrite <- app_assoc. split; [reflexivity|]. split.
           ++ eapply perm_trans; [exact Hp|]. cbn. now apply perm_skip.
           ++ intros d [<-|Hd]; [split; [now left | eauto]|]. destruct (R3 d Hd) as (Hd1 & ds & Hd2 & Hd3). split; [now right|].
              exists ds. split; [|auto]. rewrite aget_adel_neq in Hd2; [auto | apply neqb_spec |]. intros ->. contradiction.
        -- intros d ds E. assert (Hda : d <> a \/ d = a) by lia. destruct Hda as [Hda| ->].
           ++ destruct (R4 d ds E) as [[H1 H2]|(H1 & H2 & dd & H3 & H4)].
              ** left. rewrite aget_adel_neq in H2 by (auto using neqb_spec). split; [|auto]. intros [->|]; auto.
              ** right. rewrite aget_adel_neq in H3 by (auto using neqb_spec). split; [now right|]. eauto.
           ++ destruct (R4 a ds E) as [[_ H2]|(H1 & _)]; [rewrite ndel_eq in H2; discriminate | contradiction].
      * pose proof (aput_keys _ a (y :: l) rem0 _ Ea) as Hk.
        assert (Hn' : NoDup (map fst (aput Nat.eqb a (y :: l) rem0))) by now rewrite Hk.
        destruct (IH _ _ _ _ Hnt Hn' H) as (R1 & (new & -> & R2 & R3) & R4). split; [auto|]. split.
        -- exists new. split; [auto|]. rewrite Hk in R2. split; [auto|].
           intros d Hd. destruct (R3 d Hd) as (Hd1 & ds & Hd2 & Hd3). split; [now right|].
           assert (d <> a) by (intros ->; contradiction). rewrite aget_aput_neq in Hd2 by (auto using neqb_spec). eauto.
        -- intros d ds E. assert (Hda : d <> a \/ d = a) by lia. destruct Hda as [Hda| ->].
           ++ destruct (R4 d ds E) as [[H1 H2]|(H1 & H2 & dd & H3 & H4)].
              ** left. rewrite aget_aput_neq in H2 by (auto using neqb_spec). split; [|auto]. intros [->|]; auto.
              ** right. rewrite aget_aput_neq in H3 by (auto using neqb_spec). split; [now right|]. eauto.
           ++ destruct (R4 a ds E) as [[_ H2]|(H1 & _)]; [|contradiction]. rewrite aget_aput_eq in H2 by apply neqb_spec.
              injection H2 as <-. right. split; [now left|]. split; [discriminate|]. exists ds0. auto.
    + destruct (IH _ _ _ _ Hnt Hn H) as (R1 & (new & -> & R2 & R3) & R4). split; [auto|]. split.
      * exists new. split; [auto|]. split; [auto|]. intros d Hd. destruct (R3 d Hd) as (Hd1 & Hd2). split; [now right | auto].
      * intros d ds E. assert (Hda : d <> a \/ d = a) by lia. destruct Hda as [Hda| ->].
        -- destruct (R4 d ds E) as [[H1 H2]|(H1 & H2)]; [left; split; [intros [->|]; auto | auto] | right; split; [now right | auto]].
        -- destruct (R4 a ds E) as [[_ H2]|(H1 & _)]; [congruence | contradiction].
Qed.

Section Inv.
  Variable g : graph.
  Variable has_path : nat -> nat -> bool.
  Variable pending : list nat.
  Variable ev : event.
  Variable job_of : nat -> job.
  Variable limit : nat.
  Hypothesis Hnd : NoDup pending.
  Notation sstep := (sstep g has_path pending ev job_of limit).
  Notation ssteps := (ssteps g has_path pending ev job_of limit).
  Notation runs := (runs g has_path pending ev job_of limit).
  Notation dependencies := (dependencies has_path pending).
  Notation dependents := (dependents has_path pending).

  Lemma dependencies_in i x : In x (dependencies i) <-> In x pending /\ x <> i /\ has_path i x = true.
  Proof. unfold dependencies. rewrite filter_In, andb_true_iff, negb_true_iff, Nat.eqb_neq. tauto. Qed.
  Lemma dependents_in i x : In x (dependents i) <-> In x pending /\ x <> i /\ has_path x i = true.
  Proof. unfold dependents. rewrite filter_In, andb_true_iff, negb_true_iff, Nat.eqb_neq. tauto. Qed.

  Definition is_script (i : nat) : bool := match job_of i with Script => true | _ => false end.
  (** the packages whose script began / ended, in order *)
  Definition began (t : list obs) : list nat := flat_map (fun o => match o with Began _ i => [i] | _ => [] end) t.
  Definition ended (t : list obs) : list nat := flat_map (fun o => match o with Ended _ i _ => [i] | _ => [] end) t.

  Arguments began : simpl never.
  Arguments ended : simpl never.
  Record SI (s : sched) : Prop := {
    si_perm : Permutation pending (sc_queue s ++ sc_running s ++ sc_done s ++ map fst (sc_remaining s));
    si_rem : forall d ds, aget Nat.eqb d (sc_remaining s) = Some ds ->
      ds <> [] /\ forall x, In x ds <-> In x (dependencies d) /\ ~ In x (sc_done s);
    si_ready : forall d, In d (sc_queue s) -> forall x, In x (dependencies d) -> In x (sc_done s);
    si_closed : sc_closed s = true <-> sc_remaining s = [];
    si_began : Permutation (began (sc_trace s)) (filter is_script (sc_running s ++ sc_done s));
    si_ended : ended (sc_trace s) = filter is_script (sc_done s);
    si_order : forall t1 t2 e i, sc_trace s = t1 ++ Began e i :: t2 -> e = ev /\ forall x, In x (dependencies i) -> is_script x = true ->
      exists ok, In (Ended ev x ok) t1 /\ (ok = true \/ is_optional g x = true);
    si_end_ev : forall e i ok, In (Ended e i ok) (sc_trace s) -> e = ev;
    si_nobins : ~ In BinsLinked (sc_trace s);
    si_failed : sc_status s = Failed -> (exists i, In i (sc_done s) /\ job_of i = NoManifest)
                  \/ exists i, In (Ended ev i false) (sc_trace s) /\ is_optional g i = false;
    si_fine : sc_status s <> Failed -> (forall i, In i (sc_done s) -> job_of i <> NoManifest)
                  /\ forall i, In (Ended ev i false) (sc_trace s) -> is_optional g i = true;
    si_succ : sc_status s = Succeeded -> sc_queue s = [] /\ sc_running s = [] /\ sc_remaining s = [] }.

  Lemma rem_nodup s : Permutation pending (sc_queue s ++ sc_running s ++ sc_done s ++ map fst (sc_remaining s)) -> NoDup (map fst (sc_remaining s)).
  Proof.
    intros H. apply (Permutation_NoDup H) in Hnd. clear H. rewrite !app_assoc in Hnd. now apply NoDup_app_remove_l in Hnd.
  Qed.

  Lemma filter_split {A} (f : A -> bool) l : Permutation l (filter f l ++ filter (fun x => negb (f x)) l).
  Proof.
    induction l as [|a t IH]; cbn; [constructor|]. destruct (f a); cbn; [now apply perm_skip|].
    eapply perm_trans; [apply perm_skip, IH|]. apply Permutation_middle.
  Qed.
  Lemma aget_map_in (f : nat -> list nat) l d ds : aget Nat.eqb d (map (fun i => (i, f i)) l) = Some ds -> In d l /\ ds = f d.
  Proof.
    induction l as [|a t IH]; cbn; [discriminate|]. destruct (Nat.eqb_spec d a) as [->|]; [intros E; injection E as <-; auto|].
    intros E. destruct (IH E). auto.
  Qed.

  Lemma init_SI ord : Permutation ord pending -> SI (sched_init has_path pending ord).
  Proof.
    intros Hp. unfold sched_init. set (ready := fun i => match dependencies i with [] => true | _ => false end).
    constructor; cbn; auto; try discriminate; try (intros; exfalso; congruence).
    - rewrite map_map. cbn. rewrite map_id. eapply perm_trans; [apply Permutation_sym, Hp|]. apply filter_split.
    - intros d ds E. apply aget_map_in in E. destruct E as [Hin ->]. apply filter_In in Hin. destruct Hin as [_ Hr].
      unfold ready in Hr. split; [destruct (dependencies d); discriminate|]. intros x. cbn. tauto.
    - intros d Hin x Hx. apply filter_In in Hin. destruct Hin as [_ Hr]. unfold ready in Hr. destruct (dependencies d); [destruct Hx | discriminate].
    - destruct (map _ _); split; intros E; congruence.
    - intros t1 t2 e i E. destruct t1; discriminate.
  Qed.

  Lemma began_app a b : began (a ++ b) = began a ++ began b.
  Proof. apply flat_map_app. Qed.
  Lemma ended_app a b : ended (a ++ b) = ended a ++ ended b.
  Proof. apply flat_map_app. Qed.

  (** splitting a trace extended by at most one observation *)
  Lemma snoc_split A (t t1 t2 : list A) y x : t ++ [y] = t1 ++ x :: t2 ->
    (exists t2', t = t1 ++ x :: t2') \/ (t1 = t /\ [y] = [x]).
  Proof.
    intros E. destruct t2 as [|z t2] using rev_ind.
      + apply app_inj_tail in E. destruct E as [-> ->]. auto.
      + clear IHt2. left. replace (t1 ++ x :: t2 ++ [z]) with ((t1 ++ x :: t2) ++ [z]) in E by (rewrite <- app_assoc; reflexivity).
        apply app_inj_tail in E. destruct E as [-> _]. eauto.
  Qed.

  Lemma step_SI s s' : sstep s s' -> SI s -> SI s'.
  Proof.
    intros H [Hp Hrem Hready Hcl Hb He Ho Hev Hnb Hf Hok Hs]. destruct H; cbn in *.
    - (* start *)
      constructor; cbn; auto; try discriminate.
      + eapply perm_trans; [exact Hp|]. rewrite <- (app_assoc r [i]). cbn [List.app]. rewrite (app_assoc q r), (app_assoc q r). apply (Permutation_middle (q ++ r)).
      + intros dd Hdd. apply Hready. now right.
      + rewrite began_app. unfold is_script in *. rewrite <- app_assoc. cbn. rewrite filter_app. cbn. rewrite filter_app in Hb.
        destruct (job_of i) eqn:Ej; cbn; try (rewrite app_nil_r; exact Hb).
        eapply perm_trans; [apply Permutation_app; [exact Hb | apply Permutation_refl]|].
        rewrite <- app_assoc. apply Permutation_app_head. apply Permutation_sym, Permutation_cons_append.
      + rewrite ended_app, He. destruct (job_of i); cbn; now rewrite app_nil_r.
      + intros t1 t2 e j E. destruct (job_of i) eqn:Ej; try (rewrite app_nil_r in E; eauto; fail).
        destruct (snoc_split _ _ _ _ _ _ E) as [[t2' E']|[-> E']]; [eauto|]. injection E' as <- <-. split; [auto|].
        intros x Hx Hsx. assert (Hin : In x (ended t)) by (rewrite He; apply filter_In; split; [|auto]; eapply Hready; eauto).
        unfold ended in Hin. apply in_flat_map in Hin. destruct Hin as (o & Ho1 & Ho2). destruct o as [|e x' ok|]; try (destruct Ho2; fail).
        destruct Ho2 as [<-|[]]. pose proof (Hev _ _ _ Ho1) as ->. exists ok. split; [auto|]. destruct ok; [auto|]. right. now apply Hok.
      + intros e j ok Hin. apply in_app_iff in Hin. destruct Hin as [Hin|Hin]; [eauto|]. destruct (job_of i); cbn in Hin; [tauto | tauto | destruct Hin as [E|[]]; discriminate].
      + rewrite in_app_iff. intros [Hin|Hin]; [auto|]. destruct (job_of i); cbn in Hin; [tauto | tauto | destruct Hin as [E|[]]; discriminate].
      + intros Hne. destruct (Hok Hne) as [A B]. split; [auto|]. intros j Hin. apply B.
        apply in_app_iff in Hin. destruct Hin as [Hin|Hin]; [auto|]. destruct (job_of i); cbn in Hin; [tauto | tauto | destruct Hin as [E|[]]; discriminate].
    - (* finish *)
      pose proof (rem_nodup (mkSched q (r1 ++ i :: r2) rem cl Running d t) Hp) as Hrn. cbn in Hrn.
      assert (Hno : NoDup ord).
      { apply (Permutation_NoDup (Permutation_sym H)). unfold ScriptsModel.dependents. now apply NoDup_filter. }
      assert (Hpn : NoDup (q ++ (r1 ++ i :: r2) ++ d ++ map fst rem)) by (eapply Permutation_NoDup; eauto).
      assert (Hid : ~ In i d).
      { rewrite <- !app_assoc in Hpn. cbn in Hpn. apply NoDup_app_remove_l in Hpn. apply NoDup_app_remove_l in Hpn.
        inversion Hpn as [|? ? Hni _]; subst. rewrite !in_app_iff in Hni. tauto. }
      assert (Hip : In i pending).
      { eapply Permutation_in; [apply Permutation_sym, Hp|]. rewrite !in_app_iff. right. left. right. now left. }
      unfold unblock in H0. destruct (unblock_spec i ord rem [] rem' sent Hno Hrn H0) as (Rn & (new & E1 & Rp & Rnew) & Rget). cbn in E1. subst sent.
      assert (Hordin : forall x, In x ord <-> In x pending /\ x <> i /\ has_path x i = true).
      { intros x. rewrite <- dependents_in. split; apply Permutation_in; [auto | now apply Permutation_sym]. }
      assert (Hkeep : forall dd ds, aget Nat.eqb dd rem = Some ds -> In dd pending).
      { intros dd ds E. eapply Permutation_in; [apply Permutation_sym, Hp|]. rewrite !in_app_iff. right. right. right.
        apply aget_In in E; [|apply neqb_spec]. change dd with (fst (dd, ds)). now apply in_map. }
      assert (Hsent : new <> [] -> rem <> []).
      { intros Hne ->. destruct new; [congruence|]. apply Permutation_nil in Rp. discriminate. }
      assert (Hcs : cl && match new with [] => false | _ => true end = false).
      { destruct cl; [|reflexivity]. destruct new as [|y l]; [reflexivity|]. exfalso. apply Hsent; [discriminate | now apply Hcl]. }
      rewrite Hcs. cbn [orb].
      constructor; cbn.
      + eapply perm_trans; [exact Hp|]. apply (Permutation_count_occ Nat.eq_dec). intros x.
        apply (proj1 (Permutation_count_occ Nat.eq_dec _ _)) with (x := x) in Rp. rewrite !count_occ_app in *. cbn.
        destruct (Nat.eq_dec i x); cbn; lia.
      + intros dd ds E. destruct (Rget dd ds E) as [[Hn E0]|(Hin & Hne & ds0 & E0 & ->)].
        * destruct (Hrem dd ds E0) as [Hne Hiff]. split; [auto|]. intros x. rewrite Hiff, in_app_iff. cbn.
          split; [|tauto]. intros [Hx Hxd]. split; [auto|]. intros [|[<-|[]]]; [auto|].
          apply Hn, Hordin. apply dependencies_in in Hx. destruct Hx as (_ & Hne' & Hpath). split; [|auto]. eapply Hkeep; eauto.
        * destruct (Hrem dd ds0 E0) as [_ Hiff]. split; [auto|]. intros x. rewrite no1_in, Hiff, in_app_iff. cbn. intuition congruence.
      + intros dd Hin x Hx. apply in_app_iff in Hin. rewrite in_app_iff. destruct Hin as [Hin|Hin]; [left; eauto|].
        destruct (Rnew dd Hin) as (_ & ds & E0 & Hnil). destruct (Hrem dd ds E0) as [_ Hiff].
        destruct (in_dec Nat.eq_dec x d) as [|Hxd]; [auto|]. right. left.
        destruct (Nat.eq_dec x i) as [|Hne]; [auto|]. exfalso.
        assert (Hx' : In x (no1 i ds)) by (apply no1_in; split; [apply Hiff; auto | auto]). rewrite Hnil in Hx'. destruct Hx'.
      + rewrite orb_true_iff. split.
        * intros [Hc|Hc]; [|destruct rem'; congruence]. apply Hcl in Hc. subst rem. apply Permutation_nil in Rp.
          apply app_eq_nil in Rp. destruct Rp as [_ Rp]. destruct rem'; [auto | discriminate].
        * intros ->. auto.
      + rewrite began_app. assert (E : began (match job_of i with Script => [Ended ev i ok] | _ => [] end) = []) by (destruct (job_of i); reflexivity).
        rewrite E, app_nil_r. eapply perm_trans; [exact Hb|]. rewrite !filter_app. rewrite <- !app_assoc. cbn.
        destruct (is_script i); [|cbn; now rewrite app_nil_r].
        apply Permutation_app_head. cbn. eapply perm_trans; [apply Permutation_cons_append|]. now rewrite <- app_assoc.
      + rewrite ended_app, He, filter_app. cbn. unfold is_script at 3. destruct (job_of i); reflexivity.
      + intros t1 t2 e j E. destruct (job_of i) eqn:Ej; try (rewrite app_nil_r in E; eauto; fail).
        destruct (snoc_split _ _ _ _ _ _ E) as [[t2' E']|[-> E']]; [eauto | discriminate].
      + intros e j k Hin. apply in_app_iff in Hin. destruct Hin as [Hin|Hin]; [eauto|].
        destruct (job_of i); try (destruct Hin; fail). destruct Hin as [E|[]]. congruence.
      + rewrite in_app_iff. intros [Hin|Hin]; [auto|]. destruct (job_of i); cbn in Hin; [tauto | tauto | destruct Hin as [E|[]]; discriminate].
      + destruct (job_result g job_of i ok) eqn:Ej; cbn; [discriminate|]. intros _. unfold job_result in Ej.
        destruct (job_of i) eqn:Eji; [left; exists i; rewrite in_app_iff; cbn; auto | discriminate | right; exists i].
        apply orb_false_iff in Ej. destruct Ej as [-> Ho']. split; [apply in_app_iff; right; now left | auto].
      + destruct (job_result g job_of i ok) eqn:Ej; cbn; [|congruence]. intros _.
        destruct (Hok ltac:(discriminate)) as [A B]. unfold job_result in Ej. split.
        * intros j Hj. apply in_app_iff in Hj. destruct Hj as [Hj|[<-|[]]]; [auto|]. destruct (job_of i); discriminate.
        * intros j Hj. apply in_app_iff in Hj. destruct Hj as [Hj|Hj]; [auto|]. destruct (job_of i); try (destruct Hj; fail).
          destruct Hj as [E|[]]. injection E as -> ->. exact Ej.
      + destruct (job_result g job_of i ok); discriminate.
    - constructor; cbn; auto; try discriminate.
      + intros _. apply Hok. discriminate.
      + intros _. split; [auto|]. split; [auto|]. now apply Hcl.
  Qed.

  Lemma runs_SI s : runs s -> SI s.
  Proof.
    intros (ord & n & Hp & H). remember (sched_init has_path pending ord) as s0. induction H; subst.
    - now apply init_SI.
    - eapply step_SI; eauto.
  Qed.

  (** ** termination: every step decreases this measure *)
  Definition measure (s : sched) : nat :=
    2 * List.length (sc_remaining s) + 2 * List.length (sc_queue s) + List.length (sc_running s) + match sc_status s with Running => 1 | _ => 0 end.
  Lemma step_measure s s' : SI s -> sstep s s' -> measure s' < measure s.
  Proof.
    intros I H. destruct H; unfold measure; cbn.
    - rewrite app_length. cbn. lia.
    - pose proof (rem_nodup _ (si_perm _ I)) as Hrn. cbn in Hrn.
      assert (Hno : NoDup ord).
      { apply (Permutation_NoDup (Permutation_sym H)). unfold ScriptsModel.dependents. now apply NoDup_filter. }
      unfold unblock in H0. destruct (unblock_spec i ord rem [] rem' sent Hno Hrn H0) as (_ & (new & E1 & Rp & _) & _). cbn in E1. subst sent.
      apply Permutation_length in Rp. rewrite app_length, !map_length in Rp. rewrite !app_length. cbn [List.length]. destruct ((cl && _) || _); lia.
    - lia.
  Qed.
  Lemma steps_bounded n ord s : Permutation ord pending -> ssteps n (sched_init has_path pending ord) s -> SI s /\ n + measure s <= 2 * List.length pending + 1.
  Proof.
    intros Hp H. remember (sched_init has_path pending ord) as s0. induction H as [s|n s s' s'' H IH Hst]; subst.
    - split; [now apply init_SI|]. unfold sched_init, measure. cbn. rewrite map_length.
      pose proof (Permutation_length (filter_split (fun i => match dependencies i with [] => true | _ => false end) ord)) as E.
      rewrite app_length in E. apply Permutation_length in Hp. lia.
    - destruct (IH eq_refl) as [I Hm]. split; [eapply step_SI; eauto|]. pose proof (step_measure _ _ I Hst). lia.
  Qed.

  (** ** progress without cycles *)
  Lemma no_deadlock s : (forall a b c, has_path a b = true -> has_path b c = true -> has_path a c = true) ->
    (forall i j, In i pending -> In j pending -> i <> j -> has_path i j = true -> has_path j i = true -> False) ->
    SI s -> sc_status s = Running -> exists s', sstep s s'.
  Proof.
    intros Htr Hac I Hrun. destruct s as [q r rem cl st d t]. cbn in Hrun. subst st.
    pose proof (si_perm _ I) as Hp. cbn in Hp.
    destruct r as [|i r].
    - destruct q as [|i q].
      + destruct rem as [|[d0 ds0] rem].
        * assert (cl = true) by (now apply (si_closed _ I)). subst. eexists. apply s_end.
        * exfalso. cbn in Hp.
          assert (Hmin : forall n d1 ds1, List.length (dependencies d1) <= n -> aget Nat.eqb d1 ((d0, ds0) :: rem) = Some ds1 -> False).
          { induction n as [|n IH]; intros d1 ds1 Hl E; destruct (si_rem _ I d1 ds1 E) as [Hne Hiff]; cbn in Hiff;
              (destruct ds1 as [|x l]; [congruence|]); destruct (proj1 (Hiff x) (or_introl eq_refl)) as [Hx Hxd].
            - destruct (dependencies d1); [destruct Hx | cbn in Hl; lia].
            - assert (Hd1p : In d1 pending).
              { eapply Permutation_in; [apply Permutation_sym, Hp|]. apply in_app_iff. right.
                apply aget_In in E; [|apply neqb_spec]. change d1 with (fst (d1, x :: l)). change (d0 :: map fst rem) with (map fst ((d0, ds0) :: rem)). now apply in_map. }
              pose proof (proj1 (dependencies_in _ _) Hx) as (Hxp & Hxne & Hxpath).
              assert (Hxin : In x (map fst ((d0, ds0) :: rem))).
              { apply (Permutation_in _ Hp) in Hxp. apply in_app_iff in Hxp. destruct Hxp; [contradiction | auto]. }
              destruct (aget Nat.eqb x ((d0, ds0) :: rem)) as [ds2|] eqn:E2; [|apply aget_None in E2; [contradiction | apply neqb_spec]].
              apply (IH x ds2); [|auto].
              assert (Hincl : incl (x :: dependencies x) (dependencies d1)).
              { intros y [<-|Hy]; [auto|]. apply dependencies_in in Hy. destruct Hy as (Hyp & Hyne & Hyx). apply dependencies_in.
                split; [auto|]. split; [|eapply Htr; eauto]. intros ->. eapply (Hac d1 x); eauto. }
              assert (NoDup (x :: dependencies x)).
              { constructor; [|unfold ScriptsModel.dependencies; now apply NoDup_filter]. intros Hy. apply dependencies_in in Hy. tauto. }
              pose proof (NoDup_incl_length H Hincl) as Hlen. cbn in Hlen. lia. }
          apply (Hmin (List.length (dependencies d0)) d0 ds0); [lia|]. cbn. now rewrite Nat.eqb_refl.
      + eexists. apply s_start. destruct limit; [auto | right; cbn; lia].
    - destruct (unblock i (dependents i) rem) as [rem' sent] eqn:E. eexists. apply (s_finish g has_path pending ev job_of limit q [] i r rem cl d t true (dependents i) rem' sent); auto.
  Qed.

  (** ** with a cycle among the packages to rebuild, run_scripts can never succeed *)
  Lemma cycle_never s i j : In i pending -> In j pending -> i <> j -> has_path i j = true -> has_path j i = true -> runs s ->
    ~ In i (sc_done s) /\ ~ In j (sc_done s) /\ ~ In i (sc_running s) /\ ~ In j (sc_running s) /\ ~ In i (sc_queue s) /\ ~ In j (sc_queue s) /\ sc_status s <> Succeeded.
  Proof.
    intros Hi Hj Hne Hij Hji (ord & n & Hp & H).
    assert (G : SI s /\ ~ In i (sc_queue s ++ sc_running s ++ sc_done s) /\ ~ In j (sc_queue s ++ sc_running s ++ sc_done s)).
    { remember (sched_init has_path pending ord) as s0. induction H as [s|n s s' s'' H IH Hst]; subst.
      - split; [now apply init_SI|]. unfold sched_init. cbn. rewrite !app_nil_r, !filter_In.
        assert (In j (dependencies i)) by (apply dependencies_in; auto). assert (In i (dependencies j)) by (apply dependencies_in; auto).
        split; intros [_ E]; [destruct (dependencies i) | destruct (dependencies j)]; try discriminate; contradiction.
      - destruct (IH eq_refl) as (I & N1 & N2). pose proof (step_SI _ _ Hst I) as I'. split; [exact I'|].
        pose proof (si_ready _ I') as Hr.
        assert (Hq : forall k, In k (sc_queue s'') -> k <> i /\ k <> j).
        { intros k Hk. split; intros ->; (assert (Hd : In j (sc_done s'') \/ In i (sc_done s''))); try (left; apply (Hr i Hk); apply dependencies_in; auto);
            try (right; apply (Hr j Hk); apply dependencies_in; auto); clear Hr I'; destruct Hst; cbn in *; rewrite ?in_app_iff in *; cbn in *; rewrite ?in_app_iff in *; intuition subst; tauto. }
        assert (Hrest : forall k, k = i \/ k = j -> ~ In k (sc_running s'' ++ sc_done s'')).
        { intros k Hk Hin. clear Hr I' Hq. destruct Hst; cbn in *; rewrite ?in_app_iff in *; cbn in *; rewrite ?in_app_iff in *; destruct Hk; subst; intuition subst; tauto. }
        split; intros Hin; apply in_app_iff in Hin; destruct Hin as [Hin|Hin].
        + apply Hq in Hin. tauto.
        + eapply Hrest; [|exact Hin]; auto.
        + apply Hq in Hin. tauto.
        + eapply Hrest; [|exact Hin]; auto. }
    destruct G as (I & N1 & N2). rewrite !in_app_iff in N1, N2. repeat split; try tauto.
    intros Hs. destruct (si_succ _ I Hs) as (E1 & E2 & E3). pose proof (si_perm _ I) as Hpp. rewrite E1, E2, E3 in Hpp. cbn in Hpp. rewrite app_nil_r in Hpp.
    apply (Permutation_in _ Hpp) in Hi. tauto.
  Qed.
End Inv.
