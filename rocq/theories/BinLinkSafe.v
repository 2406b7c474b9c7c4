(** * Linking bins: when no system call fails *)
From Verif Require Import Base Types ResolverModel ResolverProofs PathLookup Fs StdPath BinModel IsolatedModel BinLinkModel BinLinkProofs.
From Coq Require Import Lia Permutation.
Open Scope string_scope.
Open Scope list_scope.
Set Implicit Arguments.

(** no two tasks at work share a directory *)
Definition shares (js js' : list job) : Prop := exists j j', In j js /\ In j' js' /\ j_dir j = j_dir j'.
Definition exclusive (w : lw) : Prop := forall l1 t l2 t' l3, l_live w = l1 ++ t :: l2 ++ t' :: l3 -> ~ shares (fst t) (fst t').

Section Safe.
  Variable all : list job.
  Variable f0 : fs.
  Hypothesis Hne : forall j, In j all -> j_dir j <> [].
  Hypothesis Hdd : forall j j', In j all -> In j' all -> prefix (j_dir j) (j_dir j') -> j_dir j = j_dir j'.
  Hypothesis Hdf : forall j j', In j all -> In j' all -> ~ prefix (j_dir j) (j_from j').
  Hypothesis Hfd : forall j j', In j all -> In j' all -> ~ prefix (j_from j') (j_dir j).
  (** the directories above are there, the directories themselves are not *)
  Hypothesis Hup : forall j q, In j all -> prefix q (j_dir j) -> q <> j_dir j -> q <> [] -> f0 q = Some EDir.
  Hypothesis Hfresh : forall j, In j all -> f0 (j_dir j) = None.

  (** what a task knows at each point *)
  Definition knows (f : fs) (c : list path) (j : job) (p : pc) : Prop :=
    match p with
    | AtFrom | AtCache => True
    | AtParent | AtMk | AtMkAll => ~ In (j_dir j) c
    | AtIns | AtInsAll => ~ In (j_dir j) c /\ f (j_dir j) = Some EDir
    | AtTo => f (j_dir j) = Some EDir
    | AtRmDir => f (j_dir j) = Some EDir /\ f (j_to j) = Some EDir
    | AtRmFile => f (j_dir j) = Some EDir /\ f (j_to j) <> None /\ f (j_to j) <> Some EDir
    | AtChmod | AtLink => f (j_dir j) = Some EDir /\ f (j_to j) = None
    end.
  Definition busy (p : pc) : Prop := p = AtIns \/ p = AtInsAll.
  Record sinv (w : lw) : Prop := {
    s_inv : linv all f0 w;
    s_knows : forall j js p, In (j :: js, p) (l_live w) -> knows (l_fs w) (l_cache w) j p;
    s_cached : forall j, In j all -> In (j_dir j) (l_cache w) -> l_fs w (j_dir j) = Some EDir;
    s_new : forall j, In j all -> In (j_dir j) (l_cache w) \/ l_fs w (j_dir j) = None
              \/ exists j' js p, In (j' :: js, p) (l_live w) /\ j_dir j' = j_dir j /\ busy p
  }.
  Lemma up_dir w j : linv all f0 w -> In j all -> is_dir (l_fs w) (removelast (j_dir j)) = true.
  Proof.
    intros I H. unfold is_dir. destruct (removelast (j_dir j)) as [|x r] eqn:E; [reflexivity|].
    assert (Hp : j_dir j = (x :: r) ++ [List.last (j_dir j) ""]) by (rewrite <- E; apply app_removelast_last; auto).
    assert (P : prefix (x :: r) (j_dir j)) by (rewrite Hp; apply prefix_app).
    assert (Z : f0 (x :: r) = Some EDir).
    { apply (@Hup j); auto; [|discriminate]. intros C. rewrite <- C in Hp. apply (f_equal (@List.length _)) in Hp. rewrite app_length in Hp. cbn in Hp. lia. }
    destruct (v_up I _ H P) as [Q|[Q _]]; [rewrite Q, Z; reflexivity | congruence].
  Qed.
  Lemma no_way w j : linv all f0 w -> In j all -> in_the_way (l_fs w) (j_dir j) = false.
  Proof.
    intros I H. apply way_spec. intros q P N.
    assert (Z : f0 q = None \/ f0 q = Some EDir).
    { destruct (path_eq_dec q (j_dir j)) as [->|M]; [left; auto | right; eapply Hup; eauto]. }
    destruct (v_up I _ H P) as [Q|[_ Q]]; [rewrite Q; auto | auto].
  Qed.
  (** one system call of [j] that goes well does not disturb a task in another directory *)
  Lemma knows_other f f' c c' j j' p : In j all -> In j' all -> touch f f' j -> j_dir j <> j_dir j' ->
    (In (j_dir j') c' -> In (j_dir j') c) -> knows f c j' p -> knows f' c' j' p.
  Proof.
    intros H H' T N C K.
    assert (D : f' (j_dir j') = f (j_dir j')).
    { apply (t_out T); [intros P; apply N; symmetry; auto|]. intros P. apply N. apply Hdd; auto. eapply prefix_trans; [apply dir_to | exact P]. }
    assert (E : f' (j_to j') = f (j_to j')).
    { apply (@to_safe all Hdd f f' j j'); auto. intros E. apply N. apply (f_equal (@removelast _)) in E. now rewrite !to_parent in E. }
    destruct p; cbn in *; rewrite ?D, ?E; tauto.
  Qed.
  Lemma tdone_in c (j j' : job) : In j all -> In j' all -> j_dir j <> j_dir j' -> In (j_dir j') (ancestors (j_dir j) ++ c) -> In (j_dir j') c.
  Proof. intros H H' N Hin. apply in_app_or in Hin. destruct Hin as [Hin|Hin]; [|auto]. apply ancestors_spec in Hin. destruct N. symmetry. auto. Qed.

  Variable conc : nat.
  Lemma never_fails w : sinv w -> exclusive w -> ~ fails w.
  Proof.
    intros [I K C N] X (l1 & l2 & j & js & p & El & E).
    assert (Hin : In (j :: js, p) (l_live w)) by (rewrite El; apply in_or_app; right; left; reflexivity).
    assert (Hj : In j all) by (eapply (v_live I); [exact Hin | now left]).
    pose proof (K _ _ _ Hin) as Kp. destruct p; cbn in E, Kp; try discriminate E.
    - destruct (exists_ _ _); discriminate E.
    - destruct (cached _ _); discriminate E.
    - destruct (cached _ _); discriminate E.
    - unfold create_dir in E. rewrite (up_dir j I Hj) in E.
      assert (Z : l_fs w (j_dir j) = None).
      { destruct (N _ Hj) as [Z|[Z|(j' & js' & p' & Hin' & Ed & B)]]; [contradiction | auto |]. exfalso.
        rewrite El in Hin'. apply in_app_or in Hin'. destruct Hin' as [Hin'|[Hin'|Hin']].
        - apply in_split in Hin'. destruct Hin' as (a & b & ->). rewrite <- app_assoc in El. cbn in El. apply (X _ _ _ _ _ El). exists j', j. cbn. auto.
        - injection Hin' as _ _ <-. destruct B; discriminate.
        - apply in_split in Hin'. destruct Hin' as (a & b & ->). apply (X _ _ _ _ _ El). exists j, j'. cbn. auto. }
      unfold exists_ in E. rewrite Z in E. discriminate E.
    - unfold create_dir_all in E. rewrite (no_way j I Hj) in E. discriminate E.
    - destruct (l_fs w (j_to j)) as [[]|]; discriminate E.
    - unfold remove_dir_all in E. destruct Kp as [_ Kp]. rewrite Kp in E. discriminate E.
    - unfold remove_file in E. destruct (l_fs w (j_to j)) as [[]|]; destruct Kp as (_ & K1 & K2); try congruence; discriminate E.
    - destruct (exists_ (l_fs w) (j_from j)) eqn:Z; [discriminate|].
      assert (Rj : real f0 j) by (eapply (v_pc I); [exact Hin | discriminate]). unfold real in Rj.
      unfold exists_ in Z. rewrite (@v_from all f0 Hdf Hfd w j I Hj) in Z. destruct (f0 (j_from j)); [discriminate | congruence].
    - unfold symlink in E. destruct Kp as [K1 K2]. unfold exists_ in E. rewrite K2, to_parent in E. unfold is_dir in E.
      rewrite K1 in E. destruct (j_dir j); discriminate E.
  Qed.
  Lemma knows_step f c j p f' c' p' : In j all -> knows f c j p -> (In (j_dir j) c -> f (j_dir j) = Some EDir) -> tstep f c j p = Go f' c' p' -> knows f' c' j p'.
  Proof.
    intros Hj K Hc E. pose proof (to_not_dir j) as TN. pose proof (Hne _ Hj) as NN.
    assert (Dput : put (j_dir j) EDir f (j_dir j) = Some EDir \/ exists e, f (j_dir j) = Some e /\ e <> EDir).
    { unfold put. destruct (path_eq_dec (j_dir j) (j_dir j)); [|congruence]. destruct (f (j_dir j)) as [[]|]; auto; right; eexists; split; eauto; discriminate. }
    destruct p; cbn in E.
    - destruct (exists_ _ _); [|discriminate]. injection E as <- <- <-. exact I.
    - destruct (cached c (j_dir j)) eqn:B; injection E as <- <- <-; cbn; [apply Hc; now apply cached_spec|].
      intros H. apply cached_spec in H. congruence.
    - destruct (cached _ _); injection E as <- <- <-; exact K.
    - unfold create_dir in E. destruct (exists_ f (j_dir j)) eqn:B; [discriminate|]. destruct (is_dir _ _); [|discriminate]. injection E as <- <- <-. cbn in *.
      split; auto. destruct Dput as [D|(e & D & _)]; auto. unfold exists_ in B. rewrite D in B. discriminate.
    - injection E as <- <- <-. cbn in *. tauto.
    - unfold create_dir_all in E. destruct (in_the_way f (j_dir j)) eqn:B; [discriminate|]. injection E as <- <- <-. cbn in *. split; auto.
      destruct Dput as [D|(e & D & De)]; auto. destruct (proj1 (way_spec f (j_dir j)) B (j_dir j) (prefix_refl _) NN); congruence.
    - injection E as <- <- <-. cbn in *. tauto.
    - cbn in K. destruct (f (j_to j)) as [[]|] eqn:B; injection E as <- <- <-; cbn; rewrite ?B; repeat split; auto; discriminate.
    - unfold remove_dir_all in E. destruct (f (j_to j)) as [[]|] eqn:B; try discriminate. injection E as <- <- <-. cbn in *. unfold remove_tree.
      rewrite (proj2 (prefixb_spec (j_to j) (j_to j)) (prefix_refl _)). destruct (prefixb (j_to j) (j_dir j)) eqn:Z; [apply prefixb_spec in Z; contradiction | tauto].
    - unfold remove_file in E. cbn in K. destruct (path_eq_dec (j_to j) (j_to j)) as [_|]; [|congruence].
      assert (G : (fun q => if path_eq_dec q (j_to j) then None else f q) (j_dir j) = f (j_dir j)).
      { cbn. destruct (path_eq_dec (j_dir j) (j_to j)) as [Z|]; auto. destruct TN. rewrite <- Z. apply prefix_refl. }
      destruct (f (j_to j)) as [[]|] eqn:B; try discriminate; injection E as <- <- <-; cbn in *; rewrite G; (split; [tauto|]); destruct (path_eq_dec (j_to j) (j_to j)); congruence.
    - destruct (exists_ _ _); [|discriminate]. injection E as <- <- <-. exact K.
    - destruct (symlink _ _ _); discriminate.
  Qed.
  Lemma cache_step f c j p f' c' p' : tstep f c j p = Go f' c' p' -> c' = c \/ (p = AtIns /\ c' = j_dir j :: c) \/ (p = AtInsAll /\ c' = ancestors (j_dir j) ++ c).
  Proof.
    intros E. destruct p; cbn in E; unfold go in E; repeat match type of E with (match ?x with _ => _ end) = _ => destruct x; try discriminate E end; injection E as <- <- <-; auto.
  Qed.
  Lemma live_all w js p j : linv all f0 w -> In (js, p) (l_live w) -> In j js -> In j all.
  Proof. intros I. apply (v_live I). Qed.
  Lemma sinv_step w w' : sinv w -> exclusive w -> lstep conc w w' -> sinv w'.
  Proof.
    intros SI X S. assert (I' : linv all f0 w') by (eapply linv_step; eauto; apply (s_inv SI)).
    destruct SI as [I K C N]. inversion S as [f c js wait live Hc|f c wait l1 l2 p|f c wait l1 l2 j js p f' c' p' E|f c wait l1 l2 j js p f' c' E]; subst; cbn [l_fs l_cache l_wait l_live] in *.
    - split; cbn [l_fs l_cache l_wait l_live]; auto.
      + intros j a p [Ha|Ha]; [injection Ha as -> <-; exact Logic.I | eauto].
      + intros j Hj. destruct (N j Hj) as [?|[?|(j' & a & p & Ha & B)]]; auto. right. right. exists j', a, p. split; [now right | auto].
    - split; cbn [l_fs l_cache l_wait l_live]; auto.
      + intros j a q Ha. apply (K j a q). rewrite in_app_iff in *. cbn. tauto.
      + intros j Hj. destruct (N j Hj) as [?|[?|(j' & a & q & Ha & B)]]; auto. right. right. exists j', a, q. split; [|auto].
        rewrite in_app_iff in *. cbn in Ha. destruct Ha as [Ha|[Ha|Ha]]; auto. discriminate Ha.
    - assert (Hin : In (j :: js, p) (l1 ++ (j :: js, p) :: l2)) by (apply in_or_app; right; left; reflexivity).
      assert (Hj : In j all) by (eapply (v_live I); [exact Hin | now left]).
      destruct (@step_go f c j p f' c' p' (Hne _ Hj) E) as (T & _ & _ & _ & _).
      assert (Others : forall j' a q, In (j' :: a, q) (l1 ++ l2) -> In j' all /\ j_dir j <> j_dir j').
      { intros j' a q Ha. split.
        - apply (v_live I (j' :: a) q j'); [|now left]. cbn [l_live]. apply in_app_or in Ha. apply in_or_app. cbn. tauto.
        - intros Eq. apply in_app_or in Ha. destruct Ha as [Ha|Ha]; apply in_split in Ha; destruct Ha as (x & y & ->).
          + apply (X x (j' :: a, q) y (j :: js, p) l2); [cbn; now rewrite <- app_assoc|]. exists j', j. cbn. auto.
          + apply (X l1 (j :: js, p) x (j' :: a, q) y); [reflexivity|]. exists j, j'. cbn. auto. }
      assert (Cm : forall j', In j' all -> j_dir j <> j_dir j' -> In (j_dir j') c' -> In (j_dir j') c).
      { intros j' H' Nd Hc. destruct (cache_step _ _ _ _ E) as [-> |[(_ & ->)|(_ & ->)]]; auto.
        - destruct Hc; [congruence | auto].
        - exact (@tdone_in c j j' Hj H' Nd Hc). }
      assert (Cp : forall x, In x c -> In x c') by (intros x Hx; destruct (cache_step _ _ _ _ E) as [-> |[(_ & ->)|(_ & ->)]]; auto; [now right | now apply in_or_app; right]).
      assert (Kj : knows f' c' j p') by (eapply knows_step; [exact Hj | apply (K _ _ _ Hin) | apply C; exact Hj | exact E]).
      split; cbn [l_fs l_cache l_wait l_live]; auto.
      + intros j' a q Ha. apply in_app_or in Ha. destruct Ha as [Ha|[Ha|Ha]].
        * destruct (Others j' a q) as [H' Nd]; [apply in_or_app; auto|]. refine (@knows_other f f' c c' j j' q Hj H' T Nd (Cm j' H' Nd) (K j' a q _)). apply in_or_app. auto.
        * injection Ha as -> -> ->. exact Kj.
        * destruct (Others j' a q) as [H' Nd]; [apply in_or_app; auto|]. refine (@knows_other f f' c c' j j' q Hj H' T Nd (Cm j' H' Nd) (K j' a q _)). apply in_or_app. right. now right.
      + intros j' H' Hc.
        destruct (path_eq_dec (j_dir j) (j_dir j')) as [Ed|Nd].
        * rewrite <- Ed. rewrite <- Ed in Hc. destruct (cache_step _ _ _ _ E) as [-> |[(-> & ->)|(-> & ->)]].
          -- destruct (t_up T (prefix_refl _)) as [-> |[Z ->]]; auto.
          -- pose proof (K _ _ _ Hin) as Kp. cbn in E, Kp. injection E as <- <-. tauto.
          -- pose proof (K _ _ _ Hin) as Kp. cbn in E, Kp. injection E as <- <-. tauto.
        * rewrite (t_out T); [apply C; auto | intros P; apply Nd; symmetry; auto |].
          intros P. apply Nd. apply Hdd; auto. eapply prefix_trans; [apply dir_to | exact P].
      + intros j' H'. destruct (path_eq_dec (j_dir j) (j_dir j')) as [Ed|Nd].
        * rewrite <- Ed. pose proof (K _ _ _ Hin) as Kp.
          assert (G : forall e1, p' = e1 -> busy e1 -> exists j'0 js0 p0, In (j'0 :: js0, p0) (l1 ++ (j :: js, p') :: l2) /\ j_dir j'0 = j_dir j /\ busy p0)
            by (intros e1 -> B; exists j, js, e1; split; [apply in_or_app; right; left; reflexivity | auto]).
          assert (Stay : f' (j_dir j) = f (j_dir j) -> ~ busy p -> In (j_dir j) c' \/ f' (j_dir j) = None \/ exists j'0 js0 p0, In (j'0 :: js0, p0) (l1 ++ (j :: js, p') :: l2) /\ j_dir j'0 = j_dir j /\ busy p0).
          { intros Q NB. destruct (N j Hj) as [Z|[Z|(a & b & d & Ha & Ee & B)]]; [left; auto | right; left; congruence |].
            apply (in_mid l1 l2 _ (j :: js, p')) in Ha. destruct Ha as [Ha|Ha]; [injection Ha as -> -> ->; contradiction | right; right; eauto 6]. }
          destruct p; cbn in E, Kp; unfold go in E.
          -- apply Stay; [|intros [B|B]; discriminate B]. destruct (exists_ _ _); [|discriminate]. now injection E as <- _ _.
          -- apply Stay; [|intros [B|B]; discriminate B]. destruct (cached _ _); now injection E as <- _ _.
          -- apply Stay; [|intros [B|B]; discriminate B]. destruct (cached _ _); now injection E as <- _ _.
          -- right. right. destruct (create_dir _ _); [|discriminate]. injection E as <- <- <-. apply (G AtIns); unfold busy; auto.
          -- left. injection E as <- <- <-. now left.
          -- right. right. destruct (create_dir_all _ _); [|discriminate]. injection E as <- <- <-. apply (G AtInsAll); unfold busy; auto.
          -- left. injection E as <- <- <-. apply in_or_app. left. apply ancestors_spec, prefix_refl.
          -- apply Stay; [|intros [B|B]; discriminate B]. destruct (f (j_to j)) as [[]|]; now injection E as <- _ _.
          -- apply Stay; [|intros [B|B]; discriminate B]. unfold remove_dir_all in E. destruct (f (j_to j)) as [[]|]; try discriminate. injection E as <- _ _.
             unfold remove_tree. destruct (prefixb (j_to j) (j_dir j)) eqn:Z; auto. apply prefixb_spec in Z. destruct (to_not_dir j Z).
          -- apply Stay; [|intros [B|B]; discriminate B]. unfold remove_file in E. destruct (f (j_to j)) as [[]|]; try discriminate; injection E as <- _ _;
               (destruct (path_eq_dec (j_dir j) (j_to j)) as [Z|]; auto; destruct (to_not_dir j); rewrite <- Z; apply prefix_refl).
          -- apply Stay; [|intros [B|B]; discriminate B]. destruct (exists_ _ _); [|discriminate]. now injection E as <- _ _.
          -- destruct (symlink _ _ _); discriminate.
        * destruct (N j' H') as [Z|[Z|(a & b & d & Ha & Ee & B)]]; [left; auto | right; left |].
          -- rewrite (t_out T); auto; [intros P; apply Nd; symmetry; auto|]. intros P. apply Nd. apply Hdd; auto. eapply prefix_trans; [apply dir_to | exact P].
          -- right. right. apply (in_mid l1 l2 _ (j :: js, p')) in Ha. destruct Ha as [Ha|Ha]; [injection Ha as -> -> ->; congruence | eauto 6].
    - assert (Hin : In (j :: js, p) (l1 ++ (j :: js, p) :: l2)) by (apply in_or_app; right; left; reflexivity).
      assert (Hj : In j all) by (eapply (v_live I); [exact Hin | now left]).
      destruct (step_next _ _ _ _ E) as (-> & Cs).
      assert (T : touch f f' j) by (destruct Cs as [(_ & _ & ->)|(_ & _ & ->)]; [apply touch_refl | apply touch_at]).
      assert (Df : forall j', In j' all -> f' (j_dir j') = f (j_dir j')).
      { intros j' H'. destruct Cs as [(_ & _ & ->)|(_ & _ & ->)]; [reflexivity|]. destruct (path_eq_dec (j_dir j') (j_to j)) as [Z|]; auto.
        assert (Q : j_dir j = j_dir j') by (apply Hdd; auto; rewrite Z; apply dir_to). destruct (to_not_dir j). rewrite Q, Z at 1. apply prefix_refl. }
      assert (Others : forall j' a q, In (j' :: a, q) (l1 ++ l2) -> In j' all /\ j_dir j <> j_dir j').
      { intros j' a q Ha. split.
        - apply (v_live I (j' :: a) q j'); [|now left]. cbn [l_live]. apply in_app_or in Ha. apply in_or_app. cbn. tauto.
        - intros Eq. apply in_app_or in Ha. destruct Ha as [Ha|Ha]; apply in_split in Ha; destruct Ha as (x & y & ->).
          + apply (X x (j' :: a, q) y (j :: js, p) l2); [cbn; now rewrite <- app_assoc|]. exists j', j. cbn. auto.
          + apply (X l1 (j :: js, p) x (j' :: a, q) y); [reflexivity|]. exists j, j'. cbn. auto. }
      split; cbn [l_fs l_cache l_wait l_live]; auto.
      + intros j' a q Ha. apply in_app_or in Ha. destruct Ha as [Ha|[Ha|Ha]].
        * destruct (Others j' a q) as [H' Nd]; [apply in_or_app; auto|]. refine (@knows_other f f' c c j j' q Hj H' T Nd (fun x => x) (K j' a q _)). apply in_or_app. auto.
        * injection Ha as -> <-. exact Logic.I.
        * destruct (Others j' a q) as [H' Nd]; [apply in_or_app; auto|]. refine (@knows_other f f' c c j j' q Hj H' T Nd (fun x => x) (K j' a q _)). apply in_or_app. right. now right.
      + intros j' H' Hc. rewrite Df; auto.
      + intros j' H'. destruct (N j' H') as [Z|[Z|(a & b & d & Ha & Ee & B)]]; [left; auto | right; left; rewrite Df; auto |].
        right. right. apply (in_mid l1 l2 _ (js, AtFrom)) in Ha. destruct Ha as [Ha|Ha]; [|eauto 6].
        injection Ha as -> -> ->. destruct Cs as [(-> & _)|(-> & _)]; destruct B; discriminate.
  Qed.

  Variables (wait : list (list job)) (c0 : list path).
  Hypothesis Hall : forall j, In j all <-> exists js, In js wait /\ In j js.
  Hypothesis Hc0 : forall j, In j all -> ~ In (j_dir j) c0.
  Lemma sinv_init : sinv (mkL f0 c0 wait []).
  Proof.
    split; cbn; try easy.
    - apply linv_init. exact Hall.
    - intros j H H'. destruct (Hc0 _ H H').
    - auto.
  Qed.
  (** one package at a time: [exclusive] for nothing *)
  Lemma one_live w : conc = 1 -> lsteps conc (mkL f0 c0 wait []) w -> List.length (l_live w) <= 1.
  Proof.
    intros Hc. induction 1 as [|w1 w2 S IH St]; [cbn; lia|].
    inversion St; subst; cbn [l_live] in *; rewrite ?app_length in *; cbn [List.length] in *; rewrite ?app_length in *; cbn [List.length] in *; lia.
  Qed.
  (** or no two packages with a common directory *)
  Fixpoint apart (l : list (list job)) : Prop := match l with [] => True | a :: t => Forall (fun b => ~ shares a b) t /\ apart t end.
  Definition tasks (w : lw) : list (list job) := l_wait w ++ map fst (l_live w).
  Lemma shares_sym a b : shares a b -> shares b a.
  Proof. intros (j & j' & H & H' & E). exists j', j. auto. Qed.
  Lemma apart_perm l l' : Permutation l l' -> apart l -> apart l'.
  Proof.
    induction 1 as [|x l l' P IH|x y l|l l' l'' P1 IH1 P2 IH2]; cbn; auto.
    - intros [H1 H2]. split; auto. eapply Permutation_Forall; eauto.
    - intros (H1 & H2 & H3). inversion H1 as [|? ? H4 H5]; subst. repeat split; auto. constructor; auto. intros Sh. apply H4. now apply shares_sym.
  Qed.
  Lemma apart_head a b l : (forall x, In x b -> In x a) -> apart (a :: l) -> apart (b :: l).
  Proof.
    intros H [H1 H2]. split; auto. eapply Forall_impl; [|exact H1]. cbn. intros c N (j & j' & A & B & E). apply N. exists j, j'. auto.
  Qed.
  Lemma apart_pairs l1 : forall a l2 b l3, apart (l1 ++ a :: l2 ++ b :: l3) -> ~ shares a b.
  Proof.
    induction l1 as [|x l1 IH]; cbn; intros a l2 b l3 [H1 H2]; [|eauto]. rewrite Forall_forall in H1. apply H1. apply in_or_app. right. now left.
  Qed.
  Lemma apart_tail l1 l2 : apart (l1 ++ l2) -> apart l2.
  Proof. induction l1; cbn; tauto. Qed.
  Lemma apart_step w w' : apart (tasks w) -> lstep conc w w' -> apart (tasks w').
  Proof.
    intros A S. inversion S as [f c js wt live Hc|f c wt l1 l2 p|f c wt l1 l2 j js p f' c' p' E|f c wt l1 l2 j js p f' c' E]; subst; unfold tasks in *; cbn [l_wait l_live] in *; rewrite ?map_app in *; cbn [map fst] in *.
    - eapply apart_perm; [|exact A]. cbn. rewrite Permutation_middle. reflexivity.
    - rewrite app_assoc in A. eapply apart_perm in A; [|symmetry; apply Permutation_middle]. rewrite app_assoc. exact (proj2 A).
    - exact A.
    - rewrite app_assoc in *. eapply apart_perm; [apply Permutation_middle|]. eapply apart_head; [|eapply apart_perm; [symmetry; apply Permutation_middle | exact A]]. now right.
  Qed.
  Lemma apart_excl w : apart (tasks w) -> exclusive w.
  Proof.
    intros A l1 t l2 t' l3 E. unfold tasks in A. rewrite E, map_app in A. cbn in A. rewrite map_app in A. cbn in A. apply apart_tail in A. eapply apart_pairs. exact A.
  Qed.
  Hypothesis Hex : conc = 1 \/ apart wait.
  Lemma all_exclusive w : lsteps conc (mkL f0 c0 wait []) w -> exclusive w.
  Proof.
    intros S. destruct Hex as [H1|Ha].
    - intros l1 t l2 t' l3 E. pose proof (one_live H1 S) as L. rewrite E, app_length in L. cbn in L. rewrite app_length in L. cbn in L. lia.
    - apply apart_excl. induction S as [|w1 w2 S IH St]; [unfold tasks; cbn; now rewrite app_nil_r | eapply apart_step; eauto].
  Qed.
  Lemma sinv_steps w : lsteps conc (mkL f0 c0 wait []) w -> sinv w.
  Proof. induction 1 as [|w1 w2 S IH St]; [apply sinv_init | eapply sinv_step; [exact IH | now apply all_exclusive | exact St]]. Qed.
  Theorem never_fails_run w : lsteps conc (mkL f0 c0 wait []) w -> ~ fails w.
  Proof. intros S. apply never_fails; [now apply sinv_steps | now apply all_exclusive]. Qed.
End Safe.

(** every run is finite: each job takes at most 12 system calls *)
Definition rank (p : pc) : nat :=
  match p with AtFrom => 12 | AtCache => 11 | AtParent => 10 | AtMk => 9 | AtIns => 8 | AtMkAll => 9 | AtInsAll => 8 | AtTo => 7
  | AtRmDir => 6 | AtRmFile => 6 | AtChmod => 5 | AtLink => 4 end.
Definition cost (js : list job) : nat := 13 * List.length js + 1.
Definition live_cost (t : list job * pc) : nat := match fst t with [] => 1 | _ :: js => 13 * List.length js + 1 + rank (snd t) end.
Definition measure (w : lw) : nat := list_sum (map (fun js => S (cost js)) (l_wait w)) + list_sum (map live_cost (l_live w)).
Lemma rank_go f c j p f' c' p' : tstep f c j p = Go f' c' p' -> rank p' < rank p.
Proof.
  intros E. destruct p; cbn in E; unfold go in E; repeat match type of E with (match ?x with _ => _ end) = _ => destruct x; try discriminate E end; injection E as <- <- <-; cbn; lia.
Qed.
Lemma rank_pos p : 4 <= rank p.
Proof. destruct p; cbn; lia. Qed.
Lemma sum_app l1 l2 : list_sum (l1 ++ l2) = list_sum l1 + list_sum l2.
Proof. apply list_sum_app. Qed.
Lemma sum_cons x l : list_sum (x :: l) = x + list_sum l.
Proof. reflexivity. Qed.
Lemma measure_step conc w w' : lstep conc w w' -> measure w' < measure w.
Proof.
  intros S. inversion S as [f c js wt live Hc|f c wt l1 l2 p|f c wt l1 l2 j js p f' c' p' E|f c wt l1 l2 j js p f' c' E]; subst; unfold measure; cbn [l_wait l_live]; rewrite ?map_app; cbn [map]; rewrite ?sum_app, ?sum_cons; rewrite ?sum_app, ?sum_cons.
  - assert (live_cost (js, AtFrom) < Datatypes.S (cost js)) by (unfold live_cost, cost; cbn [fst snd]; destruct js; cbn [List.length rank]; lia). lia.
  - change (live_cost ([], p)) with 1. lia.
  - pose proof (rank_go _ _ _ _ E). assert (live_cost (j :: js, p') < live_cost (j :: js, p)) by (unfold live_cost; cbn [fst snd]; lia). lia.
  - pose proof (rank_pos p). assert (live_cost (js, AtFrom) < live_cost (j :: js, p)) by (unfold live_cost; cbn [fst snd]; destruct js; cbn [List.length rank]; lia). lia.
Qed.
Lemma can_step conc w : ~ fails w -> over w \/ exists w', lstep conc w w'.
Proof.
  intros NF. destruct w as [f c wt live]. destruct live as [|[js p] live].
  - destruct wt as [|js wt]; [left; split; reflexivity|]. right. eexists. apply l_start. cbn. lia.
  - right. destruct js as [|j js]; [eexists; apply (l_end conc f c wt [] live p)|].
    destruct (tstep f c j p) as [f' c' p'|f' c'|] eqn:E.
    + eexists. apply (l_go conc f c wt [] live j js p _ _ _ E).
    + eexists. apply (l_next conc f c wt [] live j js p _ _ E).
    + destruct NF. exists [], live, j, js, p. auto.
Qed.
Lemma lsteps_trans conc w0 w1 w2 : lsteps conc w0 w1 -> lsteps conc w1 w2 -> lsteps conc w0 w2.
Proof. intros H. induction 1; auto. eapply ls_step; eauto. Qed.
Lemma completes conc w0 : (forall w, lsteps conc w0 w -> ~ fails w) -> forall n w, measure w <= n -> lsteps conc w0 w -> exists w', lsteps conc w w' /\ over w'.
Proof.
  intros NF. induction n as [|n IH]; intros w L S.
  - destruct (can_step conc (NF _ S)) as [O|[w' St]]; [exists w; split; [constructor | auto]|]. pose proof (measure_step St). lia.
  - destruct (can_step conc (NF _ S)) as [O|[w' St]]; [exists w; split; [constructor | auto]|]. pose proof (measure_step St).
    destruct (IH w' ltac:(lia) (ls_step _ _ _ _ S St)) as (w2 & S2 & O2). exists w2. split; auto. eapply lsteps_trans; [eapply ls_step; [constructor | exact St] | exact S2].
Qed.
