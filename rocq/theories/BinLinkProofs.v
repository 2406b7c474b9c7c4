(** * Linking bins: what every interleaving does *)
From Verif Require Import Base Types ResolverModel ResolverProofs PathLookup Fs StdPath BinModel IsolatedModel BinLinkModel.
From Coq Require Import Lia.
Open Scope string_scope.
Open Scope list_scope.
Set Implicit Arguments.

Lemma prefix_len (p q : path) : prefix p q -> List.length p <= List.length q.
Proof. intros [r ->]. rewrite app_length. lia. Qed.
Lemma prefix_same_len (p q : path) : prefix p q -> List.length q <= List.length p -> p = q.
Proof. intros [r ->] H. rewrite app_length in H. destruct r; [now rewrite app_nil_r | cbn in H; lia]. Qed.
Lemma prefix_snoc (p d : path) x : prefix p (d ++ [x]) -> prefix p d \/ p = d ++ [x].
Proof.
  intros [r H]. destruct (rev r) as [|y r'] eqn:E.
  - right. apply (f_equal (@rev _)) in E. rewrite rev_involutive in E. subst r. now rewrite app_nil_r in H.
  - left. apply (f_equal (@rev _)) in E. rewrite rev_involutive in E. cbn in E. subst r. rewrite app_assoc in H. apply app_inj_tail in H. destruct H as [-> _].
    now exists (rev r').
Qed.
Lemma to_len j : List.length (j_to j) = S (List.length (j_dir j)).
Proof. unfold j_to. rewrite app_length. cbn. lia. Qed.
Lemma dir_to j : prefix (j_dir j) (j_to j).
Proof. apply prefix_app. Qed.
Lemma to_not_dir j : ~ prefix (j_to j) (j_dir j).
Proof. intros H. apply prefix_len in H. rewrite to_len in H. lia. Qed.
Lemma to_parent j : removelast (j_to j) = j_dir j.
Proof. unfold j_to. now rewrite removelast_last. Qed.
Lemma exists_spec f p : exists_ f p = true <-> f p <> None.
Proof. unfold exists_. destruct (f p); split; congruence. Qed.
Lemma to_nonnil j : j_to j <> [].
Proof. intros H. apply (f_equal (@List.length _)) in H. rewrite to_len in H. discriminate. Qed.

(** what one system call of job [j] can change *)
Record touch (f f' : fs) (j : job) : Prop := {
  t_out : forall q, ~ prefix q (j_dir j) -> ~ prefix (j_to j) q -> f' q = f q;
  t_up : forall q, prefix q (j_dir j) -> f' q = f q \/ (f q = None /\ f' q = Some EDir)
}.
Lemma touch_refl f j : touch f f j.
Proof. split; auto. Qed.
Lemma touch_mk f j : f (j_dir j) = None \/ f (j_dir j) = Some EDir -> touch f (put (j_dir j) EDir f) j.
Proof.
  intros H. split; unfold put.
  - intros q H1 H2. destruct (path_eq_dec q (j_dir j)) as [->|_]; [destruct H1; apply prefix_refl|].
    destruct (aboveb q (j_dir j)) eqn:E; [|auto]. apply aboveb_spec in E. destruct E as (E & _). contradiction.
  - intros q _. destruct (path_eq_dec q (j_dir j)) as [->|_]; [destruct H as [-> | ->]; auto|].
    destruct (aboveb q (j_dir j)); [destruct (f q); auto | auto].
Qed.
Lemma touch_rmdir f j : touch f (remove_tree f (j_to j)) j.
Proof.
  unfold remove_tree. split; intros q H.
  - intros H2. destruct (prefixb (j_to j) q) eqn:E; [|auto]. apply prefixb_spec in E. contradiction.
  - left. destruct (prefixb (j_to j) q) eqn:E; [|auto]. apply prefixb_spec in E. destruct (to_not_dir j). eapply prefix_trans; eauto.
Qed.
Lemma touch_at f j o : touch f (fun q => if path_eq_dec q (j_to j) then o else f q) j.
Proof.
  split; intros q H.
  - intros H2. destruct (path_eq_dec q (j_to j)) as [->|_]; [destruct H2; apply prefix_refl | auto].
  - left. destruct (path_eq_dec q (j_to j)) as [->|_]; [destruct (to_not_dir j H) | auto].
Qed.
Lemma ancestors_spec p q : In q (ancestors p) <-> prefix q p.
Proof.
  revert q; induction p as [|x p IH]; intros q; cbn.
  - split; [intros [<-|[]]; exists []; auto | intros [r H]; symmetry in H; apply app_eq_nil in H; destruct H; auto].
  - rewrite in_map_iff. split.
    + intros [<-|[r [<- H]]]; [eexists; reflexivity|]. apply IH in H. destruct H as [z ->]. exists z. reflexivity.
    + intros [z H]. destruct q as [|y q]; [auto|]. injection H as -> ->. right. exists q. split; auto. apply IH. apply prefix_app.
Qed.
Lemma cached_spec c p : cached c p = true <-> In p c.
Proof.
  unfold cached. rewrite existsb_exists. split.
  - intros [q [H E]]. destruct (path_eq_dec q p); [now subst | discriminate].
  - intros H. exists p. split; auto. destruct (path_eq_dec p p); congruence.
Qed.
Lemma way_spec f p : in_the_way f p = false <-> forall q, prefix q p -> q <> [] -> f q = None \/ f q = Some EDir.
Proof.
  unfold in_the_way. split.
  - intros H q Hq Hn. destruct q as [|x q]; [congruence|].
    assert (Hin : In (x :: q) (ancestors p)) by now apply ancestors_spec.
    destruct (f (x :: q)) as [[]|] eqn:E; auto; exfalso; rewrite <- not_true_iff_false in H; apply H; apply existsb_exists; exists (x :: q); rewrite E; auto.
  - intros H. apply not_true_iff_false. intros C. apply existsb_exists in C. destruct C as [q [Hq E]]. apply ancestors_spec in Hq.
    destruct q as [|x q]; [discriminate|]. destruct (H (x :: q)) as [E'|E']; auto; [discriminate | rewrite E' in E; discriminate | rewrite E' in E; discriminate].
Qed.

(** one step of a job: where it goes, and what it does to the file system *)
Lemma step_go f c j p f' c' p' : j_dir j <> [] -> tstep f c j p = Go f' c' p' ->
  touch f f' j /\ (p = AtFrom -> f (j_from j) <> None) /\ p' <> AtFrom
  /\ ((p' = AtChmod -> f' (j_to j) = None) /\ (p' <> AtChmod -> f' = f \/ (p = AtMk /\ f (j_dir j) = None \/ p = AtMkAll) /\ f' = put (j_dir j) EDir f)).
Proof.
  intros Hd H. destruct p; cbn in H.
  - destruct (exists_ f (j_from j)) eqn:E; [|discriminate]. injection H as <- <- <-. apply exists_spec in E.
    repeat split; try discriminate; auto using touch_refl.
  - destruct (cached c (j_dir j)); injection H as <- <- <-; repeat split; try discriminate; auto using touch_refl.
  - destruct (cached c (removelast (j_dir j))); injection H as <- <- <-; repeat split; try discriminate; auto using touch_refl.
  - unfold create_dir in H. destruct (exists_ f (j_dir j)) eqn:E; [discriminate|]. destruct (is_dir f (removelast (j_dir j))) eqn:E2; [|discriminate].
    cbn in H. injection H as <- <- <-. assert (N : f (j_dir j) = None) by (unfold exists_ in E; destruct (f (j_dir j)); congruence).
    split; [apply touch_mk; auto|]. repeat split; try discriminate; auto 6.
  - injection H as <- <- <-; repeat split; try discriminate; auto using touch_refl.
  - unfold create_dir_all in H. destruct (in_the_way f (j_dir j)) eqn:E; [discriminate|]. cbn in H. injection H as <- <- <-.
    split; [apply touch_mk; apply (proj1 (way_spec f (j_dir j)) E); auto using prefix_refl|]. repeat split; try discriminate; auto 6.
  - injection H as <- <- <-; repeat split; try discriminate; auto using touch_refl.
  - destruct (f (j_to j)) as [[]|] eqn:E; injection H as <- <- <-; repeat split; try discriminate; auto using touch_refl.
  - unfold remove_dir_all in H. destruct (f (j_to j)) as [[]|] eqn:E; try discriminate. cbn in H. injection H as <- <- <-.
    split; [apply touch_rmdir|]. repeat split; try discriminate; [|congruence]. intros _. unfold remove_tree.
    now rewrite (proj2 (prefixb_spec (j_to j) (j_to j)) (prefix_refl _)).
  - unfold remove_file in H. destruct (f (j_to j)) as [[]|] eqn:E; try discriminate; cbn in H; injection H as <- <- <-;
      (split; [apply touch_at|]; repeat split; try discriminate; [|congruence]; intros _; destruct (path_eq_dec (j_to j) (j_to j)); congruence).
  - destruct (exists_ f (j_from j)); [|discriminate]. injection H as <- <- <-; repeat split; try discriminate; auto using touch_refl.
  - destruct (symlink f (j_text j) (j_to j)); discriminate.
Qed.
Lemma step_next f c j p f' c' : tstep f c j p = Next f' c' ->
  c' = c /\ ((p = AtFrom /\ f (j_from j) = None /\ f' = f)
  \/ (p = AtLink /\ f (j_to j) = None /\ f' = fun q => if path_eq_dec q (j_to j) then Some (ELink (j_text j)) else f q)).
Proof.
  intros H. destruct p; cbn in H; repeat match type of H with context [if ?b then _ else _] => destruct b eqn:?; try discriminate end; try discriminate.
  - injection H as <- <-. split; auto. left. unfold exists_ in *. destruct (f (j_from j)); try discriminate; auto.
  - unfold create_dir in H. destruct (exists_ f (j_dir j)); [discriminate|]. destruct (is_dir f _); discriminate.
  - unfold create_dir_all in H. destruct (in_the_way f _); discriminate.
  - destruct (f (j_to j)) as [[]|]; discriminate.
  - unfold remove_dir_all in H. destruct (f (j_to j)) as [[]|]; discriminate.
  - unfold remove_file in H. destruct (f (j_to j)) as [[]|]; discriminate.
  - unfold symlink in H. destruct (exists_ f (j_to j)) eqn:E; [discriminate|]. destruct (is_dir f (removelast (j_to j))) eqn:E2; [|discriminate].
    injection H as <- <-. split; auto. right. unfold exists_ in E. destruct (f (j_to j)); try discriminate. auto.
Qed.

Section Linked.
  Variable all : list job.
  Variable f0 : fs.
  Hypothesis Hne : forall j, In j all -> j_dir j <> [].
  Hypothesis Hdd : forall j j', In j all -> In j' all -> prefix (j_dir j) (j_dir j') -> j_dir j = j_dir j'.
  Hypothesis Hdf : forall j j', In j all -> In j' all -> ~ prefix (j_dir j) (j_from j').
  Hypothesis Hfd : forall j j', In j all -> In j' all -> ~ prefix (j_from j') (j_dir j).

  (** the job has something to link to *)
  Definition real (j : job) : Prop := f0 (j_from j) <> None.
  (** a link made for one of the jobs that want the same place *)
  Definition made (f : fs) (t : path) : Prop := exists j, In j all /\ j_to j = t /\ real j /\ f t = Some (ELink (j_text j)).
  Record linv (w : lw) : Prop := {
    v_wait : forall js j, In js (l_wait w) -> In j js -> In j all;
    v_live : forall js p j, In (js, p) (l_live w) -> In j js -> In j all;
    v_out : forall q, (forall j, In j all -> ~ prefix q (j_dir j)) -> (forall j, In j all -> real j -> ~ prefix (j_to j) q) -> l_fs w q = f0 q;
    v_up : forall j q, In j all -> prefix q (j_dir j) -> l_fs w q = f0 q \/ (f0 q = None /\ l_fs w q = Some EDir);
    v_pc : forall j js p, In (j :: js, p) (l_live w) -> p <> AtFrom -> real j;
    v_done : forall j, In j all -> real j ->
      (exists js, In js (l_wait w) /\ In j js) \/ (exists js p, In (js, p) (l_live w) /\ In j js)
      \/ made (l_fs w) (j_to j)
      \/ (exists j' js p, In (j' :: js, p) (l_live w) /\ j_to j' = j_to j /\ (p = AtChmod \/ p = AtLink))
  }.
  Lemma to_in j j' : In j all -> In j' all -> prefix (j_to j) (j_to j') -> j_to j = j_to j'.
  Proof.
    intros H H' P. unfold j_to at 2 in P. apply prefix_snoc in P. destruct P as [P|P]; [|exact P].
    assert (E : j_dir j = j_dir j') by (apply Hdd; auto; eapply prefix_trans; [apply dir_to | exact P]).
    destruct (to_not_dir j). now rewrite E at 1.
  Qed.
  Lemma from_safe f f' j j' : In j all -> In j' all -> touch f f' j -> f' (j_from j') = f (j_from j').
  Proof.
    intros H H' T. apply (t_out T); [now apply Hfd|]. intros P. apply (Hdf _ _ H H'). eapply prefix_trans; [apply dir_to | exact P].
  Qed.
  Lemma to_safe f f' j j' : In j all -> In j' all -> touch f f' j -> j_to j <> j_to j' -> f' (j_to j') = f (j_to j').
  Proof.
    intros H H' T N. apply (t_out T).
    - intros P. assert (E : j_dir j' = j_dir j) by (apply Hdd; auto; eapply prefix_trans; [apply dir_to | exact P]).
      rewrite <- E in P. exact (to_not_dir j' P).
    - intros P. apply N. now apply to_in.
  Qed.
  Lemma v_from w j : linv w -> In j all -> l_fs w (j_from j) = f0 (j_from j).
  Proof.
    intros I H. apply (v_out I); [intros; now apply Hfd|]. intros j' H' _ P. apply (Hdf _ _ H' H). eapply prefix_trans; [apply dir_to | exact P].
  Qed.
  Lemma out_touch w j f' q : linv w -> In j all -> touch (l_fs w) f' j -> real j ->
    (forall j, In j all -> ~ prefix q (j_dir j)) -> (forall j, In j all -> real j -> ~ prefix (j_to j) q) -> f' q = f0 q.
  Proof. intros I H T R H1 H2. rewrite (t_out T); [now apply (v_out I) | auto | auto]. Qed.
  Lemma up_touch w j f' j2 q : linv w -> In j all -> touch (l_fs w) f' j -> In j2 all -> prefix q (j_dir j2) ->
    f' q = f0 q \/ (f0 q = None /\ f' q = Some EDir).
  Proof.
    intros I H T H2 P. destruct (v_up I _ H2 P) as [E|[E1 E2]].
    - assert (C : f' q = l_fs w q \/ (l_fs w q = None /\ f' q = Some EDir)).
      { destruct (prefixb q (j_dir j)) eqn:B; [apply (t_up T); now apply prefixb_spec|].
        left. apply (t_out T); [intros Q; apply prefixb_spec in Q; congruence|].
        intros Q. assert (X : j_dir j = j_dir j2) by (apply Hdd; auto; eapply prefix_trans; [apply dir_to|]; eapply prefix_trans; eauto).
        assert (Y : prefix q (j_dir j)) by now rewrite X. apply prefixb_spec in Y. congruence. }
      destruct C as [C|[C1 C2]]; [left; congruence | right; split; congruence].
    - right. split; auto. destruct (prefixb q (j_dir j)) eqn:B.
      + apply prefixb_spec in B. destruct (t_up T B) as [C|[C1 C2]]; congruence.
      + rewrite (t_out T); [auto | intros Q; apply prefixb_spec in Q; congruence |].
        intros Q. assert (X : j_dir j = j_dir j2) by (apply Hdd; auto; eapply prefix_trans; [apply dir_to|]; eapply prefix_trans; eauto).
        assert (Y : prefix q (j_dir j)) by now rewrite X. apply prefixb_spec in Y. congruence.
  Qed.
  (** live tasks other than the one that moves *)
  Lemma in_mid {A} (l1 l2 : list A) x y z : In z (l1 ++ x :: l2) -> z = x \/ In z (l1 ++ y :: l2).
  Proof. rewrite !in_app_iff. cbn. intuition (subst; auto). Qed.

  Variable conc : nat.
  Lemma linv_step w w' : linv w -> lstep conc w w' -> linv w'.
  Proof.
    intros I S. pose proof I as I0. destruct I as [Iw Il Io Iu Ip Id]. inversion S as [f c js wait live Hc|f c wait l1 l2 p|f c wait l1 l2 j js p f' c' p' E|f c wait l1 l2 j js p f' c' E]; subst; cbn [l_fs l_cache l_wait l_live] in *.
    - split; cbn [l_fs l_cache l_wait l_live]; auto.
      + intros a j Ha. apply Iw. now right.
      + intros a p j [Ha|Ha] Hj; [injection Ha as <- <-; apply (Iw js); auto; now left | eapply Il; eauto].
      + intros j a p [Ha|Ha] Hp; [injection Ha as -> <-; congruence | eapply Ip; eauto].
      + intros j Hj Hr. destruct (Id j Hj Hr) as [(a & [<-|Ha] & Hx)|[(a & p & Ha & Hx)|[M|(j' & a & p & Ha & Hx)]]].
        * right. left. exists js, AtFrom. split; [now left | auto].
        * left. eauto.
        * right. left. exists a, p. split; [now right | auto].
        * auto.
        * right. right. right. exists j', a, p. split; [now right | auto].
    - split; cbn [l_fs l_cache l_wait l_live]; auto.
      + intros a q j Ha. apply Il with (p := q). rewrite in_app_iff in *. cbn. tauto.
      + intros j a q Ha. apply (Ip j a q). rewrite in_app_iff in *. cbn. tauto.
      + intros j Hj Hr. destruct (Id j Hj Hr) as [?|[(a & q & Ha & Hx)|[M|(j' & a & q & Ha & Hx)]]]; auto.
        * right. left. rewrite in_app_iff in Ha. cbn in Ha. destruct Ha as [Ha|[Ha|Ha]]; [|injection Ha as <- <-; destruct Hx|]; exists a, q; rewrite in_app_iff; auto.
        * right. right. right. rewrite in_app_iff in Ha. cbn in Ha. destruct Ha as [Ha|[Ha|Ha]]; [|discriminate Ha|]; exists j', a, q; rewrite in_app_iff; auto.
    - assert (Hj : In j all) by (eapply Il; [apply in_or_app; right; left; reflexivity | now left]).
      destruct (@step_go f c j p f' c' p' (Hne j Hj) E) as (T & Hf & Np & Hch & Hx).
      assert (Rj : real j).
      { destruct p; try (eapply Ip; [apply in_or_app; right; left; reflexivity | discriminate]).
        unfold real. rewrite <- (@v_from _ j I0 Hj). cbn. auto. }
      split; cbn [l_fs l_cache l_wait l_live]; auto.
      + intros a q x Ha Hin. apply (in_mid l1 l2 _ (j :: js, p)) in Ha. destruct Ha as [Ha|Ha].
        * injection Ha as -> ->. eapply Il; [apply in_or_app; right; left; reflexivity | exact Hin].
        * eapply Il; eauto.
      + intros q H1 H2. apply (@out_touch (mkL f c wait (l1 ++ (j :: js, p) :: l2)) j f' q); auto.
      + intros j2 q H2 P. apply (@up_touch (mkL f c wait (l1 ++ (j :: js, p) :: l2)) j f' j2 q); auto.
      + intros x a q Ha Hq. apply (in_mid l1 l2 _ (j :: js, p)) in Ha. destruct Ha as [Ha|Ha].
        * injection Ha as -> -> ->. exact Rj.
        * eapply Ip; eauto.
      + intros x Hx' Hr. destruct (Id x Hx' Hr) as [?|[(a & q & Ha & Hin)|[M|(j' & a & q & Ha & Hto & Hq)]]]; auto.
        * right. left. apply (in_mid l1 l2 _ (j :: js, p')) in Ha. destruct Ha as [Ha|Ha].
          -- injection Ha as -> ->. exists (j :: js), p'. split; [apply in_or_app; right; left; reflexivity | auto].
          -- eauto.
        * destruct (path_eq_dec (j_to j) (j_to x)) as [Et|Nt].
          -- right. destruct p'; try (destruct (Hx ltac:(discriminate)) as [-> | (_ & ->)];
                [right; left; exact M |]; right; left; destruct M as (k & K1 & K2 & K3 & K4); exists k; repeat split; auto;
                rewrite <- Et; unfold put; destruct (path_eq_dec (j_to j) (j_dir j)) as [Eq|_]; [pose proof (to_len j) as L; rewrite Eq in L; lia|];
                destruct (aboveb (j_to j) (j_dir j)) eqn:Ab; [apply aboveb_spec in Ab; destruct Ab as [Ab _]; destruct (to_not_dir j Ab)|]; now rewrite Et).
             right. right. exists j, js, AtChmod. split; [apply in_or_app; right; left; reflexivity | auto].
          -- right. right. left. destruct M as (k & K1 & K2 & K3 & K4). exists k. repeat split; auto. rewrite (@to_safe f f' j x); auto.
        * right. right. apply (in_mid l1 l2 _ (j :: js, p')) in Ha. destruct Ha as [Ha|Ha].
          -- injection Ha as -> -> ->. destruct Hq as [-> | ->].
             ++ right. exists j, js, p'. split; [apply in_or_app; right; left; reflexivity|]. split; auto.
                cbn in E. destruct (exists_ f (j_from j)); [|discriminate]. injection E as <- <- <-. auto.
             ++ cbn in E. destruct (symlink f (j_text j) (j_to j)); discriminate.
          -- right. eauto 8.
    - assert (Hj : In j all) by (eapply Il; [apply in_or_app; right; left; reflexivity | now left]).
      destruct (step_next _ _ _ _ E) as (-> & Cs).
      assert (T : touch f f' j) by (destruct Cs as [(_ & _ & ->)|(_ & _ & ->)]; [apply touch_refl | apply touch_at]).
      split; cbn [l_fs l_cache l_wait l_live]; auto.
      + intros a q x Ha Hin. apply (in_mid l1 l2 _ (j :: js, p)) in Ha. destruct Ha as [Ha|Ha].
        * injection Ha as -> ->. eapply Il; [apply in_or_app; right; left; reflexivity | now right].
        * eapply Il; eauto.
      + destruct Cs as [(_ & _ & ->)|(-> & _ & Ef)]; [exact Io|]. intros q H1 H2.
        apply (@out_touch (mkL f c wait (l1 ++ (j :: js, AtLink) :: l2)) j f' q); auto.
        eapply Ip; [apply in_or_app; right; left; reflexivity | discriminate].
      + intros j2 q H2 P. apply (@up_touch (mkL f c wait (l1 ++ (j :: js, p) :: l2)) j f' j2 q); auto.
      + intros x a q Ha Hq. apply (in_mid l1 l2 _ (j :: js, p)) in Ha. destruct Ha as [Ha|Ha].
        * injection Ha as _ Ha. congruence.
        * eapply Ip; eauto.
      + intros x Hx' Hr.
        destruct Cs as [(-> & Hno & ->)|(-> & Hno & Ef)].
        * assert (Nr : ~ real j) by (unfold real; rewrite <- (@v_from _ j I0 Hj); cbn; congruence).
          destruct (Id x Hx' Hr) as [?|[(a & q & Ha & Hin)|[M|(j' & a & q & Ha & Hto & Hq)]]]; auto.
          -- right. left. apply (in_mid l1 l2 _ (js, AtFrom)) in Ha. destruct Ha as [Ha|Ha]; [|eauto].
             injection Ha as -> ->. destruct Hin as [->|Hin]; [contradiction|]. exists js, AtFrom. split; [apply in_or_app; right; left; reflexivity | auto].
          -- right. right. right. apply (in_mid l1 l2 _ (js, AtFrom)) in Ha. destruct Ha as [Ha|Ha]; [|eauto 8].
             injection Ha as -> -> ->. destruct Hq; discriminate.
        * assert (Rj : real j) by (eapply Ip; [apply in_or_app; right; left; reflexivity | discriminate]).
          destruct (path_eq_dec (j_to j) (j_to x)) as [Et|Nt].
          { right. right. left. exists j. repeat split; auto. rewrite Ef, <- Et. destruct (path_eq_dec (j_to j) (j_to j)); congruence. }
          destruct (Id x Hx' Hr) as [?|[(a & q & Ha & Hin)|[M|(j' & a & q & Ha & Hto & Hq)]]]; auto.
          -- right. left. apply (in_mid l1 l2 _ (js, AtFrom)) in Ha. destruct Ha as [Ha|Ha]; [|eauto].
             injection Ha as -> ->. destruct Hin as [->|Hin]; [congruence|]. exists js, AtFrom. split; [apply in_or_app; right; left; reflexivity | auto].
          -- right. right. left. destruct M as (k & K1 & K2 & K3 & K4). exists k. repeat split; auto. rewrite (@to_safe f f' j x); auto.
          -- right. right. right. apply (in_mid l1 l2 _ (js, AtFrom)) in Ha. destruct Ha as [Ha|Ha]; [|eauto 8].
             injection Ha as -> -> ->. congruence.
  Qed.

  (** inside the directories: what was there, nothing, or a link made for a job *)
  Definition inside_ok (f : fs) : Prop := forall j q, In j all -> prefix (j_dir j) q -> q <> j_dir j -> f q = f0 q \/ f q = None \/ made f q.
  Lemma inside_step w w' : linv w -> inside_ok (l_fs w) -> lstep conc w w' -> inside_ok (l_fs w').
  Proof.
    intros I K S. inversion S as [f c js wait live Hc|f c wait l1 l2 p|f c wait l1 l2 j js p f' c' p' E|f c wait l1 l2 j js p f' c' E]; subst; cbn [l_fs] in *; auto.
    - assert (Hin : In (j :: js, p) (l1 ++ (j :: js, p) :: l2)) by (apply in_or_app; right; left; reflexivity).
      assert (Hj : In j all) by (eapply (v_live I); [exact Hin | now left]).
      assert (G : forall q, f' q = f q \/ f' q = None \/ (prefix q (j_dir j) /\ q <> [])).
      { intros q. destruct p; cbn in E; unfold go in E.
        - destruct (exists_ _ _); [|discriminate]. injection E as <- _ _. auto.
        - destruct (cached _ _); injection E as <- _ _; auto.
        - destruct (cached _ _); injection E as <- _ _; auto.
        - unfold create_dir in E. destruct (exists_ _ _); [discriminate|]. destruct (is_dir _ _); [|discriminate]. injection E as <- _ _. unfold put.
          destruct (path_eq_dec q (j_dir j)) as [->|]; [right; right; split; [apply prefix_refl | auto]|].
          destruct (aboveb q (j_dir j)) eqn:B; [|auto]. apply aboveb_spec in B. destruct B as (B1 & B2 & B3). auto.
        - injection E as <- _ _. auto.
        - unfold create_dir_all in E. destruct (in_the_way _ _); [discriminate|]. injection E as <- _ _. unfold put.
          destruct (path_eq_dec q (j_dir j)) as [->|]; [right; right; split; [apply prefix_refl | auto]|].
          destruct (aboveb q (j_dir j)) eqn:B; [|auto]. apply aboveb_spec in B. destruct B as (B1 & B2 & B3). auto.
        - injection E as <- _ _. auto.
        - destruct (f (j_to j)) as [[]|]; injection E as <- _ _; auto.
        - unfold remove_dir_all in E. destruct (f (j_to j)) as [[]|]; try discriminate. injection E as <- _ _. unfold remove_tree. destruct (prefixb _ _); auto.
        - unfold remove_file in E. destruct (f (j_to j)) as [[]|]; try discriminate; injection E as <- _ _; destruct (path_eq_dec _ _); auto.
        - destruct (exists_ _ _); [|discriminate]. injection E as <- _ _. auto.
        - destruct (symlink _ _ _); discriminate. }
      intros j2 q H2 P N. destruct (G q) as [Q|[Q|(Q & _)]]; [| auto | destruct N; apply prefix_antisym; auto; rewrite (Hdd _ _ H2 Hj); auto; eapply prefix_trans; eauto].
      destruct (K j2 q H2 P N) as [Z|[Z|(k & K1 & K2 & K3 & K4)]]; [left; congruence | right; left; congruence | right; right; exists k; repeat split; auto; congruence].
    - assert (Hin : In (j :: js, p) (l1 ++ (j :: js, p) :: l2)) by (apply in_or_app; right; left; reflexivity).
      assert (Hj : In j all) by (eapply (v_live I); [exact Hin | now left]).
      destruct (step_next _ _ _ _ E) as (-> & [(_ & _ & ->)|(-> & _ & ->)]); auto.
      intros j2 q H2 P N. destruct (path_eq_dec q (j_to j)) as [->|Nq].
      + right. right. exists j. repeat split; auto; [|destruct (path_eq_dec (j_to j) (j_to j)); congruence].
        eapply (v_pc I); [exact Hin | discriminate].
      + destruct (K j2 q H2 P N) as [Z|[Z|(k & K1 & K2 & K3 & K4)]]; auto. right. right. exists k. repeat split; auto. destruct (path_eq_dec q (j_to j)); congruence.
  Qed.
  Variables (wait : list (list job)) (c0 : list path).
  Hypothesis Hall : forall j, In j all <-> exists js, In js wait /\ In j js.
  Lemma linv_init : linv (mkL f0 c0 wait []).
  Proof.
    split; cbn; auto; try easy.
    - intros js j H H'. apply Hall. eauto.
    - intros j Hj _. left. now apply Hall.
  Qed.
  Lemma linv_steps w : lsteps conc (mkL f0 c0 wait []) w -> linv w.
  Proof. induction 1; [apply linv_init | eapply linv_step; eauto]. Qed.
  Lemma inside_steps w : lsteps conc (mkL f0 c0 wait []) w -> inside_ok (l_fs w).
  Proof. induction 1 as [|w1 w2 S IH St]; [intros ? ?; auto | eapply inside_step; [apply linv_steps; exact S | exact IH | exact St]]. Qed.
  Lemma supp_steps w q : lsteps conc (mkL f0 c0 wait []) w -> l_fs w q <> None -> f0 q <> None \/ In q (flat_map (fun j => ancestors (j_to j)) all).
  Proof.
    intros S H. pose proof (linv_steps S) as V. pose proof (inside_steps S) as K. rewrite in_flat_map.
    destruct (existsb (fun j => prefixb q (j_dir j)) all) eqn:E1.
    { apply existsb_exists in E1. destruct E1 as (j & Hj & P). apply prefixb_spec in P. right. exists j. split; auto. apply ancestors_spec. eapply prefix_trans; [exact P | apply dir_to]. }
    destruct (existsb (fun j => prefixb (j_to j) q) all) eqn:E2.
    { apply existsb_exists in E2. destruct E2 as (j & Hj & P). apply prefixb_spec in P.
      assert (P2 : prefix (j_dir j) q) by (eapply prefix_trans; [apply dir_to | exact P]).
      assert (N : q <> j_dir j) by (intros ->; exact (to_not_dir j P)).
      destruct (K j q Hj P2 N) as [Z|[Z|(k & K1 & K2 & _)]]; [left; congruence | contradiction | right; exists k; split; auto; apply ancestors_spec; rewrite K2; apply prefix_refl]. }
    left. rewrite <- (v_out V); auto.
    - intros j Hj P. assert (X : existsb (fun j => prefixb q (j_dir j)) all = true) by (apply existsb_exists; exists j; split; auto; now apply prefixb_spec). congruence.
    - intros j Hj _ P. assert (X : existsb (fun j => prefixb (j_to j) q) all = true) by (apply existsb_exists; exists j; split; auto; now apply prefixb_spec). congruence.
  Qed.
  (** when all is done, every job with something to link to has a link in its place, its own or that of a rival *)
  Theorem all_linked w : lsteps conc (mkL f0 c0 wait []) w -> over w -> forall j, In j all -> real j -> made (l_fs w) (j_to j).
  Proof.
    intros S [O1 O2] j Hj Hr. destruct (v_done (linv_steps S) Hj Hr) as [(a & Ha & _)|[(a & q & Ha & _)|[M|(j' & a & q & Ha & _)]]]; auto.
    - rewrite O1 in Ha. destruct Ha.
    - rewrite O2 in Ha. destruct Ha.
    - rewrite O2 in Ha. destruct Ha.
  Qed.
End Linked.
