(** * Node's lookup in an installed tree *)
From Verif Require Import Base Types ResolverModel ResolverProofs ResolverRun ResolverSpec LockfileModel LockfileProofs LockfileGraph PathLookup Fs HoistedModel HoistedSpec HoistedProofs IsolatedSpec NodeSpec.
Open Scope string_scope.
Open Scope list_scope.

Lemma is_nm_dec d : is_nm d \/ ~ is_nm d.
Proof.
  destruct d as [|a d0]; [right; intros ([|? ?] & E); discriminate|]. destruct (@exists_last _ (a :: d0) ltac:(discriminate)) as (d' & c & ->).
  destruct (string_dec c "node_modules") as [->|N]; [left; exists d'; reflexivity|right]. intros (d'' & E). apply app_inj_tail in E. destruct E as [_ E]. contradiction.
Qed.
Lemma finds_spec f d x p : finds f d x p <->
  exists pre suf, d = pre ++ suf /\ ~ is_nm pre /\ p = candidate pre x /\ f p <> None
    /\ forall pre' suf', d = pre' ++ suf' -> List.length pre < List.length pre' -> is_nm pre' \/ f (candidate pre' x) = None.
Proof.
  split.
  - induction 1 as [d x N H|d c x p Hc H (pre & suf & -> & N & -> & Hp & Hd)].
    + exists d, []. rewrite app_nil_r. repeat split; auto. intros pre' suf' E L. exfalso. apply (f_equal (@List.length _)) in E. rewrite app_length in E. lia.
    + exists pre, (suf ++ [c]). rewrite app_assoc. repeat split; auto. intros pre' suf' E L.
      destruct suf' as [|a s0]; [rewrite app_nil_r in E; rewrite <- E; exact Hc|]. destruct (@exists_last _ (a :: s0) ltac:(discriminate)) as (s' & b & Es). rewrite Es in E. rewrite app_assoc in E. apply app_inj_tail in E. destruct E as [E _].
      apply (Hd _ _ E L).
  - intros (pre & suf & -> & N & -> & Hp & Hd). revert Hd. induction suf as [|c suf IH] using rev_ind; intros Hd; [rewrite app_nil_r; now apply finds_here|].
    rewrite app_assoc. apply finds_up; [apply (Hd _ []); [now rewrite app_nil_r, app_assoc|rewrite !app_length; cbn; lia]|]. apply IH. intros pre' suf' E L. apply (Hd pre' (suf' ++ [c])); [now rewrite app_assoc, E, app_assoc|exact L].
Qed.
Lemma app_same_len (A : Type) (a b c d : list A) : a ++ b = c ++ d -> List.length a = List.length c -> a = c /\ b = d.
Proof. revert c. induction a as [|x a IH]; intros [|y c] E L; cbn in *; try discriminate; [auto|]. injection E as -> E. destruct (IH c E) as [-> ->]; auto. Qed.
Lemma app_longer (A : Type) (a b c d : list A) : a ++ b = c ++ d -> List.length a < List.length c -> exists y t, c = a ++ y :: t /\ b = y :: t ++ d.
Proof.
  revert c. induction a as [|x a IH]; intros [|y c] E L; cbn in *; try lia; [exists y, c; auto|]. injection E as -> E. destruct (IH c E) as (z & t & -> & ->); [lia|]. exists z, t. auto.
Qed.
Lemma finds_fun f d x p p' : finds f d x p -> finds f d x p' -> p = p'.
Proof.
  intros H H'. apply finds_spec in H, H'. destruct H as (pre & suf & E & N & -> & Hp & Hd), H' as (pre' & suf' & E' & N' & -> & Hp' & Hd').
  destruct (Nat.lt_trichotomy (List.length pre) (List.length pre')) as [L|[L|L]].
  - destruct (Hd _ _ E' L); contradiction.
  - rewrite E in E'. apply app_same_len in E'; [|exact L]. destruct E' as [-> _]. reflexivity.
  - destruct (Hd' _ _ E L); contradiction.
Qed.

Lemma plain_nm m : plain m -> m <> "node_modules".
Proof. intros H ->. pose proof (plain_not_nm _ H) as X. discriminate X. Qed.
Lemma disk_not_nm names : Forall good_name names -> ~ is_nm (disk names).
Proof.
  intros H (d' & E). destruct names as [|x t]; [destruct d'; discriminate|]. destruct (disk_last (x :: t) H) as (pre & m & E' & Hm); [discriminate|]. rewrite E' in E.
  change ("node_modules" :: pre ++ [m]) with (("node_modules" :: pre) ++ [m]) in E. apply app_inj_tail in E. destruct E as [_ E]. exact (plain_nm m Hm E).
Qed.
Lemma is_nm_cons a d : d <> [] -> is_nm d -> is_nm (a :: d).
Proof. intros _ (d' & ->). exists (a :: d'). reflexivity. Qed.
Lemma not_nm_tail a d : d <> [] -> ~ is_nm (a :: d) -> ~ is_nm d.
Proof. intros N H X. apply H. now apply is_nm_cons. Qed.
Lemma not_nm_tail' a d : ~ is_nm (a :: d) -> ~ is_nm d.
Proof. intros H. destruct d; [intros ([|? ?] & E); discriminate|]. revert H. apply not_nm_tail. discriminate. Qed.

(** the directories above node_modules directories of a tree *)
Lemma nm_in_disk names : Forall good_name names -> forall d r, ~ is_nm d -> disk names = d ++ "node_modules" :: r -> exists pre suf, names = pre ++ suf /\ d = disk pre.
Proof.
  induction 1 as [|y t Gy Gt IH]; intros d r N E; [destruct d; discriminate|]. rewrite disk_cons in E.
  destruct d as [|a d]; [exists [], (y :: t); auto|]. cbn [app] in E. injection E as <- E.
  assert (G : exists d', d = comps y ++ d' /\ disk t = d' ++ "node_modules" :: r).
  { destruct Gy as [Py|(s & m & -> & Hs & Hf & Hm)].
    - rewrite comps_plain in E |- * by now apply plain_no_slash. cbn [app] in E. destruct d as [|b d]; [exfalso; apply N; exists []; reflexivity|]. cbn [app] in E. injection E as <- E. exists d. auto.
    - rewrite comps_scoped in E |- * by (auto; now apply plain_no_slash). cbn [app] in E.
      destruct d as [|b d]; [exfalso; apply N; exists []; reflexivity|]. cbn [app] in E. injection E as <- E. destruct d as [|b d]; cbn [app] in E; injection E as E1 E; [exfalso; exact (plain_nm m Hm E1)|].
      subst b. exists d. auto. }
  destruct G as (d' & -> & E'). assert (N' : ~ is_nm d').
  { intros (z & ->). apply N. exists ("node_modules" :: comps y ++ z). cbn. now rewrite app_assoc. }
  destruct (IH d' r N' E') as (pre & suf & -> & ->). exists (y :: pre), suf. rewrite disk_cons. auto.
Qed.
(** ... and below a package, outside the node_modules of what it contains *)
Lemma nm_in_package names f : Forall good_name names -> ~ In "node_modules" f -> forall d r, ~ is_nm d -> disk names ++ f = d ++ "node_modules" :: r ->
  exists pre y suf, names = pre ++ y :: suf /\ d = disk pre /\ r = comps y ++ disk suf ++ f.
Proof.
  intros G F d r N E. assert (L : exists r', disk names = d ++ "node_modules" :: r').
  { destruct (Nat.le_gt_cases (List.length (disk names)) (List.length d)) as [L|L].
    - exfalso. assert (P : prefix (disk names) d) by (destruct (prefix_linear (disk names) d (disk names ++ f)) as [P|[z P]]; [apply prefix_app|exists ("node_modules" :: r); exact E|exact P|]; rewrite P in L; rewrite app_length in L; destruct z; [exists []; rewrite app_nil_r in *; congruence|cbn in L; lia]).
      destruct P as [z ->]. rewrite <- app_assoc in E. apply app_inv_head in E. apply F. rewrite E. apply in_or_app. right. now left.
    - destruct (prefix_linear (disk names) d (disk names ++ f)) as [[z P]|[z P]]; [apply prefix_app|exists ("node_modules" :: r); exact E| |].
      + rewrite P in L. rewrite app_length in L. lia.
      + rewrite P in E, L |- *. rewrite <- app_assoc in E. apply app_inv_head in E. destruct z as [|c z]; [rewrite app_length in L; cbn in L; lia|]. cbn in E. injection E as -> E. exists z. reflexivity. }
  destruct L as (r' & L). destruct (nm_in_disk names G d r' N L) as (pre & suf & -> & ->). rewrite disk_app in L, E. apply app_inv_head in L.
  destruct suf as [|y suf]; [discriminate|]. exists pre, y, suf. split; [auto|]. split; [auto|]. rewrite <- app_assoc in E. apply app_inv_head in E. rewrite disk_cons in E. cbn [app] in E. injection E as <-. now rewrite app_assoc.
Qed.

Section Tree.
  Variable contents : resolution -> list (path * string).
  Hypothesis Hnb : no_bundled contents.
  Variable g : graph.
  Hypothesis Hg : good_graph g.

  Lemma at_names i names : installed_at g i names -> Forall good_name names.
  Proof. induction 1 as [|p path x c H IH Hc]; [constructor|]. apply Forall_app. split; [auto|]. constructor; [eapply Hg; eauto|constructor]. Qed.
  Lemma at_prefix i names : installed_at g i names -> forall pre suf, names = pre ++ suf -> exists c, installed_at g c pre.
  Proof.
    induction 1 as [|p path x c H IH Hc]; intros pre suf E; [symmetry in E; apply app_eq_nil in E; destruct E as [-> _]; exists 0; constructor|].
    destruct suf as [|a s0]; [rewrite app_nil_r in E; subst pre; exists c; econstructor; eauto|]. destruct (@exists_last _ (a :: s0) ltac:(discriminate)) as (s' & b & Es). rewrite Es, app_assoc in E. apply app_inj_tail in E. destruct E as [-> _]. eapply IH. reflexivity.
  Qed.
  Lemma pkg_names names r : pkg_at g names r -> Forall good_name names.
  Proof. intros (i & n & H & _). exact (at_names i names H). Qed.
  Lemma pkg_prefix names r pre suf : pkg_at g names r -> names = pre ++ suf -> exists c, installed_at g c pre.
  Proof. intros (i & n & H & _) E. exact (at_prefix i names H pre suf E). Qed.

  (** a package [x] is in the node_modules of directory [d] exactly when [d] is the directory of a package that contains [x] *)
  Lemma entry_candidate d x e : good_name x -> ~ is_nm d -> tree_entry contents g (candidate d x) e -> exists pre c, d = disk pre /\ installed_at g c (pre ++ [x]).
  Proof.
    unfold candidate. intros Gx N H. remember (d ++ "node_modules" :: comps x) as q0 eqn:E. assert (Cx : comps x <> []) by (destruct (comps_last x Gx) as (p & m & -> & _); destruct p; discriminate).
    assert (Z : forall names r f rest, pkg_at g names r -> ~ In "node_modules" f -> disk names ++ f = (d ++ "node_modules" :: comps x) ++ rest -> exists pre c, d = disk pre /\ installed_at g c (pre ++ [x])).
    { intros names r f rest P F Eq. rewrite <- app_assoc in Eq. cbn [app] in Eq. pose proof (pkg_names names r P) as G.
      destruct (nm_in_package names f G F d _ N Eq) as (pre & y & suf & -> & -> & Ey). apply Forall_app in G. destruct G as [_ G]. inversion G as [|? ? Gy _]; subst.
      apply comps_inj in Ey; auto. destruct Ey as [-> _]. exists pre. destruct (pkg_prefix _ _ (pre ++ [y]) suf P) as (c & Hc); [now rewrite <- app_assoc|]. exists c. auto. }
    destruct H as [|names r q P Nq [z Hz]|names r f b P I|names r f b f' P I [z Hz] _].
    - destruct d as [|a d]; [injection E as E; destruct (Cx (eq_sym E))|]. injection E as _ E. destruct d; discriminate.
    - subst q. apply (Z names r [] z P); [intros []|]. now rewrite app_nil_r, Hz.
    - apply (Z names r f [] P); [exact (Hnb _ _ _ I)|]. now rewrite app_nil_r, E.
    - apply (Z names r f' [] P); [|now rewrite app_nil_r, E]. intros I'. apply (Hnb _ _ _ I). rewrite Hz. apply in_or_app. now left.
  Qed.
  Lemma candidate_entry pre x c : c <> 0 -> installed_at g c (pre ++ [x]) -> (exists n, getn g c = Some n) -> tree_entry contents g (candidate (disk pre) x) EDir.
  Proof.
    intros Nz H (n & Hn). assert (E : candidate (disk pre) x = disk (pre ++ [x])).
    { unfold candidate. rewrite disk_app. unfold disk at 3. cbn [flat_map]. now rewrite app_nil_r. }
    rewrite E. apply (te_dir _ _ (pre ++ [x]) (pk_resolved (n_pkg n))).
    - exists c, n. auto.
    - rewrite disk_app. unfold disk at 2. cbn [flat_map app]. intros X. apply app_eq_nil in X. destruct X as [_ X]. discriminate.
    - exists []. now rewrite app_nil_r.
  Qed.

  Variable f : fs.
  Hypothesis Hf : forall q e, prefix ["node_modules"] q -> (f q = Some e <-> tree_entry contents g q e).

  Lemma cand_in_nm d x pre suf : d = disk pre \/ (exists suf', d ++ suf' = disk pre ++ suf /\ pre <> []) -> d <> [] \/ d = [] -> prefix ["node_modules"] (candidate d x).
  Proof.
    intros H _. unfold candidate. destruct d as [|a d]; [eexists; reflexivity|]. destruct H as [H|(suf' & H & Np)].
    - destruct pre; [discriminate|]. rewrite disk_cons in H. injection H as -> _. eexists. reflexivity.
    - destruct pre as [|y pre]; [contradiction|]. rewrite disk_cons in H. cbn [app] in H. injection H as -> _. eexists. reflexivity.
  Qed.

  Lemma disk_longer a b c d : a ++ b = c ++ d -> (List.length a < List.length c <-> List.length (disk a) < List.length (disk c)).
  Proof.
    intros E. split; intros L.
    - destruct (app_longer _ a b c d E L) as (y & t & -> & _). rewrite disk_app, disk_cons, !app_length. cbn. lia.
    - destruct (Nat.lt_ge_cases (List.length a) (List.length c)) as [X|X]; [exact X|exfalso].
      assert (Z : exists t, a = c ++ t).
      { destruct (Nat.eq_dec (List.length a) (List.length c)) as [Q|Q]; [destruct (app_same_len _ a b c d E Q) as [-> _]; exists []; now rewrite app_nil_r|].
        destruct (app_longer _ c d a b (eq_sym E) ltac:(lia)) as (y & t & -> & _). exists (y :: t). reflexivity. }
      destruct Z as [t ->]. rewrite disk_app, app_length in L. lia.
  Qed.

  Hypothesis Huniq : forall i p p', installed_at g i p -> installed_at g i p' -> p = p'.
  Hypothesis Hhere : forall c p, installed_at g c p -> exists n, getn g c = Some n.
  Lemma disk_snoc pre x : disk (pre ++ [x]) = candidate (disk pre) x.
  Proof. unfold candidate. rewrite disk_app. unfold disk at 2. cbn [flat_map]. now rewrite app_nil_r. Qed.

  (** the lookup from anywhere in a package, outside what its own files might contain *)
  Lemma finds_visible i P sub x p : installed_at g i P -> good_name x -> ~ In "node_modules" sub -> (P <> [] \/ sub = []) ->
    (finds f (disk P ++ sub) x p <-> exists c Q, visible g i x c /\ installed_at g c Q /\ p = disk Q).
  Proof.
    intros Hi Gx Ns Hs. pose proof (at_names i P Hi) as GP.
    assert (Nz : forall pre c, installed_at g c (pre ++ [x]) -> c <> 0).
    { intros pre c Hc ->. pose proof (Huniq 0 _ [] Hc (at_root g)) as E. destruct pre; discriminate. }
    assert (Pn : forall d suf, disk P ++ sub = d ++ suf -> prefix ["node_modules"] (candidate d x)).
    { intros d suf E. apply (cand_in_nm d x P sub); [|destruct d; auto; left; discriminate]. destruct Hs as [Hs|Hs]; [right; exists suf; auto|]. subst sub. rewrite app_nil_r in E.
      destruct P as [|y P']; [left; cbn in E; symmetry in E; apply app_eq_nil in E; apply E|right; exists suf; split; [now rewrite app_nil_r|discriminate]]. }
    (* what is at a candidate *)
    assert (Cn : forall d suf, disk P ++ sub = d ++ suf -> ~ is_nm d -> f (candidate d x) <> None -> exists pre s c, P = pre ++ s /\ d = disk pre /\ installed_at g c (pre ++ [x])).
    { intros d suf E N H. destruct (f (candidate d x)) as [e|] eqn:Ef; [|congruence]. apply (Hf _ e (Pn d suf E)) in Ef.
      destruct (entry_candidate d x e Gx N Ef) as (pre & c & -> & Hc). assert (Gp : Forall good_name pre) by (pose proof (at_names c _ Hc) as Z; apply Forall_app in Z; apply Z).
      destruct (disk_prefix pre P sub suf GP Gp) as (s & -> & _); [intros t ->; apply Ns; now left|exact E|]. exists pre, s, c. auto. }
    assert (Ic : forall pre s c, P = pre ++ s -> installed_at g c (pre ++ [x]) -> f (candidate (disk pre) x) = Some EDir).
    { intros pre s c EP Hc. apply (Hf _ EDir).
      - apply (Pn (disk pre) (disk s ++ sub)). rewrite EP. now rewrite disk_app, app_assoc.
      - apply (candidate_entry pre x c (Nz _ _ Hc) Hc). eauto. }
    rewrite finds_spec. split.
    - intros (d & suf & E & N & -> & Hc & Hd). destruct (Cn d suf E N Hc) as (pre & s & c & EP & -> & Hx). exists c, (pre ++ [x]). split; [|split; [exact Hx|now rewrite disk_snoc]].
      exists pre, s. split; [now rewrite <- EP|]. split; [exact Hx|]. intros pre' suf' c' E' L Hx'. rewrite <- EP in E'.
      assert (Gp' : Forall good_name pre') by (rewrite <- E' in GP; apply Forall_app in GP; apply GP).
      destruct (Hd (disk pre') (disk suf' ++ sub)) as [X|X].
      + now rewrite app_assoc, <- disk_app, E'.
      + apply (disk_longer pre s pre' suf'); congruence.
      + exact (disk_not_nm pre' Gp' X).
      + rewrite (Ic pre' suf' c' (eq_sym E') Hx') in X. discriminate.
    - intros (c & Q & (pre & s & Hi' & Hx & Hd) & HQ & ->). assert (EP : pre ++ s = P) by (exact (Huniq i _ _ Hi' Hi)).
      rewrite (Huniq c _ _ HQ Hx). exists (disk pre), (disk s ++ sub).
      split; [rewrite <- EP; now rewrite disk_app, app_assoc|]. split; [apply disk_not_nm; rewrite <- EP in GP; apply Forall_app in GP; apply GP|].
      split; [now rewrite disk_snoc|]. split; [rewrite disk_snoc, (Ic pre s c (eq_sym EP) Hx); discriminate|].
      intros d' suf' E L. destruct (is_nm_dec d') as [X|N]; [now left|right]. destruct (f (candidate d' x)) as [e|] eqn:Ef; [exfalso|reflexivity].
      destruct (Cn d' suf' E N) as (pre' & s' & c' & EP' & -> & Hx'); [congruence|].
      apply (Hd pre' s' c'); [congruence| |exact Hx']. apply (disk_longer pre s pre' s'); congruence.
  Qed.

  (** what is in the directory of a package, its own node_modules apart *)
  Lemma package_files c n Q : plain_contents contents -> installed_at g c Q -> Q <> [] -> getn g c = Some n -> forall fl e, (forall t, fl <> "node_modules" :: t) ->
    (tree_entry contents g (disk Q ++ fl) e <-> holds (contents (pk_resolved (n_pkg n))) fl e).
  Proof.
    intros Pc Hc NQ Hn fl e F. pose proof (at_names c Q Hc) as GQ.
    assert (Cz : c <> 0) by (intros ->; apply NQ; exact (Huniq 0 Q [] Hc (at_root g))).
    assert (Same : forall names r, pkg_at g names r -> names = Q -> r = pk_resolved (n_pkg n)).
    { intros names r (i & m & Hi & _ & Hm & <-) ->. pose proof (installed_inj _ _ _ Hi _ Hc) as ->. congruence. }
    assert (Nm : forall s z t, disk s ++ z = fl ++ t -> s = [] \/ fl = []).
    { intros s z t Eq. destruct s as [|y s]; [now left|right]. destruct fl as [|a fl]; [reflexivity|]. rewrite disk_cons in Eq. cbn in Eq. injection Eq as <- _. destruct (F fl eq_refl). }
    split.
    - intros H. remember (disk Q ++ fl) as q0 eqn:Eq. destruct H as [|names r q P Nq [z Hz]|names r f0 b P I|names r f0 b f' P I [z Hz] Nf].
      + destruct (disk_last Q GQ NQ) as (pre & m & E & _). rewrite E in Eq. destruct pre; discriminate Eq.
      + subst q. pose proof (pkg_names _ _ P) as Gn. rewrite <- app_assoc in Hz.
        destruct (disk_prefix Q names [] (fl ++ z) Gn GQ) as (s & -> & E); [discriminate|now rewrite app_nil_r|]. rewrite app_nil_r in E. left. split; [reflexivity|left].
        assert (E' : disk s ++ [] = fl ++ z) by (now rewrite app_nil_r). destruct (Nm s [] z E') as [-> | ->]; [|reflexivity]. cbn in E. apply eq_sym in E. destruct fl; [reflexivity|discriminate].
      + pose proof (pkg_names _ _ P) as Gn. destruct (Pc _ _ _ I) as (N0 & N1 & _).
        destruct (disk_prefix Q names f0 fl Gn GQ N1 Eq) as (s & -> & E). assert (E' : disk s ++ f0 = fl ++ []) by (now rewrite app_nil_r).
        destruct (Nm s f0 [] E') as [-> | ->]; [|destruct (N0 (proj2 (app_eq_nil _ _ (eq_sym E))))]. cbn in E. subst fl. rewrite app_nil_r in P. right. exists b. split; [reflexivity|]. now rewrite <- (Same _ _ P eq_refl).
      + pose proof (pkg_names _ _ P) as Gn. destruct (Pc _ _ _ I) as (N0 & N1 & _).
        assert (N2 : forall t, f' <> "node_modules" :: t) by (intros t ->; exact (N1 _ Hz)).
        destruct (disk_prefix Q names f' fl Gn GQ N2 Eq) as (s & -> & E). assert (E' : disk s ++ f' = fl ++ []) by (now rewrite app_nil_r).
        left. split; [reflexivity|]. destruct (Nm s f' [] E') as [-> | ->]; [|now left]. cbn in E. subst fl. rewrite app_nil_r in P. right. exists f0, b. rewrite <- (Same _ _ P eq_refl). split; [exact I|]. split; [exists z; exact Hz|exact Nf].
    - assert (P : pkg_at g Q (pk_resolved (n_pkg n))) by (exists c, n; auto).
      intros [(-> & [-> |(f' & b & I & Pf & Nf)])|(b & -> & I)].
      + apply (te_dir _ _ Q _ _ P); rewrite app_nil_r; [|exists []; now rewrite app_nil_r]. apply (disk_nil Q GQ NQ).
      + exact (te_sub _ _ Q _ f' b fl P I Pf Nf).
      + exact (te_file _ _ Q _ fl b P I).
  Qed.
End Tree.
