(** * Proofs about the hoisted linker *)
From Verif Require Import Base Types ResolverModel ResolverProofs ResolverSpec LockfileModel LockfileProofs LockfileGraph PathLookup Fs HoistedModel HoistedSpec.
Open Scope string_scope.
Open Scope list_scope.

(** ** directories of packages can be read back *)
Lemma comps_inj x y t u : good_name x -> good_name y -> comps x ++ t = comps y ++ u -> x = y /\ t = u.
Proof.
  intros [Hx|(s & m & -> & Hs & Hf & Hm)] [Hy|(s' & m' & -> & Hs' & Hf' & Hm')].
  - rewrite !comps_plain by now apply plain_no_slash. intros E. injection E as -> ->. auto.
  - rewrite comps_plain by now apply plain_no_slash. rewrite comps_scoped by (auto; now apply plain_no_slash). cbn [app].
    intros E. injection E as -> _. pose proof (plain_not_at _ Hx) as H. discriminate.
  - rewrite (comps_plain y) by now apply plain_no_slash. rewrite comps_scoped by (auto; now apply plain_no_slash). cbn [app].
    intros E. injection E as <- _. pose proof (plain_not_at _ Hy) as H. discriminate.
  - rewrite !comps_scoped by (auto; now apply plain_no_slash). cbn [app]. intros E. injection E as -> -> ->. auto.
Qed.
Lemma disk_cons x t : disk (x :: t) = "node_modules" :: comps x ++ disk t.
Proof. reflexivity. Qed.
Lemma disk_prefix : forall b a f r, Forall good_name a -> Forall good_name b -> (forall t, f <> "node_modules" :: t) ->
  disk a ++ f = disk b ++ r -> exists s, a = b ++ s /\ r = disk s ++ f.
Proof.
  induction b as [|y b IH]; intros a f r Ha Hb Hf E; [exists a; auto|].
  rewrite disk_cons in E. cbn [app] in E. destruct a as [|x a]; [cbn in E; destruct (Hf _ E)|].
  rewrite disk_cons in E. cbn [app] in E. injection E as E. rewrite <- !app_assoc in E.
  inversion Ha; subst. inversion Hb; subst. apply comps_inj in E; auto. destruct E as [-> E].
  destruct (IH a f r) as (s & -> & ->); auto. exists s. auto.
Qed.
Lemma comps_last x : good_name x -> exists pre m, comps x = pre ++ [m] /\ plain m /\ (pre = [] \/ exists s, pre = [String "@" s]).
Proof.
  intros [Hx|(s & m & -> & Hs & Hf & Hm)].
  - exists [], x. rewrite comps_plain by now apply plain_no_slash. auto.
  - exists [String "@" s], m. rewrite comps_scoped by (auto; now apply plain_no_slash). eauto.
Qed.
Lemma disk_last names : Forall good_name names -> names <> [] -> exists pre m, disk names = "node_modules" :: pre ++ [m] /\ plain m.
Proof.
  intros H Hne. destruct (exists_last Hne) as (init & x & ->). apply Forall_app in H. destruct H as [_ H]. inversion H; subst.
  destruct (comps_last x) as (pre & m & E & Hm & _); auto. rewrite disk_app. unfold disk at 2. cbn [flat_map]. rewrite app_nil_r, E.
  destruct init as [|z init]; [exists pre, m; auto|]. rewrite disk_cons. cbn [app].
  exists (comps z ++ disk init ++ "node_modules" :: pre), m. split; [|auto]. rewrite <- !app_assoc. reflexivity.
Qed.
Lemma disk_nil names : Forall good_name names -> names <> [] -> disk names <> [] /\ disk names <> ["node_modules"].
Proof.
  intros H Hne. destruct (disk_last names H Hne) as (pre & m & -> & Hm). split; [discriminate|]. destruct pre; discriminate.
Qed.
Lemma plain_special m : plain m -> special m = false.
Proof.
  intros H. unfold special. rewrite (plain_not_at _ H), orb_false_r. apply String.eqb_neq. intros ->.
  pose proof (plain_not_nm _ H) as H'. discriminate.
Qed.
Lemma not_nm f : (forall t, f <> "node_modules" :: t) \/ exists t, f = "node_modules" :: t.
Proof.
  destruct f as [|x t]; [left; discriminate|]. destruct (string_dec x "node_modules") as [->|Hn]; [right; eauto|].
  left. intros u E. injection E as -> _. congruence.
Qed.

Section Tree.
  Variable requested : pspec -> string.
  Variable gitshow : gitinfo -> string.
  Variable contents : resolution -> list (path * string).
  Hypothesis Hcont : plain_contents contents.
  Notation hinst := (hinst contents).
  Notation hinsts := (hinsts contents).
  Notation wanted g := (wanted (hinsts g)).
  Notation doomed := (doomed requested gitshow).
  Notation doomed_old := (doomed_old requested gitshow).
  Notation keeps := (keeps requested gitshow).

  Variable rsat : range -> version -> bool.
  Variable canon : string -> option string.
  Variable deliver : pspec -> outcome -> Prop.
  Notation GInv := (GInv rsat canon deliver).

  Section Graph.
  Variable g : graph.
  Variable q0 : list nat.
  Variable P0 : list dep.
  Hypothesis I : GInv g q0 P0.
  Hypothesis Hg : good_graph g.

  Lemma installed_good i names : installed_at g i names -> Forall good_name names.
  Proof. induction 1 as [|p path x c H IH Hc]; [constructor|]. apply Forall_app. split; [auto|]. constructor; [eapply Hg; eauto | constructor]. Qed.
  Lemma node_names i : i < size g -> Forall good_name (node_path g i).
  Proof. intros Hi. apply (installed_good i). eapply installed_all; eauto. Qed.
  Lemma node_ne i : 0 < i -> i < size g -> node_path g i <> [].
  Proof.
    intros H0 Hi E. pose proof (installed_all _ _ _ _ _ _ I i Hi) as H. rewrite E in H.
    assert (i = 0) by (eapply installed_inj; [exact H | constructor]). lia.
  Qed.
  Lemma node_inj i j : i < size g -> j < size g -> node_path g i = node_path g j -> i = j.
  Proof. intros Hi Hj E. eapply installed_inj; [eapply installed_all; eauto|]. rewrite E. eapply installed_all; eauto. Qed.
  Lemma node_under i j s : i < size g -> j < size g -> node_path g j = node_path g i ++ s -> i <= j.
  Proof.
    intros Hi Hj E. pose proof (prefix_under _ _ _ _ _ _ I j Hj _ _ i E (installed_all _ _ _ _ _ _ I i Hi)) as Hu.
    pose proof (ginv_parlt _ _ _ _ _ _ I) as Hp. clear E Hi Hj. induction Hu as [|a b c Hab Hu IH]; [lia|]. apply Hp in Hab. lia.
  Qed.

  (** items of package [i] *)
  Definition pfiles (i : nat) (f : path) (e : ent) : Prop :=
    (f = [] /\ e = EDir) \/ exists b, e = EFile b /\ In (f, b) (package_files contents g i).
  Lemma pfiles_item i p e : In (p, e) (i_main (hinst g i)) <-> exists f, p = disk (node_path g i) ++ f /\ pfiles i f e.
  Proof.
    cbn. split.
    - intros [H|H].
      + injection H as <- <-. exists []. rewrite app_nil_r. split; [auto | left; auto].
      + apply in_map_iff in H. destruct H as ([f b] & H & Hin). injection H as <- <-. exists f. split; [auto|]. right. eauto.
    - intros (f & -> & [[-> ->]|(b & -> & H)]).
      + left. now rewrite app_nil_r.
      + right. apply in_map_iff. exists (f, b). auto.
  Qed.
  Lemma pfiles_ok i f e : pfiles i f e -> (forall t, f <> "node_modules" :: t).
  Proof.
    intros [[-> _]|(b & _ & H)]; [discriminate|]. unfold package_files in H. destruct (getn g i); [|destruct H]. apply Hcont in H. apply H.
  Qed.
  Lemma pfiles_file i f b : In (f, b) (package_files contents g i) -> f <> [] /\ forall f' b', In (f', b') (package_files contents g i) -> prefix f f' -> f = f' /\ b = b'.
  Proof. unfold package_files. destruct (getn g i); [|intros []]. intros H. apply Hcont in H. destruct H as (H1 & _ & H2). auto. Qed.

  Lemma hinsts_in x : In x (hinsts g) <-> x = mkInst None [] [(["node_modules"], EDir)] \/ exists i, 0 < i < size g /\ x = hinst g i.
  Proof.
    unfold hinsts. cbn [In]. rewrite in_map_iff. split.
    - intros [<-|(i & <- & H)]; [auto|]. apply in_seq in H. right. exists i. split; [lia|auto].
    - intros [->|(i & H & ->)]; [auto|]. right. exists i. split; [auto|]. apply in_seq. lia.
  Qed.
  Lemma hitem p e : (exists x, In x (hinsts g) /\ In (p, e) (items x)) <->
    (p = ["node_modules"] /\ e = EDir) \/ exists i f, 0 < i < size g /\ p = disk (node_path g i) ++ f /\ pfiles i f e.
  Proof.
    split.
    - intros (x & Hx & Hp). apply hinsts_in in Hx. destruct Hx as [->|(i & Hi & ->)].
      + cbn in Hp. destruct Hp as [H|[]]. injection H as <- <-. auto.
      + right. unfold items in Hp. apply in_app_iff in Hp. destruct Hp as [Hp|[]]. apply pfiles_item in Hp. destruct Hp as (f & -> & Hf). eauto.
    - intros [[-> ->]|(i & f & Hi & -> & Hf)].
      + eexists. split; [apply hinsts_in; left; reflexivity|]. cbn. auto.
      + exists (hinst g i). split; [apply hinsts_in; eauto|]. unfold items. apply in_app_iff. left. apply pfiles_item. eauto.
  Qed.

  (** two items on the same path, or one above the other *)
  Lemma same_pkg i j f f' r e e' : 0 < i < size g -> 0 < j < size g -> pfiles i f e -> pfiles j f' e' ->
    disk (node_path g j) ++ f' = (disk (node_path g i) ++ f) ++ r -> f <> [] -> i = j /\ f' = f ++ r.
  Proof.
    intros Hi Hj Hf Hf' E Hne. rewrite <- app_assoc in E.
    apply disk_prefix in E; [|apply node_names; lia|apply node_names; lia|eapply pfiles_ok; eauto].
    destruct E as (s & Ep & E). destruct s as [|x s].
    - rewrite app_nil_r in Ep. cbn in E. split; [symmetry; apply node_inj; auto; lia | auto].
    - destruct f as [|a f]; [congruence|]. rewrite disk_cons in E. cbn in E. injection E as -> _. destruct (pfiles_ok _ _ _ Hf _ eq_refl).
  Qed.

  Lemma h_fun q e e' : wanted g q e -> wanted g q e' -> e = e'.
  Proof.
    assert (FILE : forall i f b, 0 < i < size g -> In (f, b) (package_files contents g i) -> forall e', wanted g (disk (node_path g i) ++ f) e' -> e' = EFile b).
    { intros i f b Hi Hf e1 Hw. destruct (pfiles_file _ _ _ Hf) as [Hne Hu]. assert (Hpf : pfiles i f (EFile b)) by (right; eauto).
      assert (Htop : forall r, ["node_modules"] <> (disk (node_path g i) ++ f) ++ r).
      { intros r E. destruct (disk_last (node_path g i)) as (pre & m & Ed & _); [apply node_names; lia | apply node_ne; lia|].
        rewrite Ed in E. cbn in E. injection E as E. destruct pre; discriminate. }
      destruct Hw as [Hw|(-> & x & p & e2 & Hx & Hp & Ha)].
      - apply hitem in Hw. destruct Hw as [[E _]|(j & f' & Hj & E & Hf')]; [destruct (Htop []); rewrite app_nil_r; auto|].
        destruct (same_pkg i j f f' [] _ _ Hi Hj Hpf Hf') as [<- ->]; [now rewrite app_nil_r|auto|]. rewrite app_nil_r in Hf'.
        destruct Hf' as [[-> _]|(b' & -> & Hin)]; [congruence|]. destruct (Hu _ _ Hin (prefix_refl _)) as [_ ->]. reflexivity.
      - destruct Ha as ([r Hr] & Hn & _). assert (Hit : exists x, In x (hinsts g) /\ In (p, e2) (items x)) by eauto.
        apply hitem in Hit. destruct Hit as [[-> _]|(j & f' & Hj & -> & Hf')]; [destruct (Htop r); auto|].
        destruct (same_pkg i j f f' r _ _ Hi Hj Hpf Hf' Hr Hne) as [<- ->]. exfalso. apply Hn.
        destruct Hf' as [[E _]|(b' & -> & Hin)]; [destruct f; [congruence|discriminate]|].
        destruct (Hu _ _ Hin (prefix_app _ _)) as [E _]. now rewrite <- E. }
    assert (CASES : forall e, wanted g q e -> e = EDir \/ exists i f b, 0 < i < size g /\ In (f, b) (package_files contents g i) /\ q = disk (node_path g i) ++ f /\ e = EFile b).
    { intros e1 [Hw|(-> & _)]; [|auto]. apply hitem in Hw. destruct Hw as [[_ ->]|(j & f' & Hj & -> & [[-> ->]|(b & -> & Hin)])]; auto. right. eauto 8. }
    intros H H'. destruct (CASES e H) as [->|(i & f & b & Hi & Hf & -> & ->)].
    - destruct (CASES e' H') as [->|(i & f & b & Hi & Hf & -> & ->)]; [auto|]. now apply (FILE i f b Hi Hf).
    - symmetry. now apply (FILE i f b Hi Hf).
  Qed.

  Lemma h_check x d : In x (hinsts g) -> i_check x = Some d -> exists i, 0 < i < size g /\ x = hinst g i /\ d = disk (node_path g i).
  Proof. intros Hx Hd. apply hinsts_in in Hx. destruct Hx as [->|(i & Hi & ->)]; [discriminate|]. cbn in Hd. injection Hd as <-. eauto. Qed.
  Lemma h_main x d : In x (hinsts g) -> i_check x = Some d -> forall t, In t (i_main x) -> prefix d (fst t).
  Proof.
    intros Hx Hd [p e] Ht. destruct (h_check _ _ Hx Hd) as (i & Hi & -> & ->). apply pfiles_item in Ht. destruct Ht as (f & -> & _). apply prefix_app.
  Qed.
  Lemma h_ne x d : In x (hinsts g) -> i_check x = Some d -> d <> [].
  Proof. intros Hx Hd. destruct (h_check _ _ Hx Hd) as (i & Hi & -> & ->). apply disk_nil; [apply node_names; lia | apply node_ne; lia]. Qed.
  Lemma h_nocheck x : In x (hinsts g) -> i_check x = None -> i_main x = [].
  Proof. intros Hx Hd. apply hinsts_in in Hx. destruct Hx as [->|(i & Hi & ->)]; [reflexivity|discriminate]. Qed.
  Lemma h_links x t : In x (hinsts g) -> In t (i_links x) -> forall b, snd t <> EFile b.
  Proof. intros Hx Ht b. apply hinsts_in in Hx. destruct Hx as [->|(i & Hi & ->)]; [|destruct Ht]. destruct Ht as [<-|[]]. discriminate. Qed.
  Lemma seq_split n : forall m l1 x l2, seq m n = l1 ++ x :: l2 -> forall y, In y l2 -> x < y.
  Proof.
    induction n as [|n IH]; intros m l1 x l2 E y Hy; [destruct l1; discriminate|]. cbn in E. destruct l1 as [|z l1]; cbn in E; injection E as <- E.
    - rewrite <- E in Hy. apply in_seq in Hy. lia.
    - eapply IH; eauto.
  Qed.
  Lemma disk_inj i j : i < size g -> j < size g -> disk (node_path g i) = disk (node_path g j) -> i = j.
  Proof.
    intros Hi Hj E. assert (Hd1 : disk (node_path g i) ++ [] = disk (node_path g j) ++ []) by (rewrite !app_nil_r; exact E).
    apply disk_prefix in Hd1; [|apply node_names; lia|apply node_names; lia|discriminate]. destruct Hd1 as (s' & Es & Hs'). rewrite app_nil_r in Hs'.
    destruct s' as [|w s']; [|discriminate]. rewrite app_nil_r in Es. now apply node_inj.
  Qed.
  Lemma hinst_inj i j : i < size g -> j < size g -> hinst g i = hinst g j -> i = j.
  Proof. intros Hi Hj E. apply disk_inj; auto. apply (f_equal i_check) in E. cbn in E. congruence. Qed.
  Lemma h_ord l1 x l2 x' d : hinsts g = l1 ++ x :: l2 -> In x' l2 -> i_check x' = Some d -> forall t, In t (items x) -> ~ prefix d (fst t).
  Proof.
    intros E Hx' Hd [p e] Ht [r Hr]. cbn [fst] in Hr.
    assert (Hin' : In x' (hinsts g)) by (rewrite E; apply in_app_iff; right; now right).
    destruct (h_check _ _ Hin' Hd) as (j & Hj & -> & ->).
    assert (Hj2 : forall pre, disk (node_path g j) <> ["node_modules"] /\ disk (node_path g j) ++ pre <> ["node_modules"]).
    { intros pre. destruct (disk_last (node_path g j)) as (pr & m & Ed & _); [apply node_names; lia | apply node_ne; lia|]. rewrite Ed.
      split; intros E'; injection E' as E'; destruct pr; discriminate. }
    assert (Hx : In x (hinsts g)) by (rewrite E; apply in_app_iff; right; now left).
    apply hinsts_in in Hx. destruct Hx as [->|(i & Hi & ->)].
    - cbn in Ht. destruct Ht as [Ht|[]]. injection Ht as <- <-. apply (proj2 (Hj2 r)). now symmetry.
    - unfold items in Ht. apply in_app_iff in Ht. destruct Ht as [Ht|[]]. apply pfiles_item in Ht. destruct Ht as (f & -> & Hf).
      apply disk_prefix in Hr; [|apply node_names; lia|apply node_names; lia|eapply pfiles_ok; eauto]. destruct Hr as (s & Ep & _).
      apply node_under in Ep; [|lia|lia].
      unfold HoistedModel.hinsts in E. destruct l1 as [|z l1]; cbn in E; [injection E as E0 E; discriminate|]. injection E as _ E.
      apply map_eq_app in E. destruct E as (s1 & s2 & Es & _ & E2). destruct s2 as [|a s2]; [discriminate|]. cbn [map] in E2.
      assert (E3 : hinst g a = hinst g i) by congruence. assert (E4 : map (hinst g) s2 = l2) by congruence. clear E2.
      assert (Ha : In a (seq 1 (size g - 1))) by (rewrite Es; apply in_app_iff; right; now left). apply in_seq in Ha.
      apply hinst_inj in E3; [|lia|lia]. subst a. rewrite <- E4 in Hx'. apply in_map_iff in Hx'. destruct Hx' as (j' & Ej & Hj').
      assert (Hs : In j' (seq 1 (size g - 1))) by (rewrite Es; apply in_app_iff; right; now right). apply in_seq in Hs.
      apply hinst_inj in Ej; [|lia|lia].
      subst j'. pose proof (seq_split _ _ _ _ _ Es _ Hj'). lia.
  Qed.

  (** ** pruning *)
  Lemma doomed_old_shape a q : doomed_old a g q = true -> exists pre x, q = "node_modules" :: pre ++ [x] /\ forallb special pre = true.
  Proof.
    unfold HoistedModel.doomed_old. destruct q as [|nm sub]; [discriminate|]. rewrite andb_true_iff, String.eqb_eq. intros [-> H].
    destruct (rev sub) as [|x rc] eqn:E; [discriminate|]. exists (rev rc), x. split.
    - f_equal. rewrite <- (rev_involutive sub), E. reflexivity.
    - rewrite !andb_true_iff in H. destruct H as (((((H & _) & _) & _) & _) & _). apply forallb_forall. intros y Hy. apply in_rev in Hy. revert y Hy. now apply forallb_forall.
  Qed.
  Lemma doomed_shape f m q : doomed f m g q = true -> exists pre x, q = "node_modules" :: pre ++ [x] /\ forallb special pre = true.
  Proof.
    unfold HoistedModel.doomed.
    assert (A : doomed_all q = true -> exists pre x, q = "node_modules" :: pre ++ [x] /\ forallb special pre = true).
    { unfold doomed_all. destruct q as [|nm [|x [|]]]; try discriminate. rewrite String.eqb_eq. intros ->. exists [], x. auto. }
    destruct (wipes f m); [auto|]. destruct m; [apply doomed_old_shape | auto].
  Qed.
  (** a doomed path that reaches into a package reaches its directory or above *)
  Lemma doomed_pkg f m q names r : Forall good_name names -> names <> [] -> doomed f m g q = true -> prefix q (disk names ++ r) -> prefix q (disk names).
  Proof.
    intros Hn Hne Hd Hp. destruct (doomed_shape _ _ _ Hd) as (pre & x & -> & Hs).
    destruct (prefix_linear _ _ _ Hp (prefix_app (disk names) r)) as [H|[z Hz]]; [exact H|].
    destruct (disk_last names Hn Hne) as (pr & m' & Ed & Hm). rewrite Ed in Hz |- *. cbn in Hz. injection Hz as Hz.
    destruct z as [|w z] using rev_ind; [exists []; rewrite !app_nil_r in *; cbn; now rewrite Hz|]. clear IHz.
    rewrite app_assoc in Hz. apply app_inj_tail in Hz. destruct Hz as [Hz _]. subst pre. rewrite <- app_assoc, forallb_app in Hs.
    apply andb_true_iff in Hs. destruct Hs as [_ Hs]. cbn in Hs. rewrite (plain_special _ Hm) in Hs. discriminate.
  Qed.
  Lemma h_whole f m x d : In x (hinsts g) -> i_check x = Some d -> kept (doomed f m g) d -> forall t, In t (i_main x) -> kept (doomed f m g) (fst t).
  Proof.
    intros Hx Hd Hk [p e] Ht (w & Hw & Hp). destruct (h_check _ _ Hx Hd) as (i & Hi & -> & ->). apply pfiles_item in Ht. destruct Ht as (f0 & -> & _).
    cbn [fst] in Hp. apply Hk. exists w. split; [auto|]. eapply doomed_pkg; eauto; [apply node_names; lia | apply node_ne; lia].
  Qed.
  End Graph.

  Lemma cond_dec (D : path -> bool) q : condemned D q \/ ~ condemned D q.
  Proof.
    destruct (existsb (fun n => D (firstn n q)) (seq 0 (S (length q)))) eqn:E.
    - left. apply existsb_exists in E. destruct E as (n & _ & H). exists (firstn n q). split; [auto|]. exists (skipn n q). now rewrite firstn_skipn.
    - right. intros (d & Hd & [r ->]). assert (existsb (fun n => D (firstn n (d ++ r))) (seq 0 (S (length (d ++ r)))) = true); [|congruence].
      apply existsb_exists. exists (length d). split; [apply in_seq; rewrite app_length; lia|]. rewrite firstn_app, firstn_all, Nat.sub_diag. cbn. now rewrite app_nil_r.
  Qed.
End Tree.
