(** * Linking bins after a first install with the isolated linker *)
From Verif Require Import Base Types Kdl ResolverModel ResolverProofs ResolverSpec ResolverThms LockfileModel LockfileProofs LockfileGraph PathLookup Fs FsPad StdPath BinModel HoistedModel HoistedSpec HoistedProofs
  IsolatedModel IsolatedSpec IsolatedProofs IsolatedThms IsoMkdirModel IsoMkdirProofs BinLinkModel IsoBinModel IsoBinProofs.
Open Scope string_scope.
Open Scope list_scope.

Lemma good_comp x y : good_name x -> In y (comps x) -> y <> ".." /\ y <> "node_modules" /\ y <> ".bin" /\ y <> ".oro-store".
Proof.
  assert (P : forall m, plain m -> m <> ".." /\ m <> "node_modules" /\ m <> ".bin" /\ m <> ".oro-store").
  { intros m (c & t & -> & _ & Hd & _ & _ & Hn & Hf). repeat split; intros E; try (injection E as -> _; congruence). rewrite E in Hn, Hf. congruence. }
  intros [Hx|(s & m & -> & Hs & Hf & Hm)] H.
  - rewrite comps_plain in H by now apply plain_no_slash. destruct H as [<-|[]]. now apply P.
  - rewrite comps_scoped in H by (auto; now apply plain_no_slash). destruct H as [<-|[<-|[]]]; [repeat split; discriminate|now apply P].
Qed.
Definition nms (p : path) : nat := count_occ string_dec p "node_modules".
Lemma nms_app a b : nms (a ++ b) = nms a + nms b.
Proof. apply count_occ_app. Qed.
Lemma nms_good x : good_name x -> nms (comps x) = 0.
Proof. intros H. apply count_occ_not_In. intros X. destruct (good_comp x "node_modules" H X) as (_ & Y & _); congruence. Qed.
Lemma nms_none p : ~ In "node_modules" p -> nms p = 0.
Proof. intros H. now apply count_occ_not_In. Qed.

Section T.
  Variable hex8 : string -> string.
  Hypothesis Hhex : hex_ok hex8.
  Variable contents : resolution -> list (path * string).
  Hypothesis Hcont : plain_contents contents.
  Variable rsat : range -> version -> bool.
  Variable canon : string -> option string.
  Variable deliver : pspec -> outcome -> Prop.
  Notation wf := (wf rsat canon deliver).
  Variable g : graph.
  Hypothesis W : wf g.
  Hypothesis Hap : apart hex8 g g.
  Notation pkg_dir := (pkg_dir hex8).
  Notation nm_dir := (nm_dir hex8).
  Notation wanted := (wanted (iinsts hex8 contents g)).
  Notation home := (home hex8).
  Notation deps_dir := (deps_dir hex8).
  Variable f0 : fs.
  Hypothesis Hex : forall q e, in_nm q -> (f0 q = Some e <-> wanted q e).

  Definition V (i : nat) : Prop := exists x c, depends g i x c.
  Definition H (q : path) : Prop := exists c, 0 < c < size g /\ q = pkg_dir g c.

  Lemma want_up q e a : wanted q e -> above a q -> wanted a EDir.
  Proof.
    intros [(i & Hi & Ht)|(-> & i & p & e' & Hi & Ht & Ha)] Hq; right; (split; [reflexivity|]); [eauto 6|]. exists i, p, e'. split; [auto|]. split; [auto|].
    destruct Hq as (P & N1 & N2), Ha as (P' & N1' & N2'). split; [eapply prefix_trans; eauto|]. split; [|auto]. intros ->. apply N1. destruct P as [r ->], P' as [r' E]. rewrite <- app_assoc in E.
    rewrite <- (app_nil_r p) in E at 1. apply app_inv_head in E. symmetry in E. apply app_eq_nil in E as [-> _]. now rewrite app_nil_r.
  Qed.
  Lemma want_dirs q e p : wanted q e -> above p q \/ (p = q /\ e = EDir) -> dirs f0 p.
  Proof.
    intros Hw Hp a Ha Pa. assert (X : wanted a EDir).
    { destruct (path_eq_dec a q) as [->|Na].
      - destruct Hp as [([r Er] & Nq & _)|[_ ->]]; [|exact Hw]. exfalso. apply Nq. destruct Pa as [r' Er']. rewrite Er', <- app_assoc in Er. rewrite <- (app_nil_r q) in Er at 1. apply app_inv_head in Er. symmetry in Er. apply app_eq_nil in Er as [-> _]. now rewrite Er', app_nil_r.
      - apply (want_up q e a Hw). split; [|split; auto]. destruct Hp as [(P & _)|[-> _]]; [eapply prefix_trans; eauto|exact Pa]. }
    apply (proj2 (Hex a EDir (wanted_nm hex8 contents rsat canon deliver g a EDir W X))). exact X.
  Qed.
  Lemma nm_link i x c : depends g i x c -> wanted (nm_dir g i ++ comps x) (ELink (diff_paths (pkg_dir g c) (removelast (nm_dir g i ++ comps x)))).
  Proof.
    intros Hd. pose proof W as ((q0 & P0 & I) & Hg & Hn). left. apply (iitem hex8 contents rsat canon deliver g q0 P0 I Hn). right. right. exists i, x, c. split; [exact Hd|].
    destruct (depends_lt rsat canon deliver g q0 P0 I _ _ _ Hd) as (Hi & _).
    assert (E : nm_dir g i ++ comps x = link_path hex8 g i x).
    { unfold link_path. destruct (Nat.eqb_spec i 0) as [->|Hne]; [apply nm_dir_root|]. apply nm_dir_loc; [exact Hn|lia]. }
    unfold link_text. rewrite <- E. auto.
  Qed.
  Lemma pkg_wanted c : 0 < c < size g -> wanted (pkg_dir g c) EDir.
  Proof.
    intros Hc. pose proof W as ((q0 & P0 & I) & Hg & Hn). left. apply (iitem hex8 contents rsat canon deliver g q0 P0 I Hn). right. left. exists c, []. split; [exact Hc|].
    rewrite app_nil_r. split; [apply (pkg_dir_loc hex8 g Hn c Hc)|]. left. auto.
  Qed.
  Lemma nm_deps i p : installed_at g i p -> deps_dir p = nm_dir g i.
  Proof.
    intros Hi. pose proof W as ((q0 & P0 & I) & Hg & Hn). destruct (path_node rsat canon deliver g i p W Hi) as [Hlt ->]. unfold nm_dir. destruct (Nat.eqb_spec i 0) as [->|Hne].
    - destruct (path_node rsat canon deliver g 0 [] W) as [_ <-]; [constructor|]. reflexivity.
    - rewrite <- (home_loc hex8 rsat canon deliver g i W) by lia. pose proof (node_ne rsat canon deliver g q0 P0 I i ltac:(lia) Hlt) as Hnil. unfold deps_dir. destruct (node_path g i); [congruence|reflexivity].
  Qed.
  Lemma name_dep i x c : depends g i x c -> good_name x /\ i < size g /\ 0 < c < size g.
  Proof.
    intros Hd. pose proof W as ((q0 & P0 & I) & Hg & Hn). destruct (depends_lt rsat canon deliver g q0 P0 I _ _ _ Hd) as (Hi & Hc & _). split; [|auto]. exact (dep_name_good rsat canon deliver g q0 P0 I Hg _ _ _ Hd).
  Qed.
  Lemma pkg_up c : 0 < c < size g -> no_up (pkg_dir g c) /\ nms (pkg_dir g c) = 2.
  Proof.
    intros Hc. pose proof W as ((q0 & P0 & I) & Hg & Hn). pose proof (name_good rsat canon deliver g q0 P0 I Hg c Hc) as G1. pose proof (dn_good hex8 Hhex rsat canon deliver g q0 P0 I Hg c Hc) as G2.
    unfold IsolatedModel.pkg_dir, store_dir. rewrite (pkg_name_of g Hn c Hc). split.
    - intros X. apply in_app_or in X as [[X|[X|X]]|[X|X]]; try discriminate; [exact (proj1 (good_comp _ _ G2 X) eq_refl)|exact (proj1 (good_comp _ _ G1 X) eq_refl)].
    - rewrite nms_app. change (nms ("node_modules" :: store_name :: comps (IsolatedModel.dir_name hex8 g c))) with (Datatypes.S (nms (comps (IsolatedModel.dir_name hex8 g c)))).
      change (nms ("node_modules" :: comps (name_of g c))) with (Datatypes.S (nms (comps (name_of g c)))). rewrite (nms_good _ G1), (nms_good _ G2). reflexivity.
  Qed.

  Lemma hyp_N i : V i -> dirs f0 (nm_dir g i) /\ no_up (nm_dir g i) /\ nm_dir g i <> [].
  Proof.
    intros (x & c & Hd). destruct (name_dep i x c Hd) as (Gx & Hi & Hc). split; [|split].
    - apply (want_dirs _ _ _ (nm_link i x c Hd)). left. split; [apply prefix_app|]. split.
      + intros E. rewrite <- (app_nil_r (nm_dir g i)) in E at 1. apply app_inv_head in E. now apply (comps_good_ne x Gx).
      + unfold IsolatedModel.nm_dir. destruct (Nat.eqb i 0); [discriminate|]. destruct (pkg_dir g i); discriminate.
    - unfold IsolatedModel.nm_dir. destruct (Nat.eqb_spec i 0) as [->|Hne]; [intros [X|[]]; discriminate|]. intros X. apply in_app_or in X as [X|[X|[]]]; [|discriminate]. now apply (proj1 (pkg_up i ltac:(lia))).
    - unfold IsolatedModel.nm_dir. destruct (Nat.eqb i 0); [discriminate|]. destruct (pkg_dir g i); discriminate.
  Qed.
  Lemma only i r e : i < size g -> r <> [] -> (i = 0 -> forall t, r <> ".oro-store" :: t) -> f0 (nm_dir g i ++ r) = Some e ->
    (exists x c, depends g i x c /\ r = comps x) \/ (exists s y c, depends g i (String "@" s ++ "/" ++ y) c /\ no_slash s = true /\ r = [String "@" s] /\ e = EDir).
  Proof.
    intros Hi Hr Hs E. pose proof (at_path rsat canon deliver g i W Hi) as Ip. rewrite <- (nm_deps i _ Ip) in E.
    exact (look_only hex8 Hhex contents Hcont rsat canon deliver g W Hap f0 (exact_settled hex8 contents rsat canon deliver g W f0 Hex) i _ r e Ip Hr E Hs).
  Qed.
  Lemma V_lt i : V i -> i < size g.
  Proof. intros (x & c & Hd). apply (name_dep i x c Hd). Qed.
  Lemma bin_none i r : i < size g -> f0 (nm_dir g i ++ ".bin" :: r) = None.
  Proof.
    intros Vi. destruct (f0 (nm_dir g i ++ ".bin" :: r)) as [e|] eqn:E; [|reflexivity]. exfalso. destruct (only i (".bin" :: r) e Vi) as [(x & c & Hd & Ex)|(s & y & c & _ & _ & X & _)]; [discriminate|intros _ t X; discriminate|exact E| |discriminate].
    destruct (name_dep i x c Hd) as (Gx & _). assert (In ".bin" (comps x)) as X by (rewrite <- Ex; now left). now destruct (good_comp x ".bin" Gx X) as (_ & _ & Y & _).
  Qed.
  Lemma nm_inj i j : i < size g -> j < size g -> nm_dir g i = nm_dir g j -> i = j.
  Proof.
    intros Hi Hj E. pose proof W as ((q0 & P0 & Gi) & Hg & Hn). assert (L : forall k, 3 <= List.length (pkg_dir g k)) by (intros k; unfold IsolatedModel.pkg_dir, store_dir; rewrite app_length; cbn; lia).
    unfold IsolatedModel.nm_dir in E. destruct (Nat.eqb_spec i 0) as [->|Z1], (Nat.eqb_spec j 0) as [->|Z2]; [reflexivity| | |].
    - apply (f_equal (@List.length string)) in E. rewrite app_length in E. cbn in E. specialize (L j). lia.
    - apply (f_equal (@List.length string)) in E. rewrite app_length in E. cbn in E. specialize (L i). lia.
    - apply app_inj_tail in E as [E _]. rewrite (pkg_dir_loc hex8 g Hn i ltac:(lia)), (pkg_dir_loc hex8 g Hn j ltac:(lia)) in E. 
      assert (E' : sloc (dir_name hex8 g j) (name_of g j :: []) ++ [] = sloc (dir_name hex8 g i) [name_of g i] ++ []) by (rewrite !app_nil_r; auto).
      refine (proj1 (sloc_here hex8 Hhex rsat canon deliver g q0 P0 Gi Hg (col_inj hex8 Hhex rsat canon deliver g W Hap) _ _ _ _ _ _ _ _ _ E')); try lia; [constructor|discriminate].
  Qed.
  Lemma hyp_none i r : V i -> f0 (nm_dir g i ++ ".bin" :: r) = None.
  Proof. intros Vi. apply bin_none. now apply V_lt. Qed.
  Lemma in_nm_pkg c r : in_nm (pkg_dir g c ++ r).
  Proof. unfold IsolatedModel.pkg_dir, store_dir. cbn [app]. eexists. reflexivity. Qed.
  Lemma hyp_tree q a : f0 q <> None -> H a -> prefix a q -> forall b, prefix a b -> prefix b q -> b <> q -> f0 b = Some EDir.
  Proof.
    intros E (c & Hc & ->) [r ->] b [r' ->] P Nb. destruct (f0 (pkg_dir g c ++ r)) as [e|] eqn:Ef; [|congruence]. apply (Hex _ _ (in_nm_pkg c r)) in Ef.
    apply (Hex _ _ (in_nm_pkg c r')). eapply want_up; [exact Ef|]. split; [exact P|]. split; [exact Nb|]. unfold IsolatedModel.pkg_dir, store_dir. discriminate.
  Qed.
  Lemma hyp_name i n : V i -> n <> ".bin" -> n <> ".oro-store" -> n <> ".." -> starts_at n = false ->
    f0 (nm_dir g i ++ [n]) = None \/ exists q, f0 (nm_dir g i ++ [n]) = Some (ELink (diff_paths q (nm_dir g i))) /\ H q.
  Proof.
    intros Vi N1 N2 N3 N4. destruct (f0 (nm_dir g i ++ [n])) as [e|] eqn:E; [|auto]. right. destruct (only i [n] e (V_lt i Vi)) as [(x & c & Hd & Ex)|(s & y & c & _ & _ & X & _)]; [discriminate|intros _ t X; injection X as -> _; congruence|exact E| |].
    - destruct (name_dep i x c Hd) as (_ & _ & Hc). exists (pkg_dir g c). split; [|exists c; auto]. pose proof (nm_link i x c Hd) as L. rewrite <- Ex, removelast_last in L.
      apply (Hex _ _ (wanted_nm hex8 contents rsat canon deliver g _ _ W L)) in L. congruence.
    - injection X as ->. discriminate.
  Qed.
  Lemma hyp_H q : H q -> dirs f0 q /\ no_up q /\ q <> [].
  Proof.
    intros (c & Hc & ->). split; [|split; [apply pkg_up; exact Hc|unfold IsolatedModel.pkg_dir, store_dir; discriminate]]. apply (want_dirs _ _ _ (pkg_wanted c Hc)). auto.
  Qed.
  Lemma hyp_files q segs : H q -> ~ In "node_modules" segs -> (forall t, f0 (q ++ segs) <> Some (ELink t)) /\ forall i, V i -> ~ prefix (nm_dir g i ++ [".bin"]) (q ++ segs).
  Proof.
    intros (c & Hc & ->) Hs. split.
    - intros t E. pose proof (at_path rsat canon deliver g c W ltac:(lia)) as Ip. rewrite <- (home_loc hex8 rsat canon deliver g c W Hc) in E. destruct (getn g c) as [n|] eqn:En.
      + apply (look_files hex8 Hhex contents Hcont rsat canon deliver g W Hap f0 (exact_settled hex8 contents rsat canon deliver g W f0 Hex) c _ n Ip ltac:(lia) En) in E; [|intros u ->; apply Hs; now left].
        destruct E as [[X _]|(b & X & _)]; discriminate.
      + unfold getn in En. apply nth_error_None in En. unfold size in Hc. lia.
    - intros i (x & d & Hd) [r E]. destruct (name_dep i x d Hd) as (_ & Hi & _). unfold IsolatedModel.nm_dir in E. destruct (Nat.eqb_spec i 0) as [->|Hne].
      + unfold IsolatedModel.pkg_dir, store_dir in E. cbn [app] in E. injection E as E. discriminate.
      + apply (f_equal nms) in E. rewrite !nms_app in E. rewrite (proj2 (pkg_up c Hc)), (proj2 (pkg_up i ltac:(lia))), (nms_none segs Hs) in E. cbn in E. lia.
  Qed.
End T.
