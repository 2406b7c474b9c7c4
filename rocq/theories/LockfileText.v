(** * The text of a lockfile depends on the tree only (C05, C59): not on the order in which packages were found *)
From Verif Require Import Base Types Kdl ResolverModel ResolverProofs ResolverRun ResolverSpec ResolverThms ResolverFacts
  LockfileModel LockfileSpec LockfileProofs LockfileGraph LockfileFacts LockfileReplay.
From Coq Require Import Permutation.
Open Scope string_scope.
Open Scope list_scope.

(** ** Rust's String order is an order *)
Lemma ascii_compare_trans a b c : Ascii.compare a b = Lt -> Ascii.compare b c = Lt -> Ascii.compare a c = Lt.
Proof. unfold Ascii.compare. rewrite !N.compare_lt_iff. lia. Qed.
Lemma ascii_compare_eq a b : Ascii.compare a b = Eq -> a = b.
Proof. apply Ascii.compare_eq_iff. Qed.
Lemma leb_cases a b : String.leb a b = true <-> String.compare a b <> Gt.
Proof. unfold String.leb. destruct (String.compare a b); split; congruence. Qed.
Lemma scompare_trans a : forall b c, String.compare a b <> Gt -> String.compare b c <> Gt -> String.compare a c <> Gt.
Proof.
  induction a as [|x a IH]; intros [|y b] [|z c]; cbn; try congruence.
  destruct (Ascii.compare x y) eqn:E1; [apply ascii_compare_eq in E1; subst y|..]; try congruence.
  - destruct (Ascii.compare x z) eqn:E2; try congruence. apply IH.
  - destruct (Ascii.compare y z) eqn:E2; try congruence.
    + apply ascii_compare_eq in E2. subst z. rewrite E1. congruence.
    + rewrite (ascii_compare_trans _ _ _ E1 E2). congruence.
Qed.
Lemma leb_trans a b c : String.leb a b = true -> String.leb b c = true -> String.leb a c = true.
Proof. rewrite !leb_cases. apply scompare_trans. Qed.
Lemma leb_anti a b : String.leb a b = true -> String.leb b a = true -> a = b.
Proof. apply String.leb_antisym. Qed.

(** ** sorting forgets the order *)
Section Sort.
  Context {A : Type} (key : A -> string).
  Let le (a b : A) := String.leb (key a) (key b).
  Lemma sinsert_comm a b l : key a <> key b -> sinsert le a (sinsert le b l) = sinsert le b (sinsert le a l).
  Proof.
    intros Hne. assert (Hx : forall x y, le x y = false -> le y x = true) by (intros x y H; destruct (leb_total (key x) (key y)) as [H'|H']; [unfold le in H; congruence|exact H']).
    assert (Hab : forall x y, key x <> key y -> le x y = true -> le y x = false).
    { intros x y Hk H. destruct (le y x) eqn:E; [|reflexivity]. destruct Hk. now apply leb_anti. }
    assert (Ht : forall x y z, le x y = true -> le y z = true -> le x z = true) by (intros x y z; apply leb_trans).
    induction l as [|c l IH]; cbn.
    - destruct (le a b) eqn:E1; [rewrite (Hab a b Hne E1); reflexivity|]. now rewrite (Hx a b E1).
    - destruct (le b c) eqn:Ebc, (le a c) eqn:Eac; cbn; rewrite ?Ebc, ?Eac.
      + destruct (le a b) eqn:E1; [rewrite (Hab a b Hne E1), ?Ebc; reflexivity|]. rewrite (Hx a b E1), ?Eac. reflexivity.
      + destruct (le a b) eqn:E1; [|cbn; rewrite ?Eac; reflexivity]. rewrite (Ht a b c E1 Ebc) in Eac. discriminate.
      + destruct (le b a) eqn:E1; [|cbn; rewrite ?Ebc; reflexivity]. rewrite (Ht b a c E1 Eac) in Ebc. discriminate.
      + now rewrite IH.
  Qed.
  Lemma ssort_perm_eq l l' : Permutation l l' -> NoDup (map key l) -> ssort le l = ssort le l'.
  Proof.
    induction 1 as [|a l l' HP IH|a b l|l l1 l2 H1 IH1 H2 IH2]; intros Hn; cbn [map] in *; auto.
    - inversion Hn; subst. cbn. fold (ssort le l). fold (ssort le l'). now rewrite IH.
    - cbn. apply sinsert_comm. inversion Hn as [|? ? H _]; subst. intros E. apply H. now left.
    - rewrite IH1 by exact Hn. apply IH2. eapply NoDup_perm_map; eauto.
  Qed.
End Sort.
Lemma lookups_perm (V : Type) (a b : list (string * V)) : NoDup (map fst a) -> NoDup (map fst b) -> (forall k, sget k a = sget k b) -> Permutation a b.
Proof.
  intros Na Nb H. apply NoDup_Permutation; [now apply NoDup_map_inv in Na|now apply NoDup_map_inv in Nb|].
  intros [k v]. split; intros Hi.
  - apply (In_aget String.eqb seqb_spec k v a Na) in Hi. rewrite H in Hi. now apply aget_In in Hi; [|apply seqb_spec].
  - apply (In_aget String.eqb seqb_spec k v b Nb) in Hi. rewrite <- H in Hi. now apply aget_In in Hi; [|apply seqb_spec].
Qed.

(** ** what is written *)
(** two entries that look the same on disk *)
Definition same_written (a b : lnode) : Prop :=
  l_is_root a = l_is_root b /\ l_path a = l_path b /\ l_version a = l_version b
  /\ (l_is_root a = false -> l_resolved a = l_resolved b /\ l_integrity a = l_integrity b)
  /\ forall t, same_map (section_of t a) (section_of t b).

Section Text.
  Variable vshow : version -> string.
  Lemma deps_nodes_ext t a b : NoDup (map fst a) -> NoDup (map fst b) -> same_map a b -> deps_nodes t a = deps_nodes t b.
  Proof.
    intros Na Nb H. pose proof (lookups_perm string a b Na Nb H) as HP. pose proof (ssort_perm_eq fst a b HP Na) as E.
    unfold deps_nodes. destruct a as [|e a], b as [|e' b]; try reflexivity; try (apply Permutation_length in HP; discriminate HP).
    rewrite !deps_to_kdl_eq. unfold sort_deps. now rewrite E.
  Qed.
  Lemma lnode_to_kdl_ext a b : deps_ok a -> deps_ok b -> same_written a b -> lnode_to_kdl vshow a = lnode_to_kdl vshow b.
  Proof.
    intros (A1 & A2 & A3 & A4) (B1 & B2 & B3 & B4) (Hr & Hp & Hv & Ho & Hs). unfold lnode_to_kdl.
    assert (E : lnode_children vshow a = lnode_children vshow b).
    { unfold lnode_children. rewrite Hv, Hr.
      rewrite (deps_nodes_ext Prod (l_deps a) (l_deps b)), (deps_nodes_ext Dev (l_dev a) (l_dev b)), (deps_nodes_ext Peer (l_peer a) (l_peer b)), (deps_nodes_ext Opt (l_opt a) (l_opt b)); auto;
        [|apply (Hs Opt)|apply (Hs Peer)|apply (Hs Dev)|apply (Hs Prod)].
      destruct (l_is_root b) eqn:E; [reflexivity|]. destruct (Ho Hr) as [-> ->]. reflexivity. }
    now rewrite E, Hr, Hp.
  Qed.
  Lemma to_kdl_ext a b : NoDup (map (fun e => ufold (fst e)) (lf_packages a)) -> NoDup (map (fun e => ufold (fst e)) (lf_packages b)) ->
    lf_version a = lf_version b -> lnode_to_kdl vshow (lf_root a) = lnode_to_kdl vshow (lf_root b) ->
    (forall k, option_map (lnode_to_kdl vshow) (aget ueqb k (lf_packages a)) = option_map (lnode_to_kdl vshow) (aget ueqb k (lf_packages b))) ->
    to_kdl vshow a = to_kdl vshow b.
  Proof.
    intros Na Nb Hv Hr Hk. unfold to_kdl. rewrite Hv, Hr. do 2 f_equal.
    set (h := fun e : string * lnode => (ufold (fst e), lnode_to_kdl vshow (snd e))).
    assert (HP : Permutation (map h (lf_packages a)) (map h (lf_packages b))).
    { apply lookups_perm; [now rewrite map_map|now rewrite map_map|].
      assert (G : forall k l, sget (ufold k) (map h l) = option_map (lnode_to_kdl vshow) (aget ueqb k l)).
      { intros k l. rewrite aget_ueqb. induction l as [|[k' n] l IH]; [reflexivity|]. cbn [map h aget fst snd].
        destruct (String.eqb (ufold k) (ufold k')); [reflexivity|exact IH]. }
      intros k. destruct (String.eqb_spec (ufold k) k) as [E|Hne]; [rewrite <- E, !G; apply Hk|].
      assert (Hno : forall l, sget k (map h l) = None).
      { intros l. apply aget_None; [apply seqb_spec|]. rewrite map_map. intros Hin. apply in_map_iff in Hin. destruct Hin as (e & E & _). cbn in E.
        apply Hne. rewrite <- E. apply ufold_idem. }
      now rewrite !Hno. }
    pose proof (ssort_perm_eq fst _ _ HP) as E. rewrite map_map in E. specialize (E Na).
    rewrite !(ssort_map _ _ h (fun x y => String.leb (fst x) (fst y))) in E.
    apply (f_equal (map snd)) in E. rewrite !map_map in E. exact E.
  Qed.
End Text.

(** ** two resolutions that ended with the same tree *)
Section Graphs.
  Variable rsat : range -> version -> bool.
  Variable canon : string -> option string.
  Variable parse_dep : string -> string -> res err pspec.
  Variable lnodeT : Type.
  Variable lpath : lnodeT -> list string.
  Variable lman : lnodeT -> manifest.
  Variable to_pkg : lnodeT -> res err (option package).
  Variable requested : pspec -> string.
  Variable gitshow : gitinfo -> string.
  Variable vshow : version -> string.
  Notation reach := (reach rsat canon parse_dep lnodeT lpath lman to_pkg).
  Notation describes := (describes requested gitshow).
  Variables (root root' : node) (pkg pkg' : package) (m m' : manifest) (name name' : string).
  Hypothesis Hroot : new_node parse_dep name pkg m true = Ok root.
  Hypothesis Hroot' : new_node parse_dep name' pkg' m' true = Ok root'.
  Variables (deliver deliver' : pspec -> outcome -> Prop) (lock lock' : option (lockpkgs lnodeT)) (s s' : st).
  Hypothesis Hs : reach deliver lock root s.
  Hypothesis Hs' : reach deliver' lock' root' s'.
  Hypothesis Hsame : same_tree (s_g s) (s_g s').
  Notation g := (s_g s).
  Notation g' := (s_g s').

  Lemma at_same i path : installed_at g i path -> exists j, installed_at g' j path.
  Proof.
    intros H. pose proof (reach_inv _ _ _ _ _ _ _ _ _ _ _ _ _ _ Hroot Hs) as [I _ _ _ _].
    destruct (installed_path _ _ _ _ _ _ I _ _ H) as [Hi _]. destruct (proj1 (getn_lt g i) Hi) as [n Hn].
    destruct (proj1 (proj1 Hsame path (pk_resolved (n_pkg n)))) as (p & (j & n' & Hj & _) & _); [|eauto].
    exists (n_pkg n). split; [|reflexivity]. exists i, n. auto.
  Qed.
  Lemma source_same i j path n n' : installed_at g i path -> installed_at g' j path -> getn g i = Some n -> getn g' j = Some n' ->
    source (pk_resolved (n_pkg n)) = source (pk_resolved (n_pkg n')).
  Proof.
    intros Hi Hj Hn Hn'. destruct (proj1 (proj1 Hsame path (pk_resolved (n_pkg n)))) as (p & (j' & n2 & Hj' & Hn2 & <-) & E).
    { exists (n_pkg n). split; [|reflexivity]. exists i, n. auto. }
    assert (j' = j) by (eapply installed_inj; eauto). subst. congruence.
  Qed.
  Lemma links_same i j path x sp t : installed_at g i path -> installed_at g' j path -> (exists c, linked g i x sp t c) -> exists c, linked g' j x sp t c.
  Proof.
    intros Hi Hj (c & Hl). pose proof (reach_inv _ _ _ _ _ _ _ _ _ _ _ _ _ _ Hroot Hs) as [I _ _ _ _].
    assert (Hc : c < size g).
    { destruct (links_ok rsat canon parse_dep lnodeT lpath lman to_pkg deliver lock root pkg m name Hroot s Hs _ _ _ _ _ Hl) as (_ & n & Hn & _). apply getn_lt; eauto. }
    destruct (proj1 (proj2 (proj2 Hsame) path x sp t (node_path g c))) as (j' & c' & Hj' & Hl' & _).
    { exists i, c. split; [exact Hi|]. split; [exact Hl|]. eapply installed_all; eauto. }
    assert (j' = j) by (eapply installed_inj; eauto). subst. eauto.
  Qed.
End Graphs.
Lemma same_tree_sym g g' : same_tree g g' -> same_tree g' g.
Proof. intros (A & B & C). split; [|split]; intros; [now rewrite A|now rewrite B|now rewrite C]. Qed.
Lemma same_tree_trans g g' g'' : same_tree g g' -> same_tree g' g'' -> same_tree g g''.
Proof. intros (A & B & C) (A' & B' & C'). split; [|split]; intros; [now rewrite A|now rewrite B|now rewrite C]. Qed.

Section Same.
  Variable rsat : range -> version -> bool.
  Variable canon : string -> option string.
  Variable parse_dep : string -> string -> res err pspec.
  Variable lnodeT : Type.
  Variable lpath : lnodeT -> list string.
  Variable lman : lnodeT -> manifest.
  Variable to_pkg : lnodeT -> res err (option package).
  Variable requested : pspec -> string.
  Variable gitshow : gitinfo -> string.
  Variable vshow : version -> string.
  Notation reach := (reach rsat canon parse_dep lnodeT lpath lman to_pkg).
  Notation describes := (describes requested gitshow).
  Variables (root root' : node) (pkg pkg' : package) (m m' : manifest) (name name' : string).
  Hypothesis Hroot : new_node parse_dep name pkg m true = Ok root.
  Hypothesis Hroot' : new_node parse_dep name' pkg' m' true = Ok root'.
  Variables (deliver deliver' : pspec -> outcome -> Prop) (lock lock' : option (lockpkgs lnodeT)) (s s' : st).
  Hypothesis Hs : reach deliver lock root s.
  Hypothesis Hs' : reach deliver' lock' root' s'.
  Hypothesis Hsame : same_tree (s_g s) (s_g s').
  Notation g := (s_g s).
  Notation g' := (s_g s').

  Lemma described_same i j path ln ln' : installed_at g i path -> installed_at g' j path -> describes g i ln -> describes g' j ln' ->
    l_path ln = l_path ln' /\ l_version ln = l_version ln' /\ l_resolved ln = l_resolved ln' /\ l_integrity ln = l_integrity ln'
    /\ forall t, same_map (section_of t ln) (section_of t ln').
  Proof.
    intros Hi Hj (n & Hn & Hp & _ & Hr & Hd) (n' & Hn' & Hp' & _ & Hr' & Hd').
    pose proof (reach_inv _ _ _ _ _ _ _ _ _ _ _ _ _ _ Hroot Hs) as [I _ _ _ _].
    pose proof (reach_inv _ _ _ _ _ _ _ _ _ _ _ _ _ _ Hroot' Hs') as [I' _ _ _ _].
    split.
    { rewrite (proj2 (installed_path _ _ _ _ _ _ I _ _ Hp)), <- (proj2 (installed_path _ _ _ _ _ _ I _ _ Hi)).
      rewrite (proj2 (installed_path _ _ _ _ _ _ I' _ _ Hp')), <- (proj2 (installed_path _ _ _ _ _ _ I' _ _ Hj)). reflexivity. }
    pose proof (source_same s s' Hsame i j path n n' Hi Hj Hn Hn') as Es.
    split; [|split; [|split]].
    1-3: destruct (pk_resolved (n_pkg n)), (pk_resolved (n_pkg n')); cbn in Es; try discriminate; injection Es; intros; subst; destruct Hr as (A & B & C), Hr' as (A' & B' & C'); congruence.
    intros t x.
    assert (Hiff : forall txt, sget x (section_of t ln) = Some txt <-> sget x (section_of t ln') = Some txt).
    { intros txt. rewrite Hd, Hd'. split; intros (sp & c & Hl & ->).
      - destruct (links_same rsat canon parse_dep lnodeT lpath lman to_pkg root pkg m name Hroot deliver lock s s' Hs Hsame i j path x sp t Hi Hj (ex_intro _ c Hl)) as [c' Hl']. eauto.
      - destruct (links_same rsat canon parse_dep lnodeT lpath lman to_pkg root' pkg' m' name' Hroot' deliver' lock' s' s Hs' (same_tree_sym _ _ Hsame) j i path x sp t Hj Hi (ex_intro _ c Hl)) as [c' Hl']. eauto. }
    destruct (sget x (section_of t ln)) as [a|] eqn:Ea; [symmetry; now apply Hiff|].
    destruct (sget x (section_of t ln')) as [b|] eqn:Eb; [|reflexivity]. pose proof (proj2 (Hiff b) eq_refl) as Y. discriminate Y.
  Qed.

  Lemma not_root_entry (gg : graph) lf : to_lockfile requested gitshow gg = Ok lf -> forall k ln, In (k, ln) (lf_packages lf) -> l_is_root ln = false.
  Proof.
    intros E k ln Hin. unfold to_lockfile in E. destruct (node_lnode requested gitshow gg 0 true) as [r| |]; cbn [rbind] in E; try discriminate.
    destruct (rmap _ _) as [pk| |] eqn:Er; cbn [rbind] in E; try discriminate. injection E as <-. cbn in Hin.
    apply keyed_facts in Hin. destruct (rmap_in _ _ _ _ _ Er _ Hin) as (j & _ & Ej). unfold node_lnode in Ej.
    destruct (getn gg j); [|discriminate]. injection Ej as <-. reflexivity.
  Qed.
  Lemma version_one (gg : graph) lf : to_lockfile requested gitshow gg = Ok lf -> lf_version lf = 1%N.
  Proof.
    intros E. unfold to_lockfile in E. destruct (node_lnode requested gitshow gg 0 true) as [r| |]; cbn [rbind] in E; try discriminate.
    destruct (rmap _ _) as [pk| |] eqn:Er; cbn [rbind] in E; try discriminate. injection E as <-. reflexivity.
  Qed.
  Lemma names_same : (forall i, 0 < i < size g -> valid_name (name_of g i)) -> forall j, 0 < j < size g' -> valid_name (name_of g' j).
  Proof.
    intros Hval j Hj. pose proof (reach_inv _ _ _ _ _ _ _ _ _ _ _ _ _ _ Hroot Hs) as [I _ _ _ _].
    pose proof (reach_inv _ _ _ _ _ _ _ _ _ _ _ _ _ _ Hroot' Hs') as [I' _ _ _ _].
    pose proof (ginv_parlt _ _ _ _ _ _ I') as Hp'. destruct (gi_par _ _ _ _ _ _ I' j Hj) as (p & Hpp & _).
    pose proof (installed_all _ _ _ _ _ _ I' j ltac:(lia)) as Ha.
    destruct (at_same rsat canon parse_dep lnodeT lpath lman to_pkg root' pkg' m' name' Hroot' deliver' lock' s' s Hs' (same_tree_sym _ _ Hsame) _ _ Ha) as (i & Hi).
    destruct (installed_path _ _ _ _ _ _ I _ _ Hi) as [Hlt E].
    apply (path_valid rsat canon deliver g _ _ I Hval i Hlt). rewrite <- E, (node_path_step g' Hp' j p) by (auto; lia). apply in_app_iff. right. now left.
  Qed.

  (** the same text *)
  Lemma same_tree_text : (forall i, 0 < i < size g -> valid_name (name_of g i)) ->
    exists lf lf', to_lockfile requested gitshow g = Ok lf /\ to_lockfile requested gitshow g' = Ok lf' /\ to_kdl vshow lf = to_kdl vshow lf'.
  Proof.
    intros Hval. pose proof (names_same Hval) as Hval'.
    pose proof (reach_inv _ _ _ _ _ _ _ _ _ _ _ _ _ _ Hroot Hs) as [I _ _ _ _].
    pose proof (reach_inv _ _ _ _ _ _ _ _ _ _ _ _ _ _ Hroot' Hs') as [I' _ _ _ _].
    destruct (lockfile_complete rsat canon parse_dep lnodeT lpath lman to_pkg deliver lock requested gitshow root pkg m name Hroot s Hs Hval) as (lf & E & _ & Hn & D0 & Dk & Dn).
    destruct (lockfile_complete rsat canon parse_dep lnodeT lpath lman to_pkg deliver' lock' requested gitshow root' pkg' m' name' Hroot' s' Hs' Hval') as (lf' & E' & _ & Hn' & D0' & Dk' & Dn').
    exists lf, lf'. split; [exact E|]. split; [exact E'|].
    pose proof (reach_nodup _ _ _ _ _ _ _ _ _ _ _ _ _ _ Hroot Hs) as Hdn. pose proof (reach_nodup _ _ _ _ _ _ _ _ _ _ _ _ _ _ Hroot' Hs') as Hdn'.
    destruct (keys_ok_graph requested gitshow g lf Hdn E) as [(_ & K0 & Kp) R]. destruct (keys_ok_graph requested gitshow g' lf' Hdn' E') as [(_ & K0' & Kp') R'].
    apply to_kdl_ext; auto.
    - rewrite (version_one _ _ E), (version_one _ _ E'). reflexivity.
    - destruct (described_same 0 0 [] _ _ (at_root g) (at_root g') D0 D0') as (A & B & _ & _ & C).
      apply lnode_to_kdl_ext; auto. split; [congruence|]. split; [exact A|]. split; [exact B|]. split; [rewrite R; discriminate|exact C].
    - assert (Hent : forall i j path ln ln', installed_at g i path -> installed_at g' j path -> In (path_key path, ln) (lf_packages lf) -> describes g i ln ->
          In (path_key path, ln') (lf_packages lf') -> describes g' j ln' -> lnode_to_kdl vshow ln = lnode_to_kdl vshow ln').
      { intros i j path ln ln' Hi Hj H1 H2 H3 H4. destruct (described_same i j path _ _ Hi Hj H2 H4) as (A & B & C & D & F).
        apply lnode_to_kdl_ext; [eapply Kp; eauto|eapply Kp'; eauto|].
        split; [rewrite (not_root_entry _ _ E _ _ H1), (not_root_entry _ _ E' _ _ H3); reflexivity|]. auto. }
      assert (U : forall (l : list (string * lnode)) k v, NoDup (map (fun e => ufold (fst e)) l) -> In (k, v) l -> aget ueqb k l = Some v).
      { intros l k v Hnd Hin. rewrite aget_ueqb. rewrite <- (map_map fst ufold) in Hnd.
        assert (Hnd' : NoDup (map fst (map (fun e => (ufold (fst e), snd e)) l))) by (rewrite map_map; rewrite map_map in Hnd; exact Hnd).
        assert (Hin' : In (ufold k, v) (map (fun e => (ufold (fst e), snd e)) l)) by (apply (in_map (fun e => (ufold (fst e), snd e))) in Hin; exact Hin).
        apply (In_aget String.eqb seqb_spec _ _ _ Hnd') in Hin'. rewrite <- Hin'. clear. induction l as [|[a b] l IH]; [reflexivity|]. cbn. destruct (String.eqb (ufold k) (ufold a)); auto. }
      assert (Fold : forall k (l : list (string * lnode)) v, aget ueqb k l = Some v -> exists k', In (k', v) l /\ ufold k = ufold k').
      { intros k l v. clear. induction l as [|[a b] l IH]; cbn; [discriminate|]. destruct (ueqb k a) eqn:Ek.
        - intros X. injection X as ->. exists a. split; [now left|]. now apply ueqb_spec in Ek.
        - intros X. destruct (IH X) as (k' & H1 & H2). exists k'. split; [now right|exact H2]. }
      assert (Ag : forall k k' l, ufold k = ufold k' -> aget ueqb (V := lnode) k l = aget ueqb k' l) by (intros k k' l Ek; rewrite !aget_ueqb, Ek; reflexivity).
      intros k. destruct (aget ueqb k (lf_packages lf)) as [ln|] eqn:Ea; cbn [option_map].
      + apply Fold in Ea. destruct Ea as (k' & Hin & Ek). destruct (Dn _ _ Hin) as (i & Hi & Ek' & D).
        pose proof (installed_all _ _ _ _ _ _ I i ltac:(lia)) as Ha.
        destruct (at_same rsat canon parse_dep lnodeT lpath lman to_pkg root pkg m name Hroot deliver lock s s' Hs Hsame _ _ Ha) as (j & Hj).
        destruct (installed_path _ _ _ _ _ _ I' _ _ Hj) as [Hlt Ep].
        assert (Hj0 : j <> 0). { intros ->. destruct (gi_root _ _ _ _ _ _ I') as [Hz0 Hr0]. pose proof (ginv_parlt _ _ _ _ _ _ I') as Hp0. rewrite node_path_root in Ep by auto. revert Ep. exact (path_nonempty rsat canon parse_dep lnodeT lpath lman to_pkg deliver lock root pkg m name Hroot s Hs i Hi). }
        destruct (Dk' j ltac:(lia)) as (ln' & Hin' & D'). rewrite <- Ep in Hin'. rewrite (Ag k (path_key (node_path g i))) by congruence.
        rewrite (U _ _ _ Hn' Hin'). cbn. f_equal. subst k'. eapply Hent; eauto.
      + destruct (aget ueqb k (lf_packages lf')) as [ln'|] eqn:Ea'; cbn [option_map]; [exfalso|reflexivity].
        apply Fold in Ea'. destruct Ea' as (k' & Hin & Ek). destruct (Dn' _ _ Hin) as (j & Hj & Ek' & D).
        pose proof (installed_all _ _ _ _ _ _ I' j ltac:(lia)) as Ha.
        destruct (at_same rsat canon parse_dep lnodeT lpath lman to_pkg root' pkg' m' name' Hroot' deliver' lock' s' s Hs' (same_tree_sym _ _ Hsame) _ _ Ha) as (i & Hi).
        destruct (installed_path _ _ _ _ _ _ I _ _ Hi) as [Hlt Ep].
        assert (Hi0 : i <> 0). { intros ->. destruct (gi_root _ _ _ _ _ _ I) as [Hz0 Hr0]. pose proof (ginv_parlt _ _ _ _ _ _ I) as Hp0. rewrite node_path_root in Ep by auto. revert Ep. exact (path_nonempty rsat canon parse_dep lnodeT lpath lman to_pkg deliver' lock' root' pkg' m' name' Hroot' s' Hs' j Hj). }
        destruct (Dk i ltac:(lia)) as (ln & Hin' & _). rewrite <- Ep in Hin'. rewrite (Ag k (path_key (node_path g' j))) in Ea by congruence.
        rewrite (U _ _ _ Hn Hin') in Ea. discriminate Ea.
  Qed.
End Same.
