(** * The isolated linker: whole runs *)
From Verif Require Import Base Types FsPad ResolverModel ResolverProofs ResolverSpec ResolverThms LockfileModel LockfileProofs LockfileGraph PathLookup Fs FsPlain HoistedModel HoistedSpec HoistedProofs
  HoistedThms IsolatedModel IsolatedSpec IsolatedProofs.
Open Scope string_scope.
Open Scope list_scope.

Notation in_nm q := (prefix ["node_modules"] q).
(** directories that may stay although no package needs them any more: the store, and scopes in it *)
Definition spare (q : path) : Prop := q = ["node_modules"; store_name] \/ exists s, q = ["node_modules"; store_name; String "@" s].
Lemma spare_dec q : spare q \/ ~ spare q.
Proof.
  unfold spare. destruct (path_eq_dec q ["node_modules"; store_name]) as [->|H]; [auto|].
  destruct q as [|a [|b [|c [|d q]]]]; try (right; intros [H'|[s H']]; congruence).
  destruct (string_dec a "node_modules") as [->|Ha]; [|right; intros [H'|[s H']]; congruence].
  destruct (string_dec b store_name) as [->|Hb]; [|right; intros [H'|[s H']]; congruence].
  destruct c as [|z c]; [right; intros [H'|[s H']]; congruence|].
  destruct (Ascii.ascii_dec z "@") as [->|Hz]; [left; right; eauto | right; intros [H'|[s H']]; congruence].
Qed.
Lemma wanted_dec insts q : (exists e, wanted insts q e) \/ forall e, ~ wanted insts q e.
Proof.
  unfold wanted.
  assert (D : (exists i t, In i insts /\ In t (items i) /\ (fst t = q \/ above q (fst t))) \/ forall i t, In i insts -> In t (items i) -> fst t <> q /\ ~ above q (fst t)).
  { induction insts as [|i l IH]; [right; intros i t []|]. destruct IH as [(j & t & H & H')|H]; [left; exists j, t; split; [now right|auto]|].
    assert (E : (exists t, In t (items i) /\ (fst t = q \/ above q (fst t))) \/ forall t, In t (items i) -> fst t <> q /\ ~ above q (fst t)).
    { induction (items i) as [|t ts IHt]; [right; intros t []|]. destruct IHt as [(u & Hu & Hv)|H1]; [left; exists u; split; [now right|auto]|].
      destruct (path_eq_dec (fst t) q) as [He|He]; [left; exists t; split; [now left|auto]|].
      destruct (aboveb q (fst t)) eqn:Ea; [left; exists t; split; [now left|right; now apply aboveb_spec]|].
      right. intros u [<-|Hu]; [|auto]. split; [auto|]. intros Ha. apply aboveb_spec in Ha. congruence. }
    destruct E as [(t & Ht & Hc)|E]; [left; exists i, t; split; [now left|auto]|]. right. intros j t [<-|Hj] Ht; [auto|eauto]. }
  destruct D as [(i & [p e] & Hi & Ht & [<-|Ha])|D].
  - left. exists e. left. eauto.
  - left. exists EDir. right. split; [auto|]. exists i, p, e. auto.
  - right. intros e [(i & Hi & Ht)|(_ & i & p & e' & Hi & Ht & Ha)]; [destruct (proj1 (D i (q, e) Hi Ht) eq_refl) | destruct (proj2 (D i (p, e') Hi Ht) Ha)].
Qed.

Section Thms.
  Variable hex8 : string -> string.
  Hypothesis Hhex : hex_ok hex8.
  Variable root : path.
  (** an absolute path *)
  Hypothesis Hroot : exists t, root = "/" :: t.
  Variable contents : resolution -> list (path * string).
  Hypothesis Hcont : plain_contents contents.
  Variable rsat : range -> version -> bool.
  Variable canon : string -> option string.
  Variable deliver : pspec -> outcome -> Prop.
  Notation GInv := (GInv rsat canon deliver).
  Notation dir_name := (dir_name hex8).
  Notation pkg_dir := (pkg_dir hex8).
  Notation store_dir := (store_dir hex8).
  Notation nm_dir := (nm_dir hex8).
  Notation iinst := (iinst hex8 contents).
  Notation iinsts := (iinsts hex8 contents).
  Notation wanted g := (wanted (iinsts g)).
  Notation idoomed := (idoomed hex8 root).
  Notation stale := (stale hex8 root).
  Notation extraneous := (extraneous hex8).
  Notation expected := (expected hex8).
  Notation isteps := (isteps hex8 root contents).
  Notation pfiles := (pfiles contents).
  Notation link_path := (link_path hex8).
  Notation link_text := (link_text hex8).
  Notation home := (home hex8).
  Notation deps_dir := (deps_dir hex8).

  Definition wf (g : graph) : Prop := (exists q0 P0, GInv g q0 P0) /\ good_graph g /\ named g.
  Definition apart (g g' : graph) : Prop := no_collision hex8 (fun p => paths g p \/ paths g' p).

  Lemma last_name g i : wf g -> 0 < i < size g -> exists pre, node_path g i = pre ++ [name_of g i].
  Proof.
    intros ((q0 & P0 & I) & _) Hi. destruct (gi_par _ _ _ _ _ _ I i Hi) as (p & Hpp & _ & _). exists (node_path g p).
    apply (node_path_step g (ginv_parlt _ _ _ _ _ _ I) i p); auto; lia.
  Qed.
  Lemma node_paths g i : wf g -> 0 < i < size g -> paths g (node_path g i).
  Proof. intros ((q0 & P0 & I) & _) Hi. exists i. split; [lia|]. eapply installed_all; eauto. lia. Qed.
  Lemma path_node g i p : wf g -> installed_at g i p -> i < size g /\ p = node_path g i.
  Proof. intros ((q0 & P0 & I) & _) H. eapply installed_path; eauto. Qed.
  Lemma at_path g i : wf g -> i < size g -> installed_at g i (node_path g i).
  Proof. intros ((q0 & P0 & I) & _) H. eapply installed_all; eauto. Qed.
  Lemma home_loc g i : wf g -> 0 < i < size g -> home (node_path g i) = pkg_dir g i.
  Proof.
    intros W Hi. destruct (last_name g i W Hi) as [pre E]. destruct W as ((q0 & P0 & I) & Hg & Hn).
    rewrite (pkg_dir_loc hex8 g Hn i Hi). unfold IsolatedSpec.home, sloc, IsolatedModel.dir_name. fold store_name.
    assert (L : List.last (node_path g i) "" = name_of g i) by (rewrite E; apply last_last). rewrite L.
    unfold disk. cbn [flat_map]. now rewrite app_nil_r.
  Qed.
  Lemma same_dn g g' i j : wf g -> wf g' -> apart g g' -> 0 < i < size g -> 0 < j < size g' -> dir_name g i = dir_name g' j -> node_path g i = node_path g' j.
  Proof.
    intros W W' Hc Hi Hj E. destruct (last_name g i W Hi) as [a Ea]. destruct (last_name g' j W' Hj) as [b Eb].
    unfold IsolatedModel.dir_name in E. apply at_inj in E; [|rewrite (proj1 (Hhex _)), (proj1 (Hhex _)); reflexivity]. destruct E as [E1 E2].
    pose proof (node_paths g i W Hi) as Pa. pose proof (node_paths g' j W' Hj) as Pb. rewrite Ea in Pa, E2 |- *. rewrite Eb in Pb, E2 |- *. rewrite <- E1 in *.
    f_equal. eapply Hc; [left; exact Pa|right; exact Pb|]. exact E2.
  Qed.
  Lemma dn_eq g g' i j : wf g -> wf g' -> 0 < i < size g -> 0 < j < size g' -> node_path g i = node_path g' j -> dir_name g i = dir_name g' j /\ name_of g i = name_of g' j.
  Proof.
    intros W W' Hi Hj E. destruct (last_name g i W Hi) as [a Ea]. destruct (last_name g' j W' Hj) as [b Eb].
    assert (name_of g i = name_of g' j) as En by (rewrite Ea, Eb in E; apply app_inj_tail in E; tauto).
    split; [|auto]. unfold IsolatedModel.dir_name. now rewrite E, En.
  Qed.
  Lemma apart_one g g' : apart g g' -> apart g' g'.
  Proof. intros H a b x Ha Hb. apply H; tauto. Qed.
  Lemma col_inj g : wf g -> apart g g -> forall i j, 0 < i < size g -> 0 < j < size g -> dir_name g i = dir_name g j -> i = j.
  Proof.
    intros W Hc i j Hi Hj E. pose proof (same_dn g g i j W W Hc Hi Hj E) as Ep. destruct W as ((q0 & P0 & I) & Hg & Hn).
    apply (node_inj rsat canon deliver g q0 P0 I); auto; lia.
  Qed.

  (** ** entries of store directories *)
  Lemma store_comps dn : good_name dn -> (exists m, comps dn = [m] /\ starts_at m = false) \/ exists s m, comps dn = [String "@" s; m] /\ starts_at m = false.
  Proof.
    intros H. destruct (comps_last dn H) as (pre & m & E & Hm & [->|[s ->]]).
    - left. exists m. split; [auto | now apply plain_not_at].
    - right. exists s, m. split; [auto | now apply plain_not_at].
  Qed.
  Lemma expected_spec g q : expected g q = true <-> exists i, 0 < i < size g /\ q = store_dir g i.
  Proof.
    unfold IsolatedModel.expected. rewrite existsb_exists. unfold pathb. split.
    - intros (i & Hi & H). apply in_seq in Hi. destruct (path_eq_dec (store_dir g i) q) as [<-|]; [|discriminate]. exists i. split; [lia|auto].
    - intros (i & Hi & ->). exists i. split; [apply in_seq; lia|]. destruct (path_eq_dec _ _); auto.
  Qed.
  Lemma store_inj g g' i j : wf g -> wf g' -> 0 < i < size g -> 0 < j < size g' -> store_dir g i = store_dir g' j -> dir_name g i = dir_name g' j.
  Proof.
    intros ((q0 & P0 & I) & Hg & Hn) ((q1 & P1 & I') & Hg' & Hn') Hi Hj E. unfold IsolatedModel.store_dir in E. injection E as E.
    pose proof (dn_good hex8 Hhex rsat canon deliver g q0 P0 I Hg i Hi) as G. pose proof (dn_good hex8 Hhex rsat canon deliver g' q1 P1 I' Hg' j Hj) as G'.
    rewrite <- (app_nil_r (comps (dir_name g i))), <- (app_nil_r (comps (dir_name g' j))) in E. now apply comps_inj in E.
  Qed.
  (** a store directory that is not expected is removed *)
  Lemma extra_condemned f g g0 i : wf g -> wf g0 -> 0 < i < size g0 -> (forall j, 0 < j < size g -> dir_name g j <> dir_name g0 i) ->
    (forall q, above q (store_dir g0 i) -> f q = Some EDir) -> extraneous f g (store_dir g0 i) = true.
  Proof.
    intros W W0 Hi Hne Hup. pose proof W0 as ((q0 & P0 & I) & Hg & Hn).
    assert (X : expected g (store_dir g0 i) = false).
    { destruct (expected g (store_dir g0 i)) eqn:E; [|auto]. apply expected_spec in E. destruct E as (j & Hj & E). exfalso.
      apply (Hne j Hj). symmetry. now apply store_inj. }
    pose proof (dn_good hex8 Hhex rsat canon deliver g0 q0 P0 I Hg i Hi) as G.
    unfold IsolatedModel.store_dir in X, Hup |- *. destruct (store_comps _ G) as [(m & Em & Hm)|(s & m & Em & Hm)]; rewrite Em in X, Hup |- *; unfold IsolatedModel.extraneous.
    - rewrite X. cbn [String.eqb]. rewrite Hm. reflexivity.
    - rewrite X. cbn [starts_at]. rewrite (Hup ["node_modules"; store_name; String "@" s]).
      2:{ split; [exists [m]; reflexivity|]. split; discriminate. }
      assert (expected g ["node_modules"; store_name; String "@" s] = false) as ->; [|reflexivity].
      destruct (expected g ["node_modules"; store_name; String "@" s]) eqn:E; [|auto]. exfalso. apply expected_spec in E. destruct E as (j & Hj & E). unfold IsolatedModel.store_dir in E. injection E as E.
      destruct W as ((q1 & P1 & I1) & Hg1 & Hn1). pose proof (dn_good hex8 Hhex rsat canon deliver g q1 P1 I1 Hg1 j Hj) as G1.
      destruct (store_comps _ G1) as [(m' & Em' & Hm')|(s' & m' & Em' & Hm')]; rewrite Em' in E; [injection E as <-; discriminate | discriminate].
  Qed.

  (** ** the files of a package of the tree are never condemned, as long as the scope directory is one *)
  Lemma stale_shape f g q : wf g -> stale f g q = true -> exists i x c, depends g i x c /\ q = link_path g i x /\ plain x
    /\ forall t, f q = Some (ELink t) -> t <> root ++ pkg_dir g c.
  Proof.
    intros ((q0 & P0 & I) & Hg & Hn) H. unfold IsolatedModel.stale in H. apply existsb_exists in H. destruct H as (e & He & H). rewrite !andb_true_iff in H. destruct H as [[H1 H2] H3].
    assert (Hd : depends g (e_from e) (name_of g (e_to e)) (e_to e)) by (apply (depends_edge rsat canon deliver g q0 P0 I); split; [reflexivity|eauto]).
    destruct (depends_lt rsat canon deliver g q0 P0 I _ _ _ Hd) as (Hf & Ht & _).
    rewrite (pkg_name_of g Hn _ Ht) in *. exists (e_from e), (name_of g (e_to e)), (e_to e). split; [exact Hd|].
    unfold pathb in *. destruct (path_eq_dec q (nm_dir g (e_from e) ++ comps (name_of g (e_to e)))) as [->|]; [|discriminate]. split.
    - unfold IsolatedProofs.link_path. destruct (Nat.eqb_spec (e_from e) 0) as [->|Hne]; [apply nm_dir_root | apply nm_dir_loc; auto; lia].
    - split.
      + destruct (name_good rsat canon deliver g q0 P0 I Hg _ Ht) as [Hp|(s & m & E & Hs & Hfs & Hm)]; [auto|].
        rewrite E, comps_scoped in H2 by (auto; now apply plain_no_slash). discriminate.
      + intros t Et Er. rewrite Et in H3. destruct (path_eq_dec t (root ++ pkg_dir g (e_to e))); [discriminate|contradiction].
  Qed.
  Lemma main_kept A (a : A) f g i fl : wf g -> apart g g -> iwipes f (Some a) = false -> 0 < i < size g -> (forall t, fl <> "node_modules" :: t) ->
    (forall s m, comps (dir_name g i) = [String "@" s; m] -> f ["node_modules"; store_name; String "@" s] = Some EDir) ->
    ~ condemned (idoomed f (Some a) g) (pkg_dir g i ++ fl).
  Proof.
    intros W Hc Hw Hi Hfl Hsc (d & Hd & [r Hr]). unfold IsolatedModel.idoomed in Hd. rewrite Hw in Hd. apply orb_true_iff in Hd. pose proof W as ((q0 & P0 & I) & Hg & Hn).
    rewrite (pkg_dir_loc hex8 g Hn i Hi) in Hr.
    pose proof (dn_good hex8 Hhex rsat canon deliver g q0 P0 I Hg i Hi) as G.
    assert (X : expected g (store_dir g i) = true) by (apply expected_spec; eauto).
    destruct Hd as [Hd|Hd].
    - apply stale_shape in Hd; [|auto]. destruct Hd as (j & x & c & Hdep & -> & _). destruct (depends_lt rsat canon deliver g q0 P0 I _ _ _ Hdep) as (Hj & _).
      pose proof (dep_name_good rsat canon deliver g q0 P0 I Hg _ _ _ Hdep) as Gx.
      unfold IsolatedProofs.link_path in Hr. destruct (Nat.eqb_spec j 0) as [->|Hj0].
      + symmetry in Hr. eapply (root_not_store' x [] (dir_name g i)); [exact Gx|]. exact Hr.
      + apply (sloc_link hex8 Hhex rsat canon deliver g q0 P0 I Hg (col_inj g W Hc)) in Hr; auto; [|lia].
        destruct Hr as (_ & s & Hs & _). discriminate.
    - unfold sloc in Hr. unfold IsolatedModel.store_dir in X. destruct (store_comps _ G) as [(m & Em & Hm)|(s & m & Em & Hm)]; rewrite Em in Hr, X; cbn [app] in Hr.
      + destruct d as [|a' [|b [|x [|y [|z d]]]]]; try discriminate; cbn [app] in Hr; injection Hr; intros; subst; unfold IsolatedModel.extraneous in Hd.
        * rewrite X in Hd. cbn [negb] in Hd. rewrite andb_false_r in Hd. discriminate.
        * rewrite Hm in Hd. rewrite andb_false_r in Hd. discriminate.
      + specialize (Hsc s m Em). destruct d as [|a' [|b [|x [|y [|z d]]]]]; try discriminate; cbn [app] in Hr; injection Hr; intros; subst; unfold IsolatedModel.extraneous in Hd.
        * rewrite Hsc in Hd. cbn [starts_at Ascii.eqb] in Hd. cbn in Hd. rewrite !andb_false_r in Hd. discriminate.
        * rewrite X in Hd. cbn [negb] in Hd. rewrite !andb_false_r in Hd. discriminate.
  Qed.

  (** ** what is wanted *)
  Lemma wanted_nm g q e : wf g -> wanted g q e -> in_nm q.
  Proof.
    intros ((q0 & P0 & I) & Hg & Hn) Hw.
    assert (A : forall p e', (exists x, In x (iinsts g) /\ In (p, e') (items x)) -> exists t, p = "node_modules" :: t).
    { intros p e' H. apply (iitem hex8 contents rsat canon deliver g q0 P0 I Hn) in H.
      destruct H as [[-> _]|[(i & f & _ & -> & _)|(i & x & c & _ & -> & _)]]; [eexists; reflexivity|eexists; reflexivity|].
      unfold IsolatedProofs.link_path. destruct (Nat.eqb i 0); [rewrite disk_cons|]; eexists; reflexivity. }
    destruct Hw as [H|(-> & x & p & e' & Hx & Hp & ([r Hr] & Hne & Hq))].
    - destruct (A _ _ H) as [t ->]. exists t. reflexivity.
    - destruct (A p e' ltac:(eauto)) as [t Et]. destruct q as [|a q]; [congruence|]. rewrite Hr in Et. injection Et as -> _. exists q. reflexivity.
  Qed.
  Lemma wanted_top g : wf g -> wanted g ["node_modules"] EDir.
  Proof. intros ((q0 & P0 & I) & Hg & Hn). left. apply (iitem hex8 contents rsat canon deliver g q0 P0 I Hn). auto. Qed.
  Lemma wanted_spare g q e : wf g -> wanted g q e -> spare q -> e = EDir.
  Proof.
    intros ((q0 & P0 & I) & Hg & Hn) Hw Hs. destruct Hw as [H|(-> & _)]; [|auto].
    apply (iitem hex8 contents rsat canon deliver g q0 P0 I Hn) in H.
    destruct H as [[_ ->]|[(i & f & Hi & -> & Hf)|(i & x & c & Hd & -> & ->)]]; [auto| |]; exfalso.
    - unfold sloc in Hs. pose proof (comps_good_ne _ (dn_good hex8 Hhex rsat canon deliver g q0 P0 I Hg i Hi)) as Hne.
      destruct (comps (dir_name g i)) as [|a l]; [congruence|]. rewrite disk_cons in Hs. destruct Hs as [Hs|[s Hs]]; cbn in Hs; [discriminate|].
      injection Hs as -> Hs. destruct l; discriminate.
    - pose proof (dep_name_good rsat canon deliver g q0 P0 I Hg _ _ _ Hd) as Gx. unfold IsolatedProofs.link_path in Hs. destruct (Nat.eqb_spec i 0) as [->|Hi].
      + rewrite disk_cons in Hs. destruct Hs as [Hs|[s Hs]]; injection Hs as Hs; eapply good_not_store; try exact Gx; exact Hs.
      + assert (Hi' : 0 < i < size g) by (destruct (depends_lt rsat canon deliver g q0 P0 I _ _ _ Hd); lia).
        unfold sloc in Hs. pose proof (comps_good_ne _ (dn_good hex8 Hhex rsat canon deliver g q0 P0 I Hg i Hi')) as Hne.
        destruct (comps (dir_name g i)) as [|a l]; [congruence|]. rewrite disk_cons in Hs. destruct Hs as [Hs|[s Hs]]; cbn in Hs; [discriminate|].
        injection Hs as -> Hs. destruct l; discriminate.
  Qed.

  (** ** a first install *)
  Lemma all_condemned_i A (m : option A) f g q : iwipes f m = true -> in_nm q -> q <> ["node_modules"] -> condemned (idoomed f m g) q.
  Proof.
    intros Hw [r ->] Hne. destruct r as [|x r]; [cbn in Hne; congruence|]. exists ["node_modules"; x]. unfold IsolatedModel.idoomed. rewrite Hw. split; [reflexivity|].
    exists r. reflexivity.
  Qed.
  Lemma nm_not_condemned_i A (m : option A) f g : wf g -> ~ condemned (idoomed f m g) ["node_modules"].
  Proof.
    intros W (d & Hd & [r Hr]). unfold IsolatedModel.idoomed in Hd. destruct (iwipes f m).
    - destruct d as [|x [|y [|z d]]]; try discriminate.
    - apply orb_true_iff in Hd. destruct Hd as [Hd|Hd]; [|destruct d as [|x [|y [|z [|u [|w d]]]]]; discriminate].
      apply stale_shape in Hd; [|auto]. destruct Hd as (i & x & c & Hdep & -> & _). pose proof W as ((q0 & P0 & I) & Hg & Hn).
      pose proof (dep_name_good rsat canon deliver g q0 P0 I Hg _ _ _ Hdep) as Gx.
      unfold IsolatedProofs.link_path in Hr. destruct (Nat.eqb i 0); [|discriminate]. rewrite disk_cons in Hr. cbn in Hr. injection Hr as Hr.
      symmetry in Hr. apply app_eq_nil in Hr. destruct Hr as [Hr _]. apply app_eq_nil in Hr. destruct Hr as [Hr _]. now apply (comps_good_ne x).
  Qed.
  Lemma good_wipe A (m : option A) f g f' : wf g -> iwipes f m = true -> nm_ok f -> pruned (idoomed f m g) f f' -> good_start (iinsts g) (fun q => in_nm q) f'.
  Proof.
    intros W Hw Hnm [P1 P2]. pose proof W as ((q0 & P0 & I) & Hg & Hn). constructor.
    - intros q e Hr Hq. destruct (path_eq_dec q ["node_modules"]) as [->|Hne].
      + rewrite P1 in Hq by now apply nm_not_condemned_i. destruct Hnm as [E|E]; rewrite E in Hq; [discriminate|]. injection Hq as <-. now apply wanted_top.
      + rewrite P2 in Hq; [discriminate|]. now apply all_condemned_i.
    - intros x d Hx Hd Hf. destruct (i_check_in hex8 contents g x d Hx Hd) as (i & Hi & -> & ->). exfalso. apply Hf. apply P2. apply all_condemned_i; auto.
      + rewrite (pkg_dir_loc hex8 g Hn i Hi). unfold sloc. eexists. reflexivity.
      + rewrite (pkg_dir_loc hex8 g Hn i Hi). discriminate.
  Qed.

  (** ** upgrades *)
  Definition settled (g : graph) (f : fs) : Prop :=
    (forall q e, wanted g q e -> f q = Some e) /\ (forall q e, in_nm q -> f q = Some e -> wanted g q e \/ (e = EDir /\ spare q)).
  Definition rel_of (g : graph) (q : path) : Prop := in_nm q /\ (spare q -> exists e, wanted g q e).
  Lemma no_slash_comp x : good_name x -> ~ In "/" (comps x).
  Proof.
    intros [Hx|(s & m & -> & Hs & Hf & Hm)] H.
    - rewrite comps_plain in H by now apply plain_no_slash. destruct H as [->|[]]. apply plain_no_slash in Hx. discriminate.
    - rewrite comps_scoped in H by (auto; now apply plain_no_slash). destruct H as [H|[->|[]]]; [discriminate|]. apply plain_no_slash in Hm. discriminate.
  Qed.
  Lemma diff_in : forall p base x, In x (diff_paths p base) -> x = ".." \/ In x p.
  Proof.
    assert (M : forall (l : path) x, In x (map (fun _ => "..") l) -> x = "..") by (intros l x H; apply in_map_iff in H; destruct H as (? & <- & _); auto).
    induction p as [|y p IH]; intros base x H.
    - cbn [diff_paths] in H. rewrite app_nil_r in H. left. eauto.
    - destruct base as [|z base]; cbn [diff_paths] in H; [right; exact H|]. destruct (String.eqb y z).
      + destruct (IH _ _ H); [auto | right; now right].
      + apply in_app_iff in H. destruct H as [H|H]; [left; eauto | right; exact H].
  Qed.
  Lemma text_relative g i x c : wf g -> depends g i x c -> forall t, link_text g i x c <> root ++ t.
  Proof.
    intros ((q0 & P0 & I) & Hg & Hn) Hd t E. destruct Hroot as [r Er]. destruct (depends_lt rsat canon deliver g q0 P0 I _ _ _ Hd) as (_ & Hc & _).
    assert (H : In "/" (link_text g i x c)) by (rewrite E, Er; now left). apply diff_in in H. destruct H as [H|H]; [discriminate|].
    rewrite (pkg_dir_loc hex8 g Hn c Hc) in H. unfold sloc, disk in H. cbn [flat_map] in H. rewrite app_nil_r in H. cbn [In app] in H. rewrite in_app_iff in H. cbn [In] in H.
    destruct H as [H|[H|[H|[H|H]]]]; try discriminate; (eapply no_slash_comp; [|exact H]); [eapply dn_good; eauto | eapply name_good; eauto].
  Qed.

  Section Upgrade.
  Variables g0 g : graph.
  Hypothesis W0 : wf g0.
  Hypothesis W : wf g.
  Hypothesis Hapart : apart g0 g.
  Hypothesis Hcomp : compatible g0 g.
  Variable f : fs.
  Hypothesis Hset : settled g0 f.

  Lemma same_files i0 i : 0 < i0 < size g0 -> 0 < i < size g -> node_path g0 i0 = node_path g i -> forall fl e, pfiles g0 i0 fl e <-> pfiles g i fl e.
  Proof.
    intros H0 Hi E. destruct (proj1 (getn_lt g0 i0) ltac:(lia)) as [n0 N0]. destruct (proj1 (getn_lt g i) ltac:(lia)) as [n N].
    assert (R : pk_resolved (n_pkg n0) = pk_resolved (n_pkg n)).
    { eapply (proj1 Hcomp (node_path g i)); [| | |exact N0|exact N].
      - destruct W as ((q & P & I) & Hg & Hn). apply (node_ne rsat canon deliver g q P I); lia.
      - rewrite <- E. apply at_path; [exact W0|lia].
      - apply at_path; [exact W|lia]. }
    intros fl e. unfold HoistedProofs.pfiles, package_files. rewrite N0, N, R. tauto.
  Qed.
  (** an entry of the old install is in the new one too, or its store directory is removed *)
  Lemma item_moves p e : (exists x, In x (iinsts g0) /\ In (p, e) (items x)) ->
    (exists x e', In x (iinsts g) /\ In (p, e') (items x) /\ (e' = e \/ exists i y c, depends g i y c /\ p = link_path g i y /\ plain y /\ exists t, e = ELink t /\ forall r, t <> root ++ r))
    \/ exists i0, 0 < i0 < size g0 /\ prefix (store_dir g0 i0) p /\ store_dir g0 i0 <> p /\ forall j, 0 < j < size g -> dir_name g j <> dir_name g0 i0.
  Proof.
    pose proof W0 as ((q0 & P0 & I0) & Hg0 & Hn0). pose proof W as ((q1 & P1 & I) & Hg & Hn).
    assert (D : forall i0, 0 < i0 < size g0 -> (exists j, 0 < j < size g /\ dir_name g j = dir_name g0 i0) \/ forall j, 0 < j < size g -> dir_name g j <> dir_name g0 i0).
    { intros i0 H0. destruct (existsb (fun j => String.eqb (dir_name g j) (dir_name g0 i0)) (seq 1 (size g - 1))) eqn:E.
      - apply existsb_exists in E. destruct E as (j & Hj & E). apply in_seq in Hj. apply String.eqb_eq in E. left. exists j. split; [lia|auto].
      - right. intros j Hj E'. assert (H : existsb (fun j => String.eqb (dir_name g j) (dir_name g0 i0)) (seq 1 (size g - 1)) = true).
        { apply existsb_exists. exists j. split; [apply in_seq; lia | now apply String.eqb_eq]. } congruence. }
    assert (SD : forall i0 n r, prefix (store_dir g0 i0) (sloc (dir_name g0 i0) n ++ r)).
    { intros. unfold sloc, IsolatedModel.store_dir. exists (disk n ++ r). cbn [app]. now rewrite <- app_assoc. }
    assert (SN : forall i0 x n r, store_dir g0 i0 <> sloc (dir_name g0 i0) (x :: n) ++ r).
    { intros i0 x n r E. apply (f_equal (@List.length _)) in E. unfold sloc, IsolatedModel.store_dir in E. rewrite disk_cons in E.
      rewrite app_length in E. cbn [List.length app] in E. rewrite app_length in E. cbn [List.length] in E. lia. }
    assert (LP : forall i0 i y c0, i0 < size g0 -> i < size g -> node_path g0 i0 = node_path g i -> depends g0 i0 y c0 -> (i0 = 0 <-> i = 0) -> link_path g0 i0 y = link_path g i y ->
      exists x e', In x (iinsts g) /\ In (link_path g0 i0 y, e') (items x) /\ (e' = ELink (link_text g0 i0 y c0) \/ exists i' y' c, depends g i' y' c /\ link_path g0 i0 y = link_path g i' y' /\ plain y' /\ exists t, ELink (link_text g0 i0 y c0) = ELink t /\ forall r, t <> root ++ r)).
    { intros i0 i y c0 H0 Hi E Hd Hz El. pose proof (depends_lt rsat canon deliver g0 q0 P0 I0 _ _ _ Hd) as (_ & Hc0 & _).
      destruct (proj2 Hcomp (node_path g i) i0 i y c0 (node_path g0 c0)) as (c & Hdc & Hsc).
      - rewrite <- E. now apply at_path.
      - now apply at_path.
      - exact Hd.
      - apply at_path; [exact W0|lia].
      - destruct (proj2 (iitem hex8 contents rsat canon deliver g q1 P1 I Hn (link_path g i y) (ELink (link_text g i y c)))) as (x & Hx & Ht); [eauto 8|].
        exists x, (ELink (link_text g i y c)). split; [auto|]. rewrite El. split; [auto|].
        pose proof (dep_name_good rsat canon deliver g q1 P1 I Hg _ _ _ Hdc) as Gy. destruct (depends_lt rsat canon deliver g q1 P1 I _ _ _ Hdc) as (_ & Hc & _).
        destruct Gy as [Hpl|(s & mm & Ey & Hs & Hf & Hm)].
        + right. exists i, y, c. split; [auto|]. split; [auto|]. split; [auto|]. exists (link_text g0 i0 y c0). split; [reflexivity|]. now apply text_relative.
        + left. f_equal. unfold IsolatedProofs.link_text. rewrite El. f_equal.
          assert (Ec : node_path g c = node_path g0 c0).
          { destruct (path_node g c (node_path g0 c0) W) as [_ H']; [apply Hsc; rewrite Ey; reflexivity|]. now symmetry. }
          rewrite <- (home_loc g c W Hc), <- (home_loc g0 c0 W0 Hc0). now rewrite Ec. }
    intros H. apply (iitem hex8 contents rsat canon deliver g0 q0 P0 I0 Hn0) in H. destruct H as [[-> ->]|[(i0 & fl & H0 & -> & Hf)|(i0 & y & c0 & Hd & -> & ->)]].
    - left. destruct (proj2 (iitem hex8 contents rsat canon deliver g q1 P1 I Hn ["node_modules"] EDir)) as (x & Hx & Ht); [auto|]. exists x, EDir. auto.
    - destruct (D i0 H0) as [(j & Hj & E)|Hno].
      + left. assert (Ep : node_path g0 i0 = node_path g j) by (apply same_dn; auto). destruct (dn_eq g0 g i0 j W0 W H0 Hj Ep) as [Ed En].
        destruct (proj2 (iitem hex8 contents rsat canon deliver g q1 P1 I Hn (sloc (dir_name g j) [name_of g j] ++ fl) e)) as (x & Hx & Ht).
        { right. left. exists j, fl. split; [auto|]. split; [auto|]. now apply (same_files i0 j). }
        rewrite <- Ed, <- En in Ht. exists x, e. auto.
      + right. exists i0. split; [auto|]. split; [apply SD|]. split; [apply SN|auto].
    - destruct (depends_lt rsat canon deliver g0 q0 P0 I0 _ _ _ Hd) as (H0 & _ & _). destruct (Nat.eq_dec i0 0) as [->|Hne].
      + left. apply (LP 0 0); auto.
        * apply (gi_root _ _ _ _ _ _ I).
        * destruct (path_node g0 0 [] W0) as [_ <-]; [constructor|]. apply (path_node g 0 [] W). constructor.
        * tauto.
      + destruct (D i0 ltac:(lia)) as [(j & Hj & E)|Hno].
        * left. assert (Ep : node_path g0 i0 = node_path g j) by (apply same_dn; auto; lia). destruct (dn_eq g0 g i0 j W0 W ltac:(lia) Hj Ep) as [Ed En].
          apply (LP i0 j); auto; [lia|lia|]. unfold IsolatedProofs.link_path. destruct (Nat.eqb_spec i0 0); [lia|]. destruct (Nat.eqb_spec j 0); [lia|]. now rewrite Ed, En.
        * right. exists i0. split; [lia|]. unfold IsolatedProofs.link_path. destruct (Nat.eqb_spec i0 0); [lia|].
          split; [rewrite <- (app_nil_r (sloc _ _)); apply SD|]. split; [rewrite <- (app_nil_r (sloc _ _)); apply SN|auto].
  Qed.
  Variable A : Type.
  Variable a : A.
  Hypothesis Hw : iwipes f (Some a) = false.
  Notation D := (idoomed f (Some a) g).
  Lemma condemned_store i0 : 0 < i0 < size g0 -> (forall j, 0 < j < size g -> dir_name g j <> dir_name g0 i0) -> forall q, prefix (store_dir g0 i0) q -> condemned D q.
  Proof.
    intros H0 Hno q Hq. exists (store_dir g0 i0). split; [|exact Hq]. unfold IsolatedModel.idoomed. rewrite Hw. apply orb_true_iff. right.
    apply extra_condemned; auto. intros q' Hq'. apply (proj1 Hset). pose proof W0 as ((q0 & P0 & I0) & Hg0 & Hn0).
    destruct (proj2 (iitem hex8 contents rsat canon deliver g0 q0 P0 I0 Hn0 (sloc (dir_name g0 i0) [name_of g0 i0] ++ []) EDir)) as (x & Hx & Ht).
    { right. left. exists i0, []. split; [auto|]. split; [auto|]. left. auto. }
    apply (want_above _ x _ q' Hx Ht). cbn [fst]. eapply above_trans; [exact Hq'|]. unfold sloc, IsolatedModel.store_dir.
    exists (disk [name_of g0 i0] ++ []). cbn [app]. now rewrite <- app_assoc.
  Qed.
  Lemma stale_link i y c : depends g i y c -> plain y -> (forall t, f (link_path g i y) = Some (ELink t) -> forall r, t <> root ++ r) -> condemned D (link_path g i y).
  Proof.
    intros Hd Hy Ht. pose proof W as ((q1 & P1 & I) & Hg & Hn). exists (link_path g i y). split; [|apply prefix_refl].
    unfold IsolatedModel.idoomed. rewrite Hw. apply orb_true_iff. left. unfold IsolatedModel.stale. apply existsb_exists.
    destruct (proj1 (depends_edge rsat canon deliver g q1 P1 I i y c) Hd) as (En & e & He & <- & <-). exists e. split; [auto|].
    destruct (depends_lt rsat canon deliver g q1 P1 I _ _ _ Hd) as (Hf & Hc & _).
    rewrite (pkg_name_of g Hn _ Hc), En.
    assert (El : nm_dir g (e_from e) ++ comps y = link_path g (e_from e) y).
    { unfold IsolatedProofs.link_path. destruct (Nat.eqb_spec (e_from e) 0) as [->|]; [apply nm_dir_root | apply nm_dir_loc; auto; lia]. }
    rewrite El. unfold pathb at 1. destruct (path_eq_dec _ _) as [_|]; [|congruence]. rewrite comps_plain by now apply plain_no_slash. cbn [andb].
    destruct (f (link_path g (e_from e) y)) as [[| |t]|]; auto. unfold pathb. destruct (path_eq_dec t _) as [->|]; [|auto]. destruct (Ht _ eq_refl _ eq_refl).
  Qed.
  (** after pruning, what is left of the old install belongs to the new one *)
  Lemma kept_wanted q e : wanted g0 q e -> ~ condemned D q -> (spare q -> exists e', wanted g q e') -> wanted g q e.
  Proof.
    intros Hq Hc Hs. pose proof Hq as Hq'. destruct Hq as [H|(-> & x & p & e' & Hx & Hp & Ha)].
    - destruct (item_moves _ _ H) as [(x & e' & Hx & Ht & [->|(i & y & c & Hd & -> & Hy & t & -> & Hr)])|(i0 & H0 & Hpre & _ & Hno)].
      + left. eauto.
      + exfalso. apply Hc. apply (stale_link i y c); auto. intros t' Et. rewrite (proj1 Hset _ _ Hq') in Et. injection Et as <-. auto.
      + exfalso. apply Hc. eapply condemned_store; eauto.
    - destruct (item_moves p e') as [(x' & e'' & Hx' & Ht & _)|(i0 & H0 & Hpre & _ & Hno)]; [eauto| |].
      + right. split; [auto|]. exists x', p, e''. auto.
      + destruct Ha as (Hqp & Hne & Hnn). destruct (prefix_linear _ _ _ Hqp Hpre) as [[r Hr]|Hsq]; [|exfalso; apply Hc; eapply condemned_store; eauto].
        pose proof W0 as ((q0 & P0 & I0) & Hg0 & Hn0). pose proof (dn_good hex8 Hhex rsat canon deliver g0 q0 P0 I0 Hg0 i0 H0) as G.
        destruct r as [|z r]; [exfalso; apply Hc; eapply condemned_store; [exact H0|exact Hno|]; rewrite app_nil_r in Hr; rewrite Hr; apply prefix_refl|].
        unfold IsolatedModel.store_dir in Hr. destruct q as [|q1 q]; [congruence|]. cbn [app] in Hr. injection Hr as <- Hr.
        destruct q as [|q2 q]; [now apply wanted_top|]. cbn [app] in Hr. injection Hr as <- Hr.
        assert (SP : spare ("node_modules" :: store_name :: q)).
        { destruct q as [|q3 q]; [left; reflexivity|]. right. destruct (store_comps _ G) as [(m & Em & _)|(s & m & Em & _)]; rewrite Em in Hr; cbn [app] in Hr.
          - injection Hr as _ Hr. destruct q; discriminate.
          - injection Hr as <- Hr. destruct q as [|q4 q]; [eauto|]. cbn in Hr. injection Hr as _ Hr. destruct q; discriminate. }
        destruct (Hs SP) as [e1 H1]. rewrite (wanted_spare g _ _ W H1 SP) in H1. exact H1.
  Qed.
  Lemma old_package i q e : 0 < i < size g -> wanted g0 q e -> (exists r, q = pkg_dir g i ++ r) -> exists i0, 0 < i0 < size g0 /\ node_path g0 i0 = node_path g i.
  Proof.
    intros Hi Hq [r0 Hr0]. pose proof W0 as ((q0 & P0 & I0) & Hg0 & Hn0). pose proof W as ((q1 & P1 & I) & Hg & Hn).
    assert (X : forall p e', (exists x, In x (iinsts g0) /\ In (p, e') (items x)) -> (exists r, p = pkg_dir g i ++ r) -> exists i0, 0 < i0 < size g0 /\ dir_name g0 i0 = dir_name g i).
    { intros p e' H [r Hr]. rewrite (pkg_dir_loc hex8 g Hn i Hi) in Hr. apply (iitem hex8 contents rsat canon deliver g0 q0 P0 I0 Hn0) in H.
      destruct H as [[-> ->]|[(i0 & fl & H0 & -> & Hf)|(i0 & y & c0 & Hd & -> & ->)]]; [discriminate| |].
      - exists i0. split; [auto|]. apply sloc_prefix in Hr; [apply Hr| | | | |exact (pfiles_ok contents Hcont g0 _ _ _ Hf)].
        + eapply dn_good; eauto.
        + eapply dn_good; eauto.
        + constructor; [eapply name_good; eauto|constructor].
        + constructor; [eapply name_good; eauto|constructor].
      - pose proof (dep_name_good rsat canon deliver g0 q0 P0 I0 Hg0 _ _ _ Hd) as Gy. destruct (depends_lt rsat canon deliver g0 q0 P0 I0 _ _ _ Hd) as (H0 & _).
        unfold IsolatedProofs.link_path in Hr. destruct (Nat.eqb_spec i0 0) as [->|Hne].
        + exfalso. rewrite <- (app_nil_r (disk [y])) in Hr. eapply root_not_store'; [exact Gy|exact Hr].
        + exists i0. split; [lia|]. rewrite <- (app_nil_r (sloc _ [name_of g0 i0; y])) in Hr. apply sloc_prefix in Hr; [apply Hr| | | | |discriminate].
          * eapply dn_good; eauto. lia.
          * eapply dn_good; eauto.
          * constructor; [eapply name_good; eauto; lia|constructor; [auto|constructor]].
          * constructor; [eapply name_good; eauto|constructor]. }
    assert (Y : exists i0, 0 < i0 < size g0 /\ dir_name g0 i0 = dir_name g i).
    { destruct Hq as [H|(-> & x & p & e' & Hx & Hp & ([r Hr] & _))]; [eapply X; eauto|].
      eapply X; [eauto|]. exists (r0 ++ r). now rewrite Hr, Hr0, app_assoc. }
    destruct Y as (i0 & H0 & E). exists i0. split; [auto|]. now apply same_dn.
  Qed.
  Lemma good_up f' : pruned D f f' -> good_start (iinsts g) (rel_of g) f'.
  Proof.
    intros [Pr1 Pr2]. pose proof W0 as ((q0 & P0 & I0) & Hg0 & Hn0). pose proof W as ((q1 & P1 & I) & Hg & Hn).
    assert (LIVE : forall q e, f' q = Some e -> ~ condemned D q /\ f q = Some e).
    { intros q e Hq. assert (Hc : ~ condemned D q) by (intros Hc; rewrite Pr2 in Hq by auto; discriminate). split; [auto|]. now rewrite <- Pr1. }
    constructor.
    - intros q e [Hn' Hs] Hq. destruct (LIVE q e Hq) as [Hc Hq']. destruct (proj2 Hset q e Hn' Hq') as [H|[-> H]]; [now apply kept_wanted|].
      destruct (Hs H) as [e' H1]. rewrite (wanted_spare g _ _ W H1 H) in H1. exact H1.
    - intros x d Hx Hd Hf [p e] Ht. destruct (i_check_in hex8 contents g x d Hx Hd) as (i & Hi & -> & ->).
      destruct (f' (pkg_dir g i)) as [e1|] eqn:E1; [|congruence]. destruct (LIVE _ _ E1) as [Hc Hq'].
      assert (NM : in_nm (pkg_dir g i)) by (rewrite (pkg_dir_loc hex8 g Hn i Hi); unfold sloc; eexists; reflexivity).
      assert (WN : wanted g0 (pkg_dir g i) e1).
      { destruct (proj2 Hset _ _ NM Hq') as [H|[-> H]]; [auto|]. exfalso. rewrite (pkg_dir_loc hex8 g Hn i Hi) in H. unfold sloc in H.
        pose proof (comps_good_ne _ (dn_good hex8 Hhex rsat canon deliver g q1 P1 I Hg i Hi)) as Hne.
        destruct (comps (dir_name g i)) as [|z l]; [congruence|]. rewrite disk_cons in H. destruct H as [H|[s H]]; cbn in H; [discriminate|].
        injection H as -> H. destruct l; discriminate. }
      destruct (old_package i _ _ Hi WN) as (i0 & H0 & Ep); [exists []; now rewrite app_nil_r|].
      destruct (dn_eq g0 g i0 i W0 W H0 Hi Ep) as [Ed En].
      apply (ipfiles_item hex8 contents g) in Ht. destruct Ht as (fl & -> & Hfl). cbn [fst snd].
      assert (Hit : exists x, In x (iinsts g0) /\ In (pkg_dir g i ++ fl, e) (items x)).
      { apply (iitem hex8 contents rsat canon deliver g0 q0 P0 I0 Hn0). right. left. exists i0, fl. split; [auto|]. split.
        - rewrite (pkg_dir_loc hex8 g Hn i Hi), Ed, En. reflexivity.
        - apply (same_files i0 i); auto. }
      assert (SC : forall s m, comps (dir_name g i) = [String "@" s; m] -> f ["node_modules"; store_name; String "@" s] = Some EDir).
      { intros s m Em. apply (proj1 Hset). destruct Hit as (x & Hx' & Ht'). apply (want_above _ x _ _ Hx' Ht'). cbn [fst]. rewrite (pkg_dir_loc hex8 g Hn i Hi). unfold sloc. rewrite Em.
        split; [eexists; reflexivity|]. split; discriminate. }
      assert (K : ~ condemned D (pkg_dir g i ++ fl)).
      { apply main_kept; auto; [eapply apart_one; eauto|exact (pfiles_ok contents Hcont g _ _ _ Hfl)]. }
      split; cbn [fst snd].
      + rewrite Pr1 by exact K. apply (proj1 Hset). left. exact Hit.
      + intros q Hq. rewrite Pr1.
        * apply (proj1 Hset). destruct Hit as (x & Hx' & Ht'). exact (want_above _ x _ _ Hx' Ht' Hq).
        * eapply keep_up; [exact K|]. apply Hq.
  Qed.
  End Upgrade.

  Section Run.
  Variable g : graph.
  Hypothesis W : wf g.
  Hypothesis Hapart : apart g g.
  Variable A : Type.
  Variable lock : A.

  Lemma r_fun q e e' : wanted g q e -> wanted g q e' -> e = e'.
  Proof. pose proof W as ((q0 & P0 & I) & Hg & Hn). apply (i_fun hex8 Hhex contents Hcont rsat canon deliver g q0 P0 I Hg Hn (col_inj g W Hapart)). Qed.
  Lemma r_main x d : In x (iinsts g) -> i_check x = Some d -> forall t, In t (i_main x) -> prefix d (fst t).
  Proof. apply i_main_in. Qed.
  Lemma r_nocheck x : In x (iinsts g) -> i_check x = None -> i_main x = [].
  Proof. apply i_nocheck. Qed.
  Lemma r_ord l1 x l2 x' d : iinsts g = l1 ++ x :: l2 -> In x' l2 -> i_check x' = Some d -> forall t, In t (items x) -> ~ prefix d (fst t).
  Proof. pose proof W as ((q0 & P0 & I) & Hg & Hn). apply (i_ord hex8 Hhex contents Hcont rsat canon deliver g q0 P0 I Hg Hn (col_inj g W Hapart)). Qed.
  Lemma r_links x t : In x (iinsts g) -> In t (i_links x) -> forall b, snd t <> EFile b.
  Proof. pose proof W as ((q0 & P0 & I) & Hg & Hn). apply (i_links_nofile hex8 contents rsat canon deliver g q0 P0 I Hn). Qed.
  Lemma r_ne x d : In x (iinsts g) -> i_check x = Some d -> d <> [].
  Proof. intros Hx Hd. destruct (i_check_in hex8 contents g x d Hx Hd) as (i & Hi & -> & ->). discriminate. Qed.

  (** the same with the directories of links *)
  Lemma r_deep x t l : In x (iinsts g) -> In t (i_links x) -> snd t = ELink l -> 2 <= List.length (fst t).
  Proof.
    pose proof W as ((q0 & P0 & I) & Hg & Hn). intros Hx Ht Hl. destruct t as [p e].
    assert (Hit : exists x, In x (iinsts g) /\ In (p, e) (items x)) by (exists x; split; [auto|]; unfold items; apply in_app_iff; auto).
    cbn [snd fst] in *. subst e. apply (iitem hex8 contents rsat canon deliver g q0 P0 I Hn) in Hit.
    destruct Hit as [[_ H]|[(i & f & _ & _ & [[_ H]|(b & H & _)])|(i & y & c & Hd & -> & _)]]; try discriminate.
    pose proof (comps_good_ne _ (dep_name_good rsat canon deliver g q0 P0 I Hg _ _ _ Hd)) as Hc.
    unfold IsolatedProofs.link_path. destruct (Nat.eqb i 0).
    - rewrite disk_cons. cbn. rewrite app_nil_r. destruct (comps y); [congruence|]. cbn. lia.
    - unfold sloc. cbn. lia.
  Qed.
  Lemma p_want q e : Fs.wanted (map pad (iinsts g)) q e <-> wanted g q e.
  Proof. apply wanted_pad. exact r_deep. Qed.
  Lemma p_fun q e e' : Fs.wanted (map pad (iinsts g)) q e -> Fs.wanted (map pad (iinsts g)) q e' -> e = e'.
  Proof. apply (pad_fun _ r_deep). exact r_fun. Qed.
  Lemma p_main x d : In x (map pad (iinsts g)) -> i_check x = Some d -> forall t, In t (i_main x) -> prefix d (fst t).
  Proof. apply pad_main. exact r_main. Qed.
  Lemma p_nocheck x : In x (map pad (iinsts g)) -> i_check x = None -> i_main x = [].
  Proof. apply pad_nocheck. exact r_nocheck. Qed.
  Lemma p_ord l1 x l2 x' d : map pad (iinsts g) = l1 ++ x :: l2 -> In x' l2 -> i_check x' = Some d -> forall t, In t (items x) -> ~ prefix d (fst t).
  Proof. apply (pad_ord _ r_deep). exact r_ord. Qed.
  Lemma p_links x t : In x (map pad (iinsts g)) -> In t (i_links x) -> forall b, snd t <> EFile b.
  Proof. apply pad_nofile. exact r_links. Qed.
  Lemma p_ne x d : In x (map pad (iinsts g)) -> i_check x = Some d -> d <> [].
  Proof. apply pad_ne. exact r_ne. Qed.

  Lemma p_wn q e : Fs.wanted (map pad (iinsts g)) q e -> in_nm q.
  Proof. intros H. apply p_want in H. now apply (wanted_nm g q e). Qed.
  Lemma p_good rel f : good_start (iinsts g) rel f -> good_start (map pad (iinsts g)) rel f.
  Proof. apply (pad_good _ r_deep). Qed.

  Lemma wipe_run (m : option A) f w : iwipes f m = true -> nm_ok f -> isteps f m g lock w -> w_phase _ w = Done ->
    w_meta _ w = Some lock /\ forall q e, in_nm q -> (w_fs _ w q = Some e <-> wanted g q e).
  Proof.
    intros Hw Hnm S Hd. destruct (plain_exact A (idoomed f m g) (iwipes f m) (map pad (iinsts g)) lock (fun q => in_nm q) p_fun p_wn p_main p_nocheck p_ord f m w) as [H1 H2]; auto.
    - intros f' Hp. apply p_good. now apply (good_wipe A m f).
    - split; [auto|]. intros q e Hq. rewrite <- p_want. now apply H2.
  Qed.
  Lemma exact_settled f : (forall q e, in_nm q -> (f q = Some e <-> wanted g q e)) -> settled g f.
  Proof. intros H. split; [intros q e Hq; apply H; [now apply (wanted_nm g q e)|auto] | intros q e Hn Hq; left; now apply H]. Qed.
  Lemma settled_nm f : settled g f -> nm_ok f.
  Proof. intros [H _]. right. apply H. now apply wanted_top. Qed.
  Lemma up_run g0 (a : A) f w : wf g0 -> apart g0 g -> compatible g0 g -> settled g0 f -> isteps f (Some a) g lock w -> w_phase _ w = Done ->
    w_meta _ w = Some lock /\ settled g (w_fs _ w).
  Proof.
    intros W0 Hap Hc Hs S Hd. destruct (iwipes f (Some a)) eqn:Hw.
    - destruct (wipe_run (Some a) f w Hw) as [H1 H2]; auto; [right; apply (proj1 Hs); now apply wanted_top|]. split; [auto | now apply exact_settled].
    - assert (GS : forall f', pruned (idoomed f (Some a) g) f f' -> good_start (map pad (iinsts g)) (rel_of g) f') by (intros f' Hp; apply p_good; eapply (good_up g0 g); eauto).
      assert (HR : forall q e, Fs.wanted (map pad (iinsts g)) q e -> rel_of g q) by (intros q e H; apply p_want in H; split; [now apply (wanted_nm g q e) | eauto]).
      destruct (plain_exact A (idoomed f (Some a) g) (iwipes f (Some a)) (map pad (iinsts g)) lock (rel_of g) p_fun HR p_main p_nocheck p_ord f (Some a) w GS S Hd) as [H1 H2'].
      assert (H2 : forall q e, rel_of g q -> (w_fs _ w q = Some e <-> wanted g q e)) by (intros q e Hq; rewrite <- p_want; now apply H2').
      assert (NW : forall q, (forall e, ~ wanted g q e) -> forall e, ~ Fs.wanted (map pad (iinsts g)) q e) by (intros q Hq e H; apply p_want in H; eapply Hq; eauto).
      split; [auto|]. split; [intros q e Hq; apply H2; [split; [now apply (wanted_nm g q e)|eauto]|auto]|]. intros q e Hn Hq.
      destruct (wanted_dec (iinsts g) q) as [[e' He']|Hno]; [left; apply H2; [split; [auto|eauto]|auto]|].
      destruct (spare_dec q) as [Hsp|Hsp]; [|left; apply H2; [split; [auto|tauto]|auto]]. right. split; [|auto].
      destruct (cond_dec (idoomed f (Some a) g) q) as [Hcd|Hcd].
      + rewrite (plain_gone A (idoomed f (Some a) g) (iwipes f (Some a)) (map pad (iinsts g)) lock (rel_of g) p_fun HR p_main p_nocheck p_ord f (Some a) w GS S) in Hq; auto; [discriminate|congruence].
      + rewrite (plain_frame A (idoomed f (Some a) g) (iwipes f (Some a)) (map pad (iinsts g)) lock (rel_of g) p_fun HR p_main p_nocheck p_ord f (Some a) w GS S) in Hq; auto.
        destruct (proj2 Hs q e Hn Hq) as [Hq'|[-> _]]; [|auto]. now apply (wanted_spare g0 q e).
  Qed.
  Lemma up_completes g0 (a : A) f l : wf g0 -> apart g0 g -> compatible g0 g -> settled g0 f -> (forall q, f q <> None -> In q l) ->
    exists w, isteps f (Some a) g lock w /\ w_phase _ w = Done.
  Proof.
    intros W0 Hap Hc Hs Hl. destruct (iwipes f (Some a)) eqn:Hw.
    - refine (plain_complete A (idoomed f (Some a) g) (iwipes f (Some a)) (map pad (iinsts g)) lock (fun q => in_nm q) p_fun p_wn p_main p_nocheck p_ord (cond_dec _) f (Some a) l _ Hl).
      + intros f' Hp. apply p_good. apply (good_wipe A (Some a) f); auto. right. apply (proj1 Hs). now apply wanted_top.
    - refine (plain_complete A (idoomed f (Some a) g) (iwipes f (Some a)) (map pad (iinsts g)) lock (rel_of g) p_fun _ p_main p_nocheck p_ord (cond_dec _) f (Some a) l _ Hl).
      + intros q e H. apply p_want in H. split; [now apply (wanted_nm g q e) | eauto].
      + intros f' Hp. apply p_good. eapply (good_up g0 g); eauto.
  Qed.
  Lemma wipe_completes (m : option A) f l : iwipes f m = true -> nm_ok f -> (forall q, f q <> None -> In q l) -> exists w, isteps f m g lock w /\ w_phase _ w = Done.
  Proof.
    intros Hw Hnm Hl. refine (plain_complete A (idoomed f m g) (iwipes f m) (map pad (iinsts g)) lock (fun q => in_nm q) p_fun p_wn p_main p_nocheck p_ord (cond_dec _) f m l _ Hl).
    intros f' Hp. apply p_good. now apply (good_wipe A m f).
  Qed.
  Lemma wipe_outside (m : option A) f w : iwipes f m = true -> nm_ok f -> isteps f m g lock w -> forall q, ~ in_nm q -> w_fs _ w q = f q.
  Proof.
    intros Hw Hnm S q Hq. refine (plain_frame A (idoomed f m g) (iwipes f m) (map pad (iinsts g)) lock (fun q => in_nm q) p_fun p_wn p_main p_nocheck p_ord f m w _ S q _ _).
    - intros f' Hp. apply p_good. now apply (good_wipe A m f).
    - intros (d & Hd & [r ->]). unfold IsolatedModel.idoomed in Hd. rewrite Hw in Hd. destruct d as [|x [|y [|z d]]]; try discriminate. unfold doomed_all in Hd.
      apply String.eqb_eq in Hd. subst x. apply Hq. eexists. reflexivity.
    - intros e H. apply Hq. now apply (p_wn q e).
  Qed.

  (** ** crashes of a first install *)
  Notation solid := (solid (iinsts g) (fun q => in_nm q)).
  Definition ifine (f : fs) (m : option A) : Prop := nm_ok f /\ (m = None \/ solid f).
  Lemma exact_solid f : (forall q e, in_nm q -> (f q = Some e <-> wanted g q e)) -> solid f.
  Proof.
    intros H. constructor.
    - intros q e Hn Hq. now apply H.
    - intros x d Hx Hd t Ht. assert (Hin : In t (items x)) by (unfold items; apply in_app_iff; auto).
      pose proof (want_item _ x t Hx Hin) as Hw. split.
      + apply H; [now apply (wanted_nm g _ (snd t)) | auto].
      + intros q Hq. pose proof (want_above _ x t q Hx Hin Hq) as Hw'. apply H; [now apply (wanted_nm g _ EDir) | auto].
  Qed.
  Lemma solid_keep f (a : A) : solid f -> forall x d, In x (iinsts g) -> i_check x = Some d -> forall t, In t (i_main x) -> ~ condemned (idoomed f (Some a) g) (fst t).
  Proof.
    intros [S1 S2] x d Hx Hd t Ht. destruct (S2 x d Hx Hd t Ht) as [C1 C2]. destruct (i_check_in hex8 contents g x d Hx Hd) as (i & Hi & -> & ->).
    pose proof W as ((q0 & P0 & I) & Hg & Hn). destruct t as [p e]. apply (ipfiles_item hex8 contents g) in Ht. destruct Ht as (fl & -> & Hfl). cbn [fst] in *.
    assert (Hw : iwipes f (Some a) = false).
    { unfold iwipes. rewrite (C2 ["node_modules"; store_name]); [auto|]. rewrite (pkg_dir_loc hex8 g Hn i Hi). unfold sloc.
      pose proof (comps_good_ne _ (dn_good hex8 Hhex rsat canon deliver g q0 P0 I Hg i Hi)) as Hne. destruct (comps (dir_name g i)); [congruence|].
      split; [eexists; reflexivity|]. split; discriminate. }
    apply main_kept; auto; [exact (pfiles_ok contents Hcont g _ _ _ Hfl)|]. intros s m Em. apply C2. rewrite (pkg_dir_loc hex8 g Hn i Hi). unfold sloc. rewrite Em.
    split; [eexists; reflexivity|]. split; discriminate.
  Qed.
  Lemma ifine_good f m : ifine f m -> forall f', pruned (idoomed f m g) f f' -> good_start (iinsts g) (fun q => in_nm q) f'.
  Proof.
    intros [Hnm Hm] f' Hp. destruct m as [a|]; [|apply (good_wipe A None f g f'); auto]. destruct Hm as [Hm|Hs]; [discriminate|].
    apply (solid_good (idoomed f (Some a) g) (iinsts g) (fun q => in_nm q) (cond_dec _) (solid_keep f a Hs) f f' Hs Hp).
  Qed.
  Lemma ifine_exact f m w : ifine f m -> isteps f m g lock w -> w_phase _ w = Done -> w_meta _ w = Some lock /\ forall q e, in_nm q -> (w_fs _ w q = Some e <-> wanted g q e).
  Proof.
    intros F S Hd. destruct (plain_exact A (idoomed f m g) (iwipes f m) (map pad (iinsts g)) lock (fun q => in_nm q) p_fun p_wn p_main p_nocheck p_ord f m w) as [H1 H2]; auto.
    - intros f' Hp. apply p_good. eapply ifine_good; eauto.
    - split; [auto|]. intros q e Hq. rewrite <- p_want. now apply H2.
  Qed.
  Lemma ifine_run f m w : ifine f m -> isteps f m g lock w -> ifine (w_fs _ w) (w_meta _ w).
  Proof.
    intros F S. assert (GS : forall f', pruned (idoomed f m g) f f' -> good_start (map pad (iinsts g)) (fun q => in_nm q) f') by (intros f' Hp; apply p_good; eapply ifine_good; eauto).
    pose proof p_wn as HR.
    pose proof F as [Hnm Hm]. split.
    - pose proof (ok_steps A (idoomed f m g) (iwipes f m) (map pad (iinsts g)) lock (fun q => in_nm q) p_fun HR p_main p_nocheck p_ord f m w GS S) as K. unfold ok in K.
      unfold nm_ok. destruct (w_fs _ w ["node_modules"]) as [e|] eqn:E; [|auto]. right. f_equal. destruct (w_phase _ w).
      + rewrite (proj1 (K _)) in E by now apply nm_not_condemned_i. destruct Hnm as [H|H]; rewrite H in E; [discriminate|congruence].
      + destruct K as [V1 V2 _]. destruct (V1 _ _ (prefix_refl _) E) as [H|(b & b' & -> & Hin)].
        * apply p_want in H. eapply r_fun; [exact H|]. now apply wanted_top.
        * exfalso. destruct V2 as (st & Hst & _ & V3). destruct (V3 _ Hin) as (x & Hx & Ht). assert (Hx' : In x (map pad (iinsts g))) by (rewrite Hst; apply in_app_iff; auto).
          pose proof (want_item _ x _ Hx' Ht) as Hw. cbn [fst snd] in Hw. apply p_want in Hw. pose proof (r_fun _ _ _ Hw (wanted_top g W)). discriminate.
      + apply K in E; [|apply prefix_refl]. apply p_want in E. eapply r_fun; [exact E|]. now apply wanted_top.
    - destruct (plain_cases A (idoomed f m g) (iwipes f m) (map pad (iinsts g)) lock (fun q => in_nm q) p_fun HR p_main p_nocheck p_ord f m w GS S) as [H|[[_ H]|H]].
      + rewrite H. destruct m as [a|]; [|auto]. destruct Hm as [Hm|Hs]; [discriminate|]. right.
        apply (pad_solid _ r_deep). apply (sok_steps A (idoomed f (Some a) g) (iwipes f (Some a)) (map pad (iinsts g)) lock (fun q => in_nm q) p_fun HR p_main p_nocheck p_ord (cond_dec _) p_links p_ne) with (f := f) (m := Some a); auto.
        * apply (pad_keep (iinsts g) (fun q => ~ condemned (idoomed f (Some a) g) q)). exact (solid_keep f a Hs).
        * now apply (pad_solid _ r_deep).
      + auto.
      + right. apply exact_solid. intros q e Hq. rewrite <- p_want. now apply H.
  Qed.
  (** any number of killed runs *)
  Inductive iattempts : fs -> option A -> fs -> option A -> Prop :=
  | ia_none f m : iattempts f m f m
  | ia_more f m w f1 m1 : isteps f m g lock w -> iattempts (w_fs _ w) (w_meta _ w) f1 m1 -> iattempts f m f1 m1.
  Lemma ifine_attempts f m f1 m1 : ifine f m -> iattempts f m f1 m1 -> ifine f1 m1.
  Proof. intros F H. induction H as [|f m w f1 m1 S H IH]; [auto|]. apply IH. eapply ifine_run; eauto. Qed.
  End Run.

  (** ** what an install that is [settled] looks like *)
  Section Look.
  Variable g : graph.
  Hypothesis W : wf g.
  Hypothesis Hapart : apart g g.
  Variable f : fs.
  Hypothesis Hs : settled g f.
  Lemma look_files i p n : installed_at g i p -> i <> 0 -> getn g i = Some n -> forall fl e, (forall t, fl <> "node_modules" :: t) ->
    (f (home p ++ fl) = Some e <-> holds (contents (pk_resolved (n_pkg n))) fl e).
  Proof.
    intros Hi Hne Hgn fl e Hfl. pose proof W as ((q0 & P0 & I) & Hg & Hn). destruct (path_node g i p W Hi) as [Hlt ->]. assert (Hi' : 0 < i < size g) by lia.
    rewrite (home_loc g i W Hi'), (pkg_dir_loc hex8 g Hn i Hi').
    assert (PF : package_files contents g i = contents (pk_resolved (n_pkg n))) by (unfold package_files; now rewrite Hgn).
    assert (IT : forall fl' e', pfiles g i fl' e' -> exists x, In x (iinsts g) /\ In (sloc (dir_name g i) [name_of g i] ++ fl', e') (items x)).
    { intros fl' e' H. apply (iitem hex8 contents rsat canon deliver g q0 P0 I Hn). right. left. exists i, fl'. auto. }
    assert (NE : forall r, sloc (dir_name g i) [name_of g i] ++ r <> []) by discriminate.
    split.
    - intros H. apply (proj2 Hs) in H; [|unfold sloc; eexists; reflexivity]. destruct H as [H|[-> H]].
      2:{ exfalso. unfold sloc in H. pose proof (comps_good_ne _ (dn_good hex8 Hhex rsat canon deliver g q0 P0 I Hg i Hi')) as Hc.
          destruct (comps (dir_name g i)) as [|z l]; [congruence|]. rewrite disk_cons in H. destruct H as [H|[s H]]; cbn in H; [discriminate|].
          injection H as -> H. destruct l; discriminate. }
      assert (OWN : forall p' e', (exists x, In x (iinsts g) /\ In (p', e') (items x)) -> forall r, p' = (sloc (dir_name g i) [name_of g i] ++ fl) ++ r ->
         (exists fl', fl' = fl ++ r /\ pfiles g i fl' e') \/ (fl = [] /\ r <> [])).
      { intros p' e' Hit r Hr. rewrite <- app_assoc in Hr. apply (iitem hex8 contents rsat canon deliver g q0 P0 I Hn) in Hit.
        destruct Hit as [[-> _]|[(j & fl' & Hj & -> & Hf)|(j & x & c & Hd & -> & _)]]; [discriminate| |].
        - apply (sloc_here hex8 Hhex rsat canon deliver g q0 P0 I Hg (col_inj g W Hapart)) in Hr; [|auto|auto|constructor|exact (pfiles_ok contents Hcont g _ _ _ Hf)].
          destruct Hr as [<- Hr]. cbn in Hr. left. exists fl'. split; auto.
        - destruct (depends_lt rsat canon deliver g q0 P0 I _ _ _ Hd) as (Hj & _). pose proof (dep_name_good rsat canon deliver g q0 P0 I Hg _ _ _ Hd) as Gx.
          unfold IsolatedProofs.link_path in Hr. destruct (Nat.eqb_spec j 0) as [->|Hj0].
          + exfalso. eapply (root_not_store' x [] _ _ [] _ Gx). rewrite app_nil_r. exact Hr.
          + rewrite <- (app_nil_r (sloc (dir_name g j) _)) in Hr.
            apply (sloc_here hex8 Hhex rsat canon deliver g q0 P0 I Hg (col_inj g W Hapart)) in Hr; auto; [|lia|discriminate].
            destruct Hr as [<- Hr]. cbn in Hr. rewrite app_nil_r in Hr. destruct fl as [|y fl]; [right; split; [auto|]; cbn in Hr; rewrite Hr; discriminate|].
            cbn in Hr. injection Hr as -> _. destruct (Hfl fl eq_refl). }
      destruct H as [H|(-> & x & p' & e' & Hx & Hp & ([r Hr] & Hne' & _))].
      + destruct (OWN _ _ H [] ltac:(now rewrite app_nil_r)) as [(fl' & -> & Hf)|[_ Hr]]; [|congruence]. rewrite app_nil_r in Hf.
        destruct Hf as [[-> ->]|(b & -> & Hb)]; [left; auto|]. right. exists b. rewrite <- PF. auto.
      + left. split; [auto|]. destruct (OWN p' e' ltac:(eauto) r Hr) as [(fl' & -> & Hf)|[-> _]]; [|auto].
        destruct Hf as [[E ->]|(b & -> & Hb)]; [apply app_eq_nil in E; destruct E; auto|]. right. exists (fl ++ r), b. rewrite <- PF. split; [auto|]. split; [apply prefix_app|].
        intros E. apply Hne'. rewrite Hr. rewrite <- (app_nil_r fl) in E at 1. apply app_inv_head in E. subst r. now rewrite app_nil_r.
    - intros [[-> H]|(b & -> & Hb)]; apply (proj1 Hs).
      + destruct H as [->|(f' & b & Hin & [r Hr] & Hne')]; [left; apply IT; left; auto|].
        destruct (IT f' (EFile b)) as (x & Hx & Ht); [right; exists b; rewrite PF; auto|].
        refine (want_above _ x _ _ Hx Ht _). cbn [fst]. split; [exists r; now rewrite Hr, app_assoc|]. split; [|apply NE].
        intros E. apply app_inv_head in E. contradiction.
      + left. apply IT. right. exists b. rewrite PF. auto.
  Qed.
  Lemma look_dir i p x : installed_at g i p -> deps_dir p ++ comps x = link_path g i x.
  Proof.
    intros Hi. pose proof W as ((q0 & P0 & I) & Hg & Hn). destruct (path_node g i p W Hi) as [Hlt ->]. unfold IsolatedProofs.link_path.
    destruct (Nat.eqb_spec i 0) as [->|Hne].
    - destruct (path_node g 0 [] W) as [_ <-]; [constructor|]. apply (nm_dir_root hex8 g).
    - assert (Hi' : 0 < i < size g) by lia. pose proof (node_ne rsat canon deliver g q0 P0 I i ltac:(lia) Hlt) as Hnil.
      rewrite <- (nm_dir_loc hex8 g Hn i x Hi'). unfold IsolatedModel.nm_dir. destruct (Nat.eqb_spec i 0); [lia|]. rewrite <- (home_loc g i W Hi').
      unfold IsolatedSpec.deps_dir. destruct (node_path g i); [congruence|auto].
  Qed.
  Lemma look_link i p x c pc : installed_at g i p -> depends g i x c -> installed_at g c pc -> leads f (deps_dir p ++ comps x) (home pc).
  Proof.
    intros Hi Hd Hc. pose proof W as ((q0 & P0 & I) & Hg & Hn). destruct (depends_lt rsat canon deliver g q0 P0 I _ _ _ Hd) as (_ & Hc' & _).
    rewrite (look_dir i p x Hi). exists (link_text g i x c). destruct (path_node g c pc W Hc) as [_ ->]. rewrite (home_loc g c W Hc'). split.
    - apply (proj1 Hs). left. apply (iitem hex8 contents rsat canon deliver g q0 P0 I Hn). eauto 8.
    - apply (link_leads hex8 Hhex rsat canon deliver g q0 P0 I Hg Hn). exact Hd.
  Qed.
  (** nothing else is in the node_modules directory of a package *)
  Lemma look_only i p r e : installed_at g i p -> r <> [] -> f (deps_dir p ++ r) = Some e -> (i = 0 -> forall t, r <> ".oro-store" :: t) ->
    (exists x c, depends g i x c /\ r = comps x) \/ (exists s y c, depends g i (String "@" s ++ "/" ++ y) c /\ no_slash s = true /\ r = [String "@" s] /\ e = EDir).
  Proof.
    intros Hi Hr Hq Hst. pose proof W as ((q0 & P0 & I) & Hg & Hn). destruct (path_node g i p W Hi) as [Hlt ->].
    assert (NP : i = 0 -> node_path g i = []) by (intros ->; symmetry; apply (path_node g 0 [] W); constructor).
    assert (Nd : i <> 0 -> deps_dir (node_path g i) = sloc (dir_name g i) [name_of g i] ++ ["node_modules"]).
    { intros Hne. rewrite <- (pkg_dir_loc hex8 g Hn i ltac:(lia)), <- (home_loc g i W ltac:(lia)). pose proof (node_ne rsat canon deliver g q0 P0 I i ltac:(lia) Hlt) as Hnil.
      unfold IsolatedSpec.deps_dir. destruct (node_path g i); [congruence|auto]. }
    assert (OWN : forall p' e', (exists x, In x (iinsts g) /\ In (p', e') (items x)) -> forall r', p' = (deps_dir (node_path g i) ++ r) ++ r' -> exists x c, depends g i x c /\ r ++ r' = comps x).
    { intros p' e' Hit r' Hr'. rewrite <- app_assoc in Hr'. apply (iitem hex8 contents rsat canon deliver g q0 P0 I Hn) in Hit. destruct (Nat.eq_dec i 0) as [->|Hne].
      - rewrite NP in Hr' by auto. cbn [IsolatedSpec.deps_dir app] in Hr'. destruct Hit as [[-> _]|[(j & fl' & Hj & -> & Hf)|(j & x & c & Hd & -> & _)]].
        + injection Hr' as Hr'. destruct r; [congruence|discriminate].
        + exfalso. unfold sloc in Hr'. cbn [app] in Hr'. injection Hr' as Hr'. destruct r as [|y r]; [congruence|]. cbn in Hr'. injection Hr' as <- _. now apply (Hst eq_refl r).
        + unfold IsolatedProofs.link_path in Hr'. destruct (Nat.eqb_spec j 0) as [->|Hj].
          * rewrite disk_cons in Hr'. injection Hr' as Hr'. cbn in Hr'. rewrite app_nil_r in Hr'. eauto.
          * exfalso. unfold sloc in Hr'. cbn [app] in Hr'. injection Hr' as Hr'. destruct r as [|y r]; [congruence|]. cbn in Hr'. injection Hr' as <- _. now apply (Hst eq_refl r).
      - rewrite (Nd Hne), <- app_assoc in Hr'. assert (Hi' : 0 < i < size g) by lia. destruct Hit as [[-> _]|[(j & fl' & Hj & -> & Hf)|(j & x & c & Hd & -> & _)]]; [discriminate| |].
        + exfalso. pose proof (pfiles_ok contents Hcont g _ _ _ Hf) as Hok.
          apply (sloc_here hex8 Hhex rsat canon deliver g q0 P0 I Hg (col_inj g W Hapart)) in Hr'; [|auto|auto|constructor|exact Hok].
          destruct Hr' as [_ Hr']. cbn in Hr'. symmetry in Hr'. eapply Hok; eauto.
        + destruct (depends_lt rsat canon deliver g q0 P0 I _ _ _ Hd) as (Hj & _). pose proof (dep_name_good rsat canon deliver g q0 P0 I Hg _ _ _ Hd) as Gx.
          unfold IsolatedProofs.link_path in Hr'. destruct (Nat.eqb_spec j 0) as [->|Hj0].
          * exfalso. eapply (root_not_store' x [] _ _ [] _ Gx). rewrite app_nil_r. exact Hr'.
          * rewrite <- (app_nil_r (sloc (dir_name g j) _)) in Hr'.
            apply (sloc_here hex8 Hhex rsat canon deliver g q0 P0 I Hg (col_inj g W Hapart)) in Hr'; auto; [|lia|discriminate].
            destruct Hr' as [<- Hr']. cbn in Hr'. injection Hr' as Hr'. rewrite !app_nil_r in Hr'. eauto. }
    apply (proj2 Hs) in Hq.
    2:{ destruct (Nat.eq_dec i 0) as [->|Hne]; [rewrite NP by auto; exists r; reflexivity|]. rewrite (Nd Hne). unfold sloc. eexists. reflexivity. }
    destruct Hq as [[H|(-> & x & p' & e' & Hx & Hp & ([r' Hr'] & Hne' & _))]|[-> Hsp]].
    - destruct (OWN _ _ H [] ltac:(now rewrite app_nil_r)) as (x & c & Hd & E). rewrite app_nil_r in E. left. eauto.
    - destruct (OWN p' e' ltac:(eauto) r' Hr') as (y & c & Hd & E). pose proof (dep_name_good rsat canon deliver g q0 P0 I Hg _ _ _ Hd) as Gy.
      destruct r' as [|z r']; [rewrite app_nil_r in Hr'; congruence|].
      destruct Gy as [Hy|(s & mm & Ey & Hs' & Hf & Hm)].
      + exfalso. rewrite comps_plain in E by now apply plain_no_slash. destruct r as [|u [|v' r]]; [congruence| |]; discriminate.
      + right. rewrite Ey in E, Hd. rewrite comps_scoped in E by (auto; now apply plain_no_slash). destruct r as [|u [|v' r]]; [congruence| |].
        * injection E as -> -> _. exists s, mm, c. auto.
        * cbn in E. injection E as _ _ E. destruct r; discriminate.
    - exfalso. destruct (Nat.eq_dec i 0) as [->|Hne].
      + rewrite NP in Hsp by auto. destruct Hsp as [E|[s E]]; injection E as E; eapply (Hst eq_refl); exact E.
      + rewrite (Nd Hne) in Hsp. unfold sloc in Hsp. pose proof (comps_good_ne _ (dn_good hex8 Hhex rsat canon deliver g q0 P0 I Hg i ltac:(lia))) as Hc.
        destruct (comps (dir_name g i)) as [|z l]; [congruence|]. rewrite disk_cons in Hsp. destruct Hsp as [E|[s E]]; cbn in E; [discriminate|].
        injection E as -> E. destruct l; discriminate.
  Qed.
  End Look.
End Thms.
