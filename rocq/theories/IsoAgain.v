(** * Applying a tree that is already installed, with the isolated linker (C59) *)
From Verif Require Import Base Types FsPad ResolverModel ResolverProofs ResolverSpec ResolverThms LockfileModel LockfileProofs LockfileGraph LockfileReplay PathLookup Fs FsPlain HoistedModel HoistedSpec HoistedProofs
  HoistedThms IsolatedModel IsolatedSpec IsolatedProofs IsolatedThms IsoAgainSpec.
Open Scope string_scope.
Open Scope list_scope.

Section Again.
  Variable hex8 : string -> string.
  Hypothesis Hhex : hex_ok hex8.
  Variable root : path.
  Variable contents : resolution -> list (path * string).
  Hypothesis Hcont : plain_contents contents.
  Variable rsat : range -> version -> bool.
  Variable canon : string -> option string.
  Variable deliver : pspec -> outcome -> Prop.
  Notation wf := (wf rsat canon deliver).
  Notation apart := (apart hex8).
  Notation dir_name := (dir_name hex8).
  Notation pkg_dir := (pkg_dir hex8).
  Notation iinsts := (iinsts hex8 contents).
  Notation wanted g := (wanted (iinsts g)).
  Notation idoomed := (idoomed hex8 root).
  Notation isteps := (isteps hex8 root contents).
  Notation link_path := (link_path hex8).
  Notation link_text := (link_text hex8).

  Variable g : graph.
  Hypothesis W : wf g.
  Hypothesis Hapart : apart g g.
  Variable A : Type.
  Variables (a lock : A).
  Variable f : fs.
  Hypothesis Hf : forall q e, in_nm q -> (f q = Some e <-> wanted g q e).
  Notation near := (links_missing hex8 g f).

  Lemma dep_at i x c : depends g i x c -> exists p, installed_at g i p /\ deps_dir hex8 p ++ comps x = link_path g i x.
  Proof.
    intros D. pose proof W as ((q0 & P0 & I) & Hg & Hn). destruct (depends_lt rsat canon deliver g q0 P0 I _ _ _ D) as (L & _).
    exists (node_path g i). assert (Hi : installed_at g i (node_path g i)) by (apply (at_path rsat canon deliver); auto). split; [exact Hi|].
    exact (look_dir hex8 rsat canon deliver g W i _ x Hi).
  Qed.
  Lemma link_wanted i x c : depends g i x c -> wanted g (link_path g i x) (ELink (link_text g i x c)).
  Proof.
    intros D. pose proof W as ((q0 & P0 & I) & Hg & Hn). left. apply (iitem hex8 contents rsat canon deliver g q0 P0 I Hn). right. right. eauto 8.
  Qed.
  Lemma wanted_up q d e : wanted g q e -> above d q -> wanted g d EDir.
  Proof.
    intros [(x & Hx & Ht)|(_ & x & p & e' & Hx & Ht & Ha)] H; [exact (want_above _ x _ d Hx Ht H)|].
    refine (want_above _ x (p, e') d Hx Ht _). eapply FsPad.above_trans; eauto.
  Qed.
  Lemma under_link i x c q e : depends g i x c -> wanted g q e -> prefix (link_path g i x) q -> q = link_path g i x.
  Proof.
    intros D Hw P. destruct (path_eq_dec q (link_path g i x)) as [E|N]; [exact E|exfalso].
    assert (Ab : above (link_path g i x) q).
    { split; [exact P|]. split; [congruence|]. pose proof (wanted_nm hex8 contents rsat canon deliver g _ _ W (link_wanted i x c D)) as [z Z]. rewrite Z. discriminate. }
    pose proof (r_fun hex8 Hhex contents Hcont rsat canon deliver g W Hapart _ _ _ (wanted_up _ _ _ Hw Ab) (link_wanted i x c D)). discriminate.
  Qed.
  (** what may be missing: links *)
  Definition lk (q : path) : Prop := exists i x c, depends g i x c /\ q = link_path g i x.
  Lemma near_lk f1 : near f1 <-> forall q, f1 q = f q \/ (f1 q = None /\ lk q).
  Proof.
    split; intros H q; (destruct (H q) as [H1|[H1 H2]]; [left; exact H1|right; split; [exact H1|]]).
    - destruct H2 as (p & i & x & c & t & Hi & D & -> & _). exists i, x, c. split; [exact D|]. apply (look_dir hex8 rsat canon deliver g W i p x Hi).
    - destruct H2 as (i & x & c & D & ->). destruct (dep_at i x c D) as (p & Hp & E). exists p, i, x, c, (link_text g i x c). split; [exact Hp|]. split; [exact D|]. split; [now rewrite E|].
      pose proof (link_wanted i x c D) as L. apply Hf; [|exact L]. exact (wanted_nm hex8 contents rsat canon deliver g _ _ W L).
  Qed.
  Lemma lk_wanted q : lk q -> exists t, wanted g q (ELink t).
  Proof. intros (i & x & c & D & ->). eexists. exact (link_wanted i x c D). Qed.
  Lemma kept f1 q e : (forall q, f1 q = f q \/ (f1 q = None /\ lk q)) -> wanted g q e -> (forall t, e <> ELink t) -> f1 q = Some e.
  Proof.
    intros H Hw Ne. destruct (H q) as [->|[_ L]]; [apply Hf; [|exact Hw]; exact (wanted_nm hex8 contents rsat canon deliver g _ _ W Hw)|].
    destruct (lk_wanted q L) as [t Lt]. pose proof (r_fun hex8 Hhex contents Hcont rsat canon deliver g W Hapart _ _ _ Hw Lt). exfalso. eapply Ne. eassumption.
  Qed.

  Section Run.
  Variable f1 : fs.
  Hypothesis H1 : forall q, f1 q = f q \/ (f1 q = None /\ lk q).
  Lemma pkg_wanted i : 0 < i < size g -> wanted g (pkg_dir g i) EDir.
  Proof.
    intros Hi. pose proof W as ((q0 & P0 & I) & Hg & Hn). left. apply (iitem hex8 contents rsat canon deliver g q0 P0 I Hn). right. left. exists i, [].
    split; [exact Hi|]. split; [rewrite app_nil_r; apply (pkg_dir_loc hex8 g Hn i Hi)|]. left. auto.
  Qed.
  (** only links are deleted *)
  Lemma only_links q e : wanted g q e -> condemned (idoomed f1 (Some a) g) q -> lk q.
  Proof.
    intros Hw (d & Hd & P). pose proof W as ((q0 & P0 & I) & Hg & Hn). pose proof Hd as Hd0. unfold IsolatedModel.idoomed in Hd.
    destruct (iwipes f1 (Some a)) eqn:Wp.
    - (* no store: the tree is empty *)
      exfalso. assert (St : f1 ["node_modules"; store_name] = None) by (unfold iwipes in Wp; destruct (f1 ["node_modules"; store_name]); [discriminate|reflexivity]).
      assert (Empty : forall i, ~ 0 < i < size g).
      { intros i Hi. assert (Sw : wanted g ["node_modules"; store_name] EDir).
        { apply (wanted_up (pkg_dir g i) _ EDir (pkg_wanted i Hi)). rewrite (pkg_dir_loc hex8 g Hn i Hi). unfold sloc. split; [eexists; reflexivity|]. split; [|discriminate].
          intros X. injection X as X. symmetry in X. apply app_eq_nil in X. destruct X as [X _]. revert X. apply comps_good_ne. apply (dn_good hex8 Hhex rsat canon deliver g q0 P0 I Hg i Hi). }
        rewrite (kept f1 _ _ H1 Sw) in St; [discriminate|discriminate]. }
      assert (It : forall p e', (exists x, In x (iinsts g) /\ In (p, e') (items x)) -> p = ["node_modules"]).
      { intros p e' H. apply (iitem hex8 contents rsat canon deliver g q0 P0 I Hn) in H. destruct H as [[-> _]|[(i & fl & Hi & _)|(i & x & c & D & _)]]; [reflexivity|destruct (Empty i Hi)|].
        destruct (depends_lt rsat canon deliver g q0 P0 I _ _ _ D) as (_ & Hc & _). destruct (Empty c Hc). }
      assert (Eq : q = ["node_modules"]).
      { destruct Hw as [H|(_ & x & p & e' & Hx & Hp & ([r Hr] & Hne & Hq))]; [exact (It _ _ H)|]. rewrite (It p e') in Hr, Hne by eauto. destruct q as [|b [|]]; [congruence| |]; injection Hr as <- Hr; [congruence|discriminate]. }
      subst q. apply (nm_not_condemned_i hex8 root rsat canon deliver A (Some a) f1 g W). exists d. split; [exact Hd0|exact P].
    - apply orb_true_iff in Hd. destruct Hd as [Hd|Hd].
      + apply (stale_shape hex8 root rsat canon deliver) in Hd; [|exact W]. destruct Hd as (i & x & c & D & -> & _). exists i, x, c. split; [exact D|]. exact (under_link i x c q e D Hw P).
      + exfalso.
        assert (SC : forall i, 0 < i < size g -> forall s m, comps (dir_name g i) = [String "@" s; m] -> f1 ["node_modules"; store_name; String "@" s] = Some EDir).
        { intros i Hi s m Em. apply (kept f1 _ _ H1); [|discriminate]. apply (wanted_up (pkg_dir g i) _ EDir (pkg_wanted i Hi)). rewrite (pkg_dir_loc hex8 g Hn i Hi). unfold sloc. rewrite Em. split; [eexists; reflexivity|]. split; discriminate. }
        assert (MK : forall i fl, 0 < i < size g -> (forall t, fl <> "node_modules" :: t) -> ~ prefix d (pkg_dir g i ++ fl)).
        { intros i fl Hi Hfl Pd. apply (main_kept hex8 Hhex root rsat canon deliver A a f1 g i fl W Hapart Wp Hi Hfl (SC i Hi)). exists d. auto. }
        assert (Ld : exists d', d = "node_modules" :: store_name :: d' /\ 1 <= List.length d' <= 2).
        { unfold IsolatedModel.extraneous in Hd. destruct d as [|n1 [|n2 [|n3 [|n4 [|]]]]]; try discriminate; rewrite !andb_true_iff, ?String.eqb_eq in Hd.
          - destruct Hd as [[[-> ->] _] _]. exists [n3]. cbn. auto.
          - destruct Hd as [[[[[-> ->] _] _] _] _]. exists [n3; n4]. cbn. auto. }
        destruct Ld as (d' & -> & Ld). 
        assert (It : forall p e', (exists x, In x (iinsts g) /\ In (p, e') (items x)) -> ~ prefix ("node_modules" :: store_name :: d') p).
        { intros p e' H Pd. apply (iitem hex8 contents rsat canon deliver g q0 P0 I Hn) in H. destruct H as [[-> _]|[(i & fl & Hi & -> & Hfl)|(i & x & c & D & -> & _)]].
          - destruct Pd as [z Z]. discriminate.
          - rewrite <- (pkg_dir_loc hex8 g Hn i Hi) in Pd. exact (MK i fl Hi (pf_ok contents Hcont g i fl e' Hfl) Pd).
          - pose proof (dep_name_good rsat canon deliver g q0 P0 I Hg _ _ _ D) as Gx. unfold IsolatedProofs.link_path in Pd. destruct (Nat.eqb_spec i 0) as [->|Ni].
            + destruct Pd as [z Z]. rewrite disk_cons in Z. injection Z as Z. symmetry in Z. eapply good_not_store; [exact Gx|]. symmetry. exact Z.
            + assert (Hi : 0 < i < size g) by (destruct (depends_lt rsat canon deliver g q0 P0 I _ _ _ D); lia).
              apply (MK i [] Hi); [discriminate|]. rewrite app_nil_r.
              assert (Pp : prefix (pkg_dir g i) (sloc (dir_name g i) [name_of g i; x])).
              { rewrite (pkg_dir_loc hex8 g Hn i Hi). unfold sloc. change [name_of g i; x] with ([name_of g i] ++ [x]). rewrite disk_app, app_assoc. eexists. now rewrite app_comm_cons, app_comm_cons. }
              destruct (prefix_linear _ _ _ Pd Pp) as [X|[z X]]; [exact X|]. exfalso. apply (f_equal (@List.length _)) in X. rewrite app_length, (pkg_dir_loc hex8 g Hn i Hi) in X. unfold sloc in X. cbn in X. rewrite app_length in X. cbn in X. 
              assert (Dn : comps (dir_name g i) <> []) by (apply comps_good_ne; apply (dn_good hex8 Hhex rsat canon deliver g q0 P0 I Hg i Hi)). destruct (comps (dir_name g i)); [congruence|]. cbn in X. 
              assert (Cn : comps (name_of g i) <> []) by (apply comps_good_ne; apply (name_good rsat canon deliver g q0 P0 I Hg i Hi)). destruct (comps (name_of g i)); [congruence|]. cbn in X. lia. }
        destruct Hw as [H|(_ & x & p & e' & Hx & Hp & (Hr & _))]; [exact (It _ _ H P)|]. apply (It p e'); [eauto|]. eapply prefix_trans; eauto.
  Qed.
  Lemma safe q : (exists e, wanted g q e) -> ~ lk q -> ~ condemned (idoomed f1 (Some a) g) q.
  Proof. intros [e Hw] N C. exact (N (only_links q e Hw C)). Qed.

  End Run.

  (** ** a run *)
  Lemma doomed_nm f1 q : condemned (idoomed f1 (Some a) g) q -> in_nm q.
  Proof.
    intros (d & Hd & P). assert (H : in_nm d).
    { unfold IsolatedModel.idoomed in Hd. destruct (iwipes f1 (Some a)).
      - unfold doomed_all in Hd. destruct d as [|x [|y [|]]]; try discriminate. apply String.eqb_eq in Hd. subst. eexists; reflexivity.
      - apply orb_true_iff in Hd. destruct Hd as [Hd|Hd].
        + apply (stale_shape hex8 root rsat canon deliver) in Hd; [|exact W]. destruct Hd as (i & x & c & D & -> & _). exact (wanted_nm hex8 contents rsat canon deliver g _ _ W (link_wanted i x c D)).
        + unfold IsolatedModel.extraneous in Hd. destruct d as [|n1 [|n2 [|n3 [|n4 [|]]]]]; try discriminate; rewrite !andb_true_iff, ?String.eqb_eq in Hd.
          * destruct Hd as [[[-> _] _] _]. eexists; reflexivity.
          * destruct Hd as [[[[[-> _] _] _] _] _]. eexists; reflexivity. }
    destruct H as [t ->], P as [z ->]. eexists. reflexivity.
  Qed.
  Section Machine.
  Variable f1 : fs.
  Hypothesis H1 : forall q, f1 q = f q \/ (f1 q = None /\ lk q).
  Definition J (w : world A) : Prop :=
    (forall q, w_fs _ w q = f q \/ (w_fs _ w q = None /\ lk q))
    /\ (forall next live, w_phase _ w = Extracting next live ->
          (forall t, In t (concat live) -> wanted g (fst t) (snd t) /\ (forall b, snd t <> EFile b)) /\ (forall x, In x next -> In x (map pad (iinsts g)))).
  Lemma in_f q e : wanted g q e -> f q = Some e.
  Proof. intros H. apply Hf; [|exact H]. exact (wanted_nm hex8 contents rsat canon deliver g _ _ W H). Qed.
  Lemma put_near h p e : (forall q, h q = f q \/ (h q = None /\ lk q)) -> wanted g p e -> (forall b, e <> EFile b) -> forall q, put p e h q = f q \/ (put p e h q = None /\ lk q).
  Proof.
    intros Hh Hw Nf q. unfold put. destruct (path_eq_dec q p) as [->|N].
    - destruct (Hh p) as [E|[E _]]; rewrite E; left; rewrite (in_f _ _ Hw); destruct e; try reflexivity; destruct (Nf b eq_refl).
    - destruct (aboveb q p) eqn:Ab; [|apply Hh]. destruct (Hh q) as [E|[E L]]; rewrite E.
      + destruct (f q) as [y|] eqn:Ey; [now left|]. exfalso. apply aboveb_spec in Ab. rewrite (in_f q EDir) in Ey; [discriminate|]. exact (wanted_up _ _ _ Hw Ab).
      + exfalso. apply aboveb_spec in Ab. destruct (lk_wanted q L) as [t Lt].
        pose proof (r_fun hex8 Hhex contents Hcont rsat canon deliver g W Hapart _ _ _ (wanted_up _ _ _ Hw Ab) Lt). discriminate.
  Qed.
  Lemma J_step w w' : J w -> wstep A (idoomed f1 (Some a) g) (iwipes f1 (Some a)) (map pad (iinsts g)) lock w w' -> J w'.
  Proof.
    intros (K1 & K2) S.
    destruct S as [f2 m p Hc Hp Hl|f2 m Hw|f2 m Hc Hm|f2 m i next live|f2 m next l1 l2 p e rest Hok|f2 m next l1 l2 p b rest b' Hok|f2 m m' live Hl|f2 m live Hl];
      unfold J; cbn [w_fs w_meta w_phase] in *; (split; [|intros nx lv E; try discriminate E; try (injection E as <- <-)]); auto.
    - intros q. destruct (path_eq_dec q p) as [->|]; [|apply K1]. right. split; [reflexivity|].
      destruct (K1 p) as [E|[E _]]; [|congruence]. destruct (f p) as [e|] eqn:Ef; [|congruence].
      apply (only_links f1 H1 p e); [|exact Hc]. apply Hf; [|exact Ef]. exact (doomed_nm f1 p Hc).
    - split; [intros t []|auto].
    - destruct (K2 _ _ eq_refl) as [K2a K2b]. split; [|intros x Hx; apply K2b; now right].
      intros t Ht. cbn [concat] in Ht. apply in_app_or in Ht. destruct Ht as [Ht|Ht]; [|now apply K2a].
      assert (Hi : In i (map pad (iinsts g))) by (apply K2b; now left).
      assert (Hl : In t (i_links i)).
      { destruct (i_check i) as [d|] eqn:Ei; [|exact Ht]. assert (Hd : f2 d = Some EDir).
        { destruct (pad_in _ _ Hi) as (i0 & Hi0 & ->). cbn in Ei. destruct (i_check_in hex8 contents g i0 d Hi0 Ei) as (n & Hn & -> & ->).
          apply (kept f2 _ _ K1 (pkg_wanted n Hn)). discriminate. }
        now rewrite Hd in Ht. }
      split; [|now apply (p_links hex8 contents rsat canon deliver g W i)].
      apply (p_want hex8 contents rsat canon deliver g W). apply (want_item _ i t Hi). unfold items. apply in_app_iff. now right.
    - destruct (K2 _ _ eq_refl) as [K2a K2b]. destruct (K2a (p, e)) as [Wp Nf]; [apply in_concat_mid; right; left; now left|]. apply (put_near f2 p e K1 Wp Nf).
    - destruct (K2 _ _ eq_refl) as [K2a K2b]. split; [|exact K2b]. intros t Ht. apply K2a. apply in_concat_mid in Ht. apply in_concat_mid. cbn [In]. tauto.
    - exfalso. destruct (K2 _ _ eq_refl) as [K2a K2b]. destruct (K2a (p, EFile b)) as [_ Nf]; [apply in_concat_mid; right; left; now left|]. now apply (Nf b).
  Qed.
  Lemma J_run m w : isteps f1 (Some a) g lock w -> m = Some a -> J w.
  Proof.
    intros S _. unfold IsolatedModel.isteps in S. induction S as [|w1 w2 S IH H]; [|exact (J_step _ _ IH H)].
    split; [exact H1|]. intros nx lv E. discriminate E.
  Qed.
  Lemma Done_same w : isteps f1 (Some a) g lock w -> w_phase _ w = Done -> (forall q, w_fs _ w q = f q) /\ w_meta _ w = Some lock.
  Proof.
    intros S Hd. pose proof (J_run _ w S eq_refl) as [K _].
    destruct (plain_exact A (idoomed f1 (Some a) g) (iwipes f1 (Some a)) (map pad (iinsts g)) lock (fun q => in_nm q) (p_fun hex8 Hhex contents Hcont rsat canon deliver g W Hapart)
      (p_wn hex8 contents rsat canon deliver g W) (p_main hex8 contents g) (p_nocheck hex8 contents g) (p_ord hex8 Hhex contents Hcont rsat canon deliver g W Hapart) f1 (Some a) w) as [M E]; auto.
    - intros f' [P1 P2]. apply (p_good hex8 contents rsat canon deliver g W).
      assert (Hf' : forall q, f' q = f q \/ (f' q = None /\ lk q)).
      { intros q. destruct (cond_dec (idoomed f1 (Some a) g) q) as [C|C]; [|rewrite P1 by exact C; apply H1]. rewrite P2 by exact C.
        destruct (f q) as [e|] eqn:Eq; [|now left]. right. split; [reflexivity|]. apply (only_links f1 H1 q e); [|exact C]. apply Hf; [exact (doomed_nm f1 q C)|exact Eq]. }
      constructor.
      + intros q e Hq Eq. destruct (Hf' q) as [E|[E _]]; [|congruence]. apply Hf; [exact Hq|congruence].
      + intros i d Hi Hd' _ t Ht. destruct (i_check_in hex8 contents g i d Hi Hd') as (n & Hn & -> & ->).
        assert (Wt : wanted g (fst t) (snd t)) by (apply (want_item _ (iinst hex8 contents g n) t Hi); unfold items; apply in_app_iff; now left).
        assert (Nl : forall l, snd t <> ELink l).
        { cbn [iinst i_main] in Ht. destruct Ht as [<-|Ht]; [discriminate|]. apply in_map_iff in Ht. destruct Ht as (e & <- & _). discriminate. }
        split; [exact (kept f' _ _ Hf' Wt Nl)|]. intros q Hq. apply (kept f' _ _ Hf' (wanted_up _ _ _ Wt Hq)). discriminate.
    - split; [|exact M]. intros q. destruct (K q) as [E1|[E1 L]]; [exact E1|exfalso]. destruct (lk_wanted q L) as [t Lt].
      assert (Wp : Fs.wanted (map pad (iinsts g)) q (ELink t)) by (apply (p_want hex8 contents rsat canon deliver g W); exact Lt).
      rewrite (proj2 (E q (ELink t) (p_wn hex8 contents rsat canon deliver g W _ _ Wp)) Wp) in E1. discriminate.
  Qed.
  End Machine.
End Again.

(** ** the items are what the specification says *)
Section Layout.
  Variable hex8 : string -> string.
  Variable contents : resolution -> list (path * string).
  Variable rsat : range -> version -> bool.
  Variable canon : string -> option string.
  Variable deliver : pspec -> outcome -> Prop.
  Notation wf := (wf rsat canon deliver).
  Notation iinsts := (iinsts hex8 contents).
  Notation laid := (laid hex8 contents).
  Lemma wanted_laid g q e : wf g -> (Fs.wanted (iinsts g) q e <-> laid g q e).
  Proof.
    intros W. pose proof W as ((q0 & P0 & I) & Hg & Hn).
    assert (At : forall i, 0 < i < size g -> exists n, getn g i = Some n /\ pkg_at g (node_path g i) (pk_resolved (n_pkg n))).
    { intros i Hi. destruct (proj1 (getn_lt g i) ltac:(lia)) as [n Hgn]. exists n. split; [exact Hgn|]. exists i, n. split; [apply (at_path rsat canon deliver); auto; lia|]. split; [lia|auto]. }
    assert (To : forall p r, pkg_at g p r -> exists i, 0 < i < size g /\ home hex8 p = sloc (dir_name hex8 g i) [name_of g i] /\ package_files contents g i = contents r).
    { intros p r (i & n & Hi & Hne & Hgn & Hr). destruct (path_node rsat canon deliver g i p W Hi) as [Hlt ->]. exists i. assert (H : 0 < i < size g) by lia. split; [exact H|].
      split; [rewrite (home_loc hex8 rsat canon deliver g i W H); apply (pkg_dir_loc hex8 g Hn i H)|]. unfold package_files. now rewrite Hgn, Hr. }
    assert (Lk : forall i p x c pc, installed_at g i p -> depends g i x c -> installed_at g c pc -> deps_dir hex8 p ++ comps x = link_path hex8 g i x /\ diff_paths (home hex8 pc) (removelast (deps_dir hex8 p ++ comps x)) = link_text hex8 g i x c).
    { intros i p x c pc Hi D Hc. rewrite (look_dir hex8 rsat canon deliver g W i p x Hi). split; [reflexivity|]. destruct (path_node rsat canon deliver g c pc W Hc) as [_ ->].
      destruct (depends_lt rsat canon deliver g q0 P0 I _ _ _ D) as (_ & Hc' & _). now rewrite (home_loc hex8 rsat canon deliver g c W Hc'). }
    assert (It : forall p e', (exists x, In x (iinsts g) /\ In (p, e') (items x)) -> laid g p e').
    { intros p e' H. apply (iitem hex8 contents rsat canon deliver g q0 P0 I Hn) in H. destruct H as [[-> ->]|[(i & fl & Hi & -> & Hf)|(i & x & c & D & -> & ->)]].
      - constructor.
      - destruct (At i Hi) as (n & Hgn & Ha). rewrite <- (pkg_dir_loc hex8 g Hn i Hi), <- (home_loc hex8 rsat canon deliver g i W Hi). destruct Hf as [[-> ->]|(b & -> & Hf)].
        + rewrite app_nil_r. econstructor; eauto.
        + apply laid_file with (r := pk_resolved (n_pkg n)); [exact Ha|]. unfold package_files in Hf. now rewrite Hgn in Hf.
      - destruct (depends_lt rsat canon deliver g q0 P0 I _ _ _ D) as (Hl & Hc & _). assert (Hi : installed_at g i (node_path g i)) by (apply (at_path rsat canon deliver); auto).
        assert (Hcc : installed_at g c (node_path g c)) by (apply (at_path rsat canon deliver); auto; lia).
        destruct (Lk i _ x c _ Hi D Hcc) as [<- <-]. eapply laid_link; eauto. }
    split.
    - intros [H|(-> & x & p & e' & Hx & Hp & Ha)]; [now apply It|]. eapply laid_above; [apply It; eauto|exact Ha].
    - intros H. induction H as [p r H|p r f b H Hf|i p x c pc Hi D Hc| |q q' e H IH Ha].
      + destruct (To p r H) as (i & Hi & -> & E). left. apply (iitem hex8 contents rsat canon deliver g q0 P0 I Hn). right. left. exists i, []. rewrite app_nil_r. split; [exact Hi|]. split; [reflexivity|]. now left.
      + destruct (To p r H) as (i & Hi & -> & E). left. apply (iitem hex8 contents rsat canon deliver g q0 P0 I Hn). right. left. exists i, f. split; [exact Hi|]. split; [reflexivity|]. right. exists b. rewrite E. auto.
      + destruct (Lk i p x c pc Hi D Hc) as [-> ->]. left. apply (iitem hex8 contents rsat canon deliver g q0 P0 I Hn). right. right. eauto 8.
      + left. apply (iitem hex8 contents rsat canon deliver g q0 P0 I Hn). now left.
      + destruct IH as [(x & Hx & Ht)|(_ & x & p & e' & Hx & Ht & Ha')]; [exact (want_above _ x _ q Hx Ht Ha)|]. refine (want_above _ x (p, e') q Hx Ht _). eapply FsPad.above_trans; eauto.
  Qed.
End Layout.
