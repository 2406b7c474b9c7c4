(** * Applying a tree that is already installed touches nothing (C59) *)
From Verif Require Import Base Types ResolverModel ResolverProofs ResolverSpec LockfileModel LockfileProofs LockfileGraph PathLookup Fs
  HoistedModel HoistedSpec HoistedProofs HoistedThms.
Open Scope string_scope.
Open Scope list_scope.

(** node_modules holds tree [g]: everything [g] needs is there; what else is there belongs to .bin or is inside the directory
    of a package of [g] (files made by install scripts) *)
Definition holds (contents : resolution -> list (path * string)) (g : graph) (f : fs) : Prop :=
  (forall q e, tree_entry contents g q e -> f q = Some e)
  /\ forall q, prefix ["node_modules"] q -> f q <> None ->
       (exists e, tree_entry contents g q e) \/ prefix ["node_modules"; ".bin"] q
       \/ exists names r more, pkg_at g names r /\ q = disk names ++ more.

Section Again.
  Variable requested : pspec -> string.
  Variable gitshow : gitinfo -> string.
  Variable contents : resolution -> list (path * string).
  Notation hsteps := (hsteps requested gitshow contents).
  Notation META := (list (string * lnode)).
  Variable rsat : range -> version -> bool.
  Variable canon : string -> option string.
  Variable deliver : pspec -> outcome -> Prop.
  Variables (g : graph) (q0 : list nat) (P0 : list dep).
  Hypothesis I : GInv rsat canon deliver g q0 P0.
  Hypothesis Hg : good_graph g.
  Variables (f : fs) (a lock : META).
  Hypothesis Hf : holds contents g f.
  Hypothesis Hstore : f ["node_modules"; store_name] = None.
  Hypothesis Hsame : forall x i, plain x -> installed_at g i [x] -> same_entry requested gitshow a g x.

  Lemma at_ne names r : pkg_at g names r -> names <> [].
  Proof. intros (i & n & Hi & Hne & _) ->. apply Hne. eapply installed_inj; [exact Hi | constructor]. Qed.

  Lemma top_plain x t r : pkg_at g (x :: t) r -> exists i, installed_at g i [x].
  Proof.
    intros (i & n & Hi & _). assert (G : forall i path, installed_at g i path -> forall y u, path = y :: u -> exists j, installed_at g j [y]).
    { clear. induction 1 as [|p path z c H IH Hc]; intros y u E; [discriminate|]. destruct path as [|b path].
      - injection E as <- _. exists c. change [z] with ([] ++ [z]). econstructor; eauto.
      - injection E as <- _. eapply IH; reflexivity. }
    eapply G; eauto.
  Qed.

  (** nothing that exists is to be deleted *)
  Lemma not_doomed names r more d : pkg_at g names r -> prefix d (disk names ++ more) -> doomed_old requested gitshow a g d = false.
  Proof.
    intros Hat Hd. destruct (doomed_old requested gitshow a g d) eqn:E; [exfalso|reflexivity].
    pose proof (at_ne _ _ Hat) as Hne. destruct names as [|x t]; [congruence|].
    assert (Gx : good_name x). { destruct Hat as (i & n & Hi & _). pose proof (installed_good g Hg _ _ Hi) as H. now inversion H. }
    destruct (doomed_old_shape requested gitshow g a d E) as (pre & y & -> & Hsp).
    rewrite disk_cons in Hd. destruct Hd as [z Hz]. injection Hz as Hz. rewrite <- !app_assoc in Hz.
    destruct Gx as [Hx|(s & m & -> & Hs & Hfs & Hm)].
    - rewrite comps_plain in Hz by now apply plain_no_slash. destruct pre as [|b pre]; injection Hz as <- Hz.
      + destruct (top_plain x t r Hat) as [i Hi].
        unfold doomed_old in E. cbn [app rev] in E.
        rewrite (proj2 (keeps_spec requested gitshow rsat canon deliver g q0 P0 I a x Hx) (Hsame x i Hx Hi)) in E.
        rewrite andb_false_r in E. discriminate.
      + cbn in Hsp. rewrite (plain_special _ Hx) in Hsp. discriminate.
    - rewrite comps_scoped in Hz by (auto; now apply plain_no_slash). cbn [app] in Hz.
      destruct pre as [|b [|c pre]]; cbn [app] in Hz; injection Hz; intros; subst.
      + unfold doomed_old in E. cbn in E. rewrite ?andb_false_r in E. discriminate.
      + unfold doomed_old in E. cbn [app rev forallb] in E. cbn in E. discriminate.
      + cbn in Hsp. rewrite (plain_special _ Hm), ?andb_false_r in Hsp. discriminate.
  Qed.
  Lemma nothing_condemned q : f q <> None -> ~ condemned (doomed requested gitshow f (Some a) g) q.
  Proof.
    intros Hq (d & Hd & Hp). pose proof (doomed_shape requested gitshow g _ _ _ Hd) as (pre & y & Ed & Hsp).
    assert (Hold : doomed_old requested gitshow a g d = true).
    { unfold doomed, wipes in Hd. rewrite Hstore in Hd. exact Hd. }
    assert (Hnm : prefix ["node_modules"] q) by (eapply prefix_trans; [|exact Hp]; rewrite Ed; eexists; reflexivity).
    assert (H1 : forall names r more, pkg_at g names r -> q = disk names ++ more -> False).
    { intros names r more Hat ->. rewrite (not_doomed names r more d Hat Hp) in Hold. discriminate. }
    destruct (proj2 Hf q Hnm Hq) as [(e & He)|[[z ->]|(names & r & more & Hat & Eq)]]; [|clear H1|eauto].
    - destruct He as [|names r q' Hat Hne Hpq|names r f0 b Hat Hb|names r f0 b f' Hat Hb Hp' Hne]; eauto.
      + rewrite Ed in Hp. destruct Hp as [z Hz]. injection Hz as Hz. destruct pre; discriminate.
      + rewrite (not_doomed names r [] d Hat) in Hold; [discriminate|]. rewrite app_nil_r. eapply prefix_trans; eauto.
    - rewrite Ed in Hp. destruct Hp as [z' Hz]. injection Hz as Hz. rewrite <- app_assoc in Hz. destruct pre as [|b pre]; injection Hz as <- Hz.
      + rewrite Ed in Hold. unfold doomed_old in Hold. cbn in Hold. discriminate.
      + cbn in Hsp. discriminate.
  Qed.

  Definition quiet (p : phase) : Prop :=
    match p with
    | Extracting next live => (exists pre, hinsts contents g = pre ++ next) /\ forall t, In t (concat live) -> t = (["node_modules"], EDir)
    | _ => True
    end.
  Lemma untouched w : hsteps f (Some a) g lock w -> (forall q, w_fs _ w q = f q) /\ quiet (w_phase _ w) /\ (w_phase _ w = Done -> w_meta _ w = Some lock).
  Proof.
    unfold HoistedModel.hsteps. set (w0 := mkW META f (Some a) Pruning).
    assert (Hw : wipes f (Some a) = false) by (cbn; now rewrite Hstore).
    intros S. induction S as [|w1 w2 S IH St].
    - split; [reflexivity|]. split; [exact Logic.I|]. intros D. discriminate D.
    - destruct IH as (IH & Q & _).
      assert (Hnm : f ["node_modules"] = Some EDir) by (apply (proj1 Hf); constructor).
      inversion St; subst; cbn [w_fs w_phase w_meta quiet] in *.
      + exfalso. apply (nothing_condemned p); [|assumption]. rewrite <- IH. assumption.
      + congruence.
      + split; [exact IH|]. split; [|intros D; discriminate D]. split; [exists []; reflexivity|]. intros t [].
      + split; [exact IH|]. split; [|intros D; discriminate D]. destruct Q as [[pre Epre] Ql]. split; [exists (pre ++ [i]); rewrite <- app_assoc; exact Epre|].
        cbn [concat]. intros t Ht. apply in_app_iff in Ht. destruct Ht as [Ht|Ht]; [|auto].
        assert (Hin : In i (hinsts contents g)) by (rewrite Epre; apply in_app_iff; right; now left).
        apply hinsts_in in Hin. destruct Hin as [->|(j & Hj & ->)]; cbn in Ht.
        * destruct Ht as [<-|[]]. reflexivity.
        * destruct (proj1 (getn_lt g j) ltac:(lia)) as [n Hn].
          assert (He : f (disk (node_path g j)) = Some EDir).
          { apply (proj1 Hf). apply te_dir with (names := node_path g j) (r := pk_resolved (n_pkg n)); [|apply disk_nil; [eapply node_names; eauto; lia | eapply node_ne; eauto; lia]|apply prefix_refl].
            exists j, n. split; [eapply installed_all; eauto; lia|]. split; [lia|auto]. }
          rewrite IH, He in Ht. destruct Ht.
      + split; [|split; [|intros D; discriminate D]].
        * assert (E : (p, e) = (["node_modules"], EDir)) by (apply Q; apply in_concat_mid; right; left; now left). injection E as -> ->.
          intros q. unfold put. destruct (path_eq_dec q ["node_modules"]) as [->|Hne]; [rewrite IH, Hnm; reflexivity|].
          destruct (aboveb q ["node_modules"]) eqn:Eab; [exfalso|apply IH]. apply aboveb_spec in Eab. destruct Eab as ([z Hz] & _ & Hne2).
          destruct q as [|b q]; [congruence|]. injection Hz as <- Hz. symmetry in Hz. apply app_eq_nil in Hz. destruct Hz as [-> _]. congruence.
        * split; [apply Q|]. intros t Ht. apply (proj2 Q). apply in_concat_mid in Ht. apply in_concat_mid. cbn. tauto.
      + exfalso. assert (E : (p, EFile b) = (["node_modules"], EDir)) by (apply (proj2 Q); apply in_concat_mid; right; left; now left). discriminate E.
      + split; [exact IH|]. split; [exact Q|]. intros D; discriminate D.
      + split; [exact IH|]. split; [exact Logic.I|reflexivity].
  Qed.
End Again.
