(** * Reading a registry's document: the reader against the document *)
From Verif Require Import Base Types StdPath JsonModel JsonSpec JsonRead JsonReadProofs JsonReadThms ResolverModel Kdl VersionModel VersionSpec VersionProofs ManifestRead ManifestProofs
  PackumentModel PackumentSpec JsonSpec.
Open Scope list_scope.
Open Scope string_scope.

Lemma jwf_field v k o : jwf v -> field v k = Some o -> jwf o.
Proof.
  intros W H. destruct v as [ | | | | |l]; try discriminate. cbn [field] in H. inversion W as [ | | | | |? Hn Hf]; subst.
  apply aget_In in H; [|apply seqb_spec]. rewrite Forall_forall in Hf. exact (Hf _ H).
Qed.
Lemma jwf_nodup l : jwf (JObj l) -> NoDup (map fst l).
Proof. intros W. inversion W; auto. Qed.

Section Proofs.
  Variable vparse : string -> option version.
  Variable uparse : string -> option string.
  Variable number : string -> option string.
  Variable rsat : range -> version -> bool.
  Variable canon : string -> option string.
  Variable is_any : range -> bool.
  Variable iparse : string -> option string.
  Variable default_tag : string.
  Variable at_base : string -> string.
  Hypothesis Hnum : forall s t, number s = Some t -> read_num t = Some (t, "") /\ number t = Some t.
  Notation read_entry := (read_entry vparse uparse).
  Notation read_versions := (read_versions vparse uparse).
  Notation read_tags := (read_tags vparse).
  Notation read_doc := (read_doc vparse uparse).
  Notation listed := (listed vparse).
  Notation lists := (lists vparse).
  Notation tag_in := (tag_in vparse).
  Notation vget := (aget version_eqb).
  Notation read_dist := (read_dist uparse).
  Notation corgi := (corgi (vparses vparse)).

  (** *** acceptance *)
  Lemma opt_text_ok o : (exists r, opt_text o = Some r) <-> text_or_null o.
  Proof.
    unfold text_or_null. split.
    - intros (r & H). destruct o as [[ | | | | | ]|]; try discriminate; eauto.
    - intros [->|[->|(s & ->)]]; cbn; eauto.
  Qed.
  Lemma opt_url_ok o : (exists r, opt_url uparse o = Some r) <-> o = None \/ o = Some JNull \/ exists s, o = Some (JStr s) /\ uparse s <> None.
  Proof.
    unfold opt_url. split.
    - intros (r & H). destruct o as [[ | | |s| | ]|]; try discriminate; eauto. cbn in H. destruct (uparse s) eqn:E; [|discriminate].
      right. right. exists s. split; [auto|congruence].
    - intros [->|[->|(s & -> & H)]]; cbn; eauto. destruct (uparse s); [cbn; eauto|congruence].
  Qed.
  Lemma dist_ok o : (exists r, read_dist o = Some r) <-> good_dist uparse o.
  Proof.
    unfold PackumentModel.read_dist, good_dist. split.
    - intros (r & H). destruct o as [[ | | | | |l]|]; try discriminate; [|auto]. right. exists l. split; [auto|].
      destruct (opt_text (sget "shasum" l)) eqn:E1; [|discriminate]. destruct (opt_url uparse (sget "tarball" l)) eqn:E2; [|discriminate].
      destruct (opt_text (sget "integrity" l)) eqn:E3; [|discriminate]. destruct (opt_text (sget "npm-signature" l)) eqn:E4; [|discriminate].
      split; [apply opt_text_ok; eauto|]. split; [apply opt_text_ok; eauto|]. split; [apply opt_text_ok; eauto|]. apply opt_url_ok. eauto.
    - intros [->|(l & -> & A & B & C & D)]; [eauto|]. apply opt_text_ok in A, B, C. apply opt_url_ok in D.
      destruct A as (a & ->), B as (b & ->), C as (c & ->), D as (d & ->). eauto.
  Qed.
  Lemma entry_ok e : (exists r, read_entry e = Some r) <-> good_entry vparse uparse e.
  Proof.
    unfold PackumentModel.read_entry, good_entry. destruct e as [ | | | | |l]; try (split; [intros (r & H); discriminate|intros (H & _); discriminate]).
    cbn [is_obj field]. split.
    - intros (r & H). destruct (corgi (JObj l)) as [m|] eqn:E1; [|discriminate]. destruct (read_dist (sget "dist" l)) as [[[t i] s]|] eqn:E2; [|discriminate].
      destruct (read_deprecated (sget "deprecated" l)) as [d|] eqn:E3; [|discriminate]. destruct (ok_bool (sget "_hasShrinkwrap" l)) eqn:E4; [|discriminate].
      destruct (proj1 (corgi_ok (vparses vparse) (JObj l)) (ex_intro _ m E1)) as (A & B & C). split; [auto|]. split; [exact B|]. split; [exact C|].
      split; [apply dist_ok; eauto|]. split.
      + destruct (sget "_hasShrinkwrap" l) as [[ | | | | | ]|]; try discriminate; eauto.
      + destruct (sget "deprecated" l) as [[ | | | | | ]|]; try discriminate; eauto.
    - intros (_ & B & C & D & E & F). destruct (proj2 (corgi_ok (vparses vparse) (JObj l)) (conj eq_refl (conj B C))) as (m & ->).
      apply dist_ok in D. destruct D as ([[t i] s] & ->).
      assert (ok_bool (sget "_hasShrinkwrap" l) = true) as -> by (destruct E as [->|[->|(b & ->)]]; reflexivity).
      destruct F as [->|[(s' & ->)|(b & ->)]]; cbn [read_deprecated]; eauto.
  Qed.
  Lemma versions_ok l : forall acc, (exists r, read_versions acc l = Some r) <-> forall k e, In (k, e) l -> vparse k <> None /\ good_entry vparse uparse e.
  Proof.
    induction l as [|[k e] l IH]; intros acc; cbn [PackumentModel.read_versions]; [split; [intros _ k e []|eauto]|]. split.
    - intros (r & H). destruct (vparse k) as [x|] eqn:Ek; [|discriminate]. destruct (read_entry e) as [ve|] eqn:Ee; [|discriminate].
      intros k' e' [H'|H']; [|eapply IH; eauto]. injection H' as <- <-. split; [congruence|]. apply entry_ok. eauto.
    - intros H. destruct (H k e (or_introl eq_refl)) as (A & B). destruct (vparse k) as [x|]; [|congruence]. apply entry_ok in B. destruct B as (ve & ->).
      apply IH. intros k' e' H'. apply H. now right.
  Qed.
  Lemma tags_ok l : (exists r, read_tags l = Some r) <-> forall k e, In (k, e) l -> exists s, e = JStr s /\ vparse s <> None.
  Proof.
    induction l as [|[k e] l IH]; cbn [PackumentModel.read_tags]; [split; [intros _ k e []|eauto]|]. destruct IH as [A B]. split.
    - intros (r & H). destruct e as [ | | |s| | ]; try discriminate. destruct (vparse s) as [x|] eqn:Es; [|discriminate].
      destruct (read_tags l) as [r'|]; [|discriminate]. intros k' e' [H'|H']; [|eapply A; eauto]. injection H' as <- <-. exists s. split; [auto|congruence].
    - intros H. destruct (H k e (or_introl eq_refl)) as (s & -> & Hs). destruct (vparse s) as [x|]; [|congruence].
      destruct B as (r & ->); [|cbn; eauto]. intros k' e' H'. apply (H k' e'). now right.
  Qed.
  Lemma doc_ok v : (exists d, read_doc v = Some d) <-> good_document vparse uparse v.
  Proof.
    unfold PackumentModel.read_doc, good_document. destruct v as [ | | | | |l]; try (split; [intros (r & H); discriminate|intros (H & _); discriminate]).
    cbn [is_obj field]. split.
    - intros (d & H). split; [auto|].
      destruct (match sget "versions" l with None => Some [] | Some (JObj vs) => read_versions [] vs | _ => None end) as [vs|] eqn:E1; [|discriminate].
      destruct (match sget "dist-tags" l with None => Some [] | Some (JObj vs) => read_tags vs | _ => None end) as [ts|] eqn:E2; [|discriminate].
      split.
      + destruct (sget "versions" l) as [[ | | | | |lv]|]; try discriminate; [|auto]. right. exists lv. split; [auto|]. apply (versions_ok lv []). eauto.
      + destruct (sget "dist-tags" l) as [[ | | | | |lv]|]; try discriminate; [|auto]. right. exists lv. split; [auto|]. apply (tags_ok lv). eauto.
    - intros (_ & A & B).
      assert (exists vs, match sget "versions" l with None => Some [] | Some (JObj vs) => read_versions [] vs | _ => None end = Some vs) as (vs & ->).
      { destruct A as [->|(lv & -> & A)]; [eauto|]. now apply versions_ok. }
      assert (exists ts, match sget "dist-tags" l with None => Some [] | Some (JObj vs) => read_tags vs | _ => None end = Some ts) as (ts & ->).
      { destruct B as [->|(lv & -> & B)]; [eauto|]. now apply tags_ok. }
      eauto.
  Qed.

  (** *** what was read *)
  Lemma versions_get l : forall acc r x e, read_versions acc l = Some r -> vget x r = Some e ->
    vget x acc = Some e \/ exists k o, In (k, o) l /\ vparse k = Some x /\ read_entry o = Some e.
  Proof.
    induction l as [|[k o] l IH]; intros acc r x e H G; cbn [PackumentModel.read_versions] in H; [injection H as <-; auto|].
    destruct (vparse k) as [y|] eqn:Ek; [|discriminate]. destruct (read_entry o) as [ve|] eqn:Eo; [|discriminate].
    destruct (IH _ _ _ _ H G) as [G'|(k' & o' & A & B & C)]; [|right; exists k', o'; split; [now right|auto]].
    destruct (version_eqb x y) eqn:E.
    - apply version_eqb_spec in E. subst y. rewrite aget_aput_eq in G' by apply version_eqb_spec. injection G' as <-. right. exists k, o. split; [now left|auto].
    - left. rewrite aget_aput_neq in G' by (try apply version_eqb_spec; intros ->; rewrite (proj2 (version_eqb_spec y y) eq_refl) in E; discriminate). exact G'.
  Qed.
  Lemma versions_keeps l : forall acc r x, read_versions acc l = Some r -> (vget x acc <> None \/ exists k o, In (k, o) l /\ vparse k = Some x) -> vget x r <> None.
  Proof.
    induction l as [|[k o] l IH]; intros acc r x H G; cbn [PackumentModel.read_versions] in H.
    - injection H as <-. destruct G as [G|(k & o & [] & _)]. exact G.
    - destruct (vparse k) as [y|] eqn:Ek; [|discriminate]. destruct (read_entry o) as [ve|] eqn:Eo; [|discriminate].
      apply (IH _ _ _ H). destruct (version_eqb x y) eqn:E.
      + apply version_eqb_spec in E. subst y. left. rewrite aget_aput_eq by apply version_eqb_spec. discriminate.
      + assert (x <> y) by (intros ->; rewrite (proj2 (version_eqb_spec y y) eq_refl) in E; discriminate).
        rewrite aget_aput_neq by (auto using version_eqb_spec; apply version_eqb_spec). destruct G as [G|(k' & o' & [G|G] & P)]; [auto| |right; eauto].
        injection G as <- <-. congruence.
  Qed.
  Lemma tags_get l : forall r t, read_tags l = Some r -> sget t r = match sget t l with Some (JStr s) => vparse s | _ => None end.
  Proof.
    induction l as [|[k o] l IH]; intros r t H; cbn [PackumentModel.read_tags] in H; [injection H as <-; reflexivity|].
    destruct o as [ | | |s| | ]; try discriminate. destruct (vparse s) as [x|] eqn:Es; [|discriminate].
    destruct (read_tags l) as [r'|]; [|discriminate]. cbn in H. injection H as <-. cbn [aget]. destruct (String.eqb t k); [auto|]. now apply IH.
  Qed.

  Section Doc.
    Variables (v : json) (d : document).
    Hypothesis W : jwf v.
    Hypothesis R : read_doc v = Some d.
    Lemma doc_get x e : vget x (dc_versions d) = Some e -> exists o, listed v x o /\ read_entry o = Some e.
    Proof.
      intros G. pose proof R as H. unfold PackumentModel.read_doc in H. destruct v as [ | | | | |l]; try discriminate.
      destruct (match sget "versions" l with None => Some [] | Some (JObj vs) => read_versions [] vs | _ => None end) as [vs|] eqn:E1; [|discriminate].
      destruct (match sget "dist-tags" l with None => Some [] | Some (JObj vs) => read_tags vs | _ => None end) as [ts|] eqn:E2; [|discriminate].
      injection H as <-. cbn [dc_versions] in G. destruct (sget "versions" l) as [[ | | | | |lv]|] eqn:El; try discriminate E1.
      - destruct (versions_get _ _ _ _ _ E1 G) as [G'|(k & o & A & B & C)]; [discriminate|]. exists o. split; [|exact C]. exists (JObj lv), k.
        split; [exact El|]. split; [|exact B]. cbn [field]. apply In_aget; [apply seqb_spec| |exact A]. apply jwf_nodup. eapply jwf_field; [exact W|]. exact El.
      - injection E1 as <-. discriminate.
    Qed.
    Lemma doc_lists x : lists v x <-> exists e, vget x (dc_versions d) = Some e.
    Proof.
      split.
      - intros (o & vs0 & k & A & B & C). pose proof R as H. unfold PackumentModel.read_doc in H. destruct v as [ | | | | |l]; try discriminate. cbn [field] in A. rewrite A in H.
        destruct vs0 as [ | | | | |lv]; try discriminate. destruct (read_versions [] lv) as [vs|] eqn:E1; [|discriminate].
        destruct (match sget "dist-tags" l with None => Some [] | Some (JObj vs) => read_tags vs | _ => None end) as [ts|] eqn:E2; [|discriminate].
        injection H as <-. cbn [dc_versions]. cbn [field] in B. apply aget_In in B; [|apply seqb_spec].
        assert (vget x vs <> None) as N by (eapply versions_keeps; [exact E1|right; eauto]). destruct (vget x vs); [eauto|congruence].
      - intros (e & G). destruct (doc_get _ _ G) as (o & L & _). exists o. exact L.
    Qed.
    Lemma doc_tag t x : tag_in v t x <-> sget t (dc_tags d) = Some x.
    Proof.
      pose proof R as H. unfold PackumentModel.read_doc in H. unfold PackumentSpec.tag_in. destruct v as [ | | | | |l]; try discriminate. cbn [field].
      destruct (match sget "versions" l with None => Some [] | Some (JObj vs) => read_versions [] vs | _ => None end) as [vs|] eqn:E1; [|discriminate].
      destruct (match sget "dist-tags" l with None => Some [] | Some (JObj vs) => read_tags vs | _ => None end) as [ts|] eqn:E2; [|discriminate].
      injection H as <-. cbn [dc_tags]. destruct (sget "dist-tags" l) as [[ | | | | |lt]|] eqn:El; try discriminate E2.
      - rewrite (tags_get _ _ t E2). split.
        + intros (ts0 & s & A & B & C). injection A as <-. cbn [field] in B. rewrite B. exact C.
        + intros H. destruct (sget t lt) as [[ | | |s| | ]|] eqn:Et; try discriminate. exists (JObj lt), s. auto.
      - injection E2 as <-. split; [intros (ts0 & s & A & _); discriminate|discriminate].
    Qed.
    Lemma pack_published x : published (pack d) x <-> lists v x.
    Proof.
      rewrite doc_lists. unfold published, pack. cbn [pt_versions]. rewrite map_map. cbn [fst]. split.
      - intros H. destruct (vget x (dc_versions d)) as [e|] eqn:E; [eauto|]. apply aget_None in E; [contradiction|apply version_eqb_spec].
      - intros (e & H). apply aget_In in H; [|apply version_eqb_spec]. apply (in_map fst) in H. exact H.
    Qed.
    Lemma pack_chosen req x : chosen rsat is_any default_tag req (pack d) x <-> best vparse rsat is_any default_tag req v x.
    Proof.
      assert (T : forall t y, tagged (pack d) t y <-> tag_in v t y) by (intros t y; symmetry; apply doc_tag).
      assert (D : forall r y, default_in rsat default_tag (pack d) r y <-> default_ok vparse rsat default_tag v r y).
      { intros r y. unfold default_in, default_ok. rewrite T, pack_published. reflexivity. }
      assert (N : forall r, none_in_range rsat (pack d) r <-> forall y, lists v y -> rsat r y = false).
      { intros r. unfold none_in_range. split; intros H y Hy; apply H; apply pack_published; exact Hy. }
      unfold chosen, best. rewrite pack_published. destruct req as [[t|w|r]|].
      - rewrite T. reflexivity.
      - reflexivity.
      - rewrite D, N, T. unfold highest. rewrite pack_published. split.
        + intros (L & [H|[(A & _ & B & C)|H]]); split; auto. right. left. split; [intros y Hy; apply D in Hy; exact (A y Hy)|]. split; [auto|].
          intros y Hy. apply C. now apply pack_published.
        + intros (L & [H|[(A & B & C)|H]]); split; auto. right. left. split; [intros y Hy; apply D in Hy; exact (A y Hy)|]. split; [auto|]. split; [auto|].
          intros y Hy. apply C. now apply pack_published.
      - rewrite T. reflexivity.
    Qed.
  End Doc.

  (** what the reader takes from an entry *)
  Lemma opt_text_is o r : opt_text o = Some r -> r = match o with Some (JStr s) => Some s | _ => None end.
  Proof. destruct o as [[ | | | | | ]|]; intros H; try discriminate; injection H as <-; reflexivity. Qed.
  Lemma entry_says o e : read_entry o = Some e ->
    corgi o = Some (ve_manifest e)
    /\ vm_version (ve_meta e) = (match text_of o "version" with Some s => vparse s | None => None end)
    /\ (forall url, vm_tarball (ve_meta e) = Some url <-> offers_tarball uparse o url)
    /\ vm_integrity (ve_meta e) = dist_text o "integrity" /\ vm_shasum (ve_meta e) = dist_text o "shasum"
    /\ (ve_named e = true <-> exists s, text_of o "name" = Some s)
    /\ (ve_deprecated e = true <-> exists j, field o "deprecated" = Some j /\ j <> JBool false).
  Proof.
    unfold PackumentModel.read_entry. destruct o as [ | | | | |l]; try discriminate. intros H.
    destruct (corgi (JObj l)) as [m|] eqn:E1; [|discriminate]. destruct (read_dist (sget "dist" l)) as [[[t i] s]|] eqn:E2; [|discriminate].
    destruct (read_deprecated (sget "deprecated" l)) as [dd|] eqn:E3; [|discriminate]. destruct (ok_bool _); [|discriminate]. injection H as <-.
    cbn [ve_meta ve_manifest ve_named ve_deprecated vm_version vm_tarball vm_integrity vm_shasum]. split; [reflexivity|].
    split; [unfold own_version, text_of; cbn [field]; destruct (sget "version" l) as [[ | | | | | ]|]; reflexivity|].
    assert (Hd : (forall url, t = Some url <-> offers_tarball uparse (JObj l) url) /\ i = dist_text (JObj l) "integrity" /\ s = dist_text (JObj l) "shasum").
    { unfold offers_tarball, dist_text, PackumentModel.read_dist, text_of in *. cbn [field]. destruct (sget "dist" l) as [[ | | | | |ld]|]; try discriminate.
      - destruct (opt_text (sget "shasum" ld)) as [a|] eqn:A; [|discriminate]. destruct (opt_url uparse (sget "tarball" ld)) as [b|] eqn:B; [|discriminate].
        destruct (opt_text (sget "integrity" ld)) as [c|] eqn:C; [|discriminate]. destruct (opt_text (sget "npm-signature" ld)); [|discriminate].
        injection E2 as <- <- <-. cbn [field]. split; [|split; now apply opt_text_is]. unfold opt_url in B. intros url.
        destruct (sget "tarball" ld) as [[ | | |st| | ]|]; cbn in B; try discriminate; try (injection B as <-; split; [discriminate|intros (? & X & _); discriminate]).
        destruct (uparse st) as [u|] eqn:Eu; [|discriminate]. injection B as <-. split.
        + intros X. injection X as <-. exists st. auto.
        + intros (s0 & X & Y). injection X as <-. congruence.
      - injection E2 as <- <- <-. split; [|auto]. intros url. split; [discriminate|intros (? & X & _); discriminate]. }
    destruct Hd as (D1 & D2 & D3). split; [exact D1|]. split; [exact D2|]. split; [exact D3|]. split.
    - unfold text_of. cbn [field]. destruct (sget "name" l) as [[ | | |n| | ]|]; split; eauto; try discriminate; intros (? & X); discriminate.
    - cbn [field]. destruct (sget "deprecated" l) as [[ |b| |n| | ]|]; cbn in E3; try discriminate; injection E3 as <-.
      + split; [intros ->; eexists; split; [reflexivity|discriminate]|]. intros (j & X & Y). injection X as <-. destruct b; congruence.
      + split; [intros _; eexists; split; [reflexivity|discriminate]|auto].
      + split; [discriminate|intros (j & X & _); discriminate].
  Qed.

  Notation gres := (get_resolution rsat canon is_any iparse default_tag at_base).
  Lemma vget_pack x (d : document) : vget x (pt_versions (pack d)) = option_map ve_meta (vget x (dc_versions d)).
  Proof. unfold pack. cbn [pt_versions]. induction (dc_versions d) as [|[y e] l IH]; [reflexivity|]. cbn [map aget fst snd]. destruct (version_eqb x y); [reflexivity|exact IH]. Qed.

  (** what is taken from the first document *)
  Lemma first_doc v d name sp sc nm req r : jwf v -> read_doc v = Some d -> target sp = SNpm sc nm req -> gres name sp (pack d) = Ok r ->
    exists x e ver url integ, best vparse rsat is_any default_tag req v x /\ listed v x e /\ r = RNpm name ver url integ
      /\ offers_tarball uparse e url /\ offers_integrity iparse e integ
      /\ (states vparse e ver \/ (forall s, text_of e "version" <> Some s) /\ ver = mkV 0 0 0 []).
  Proof.
    intros W R T G. rewrite (get_resolution_npm rsat canon is_any iparse default_tag at_base _ _ _ _ _ _ T) in G.
    destruct (effective (pack d) _) as [x|] eqn:Ex; [|discriminate]. apply pick_chosen in Ex. rewrite (pack_chosen v d W R) in Ex.
    rewrite vget_pack in G. destruct (vget x (dc_versions d)) as [e|] eqn:Ev; [|discriminate]. cbn [option_map] in G.
    destruct (doc_get v d W R _ _ Ev) as (o & L & Ho). destruct (entry_says _ _ Ho) as (Hc & Hv & Ht & Hi & Hs & _).
    assert (Hver : forall ver, ver = match vm_version (ve_meta e) with Some x => x | None => mkV 0 0 0 [] end -> states vparse o ver \/ (forall s, text_of o "version" <> Some s) /\ ver = mkV 0 0 0 []).
    { intros ver ->. rewrite Hv. unfold states. destruct (text_of o "version") as [s|] eqn:Es.
      - left. exists s. split; [auto|].
        destruct (proj1 (corgi_ok (vparses vparse) o) (ex_intro _ _ Hc)) as (_ & (_ & Hvv & _) & _). unfold text_of in Es.
        destruct Hvv as [X|[X|(s' & X & Y)]]; rewrite X in Es; try discriminate. injection Es as <-. unfold vparses in Y. destruct (vparse s'); [reflexivity|discriminate].
      - right. split; [discriminate|reflexivity]. }
    unfold finish in G. destruct (vm_tarball (ve_meta e)) as [url|] eqn:Et; [|discriminate]. pose proof (proj1 (Ht url) eq_refl) as Eo. rewrite Hi, Hs in G.
    unfold offers_integrity. exists x, o.
    destruct (dist_text o "integrity") as [i|].
    - destruct (iparse i) as [j|] eqn:Ej; [|discriminate]. injection G as <-. eexists. exists url, (Some j). repeat split; auto; [apply Ex|apply Ex|discriminate].
    - destruct (dist_text o "shasum") as [h|].
      + destruct (iparse ("sha1-" ++ h)) as [j|] eqn:Ej; [|discriminate]. injection G as <-. eexists. exists url, (Some j). repeat split; auto; [apply Ex|apply Ex|discriminate].
      + injection G as <-. eexists. exists url, None. repeat split; auto; apply Ex.
  Qed.
End Proofs.
