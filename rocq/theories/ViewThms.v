(** * oro view: the full document *)
From Verif Require Import Base Types StdPath JsonModel JsonSpec JsonRead JsonReadProofs JsonReadThms ResolverModel Kdl VersionModel VersionSpec VersionProofs ManifestRead ManifestProofs
  PackumentModel PackumentSpec PackumentProofs ViewModel ViewSpec ViewProofs ViewEntry ViewShow JsonSpec.
From Coq Require Import Permutation Sorted.
Open Scope string_scope.
Open Scope list_scope.

Section Full.
  Variable vparse : string -> option version.
  Variable vshow : version -> string.
  Variable rnorm : string -> option string.
  Variable uparse : string -> option string.
  Variable is_count : string -> bool.
  Notation read_metadata := (read_metadata vparse vshow rnorm uparse is_count).
  Notation read_versions := (read_versions_full vparse vshow rnorm uparse is_count).
  Notation read_doc := (read_full_doc vparse vshow rnorm uparse is_count).
  Notation good_entry := (good_full_entry vparse uparse is_count).
  Notation listed := (listed vparse).
  Notation vget := (aget version_eqb).

  Lemma entry_full_ok e : jwf e -> (exists r, read_metadata e = Some r) <-> good_entry e.
  Proof.
    intros W. destruct e as [ | | | | |l]; try (split; [intros (r & H); discriminate|intros (H & _); discriminate]).
    apply metadata_ok; [now apply jwf_nodup|]. intros d Hd. apply jwf_nodup. eapply jwf_field; [exact W|exact Hd].
  Qed.
  Lemma versions_full_ok l : (forall k e, In (k, e) l -> jwf e) -> forall acc, (exists r, read_versions acc l = Some r) <-> forall k e, In (k, e) l -> vparse k <> None /\ good_entry e.
  Proof.
    induction l as [|[k e] l IH]; intros W acc; cbn [ViewModel.read_versions_full]; [split; [intros _ k e []|eauto]|].
    assert (We := W k e (or_introl eq_refl)). specialize (IH (fun k e I => W k e (or_intror I))). split.
    - intros (r & H). destruct (vparse k) as [x|] eqn:Ek; [|discriminate]. destruct (read_metadata e) as [ve|] eqn:Ee; [|discriminate].
      intros k' e' [H'|H']; [|eapply IH; eauto]. injection H' as <- <-. split; [congruence|]. apply (entry_full_ok e We). eauto.
    - intros H. destruct (H k e (or_introl eq_refl)) as (A & B). destruct (vparse k) as [x|]; [|congruence]. apply (entry_full_ok e We) in B. destruct B as (ve & ->).
      apply IH. intros k' e' H'. apply H. now right.
  Qed.
  Lemma texts_ok_text l : (exists r, texts l = Some r) <-> forall k e, In (k, e) l -> is_text e.
  Proof.
    induction l as [|[k e] l IH]; cbn [texts]; [split; [intros _ k e []|eauto]|]. unfold is_text in *. split.
    - intros (r & H). destruct e as [ | | |s| | ]; try discriminate. destruct (texts l) as [r'|]; [|discriminate]. intros k' e' [H'|H']; [|eapply IH; eauto]. injection H' as <- <-. eauto.
    - intros H. destruct (H k e (or_introl eq_refl)) as (s & ->). destruct (proj2 IH (fun k e I => H k e (or_intror I))) as (r & ->). cbn. eauto.
  Qed.
  Lemma full_doc_ok v : jwf v -> (exists d, read_doc v = Some d) <-> good_full_document vparse uparse is_count v.
  Proof.
    intros W. unfold ViewModel.read_full_doc, good_full_document. destruct v as [ | | | | |l]; try (split; [intros (r & H); discriminate|intros (H & _); discriminate]).
    cbn [is_obj field].
    assert (Wv : forall lv, sget "versions" l = Some (JObj lv) -> forall k e, In (k, e) lv -> jwf e).
    { intros lv Hl k e I. assert (Wl : jwf (JObj lv)) by (eapply jwf_field; [exact W|exact Hl]). inversion Wl as [ | | | | |? Hn Hf]; subst. rewrite Forall_forall in Hf. exact (Hf _ I). }
    split.
    - intros (d & H). split; [auto|].
      destruct (match sget "versions" l with None => Some [] | Some (JObj vs) => read_versions [] vs | _ => None end) as [vs|] eqn:E1; [|discriminate].
      destruct (match sget "dist-tags" l with None => Some [] | Some (JObj vs) => PackumentModel.read_tags vparse vs | _ => None end) as [ts|] eqn:E2; [|discriminate].
      destruct (match sget "time" l with None => Some [] | Some (JObj vs) => texts vs | _ => None end) as [tm|] eqn:E3; [|discriminate].
      split; [|split].
      + destruct (sget "versions" l) as [[ | | | | |lv]|]; try discriminate; [|auto]. right. exists lv. split; [auto|]. apply (versions_full_ok lv (Wv lv eq_refl) []). eauto.
      + destruct (sget "dist-tags" l) as [[ | | | | |lv]|]; try discriminate; [|auto]. right. exists lv. split; [auto|]. apply (tags_ok vparse lv). eauto.
      + destruct (sget "time" l) as [[ | | | | |lv]|]; try discriminate; [|auto]. right. exists lv. split; [auto|]. apply (texts_ok_text lv). eauto.
    - intros (_ & A & B & C).
      assert (exists vs, match sget "versions" l with None => Some [] | Some (JObj vs) => read_versions [] vs | _ => None end = Some vs) as (vs & ->).
      { destruct A as [->|(lv & El & A)]; [eauto|]. rewrite El. now apply (versions_full_ok lv (Wv lv El)). }
      assert (exists ts, match sget "dist-tags" l with None => Some [] | Some (JObj vs) => PackumentModel.read_tags vparse vs | _ => None end = Some ts) as (ts & ->).
      { destruct B as [->|(lv & -> & B)]; [eauto|]. now apply tags_ok. }
      assert (exists ts, match sget "time" l with None => Some [] | Some (JObj vs) => texts vs | _ => None end = Some ts) as (tm & ->).
      { destruct C as [->|(lv & -> & C)]; [eauto|]. now apply texts_ok_text. }
      eauto.
  Qed.

  Lemma versions_full_get l : forall acc r x e, read_versions acc l = Some r -> vget x r = Some e ->
    vget x acc = Some e \/ exists k o, In (k, o) l /\ vparse k = Some x /\ read_metadata o = Some e.
  Proof.
    induction l as [|[k o] l IH]; intros acc r x e H G; cbn [ViewModel.read_versions_full] in H; [injection H as <-; auto|].
    destruct (vparse k) as [y|] eqn:Ek; [|discriminate]. destruct (read_metadata o) as [ve|] eqn:Eo; [|discriminate].
    destruct (IH _ _ _ _ H G) as [G'|(k' & o' & A & B & C)]; [|right; exists k', o'; split; [now right|auto]].
    destruct (version_eqb x y) eqn:E.
    - apply version_eqb_spec in E. subst y. rewrite aget_aput_eq in G' by apply version_eqb_spec. injection G' as <-. right. exists k, o. split; [now left|auto].
    - left. rewrite aget_aput_neq in G' by (try apply version_eqb_spec; intros ->; rewrite (proj2 (version_eqb_spec y y) eq_refl) in E; discriminate). exact G'.
  Qed.
  Lemma versions_full_keeps l : forall acc r x, read_versions acc l = Some r -> (vget x acc <> None \/ exists k o, In (k, o) l /\ vparse k = Some x) -> vget x r <> None.
  Proof.
    induction l as [|[k o] l IH]; intros acc r x H G; cbn [ViewModel.read_versions_full] in H.
    - injection H as <-. destruct G as [G|(k & o & [] & _)]. exact G.
    - destruct (vparse k) as [y|] eqn:Ek; [|discriminate]. destruct (read_metadata o) as [ve|] eqn:Eo; [|discriminate].
      apply (IH _ _ _ H). destruct (version_eqb x y) eqn:E.
      + apply version_eqb_spec in E. subst y. left. rewrite aget_aput_eq by apply version_eqb_spec. discriminate.
      + assert (x <> y) by (intros ->; rewrite (proj2 (version_eqb_spec y y) eq_refl) in E; discriminate).
        rewrite aget_aput_neq by (auto using version_eqb_spec; apply version_eqb_spec). destruct G as [G|(k' & o' & [G|G] & P)]; [auto| |right; eauto].
        injection G as <- <-. congruence.
  Qed.
  Lemma versions_full_nodup l : forall acc r, read_versions acc l = Some r -> NoDup (map fst acc) -> NoDup (map fst r).
  Proof.
    induction l as [|[k o] l IH]; intros acc r H N; cbn [ViewModel.read_versions_full] in H; [injection H as <-; exact N|].
    destruct (vparse k) as [y|]; [|discriminate]. destruct (read_metadata o) as [ve|]; [|discriminate]. apply (IH _ _ H). apply aput_keys_NoDup; [apply version_eqb_spec|exact N].
  Qed.
  Lemma full_get v d x e : jwf v -> read_doc v = Some d -> vget x (pf_versions d) = Some e -> exists o, listed v x o /\ read_metadata o = Some e.
  Proof.
    intros W H G. unfold ViewModel.read_full_doc in H. destruct v as [ | | | | |l]; try discriminate.
    destruct (match sget "versions" l with None => Some [] | Some (JObj vs) => read_versions [] vs | _ => None end) as [vs|] eqn:E1; [|discriminate].
    destruct (match sget "dist-tags" l with None => Some [] | Some (JObj vs) => PackumentModel.read_tags vparse vs | _ => None end) as [ts|] eqn:E2; [|discriminate].
    destruct (match sget "time" l with None => Some [] | Some (JObj vs) => texts vs | _ => None end) as [tm|] eqn:E3; [|discriminate].
    injection H as <-. cbn [pf_versions] in G. destruct (sget "versions" l) as [[ | | | | |lv]|] eqn:El; try discriminate E1.
    - destruct (versions_full_get _ _ _ _ _ E1 G) as [G'|(k & o & A & B & C)]; [discriminate|]. exists o. split; [|exact C]. exists (JObj lv), k.
      split; [exact El|]. split; [|exact B]. cbn [field]. apply In_aget; [apply seqb_spec| |exact A]. apply jwf_nodup. eapply jwf_field; [exact W|exact El].
    - injection E1 as <-. discriminate.
  Qed.
  Lemma full_lists v d x : jwf v -> read_doc v = Some d -> (lists vparse v x <-> exists e, vget x (pf_versions d) = Some e).
  Proof.
    intros W H. split.
    - intros (o & vs0 & k & A & B & C). unfold ViewModel.read_full_doc in H. destruct v as [ | | | | |l]; try discriminate. cbn [field] in A. rewrite A in H.
      destruct vs0 as [ | | | | |lv]; try discriminate. destruct (read_versions [] lv) as [vs|] eqn:E1; [|discriminate].
      destruct (match sget "dist-tags" l with None => Some [] | Some (JObj vs) => PackumentModel.read_tags vparse vs | _ => None end) as [ts|] eqn:E2; [|discriminate].
      destruct (match sget "time" l with None => Some [] | Some (JObj vs) => texts vs | _ => None end) as [tm|] eqn:E3; [|discriminate].
      injection H as <-. cbn [pf_versions]. cbn [field] in B. apply aget_In in B; [|apply seqb_spec].
      assert (vget x vs <> None) as N by (eapply versions_full_keeps; [exact E1|right; eauto]). destruct (vget x vs); [eauto|congruence].
    - intros (e & G). destruct (full_get _ _ _ _ W H G) as (o & L & _). exists o. exact L.
  Qed.
  Lemma full_count v d : jwf v -> read_doc v = Some d ->
    NoDup (map fst (pf_versions d)) /\ (forall x, In x (map fst (pf_versions d)) <-> lists vparse v x).
  Proof.
    intros W H. split.
    - unfold ViewModel.read_full_doc in H. destruct v as [ | | | | |l]; try discriminate.
      destruct (match sget "versions" l with None => Some [] | Some (JObj vs) => read_versions [] vs | _ => None end) as [vs|] eqn:E1; [|discriminate].
      destruct (match sget "dist-tags" l with None => Some [] | Some (JObj vs) => PackumentModel.read_tags vparse vs | _ => None end) as [ts|] eqn:E2; [|discriminate].
      destruct (match sget "time" l with None => Some [] | Some (JObj vs) => texts vs | _ => None end) as [tm|] eqn:E3; [|discriminate].
      injection H as <-. cbn [pf_versions]. destruct (sget "versions" l) as [[ | | | | |lv]|]; try discriminate E1; [|injection E1 as <-; constructor].
      eapply versions_full_nodup; [exact E1|constructor].
    - intros x. rewrite (full_lists _ _ _ W H). split.
      + intros I. destruct (vget x (pf_versions d)) as [e|] eqn:E; [eauto|]. apply aget_None in E; [contradiction|apply version_eqb_spec].
      + intros (e & G). apply aget_In in G; [|apply version_eqb_spec]. apply (in_map fst) in G. exact G.
  Qed.
End Full.

(** ** the list of dependencies *)
Definition leb_le (a b : string * string) : Prop := String.leb (fst a) (fst b) = true.
Lemma insert_perm e l : Permutation (insert_dep e l) (e :: l).
Proof.
  induction l as [|d l IH]; cbn [insert_dep]; [reflexivity|]. destruct (String.leb _ _); [reflexivity|]. rewrite IH. apply perm_swap.
Qed.
Lemma sort_perm l : Permutation (sort_deps l) l.
Proof. induction l as [|e l IH]; cbn; [reflexivity|]. unfold sort_deps in IH. rewrite insert_perm. now constructor. Qed.
Lemma leb_total a b : String.leb a b = false -> String.leb b a = true.
Proof.
  unfold String.leb. rewrite (String.compare_antisym a b). destruct (String.compare b a); cbn; congruence.
Qed.
Lemma insert_sorted e l : Sorted leb_le l -> Sorted leb_le (insert_dep e l).
Proof.
  induction l as [|d l IH]; intros H; cbn [insert_dep]; [constructor; constructor|]. destruct (String.leb (fst e) (fst d)) eqn:E.
  - constructor; [exact H|]. constructor. exact E.
  - inversion H as [|? ? H1 H2]; subst. specialize (IH H1). constructor; [exact IH|]. apply leb_total in E.
    destruct l as [|x l]; cbn [insert_dep]; [constructor; exact E|]. destruct (String.leb (fst e) (fst x)); constructor; [exact E|]. now inversion H2.
Qed.
Lemma sort_sorted l : Sorted leb_le (sort_deps l).
Proof. induction l as [|e l IH]; cbn; [constructor|]. now apply insert_sorted. Qed.
Lemma firstn_sorted n l : Sorted leb_le l -> Sorted leb_le (firstn n l).
Proof.
  revert l. induction n as [|n IH]; intros l H; cbn; [constructor|]. destruct l as [|x l]; [constructor|]. inversion H as [|? ? H1 H2]; subst. constructor; [auto|].
  destruct n; cbn; [constructor|]. destruct l; cbn; [constructor|]. inversion H2; subst. now constructor.
Qed.
