(** * Choosing a version: proofs *)
From Verif Require Import Base Types VersionModel VersionSpec.
Open Scope string_scope.
Open Scope list_scope.

(** a comparison function that is a total order *)
Record cmp_ok {A} (c : A -> A -> comparison) : Prop := {
  c_eq : forall x y, c x y = Eq <-> x = y;
  c_sym : forall x y, c y x = CompOpp (c x y);
  c_lt : forall x y z, c x y = Lt -> c y z = Lt -> c x z = Lt }.
Lemma N_cmp_ok : cmp_ok N.compare.
Proof.
  constructor.
  - apply N.compare_eq_iff.
  - intros. apply N.compare_antisym.
  - intros x y z. rewrite !N.compare_lt_iff. apply N.lt_trans.
Qed.
Lemma lex_Lt a b : lex a b = Lt <-> a = Lt \/ (a = Eq /\ b = Lt).
Proof. destruct a; cbn; intuition discriminate. Qed.
Lemma lex_Eq a b : lex a b = Eq <-> a = Eq /\ b = Eq.
Proof. destruct a; cbn; intuition discriminate. Qed.
Lemma lex_opp a b : CompOpp (lex a b) = lex (CompOpp a) (CompOpp b).
Proof. destruct a; reflexivity. Qed.

Section Combine.
  Context {A B : Type} (c : A -> A -> comparison) (d : B -> B -> comparison).
  Hypotheses (C : cmp_ok c) (D : cmp_ok d).
  Lemma lcmp_ok : cmp_ok (lcmp c).
  Proof.
    constructor.
    - induction x as [|x a IH]; destruct y as [|y b]; cbn; try (split; congruence).
      rewrite lex_Eq, (c_eq _ C), IH. split; [intros [-> ->]; auto | intros E; injection E; auto].
    - induction x as [|x a IH]; destruct y as [|y b]; cbn; auto. rewrite lex_opp, <- IH, <- (c_sym _ C). reflexivity.
    - induction x as [|x a IH]; destruct y as [|y b], z as [|z e]; cbn; auto; try discriminate. rewrite !lex_Lt.
      intros [H1|[H1 H2]] [H3|[H3 H4]].
      + left. eapply (c_lt _ C); eauto.
      + apply (c_eq _ C) in H3. subst. auto.
      + apply (c_eq _ C) in H1. subst. auto.
      + right. apply (c_eq _ C) in H1. subst. split; [auto|]. eapply IH; eauto.
  Qed.
  (** two comparisons one after the other *)
  Lemma pair_cmp_ok : cmp_ok (fun x y => lex (c (fst x) (fst y)) (d (snd x) (snd y))).
  Proof.
    constructor.
    - intros [a b] [a' b']; cbn. rewrite lex_Eq, (c_eq _ C), (c_eq _ D). split; [intros [-> ->]; auto | intros E; injection E; auto].
    - intros [a b] [a' b']; cbn. rewrite lex_opp, <- (c_sym _ C), <- (c_sym _ D). reflexivity.
    - intros [a b] [a' b'] [a'' b'']; cbn. rewrite !lex_Lt. intros [H1|[H1 H2]] [H3|[H3 H4]].
      + left. eapply (c_lt _ C); eauto.
      + apply (c_eq _ C) in H3. subst. auto.
      + apply (c_eq _ C) in H1. subst. auto.
      + right. apply (c_eq _ C) in H1. subst. split; [auto|]. eapply (c_lt _ D); eauto.
  Qed.
End Combine.
Lemma cmp_ok_inj A B (f : A -> B) (c : B -> B -> comparison) : (forall x y, f x = f y -> x = y) -> cmp_ok c -> cmp_ok (fun x y => c (f x) (f y)).
Proof.
  intros Hf C. constructor; intros.
  - rewrite (c_eq _ C). split; [apply Hf | congruence].
  - apply (c_sym _ C).
  - eapply (c_lt _ C); eauto.
Qed.
Lemma scmp_ok : cmp_ok scmp.
Proof.
  assert (E : forall a b, scmp a b = lcmp (fun x y => N.compare (N_of_ascii x) (N_of_ascii y)) (list_ascii_of_string a) (list_ascii_of_string b)).
  { induction a as [|x a IH]; destruct b; cbn; auto. now rewrite IH. }
  assert (K : cmp_ok (fun x y => N.compare (N_of_ascii x) (N_of_ascii y))).
  { apply (cmp_ok_inj _ _ N_of_ascii); [|apply N_cmp_ok]. intros x y H. rewrite <- (ascii_N_embedding x), <- (ascii_N_embedding y). now rewrite H. }
  pose proof (cmp_ok_inj string _ list_ascii_of_string _
    ltac:(intros x y H; rewrite <- (string_of_list_ascii_of_string x), <- (string_of_list_ascii_of_string y); now rewrite H) (lcmp_ok _ K)) as [H1 H2 H3].
  constructor; intros; rewrite ?E in *; auto. eapply H3; eauto.
Qed.
Lemma preid_cmp_ok : cmp_ok preid_cmp.
Proof.
  pose proof N_cmp_ok as Nk. pose proof scmp_ok as Sk. constructor.
  - intros [x|x] [y|y]; cbn; try (split; congruence); [rewrite (c_eq _ Nk) | rewrite (c_eq _ Sk)]; split; congruence.
  - intros [x|x] [y|y]; cbn; auto; [apply (c_sym _ Nk) | apply (c_sym _ Sk)].
  - intros [x|x] [y|y] [z|z]; cbn; auto; try discriminate; [apply (c_lt _ Nk) | apply (c_lt _ Sk)].
Qed.
Lemma pre_cmp_ok : cmp_ok pre_cmp.
Proof.
  pose proof (lcmp_ok _ preid_cmp_ok) as K. constructor.
  - intros [|x a] [|y b]; cbn [pre_cmp]; try (split; congruence). apply (c_eq _ K).
  - intros [|x a] [|y b]; cbn [pre_cmp]; auto. apply (c_sym _ K).
  - intros [|x a] [|y b] [|z e]; cbn [pre_cmp]; auto; try discriminate. apply (c_lt _ K).
Qed.
Lemma vcmp_ok : cmp_ok vcmp.
Proof.
  pose proof (pair_cmp_ok _ _ N_cmp_ok (pair_cmp_ok _ _ N_cmp_ok (pair_cmp_ok _ _ N_cmp_ok pre_cmp_ok))) as K.
  apply (cmp_ok_inj version _ (fun x => (v_major x, (v_minor x, (v_patch x, v_pre x))))) in K; [exact K|].
  intros [] [] H. cbn in H. injection H; intros; subst; reflexivity.
Qed.

Lemma vle_refl a : vle a a.
Proof. unfold vle. rewrite (proj2 (c_eq _ vcmp_ok a a) eq_refl). discriminate. Qed.
Lemma vle_trans a b c : vle a b -> vle b c -> vle a c.
Proof.
  unfold vle. intros H1 H2. destruct (vcmp a b) eqn:E1; [|clear H1|congruence].
  - apply (c_eq _ vcmp_ok) in E1. now subst.
  - destruct (vcmp b c) eqn:E2; [|clear H2|congruence].
    + apply (c_eq _ vcmp_ok) in E2. subst. now rewrite E1.
    + rewrite (c_lt _ vcmp_ok _ _ _ E1 E2). discriminate.
Qed.
Lemma vle_antisym a b : vle a b -> vle b a -> a = b.
Proof. unfold vle. rewrite (c_sym _ vcmp_ok a b). destruct (vcmp a b) eqn:E; cbn; intros; try congruence. now apply (c_eq _ vcmp_ok). Qed.
Lemma vle_total a b : vle a b \/ vle b a.
Proof. unfold vle. rewrite (c_sym _ vcmp_ok a b). destruct (vcmp a b); cbn; [left | left | right]; discriminate. Qed.

Lemma vmax_spec l : match vmax l with Some m => In m l /\ forall x, In x l -> vle x m | None => l = [] end.
Proof.
  unfold vmax.
  assert (G : forall l acc, match fold_left (fun acc x => match acc with None => Some x | Some m => match vcmp x m with Lt => Some m | _ => Some x end end) l acc with
     | Some m => (In m l \/ acc = Some m) /\ (forall x, In x l \/ acc = Some x -> vle x m)
     | None => l = [] /\ acc = None end).
  { clear. induction l as [|a t IH]; intros acc; cbn [fold_left].
    - destruct acc; [|auto]. split; [auto|]. intros x [[]|E]. injection E as <-. apply vle_refl.
    - specialize (IH (match acc with None => Some a | Some m => match vcmp a m with Lt => Some m | _ => Some a end end)).
      destruct (fold_left _ t _) as [m|].
      + destruct IH as [H1 H2]. destruct acc as [m0|].
        * destruct (vcmp a m0) eqn:E; (split; [cbn; destruct H1 as [|H1]; [auto | injection H1 as <-; auto]|]).
          all: assert (Hm : vle a m /\ vle m0 m).
          1,3,5: split; [|].
          all: try (intros x Hx; destruct Hm as [Ha Hm0]; cbn in Hx; destruct Hx as [[<-|Hx]|Hx]; [auto | apply H2; auto | injection Hx as <-; auto]).
          -- apply H2; auto.
          -- apply (c_eq _ vcmp_ok) in E. subst. apply H2; auto.
          -- apply vle_trans with m0; [unfold vle; rewrite E; discriminate | apply H2; auto].
          -- apply H2; auto.
          -- apply H2; auto.
          -- apply vle_trans with a; [unfold vle; rewrite (c_sym _ vcmp_ok a m0), E; discriminate | apply H2; auto].
        * split; [cbn; destruct H1 as [|H1]; [auto | injection H1 as <-; auto]|]. intros x [[<-|Hx]|Hx]; [apply H2; auto | apply H2; auto | discriminate].
      + destruct IH as [_ IH]. destruct acc as [m0|]; [destruct (vcmp a m0)|]; discriminate. }
  specialize (G l None). destruct (fold_left _ l None) as [m|]; [|tauto]. destruct G as [[H|H] H2]; [|discriminate]. auto.
Qed.

Lemma vget_In (l : list (version * vmeta)) x m : vget x l = Some m -> In (x, m) l.
Proof. apply aget_In, version_eqb_spec. Qed.
Lemma vget_some (l : list (version * vmeta)) x : In x (map fst l) -> exists m, vget x l = Some m.
Proof.
  intros H. destruct (vget x l) eqn:E; [eauto|]. apply aget_None in E; [contradiction | apply version_eqb_spec].
Qed.

Section Pick.
  Variable rsat : range -> version -> bool.
  Variable canon : string -> option string.
  Variable is_any : range -> bool.
  Variable iparse : string -> option string.
  Variable default_tag : string.
  Variable at_base : string -> string.
  Notation get_resolution := (get_resolution rsat canon is_any iparse default_tag at_base).
  Notation pick_target := (pick_target rsat is_any default_tag).
  Notation highest := (highest rsat).
  Notation none_in_range := (none_in_range rsat).
  Notation default_in := (default_in rsat default_tag).
  Notation chosen := (chosen rsat is_any default_tag).

  Definition effective (p : packument) (o : option (option version)) : option version :=
    match o with Some (Some x) => match vget x (pt_versions p) with Some _ => Some x | None => None end | _ => None end.
  Lemma effective_pub p o x : effective p o = Some x -> published p x.
  Proof.
    unfold effective. destruct o as [[y|]|]; try discriminate. destruct (vget y (pt_versions p)) eqn:E; [|discriminate].
    intros H. injection H as <-. apply vget_In in E. unfold published. change y with (fst (y, v)). now apply in_map.
  Qed.
  Lemma pub_is p x : is_some (vget x (pt_versions p)) = true <-> published p x.
  Proof.
    unfold published. split; intros H.
    - destruct (vget x (pt_versions p)) eqn:E; [|discriminate]. apply vget_In in E. change x with (fst (x, v)). now apply in_map.
    - destruct (vget_some _ _ H) as [m ->]. reflexivity.
  Qed.
  Lemma max_sat_spec p r : match max_satisfying rsat (map fst (pt_versions p)) r with Some m => highest p r m | None => none_in_range p r end.
  Proof.
    unfold max_satisfying. pose proof (vmax_spec (filter (rsat r) (map fst (pt_versions p)))) as H.
    destruct (vmax _) as [m|].
    - destruct H as [Hin Hmax]. apply filter_In in Hin. destruct Hin as [H1 H2]. split; [auto|]. split; [auto|].
      intros y Hy Hr. apply Hmax. apply filter_In. auto.
    - intros y Hy. destruct (rsat r y) eqn:E; [|auto]. assert (Hin : In y (filter (rsat r) (map fst (pt_versions p)))) by (apply filter_In; auto).
      rewrite H in Hin. destruct Hin.
  Qed.
  Lemma highest_unique p r x y : highest p r x -> highest p r y -> x = y.
  Proof. intros (A & B & C) (A' & B' & C'). apply vle_antisym; auto. Qed.

  Lemma chosen_unique req p x y : chosen req p x -> chosen req p y -> x = y.
  Proof.
    unfold VersionSpec.chosen, tagged, VersionSpec.default_in, VersionSpec.none_in_range. intros [Hx Cx] [Hy Cy]. destruct req as [[t|w|r]|]; try congruence.
    destruct Cx as [(A & B & C)|[(A & B)|(A & B & C)]], Cy as [(A' & B' & C')|[(A' & B')|(A' & B' & C')]]; try congruence.
    - exfalso. eapply A'; eauto.
    - exfalso. eapply A; eauto.
    - eapply highest_unique; eauto.
    - destruct B as (P & R & _). rewrite (A' _ P) in R. discriminate.
    - destruct B' as (P & R & _). rewrite (A _ P) in R. discriminate.
  Qed.

  Lemma pick_chosen sc nm req p x : effective p (pick_target (SNpm sc nm req) p) = Some x <-> chosen req p x.
  Proof.
    assert (F : forall y, chosen req p y -> exists z, effective p (pick_target (SNpm sc nm req) p) = Some z).
    { intros y [Hy Cy]. unfold VersionModel.pick_target. destruct req as [[t|w|r]|]; unfold tagged in Cy.
      - (* tag *) rewrite Cy. cbn [is_none andb]. destruct (sget default_tag (pt_tags p)); cbn; destruct (vget_some _ _ Hy) as [m ->]; eauto.
      - subst w. cbn [is_none andb]. destruct (sget default_tag (pt_tags p)); cbn; destruct (vget_some _ _ Hy) as [m ->]; eauto.
      - cbn [is_none andb]. pose proof (max_sat_spec p r) as Hm.
        destruct (sget default_tag (pt_tags p)) as [tv|] eqn:Et; [destruct (is_some (vget tv (pt_versions p)) && rsat r tv) eqn:Eb|].
        + cbn. apply andb_true_iff in Eb. destruct Eb as [Eb _]. apply pub_is in Eb. destruct (vget_some _ _ Eb) as [m ->]. eauto.
        + destruct (max_satisfying rsat _ r) as [z|]; cbn.
          * destruct Hm as [Hz _]. destruct (vget_some _ _ Hz) as [m ->]. eauto.
          * destruct Cy as [(A & B & C)|[(A & (B & C & _))|(A & B & C)]].
            -- rewrite (Hm _ B) in C. discriminate.
            -- rewrite (Hm _ B) in C. discriminate.
            -- rewrite B. unfold tagged in C. assert (tv = y) as -> by congruence. cbn. destruct (vget_some _ _ Hy) as [m ->]. eauto.
        + destruct (max_satisfying rsat _ r) as [z|]; cbn.
          * destruct Hm as [Hz _]. destruct (vget_some _ _ Hz) as [m ->]. eauto.
          * destruct Cy as [(A & B & C)|[(A & (B & C & _))|(A & B & C)]].
            -- rewrite (Hm _ B) in C. discriminate.
            -- rewrite (Hm _ B) in C. discriminate.
            -- unfold tagged in C. congruence.
      - rewrite Cy. cbn [is_none andb]. assert (is_some (vget y (pt_versions p)) = true) as -> by now apply pub_is. cbn.
        destruct (vget_some _ _ Hy) as [m ->]. eauto. }
    assert (B : forall x, effective p (pick_target (SNpm sc nm req) p) = Some x -> chosen req p x).
    { clear x. intros x H. pose proof (effective_pub _ _ _ H) as Hx. split; [exact Hx|].
      assert (E : exists o, pick_target (SNpm sc nm req) p = Some o /\ o = Some x).
      { unfold effective in H. destruct (pick_target _ p) as [[y|]|]; try discriminate. destruct (vget y _); [|discriminate]. injection H as ->. eauto. }
      destruct E as (o & E & ->). unfold VersionModel.pick_target in E. injection E as E. destruct req as [[t|w|r]|]; unfold tagged.
      - cbn [is_none andb] in E. destruct (sget default_tag (pt_tags p)); rewrite ?andb_false_r in E; destruct (sget t (pt_tags p)); congruence.
      - destruct (sget default_tag (pt_tags p)); cbn in E; congruence.
      - pose proof (max_sat_spec p r) as Hm. destruct (sget default_tag (pt_tags p)) as [tv|] eqn:Et.
        + cbn [is_none andb] in E. destruct (is_some (vget tv (pt_versions p)) && rsat r tv) eqn:Eb.
          * injection E as <-. left. apply andb_true_iff in Eb. destruct Eb as [E1 E2]. split; [auto|]. split; [now apply pub_is | auto].
          * assert (Hnd : forall y, ~ default_in p r y).
            { intros y (A & B & C). unfold tagged in A. rewrite Et in A. injection A as <-. rewrite C, (proj2 (pub_is _ _) B) in Eb. discriminate. }
            destruct (max_satisfying rsat _ r) as [z|].
            -- injection E as <-. right. left. auto.
            -- destruct (is_any r) eqn:Ea; [|discriminate]. injection E as <-. right. right. split; [exact Hm|]. auto.
        + assert (Hnd : forall y, ~ default_in p r y) by (intros y (A & _); unfold tagged in A; congruence).
          destruct (max_satisfying rsat _ r) as [z|]; [injection E as <-; right; left; auto|]. destruct (is_any r); discriminate.
      - destruct (sget default_tag (pt_tags p)) as [tv|]; [|discriminate]. cbn [is_none andb] in E.
        destruct (is_some (vget tv (pt_versions p))); cbn in E; congruence. }
    split; [exact (B x)|]. intros C. destruct (F x C) as [z Hz]. rewrite Hz. f_equal. eapply chosen_unique; eauto.
  Qed.

  (** the registry serves every version under its own number *)
  Definition consistent (p : packument) : Prop := forall x m, In (x, m) (pt_versions p) -> vm_version m = Some x.

  (** the part of [get_resolution] after the choice *)
  Definition finish (name : string) (m : vmeta) : res err resolution :=
    match vm_tarball m with
    | None => Err ENoTarball
    | Some url =>
        match vm_integrity m, vm_shasum m with
        | Some i, _ => match iparse i with Some j => Ok (RNpm name (match vm_version m with Some x => x | None => mkV 0 0 0 [] end) url (Some j)) | None => Err EIntegrity end
        | None, Some s => match iparse ("sha1-" ++ s) with Some j => Ok (RNpm name (match vm_version m with Some x => x | None => mkV 0 0 0 [] end) url (Some j)) | None => Err EIntegrity end
        | None, None => Ok (RNpm name (match vm_version m with Some x => x | None => mkV 0 0 0 [] end) url None)
        end
    end.
  Lemma get_resolution_npm name wanted p sc nm req : target wanted = SNpm sc nm req ->
    get_resolution name wanted p = match effective p (pick_target (SNpm sc nm req) p) with
                                   | Some x => match vget x (pt_versions p) with Some m => finish name m | None => Err ENoVersion end
                                   | None => Err ENoVersion end.
  Proof.
    intros E. unfold VersionModel.get_resolution. rewrite E.
    destruct (pt_versions p) as [|a l] eqn:Ev.
    - unfold effective. rewrite Ev. destruct (pick_target (SNpm sc nm req) p) as [[x|]|]; reflexivity.
    - rewrite <- Ev. assert (exists t, pick_target (SNpm sc nm req) p = Some t) as [t Ht] by (unfold VersionModel.pick_target; eauto).
      rewrite Ht. unfold effective. destruct t as [x|]; [|reflexivity]. destruct (vget x (pt_versions p)) as [m|] eqn:Em; [|reflexivity].
      rewrite Em. reflexivity.
  Qed.
  Lemma finish_not_nov name m : finish name m <> Err ENoVersion /\ finish name m <> Panic.
  Proof.
    unfold finish. destruct (vm_tarball m); [|split; discriminate]. destruct (vm_integrity m) as [i|]; [destruct (iparse i); split; discriminate|].
    destruct (vm_shasum m) as [s'|]; [destruct (iparse ("sha1-" ++ s')); split; discriminate | split; discriminate].
  Qed.
  (** what the choice of version [x] commits the client to download *)
  Definition offered (p : packument) (x : version) (url : string) (integrity : option string) : Prop :=
    exists m, In (x, m) (pt_versions p) /\ vm_tarball m = Some url /\
      integrity = match vm_integrity m, vm_shasum m with
                  | Some i, _ => iparse i
                  | None, Some s => iparse ("sha1-" ++ s)
                  | None, None => None end /\
      (integrity = None -> vm_integrity m = None /\ vm_shasum m = None).

  Theorem success_chosen name wanted p sc nm req r : consistent p -> target wanted = SNpm sc nm req -> get_resolution name wanted p = Ok r ->
    exists x url i, r = RNpm name x url i /\ chosen req p x /\ offered p x url i.
  Proof.
    intros Hc E H. rewrite (get_resolution_npm _ _ _ _ _ _ E) in H.
    destruct (effective p _) as [x|] eqn:Ex; [|discriminate]. apply pick_chosen in Ex.
    destruct (vget x (pt_versions p)) as [m|] eqn:Em; [|discriminate]. apply vget_In in Em. pose proof (Hc _ _ Em) as Hv.
    unfold finish in H. rewrite Hv in H. destruct (vm_tarball m) as [url|] eqn:Et; [|discriminate].
    destruct (vm_integrity m) as [i|] eqn:Ei.
    - destruct (iparse i) as [j|] eqn:Ej; [|discriminate]. injection H as <-. exists x, url, (Some j). split; [auto|]. split; [auto|].
      exists m. rewrite Ei. repeat split; auto; discriminate.
    - destruct (vm_shasum m) as [s'|] eqn:Es.
      + destruct (iparse ("sha1-" ++ s')) as [j|] eqn:Ej; [|discriminate]. injection H as <-. exists x, url, (Some j). split; [auto|]. split; [auto|].
        exists m. rewrite Ei, Es. repeat split; auto; discriminate.
      + injection H as <-. exists x, url, None. split; [auto|]. split; [auto|]. exists m. rewrite Ei, Es. auto.
  Qed.
  Theorem chosen_success name wanted p sc nm req x : consistent p -> target wanted = SNpm sc nm req -> chosen req p x ->
    (forall m, In (x, m) (pt_versions p) -> vm_tarball m <> None /\ vm_integrity m = None /\ vm_shasum m = None
                                            \/ vm_tarball m <> None /\ exists i, vm_integrity m = Some i /\ iparse i <> None) ->
    exists url i, get_resolution name wanted p = Ok (RNpm name x url i).
  Proof.
    intros Hc E C Hm. rewrite (get_resolution_npm _ _ _ _ _ _ E). apply (pick_chosen sc nm) in C. rewrite C.
    apply effective_pub in C. apply vget_some in C as [m Em]. rewrite Em. apply vget_In in Em. pose proof (Hc _ _ Em) as Hv.
    unfold finish. rewrite Hv. destruct (Hm _ Em) as [(H1 & -> & ->)|(H1 & i & -> & H2)].
    - destruct (vm_tarball m); [eauto | congruence].
    - destruct (vm_tarball m); [|congruence]. destruct (iparse i); [eauto | congruence].
  Qed.
  Theorem no_version name wanted p sc nm req : target wanted = SNpm sc nm req ->
    (get_resolution name wanted p = Err ENoVersion <-> forall x, ~ chosen req p x).
  Proof.
    intros E. rewrite (get_resolution_npm _ _ _ _ _ _ E). split.
    - intros H x C. apply (pick_chosen sc nm) in C. rewrite C in H. apply effective_pub in C. apply vget_some in C as [m Em].
      rewrite Em in H. now apply finish_not_nov in H.
    - intros H. destruct (effective p _) as [x|] eqn:Ex; [|reflexivity]. apply pick_chosen in Ex. destruct (H _ Ex).
  Qed.
  Theorem range_in_range name wanted p sc nm r res : consistent p -> target wanted = SNpm sc nm (Some (VRange r)) -> get_resolution name wanted p = Ok res ->
    exists x url i, res = RNpm name x url i /\ published p x /\ (rsat r x = true \/ none_in_range p r /\ is_any r = true /\ tagged p default_tag x).
  Proof.
    intros Hc E H. destruct (success_chosen _ _ _ _ _ _ _ Hc E H) as (x & url & i & -> & [Hp C] & _). exists x, url, i. split; [auto|]. split; [auto|].
    destruct C as [(_ & _ & C)|[(_ & _ & C & _)|C]]; auto.
  Qed.
  Theorem never_panics name wanted p : get_resolution name wanted p <> Panic.
  Proof.
    destruct (target wanted) as [path|n s0|sc nm req|info] eqn:E.
    - unfold VersionModel.get_resolution. rewrite E. destruct (canon _); discriminate.
    - pose proof (target_not_alias wanted) as H. rewrite E in H. discriminate.
    - rewrite (get_resolution_npm _ _ _ _ _ _ E). destruct (effective p _) as [x|]; [|discriminate]. destruct (vget x _) as [m|]; [|discriminate]. apply finish_not_nov.
    - unfold VersionModel.get_resolution. rewrite E. discriminate.
  Qed.
End Pick.
