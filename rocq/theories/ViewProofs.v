(** * oro view: the reader of full documents against the document *)
From Verif Require Import Base Types StdPath JsonModel JsonSpec JsonRead JsonReadProofs ResolverModel Kdl VersionModel VersionSpec VersionProofs ManifestRead ManifestProofs
  PackumentModel PackumentSpec PackumentProofs ViewModel ViewSpec JsonSpec.
Open Scope string_scope.
Open Scope list_scope.

Set Implicit Arguments.
(** ** readers and shapes *)
Definition accepts (c : reader) (P : json -> Prop) : Prop := forall v, (exists w, c v = Some w) <-> P v.
Definition exact (c : reader) : Prop := forall v w, c v = Some w -> w = v.
Lemma acc_text : accepts c_text is_text.
Proof. intros v. unfold is_text. destruct v; cbn; split; intros (x & H); try discriminate; eauto. Qed.
Lemma acc_bool : accepts c_bool is_boolean.
Proof. intros v. unfold is_boolean. destruct v; cbn; split; intros (x & H); try discriminate; eauto. Qed.
Lemma acc_any : accepts c_any whatever.
Proof. intros v. split; [exact (fun _ => I)|]. cbn. eauto. Qed.
Lemma acc_opt c P : accepts c P -> accepts (c_opt c) (nullable P).
Proof.
  intros H v. unfold nullable. rewrite <- (H v). destruct v; cbn; split; eauto; try (intros [X|X]; [discriminate|exact X]).
Qed.
Lemma acc_opt_any : accepts (c_opt c_any) whatever.
Proof. intros v. split; [exact (fun _ => I)|]. intros _. destruct v; cbn; eauto. Qed.
Lemma acc_or a b P Q : accepts a P -> accepts b Q -> accepts (c_or a b) (either P Q).
Proof.
  intros A B v. unfold either, c_or. rewrite <- (A v), <- (B v). destruct (a v) as [w|]; [split; eauto|]. split; [auto|]. intros [(w & X)|X]; [discriminate|exact X].
Qed.
Lemma acc_all c P : accepts c P -> forall l, (exists r, c_all c l = Some r) <-> Forall P l.
Proof.
  intros H l. induction l as [|v l IH]; cbn [c_all]; [split; eauto|]. split.
  - intros (r & E). destruct (c v) as [w|] eqn:Ev; [|discriminate]. destruct (c_all c l) as [r'|]; [|discriminate]. constructor; [apply H; eauto|apply IH; eauto].
  - intros F. inversion F as [|? ? F1 F2]; subst. apply H in F1. apply IH in F2. destruct F1 as (w & ->), F2 as (r & ->). eauto.
Qed.
Lemma acc_list c P : accepts c P -> accepts (c_list c) (list_of P).
Proof.
  intros H v. unfold list_of. split.
  - intros (w & E). destruct v as [ | | | |l| ]; try discriminate. cbn in E. destruct (c_all c l) as [r|] eqn:El; [|discriminate]. exists l. split; [auto|]. apply (acc_all H). eauto.
  - intros (l & -> & F). apply (acc_all H) in F. destruct F as (r & F). cbn. rewrite F. cbn. eauto.
Qed.
Lemma acc_vals c P : accepts c P -> forall l, (exists r, c_vals c l = Some r) <-> Forall (fun e => P (snd e)) l.
Proof.
  intros H l. induction l as [|[k v] l IH]; cbn [c_vals]; [split; eauto|]. split.
  - intros (r & E). destruct (c v) as [w|] eqn:Ev; [|discriminate]. destruct (c_vals c l) as [r'|]; [|discriminate]. constructor; [apply H; eauto|apply IH; eauto].
  - intros F. inversion F as [|? ? F1 F2]; subst. cbn [snd] in F1. apply H in F1. apply IH in F2. destruct F1 as (w & ->), F2 as (r & ->). eauto.
Qed.
Lemma acc_map c P : accepts c P -> accepts (c_map c) (map_of P).
Proof.
  intros H v. unfold map_of. split.
  - intros (w & E). destruct v as [ | | | | |l]; try discriminate. cbn in E. destruct (c_vals c l) as [r|] eqn:El; [|discriminate]. exists l. split; [auto|]. apply (acc_vals H). eauto.
  - intros (l & -> & F). apply (acc_vals H) in F. destruct F as (r & F). cbn. rewrite F. cbn. eauto.
Qed.
Lemma opt_text_reads v : (exists w, c_opt c_text v = Some w) <-> v = JNull \/ exists s, v = JStr s.
Proof. rewrite (acc_opt acc_text v). reflexivity. Qed.
Lemma acc_fields ks l : (exists r, c_fields (map (fun k => (k, false)) ks) l = Some r) <-> forall k, In k ks -> text_or_null (sget k l).
Proof.
  induction ks as [|k ks IH]; cbn [map c_fields]; [split; [intros _ k []|eauto]|]. split.
  - intros (r & E) k' [<-|H].
    + unfold text_or_null. destruct (sget k l) as [v|]; [|auto]. destruct (c_opt c_text v) eqn:Ec; [|discriminate].
      destruct (proj1 (opt_text_reads v) (ex_intro _ _ Ec)) as [->|(s & ->)]; eauto.
    + apply IH; [|exact H]. destruct (match sget k l with Some v => _ | None => _ end); [|discriminate]. destruct (c_fields _ l); [eauto|discriminate].
  - intros H. assert (E : exists r, c_fields (map (fun k => (k, false)) ks) l = Some r) by (apply IH; intros k' H'; apply H; now right). destruct E as (r & ->).
    specialize (H k (or_introl eq_refl)). destruct H as [->|[->|(s & ->)]]; cbn; eauto.
Qed.
Lemma acc_record ks : accepts (c_record (map (fun k => (k, false)) ks)) (record_with ks).
Proof.
  intros v. unfold record_with. split.
  - intros (w & E). destruct v as [ | | | | |l]; try discriminate. cbn in E. destruct (c_fields _ l) as [r|] eqn:El; [|discriminate]. exists l. split; [auto|]. apply acc_fields. eauto.
  - intros (l & -> & F). apply acc_fields in F. destruct F as (r & F). cbn. rewrite F. cbn. eauto.
Qed.

Lemma ex_text : exact c_text.
Proof. intros [] w H; try discriminate. now injection H as <-. Qed.
Lemma ex_bool : exact c_bool.
Proof. intros [] w H; try discriminate. now injection H as <-. Qed.
Lemma ex_any : exact c_any.
Proof. intros v w H. now injection H as <-. Qed.
Lemma ex_opt c : exact c -> exact (c_opt c).
Proof. intros H [] w E; cbn in E; auto. now injection E as <-. Qed.
Lemma ex_or a b : exact a -> exact b -> exact (c_or a b).
Proof. intros A B v w E. unfold c_or in E. destruct (a v) as [w'|] eqn:Ea; [injection E as <-; auto|auto]. Qed.
Lemma ex_list c : exact c -> exact (c_list c).
Proof.
  intros H [] w E; try discriminate. cbn in E. destruct (c_all c l) as [r|] eqn:El; [|discriminate]. injection E as <-. f_equal.
  revert r El. induction l as [|v l IH]; cbn [c_all]; intros r E; [now injection E as <-|]. destruct (c v) as [w|] eqn:Ev; [|discriminate]. destruct (c_all c l) as [r'|]; [|discriminate].
  injection E as <-. f_equal; [now apply H|now apply IH].
Qed.
Lemma ex_map c : exact c -> exact (c_map c).
Proof.
  intros H [] w E; try discriminate. cbn in E. destruct (c_vals c l) as [r|] eqn:El; [|discriminate]. injection E as <-. f_equal.
  revert r El. induction l as [|[k v] l IH]; cbn [c_vals]; intros r E; [now injection E as <-|]. destruct (c v) as [w|] eqn:Ev; [|discriminate]. destruct (c_vals c l) as [r'|]; [|discriminate].
  injection E as <-. f_equal; [f_equal; now apply H|now apply IH].
Qed.
Lemma cut_fields ks l r : c_fields (map (fun k => (k, false)) ks) l = Some r -> r = map (fun k => (k, match sget k l with Some j => j | None => JNull end)) ks.
Proof.
  revert r. induction ks as [|k ks IH]; cbn [map c_fields]; intros r E; [now injection E as <-|].
  destruct (match sget k l with Some v => _ | None => _ end) as [w|] eqn:Ew; [|discriminate]. destruct (c_fields _ l) as [r'|]; [|discriminate]. injection E as <-. f_equal; [|now apply IH].
  f_equal. destruct (sget k l) as [v|]; [|now injection Ew as <-]. now apply (ex_opt ex_text) in Ew.
Qed.
Lemma cut_text_record ks v w : c_or c_text (c_record (map (fun k => (k, false)) ks)) v = Some w -> cut ks v w.
Proof.
  unfold c_or, cut. destruct v as [ | | |s| |l]; cbn; intros E; try discriminate.
  - injection E as <-. left. eauto.
  - destruct (c_fields _ l) as [r|] eqn:El; [|discriminate]. injection E as <-. right. exists l. split; [auto|]. f_equal. now apply cut_fields.
Qed.
Lemma cut_all ks l r : c_all (c_or c_text (c_record (map (fun k => (k, false)) ks))) l = Some r -> Forall2 (cut ks) l r.
Proof.
  revert r. induction l as [|v l IH]; cbn [c_all]; intros r E; [injection E as <-; constructor|].
  destruct (c_or _ _ v) as [w|] eqn:Ev; [|discriminate]. destruct (c_all _ l) as [r'|]; [|discriminate]. injection E as <-. constructor; [now apply cut_text_record|now apply IH].
Qed.

(** ** structs with a flattened rest *)
Definition names (fs : list field_spec) : list string := flat_map fd_names fs.
Lemma named_In f k : is_named f k = true <-> In k (fd_names f).
Proof.
  unfold is_named. rewrite existsb_exists. split; [intros (x & H & E); apply String.eqb_eq in E; now subst|intros H; exists k; split; [exact H|apply String.eqb_refl]].
Qed.
Lemma any_named fs k : existsb (fun f => is_named f k) fs = true <-> In k (names fs).
Proof.
  unfold names. rewrite existsb_exists, in_flat_map. split; intros (f & H & E); exists f; (split; [exact H|]); now apply named_In.
Qed.
Lemma sget_rest fs k l : sget k (rest_of fs l) = if existsb (String.eqb k) (names fs) then None else sget k l.
Proof.
  unfold rest_of. assert (B : existsb (fun f => is_named f k) fs = existsb (String.eqb k) (names fs)).
  { apply eq_true_iff_eq. rewrite any_named, existsb_exists. split; [intros H; exists k; split; [exact H|apply String.eqb_refl]|intros (x & H & E); apply String.eqb_eq in E; now subst]. }
  rewrite <- B. induction l as [|[k' v] l IH]; cbn [filter fst]; [now destruct (existsb _ fs)|].
  destruct (negb (existsb (fun f => is_named f k') fs)) eqn:N; cbn [aget]; destruct (String.eqb_spec k k') as [->|Ne]; auto.
  - apply negb_true_iff in N. rewrite N in *. reflexivity.
  - apply negb_false_iff in N. rewrite N in *. exact IH.
Qed.
Lemma sget_app V k (a b : list (string * V)) : sget k (a ++ b) = match sget k a with Some v => Some v | None => sget k b end.
Proof. induction a as [|[k' v] a IH]; cbn [app aget]; [auto|]. destruct (String.eqb k k'); auto. Qed.
(** what a field comes out as *)
Definition missing_ok (f : field_spec) : Prop := forall k v, In (k, v) (fd_missing f) -> k = fd_key f.
Lemma read_field_keys f l r : missing_ok f -> read_field f l = Some r -> forall k, k <> fd_key f -> sget k r = None.
Proof.
  intros M H k N. apply aget_None; [apply seqb_spec|]. intros I. apply in_map_iff in I. destruct I as ([k' v] & <- & I). apply N. cbn [fst]. revert H I. unfold read_field.
  destruct (filter _ l) as [|[k0 v0] [|]]; [|destruct (fd_read f v0) as [w|]; [|discriminate]|discriminate]; intros H; injection H as <-; intros I.
  - eapply M; exact I.
  - destruct (fd_hide f w); [destruct I|]. destruct I as [I|[]]. now injection I as <- _.
Qed.
Lemma read_fields_get fs l r k : Forall missing_ok fs -> Forall (fun f => fd_names f <> []) fs -> NoDup (names fs) -> read_fields fs l = Some r ->
  (~ In k (map fd_key fs) -> sget k r = None) /\ forall f, In f fs -> fd_key f = k -> exists a, read_field f l = Some a /\ sget k r = sget k a.
Proof.
  intros M Ne. revert r. induction fs as [|f fs IH]; cbn [read_fields]; intros r N H; [injection H as <-; split; [reflexivity|intros f []]|].
  inversion M as [|? ? M1 M2]; inversion Ne as [|? ? Ne1 Ne2]; subst. unfold names in N. cbn [flat_map] in N. fold (names fs) in N.
  destruct (read_field f l) as [a|] eqn:Ef; [|discriminate]. destruct (read_fields fs l) as [b|]; [|discriminate]. injection H as <-. specialize (IH M2 Ne2 b).
  assert (Nf : NoDup (names fs)) by (clear -N; induction (fd_names f) as [|x t IHt]; [exact N|inversion N; auto]).
  destruct (IH Nf eq_refl) as [A B]. rewrite sget_app. split.
  - cbn [map]. intros H. rewrite (@read_field_keys f l a M1 Ef _) by (intros E; apply H; now left). apply A. intros I. apply H. now right.
  - intros g [<-|Hg] Ek.
    + exists a. split; [exact Ef|]. destruct (sget k a) eqn:Ea; [auto|]. apply A. intros I. apply in_map_iff in I. destruct I as (g & Eg & Ig).
      destruct (fd_names f) as [|x t] eqn:Fn; [congruence|]. assert (Eg' : match fd_names g with y :: _ => y | [] => "" end = x) by (unfold fd_key in Ek, Eg; rewrite Fn in Ek; cbn in Ek; congruence). cbn [app] in N. inversion N as [|? ? N1 N2]; subst. apply N1.
      apply in_or_app. right. unfold names. apply in_flat_map. exists g. split; [exact Ig|]. rewrite Forall_forall in Ne2. specialize (Ne2 _ Ig). destruct (fd_names g) as [|y u]; [congruence|].
      now left.
    + rewrite (@read_field_keys f l a M1 Ef _). { destruct (B g Hg Ek) as (a' & ? & ?). eauto. }
      intros E. clear A B IH. destruct (fd_names f) as [|x t] eqn:Fn; [congruence|]. unfold fd_key in E, Ek. rewrite Fn in E. rewrite E in Ek. cbn [app] in N.
      inversion N as [|? ? N1 N2]; subst. apply N1. apply in_or_app. right. unfold names. apply in_flat_map. exists g. split; [exact Hg|]. rewrite Forall_forall in Ne2. specialize (Ne2 _ Hg).
      destruct (fd_names g) as [|y u]; [congruence|]. now left.
Qed.
Definition well_formed (fs : list field_spec) : Prop := Forall missing_ok fs /\ Forall (fun f => fd_names f <> []) fs /\ NoDup (names fs).
Lemma flat_other fs l r k : well_formed fs -> read_flat fs l = Some r -> ~ In k (names fs) -> sget k r = sget k l.
Proof.
  intros (M & Ne & N) H Hk. unfold read_flat in H. destruct (read_fields fs l) as [a|] eqn:E; [|discriminate]. injection H as <-. rewrite sget_app, sget_rest.
  destruct (@read_fields_get fs l a k M Ne N E) as [A _]. rewrite A.
  - destruct (existsb (String.eqb k) (names fs)) eqn:X; [|reflexivity]. apply existsb_exists in X. destruct X as (y & X1 & X2). apply String.eqb_eq in X2. subst y. contradiction.
  - intros I. apply Hk. apply in_map_iff in I. destruct I as (f & Ef & If). unfold names. apply in_flat_map. exists f. split; [exact If|]. rewrite Forall_forall in Ne. specialize (Ne _ If).
    unfold fd_key in Ef. destruct (fd_names f); [congruence|]. subst. now left.
Qed.
Lemma flat_field fs l r f : well_formed fs -> read_flat fs l = Some r -> In f fs -> exists a, read_field f l = Some a /\ sget (fd_key f) r = sget (fd_key f) a.
Proof.
  intros (M & Ne & N) H Hf. unfold read_flat in H. destruct (read_fields fs l) as [a|] eqn:E; [|discriminate]. injection H as <-. rewrite sget_app, sget_rest.
  destruct (@read_fields_get fs l a (fd_key f) M Ne N E) as [_ B]. destruct (B f Hf eq_refl) as (b & B1 & B2). exists b. split; [exact B1|]. rewrite B2.
  destruct (sget (fd_key f) b); [reflexivity|]. assert (existsb (String.eqb (fd_key f)) (names fs) = true) as ->; [|reflexivity].
  apply existsb_exists. exists (fd_key f). split; [|apply String.eqb_refl]. unfold names. apply in_flat_map. exists f. split; [exact Hf|]. rewrite Forall_forall in Ne. specialize (Ne _ Hf).
  unfold fd_key. destruct (fd_names f); [congruence|]. now left.
Qed.
Lemma flat_alias fs l r f k : well_formed fs -> read_flat fs l = Some r -> In f fs -> In k (fd_names f) -> k <> fd_key f -> sget k r = None.
Proof.
  intros (M & Ne & N) H Hf Hk Nk. unfold read_flat in H. destruct (read_fields fs l) as [a|] eqn:E; [|discriminate]. injection H as <-. rewrite sget_app, sget_rest.
  destruct (@read_fields_get fs l a k M Ne N E) as [A _]. assert (Ik : In k (names fs)) by (unfold names; apply in_flat_map; eauto). rewrite A.
  - assert (existsb (String.eqb k) (names fs) = true) as ->; [|reflexivity]. apply existsb_exists. exists k. split; [exact Ik|apply String.eqb_refl].
  - intros I. apply in_map_iff in I. destruct I as (g & Eg & Ig). apply Nk. rewrite <- Eg. f_equal. clear -Hf Hk Ig Eg Ne N. rewrite Forall_forall in Ne. specialize (Ne _ Ig).
    assert (Kg : In k (fd_names g)) by (unfold fd_key in Eg; destruct (fd_names g); [congruence|]; subst; now left). clear Eg Ne. induction fs as [|h fs IH]; [destruct Hf|].
    unfold names in N. cbn [flat_map] in N. fold (names fs) in N.
    assert (D : forall f', In f' fs -> In k (fd_names f') -> In k (fd_names h) -> False).
    { intros f' I1 I2 I3. clear -N I1 I2 I3. assert (In k (names fs)) as Ik by (unfold names; apply in_flat_map; eauto). revert N I3 Ik. generalize (names fs). induction (fd_names h) as [|x t IHt]; intros u N I3 Ik; [destruct I3|].
      cbn [app] in N. inversion N as [|? ? N1 N2]; subst. destruct I3 as [->|I3]; [apply N1; apply in_or_app; auto|eauto]. }
    assert (Nf : NoDup (names fs)) by (clear -N; induction (fd_names h) as [|x t IHt]; [exact N|inversion N; auto]).
    destruct Hf as [->|Hf], Ig as [->|Ig]; auto; exfalso; eauto.
Qed.

(** the member a field is read from *)
Lemma filter_one P (l : list (string * json)) k : NoDup (map fst l) -> (forall e, In e l -> P e = true -> fst e = k) -> (forall v, P (k, v) = true) ->
  filter P l = match sget k l with Some v => [(k, v)] | None => [] end.
Proof.
  intros N H Pk. induction l as [|[k' v] l IH]; cbn [filter aget]; [reflexivity|]. cbn [map fst] in N. inversion N as [|? ? N1 N2]; subst.
  specialize (IH N2 (fun e I => H e (or_intror I))). destruct (String.eqb_spec k k') as [->|Ne].
  - rewrite Pk. f_equal. rewrite IH. assert (sget k' l = None) as ->; [|reflexivity]. apply aget_None; [apply seqb_spec|exact N1].
  - destruct (P (k', v)) eqn:E; [|exact IH]. apply (H _ (or_introl eq_refl)) in E. cbn in E. congruence.
Qed.
Lemma field_single k c h m l : NoDup (map fst l) ->
  read_field (mkField [k] c h m) l = match sget k l with None => Some m | Some v => match c v with Some w => Some (if h w then [] else [(k, w)]) | None => None end end.
Proof.
  intros N. unfold read_field, is_named. cbn [fd_names fd_read fd_hide fd_missing fd_key existsb]. rewrite (@filter_one _ l k N).
  - destruct (sget k l); reflexivity.
  - intros e _ E. cbn in E. rewrite orb_false_r in E. now apply String.eqb_eq in E.
  - intros v. cbn. now rewrite String.eqb_refl.
Qed.
Lemma field_alias k a c h m l : NoDup (map fst l) -> k <> a ->
  read_field (mkField [k; a] c h m) l = match sget k l, sget a l with
    | None, None => Some m
    | Some v, None | None, Some v => match c v with Some w => Some (if h w then [] else [(k, w)]) | None => None end
    | Some _, Some _ => None
    end.
Proof.
  intros N Na. unfold read_field, is_named. cbn [fd_names fd_read fd_hide fd_missing fd_key existsb].
  induction l as [|[k' v] l IH]; cbn [filter aget fst]; [reflexivity|]. cbn [map fst] in N. inversion N as [|? ? N1 N2]; subst. rewrite orb_false_r in *.
  assert (Hk : forall x, filter (fun e => String.eqb (fst e) k || (String.eqb (fst e) a || false)) l = x -> x = match sget k l, sget a l with None, None => [] | _, _ => x end).
  { intros x <-. destruct (sget k l) eqn:E1; [reflexivity|]. destruct (sget a l) eqn:E2; [reflexivity|]. apply aget_None in E1, E2; try apply seqb_spec.
    clear -E1 E2. induction l as [|[k' v'] l IH]; [reflexivity|]. cbn [map fst filter] in *. destruct (String.eqb_spec k' k) as [->|_]; [destruct E1; now left|].
    destruct (String.eqb_spec k' a) as [->|_]; [destruct E2; now left|]. cbn. apply IH; intros I; [apply E1|apply E2]; now right. }
  rewrite !(String.eqb_sym k'). destruct (String.eqb_spec k k') as [<-|Nk].
  - destruct (String.eqb_spec a k) as [->|_]; [congruence|]. cbn [orb]. assert (sget k l = None) as Ek by (apply aget_None; [apply seqb_spec|exact N1]).
    rewrite Ek in *. destruct (sget a l) as [va|] eqn:Ea.
    + destruct (filter _ l) as [|e t] eqn:F; [|destruct e; reflexivity]. exfalso. apply aget_In in Ea; [|apply seqb_spec].
      assert (In (a, va) (filter (fun e => String.eqb (fst e) k || (String.eqb (fst e) a || false)) l)) as I by (apply filter_In; split; [exact Ea|cbn; rewrite String.eqb_refl; cbn; now rewrite orb_true_r]).
      rewrite F in I. destruct I.
    + rewrite (Hk _ eq_refl). reflexivity.
  - cbn [orb]. destruct (String.eqb_spec a k') as [<-|Na'].
    + assert (sget a l = None) as Ea by (apply aget_None; [apply seqb_spec|exact N1]). cbn [orb]. rewrite Ea in *. destruct (sget k l) as [vk|] eqn:Ek.
      * destruct (filter _ l) as [|e t] eqn:F; [|destruct e; reflexivity]. exfalso. apply aget_In in Ek; [|apply seqb_spec].
        assert (In (k, vk) (filter (fun e => String.eqb (fst e) k || (String.eqb (fst e) a || false)) l)) as I by (apply filter_In; split; [exact Ek|cbn; now rewrite String.eqb_refl]).
        rewrite F in I. destruct I.
      * rewrite (Hk _ eq_refl). reflexivity.
    + cbn [orb]. exact (IH N2).
Qed.
