(** * oro view: what is printed is a JSON document again, every member once *)
From Verif Require Import Base Types StdPath JsonModel JsonSpec JsonPrint JsonRead JsonReadProofs JsonReadThms ResolverModel Kdl VersionModel ManifestRead PackumentModel BinModel ViewModel ViewProofs JsonSpec.
Open Scope string_scope.
Open Scope list_scope.

Lemma pretty_layout v : (serde_pretty 0 v ++ s1 nl)%string = layout "  " (s1 nl) true v.
Proof. rewrite serde_pr. reflexivity. Qed.

Section Good.
  Variable number : string -> option string.
  Hypothesis Hnum : forall s t, number s = Some t -> read_num t = Some (t, "") /\ number t = Some t.
  Notation good := (good number).
  (** the reader prints a document one level deeper at most *)
  Definition safe (c : reader) : Prop := forall n v w, good n v -> c v = Some w -> good (Datatypes.S n) w.

  Lemma good_up n v : good n v -> good (Datatypes.S n) v.
  Proof. intros (A & B & C). repeat split; auto. Qed.
  Lemma good_le n m v : n <= m -> good n v -> good m v.
  Proof. intros L (A & B & C). repeat split; auto. lia. Qed.
  Lemma good_null n : good n JNull.
  Proof. repeat split; [constructor|constructor|cbn; lia]. Qed.
  Lemma good_bool n b : good n (JBool b).
  Proof. repeat split; [constructor|constructor|cbn; lia]. Qed.
  Lemma good_str n s : good n (JStr s).
  Proof. repeat split; [constructor|constructor|cbn; lia]. Qed.
  Lemma good_items n l : good n (JArr l) -> exists m, n = Datatypes.S m /\ Forall (good m) l.
  Proof.
    intros (W & J & D). cbn [jdepth] in D. destruct n as [|n]; [lia|]. exists n. split; [reflexivity|]. inversion W; subst. inversion J; subst.
    rewrite Forall_forall in *. intros x Hx. split; [auto|]. split; [auto|]. pose proof (@list_max_le (jdepth x) (map jdepth l) (in_map jdepth l x Hx)). lia.
  Qed.
  Lemma good_members n l : good n (JObj l) -> exists m, n = Datatypes.S m /\ NoDup (map fst l) /\ Forall (fun x => good m (snd x)) l.
  Proof.
    intros (W & J & D). cbn [jdepth] in D. destruct n as [|n]; [lia|]. exists n. split; [reflexivity|]. inversion W; subst. inversion J; subst. split; [auto|].
    rewrite Forall_forall in *. intros x Hx. split; [auto|]. split; [auto|]. pose proof (@list_max_le (jdepth (snd x)) (map (fun e => jdepth (snd e)) l) (in_map (fun e => jdepth (snd e)) l x Hx)). lia.
  Qed.

  Lemma safe_text : safe c_text. Proof. intros n v w G H. destruct v; try discriminate. injection H as <-. apply good_str. Qed.
  Lemma safe_bool : safe c_bool. Proof. intros n v w G H. destruct v; try discriminate. injection H as <-. apply good_bool. Qed.
  Lemma safe_any : safe c_any. Proof. intros n v w G H. injection H as <-. now apply good_up. Qed.
  Lemma safe_opt c : safe c -> safe (c_opt c).
  Proof. intros S n v w G H. destruct v; try (eapply S; [exact G|exact H]). injection H as <-. apply good_null. Qed.
  Lemma safe_or a b : safe a -> safe b -> safe (c_or a b).
  Proof. intros A B n v w G H. unfold c_or in H. destruct (a v) eqn:E; [injection H as <-; eapply A; eauto|eapply B; eauto]. Qed.
  Lemma safe_list c : safe c -> safe (c_list c).
  Proof.
    intros S n v w G H. destruct v as [ | | | |l| ]; try discriminate. cbn in H. destruct (c_all c l) as [r|] eqn:E; [|discriminate]. injection H as <-.
    destruct (good_items _ _ G) as (m & -> & F). apply good_arr. revert r E. clear G. induction F as [|x l Gx F IH]; intros r E; cbn in E; [injection E as <-; constructor|].
    destruct (c x) as [y|] eqn:Ex; [|discriminate]. destruct (c_all c l) as [r'|]; [|discriminate]. injection E as <-. constructor; [eapply S; eauto|auto].
  Qed.
  Lemma c_vals_keys c l r : c_vals c l = Some r -> map fst r = map fst l.
  Proof.
    revert r. induction l as [|[k v] l IH]; intros r E; cbn in E; [injection E as <-; reflexivity|]. destruct (c v); [|discriminate]. destruct (c_vals c l) as [r'|]; [|discriminate]. injection E as <-. cbn. now rewrite (IH r').
  Qed.
  Lemma safe_map c : safe c -> safe (c_map c).
  Proof.
    intros S n v w G H. destruct v as [ | | | | |l]; try discriminate. cbn in H. destruct (c_vals c l) as [r|] eqn:E; [|discriminate]. injection H as <-.
    destruct (good_members _ _ G) as (m & -> & N & F). apply good_obj; [now rewrite (c_vals_keys _ _ _ E)|]. clear G N. revert r E. induction F as [|[k x] l Gx F IH]; intros r E; cbn in E; [injection E as <-; constructor|].
    destruct (c x) as [y|] eqn:Ex; [|discriminate]. destruct (c_vals c l) as [r'|]; [|discriminate]. injection E as <-. constructor; [eapply S; eauto|auto].
  Qed.
  Lemma safe_record fs : NoDup (map fst fs) -> safe (c_record fs).
  Proof.
    intros N n v w G H. destruct v as [ | | | | |l]; try discriminate. cbn in H. destruct (c_fields fs l) as [r|] eqn:E; [|discriminate]. injection H as <-.
    assert (map fst r = map fst fs /\ Forall (fun e => good n (snd e)) r) as (K & F).
    { clear N. revert r E. induction fs as [|[k need] fs IH]; intros r E; cbn [c_fields] in E; [injection E as <-; split; [reflexivity|constructor]|].
      match type of E with match ?m with _ => _ end = _ => destruct m as [w|] eqn:M; [|discriminate] end. destruct (c_fields fs l) as [r'|]; [|discriminate]. injection E as <-. destruct (IH _ eq_refl) as (A & B).
      cbn [map fst]. rewrite A. split; [reflexivity|]. constructor; [|exact B]. cbn [snd].
      destruct (sget k l) as [j|]; [|destruct need; [discriminate|]; injection M as <-; apply good_null].
      destruct need; destruct j; try discriminate; injection M as <-; first [apply good_null|apply good_str]. }
    apply good_obj; [now rewrite K|exact F].
  Qed.

  Lemma field_good n f l r : safe (fd_read f) -> Forall (fun e => good (Datatypes.S n) (snd e)) (fd_missing f) -> Forall (fun e => good n (snd e)) l ->
    read_field f l = Some r -> Forall (fun e => good (Datatypes.S n) (snd e)) r.
  Proof.
    intros S M F H. unfold read_field in H. destruct (filter (fun e => is_named f (fst e)) l) as [|[k v] [|? ?]] eqn:E; try discriminate; [injection H as <-; exact M|].
    assert (I : In (k, v) l) by (eapply (proj1 (filter_In _ (k, v) l)); rewrite E; left; reflexivity). rewrite Forall_forall in F. specialize (F _ I). cbn in F.
    destruct (fd_read f v) as [w|] eqn:Ew; [|discriminate]. injection H as <-. destruct (fd_hide f w); [constructor|]. constructor; [|constructor]. cbn. eapply S; eauto.
  Qed.
  Definition keys_of (f : field_spec) : Prop := forall e, In e (fd_missing f) -> fst e = fd_key f.
  Lemma field_keys f l r : fd_missing f = [] \/ (exists v, fd_missing f = [(fd_key f, v)]) -> read_field f l = Some r -> r = [] \/ exists v, r = [(fd_key f, v)].
  Proof.
    intros M H. unfold read_field in H. destruct (filter (fun e => is_named f (fst e)) l) as [|[k v] [|? ?]]; try discriminate; [injection H as <-; exact M|].
    destruct (fd_read f v) as [w|]; [|discriminate]. injection H as <-. destruct (fd_hide f w); eauto.
  Qed.
  Definition fine (n : nat) (f : field_spec) : Prop :=
    safe (fd_read f) /\ (fd_missing f = [] \/ exists v, fd_missing f = [(fd_key f, v)] /\ good (Datatypes.S n) v) /\ is_named f (fd_key f) = true.
  Lemma flat_good n fs l r : Forall (fine n) fs -> NoDup (map fd_key fs) -> NoDup (map fst l) -> Forall (fun e => good n (snd e)) l ->
    read_flat fs l = Some r -> NoDup (map fst r) /\ Forall (fun e => good (Datatypes.S n) (snd e)) r.
  Proof.
    intros Ff Nk Nl F H. unfold read_flat in H. destruct (read_fields fs l) as [a|] eqn:E; [|discriminate]. injection H as <-.
    assert (A : NoDup (map fst a) /\ incl (map fst a) (map fd_key fs) /\ Forall (fun e => good (Datatypes.S n) (snd e)) a).
    { revert a E. induction Ff as [|f fs Hf Ff IH]; intros a E; cbn [read_fields] in E; [injection E as <-; repeat split; [constructor|intros x []|constructor]|].
      inversion Nk as [|? ? Nf Nk']; subst. destruct (read_field f l) as [b|] eqn:Eb; [|discriminate]. destruct (read_fields fs l) as [c|] eqn:Ec; [|discriminate]. injection E as <-.
      destruct (IH Nk' _ eq_refl) as (A1 & A2 & A3). destruct Hf as (S & M & _).
      assert (G : Forall (fun e => good (Datatypes.S n) (snd e)) b).
      { eapply field_good; [exact S| |exact F|exact Eb]. destruct M as [->|(w & -> & G)]; [constructor|constructor; [exact G|constructor]]. }
      assert (K : b = [] \/ exists v, b = [(fd_key f, v)]) by (eapply field_keys; [|exact Eb]; destruct M as [M|(w & M & _)]; eauto).
      split; [|split].
      - destruct K as [->|(v & ->)]; [exact A1|]. cbn. constructor; [intros I; apply Nf, A2, I|exact A1].
      - rewrite map_app. intros x I. apply in_app_iff in I. destruct I as [I|I]; [|right; now apply A2]. destruct K as [->|(v & ->)]; [destruct I|]. destruct I as [<-|[]]. now left.
      - apply Forall_app. auto. }
    destruct A as (A1 & A2 & A3). split.
    - rewrite map_app. apply NoDup_app_iff_.
      + exact A1.
      + clear - Nl. unfold rest_of. induction l as [|[k v] l IH]; cbn; [constructor|]. inversion Nl as [|? ? Nk Nl']; subst. destruct (negb _); [|auto]. cbn. constructor; [|auto].
        intros I. apply Nk. apply in_map_iff in I. destruct I as (e & <- & I). apply filter_In in I. apply in_map. tauto.
      + intros x I J. apply A2 in I. apply in_map_iff in I. destruct I as (f & <- & If). apply in_map_iff in J. destruct J as (e & Ee & J). apply filter_In in J. destruct J as (_ & J).
        apply negb_true_iff in J. assert (X : existsb (fun f => is_named f (fst e)) fs = true); [|congruence]. apply existsb_exists. exists f. split; [exact If|]. rewrite Ee. rewrite Forall_forall in Ff. now destruct (Ff f If) as (_ & _ & ?).
    - apply Forall_app. split; [exact A3|]. unfold rest_of. rewrite Forall_forall in *. intros e I. apply filter_In in I. apply good_up. now apply F.
  Qed.

  Variable vparse : string -> option version.
  Variable vshow : version -> string.
  Variable rnorm : string -> option string.
  Variable uparse : string -> option string.
  Variable is_count : string -> bool.
  Lemma safe_conv (g : string -> option string) : safe (fun v => match v with JStr s => option_map JStr (g s) | _ => None end).
  Proof. intros n v w G H. destruct v as [ | | |s| | ]; try discriminate. destruct (g s); [|discriminate]. injection H as <-. apply good_str. Qed.
  Lemma safe_version : safe (c_version vparse vshow).
  Proof. intros n v w G H. destruct v as [ | | |s| | ]; try discriminate. cbn in H. destruct (vparse s); [|discriminate]. injection H as <-. apply good_str. Qed.
  Lemma safe_count : safe (c_count is_count).
  Proof. intros n v w G H. destruct v as [ | |s| | | ]; try discriminate. cbn in H. destruct (is_count s); [|discriminate]. injection H as <-. now apply good_up. Qed.
  Lemma safe_engines : safe (c_engines rnorm).
  Proof.
    apply safe_or; [apply safe_map, safe_conv|]. intros n v w G H. injection H as <-. repeat split; [repeat constructor|repeat constructor|cbn; lia].
  Qed.
  Ltac keys := repeat (constructor; [cbn; intros I; repeat (destruct I as [I|I]; [discriminate I|]); exact I|]); constructor.
  Ltac one := split; [|split; [|reflexivity]]; cbn [fd_read fd_missing f_opt f_default];
    [repeat first [exact safe_text|exact safe_bool|exact safe_any|exact safe_version|exact safe_count|exact safe_engines|exact (safe_conv _)|apply safe_opt|apply safe_list|apply safe_map|apply safe_or|apply safe_record; keys]
    |first [left; reflexivity|right; eexists; split; [reflexivity|apply good_null]]].
  Lemma safe_dist : safe (c_dist uparse is_count).
  Proof.
    intros n v w G H. destruct v as [ | | | | |l]; try discriminate. cbn [c_dist] in H. destruct (read_flat (dist_fields uparse is_count) l) as [r|] eqn:E; [|discriminate]. injection H as <-.
    destruct (good_members _ _ G) as (m & -> & N & F).
    destruct (flat_good m (dist_fields uparse is_count) l r) as (A & B); [ |cbn; keys|exact N|exact F|exact E|apply good_obj; assumption].
    repeat (constructor; [one|]). constructor.
  Qed.
  Lemma metadata_good n v r : good n v -> read_metadata vparse vshow rnorm uparse is_count v = Some r -> good (Datatypes.S n) (JObj r).
  Proof.
    intros G H. destruct v as [ | | | | |l]; try discriminate. cbn [read_metadata] in H. destruct (good_members _ _ G) as (m & -> & N & F).
    assert (D : fine m (mkField ["dist"] (c_dist uparse is_count) h_never [("dist", no_dist uparse is_count)])).
    { split; [exact safe_dist|]. split; [|reflexivity]. right. eexists. split; [reflexivity|]. unfold no_dist. cbn [flat_map dist_fields fd_missing app].
      apply good_obj; [cbn; keys|]. repeat (constructor; [apply good_null|]). constructor. }
    destruct (flat_good m (metadata_fields vparse vshow rnorm uparse is_count) l r) as (A & B); [ |cbn; keys|exact N|exact F|exact H|apply good_obj; assumption].
    unfold metadata_fields, version_fields, manifest_fields. cbn [app].
    repeat (constructor; [first [exact D|one]|]). constructor.
  Qed.
  Lemma good_field n v k e : good (Datatypes.S n) v -> field v k = Some e -> good n e.
  Proof.
    intros G H. destruct v as [ | | | | |l]; try discriminate. destruct (good_members _ _ G) as (m & E & _ & F). injection E as <-. cbn [field] in H. apply aget_In in H; [|apply seqb_spec].
    rewrite Forall_forall in F. exact (F _ H).
  Qed.
End Good.
