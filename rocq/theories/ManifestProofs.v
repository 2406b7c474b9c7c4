(** * The manifest read from a value, and what edits of package.json do to it *)
From Verif Require Import Base Types StdPath JsonModel JsonSpec JsonProofs JsonRead ResolverModel ResolverDecl Kdl ManifestRead.
Open Scope list_scope.
Open Scope string_scope.

(** what the manifest asks for in one of its sections *)
Definition in_section (m : manifest) (t : deptype) : list (string * string) :=
  match t with Prod => m_deps m | Opt => m_opt m | Dev => m_dev m | Peer => [] end.
(** the key of a section in package.json *)
Definition section_key (t : deptype) : string :=
  match t with Prod => "dependencies" | Opt => "optionalDependencies" | Dev => "devDependencies" | Peer => "peerDependencies" end.
(** the section chosen by the options of add *)
Definition add_kind (dev opt : bool) : deptype := if dev then Dev else if opt then Opt else Prod.
Lemma section_key_section t : dependency_section (section_key t).
Proof. unfold dependency_section. destruct t; cbn; auto. Qed.
Lemma section_of_key s : dependency_section s -> exists t, s = section_key t.
Proof. intros [->|[->|[->| ->]]]; [exists Prod|exists Dev|exists Opt|exists Peer]; reflexivity. Qed.
Lemma add_kind_key dev opt : section_key (add_kind dev opt) = dep_kind dev opt.
Proof. destruct dev, opt; reflexivity. Qed.
Lemma section_key_inj a b : section_key a = section_key b -> a = b.
Proof. destruct a, b; cbn; intros H; try reflexivity; discriminate H. Qed.

Lemma texts_get l : forall r, texts l = Some r -> map fst r = map fst l /\ forall x s, sget x r = Some s <-> sget x l = Some (JStr s).
Proof.
  induction l as [|[k v] l IH]; cbn [texts]; intros r H.
  - injection H as <-. split; [reflexivity|]. intros x s. cbn. split; intros E; discriminate E.
  - destruct v as [ | | |s0| |]; try discriminate. destruct (texts l) as [r0|]; cbn in H; [|discriminate]. injection H as <-. destruct (IH _ eq_refl) as (A & B).
    split; [cbn [map fst]; now rewrite A|]. intros x s. unfold sget in *. cbn [aget]. destruct (String.eqb x k); [|apply B]. split; intros E; injection E as ->; reflexivity.
Qed.
Lemma texts_ok l : (exists r, texts l = Some r) <-> Forall (fun e => exists s, snd e = JStr s) l.
Proof.
  induction l as [|[k v] l IH]; cbn [texts]; [split; eauto|]. destruct IH as [A B]. split.
  - intros (r & H). destruct v as [ | | |s0| |]; try discriminate. destruct (texts l) as [r0|]; cbn in H; [|discriminate]. constructor; [cbn; eauto|apply A; eauto].
  - intros F. destruct (Forall_inv F) as (s & E). cbn in E. subst v. destruct (B (Forall_inv_tail F)) as (r & ->). cbn. eauto.
Qed.

(** a section that can be read: missing, or an object of strings *)
Definition plain_section (o : option json) : Prop := match o with None => True | Some v => exists l, v = JObj l /\ Forall (fun e => exists s, snd e = JStr s) l end.
Lemma deps_section_ok sec l : (exists r, deps_section sec l = Some r) <-> plain_section (field (JObj l) sec).
Proof.
  unfold deps_section, plain_section. cbn [field]. destruct (sget sec l) as [o|]; [|split; eauto]. split.
  - intros (r & H). destruct o as [ | | | | |lo]; try discriminate. exists lo. split; [reflexivity|]. apply texts_ok. eauto.
  - intros (lo & -> & F). apply texts_ok in F. exact F.
Qed.
Lemma deps_section_get sec l r : deps_section sec l = Some r -> forall x s, sget x r = Some s <-> dep_of (JObj l) sec x = Some (JStr s).
Proof.
  unfold deps_section, dep_of. cbn [field]. intros H x s. destruct (sget sec l) as [o|].
  - destruct o as [ | | | | |lo]; try discriminate. cbn [field]. now apply (texts_get lo).
  - injection H as <-. cbn. split; intros E; discriminate E.
Qed.

Section M.
  Variable vparses : string -> bool.
  Notation corgi := (corgi vparses).
  (** the fields of package.json that are not dependency sections and still must have the right form: the name is missing, null
      or a text; the version is missing, null or a semantic version; the bundled dependencies are missing, null, true or false,
      or a list of texts, and are not given under both of their names *)
  Definition bundle_form (o : option json) : Prop :=
    o = None \/ o = Some JNull \/ (exists b, o = Some (JBool b)) \/ exists l, o = Some (JArr (map JStr l)).
  Definition plain_header (v : json) : Prop :=
    (field v "name" = None \/ field v "name" = Some JNull \/ exists s, field v "name" = Some (JStr s))
    /\ (field v "version" = None \/ field v "version" = Some JNull \/ exists s, field v "version" = Some (JStr s) /\ vparses s = true)
    /\ bundle_form (field v "bundledDependencies") /\ bundle_form (field v "bundleDependencies")
    /\ (field v "bundledDependencies" = None \/ field v "bundleDependencies" = None).
  Lemma name_form o : ok_name o = true <-> o = None \/ o = Some JNull \/ exists s, o = Some (JStr s).
  Proof.
    split.
    - destruct o as [[ | | | | | ]|]; try discriminate; eauto.
    - intros [->|[->|(s & ->)]]; reflexivity.
  Qed.
  Lemma version_form o : ok_version vparses o = true <-> o = None \/ o = Some JNull \/ exists s, o = Some (JStr s) /\ vparses s = true.
  Proof.
    split.
    - destruct o as [[ | | | | | ]|]; try discriminate; cbn; eauto.
    - intros [->|[->|(s & -> & H)]]; auto.
  Qed.
  Lemma bundled_form o : ok_bundled o = true <-> bundle_form o.
  Proof.
    unfold bundle_form. split.
    - destruct o as [[ | | | |l| ]|]; try discriminate; eauto. cbn. intros H. right. right. right. induction l as [|x l IH]; [exists []; reflexivity|]. cbn in H. destruct x; try discriminate.
      destruct (IH H) as (l' & E). injection E as ->. exists (s :: l'). reflexivity.
    - intros [->|[->|[(b & ->)|(l & ->)]]]; try reflexivity. cbn. induction l; cbn; auto.
  Qed.

  Lemma corgi_ok v : (exists m, corgi v = Some m) <-> is_obj v = true /\ plain_header v /\ forall sec, dependency_section sec -> plain_section (field v sec).
  Proof.
    unfold corgi, plain_header. destruct v as [ | | | | |l]; try (split; [intros (m & H); discriminate|intros (H & _); discriminate]). cbn [is_obj field].
    set (c := ok_name (sget "name" l) && _ && _ && _ && _).
    rewrite <- name_form, <- version_form, <- !bundled_form.
    assert (C : c = true <-> ok_name (sget "name" l) = true /\ ok_version vparses (sget "version" l) = true /\ ok_bundled (sget "bundledDependencies" l) = true
      /\ ok_bundled (sget "bundleDependencies" l) = true /\ (sget "bundledDependencies" l = None \/ sget "bundleDependencies" l = None)).
    { unfold c. rewrite !andb_true_iff, negb_true_iff. destruct (sget "bundledDependencies" l), (sget "bundleDependencies" l); split; intros; intuition congruence. }
    destruct c.
    - pose proof (deps_section_ok "dependencies" l) as D1. pose proof (deps_section_ok "optionalDependencies" l) as D2.
      pose proof (deps_section_ok "devDependencies" l) as D3. pose proof (deps_section_ok "peerDependencies" l) as D4.
      change (field (JObj l)) with (fun s => sget s l) in *. cbn beta in *. split.
      + intros (m & H). split; [reflexivity|]. split; [apply C; reflexivity|].
        destruct (deps_section "dependencies" l); [|discriminate]. destruct (deps_section "optionalDependencies" l); [|discriminate].
        destruct (deps_section "devDependencies" l); [|discriminate]. destruct (deps_section "peerDependencies" l); [|discriminate].
        intros sec [->|[->|[->| ->]]]; [apply D1|apply D3|apply D2|apply D4]; eauto.
      + intros (_ & _ & H). destruct (proj2 D1 (H _ (or_introl eq_refl))) as (r1 & ->). destruct (proj2 D3 (H _ (or_intror (or_introl eq_refl)))) as (r3 & ->).
        destruct (proj2 D2 (H _ (or_intror (or_intror (or_introl eq_refl))))) as (r2 & ->). destruct (proj2 D4 (H _ (or_intror (or_intror (or_intror eq_refl))))) as (r4 & ->). eauto.
    - split; [intros (m & H); discriminate|]. intros (_ & H & _). apply C in H. discriminate.
  Qed.
  Lemma corgi_get v m : corgi v = Some m -> forall t x s, t <> Peer -> (sget x (in_section m t) = Some s <-> dep_of v (section_key t) x = Some (JStr s)).
  Proof.
    unfold corgi. destruct v as [ | | | | |l]; try discriminate. match goal with |- context [if ?c then _ else _] => destruct c end; [|discriminate].
    destruct (deps_section "dependencies" l) as [r1|] eqn:E1; [|discriminate]. destruct (deps_section "optionalDependencies" l) as [r2|] eqn:E2; [|discriminate].
    destruct (deps_section "devDependencies" l) as [r3|] eqn:E3; [|discriminate]. destruct (deps_section "peerDependencies" l) as [r4|]; [|discriminate].
    intros H. injection H as <-. intros t x s Ht. destruct t; [| |contradiction|]; cbn [in_section section_key m_deps m_opt m_dev]; now apply deps_section_get.
  Qed.
  Lemma corgi_dep v m : corgi v = Some m -> forall t x j, t <> Peer -> dep_of v (section_key t) x = Some j -> exists s, j = JStr s.
  Proof.
    intros H t x j Ht E. destruct (proj1 (corgi_ok v) (ex_intro _ m H)) as (_ & _ & P). specialize (P _ (section_key_section t)).
    unfold dep_of in E. destruct (field v (section_key t)) as [o|]; [|discriminate]. cbn in P. destruct P as (l & -> & F). cbn [field] in E.
    apply aget_In in E; [|apply seqb_spec]. exact (proj1 (Forall_forall _ _) F _ E).
  Qed.
  (** each section of the manifest is determined by what package.json says *)
  Lemma corgi_says v m : corgi v = Some m -> forall t x, t <> Peer -> dep_of v (section_key t) x = option_map JStr (sget x (in_section m t)).
  Proof.
    intros H t x Ht. pose proof (fun s => corgi_get v m H t x s Ht) as G. destruct (sget x (in_section m t)) as [s|] eqn:E; cbn [option_map].
    - now apply G.
    - destruct (dep_of v (section_key t) x) as [j|] eqn:Ed; [|reflexivity]. destruct (corgi_dep v m H t x j Ht Ed) as (s & ->).
      pose proof (proj2 (G s) eq_refl) as G'. discriminate G'.
  Qed.
  Lemma corgi_nodup v m : jwf v -> corgi v = Some m -> forall t, NoDup (map fst (in_section m t)).
  Proof.
    unfold corgi. destruct v as [ | | | | |l]; try discriminate. intros W. match goal with |- context [if ?c then _ else _] => destruct c end; [|discriminate].
    assert (D : forall sec r, deps_section sec l = Some r -> NoDup (map fst r)).
    { intros sec r E. unfold deps_section in E. inversion W as [ | | | | |l' N F]; subst l'. destruct (sget sec l) as [o|] eqn:Eo; [|injection E as <-; constructor].
      destruct o as [ | | | | |lo]; try discriminate. rewrite (proj1 (texts_get lo _ E)). apply aget_In in Eo; [|apply seqb_spec].
      pose proof (proj1 (Forall_forall _ _) F _ Eo) as Wo. cbn in Wo. inversion Wo; auto. }
    destruct (deps_section "dependencies" l) as [r1|] eqn:E1; [|discriminate]. destruct (deps_section "optionalDependencies" l) as [r2|] eqn:E2; [|discriminate].
    destruct (deps_section "devDependencies" l) as [r3|] eqn:E3; [|discriminate]. destruct (deps_section "peerDependencies" l) as [r4|]; [|discriminate].
    intros H. injection H as <-. intros t. destruct t; cbn [in_section m_deps m_opt m_dev]; eauto. constructor.
  Qed.

  (** edits keep package.json readable *)
  Definition sections_plain (v : json) : Prop := forall sec, dependency_section sec -> plain_section (field v sec).
  Lemma swap_In (V : Type) k (l : list (string * V)) e : In e (swap_remove k l) -> In e l.
  Proof.
    induction l as [|[k' v] l IH]; cbn [swap_remove]; [auto|]. destruct (String.eqb k k').
    - intros H. right. destruct (rev l) as [|a r] eqn:E; [destruct H|]. assert (In e (rev l)); [|now apply in_rev]. rewrite E. destruct H as [<-|H]; [now left|]. right. now apply in_rev in H.
    - intros [<-|H]; [now left|right; auto].
  Qed.
  Lemma remove_in_plain name ty v : sections_plain v -> sections_plain (fst (remove_in name ty v)).
  Proof.
    intros H sec Hs. unfold remove_in. destruct v as [ | | | | |l]; try exact (H sec Hs). destruct (sget ty l) as [o|] eqn:E; [|exact (H sec Hs)].
    destruct o as [ | | | | |lo]; try exact (H sec Hs). destruct (sget name lo) eqn:En; [|exact (H sec Hs)]. cbn [fst field].
    destruct (String.eqb_spec sec ty) as [->|N]; [|rewrite sget_sput_neq by exact N; exact (H sec Hs)]. rewrite sget_sput_eq. cbn. eexists. split; [reflexivity|].
    specialize (H ty Hs). cbn [field] in H. rewrite E in H. destruct H as (l0 & E0 & F). injection E0 as <-. apply Forall_forall. intros e He.
    exact (proj1 (Forall_forall _ _) F e (swap_In _ _ _ _ He)).
  Qed.
  Lemma remove_from_plain name v : sections_plain v -> sections_plain (fst (remove_from_manifest name v)).
  Proof.
    unfold remove_from_manifest. assert (G : forall tys acc, sections_plain (fst acc) ->
      sections_plain (fst (fold_left (fun (acc : json * nat) ty => let '(w, n) := remove_in name ty (fst acc) in (w, snd acc + n)) tys acc))).
    { induction tys as [|ty tys IH]; cbn [fold_left]; intros acc H; [exact H|]. apply IH. pose proof (remove_in_plain name ty (fst acc) H) as R.
      destruct (remove_in name ty (fst acc)). exact R. }
    intros H. exact (G sections (v, 0) H).
  Qed.
  Lemma add_to_plain dev opt name spec v w : sections_plain v -> add_to_manifest dev opt name spec v = Ok w -> sections_plain w.
  Proof.
    unfold add_to_manifest. set (K := dep_kind dev opt). clearbody K. intros H E sec Hs. destruct v as [ | | | | |l]; cbn [jupdate rbind] in E; try discriminate.
    - injection E as <-. cbn [field]. unfold sget. cbn [aget]. destruct (String.eqb sec K); [|exact I]. cbn. eexists. split; [reflexivity|]. constructor; [cbn; eauto|constructor].
    - destruct (sget K l) as [o|] eqn:Eo.
      + destruct o as [ | | | | |lo]; cbn [jupdate rbind] in E; try discriminate; injection E as <-; cbn [field].
        * destruct (String.eqb_spec sec K) as [->|N]; [|rewrite sget_sput_neq by exact N; exact (H sec Hs)]. rewrite sget_sput_eq. cbn. eexists. split; [reflexivity|]. constructor; [cbn; eauto|constructor].
        * destruct (String.eqb_spec sec K) as [->|N]; [|rewrite sget_sput_neq by exact N; exact (H sec Hs)]. rewrite sget_sput_eq. cbn. eexists. split; [reflexivity|].
          specialize (H K Hs). cbn [field] in H. rewrite Eo in H. destruct H as (l0 & E0 & F). injection E0 as <-. apply Forall_forall. intros [k x] He.
          assert (In (k, x) lo \/ x = JStr spec) as [Hin| ->]; [|exact (proj1 (Forall_forall _ _) F _ Hin)|cbn; eauto].
          { clear - He. revert He. unfold sput. induction lo as [|[k0 v0] lo IH]; cbn [aput]; [intros [E|[]]; injection E; auto|]. destruct (String.eqb name k0); cbn [In].
            - intros [E|Hi]; [injection E; auto|auto].
            - intros [E|Hi]; [auto|]. destruct (IH Hi); auto. }
      + cbn [jupdate rbind] in E. injection E as <-. cbn [field]. destruct (String.eqb_spec sec K) as [->|N]; [|rewrite sget_sput_neq by exact N; exact (H sec Hs)].
        rewrite sget_sput_eq. cbn. eexists. split; [reflexivity|]. constructor; [cbn; eauto|constructor].
  Qed.
  Lemma remove_names_plain parse names : forall v c w n, sections_plain v -> remove_names parse names v c = Ok (w, n) -> sections_plain w.
  Proof.
    induction names as [|a names IH]; cbn [remove_names]; intros v c w n H E; [injection E as <- _; exact H|].
    destruct (parse a) as [[?|?|sc nm r|?]| |]; try discriminate. pose proof (remove_from_plain nm v H) as R. destruct (remove_from_manifest nm v) as [v1 c1]. eapply IH; eauto.
  Qed.
  Lemma add_specs_plain resolve parse vshow gitshow req prefix dev opt specs : forall v w, sections_plain v ->
    add_specs resolve parse vshow gitshow req prefix dev opt specs v = Ok w -> sections_plain w.
  Proof.
    induction specs as [|s specs IH]; cbn [add_specs]; intros v w H E; [injection E as <-; exact H|].
    destruct (resolve s) as [pkg| |]; cbn [rbind] in E; try discriminate. destruct (recorded parse vshow gitshow req prefix s pkg) as [r| |]; cbn [rbind] in E; try discriminate.
    destruct (add_to_manifest dev opt (pk_name pkg) r (fst (remove_from_manifest (pk_name pkg) v))) as [v2| |] eqn:Ea; cbn [rbind] in E; try discriminate.
    eapply IH; [|exact E]. eapply add_to_plain; [|exact Ea]. now apply remove_from_plain.
  Qed.

  Lemma header_same v w : (forall k, ~ dependency_section k -> field w k = field v k) -> plain_header v -> plain_header w.
  Proof.
    intros H. unfold plain_header. rewrite !H; [auto|..]; intros [E|[E|[E|E]]]; discriminate E.
  Qed.

  (** ** what the resolver asks for *)
  Lemma last_entry_alone x s l : (forall y, In y (map fst l) -> ufold y = ufold x -> y = x) -> NoDup (map fst l) -> sget x l = Some s -> last_entry (ufold x) l = Some (x, s).
  Proof.
    induction l as [|[k v] l IH]; cbn [last_entry]; intros Hu N G; [discriminate G|]. cbn [map fst] in N. apply NoDup_cons_iff in N. destruct N as [Nk N].
    unfold sget in G. cbn [aget] in G. destruct (String.eqb_spec x k) as [->|Ne].
    - injection G as ->. replace (last_entry (ufold k) l) with (@None (string * string)); [now rewrite String.eqb_refl|]. symmetry.
      assert (Hn : forall y, In y (map fst l) -> ufold y <> ufold k). { intros y Hy E. assert (y = k) by (apply Hu; [now right|exact E]). subst y. auto. }
      clear - Hn. induction l as [|[k' v'] l IH]; cbn [last_entry]; [reflexivity|]. rewrite IH by (intros y Hy; apply Hn; now right).
      destruct (String.eqb_spec (ufold k') (ufold k)) as [E|]; [|reflexivity]. destruct (Hn k' (or_introl eq_refl) E).
    - rewrite IH; auto. intros y Hy. apply Hu. now right.
  Qed.
  Lemma last_entry_none x l : (forall y, In y (map fst l) -> ufold y <> ufold x) -> last_entry (ufold x) l = None.
  Proof.
    induction l as [|[k v] l IH]; cbn [last_entry]; intros H; [reflexivity|]. rewrite IH by (intros y Hy; apply H; now right).
    destruct (String.eqb_spec (ufold k) (ufold x)) as [E|]; [|reflexivity]. destruct (H k (or_introl eq_refl) E).
  Qed.
  Lemma last_entry_some x l nm str : last_entry x l = Some (nm, str) -> In (nm, str) l /\ ufold nm = x.
  Proof.
    induction l as [|[k v] l IH]; cbn [last_entry]; [discriminate|]. destruct (last_entry x l) as [[a b]|].
    - intros H. injection H as -> ->. destruct (IH eq_refl). split; [now right|auto].
    - destruct (String.eqb_spec (ufold k) x); [|discriminate]. intros H. injection H as -> ->. split; [now left|auto].
  Qed.
End M.

Lemma add_reqs_parses parse_dep l t : forall acc r, add_reqs parse_dep l t acc = Ok r -> forall x s, In (x, s) l -> exists sp, parse_dep x s = Ok sp.
Proof.
  induction l as [|[nm str] l IH]; cbn [add_reqs]; intros acc r H x s Hin; [destruct Hin|].
  destruct (parse_dep nm str) as [sp| |] eqn:Ep; cbn [rbind] in H; try discriminate. destruct Hin as [E|Hin]; [injection E as <- <-; eauto|eauto].
Qed.
Lemma new_node_parses parse_dep name pkg m root : new_node parse_dep name pkg m true = Ok root -> forall k x s, k <> Peer -> In (x, s) (in_section m k) -> exists sp, parse_dep x s = Ok sp.
Proof.
  unfold new_node. intros H k x s Hk Hin.
  destruct (add_reqs parse_dep (m_deps m) Prod []) as [r1| |] eqn:E1; cbn [rbind] in H; try discriminate.
  destruct (add_reqs parse_dep (m_opt m) Opt r1) as [r2| |] eqn:E2; cbn [rbind] in H; try discriminate.
  destruct (add_reqs parse_dep (m_dev m) Dev r2) as [r3| |] eqn:E3; cbn [rbind] in H; try discriminate.
  destruct k; [| |contradiction|]; cbn [in_section] in Hin; eauto using add_reqs_parses.
Qed.

Lemma add_specs_obj resolve parse vshow gitshow req prefix dev opt specs : forall v w, is_obj v = true ->
  add_specs resolve parse vshow gitshow req prefix dev opt specs v = Ok w -> is_obj w = true.
Proof.
  induction specs as [|s specs IH]; cbn [add_specs]; intros v w O E; [injection E as <-; exact O|].
  destruct (resolve s) as [pkg| |]; cbn [rbind] in E; try discriminate. destruct (recorded parse vshow gitshow req prefix s pkg) as [r| |]; cbn [rbind] in E; try discriminate.
  destruct (add_to_manifest dev opt (pk_name pkg) r (fst (remove_from_manifest (pk_name pkg) v))) as [v2| |] eqn:E3; cbn [rbind] in E; try discriminate.
  apply (IH v2 w); [|exact E]. unfold add_to_manifest in E3. destruct (fst (remove_from_manifest (pk_name pkg) v)) as [ | | | | |l0]; cbn [jupdate rbind] in E3; try discriminate E3.
  - injection E3 as <-. reflexivity.
  - destruct (match sget (dep_kind dev opt) l0 with Some x => x | None => JNull end) as [ | | | | |l2]; cbn [jupdate rbind] in E3; try discriminate E3; injection E3 as <-; reflexivity.
Qed.
