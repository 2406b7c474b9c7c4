(** * Properties C33 and C35, continued: what login saves, table options, and the project directory *)
From Verif Require Import Base Types Kdl StdPath CliModel CliSpec CliProofs PropsCli AuthModel AuthSpec AuthProofs AccountProofs AccountNext.
Open Scope string_scope.
Open Scope list_scope.

(** ** C35: options that are maps (scoped-registries, auth) *)
Lemma fill_get x l : forall t, NoDup (map fst l) -> (forall k v, In (k, v) l -> scalar v) ->
  sget x (fill l t) = match sget x l with Some v => Some v | None => sget x t end.
Proof.
  induction l as [|[k v] l IH]; intros t Hd Hs; [reflexivity|]. cbn [fill map fst] in *. inversion Hd as [|? ? Hk Hd']; subst.
  rewrite IH by (auto; intros k' v' H; apply (Hs k'); now right). rewrite mset_scalar_eq by (apply (Hs k); now left). cbn [aget].
  destruct (String.eqb_spec x k) as [->|Hn].
  - assert (sget k l = None) as -> by (apply aget_None; [apply seqb_spec|exact Hk]). apply sget_sput_eq.
  - destruct (sget x l); [reflexivity|]. now apply sget_sput_neq.
Qed.
Lemma mset_table_get inc k m x : NoDup (map fst inc) -> (forall k v, In (k, v) inc -> scalar v) ->
  exists t, sget k (mset (CTable inc) k m) = Some (CTable t)
    /\ sget x t = match sget x inc with Some v => Some v | None => match sget k m with Some (CTable t0) => sget x t0 | _ => None end end.
Proof.
  intros Hd Hs. cbn [mset]. rewrite sget_sput_eq.
  change ((fix go (l0 t0 : list (string * cval)) {struct l0} : list (string * cval) := match l0 with [] => t0 | (k', v') :: r => go r (mset v' k' t0) end)) with fill.
  eexists. split; [reflexivity|]. rewrite fill_get by auto. destruct (sget x inc); [reflexivity|]. destruct (sget k m) as [[]|]; reflexivity.
Qed.
Lemma add_layer_at k v layer : forall m, NoDup (map fst layer) -> In (k, v) layer -> exists m', sget k m' = sget k m /\ sget k (add_layer m layer) = sget k (mset v k m').
Proof.
  induction layer as [|[k' v'] l IH]; intros m Hd Hi; [contradiction|]. cbn [map fst] in Hd. inversion Hd; subst. destruct Hi as [E|Hi].
  - injection E as -> ->. exists m. split; [auto|]. unfold add_layer. cbn [fold_left fst snd]. apply (add_layer_none k l).
    intros w Hw. apply H1. change k with (fst (k, w)). now apply in_map.
  - unfold add_layer. cbn [fold_left fst snd]. destruct (IH (mset v' k' m)) as (m' & H' & E); auto.
    exists m'. split; [|exact E]. rewrite H'. apply mset_other. intros ->. apply H1. change k' with (fst (k', v)). now apply in_map.
Qed.
Lemma collect_keys d : NoDup (map fst (collect d)).
Proof. rewrite collect_opts. apply to_map_keys. Qed.
Lemma layer_keys o : NoDup (map fst (file_layer o)).
Proof. destruct o; [apply collect_keys|constructor]. Qed.
(** the value a configuration file gives to key [x] of the map option [o], if any *)
Definition entry_in (o x : string) (file : option kdoc) : option cval :=
  match sget o (file_layer file) with Some (CTable t) => sget x t | _ => None end.
(** [o] is, where a file sets it, a map from names to plain values *)
Definition map_option (o : string) (file : option kdoc) : Prop :=
  forall v, sget o (file_layer file) = Some v -> exists t, v = CTable t /\ NoDup (map fst t) /\ forall k w, In (k, w) t -> scalar w.
Lemma layer_step o x file m : map_option o file -> (sget o m = None \/ exists t, sget o m = Some (CTable t)) ->
  (sget o (add_layer m (file_layer file)) = None \/ exists t, sget o (add_layer m (file_layer file)) = Some (CTable t))
  /\ match sget o (add_layer m (file_layer file)) with Some (CTable t) => sget x t | _ => None end
     = match entry_in o x file with Some v => Some v | None => match sget o m with Some (CTable t) => sget x t | _ => None end end.
Proof.
  intros Hm Hc. unfold entry_in. destruct (sget o (file_layer file)) as [v|] eqn:E.
  - destruct (Hm v E) as (t & -> & Hd & Hs). apply aget_In in E; [|apply seqb_spec].
    destruct (add_layer_at o (CTable t) (file_layer file) m (layer_keys file) E) as (m' & E1 & E2).
    destruct (mset_table_get t o m' x Hd Hs) as (t' & E3 & E4). rewrite E2, E3. split; [eauto|]. now rewrite E4, E1.
  - assert (N : forall v, ~ In (o, v) (file_layer file)).
    { intros v Hv. apply aget_None in E; [|apply seqb_spec]. apply E. change o with (fst (o, v)). now apply in_map. }
    rewrite (add_layer_none o (file_layer file) m N). auto.
Qed.
(** C35: a map option set in both files: the entries of both, the project's first. (The environment cannot set one.) *)
Theorem C35_tables : forall src o x, (forall v, ~ In (o, v) (src_default src)) -> (forall v, ~ In (o, v) (env_layer (src_env src))) ->
  map_option o (src_global src) -> map_option o (src_project src) ->
  match sget o (load_config src) with Some (CTable t) => sget x t | _ => None end
  = match entry_in o x (src_project src) with Some v => Some v | None => entry_in o x (src_global src) end.
Proof.
  intros src o x Hd He Hg Hp. unfold load_config. set (m0 := add_layer [] _). assert (E0 : sget o m0 = None).
  { unfold m0. rewrite add_layer_none; [reflexivity|]. intros v H. apply in_map_iff in H. destruct H as ([k w] & E & H). injection E as -> _. now apply (Hd w). }
  destruct (layer_step o x (src_global src) m0 Hg (or_introl E0)) as [C1 E1]. rewrite E0 in E1.
  set (m1 := add_layer m0 (file_layer (src_global src))) in *. assert (E2 : sget o (add_layer m1 (env_layer (src_env src))) = sget o m1) by now apply add_layer_none.
  destruct (layer_step o x (src_project src) (add_layer m1 (env_layer (src_env src))) Hp) as [_ E3]; [now rewrite E2|]. rewrite E3, E2, E1.
  destruct (entry_in o x (src_project src)); [reflexivity|]. destruct (entry_in o x (src_global src)); reflexivity.
Qed.

(** ** C35: the default of --root is the nearest directory, from the current one up, with a node_modules directory or a package.json file *)
Theorem C35_project_root : forall A (dirs : list (A * (bool * bool))) d,
  pkg_root dirs = Some d <-> exists below nm pj above_, dirs = below ++ (d, (nm, pj)) :: above_ /\ (nm = true \/ pj = true) /\ Forall (fun e => snd e = (false, false)) below.
Proof.
  intros A dirs d. induction dirs as [|[d0 [nm pj]] dirs IH]; cbn [pkg_root].
  - split; [discriminate|]. intros (b & ? & ? & ? & E & _). destruct b; discriminate E.
  - destruct nm; [|destruct pj].
    + split; [intros H; injection H as ->; exists [], true, pj, dirs; auto|]. intros ([|e b] & nm & pj' & ab & E & H & F); cbn in E; injection E as E1 E2; [now subst|].
      subst e. apply Forall_inv in F. discriminate F.
    + split; [intros H; injection H as ->; exists [], false, true, dirs; auto|]. intros ([|e b] & nm & pj' & ab & E & H & F); cbn in E; injection E as E1 E2; [now subst|].
      subst e. apply Forall_inv in F. discriminate F.
    + rewrite IH. split.
      * intros (b & nm & pj & ab & -> & H & F). exists ((d0, (false, false)) :: b), nm, pj, ab. split; [reflexivity|]. split; [exact H|]. constructor; auto.
      * intros ([|e b] & nm & pj & ab & E & H & F); cbn in E; injection E as E1 E2; [subst; destruct H; discriminate|]. apply Forall_inv_tail in F. exists b, nm, pj, ab. auto.
Qed.
Example C35_root_ex : pkg_root [("/p/x", (false, false)); ("/p", (true, false)); ("/", (false, true))] = Some "/p".
Proof. reflexivity. Qed.
Example C35_tables_ex : let opt n := Some [KNode "options" [] (Some [KNode "scoped-registries" n None])] in
  let src := mkSrc [] (opt [(Some "@a", KStr "g"); (Some "@b", KStr "g")]) [] (opt [(Some "@b", KStr "p")]) in
  map_option "scoped-registries" (src_global src) /\ map_option "scoped-registries" (src_project src)
  /\ sget "scoped-registries" (load_config src) = Some (CTable [("@a", CStr "g"); ("@b", CStr "p")]).
Proof.
  cbv zeta. split; [|split; [|reflexivity]]; intros v H; cbn in H; injection H as <-; eexists; (split; [reflexivity|]); split.
  1, 3: repeat constructor; cbn; intuition discriminate.
  all: intros k w Hk; cbn in Hk; decompose [or] Hk; try contradiction; match goal with H : _ = _ |- _ => injection H as <- <- end; exact I.
Qed.

(** ** C33: what `oro login` saves: the token given, else the user name and password given, else the legacy token given, else
    the token the registry hands out; under the registry, and for the scope if one is given *)
Inductive to_save (a : login_args) (answer : option string) : stored -> Prop :=
| ts_token t : lg_token a = Some t -> to_save a answer (SToken t)
| ts_basic n : lg_token a = None -> lg_user a = Some n -> to_save a answer (SBasic n (lg_pass a))
| ts_legacy t : lg_token a = None -> lg_user a = None -> lg_legacy a = Some t -> to_save a answer (SLegacy t)
| ts_flow t : lg_token a = None -> lg_user a = None -> lg_legacy a = None -> answer = Some t -> to_save a answer (SToken t).
Theorem C33_login : forall uparse reg a answer d d', login uparse reg a answer d = Ok d' <->
  exists c, to_save a answer c /\ d' = perform_all uparse (Save reg c :: match lg_scope a with Some s => [Scope s reg] | None => [] end) d.
Proof.
  intros uparse reg a answer d d'. unfold login, login_cred. split.
  - assert (G : forall c, to_save a answer c -> @Ok err _ (match lg_scope a with Some s => set_scoped_registry s reg (set_credentials uparse reg c d) | None => set_credentials uparse reg c d end) = Ok d' ->
      exists c, to_save a answer c /\ d' = perform_all uparse (Save reg c :: match lg_scope a with Some s => [Scope s reg] | None => [] end) d).
    { intros c Hc H. injection H as <-. exists c. split; [exact Hc|]. destruct (lg_scope a); reflexivity. }
    destruct (lg_token a) eqn:E1; [apply G; now constructor|]. destruct (lg_user a) eqn:E2; [apply G; now constructor|]. destruct (lg_legacy a) eqn:E3; [apply G; now constructor|].
    destruct answer; [apply G; now constructor|discriminate].
  - intros (c & Hc & ->). assert (E : forall c, match lg_scope a with Some s => set_scoped_registry s reg (set_credentials uparse reg c d) | None => set_credentials uparse reg c d end
      = perform_all uparse (Save reg c :: match lg_scope a with Some s => [Scope s reg] | None => [] end) d) by (intros; destruct (lg_scope a); reflexivity).
    destruct Hc as [t H|n H1 H2|t H1 H2 H3|t H1 H2 H3 ->]; rewrite ?H, ?H1, ?H2, ?H3; now rewrite E.
Qed.
(** with C33_next_run: after a login with token t, the next run uses t for that registry *)
Example C33_login_ex : exists d', login (fun _ => None) (mkUrl "https" None (Some "r") None "/" None None) (mkLogin (Some "t") (Some "n") None None (Some "@s")) None [] = Ok d'.
Proof. eexists. reflexivity. Qed.

Print Assumptions C35_tables.
Print Assumptions C35_project_root.
Print Assumptions C33_login.
