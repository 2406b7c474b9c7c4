(** * Properties C34, C35, C36: command-line options, configuration precedence, log retention.
    CliSpec: [clap] reads a command line, [settings o vals] the values given to option [o], [precedence] the layer that should
    win, [typed] that the configuration gives each option a value of its type. *)
From Verif Require Import Base Types Kdl StdPath CliModel CliSpec CliProofs LogProofs.
From Coq Require Import Permutation.
Open Scope string_scope.
Open Scope list_scope.

(** ** C34: KEY=VALUE and {KEY}NAME=VALUE *)
(** KEY=VALUE is split at the first '='; anything else is an error, never a crash. *)
Theorem C34_key_value : forall V (pv : string -> option V) s, parse_key_value pv s <> Panic
  /\ forall k x, parse_key_value pv s = Ok (k, x) <-> exists v, s = (k ++ "=" ++ v)%string /\ no_char "=" k = true /\ pv v = Some x.
Proof. exact (fun V pv s => conj (kv_total V pv s) (fun k x => kv_exact V pv s k x)). Qed.
(** {TOP}KEY=VALUE: exactly the strings of that shape are accepted, with these parts. *)
Theorem C34_nested_exact : forall s t k v, parse_nested_key_value s = Ok (t, k, v) <->
  exists pre, s = (pre ++ "{" ++ t ++ "}" ++ k ++ "=" ++ v)%string /\ no_char "{" pre = true /\ no_char "}" pre = true /\ no_char "=" pre = true
    /\ no_char "}" t = true /\ no_char "=" t = true /\ no_char "=" k = true.
Proof. exact nkv_exact. Qed.

Section Show.
  Variable zshow : Z -> string.
  Lemma c34_table cfg opt l : sget opt cfg = Some (CTable (map (fun e => (fst e, CStr (snd e))) l)) ->
    (forall k v, In (k, v) l -> no_char "=" k = true) ->
    exists args, emit zshow cfg opt = flat_map (fun a => [("--" ++ opt)%string; a]) args /\ map (parse_key_value Some) args = map Ok l.
  Proof.
    intros H Hk. exists (map (fun e => (fst e ++ "=" ++ snd e)%string) l). unfold emit. rewrite H. cbn [get_bool get_string]. clear H. split.
    - induction l as [|[k v] l IH]; [reflexivity|]. cbn [map flat_map fst snd]. etransitivity; [apply f_equal, IH; intros a b Hab; apply (Hk a b); now right|]. reflexivity.
    - rewrite map_map. apply map_ext_in. intros [k v] Hin. cbn [fst snd]. now apply kv_ok; [apply (Hk k v)|].
  Qed.
  (** C34: a map option in a configuration file comes back unchanged from the arguments generated for it, if no key has '='. *)
  Theorem C34_config_map : forall cfg opt l, sget opt cfg = Some (CTable (map (fun e => (fst e, CStr (snd e))) l)) ->
    (forall k v, In (k, v) l -> no_char "=" k = true) ->
    exists args, emit zshow cfg opt = flat_map (fun a => [("--" ++ opt)%string; a]) args /\ map (parse_key_value Some) args = map Ok l.
  Proof. exact c34_table. Qed.
  Lemma c34_nested cfg opt l :
    sget opt cfg = Some (CTable (map (fun e => (fst e, CTable (map (fun f => (fst f, CStr (snd f))) (snd e)))) l)) ->
    (forall k m, In (k, m) l -> no_char "=" k = true /\ no_char "}" k = true /\ forall n v, In (n, v) m -> no_char "=" n = true) ->
    exists args, emit zshow cfg opt = flat_map (fun a => [("--" ++ opt)%string; a]) args
      /\ map parse_nested_key_value args = map Ok (flat_map (fun e => map (fun f => (fst e, fst f, snd f)) (snd e)) l).
  Proof.
    intros H Hk. exists (flat_map (fun e => map (fun f => ("{" ++ fst e ++ "}" ++ fst f ++ "=" ++ snd f)%string) (snd e)) l). unfold emit. rewrite H. cbn [get_bool get_string]. clear H. split.
    - clear Hk. induction l as [|[k m] l IH]; [reflexivity|]. cbn [map flat_map fst snd]. rewrite IH, flat_map_app. f_equal.
      clear. induction m as [|[n v] m IH]; [reflexivity|]. cbn [map flat_map fst snd]. rewrite IH. reflexivity.
    - induction l as [|[k m] l IH]; [reflexivity|]. cbn [flat_map fst snd]. rewrite !map_app, IH by (intros a b Hab; apply Hk; now right). f_equal.
      destruct (Hk k m (or_introl eq_refl)) as (H1 & H2 & H3). rewrite !map_map. apply map_ext_in. intros [n v] Hin. cbn [fst snd].
      apply (nkv_ok "" k n v); auto. eapply H3; eauto.
  Qed.
  (** C34: the same for the nested maps used for credentials, if no registry has '=' or '}' and no field has '='. *)
  Theorem C34_config_nested_partial : forall cfg opt l,
    sget opt cfg = Some (CTable (map (fun e => (fst e, CTable (map (fun f => (fst f, CStr (snd f))) (snd e)))) l)) ->
    (forall k m, In (k, m) l -> no_char "=" k = true /\ no_char "}" k = true /\ forall n v, In (n, v) m -> no_char "=" n = true) ->
    exists args, emit zshow cfg opt = flat_map (fun a => [("--" ++ opt)%string; a]) args
      /\ map parse_nested_key_value args = map Ok (flat_map (fun e => map (fun f => (fst e, fst f, snd f)) (snd e)) l).
  Proof. exact c34_nested. Qed.

  (** ** C35 *)
  Lemma c35 takes src ids order given cli vals :
    Permutation order ids -> NoDup (map dashes ids) ->
    clap takes cli = Some vals -> (forall id, In id ids -> given id = mentioned (dashes id) vals) ->
    (forall id, In id ids -> typed takes (dashes id) (sget (dashes id) (load_config src))) ->
    exists vals', clap takes (layered zshow given (load_config src) order cli) = Some vals' /\
    forall id, In id ids -> takes (dashes id) = true -> scalar_option src (dashes id) -> precedence src ("no-" ++ dashes id)%string = None ->
      scalar_option src ("no-" ++ dashes id)%string ->
      settings (dashes id) vals' =
        if mentioned (dashes id) vals then settings (dashes id) vals
        else if existsb (String.eqb ("--no-" ++ dashes id)) cli then []
        else match precedence src (dashes id) with Some v => option_values zshow v | None => [] end.
  Proof.
    intros HP Hnd Hc Hg Hty.
    destruct (layered_spec zshow takes given (load_config src) order) with (args := cli) (vals := vals) as (v' & H1 & H2); auto.
    { intros id Hin. apply Hty. eapply Permutation_in; eauto. }
    { eapply Permutation_NoDup; [apply Permutation_map, Permutation_sym; eauto|auto]. }
    exists (vals ++ v'). split; [auto|]. intros id Hin Ht Hs Hno Hns. rewrite settings_app, (H2 id Ht) by now rewrite load_precedence.
    rewrite load_precedence by auto.
    assert (Hex : existsb (fun i => String.eqb (dashes i) (dashes id) && negb (given i)) order = negb (mentioned (dashes id) vals)).
    { destruct (mentioned (dashes id) vals) eqn:Em; cbn.
      - apply not_true_is_false. intros Hx. apply existsb_exists in Hx. destruct Hx as (j & Hj & Hx). apply andb_true_iff in Hx. destruct Hx as [Hx1 Hx2].
        apply String.eqb_eq in Hx1. rewrite Hg, Hx1, Em in Hx2 by (eapply Permutation_in; eauto). discriminate.
      - apply existsb_exists. exists id. split; [eapply Permutation_in; [apply Permutation_sym; eauto|auto]|]. rewrite String.eqb_refl, Hg, Em by auto. reflexivity. }
    rewrite Hex. destruct (mentioned (dashes id) vals) eqn:Em; cbn [negb andb]; [apply app_nil_r|].
    assert (settings (dashes id) vals = []) as ->.
    { clear - Em. unfold mentioned, settings in *. induction vals as [|[n v] vals IH]; [auto|]. cbn in *. apply orb_false_iff in Em. destruct Em as [-> Em]. auto. }
    destruct (existsb (String.eqb ("--no-" ++ dashes id)) cli); reflexivity.
  Qed.
  (** C35: for every order in which the options are visited, the final command line is readable, and an option taking a value
      gets what the command line gave it; else nothing if --no-<option> was given; else the value of the project file, else of
      the environment, else of the user's file, else the default. Missing: options whose configured value does not have the
      option's type (C35_refuted), and environment variables for options with a dash in their name (C35_env_refuted). *)
  Theorem C35_partial : forall takes src ids order given cli vals,
    Permutation order ids -> NoDup (map dashes ids) ->
    clap takes cli = Some vals -> (forall id, In id ids -> given id = mentioned (dashes id) vals) ->
    (forall id, In id ids -> typed takes (dashes id) (sget (dashes id) (load_config src))) ->
    exists vals', clap takes (layered zshow given (load_config src) order cli) = Some vals' /\
    forall id, In id ids -> takes (dashes id) = true -> scalar_option src (dashes id) -> precedence src ("no-" ++ dashes id)%string = None ->
      scalar_option src ("no-" ++ dashes id)%string ->
      settings (dashes id) vals' =
        if mentioned (dashes id) vals then settings (dashes id) vals
        else if existsb (String.eqb ("--no-" ++ dashes id)) cli then []
        else match precedence src (dashes id) with Some v => option_values zshow v | None => [] end.
  Proof. exact c35. Qed.
End Show.

Lemma low_dash c : c <> "-"%char -> low c <> "-"%char.
Proof.
  intros H E. unfold low in E. destruct (Nat.leb_spec 65 (nat_of_ascii c)); [|now auto]. destruct (Nat.leb_spec (nat_of_ascii c) 90); [|now auto]. cbn [andb] in E.
  apply (f_equal nat_of_ascii) in E. rewrite nat_ascii_embedding in E by lia. change (nat_of_ascii "-") with 45 in E. lia.
Qed.
Lemma lower_dash s : no_char "-" s = true -> no_char "-" (lower s) = true.
Proof.
  induction s as [|c s IH]; cbn [lower no_char]; [auto|]. intros H. apply andb_true_iff in H. destruct H as [H1 H2]. rewrite IH, andb_true_r by auto.
  rewrite negb_true_iff in *. apply Ascii.eqb_neq in H1. apply Ascii.eqb_neq. now apply low_dash.
Qed.
Lemma strip_app p s r : strip p s = Some r -> s = (p ++ r)%string.
Proof.
  revert s. induction p as [|c p IH]; intros s; cbn; [intros H; now injection H as ->|]. destruct s as [|d s]; [discriminate|].
  destruct (Ascii.eqb_spec c d) as [->|]; [|discriminate]. intros H. now rewrite (IH _ H).
Qed.
Lemma env_dash env o : (forall n v, In (n, v) env -> no_char "-" n = true) -> no_char "-" o = false -> layer_get o (env_layer env) = None.
Proof.
  intros Henv Ho. destruct (layer_get o (env_layer env)) as [v|] eqn:E; [|auto]. apply layer_get_In in E. unfold env_layer in E. rewrite in_flat_map in E.
  destruct E as ([n w] & Hin & H). cbn [fst snd] in H. destruct (strip "oro_config_" (lower n)) as [k|] eqn:Es; [|easy]. destruct H as [H|[]]. injection H as -> _.
  apply strip_app in Es. pose proof (lower_dash n (Henv _ _ Hin)) as Hl. rewrite Es, no_char_app, Ho, andb_false_r in Hl. discriminate.
Qed.
(** C35 is false for the environment: no shell variable (no '-' in its name) ever sets an option of several words. *)
Theorem C35_env_refuted : forall env o, (forall n v, In (n, v) env -> no_char "-" n = true) -> no_char "-" o = false ->
  layer_get o (env_layer env) = None.
Proof. exact env_dash. Qed.

(** ** C36 *)
Theorem C36_partial : forall l r d k, NoDup (map fst l) -> clean_old_logs (Some l) = (r, d, k) ->
  Permutation (d ++ k) l /\ (forall x y, In x d -> In y k -> slt (fst x) (fst y) = true) /\ (forall e, In e d -> snd e = true)
  /\ (r = Ok tt /\ List.length k = Nat.min 4 (List.length l) \/ r = Err EIo /\ 5 <= List.length k /\ exists e, In e k /\ snd e = false).
Proof. exact clean_spec. Qed.
Lemma c36_newer l r d k : NoDup (map fst l) -> clean_old_logs (Some l) = (r, d, k) ->
  forall t u i j b c, plausible t -> plausible u -> In (log_name t i, b) d -> In (log_name u j, c) k -> ~ earlier u t.
Proof.
  intros Hnd H t u i j b c Ht Hu Hd Hk He. destruct (clean_spec _ _ _ _ Hnd H) as (_ & H2 & _). specialize (H2 _ _ Hd Hk). cbn [fst] in H2.
  pose proof (names_ordered _ _ j i Hu Ht He) as H3. pose proof (slt_trans _ _ _ H2 H3) as E. rewrite slt_irrefl in E. discriminate.
Qed.
(** C36: a deleted log is never newer than one that is kept (by the local time in their names), whether or not cleaning succeeds. *)
Theorem C36_oldest_first : forall l r d k, NoDup (map fst l) -> clean_old_logs (Some l) = (r, d, k) ->
  forall t u i j b c, plausible t -> plausible u -> In (log_name t i, b) d -> In (log_name u j, c) k -> ~ earlier u t.
Proof. exact c36_newer. Qed.

(** ** concrete cases *)
Example C34_ex : parse_key_value Some "@foo=https://foo.com/?a=b" = Ok ("@foo", "https://foo.com/?a=b")
  /\ parse_nested_key_value "{https://r.com/}token=a=b" = Ok ("https://r.com/", "token", "a=b")
  /\ parse_key_value Some "nothing" = Err EParse.
Proof. repeat split; reflexivity. Qed.
Definition zs (z : Z) : string := "7".
Definition ex_cfg : list (string * cval) :=
  [("auth", CTable [("https://r.com/", CTable [("token", CStr "x=y")]); ("https://q.com/", CTable [("username", CStr "u"); ("password", CStr "p")])]);
   ("scoped-registries", CTable [("@foo", CStr "https://foo.com")])].
Example C34_ex_config : emit zs ex_cfg "auth" = ["--auth"; "{https://r.com/}token=x=y"; "--auth"; "{https://q.com/}username=u"; "--auth"; "{https://q.com/}password=p"]
  /\ emit zs ex_cfg "scoped-registries" = ["--scoped-registries"; "@foo=https://foo.com"].
Proof. split; reflexivity. Qed.
(** C34 is false: an argument of the wrong shape crashes, and so does a registry URL with a query in oro.kdl *)
Theorem C34_refuted : parse_nested_key_value "a=b{c}d" = Panic
  /\ exists cfg k n v, sget "auth" cfg = Some (CTable [(k, CTable [(n, CStr v)])])
       /\ exists a, emit zs cfg "auth" = ["--auth"; a] /\ parse_nested_key_value a = Panic.
Proof.
  split; [reflexivity|]. exists [("auth", CTable [("https://r.com/?a=b", CTable [("token", CStr "x")])])], "https://r.com/?a=b", "token", "x".
  split; [reflexivity|]. exists "{https://r.com/?a=b}token=x". split; reflexivity.
Qed.

(** a user file, a project file, environment and defaults *)
Definition ex_opts := ["registry"; "default_tag"; "root"; "emoji"].
Definition ex_takes (o : string) : bool := existsb (String.eqb o) ["registry"; "default-tag"; "root"].
Definition ex_src : sources := mkSrc [("root", "/home/u/proj")]
  (Some [KNode "options" [] (Some [knode1 "registry" "https://global/"; knode1 "default-tag" "next"; KNode "emoji" [(None, KBool false)] None])])
  [("ORO_CONFIG_REGISTRY", "https://env/"); ("HOME", "/home/u")]
  (Some [KNode "options" [] (Some [knode1 "registry" "https://project/"])]).
Example C35_ex : clap ex_takes ["--default-tag"; "beta"] = Some [("default-tag", Some "beta")]
  /\ layered zs (fun id => String.eqb id "default_tag") (load_config ex_src) ex_opts ["--default-tag"; "beta"]
     = ["--default-tag"; "beta"; "--registry"; "https://project/"; "--root"; "/home/u/proj"; "--no-emoji"]
  /\ (forall id, In id ex_opts -> typed ex_takes (dashes id) (sget (dashes id) (load_config ex_src)))
  /\ NoDup (map dashes ex_opts)
  /\ precedence ex_src "registry" = Some (CStr "https://project/").
Proof.
  split; [reflexivity|]. split; [reflexivity|]. split; [|split; [|reflexivity]].
  - intros id H. cbn [ex_opts In] in H. destruct H as [<-|[<-|[<-|[<-|[]]]]]; vm_compute; try (split; reflexivity).
    exists false. split; auto.
  - cbn. repeat constructor; cbn; intuition discriminate.
Qed.
(** C35 is false: a number in a configuration file turns into a flag without value, and the command line is rejected; and
    'loglevel "off"' turns into --no-loglevel. *)
Theorem C35_refuted :
  (exists src takes, takes "retries" = true /\ precedence src "retries" = Some (CInt 3)
     /\ clap takes (layered zs (fun _ => false) (load_config src) ["retries"] []) = None)
  /\ (exists src takes, takes "loglevel" = true /\ precedence src "loglevel" = Some (CStr "off")
     /\ layered zs (fun _ => false) (load_config src) ["loglevel"] [] = ["--no-loglevel"]).
Proof.
  split.
  - exists (mkSrc [] None [] (Some [KNode "options" [] (Some [KNode "retries" [(None, KInt 3)] None])])), (fun o => String.eqb o "retries"). repeat split; reflexivity.
  - exists (mkSrc [] None [] (Some [KNode "options" [] (Some [knode1 "loglevel" "off"])])), (fun o => String.eqb o "loglevel"). repeat split; reflexivity.
Qed.
(** C35 is false below the project directory: the project's oro.kdl is looked for in the current directory, not in the project
    that the command operates on. *)
Theorem C35_subdir_refuted : exists (cwd : string) dirs, project_dir None cwd dirs = "/proj" /\ config_dir None cwd = "/proj/src".
Proof. exists "/proj/src", [("/proj/src", (false, false)); ("/proj", (true, true))]. split; reflexivity. Qed.

Definition ex_logs : list entry := map (fun n => (n, true))
  ["oro-debug-2023-10-08-12-00-00.000-0.log"; "oro-debug-2023-10-09-12-00-00.000-0.log"; "oro-debug-2023-10-07-12-00-00.000-0.log";
   "oro-debug-2023-10-10-12-00-00.000-0.log"; "oro-debug-2023-10-11-12-00-00.000-0.log"].
Example C36_ex : clean_old_logs (Some ex_logs) = (Ok tt, [("oro-debug-2023-10-07-12-00-00.000-0.log", true)],
    map (fun n => (n, true)) ["oro-debug-2023-10-08-12-00-00.000-0.log"; "oro-debug-2023-10-09-12-00-00.000-0.log";
                              "oro-debug-2023-10-10-12-00-00.000-0.log"; "oro-debug-2023-10-11-12-00-00.000-0.log"])
  /\ NoDup (map fst ex_logs).
Proof. split; [reflexivity|]. cbn. repeat constructor; cbn; intuition discriminate. Qed.
Example C36_ex_name : log_name (mkStamp 2023 10 7 12 0 0 0) "0" = "oro-debug-2023-10-07-12-00-00.000-0.log" /\ plausible (mkStamp 2023 10 7 12 0 0 0).
Proof. split; [vm_compute; reflexivity|]. unfold plausible. cbn [t_year t_month t_day t_hour t_min t_sec t_ms]. repeat split; apply Nat.ltb_lt; vm_compute; reflexivity. Qed.
(** C36 is false for other files: anything in the directory is deleted if its name sorts first, and a directory there makes every
    later command fail. *)
Theorem C36_refuted : (exists l k, clean_old_logs (Some l) = (Ok tt, [("notes.txt", true)], k) /\ In ("notes.txt", true) l)
  /\ (exists l, clean_old_logs (Some l) = (Err EIo, [], l)).
Proof.
  split.
  - exists (("notes.txt", true) :: tl ex_logs). eexists. split; [vm_compute; reflexivity|now left].
  - exists (("a-directory", false) :: sort_entries (tl ex_logs)). vm_compute. reflexivity.
Qed.

Print Assumptions C34_key_value.
Print Assumptions C34_nested_exact.
Print Assumptions C34_config_map.
Print Assumptions C34_config_nested_partial.
Print Assumptions C34_refuted.
Print Assumptions C35_partial.
Print Assumptions C35_env_refuted.
Print Assumptions C35_refuted.
Print Assumptions C35_subdir_refuted.
Print Assumptions C36_partial.
Print Assumptions C36_oldest_first.
Print Assumptions C36_refuted.
