(** * Property C35, continued (flags and "--"), and property C55 (telemetry).
    FlagModel: [cread] reads a command line (options, positional arguments, whether "--" was seen); [flagged x vals] is what the
    last mention of --x or --no-x says; [run_start] is one start of the program up to the command itself. *)
From Verif Require Import Base Types Kdl StdPath CliModel CliSpec CliProofs AuthModel AuthSpec AuthProofs AccountProofs AccountNext FlagModel FlagProofs.
Open Scope string_scope.
Open Scope list_scope.

Lemma cread_tokens takes : forall n a x p, List.length a <= n -> cread takes a = Some (x, p, false) ->
  (forall e, In e x -> In ("--" ++ fst e)%string a) /\ (forall t, In t a -> dashed t = true -> exists e, In e x /\ t = ("--" ++ fst e)%string).
Proof.
  induction n as [|n IH]; intros a x p L H.
  - destruct a; [|cbn in L; lia]. injection H as <- <-. split; intros ? [].
  - destruct a as [|t r]; [injection H as <- <-; split; intros ? []|]. cbn [cread] in H. destruct (String.eqb t "--"); [discriminate|].
    destruct (strip "--" t) as [m|] eqn:Es.
    + assert (Et : t = ("--" ++ m)%string).
      { clear - Es. destruct t as [|c t]; [discriminate|]. cbn [strip] in Es. destruct (Ascii.eqb_spec "-" c) as [<-|]; [|discriminate].
        destruct t as [|c t]; [discriminate|]. destruct (Ascii.eqb_spec "-" c) as [<-|]; [|discriminate]. injection Es as ->. reflexivity. }
      destruct (takes m).
      * destruct r as [|v r]; [discriminate|]. destruct (dashed' v) eqn:Ev; [discriminate|]. destruct (cread takes r) as [[[y q] e]|] eqn:E; [|discriminate].
        cbn [option_map] in H. injection H as <- <- ->. destruct (IH r y q) as [I1 I2]; [cbn in L; lia|auto|]. split.
        -- intros e [<-|He]; [left; exact Et|]. right; right; now apply I1.
        -- intros u [<-|[<-|Hu]] Hd; [exists (m, Some v); split; [now left|exact Et]|rewrite dashed_same in Ev; congruence|].
           destruct (I2 u Hu Hd) as (e & He & ->). exists e. split; [now right|reflexivity].
      * destruct (cread takes r) as [[[y q] e]|] eqn:E; [|discriminate]. cbn [option_map] in H. injection H as <- <- ->. destruct (IH r y q) as [I1 I2]; [cbn in L; lia|auto|]. split.
        -- intros e [<-|He]; [left; exact Et|]. right; now apply I1.
        -- intros u [<-|Hu] Hd; [exists (m, None); split; [now left|exact Et]|]. destruct (I2 u Hu Hd) as (e & He & ->). exists e. split; [now right|reflexivity].
    + destruct (dashed' t) eqn:Ed; [discriminate|]. destruct (cread takes r) as [[[y q] e]|] eqn:E; [|discriminate]. cbn [option_map] in H. injection H as <- <- ->.
      destruct (IH r y q) as [I1 I2]; [cbn in L; lia|auto|]. split.
      * intros e He. right. now apply I1.
      * intros u [<-|Hu] Hd; [rewrite dashed_same in Ed; congruence|auto].
Qed.
Lemma cread_values takes : forall n a x p, List.length a <= n -> cread takes a = Some (x, p, false) -> forall m, takes m = true -> forall e, In e x -> fst e = m -> exists v, snd e = Some v.
Proof.
  induction n as [|n IH]; intros a x p L H m Hm e He Ee.
  - destruct a; [|cbn in L; lia]. injection H as <- <-. destruct He.
  - destruct a as [|t r]; [injection H as <- <-; destruct He|]. cbn [cread] in H. destruct (String.eqb t "--"); [discriminate|].
    destruct (strip "--" t) as [k|].
    + destruct (takes k) eqn:Tk.
      * destruct r as [|v r]; [discriminate|]. destruct (dashed' v); [discriminate|]. destruct (cread takes r) as [[[y q] z]|] eqn:E; [|discriminate].
        cbn [option_map] in H. injection H as <- <- ->. destruct He as [<-|He]; [cbn; eauto|]. eapply (IH r y q); eauto. cbn in L; lia.
      * destruct (cread takes r) as [[[y q] z]|] eqn:E; [|discriminate]. cbn [option_map] in H. injection H as <- <- ->.
        destruct He as [<-|He]; [cbn in Ee; congruence|]. eapply (IH r y q); eauto. cbn in L; lia.
    + destruct (dashed' t); [discriminate|]. destruct (cread takes r) as [[[y q] z]|] eqn:E; [|discriminate]. cbn [option_map] in H. injection H as <- <- ->. eapply (IH r y q); eauto. cbn in L; lia.
Qed.
Lemma flagged_some x l : (exists e, In e l /\ (fst e = x \/ fst e = ("no-" ++ x)%string)) -> flagged x l <> None.
Proof.
  intros (e & He & Hx). induction l as [|a l IH]; [contradiction|]. change (a :: l) with ([a] ++ l). rewrite flagged_app. destruct (flagged x l) eqn:E; [discriminate|].
  destruct He as [->|He]; [|now destruct (IH He)]. unfold flagged. cbn [fold_left]. destruct Hx as [->| ->]; [now rewrite String.eqb_refl|].
  pose proof (no_neq x) as N. apply String.eqb_neq in N. now rewrite N, String.eqb_refl.
Qed.
Lemma flagged_false x l : flagged x l = Some false -> exists e, In e l /\ fst e = ("no-" ++ x)%string.
Proof.
  induction l as [|a l IH]; [discriminate|]. change (a :: l) with ([a] ++ l). rewrite flagged_app. destruct (flagged x l) as [b|] eqn:E.
  - intros H. destruct (IH H) as (e & He & Hx). exists e. split; [now right|auto].
  - unfold flagged. cbn [fold_left]. destruct (String.eqb_spec (fst a) x); [discriminate|]. destruct (String.eqb_spec (fst a) ("no-" ++ x)); [|discriminate]. intros _. exists a. split; [now left|auto].
Qed.
Lemma no_token takes args vals p x : cread takes args = Some (vals, p, false) ->
  existsb (String.eqb ("--no-" ++ x)) args = true -> exists e, In e vals /\ fst e = ("no-" ++ x)%string.
Proof.
  intros Hc H. apply existsb_exists in H. destruct H as (t & Hin & Ht). apply String.eqb_eq in Ht. subst t.
  destruct (cread_tokens takes _ _ _ _ (le_n _) Hc) as [_ H2]. destruct (H2 _ Hin eq_refl) as (e & He & E). exists e. split; [auto|].
  change ("--no-" ++ x)%string with ("--" ++ ("no-" ++ x))%string in E. apply (app_inv_len "--" _ "--" _ eq_refl) in E. now destruct E.
Qed.
Lemma token_no takes args vals p x : cread takes args = Some (vals, p, false) -> (exists e, In e vals /\ fst e = ("no-" ++ x)%string) ->
  existsb (String.eqb ("--no-" ++ x)) args = true.
Proof.
  intros Hc (e & He & E). apply existsb_exists. exists ("--no-" ++ x)%string. split; [|apply String.eqb_refl].
  destruct (cread_tokens takes _ _ _ _ (le_n _) Hc) as [H1 _]. specialize (H1 _ He). now rewrite E in H1.
Qed.

Section Show.
  Variable zshow : Z -> string.
  Variables (takes default_on : string -> bool).
  (** [order]: the long options of the command, in any order; their configured values have the right type *)
  Definition readable (order : list string) (cfg : list (string * cval)) : Prop :=
    takes "" = false /\ NoDup (map dashes order) /\ forall id, In id order -> dashes id <> "" /\ typed takes (dashes id) (sget (dashes id) cfg).
  Lemma flags cfg order args vals p id : readable order cfg -> In id order -> takes (dashes id) = false -> apart (dashes id) cfg ->
    cread takes args = Some (vals, p, false) ->
    exists vals', cread takes (layered zshow (given takes default_on vals) cfg order args) = Some (vals', p, false)
      /\ flagged (dashes id) vals' =
           let conf := match sget (dashes id) cfg with Some v => get_bool v | None => None end in
           match flagged (dashes id) vals with
           | Some true => if default_on (dashes id) && negb (existsb (String.eqb ("--no-" ++ dashes id)) args)
                          then match conf with Some b => Some b | None => Some true end else Some true
           | Some false => Some false
           | None => conf
           end.
  Proof.
    intros (T0 & Hnd & Hty) Hin Hx Hap Hc. set (x := dashes id) in *.
    destruct (layered_flag zshow takes (given takes default_on vals) cfg x Hx T0 Hap order Hty Hnd args vals p Hc) as (vals' & H1 & H2).
    exists (vals ++ vals'). split; [exact H1|]. rewrite flagged_app, H2. clear H1 H2.
    assert (Hex : existsb (fun i => String.eqb (dashes i) x && negb (given takes default_on vals i)) order = negb (given takes default_on vals id)).
    { destruct (given takes default_on vals id) eqn:Eg; cbn [negb].
      - apply not_true_is_false. intros Hy. apply existsb_exists in Hy. destruct Hy as (j & Hj & Hy). apply andb_true_iff in Hy. destruct Hy as [Hy1 Hy2].
        apply String.eqb_eq in Hy1. unfold given in *. rewrite Hy1 in Hy2. fold x in Eg. rewrite Eg in Hy2. discriminate.
      - apply existsb_exists. exists id. split; [auto|]. fold x. rewrite String.eqb_refl, Eg. reflexivity. }
    rewrite Hex. unfold given. fold x. rewrite Hx. cbv zeta. destruct (flagged x vals) as [[|]|] eqn:Ef.
    - destruct (default_on x); cbn [Bool.eqb negb andb]; [|reflexivity]. destruct (existsb _ args); cbn [negb]; [reflexivity|]. now destruct (match sget x cfg with Some v => get_bool v | None => None end).
    - assert (existsb (String.eqb ("--no-" ++ x)) args = true) as -> by (eapply token_no; eauto; now apply flagged_false). cbn [negb]. now rewrite andb_false_r.
    - assert (existsb (String.eqb ("--no-" ++ x)) args = false) as ->.
      { apply not_true_is_false. intros Hy. destruct (no_token _ _ _ _ _ Hc Hy) as (e & He & E). apply (flagged_some x vals); [|exact Ef]. exists e. auto. }
      cbn [negb andb]. now destruct (match sget x cfg with Some v => get_bool v | None => None end).
  Qed.
  (** C35 for flags: the final command line is readable, the positional arguments are the ones given, and the flag is what the
      command line says, else what the configuration says (project, environment, user file), else left to its default. For flags
      that are on by default and spelled --no-x, this needs that --x is not given on the command line while the configuration
      turns the flag off (see C35_flags_refuted). *)
  Theorem C35_flags_partial : forall src order args vals p id,
    readable order (load_config src) -> In id order -> takes (dashes id) = false -> apart (dashes id) (load_config src) -> scalar_option src (dashes id) ->
    cread takes args = Some (vals, p, false) ->
    (default_on (dashes id) = true -> flagged (dashes id) vals = Some true -> obind (precedence src (dashes id)) get_bool <> Some false) ->
    exists vals', cread takes (layered zshow (given takes default_on vals) (load_config src) order args) = Some (vals', p, false)
      /\ flagged (dashes id) vals' = match flagged (dashes id) vals with Some b => Some b | None => obind (precedence src (dashes id)) get_bool end.
  Proof.
    intros src order args vals p id Hr Hin Hx Hap Hs Hc Hon. destruct (flags (load_config src) order args vals p id Hr Hin Hx Hap Hc) as (vals' & H1 & H2).
    exists vals'. split; [exact H1|]. rewrite H2. cbv zeta. rewrite load_precedence by auto. unfold obind in *.
    destruct (flagged (dashes id) vals) as [[|]|]; [|reflexivity|reflexivity]. destruct (default_on (dashes id)); [|reflexivity].
    specialize (Hon eq_refl eq_refl). destruct (precedence src (dashes id)) as [v|]; [|now destruct (existsb _ args)]. cbn [andb].
    destruct (existsb _ args); [reflexivity|]. cbn [negb]. destruct (get_bool v) as [[|]|]; [reflexivity|contradiction|reflexivity].
  Qed.
  (** C35 for options that take a value: whatever the order of the options, the final command line is readable, the positional
      arguments are the ones given, and the option has the values the command line gives it, if any; else none if --no-<option>
      is on the command line; else the configured one (project, environment, user file, default). *)
  Theorem C35_values_partial : forall src order args vals p id,
    readable order (load_config src) -> In id order -> takes (dashes id) = true -> scalar_option src (dashes id) ->
    precedence src ("no-" ++ dashes id)%string = None -> scalar_option src ("no-" ++ dashes id)%string ->
    cread takes args = Some (vals, p, false) ->
    exists vals', cread takes (layered zshow (given takes default_on vals) (load_config src) order args) = Some (vals', p, false)
      /\ settings (dashes id) vals' =
          match settings (dashes id) vals with
          | [] => if existsb (String.eqb ("--no-" ++ dashes id)) args then [] else match precedence src (dashes id) with Some v => option_values zshow v | None => [] end
          | given_values => given_values
          end.
  Proof.
    intros src order args vals p id (T0 & Hnd & Hty) Hin Hx Hs Hn Hns Hc. set (x := dashes id) in *.
    destruct (layered_value zshow takes (given takes default_on vals) (load_config src) T0 order Hty Hnd args vals p Hc) as (vals' & H1 & H2).
    exists (vals ++ vals'). split; [exact H1|]. rewrite settings_app, (H2 x Hx) by now rewrite load_precedence. rewrite load_precedence by auto.
    assert (Gi : forall j, dashes j = x -> given takes default_on vals j = mentioned x vals) by (intros j E; unfold given; rewrite E, Hx; reflexivity).
    assert (Hex : existsb (fun i => String.eqb (dashes i) x && negb (given takes default_on vals i)) order = negb (mentioned x vals)).
    { destruct (mentioned x vals) eqn:Eg; cbn [negb].
      - apply not_true_is_false. intros Hy. apply existsb_exists in Hy. destruct Hy as (j & Hj & Hy). apply andb_true_iff in Hy. destruct Hy as [Hy1 Hy2].
        apply String.eqb_eq in Hy1. rewrite (Gi j Hy1) in Hy2. discriminate.
      - apply existsb_exists. exists id. split; [auto|]. rewrite (Gi id eq_refl). fold x. now rewrite String.eqb_refl. }
    rewrite Hex. clear H1 H2 Hex. destruct (mentioned x vals) eqn:Em; cbn [negb andb].
    - rewrite app_nil_r. destruct (settings x vals) eqn:Es; [|reflexivity]. exfalso. apply existsb_exists in Em as ((m & o) & He & Ee). apply String.eqb_eq in Ee. cbn [fst] in Ee. subst m.
      destruct (cread_values takes _ _ _ _ (le_n _) Hc x Hx _ He eq_refl) as (s & Eo). cbn [snd] in Eo. subst o.
      assert (I : In s (settings x vals)) by (unfold settings; apply in_flat_map; exists (x, Some s); split; [exact He|]; cbn [fst snd]; rewrite String.eqb_refl; now left).
      rewrite Es in I. destruct I.
    - assert (settings x vals = []) as ->.
      { clear - Em. unfold mentioned, settings in *. induction vals as [|[n v] vals IH]; [auto|]. cbn in *. apply orb_false_iff in Em. destruct Em as [-> Em]. auto. }
      cbn [app]. destruct (existsb _ args); reflexivity.
  Qed.
  (** C35 is false after "--": every configured option is then appended as a positional argument and never takes effect. *)
  Theorem C35_terminator_refuted : forall cfg order g args vals p, cread takes args = Some (vals, p, true) ->
    exists more, layered zshow g cfg order args = args ++ more /\ cread takes (layered zshow g cfg order args) = Some (vals, p ++ more, true).
  Proof.
    intros cfg order g args vals p H. destruct (layered_more zshow g cfg order args) as (more & E). exists more. split; [exact E|].
    rewrite E. exact (cread_app_ended takes _ args vals p more (le_n _) H).
  Qed.

  (** ** C55 *)
  Notation run := (run_start zshow takes default_on).
  Notation runs := (run_starts zshow takes default_on).
  Definition config_of (s : start) (f : cfile) : list (string * cval) :=
    load_config (mkSrc (s_default s) (match f with FText d => d | _ => None end) (s_env s) (s_project s)).
  (** telemetry and first-time are flags that are on by default and spelled --no-telemetry, --no-first-time; the command line and
      the configuration can be read *)
  Definition usable (s : start) (f : cfile) : Prop :=
    default_on "telemetry" = true /\ default_on "first-time" = true /\ takes "telemetry" = false /\ takes "first-time" = false
    /\ In "telemetry" (s_order s) /\ In "first_time" (s_order s) /\ f <> FText None
    /\ readable (s_order s) (config_of s f) /\ apart "telemetry" (config_of s f) /\ apart "first-time" (config_of s f)
    /\ exists vals p, cread takes (s_args s) = Some (vals, p, false).
  (** what the command line says about a flag *)
  Definition says (s : start) (x : string) : option bool := match cread takes (s_args s) with Some (vals, _, _) => flagged x vals | None => None end.
  (** what the configuration says about a flag *)
  Definition configured (s : start) (f : cfile) (x : string) : option bool := obind (sget x (config_of s f)) get_bool.
  Lemma final s f : usable s f -> exists vals' p, final_args zshow takes default_on s f = Some (vals', p, false)
    /\ forall x, x = "telemetry" \/ x = "first-time" ->
       flagged x vals' = match says s x with
                         | Some true => if existsb (String.eqb ("--no-" ++ x)) (s_args s) then Some true else match configured s f x with Some b => Some b | None => Some true end
                         | Some false => Some false
                         | None => configured s f x
                         end.
  Proof.
    intros (D1 & D2 & T1 & T2 & I1 & I2 & Hf & Hr & A1 & A2 & vals & p & Hc). unfold says, configured. rewrite Hc.
    assert (E : final_args zshow takes default_on s f = cread takes (layered zshow (given takes default_on vals) (config_of s f) (s_order s) (s_args s))).
    { unfold final_args. rewrite Hc. destruct f as [| |[d|]]; [reflexivity|reflexivity|reflexivity|contradiction]. }
    rewrite E. destruct (flags (config_of s f) (s_order s) (s_args s) vals p "telemetry" Hr I1 T1 A1 Hc) as (v1 & F1 & F2).
    destruct (flags (config_of s f) (s_order s) (s_args s) vals p "first_time" Hr I2 T2 A2 Hc) as (v2 & G1 & G2).
    change (dashes "telemetry") with "telemetry" in F2. change (dashes "first_time") with "first-time" in G2.
    rewrite F1 in G1. injection G1 as <-. exists v1, p. split; [exact F1|]. intros x [-> | ->].
    - rewrite F2. cbv zeta. rewrite D1. unfold obind. destruct (flagged "telemetry" vals) as [[|]|]; [|reflexivity|reflexivity]. destruct (existsb (String.eqb ("--no-" ++ "telemetry")) (s_args s)); reflexivity.
    - rewrite G2. cbv zeta. rewrite D2. unfold obind. destruct (flagged "first-time" vals) as [[|]|]; [|reflexivity|reflexivity]. destruct (existsb (String.eqb ("--no-" ++ "first-time")) (s_args s)); reflexivity.
  Qed.
  Definition off (o : option bool) : Prop := o = Some false.
  Definition yes (o : option bool) : bool := match o with Some b => b | None => true end.
  Lemma run_flag s f r : usable s f -> run s f = Some r ->
    (d_asked r = true -> forall b, s_answer s = Some b -> d_sent r = b && s_dsn s)
    /\ (d_asked r = false -> says s "telemetry" <> Some true -> d_sent r = (match says s "telemetry" with Some b => b | None => yes (configured s f "telemetry") end) && s_dsn s).
  Proof.
    intros Hu Hr. destruct (final s f Hu) as (vals & p & Ef & Hfl). unfold run_start in Hr. rewrite Ef in Hr.
    destruct (first_time_setup (flag_on default_on "first-time" vals) (s_ci s) (s_tty s) (s_answer s) f) as [[w t]| |] eqn:Es; try discriminate.
    injection Hr as <-. cbn [d_asked d_sent]. unfold first_time_setup in Es.
    destruct (flag_on default_on "first-time" vals) eqn:Eft; cbn [andb] in *.
    2:{ injection Es as <- <-. split; [discriminate|]. intros _ Hs. unfold flag_on. rewrite (Hfl "telemetry") by auto. destruct Hu as (D1 & _). rewrite D1.
        destruct (says s "telemetry") as [[|]|]; [contradiction|reflexivity|reflexivity]. }
    destruct (s_ci s); cbn [negb andb] in *.
    { injection Es as <- <-. split; [discriminate|]. intros _ Hs. unfold flag_on. rewrite (Hfl "telemetry") by auto. destruct Hu as (D1 & _). rewrite D1.
      destruct (says s "telemetry") as [[|]|]; [contradiction|reflexivity|reflexivity]. }
    destruct (s_tty s).
    - split; [|discriminate]. intros _ b Hb. rewrite Hb in Es. destruct (match f with FText d => d | _ => Some [] end); [|discriminate].
      cbv zeta in Es. destruct (write_option "telemetry" b _ _) as [d2| |]; try discriminate. cbn [rbind fst snd] in Es.
      destruct (write_option "first-time" false _ _); try discriminate. cbn [rbind] in Es. injection Es as _ <-. reflexivity.
    - split; [discriminate|]. intros _ Hs. destruct (match f with FText d => d | _ => Some [] end); [|discriminate]. cbv zeta in Es. cbn [rbind fst snd] in Es.
      destruct (write_option "first-time" false _ _); try discriminate. cbn [rbind] in Es. injection Es as _ <-.
      unfold flag_on. rewrite (Hfl "telemetry") by auto. destruct Hu as (D1 & _). rewrite D1.
      destruct (says s "telemetry") as [[|]|]; [contradiction|reflexivity|reflexivity].
  Qed.
  (** C55: unless the user is asked in this very run and says yes, nothing is sent when --no-telemetry is given, or when the
      configuration turns telemetry off and the command line does not turn it on. *)
  Theorem C55_off : forall s f r, usable s f -> run s f = Some r ->
    (d_asked r = false \/ s_answer s = Some false) ->
    says s "telemetry" = Some false \/ (says s "telemetry" = None /\ configured s f "telemetry" = Some false) -> d_sent r = false.
  Proof.
    intros s f r Hu Hr Ha Hoff. destruct (run_flag s f r Hu Hr) as [H1 H2]. destruct (d_asked r) eqn:Ed.
    - destruct Ha as [|Ha]; [discriminate|]. rewrite (H1 eq_refl false Ha). reflexivity.
    - destruct Hoff as [Hs|[Hs Hc]]; rewrite H2; auto; rewrite Hs; try discriminate; try reflexivity. rewrite Hc. reflexivity.
  Qed.
  (** a later start: nothing but the user's configuration file speaks about telemetry and first-time setup *)
  Definition quiet (s : start) : Prop :=
    says s "telemetry" = None /\ says s "first-time" = None
    /\ forall x, x = "telemetry" \/ x = "first-time" ->
       layer_get x (file_layer (s_project s)) = None /\ layer_get x (env_layer (s_env s)) = None /\ layer_get x (s_default s) = None.
  Lemma sget_layer A k (l : list (string * A)) : NoDup (map fst l) -> layer_get k l = sget k l.
  Proof.
    induction l as [|[k' v] l IH]; intros H; [reflexivity|]. cbn [map fst] in H. inversion H as [|? ? Hn Hd]; subst. rewrite layer_get_cons. cbn [fst snd aget].
    rewrite IH by auto. destruct (String.eqb_spec k k') as [->|Hne]; [|now destruct (sget k l)].
    assert (sget k' l = None) as -> by (apply aget_None; [apply seqb_spec|exact Hn]). reflexivity.
  Qed.
  Lemma collect_nodup d : NoDup (map fst (collect d)).
  Proof. rewrite collect_opts. apply to_map_keys. Qed.
  Lemma quiet_config s f x : quiet s -> f <> FText None -> x = "telemetry" \/ x = "first-time" -> (forall v, setting f x = Some v -> scalar v) ->
    sget x (config_of s f) = setting f x.
  Proof.
    intros (_ & _ & H) Hf Hx Hs. destruct (H x Hx) as (H1 & H2 & H3). unfold config_of, setting in *.
    set (src := mkSrc (s_default s) (match f with FText d => d | _ => None end) (s_env s) (s_project s)).
    assert (El : file_layer (src_global src) = collect (doc_of f)) by (subst src; destruct f as [| |[d|]]; [reflexivity|reflexivity|reflexivity|contradiction]).
    rewrite load_precedence.
    - unfold precedence. rewrite El. cbn [src src_project src_env src_default]. rewrite H1, H2, H3. cbn [option_map first_of].
      rewrite sget_layer by apply collect_nodup. now destruct (sget x (collect (doc_of f))).
    - split; cbn [src_project src].
      + intros v Hv. exfalso. clear - H1 Hv. induction (file_layer (s_project s)) as [|[k w] l IH]; [contradiction|]. rewrite layer_get_cons in H1. cbn [fst snd] in H1.
        destruct (layer_get x l); [discriminate|]. destruct Hv as [E|Hv]; [injection E as -> ->; rewrite String.eqb_refl in H1; discriminate|auto].
      + rewrite El. intros v Hv. apply Hs. apply In_aget; [apply seqb_spec|apply collect_nodup|exact Hv].
  Qed.
  Lemma quiet_run s f tv : usable s f -> quiet s -> setting f "first-time" = Some (CBool false) -> setting f "telemetry" = tv -> (forall v, tv = Some v -> scalar v) ->
    run s f = Some (mkStarted f false (yes (obind tv get_bool) && s_dsn s)).
  Proof.
    intros Hu Hq H1 H2 H3. pose proof Hu as Hu'. destruct Hu' as (D1 & D2 & _ & _ & _ & _ & Hf & _). destruct (final s f Hu) as (vals & p & Ef & Hfl).
    unfold run_start. rewrite Ef. pose proof Hq as (Q1 & Q2 & _).
    assert (E1 : flagged "first-time" vals = Some false).
    { rewrite Hfl by auto. rewrite Q2. unfold configured. rewrite quiet_config by (auto; intros v Hv; rewrite H1 in Hv; injection Hv as <-; exact I). rewrite H1. reflexivity. }
    assert (E2 : flag_on default_on "telemetry" vals = yes (obind tv get_bool)).
    { unfold flag_on. rewrite Hfl by auto. rewrite Q1, D1. unfold configured. rewrite quiet_config by (auto; intros v Hv; apply H3; congruence). now rewrite H2. }
    assert (E3 : flag_on default_on "first-time" vals = false) by (unfold flag_on; now rewrite E1).
    unfold first_time_setup. rewrite E3. cbn [andb]. rewrite E2. reflexivity.
  Qed.
  Lemma quiet_runs l f tv : (forall s, In s l -> usable s f /\ quiet s) -> setting f "first-time" = Some (CBool false) -> setting f "telemetry" = tv -> (forall v, tv = Some v -> scalar v) ->
    runs l f = map (fun s => Some (mkStarted f false (yes (obind tv get_bool) && s_dsn s))) l.
  Proof.
    intros Hl H1 H2 H3. induction l as [|s l IH]; [reflexivity|]. cbn [run_starts map]. destruct (Hl s (or_introl eq_refl)) as [Hu Hq].
    rewrite (quiet_run s f tv Hu Hq H1 H2 H3). cbv zeta. cbn [d_file]. rewrite IH; [reflexivity|]. intros s' Hs. apply Hl. now right.
  Qed.
  Lemma setup_run s f r : usable s f -> tidy_file f -> run s f = Some r -> s_ci s = false -> says s "first-time" <> Some false -> configured s f "first-time" <> Some false ->
    s_tty s = false \/ s_answer s <> None ->
    exists d', d_file r = FText (Some d') /\ setting (FText (Some d')) "first-time" = Some (CBool false) /\ d_asked r = s_tty s
      /\ setting (FText (Some d')) "telemetry" = (if s_tty s then option_map CBool (s_answer s) else setting f "telemetry")
      /\ (forall o, o <> "first-time" -> o <> "telemetry" -> setting (FText (Some d')) o = setting f o) /\ others d' = others (doc_of f)
      /\ (s_tty s = false -> says s "telemetry" = None -> d_sent r = yes (configured s f "telemetry") && s_dsn s).
  Proof.
    intros Hu Ht Hr Hci Hsay Hconf Hans. pose proof (run_flag s f r Hu Hr) as [_ HF]. destruct (final s f Hu) as (vals & p & Ef & Hfl). pose proof Hu as Hu'. destruct Hu' as (D1 & D2 & _).
    unfold run_start in Hr. rewrite Ef in Hr.
    assert (E : flag_on default_on "first-time" vals = true).
    { unfold flag_on. rewrite Hfl by auto. rewrite D2. destruct (says s "first-time") as [[|]|]; [|contradiction|].
      - destruct (existsb _ _); [reflexivity|]. destruct (configured s f "first-time") as [[|]|]; [reflexivity|contradiction|reflexivity].
      - destruct (configured s f "first-time") as [[|]|]; [reflexivity|contradiction|reflexivity]. }
    rewrite E, Hci in Hr. cbn [negb andb] in Hr.
    destruct (setup_ok (s_tty s) (s_answer s) f Ht) as (d' & Es & Td & Ho & S1 & S2 & S3).
    { intros Htty. destruct Hans as [Hn|Hn]; [congruence|exact Hn]. }
    rewrite Es in Hr. injection Hr as <-. exists d'. cbn [d_file d_asked d_sent] in *. repeat split; auto.
    intros Htty Hs. assert (Hne : says s "telemetry" <> Some true) by (rewrite Hs; discriminate). specialize (HF Htty Hne). rewrite Hs in HF. exact HF.
  Qed.
  (** C55: the answer given when first asked is obeyed in that run and in all later ones, and the user is not asked again: in
      every later start in which only the user's configuration file speaks about telemetry, it is sent exactly if the answer was
      yes (and there is somewhere to send it). *)
  Theorem C55_answer_partial : forall s0 f0 r0 b l, usable s0 f0 -> tidy_file f0 -> run s0 f0 = Some r0 -> d_asked r0 = true -> s_answer s0 = Some b ->
    (forall s, In s l -> usable s (d_file r0) /\ quiet s) ->
    d_sent r0 = b && s_dsn s0 /\ runs l (d_file r0) = map (fun s => Some (mkStarted (d_file r0) false (b && s_dsn s))) l.
  Proof.
    intros s0 f0 r0 b l Hu Ht Hr Ha Hb Hl. destruct (run_flag s0 f0 r0 Hu Hr) as [H1 _]. split; [now apply H1|].
    assert (Hset : s_ci s0 = false /\ s_tty s0 = true /\ says s0 "first-time" <> Some false /\ (says s0 "first-time" = None -> configured s0 f0 "first-time" <> Some false)
       /\ exists d', d_file r0 = FText (Some d') /\ setting (FText (Some d')) "first-time" = Some (CBool false) /\ setting (FText (Some d')) "telemetry" = Some (CBool b)).
    { pose proof Hr as Hr'. destruct (final s0 f0 Hu) as (vals & p & Ef & Hfl). unfold run_start in Hr'. rewrite Ef in Hr'.
      destruct (first_time_setup (flag_on default_on "first-time" vals) (s_ci s0) (s_tty s0) (s_answer s0) f0) as [[w t]| |] eqn:Es; try discriminate.
      injection Hr' as <-. cbn [d_asked] in Ha. apply andb_true_iff in Ha. destruct Ha as [Ha Htty]. apply andb_true_iff in Ha. destruct Ha as [Ha Hci].
      apply negb_true_iff in Hci. split; [auto|]. split; [auto|].
      assert (Hff : flagged "first-time" vals <> Some false) by (intros E; unfold flag_on in Ha; rewrite E in Ha; discriminate). rewrite Hfl in Hff by auto.
      split; [intros E; rewrite E in Hff; contradiction|]. split; [intros E; rewrite E in Hff; exact Hff|].
      rewrite Ha, Hci in Es. destruct (setup_ok (s_tty s0) (s_answer s0) f0 Ht) as (d' & Es' & Td & Ho & S1 & S2 & S3); [intros _; rewrite Hb; discriminate|].
      rewrite Es' in Es. injection Es as <- <-. exists d'. cbn [d_file]. split; [reflexivity|]. split; [exact S1|]. rewrite S2, Htty, Hb. reflexivity. }
    destruct Hset as (_ & _ & _ & _ & d' & E & S1 & S2). rewrite E in *.
    rewrite (quiet_runs l _ (Some (CBool b)) Hl S1 S2); [reflexivity|]. intros v Hv. injection Hv as <-. exact I.
  Qed.
  (** C55 is false: a first run whose output is not a terminal sends telemetry without having asked, and marks first-time setup as
      done: no later run asks, and all of them send telemetry. *)
  Theorem C55_never_asked_refuted : forall s0 r0 l, usable s0 FMissing -> run s0 FMissing = Some r0 -> s_ci s0 = false -> s_tty s0 = false -> quiet s0 ->
    (forall s, In s l -> usable s (d_file r0) /\ quiet s) ->
    d_asked r0 = false /\ d_sent r0 = s_dsn s0 /\ runs l (d_file r0) = map (fun s => Some (mkStarted (d_file r0) false (s_dsn s))) l.
  Proof.
    intros s0 r0 l Hu Hr Hci Htty Hq Hl. pose proof Hq as (Q1 & Q2 & _).
    assert (C : forall x, x = "telemetry" \/ x = "first-time" -> configured s0 FMissing x = None).
    { intros x Hx. unfold configured. rewrite quiet_config; [reflexivity|auto|discriminate|auto|]. intros v Hv. discriminate Hv. }
    destruct (setup_run s0 FMissing r0 Hu I Hr Hci) as (d' & E & S1 & S2 & S3 & S4 & S5 & S6); [rewrite Q2; discriminate|rewrite C by auto; discriminate|auto|].
    split; [congruence|]. split; [rewrite S6, C by auto; reflexivity|]. rewrite E in *. rewrite Htty in S3.
    rewrite (quiet_runs l _ None Hl S1 S3); [reflexivity|]. intros v Hv. discriminate Hv.
  Qed.
  (** C55: first-time setup changes nothing else in the file: all other options, and everything that is not an option. *)
  Theorem C55_setup_keeps : forall s f r, usable s f -> tidy_file f -> run s f = Some r ->
    d_file r = f \/ exists d', d_file r = FText (Some d') /\ others d' = others (doc_of f)
      /\ (forall o, o <> "first-time" -> o <> "telemetry" -> setting (d_file r) o = setting f o)
      /\ setting (d_file r) "first-time" = Some (CBool false)
      /\ setting (d_file r) "telemetry" = (if d_asked r then option_map CBool (s_answer s) else setting f "telemetry").
  Proof.
    intros s f r Hu Ht Hr. destruct (final s f Hu) as (vals & p & Ef & Hfl). unfold run_start in Hr. rewrite Ef in Hr.
    destruct (first_time_setup (flag_on default_on "first-time" vals) (s_ci s) (s_tty s) (s_answer s) f) as [[w t]| |] eqn:Es; try discriminate. injection Hr as <-. cbn [d_file d_asked].
    destruct (flag_on default_on "first-time" vals) eqn:Eft; cbn [andb negb].
    2:{ injection Es as <- <-. now left. }
    destruct (s_ci s) eqn:Eci; cbn [andb negb].
    { injection Es as <- <-. now left. }
    assert (Ha : s_tty s = true -> s_answer s <> None).
    { intros Htty Hn. rewrite Htty, Hn in Es. unfold first_time_setup in Es. cbn [andb negb] in Es. destruct (match f with FText d => d | _ => Some [] end); discriminate. }
    destruct (setup_ok (s_tty s) (s_answer s) f Ht Ha) as (d' & Es' & Td & Ho & S1 & S2 & S3). rewrite Es' in Es. injection Es as <- <-. right. exists d'. auto.
  Qed.
End Show.

(** ** concrete cases *)
Definition fx_takes (o : string) : bool := String.eqb o "root" || String.eqb o "loglevel".
Definition fx_on (o : string) : bool := String.eqb o "telemetry" || String.eqb o "first-time" || String.eqb o "progress".
Definition fx_order : list string := ["progress"; "root"; "first_time"; "loglevel"; "telemetry"; "json"].
Definition fx_zs (z : Z) : string := "".
Definition fx_doc : kdoc := [KNode "options" [] (Some [knode1 "loglevel" "debug"]); KNode "extra" [(None, KInt 3)] None].
Definition fx_start (args : list string) (ci tty : bool) (ans : option bool) : start := mkStart args fx_order [("root", "/proj")] [] None ci tty ans true.
Notation fx_run := (run_start fx_zs fx_takes fx_on).
Lemma fx_apart x cfg : (forall k v, In (k, v) cfg -> k <> ("no-" ++ x)%string /\ x <> ("no-" ++ k)%string) -> apart x cfg.
Proof. intros H k v Hk. apply aget_In in Hk; [|apply seqb_spec]. eauto. Qed.
Ltac fx_usable := unfold usable; split; [reflexivity|]; split; [reflexivity|]; split; [reflexivity|]; split; [reflexivity|];
  split; [cbn; tauto|]; split; [cbn; tauto|]; split; [discriminate|]; split;
  [ split; [reflexivity|]; split; [cbn; repeat constructor; cbn; intuition discriminate|];
    intros id Hid; cbn [fx_start s_order fx_order In] in Hid; repeat (destruct Hid as [<-|Hid]; [split; [discriminate|]; vm_compute; first [exact I | (split; reflexivity) | (eexists; split; [reflexivity|auto])]|]); contradiction
  | split; [apply fx_apart; vm_compute; intros k v Hk; repeat (destruct Hk as [Hk|Hk]; [injection Hk as <- <-; split; discriminate|]); contradiction|];
    split; [apply fx_apart; vm_compute; intros k v Hk; repeat (destruct Hk as [Hk|Hk]; [injection Hk as <- <-; split; discriminate|]); contradiction|]; eexists; eexists; reflexivity ].
Example C55_ex_usable : usable fx_takes fx_on (fx_start ["apply"; "--json"] false true (Some false)) (FText (Some fx_doc)).
Proof. fx_usable. Qed.
(** asked, the answer is no; the next run, with other arguments *)
Example C55_ex : exists r0, fx_run (fx_start ["apply"; "--json"] false true (Some false)) (FText (Some fx_doc)) = Some r0 /\ d_asked r0 = true /\ d_sent r0 = false
  /\ d_file r0 = FText (Some [KNode "options" [] (Some [knode1 "loglevel" "debug"; KNode "telemetry" [(None, KBool false)] None; KNode "first-time" [(None, KBool false)] None]);
                              KNode "extra" [(None, KInt 3)] None])
  /\ usable fx_takes fx_on (fx_start ["add"; "left-pad"] true false None) (d_file r0) /\ quiet fx_takes (fx_start ["add"; "left-pad"] true false None)
  /\ fx_run (fx_start ["add"; "left-pad"] true false None) (d_file r0) = Some (mkStarted (d_file r0) false false).
Proof.
  eexists. split; [vm_compute; reflexivity|]. cbn [d_asked d_sent d_file]. split; [reflexivity|]. split; [reflexivity|]. split; [reflexivity|].
  split; [fx_usable|]. split; [|vm_compute; reflexivity]. split; [reflexivity|]. split; [reflexivity|]. intros x [-> | ->]; repeat split; reflexivity.
Qed.
Example C55_ex_never : usable fx_takes fx_on (fx_start ["apply"] false false None) FMissing /\ quiet fx_takes (fx_start ["apply"] false false None).
Proof. split; [fx_usable|]. split; [reflexivity|]. split; [reflexivity|]. intros x [-> | ->]; repeat split; reflexivity. Qed.
(** C55 is false: in CI telemetry is sent although nobody ever agreed; and on the first run at a terminal an explicit --no-telemetry
    is overruled by the answer to the question. *)
Theorem C55_refuted :
  fx_run (fx_start ["apply"] true false None) FMissing = Some (mkStarted FMissing false true)
  /\ (exists r, fx_run (fx_start ["apply"; "--no-telemetry"] false true (Some true)) FMissing = Some r /\ d_asked r = true /\ d_sent r = true).
Proof. split; [vm_compute; reflexivity|]. eexists. split; [vm_compute; reflexivity|]. split; reflexivity. Qed.
(** ... the program panics on a file with two [options] nodes of which only the second has children; and a file that is not text
    is ignored, and then overwritten. *)
Theorem C55_file_refuted :
  first_time_setup true false true (Some false) (FText (Some [KNode "options" [] None; KNode "options" [] (Some [KNode "telemetry" [(None, KBool false)] None])])) = Panic
  /\ (exists d, first_time_setup true false false None FUnreadable = Ok (Some d, None) /\ d = [KNode "options" [] (Some [KNode "first-time" [(None, KBool false)] None])]).
Proof. split; [vm_compute; reflexivity|]. eexists. split; vm_compute; reflexivity. Qed.
(** C35 is false for flags that are on by default: --telemetry (or --progress, --emoji, --scripts, --lockfile) on the command line
    loses against the configuration file. *)
Theorem C35_flags_refuted : exists vals p, cread fx_takes (layered fx_zs (given fx_takes fx_on [("progress", None)])
    (load_config (mkSrc [] None [] (Some [KNode "options" [] (Some [KNode "progress" [(None, KBool false)] None])]))) fx_order ["apply"; "--progress"]) = Some (vals, p, false)
  /\ cread fx_takes ["apply"; "--progress"] = Some ([("progress", None)], ["apply"], false) /\ flagged "progress" vals = Some false.
Proof. eexists. eexists. split; [vm_compute; reflexivity|]. split; reflexivity. Qed.
(** "oro remove -- left-pad" is read as a request to remove left-pad, --root and /proj *)
Example C35_terminator_ex : cread fx_takes (layered fx_zs (given fx_takes fx_on []) (load_config (mkSrc [("root", "/proj")] None [] None)) fx_order ["remove"; "--"; "left-pad"])
  = Some ([], ["remove"; "left-pad"; "--root"; "/proj"], true).
Proof. vm_compute. reflexivity. Qed.
Example C35_flags_ex : exists vals, cread fx_takes (layered fx_zs (given fx_takes fx_on [("json", None)])
    (load_config (mkSrc [("root", "/proj")] (Some fx_doc) [] (Some [KNode "options" [] (Some [KNode "progress" [(None, KBool false)] None])]))) fx_order ["apply"; "--json"]) = Some (vals, ["apply"], false)
  /\ flagged "json" vals = Some true /\ flagged "progress" vals = Some false /\ flagged "telemetry" vals = None.
Proof. eexists. split; [vm_compute; reflexivity|]. repeat split; reflexivity. Qed.

(** the command line's --root wins over the configured one, which is used when the command line has none *)
Example C35_values_ex : exists vals vals', cread fx_takes (layered fx_zs (given fx_takes fx_on [("root", Some "/x")]) (load_config (mkSrc [("root", "/proj")] (Some fx_doc) [] None)) fx_order ["apply"; "--root"; "/x"])
      = Some (vals, ["apply"], false) /\ settings "root" vals = ["/x"]
  /\ cread fx_takes (layered fx_zs (given fx_takes fx_on []) (load_config (mkSrc [("root", "/proj")] (Some fx_doc) [] None)) fx_order ["apply"]) = Some (vals', ["apply"], false) /\ settings "root" vals' = ["/proj"].
Proof. eexists. eexists. split; [vm_compute; reflexivity|]. split; [reflexivity|]. split; [vm_compute; reflexivity|]. reflexivity. Qed.

Print Assumptions C35_flags_partial.
Print Assumptions C35_terminator_refuted.
Print Assumptions C55_off.
Print Assumptions C55_answer_partial.
Print Assumptions C55_never_asked_refuted.
Print Assumptions C55_setup_keeps.
Print Assumptions C55_refuted.
Print Assumptions C55_file_refuted.
Print Assumptions C35_flags_refuted.
Print Assumptions C35_values_partial.
