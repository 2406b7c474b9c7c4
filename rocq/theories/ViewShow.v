(** * oro view: what is printed for an entry *)
From Verif Require Import Base Types StdPath JsonModel JsonSpec JsonRead JsonReadProofs ResolverModel Kdl VersionModel VersionSpec VersionProofs ManifestRead ManifestProofs
  PackumentModel PackumentSpec PackumentProofs ViewModel ViewSpec ViewProofs ViewEntry JsonSpec.
Open Scope string_scope.
Open Scope list_scope.
Set Implicit Arguments.

Fixpoint nodupb (l : list string) : bool := match l with [] => true | x :: t => negb (existsb (String.eqb x) t) && nodupb t end.
Lemma nodupb_ok l : nodupb l = true -> NoDup l.
Proof.
  induction l as [|x t IH]; cbn; intros H; constructor; apply andb_true_iff in H; destruct H as (A & B); [|auto].
  intros I. apply negb_true_iff in A. assert (existsb (String.eqb x) t = true); [|congruence]. apply existsb_exists. exists x. split; [exact I|apply String.eqb_refl].
Qed.

Lemma single_out fs l r k c h m : well_formed fs -> read_flat fs l = Some r -> NoDup (map fst l) -> In (mkField [k] c h m) fs ->
  match sget k l with None => sget k r = sget k m | Some v => exists w, c v = Some w /\ sget k r = if h w then None else Some w end.
Proof.
  intros W R N I. destruct (@flat_field fs l r (mkField [k] c h m) W R I) as (a & A & B). rewrite field_single in A by exact N. cbn [fd_key fd_names] in B.
  destruct (sget k l) as [v|]; [|injection A as <-; exact B]. destruct (c v) as [w|]; [|discriminate]. exists w. split; [auto|]. injection A as <-. rewrite B.
  destruct (h w); cbn; [auto|]. now rewrite String.eqb_refl.
Qed.
Lemma alias_out fs l r k a c h m : well_formed fs -> read_flat fs l = Some r -> NoDup (map fst l) -> k <> a -> In (mkField [k; a] c h m) fs ->
  match sget k l, sget a l with
  | None, None => sget k r = sget k m
  | Some v, None | None, Some v => exists w, c v = Some w /\ sget k r = if h w then None else Some w
  | Some _, Some _ => False
  end /\ sget a r = None.
Proof.
  intros W R N Na I. split; [|apply (@flat_alias fs l r (mkField [k; a] c h m) a W R I); [right; now left|cbn; congruence]].
  destruct (@flat_field fs l r (mkField [k; a] c h m) W R I) as (x & A & B). rewrite field_alias in A by auto. cbn [fd_key fd_names] in B.
  destruct (sget k l) as [v|], (sget a l) as [u|]; try discriminate.
  - destruct (c v) as [w|]; [|discriminate]. exists w. split; [auto|]. injection A as <-. rewrite B. destruct (h w); cbn; [auto|]. now rewrite String.eqb_refl.
  - destruct (c u) as [w|]; [|discriminate]. exists w. split; [auto|]. injection A as <-. rewrite B. destruct (h w); cbn; [auto|]. now rewrite String.eqb_refl.
  - injection A as <-. exact B.
Qed.
(** plain members *)
Lemma opt_out fs l r k c : well_formed fs -> read_flat fs l = Some r -> NoDup (map fst l) -> In (f_opt k c) fs -> exact c -> sget k r = unless_null (sget k l).
Proof.
  intros W R N I X. pose proof (@single_out fs l r _ _ _ _ W R N I) as H. destruct (sget k l) as [v|]; [|rewrite H; reflexivity]. destruct H as (w & C & ->).
  apply (ex_opt X) in C. subst w. destruct v; reflexivity.
Qed.
Lemma default_out fs l r k c : well_formed fs -> read_flat fs l = Some r -> NoDup (map fst l) -> In (f_default k c) fs -> exact c -> sget k r = unless_empty (sget k l).
Proof.
  intros W R N I X. pose proof (@single_out fs l r _ _ _ _ W R N I) as H. destruct (sget k l) as [v|]; [|rewrite H; reflexivity]. destruct H as (w & C & ->).
  apply X in C. subst w. destruct v as [ | | | |[]|[]]; reflexivity.
Qed.

Section Show.
  Variable vparse : string -> option version.
  Variable vshow : version -> string.
  Variable rnorm : string -> option string.
  Variable uparse : string -> option string.
  Variable is_count : string -> bool.
  Notation metadata_fields := (metadata_fields vparse vshow rnorm uparse is_count).
  Notation shapes := (shapes vparse uparse is_count).

  Lemma metadata_names : names metadata_fields = map fst shapes.
  Proof. reflexivity. Qed.
  Lemma metadata_wf : well_formed metadata_fields.
  Proof.
    split; [|split].
    - unfold ViewModel.metadata_fields, version_fields, manifest_fields. cbn [app].
      repeat (apply Forall_cons; [intros k v H; cbn in H; first [contradiction | destruct H as [H|[]]; injection H as <- _; reflexivity]|]). apply Forall_nil.
    - repeat (apply Forall_cons; [discriminate|]). apply Forall_nil.
    - apply nodupb_ok. rewrite metadata_names. reflexivity.
  Qed.
  Lemma dist_wf : well_formed (dist_fields uparse is_count).
  Proof.
    split; [|split].
    - repeat (apply Forall_cons; [intros k v H; cbn in H; destruct H as [H|[]]; injection H as <- _; reflexivity|]). apply Forall_nil.
    - repeat (apply Forall_cons; [discriminate|]). apply Forall_nil.
    - apply nodupb_ok. reflexivity.
  Qed.
  Ltac inn := repeat (first [left; reflexivity|right]).

  Lemma cut_opt_out l r k ks : read_flat metadata_fields l = Some r -> NoDup (map fst l) -> In (f_opt k (c_or c_text (c_record (map (fun k => (k, false)) ks)))) metadata_fields ->
    cut_opt ks (sget k l) (sget k r).
  Proof.
    intros R N I. pose proof (@single_out metadata_fields l r _ _ _ _ metadata_wf R N I) as H. unfold cut_opt. destruct (sget k l) as [v|]; [|exact H]. destruct H as (w & C & ->).
    assert (E : v = JNull \/ v <> JNull) by (destruct v; [now left|right; discriminate..]). destruct E as [->|E]; [cbn in C; injection C as <-; reflexivity|].
    assert (C' : c_or c_text (c_record (map (fun k => (k, false)) ks)) v = Some w) by (destruct v; [congruence|exact C..]). apply cut_text_record in C'.
    assert (Hw : h_null w = false) by (destruct C' as [(s & -> & ->)|(l' & -> & ->)]; reflexivity). rewrite Hw. destruct v; [congruence|eauto..].
  Qed.
  Lemma cut_list_out l r k ks : read_flat metadata_fields l = Some r -> NoDup (map fst l) -> In (f_default k (c_list (c_or c_text (c_record (map (fun k => (k, false)) ks))))) metadata_fields ->
    cut_list ks (sget k l) (sget k r).
  Proof.
    intros R N I. pose proof (@single_out metadata_fields l r _ _ _ _ metadata_wf R N I) as H. unfold cut_list. destruct (sget k l) as [v|]; [|exact H]. destruct H as (w & C & ->).
    destruct v as [ | | | |lv| ]; try discriminate. cbn in C. destruct (c_all _ lv) as [rv|] eqn:E; [|discriminate]. injection C as <-. apply cut_all in E.
    destruct lv as [|x lv]; [inversion E; reflexivity|]. inversion E as [|? ? ? ? E1 E2]; subst. cbn. eexists. eexists. split; [reflexivity|]. split; [reflexivity|exact E].
  Qed.
  Lemma user_out l r : read_flat metadata_fields l = Some r -> NoDup (map fst l) -> cut_opt ["name"; "email"] (sget "_npmUser" l) (sget "_npmUser" r).
  Proof.
    intros R N. assert (I : In (f_opt "_npmUser" c_npm_user) metadata_fields) by inn. pose proof (@single_out metadata_fields l r _ _ _ _ metadata_wf R N I) as H. unfold cut_opt.
    destruct (sget "_npmUser" l) as [v|]; [|exact H]. destruct H as (w & C & ->). destruct v as [ | | | | |lv]; try discriminate; [injection C as <-; reflexivity|].
    cbn [c_opt] in C. unfold c_npm_user in C. cbn [c_record c_fields] in C. destruct (match sget "name" lv with Some v => _ | None => _ end) as [a|] eqn:A; [|discriminate].
    destruct (match sget "email" lv with Some v => _ | None => _ end) as [b|] eqn:B; [|discriminate]. cbn in C. injection C as <-. cbn [h_null]. eexists. split; [reflexivity|].
    right. exists lv. split; [reflexivity|]. cbn [map]. f_equal. f_equal; [|f_equal].
    - destruct (sget "name" lv) as [x|]; [|discriminate]. apply ex_text in A. now subst.
    - destruct (sget "email" lv) as [x|]; [|now injection B as <-]. apply (ex_opt ex_text) in B. now subst.
  Qed.
  Lemma dist_out l r : read_flat metadata_fields l = Some r -> NoDup (map fst l) -> (forall d, sget "dist" l = Some (JObj d) -> NoDup (map fst d)) ->
    exists d, sget "dist" r = Some (JObj d) /\ forall k,
          sget k d = if existsb (String.eqb k) ["shasum"; "integrity"; "npm-signature"; "fileCount"; "unpackedSize"; "tarball"]
                     then Some (match obind (sget "dist" l) (fun v => field v k) with
                                | Some (JStr s) => if String.eqb k "tarball" then match uparse s with Some u => JStr u | None => JNull end else JStr s
                                | Some j => j
                                | None => JNull
                                end)
                     else obind (sget "dist" l) (fun v => field v k).
  Proof.
    intros R N Nd. assert (I : In (mkField ["dist"] (c_dist uparse is_count) h_never [("dist", no_dist uparse is_count)]) metadata_fields) by inn.
    pose proof (@single_out metadata_fields l r _ _ _ _ metadata_wf R N I) as H. destruct (sget "dist" l) as [v|] eqn:Ed.
    - destruct H as (w & C & ->). destruct v as [ | | | | |lv]; try discriminate. specialize (Nd _ eq_refl). cbn [c_dist] in C. destruct (read_flat (dist_fields uparse is_count) lv) as [d|] eqn:Rd; [|discriminate].
      injection C as <-. exists d. split; [reflexivity|]. intros k. cbn [obind field].
      destruct (existsb (String.eqb k) ["shasum"; "integrity"; "npm-signature"; "fileCount"; "unpackedSize"; "tarball"]) eqn:K.
      + assert (T : forall k c, In (mkField [k] (c_opt c) h_never [(k, JNull)]) (dist_fields uparse is_count) -> exact c -> sget k d = Some (match sget k lv with Some j => j | None => JNull end)).
        { intros k' c I' X. pose proof (@single_out (dist_fields uparse is_count) lv d _ _ _ _ dist_wf Rd Nd I') as H. destruct (sget k' lv) as [x|]; [|rewrite H; cbn; now rewrite String.eqb_refl].
          destruct H as (w & C & ->). apply (ex_opt X) in C. now subst. }
        assert (Xc : exact (c_count is_count)). { intros [] w H; try discriminate. cbn in H. destruct (is_count s); [now injection H as <-|discriminate]. }
        cbn [existsb] in K. destruct (String.eqb_spec k "tarball") as [Et|Nt].
        * rewrite Et. assert (I' : In (mkField ["tarball"] (c_opt (c_url uparse)) h_never [("tarball", JNull)]) (dist_fields uparse is_count)) by inn.
          pose proof (@single_out (dist_fields uparse is_count) lv d _ _ _ _ dist_wf Rd Nd I') as H. destruct (sget "tarball" lv) as [x|]; [|rewrite H; reflexivity]. destruct H as (w & C & ->).
          destruct x; try discriminate; [injection C as <-; reflexivity|]. cbn in C. destruct (uparse s); [|discriminate]. injection C as <-. reflexivity.
        * assert (S : sget k d = Some (match sget k lv with Some j => j | None => JNull end)).
          { destruct (String.eqb_spec k "shasum") as [Ek|_]; [rewrite Ek; apply (@T "shasum" c_text); [inn|exact ex_text]|].
            destruct (String.eqb_spec k "integrity") as [Ek|_]; [rewrite Ek; apply (@T "integrity" c_text); [inn|exact ex_text]|].
            destruct (String.eqb_spec k "npm-signature") as [Ek|_]; [rewrite Ek; apply (@T "npm-signature" c_text); [inn|exact ex_text]|].
            destruct (String.eqb_spec k "fileCount") as [Ek|_]; [rewrite Ek; apply (@T "fileCount" (c_count is_count)); [inn|exact Xc]|].
            destruct (String.eqb_spec k "unpackedSize") as [Ek|_]; [rewrite Ek; apply (@T "unpackedSize" (c_count is_count)); [inn|exact Xc]|discriminate]. }
          rewrite S. destruct (sget k lv) as [[]|]; reflexivity.
      + apply (@flat_other (dist_fields uparse is_count) lv d k dist_wf Rd). intros I'. assert (existsb (String.eqb k) ["shasum"; "integrity"; "npm-signature"; "fileCount"; "unpackedSize"; "tarball"] = true); [|congruence].
        apply existsb_exists. exists k. split; [|apply String.eqb_refl]. cbn in I'. cbn. tauto.
    - rewrite H. eexists. split; [reflexivity|]. intros k. cbn [obind existsb]. unfold no_dist. cbn.
      repeat match goal with |- context [String.eqb k ?x] => destruct (String.eqb k x); cbn; try reflexivity end.
  Qed.
  Lemma engines_out l r : read_flat metadata_fields l = Some r -> NoDup (map fst l) ->
    match sget "engines" l with
       | Some (JObj l) => if forallb (fun x => match snd x with JStr s => is_some (rnorm s) | _ => false end) l
                          then sget "engines" r = unless_empty (Some (JObj (map (fun x => (fst x, match snd x with JStr s => match rnorm s with Some r => JStr r | None => JNull end | j => j end)) l)))
                          else sget "engines" r = None
       | _ => sget "engines" r = None
       end.
  Proof.
    intros R N. assert (I : In (f_default "engines" (c_engines rnorm)) metadata_fields) by inn. pose proof (@single_out metadata_fields l r _ _ _ _ metadata_wf R N I) as H.
    destruct (sget "engines" l) as [v|]; [|exact H]. destruct H as (w & C & ->). unfold c_engines, c_or in C.
    destruct v as [ | | | | |lv]; cbn [c_map] in C; try (injection C as <-; reflexivity).
    assert (V : c_vals (c_range rnorm) lv = if forallb (fun x => match snd x with JStr s => is_some (rnorm s) | _ => false end) lv
      then Some (map (fun x => (fst x, match snd x with JStr s => match rnorm s with Some r => JStr r | None => JNull end | j => j end)) lv) else None).
    { clear. induction lv as [|[k x] lv IH]; cbn [c_vals forallb map fst snd]; [reflexivity|]. destruct x as [ | | |s| | ]; try reflexivity. cbn [c_range].
      destruct (rnorm s); cbn [is_some option_map andb]; [|reflexivity]. rewrite IH. destruct (forallb _ lv); reflexivity. }
    rewrite V in C. destruct (forallb _ lv); cbn [option_map] in C; injection C as <-; [|reflexivity].
    destruct lv; reflexivity.
  Qed.

  Theorem entry_shows l r : jwf (JObj l) -> read_metadata vparse vshow rnorm uparse is_count (JObj l) = Some r -> shows vparse vshow rnorm uparse is_count (JObj l) (JObj r).
  Proof.
    intros W R. pose proof (@jwf_nodup l W) as N. assert (Nd : forall d, sget "dist" l = Some (JObj d) -> NoDup (map fst d)).
    { intros d Hd. apply jwf_nodup. eapply (@jwf_field (JObj l) "dist"); [exact W|exact Hd]. }
    cbn [read_metadata] in R. unfold shows. cbn [field].
    assert (Xb : exact c_bin) by (apply ex_or; [exact ex_text|]; apply ex_or; [apply ex_map; exact ex_text|apply ex_list; exact ex_text]).
    assert (Xm : exact c_man) by (apply ex_or; [exact ex_text|apply ex_list; exact ex_text]).
    assert (Xt : exact (c_list c_text)) by (apply ex_list; exact ex_text).
    assert (Xs : exact (c_map c_text)) by (apply ex_map; exact ex_text).
    pose proof ex_text as Xx. pose proof ex_bool as Xo. pose proof ex_any as Xa. pose proof (ex_map ex_any) as Xma.
    split; [intros k Hk; apply (@flat_other metadata_fields l r k metadata_wf R); rewrite metadata_names; exact Hk|].
    split.
    { intros k Hk. cbn [In] in Hk. repeat (destruct Hk as [<-|Hk]; [eapply (@opt_out metadata_fields l r _ _ metadata_wf R N); [inn|assumption]|]). destruct Hk. }
    split.
    { intros k Hk. cbn [In] in Hk. repeat (destruct Hk as [<-|Hk]; [eapply (@default_out metadata_fields l r _ _ metadata_wf R N); [inn|assumption]|]). destruct Hk. }
    split.
    { assert (I : In (f_opt "version" (c_version vparse vshow)) metadata_fields) by inn. pose proof (@single_out metadata_fields l r _ _ _ _ metadata_wf R N I) as H. destruct (sget "version" l) as [v|]; [|exact H].
      destruct H as (w & C & ->). destruct v; try discriminate; [injection C as <-; reflexivity|]. cbn in C. destruct (vparse s); [|discriminate]. injection C as <-. reflexivity. }
    assert (Il : In (mkField ["license"; "licence"] (c_opt c_text) h_null []) metadata_fields) by inn.
    destruct (@alias_out metadata_fields l r "license" "licence" _ _ _ metadata_wf R N ltac:(discriminate) Il) as (L1 & L2).
    assert (Ib : In (mkField ["bundledDependencies"; "bundleDependencies"] (c_opt c_bundled) h_bundled []) metadata_fields) by inn.
    destruct (@alias_out metadata_fields l r "bundledDependencies" "bundleDependencies" _ _ _ metadata_wf R N ltac:(discriminate) Ib) as (B1 & B2).
    split.
    { destruct (sget "license" l) as [v|], (sget "licence" l) as [u|]; try (destruct L1; fail).
      - destruct L1 as (w & C & ->). apply (ex_opt ex_text) in C. subst w. destruct v; reflexivity.
      - destruct L1 as (w & C & ->). apply (ex_opt ex_text) in C. subst w. destruct u; reflexivity.
      - exact L1. }
    split; [exact L2|]. split.
    { assert (X : exact c_bundled) by (apply ex_or; [exact ex_bool|exact Xt]).
      assert (Hb : forall v, (if h_bundled v then None else Some v) = match v with JBool false => None | _ => unless_empty (unless_null (Some v)) end \/ exists x, v = JObj x)
        by (intros [ |[]| | |[]|lo]; eauto).
      assert (Ho : forall v w, c_opt c_bundled v = Some w -> forall x, w <> JObj x) by (intros v w C x ->; destruct v as [ | | | |lv| ]; try discriminate; cbn in C; destruct (c_all c_text lv); discriminate).
      destruct (sget "bundledDependencies" l) as [v|], (sget "bundleDependencies" l) as [u|]; try (destruct B1; fail).
      - destruct B1 as (w & C & ->). destruct (Hb w) as [E|(x & E)]; [|destruct (Ho _ _ C _ E)]. apply (ex_opt X) in C. subst w. rewrite E. destruct v as [ |[]| | | | ]; reflexivity.
      - destruct B1 as (w & C & ->). destruct (Hb w) as [E|(x & E)]; [|destruct (Ho _ _ C _ E)]. apply (ex_opt X) in C. subst w. rewrite E. destruct u as [ |[]| | | | ]; reflexivity.
      - exact B1. }
    split; [exact B2|]. split.
    { assert (I : In (mkField ["deprecated"] c_deprecated h_deprecated []) metadata_fields) by inn. pose proof (@single_out metadata_fields l r _ _ _ _ metadata_wf R N I) as H. destruct (sget "deprecated" l) as [v|]; [|exact H].
      destruct H as (w & C & ->). destruct v as [ |[]| | | | ]; try discriminate; cbn in C; injection C as <-; reflexivity. }
    split; [apply (@cut_opt_out l r "author" ["name"; "email"; "url"] R N); inn|].
    split; [apply (@cut_list_out l r "contributors" ["name"; "email"; "url"] R N); inn|].
    split; [apply (@cut_list_out l r "maintainers" ["name"; "email"; "url"] R N); inn|].
    split; [exact (@user_out l r R N)|].
    split; [apply (@cut_opt_out l r "bugs" ["url"; "email"] R N); inn|].
    split; [apply (@cut_opt_out l r "repository" ["type"; "url"; "directory"] R N); inn|].
    split; [exact (@dist_out l r R N Nd)|exact (@engines_out l r R N)].
  Qed.
End Show.
