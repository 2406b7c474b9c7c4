(** * Directory paths of packages, and crates/node-maintainer/src/graph.rs [node_at_path] *)
From Verif Require Import Base Types ResolverModel ResolverProofs ResolverRun ResolverSpec LockfileModel LockfileProofs LockfileGraph.
Open Scope string_scope.
Open Scope list_scope.

(** components of a package name as a relative path: "@scope/name" has two *)
Fixpoint comps_aux (cur s : string) : list string :=
  match s with
  | EmptyString => [cur]
  | String c t => if Ascii.eqb c "/" then cur :: comps_aux "" t else comps_aux (cur ++ String c "") t
  end.
Definition comps (s : string) : list string := comps_aux "" s.
(** graph.rs:294-309, hoisted.rs:289-295: the directory of the package with path [x1; ...; xk], from the project root:
    node_modules/x1/node_modules/x2/... *)
Definition disk (names : list string) : list string := flat_map (fun y => "node_modules" :: comps y) names.

Definition starts_at (s : string) : bool := match s with String c _ => Ascii.eqb c "@" | _ => false end.
(** graph.rs:231-270 [node_at_path], the loop: [cur] current package, [in_nm] just below a node_modules, [scope] pending scope.
    Simplification: the case where [current] is None cannot arise (it starts as the root and only becomes a child). *)
Fixpoint nap (g : graph) (cur : nat) (in_nm : bool) (scope : option string) (l : list string) : nat :=
  match l with
  | [] => cur
  | seg :: t =>
      if (ueqb seg "node_modules" && match scope with None => true | Some _ => false end) || String.eqb seg "/" || String.eqb seg "\"
      then nap g cur true scope t
      else if negb in_nm then cur
      else if starts_at seg then nap g cur in_nm (Some seg) t
      else match scope with
           | Some sc => nap g (match child_of g cur (ufold (sc ++ "/" ++ seg)) with Some c => c | None => cur end) false None t
           | None => match child_of g cur (ufold seg) with Some c => nap g c false None t | None => cur end
           end
  end.
(** graph.rs:231-275 [node_at_path]; [Path] iteration gives the components *)
Definition node_at_path (g : graph) (path : list string) : option nat :=
  match nap g 0 true None path with 0 => None | S i => Some (S i) end.

(** ** names that npm accepts *)
(** one path component, not hidden, not a scope, not node_modules (in any letter case), lower case *)
Definition plain (s : string) : Prop :=
  exists c t, s = String c t /\ no_slash s = true /\ c <> "."%char /\ c <> "@"%char /\ s <> "\" /\ ufold s <> "node_modules" /\ ufold s = s.
Definition good_name (n : string) : Prop :=
  plain n \/ exists s m, n = (String "@" s ++ "/" ++ m)%string /\ no_slash s = true /\ ufold s = s /\ plain m.

Lemma comps_aux_no_slash s : forall cur, no_slash s = true -> comps_aux cur s = [(cur ++ s)%string].
Proof.
  induction s as [|c s IH]; intros cur H; cbn [comps_aux]; [now rewrite append_nil_r|]. cbn in H. apply andb_true_iff in H. destruct H as [H1 H2].
  destruct (Ascii.eqb c "/"); [discriminate|]. rewrite IH by auto. now rewrite append_assoc.
Qed.
Lemma comps_aux_slash s m : forall cur, no_slash s = true -> comps_aux cur (s ++ String "/" m)%string = (cur ++ s)%string :: comps_aux "" m.
Proof.
  induction s as [|c s IH]; intros cur H; cbn [append comps_aux]; [now rewrite append_nil_r|]. cbn in H. apply andb_true_iff in H. destruct H as [H1 H2].
  destruct (Ascii.eqb c "/"); [discriminate|]. rewrite IH by auto. now rewrite append_assoc.
Qed.
Lemma comps_plain s : no_slash s = true -> comps s = [s].
Proof. intros H. unfold comps. now rewrite comps_aux_no_slash. Qed.
Lemma comps_scoped s m : no_slash s = true -> no_slash m = true -> comps (String "@" s ++ "/" ++ m)%string = [String "@" s; m].
Proof.
  intros Hs Hm. unfold comps. change (String "@" s ++ "/" ++ m)%string with (String "@" s ++ String "/" m)%string.
  rewrite comps_aux_slash by (cbn; auto). now rewrite comps_aux_no_slash.
Qed.
Lemma plain_no_slash s : plain s -> no_slash s = true.
Proof. intros (c & t & _ & H & _); auto. Qed.
Lemma plain_not_at s : plain s -> starts_at s = false.
Proof. intros (c & t & -> & _ & _ & H & _). cbn. destruct (Ascii.eqb_spec c "@"); congruence. Qed.
Lemma plain_not_nm s : plain s -> ueqb s "node_modules" = false.
Proof. intros (c & t & _ & _ & _ & _ & _ & H & _). unfold ueqb. destruct (String.eqb_spec (ufold s) (ufold "node_modules")); [contradiction|auto]. Qed.
Lemma plain_not_sep s : plain s -> String.eqb s "/" = false /\ String.eqb s "\" = false.
Proof.
  intros (c & t & -> & Hs & _ & _ & Hb & _). split.
  - destruct (String.eqb_spec (String c t) "/") as [E|]; [|auto]. rewrite E in Hs. discriminate.
  - destruct (String.eqb_spec (String c t) "\"); [contradiction|auto].
Qed.
Lemma plain_fold s : plain s -> ufold s = s.
Proof. intros (c & t & _ & _ & _ & _ & _ & _ & H); auto. Qed.

Lemma disk_app a b : disk (a ++ b) = disk a ++ disk b.
Proof. apply flat_map_app. Qed.

(** going down one directory *)
Lemma nap_nm g i b l : nap g i b None ("node_modules" :: l) = nap g i true None l.
Proof. reflexivity. Qed.
Lemma nap_plain g i x rest : plain x -> nap g i true None (x :: rest) = match child_of g i x with Some c => nap g c false None rest | None => i end.
Proof.
  intros H. cbn [nap]. rewrite (plain_not_nm _ H). destruct (plain_not_sep _ H) as [-> ->]. cbn [andb orb negb].
  rewrite (plain_not_at _ H), (plain_fold _ H). reflexivity.
Qed.
Lemma nap_scope g i s rest : no_slash s = true -> nap g i true None (String "@" s :: rest) = nap g i true (Some (String "@" s)) rest.
Proof.
  intros H. cbn [nap starts_at]. assert (ueqb (String "@" s) "node_modules" = false) as ->.
  { unfold ueqb. apply String.eqb_neq. cbn. discriminate. }
  assert (String.eqb (String "@" s) "/" = false) as -> by (apply String.eqb_neq; discriminate).
  assert (String.eqb (String "@" s) "\" = false) as -> by (apply String.eqb_neq; discriminate). reflexivity.
Qed.
Lemma nap_scoped g i s m rest : ufold s = s -> plain m ->
  nap g i true (Some (String "@" s)) (m :: rest) = nap g (match child_of g i (String "@" s ++ "/" ++ m) with Some c => c | None => i end) false None rest.
Proof.
  intros Hs H. cbn [nap]. rewrite andb_false_r. destruct (plain_not_sep _ H) as [-> ->]. cbn [orb negb]. rewrite (plain_not_at _ H).
  assert (ufold (String "@" s ++ "/" ++ m)%string = (String "@" s ++ "/" ++ m)%string) as ->; [|reflexivity].
  rewrite !ufold_app. cbn [ufold]. rewrite Hs, (plain_fold _ H). reflexivity.
Qed.
Lemma nap_name g i x c rest b : good_name x -> child_of g i x = Some c -> nap g i b None ("node_modules" :: comps x ++ rest) = nap g c false None rest.
Proof.
  intros Hg Hc. rewrite nap_nm. destruct Hg as [Hp|(s & m & -> & Hs & Hf & Hm)].
  - rewrite comps_plain by now apply plain_no_slash. cbn [app]. rewrite nap_plain by auto. now rewrite Hc.
  - rewrite comps_scoped by (auto; now apply plain_no_slash). cbn [app]. rewrite nap_scope by auto. rewrite nap_scoped by auto. now rewrite Hc.
Qed.

Definition good_graph (g : graph) : Prop := forall i x c, child_of g i x = Some c -> good_name x.

(** the same, as a test *)
Definition plainb (s : string) : bool :=
  match s with
  | EmptyString => false
  | String c t => no_slash s && negb (Ascii.eqb c ".") && negb (Ascii.eqb c "@") && negb (String.eqb s "\")
                  && negb (String.eqb (ufold s) "node_modules") && String.eqb (ufold s) s
  end.
Lemma plainb_spec s : plainb s = true <-> plain s.
Proof.
  destruct s as [|c t].
  - split; [discriminate | intros (c & t & H & _); discriminate].
  - unfold plainb. rewrite !andb_true_iff, !negb_true_iff, !String.eqb_neq, String.eqb_eq, !Ascii.eqb_neq. split.
    + intros H. exists c, t. tauto.
    + intros (c' & t' & E & H). injection E as <- <-. tauto.
Qed.
Definition good_nameb (n : string) : bool :=
  plainb n || match comps n with
              | [String a s; m] => Ascii.eqb a "@" && no_slash s && String.eqb (ufold s) s && plainb m && String.eqb n (String "@" s ++ "/" ++ m)
              | _ => false
              end.
Lemma good_nameb_spec n : good_nameb n = true -> good_name n.
Proof.
  unfold good_nameb. rewrite orb_true_iff. intros [H|H]; [left; now apply plainb_spec|].
  destruct (comps n) as [|[|a s] [|m [|]]]; try discriminate. rewrite !andb_true_iff, plainb_spec, !String.eqb_eq in H.
  right. exists s, m. tauto.
Qed.
Definition good_graphb (g : graph) : bool := forallb (fun n => forallb (fun e => good_nameb (fst e)) (n_children n)) (g_nodes g).
Lemma good_graphb_spec g : good_graphb g = true -> good_graph g.
Proof.
  intros H i x c Hc. unfold child_of, getn in Hc. destruct (nth_error (g_nodes g) i) as [n|] eqn:En; [|discriminate].
  apply nth_error_In in En. apply (proj1 (forallb_forall _ _) H) in En. apply good_nameb_spec.
  apply aget_In in Hc; [|apply seqb_spec]. apply (proj1 (forallb_forall _ _) En _ Hc).
Qed.

Lemma nap_installed g : good_graph g -> forall i names, installed_at g i names -> forall rest, nap g 0 false None (disk names ++ rest) = nap g i false None rest.
Proof.
  intros Hg. induction 1 as [|p path x c H IH Hc]; intros rest; [reflexivity|].
  rewrite disk_app, <- app_assoc, IH. unfold disk at 1. cbn [flat_map]. rewrite app_nil_r. cbn [app].
  eapply nap_name; eauto.
Qed.
Lemma nap_stop g i rest : (forall r, rest <> "node_modules" :: r) -> (forall s r, rest = s :: r -> ueqb s "node_modules" = false /\ s <> "/" /\ s <> "\") -> nap g i false None rest = i.
Proof.
  intros H1 H2. destruct rest as [|s r]; [reflexivity|]. destruct (H2 s r eq_refl) as (A & B & C). cbn [nap]. rewrite A.
  apply String.eqb_neq in B, C. rewrite B, C. reflexivity.
Qed.

(** names of installed packages: one per path *)
Lemma start_true g names rest : names <> [] -> nap g 0 true None (disk names ++ rest) = nap g 0 false None (disk names ++ rest).
Proof. destruct names; [congruence|]. reflexivity. Qed.

Section Facts.
  Variable g : graph.
  Hypothesis Hg : good_graph g.
  (** the root is nobody's child *)
  Hypothesis Hroot : forall i x, child_of g i x <> Some 0.

  Lemma installed_zero i names : installed_at g i names -> (i = 0 <-> names = []).
  Proof.
    intros H. destruct H as [|p path x c H Hc]; [tauto|]. split; [intros ->; exfalso; eapply Hroot; eauto | destruct path; discriminate].
  Qed.
  (** the files of a package *)
  Lemma inside i names rest : installed_at g i names -> i <> 0 ->
    (forall s r, rest = s :: r -> ueqb s "node_modules" = false /\ s <> "/" /\ s <> "\") ->
    node_at_path g (disk names ++ rest) = Some i.
  Proof.
    intros Hi Hn Hr. unfold node_at_path. rewrite start_true by (intros ->; apply Hn; now apply (installed_zero i [])).
    rewrite (nap_installed g Hg i names Hi), nap_stop.
    - destruct i; [congruence | reflexivity].
    - intros r E. destruct (Hr _ _ E) as [H _]. discriminate.
    - exact Hr.
  Qed.
  (** below a package, in the directory of an unscoped package it does not have *)
  Lemma inside_missing i names x rest : installed_at g i names -> plain x -> child_of g i x = None ->
    node_at_path g (disk names ++ "node_modules" :: x :: rest) = match i with 0 => None | _ => Some i end.
  Proof.
    intros Hi Hx Hc. unfold node_at_path.
    assert (E : nap g 0 true None (disk names ++ "node_modules" :: x :: rest) = nap g 0 false None (disk names ++ "node_modules" :: x :: rest)).
    { destruct names; reflexivity. }
    rewrite E, (nap_installed g Hg i names Hi), nap_nm, nap_plain by auto. rewrite Hc. destruct i; reflexivity.
  Qed.

  (** a path made of unscoped package directories and then anything: the deepest of these packages that is installed *)
  Lemma nap_deepest names : Forall plain names -> forall i rest,
    (forall s r, rest = s :: r -> ueqb s "node_modules" = false /\ s <> "/" /\ s <> "\") ->
    exists pre suf, names = pre ++ suf /\ nap g i false None (disk names ++ rest) = nap g i false None (disk pre)
      /\ (forall base, installed_at g i base -> installed_at g (nap g i false None (disk pre)) (base ++ pre))
      /\ match suf with [] => True | x :: _ => child_of g (nap g i false None (disk pre)) x = None end.
  Proof.
    induction names as [|x t IH]; intros Hp i rest Hr.
    - exists [], []. split; [reflexivity|]. split; [cbn; apply nap_stop; [|exact Hr]|].
      + intros r E. destruct (Hr _ _ E) as [H _]. discriminate.
      + split; [|exact I]. intros base Hb. now rewrite app_nil_r.
    - inversion Hp as [|? ? Hx Ht]; subst. assert (Ed : forall l, disk (x :: l) = "node_modules" :: x :: disk l).
      { intros l. unfold disk. cbn [flat_map]. now rewrite comps_plain by now apply plain_no_slash. }
      rewrite Ed. cbn [app]. rewrite nap_nm, nap_plain by auto. destruct (child_of g i x) as [c|] eqn:Ec.
      + destruct (IH Ht c rest Hr) as (pre & suf & -> & H1 & H2 & H3). exists (x :: pre), suf.
        assert (Ep : nap g i false None (disk (x :: pre)) = nap g c false None (disk pre)) by (rewrite Ed, nap_nm, nap_plain, Ec by auto; reflexivity).
        rewrite Ep. split; [reflexivity|]. split; [exact H1|]. split; [|exact H3].
        intros base Hb. specialize (H2 (base ++ [x])). rewrite <- app_assoc in H2. apply H2. econstructor; eauto.
      + exists [], (x :: t). split; [reflexivity|]. split; [reflexivity|]. split; [intros base Hb; now rewrite app_nil_r | exact Ec].
  Qed.
  Lemma deepest names rest : Forall plain names ->
    (forall s r, rest = s :: r -> ueqb s "node_modules" = false /\ s <> "/" /\ s <> "\") -> names <> [] ->
    exists pre suf i, names = pre ++ suf /\ installed_at g i pre /\ (forall x t, suf = x :: t -> child_of g i x = None)
      /\ node_at_path g (disk names ++ rest) = match i with 0 => None | _ => Some i end.
  Proof.
    intros Hp Hr Hne. destruct (nap_deepest names Hp 0 rest Hr) as (pre & suf & H1 & H2 & H3 & H4).
    exists pre, suf, (nap g 0 false None (disk pre)). split; [exact H1|]. split; [apply (H3 []); constructor|]. split.
    - intros x t ->. exact H4.
    - unfold node_at_path. rewrite start_true by exact Hne. rewrite H2. destruct (nap g 0 false None (disk pre)); reflexivity.
  Qed.
End Facts.
