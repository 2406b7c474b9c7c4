(** * Lemmas in the form used by PropsLockfile *)
From Verif Require Import Base Types Kdl ResolverModel ResolverProofs ResolverRun ResolverSpec ResolverThms ResolverSteps
  LockfileModel LockfileSpec LockfileProofs LockfileGraph.
From Coq Require Import Permutation.
Open Scope string_scope.
Open Scope list_scope.

Section Facts.
  Variable vshow : version -> string.
  Variable vparse : string -> option version.
  Variable iparse : string -> option string.
  Variable requested : pspec -> string.
  Variable gitshow : gitinfo -> string.
  Notation to_kdl := (to_kdl vshow).
  Notation from_kdl := (from_kdl vparse iparse).
  Notation to_lockfile := (to_lockfile requested gitshow).
  Notation describes := (describes requested gitshow).

  (** ** sorting is idempotent, so rewriting a file that was just read changes nothing *)
  Section Idem.
    Context {A : Type} (le : A -> A -> bool).
    Hypothesis total : forall a b, le a b = true \/ le b a = true.
    Fixpoint locally_sorted (l : list A) : Prop :=
      match l with a :: ((b :: _) as t) => le a b = true /\ locally_sorted t | _ => True end.
    Lemma sinsert_sorted a l : locally_sorted l -> locally_sorted (sinsert le a l).
    Proof.
      induction l as [|b t IH]; cbn; [auto|]. intros H. destruct (le a b) eqn:E; [cbn; auto|].
      assert (Hba : le b a = true) by (destruct (total a b); congruence).
      destruct t as [|c t]; [cbn; auto|]. destruct H as [Hbc Ht]. specialize (IH Ht).
      cbn [sinsert] in *. destruct (le a c) eqn:E2; cbn [locally_sorted] in *; auto.
    Qed.
    Lemma ssort_sorted l : locally_sorted (ssort le l).
    Proof. induction l as [|a t IH]; cbn; [exact Logic.I|]. now apply sinsert_sorted. Qed.
    Lemma ssort_id l : locally_sorted l -> ssort le l = l.
    Proof.
      induction l as [|a t IH]; cbn; [auto|]. intros H. destruct t as [|b t]; [reflexivity|].
      destruct H as [Hab Ht]. change (fold_right (sinsert le) [] (b :: t)) with (ssort le (b :: t)). rewrite (IH Ht). cbn. now rewrite Hab.
    Qed.
    Lemma ssort_idem l : ssort le (ssort le l) = ssort le l.
    Proof. apply ssort_id, ssort_sorted. Qed.
  End Idem.
  Lemma leb_total a b : String.leb a b = true \/ String.leb b a = true.
  Proof. destruct (String.leb_total a b); auto. Qed.
  Lemma sort_deps_idem l : sort_deps (sort_deps l) = sort_deps l.
  Proof. apply ssort_idem. intros; apply leb_total. Qed.
  Lemma sort_deps_nil l : sort_deps l = [] <-> l = [].
  Proof.
    split; [|intros ->; reflexivity]. intros H. pose proof (Permutation_length (ssort_perm _ (fun a b => String.leb (fst a) (fst b)) l)) as HL.
    fold (sort_deps l) in HL. rewrite H in HL. destruct l; [auto | discriminate].
  Qed.
  Lemma deps_nodes_sort t l : deps_nodes t (sort_deps l) = deps_nodes t l.
  Proof.
    destruct l as [|e l]; [reflexivity|]. unfold deps_nodes at 2.
    assert (H : sort_deps (e :: l) <> []) by (rewrite sort_deps_nil; discriminate).
    assert (E : deps_nodes t (sort_deps (e :: l)) = [deps_to_kdl t (sort_deps (e :: l))]) by (destruct (sort_deps (e :: l)); [congruence | reflexivity]).
    rewrite E, !deps_to_kdl_eq, sort_deps_idem. reflexivity.
  Qed.
  Lemma norm_to_kdl n : lnode_to_kdl vshow (norm n) = lnode_to_kdl vshow n.
  Proof.
    unfold lnode_to_kdl. 
    assert (E : lnode_children vshow (norm n) = lnode_children vshow n).
    { unfold lnode_children, norm. cbn [l_version l_is_root l_resolved l_integrity l_deps l_dev l_peer l_opt].
      rewrite !deps_nodes_sort. destruct (l_is_root n); [reflexivity|]. destruct (l_resolved n); reflexivity. }
    rewrite E. reflexivity.
  Qed.
  Lemma rewrite_stable lf : wf_lockfile vshow vparse iparse lf -> exists lf', from_kdl (to_kdl lf) = Ok lf' /\ to_kdl lf' = to_kdl lf.
  Proof.
    intros W. eexists. split; [now apply codec_exact|]. unfold LockfileModel.to_kdl. cbn [lf_version lf_root lf_packages].
    rewrite norm_to_kdl. do 2 f_equal. fold (sort_pkgs (lf_packages lf)).
    assert (E : ssort (fun a b => String.leb (ufold (fst a)) (ufold (fst b)))
                  (map (fun e => (path_key (l_path (snd e)), norm (snd e))) (sort_pkgs (lf_packages lf)))
                = map (fun e => (path_key (l_path (snd e)), norm (snd e))) (sort_pkgs (lf_packages lf))).
    { apply ssort_id. assert (Hs : locally_sorted (fun a b : string * lnode => String.leb (ufold (fst a)) (ufold (fst b))) (sort_pkgs (lf_packages lf))).
      { apply ssort_sorted. intros; apply leb_total. }
      assert (Hk : forall k n, In (k, n) (sort_pkgs (lf_packages lf)) -> ufold k = ufold (path_key (l_path n))).
      { intros k n H. apply (wf_pkgs _ _ _ _ W). eapply Permutation_in; [apply ssort_perm | exact H]. }
      clear -Hs Hk. induction (sort_pkgs (lf_packages lf)) as [|[k n] [|[k' n'] t] IH]; cbn in *; auto.
      split; [rewrite <- (Hk k n), <- (Hk k' n') by auto; apply Hs|]. apply IH; [apply Hs | intros; apply Hk; auto]. }
    rewrite E, map_map. apply map_ext. intros e. cbn. apply norm_to_kdl.
  Qed.

  (** ** lockfiles that were read *)
  Lemma deps_from_kdl_NoDup c t : NoDup (map fst (deps_from_kdl c t)).
  Proof.
    unfold deps_from_kdl. destruct (kget _ c) as [n|]; [|constructor]. destruct (k_children n) as [cs|]; [|constructor].
    assert (G : forall l acc, NoDup (map fst acc) -> NoDup (map fst (fold_left (fun acc d => sput (k_name d) match obind (k_arg0 d) as_string with Some s => s | None => "*" end acc) l acc))).
    { induction l as [|d l IH]; cbn [fold_left]; intros acc H; [exact H|]. apply IH. apply aput_keys_NoDup; [apply seqb_spec | auto]. }
    apply G. constructor.
  Qed.
  Lemma rmap_in A B (f : A -> res err B) l r : rmap f l = Ok r -> forall b, In b r -> exists a, In a l /\ f a = Ok b.
  Proof.
    revert r; induction l as [|a t IH]; cbn; intros r H b Hb; [injection H as <-; destruct Hb|].
    destruct (f a) as [x| |] eqn:E; cbn in H; try discriminate. destruct (rmap f t) as [xs| |] eqn:E2; cbn in H; try discriminate.
    injection H as <-. destruct Hb as [<-|Hb]; [exists a; auto|]. destruct (IH _ eq_refl _ Hb) as (a' & ? & ?). eauto.
  Qed.
  Lemma keyed_facts l : NoDup (map (fun e => ufold (fst e)) (keyed l)) /\ forall k n, In (k, n) (keyed l) -> In n l.
  Proof.
    unfold keyed.
    assert (G : forall l acc, NoDup (map (fun e => ufold (fst e)) acc) ->
      let r := fold_left (fun acc n => aput ueqb (path_key (l_path n)) n acc) l acc in
      NoDup (map (fun e : string * lnode => ufold (fst e)) r) /\ forall k n, In (k, n) r -> In n l \/ In (k, n) acc).
    { clear. induction l as [|x t IH]; cbn [fold_left]; intros acc Ha; [split; auto|].
      assert (Hk : forall acc, map (fun e : string * lnode => ufold (fst e)) (aput ueqb (path_key (l_path x)) x acc)
                   = map fst (sput (ufold (path_key (l_path x))) x (map (fun e => (ufold (fst e), snd e)) acc))).
      { clear. induction acc as [|[k v] acc IH]; cbn; [easy|]. unfold ueqb at 1. destruct (String.eqb _ _); cbn; [|now rewrite IH].
        now rewrite map_map. }
      destruct (IH (aput ueqb (path_key (l_path x)) x acc)) as [HN HI].
      - rewrite Hk. apply aput_keys_NoDup; [apply seqb_spec | now rewrite map_map].
      - split; [exact HN|]. intros k n H. destruct (HI k n H) as [H1|H1]; [left; now right|].
        clear -H1. induction acc as [|[k' v'] acc IH]; cbn in H1.
        + destruct H1 as [E|[]]. injection E as <- <-. left; now left.
        + destruct (ueqb _ k'); cbn in H1; destruct H1 as [E|H1].
          * injection E as <- <-. left; now left.
          * right; now right.
          * right; now left.
          * destruct (IH H1) as [[?|?]|?]; [left; now left | left; now right | right; now right]. }
    destruct (G l [] ltac:(constructor)) as [HN HI]. split; [exact HN|]. intros k n H. destruct (HI k n H) as [?|[]]. auto.
  Qed.
  Lemma keyed_key l k n : In (k, n) (keyed l) -> ufold k = ufold (path_key (l_path n)).
  Proof.
    unfold keyed.
    assert (G : forall l acc, (forall k n, In (k, n) acc -> ufold k = ufold (path_key (l_path n))) ->
      forall k n, In (k, n) (fold_left (fun acc n => aput ueqb (path_key (l_path n)) n acc) l acc) -> ufold k = ufold (path_key (l_path n))).
    { clear. induction l as [|x t IH]; cbn [fold_left]; intros acc Ha; [exact Ha|]. apply IH. clear IH. intros k n.
      induction acc as [|[k' v'] acc IHa]; cbn.
      - intros [E|[]]. injection E as <- <-. reflexivity.
      - destruct (ueqb _ k') eqn:Eu; cbn; intros [E|H1].
        + injection E as <- <-. apply ueqb_spec in Eu. auto.
        + apply Ha. now right.
        + injection E as <- <-. apply Ha. now left.
        + apply IHa; auto. intros; apply Ha; now right. }
    apply G. intros ? ? [].
  Qed.

  Lemma lnode_from_kdl_facts n b ln : lnode_from_kdl vparse iparse n b = Ok ln ->
    deps_ok ln /\ l_is_root ln = b /\ (b = false -> exists pre, l_path ln = pre ++ [l_name ln])
    /\ (forall v, l_version ln = Some v -> exists s, vparse s = Some v) /\ (forall i, l_integrity ln = Some i -> exists s, iparse s = Some i)
    /\ (b = true -> l_name ln = "").
  Proof.
    unfold lnode_from_kdl. cbv zeta. intros H.
    set (ch := match k_children n with Some c => c | None => [] end) in *.
    destruct (if b then Ok "" else match rev (string_args n) with [] => Err EMissingName | x :: _ => Ok x end) as [nm| |] eqn:En; cbn [rbind] in H; try discriminate.
    destruct (parse_opt iparse EIntegrity (obind (kget_arg "integrity" ch) as_string)) as [ig| |] eqn:Ei; cbn [rbind] in H; try discriminate.
    destruct (parse_opt vparse EParse (obind (kget_arg "version" ch) as_string)) as [vr| |] eqn:Ev; cbn [rbind] in H; try discriminate.
    injection H as <-. cbn.
    split; [repeat split; apply deps_from_kdl_NoDup|]. split; [reflexivity|]. split; [|split; [|split]].
    - intros ->. destruct (rev (string_args n)) as [|x r] eqn:E; [discriminate|]. injection En as <-.
      exists (rev r). rewrite <- (rev_involutive (string_args n)), E. reflexivity.
    - intros v ->. unfold parse_opt in Ev. destruct (obind (kget_arg "version" ch) as_string) as [s|]; [|discriminate].
      destruct (vparse s) eqn:E; [|discriminate]. injection Ev as <-. eauto.
    - intros i ->. unfold parse_opt in Ei. destruct (obind (kget_arg "integrity" ch) as_string) as [s|]; [|discriminate].
      destruct (iparse s) eqn:E; [|discriminate]. injection Ei as <-. eauto.
    - intros ->. now injection En as <-.
  Qed.

  (** every lockfile that can be read is well-formed, given that the semver and ssri crates re-read what they print *)
  Lemma from_kdl_wf d lf : (forall v s, vparse s = Some v -> vparse (vshow v) = Some v) -> (forall s i, iparse s = Some i -> iparse i = Some i) ->
    from_kdl d = Ok lf -> (lf_version lf < 2 ^ 63)%N ->
    wf_lockfile vshow vparse iparse lf /\ (forall k n, In (k, n) (lf_packages lf) -> exists pre, l_path n = pre ++ [l_name n]).
  Proof.
    intros Hv Hi H Hver. unfold LockfileModel.from_kdl in H.
    destruct (rmap _ _) as [pkgs| |] eqn:Ep; cbn [rbind] in H; try discriminate.
    destruct (match obind (kget_arg "lockfile-version" d) as_int with Some z => _ | None => _ end) as [ver| |]; cbn [rbind] in H; try discriminate.
    destruct (kget "root" d) as [rn|]; [|discriminate].
    destruct (lnode_from_kdl vparse iparse rn true) as [root| |] eqn:Er; cbn [rbind] in H; try discriminate.
    injection H as <-. cbn in Hver.
    assert (Hpk : forall k n, In (k, n) (keyed pkgs) -> exists kn, lnode_from_kdl vparse iparse kn false = Ok n).
    { intros k n Hin. apply keyed_facts in Hin. destruct (rmap_in _ _ _ _ _ Ep _ Hin) as (kn & _ & E). eauto. }
    assert (Hval : forall kn b n, lnode_from_kdl vparse iparse kn b = Ok n -> values_ok vshow vparse iparse n).
    { intros kn b n E. destruct (lnode_from_kdl_facts _ _ _ E) as (_ & _ & _ & H1 & H2 & _). split.
      - intros v Ev. destruct (H1 v Ev) as [s Hs]. eauto.
      - intros i Ei. destruct (H2 i Ei) as [s Hs]. eauto. }
    split; [constructor; cbn; auto|].
    - apply (lnode_from_kdl_facts _ _ _ Er).
    - split; [apply keyed_facts|]. split; [apply (lnode_from_kdl_facts _ _ _ Er)|]. cbn.
      intros k n Hin. destruct (Hpk k n Hin) as [kn E]. apply (lnode_from_kdl_facts _ _ _ E).
    - split; [eauto|]. intros k n Hin. destruct (Hpk k n Hin) as [kn E]. eauto.
    - intros k n Hin. split; [eapply keyed_key; eauto|]. destruct (Hpk k n Hin) as [kn E].
      destruct (lnode_from_kdl_facts _ _ _ E) as (_ & Hr & Hl & _). split; [auto|]. destruct (Hl eq_refl) as [pre ->]. destruct pre; discriminate.
    - cbn. intros k n Hin. destruct (Hpk k n Hin) as [kn E]. apply (lnode_from_kdl_facts _ _ _ E). reflexivity.
  Qed.
  Lemma reread d lf : (forall v s, vparse s = Some v -> vparse (vshow v) = Some v) -> (forall s i, iparse s = Some i -> iparse i = Some i) ->
    from_kdl d = Ok lf -> (lf_version lf < 2 ^ 63)%N ->
    (forall k n, In (k, n) (lf_packages lf) -> l_resolved n = None -> l_integrity n = None) ->
    l_resolved (lf_root lf) = None -> l_integrity (lf_root lf) = None ->
    exists lf', from_kdl (to_kdl lf) = Ok lf' /\ same_lockfile lf' lf.
  Proof.
    intros Hv Hi H Hver Hint Hrr Hri. destruct (from_kdl_wf d lf Hv Hi H Hver) as [W Hlast].
    destruct (round_trip vshow vparse iparse lf W) as (lf' & E & H1 & (R1 & R2 & R3 & R4 & R5 & R6 & R7) & H3).
    { intros k n Hin. split; eauto. destruct (Hlast k n Hin) as [pre Hp]. exists pre, (l_name n). auto. }
    exists lf'. split; [exact E|]. split; [auto|]. split; [|exact H3].
    assert (Erl : lf_root lf' = norm (lf_root lf)) by (rewrite (codec_exact _ _ _ _ W) in E; injection E as <-; reflexivity).
    assert (Hname : l_name (lf_root lf) = "").
    { unfold LockfileModel.from_kdl in H. destruct (rmap _ _) as [pkgs| |]; cbn [rbind] in H; try discriminate.
      destruct (match obind (kget_arg "lockfile-version" d) as_int with Some z => _ | None => _ end) as [ver| |]; cbn [rbind] in H; try discriminate.
      destruct (kget "root" d) as [rn|]; [|discriminate]. destruct (lnode_from_kdl vparse iparse rn true) as [root| |] eqn:Er; cbn [rbind] in H; try discriminate.
      injection H as <-. cbn. now apply (lnode_from_kdl_facts _ _ _ Er). }
    pose proof (wf_root _ _ _ _ W) as Hr.
    unfold same_node. rewrite Erl in *. unfold norm in *. cbn in *. rewrite Hr, Hname, Hrr, Hri. repeat split; auto.
  Qed.

  (** ** --locked *)
  Lemma graph_root_resolved g lf : to_lockfile g = Ok lf -> l_resolved (lf_root lf) <> None.
  Proof.
    unfold LockfileModel.to_lockfile. destruct (node_lnode requested gitshow g 0 true) as [r| |] eqn:E; cbn [rbind]; try discriminate.
    destruct (rmap _ _) as [pk| |]; cbn [rbind]; try discriminate. intros H. injection H as <-. cbn.
    unfold node_lnode in E. destruct (getn g 0); [|discriminate]. injection E as <-. discriminate.
  Qed.
  Lemma written_root_not_resolved lf lf' : from_kdl (to_kdl lf) = Ok lf' -> l_is_root (lf_root lf) = true -> l_resolved (lf_root lf') = None.
  Proof.
    unfold LockfileModel.from_kdl. intros H Hr. destruct (rmap _ _) as [pkgs| |]; cbn [rbind] in H; try discriminate.
    destruct (match obind (kget_arg "lockfile-version" (to_kdl lf)) as_int with Some z => _ | None => _ end) as [ver| |]; cbn [rbind] in H; try discriminate.
    unfold LockfileModel.to_kdl at 1 in H. cbn [kget k_name String.eqb Ascii.eqb Bool.eqb] in H.
    assert (Ek : k_name (lnode_to_kdl vshow (lf_root lf)) = "root") by (unfold lnode_to_kdl; rewrite Hr; reflexivity).
    rewrite Ek in H. cbn [String.eqb Ascii.eqb Bool.eqb] in H.
    destruct (lnode_from_kdl vparse iparse (lnode_to_kdl vshow (lf_root lf)) true) as [root| |] eqn:Er; cbn [rbind] in H; try discriminate.
    injection H as <-. cbn. unfold lnode_from_kdl in Er. cbv zeta in Er.
    cbn [rbind] in Er.
    all: destruct (parse_opt iparse EIntegrity _) as [ig| |]; cbn [rbind] in Er; try discriminate.
    all: destruct (parse_opt vparse EParse _) as [vr| |]; cbn [rbind] in Er; try discriminate.
    all: injection Er as <-; cbn [l_resolved].
    all: assert (Ec : match k_children (lnode_to_kdl vshow (lf_root lf)) with Some c => c | None => [] end = lnode_children vshow (lf_root lf))
      by (unfold lnode_to_kdl; cbn [k_children]; destruct (lnode_children vshow (lf_root lf)); reflexivity).
    all: unfold kget_arg; match goal with |- context [kget "resolved" ?c] => replace c with (lnode_children vshow (lf_root lf)) by (symmetry; exact Ec) end;
      rewrite children_get, kget_res, Hr, !kget_deps; cbn; reflexivity.
  Qed.
  Lemma keys_ok_graph g lf : deps_nodup g -> to_lockfile g = Ok lf -> keys_ok lf /\ l_is_root (lf_root lf) = true.
  Proof.
    intros Hnd. unfold LockfileModel.to_lockfile. destruct (node_lnode requested gitshow g 0 true) as [r| |] eqn:E; cbn [rbind]; try discriminate.
    destruct (rmap _ _) as [pk| |] eqn:Er; cbn [rbind]; try discriminate. intros H. injection H as <-. cbn.
    split; [|unfold node_lnode in E; destruct (getn g 0); [|discriminate]; now injection E as <-].
    split; [apply keyed_facts|]. split; [eapply node_lnode_deps_ok; eauto|]. cbn.
    intros k n Hin. apply keyed_facts in Hin. destruct (rmap_in _ _ _ _ _ Er _ Hin) as (i & _ & Ei). eapply node_lnode_deps_ok; eauto.
  Qed.
  Lemma to_lockfile_root g lf : to_lockfile g = Ok lf -> l_is_root (lf_root lf) = true.
  Proof.
    unfold LockfileModel.to_lockfile. destruct (node_lnode requested gitshow g 0 true) as [r| |] eqn:E; cbn [rbind]; try discriminate.
    destruct (rmap _ _) as [pk| |] eqn:Er; cbn [rbind]; try discriminate. intros H. injection H as <-. cbn.
    unfold node_lnode in E; destruct (getn g 0); [|discriminate]; now injection E as <-.
  Qed.
  (** equality needs equal roots, whatever the keys *)
  Lemma eqb_root a b : lockfile_eqb a b = true -> l_resolved (lf_root a) = l_resolved (lf_root b).
  Proof.
    unfold lockfile_eqb, lnode_eqb. rewrite !andb_true_iff, !ostr_eqb_spec. tauto.
  Qed.
  Lemma locked_never g lf lf' : to_lockfile g = Ok lf -> from_kdl (to_kdl lf) = Ok lf' ->
    locked_check requested gitshow true (Some lf') g = Err ELockfileMismatch.
  Proof.
    intros H H'. unfold locked_check. rewrite H. cbn [rbind]. destruct (lockfile_eqb lf' lf) eqn:E; [|reflexivity].
    exfalso. apply eqb_root in E. rewrite (written_root_not_resolved _ _ H' (to_lockfile_root _ _ H)) in E.
    apply (graph_root_resolved _ _ H). congruence.
  Qed.
  Lemma round_trip_never g lf lf' : to_lockfile g = Ok lf -> from_kdl (to_kdl lf) = Ok lf' -> ~ same_lockfile lf' lf.
  Proof.
    intros H H' (_ & (_ & _ & _ & E & _) & _). rewrite (written_root_not_resolved _ _ H' (to_lockfile_root _ _ H)) in E.
    apply (graph_root_resolved _ _ H). congruence.
  Qed.
  Lemma locked_iff g lf' lf : keys_ok lf' -> deps_nodup g -> to_lockfile g = Ok lf ->
    (locked_check requested gitshow true (Some lf') g = Ok tt <-> same_lockfile lf' lf)
    /\ (locked_check requested gitshow true (Some lf') g = Err ELockfileMismatch <-> ~ same_lockfile lf' lf).
  Proof.
    intros Hk Hn H. destruct (keys_ok_graph g lf Hn H) as [Hk' _]. unfold locked_check. rewrite H. cbn [rbind].
    pose proof (lockfile_eqb_spec lf' lf Hk Hk') as S. destruct (lockfile_eqb lf' lf).
    - split; split; intros; try tauto; try discriminate.
    - split; split; intros X; try discriminate; try tauto; [apply S in X; discriminate|]. intros Y. apply S in Y. discriminate.
  Qed.
End Facts.

Section Unique.
  Variable rsat : range -> version -> bool.
  Variable canon : string -> option string.
  Variable parse_dep : string -> string -> res err pspec.
  Variable lnodeT : Type.
  Variable lpath : lnodeT -> list string.
  Variable lman : lnodeT -> manifest.
  Variable to_package : lnodeT -> res err (option package).
  Variable deliver : pspec -> outcome -> Prop.
  Variable lock : option (lockpkgs lnodeT).
  Variable requested : pspec -> string.
  Variable gitshow : gitinfo -> string.
  Notation reach := (reach rsat canon parse_dep lnodeT lpath lman to_package deliver lock).
  Notation to_lockfile := (to_lockfile requested gitshow).
  Notation describes := (describes requested gitshow).
  Variables (root : node) (pkg : package) (m : manifest) (name : string).
  Hypothesis Hroot : new_node parse_dep name pkg m true = Ok root.

  Lemma entry_describes s : reach root s -> forall i b ln, i < size (s_g s) -> node_lnode requested gitshow (s_g s) i b = Ok ln -> describes (s_g s) i ln.
  Proof.
    intros Hs i b ln Hi E. pose proof (reach_inv _ _ _ _ _ _ _ _ _ _ _ _ _ _ Hroot Hs) as SI.
    pose proof SI as [I _ _ _ _].
    unfold node_lnode in E. destruct (getn (s_g s) i) as [n|] eqn:En; [|discriminate]. injection E as <-.
    exists n. split; [exact En|]. cbn. split; [eapply installed_all; eauto|]. split; [reflexivity|].
    split; [destruct (pk_resolved (n_pkg n)); auto|].
    pose proof (reach_nodup _ _ _ _ _ _ _ _ _ _ _ _ _ _ Hroot Hs i n En) as Hnd.
    intros t x txt.
    assert (Esec : forall ln, section_of t ln = section_of t ln) by reflexivity. clear Esec.
    assert (G : sget x (linked_deps requested (s_g s) t n) = Some txt <-> exists sp c, linked (s_g s) i x sp t c /\ txt = requested sp).
    { rewrite (proj2 (linked_deps_spec requested (s_g s) t n Hnd) x). unfold dep_text. split.
      - intros H. destruct (sget x (n_deps n)) as [ei|] eqn:Ed; [|discriminate]. cbn in H.
        assert (Hd : dep_of (s_g s) i x = Some ei) by (unfold dep_of; now rewrite En).
        destruct (gi_dep _ _ _ _ _ _ I _ _ _ Hd) as (e & He & Hf & _). rewrite He in H.
        destruct (deptype_eqb (e_type e) t) eqn:Et; [|discriminate]. injection H as <-.
        exists (e_spec e), (e_to e). split; [|reflexivity]. exists n, ei. split; [auto|]. split; [auto|]. rewrite He.
        assert (e_type e = t) by (destruct (e_type e), t; try discriminate; reflexivity). destruct e; cbn in *; subst; reflexivity.
      - intros (sp & c & (n' & ei & En' & Ed & He) & ->). rewrite En in En'. injection En' as <-. rewrite Ed. cbn. rewrite He. cbn.
        destruct t; reflexivity. }
    destruct t; exact G.
  Qed.

  (** one entry per installed package *)
  Lemma path_valid g q P : GInv rsat canon deliver g q P -> (forall i, 0 < i < size g -> valid_name (name_of g i)) ->
    forall i, i < size g -> forall x, In x (node_path g i) -> valid_name x.
  Proof.
    intros I Hv. pose proof (ginv_parlt _ _ _ _ _ _ I) as Hp. destruct (gi_root _ _ _ _ _ _ I) as [Hz Hr].
    induction i as [i IH] using lt_wf_ind. intros Hi x Hx. destruct (Nat.eq_dec i 0) as [->|Hne].
    - rewrite node_path_root in Hx by auto. destruct Hx.
    - destruct (gi_par _ _ _ _ _ _ I i ltac:(lia)) as (p & Hpp & Hlt & Hc). rewrite (node_path_step g Hp i p) in Hx by auto.
      apply in_app_iff in Hx. destruct Hx as [Hx|[<-|[]]]; [apply (IH p); auto; lia | apply Hv; lia].
  Qed.
  Lemma lockfile_complete_keys : forall s, reach root s ->
    (forall i j, 0 < i < size (s_g s) -> 0 < j < size (s_g s) -> path_key (node_path (s_g s) i) = path_key (node_path (s_g s) j) -> i = j) ->
    exists lf, to_lockfile (s_g s) = Ok lf
      /\ List.length (lf_packages lf) = size (s_g s) - 1
      /\ NoDup (map (fun e => ufold (fst e)) (lf_packages lf))
      /\ describes (s_g s) 0 (lf_root lf)
      /\ (forall i, 0 < i < size (s_g s) -> exists ln, In (path_key (node_path (s_g s) i), ln) (lf_packages lf) /\ describes (s_g s) i ln)
      /\ (forall k ln, In (k, ln) (lf_packages lf) -> exists i, 0 < i < size (s_g s) /\ k = path_key (node_path (s_g s) i) /\ describes (s_g s) i ln).
  Proof.
    intros s Hs Hval. pose proof (reach_inv _ _ _ _ _ _ _ _ _ _ _ _ _ _ Hroot Hs) as SI. pose proof SI as [I _ _ _ _].
    destruct (gi_root _ _ _ _ _ _ I) as [Hz _].
    destruct (proj1 (getn_lt (s_g s) 0) Hz) as [n0 Hn0]. destruct (node_lnode_ok requested gitshow (s_g s) 0 true n0 Hn0) as (r & Er & _).
    set (g := s_g s) in *.
    assert (HQ : forall i, i < size g -> forall x, In x (node_path g i) -> ufold x = x).
    { intros i Hi x Hx.
      apply (path_Q rsat canon parse_dep lnodeT lpath lman to_package deliver lock (fun x => ufold x = x)) with (root := root) (pkg := pkg) (m := m) (name := name) (s := s) (i := i); auto.
      intros nm str sp E. apply ufold_idem. }
    assert (Hkey : NoDup (map (fun n => ufold (path_key (l_path n))) (map (entry requested gitshow g) (rest g)))).
    { rewrite map_map. assert (Hinj : forall i j, In i (rest g) -> In j (rest g) ->
        ufold (path_key (l_path (entry requested gitshow g i))) = ufold (path_key (l_path (entry requested gitshow g j))) -> i = j).
      { intros i j Hi Hj E. apply rest_in in Hi, Hj.
        rewrite (proj2 (entry_eq requested gitshow g i ltac:(lia))), (proj2 (entry_eq requested gitshow g j ltac:(lia))) in E.
        rewrite !ufold_path_key in E by (intros x Hx; first [now apply (HQ i); [lia|] | now apply (HQ j); [lia|]]). apply Hval; auto. }
      revert Hinj. pose proof (rest_nodup g) as Hnd. induction (rest g) as [|a t IH]; cbn; [constructor|]. intros Hinj. inversion Hnd; subst.
      constructor; [|apply IH; auto]. intros Hin. apply in_map_iff in Hin. destruct Hin as (b & E & Hb).
      assert (b = a) by (apply Hinj; auto). subst. contradiction. }
    eexists. split; [apply to_lockfile_eq; eauto|]. cbn [lf_packages lf_root]. rewrite keyed_eq by exact Hkey. rewrite !map_length, !map_map. cbn [fst].
    split; [|split; [|split; [|split]]].
    - unfold rest. destruct (size g) as [|k] eqn:Esz; [lia|]. cbn. rewrite filter_all; [rewrite seq_length; lia|].
      intros a Ha. apply in_seq in Ha. apply negb_true_iff, Nat.eqb_neq. lia.
    - rewrite map_map in Hkey. exact Hkey.
    - eapply entry_describes; eauto.
    - intros i Hi. exists (entry requested gitshow g i). destruct (entry_eq requested gitshow g i ltac:(lia)) as [E1 E2]. split.
      + apply in_map_iff. exists i. rewrite E2. split; [reflexivity | now apply rest_in].
      + eapply entry_describes; eauto. fold g; lia.
    - intros k ln Hin. apply in_map_iff in Hin. destruct Hin as (i & E & Hi). injection E as <- <-. apply rest_in in Hi.
      exists i. destruct (entry_eq requested gitshow g i ltac:(lia)) as [E1 E2]. split; [auto|]. split; [now rewrite E2|].
      eapply entry_describes; eauto. fold g; lia.
  Qed.

  Lemma valid_keys s : reach root s -> (forall i, 0 < i < size (s_g s) -> valid_name (name_of (s_g s) i)) ->
    forall i j, 0 < i < size (s_g s) -> 0 < j < size (s_g s) -> path_key (node_path (s_g s) i) = path_key (node_path (s_g s) j) -> i = j.
  Proof.
    intros Hs Hval i j Hi Hj E. pose proof (reach_inv _ _ _ _ _ _ _ _ _ _ _ _ _ _ Hroot Hs) as SI. pose proof SI as [I _ _ _ _]. assert (Li : i < size (s_g s)) by lia. assert (Lj : j < size (s_g s)) by lia. apply path_key_inj in E.
    - eapply node_path_inj; eauto.
    - apply Forall_forall. intros x Hx. apply (path_valid (s_g s) _ _ I Hval i Li x Hx).
    - apply Forall_forall. intros x Hx. apply (path_valid (s_g s) _ _ I Hval j Lj x Hx).
    - eapply path_nonempty; [exact Hroot|exact Hs|exact Hi].
    - eapply path_nonempty; [exact Hroot|exact Hs|exact Hj].
  Qed.
  Lemma lockfile_complete : forall s, reach root s -> (forall i, 0 < i < size (s_g s) -> valid_name (name_of (s_g s) i)) ->
    exists lf, to_lockfile (s_g s) = Ok lf
      /\ List.length (lf_packages lf) = size (s_g s) - 1
      /\ NoDup (map (fun e => ufold (fst e)) (lf_packages lf))
      /\ describes (s_g s) 0 (lf_root lf)
      /\ (forall i, 0 < i < size (s_g s) -> exists ln, In (path_key (node_path (s_g s) i), ln) (lf_packages lf) /\ describes (s_g s) i ln)
      /\ (forall k ln, In (k, ln) (lf_packages lf) -> exists i, 0 < i < size (s_g s) /\ k = path_key (node_path (s_g s) i) /\ describes (s_g s) i ln).
  Proof. intros s Hs Hval. apply lockfile_complete_keys; [exact Hs|]. now apply valid_keys. Qed.

  Variable vshow : version -> string.
  Variable vparse : string -> option version.
  Variable iparse : string -> option string.
  (** the lockfile written for a tree without aliases reads back equal, up to the root's name, resolved and integrity *)
  Lemma graph_round_trip : (forall v, vparse (vshow v) = Some v) -> forall s, reach root s ->
    (forall i, 0 < i < size (s_g s) -> valid_name (name_of (s_g s) i)) ->
    (forall i n, getn (s_g s) i = Some n -> i <> 0 -> ufold (pk_name (n_pkg n)) = name_of (s_g s) i) ->
    (forall i n nm v u integ, getn (s_g s) i = Some n -> pk_resolved (n_pkg n) = RNpm nm v u (Some integ) -> iparse integ = Some integ) ->
    exists lf lf', to_lockfile (s_g s) = Ok lf /\ from_kdl vparse iparse (to_kdl vshow lf) = Ok lf' /\ same_except_root_origin lf' lf.
  Proof.
    intros Hv s Hs Hval Hname Hint. pose proof (reach_inv _ _ _ _ _ _ _ _ _ _ _ _ _ _ Hroot Hs) as SI. pose proof SI as [I _ _ _ _].
    destruct (gi_root _ _ _ _ _ _ I) as [Hz Hr0]. pose proof (ginv_parlt _ _ _ _ _ _ I) as Hp.
    destruct (lockfile_complete s Hs Hval) as (lf & E & _ & Hnd & D0 & _ & Dk).
    pose proof (reach_nodup _ _ _ _ _ _ _ _ _ _ _ _ _ _ Hroot Hs) as Hdn.
    destruct (keys_ok_graph requested gitshow (s_g s) lf Hdn E) as [Hko Hir].
    assert (Hvals : forall i ln, describes (s_g s) i ln -> values_ok vshow vparse iparse ln).
    { intros i ln (n & En & _ & _ & Hr & _). split; [intros; apply Hv|]. intros ig Eg.
      destruct (pk_resolved (n_pkg n)) as [nm w u o| |] eqn:Er; destruct Hr as (_ & _ & Hi); try congruence.
      subst. rewrite Eg in Er. eapply Hint; eauto. }
    assert (Hpk : forall k ln, In (k, ln) (lf_packages lf) -> l_is_root ln = false /\ faithful ln /\ l_path ln <> [] /\ k = path_key (l_path ln)).
    { intros k ln Hin. pose proof (Dk k ln Hin) as (i & Hi & Ek & D).
      assert (Hnr : l_is_root ln = false).
      { pose proof E as E'. unfold LockfileModel.to_lockfile in E'. destruct (node_lnode requested gitshow (s_g s) 0 true) as [r| |]; cbn [rbind] in E'; try discriminate.
        destruct (rmap _ _) as [pk| |] eqn:Er; cbn [rbind] in E'; try discriminate. injection E' as <-. cbn in Hin.
        apply keyed_facts in Hin. destruct (rmap_in _ _ _ _ _ Er _ Hin) as (j & _ & Ej). unfold node_lnode in Ej.
        destruct (getn (s_g s) j); [|discriminate]. injection Ej as <-. reflexivity. }
      destruct D as (n & En & Hat & Hnm & Hr & _). destruct (installed_path _ _ _ _ _ _ I _ _ Hat) as [_ Hpath].
      destruct (gi_par _ _ _ _ _ _ I i ltac:(lia)) as (p & Hpp & Hlt & Hc).
      rewrite (node_path_step (s_g s) Hp i p) in Hpath by (auto; lia).
      split; [auto|]. split; [split|split].
      - exists (node_path (s_g s) p), (name_of (s_g s) i). split; [auto|]. rewrite <- (Hname i n En ltac:(lia)), Hnm. apply ufold_idem.
      - destruct (pk_resolved (n_pkg n)); destruct Hr as (_ & -> & _); discriminate.
      - rewrite Hpath. destruct (node_path (s_g s) p); discriminate.
      - rewrite Ek. now rewrite (proj2 (installed_path _ _ _ _ _ _ I _ _ Hat)). }
    exists lf. destruct (round_trip vshow vparse iparse lf) as (lf' & E' & S); [|intros k n Hin; now apply (Hpk k n Hin) | eauto].
    constructor; auto.
    - unfold LockfileModel.to_lockfile in E. destruct (node_lnode requested gitshow (s_g s) 0 true) as [r| |]; cbn [rbind] in E; try discriminate.
      destruct (rmap _ _) as [pk| |]; cbn [rbind] in E; try discriminate. injection E as <-. reflexivity.
    - split; [eauto|]. intros k n Hin. destruct (Dk k n Hin) as (i & _ & _ & D). eauto.
    - intros k n Hin. destruct (Hpk k n Hin) as (A & _ & B & C). subst k. auto.
  Qed.
End Unique.
