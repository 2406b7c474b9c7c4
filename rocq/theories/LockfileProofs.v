(** * Lockfile codec: exact result of writing and reading back, equality, uniqueness of keys *)
From Verif Require Import Base Types Kdl ResolverModel LockfileModel LockfileSpec.
From Coq Require Import Permutation.
Open Scope string_scope.
Open Scope list_scope.

(** ** sorting *)
Lemma sinsert_perm A (le : A -> A -> bool) a l : Permutation (sinsert le a l) (a :: l).
Proof.
  induction l as [|b t IH]; cbn; [constructor; constructor|]. destruct (le a b); [apply Permutation_refl|].
  eapply perm_trans; [apply perm_skip; exact IH | apply perm_swap].
Qed.
Lemma ssort_perm A (le : A -> A -> bool) l : Permutation (ssort le l) l.
Proof.
  induction l as [|a t IH]; cbn; [constructor|].
  eapply perm_trans; [apply sinsert_perm|]. now apply perm_skip.
Qed.
Lemma sinsert_map A B (f : A -> B) (le : B -> B -> bool) a l :
  sinsert le (f a) (map f l) = map f (sinsert (fun x y => le (f x) (f y)) a l).
Proof. induction l as [|b t IH]; cbn; [easy|]. destruct (le (f a) (f b)); cbn; [easy | now rewrite IH]. Qed.
Lemma ssort_map A B (f : A -> B) (le : B -> B -> bool) l :
  ssort le (map f l) = map f (ssort (fun x y => le (f x) (f y)) l).
Proof. induction l as [|b t IH]; cbn; [easy|]. change (fold_right (sinsert le) [] (map f t)) with (ssort le (map f t)). rewrite IH. apply sinsert_map. Qed.

(** ** association lists with distinct keys are equal as maps when they are permutations *)
Lemma aput_fresh K V (eqb : K -> K -> bool) k (v : V) l : (forall e, In e l -> eqb k (fst e) = false) -> aput eqb k v l = l ++ [(k, v)].
Proof.
  induction l as [|[k' v'] t IH]; cbn; intros H; [easy|]. pose proof (H (k', v') (or_introl eq_refl)) as E. cbn in E. rewrite E. cbn. rewrite IH; [easy|].
  intros e He. apply H. now right.
Qed.
Lemma NoDup_perm_map A B (f : A -> B) l l' : Permutation l l' -> NoDup (map f l) -> NoDup (map f l').
Proof. intros H. apply Permutation_NoDup. now apply Permutation_map. Qed.
Lemma sget_perm V (l l' : list (string * V)) k : Permutation l l' -> NoDup (map fst l) -> sget k l = sget k l'.
Proof.
  intros Hp Hn. pose proof (NoDup_perm_map _ _ fst _ _ Hp Hn) as Hn'.
  destruct (sget k l) as [v|] eqn:E.
  - symmetry. apply aget_In in E; [|apply seqb_spec]. apply In_aget; [apply seqb_spec | auto | eapply Permutation_in; eauto].
  - symmetry. apply aget_None in E; [|apply seqb_spec]. apply aget_None; [apply seqb_spec|].
    intros Hin. apply E. eapply Permutation_in; [apply Permutation_sym, Permutation_map, Hp | exact Hin].
Qed.

Lemma map_eqb_spec a b : NoDup (map fst a) -> NoDup (map fst b) -> (map_eqb a b = true <-> same_map a b).
Proof.
  intros Ha Hb. unfold map_eqb. rewrite andb_true_iff, Nat.eqb_eq, forallb_forall. split.
  - intros [Hl Hf] k.
    assert (Hsub : forall k v, sget k a = Some v -> sget k b = Some v).
    { intros k0 v0 E. apply aget_In in E; [|apply seqb_spec]. apply Hf in E. apply ostr_eqb_spec in E. exact E. }
    destruct (sget k a) as [v|] eqn:E; [symmetry; auto|].
    destruct (sget k b) as [v|] eqn:E2; [|easy]. exfalso.
    apply aget_None in E; [|apply seqb_spec].
    assert (Hincl : incl (map fst a) (map fst b)).
    { intros x Hx. apply in_map_iff in Hx. destruct Hx as ([x' w] & <- & Hin). cbn.
      apply (In_aget _ seqb_spec) in Hin; [|auto]. apply Hsub in Hin. apply aget_In in Hin; [|apply seqb_spec].
      apply (in_map fst) in Hin. exact Hin. }
    assert (Hincl' : incl (map fst b) (map fst a)).
    { apply NoDup_length_incl; auto. rewrite !map_length. lia. }
    apply E, Hincl'. apply aget_In in E2; [|apply seqb_spec]. apply (in_map fst) in E2. exact E2.
  - intros H. split.
    + rewrite <- (map_length fst a), <- (map_length fst b). apply Nat.le_antisymm; apply NoDup_incl_length; auto;
        intros x Hx; apply in_map_iff in Hx; destruct Hx as ([x' w] & <- & Hin); cbn;
        apply (In_aget _ seqb_spec) in Hin; auto; [rewrite H in Hin | rewrite <- H in Hin]; apply aget_In in Hin; try apply seqb_spec;
        apply (in_map fst) in Hin; exact Hin.
    + intros [x w] Hin. cbn. rewrite <- H. apply ostr_eqb_spec. now apply In_aget; [apply seqb_spec| |].
Qed.

(** ** UniCase keys *)
Lemma ueqb_spec a b : ueqb a b = true <-> ufold a = ufold b.
Proof. apply String.eqb_eq. Qed.
Lemma list_ueqb_spec a b : list_eqb ueqb a b = true <-> map ufold a = map ufold b.
Proof.
  revert b; induction a as [|x a IH]; destruct b as [|y b]; cbn; try (split; congruence).
  rewrite andb_true_iff, ueqb_spec, IH. split; [intros [-> ->]; easy | intros E; inversion E; auto].
Qed.
Lemma aget_ueqb V k (l : list (string * V)) : aget ueqb k l = sget (ufold k) (map (fun e => (ufold (fst e), snd e)) l).
Proof. induction l as [|[k' v] t IH]; cbn; [easy|]. unfold ueqb at 1. destruct (String.eqb (ufold k) (ufold k')); auto. Qed.

(** ** equality of lockfiles, as the derived PartialEq, stated on lookups *)
Definition deps_ok (n : lnode) : Prop :=
  NoDup (map fst (l_deps n)) /\ NoDup (map fst (l_dev n)) /\ NoDup (map fst (l_peer n)) /\ NoDup (map fst (l_opt n)).
Definition keys_ok (lf : lockfile) : Prop :=
  NoDup (map (fun e => ufold (fst e)) (lf_packages lf)) /\ deps_ok (lf_root lf) /\ forall k n, In (k, n) (lf_packages lf) -> deps_ok n.

Lemma lnode_eqb_spec a b : deps_ok a -> deps_ok b -> (lnode_eqb a b = true <-> same_node a b).
Proof.
  intros (A1 & A2 & A3 & A4) (B1 & B2 & B3 & B4). unfold lnode_eqb, same_node.
  rewrite !andb_true_iff, ueqb_spec, Bool.eqb_true_iff, list_ueqb_spec, !ostr_eqb_spec, (opt_eqb_spec _ _ version_eqb_spec), !map_eqb_spec by auto.
  intuition.
Qed.
Lemma same_node_sym a b : same_node a b -> same_node b a.
Proof.
  intros (H1 & H2 & H3 & H4 & H5 & H6 & H7 & H8 & H9 & H10). unfold same_node, same_map in *.
  repeat split; intros; symmetry; auto.
Qed.

Lemma lockfile_eqb_spec a b : keys_ok a -> keys_ok b -> (lockfile_eqb a b = true <-> same_lockfile a b).
Proof.
  intros (Ka & Ra & Da) (Kb & Rb & Db). unfold lockfile_eqb, same_lockfile.
  rewrite !andb_true_iff, N.eqb_eq, Nat.eqb_eq, forallb_forall, (lnode_eqb_spec _ _ Ra Rb).
  set (fa := map (fun e => (ufold (fst e), snd e)) (lf_packages a)).
  set (fb := map (fun e => (ufold (fst e), snd e)) (lf_packages b)).
  assert (Na : NoDup (map fst fa)) by (unfold fa; rewrite map_map; exact Ka).
  assert (Nb : NoDup (map fst fb)) by (unfold fb; rewrite map_map; exact Kb).
  assert (Hget : forall l k n, aget ueqb k l = Some n -> In (ufold k, n) (map (fun e : string * lnode => (ufold (fst e), snd e)) l)).
  { intros l k n E. rewrite aget_ueqb in E. apply aget_In in E; [auto | apply seqb_spec]. }
  assert (Hin : forall l k n, In (ufold k, n) (map (fun e : string * lnode => (ufold (fst e), snd e)) l) -> exists k', In (k', n) l).
  { intros l k n H. apply in_map_iff in H. destruct H as ([k' n'] & E & H). injection E as _ <-. eauto. }
  split.
  - intros [[[Hv Hr] Hl] Hf]. split; [auto|]. split; [auto|]. intros k.
    destruct (aget ueqb k (lf_packages a)) as [x|] eqn:Ea.
    + apply Hget in Ea. pose proof Ea as Ea'. apply in_map_iff in Ea. destruct Ea as ([k' x'] & E & Hina). injection E as Ek <-.
      cbn in Ek. specialize (Hf _ Hina). cbn in Hf. rewrite aget_ueqb, Ek, <- aget_ueqb in Hf.
      destruct (aget ueqb k (lf_packages b)) as [y|] eqn:Eb; [|discriminate].
      apply Hget in Eb. apply Hin in Eb. destruct Eb as [k2 Hinb].
      apply lnode_eqb_spec in Hf; eauto.
    + destruct (aget ueqb k (lf_packages b)) as [y|] eqn:Eb; [|exact Logic.I]. exfalso.
      rewrite aget_ueqb in Ea. fold fa in Ea. apply aget_None in Ea; [|apply seqb_spec]. apply Ea.
      assert (Hincl : incl (map fst fa) (map fst fb)).
      { intros z Hz. unfold fa in Hz. rewrite map_map in Hz. apply in_map_iff in Hz. destruct Hz as ([k' x] & <- & Hi). cbn.
        specialize (Hf _ Hi). cbn in Hf. destruct (aget ueqb k' (lf_packages b)) as [y'|] eqn:E'; [|discriminate].
        apply Hget in E'. apply (in_map fst) in E'. exact E'. }
      assert (Hincl' : incl (map fst fb) (map fst fa)).
      { apply NoDup_length_incl; auto. unfold fa, fb. rewrite !map_length. lia. }
      apply Hincl'. apply Hget in Eb. apply (in_map fst) in Eb. exact Eb.
  - intros (Hv & Hr & Hk). split; [split; [split; auto|]|].
    + assert (Hl : forall l l' : list (string * lnode), NoDup (map (fun e => ufold (fst e)) l) ->
        (forall k, is_some (aget ueqb k l) = true -> is_some (aget ueqb k l') = true) -> List.length l <= List.length l').
      { intros l l' Hn Hs. rewrite <- (map_length (fun e => ufold (fst e)) l), <- (map_length (fun e => ufold (fst e)) l').
        apply NoDup_incl_length; [exact Hn|]. intros z Hz. apply in_map_iff in Hz. destruct Hz as ([k x] & <- & Hi). cbn.
        specialize (Hs k). rewrite !aget_ueqb in Hs.
        rewrite (In_aget String.eqb seqb_spec (ufold k) x) in Hs; [|now rewrite map_map | change (ufold k, x) with ((fun e : string * lnode => (ufold (fst e), snd e)) (k, x)); now apply in_map].
        specialize (Hs eq_refl). destruct (sget (ufold k) _) as [y|] eqn:E; [|discriminate].
        apply aget_In in E; [|apply seqb_spec]. apply (in_map fst) in E. now rewrite map_map in E. }
      apply Nat.le_antisymm; apply Hl; auto; intros k; specialize (Hk k);
        destruct (aget ueqb k (lf_packages a)), (aget ueqb k (lf_packages b)); auto; contradiction.
    + intros [k x] Hi. cbn. specialize (Hk k).
      assert (Ea : aget ueqb k (lf_packages a) = Some x).
      { rewrite aget_ueqb. apply In_aget; [apply seqb_spec | exact Na|]. change (ufold k, x) with ((fun e : string * lnode => (ufold (fst e), snd e)) (k, x)). now apply in_map. }
      rewrite Ea in Hk. destruct (aget ueqb k (lf_packages b)) as [y|] eqn:Eb; [|contradiction].
      apply Hget in Eb. apply Hin in Eb. destruct Eb as [k2 Hinb]. apply lnode_eqb_spec; eauto.
Qed.

(** ** the KDL codec *)
Section Codec.
  Variable vshow : version -> string.
  Variable vparse : string -> option version.
  Variable iparse : string -> option string.
  Notation to_kdl := (to_kdl vshow).
  Notation from_kdl := (from_kdl vparse iparse).
  Notation lnode_to_kdl := (lnode_to_kdl vshow).
  Notation lnode_children := (lnode_children vshow).
  Notation lnode_from_kdl := (lnode_from_kdl vparse iparse).

  Definition sort_deps (l : list (string * string)) := ssort (fun a b => String.leb (fst a) (fst b)) l.
  Lemma deps_to_kdl_eq t l : deps_to_kdl t l = KNode (dep_section t) [] (Some (map (fun e => knode1 (fst e) (snd e)) (sort_deps l))).
  Proof. unfold deps_to_kdl, sort_deps. rewrite ssort_map. reflexivity. Qed.
  Lemma fold_knode1 l : forall acc, NoDup (map fst (acc ++ l)) ->
    fold_left (fun a d => sput (k_name d) (match obind (k_arg0 d) as_string with Some s => s | None => "*" end) a)
      (map (fun e => knode1 (fst e) (snd e)) l) acc = acc ++ l.
  Proof.
    induction l as [|[k v] t IH]; cbn; intros acc Hn; [now rewrite app_nil_r|].
    rewrite aput_fresh.
    - rewrite IH; rewrite <- app_assoc; [reflexivity | exact Hn].
    - intros e He. apply String.eqb_neq. intros ->. rewrite map_app in Hn. cbn in Hn.
      apply NoDup_remove_2 in Hn. apply Hn. apply in_app_iff. left. now apply in_map.
  Qed.
  Lemma sort_deps_NoDup l : NoDup (map fst l) -> NoDup (map fst (sort_deps l)).
  Proof. apply NoDup_perm_map, Permutation_sym, ssort_perm. Qed.
  Lemma same_map_sort l : NoDup (map fst l) -> same_map (sort_deps l) l.
  Proof. intros H k. apply sget_perm; [apply ssort_perm | now apply sort_deps_NoDup]. Qed.

  Lemma kget_app s a b : kget s (a ++ b) = match kget s a with Some n => Some n | None => kget s b end.
  Proof. induction a as [|n t IH]; cbn; [easy|]. destruct (String.eqb (k_name n) s); auto. Qed.
  Lemma kget_opt s t o : kget s (opt_node t o) = if String.eqb t s then option_map (knode1 t) o else None.
  Proof. destruct o; cbn; destruct (String.eqb t s); auto. Qed.
  Lemma kget_deps s t l : kget s (deps_nodes t l) = if String.eqb (dep_section t) s then match l with [] => None | _ => Some (deps_to_kdl t l) end else None.
  Proof. destruct l as [|e l]; [cbn; destruct (String.eqb (dep_section t) s); reflexivity|]. unfold deps_nodes. rewrite deps_to_kdl_eq. cbn [kget k_name]. destruct (String.eqb (dep_section t) s); auto. Qed.

  Definition res_nodes (n : lnode) : kdoc :=
    if l_is_root n then [] else match l_resolved n with Some r => knode1 "resolved" r :: opt_node "integrity" (l_integrity n) | None => [] end.
  Lemma kget_res s n : kget s (res_nodes n) =
    if l_is_root n then None else
    if String.eqb "resolved" s then option_map (knode1 "resolved") (l_resolved n)
    else if String.eqb "integrity" s then match l_resolved n with Some _ => option_map (knode1 "integrity") (l_integrity n) | None => None end else None.
  Proof.
    unfold res_nodes. destruct (l_is_root n); [easy|]. destruct (l_resolved n) as [r|]; cbn [kget k_name knode1].
    - destruct (String.eqb "resolved" s) eqn:E; [reflexivity|]. rewrite kget_opt. reflexivity.
    - destruct (String.eqb "resolved" s), (String.eqb "integrity" s); reflexivity.
  Qed.

  Lemma children_get n s : kget s (lnode_children n) =
    if String.eqb "version" s then option_map (fun v => knode1 "version" (vshow v)) (l_version n) else
    match kget s (res_nodes n) with Some x => Some x | None =>
    match kget s (deps_nodes Prod (l_deps n)) with Some x => Some x | None =>
    match kget s (deps_nodes Dev (l_dev n)) with Some x => Some x | None =>
    match kget s (deps_nodes Peer (l_peer n)) with Some x => Some x | None => kget s (deps_nodes Opt (l_opt n)) end end end end.
  Proof.
    change (lnode_children n) with (opt_node "version" (option_map vshow (l_version n)) ++ res_nodes n ++ deps_nodes Prod (l_deps n)
      ++ deps_nodes Dev (l_dev n) ++ deps_nodes Peer (l_peer n) ++ deps_nodes Opt (l_opt n)).
    rewrite !kget_app, kget_opt.
    destruct (String.eqb_spec "version" s) as [<-|_]; [|reflexivity].
    destruct (l_version n); cbn [option_map]; [reflexivity|]. rewrite kget_res, !kget_deps. cbn -[deps_to_kdl]. destruct (l_is_root n); reflexivity.
  Qed.

  Lemma string_args_path (l : list string) name c : string_args (KNode name (map (fun x => (None, KStr x)) l) c) = l.
  Proof. unfold string_args, k_args. cbn. induction l as [|x t IH]; cbn; [easy|]. now rewrite IH. Qed.

  Lemma deps_back n t l : NoDup (map fst l) ->
    kget (dep_section t) (lnode_children n) = match l with [] => None | _ => Some (deps_to_kdl t l) end ->
    deps_from_kdl (lnode_children n) t = sort_deps l.
  Proof.
    intros Hn Hg. unfold deps_from_kdl. rewrite Hg. destruct l as [|e l]; [reflexivity|].
    rewrite deps_to_kdl_eq. cbn [k_children]. now rewrite fold_knode1 by (cbn [app]; now apply sort_deps_NoDup).
  Qed.

  (** what is expected of the external parsers on the values at hand *)
  Definition values_ok (n : lnode) : Prop :=
    (forall v, l_version n = Some v -> vparse (vshow v) = Some v) /\ (forall i, l_integrity n = Some i -> iparse i = Some i).
  (** what reading back a written node gives *)
  Definition norm (n : lnode) : lnode :=
    mkLn (if l_is_root n then "" else match rev (l_path n) with x :: _ => x | [] => "" end) (l_is_root n) (l_path n)
      (if l_is_root n then None else l_resolved n) (l_version n)
      (if l_is_root n then None else match l_resolved n with Some _ => l_integrity n | None => None end)
      (sort_deps (l_deps n)) (sort_deps (l_dev n)) (sort_deps (l_peer n)) (sort_deps (l_opt n)).

  Lemma lnode_back n : deps_ok n -> values_ok n -> (l_is_root n = true \/ l_path n <> []) ->
    lnode_from_kdl (lnode_to_kdl n) (l_is_root n) = Ok (norm n).
  Proof.
    intros (D1 & D2 & D3 & D4) (Hv & Hi) Hpath. unfold LockfileModel.lnode_from_kdl. cbv zeta.
    assert (Ec : match k_children (lnode_to_kdl n) with Some c => c | None => [] end = lnode_children n).
    { unfold LockfileModel.lnode_to_kdl. cbn [k_children]. destruct (lnode_children n); reflexivity. }
    rewrite Ec. clear Ec. unfold LockfileModel.lnode_to_kdl. rewrite string_args_path.
    assert (Dr : forall s, (s = "dependencies" \/ s = "dev-dependencies" \/ s = "peer-dependencies" \/ s = "optional-dependencies") -> kget s (res_nodes n) = None).
    { intros s Hs. rewrite kget_res. destruct (l_is_root n); [easy|]. destruct Hs as [-> | [-> | [-> | ->]]]; reflexivity. }
    assert (G : forall t l, (t = Prod /\ l = l_deps n) \/ (t = Dev /\ l = l_dev n) \/ (t = Peer /\ l = l_peer n) \/ (t = Opt /\ l = l_opt n) ->
       kget (dep_section t) (lnode_children n) = match l with [] => None | _ => Some (deps_to_kdl t l) end).
    { intros t l Hc. rewrite children_get. rewrite !kget_deps.
      destruct Hc as [[-> ->] | [[-> ->] | [[-> ->] | [-> ->]]]]; cbn [dep_section]; rewrite Dr by auto; cbn -[deps_to_kdl];
        repeat match goal with |- context [match ?l with [] => _ | _ :: _ => _ end] => destruct l end; reflexivity. }
    rewrite (deps_back n Prod (l_deps n)), (deps_back n Dev (l_dev n)), (deps_back n Peer (l_peer n)), (deps_back n Opt (l_opt n)); auto;
      try (apply G; tauto).
    unfold kget_arg. rewrite !children_get, !kget_res, !kget_deps. cbn -[deps_to_kdl rev].
    unfold norm.
    assert (Hname : (if l_is_root n then Ok "" else match rev (l_path n) with [] => Err EMissingName | x :: _ => Ok x end)
                    = Ok (E := err) (if l_is_root n then "" else match rev (l_path n) with [] => "" | x :: _ => x end)).
    { destruct (l_is_root n) eqn:Er; [reflexivity|]. destruct (rev (l_path n)) eqn:E; [|reflexivity].
      destruct Hpath as [|Hp]; [discriminate|]. exfalso. apply Hp. rewrite <- (rev_involutive (l_path n)), E. reflexivity. }
    rewrite Hname. cbn [rbind].
    destruct (l_is_root n); cbn [rbind].
    - cbn. destruct (l_version n) as [v|]; cbn; [now rewrite (Hv v eq_refl) | reflexivity].
    - destruct (l_resolved n) as [r|]; cbn; [destruct (l_integrity n) as [i|]; cbn; [rewrite (Hi i eq_refl); cbn|]|];
        (destruct (l_version n) as [v|]; cbn; [now rewrite (Hv v eq_refl) | reflexivity]).
  Qed.

  (** a lockfile as produced by the program: see [graph_lockfile_wf] and [from_kdl_wf] below *)
  Record wf_lockfile (lf : lockfile) : Prop := {
    wf_version : (lf_version lf < 2 ^ 63)%N;
    wf_root : l_is_root (lf_root lf) = true;
    wf_keys : keys_ok lf;
    wf_values : values_ok (lf_root lf) /\ forall k n, In (k, n) (lf_packages lf) -> values_ok n;
    wf_pkgs : forall k n, In (k, n) (lf_packages lf) -> ufold k = ufold (path_key (l_path n)) /\ l_is_root n = false /\ l_path n <> [] }.

  Lemma keyed_acc l : forall acc, NoDup (map (fun e => ufold (fst e)) acc ++ map (fun n => ufold (path_key (l_path n))) l) ->
    fold_left (fun a n => aput ueqb (path_key (l_path n)) n a) l acc = acc ++ map (fun n => (path_key (l_path n), n)) l.
  Proof.
    induction l as [|n t IH]; cbn; intros acc Hn; [now rewrite app_nil_r|].
    rewrite aput_fresh.
    - rewrite IH; [rewrite <- app_assoc; reflexivity|]. rewrite map_app, <- app_assoc. exact Hn.
    - intros e He. unfold ueqb. apply String.eqb_neq. intros E.
      apply NoDup_remove_2 in Hn. apply Hn, in_app_iff. left. rewrite E. now apply (in_map (fun e => ufold (fst e))).
  Qed.
  Lemma keyed_eq l : NoDup (map (fun n => ufold (path_key (l_path n))) l) -> keyed l = map (fun n => (path_key (l_path n), n)) l.
  Proof. intros H. unfold keyed. rewrite keyed_acc; auto. Qed.

  Lemma rmap_ok A B (f : A -> res err B) (g : A -> B) l : (forall a, In a l -> f a = Ok (g a)) -> rmap f l = Ok (map g l).
  Proof. induction l as [|a t IH]; cbn; intros H; [easy|]. rewrite (H a) by now left. cbn. rewrite IH by auto. reflexivity. Qed.
  Lemma filter_all A (p : A -> bool) l : (forall a, In a l -> p a = true) -> filter p l = l.
  Proof. induction l as [|a t IH]; cbn; intros H; [easy|]. rewrite (H a) by now left. now rewrite IH by auto. Qed.

  Definition sort_pkgs (l : list (string * lnode)) := ssort (fun a b => String.leb (ufold (fst a)) (ufold (fst b))) l.

  (** The exact result of writing a lockfile and reading it back. *)
  Lemma codec_exact lf : wf_lockfile lf ->
    from_kdl (to_kdl lf) = Ok (mkLf (lf_version lf) (norm (lf_root lf)) (map (fun e => (path_key (l_path (snd e)), norm (snd e))) (sort_pkgs (lf_packages lf)))).
  Proof.
    intros [Hv Hr (Hk & Hrd & Hd) [Hrv Hpv] Hp]. unfold from_kdl, to_kdl. fold (sort_pkgs (lf_packages lf)).
    assert (Hperm : forall e, In e (sort_pkgs (lf_packages lf)) -> In e (lf_packages lf)).
    { intros e. apply Permutation_in, ssort_perm. }
    cbn [filter k_name]. cbn [String.eqb Ascii.eqb Bool.eqb]. unfold lnode_to_kdl at 1. rewrite Hr. cbn [k_name String.eqb Ascii.eqb Bool.eqb].
    rewrite filter_all.
    2:{ intros a Ha. apply in_map_iff in Ha. destruct Ha as ([k n] & <- & Hin). cbn. destruct (Hp k n (Hperm _ Hin)) as (_ & -> & _). reflexivity. }
    assert (Erm : forall l, (forall e, In e l -> In e (lf_packages lf)) ->
       rmap (fun n => lnode_from_kdl n false) (map (fun e => lnode_to_kdl (snd e)) l) = Ok (map (fun e => norm (snd e)) l)).
    { induction l as [|[k n] t IH]; cbn [map rmap]; intros Hl; [easy|]. destruct (Hp k n (Hl _ (or_introl eq_refl))) as (_ & Hnr & Hpp).
      cbn [snd]. rewrite <- Hnr at 1. rewrite lnode_back; [|eapply Hd, Hl; now left | eapply Hpv, Hl; now left | auto].
      cbn [rbind]. rewrite IH; [reflexivity|]. intros e He. apply Hl. now right. }
    rewrite Erm by exact Hperm. cbn [rbind].
    assert (Ever : obind (kget_arg "lockfile-version"
        (KNode "lockfile-version" [(None, KInt (as_i64 (lf_version lf)))] None :: lnode_to_kdl (lf_root lf) :: map (fun e => lnode_to_kdl (snd e)) (sort_pkgs (lf_packages lf)))) as_int
        = Some (as_i64 (lf_version lf))) by reflexivity.
    rewrite Ever. clear Ever.
    assert (Ez : as_i64 (lf_version lf) = Z.of_N (lf_version lf)).
    { unfold as_i64. rewrite N.mod_small by lia. destruct (Z.ltb_spec (Z.of_N (lf_version lf)) (2 ^ 63)); lia. }
    rewrite Ez. destruct (Z.ltb_spec (Z.of_N (lf_version lf)) 0); [lia|]. rewrite N2Z.id. cbn [rbind].
    cbn [kget k_name String.eqb Ascii.eqb Bool.eqb].
    unfold lnode_to_kdl at 1. rewrite Hr at 1. cbn [k_name String.eqb Ascii.eqb Bool.eqb].
    rewrite <- Hr. rewrite lnode_back by auto. cbn [rbind]. rewrite keyed_eq.
    - rewrite map_map. reflexivity.
    - rewrite map_map. apply (Permutation_NoDup (l := map (fun e : string * lnode => ufold (fst e)) (lf_packages lf))); [|exact Hk].
      erewrite (map_ext_in (fun x => ufold (path_key (l_path (norm (snd x))))) (fun x => ufold (fst x))).
      + apply Permutation_map, Permutation_sym, ssort_perm.
      + intros [k n] Hin. cbn. destruct (Hp k n (Hperm _ Hin)) as (E & _). now rewrite E.
  Qed.

  (** a package entry survives exactly when its name is the last path element and integrity needs a resolved URL *)
  Definition faithful (n : lnode) : Prop :=
    (exists pre x, l_path n = pre ++ [x] /\ ufold x = ufold (l_name n)) /\ (l_resolved n = None -> l_integrity n = None).
  Lemma norm_same n : l_is_root n = false -> deps_ok n -> faithful n -> same_node (norm n) n.
  Proof.
    intros Hr (D1 & D2 & D3 & D4) ((pre & x & Hp & Hx) & Hi). unfold same_node, norm; cbn. rewrite Hr, Hp, rev_app_distr. cbn.
    repeat split; auto using same_map_sort. destruct (l_resolved n); auto. symmetry; auto.
  Qed.

  Lemma aget_ueqb_perm_map (f : lnode -> lnode) l l' k : Permutation l l' -> NoDup (map (fun e => ufold (fst e)) l) ->
    (forall k n, In (k, n) l -> ufold k = ufold (path_key (l_path n))) ->
    aget ueqb k (map (fun e => (path_key (l_path (snd e)), f (snd e))) l') = option_map f (aget ueqb k l).
  Proof.
    intros Hp Hn Hk. rewrite !aget_ueqb.
    rewrite (sget_perm _ (map (fun e => (ufold (fst e), snd e)) l) (map (fun e => (ufold (fst e), snd e)) l'));
      [|now apply Permutation_map | now rewrite map_map].
    rewrite map_map. cbn.
    assert (Hk' : forall k n, In (k, n) l' -> ufold k = ufold (path_key (l_path n))).
    { intros k0 n0 H. apply Hk. eapply Permutation_in; [apply Permutation_sym; eauto | auto]. }
    clear -Hk'. induction l' as [|[x n] t IH]; cbn; [easy|]. rewrite <- (Hk' x n) by now left.
    destruct (String.eqb (ufold k) (ufold x)); [easy|]. apply IH. intros; apply Hk'; now right.
  Qed.

  Lemma round_trip lf : wf_lockfile lf -> (forall k n, In (k, n) (lf_packages lf) -> faithful n) ->
    exists lf', from_kdl (to_kdl lf) = Ok lf' /\ same_except_root_origin lf' lf.
  Proof.
    intros W Hf. eexists. split; [now apply codec_exact|]. destruct W as [Hv Hr (Hk & Hrd & Hd) _ Hp].
    split; [reflexivity|]. split.
    - destruct Hrd as (D1 & D2 & D3 & D4). cbn. repeat split; auto using same_map_sort.
    - intros k. cbn. unfold sort_pkgs. rewrite (aget_ueqb_perm_map norm (lf_packages lf)); [|apply Permutation_sym, ssort_perm | exact Hk | intros k0 n0 H0; apply (Hp _ _ H0)].
      destruct (aget ueqb k (lf_packages lf)) as [n|] eqn:E; cbn; [|exact Logic.I].
      assert (Hin : exists k', In (k', n) (lf_packages lf)).
      { rewrite aget_ueqb in E. apply aget_In in E; [|apply seqb_spec]. apply in_map_iff in E. destruct E as ([k' n'] & E & H). injection E as _ <-. eauto. }
      destruct Hin as [k' Hin]. apply norm_same; eauto. apply (Hp _ _ Hin).
  Qed.
End Codec.
