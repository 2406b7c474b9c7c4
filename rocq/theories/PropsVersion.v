(** * Properties C28, C29: which published version a request resolves to.
    [get_resolution … name wanted p]: what nassun resolves request [wanted] to, given the registry document [p] of the
    package. [rsat r x]: version x is in range r (node_semver); [is_any r]: r is the "*" range; [iparse]: the parser of
    integrity strings; [chosen] is the documented rule, in VersionSpec.v. *)
From Verif Require Import Base Types VersionModel VersionSpec VersionProofs.
Open Scope string_scope.
Open Scope list_scope.

Section World.
  Variable rsat : range -> version -> bool.
  Variable canon : string -> option string.
  Variable is_any : range -> bool.
  Variable iparse : string -> option string.
  Variable default_tag : string.
  Variable at_base : string -> string.
  Notation get_resolution := (get_resolution rsat canon is_any iparse default_tag at_base).
  Notation chosen := (chosen rsat is_any default_tag).

  (** C28: a registry request (possibly through an alias) that succeeds yields the version the rule chooses, and the
      tarball URL and integrity the registry publishes for that very version ... *)
  Theorem C28_sound : forall name wanted p sc nm req r, consistent p -> target wanted = SNpm sc nm req ->
    get_resolution name wanted p = Ok r ->
    exists x url i, r = RNpm name x url i /\ chosen req p x /\ offered iparse p x url i.
  Proof. exact (success_chosen rsat canon is_any iparse default_tag at_base). Qed.
  (** ... it succeeds whenever the rule chooses a version that has a tarball and no malformed integrity ... *)
  Theorem C28_complete : forall name wanted p sc nm req x, consistent p -> target wanted = SNpm sc nm req -> chosen req p x ->
    (forall m, In (x, m) (pt_versions p) -> vm_tarball m <> None /\ vm_integrity m = None /\ vm_shasum m = None
                                            \/ vm_tarball m <> None /\ exists i, vm_integrity m = Some i /\ iparse i <> None) ->
    exists url i, get_resolution name wanted p = Ok (RNpm name x url i).
  Proof. exact (chosen_success rsat canon is_any iparse default_tag at_base). Qed.
  (** ... it reports "no version" exactly when the rule chooses none ... *)
  Theorem C28_no_version : forall name wanted p sc nm req, target wanted = SNpm sc nm req ->
    (get_resolution name wanted p = Err ENoVersion <-> forall x, ~ chosen req p x).
  Proof. exact (no_version rsat canon is_any iparse default_tag at_base). Qed.
  (** ... the rule is a function, and no request crashes. *)
  Theorem C28_unique : forall req p x y, chosen req p x -> chosen req p y -> x = y.
  Proof. exact (chosen_unique rsat is_any default_tag). Qed.
  Theorem C28_no_crash : forall name wanted p, get_resolution name wanted p <> Panic.
  Proof. exact (never_panics rsat canon is_any iparse default_tag at_base). Qed.

  (** C29: a range request that succeeds yields a version in the range. Missing: the range "*" when no published version
      is in it (only pre-releases are published), where the default tag's version is taken (C29_refuted). *)
  Theorem C29_partial : forall name wanted p sc nm r res, consistent p -> target wanted = SNpm sc nm (Some (VRange r)) ->
    get_resolution name wanted p = Ok res ->
    exists x url i, res = RNpm name x url i /\ published p x /\
      (rsat r x = true \/ none_in_range rsat p r /\ is_any r = true /\ tagged p default_tag x).
  Proof. exact (range_in_range rsat canon is_any iparse default_tag at_base). Qed.
End World.

(** the order on versions is a total order *)
Theorem C28_order : (forall a, vle a a) /\ (forall a b c, vle a b -> vle b c -> vle a c) /\ (forall a b, vle a b -> vle b a -> a = b)
  /\ (forall a b, vle a b \/ vle b a).
Proof. exact (conj vle_refl (conj vle_trans (conj vle_antisym vle_total))). Qed.

(** ** concrete cases *)
(** node_semver: "*" and "^1.0.0" contain no pre-release *)
Definition ex_sat (r : range) (x : version) : bool :=
  match v_pre x with [] => if String.eqb r "*" then true else String.eqb r "^1.0.0" && N.eqb (v_major x) 1 | _ => false end.
Definition ex_get := get_resolution ex_sat Some (String.eqb "*") Some "latest" (fun s => s).
Definition meta (x : version) : version * vmeta := (x, mkVm (Some x) (Some "https://r/a.tgz") (Some "sha512-x") None).
Definition vv a b := mkV a b 0 [].
Definition rc := mkV 1 3 0 [PStr "rc"; PNum 1].
Definition ex_pack := mkPack (map meta [vv 1 0; rc; vv 1 2; vv 1 1; vv 2 0]) [("latest", vv 1 1); ("next", vv 2 0)].
(** the default tag's version wins when in range; otherwise the highest in range *)
Example C28_ex1 : ex_get "a" (SNpm None "a" (Some (VRange "^1.0.0"))) ex_pack = Ok (RNpm "a" (vv 1 1) "https://r/a.tgz" (Some "sha512-x")).
Proof. reflexivity. Qed.
Example C28_ex2 : ex_get "a" (SNpm None "a" (Some (VRange "^1.0.0"))) (mkPack (pt_versions ex_pack) [("latest", vv 2 0)])
  = Ok (RNpm "a" (vv 1 2) "https://r/a.tgz" (Some "sha512-x")).
Proof. reflexivity. Qed.
Example C28_ex3 : ex_get "b" (SAlias "b" (SNpm None "a" (Some (VTag "next")))) ex_pack = Ok (RNpm "b" (vv 2 0) "https://r/a.tgz" (Some "sha512-x")).
Proof. reflexivity. Qed.
Example C28_ex4 : ex_get "a" (SNpm None "a" (Some (VVersion (vv 3 0)))) ex_pack = Err ENoVersion.
Proof. reflexivity. Qed.
Example C28_consistent : consistent ex_pack.
Proof. intros x m H. cbn in H. repeat destruct H as [H|H]; try contradiction; injection H as <- <-; reflexivity. Qed.
Example C28_order_ex : vcmp rc (mkV 1 3 0 []) = Lt /\ vcmp (vv 1 2) rc = Lt /\ vcmp (mkV 1 3 0 [PStr "rc"; PNum 2]) (mkV 1 3 0 [PStr "rc"; PNum 10]) = Lt.
Proof. repeat split. Qed.

(** the full C29 fails: only pre-releases published, request "*" *)
Theorem C29_refuted : exists p x url i, consistent p /\ published p x /\
  ex_get "a" (SNpm None "a" (Some (VRange "*"))) p = Ok (RNpm "a" x url i) /\ ex_sat "*" x = false.
Proof.
  exists (mkPack [meta rc] [("latest", rc)]), rc, "https://r/a.tgz", (Some "sha512-x"). split.
  - intros x m [H|[]]. injection H as <- <-. reflexivity.
  - split; [left; reflexivity|]. split; reflexivity.
Qed.

Print Assumptions C28_sound.
Print Assumptions C28_complete.
Print Assumptions C28_no_version.
Print Assumptions C28_unique.
Print Assumptions C28_no_crash.
Print Assumptions C28_order.
Print Assumptions C29_partial.
Print Assumptions C29_refuted.

From Coq Require Import Permutation.
Section World.
  Variable rsat : range -> version -> bool.
  Variable canon : string -> option string.
  Variable is_any : range -> bool.
  Variable iparse : string -> option string.
  Variable default_tag : string.
  Variable at_base : string -> string.
  Notation get_resolution := (get_resolution rsat canon is_any iparse default_tag at_base).
  (** C28: the versions and tags are kept in hash maps, whose order of traversal differs from run to run: it does not matter. *)
  Theorem C28_any_order : forall name wanted p p', Permutation (pt_versions p) (pt_versions p') -> NoDup (map fst (pt_versions p)) ->
    (forall t, sget t (pt_tags p) = sget t (pt_tags p')) -> get_resolution name wanted p = get_resolution name wanted p'.
  Proof.
    intros name wanted p p' HP HN HT.
    assert (HG : forall x, aget version_eqb x (pt_versions p) = aget version_eqb x (pt_versions p')).
    { intros x. assert (HN' : NoDup (map fst (pt_versions p'))) by (eapply Permutation_NoDup; [apply Permutation_map; exact HP|exact HN]).
      destruct (aget version_eqb x (pt_versions p)) as [m|] eqn:E.
      - apply aget_In in E; [|apply version_eqb_spec]. symmetry. apply In_aget; [apply version_eqb_spec|exact HN'|]. eapply Permutation_in; eauto.
      - symmetry. apply aget_None; [apply version_eqb_spec|]. apply aget_None in E; [|apply version_eqb_spec]. intros H. apply E. eapply Permutation_in; [apply Permutation_map; symmetry; exact HP|exact H]. }
    destruct (target wanted) as [| |sc nm req|] eqn:T.
    3:{ rewrite !(get_resolution_npm rsat canon is_any iparse default_tag at_base _ _ _ _ _ _ T).
        assert (HPub : forall x, published p x <-> published p' x).
        { intros x. unfold published. split; apply Permutation_in; apply Permutation_map; [exact HP|symmetry; exact HP]. }
        assert (HC : forall x, chosen rsat is_any default_tag req p x <-> chosen rsat is_any default_tag req p' x).
        { intros x. unfold chosen. rewrite HPub. destruct req as [[t|w|r]|]; unfold tagged; rewrite ?HT; try reflexivity.
          assert (HD : forall y, default_in rsat default_tag p r y <-> default_in rsat default_tag p' r y).
          { intros y. unfold default_in, tagged. rewrite HT, HPub. reflexivity. }
          assert (HH : highest rsat p r x <-> highest rsat p' r x).
          { unfold highest. rewrite HPub. split; intros (A & B & C); (split; [exact A|split; [exact B|]]); intros y Hy; apply C; apply HPub; exact Hy. }
          assert (HNo : none_in_range rsat p r <-> none_in_range rsat p' r).
          { unfold none_in_range. split; intros H y Hy; apply H; apply HPub; exact Hy. }
          assert (HA : (forall y, ~ default_in rsat default_tag p r y) <-> (forall y, ~ default_in rsat default_tag p' r y)).
          { split; intros H y Hy; apply (H y); apply HD; exact Hy. }
          rewrite HD, HH, HNo, HA. reflexivity. }
        assert (HE : effective p (pick_target rsat is_any default_tag (SNpm sc nm req) p) = effective p' (pick_target rsat is_any default_tag (SNpm sc nm req) p')).
        { destruct (effective p _) as [x|] eqn:E.
          - symmetry. apply pick_chosen. apply HC. apply pick_chosen with (sc := sc) (nm := nm). exact E.
          - destruct (effective p' _) as [y|] eqn:E'; [|reflexivity]. apply pick_chosen in E'. apply HC in E'. apply (pick_chosen rsat is_any default_tag sc nm) in E'. congruence. }
        rewrite HE. destruct (effective p' _) as [x|]; [|reflexivity]. rewrite HG. reflexivity. }
    all: unfold VersionModel.get_resolution; rewrite T; try reflexivity.
    destruct (pt_versions p) as [|a l], (pt_versions p') as [|a' l']; try reflexivity; [apply Permutation_nil in HP; discriminate|symmetry in HP; apply Permutation_nil in HP; discriminate].
  Qed.
End World.
Print Assumptions C28_any_order.
