(** * Property C28, the order: versions are ordered as semver.org (version 2.0.0, section 11) says. *)
From Verif Require Import Base Types VersionModel VersionSpec VersionProofs.
From Coq Require Import Lia.
Open Scope string_scope.
Open Scope list_scope.

(** "lexically in ASCII sort order": at the first difference the smaller byte, or the end *)
Definition text_before (a b : string) : Prop :=
  exists p, (exists c t, a = p /\ b = (p ++ String c t)%string)
         \/ (exists x y s t, a = (p ++ String x s)%string /\ b = (p ++ String y t)%string /\ (N_of_ascii x < N_of_ascii y)%N).
(** identifiers: numbers numerically, numbers below texts *)
Definition ident_before (a b : preid) : Prop :=
  match a, b with
  | PNum x, PNum y => (x < y)%N
  | PNum _, PStr _ => True
  | PStr _, PNum _ => False
  | PStr x, PStr y => text_before x y
  end.
(** pre-release fields: a pre-release is below the release; else compared at the first different identifier; more fields are above fewer *)
Definition pre_before (a b : list preid) : Prop :=
  a <> [] /\ (b = [] \/ exists p, (exists x t, a = p /\ b = p ++ x :: t)
                              \/ (exists x y s t, a = p ++ x :: s /\ b = p ++ y :: t /\ ident_before x y)).
Definition semver_before (a b : version) : Prop :=
  (v_major a < v_major b)%N
  \/ v_major a = v_major b /\ ((v_minor a < v_minor b)%N
  \/ v_minor a = v_minor b /\ ((v_patch a < v_patch b)%N
  \/ v_patch a = v_patch b /\ pre_before (v_pre a) (v_pre b))).

Lemma lcmp_first A (c : A -> A -> comparison) : cmp_ok c -> forall a b, lcmp c a b = Lt <->
  exists p, (exists x t, a = p /\ b = p ++ x :: t) \/ (exists x y s t, a = p ++ x :: s /\ b = p ++ y :: t /\ c x y = Lt).
Proof.
  intros C. induction a as [|x a IH]; intros [|y b]; cbn [lcmp].
  - split; [discriminate|]. intros (p & [(x & t & <- & E)|(x & y & s & t & E & _)]); [discriminate | destruct p; discriminate].
  - split; [|reflexivity]. intros _. exists []. left. exists y, b. auto.
  - split; [discriminate|]. intros (p & [(z & t & <- & E)|(z & y & s & t & _ & E & _)]); [discriminate | destruct p; discriminate].
  - rewrite lex_Lt. split.
    + intros [H|[H1 H2]].
      * exists []. right. exists x, y, a, b. auto.
      * apply (c_eq _ C) in H1. subst y. apply IH in H2. destruct H2 as (p & [(z & t & E1 & E2)|(z & w & s & t & E1 & E2 & L)]); exists (x :: p); [left | right].
        -- exists z, t. subst. auto.
        -- exists z, w, s, t. subst. auto.
    + intros (p & [(z & t & E1 & E2)|(z & w & s & t & E1 & E2 & L)]).
      * subst p. injection E2 as -> E2. right. split; [apply (c_eq _ C); reflexivity|]. apply IH. exists a. left. exists z, t. auto.
      * destruct p as [|q p]; [injection E1 as -> ->; injection E2 as -> ->; auto|]. injection E1 as -> E1. injection E2 as -> E2. right. split; [apply (c_eq _ C); reflexivity|].
        apply IH. exists p. right. exists z, w, s, t. auto.
Qed.
Lemma scmp_first a b : scmp a b = Lt <-> text_before a b.
Proof.
  unfold text_before. revert b. induction a as [|x a IH]; intros [|y b]; cbn [scmp].
  - split; [discriminate|]. intros (p & [(x & t & <- & E)|(x & y & s & t & E & _)]); [discriminate | destruct p; discriminate].
  - split; [|reflexivity]. intros _. exists "". left. exists y, b. auto.
  - split; [discriminate|]. intros (p & [(z & t & <- & E)|(z & y & s & t & _ & E & _)]); [discriminate | destruct p; discriminate].
  - rewrite lex_Lt, N.compare_lt_iff, N.compare_eq_iff. split.
    + intros [H|[H1 H2]].
      * exists "". right. exists x, y, a, b. auto.
      * assert (x = y) by (rewrite <- (ascii_N_embedding x), <- (ascii_N_embedding y); now rewrite H1). subst y. apply IH in H2.
        destruct H2 as (p & [(z & t & E1 & E2)|(z & w & s & t & E1 & E2 & L)]); exists (String x p); [left | right].
        -- exists z, t. subst. auto.
        -- exists z, w, s, t. subst. auto.
    + intros (p & [(z & t & E1 & E2)|(z & w & s & t & E1 & E2 & L)]).
      * subst p. injection E2 as -> E2. right. split; [reflexivity|]. apply IH. exists a. left. exists z, t. auto.
      * destruct p as [|q p]; [injection E1 as -> ->; injection E2 as -> ->; auto|]. injection E1 as -> E1. injection E2 as -> E2. right. split; [reflexivity|].
        apply IH. exists p. right. exists z, w, s, t. auto.
Qed.
Lemma preid_first a b : preid_cmp a b = Lt <-> ident_before a b.
Proof. destruct a, b; cbn; [apply N.compare_lt_iff | tauto | split; [discriminate | easy] | apply scmp_first]. Qed.

(** the comparison used to choose versions is semver precedence *)
Theorem C28_semver : forall a b, (vcmp a b = Lt <-> semver_before a b) /\ (vle a b <-> semver_before a b \/ a = b).
Proof.
  assert (L : forall a b, vcmp a b = Lt <-> semver_before a b).
  { intros a b. unfold vcmp, semver_before. rewrite !lex_Lt, !N.compare_lt_iff, !N.compare_eq_iff.
    assert (P : pre_cmp (v_pre a) (v_pre b) = Lt <-> pre_before (v_pre a) (v_pre b)).
    { unfold pre_before. generalize (v_pre a) (v_pre b). intros [|x l] [|y m]; cbn [pre_cmp].
      - split; [discriminate|]. intros [H _]. congruence.
      - split; [discriminate|]. intros [H _]. congruence.
      - split; [|reflexivity]. intros _. split; [discriminate | auto].
      - rewrite (lcmp_first _ _ preid_cmp_ok). split.
        + intros (p & H). split; [discriminate|]. right. exists p. destruct H as [H|(z & w & s & t & E1 & E2 & H)]; [auto|]. right. exists z, w, s, t. rewrite <- preid_first. auto.
        + intros (_ & [H|(p & H)]); [discriminate|]. exists p. destruct H as [H|(z & w & s & t & E1 & E2 & H)]; [auto|]. right. exists z, w, s, t. rewrite preid_first. auto. }
    rewrite P. reflexivity. }
  intros a b. split; [apply L|]. unfold vle. rewrite <- L, <- (c_eq _ vcmp_ok). destruct (vcmp a b); intuition congruence.
Qed.
(** examples of section 11: 1.0.0-alpha < 1.0.0-alpha.1 < 1.0.0-alpha.beta < 1.0.0-beta < 1.0.0-beta.2 < 1.0.0-beta.11 < 1.0.0-rc.1 < 1.0.0 *)
Definition chain : list version := map (mkV 1 0 0) [[PStr "alpha"]; [PStr "alpha"; PNum 1]; [PStr "alpha"; PStr "beta"]; [PStr "beta"]; [PStr "beta"; PNum 2]; [PStr "beta"; PNum 11]; [PStr "rc"; PNum 1]; []].
Example C28_semver_ex : forall i j x y, i < j -> nth_error chain i = Some x -> nth_error chain j = Some y -> semver_before x y.
Proof.
  assert (G : forallb (fun i => forallb (fun j => if Nat.ltb i j then match nth_error chain i, nth_error chain j with Some x, Some y => match vcmp x y with Lt => true | _ => false end | _, _ => true end else true) (seq 0 8)) (seq 0 8) = true) by (vm_compute; reflexivity).
  intros i j x y Hij Hi Hj. apply C28_semver. rewrite forallb_forall in G.
  assert (Bi : i < 8) by (change 8 with (List.length chain); apply nth_error_Some; congruence). assert (Bj : j < 8) by (change 8 with (List.length chain); apply nth_error_Some; congruence).
  specialize (G i ltac:(apply in_seq; lia)). rewrite forallb_forall in G. specialize (G j ltac:(apply in_seq; lia)). rewrite (proj2 (Nat.ltb_lt _ _) Hij), Hi, Hj in G. destruct (vcmp x y); [discriminate | reflexivity | discriminate].
Qed.

Print Assumptions C28_semver.
