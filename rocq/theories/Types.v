(** * Types: package specs, versions and resolutions.
    Models crates/oro-package-spec/src/lib.rs, gitinfo.rs and crates/nassun/src/resolver.rs. *)
From Verif Require Import Base.

(** node_semver::Version (external crate): major.minor.patch plus pre-release identifiers.
    Simplification: build metadata is dropped (node_semver ignores it in [==] and ordering). *)
Inductive preid := PNum (n : N) | PStr (s : string).
Record version := mkV { v_major : N; v_minor : N; v_patch : N; v_pre : list preid }.

Definition preid_eqb (a b : preid) : bool :=
  match a, b with PNum x, PNum y => N.eqb x y | PStr x, PStr y => String.eqb x y | _, _ => false end.
Fixpoint list_eqb {A} (e : A -> A -> bool) (a b : list A) : bool :=
  match a, b with [], [] => true | x :: a', y :: b' => e x y && list_eqb e a' b' | _, _ => false end.
Definition version_eqb (a b : version) : bool :=
  N.eqb (v_major a) (v_major b) && N.eqb (v_minor a) (v_minor b) && N.eqb (v_patch a) (v_patch b)
  && list_eqb preid_eqb (v_pre a) (v_pre b).
(** node_semver::Range (external): kept as its printed form; membership is the oracle [rsat] below. *)
Definition range := string.

(** crates/oro-package-spec/src/lib.rs:19-24 [enum VersionSpec] *)
Inductive vspec := VTag (t : string) | VVersion (v : version) | VRange (r : range).

(** crates/oro-package-spec/src/gitinfo.rs:13-18 [enum GitHost] *)
Inductive githost := GitHub | Gist | GitLab | Bitbucket.
(** crates/oro-package-spec/src/gitinfo.rs:59-78 [enum GitInfo]; a [url::Url] is its serialisation. *)
Inductive gitinfo :=
| GHosted (owner repo : string) (host : githost) (committish : option string) (semver : option range)
          (requested : option string)
| GUrl (url : string) (committish : option string) (semver : option range)
| GSsh (ssh : string) (committish : option string) (semver : option range).

(** crates/oro-package-spec/src/lib.rs:26-41 [enum PackageSpec]; paths are strings. *)
Inductive pspec :=
| SDir (path : string)
| SAlias (name : string) (spec : pspec)
| SNpm (scope : option string) (name : string) (requested : option vspec)
| SGit (info : gitinfo).

(** crates/oro-package-spec/src/lib.rs:44-46 [is_alias] *)
Definition is_alias (s : pspec) : bool := match s with SAlias _ _ => true | _ => false end.
(** crates/oro-package-spec/src/lib.rs:48-55 [is_npm] *)
Fixpoint is_npm (s : pspec) : bool :=
  match s with SAlias _ s' => is_npm s' | SDir _ | SGit _ => false | SNpm _ _ _ => true end.
(** crates/oro-package-spec/src/lib.rs:57-69 [target] *)
Fixpoint target (s : pspec) : pspec :=
  match s with
  | SAlias _ s' => if is_alias s' then target s' else s'
  | _ => s
  end.

(** equality of specs ([#[derive(PartialEq, Eq, Hash)]]), used as the key of the in-flight fetch map *)
Definition opt_eqb {A} (e : A -> A -> bool) (a b : option A) : bool :=
  match a, b with None, None => true | Some x, Some y => e x y | _, _ => false end.
Definition vspec_eqb (a b : vspec) : bool :=
  match a, b with
  | VTag x, VTag y => String.eqb x y
  | VVersion x, VVersion y => version_eqb x y
  | VRange x, VRange y => String.eqb x y
  | _, _ => false
  end.
Definition githost_eqb (a b : githost) : bool :=
  match a, b with GitHub, GitHub | Gist, Gist | GitLab, GitLab | Bitbucket, Bitbucket => true | _, _ => false end.
Definition ostr_eqb := opt_eqb String.eqb.
Definition gitinfo_eqb (a b : gitinfo) : bool :=
  match a, b with
  | GHosted o r h c s q, GHosted o' r' h' c' s' q' =>
      String.eqb o o' && String.eqb r r' && githost_eqb h h' && ostr_eqb c c' && ostr_eqb s s' && ostr_eqb q q'
  | GUrl u c s, GUrl u' c' s' => String.eqb u u' && ostr_eqb c c' && ostr_eqb s s'
  | GSsh u c s, GSsh u' c' s' => String.eqb u u' && ostr_eqb c c' && ostr_eqb s s'
  | _, _ => false
  end.
Fixpoint pspec_eqb (a b : pspec) : bool :=
  match a, b with
  | SDir x, SDir y => String.eqb x y
  | SAlias n s, SAlias n' s' => String.eqb n n' && pspec_eqb s s'
  | SNpm sc n r, SNpm sc' n' r' => ostr_eqb sc sc' && String.eqb n n' && opt_eqb vspec_eqb r r'
  | SGit i, SGit i' => gitinfo_eqb i i'
  | _, _ => false
  end.

(** crates/nassun/src/resolver.rs:14-30 [enum PackageResolution]; ssri::Integrity and url::Url by their text. *)
Inductive resolution :=
| RNpm (name : string) (v : version) (tarball : string) (integrity : option string)
| RDir (name path : string)
| RGit (name : string) (info : gitinfo).

(** crates/nassun/src/package.rs [struct Package]: name, from, resolved
    (the fetcher, cache and base_dir handles are not modelled here). *)
Record package := mkPkg { pk_name : string; pk_from : pspec; pk_resolved : resolution }.

Inductive err :=
| EIo | EParse | EFetch | ENoVersion | ENoTarball | EInvalidSpec | EMissingVersion | EUrl | EIntegrity
| ELockfileMismatch | EGraphValidation | EScript | EKdl | EMissingRoot | EMissingName.

Section Oracles.
  (** external: node_semver::Range::satisfies *)
  Variable rsat : range -> version -> bool.
  (** external: std::fs::canonicalize (None = I/O error) *)
  Variable canon : string -> option string.

  (** crates/nassun/src/resolver.rs:65-88 [PackageResolution::satisfies] *)
  Definition satisfies (r : resolution) (s : pspec) : res err bool :=
    match r, target s with
    | RNpm _ v _ _, SNpm _ _ req =>
        Ok (match req with
            | Some (VVersion w) => version_eqb v w
            | Some (VRange g) => rsat g v
            | Some (VTag _) => false
            | None => false
            end)
    | RDir _ p, SDir q => match canon q with Some q' => Ok (String.eqb p q') | None => Err EIo end
    | RGit _ _, SGit _ => Ok false
    | _, _ => Ok false
    end.
End Oracles.

(** ** decidable equality facts *)
Lemma opt_eqb_spec A (e : A -> A -> bool) : (forall a b, e a b = true <-> a = b) ->
  forall a b, opt_eqb e a b = true <-> a = b.
Proof.
  intros H [a|] [b|]; cbn; try (split; congruence).
  rewrite H; split; congruence.
Qed.
Lemma list_eqb_spec A (e : A -> A -> bool) : (forall a b, e a b = true <-> a = b) ->
  forall a b, list_eqb e a b = true <-> a = b.
Proof.
  intros H; induction a as [|x a IH]; destruct b as [|y b]; cbn; try (split; congruence).
  rewrite andb_true_iff, H, IH. split; [intros [-> ->]; easy | intros E; inversion E; auto].
Qed.
Lemma preid_eqb_spec a b : preid_eqb a b = true <-> a = b.
Proof. destruct a, b; cbn; try (split; congruence); [rewrite N.eqb_eq | rewrite String.eqb_eq]; split; congruence. Qed.
Lemma version_eqb_spec a b : version_eqb a b = true <-> a = b.
Proof.
  destruct a, b; unfold version_eqb; cbn.
  rewrite !andb_true_iff, !N.eqb_eq, (list_eqb_spec _ _ preid_eqb_spec).
  split; [intros [[[-> ->] ->] ->]; easy | intros E; inversion E; auto].
Qed.
Lemma vspec_eqb_spec a b : vspec_eqb a b = true <-> a = b.
Proof.
  destruct a, b; cbn; try (split; congruence); rewrite ?String.eqb_eq, ?version_eqb_spec; split; congruence.
Qed.
Lemma ostr_eqb_spec a b : ostr_eqb a b = true <-> a = b.
Proof. apply opt_eqb_spec, seqb_spec. Qed.
Lemma githost_eqb_spec a b : githost_eqb a b = true <-> a = b.
Proof. destruct a, b; cbn; split; congruence. Qed.
Lemma gitinfo_eqb_spec a b : gitinfo_eqb a b = true <-> a = b.
Proof.
  destruct a, b; cbn; try (split; congruence);
  rewrite !andb_true_iff, ?githost_eqb_spec, !ostr_eqb_spec, !String.eqb_eq;
  (split; [intros; repeat match goal with H : _ /\ _ |- _ => destruct H end; congruence
          | intros E; inversion E; auto 10]).
Qed.
Lemma pspec_eqb_spec : forall a b, pspec_eqb a b = true <-> a = b.
Proof.
  induction a as [p|n s IH|sc n r|i]; destruct b; cbn; try (split; congruence).
  - rewrite String.eqb_eq; split; congruence.
  - rewrite andb_true_iff, String.eqb_eq, IH. split; [intros [-> ->]; easy | intros E; inversion E; auto].
  - rewrite !andb_true_iff, ostr_eqb_spec, String.eqb_eq, (opt_eqb_spec _ _ vspec_eqb_spec).
    split; [intros [[-> ->] ->]; easy | intros E; inversion E; auto].
  - rewrite gitinfo_eqb_spec; split; congruence.
Qed.

Lemma target_not_alias s : is_alias (target s) = false.
Proof.
  induction s as [p|n s IH|sc n r|i]; cbn; auto.
  destruct (is_alias s) eqn:E; auto.
Qed.
