(** * Specification vocabulary for package specs *)
From Verif Require Import Base Types StdPath SpecModel.
Open Scope list_scope.
Open Scope string_scope.

(** [s] starts with [p], letters in any case *)
Fixpoint lowers (s : string) : string := match s with EmptyString => "" | String c t => String (lower c) (lowers t) end.
Definition starts (p s : string) : Prop := exists q r, s = q ++ r /\ lowers q = lowers p.

(** characters in printed versions and ranges: none of these, and not starting with a dot *)
Definition semver_chars (t : string) : Prop :=
  t <> "" /\ no_char ":" t = true /\ no_char "/" t = true /\ no_char "@" t = true /\ no_char "#" t = true
  /\ (forall x, t <> String "." x) /\ (forall x, t <> String backslash x) /\ ~ starts "git+" t.
(** what is assumed of node_semver: a printed version reads back as itself, a printed range as an equal range *)
Record semver_printing (vparse : string -> option version) (vshow : version -> string) (rparse : string -> option range) : Prop := {
  sp_version : forall s v, vparse s = Some v -> vparse (vshow v) = Some v;
  sp_vtext : forall s v, vparse s = Some v -> semver_chars (vshow v);
  sp_range : forall s r, rparse s = Some r -> rparse r = Some r;
  sp_rtext : forall s r, rparse s = Some r -> semver_chars r }.
(** what is assumed of the url crate: a printed URL reads back as itself, and printing adds no fragment *)
Record url_printing (uparse : string -> option string) : Prop := {
  up_same : forall s u, uparse s = Some u -> uparse u = Some u;
  up_hash : forall s u, uparse s = Some u -> no_char "#" s = true -> no_char "#" u = true;
  up_ne : forall s u, uparse s = Some u -> u <> "" }.

(** the kinds of spec *)
Inductive kind := KNpm | KGit | KDir | KAlias.
Definition kind_of (s : pspec) : kind := match s with SNpm _ _ _ => KNpm | SGit _ => KGit | SDir _ => KDir | SAlias _ _ => KAlias end.
Section Canonical.
  Variable vparse : string -> option version.
  Variable uparse : string -> option string.
  Variable uhost : string -> option string.
  Variable upath : string -> string.
  Variable uscheme : string -> string.
  (** the specs that read back as themselves *)
  Definition plain_req (r : option vspec) : Prop := match r with Some (VRange x) => vparse x = None | _ => True end.
  Definition starts_dot (s : string) : Prop := exists t, s = String "." t.
  Definition plain_git (i : gitinfo) : Prop :=
    match i with
    | GHosted _ _ _ _ _ None => True
    | GHosted _ _ _ c r (Some q) => (* a URL for this repository, not user@host:path *)
        uparse q = Some q /\ url_info uhost upath q (c, r) = Some i /\ no_char "#" q = true
    | GUrl u _ _ => uscheme u = "git" -> String.prefix "git://" u = true
    | GSsh x _ _ => uparse ("ssh://" ++ x) = None /\ no_char "#" x = true
    end.
  Definition plain_spec (s : pspec) : Prop :=
    match s with
    | SNpm _ n r => ~ starts_dot n /\ plain_req r /\ (forall t, r = Some (VTag t) -> ~ starts_dot t)
    | SDir p => no_char "@" p = true
    | SGit i => plain_git i
    | SAlias _ (SNpm _ _ r) => plain_req r
    | SAlias _ (SDir _) => True
    | SAlias _ (SGit i) => plain_git i
    | SAlias _ (SAlias _ _) => False
    end.
End Canonical.
