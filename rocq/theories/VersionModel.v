(** * Choosing a version: crates/nassun/src/resolver.rs [PackageResolver::get_resolution]. *)
From Verif Require Import Base Types.
Open Scope string_scope.
Open Scope list_scope.

(** ** node_semver (external): the order on versions *)
(** lexicographic combination ([Ordering::then]) *)
Definition lex (a b : comparison) : comparison := match a with Eq => b | _ => a end.
(** byte order on strings *)
Fixpoint scmp (a b : string) : comparison :=
  match a, b with
  | EmptyString, EmptyString => Eq
  | EmptyString, _ => Lt
  | _, EmptyString => Gt
  | String x a', String y b' => lex (N.compare (N_of_ascii x) (N_of_ascii y)) (scmp a' b')
  end.
(** node_semver: [#[derive(PartialOrd)] enum Identifier { Numeric(u64), AlphaNumeric(String) }] *)
Definition preid_cmp (a b : preid) : comparison :=
  match a, b with
  | PNum x, PNum y => N.compare x y
  | PNum _, PStr _ => Lt
  | PStr _, PNum _ => Gt
  | PStr x, PStr y => scmp x y
  end.
Fixpoint lcmp {A} (c : A -> A -> comparison) (a b : list A) : comparison :=
  match a, b with
  | [], [] => Eq
  | [], _ => Lt
  | _, [] => Gt
  | x :: a', y :: b' => lex (c x y) (lcmp c a' b')
  end.
(** node_semver: [Ord for Version]: a release is above its pre-releases *)
Definition pre_cmp (a b : list preid) : comparison :=
  match a, b with [], [] => Eq | [], _ => Gt | _, [] => Lt | _, _ => lcmp preid_cmp a b end.
Definition vcmp (a b : version) : comparison :=
  lex (N.compare (v_major a) (v_major b)) (lex (N.compare (v_minor a) (v_minor b))
    (lex (N.compare (v_patch a) (v_patch b)) (pre_cmp (v_pre a) (v_pre b)))).

(** ** packuments: crates/oro-common/src/packument.rs [CorgiPackument], the fields read here *)
Record vmeta := mkVm { vm_version : option version; vm_tarball : option string; vm_integrity : option string; vm_shasum : option string }.
Record packument := mkPack { pt_versions : list (version * vmeta); pt_tags : list (string * version) }.
Notation vget := (aget version_eqb).

Section Pick.
  Variable rsat : range -> version -> bool.
  Variable canon : string -> option string.
  (** node_semver: [range == Range::any()], resp. equal to the parse of "*" *)
  Variable is_any : range -> bool.
  (** ssri::Integrity FromStr then Display *)
  Variable iparse : string -> option string.
  Variable default_tag : string.
  (** [base_dir.join(path)] *)
  Variable at_base : string -> string.

  (** Rust [Iterator::max]: the last of the greatest elements *)
  Definition vmax (l : list version) : option version :=
    fold_left (fun acc x => match acc with None => Some x | Some m => match vcmp x m with Lt => Some m | _ => Some x end end) l None.
  (** resolver.rs:279-284 [max_satisfying] *)
  Definition max_satisfying (l : list version) (r : range) : option version := vmax (filter (rsat r) l).

  Definition is_none {A} (o : option A) : bool := match o with None => true | _ => false end.
  (** resolver.rs:176-236: the target version; [None] of the outer option is the early [InvalidPackageSpec] return *)
  Definition pick_target (spec : pspec) (p : packument) : option (option version) :=
    match spec with
    | SNpm _ _ req =>
        let target := match req with
                      | Some (VVersion x) => Some x
                      | Some (VTag t) => sget t (pt_tags p)
                      | Some (VRange _) | None => None
                      end in
        let tag_version := sget default_tag (pt_tags p) in
        let target :=
          match tag_version with
          | Some tv => if is_none target && is_some (vget tv (pt_versions p))
                          && match req with None => true | Some (VRange r) => rsat r tv | _ => false end
                       then Some tv else target
          | None => target
          end in
        let target := match target, req with
                      | None, Some (VRange r) => max_satisfying (map fst (pt_versions p)) r
                      | _, _ => target
                      end in
        Some (match target, req with
              | None, Some (VRange r) => if is_any r then tag_version else None
              | _, _ => target
              end)
    | _ => None
    end.
  (** resolver.rs:142-277 [get_resolution] *)
  Definition get_resolution (name : string) (wanted : pspec) (p : packument) : res err resolution :=
    let spec := target wanted in
    match spec with
    | SDir path => match canon (at_base path) with Some q => Ok (RDir name q) | None => Err EIo end
    | SGit info => Ok (RGit name info)
    | _ =>
        match pt_versions p with
        | [] => Err ENoVersion
        | _ =>
            match pick_target spec p with
            | None => Err EInvalidSpec
            | Some t =>
                match (match t with Some x => vget x (pt_versions p) | None => None end) with
                | None => Err ENoVersion
                | Some m =>
                    let ver := match vm_version m with Some x => x | None => mkV 0 0 0 [] end in
                    match vm_tarball m with
                    | None => Err ENoTarball
                    | Some url =>
                        match vm_integrity m, vm_shasum m with
                        | Some i, _ => match iparse i with Some j => Ok (RNpm name ver url (Some j)) | None => Err EIntegrity end
                        | None, Some s => match iparse ("sha1-" ++ s) with Some j => Ok (RNpm name ver url (Some j)) | None => Err EIntegrity end
                        | None, None => Ok (RNpm name ver url None)
                        end
                    end
                end
            end
        end
    end.
End Pick.
