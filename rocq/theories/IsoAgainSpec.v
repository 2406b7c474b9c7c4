(** * What the isolated linker makes of a tree, path by path (C59) *)
From Verif Require Import Base Types ResolverModel ResolverProofs ResolverSpec LockfileModel LockfileGraph PathLookup Fs HoistedSpec IsolatedModel IsolatedSpec.
Open Scope string_scope.
Open Scope list_scope.

Section Laid.
  Variable hex8 : string -> string.
  Variable contents : resolution -> list (path * string).
  Notation home := (home hex8).
  Notation deps_dir := (deps_dir hex8).
  (** [laid g q e]: the tree has [e] at [q] *)
  Inductive laid (g : graph) : path -> ent -> Prop :=
  (** the directory of each package, with its files *)
  | laid_dir p r : pkg_at g p r -> laid g (home p) EDir
  | laid_file p r f b : pkg_at g p r -> In (f, b) (contents r) -> laid g (home p ++ f) (EFile b)
  (** for each dependency a link to the package it was resolved to; its text is the way there from the directory of the link *)
  | laid_link i p x c pc : installed_at g i p -> depends g i x c -> installed_at g c pc ->
      laid g (deps_dir p ++ comps x) (ELink (diff_paths (home pc) (removelast (deps_dir p ++ comps x))))
  (** node_modules, and the directories above all that *)
  | laid_nm : laid g ["node_modules"] EDir
  | laid_above q q' e : laid g q' e -> above q q' -> laid g q EDir.
  (** node_modules is exactly that *)
  Definition all_laid (g : graph) (f : fs) : Prop := forall q e, prefix ["node_modules"] q -> (f q = Some e <-> laid g q e).
End Laid.
(** [f1] is [f], except that links to dependencies may be missing *)
Definition links_missing (hex8 : string -> string) (g : graph) (f f1 : fs) : Prop :=
  forall q, f1 q = f q \/ (f1 q = None /\ exists p i x c t, installed_at g i p /\ depends g i x c /\ q = deps_dir hex8 p ++ comps x /\ f q = Some (ELink t)).
