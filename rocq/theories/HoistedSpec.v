(** * What a node_modules directory should hold, in terms of the tree only *)
From Verif Require Import Base Types ResolverModel ResolverProofs ResolverSpec LockfileModel PathLookup Fs.
Open Scope string_scope.
Open Scope list_scope.

(** package [r] is in the directory node_modules/x1/node_modules/x2/... for [names] = [x1; x2; ...] *)
Definition pkg_at (g : graph) (names : list string) (r : resolution) : Prop :=
  exists i n, installed_at g i names /\ i <> 0 /\ getn g i = Some n /\ pk_resolved (n_pkg n) = r.

Section Spec.
  Variable contents : resolution -> list (path * string).

  (** package contents without bundled dependencies: every file is below the package directory, not in its node_modules;
      no path is listed twice; no file is also a directory *)
  Definition plain_contents : Prop := forall r f b, In (f, b) (contents r) ->
    f <> [] /\ (forall t, f <> "node_modules" :: t)
    /\ (forall f' b', In (f', b') (contents r) -> prefix f f' -> f = f' /\ b = b').

  (** [e] is at [q] when node_modules holds exactly the files of the packages of [g] and the directories they need *)
  Inductive tree_entry (g : graph) : path -> ent -> Prop :=
  | te_top : tree_entry g ["node_modules"] EDir
  | te_dir names r q : pkg_at g names r -> q <> [] -> prefix q (disk names) -> tree_entry g q EDir
  | te_file names r f b : pkg_at g names r -> In (f, b) (contents r) -> tree_entry g (disk names ++ f) (EFile b)
  | te_sub names r f b f' : pkg_at g names r -> In (f, b) (contents r) -> prefix f' f -> f' <> f -> tree_entry g (disk names ++ f') EDir.
End Spec.

(** ** comparing two installs *)
Section Compare.
  Variable requested : pspec -> string.
  Variable gitshow : gitinfo -> string.
  (** the metadata of the previous install has, for top-level package [x], the very lockfile entry that the new tree has *)
  Definition same_entry (a : list (string * lnode)) (g : graph) (x : string) : Prop :=
    exists old i new, aget ueqb x a = Some old /\ installed_at g i [x] /\ node_lnode requested gitshow g i false = Ok new /\ lnode_eqb old new = true.
  (** nothing changed that pruning does not look at: inside unscoped packages whose entry is unchanged, and in scoped packages *)
  Definition no_hidden_change (g0 g : graph) (a : list (string * lnode)) : Prop :=
    forall x t r, (plain x -> same_entry a g x) -> (pkg_at g0 (x :: t) r <-> pkg_at g (x :: t) r).
End Compare.
