(** * How Node.js looks for a package on disk, independent of orogene
    (https://nodejs.org/api/modules.html, LOAD_NODE_MODULES and NODE_MODULES_PATHS): from the directory of the requiring file upwards, in
    the node_modules directory of each directory that is not itself one. *)
From Verif Require Import Base Types PathLookup Fs IsolatedSpec.
Open Scope string_scope.
Open Scope list_scope.

(** where the package named [x] is looked for, for directory [d]: d/node_modules/x ([comps]: "@scope/name" is two components) *)
Definition candidate (d : path) (x : string) : path := d ++ "node_modules" :: comps x.
(** [d] is itself a node_modules directory: nothing is looked for beside it *)
Definition is_nm (d : path) : Prop := exists d', d = d' ++ ["node_modules"].
(** starting in directory [d], the package [x] is found at [p] *)
Inductive finds (f : fs) : path -> string -> path -> Prop :=
| finds_here d x : ~ is_nm d -> f (candidate d x) <> None -> finds f d x (candidate d x)
| finds_up d c x p : is_nm (d ++ [c]) \/ f (candidate (d ++ [c]) x) = None -> finds f d x p -> finds f (d ++ [c]) x p.

(** no package brings a node_modules directory of its own (bundled dependencies) *)
Definition no_bundled (contents : Types.resolution -> list (path * string)) : Prop := forall r f b, In (f, b) (contents r) -> ~ In "node_modules" f.

(** requiring [x] from directory [d] gives a package whose files are exactly [l] (its own node_modules apart): Node finds it, as a
    directory or as a link to one *)
Definition loads (f : fs) (d : path) (x : string) (l : list (path * string)) : Prop :=
  exists p q, finds f d x p /\ (f p = Some EDir /\ q = p \/ leads f p q)
    /\ forall fl e, (forall t, fl <> "node_modules" :: t) -> (f (q ++ fl) = Some e <-> holds l fl e).
