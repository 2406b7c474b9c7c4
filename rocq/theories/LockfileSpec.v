(** * What the lockfile properties mean *)
From Verif Require Import Base Types Kdl ResolverModel ResolverProofs ResolverRun ResolverSpec LockfileModel.
Open Scope string_scope.
Open Scope list_scope.

(** [same_map a b]: the same keys with the same values *)
Definition same_map (a b : list (string * string)) : Prop := forall k, sget k a = sget k b.
(** the same entry, resp. the same lockfile: names, paths and keys up to letter case (as UniCase does), everything else equal *)
Definition same_node (a b : lnode) : Prop :=
  ufold (l_name a) = ufold (l_name b) /\ l_is_root a = l_is_root b /\ map ufold (l_path a) = map ufold (l_path b)
  /\ l_resolved a = l_resolved b /\ l_version a = l_version b /\ l_integrity a = l_integrity b
  /\ same_map (l_deps a) (l_deps b) /\ same_map (l_dev a) (l_dev b) /\ same_map (l_peer a) (l_peer b) /\ same_map (l_opt a) (l_opt b).
Definition same_lockfile (a b : lockfile) : Prop :=
  lf_version a = lf_version b /\ same_node (lf_root a) (lf_root b)
  /\ forall k, match aget ueqb k (lf_packages a), aget ueqb k (lf_packages b) with
               | Some x, Some y => same_node x y
               | None, None => True
               | _, _ => False
               end.
(** the same lockfile, except for the name, "resolved" and "integrity" of the root entry *)
  Definition same_except_root_origin (a b : lockfile) : Prop :=
    lf_version a = lf_version b
    /\ (l_is_root (lf_root a) = l_is_root (lf_root b) /\ l_path (lf_root a) = l_path (lf_root b) /\ l_version (lf_root a) = l_version (lf_root b)
        /\ same_map (l_deps (lf_root a)) (l_deps (lf_root b)) /\ same_map (l_dev (lf_root a)) (l_dev (lf_root b))
        /\ same_map (l_peer (lf_root a)) (l_peer (lf_root b)) /\ same_map (l_opt (lf_root a)) (l_opt (lf_root b)))
    /\ forall k, match aget ueqb k (lf_packages a), aget ueqb k (lf_packages b) with
               | Some x, Some y => same_node x y
               | None, None => True
               | _, _ => False
               end.

Definition section_of (t : deptype) (ln : lnode) : list (string * string) :=
  match t with Prod => l_deps ln | Dev => l_dev ln | Peer => l_peer ln | Opt => l_opt ln end.

(** [describes requested gitshow g i ln]: the lockfile entry [ln] says what package [i] of the tree is: where it is, what
    it resolved to, and for each dependency type exactly the dependencies linked, with the text of their specs *)
Definition describes (requested : pspec -> string) (gitshow : gitinfo -> string) (g : graph) (i : nat) (ln : lnode) : Prop :=
  exists n, getn g i = Some n /\ installed_at g i (l_path ln) /\ l_name ln = pk_name (n_pkg n)
  /\ match pk_resolved (n_pkg n) with
     | RNpm _ v url integ => l_version ln = Some v /\ l_resolved ln = Some url /\ l_integrity ln = integ
     | RDir _ path => l_version ln = None /\ l_resolved ln = Some path /\ l_integrity ln = None
     | RGit _ info => l_version ln = None /\ l_resolved ln = Some (gitshow info) /\ l_integrity ln = None
     end
  /\ forall t x txt, sget x (section_of t ln) = Some txt <-> exists sp c, linked g i x sp t c /\ txt = requested sp.

