(** * What an isolated install should look like, in terms of the tree only *)
From Verif Require Import Base Types ResolverModel ResolverProofs ResolverSpec LockfileModel LockfileGraph PathLookup Fs.
Open Scope string_scope.
Open Scope list_scope.

(** following a relative link text from directory [d], component by component *)
Fixpoint walk (d : path) (t : path) : option path :=
  match t with
  | [] => Some d
  | c :: t' => if String.eqb c ".." then match d with [] => None | _ => walk (removelast d) t' end else walk (d ++ [c]) t'
  end.
(** [p] is a symbolic link that leads to [q] *)
Definition leads (f : fs) (p q : path) : Prop := exists t, f p = Some (ELink t) /\ walk (removelast p) t = Some q.

(** package [i] of the tree depends on package [c] under the name [x] *)
Definition depends (g : graph) (i : nat) (x : string) (c : nat) : Prop := exists s t, linked g i x s t c.

(** what a directory with exactly the files [l] has at [f] *)
Definition holds (l : list (path * string)) (f : path) (e : ent) : Prop :=
  (e = EDir /\ (f = [] \/ exists f' b, In (f', b) l /\ prefix f f' /\ f <> f')) \/ exists b, e = EFile b /\ In (f, b) l.

(** packages are known by the name they were asked for: nassun names a package after its spec, "name@..." *)
Definition named (g : graph) : Prop := forall i n, getn g i = Some n -> i <> 0 -> pk_name (n_pkg n) = n_name n.

Section Hash.
  Variable hex8 : string -> string.
  (** eight hexadecimal digits: what the proofs use of it *)
  Definition hex_ok : Prop := forall s, String.length (hex8 s) = 8 /\ no_slash (hex8 s) = true /\ ufold (hex8 s) = hex8 s.
  (** no two packages of the same name, from the trees considered, have paths with the same 8-digit hash *)
  Definition no_collision (has : list string -> Prop) : Prop := forall a b x, has (a ++ [x]) -> has (b ++ [x]) ->
    hex8 (path_key (a ++ [x])) = hex8 (path_key (b ++ [x])) -> a = b.
End Hash.
(** where the isolated linker keeps the package with logical path [p] = [..; x]: node_modules/.oro-store/x@<hash>/node_modules/x *)
Definition home (hex8 : string -> string) (p : list string) : path :=
  let x := List.last p "" in "node_modules" :: ".oro-store" :: comps (x ++ "@" ++ hex8 (path_key p))%string ++ "node_modules" :: comps x.
(** the node_modules directory in which the package with path [p] looks for its dependencies ([p] = []: the project) *)
Definition deps_dir (hex8 : string -> string) (p : list string) : path := match p with [] => ["node_modules"] | _ => home hex8 p ++ ["node_modules"] end.
(** the paths of a tree *)
Definition paths (g : graph) (p : list string) : Prop := exists i, i <> 0 /\ installed_at g i p.

(** going from tree [g0] to [g] changes nothing that pruning does not see: a package in the same place is the same, and has
    no dependency less; a scoped dependency leads to the same place *)
Definition compatible (g0 g : graph) : Prop :=
  (forall p i0 n0 i n, p <> [] -> installed_at g0 i0 p -> installed_at g i p -> getn g0 i0 = Some n0 -> getn g i = Some n -> pk_resolved (n_pkg n0) = pk_resolved (n_pkg n))
  /\ (forall p i0 i x c0 p0, installed_at g0 i0 p -> installed_at g i p -> depends g0 i0 x c0 -> installed_at g0 c0 p0 ->
        exists c, depends g i x c /\ (starts_at x = true -> installed_at g c p0)).
