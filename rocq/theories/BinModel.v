(** * Bins: crates/oro-common/src/build_manifest.rs and the bin links of crates/node-maintainer/src/linkers/hoisted.rs *)
From Verif Require Import Base Types StdPath.
From Coq Require Import Permutation.
Open Scope string_scope.
Open Scope list_scope.

(** crates/oro-common/src/manifest.rs:317-323 [enum Bin]; a JSON object has one value per key (HashMap) *)
Inductive bin := BStr (s : string) | BHash (l : list (string * string)) | BArray (l : list string).
(** build_manifest.rs:12-26 [RawBuildManifest]; [directories.bin] only. Simplification: [scripts] is copied through untouched
    and is modelled with the install scripts (ScriptsModel). *)
Record raw := mkRaw { r_name : option string; r_bin : option bin; r_dirbin : option string }.

(** String::replace(['\\', ':'], "/") *)
Fixpoint unslash (s : string) : string :=
  match s with
  | EmptyString => ""
  | String c t => String (if Ascii.eqb c "\" || Ascii.eqb c ":" then "/"%char else c) (unslash t)
  end.
(** Path::starts_with("."): the first component is a "." *)
Definition dot_first (s : string) : bool := negb (is_abs s) && lead_cur s.

Section World.
  (** external: WalkDir::new(dir) — every path below [dir], [dir] itself first; [None] for an unreadable entry.
      A relative [dir] is read from the current directory of the orogene process. *)
  Variable walkdir : string -> list (option string).

  (** build_manifest.rs:75-87 *)
  Fixpoint array_map (l : list string) (acc : list (string * string)) : res err (list (string * string)) :=
    match l with
    | [] => Ok acc
    | b :: t => match file_name b with None => Err EIo | Some n => array_map t (sput n b acc) end
    end.
  (** build_manifest.rs:92-102 *)
  Fixpoint walk_map (l : list (option string)) (acc : list (string * string)) : res err (list (string * string)) :=
    match l with
    | [] => Ok acc
    | None :: _ => Err EIo
    | Some p :: t =>
        if dot_first p then walk_map t acc
        else match file_name p with Some n => walk_map t (sput n p acc) | None => walk_map t acc end
    end.
  (** build_manifest.rs:68-103, the [bin_map] *)
  Definition bin_map (r : raw) : res err (list (string * string)) :=
    match r_bin r with
    | Some (BHash bins) => Ok bins
    | Some (BStr b) => Ok (match r_name r with Some n => [(n, b)] | None => [] end)
    | Some (BArray bins) => array_map bins []
    | None => match r_dirbin r with Some d => walk_map (walkdir d) [] | None => Ok [] end
    end.

  (** build_manifest.rs:106-131, the name of the link; [None] = skipped *)
  Definition bin_base (name : string) : option string :=
    match file_name name with
    | None => None
    | Some base => match components (join "/" (unslash base)) with
                   | CRoot :: rest => match last_comp rest with Some (CNormal x) => Some x | _ => None end
                   | _ => None
                   end
    end.
  (** build_manifest.rs:133-146, the target, as components; [None] = skipped *)
  Definition bin_target (b : string) : option (list comp) :=
    match components (join "/" b) with
    | CRoot :: [] => None
    | CRoot :: rest => Some rest
    | _ => None
    end.
  (** build_manifest.rs:105-149: the loop over [bin_map], which is a std HashMap: [order] is the order it happens to iterate in *)
  Fixpoint norm_loop (order : list (string * string)) (acc : list (string * list comp)) : list (string * list comp) :=
    match order with
    | [] => acc
    | (n, b) :: t =>
        norm_loop t (match bin_base n, bin_target b with Some x, Some p => sput x p acc | _, _ => acc end)
    end.
  (** build_manifest.rs:67-156 [normalize] *)
  Inductive normalize (r : raw) : res err (list (string * list comp)) -> Prop :=
  | norm_ok m order : bin_map r = Ok m -> Permutation order m -> normalize r (Ok (norm_loop order []))
  | norm_err e : bin_map r = Err e -> normalize r (Err e).
End World.

(** hoisted.rs:384-394 [link_bins]: the .bin directory used for the package in [package_dir] (components from the project root) *)
Definition last_str (l : list string) : option string := match rev l with x :: _ => Some x | [] => None end.
Definition hoisted_bin_dir (package_dir : list string) : list string :=
  let parent := removelast package_dir in
  match last_str parent with
  | Some x => if String.eqb x "node_modules" then parent ++ [".bin"] else removelast parent ++ [".bin"]
  | None => removelast parent ++ [".bin"]
  end.
(** hoisted.rs:403-406: the link created, and what it points to *)
Definition bin_link (package_dir : list string) (e : string * list comp) : list string * list comp :=
  (hoisted_bin_dir package_dir ++ [fst e], map CNormal package_dir ++ snd e).
