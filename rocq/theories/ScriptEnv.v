(** * The environment of a script: crates/oro-script/src/lib.rs [set_all_paths], [current_paths], [get_existing_paths] *)
From Verif Require Import Base Types StdPath.
Open Scope string_scope.
Open Scope list_scope.

(** str::to_lowercase, ASCII part *)
Definition lower_char (c : ascii) : ascii := let n := nat_of_ascii c in if (Nat.leb 65 n && Nat.leb n 90)%bool then ascii_of_nat (n + 32) else c.
Fixpoint lower (s : string) : string := match s with EmptyString => "" | String c t => String (lower_char c) (lower t) end.

(** An absolute canonical path (dunce::canonicalize) is the list of its names, innermost first. Its text: *)
Fixpoint up_text (r : list string) : string := match r with [] => "" | n :: t => (up_text t ++ "/" ++ n)%string end.
Definition abs_text (r : list string) : string := match r with [] => "/" | _ => up_text r end.
Definition up_comps (r : list string) : list comp := CRoot :: map CNormal (rev r).
(** Path::ancestors *)
Fixpoint ancestors (r : list string) : list (list string) := r :: match r with [] => [] | _ :: t => ancestors t end.
Fixpoint comps_eqb (a b : list comp) : bool :=
  match a, b with [], [] => true | x :: a, y :: b => comp_eqb x y && comps_eqb a b | _, _ => false end.

(** env::split_paths and env::join_paths (Unix): ':'; joining fails if a path contains ':' *)
Definition colon : ascii := ":".
Fixpoint join_colon (l : list string) : string := match l with [] => "" | [x] => x | x :: t => (x ++ String colon (join_colon t))%string end.
Definition join_paths (l : list string) : res err string := if forallb (no_char colon) l then Ok (join_colon l) else Err EIo.

Definition environment := list (string * string).
(** lib.rs:194-202 [current_paths] *)
Definition current_paths (env : environment) : list (string * list string) :=
  flat_map (fun e => if String.eqb (lower (fst e)) "path" then [(fst e, split colon (snd e))] else []) env.
(** lib.rs:204-212 [get_existing_paths] *)
Definition get_existing_paths (env : environment) : list string := flat_map snd (current_paths env).
(** lib.rs:178-186: the directories pushed for the ancestors of the package; [ws] is the workspace path as given *)
Definition bin_dir (r : list string) : string := join (join (abs_text r) "node_modules") ".bin".
Fixpoint push_bins (ws : option string) (dirs : list (list string)) : list string :=
  match dirs with
  | [] => []
  | d :: t => bin_dir d :: match ws with
                           | Some w => if comps_eqb (up_comps d) (components w) then [] else push_bins ws t
                           | None => push_bins ws t
                           end
  end.
(** lib.rs:177-192 [set_all_paths]: the environment of the script *)
Definition set_all_paths (env : environment) (ws : option string) (pkg : list string) : res err environment :=
  let! p := join_paths (get_existing_paths env ++ push_bins ws (ancestors pkg)) in
  Ok (fold_left (fun e v => sput (fst v) p e) (current_paths env) env).
