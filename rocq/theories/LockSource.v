(** * Where the lockfile comes from: crates/node-maintainer/src/maintainer.rs:285-331 [get_lockfile] *)
From Verif Require Import Base Types.
Open Scope list_scope.

(** A file of the project directory: missing, there but unreadable (an I/O error, or not UTF-8), or its text *)
Inductive file_text := Absent | Unreadable | Text (s : string).
Section Source.
  Variable L : Type.
  (** Lockfile::from_kdl, Lockfile::from_npm on a text (LockfileModel) *)
  Variables from_kdl from_npm : string -> res err L.
  (** maintainer.rs:294-304, 305-315, 316-328: one file; failures are only logged *)
  Definition try_file (parse : string -> res err L) (f : file_text) (next : res err (option L)) : res err (option L) :=
    match f with
    | Absent => next
    | Unreadable => next
    | Text s => match parse s with Ok l => Ok (Some l) | Err _ => next | Panic => Panic end
    end.
  (** maintainer.rs:285-331; [root] is None when the client has no project directory *)
  Definition get_lockfile (kdl npm : option L) (root : option (file_text * file_text * file_text)) : res err (option L) :=
    match kdl, npm with
    | Some l, _ => Ok (Some l)
    | None, Some l => Ok (Some l)
    | None, None =>
        match root with
        | None => Ok None
        | Some (f_kdl, f_lock, f_shrink) => try_file from_kdl f_kdl (try_file from_npm f_lock (try_file from_npm f_shrink (Ok None)))
        end
    end.
End Source.
Arguments get_lockfile {L}.
