(** * What the credential properties mean, independently of how the client stores and compares things *)
From Verif Require Import Base Types Kdl StdPath CliModel AuthModel.
Open Scope string_scope.
Open Scope list_scope.

(** an http(s) URL as the url crate makes it: it has a host, without '/', and its path starts with '/' *)
Definition http_url (u : url) : Prop := exists h p, u_host u = Some h /\ no_char "/" h = true /\ u_path u = String "/" p.
(** the same registry: same host and same path *)
Definition same_registry (a b : url) : Prop := u_host a = u_host b /\ u_path a = u_path b.
(** inside the registry: same host, and a path that begins with the registry's path *)
Definition under_registry (reg q : url) : Prop := u_host q = u_host reg /\ exists rest, u_path q = (u_path reg ++ rest)%string.
(** the credential last configured for a registry *)
Inductive last_for (reg : url) : list (url * cred) -> cred -> Prop :=
| lf_here u c l : same_registry u reg -> (forall v c', In (v, c') l -> ~ same_registry v reg) -> last_for reg ((u, c) :: l) c
| lf_later u c c' l : last_for reg l c -> last_for reg ((u, c') :: l) c.
Definition configured (l : list (url * cred)) : creds := fold_left (fun m e => configure (fst e) (snd e) m) l [].

(** the Authorization value of a credential, without line breaks or control characters *)
Definition authorizes (c : cred) (v : string) : Prop :=
  match c with
  | Token t => v = ("Bearer " ++ t)%string
  | EncodedBasic a => v = ("Basic " ++ a)%string
  | Basic n p => exists e, v = ("Basic " ++ e)%string /\ b64_decode e = Some (n ++ ":" ++ oval p)%string
  end.
Definition one_line (s : string) : Prop := no_char (ascii_of_nat 10) s = true /\ no_char (ascii_of_nat 13) s = true /\ no_char (ascii_of_nat 0) s = true.

(** ** stored credentials *)
Inductive op := Save (u : url) (c : stored) | Forget (u : url) | Scope (s : string) (u : url).
(** what the user last did about a registry *)
Inductive verdict := Saved (c : stored) (under : url) | Forgotten | Untouched.
Definition about (u : url) (o : op) : option verdict :=
  match o with
  | Save v c => if String.eqb (nerf_dart v) (nerf_dart u) then Some (Saved c v) else None
  | Forget v => if String.eqb (nerf_dart v) (nerf_dart u) then Some Forgotten else None
  | Scope _ _ => None
  end.
Fixpoint last_word (u : url) (l : list op) : verdict :=
  match l with
  | [] => Untouched
  | o :: l => match last_word u l with Untouched => match about u o with Some v => v | None => Untouched end | v => v end
  end.
(** the credential a client should use for what was saved *)
Definition as_cred (c : stored) : cred := match c with SToken t => Token t | SLegacy t => EncodedBasic t | SBasic n p => Basic n p end.

(** the parts of a configuration that are not about credentials: the nodes other than the first [options] node, and the options
    other than [sec] *)
Definition others (d : kdoc) : kdoc := filter (fun n => negb (String.eqb (k_name n) "options")) d.
Definition option_nodes (d : kdoc) : kdoc := filter (fun n => String.eqb (k_name n) "options") d.
Definition options_of (d : kdoc) : kdoc := match kget "options" d with Some o => match k_children o with Some c => c | None => [] end | None => [] end.
Definition but (sec : string) (l : kdoc) : kdoc := filter (fun n => negb (String.eqb (k_name n) sec)) l.
Definition untouched_but (sec : string) (d d' : kdoc) : Prop :=
  others d' = others d /\ tl (option_nodes d') = tl (option_nodes d) /\ but sec (options_of d') = but sec (options_of d)
  /\ (forall o, kget "options" d = Some o -> exists o', kget "options" d' = Some o' /\ k_entries o' = k_entries o).
(** the [auth] option, if present, has a children block *)
Definition writable (sec : string) (d : kdoc) : Prop := forall a, kget sec (options_of d) = Some a -> k_children a <> None.
