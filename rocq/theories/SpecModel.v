(** * Package specs: crates/oro-package-spec/src/lib.rs, gitinfo.rs, parsers/*.rs *)
From Verif Require Import Base Types StdPath.
Open Scope list_scope.
Open Scope string_scope.

(** ** the parser combinators used (nom, external): a parser returns the rest of the input and a value, a recoverable error, or a
    failure ([cut]) that stops every alternative; [PPanic] is a Rust panic inside a parser.
    Simplification: input is bytes; [tag_no_case] folds ASCII letters only, drive letters are ASCII letters. *)
Inductive pres (A : Type) := POk (rest : string) (a : A) | PErr | PFail | PPanic.
Arguments POk {A} _ _. Arguments PErr {A}. Arguments PFail {A}. Arguments PPanic {A}.
Definition parser A := string -> pres A.
Definition pbind {A B} (p : pres A) (k : string -> A -> pres B) : pres B :=
  match p with POk r a => k r a | PErr => PErr | PFail => PFail | PPanic => PPanic end.
Definition pmap {A B} (f : A -> B) (p : pres A) : pres B := pbind p (fun r a => POk r (f a)).
Definition palt {A} (p q : pres A) : pres A := match p with PErr => q | _ => p end.
Definition popt {A} (s : string) (p : pres A) : pres (option A) :=
  match p with POk r a => POk r (Some a) | PErr => POk s None | PFail => PFail | PPanic => PPanic end.
Definition pcut {A} (p : pres A) : pres A := match p with PErr => PFail | _ => p end.
Definition lower (c : ascii) : ascii :=
  let n := nat_of_ascii c in if Nat.leb 65 n && Nat.leb n 90 then ascii_of_nat (n + 32) else c.
Fixpoint strip_tag (t s : string) : option string :=
  match t, s with
  | EmptyString, _ => Some s
  | String a t', String b s' => if Ascii.eqb (lower a) (lower b) then strip_tag t' s' else None
  | _, _ => None
  end.
Definition tag (t : string) : parser unit := fun s => match strip_tag t s with Some r => POk r tt | None => PErr end.
(** take_while *)
Fixpoint span (f : ascii -> bool) (s : string) : string * string :=
  match s with
  | EmptyString => ("", "")
  | String c t => if f c then let '(a, b) := span f t in (String c a, b) else ("", s)
  end.
(** take_till1 *)
Definition till1 (stop : ascii -> bool) : parser string := fun s =>
  match span (fun c => negb (stop c)) s with (EmptyString, _) => PErr | (a, b) => POk b a end.
(** map_res *)
Definition pres_map {A B} (f : A -> option B) (p : pres A) : pres B :=
  pbind p (fun r a => match f a with Some b => POk r b | None => PErr end).

(** parsers/util.rs:5-28 [no_url_encode]: letters, digits and - _ . ! ~ * ' ( ) *)
Definition urlc (c : ascii) : bool :=
  let n := nat_of_ascii c in
  (Nat.leb 48 n && Nat.leb n 57) || (Nat.leb 65 n && Nat.leb n 90) || (Nat.leb 97 n && Nat.leb n 122)
  || Nat.eqb n 45 || Nat.eqb n 95 || Nat.eqb n 46 || Nat.eqb n 33 || Nat.eqb n 126 || Nat.eqb n 42 || Nat.eqb n 39 || Nat.eqb n 40 || Nat.eqb n 41.
Fixpoint sall (f : ascii -> bool) (s : string) : bool := match s with EmptyString => true | String c t => f c && sall f t end.
Definition no_url_encode (s : string) : option string := if sall urlc s then Some s else None.

Definition at_sign : ascii := "@"%char.
Definition slash : ascii := "/"%char.
Definition hash : ascii := "#"%char.
Definition colon : ascii := ":"%char.
Definition dot : ascii := "."%char.
Definition backslash : ascii := ascii_of_nat 92.
Definition is (c : ascii) : ascii -> bool := Ascii.eqb c.
Definition at_or_slash (c : ascii) : bool := is at_sign c || is slash c.
Definition alpha (c : ascii) : bool := let n := nat_of_ascii (lower c) in Nat.leb 97 n && Nat.leb n 122.

(** parsers/path.rs:68-70 [path_sep] *)
Definition path_sep (c : ascii) : bool := is slash c || is backslash c.
Definition starts_sep (s : string) : bool := match s with String c _ => path_sep c | _ => false end.
(** parsers/path.rs:26-34 [relative_path]: a dot, then anything ([opt], [many0] and [rest] take whatever follows) *)
Definition relative_path : parser string := fun s => match strip_tag "." s with Some _ => POk "" s | None => PErr end.
(** parsers/path.rs:37-65 [absolute_path]: an optional drive letter and colon, a separator, then anything *)
Definition absolute_path : parser string := fun s =>
  let body := match s with String c t => if alpha c then match strip_tag ":" t with Some r => r | None => s end else s | _ => s end in
  if starts_sep body then POk "" s else PErr.
(** parsers/path.rs:16-23 [path_spec] *)
Definition path_spec : parser pspec := fun s => pmap SDir (palt (relative_path s) (absolute_path s)).

Section Oracles.
  (** external: node_semver Version::parse / Display, Range::parse (a range is its printed form), url Url::parse (a URL is its
      serialisation), host_str, path, scheme *)
  Variable vparse : string -> option version.
  Variable vshow : version -> string.
  Variable rparse : string -> option range.
  Variable uparse : string -> option string.
  Variable uhost : string -> option string.
  Variable upath : string -> string.
  Variable uscheme : string -> string.

  (** parsers/npm.rs:45-71 [version_req]: [take_till1(|_| false)] takes everything, at least one character *)
  Definition version_req : parser vspec := fun s =>
    match s with
    | EmptyString => PErr
    | _ => match vparse s with
           | Some v => POk "" (VVersion v)
           | None => match rparse s with
                     | Some r => POk "" (VRange r)
                     | None => match no_url_encode s with Some t => POk "" (VTag t) | None => PErr end
                     end
           end
    end.
  (** parsers/npm.rs:16-43 [npm_spec]; '@' and '/' here are [char], not [tag] *)
  Definition npm_scope : parser string := fun s =>
    pbind (tag "@" s) (fun r _ => pbind (pres_map no_url_encode (till1 (is slash) r)) (fun r n => pbind (tag "/" r) (fun r _ => POk r n))).
  Definition npm_spec : parser pspec := fun s =>
    pbind (popt s (npm_scope s)) (fun r sc =>
    pbind (pres_map no_url_encode (till1 at_or_slash r)) (fun r name =>
    pbind (popt r (pbind (tag "@" r) (fun r' _ => pcut (version_req r')))) (fun r req =>
      POk r (SNpm sc (match sc with Some x => "@" ++ x ++ "/" ++ name | None => name end) req)))).

  (** parsers/git.rs:42-50, gitinfo.rs:20-39 [hosted_git_prefix] *)
  Definition hosted_git_prefix : parser githost := fun s =>
    pbind (palt (pmap (fun _ => GitHub) (tag "github" s)) (palt (pmap (fun _ => Gist) (tag "gist" s))
          (palt (pmap (fun _ => GitLab) (tag "gitlab" s)) (pmap (fun _ => Bitbucket) (tag "bitbucket" s)))))
      (fun r h => pbind (tag ":" r) (fun r _ => POk r h)).
  (** parsers/git.rs:72-75 [semver_range] *)
  Definition semver_range : parser range := fun s => match s with EmptyString => PErr | _ => match rparse s with Some r => POk "" r | None => PErr end end.
  (** parsers/git.rs:52-70 [committish] *)
  Definition committish : parser (option string * option range) := fun s =>
    pbind (popt s (pbind (tag "#" s) (fun r _ =>
             palt (pbind (tag "semver:" r) (fun r _ => pmap (fun q => (None, Some q)) (pcut (semver_range r))))
                  (match no_url_encode r with Some c => POk "" (Some c, None) | None => PErr end))))
      (fun r o => POk r (match o with Some x => x | None => (None, None) end)).
  (** parsers/git.rs:23-40 [git_shorthand] *)
  Definition git_shorthand : parser gitinfo := fun s =>
    pbind (popt s (hosted_git_prefix s)) (fun r h =>
    pbind (pres_map no_url_encode (till1 (is slash) r)) (fun r owner =>
    pbind (tag "/" r) (fun r _ =>
    let '(repo, r) := span (fun c => negb (is hash c)) r in
    pbind (committish r) (fun r cs =>
      POk r (GHosted owner repo (match h with Some x => x | None => GitHub end) (fst cs) (snd cs) None))))).

  (** str::ends_with(".git") / str::replace(".git", "") *)
  Fixpoint ends_git (s : string) : bool := match s with EmptyString => false | String _ t => String.eqb s ".git" || ends_git t end.
  Fixpoint del_git (fuel : nat) (s : string) : string :=
    match fuel with
    | 0 => s
    | S k => if String.prefix ".git" s then del_git k (match s with String _ (String _ (String _ (String _ t))) => t | _ => "" end)
             else match s with EmptyString => "" | String c t => String c (del_git k t) end
    end.
  Definition repo_name (s : string) : string := if ends_git s then del_git (String.length s) s else s.
  (** parsers/git.rs:84-87, 97-102: the host names recognised *)
  Definition known_host (h : string) : option githost :=
    if String.eqb h "github.com" then Some GitHub else if String.eqb h "gitlab.com" then Some GitLab
    else if String.eqb h "gist.github.com" then Some Gist else if String.eqb h "bitbucket.org" then Some Bitbucket else None.
  (** parsers/git.rs:83-134: what a URL stands for; [url.path()[1..]] panics on an empty path (None) *)
  Definition url_info (url : string) (cs : option string * option range) : option gitinfo :=
    match match uhost url with Some h => known_host h | None => None end with
    | Some host =>
        match upath url with
        | EmptyString => None
        | String _ p => match split "/" p with
                        | [owner; repo] => Some (GHosted owner (repo_name repo) host (fst cs) (snd cs) (Some url))
                        | _ => Some (GUrl url (fst cs) (snd cs))
                        end
        end
    | None => Some (GUrl url (fst cs) (snd cs))
    end.
  (** parsers/git.rs:77-134 [git_url] *)
  Definition git_url : parser gitinfo := fun s =>
    pbind (palt (tag "git+" s) (pbind (tag "git://" s) (fun _ _ => POk s tt))) (fun r _ =>
    pbind (pres_map uparse (till1 (is hash) r)) (fun r url =>
    pbind (committish r) (fun r cs => match url_info url cs with Some i => POk r i | None => PPanic end))).
  (** parsers/git.rs:142-151: the text between ssh:// and '#' *)
  Definition scp_raw (user : option string) (host : string) (path : option string) : string :=
    (match user with Some u => u ++ "@" | None => "" end) ++ host ++ (match path with Some p => ":" ++ p | None => "" end).
  (** parsers/git.rs:152-210 *)
  Definition scp_info (user : option string) (host : string) (path : option string) (cs : option string * option range) : gitinfo :=
    match known_host host, path, user with
    | Some h, Some p, Some _ =>
        match split "/" p with
        | [owner; repo] => GHosted owner (repo_name (repo_name repo)) h (fst cs) (snd cs) (Some (scp_raw user host path))
        | _ => GSsh (scp_raw user host path) (fst cs) (snd cs)
        end
    | _, _, _ => GSsh (scp_raw user host path) (fst cs) (snd cs)
    end.
  (** parsers/git.rs:136-210 [git_scp] *)
  Definition git_scp : parser gitinfo := fun s =>
    pbind (popt s (tag "git+" s)) (fun r _ =>
    pbind (tag "ssh://" r) (fun r _ =>
    pbind (popt r (pbind (till1 (is at_sign) r) (fun r' u => pbind (tag "@" r') (fun r' _ => POk r' u)))) (fun r user =>
    pbind (till1 (fun c => is colon c || is hash c) r) (fun r host =>
    pbind (popt r (pbind (tag ":" r) (fun r' _ => till1 (is hash) r'))) (fun r path =>
    pbind (committish r) (fun r cs => POk r (scp_info user host path cs))))))).
  (** parsers/git.rs:15-20 [git_spec] *)
  Definition git_spec : parser pspec := fun s => pmap SGit (palt (git_shorthand s) (palt (git_url s) (git_scp s))).

  (** parsers/alias.rs:52-72 [scope] *)
  Definition alias_scope : parser string := fun s =>
    pbind (popt s (tag "@" s)) (fun r at_ =>
    pbind (pres_map no_url_encode (till1 (is slash) r)) (fun r n =>
    pbind (tag "/" r) (fun r _ => POk r (match at_ with Some _ => "@" ++ n | None => n end)))).
  (** parsers/alias.rs:40-50 [prefixed_package_spec] *)
  Definition prefixed_package_spec : parser pspec := fun s =>
    palt (pbind (popt s (tag "file:" s)) (fun r _ => path_spec r)) (palt (git_spec s) (pbind (tag "npm:" s) (fun r _ => npm_spec r))).
  (** parsers/alias.rs:13-37 [alias_spec] *)
  Definition alias_spec : parser pspec := fun s =>
    pbind (popt s (alias_scope s)) (fun r sc =>
    pbind (pres_map no_url_encode (till1 at_or_slash r)) (fun r name =>
    pbind (tag "@" r) (fun r _ =>
    pbind (prefixed_package_spec r) (fun r sp =>
      POk r (SAlias ((match sc with Some x => x ++ "/" | None => "" end) ++ name) sp))))).
  (** parsers/package.rs:13-23 [package_spec] *)
  Definition package_spec : parser pspec := fun s =>
    palt (alias_spec s) (palt (pbind (popt s (tag "file:" s)) (fun r _ => path_spec r))
      (palt (git_spec s) (pbind (popt s (tag "npm:" s)) (fun r _ => npm_spec r)))).
  (** lib.rs:106-112, 153-181 [PackageSpec::from_str]: the whole input must be consumed *)
  Definition parse_package_spec (s : string) : res err pspec :=
    match package_spec s with
    | POk EmptyString a => Ok a
    | POk _ _ | PErr | PFail => Err EInvalidSpec
    | PPanic => Panic
    end.

  (** lib.rs:142-151 Display for VersionSpec *)
  Definition show_vspec (v : vspec) : string := match v with VTag t => t | VVersion v => vshow v | VRange r => r end.
  (** gitinfo.rs:41-54 Display for GitHost *)
  Definition show_host (h : githost) : string := match h with GitHub => "github" | Gist => "gist" | GitLab => "gitlab" | Bitbucket => "bitbucket" end.
  (** gitinfo.rs:168-222 Display for GitInfo *)
  Definition show_ref (c : option string) (r : option range) : string :=
    match c, r with Some c, _ => "#" ++ c | None, Some r => "#semver:" ++ r | None, None => "" end.
  Definition show_git (i : gitinfo) : string :=
    match i with
    | GUrl u c r => (if String.eqb (uscheme u) "git" then "" else "git+") ++ u ++ show_ref c r
    | GSsh x c r => "git+ssh://" ++ x ++ show_ref c r
    | GHosted o p h c r (Some q) => (if String.prefix "git://" q then "" else "git+") ++ q ++ show_ref c r
    | GHosted o p h c r None => show_host h ++ ":" ++ o ++ "/" ++ p ++ show_ref c r
    end.
  (** lib.rs:114-140 Display for PackageSpec *)
  Fixpoint show_spec (s : pspec) : string :=
    match s with
    | SDir p => p
    | SGit i => show_git i
    | SNpm _ n r => n ++ match r with Some r => "@" ++ show_vspec r | None => "" end
    | SAlias n s => n ++ "@" ++ (match s with SNpm _ _ _ => "npm:" | _ => "" end) ++ show_spec s
    end.
  (** lib.rs:86-105 [requested] *)
  Definition requested (s : pspec) : string :=
    match s with
    | SDir p => p
    | SGit i => show_git i
    | SNpm _ _ (Some r) => show_vspec r
    | SNpm _ _ None => "*"
    | SAlias _ s => (match s with SNpm _ _ _ => "npm:" | _ => "" end) ++ show_spec s
    end.
End Oracles.
