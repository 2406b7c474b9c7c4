(** * What [oro view --json] should print for an entry of a registry's document, and which entries it can read; on plain JSON, independent of
    the reader. *)
From Verif Require Import Base Types Kdl JsonModel VersionModel VersionSpec ManifestRead ManifestProofs PackumentSpec JsonSpec.
From Coq Require Import Sorted.
Open Scope string_scope.
Open Scope list_scope.

(** ** shapes *)
Definition is_text (v : json) : Prop := exists s, v = JStr s.
Definition is_boolean (v : json) : Prop := exists b, v = JBool b.
Definition list_of (P : json -> Prop) (v : json) : Prop := exists l, v = JArr l /\ Forall P l.
Definition map_of (P : json -> Prop) (v : json) : Prop := exists l, v = JObj l /\ Forall (fun e => P (snd e)) l.
Definition nullable (P : json -> Prop) (v : json) : Prop := v = JNull \/ P v.
Definition either (P Q : json -> Prop) (v : json) : Prop := P v \/ Q v.
Definition whatever (v : json) : Prop := True.
(** an object in which these members, if they are there, are texts or null *)
Definition record_with (ks : list string) (v : json) : Prop := exists l, v = JObj l /\ forall k, In k ks -> text_or_null (sget k l).

Section Spec.
  Variable vparse : string -> option version.
  Variable vshow : version -> string.
  Variable rnorm : string -> option string.
  Variable uparse : string -> option string.
  Variable is_count : string -> bool.

  Definition is_version (v : json) : Prop := exists s, v = JStr s /\ vparse s <> None.
  Definition is_url (v : json) : Prop := exists s, v = JStr s /\ uparse s <> None.
  Definition is_size (v : json) : Prop := exists s, v = JNum s /\ is_count s = true.
  Definition person (v : json) : Prop := either is_text (record_with ["name"; "email"; "url"]) v.
  Definition full_dist (v : json) : Prop :=
    exists l, v = JObj l
      /\ (forall k, In k ["shasum"; "integrity"; "npm-signature"] -> text_or_null (sget k l))
      /\ (forall u, sget "tarball" l = Some u -> nullable is_url u)
      /\ (forall k u, In k ["fileCount"; "unpackedSize"] -> sget k l = Some u -> nullable is_size u).

  (** the members of an entry that are interpreted, with the shapes they may have *)
  Definition shapes : list (string * (json -> Prop)) :=
    [ ("maintainers", list_of person);
      ("_npmUser", nullable (fun v => record_with ["email"] v /\ exists l s, v = JObj l /\ sget "name" l = Some (JStr s)));
      ("dist", full_dist); ("_hasShrinkwrap", nullable is_boolean); ("deprecated", either is_text is_boolean);
      ("name", nullable is_text); ("version", nullable is_version); ("description", nullable is_text); ("homepage", nullable is_text);
      ("license", nullable is_text); ("licence", nullable is_text);
      ("bugs", nullable (either is_text (record_with ["url"; "email"]))); ("keywords", list_of is_text);
      ("bin", nullable (either is_text (either (map_of is_text) (list_of is_text)))); ("author", nullable person); ("contributors", list_of person);
      ("files", nullable (list_of is_text)); ("main", nullable is_text); ("man", nullable (either is_text (list_of is_text))); ("type", nullable is_text);
      ("exports", whatever); ("imports", whatever);
      ("repository", nullable (either is_text (record_with ["type"; "url"; "directory"])));
      ("scripts", map_of is_text); ("config", whatever); ("engines", whatever); ("os", list_of is_text); ("cpu", list_of is_text);
      ("private", nullable is_boolean); ("publishConfig", map_of whatever);
      ("dependencies", map_of is_text); ("devDependencies", map_of is_text); ("optionalDependencies", map_of is_text); ("peerDependencies", map_of is_text);
      ("bundledDependencies", nullable (either is_boolean (list_of is_text))); ("bundleDependencies", nullable (either is_boolean (list_of is_text)));
      ("workspaces", list_of is_text) ].
  Definition good_full_entry (e : json) : Prop :=
    is_obj e = true
    /\ (forall k P v, In (k, P) shapes -> field e k = Some v -> P v)
    /\ (field e "license" = None \/ field e "licence" = None)
    /\ (field e "bundledDependencies" = None \/ field e "bundleDependencies" = None).
  Definition good_full_document (v : json) : Prop :=
    is_obj v = true
    /\ (field v "versions" = None \/ exists l, field v "versions" = Some (JObj l) /\ forall k e, In (k, e) l -> vparse k <> None /\ good_full_entry e)
    /\ (field v "dist-tags" = None \/ exists l, field v "dist-tags" = Some (JObj l) /\ forall k e, In (k, e) l -> exists s, e = JStr s /\ vparse s <> None)
    /\ (field v "time" = None \/ exists l, field v "time" = Some (JObj l) /\ forall k e, In (k, e) l -> is_text e).

  (** ** what is printed *)
  (** left out when null; left out when empty *)
  Definition unless_null (o : option json) : option json := match o with Some JNull => None | _ => o end.
  Definition unless_empty (o : option json) : option json := match o with Some (JArr []) | Some (JObj []) => None | _ => o end.
  (** of an object with members [ks], exactly those (texts, or null if missing); a text as it is *)
  Definition cut (ks : list string) (v w : json) : Prop :=
    (exists s, v = JStr s /\ w = v)
    \/ exists l, v = JObj l /\ w = JObj (map (fun k => (k, match sget k l with Some j => j | None => JNull end)) ks).
  Definition cut_opt (ks : list string) (o o' : option json) : Prop :=
    match o with None | Some JNull => o' = None | Some v => exists w, o' = Some w /\ cut ks v w end.
  Definition cut_list (ks : list string) (o o' : option json) : Prop :=
    match o with None | Some (JArr []) => o' = None | Some v => exists l l', v = JArr l /\ o' = Some (JArr l') /\ Forall2 (cut ks) l l' end.
  (** [out] is what is printed for the entry [e] *)
  Definition shows (e out : json) : Prop :=
    (* members that are not interpreted *)
    (forall k, ~ In k (map fst shapes) -> field out k = field e k)
    (* texts and other simple values *)
    /\ (forall k, In k ["name"; "description"; "homepage"; "main"; "type"; "bin"; "man"; "files"; "exports"; "imports"; "config"; "private"; "_hasShrinkwrap"] ->
        field out k = unless_null (field e k))
    (* lists and maps *)
    /\ (forall k, In k ["dependencies"; "devDependencies"; "optionalDependencies"; "peerDependencies"; "keywords"; "os"; "cpu"; "workspaces"; "scripts"; "publishConfig"] ->
        field out k = unless_empty (field e k))
    /\ field out "version" = match field e "version" with Some (JStr s) => option_map (fun x => JStr (vshow x)) (vparse s) | _ => None end
    /\ field out "license" = unless_null (match field e "license" with Some v => Some v | None => field e "licence" end) /\ field out "licence" = None
    /\ field out "bundledDependencies" = match field e "bundledDependencies", field e "bundleDependencies" with
                                         | Some (JBool false), _ | _, Some (JBool false) => None
                                         | Some v, _ | None, Some v => unless_empty (unless_null (Some v))
                                         | None, None => None
                                         end /\ field out "bundleDependencies" = None
    /\ field out "deprecated" = match field e "deprecated" with Some (JBool false) => None | o => o end
    (* people and places: only the members that are known *)
    /\ cut_opt ["name"; "email"; "url"] (field e "author") (field out "author")
    /\ cut_list ["name"; "email"; "url"] (field e "contributors") (field out "contributors")
    /\ cut_list ["name"; "email"; "url"] (field e "maintainers") (field out "maintainers")
    /\ cut_opt ["name"; "email"] (field e "_npmUser") (field out "_npmUser")
    /\ cut_opt ["url"; "email"] (field e "bugs") (field out "bugs")
    /\ cut_opt ["type"; "url"; "directory"] (field e "repository") (field out "repository")
    (* the tarball, always there *)
    /\ (exists d, field out "dist" = Some (JObj d) /\ forall k,
          sget k d = if existsb (String.eqb k) ["shasum"; "integrity"; "npm-signature"; "fileCount"; "unpackedSize"; "tarball"]
                     then Some (match obind (field e "dist") (fun v => field v k) with
                                | Some (JStr s) => if String.eqb k "tarball" then match uparse s with Some u => JStr u | None => JNull end else JStr s
                                | Some j => j
                                | None => JNull
                                end)
                     else obind (field e "dist") (fun v => field v k))
    (* engines that are an object of ranges, each as the range prints; otherwise nothing *)
    /\ match field e "engines" with
       | Some (JObj l) => if forallb (fun x => match snd x with JStr s => is_some (rnorm s) | _ => false end) l
                          then field out "engines" = unless_empty (Some (JObj (map (fun x => (fst x, match snd x with JStr s => match rnorm s with Some r => JStr r | None => JNull end | j => j end)) l)))
                          else field out "engines" = None
       | _ => field out "engines" = None
       end.

  (** ** the page printed without --json *)
  (** the entry records the dependency [k] as [r] *)
  Definition records_dep (e : json) (k r : string) : Prop := exists l, field e "dependencies" = Some (JObj l) /\ sget k l = Some (JStr r).
  Definition before (a b : string * string) : Prop := String.leb (fst a) (fst b) = true.
  (** a page with these contents, for the entry [e], the document [v] counting the releases *)
  Definition page (v e : json) (name : string) (ver : version) (license : string) (ndeps releases : nat) (description homepage : option string)
      (deprecated : option (option string)) (keywords : list string) (tarball shasum integrity : option string)
      (deps : list (string * string)) (more : option nat) : Prop :=
    name = match text_of e "name" with Some s => s | None => "" end
    /\ (states vparse e ver \/ text_of e "version" = None /\ ver = mkV 0 0 0 [])
    /\ license = match text_of e "license", text_of e "licence" with Some s, _ | None, Some s => s | None, None => "Proprietary" end
    /\ (exists vs, NoDup vs /\ (forall x, In x vs <-> lists vparse v x) /\ releases = List.length vs)
    /\ description = text_of e "description" /\ homepage = text_of e "homepage"
    /\ match field e "deprecated" with Some (JStr s) => deprecated = Some (Some s) | Some (JBool true) => deprecated = Some None | _ => deprecated = None end
    /\ (field e "keywords" = None /\ keywords = [] \/ field e "keywords" = Some (JArr (map JStr keywords)))
    /\ tarball = match dist_text e "tarball" with Some s => uparse s | None => None end
    /\ shasum = dist_text e "shasum" /\ integrity = dist_text e "integrity"
    (* every dependency, in order, cut after 25 *)
    /\ (exists all, NoDup (map fst all) /\ Sorted before all /\ (forall k r, In (k, r) all <-> records_dep e k r) /\ ndeps = List.length all
          /\ deps = firstn 25 all /\ (forall n, more = Some n <-> 0 < n /\ ndeps = 25 + n)).
End Spec.
