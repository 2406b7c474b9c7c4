(** * A registry's document for a package, read as plain JSON: what it lists, tags and offers.  Independent of the reader. *)
From Verif Require Import Base Types JsonModel VersionModel VersionSpec ManifestRead ManifestProofs JsonSpec.
Open Scope list_scope.
Open Scope string_scope.

Section Spec.
  Variable vparse : string -> option version.
  Variable uparse : string -> option string.
  Variable iparse : string -> option string.
  Variable rsat : range -> version -> bool.
  Variable is_any : range -> bool.
  Variable default_tag : string.

  (** the document has the entry [e] for version [x] *)
  Definition listed (v : json) (x : version) (e : json) : Prop :=
    exists vs k, field v "versions" = Some vs /\ field vs k = Some e /\ vparse k = Some x.
  Definition lists (v : json) (x : version) : Prop := exists e, listed v x e.
  (** the document says that [t] is version [x] *)
  Definition tag_in (v : json) (t : string) (x : version) : Prop :=
    exists ts s, field v "dist-tags" = Some ts /\ field ts t = Some (JStr s) /\ vparse s = Some x.
  Definition text_of (e : json) (k : string) : option string := match field e k with Some (JStr s) => Some s | _ => None end.
  Definition dist_text (e : json) (k : string) : option string := match field e "dist" with Some d => text_of d k | None => None end.
  Definition offers_tarball (e : json) (url : string) : Prop := exists s, dist_text e "tarball" = Some s /\ uparse s = Some url.
  (** the integrity of an entry: "integrity" if given, or else "shasum" *)
  Definition offers_integrity (e : json) (i : option string) : Prop :=
    match dist_text e "integrity", dist_text e "shasum" with
    | Some s, _ => i <> None /\ iparse s = i
    | None, Some h => i <> None /\ iparse ("sha1-" ++ h) = i
    | None, None => i = None
    end.
  (** the entry says it is version [x] *)
  Definition states (e : json) (x : version) : Prop := exists s, text_of e "version" = Some s /\ vparse s = Some x.
  Definition default_ok (v : json) (r : range) (x : version) : Prop := tag_in v default_tag x /\ lists v x /\ rsat r x = true.
  (** npm's choice among what the document lists: an exact version; the version of a tag; for a range the default tag's version if it
      is in range, otherwise the highest in range (for "*", if nothing is in range, the default tag's version) *)
  Definition best (req : option vspec) (v : json) (x : version) : Prop :=
    lists v x /\
    match req with
    | Some (VVersion w) => x = w
    | Some (VTag t) => tag_in v t x
    | None => tag_in v default_tag x
    | Some (VRange r) => default_ok v r x
        \/ ((forall y, ~ default_ok v r y) /\ rsat r x = true /\ forall y, lists v y -> rsat r y = true -> vle y x)
        \/ ((forall y, lists v y -> rsat r y = false) /\ is_any r = true /\ tag_in v default_tag x)
    end.
  (** every entry is listed under the version it says it is *)
  Definition own_numbers (v : json) : Prop := forall x e, listed v x e -> states e x.
  (** no two entries are for the same version *)
  Definition one_each (v : json) : Prop := forall x e e', listed v x e -> listed v x e' -> e = e'.

  (** ** documents the reader accepts *)
  Definition text_or_null (o : option json) : Prop := o = None \/ o = Some JNull \/ exists s, o = Some (JStr s).
  Definition good_dist (o : option json) : Prop :=
    o = None \/ exists l, o = Some (JObj l) /\ text_or_null (sget "shasum" l) /\ text_or_null (sget "integrity" l) /\ text_or_null (sget "npm-signature" l)
      /\ (sget "tarball" l = None \/ sget "tarball" l = Some JNull \/ exists s, sget "tarball" l = Some (JStr s) /\ uparse s <> None).
  Definition good_entry (e : json) : Prop :=
    is_obj e = true /\ plain_header (fun s => is_some (vparse s)) e /\ (forall sec, dependency_section sec -> plain_section (field e sec))
    /\ good_dist (field e "dist")
    /\ (field e "_hasShrinkwrap" = None \/ field e "_hasShrinkwrap" = Some JNull \/ exists b, field e "_hasShrinkwrap" = Some (JBool b))
    /\ (field e "deprecated" = None \/ (exists s, field e "deprecated" = Some (JStr s)) \/ exists b, field e "deprecated" = Some (JBool b)).
  Definition good_document (v : json) : Prop :=
    is_obj v = true
    /\ (field v "versions" = None \/ exists l, field v "versions" = Some (JObj l) /\ forall k e, In (k, e) l -> vparse k <> None /\ good_entry e)
    /\ (field v "dist-tags" = None \/ exists l, field v "dist-tags" = Some (JObj l) /\ forall k e, In (k, e) l -> exists s, e = JStr s /\ vparse s <> None).
End Spec.
