(** * Choosing a version: what npm documents, independent of the code's search order *)
From Verif Require Import Base Types VersionModel.

(** [vle a b]: version [a] is at most [b] in semver order *)
Definition vle (a b : version) : Prop := vcmp a b <> Gt.

Section Spec.
  Variable rsat : range -> version -> bool.
  Variable is_any : range -> bool.
  Variable default_tag : string.

  (** ** what the choice should be, from the documentation of npm version selection *)
  Definition published (p : packument) (x : version) : Prop := In x (map fst (pt_versions p)).
  Definition tagged (p : packument) (t : string) (x : version) : Prop := sget t (pt_tags p) = Some x.
  (** [x] is the highest published version in range *)
  Definition highest (p : packument) (r : range) (x : version) : Prop :=
    published p x /\ rsat r x = true /\ forall y, published p y -> rsat r y = true -> vle y x.
  Definition none_in_range (p : packument) (r : range) : Prop := forall y, published p y -> rsat r y = false.
  (** the default tag's version, when published and in range, comes first *)
  Definition default_in (p : packument) (r : range) (x : version) : Prop := tagged p default_tag x /\ published p x /\ rsat r x = true.

  Definition chosen (req : option vspec) (p : packument) (x : version) : Prop :=
    published p x /\
    match req with
    | Some (VVersion w) => x = w
    | Some (VTag t) => tagged p t x
    | None => tagged p default_tag x
    | Some (VRange r) => default_in p r x
                         \/ ((forall y, ~ default_in p r y) /\ highest p r x)
                         \/ (none_in_range p r /\ is_any r = true /\ tagged p default_tag x)
    end.

End Spec.
