(** * KDL documents as used by lockfiles and configuration files.
    Models the part of the external crate [kdl] (4.x) the code calls.  Formatting, comments and type
    annotations are not modelled; printing a document and parsing it back is assumed to give the same document. *)
From Verif Require Import Base.

(** [KdlValue]: strings, integers and everything else (floats, booleans, null) *)
Inductive kval := KStr (s : string) | KInt (z : Z) | KBool (b : bool) | KNull.
(** [KdlNode]: name, entries (arguments have no name, properties have one) and an optional children block *)
Inductive knode := KNode (name : string) (entries : list (option string * kval)) (children : option (list knode)).
Definition kdoc := list knode.

Definition k_name (n : knode) : string := let 'KNode s _ _ := n in s.
Definition k_entries (n : knode) : list (option string * kval) := let 'KNode _ e _ := n in e.
Definition k_children (n : knode) : option kdoc := let 'KNode _ _ c := n in c.
(** the positional arguments *)
Definition k_args (n : knode) : list kval :=
  flat_map (fun e => match fst e with None => [snd e] | Some _ => [] end) (k_entries n).
(** kdl: [KdlDocument::get]: the first node of that name *)
Fixpoint kget (name : string) (d : kdoc) : option knode :=
  match d with [] => None | n :: t => if String.eqb (k_name n) name then Some n else kget name t end.
(** kdl: [KdlNode::get(0)]: the first positional argument *)
Definition k_arg0 (n : knode) : option kval := nth_error (k_args n) 0.
(** kdl: [KdlDocument::get_arg] *)
Definition kget_arg (name : string) (d : kdoc) : option kval :=
  match kget name d with Some n => k_arg0 n | None => None end.
(** kdl: [KdlValue::as_string], [KdlValue::as_i64] *)
Definition as_string (v : kval) : option string := match v with KStr s => Some s | _ => None end.
Definition as_int (v : kval) : option Z := match v with KInt z => Some z | _ => None end.
Definition obind {A B} (o : option A) (f : A -> option B) : option B := match o with Some a => f a | None => None end.
(** [KdlNode::new(name)] followed by [push(string)] *)
Definition knode1 (name value : string) : knode := KNode name [(None, KStr value)] None.
