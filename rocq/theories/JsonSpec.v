(** * Specification vocabulary for package.json edits and formatting *)
From Verif Require Import Base Types StdPath JsonModel.
Open Scope list_scope.
Open Scope string_scope.

(** the value of a field of a JSON object *)
Definition field (v : json) (k : string) : option json := match v with JObj l => sget k l | _ => None end.
(** what a section of the manifest says about a dependency *)
Definition dep_of (v : json) (sec name : string) : option json := match field v sec with Some o => field o name | None => None end.
(** the fields of an object, in the order in which they are written *)
Definition keys (v : json) : list string := match v with JObj l => map fst l | _ => [] end.
Definition is_obj (v : json) : bool := match v with JObj _ => true | _ => false end.
(** the sections of package.json that declare dependencies *)
Definition dependency_section (s : string) : Prop :=
  s = "dependencies" \/ s = "devDependencies" \/ s = "optionalDependencies" \/ s = "peerDependencies".
(** number of dependencies declared *)
Definition entries (o : option json) : nat := match o with Some (JObj l) => List.length l | _ => 0 end.
Definition declared (v : json) : nat :=
  entries (field v "dependencies") + entries (field v "devDependencies") + entries (field v "optionalDependencies") + entries (field v "peerDependencies").

(** every object has each key once: what serde_json returns for any text *)
Inductive jwf : json -> Prop :=
| wf_null : jwf JNull
| wf_bool b : jwf (JBool b)
| wf_num s : jwf (JNum s)
| wf_str s : jwf (JStr s)
| wf_arr l : Forall jwf l -> jwf (JArr l)
| wf_obj l : NoDup (map fst l) -> Forall (fun e => jwf (snd e)) l -> jwf (JObj l).

(** what a name given to remove means: a package name, with or without a version; anything else is not a name *)
Definition names_package (parse : string -> res err pspec) (arg nm : string) : Prop := exists sc r, parse arg = Ok (SNpm sc nm r).

(** ** formatting: a document is a list of lines, each with its depth *)
Definition prepend (p : string) (l : list (nat * string)) : list (nat * string) :=
  match l with [] => [] | (d, s) :: t => (d, p ++ s) :: t end.
Fixpoint add_end (q : string) (l : list (nat * string)) : list (nat * string) :=
  match l with [] => [] | [(d, s)] => [(d, s ++ q)] | e :: t => e :: add_end q t end.
(** items separated by commas: every item but the last gets a comma at the end of its last line *)
Fixpoint commas (l : list (list (nat * string))) : list (nat * string) :=
  match l with [] => [] | [x] => x | x :: t => add_end "," x ++ commas t end.
(** the lines of a value at depth [d] *)
Fixpoint rows (d : nat) (v : json) : list (nat * string) :=
  match v with
  | JNull => [(d, "null")]
  | JBool b => [(d, if b then "true" else "false")]
  | JNum s => [(d, s)]
  | JStr s => [(d, quote s)]
  | JArr [] => [(d, "[]")]
  | JArr l => (d, "[") :: (commas (map (rows (S d)) l) ++ [(d, "]")])%list
  | JObj [] => [(d, "{}")]
  | JObj l => (d, "{") :: (commas (map (fun e => prepend (quote (fst e) ++ ": ") (rows (S d) (snd e))) l) ++ [(d, "}")])%list
  end.
(** the document in a given style: [indent] repeated once per level, [eol] between lines *)
Definition layout (indent eol : string) (trailing : bool) (v : json) : string :=
  sjoin eol (map (fun r => srepeat indent (fst r) ++ snd r) (rows 0 v)) ++ (if trailing then eol else "").
(** numbers are written without white space (serde_json) *)
Definition number_text (s : string) : Prop := s <> "" /\ forall c, In c (list_ascii_of_string s) -> ws c = false.
Inductive jnum : json -> Prop :=
| jn_null : jnum JNull
| jn_bool b : jnum (JBool b)
| jn_num s : number_text s -> jnum (JNum s)
| jn_str s : jnum (JStr s)
| jn_arr l : Forall jnum l -> jnum (JArr l)
| jn_obj l : Forall (fun e => jnum (snd e)) l -> jnum (JObj l).

(** ** the style of a text *)
(** line endings, and characters used to indent *)
Definition line_end (e : string) : Prop := e = s1 nl \/ e = String cr (s1 nl).
Definition indent_char (c : ascii) : Prop := c = " "%char \/ c = tab.
Definition one_line (s : string) : Prop := no_char nl s = true /\ no_char cr s = true.
Definition visible_start (s : string) : Prop := match s with String c _ => ws c = false | EmptyString => False end.
(** the text ends with a line ending *)
Definition ends_line (s : string) : Prop := exists t c, s = t ++ s1 c /\ (c = nl \/ c = cr).
