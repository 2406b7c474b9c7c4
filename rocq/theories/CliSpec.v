(** * What the command line properties mean, independently of the model's loops *)
From Verif Require Import Base Types Kdl StdPath CliModel.
Open Scope string_scope.
Open Scope list_scope.

(** reading a command line the way clap does: "--name value" for options taking a value, "--name" for the others; a token that
    starts with '-' is never a value *)
Definition dashed (s : string) : bool := match s with String c _ => Ascii.eqb c "-" | _ => false end.
Fixpoint clap (takes : string -> bool) (toks : list string) : option (list (string * option string)) :=
  match toks with
  | [] => Some []
  | t :: r =>
      match strip "--" t with
      | None => None
      | Some n =>
          if takes n then
            match r with
            | v :: r' => if dashed v then None else option_map (cons (n, Some v)) (clap takes r')
            | [] => None
            end
          else option_map (cons (n, None)) (clap takes r)
      end
  end.
(** the values an option got *)
Definition settings (n : string) (l : list (string * option string)) : list string :=
  flat_map (fun e => if String.eqb (fst e) n then match snd e with Some v => [v] | None => [] end else []) l.
Definition mentioned (n : string) (l : list (string * option string)) : bool := existsb (fun e => String.eqb (fst e) n) l.

(** the last value a layer gives for a name *)
Definition layer_get {A} (k : string) (layer : list (string * A)) : option A := sget k (rev layer).
Fixpoint first_of {A} (l : list (option A)) : option A :=
  match l with [] => None | Some a :: _ => Some a | None :: t => first_of t end.
(** project file, then environment, then user file, then built-in default *)
Definition precedence (s : sources) (o : string) : option cval :=
  first_of [layer_get o (file_layer (src_project s)); layer_get o (env_layer (src_env s));
            layer_get o (file_layer (src_global s)); option_map CStr (layer_get o (src_default s))].
Definition scalar (v : cval) : Prop := match v with CTable _ => False | _ => True end.
(** no layer gives the option a table (map options merge key by key instead) *)
Definition scalar_option (s : sources) (o : string) : Prop :=
  (forall v, In (o, v) (file_layer (src_project s)) -> scalar v) /\ (forall v, In (o, v) (file_layer (src_global s)) -> scalar v).

(** all layers agree with the option's type: an option taking a value gets a string that is not a boolean word and does not
    look like a flag, a flag gets a boolean, and a list or map option gets strings *)
Definition wordy (s : string) : Prop := get_bool (CStr s) = None /\ dashed s = false.
Definition typed (takes : string -> bool) (o : string) (v : option cval) : Prop :=
  match v with
  | None => True
  | Some v =>
      if takes o then
        match v with
        | CStr s => wordy s
        | CArray l => forall w, In w l -> exists s, w = CStr s /\ dashed s = false
        | CTable l => forall k w, In (k, w) l -> dashed k = false
        | _ => False
        end
      else exists b, get_bool v = Some b /\ (b = false -> takes ("no-" ++ o)%string = false)
  end.
