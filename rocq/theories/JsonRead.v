(** * Reading JSON text: what serde_json::from_str::<Value> (external, features preserve_order) accepts and returns *)
From Verif Require Import Base Types StdPath JsonModel.
From Coq Require Import NArith.
Open Scope list_scope.
Open Scope string_scope.

(** white space is skipped between tokens *)
Fixpoint skip (s : string) : string := match s with String c t => if ws c then skip t else s | EmptyString => "" end.

(** ** strings (RFC 8259, section 7) *)
Definition hexval (c : ascii) : option N :=
  let n := N_of_ascii c in
  if (48 <=? n)%N && (n <=? 57)%N then Some (n - 48)%N
  else if (97 <=? n)%N && (n <=? 102)%N then Some (n - 87)%N
  else if (65 <=? n)%N && (n <=? 70)%N then Some (n - 55)%N else None.
Definition hex4 (a b c d : ascii) : option N :=
  match hexval a, hexval b, hexval c, hexval d with
  | Some x, Some y, Some z, Some w => Some (((x * 16 + y) * 16 + z) * 16 + w)%N
  | _, _, _, _ => None
  end.
Definition byte (n : N) : string := s1 (ascii_of_N n).
(** the UTF-8 bytes of a code point *)
Definition utf8 (n : N) : string :=
  (if n <? 128 then byte n
   else if n <? 2048 then byte (192 + n / 64) ++ byte (128 + n mod 64)
   else if n <? 65536 then byte (224 + n / 4096) ++ byte (128 + (n / 64) mod 64) ++ byte (128 + n mod 64)
   else byte (240 + n / 262144) ++ byte (128 + (n / 4096) mod 64) ++ byte (128 + (n / 64) mod 64) ++ byte (128 + n mod 64))%N.
(** one-character escapes *)
Definition simple_escape (c : ascii) : option ascii :=
  match nat_of_ascii c with
  | 34 => Some dq | 92 => Some "\"%char | 47 => Some "/"%char
  | 98 => Some (ascii_of_nat 8) | 102 => Some (ascii_of_nat 12) | 110 => Some nl | 114 => Some cr | 116 => Some tab
  | _ => None
  end.
Definition cons_opt (p : string) (o : option (string * string)) : option (string * string) :=
  match o with Some (s, r) => Some (p ++ s, r) | None => None end.
(** after the opening quote: the string, and the text after the closing quote. A backslash-u escape is a code point below 0xD800
    or above 0xDFFF, or the first half of a pair of surrogates (lone surrogates are errors). *)
Fixpoint read_str (s : string) : option (string * string) :=
  match s with
  | EmptyString => None
  | String c t =>
      if Ascii.eqb c dq then Some ("", t)
      else if Ascii.eqb c "\" then
        match t with
        | String k t1 =>
            if Ascii.eqb k "u" then
              match t1 with
              | String h1 (String h2 (String h3 (String h4 t2))) =>
                  match hex4 h1 h2 h3 h4 with
                  | None => None
                  | Some n =>
                      if ((55296 <=? n) && (n <? 56320))%N then
                        match t2 with
                        | String b (String u (String l1 (String l2 (String l3 (String l4 t3))))) =>
                            if Ascii.eqb b "\" && Ascii.eqb u "u" then
                              match hex4 l1 l2 l3 l4 with
                              | Some m => if ((56320 <=? m) && (m <? 57344))%N
                                          then cons_opt (utf8 (65536 + (n - 55296) * 1024 + (m - 56320))%N) (read_str t3) else None
                              | None => None
                              end
                            else None
                        | _ => None
                        end
                      else if ((56320 <=? n) && (n <? 57344))%N then None
                      else cons_opt (utf8 n) (read_str t2)
                  end
              | _ => None
              end
            else match simple_escape k with Some c' => cons_opt (s1 c') (read_str t1) | None => None end
        | EmptyString => None
        end
      else if Nat.ltb (nat_of_ascii c) 32 then None
      else cons_opt (s1 c) (read_str t)
  end.

(** ** numbers (RFC 8259, section 6), as text *)
Definition digit (c : ascii) : bool := let n := nat_of_ascii c in Nat.leb 48 n && Nat.leb n 57.
Fixpoint digits (s : string) : string * string :=
  match s with
  | String c t => if digit c then let '(a, b) := digits t in (String c a, b) else ("", s)
  | EmptyString => ("", "")
  end.
Definition read_sign (s : string) : string * string := match s with String c t => if Ascii.eqb c "-" then ("-", t) else ("", s) | _ => ("", s) end.
Definition read_int (s : string) : option (string * string) :=
  let '(i, r) := digits s in
  match i with
  | EmptyString => None
  | String c t => if Ascii.eqb c "0" && negb (String.eqb t "") then None else Some (i, r)
  end.
Definition read_frac (s : string) : option (string * string) :=
  match s with
  | String c t => if Ascii.eqb c "." then let '(f, r) := digits t in if String.eqb f "" then None else Some (String c f, r) else Some ("", s)
  | EmptyString => Some ("", "")
  end.
Definition read_exp (s : string) : option (string * string) :=
  match s with
  | String c t =>
      if Ascii.eqb c "e" || Ascii.eqb c "E" then
        let '(sg, t') := match t with String k t1 => if Ascii.eqb k "+" || Ascii.eqb k "-" then (s1 k, t1) else ("", t) | _ => ("", t) end in
        let '(x, r) := digits t' in if String.eqb x "" then None else Some (String c (sg ++ x), r)
      else Some ("", s)
  | EmptyString => Some ("", "")
  end.
Definition read_num (s : string) : option (string * string) :=
  let '(sg, s) := read_sign s in
  match read_int s with
  | None => None
  | Some (i, s) => match read_frac s with
                   | None => None
                   | Some (f, s) => match read_exp s with None => None | Some (x, s) => Some (sg ++ i ++ f ++ x, s) end
                   end
  end.

Fixpoint drop_prefix (p s : string) : option string :=
  match p, s with
  | EmptyString, _ => Some s
  | String a p', String b s' => if Ascii.eqb a b then drop_prefix p' s' else None
  | _, _ => None
  end.

Section Read.
  (** the text under which serde_json prints the number it reads from a number text; None: not representable *)
  Variable number : string -> option string.
  (** values, members of an object, elements of an array. [depth]: how many more arrays and objects may be nested (serde_json's
      recursion limit); [fuel] is large enough in [jread]. A repeated key keeps its place and takes the last value. *)
  Fixpoint rv (fuel depth : nat) (s : string) : option (json * string) :=
    match fuel with
    | 0 => None
    | S k =>
        match skip s with
        | EmptyString => None
        | String c t =>
            if Ascii.eqb c "n" then match drop_prefix "ull" t with Some r => Some (JNull, r) | None => None end
            else if Ascii.eqb c "t" then match drop_prefix "rue" t with Some r => Some (JBool true, r) | None => None end
            else if Ascii.eqb c "f" then match drop_prefix "alse" t with Some r => Some (JBool false, r) | None => None end
            else if Ascii.eqb c dq then match read_str t with Some (x, r) => Some (JStr x, r) | None => None end
            else if Ascii.eqb c "[" then
              match depth with
              | 0 => None
              | S d => match skip t with
                       | String c' r => if Ascii.eqb c' "]" then Some (JArr [], r) else ra k d [] t
                       | EmptyString => None
                       end
              end
            else if Ascii.eqb c "{" then
              match depth with
              | 0 => None
              | S d => match skip t with
                       | String c' r => if Ascii.eqb c' "}" then Some (JObj [], r) else ro k d [] t
                       | EmptyString => None
                       end
              end
            else match read_num (String c t) with
                 | Some (x, r) => match number x with Some y => Some (JNum y, r) | None => None end
                 | None => None
                 end
        end
    end
  with ra (fuel depth : nat) (acc : list json) (s : string) : option (json * string) :=
    match fuel with
    | 0 => None
    | S k =>
        match rv k depth s with
        | None => None
        | Some (v, r) =>
            match skip r with
            | String c t => if Ascii.eqb c "," then ra k depth (acc ++ [v]) t
                            else if Ascii.eqb c "]" then Some (JArr (acc ++ [v]), t) else None
            | EmptyString => None
            end
        end
    end
  with ro (fuel depth : nat) (acc : list (string * json)) (s : string) : option (json * string) :=
    match fuel with
    | 0 => None
    | S k =>
        match skip s with
        | String q t =>
            if Ascii.eqb q dq then
              match read_str t with
              | None => None
              | Some (key, r) =>
                  match skip r with
                  | String c t1 =>
                      if Ascii.eqb c ":" then
                        match rv k depth t1 with
                        | None => None
                        | Some (v, r2) =>
                            match skip r2 with
                            | String c' t2 => if Ascii.eqb c' "," then ro k depth (sput key v acc) t2
                                              else if Ascii.eqb c' "}" then Some (JObj (sput key v acc), t2) else None
                            | EmptyString => None
                            end
                        end
                      else None
                  | EmptyString => None
                  end
              end
            else None
        | EmptyString => None
        end
    end.
  (** a whole document: nothing but white space may follow *)
  Definition jread (s : string) : option json :=
    match rv (S (2 * String.length s)) 127 s with
    | Some (v, r) => if String.eqb (skip r) "" then Some v else None
    | None => None
    end.
End Read.
