(** * Credentials: crates/oro-client/src/auth_middleware.rs, client.rs, api/*.rs, src/client_args.rs,
    crates/oro-npm-account/src/config.rs, src/commands/login.rs, src/commands/logout.rs *)
From Verif Require Import Base Types Kdl StdPath.
Open Scope string_scope.
Open Scope list_scope.

(** ** URLs *)
(** url::Url (external crate url), as the parts the code looks at. [u_host] is [host_str]: lower case, without port. *)
Record url := mkUrl {
  u_scheme : string; u_user : option (string * option string); u_host : option string; u_port : option string;
  u_path : string; u_query : option string; u_frag : option string }.
Definition oval (o : option string) : string := match o with Some s => s | None => "" end.
(** Display of Url / [Url::as_ref] *)
Definition ushow (u : url) : string :=
  (u_scheme u ++ "://"
   ++ match u_user u with Some (n, Some p) => n ++ ":" ++ p ++ "@" | Some (n, None) => n ++ "@" | None => "" end
   ++ oval (u_host u)
   ++ match u_port u with Some p => ":" ++ p | None => "" end
   ++ u_path u
   ++ match u_query u with Some q => "?" ++ q | None => "" end
   ++ match u_frag u with Some f => "#" ++ f | None => "" end)%string.

(** auth_middleware.rs:88-90 [nerf_dart] *)
Definition nerf_dart (u : url) : string := ("//" ++ oval (u_host u) ++ u_path u)%string.

(** ** base64 (external crate base64, engine STANDARD) *)
Definition sextet := (bool * bool * bool * bool * bool * bool)%type.
Definition alphabet : string := "ABCDEFGHIJKLMNOPQRSTUVWXYZabcdefghijklmnopqrstuvwxyz0123456789+/".
Definition bit (b : bool) (w : nat) : nat := if b then w else 0.
Definition sextet_index (s : sextet) : nat :=
  let '(a, b, c, d, e, f) := s in bit a 32 + bit b 16 + bit c 8 + bit d 4 + bit e 2 + bit f 1.
Definition sextet_char (s : sextet) : ascii := match String.get (sextet_index s) alphabet with Some c => c | None => "A"%char end.
Fixpoint index_in (c : ascii) (s : string) (i : nat) : option nat :=
  match s with EmptyString => None | String d t => if Ascii.eqb c d then Some i else index_in c t (S i) end.
Definition char_sextet (c : ascii) : option sextet :=
  match index_in c alphabet 0 with
  | Some n => Some (Nat.testbit n 5, Nat.testbit n 4, Nat.testbit n 3, Nat.testbit n 2, Nat.testbit n 1, Nat.testbit n 0)
  | None => None
  end.
(** [Engine::encode] *)
Fixpoint b64_encode (s : string) : string :=
  match s with
  | EmptyString => ""
  | String (Ascii a0 a1 a2 a3 a4 a5 a6 a7) EmptyString =>
      String (sextet_char (a7, a6, a5, a4, a3, a2)) (String (sextet_char (a1, a0, false, false, false, false)) "==")
  | String (Ascii a0 a1 a2 a3 a4 a5 a6 a7) (String (Ascii b0 b1 b2 b3 b4 b5 b6 b7) EmptyString) =>
      String (sextet_char (a7, a6, a5, a4, a3, a2)) (String (sextet_char (a1, a0, b7, b6, b5, b4))
        (String (sextet_char (b3, b2, b1, b0, false, false)) "="))
  | String (Ascii a0 a1 a2 a3 a4 a5 a6 a7) (String (Ascii b0 b1 b2 b3 b4 b5 b6 b7) (String (Ascii c0 c1 c2 c3 c4 c5 c6 c7) t)) =>
      String (sextet_char (a7, a6, a5, a4, a3, a2)) (String (sextet_char (a1, a0, b7, b6, b5, b4))
        (String (sextet_char (b3, b2, b1, b0, c7, c6)) (String (sextet_char (c5, c4, c3, c2, c1, c0)) (b64_encode t))))
  end.
(** [Engine::decode]: padding is required and the unused bits must be zero *)
Fixpoint b64_decode (s : string) : option string :=
  match s with
  | EmptyString => Some ""
  | String p (String q (String r (String z t))) =>
      match char_sextet p, char_sextet q with
      | Some (a7, a6, a5, a4, a3, a2), Some (a1, a0, b7, b6, b5, b4) =>
          if andb (Ascii.eqb r "=") (Ascii.eqb z "=") then
            match t with
            | EmptyString => if b7 || b6 || b5 || b4 then None else Some (String (Ascii a0 a1 a2 a3 a4 a5 a6 a7) "")
            | _ => None
            end
          else
            match char_sextet r with
            | Some (b3, b2, b1, b0, c7, c6) =>
                if Ascii.eqb z "=" then
                  match t with
                  | EmptyString => if c7 || c6 then None
                                   else Some (String (Ascii a0 a1 a2 a3 a4 a5 a6 a7) (String (Ascii b0 b1 b2 b3 b4 b5 b6 b7) ""))
                  | _ => None
                  end
                else
                  match char_sextet z, b64_decode t with
                  | Some (c5, c4, c3, c2, c1, c0), Some t' =>
                      Some (String (Ascii a0 a1 a2 a3 a4 a5 a6 a7) (String (Ascii b0 b1 b2 b3 b4 b5 b6 b7)
                              (String (Ascii c0 c1 c2 c3 c4 c5 c6 c7) t')))
                  | _, _ => None
                  end
            | None => None
            end
      | _, _ => None
      end
  | _ => None
  end.

(** ** the client *)
(** credentials.rs [Credentials] *)
Inductive cred := Basic (username : string) (password : option string) | EncodedBasic (auth : string) | Token (token : string).
Definition creds := list (string * cred).
(** client.rs:67-72 [basic_auth], 75-81 [token_auth], 83-89 [legacy_auth]: a HashMap insert *)
Definition configure (reg : url) (c : cred) (m : creds) : creds := sput (nerf_dart reg) c m.

(** http::HeaderValue::from_str (http 0.2.9, header/value.rs [is_valid]): no control characters except tab, no DEL; bytes above 127 are accepted *)
Definition header_char (c : ascii) : bool :=
  let n := nat_of_ascii c in orb (andb (Nat.leb 32 n) (negb (Nat.eqb n 127))) (Nat.eqb n 9).
Fixpoint header_ok (s : string) : bool := match s with EmptyString => true | String c t => header_char c && header_ok t end.
Definition header_value (s : string) : res err string := if header_ok s then Ok s else Err EParse.
(** auth_middleware.rs:41-57, 67-86: the Authorization value of a credential *)
Definition auth_value (c : cred) : res err string :=
  match c with
  | Basic n p => Ok ("Basic " ++ b64_encode (n ++ ":" ++ oval p))%string
  | EncodedBasic a => header_value ("Basic " ++ a)
  | Token t => header_value ("Bearer " ++ t)
  end.
Definition ostr_eqb (a b : option string) : bool := match a, b with Some x, Some y => String.eqb x y | None, None => true | _, _ => false end.
Definition header := (string * string)%type.
(** auth_middleware.rs:16-63 [handle]: the headers of the request as sent. The registry is parsed back from the
    X-Oro-Registry header, which the client always sets to its own registry: taken as that URL here. *)
Definition handle (m : creds) (reg req : url) (headers : list header) : res err (list header) :=
  if orb (negb (ostr_eqb (u_host reg) (u_host req))) (negb (prefix (u_path reg) (u_path req))) then Ok headers
  else match sget (nerf_dart reg) m with
       | Some c => let! v := auth_value c in Ok (headers ++ [("authorization", v)])
       | None => Ok headers
       end.

(** Url::join for a relative reference made of unreserved characters without "." and ".." segments: the last segment of the base
    path is replaced *)
Definition plain_char (c : ascii) : bool :=
  let n := nat_of_ascii c in
  (Nat.leb 65 n && Nat.leb n 90) || (Nat.leb 97 n && Nat.leb n 122) || (Nat.leb 48 n && Nat.leb n 57)
  || Ascii.eqb c "-" || Ascii.eqb c "_" || Ascii.eqb c "~" || Ascii.eqb c "@" || Ascii.eqb c "." || Ascii.eqb c "/".
Fixpoint all_chars (p : ascii -> bool) (s : string) : bool := match s with EmptyString => true | String c t => p c && all_chars p t end.
Definition plain_ref (r : string) : bool :=
  all_chars plain_char r && negb (String.eqb r "") && negb (prefix "/" r)
  && forallb (fun s => negb (String.eqb s "." || String.eqb s "..")) (StdPath.split "/" r).
(** everything up to and including the last '/' *)
Fixpoint upto_slash (s : string) : string :=
  match s with
  | EmptyString => ""
  | String c t => if no_char "/" s then "" else String c (upto_slash t)
  end.
Section Client.
  (** Url::join on any other reference; Url::parse (reqwest's IntoUrl for a string) *)
  Variable join_other : url -> string -> option url.
  Variable uparse : string -> option url.
  Definition ujoin (b : url) (r : string) : option url :=
    if plain_ref r then Some (mkUrl (u_scheme b) (u_user b) (u_host b) (u_port b) (upto_slash (u_path b) ++ r) None None)
    else join_other b r.
  (** what the client asks for: api/packument.rs:10-33, stream_external.rs:16-24, login.rs:88-96 and 116-145 and 198-206, ping.rs,
      logout.rs *)
  Inductive request := RPackument (name : string) | RExternal (u : url) | RLoginWeb | RLoginCouch (user : string) | RDone (u : string) | RPing | RDeleteToken (t : string).
  Variable percent_encode : string -> string.
  Definition request_url (reg : url) (r : request) : option url :=
    match r with
    | RPackument n => ujoin reg n
    | RExternal u => Some u
    | RLoginWeb => ujoin reg "-/v1/login"
    | RLoginCouch n => ujoin reg ("-/user/org.couchdb.user:" ++ percent_encode n)
    | RDone u => uparse u
    | RPing => ujoin reg "-/ping?write=true"
    | RDeleteToken t => ujoin reg ("-/user/token/" ++ t)
    end.
  (** a request of a client for registry [reg] whose credentials are [m]: the URL and the headers that carry configuration.
      The bodies and the other, constant headers are left out. *)
  Definition send (m : creds) (reg : url) (r : request) : res err (url * list header) :=
    match request_url reg r with
    | None => Err EParse
    | Some u => let! h := handle m reg u [("x-oro-registry", ushow reg)] in Ok (u, h)
    end.

  (** src/client_args.rs:68-90: the credentials of the --auth options *)
  Definition password_for (reg : string) (auth : list (string * string * string)) : option string :=
    match find (fun e => let '(r, k, _) := e in String.eqb r reg && String.eqb k "password") auth with Some (_, _, v) => Some v | None => None end.
  Fixpoint auth_loop (all l : list (string * string * string)) (m : creds) : res err creds :=
    match l with
    | [] => Ok m
    | (reg, key, val) :: l =>
        match uparse reg with
        | None => Err EParse
        | Some u =>
            auth_loop all l
              (if String.eqb key "token" then configure u (Token val) m
               else if String.eqb key "username" then configure u (Basic val (password_for reg all)) m
               else if String.eqb key "legacy-auth" then configure u (EncodedBasic val) m
               else m)
        end
    end.
  Definition build_creds (auth : list (string * string * string)) : res err creds := auth_loop auth auth [].

  (** ** stored credentials *)
  (** oro-npm-account/src/config.rs:6-14 [Credentials] *)
  Inductive stored := SToken (t : string) | SLegacy (t : string) | SBasic (username : string) (password : option string).
  (** KdlDocument::get_mut: change the first node of that name *)
  Fixpoint kupd (name : string) (f : knode -> knode) (d : kdoc) : kdoc :=
    match d with [] => [] | n :: t => if String.eqb (k_name n) name then f n :: t else n :: kupd name f t end.
  Definition map_children (f : kdoc -> kdoc) (n : knode) : knode :=
    match n with KNode s e (Some c) => KNode s e (Some (f c)) | KNode s e None => n end.
  (** KdlNode::ensure_children *)
  Definition ensure_children (n : knode) : knode := match n with KNode s e None => KNode s e (Some []) | _ => n end.
  Definition has_node (name : string) (d : kdoc) : bool := is_some (kget name d).
  (** config.rs:17-28, 65-80: make sure there are an [options] node and a node [name] in it *)
  Definition ensure_section (name : string) (d : kdoc) : kdoc :=
    let d := if has_node "options" d then d else d ++ [KNode "options" [] None] in
    kupd "options" (fun o => map_children (fun c => if has_node name c then c else c ++ [KNode name [] (Some [])]) (ensure_children o)) d.
  (** config.rs:30-34 etc.: the children of the section, if it has a children block *)
  Definition in_section (name : string) (f : kdoc -> kdoc) (d : kdoc) : kdoc :=
    kupd "options" (map_children (kupd name (map_children f))) d.
  (** config.rs:155-162 [clean_auth_nodes] *)
  Definition same_dart (u : url) (n : knode) : bool :=
    match uparse (k_name n) with Some v => String.eqb (nerf_dart v) (nerf_dart u) | None => false end.
  Definition clean_auth_nodes (u : url) (l : kdoc) : kdoc :=
    filter (fun n => match uparse (k_name n) with Some v => negb (String.eqb (nerf_dart v) (nerf_dart u)) | None => false end) l.
  (** config.rs:36-61: the entries pushed on the new node *)
  Definition cred_entries (c : stored) : list (option string * kval) :=
    match c with
    | SToken t => [(Some "token", KStr t)]
    | SLegacy t => [(Some "legacy-auth", KStr t)]
    | SBasic n p => (Some "username", KStr n) :: match p with Some p => [(Some "password", KStr p)] | None => [] end
    end.
  (** config.rs:16-63 [set_credentials_by_uri] *)
  Definition set_credentials (u : url) (c : stored) (d : kdoc) : kdoc :=
    in_section "auth" (fun l => clean_auth_nodes u l ++ [KNode (ushow u) (cred_entries c) None]) (ensure_section "auth" d).
  (** config.rs:65-95 [set_scoped_registry], 164-166 [clean_scoped_registry_nodes] *)
  Definition set_scoped_registry (scope : string) (u : url) (d : kdoc) : kdoc :=
    in_section "scoped-registries"
      (fun l => filter (fun n => negb (String.eqb (k_name n) scope)) l ++ [KNode scope [(None, KStr (ushow u))] None])
      (ensure_section "scoped-registries" d).
  (** config.rs:135-153 [clear_crendentials_by_uri] *)
  Definition section_children (name : string) (d : kdoc) : option kdoc :=
    obind (kget "options" d) (fun o => obind (k_children o) (fun c => obind (kget name c) k_children)).
  Definition clear_credentials (u : url) (d : kdoc) : kdoc :=
    let d' := in_section "auth" (clean_auth_nodes u) d in
    match section_children "auth" d' with
    | Some [] => kupd "options" (map_children (filter (fun n => negb (String.eqb (k_name n) "auth")))) d'
    | _ => d'
    end.
  (** KdlNode::get(name): the value of the last property of that name (kdl: later properties win) *)
  Definition k_prop (name : string) (n : knode) : option kval :=
    fold_left (fun acc e => match fst e with Some k => if String.eqb k name then Some (snd e) else acc | None => acc end) (k_entries n) None.
  (** String::from_utf8_lossy on the decoded bytes *)
  Variable utf8_lossy : string -> string.
  (** config.rs:97-133 [get_credentials_by_uri] *)
  Definition read_node (n : knode) : option stored :=
    match k_prop "token" n, k_prop "legacy-auth" n, k_prop "username" n, k_prop "password" n with
    | _, Some v, _, _ => obind (as_string v) (fun s => Some (SToken s))
    | _, _, Some n, Some p =>
        obind (as_string n) (fun n => obind (as_string p) (fun p => obind (b64_decode p) (fun p =>
          Some (SLegacy (b64_encode (n ++ ":" ++ utf8_lossy p))))))
    | Some v, _, _, _ => obind (as_string v) (fun s => Some (SLegacy s))
    | _, _, _, _ => None
    end.
  Definition get_credentials (u : url) (d : kdoc) : option stored :=
    obind (section_children "auth" d) (fun l => obind (find (same_dart u) l) read_node).

  (** src/commands/login.rs:66-112 and logout.rs:30-54 once the configuration file is read: the new document.
      [answer]: the token the registry's login flow returns *)
  Record login_args := mkLogin { lg_token : option string; lg_user : option string; lg_pass : option string; lg_legacy : option string; lg_scope : option string }.
  Definition login_cred (a : login_args) (answer : option string) : option stored :=
    match lg_token a, lg_user a, lg_legacy a with
    | Some t, _, _ => Some (SToken t)
    | None, Some n, _ => Some (SBasic n (lg_pass a))
    | None, None, Some t => Some (SLegacy t)
    | None, None, None => match answer with Some t => Some (SToken t) | None => None end
    end.
  Definition login (reg : url) (a : login_args) (answer : option string) (d : kdoc) : res err kdoc :=
    match login_cred a answer with
    | None => Err EFetch
    | Some c =>
        let d := set_credentials reg c d in
        Ok (match lg_scope a with Some s => set_scoped_registry s reg d | None => d end)
    end.
  (** the token sent in the DELETE request, if any, and the new document *)
  Definition logout (reg : url) (d : kdoc) : option string * kdoc :=
    (match get_credentials reg d with Some (SToken t) => Some t | _ => None end, clear_credentials reg d).
End Client.
