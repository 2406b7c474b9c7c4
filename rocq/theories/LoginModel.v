(** * `oro login`: the conversation with the registry.
    Models crates/oro-npm-account/src/login.rs, crates/oro-client/src/api/login.rs:55-245 and src/commands/login.rs:67-115. *)
From Verif Require Import Base Types Kdl StdPath JsonModel JsonSpec JsonRead ScriptEnv AuthModel.
From Coq Require Import NArith.
Open Scope string_scope.
Open Scope list_scope.

(** crates/oro-client/src/error.rs and crates/oro-npm-account/src/error.rs: the errors of these functions *)
Inductive lerr := LNetwork | LUrl | LHeader | LBadJson | LNoSuchUser | LOtpRequired | LIncorrectPassword | LInvalidToken | LResponse | LInput | LOpen | LUnexpected.

(** one HTTP response, as far as it is looked at: status, the www-authenticate and retry-after headers, the body.
    Simplification: redirects are followed and transient failures repeated inside the HTTP client; this is what it returns in the end. *)
Record resp := mkResp { r_status : N; r_www : option string; r_retry : option string; r_body : string }.
(** [None]: the request failed *)
Definition answer := option resp.

(** http::HeaderValue::to_str: visible ASCII and tab *)
Definition visible_char (c : ascii) : bool := let n := nat_of_ascii c in ((Nat.leb 32 n && Nat.ltb n 127) || Nat.eqb n 9)%bool.
Definition to_str (s : string) : option string := if all_chars visible_char s then Some s else None.
(** str::contains *)
Fixpoint has_sub (p s : string) : bool :=
  prefix p s || match s with EmptyString => false | String _ t => has_sub p t end.
(** str::parse::<u64>: decimal digits, an optional '+', no overflow *)
Fixpoint dec (s : string) (acc : N) : option N :=
  match s with
  | EmptyString => Some acc
  | String c t => let n := N_of_ascii c in if (N.leb 48 n && N.leb n 57)%bool then dec t (acc * 10 + (n - 48))%N else None
  end.
Definition parse_u64 (s : string) : option N :=
  let s' := match s with String c t => if Ascii.eqb c "+" then t else s | _ => s end in
  match s' with
  | EmptyString => None
  | _ => match dec s' 0 with Some n => if N.ltb n 18446744073709551616 then Some n else None | None => None end
  end.

(** percent_encoding::utf8_percent_encode with NON_ALPHANUMERIC *)
Definition hexd (n : nat) : ascii := match String.get n "0123456789ABCDEF" with Some c => c | None => "0"%char end.
Definition alnum (c : ascii) : bool :=
  let n := nat_of_ascii c in ((Nat.leb 65 n && Nat.leb n 90) || (Nat.leb 97 n && Nat.leb n 122) || (Nat.leb 48 n && Nat.leb n 57))%bool.
Fixpoint pct (s : string) : string :=
  match s with
  | EmptyString => ""
  | String c t => if alnum c then String c (pct t)
                  else String "%" (String (hexd (Nat.div (nat_of_ascii c) 16)) (String (hexd (Nat.modulo (nat_of_ascii c) 16)) (pct t)))
  end.
(** Url::join for the references login uses that [plain_ref] does not cover: "-/user/org.couchdb.user:" and an encoded name (no scheme,
    since '-' cannot start one; no dot segments) *)
Definition couch_prefix : string := "-/user/org.couchdb.user:".
Definition couch_ref (r : string) : bool :=
  prefix couch_prefix r && all_chars (fun c => alnum c || Ascii.eqb c "%")%bool (substring (String.length couch_prefix) (String.length r - String.length couch_prefix) r).
Definition couch_join (other : url -> string -> option url) (b : url) (r : string) : option url :=
  if couch_ref r then Some (mkUrl (u_scheme b) (u_user b) (u_host b) (u_port b) (upto_slash (u_path b) ++ r) None None) else other b r.

(** what can be seen from outside: prompts, the browser, requests, waiting *)
Inductive prompt := AskName | AskPassword | AskOtp.
Inductive event :=
| Asked (p : prompt)
| Opened (u : string)
| Sent (method : string) (r : request) (u : url) (headers : list header) (secret : option (string * string))
| Slept (n : N).
(** still waiting for an answer, or the result of login: a token *)
Inductive outcome := Waiting | Done (r : res lerr string).
Definition emit (e : event) (r : list event * outcome) : list event * outcome := (e :: fst r, snd r).
Definition fails (e : lerr) : list event * outcome := ([], Done (Err e)).
Definition panics : list event * outcome := ([], Done Panic).

(** the person: what is typed (None: cannot be read), and whether the browser could be started *)
Record person := mkPerson { p_name : option string; p_pass : option string; p_otp : option string; p_opens : string -> bool }.

Section Login.
  Variable number : string -> option string.
  Variable join_other : url -> string -> option url.
  Variable uparse : string -> option url.
  Notation jread := (jread number).
  Notation url_of := (request_url (couch_join join_other) uparse pct).
  Variable m : creds.        (* the client's credentials *)
  Variable reg : url.        (* the registry *)
  Variable scope : option string.

  (** serde: a required string field, an optional one (missing or null) *)
  Definition str_field (v : json) (k : string) : option string := match field v k with Some (JStr s) => Some s | _ => None end.
  Definition opt_field (v : json) (k : string) : option (option string) :=
    match field v k with None | Some JNull => Some None | Some (JStr s) => Some (Some s) | _ => None end.
  (** api/login.rs:33-36 [Token] *)
  Definition token_of (body : string) : option string := obind (jread body) (fun v => str_field v "token").
  (** api/login.rs:38-43 [LoginWeb] *)
  Definition login_web_of (body : string) : option (string * string) :=
    obind (jread body) (fun v => match str_field v "loginUrl", str_field v "doneUrl" with Some a, Some b => Some (a, b) | _, _ => None end).
  (** api/login.rs:61-66 [WebOTPResponse], 164 [unwrap_or_default] *)
  Definition web_otp_of (body : string) : option string * option string :=
    match jread body with
    | Some v => if is_obj v then match opt_field v "authUrl", opt_field v "doneUrl" with Some a, Some b => (a, b) | _, _ => (None, None) end else (None, None)
    | None => (None, None)
    end.

  (** api/login.rs:68-90 [build_header]: None is the panic of [expect] on a scope that cannot be a header *)
  Definition build_header (web : bool) (sc : option string) : option (list header) :=
    let rest := [("npm-auth-type", if web then "web" else "legacy"); ("npm-command", "login"); ("content-type", "application/json")] in
    match sc with
    | Some s => if header_ok s then Some (("npm-scope", s) :: rest) else None
    | None => Some rest
    end.

  (** one request: the URL, the authorization middleware, the event, the answer *)
  Definition exchange (method : string) (r : request) (hs : list header) (secret : option (string * string))
      (k : answer -> list answer -> list event * outcome) (answers : list answer) : list event * outcome :=
    match url_of reg r with
    | None => fails LUrl
    | Some u =>
        match handle m reg u (("x-oro-registry", ushow reg) :: hs) with
        | Ok h => emit (Sent method r u h secret) (match answers with [] => ([], Waiting) | a :: rest => k a rest end)
        | _ => fails LHeader
        end
    end.

  (** api/login.rs:194-238 [fetch_done_url]: a token, or how long to wait *)
  Definition done_answer (a : answer) : res lerr (string + N) :=
    match a with
    | None => Err LNetwork
    | Some r =>
        if N.eqb (r_status r) 200 then match token_of (r_body r) with Some t => Ok (inl t) | None => Err LBadJson end
        else if N.eqb (r_status r) 202 then
          match r_retry r with
          | None => Err LResponse
          | Some h => match obind (to_str h) parse_u64 with Some n => Ok (inr n) | None => Panic end
          end
        else Err LResponse
    end.
  (** oro-npm-account/src/login.rs:25-32 and 48-55: the polling loop *)
  Fixpoint poll (done : string) (answers : list answer) : list event * outcome :=
    match build_header true None with
    | None => panics
    | Some hs =>
        match url_of reg (RDone done) with
        | None => fails LUrl
        | Some u =>
            match handle m reg u (("x-oro-registry", ushow reg) :: hs) with
            | Ok h =>
                emit (Sent "GET" (RDone done) u h None)
                  (match answers with
                   | [] => ([], Waiting)
                   | a :: rest => match done_answer a with
                                  | Ok (inl t) => ([], Done (Ok t))
                                  | Ok (inr n) => emit (Slept n) (poll done rest)
                                  | Err e => fails e
                                  | Panic => panics
                                  end
                   end)
            | _ => fails LHeader
            end
        end
    end.

  (** oro-npm-account/src/login.rs:20-33 with api/login.rs:87-104 [login_web] *)
  Definition web_login (p : person) (answers : list answer) : list event * outcome :=
    match build_header true scope with
    | None => panics
    | Some hs =>
        exchange "POST" RLoginWeb hs None (fun a rest =>
          match a with
          | None => fails LNetwork
          | Some r =>
              if N.leb 400 (r_status r) then fails LResponse
              else match login_web_of (r_body r) with
                   | None => fails LBadJson
                   | Some (login_url, done_url) => if p_opens p login_url then emit (Opened login_url) (poll done_url rest) else emit (Opened login_url) (fails LOpen)
                   end
          end) answers
    end.

  (** api/login.rs:106-192 [login_couch]: what an answer means *)
  Inductive couch := CWebOtp (auth done : string) | CClassicOtp | CToken (t : string).
  Definition couch_answer (with_otp : bool) (a : answer) : res lerr couch :=
    match a with
    | None => Err LNetwork
    | Some r =>
        if N.eqb (r_status r) 400 then Err LNoSuchUser
        else if N.eqb (r_status r) 401 then
          match (match r_www r with None => Some "" | Some h => option_map lower (to_str h) end) with
          | None => Panic
          | Some www =>
              if (has_sub "otp" www || has_sub "one-time pass" (lower (r_body r)))%bool then
                if with_otp then Err LOtpRequired
                else match web_otp_of (r_body r) with
                     | (Some a, Some d) => Ok (CWebOtp a d)
                     | _ => Ok CClassicOtp
                     end
              else Err (if has_sub "basic" www then LIncorrectPassword else if has_sub "bearer" www then LInvalidToken else LResponse)
          end
        else if N.leb 400 (r_status r) then Err LResponse
        else match token_of (r_body r) with Some t => Ok (CToken t) | None => Err LBadJson end
    end.
  (** oro-npm-account/src/login.rs:34-77 *)
  Definition legacy_login (p : person) (answers : list answer) : list event * outcome :=
    emit (Asked AskName)
      (match p_name p with
       | None => fails LInput
       | Some name =>
           emit (Asked AskPassword)
             (match p_pass p with
              | None => fails LInput
              | Some pass =>
                  match build_header false scope with
                  | None => panics
                  | Some hs =>
                      exchange "PUT" (RLoginCouch name) hs (Some (name, pass)) (fun a rest =>
                        match couch_answer false a with
                        | Err e => fails e
                        | Panic => panics
                        | Ok (CToken t) => ([], Done (Ok t))
                        | Ok (CWebOtp auth done) => if p_opens p auth then emit (Opened auth) (poll done rest) else emit (Opened auth) (fails LOpen)
                        | Ok CClassicOtp =>
                            emit (Asked AskOtp)
                              (match p_otp p with
                               | None => fails LInput
                               | Some otp =>
                                   if header_ok otp then
                                     exchange "PUT" (RLoginCouch name) (hs ++ [("npm-otp", otp)]) (Some (name, pass)) (fun a _ =>
                                       match couch_answer true a with
                                       | Err e => fails e
                                       | Panic => panics
                                       | Ok (CToken t) => ([], Done (Ok t))
                                       | Ok _ => fails LUnexpected
                                       end) rest
                                   else panics
                               end)
                        end) answers
                  end
              end)
       end).

  (** oro-npm-account/src/login.rs:9-78 [login] *)
  Definition login_flow (web : bool) (p : person) (answers : list answer) : list event * outcome :=
    if web then web_login p answers else legacy_login p answers.

  (** src/commands/login.rs:67-115: the configuration document when the command is over, interrupted or waiting.
      [d]: the document before; writing the file is all or nothing here. *)
  Definition login_command (a : login_args) (web : bool) (p : person) (answers : list answer) (d : kdoc) : list event * option (res lerr unit) * kdoc :=
    match lg_token a, lg_user a, lg_legacy a with
    | None, None, None =>
        match login_flow web p answers with
        | (ev, Waiting) => (ev, None, d)
        | (ev, Done (Ok t)) => match login uparse reg a (Some t) d with Ok d' => (ev, Some (Ok tt), d') | _ => (ev, Some (Err LUnexpected), d) end
        | (ev, Done (Err e)) => (ev, Some (Err e), d)
        | (ev, Done Panic) => (ev, Some Panic, d)
        end
    | _, _, _ => match login uparse reg a None d with Ok d' => ([], Some (Ok tt), d') | _ => ([], Some (Err LUnexpected), d) end
    end.
End Login.
