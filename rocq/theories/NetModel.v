(** * The HTTP client of a run: crates/oro-client/src/client.rs [OroClientBuilder], src/client_args.rs, src/nassun_args.rs.
    reqwest (0.11.22) is modelled by its documentation: [ClientBuilder::proxy] adds a proxy and switches the system's proxies off,
    [ClientBuilder::no_proxy] removes all proxies and switches the system's off; a request goes through the first proxy that takes it. *)
From Verif Require Import Base Types FetchModel.
Open Scope string_scope.
Open Scope list_scope.

(** url::Url, as far as [proxy_url] looks at it (client.rs:108-131); user and password as Url::username and Url::password give them,
    that is percent-encoded *)
Record purl := mkPurl { pu_addr : string; pu_user : string; pu_pass : option string }.
(** reqwest::Proxy for all requests: where it is, the user and password sent to it, the hosts it does not take *)
Record proxy := mkProxy { px_addr : string; px_auth : option (string * string); px_except : option string }.
(** client.rs:24-37 [OroClientBuilder]: the settings of the transport (registry and credentials: AuthModel) *)
Record builder := mkB { b_retries : nat; b_proxy : bool; b_url : option proxy; b_domain : option string }.
(** client.rs:39-59 [Default] *)
Definition new_builder : builder := mkB 2 false None None.
(** the environment of the process: the system's proxies (HTTPS_PROXY etc.), and NO_PROXY ("" when unset) *)
Record penv := mkEnv { e_system : string -> option proxy; e_no_proxy : string }.
(** what happens to a request for a host *)
Inductive hop := Direct | Via (addr : string) (auth : option (string * string)).

Section World.
  (** url::Url::parse; reqwest::Proxy::all accepts the URL's scheme; percent decoding *)
  Variable uparse : string -> option purl.
  Variable supported : purl -> bool.
  Variable pdecode : string -> string.
  (** reqwest::NoProxy::from_string on a non-empty list: which hosts it matches *)
  Variable listed : string -> string -> bool.

  (** client.rs:211-219 [get_no_proxy_domain]; NoProxy::from_env is None when NO_PROXY is unset or empty *)
  Definition get_no_proxy_domain (e : penv) (b : builder) : option string :=
    match b_domain b with
    | Some (String c t) => Some (String c t)
    | _ => match e_no_proxy e with EmptyString => None | String c t => Some (String c t) end
    end.
  (** reqwest::Proxy::all: the credentials of the URL, decoded, when it has a password *)
  Definition proxy_all (u : purl) : option proxy :=
    if supported u then Some (mkProxy (pu_addr u) (match pu_pass u with Some p => Some (pdecode (pu_user u), pdecode p) | None => None end) None) else None.
  (** reqwest::Proxy::basic_auth and no_proxy *)
  Definition basic_auth (p : proxy) (user pass : string) : proxy := mkProxy (px_addr p) (Some (user, pass)) (px_except p).
  Definition with_except (p : proxy) (x : option string) : proxy := mkProxy (px_addr p) (px_auth p) x.
  (** client.rs:91-105, 133-137 [retries], [proxy], [no_proxy_domain] *)
  Definition set_retries (n : nat) (b : builder) : builder := mkB n (b_proxy b) (b_url b) (b_domain b).
  Definition set_proxy (v : bool) (b : builder) : builder := mkB (b_retries b) v (b_url b) (b_domain b).
  Definition set_domain (d : string) (b : builder) : builder := mkB (b_retries b) (b_proxy b) (b_url b) (Some d).
  (** client.rs:108-131 [proxy_url] *)
  Definition set_proxy_url (e : penv) (s : string) (b : builder) : res err builder :=
    match uparse s with
    | None => Err EUrl
    | Some u =>
        match proxy_all u with
        | None => Err EUrl
        | Some p =>
            let p := match pu_pass u with Some w => basic_auth p (pu_user u) w | None => p end in
            Ok (mkB (b_retries b) true (Some (with_except p (get_no_proxy_domain e b))) (b_domain b))
        end
    end.

  (** client.rs:139-162 [build]: the proxies of the client, and whether the system's are used *)
  Definition build (b : builder) : list proxy * bool :=
    let '(ps, sys) := match b_url b with Some p => ([p], false) | None => ([], true) end in
    if negb (b_proxy b) then ([], false) else (ps, sys).
  Definition takes (p : proxy) (host : string) : bool := match px_except p with Some l => negb (listed l host) | None => true end.
  (** reqwest: the way of a request *)
  Definition route (e : penv) (b : builder) (host : string) : hop :=
    let '(ps, sys) := build b in
    match find (fun p => takes p host) ps with
    | Some p => Via (px_addr p) (px_auth p)
    | None => if sys then match e_system e host with Some p => Via (px_addr p) (px_auth p) | None => Direct end else Direct
    end.

  (** the calls of the builder, in any order (client.rs:61-137; nassun client.rs:120-150 passes them on) *)
  Inductive call := CRetries (n : nat) | CProxy (v : bool) | CDomain (d : string) | CUrl (u : string).
  Definition do_call (e : penv) (c : call) (b : builder) : res err builder :=
    match c with CRetries n => Ok (set_retries n b) | CProxy v => Ok (set_proxy v b) | CDomain d => Ok (set_domain d b) | CUrl u => set_proxy_url e u b end.
  Fixpoint calls (e : penv) (l : list call) (b : builder) : res err builder :=
    match l with [] => Ok b | c :: l => let! b := do_call e c b in calls e l b end.

  (** src/client_args.rs:52-70: the builder of the command line's --retries, --proxy, --no-proxy-domain and --proxy-url *)
  Record net_args := mkNet { a_proxy : bool; a_url : option string; a_domain : option string; a_retries : nat }.
  Definition of_args (e : penv) (a : net_args) : res err builder :=
    let b := set_proxy (a_proxy a) (set_retries (a_retries a) new_builder) in
    let b := match a_domain a with Some d => set_domain d b | None => b end in
    match a_url a with Some u => set_proxy_url e u b | None => Ok b end.
End World.

(** client.rs:164-191: every request goes through reqwest-retry's middleware first (RetryTransientMiddleware, 0.2.3: as long as the outcome is
    transient and fewer than [max] retries were made, try again), then the credentials', then the cache. [out i] is the outcome of the i-th try. *)
Inductive outcome (A : Type) := Settled (a : A) | Transient (a : A).
Arguments Settled {A}. Arguments Transient {A}.
Definition said {A} (o : outcome A) : A := match o with Settled a | Transient a => a end.
Fixpoint tries {A} (left : nat) (i : nat) (out : nat -> outcome A) : A * nat :=
  match out i, left with
  | Transient _, Datatypes.S n => tries n (Datatypes.S i) out
  | o, _ => (said o, Datatypes.S i)
  end.
(** the result of a request, and how many times it was sent *)
Definition request {A} (b : builder) (out : nat -> outcome A) : A * nat := tries (b_retries b) 0 out.

(** src/nassun_args.rs:62-79 [to_nassun]: the registries of the command line *)
Definition cli_registries (registry : string) (scoped : list (string * string)) : registries :=
  fold_left (fun r e => scope_registry r (fst e) (snd e)) scoped (set_registry [] registry).
