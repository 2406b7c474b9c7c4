(** * Properties C32, C33: who gets credentials; saved credentials.
    AuthSpec: [http_url], [same_registry] (host and path), [under_registry] (host, path prefix), [last_for] (the credential last
    configured for a registry), [authorizes], [last_word] (the last login or logout for a registry), [untouched_but]. *)
From Verif Require Import Base Types Kdl StdPath CliModel CliSpec CliProofs AuthModel AuthSpec AuthProofs AccountProofs AccountNext.
From Coq Require Import Permutation.
Open Scope string_scope.
Open Scope list_scope.

(** ** C32 *)
Section C32.
  Variable join_other : url -> string -> option url.
  Variable uparse : string -> option url.
  Variable percent_encode : string -> string.
  Notation send := (send join_other uparse percent_encode).

  (** C32 (partial: the scheme, the port and path segment boundaries are not looked at; see C32_refuted). Whatever credentials are
      configured in whatever order, every request of a client carries at most one Authorization header, and only when it goes to the
      registry's host, below the registry's path, and a credential was configured for that host and path: the last such one. *)
  Theorem C32_confined_partial : forall l reg r q hs, Forall (fun e => http_url (fst e)) l -> http_url reg ->
    send (configured l) reg r = Ok (q, hs) ->
    (hs = [("x-oro-registry", ushow reg)] /\ (under_registry reg q -> forall c, ~ last_for reg l c))
    \/ exists c v, hs = [("x-oro-registry", ushow reg); ("authorization", v)]
         /\ under_registry reg q /\ last_for reg l c /\ authorizes c v /\ one_line v.
  Proof.
    intros l reg r q hs Hl Hr H. unfold AuthModel.send in H. destruct (request_url _ _ _ reg r) as [u|]; [|discriminate].
    destruct (handle (configured l) reg u _) as [h| |] eqn:E; cbn [rbind] in H; try discriminate. injection H as <- <-.
    apply handle_cases in E as [[-> E]|[Hu (c & v & Hc & Hv & ->)]].
    - left. split; [reflexivity|]. intros Hu c Hc. apply configured_get in Hc; auto. destruct E; [contradiction|congruence].
    - right. exists c, v. split; [reflexivity|]. split; [auto|]. split; [now apply configured_get|]. now apply auth_value_ok.
  Qed.
  (** C32: credentials are sent to their registry: any request below it carries them (unless the configured text cannot be a header,
      and then nothing is sent). *)
  Theorem C32_sent : forall l reg r q c, Forall (fun e => http_url (fst e)) l -> http_url reg ->
    request_url join_other uparse percent_encode reg r = Some q -> under_registry reg q -> last_for reg l c ->
    match auth_value c with
    | Ok v => send (configured l) reg r = Ok (q, [("x-oro-registry", ushow reg); ("authorization", v)])
    | _ => exists e, send (configured l) reg r = Err e
    end.
  Proof.
    intros l reg r q c Hl Hr Hq Hu Hc. unfold AuthModel.send. rewrite Hq. apply configured_get in Hc; auto. rewrite (handle_under _ _ _ _ _ Hu Hc).
    destruct (auth_value c) as [v|e|] eqn:E; cbn [rbind]; [reflexivity|eauto|]. destruct c; cbn in E; try discriminate; unfold header_value in E; destruct (header_ok _); discriminate.
  Qed.
  (** C32: in particular every metadata request for an ordinary package name, if the registry's path ends with '/'. *)
  Theorem C32_packument : forall l reg p n c, Forall (fun e => http_url (fst e)) l -> http_url reg -> u_path reg = (p ++ "/")%string ->
    plain_ref n = true -> last_for reg l c ->
    exists q, request_url join_other uparse percent_encode reg (RPackument n) = Some q /\ u_host q = u_host reg /\ u_path q = (p ++ "/" ++ n)%string
      /\ match auth_value c with
         | Ok v => send (configured l) reg (RPackument n) = Ok (q, [("x-oro-registry", ushow reg); ("authorization", v)])
         | _ => exists e, send (configured l) reg (RPackument n) = Err e
         end.
  Proof.
    intros l reg p n c Hl Hr Hp Hn Hc. eexists. cbn [request_url]. unfold ujoin. rewrite Hn. split; [reflexivity|]. cbn [u_host u_path].
    split; [reflexivity|]. split; [rewrite Hp, upto_slash_end; now rewrite sapp_assoc|].
    apply (C32_sent l reg (RPackument n)); auto.
    - cbn [request_url]. unfold ujoin. now rewrite Hn.
    - split; [reflexivity|]. cbn [u_path]. exists n. now rewrite Hp, upto_slash_end.
  Qed.
  (** C32: the credentials come from the --auth options: each one is a token, legacy token or user name given for a URL with the same
      host and path, and a password is one given for the same registry text. *)
  Theorem C32_options : forall auth m reg c, build_creds uparse auth = Ok m -> (forall r u, uparse r = Some u -> http_url u) -> http_url reg ->
    sget (nerf_dart reg) m = Some c ->
    exists r u v, uparse r = Some u /\ same_registry u reg /\
      ((c = Token v /\ In (r, "token", v) auth) \/ (c = EncodedBasic v /\ In (r, "legacy-auth", v) auth)
       \/ exists p, c = Basic v p /\ In (r, "username", v) auth /\ (forall w, p = Some w -> In (r, "password", w) auth)
                    /\ (p = None -> forall w, ~ In (r, "password", w) auth)).
  Proof.
    intros auth m reg c H Hp Hr Hc. apply build_ok in H. unfold configured in H. rewrite H in Hc. apply configured_In in Hc as [(u & Hi & E)|[_ Hc]]; [|discriminate].
    apply in_flat_map in Hi as ([[r k] v] & Hi & Hc). cbn [entry_cred] in Hc. destruct (uparse r) as [u'|] eqn:Eu; [|contradiction].
    exists r, u', v. split; [exact Eu|].
    assert (G : forall c', In (u, c) [(u', c')] -> same_registry u' reg /\ c = c').
    { intros c' [G|[]]. injection G as <- <-. split; [|reflexivity]. apply dart_same; eauto. }
    destruct (String.eqb_spec k "token") as [->|]; [apply G in Hc as [? ->]; auto|].
    destruct (String.eqb_spec k "username") as [->|]; [|destruct (String.eqb_spec k "legacy-auth") as [->|]; [apply G in Hc as [? ->]; auto|contradiction]].
    apply G in Hc as [Hs ->]. split; [auto|]. right. right. exists (password_for r auth). split; [reflexivity|]. split; [auto|]. unfold password_for. split.
    - intros w Hw. destruct (find _ auth) as [[[r2 k2] v2]|] eqn:Ef; [|discriminate]. injection Hw as ->. apply find_some in Ef as [Ef1 Ef2].
      apply andb_true_iff in Ef2 as [Ea Eb]. apply String.eqb_eq in Ea, Eb. now subst.
    - intros Hn w Hw. destruct (find _ auth) as [[[r2 k2] v2]|] eqn:Ef; [discriminate|]. apply (find_none _ _ Ef) in Hw. now rewrite !String.eqb_refl in Hw.
  Qed.
End C32.

(** examples *)
Definition ex_https (h p : string) : url := mkUrl "https" None (Some h) None p None None.
Definition ex_http (h p : string) : url := mkUrl "http" None (Some h) None p None None.
Definition ex_noparse (s : string) : option url := None.
Definition ex_nojoin (u : url) (s : string) : option url := None.
Lemma ex_https_url h p : no_char "/" h = true -> http_url (ex_https h (String "/" p)).
Proof. intros H. exists h, p. auto. Qed.
Example C32_ex : exists v, send ex_nojoin ex_noparse (fun s => s) (configured [(ex_https "r.com" "/npm/", Basic "me" (Some "pw")); (ex_https "s.com" "/npm/", Token "t2")])
    (ex_https "r.com" "/npm/") (RPackument "@a/b") = Ok (ex_https "r.com" "/npm/@a/b", [("x-oro-registry", "https://r.com/npm/"); ("authorization", v)])
  /\ v = "Basic bWU6cHc=" /\ plain_ref "@a/b" = true
  /\ last_for (ex_https "r.com" "/npm/") [(ex_https "r.com" "/npm/", Basic "me" (Some "pw")); (ex_https "s.com" "/npm/", Token "t2")] (Basic "me" (Some "pw"))
  /\ http_url (ex_https "r.com" "/npm/").
Proof.
  eexists. split; [reflexivity|]. split; [reflexivity|]. split; [reflexivity|]. split; [|now apply ex_https_url].
  constructor; [split; reflexivity|]. intros v c [E|[]] [H _]. injection E as <- _. discriminate.
Qed.
(** C32 fails as stated: (1) a token for https://r.com/npm is sent over plain http, to another port, and to /npm-evil on the same host;
    (2) a registry URL with a user name and password in it is sent, password included, in X-Oro-Registry to any tarball host;
    (3) and a registry without a final '/' gets no credentials at all for its own metadata. *)
Theorem C32_refuted :
  let reg := ex_https "r.com" "/npm" in
  (forall q, In q [ex_http "r.com" "/npm/x"; mkUrl "https" None (Some "r.com") (Some "8443") "/npm/x" None None; ex_https "r.com" "/npm-evil/x"] ->
     send ex_nojoin ex_noparse (fun s => s) (configured [(reg, Token "t")]) reg (RExternal q)
       = Ok (q, [("x-oro-registry", "https://r.com/npm"); ("authorization", "Bearer t")]))
  /\ (let reg := mkUrl "https" (Some ("me", Some "pw")) (Some "r.com") None "/" None None in
      send ex_nojoin ex_noparse (fun s => s) (configured []) reg (RExternal (ex_https "evil.com" "/x.tgz"))
        = Ok (ex_https "evil.com" "/x.tgz", [("x-oro-registry", "https://me:pw@r.com/")]))
  /\ send ex_nojoin ex_noparse (fun s => s) (configured [(reg, Token "t")]) reg (RPackument "x")
       = Ok (ex_https "r.com" "/x", [("x-oro-registry", "https://r.com/npm")]).
Proof. cbv zeta. split; [|split; reflexivity]. intros q [<-|[<-|[<-|[]]]]; reflexivity. Qed.

(** ** C33 *)
Section C33.
  Variable uparse : string -> option url.
  Variable utf8_lossy : string -> string.
  Notation get_credentials := (get_credentials uparse utf8_lossy).
  Notation perform_all := (perform_all uparse).
  (** every URL saved under is read back as itself *)
  Notation op_ok := (op_ok uparse).

  (** C33 (the credentials a later run uses). Start from any configuration without saved credentials, log in and out any number of times
      with any registries, and start orogene again with that file: for each registry the client uses exactly the credential of the last
      login, of the same kind, and none after a logout; the order in which the options are passed on does not matter. *)
  Theorem C33_next_run : forall zshow ops d0 def env proj,
    auth_nodes d0 = [] -> Forall op_ok ops ->
    (forall u c, In (Save u c) ops -> no_char "=" (ushow u) = true /\ no_char "}" (ushow u) = true) ->
    (forall v, ~ In ("auth", v) def) -> (forall v, ~ In ("auth", v) (env_layer env)) -> (forall v, ~ In ("auth", v) (file_layer proj)) ->
    exists args triples, emit zshow (load_config (mkSrc def (Some (perform_all ops d0)) env proj)) "auth" = flat_map (fun a => ["--auth"; a]) args
      /\ map parse_nested_key_value args = map Ok triples
      /\ forall auth, Permutation auth triples -> exists m, build_creds uparse auth = Ok m /\
           forall u c, sget (nerf_dart u) m = Some c <-> exists s v, last_word u ops = Saved s v /\ c = as_cred s.
  Proof.
    intros zshow ops d0 def env proj H0 Hops Hch Hd He Hp.
    assert (R0 : rep [] d0) by exact H0. assert (G0 : good uparse []) by (split; constructor).
    destruct (perform_all_rep uparse ops [] d0 Hops G0 R0) as (L & GL & RL & SL).
    assert (Hcfg := loaded_auth uparse L (perform_all ops d0) def env proj GL RL Hd He Hp).
    assert (Hm : forall auth, Permutation auth (triples L) -> exists m, build_creds uparse auth = Ok m /\
      forall u c, sget (nerf_dart u) m = Some c <-> exists s v, last_word u ops = Saved s v /\ c = as_cred s).
    { intros auth HP. destruct (build_any_order uparse L auth GL HP) as (m & Hm & Hg). exists m. split; [exact Hm|]. intros u c. rewrite Hg.
      rewrite (stored_is_history uparse L d0 ops u c GL RL R0 Hops). split; intros (a & b & H); exists b, a; exact H. }
    destruct L as [|e L].
    - exists [], []. split; [unfold emit; rewrite Hcfg; reflexivity|]. split; [reflexivity|exact Hm].
    - destruct (emitted uparse zshow (e :: L) _ ltac:(discriminate) Hcfg) as (args & A1 & A2).
      + intros e' He'. destruct (SL e' He') as [[]|(u & c & Hi & ->)]. cbn [fst]. eauto.
      + exists args, (triples (e :: L)). auto.
  Qed.
  (** C33 (partial: the reader used by logout confuses the kinds, see [returned] and C33_refuted). After any history, what is read back for a
      registry is determined by the last login or logout for it alone. *)
  Theorem C33_history_partial : forall ops d u, Forall op_ok ops -> writable "auth" d ->
    get_credentials u (perform_all ops d) =
      match last_word u ops with
      | Saved c _ => returned utf8_lossy c
      | Forgotten => None
      | Untouched => get_credentials u d
      end.
  Proof.
    intros ops d u Ho Hw. rewrite !get_is. rewrite perform_all_entry by auto. destruct (last_word u ops) as [c v| |]; cbn [worded obind]; [apply read_cred|reflexivity|reflexivity].
  Qed.
  (** C33: the entry of any other registry is left as it is, byte for byte *)
  Theorem C33_other_registries : forall o d u, op_ok o -> writable "auth" d -> about u o = None ->
    obind (section_children "auth" (perform uparse o d)) (find (same_dart uparse u)) = obind (section_children "auth" d) (find (same_dart uparse u)).
  Proof. intros o d u Ho Hw H. rewrite perform_entry by auto. now rewrite H. Qed.
  (** C33: nothing else in the configuration changes: other nodes, other options, their order *)
  Theorem C33_rest_untouched : forall o d,
    match o with Scope _ _ => untouched_but "scoped-registries" d (perform uparse o d) | _ => untouched_but "auth" d (perform uparse o d) end.
  Proof. exact (perform_untouched uparse). Qed.
  (** C33: the registry saved for a scope is the one found for it, and the other scopes keep theirs *)
  Theorem C33_scope : forall s u d, writable "scoped-registries" d ->
    obind (section_children "scoped-registries" (perform uparse (Scope s u) d)) (kget s) = Some (KNode s [(None, KStr (ushow u))] None)
    /\ forall s', s' <> s -> obind (section_children "scoped-registries" (perform uparse (Scope s u) d)) (kget s') = obind (section_children "scoped-registries" d) (kget s').
  Proof.
    intros s u d Hw. cbn [perform]. unfold set_scoped_registry. rewrite write_same by auto. cbn [obind]. split.
    - rewrite kget_app. assert (E := kget_but s (match section_children "scoped-registries" d with Some l => l | None => [] end)). unfold but in E. rewrite E. cbn [kget k_name]. now rewrite String.eqb_refl.
    - intros s' Hn. rewrite kget_app. cbn [kget k_name]. destruct (String.eqb_spec s s'); [congruence|].
      assert (F : forall l, kget s' (filter (fun n => negb (String.eqb (k_name n) s)) l) = kget s' l).
      { induction l as [|a l IH]; [reflexivity|]. cbn [filter kget]. destruct (String.eqb_spec (k_name a) s) as [E|E]; cbn [negb kget].
        - destruct (String.eqb_spec (k_name a) s'); [congruence|exact IH].
        - now rewrite IH. }
      rewrite F. destruct (section_children "scoped-registries" d) as [l|]; cbn [obind]; [|reflexivity]. destruct (kget s' l); reflexivity.
  Qed.
  (** C33: logging out forgets: no credential is read back for that registry, whatever was there before *)
  Theorem C33_logout : forall u d, get_credentials u (snd (logout uparse utf8_lossy u d)) = None.
  Proof. intros u d. cbn [logout snd]. rewrite get_is, clear_entry, String.eqb_refl. reflexivity. Qed.
End C33.

(** C33 and C32: after logging in, metadata requests of the next run carry the saved credential *)
Theorem C33_next_request : forall uparse join_other percent_encode ops d0 auth m zshow def env proj args reg p n s v,
  auth_nodes d0 = [] -> Forall (op_ok uparse) ops ->
  (forall u c, In (Save u c) ops -> no_char "=" (ushow u) = true /\ no_char "}" (ushow u) = true) ->
  (forall v, ~ In ("auth", v) def) -> (forall v, ~ In ("auth", v) (env_layer env)) -> (forall v, ~ In ("auth", v) (file_layer proj)) ->
  emit zshow (load_config (mkSrc def (Some (perform_all uparse ops d0)) env proj)) "auth" = flat_map (fun a => ["--auth"; a]) args ->
  map parse_nested_key_value args = map Ok auth -> build_creds uparse auth = Ok m ->
  last_word reg ops = Saved s v -> u_path reg = (p ++ "/")%string -> plain_ref n = true ->
  exists q, u_host q = u_host reg /\ u_path q = (p ++ "/" ++ n)%string
    /\ send join_other uparse percent_encode m reg (RPackument n)
       = (let! a := auth_value (as_cred s) in Ok (q, [("x-oro-registry", ushow reg); ("authorization", a)])).
Proof.
  intros uparse join_other percent_encode ops d0 auth m zshow def env proj args reg p n s v H0 Ho Hch Hd He Hp Hargs Hauth Hm Hl Hpath Hn.
  destruct (C33_next_run uparse zshow ops d0 def env proj H0 Ho Hch Hd He Hp) as (args' & tr & A1 & A2 & A3).
  assert (args' = args).
  { rewrite A1 in Hargs. clear - Hargs. revert args Hargs. induction args' as [|a l IH]; intros [|b l'] H; cbn in H; try discriminate; [reflexivity|]. injection H as -> H. f_equal. now apply IH. }
  subst args'. assert (tr = auth).
  { rewrite A2 in Hauth. clear - Hauth. revert auth Hauth. induction tr as [|a l IH]; intros [|b l'] H; cbn in H; try discriminate; [reflexivity|]. injection H as -> H. f_equal. now apply IH. }
  subst tr. destruct (A3 auth (Permutation_refl _)) as (m' & Hm' & Hg). assert (m' = m) by congruence. subst m'.
  assert (Hs : sget (nerf_dart reg) m = Some (as_cred s)) by (apply Hg; eauto).
  unfold send. cbn [request_url]. unfold ujoin. rewrite Hn. eexists. split; [|split].
  3:{ rewrite (handle_under m reg _ _ (as_cred s)); [|split; [reflexivity|exists n; cbn [u_path]; now rewrite Hpath, upto_slash_end]|exact Hs].
      destruct (auth_value (as_cred s)); reflexivity. }
  - reflexivity.
  - cbn [u_path]. rewrite Hpath, upto_slash_end. now rewrite sapp_assoc.
Qed.

(** examples: two logins, a replacement and a logout *)
Definition ex_r : url := ex_https "r.com" "/".
Definition ex_s : url := ex_https "s.com" "/npm/".
Definition ex_parse (s : string) : option url :=
  if String.eqb s "https://r.com/" then Some ex_r else if String.eqb s "https://s.com/npm/" then Some ex_s else None.
Definition ex_ops : list op := [Save ex_r (SToken "old"); Save ex_s (SBasic "me" (Some "cHc=")); Scope "@a" ex_s; Save ex_r (SToken "new")].
Definition ex_conf : kdoc := [KNode "options" [] (Some [KNode "loglevel" [(None, KStr "info")] None]); KNode "other" [] None].
Example C33_ex : auth_nodes ex_conf = [] /\ Forall (op_ok ex_parse) ex_ops
  /\ (forall u c, In (Save u c) ex_ops -> no_char "=" (ushow u) = true /\ no_char "}" (ushow u) = true)
  /\ last_word ex_r ex_ops = Saved (SToken "new") ex_r
  /\ emit (fun _ => "") (load_config (mkSrc [("cache", "/c")] (Some (perform_all ex_parse ex_ops ex_conf)) [("HOME", "/h")] None)) "auth"
     = ["--auth"; "{https://s.com/npm/}username=me"; "--auth"; "{https://s.com/npm/}password=cHc="; "--auth"; "{https://r.com/}token=new"]
  /\ get_credentials ex_parse (fun s => s) ex_s (perform_all ex_parse ex_ops ex_conf) = Some (SLegacy "bWU6cHc=").
Proof.
  split; [reflexivity|]. split; [repeat constructor|]. split.
  - intros u c H. cbn in H. destruct H as [H|[H|[H|[H|[]]]]]; try discriminate H; injection H as <- _; split; reflexivity.
  - split; [reflexivity|]. split; reflexivity.
Qed.
(** C33 fails as stated: (1) a saved token is read back as a legacy token and the other way round, so logging out does not revoke a token, and
    puts a legacy token (an encoded user name and password) in the URL of the request; (2) a user name alone, or with a plain password that is
    not base64, is not read back; (3) an [auth] node without children swallows the login; (4) after logging in to a registry with '=' in
    its URL every later command crashes while reading the options. *)
Theorem C33_refuted :
  let saved c := set_credentials ex_parse ex_r c [] in
  get_credentials ex_parse (fun s => s) ex_r (saved (SToken "t")) = Some (SLegacy "t")
  /\ fst (logout ex_parse (fun s => s) ex_r (saved (SToken "t"))) = None
  /\ get_credentials ex_parse (fun s => s) ex_r (saved (SLegacy "bWU6cHc=")) = Some (SToken "bWU6cHc=")
  /\ fst (logout ex_parse (fun s => s) ex_r (saved (SLegacy "bWU6cHc="))) = Some "bWU6cHc="
  /\ get_credentials ex_parse (fun s => s) ex_r (saved (SBasic "me" None)) = None
  /\ get_credentials ex_parse (fun s => s) ex_r (saved (SBasic "me" (Some "pass word"))) = None
  /\ (let d := [KNode "options" [] (Some [KNode "auth" [] None])] in set_credentials ex_parse ex_r (SToken "t") d = d)
  /\ (let u := mkUrl "https" None (Some "r.com") None "/" (Some "a=b") None in
      exists a, emit (fun _ => "") (load_config (mkSrc [] (Some (set_credentials ex_parse u (SToken "t") [])) [] None)) "auth" = ["--auth"; a]
        /\ parse_nested_key_value a = Panic).
Proof. cbv zeta. repeat (split; [reflexivity|]). eexists. split; reflexivity. Qed.

Print Assumptions C32_confined_partial.
Print Assumptions C32_sent.
Print Assumptions C32_packument.
Print Assumptions C32_options.
Print Assumptions C32_refuted.
Print Assumptions C33_next_run.
Print Assumptions C33_history_partial.
Print Assumptions C33_other_registries.
Print Assumptions C33_rest_untouched.
Print Assumptions C33_scope.
Print Assumptions C33_logout.
Print Assumptions C33_next_request.
Print Assumptions C33_refuted.
