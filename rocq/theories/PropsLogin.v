(** * C57: the login conversation.
    [login_flow creds registry scope web person answers] is everything that can be seen of `oro login` against a registry that gives these answers, as far
    as they go: the prompts, the requests with their URL, headers and the name and password in their body, the addresses given to the browser, the pauses;
    and its outcome: still waiting, a token, an error or a crash. *)
From Verif Require Import Base Types Kdl StdPath JsonModel JsonSpec JsonRead PropsJsonRead AuthModel AuthSpec AuthProofs AccountProofs PropsConfig LoginModel.
From Coq Require Import NArith.
Open Scope string_scope.
Open Scope list_scope.

(** ** vocabulary *)
Definition is_sent (e : event) : bool := match e with Sent _ _ _ _ _ => true | _ => false end.
Definition sent_count (l : list event) : nat := List.length (filter is_sent l).
Definition has_secret (e : event) : bool := match e with Sent _ _ _ _ (Some _) => true | _ => false end.
(** the URL of the user's own document on the registry: same scheme, host and port, below the registry's directory *)
Definition user_url (reg : url) (name : string) (u : url) : Prop :=
  u_scheme u = u_scheme reg /\ u_host u = u_host reg /\ u_port u = u_port reg /\ u_path u = (upto_slash (u_path reg) ++ "-/user/org.couchdb.user:" ++ pct name)%string
  /\ u_query u = None.
(** the registry's answer tells to wait [n] seconds and ask again *)
Definition says_wait (a : answer) (n : N) : Prop :=
  exists r h, a = Some r /\ r_status r = 202%N /\ r_retry r = Some h /\ all_chars visible_char h = true /\ parse_u64 h = Some n.

Lemma pct_chars s : all_chars (fun c => alnum c || Ascii.eqb c "%")%bool (pct s) = true.
Proof.
  assert (Hh : forall n, alnum (hexd n) = true).
  { intros n. unfold hexd. destruct (Nat.lt_ge_cases n 16) as [H|H].
    - do 16 (destruct n as [|n]; [reflexivity|]). lia.
    - replace (String.get n "0123456789ABCDEF") with (@None ascii); [reflexivity|]. do 16 (destruct n as [|n]; [lia|]). destruct n; reflexivity. }
  induction s as [|c s IH]; [reflexivity|]. cbn [pct]. destruct (alnum c) eqn:E; cbn [all_chars]; rewrite ?E, ?IH, ?Hh; reflexivity.
Qed.
Lemma prefix_app p s : prefix p (p ++ s) = true.
Proof. induction p as [|c p IH]; [destruct s; reflexivity|]. cbn. destruct (ascii_dec c c); [exact IH|contradiction]. Qed.
Lemma substring_all s : substring 0 (String.length s) s = s.
Proof. induction s as [|c s IH]; [reflexivity|]. cbn. now rewrite IH. Qed.
Lemma substring_app p : forall s, substring (String.length p) (String.length (p ++ s) - String.length p) (p ++ s) = s.
Proof.
  induction p as [|c p IH]; intros s.
  - cbn [String.length append]. rewrite Nat.sub_0_r. apply substring_all.
  - cbn [String.length append]. cbn [Nat.sub]. cbn [substring]. apply IH.
Qed.
Lemma couch_is_ref n : couch_ref (couch_prefix ++ pct n) = true.
Proof. unfold couch_ref. rewrite prefix_app, substring_app, pct_chars. reflexivity. Qed.
Lemma not_plain n : plain_ref (couch_prefix ++ pct n) = false.
Proof.
  unfold plain_ref. replace (all_chars plain_char (couch_prefix ++ pct n)) with false; [reflexivity|]. symmetry. reflexivity.
Qed.

Section Thms.
  Variable number : string -> option string.
  Variable join_other : url -> string -> option url.
  Variable uparse : string -> option url.
  Variable m : creds.
  Variable reg : url.
  Variable scope : option string.
  Notation flow := (login_flow number join_other uparse m reg scope).
  Notation url_of := (request_url (couch_join join_other) uparse pct).
  Notation token_of := (token_of number).
  Notation poll := (poll number join_other uparse m reg).

  Lemma couch_url n : exists u, url_of reg (RLoginCouch n) = Some u /\ user_url reg n u.
  Proof.
    cbn [request_url]. unfold ujoin. change ("-/user/org.couchdb.user:" ++ pct n)%string with (couch_prefix ++ pct n)%string.
    rewrite not_plain. unfold couch_join. rewrite couch_is_ref. eexists. split; [reflexivity|]. repeat split.
  Qed.
  Lemma couch_url' n u : url_of reg (RLoginCouch n) = Some u -> user_url reg n u.
  Proof. intros H. destruct (couch_url n) as (u' & E & U). rewrite E in H. injection H as <-. exact U. Qed.

  (** polling: no secrets, only the done URL *)
  Lemma poll_events d : forall answers e, In e (fst (poll d answers)) ->
    (exists u h, e = Sent "GET" (RDone d) u h None /\ uparse d = Some u) \/ exists n, e = Slept n.
  Proof.
    induction answers as [|a answers IH]; intros e; cbn [LoginModel.poll build_header]; cbn [request_url]; (destruct (uparse d) as [u|] eqn:Eu; [|intros []]);
      (destruct (handle m reg u _) as [h| |]; [|intros []|intros []]); cbn [emit fst In].
    - intros [<-|[]]. left. eauto.
    - destruct (done_answer number a) as [[t|n]| |]; cbn [emit fst In fails panics]; intros [<-|H]; try (left; now eauto); try destruct H as [<-|H]; [right; eauto|auto].
  Qed.
  Lemma poll_no_secret d answers : filter has_secret (fst (poll d answers)) = [].
  Proof.
    assert (H : forall e, In e (fst (poll d answers)) -> has_secret e = false) by (intros e He; apply poll_events in He as [(u & h & -> & _)|(n & ->)]; reflexivity).
    induction (fst (poll d answers)) as [|e l IH]; [reflexivity|]. cbn [filter]. rewrite (H e (or_introl eq_refl)). apply IH. intros e' He'. apply H. now right.
  Qed.
  Lemma poll_token d : forall answers t, snd (poll d answers) = Done (Ok t) ->
    exists r, nth_error answers (sent_count (fst (poll d answers)) - 1) = Some (Some r) /\ r_status r = 200%N /\ token_of (r_body r) = Some t
      /\ sent_count (fst (poll d answers)) >= 1.
  Proof.
    induction answers as [|a answers IH]; intros t; cbn [LoginModel.poll build_header]; (destruct (url_of reg (RDone d)) as [u|] eqn:Eu; [|discriminate]);
      (destruct (handle m reg u _) as [h| |] eqn:Eh; [|discriminate|discriminate]); cbn [emit fst snd]; [discriminate|].
    destruct (done_answer number a) as [[t'|n]| |] eqn:Ed; cbn [emit fst snd fails panics]; try discriminate.
    - intros H. injection H as ->. unfold sent_count. cbn [filter is_sent List.length Nat.sub nth_error]. unfold done_answer in Ed.
      destruct a as [r|]; [|discriminate]. destruct (N.eqb_spec (r_status r) 200) as [E|_].
      + destruct (token_of (r_body r)) as [x|] eqn:Et; [|discriminate]. injection Ed as ->. exists r. auto.
      + destruct (N.eqb (r_status r) 202); [|discriminate]. destruct (r_retry r) as [x|]; [|discriminate]. destruct (obind (to_str x) parse_u64); discriminate.
    - intros H. destruct (IH t H) as (r & A & B & C & D). exists r. split; [|split; [exact B|split; [exact C|]]].
      + unfold sent_count in *. cbn [filter is_sent List.length]. replace (S (List.length (filter is_sent (fst (poll d answers)))) - 1) with (S (List.length (filter is_sent (fst (poll d answers))) - 1)) by lia. exact A.
      + unfold sent_count in *. cbn [filter is_sent List.length]. lia.
  Qed.

  Lemma handle_heads u hs h : handle m reg u hs = Ok h -> exists extra, h = hs ++ extra /\ (extra = [] \/ exists v, extra = [("authorization", v)]).
  Proof.
    unfold handle. destruct (orb _ _); [intros H; injection H as <-; exists []; rewrite app_nil_r; auto|].
    destruct (sget (nerf_dart reg) m) as [c|]; [|intros H; injection H as <-; exists []; rewrite app_nil_r; auto].
    destruct (auth_value c) as [v| |]; cbn [rbind]; [|discriminate|discriminate]. intros H. injection H as <-. exists [("authorization", v)]. split; [reflexivity|]. right. eauto.
  Qed.
  Lemma build_names web sc hs k v : build_header web sc = Some hs -> In (k, v) hs -> k = "npm-scope" \/ k = "npm-auth-type" \/ k = "npm-command" \/ k = "content-type".
  Proof.
    unfold build_header. destruct sc as [s|]; [destruct (header_ok s); [|discriminate]|]; intros H; injection H as <-; cbn [In]; intuition congruence.
  Qed.
  Lemma no_otp web sc hs u h v : build_header web sc = Some hs -> handle m reg u (("x-oro-registry", ushow reg) :: hs) = Ok h -> ~ In ("npm-otp", v) h.
  Proof.
    intros Hb Hh Hin. destruct (handle_heads _ _ _ Hh) as (ex & -> & Hx). apply in_app_or in Hin as [[E|Hin]|Hin]; [discriminate E| |].
    - destruct (build_names _ _ _ _ _ Hb Hin) as [E|[E|[E|E]]]; discriminate E.
    - destruct Hx as [->|(w & ->)]; [destruct Hin|]. destruct Hin as [E|[]]. discriminate E.
  Qed.

  Ltac flow_cases := unfold login_flow, web_login, legacy_login, exchange.

  (** The password, the user name and the one-time password go to one place only: in a PUT to the user's own document on the registry that was asked for,
      never to an address the registry names, and only what was typed; the password is sent at most twice, the second time only after the
      registry has answered 401 and the one-time password has been asked for; and nothing of the kind happens in a web login. *)
  Theorem C57_password : forall web p answers ev o, flow web p answers = (ev, o) ->
    (forall method r u h name pass, In (Sent method r u h (Some (name, pass))) ev ->
       web = false /\ p_name p = Some name /\ p_pass p = Some pass /\ method = "PUT" /\ user_url reg name u
       /\ forall otp, In ("npm-otp", otp) h -> p_otp p = Some otp)
    /\ (forall method r u h otp, In (Sent method r u h None) ev -> ~ In ("npm-otp", otp) h)
    /\ List.length (filter has_secret ev) <= 2
    /\ (List.length (filter has_secret ev) = 2 -> In (Asked AskOtp) ev /\ exists r rest, answers = Some r :: rest /\ r_status r = 401%N).
  Proof.
    assert (PE : forall d a e, In e (fst (poll d a)) -> (exists u h, e = Sent "GET" (RDone d) u h None /\ forall v, ~ In ("npm-otp", v) h) \/ exists n, e = Slept n).
    { intros d. induction a as [|a l IH]; intros e; cbn [LoginModel.poll]; destruct (build_header true None) as [hs|] eqn:Eb; try (intros []; fail);
        (destruct (url_of reg (RDone d)) as [u|] eqn:Eu; [|intros []]); (destruct (handle m reg u _) as [h| |] eqn:Eh; [|intros []|intros []]); cbn [emit fst In].
      - intros [<-|[]]. left. exists u, h. split; [reflexivity|]. intros v. eapply no_otp; eauto.
      - intros [<-|H]; [left; exists u, h; split; [reflexivity|]; intros v; eapply no_otp; eauto|].
        destruct (done_answer number a) as [[t|n]| |]; cbn [emit fst In fails panics] in H; try destruct H. + right. eauto. + auto. }
    assert (P : forall d a, (forall me r u h n w, ~ In (Sent me r u h (Some (n, w))) (fst (poll d a))) /\ (forall me r u h otp, In (Sent me r u h None) (fst (poll d a)) -> ~ In ("npm-otp", otp) h)).
    { intros d a. split.
      - intros me r u h n w H. apply PE in H as [(u' & h' & E & _)|(k & E)]; discriminate E.
      - intros me r u h otp H. apply PE in H as [(u' & h' & E & Hn)|(k & E)]; [injection E as -> -> -> ->; apply Hn|discriminate E]. }
    intros web p answers ev o. flow_cases. destruct web.
    - destruct (build_header true scope) as [hs|] eqn:Eb; [|intros H; injection H as <- <-; cbn; repeat split; try easy; lia].
      destruct (url_of reg RLoginWeb) as [u|]; [|intros H; injection H as <- <-; cbn; repeat split; try easy; lia].
      destruct (handle m reg u _) as [h| |] eqn:Eh; [|intros H; injection H as <- <-; cbn; repeat split; try easy; lia..].
      set (k := match answers with [] => ([], Waiting) | _ => _ end). intros H. unfold emit in H. injection H as <- <-.
      assert (K : (forall me r u h n w, ~ In (Sent me r u h (Some (n, w))) (fst k)) /\ (forall me r u h otp, In (Sent me r u h None) (fst k) -> ~ In ("npm-otp", otp) h)).
      { unfold k. destruct answers as [|[r|] rest]; [easy| |easy]. destruct (N.leb 400 (r_status r)); [easy|]. destruct (login_web_of number (r_body r)) as [[lu du]|]; [|easy].
        destruct (p_opens p lu); cbn [emit fst fails]; [|split; [intros ? ? ? ? ? ? [E|[]]; discriminate E|intros ? ? ? ? ? [E|[]]; discriminate E]].
        destruct (P du rest) as [P1 P2]. split; [intros me r0 u0 h0 n w [E|H]; [discriminate E|eapply P1; eauto]|intros me r0 u0 h0 otp [E|H]; [discriminate E|eapply P2; eauto]]. }
      destruct K as [K1 K2].
      assert (F : filter has_secret (fst k) = []).
      { clear - K1. induction (fst k) as [|e l IH]; [reflexivity|]. cbn [filter]. destruct e as [?|?|me r u1 h1 [[n w]|]|?]; cbn [has_secret];
          try (apply IH; intros; intros Hi; eapply K1; right; exact Hi). destruct (K1 me r u1 h1 n w). now left. }
      cbn [filter has_secret]. rewrite F. cbn [List.length]. split; [|split; [|split; [lia|discriminate]]].
      + intros me r u0 h0 n w [E|H]; [discriminate E|]. destruct (K1 _ _ _ _ _ _ H).
      + intros me r u0 h0 otp [E|H]; [injection E as <- <- <- <-; eapply no_otp; eauto|eapply K2; eauto].
    - destruct (p_name p) as [name|] eqn:En; [|intros H; injection H as <- <-; cbn; repeat split; try lia; try discriminate; intros; intuition discriminate].
      destruct (p_pass p) as [pass|] eqn:Ep; [|intros H; injection H as <- <-; cbn; repeat split; try lia; try discriminate; intros; intuition discriminate].
      destruct (build_header false scope) as [hs|] eqn:Eb; [|intros H; injection H as <- <-; cbn; repeat split; try lia; try discriminate; intros; intuition discriminate].
      destruct (url_of reg (RLoginCouch name)) as [u|] eqn:Eu; [|intros H; injection H as <- <-; cbn; repeat split; try lia; try discriminate; intros; intuition discriminate].
      destruct (handle m reg u (("x-oro-registry", ushow reg) :: hs)) as [h| |] eqn:Eh; [|intros H; injection H as <- <-; cbn; repeat split; try lia; try discriminate; intros; intuition discriminate..].
      pose proof (couch_url' name u Eu) as Uu. set (k := match answers with [] => ([], Waiting) | _ => _ end). intros H. unfold emit in H. cbn [fst snd] in H. injection H as <- <-.
      (* what follows the first request *)
      assert (K : ((forall me r u h n w, ~ In (Sent me r u h (Some (n, w))) (fst k)) /\ (forall me r u h otp, In (Sent me r u h None) (fst k) -> ~ In ("npm-otp", otp) h))
        \/ exists otp h' tail, p_otp p = Some otp /\ fst k = [Asked AskOtp; Sent "PUT" (RLoginCouch name) u h' (Some (name, pass))] ++ tail /\ tail = []
             /\ handle m reg u (("x-oro-registry", ushow reg) :: hs ++ [("npm-otp", otp)]) = Ok h' /\ exists r rest, answers = Some r :: rest /\ r_status r = 401%N).
      { unfold k. destruct answers as [|a rest]; [left; easy|]. destruct (couch_answer number false a) as [[auth done| |t]| |] eqn:Ea; [| |left; easy..].
        - left. destruct (p_opens p auth); cbn [emit fst fails]; [|split; [intros ? ? ? ? ? ? [E|[]]; discriminate E|intros ? ? ? ? ? [E|[]]; discriminate E]].
          destruct (P done rest) as [P1 P2]. split; [intros me r0 u0 h0 n w [E|H]; [discriminate E|eapply P1; eauto]|intros me r0 u0 h0 otp [E|H]; [discriminate E|eapply P2; eauto]].
        - assert (exists r, a = Some r /\ r_status r = 401%N) as (r & -> & E4).
          { unfold couch_answer in Ea. destruct a as [r|]; [|discriminate]. destruct (N.eqb (r_status r) 400); [discriminate|]. destruct (N.eqb_spec (r_status r) 401) as [E|_]; [eauto|].
            destruct (N.leb 400 (r_status r)); [discriminate|]. destruct (token_of (r_body r)); discriminate. }
          destruct (p_otp p) as [otp|]; cbn [emit fst fails]; [|left; split; [intros ? ? ? ? ? ? [E|[]]; discriminate E|intros ? ? ? ? ? [E|[]]; discriminate E]].
          destruct (header_ok otp); cbn [fst panics]; [|left; split; [intros ? ? ? ? ? ? [E|[]]; discriminate E|intros ? ? ? ? ? [E|[]]; discriminate E]].
          destruct (handle m reg u (("x-oro-registry", ushow reg) :: hs ++ [("npm-otp", otp)])) as [h'| |] eqn:Eh'; cbn [fst fails];
            [|left; split; [intros ? ? ? ? ? ? [E|[]]; discriminate E|intros ? ? ? ? ? [E|[]]; discriminate E]..].
          right. exists otp, h', []. split; [reflexivity|]. split; [|split; [reflexivity|split; [exact Eh'|eauto]]]. cbn [app]. do 2 f_equal.
          destruct rest as [|a' rest']; [reflexivity|]. destruct (couch_answer number true a') as [[? ?| |?]| |]; reflexivity. }
      destruct K as [[K1 K2]|(otp & h' & tail & Eo & Ek & -> & Eh' & r & rest & -> & E4)].
      + assert (F : filter has_secret (fst k) = []).
        { clear - K1. induction (fst k) as [|e l IH]; [reflexivity|]. cbn [filter]. destruct e as [?|?|me r u1 h1 [[n w]|]|?]; cbn [has_secret];
            try (apply IH; intros; intros Hi; eapply K1; right; exact Hi). destruct (K1 me r u1 h1 n w). now left. }
        cbn [filter has_secret]. rewrite F. cbn [List.length]. split; [|split; [|split; [lia|discriminate]]].
        * intros me r u0 h0 n w [E|[E|[E|H]]]; [discriminate E|discriminate E| |destruct (K1 _ _ _ _ _ _ H)]. injection E as <- <- <- <- <- <-. repeat (split; [auto|]).
          intros otp Ho. destruct (no_otp _ _ _ _ _ _ Eb Eh Ho).
        * intros me r u0 h0 otp [E|[E|[E|H]]]; [discriminate E|discriminate E|discriminate E|eapply K2; eauto].
      + rewrite Ek. cbn [app filter has_secret List.length]. split; [|split; [|split; [lia|intros _; split; [cbn; auto|eauto]]]].
        * intros me r0 u0 h0 n w [E|[E|[E|[E|[E|[]]]]]]; try discriminate E; injection E as <- <- <- <- <- <-; repeat (split; [auto|]); intros otp' Ho.
          -- destruct (no_otp _ _ _ _ _ _ Eb Eh Ho).
          -- destruct (handle_heads _ _ _ Eh') as (ex & -> & Hx). apply in_app_or in Ho as [[E|Ho]|Ho]; [discriminate E| |].
             ++ apply in_app_or in Ho as [Ho|[E|[]]]; [destruct (build_names _ _ _ _ _ Eb Ho) as [E|[E|[E|E]]]; discriminate E|]. injection E as <-. exact Eo.
             ++ destruct Hx as [->|(w' & ->)]; [destruct Ho|]. destruct Ho as [E|[]]. discriminate E.
        * intros me r0 u0 h0 otp' [E|[E|[E|[E|[E|[]]]]]]; discriminate E.
  Qed.

  (** the address at which a registry's answer says the result can be fetched *)
  Definition names_done (body d : string) : Prop := exists v, jread number body = Some v /\ field v "doneUrl" = Some (JStr d).

  (** Nobody else is asked: each request is the web login of the registry (POST), the user's document on it (PUT), or a GET of the address that the
      registry's first answer names; and what is opened in the browser is a string from that answer too. *)
  Theorem C57_contacts : forall web p answers ev o, flow web p answers = (ev, o) ->
    (forall method r u h secret, In (Sent method r u h secret) ev ->
       url_of reg r = Some u /\
       ((method = "POST" /\ r = RLoginWeb /\ web = true) \/ (method = "PUT" /\ exists name, p_name p = Some name /\ r = RLoginCouch name /\ web = false)
        \/ (method = "GET" /\ exists d r0 rest, r = RDone d /\ answers = Some r0 :: rest /\ names_done (r_body r0) d)))
    /\ (forall a, In (Opened a) ev -> exists r0 rest v, answers = Some r0 :: rest /\ jread number (r_body r0) = Some v
         /\ field v (if web then "loginUrl" else "authUrl") = Some (JStr a)).
  Proof.
    assert (PE : forall d a e, In e (fst (poll d a)) -> (exists u h, e = Sent "GET" (RDone d) u h None /\ url_of reg (RDone d) = Some u) \/ exists n, e = Slept n)
      by exact poll_events.
    intros web p answers ev o. flow_cases. destruct web.
    - destruct (build_header true scope) as [hs|]; [|intros H; injection H as <- <-; split; intros; contradiction].
      destruct (url_of reg RLoginWeb) as [u|] eqn:Eu; [|intros H; injection H as <- <-; split; intros; contradiction].
      destruct (handle m reg u _) as [h| |]; [|intros H; injection H as <- <-; split; intros; contradiction..].
      unfold emit. intros H. injection H as <- <-. destruct answers as [|[r|] rest].
      + split; [|intros a [E|[]]; discriminate E]. intros me r u0 h0 se [E|[]]. injection E as <- <- <- <- <-. split; [exact Eu|auto].
      + destruct (N.leb 400 (r_status r)).
        { split; [|intros a [E|[]]; discriminate E]. intros me r0 u0 h0 se [E|[]]. injection E as <- <- <- <- <-. split; [exact Eu|auto]. }
        destruct (login_web_of number (r_body r)) as [[lu du]|] eqn:El.
        2: { split; [|intros a [E|[]]; discriminate E]. intros me r0 u0 h0 se [E|[]]. injection E as <- <- <- <- <-. split; [exact Eu|auto]. }
        unfold login_web_of in El. destruct (jread number (r_body r)) as [v|] eqn:Ej; [|discriminate]. cbn [obind] in El. unfold str_field in El.
        destruct (field v "loginUrl") as [[ | | |lu'| |]|] eqn:E1; try discriminate. destruct (field v "doneUrl") as [[ | | |du'| |]|] eqn:E2; try discriminate. injection El as -> ->.
        destruct (p_opens p lu); cbn [emit fst fails]; split.
        * intros me r0 u0 h0 se [E|[E|H]]; [injection E as <- <- <- <- <-; split; [exact Eu|auto]|discriminate E|].
          apply PE in H as [(u' & h' & E & Eu')|(n & E)]; [|discriminate E]. injection E as -> -> -> -> ->. split; [exact Eu'|]. right. right. split; [reflexivity|]. exists du, r, rest.
          split; [reflexivity|]. split; [reflexivity|]. exists v. auto.
        * intros a [E|[E|H]]; [discriminate E| |apply PE in H as [(u' & h' & E & Eu')|(n & E)]; discriminate E]. injection E as <-. exists r, rest, v. auto.
        * intros me r0 u0 h0 se [E|[E|[]]]; [injection E as <- <- <- <- <-; split; [exact Eu|auto]|discriminate E].
        * intros a [E|[E|[]]]; [discriminate E|]. injection E as <-. exists r, rest, v. auto.
      + split; [|intros a [E|[]]; discriminate E]. intros me r u0 h0 se [E|[]]. injection E as <- <- <- <- <-. split; [exact Eu|auto].
    - destruct (p_name p) as [name|] eqn:En; [|intros H; injection H as <- <-; split; [intros ? ? ? ? ? [E|[]]; discriminate E|intros ? [E|[]]; discriminate E]].
      destruct (p_pass p) as [pass|]; [|intros H; injection H as <- <-; split; [intros ? ? ? ? ? [E|[E|[]]]; discriminate E|intros ? [E|[E|[]]]; discriminate E]].
      destruct (build_header false scope) as [hs|]; [|intros H; injection H as <- <-; split; [intros ? ? ? ? ? [E|[E|[]]]; discriminate E|intros ? [E|[E|[]]]; discriminate E]].
      destruct (url_of reg (RLoginCouch name)) as [u|] eqn:Eu; [|intros H; injection H as <- <-; split; [intros ? ? ? ? ? [E|[E|[]]]; discriminate E|intros ? [E|[E|[]]]; discriminate E]].
      destruct (handle m reg u (("x-oro-registry", ushow reg) :: hs)) as [h| |]; [|intros H; injection H as <- <-; split; [intros ? ? ? ? ? [E|[E|[]]]; discriminate E|intros ? [E|[E|[]]]; discriminate E]..].
      set (k := match answers with [] => ([], Waiting) | _ => _ end). unfold emit. cbn [fst snd]. intros H. injection H as <- <-.
      assert (K : (forall method r u h secret, In (Sent method r u h secret) (fst k) ->
         url_of reg r = Some u /\ ((method = "PUT" /\ exists name, p_name p = Some name /\ r = RLoginCouch name /\ false = false)
          \/ (method = "GET" /\ exists d r0 rest, r = RDone d /\ answers = Some r0 :: rest /\ names_done (r_body r0) d)))
        /\ (forall a, In (Opened a) (fst k) -> exists r0 rest v, answers = Some r0 :: rest /\ jread number (r_body r0) = Some v /\ field v "authUrl" = Some (JStr a))).
      { unfold k. destruct answers as [|a rest]; [split; intros; contradiction|]. destruct (couch_answer number false a) as [[auth done| |t]| |] eqn:Ea; [| |split; intros; contradiction..].
        - assert (exists r v, a = Some r /\ jread number (r_body r) = Some v /\ field v "authUrl" = Some (JStr auth) /\ field v "doneUrl" = Some (JStr done)) as (r & v & -> & Ej & E1 & E2).
          { unfold couch_answer in Ea. destruct a as [r|]; [|discriminate]. destruct (N.eqb (r_status r) 400); [discriminate|]. destruct (N.eqb (r_status r) 401).
            - destruct (match r_www r with None => Some "" | Some h => option_map ScriptEnv.lower (to_str h) end) as [www|]; [|discriminate]. destruct (orb _ _); [|discriminate].
              unfold web_otp_of in Ea. destruct (jread number (r_body r)) as [v|] eqn:Ej; [|discriminate]. destruct (is_obj v); [|discriminate]. unfold opt_field in Ea.
              destruct (field v "authUrl") as [[ | | |x| |]|] eqn:E1; try discriminate; destruct (field v "doneUrl") as [[ | | |y| |]|] eqn:E2; try discriminate; injection Ea as -> ->; exists r, v; auto.
            - destruct (N.leb 400 (r_status r)); [discriminate|]. destruct (token_of (r_body r)); discriminate. }
          destruct (p_opens p auth); cbn [emit fst fails]; split.
          + intros me r0 u0 h0 se [E|H]; [discriminate E|]. apply PE in H as [(u' & h' & E & Eu')|(n & E)]; [|discriminate E]. injection E as -> -> -> -> ->. split; [exact Eu'|].
            right. split; [reflexivity|]. exists done, r, rest. split; [reflexivity|]. split; [reflexivity|]. exists v. auto.
          + intros a [E|H]; [|apply PE in H as [(u' & h' & E & Eu')|(n & E)]; discriminate E]. injection E as <-. exists r, rest, v. auto.
          + intros me r0 u0 h0 se [E|[]]. discriminate E.
          + intros a [E|[]]. injection E as <-. exists r, rest, v. auto.
        - destruct (p_otp p) as [otp|]; cbn [emit fst fails]; [|split; [intros ? ? ? ? ? [E|[]]; discriminate E|intros ? [E|[]]; discriminate E]].
          destruct (header_ok otp); cbn [fst panics]; [|split; [intros ? ? ? ? ? [E|[]]; discriminate E|intros ? [E|[]]; discriminate E]].
          destruct (handle m reg u _) as [h'| |]; cbn [fst fails]; [|split; [intros ? ? ? ? ? [E|[]]; discriminate E|intros ? [E|[]]; discriminate E]..].
          assert (F : forall x, In x (fst (match rest with [] => ([], Waiting) | a' :: _ => match couch_answer number true a' with Err e => fails e | Panic => panics | Ok (CToken t) => ([], Done (Ok t)) | Ok _ => fails LUnexpected end end)) -> False).
          { destruct rest as [|a' rest']; [intros ? []|]. destruct (couch_answer number true a') as [[? ?| |?]| |]; intros ? []. }
          split; [|intros ? [E|[E|E]]; [discriminate E|discriminate E|destruct (F _ E)]]. intros me r0 u0 h0 se [E|[E|E]]; [discriminate E| |destruct (F _ E)]. injection E as <- <- <- <- <-. split; [exact Eu|]. left. split; [reflexivity|]. eauto. }
      destruct K as [K1 K2]. split.
      + intros me r0 u0 h0 se [E|[E|[E|H]]]; [discriminate E|discriminate E| |].
        * injection E as <- <- <- <- <-. split; [exact Eu|]. right. left. split; [reflexivity|]. exists name. auto.
        * destruct (K1 _ _ _ _ _ H) as (A & B). split; [exact A|]. rewrite <- En. tauto.
      + intros a [E|[E|[E|H]]]; [discriminate E|discriminate E|discriminate E|]. exact (K2 a H).
  Qed.

  (** A login succeeds only with a token the registry handed out: the last request was answered with a success status and a JSON object with that token. *)
  Theorem C57_token : forall web p answers ev t, flow web p answers = (ev, Done (Ok t)) ->
    exists r v, nth_error answers (sent_count ev - 1) = Some (Some r) /\ (r_status r < 400)%N /\ jread number (r_body r) = Some v /\ field v "token" = Some (JStr t).
  Proof.
    assert (T : forall b t, token_of b = Some t -> exists v, jread number b = Some v /\ field v "token" = Some (JStr t)).
    { intros b t. unfold LoginModel.token_of. destruct (jread number b) as [v|]; [|discriminate]. cbn [obind]. unfold str_field. destruct (field v "token") as [[ | | |x| |]|] eqn:E; try discriminate.
      intros H. injection H as ->. eauto. }
    assert (PT : forall d answers t, snd (poll d answers) = Done (Ok t) -> exists r v, nth_error answers (sent_count (fst (poll d answers)) - 1) = Some (Some r) /\ (r_status r < 400)%N
      /\ jread number (r_body r) = Some v /\ field v "token" = Some (JStr t) /\ sent_count (fst (poll d answers)) >= 1).
    { intros d answers t H. destruct (poll_token d answers t H) as (r & A & B & C & D). destruct (T _ _ C) as (v & C1 & C2). exists r, v. split; [exact A|]. split; [rewrite B; reflexivity|auto]. }
    assert (C : forall otp a t, couch_answer number otp a = Ok (CToken t) -> exists r v, a = Some r /\ (r_status r < 400)%N /\ jread number (r_body r) = Some v /\ field v "token" = Some (JStr t)).
    { intros otp a t H. unfold couch_answer in H. destruct a as [r|]; [|discriminate]. destruct (N.eqb (r_status r) 400); [discriminate|]. destruct (N.eqb (r_status r) 401).
      - destruct (match r_www r with None => Some "" | Some h => option_map ScriptEnv.lower (to_str h) end) as [www|]; [|discriminate]. destruct (orb _ _); [|discriminate].
        destruct otp; [discriminate|]. destruct (web_otp_of number (r_body r)) as [[?|] [?|]]; discriminate.
      - destruct (N.leb_spec 400 (r_status r)); [discriminate|]. destruct (token_of (r_body r)) as [x|] eqn:E; [|discriminate]. injection H as ->. destruct (T _ _ E) as (v & E1 & E2). exists r, v. auto. }
    intros web p answers ev t. flow_cases. destruct web.
    - destruct (build_header true scope) as [hs|]; [|discriminate]. destruct (url_of reg RLoginWeb) as [u|]; [|discriminate]. destruct (handle m reg u _) as [h| |]; [|discriminate..].
      unfold emit. destruct answers as [|[r|] rest]; [discriminate| |discriminate]. destruct (N.leb 400 (r_status r)); [discriminate|].
      destruct (login_web_of number (r_body r)) as [[lu du]|]; [|discriminate]. destruct (p_opens p lu); [|discriminate]. cbn [fst snd]. intros H. injection H as <- H.
      destruct (PT du rest t H) as (r1 & v & A & B & C1 & D & E). exists r1, v. split; [|auto]. unfold sent_count in *. cbn [filter is_sent List.length].
      replace (S (List.length (filter is_sent (fst (poll du rest)))) - 1) with (S (List.length (filter is_sent (fst (poll du rest))) - 1)) by lia. exact A.
    - destruct (p_name p) as [name|]; [|discriminate]. destruct (p_pass p) as [pass|]; [|discriminate]. destruct (build_header false scope) as [hs|]; [|discriminate].
      destruct (url_of reg (RLoginCouch name)) as [u|]; [|discriminate]. destruct (handle m reg u (("x-oro-registry", ushow reg) :: hs)) as [h| |]; [|discriminate..].
      unfold emit. destruct answers as [|a rest]; [discriminate|]. cbn [fst snd]. destruct (couch_answer number false a) as [[auth done| |t']| |] eqn:Ea; [| | |discriminate..].
      + destruct (p_opens p auth); [|discriminate]. cbn [fst snd]. intros H. injection H as <- H. destruct (PT done rest t H) as (r1 & v & A & B & C1 & D & E). exists r1, v. split; [|auto].
        unfold sent_count in *. cbn [filter is_sent List.length].
        replace (S (List.length (filter is_sent (fst (poll done rest)))) - 1) with (S (List.length (filter is_sent (fst (poll done rest))) - 1)) by lia. exact A.
      + destruct (p_otp p) as [otp|]; [|discriminate]. destruct (header_ok otp); [|discriminate]. destruct (handle m reg u _) as [h'| |]; [|discriminate..]. destruct rest as [|a' rest]; [discriminate|].
        destruct (couch_answer number true a') as [[? ?| |t']| |] eqn:Ea'; try discriminate. cbn [fst snd]. intros H. injection H as <- <-. destruct (C _ _ _ Ea') as (r & v & -> & R). exists r, v. split; [reflexivity|exact R].
      + cbn [fst snd]. intros H. injection H as <- <-. destruct (C _ _ _ Ea) as (r & v & -> & R). exists r, v. split; [reflexivity|exact R].
  Qed.

  (** Polling, exactly: after the registry has named the two addresses, the result address is asked once, and once more after each answer that tells to
      wait, with the pause it asked for; the first other answer ends the login, and as long as there is none it goes on. *)
  Lemma poll_waits d u h hs : build_header true None = Some hs -> uparse d = Some u -> handle m reg u (("x-oro-registry", ushow reg) :: hs) = Ok h ->
    forall waits ns rest, Forall2 says_wait waits ns ->
    poll d (waits ++ rest) = (flat_map (fun n => [Sent "GET" (RDone d) u h None; Slept n]) ns ++ fst (poll d rest), snd (poll d rest)).
  Proof.
    intros Hb Hu Hh waits ns rest F. induction F as [|a n waits ns (r & x & -> & E1 & E2 & E3 & E4) F IH]; [cbn [app flat_map]; destruct (poll d rest); reflexivity|].
    cbn [app flat_map]. cbn [LoginModel.poll]. rewrite Hb. cbn [request_url]. rewrite Hu, Hh. unfold done_answer. rewrite E1, E2. cbn [N.eqb Pos.eqb]. unfold to_str. rewrite E3. cbn [obind]. rewrite E4.
    unfold emit. rewrite IH. reflexivity.
  Qed.
  Lemma poll_last d u h hs : build_header true None = Some hs -> uparse d = Some u -> handle m reg u (("x-oro-registry", ushow reg) :: hs) = Ok h ->
    forall rest, (forall a rest', rest = a :: rest' -> forall n, ~ says_wait a n) ->
    fst (poll d rest) = [Sent "GET" (RDone d) u h None] /\
    match rest with
    | [] => snd (poll d rest) = Waiting
    | a :: _ => forall o, snd (poll d rest) = o -> (exists x, o = Done x) /\ forall t, o = Done (Ok t) <-> exists r, a = Some r /\ r_status r = 200%N /\ token_of (r_body r) = Some t
    end.
  Proof.
    intros Hb Hu Hh rest N. destruct rest as [|a rest]; cbn [LoginModel.poll]; rewrite Hb; cbn [request_url]; rewrite Hu, Hh; [split; reflexivity|]. specialize (N a rest eq_refl).
    unfold done_answer. destruct a as [r|].
    2: { split; [reflexivity|]. intros o <-. split; [eexists; reflexivity|]. intros t. split; [discriminate|intros (r & E & _); discriminate E]. }
    destruct (N.eqb_spec (r_status r) 200) as [E|E].
    - destruct (token_of (r_body r)) as [t|] eqn:Et; (split; [reflexivity|]); intros o <-; (split; [eexists; reflexivity|]); intros t'; cbn [emit snd fails]; split.
      + intros H. injection H as <-. exists r. auto.
      + intros (r' & E1 & _ & E2). injection E1 as <-. congruence.
      + discriminate.
      + intros (r' & E1 & _ & E2). injection E1 as <-. congruence.
    - destruct (N.eqb_spec (r_status r) 202) as [E2|E2].
      + destruct (r_retry r) as [x|] eqn:Er.
        * destruct (obind (to_str x) parse_u64) as [n|] eqn:Ep.
          -- destruct (N n). exists r, x. unfold to_str in Ep. destruct (all_chars visible_char x) eqn:Ev; [|discriminate]. auto.
          -- split; [reflexivity|]. intros o <-. split; [eexists; reflexivity|]. intros t. split; [discriminate|intros (r' & E1 & E3 & _); injection E1 as <-; congruence].
        * split; [reflexivity|]. intros o <-. split; [eexists; reflexivity|]. intros t. split; [discriminate|intros (r' & E1 & E3 & _); injection E1 as <-; congruence].
      + split; [reflexivity|]. intros o <-. split; [eexists; reflexivity|]. intros t. split; [discriminate|intros (r' & E1 & E3 & _); injection E1 as <-; congruence].
  Qed.
  (** what has to be in order before the two requests can be sent: the addresses and the headers *)
  Definition sendable (r : request) (sc : option string) (u : url) (h : list header) : Prop :=
    exists hs, build_header true sc = Some hs /\ url_of reg r = Some u /\ handle m reg u (("x-oro-registry", ushow reg) :: hs) = Ok h.
  Theorem C57_polls : forall p r v login_url done_url u h u1 h1 waits ns rest, Forall2 says_wait waits ns ->
    (forall a rest', rest = a :: rest' -> forall n, ~ says_wait a n) ->
    (r_status r < 400)%N -> jread number (r_body r) = Some v -> field v "loginUrl" = Some (JStr login_url) -> field v "doneUrl" = Some (JStr done_url) ->
    p_opens p login_url = true -> sendable RLoginWeb scope u h -> sendable (RDone done_url) None u1 h1 ->
    let get := Sent "GET" (RDone done_url) u1 h1 None in
    exists o, flow true p (Some r :: waits ++ rest) = (Sent "POST" RLoginWeb u h None :: Opened login_url :: flat_map (fun n => [get; Slept n]) ns ++ [get], o)
    /\ match rest with
       | [] => o = Waiting
       | a :: _ => (exists x, o = Done x) /\ forall t, o = Done (Ok t) <-> exists r', a = Some r' /\ r_status r' = 200%N /\ token_of (r_body r') = Some t
       end.
  Proof.
    intros p r v lu du u h u1 h1 waits ns rest F N Hs Hj E1 E2 Ho (hs & B1 & B2 & B3) (hs1 & C1 & C2 & C3) get. cbn [request_url] in C2.
    destruct (poll_last du u1 h1 hs1 C1 C2 C3 rest N) as (P1 & P2). eexists. split.
    - unfold login_flow, web_login, exchange. rewrite B1, B2, B3. destruct (N.leb_spec 400 (r_status r)) as [L|_]; [lia|].
      unfold login_web_of. rewrite Hj. cbn [obind]. unfold str_field. rewrite E1, E2, Ho. unfold emit. cbn [fst snd]. rewrite (poll_waits du u1 h1 hs1 C1 C2 C3 waits ns rest F), P1. reflexivity.
    - destruct rest as [|a rest]; [exact P2|]. exact (P2 _ eq_refl).
  Qed.

  (** It never crashes if the scope and the one-time password can be headers and the registry's headers are as expected: www-authenticate is ASCII and
      retry-after, when it tells to wait, a number of seconds. Missing: other answers (C57_refuted). *)
  Definition expected (a : answer) : Prop := forall r, a = Some r ->
    (forall w, r_www r = Some w -> all_chars visible_char w = true) /\ (forall w, r_retry r = Some w -> all_chars visible_char w = true /\ exists n, parse_u64 w = Some n).
  Theorem C57_no_crash_partial : forall web p answers ev o, flow web p answers = (ev, o) -> (forall s, scope = Some s -> header_ok s = true) -> (forall s, p_otp p = Some s -> header_ok s = true) ->
    Forall expected answers -> o <> Done Panic.
  Proof.
    assert (D : forall a, expected a -> done_answer number a <> Panic).
    { intros [r|] Ha; cbn [done_answer]; [|discriminate]. destruct (Ha r eq_refl) as (_ & H). destruct (N.eqb (r_status r) 200); [destruct (token_of (r_body r)); discriminate|].
      destruct (N.eqb (r_status r) 202); [|discriminate]. destruct (r_retry r) as [w|]; [|discriminate]. destruct (H w eq_refl) as (V & n & En). unfold to_str. rewrite V. cbn [obind]. rewrite En. discriminate. }
    assert (P : forall d answers, Forall expected answers -> snd (poll d answers) <> Done Panic).
    { intros d. induction answers as [|a l IH]; intros F; cbn [LoginModel.poll build_header]; (destruct (url_of reg (RDone d)) as [u|]; [|discriminate]);
        (destruct (handle m reg u _) as [h| |]; [|discriminate..]); unfold emit; cbn [snd]; [discriminate|].
      pose proof (D a (Forall_inv F)) as Da. destruct (done_answer number a) as [[t|n]| |]; cbn [snd fails]; try discriminate; [exact (IH (Forall_inv_tail F))|contradiction]. }
    assert (C : forall otp a, expected a -> couch_answer number otp a <> Panic).
    { intros otp [r|] Ha; cbn [couch_answer]; [|discriminate]. destruct (Ha r eq_refl) as (H & _). destruct (N.eqb (r_status r) 400); [discriminate|]. destruct (N.eqb (r_status r) 401).
      - assert (exists w, match r_www r with None => Some "" | Some h => option_map ScriptEnv.lower (to_str h) end = Some w) as (w & ->).
        { destruct (r_www r) as [x|]; [|eauto]. unfold to_str. rewrite (H x eq_refl). cbn. eauto. }
        destruct (orb _ _); [|discriminate]. destruct otp; [discriminate|]. destruct (web_otp_of number (r_body r)) as [[?|] [?|]]; discriminate.
      - destruct (N.leb 400 (r_status r)); [discriminate|]. destruct (token_of (r_body r)); discriminate. }
    assert (B : (forall s, scope = Some s -> header_ok s = true) -> forall w, exists hs, build_header w scope = Some hs).
    { intros H w. unfold build_header. destruct scope as [s|]; [rewrite (H s eq_refl)|]; eauto. }
    intros web p answers ev o H Hsc Hotp F -> . revert H. flow_cases. destruct web.
    - destruct (B Hsc true) as (hs & ->). destruct (url_of reg RLoginWeb) as [u|]; [|discriminate]. destruct (handle m reg u _) as [h| |]; [|discriminate..]. unfold emit.
      destruct answers as [|[r|] rest]; [discriminate| |discriminate]. destruct (N.leb 400 (r_status r)); [discriminate|]. destruct (login_web_of number (r_body r)) as [[lu du]|]; [|discriminate].
      destruct (p_opens p lu); [|discriminate]. cbn [fst snd]. intros H. injection H as _ H. exact (P du rest (Forall_inv_tail F) H).
    - destruct (p_name p) as [name|]; [|discriminate]. destruct (p_pass p) as [pass|]; [|discriminate]. destruct (B Hsc false) as (hs & ->).
      destruct (url_of reg (RLoginCouch name)) as [u|]; [|discriminate]. destruct (handle m reg u (("x-oro-registry", ushow reg) :: hs)) as [h| |]; [|discriminate..].
      unfold emit. destruct answers as [|a rest]; [discriminate|]. cbn [fst snd]. pose proof (C false a (Forall_inv F)) as Ca.
      destruct (couch_answer number false a) as [[auth done| |t']| |] eqn:Ea; [| |discriminate|discriminate|contradiction].
      + destruct (p_opens p auth); [|discriminate]. cbn [fst snd]. intros H. injection H as _ H. exact (P done rest (Forall_inv_tail F) H).
      + destruct (p_otp p) as [otp|]; [|discriminate]. rewrite (Hotp otp eq_refl). destruct (handle m reg u _) as [h'| |]; [|discriminate..]. destruct rest as [|a' rest]; [discriminate|].
        pose proof (C true a' (Forall_inv (Forall_inv_tail F))) as Ca'. destruct (couch_answer number true a') as [[? ?| |t']| |] eqn:Ea'; try discriminate. contradiction.
  Qed.

  (** The command: when it succeeds without credentials on the command line, exactly the token from the conversation (C57_token) has been saved for the
      registry, and the scope if given; in every other case (an error, a crash, still waiting) the configuration is as before. *)
  Theorem C57_saved : forall a web p answers d ev res d', lg_token a = None -> lg_user a = None -> lg_legacy a = None ->
    login_command number join_other uparse m reg scope a web p answers d = (ev, res, d') ->
    exists o, flow web p answers = (ev, o) /\
      ((exists t, o = Done (Ok t) /\ res = Some (Ok tt) /\ d' = perform_all uparse (Save reg (SToken t) :: match lg_scope a with Some s => [Scope s reg] | None => [] end) d)
       \/ ((forall t, o <> Done (Ok t)) /\ res <> Some (Ok tt) /\ d' = d)).
  Proof.
    intros a web p answers d ev res d' H1 H2 H3. unfold login_command. rewrite H1, H2, H3. destruct (flow web p answers) as [e [|[t| |]]].
    - intros H. injection H as <- <- <-. exists Waiting. split; [reflexivity|]. right. repeat split; discriminate.
    - destruct (login uparse reg a (Some t) d) as [d1| |] eqn:El.
      + intros H. injection H as <- <- <-. exists (Done (Ok t)). split; [reflexivity|]. left. exists t. split; [reflexivity|]. split; [reflexivity|].
        apply C33_login in El. destruct El as (c & Hc & ->). destruct Hc as [t' E|n E E'|t' E E' E''|t' E E' E'' E3]; try congruence; injection E3 as <-; reflexivity.
      + exfalso. unfold login, login_cred in El. rewrite H1, H2, H3 in El. discriminate El.
      + exfalso. unfold login, login_cred in El. rewrite H1, H2, H3 in El. discriminate El.
    - intros H. injection H as <- <- <-. eexists. split; [reflexivity|]. right. repeat split; discriminate.
    - intros H. injection H as <- <- <-. eexists. split; [reflexivity|]. right. repeat split; discriminate.
  Qed.
End Thms.

(** ** A registry, a person, and some conversations *)
Definition ex_reg : url := mkUrl "https" None (Some "registry.npmjs.org") None "/" None None.
Definition ex_other (_ : url) (_ : string) : option url := None.
Definition done_text : string := "https://registry.npmjs.org/-/v1/done?sid=1".
Definition ex_done : url := mkUrl "https" None (Some "registry.npmjs.org") None "/-/v1/done" (Some "sid=1") None.
Definition ex_uparse (s : string) : option url := if String.eqb s done_text then Some ex_done else None.
Definition ex_person : person := mkPerson (Some "zk a") (Some "hunter2") (Some "123456") (fun _ => true).
Definition q (s : string) : string := (String """" (s ++ String """" ""))%string.
Definition login_body : string := ("{" ++ q "loginUrl" ++ ":" ++ q "https://www.npmjs.com/login?next=1" ++ "," ++ q "doneUrl" ++ ":" ++ q done_text ++ "}")%string.
Definition token_body (t : string) : string := ("{" ++ q "token" ++ ":" ++ q t ++ "}")%string.
Definition wait_answer (n : string) : answer := Some (mkResp 202 None (Some n) "{}").
Definition ok_answer (b : string) : answer := Some (mkResp 200 None None b).
Notation ex_flow := (login_flow int_number ex_other ex_uparse [] ex_reg).
Definition ex_heads (extra : list header) (t : string) (sc : list header) : list header :=
  ("x-oro-registry", "https://registry.npmjs.org/") :: sc ++ [("npm-auth-type", t); ("npm-command", "login"); ("content-type", "application/json")] ++ extra.
Definition ex_get : event := Sent "GET" (RDone done_text) ex_done (ex_heads [] "web" []) None.
Definition ex_login_url : url := mkUrl "https" None (Some "registry.npmjs.org") None "/-/v1/login" None None.

(** a web login with two waits, as C57_polls says; the hypotheses of C57_polls are met *)
Example ex_web : ex_flow (Some "@a") true ex_person [ok_answer login_body; wait_answer "5"; wait_answer "10"; ok_answer (token_body "npm_abc")]
  = ([Sent "POST" RLoginWeb ex_login_url (ex_heads [] "web" [("npm-scope", "@a")]) None; Opened "https://www.npmjs.com/login?next=1"; ex_get; Slept 5; ex_get; Slept 10; ex_get], Done (Ok "npm_abc")).
Proof. vm_compute. reflexivity. Qed.
Example ex_polls_hyps : Forall2 says_wait [wait_answer "5"; wait_answer "10"] [5; 10]%N
  /\ (forall n, ~ says_wait (ok_answer (token_body "npm_abc")) n)
  /\ sendable ex_other ex_uparse [] ex_reg RLoginWeb (Some "@a") ex_login_url (ex_heads [] "web" [("npm-scope", "@a")])
  /\ sendable ex_other ex_uparse [] ex_reg (RDone done_text) None ex_done (ex_heads [] "web" []).
Proof.
  split; [|split; [|split]].
  - constructor; [|constructor; [|constructor]]; eexists _, _; repeat split; vm_compute; reflexivity.
  - intros n (r & h & E & E2 & _). unfold ok_answer in E. injection E as <-. discriminate E2.
  - eexists. vm_compute. repeat split; reflexivity.
  - eexists. vm_compute. repeat split; reflexivity.
Qed.
(** a legacy login with a one-time password: the password is sent twice, to the user's document, whose name is escaped *)
Definition ex_user_url : url := mkUrl "https" None (Some "registry.npmjs.org") None "/-/user/org.couchdb.user:zk%20a" None None.
Example ex_legacy : ex_flow None false ex_person [Some (mkResp 401 (Some "OTP") None "{}"); ok_answer (token_body "npm_xyz")]
  = ([Asked AskName; Asked AskPassword; Sent "PUT" (RLoginCouch "zk a") ex_user_url (ex_heads [] "legacy" []) (Some ("zk a", "hunter2")); Asked AskOtp;
      Sent "PUT" (RLoginCouch "zk a") ex_user_url (ex_heads [("npm-otp", "123456")] "legacy" []) (Some ("zk a", "hunter2"))], Done (Ok "npm_xyz")).
Proof. vm_compute. reflexivity. Qed.
Example ex_expected : Forall expected [ok_answer login_body; wait_answer "5"; ok_answer (token_body "npm_abc")].
Proof. repeat (apply Forall_cons); try apply Forall_nil; intros r E; injection E as <-; (split; [intros w E; discriminate E|]); intros w E; cbn in E; try discriminate E. injection E as <-. split; [reflexivity|]. exists 5%N. reflexivity. Qed.
(** the command saves that token and nothing else; an interrupted login leaves the file as it was *)
Definition ex_args : login_args := mkLogin None None None None (Some "@a").
Example ex_saved : let run := login_command int_number ex_other ex_uparse [] ex_reg (Some "@a") ex_args true ex_person in
  (exists ev d', run [ok_answer login_body; ok_answer (token_body "npm_abc")] [] = (ev, Some (Ok tt), d') /\ d' <> [])
  /\ exists ev, run [ok_answer login_body; wait_answer "5"] [] = (ev, None, []).
Proof. split; [eexists _, _; split; [vm_compute; reflexivity|discriminate]|eexists; vm_compute; reflexivity]. Qed.

(** ** What goes wrong *)
(** "Whatever the registry answers, login ends with a token or an error" fails: a Retry-After header may be an HTTP date, and a www-authenticate header may
    hold bytes above 127: both crash. *)
Theorem C57_refuted : ~ (forall answers, snd (ex_flow None true ex_person answers) <> Done Panic)
  /\ ~ (forall answers, snd (ex_flow None false ex_person answers) <> Done Panic).
Proof.
  split; intros H.
  - apply (H [ok_answer login_body; wait_answer "Wed, 21 Oct 2026 07:28:00 GMT"]). vm_compute. reflexivity.
  - apply (H [Some (mkResp 401 (Some (String (ascii_of_nat 195) (String (ascii_of_nat 169) ""))) None "{}")]). vm_compute. reflexivity.
Qed.
(** "The browser is only given web addresses" fails: it is given whatever text the registry named, with no check at all: a file, a program, any scheme. *)
Theorem C57_refuted_open : forall text, exists answers ev, ex_flow None true ex_person answers = (ev, Waiting) /\ In (Opened text) ev.
Proof.
  intros text. set (v := JObj [("loginUrl", JStr text); ("doneUrl", JStr done_text)]).
  assert (J : jread int_number (layout " " "" false v) = Some v).
  { apply C54_layout; [reflexivity|reflexivity| | |].
    - unfold v. constructor; [repeat constructor; cbn; intuition discriminate|repeat constructor].
    - unfold v. repeat constructor.
    - cbn. lia. }
  exists [ok_answer (layout " " "" false v)]. eexists. split.
  - unfold login_flow, web_login, exchange. cbn [build_header header_ok]. cbn [request_url].
    replace (ujoin (couch_join ex_other) ex_reg "-/v1/login") with (Some ex_login_url) by reflexivity.
    cbn [handle sget]. unfold ok_answer at 1. cbn [r_status N.leb r_body]. unfold login_web_of. rewrite J. cbn [obind]. unfold str_field, v. cbn. reflexivity.
  - cbn. auto.
Qed.
(** "A one-time password is asked for only when the registry wants one" fails: any www-authenticate header with "otp" inside, here the name of a host,
    makes it ask, and then a wrong password is reported as a wrong one-time password. *)
Theorem C57_refuted_otp : exists a, a = Some (mkResp 401 (Some ("Basic realm=" ++ q "registry.potpie.example")%string) None "{}") /\
  ex_flow None false ex_person [a; a] =
    ([Asked AskName; Asked AskPassword; Sent "PUT" (RLoginCouch "zk a") ex_user_url (ex_heads [] "legacy" []) (Some ("zk a", "hunter2")); Asked AskOtp;
      Sent "PUT" (RLoginCouch "zk a") ex_user_url (ex_heads [("npm-otp", "123456")] "legacy" []) (Some ("zk a", "hunter2"))], Done (Err LOtpRequired)).
Proof. eexists. split; [reflexivity|]. vm_compute. reflexivity. Qed.

Print Assumptions C57_password.
Print Assumptions C57_contacts.
Print Assumptions C57_token.
Print Assumptions C57_polls.
Print Assumptions C57_no_crash_partial.
Print Assumptions C57_saved.
Print Assumptions C57_refuted.
Print Assumptions C57_refuted_open.
Print Assumptions C57_refuted_otp.
