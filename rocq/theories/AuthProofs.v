(** * Credentials: proofs *)
From Verif Require Import Base Types Kdl StdPath CliModel CliSpec CliProofs AuthModel AuthSpec.
From Coq Require Import Permutation.
Open Scope string_scope.
Open Scope list_scope.

(** ** base64 *)
Lemma sextet_round s : char_sextet (sextet_char s) = Some s.
Proof. destruct s as [[[[[a b] c] d] e] f]. destruct a, b, c, d, e, f; reflexivity. Qed.
Lemma sextet_not_pad s : Ascii.eqb (sextet_char s) "=" = false.
Proof. destruct s as [[[[[a b] c] d] e] f]. destruct a, b, c, d, e, f; reflexivity. Qed.
Lemma b64_round : forall n s, String.length s <= n -> b64_decode (b64_encode s) = Some s.
Proof.
  induction n as [|n IH]; intros s Hn.
  - destruct s; [reflexivity|cbn in Hn; lia].
  - destruct s as [|[a0 a1 a2 a3 a4 a5 a6 a7] [|[b0 b1 b2 b3 b4 b5 b6 b7] [|[c0 c1 c2 c3 c4 c5 c6 c7] t]]]; [reflexivity| | |].
    + cbn [b64_encode b64_decode]. rewrite !sextet_round. reflexivity.
    + cbn [b64_encode b64_decode]. rewrite !sextet_round, sextet_not_pad. reflexivity.
    + cbn [b64_encode b64_decode]. rewrite !sextet_round, !sextet_not_pad. cbn [andb]. rewrite IH; [reflexivity|]. cbn in Hn. lia.
Qed.
Lemma b64_decode_encode s : b64_decode (b64_encode s) = Some s.
Proof. exact (b64_round _ s (le_n _)). Qed.
Lemma sextet_header s : header_char (sextet_char s) = true.
Proof. destruct s as [[[[[a b] c] d] e] f]. destruct a, b, c, d, e, f; reflexivity. Qed.
Lemma b64_header : forall n s, String.length s <= n -> header_ok (b64_encode s) = true.
Proof.
  induction n as [|n IH]; intros s Hn.
  - destruct s; [reflexivity|cbn in Hn; lia].
  - destruct s as [|[a0 a1 a2 a3 a4 a5 a6 a7] [|[b0 b1 b2 b3 b4 b5 b6 b7] [|[c0 c1 c2 c3 c4 c5 c6 c7] t]]]; [reflexivity| | |];
      cbn [b64_encode header_ok]; rewrite !sextet_header; try reflexivity.
    cbn [andb]. apply IH. cbn in Hn. lia.
Qed.
Lemma header_ok_app a b : header_ok (a ++ b)%string = header_ok a && header_ok b.
Proof. induction a as [|c a IH]; [reflexivity|]. cbn [String.append header_ok]. rewrite IH. now rewrite andb_assoc. Qed.
Lemma header_one_line s : header_ok s = true -> one_line s.
Proof.
  assert (H : forall n, In n [10; 13; 0] -> header_ok s = true -> no_char (ascii_of_nat n) s = true).
  { intros n Hn. induction s as [|c s IH]; [reflexivity|]. cbn [header_ok no_char]. intros H. apply andb_true_iff in H as [H1 H2].
    rewrite (IH H2), andb_true_r. destruct (Ascii.eqb_spec c (ascii_of_nat n)) as [->|]; [|reflexivity].
    cbn in Hn. destruct Hn as [<-|[<-|[<-|[]]]]; discriminate. }
  intros Hs. split; [|split]; apply H; cbn; auto.
Qed.
Lemma auth_value_ok c v : auth_value c = Ok v -> authorizes c v /\ one_line v.
Proof.
  destruct c as [n p|a|t]; cbn [auth_value authorizes].
  - intros H. injection H as <-. split; [exists (b64_encode (n ++ ":" ++ oval p)); split; [reflexivity|apply b64_decode_encode]|].
    apply header_one_line. change (header_ok ("Basic " ++ b64_encode (n ++ ":" ++ oval p))%string = true).
    rewrite header_ok_app. rewrite (b64_header (String.length (n ++ ":" ++ oval p)) _ (le_n _)). reflexivity.
  - unfold header_value. destruct (header_ok ("Basic " ++ a)) eqn:E; [|discriminate]. intros H. injection H as <-. split; [reflexivity|now apply header_one_line].
  - unfold header_value. destruct (header_ok ("Bearer " ++ t)) eqn:E; [|discriminate]. intros H. injection H as <-. split; [reflexivity|now apply header_one_line].
Qed.

(** ** darts *)
Lemma app_slash_inj a b p q : no_char "/" a = true -> no_char "/" b = true -> (a ++ String "/" p = b ++ String "/" q)%string -> a = b /\ p = q.
Proof.
  revert b. induction a as [|c a IH]; intros b Ha Hb H.
  - destruct b as [|d b]; cbn in H; [injection H as ->; auto|]. injection H as <- _. cbn in Hb. discriminate.
  - destruct b as [|d b]; cbn in H; [injection H as -> _; cbn in Ha; discriminate|]. injection H as <- H.
    cbn [no_char] in Ha, Hb. apply andb_true_iff in Ha as [_ Ha]. apply andb_true_iff in Hb as [_ Hb].
    destruct (IH b Ha Hb H) as [-> ->]. auto.
Qed.
Lemma dart_same u v : http_url u -> http_url v -> nerf_dart u = nerf_dart v <-> same_registry u v.
Proof.
  intros (h & p & Hh & Hs & Hp) (h' & p' & Hh' & Hs' & Hp'). unfold nerf_dart, same_registry. rewrite Hh, Hh', Hp, Hp'. cbn [oval]. split.
  - intros H. change ("//" ++ (h ++ String "/" p) = "//" ++ (h' ++ String "/" p'))%string in H. cbn [String.append] in H. injection H as H.
    destruct (app_slash_inj h h' p p' Hs Hs' H) as [-> ->]. auto.
  - intros [H1 H2]. injection H1 as ->. injection H2 as ->. reflexivity.
Qed.
Lemma configured_snoc l u c : configured (l ++ [(u, c)]) = configure u c (configured l).
Proof. unfold configured. rewrite fold_left_app. reflexivity. Qed.
Lemma last_for_snoc reg l u c c' : last_for reg (l ++ [(u, c)]) c' <->
  (same_registry u reg /\ c' = c) \/ (~ same_registry u reg /\ last_for reg l c').
Proof.
  induction l as [|[v d] l IH]; cbn [app].
  - split.
    + intros H. inversion H; subst; [auto|]. match goal with H : last_for _ [] _ |- _ => inversion H end.
    + intros [[H ->]|[_ H]]; [constructor; [auto|intros ? ? []]|inversion H].
  - split.
    + intros H. inversion H as [u1 c1 l1 Hs Hnone|u1 c1 c2 l1 Hl]; subst.
      * right. split; [apply (Hnone u c); apply in_or_app; cbn; auto|]. constructor; [auto|]. intros v' c'' Hi. apply (Hnone v' c''). apply in_or_app; auto.
      * apply IH in Hl as [?|[? ?]]; [auto|]. right. split; [auto|now constructor].
    + intros [[H ->]|[Hn H]].
      * apply lf_later. apply IH. auto.
      * inversion H as [u1 c1 l1 Hs Hnone|u1 c1 c2 l1 Hl]; subst.
        -- constructor; [auto|]. intros v' c'' Hi. apply in_app_or in Hi as [Hi|[Hi|[]]]; [eauto|]. now injection Hi as <- <-.
        -- apply lf_later. apply IH. auto.
Qed.
Lemma same_registry_dec u v : {same_registry u v} + {~ same_registry u v}.
Proof.
  unfold same_registry. destruct (string_dec (u_path u) (u_path v)) as [Hp|Hp]; [|right; tauto].
  assert (Hd : {u_host u = u_host v} + {u_host u <> u_host v}) by (decide equality; apply string_dec). destruct Hd; [left; auto|right; tauto].
Qed.
Lemma configured_get l reg : Forall (fun e => http_url (fst e)) l -> http_url reg ->
  forall c, sget (nerf_dart reg) (configured l) = Some c <-> last_for reg l c.
Proof.
  induction l as [|[u c0] l IH] using rev_ind; intros Hl Hr c.
  - cbn. split; [discriminate|]. intros H. inversion H.
  - apply Forall_app in Hl as [Hl Hu]. inversion Hu; subst. cbn [fst] in *.
    rewrite configured_snoc, last_for_snoc. unfold configure.
    destruct (same_registry_dec u reg) as [Hs|Hs].
    + apply (dart_same u reg) in Hs as Hd; [|auto|auto]. rewrite Hd, sget_sput_eq. split; [intros E; injection E as <-; auto|intros [[_ ->]|[? _]]; [auto|contradiction]].
    + assert (nerf_dart reg <> nerf_dart u) by (intros E; apply Hs; apply (dart_same u reg); auto).
      rewrite sget_sput_neq by auto. rewrite IH by auto. split; [auto|intros [[? _]|[_ ?]]; [contradiction|auto]].
Qed.
Lemma ostr_eqb_spec a b : ostr_eqb a b = true <-> a = b.
Proof.
  destruct a as [a|], b as [b|]; cbn; [|split; discriminate|split; discriminate|tauto].
  rewrite String.eqb_eq. split; [intros H; now rewrite H|intros H; now injection H].
Qed.
Lemma prefix_spec a : forall b, prefix a b = true <-> exists r, b = (a ++ r)%string.
Proof.
  induction a as [|c a IH]; intros b.
  - cbn. split; [intros _; exists b; reflexivity|destruct b; reflexivity].
  - destruct b as [|d b]; cbn [prefix String.append]; [split; [discriminate|intros [r H]; discriminate]|].
    destruct (ascii_dec c d) as [<-|Hn].
    + rewrite IH. split; intros [r H]; exists r; [now rewrite H|now injection H].
    + split; [discriminate|]. intros [r H]. injection H as H _. congruence.
Qed.
Lemma handle_cases m reg q hs hs' : handle m reg q hs = Ok hs' ->
  (hs' = hs /\ (~ under_registry reg q \/ sget (nerf_dart reg) m = None))
  \/ (under_registry reg q /\ exists c v, sget (nerf_dart reg) m = Some c /\ auth_value c = Ok v /\ hs' = hs ++ [("authorization", v)]).
Proof.
  unfold handle. destruct (ostr_eqb (u_host reg) (u_host q)) eqn:E1.
  - apply ostr_eqb_spec in E1. cbn [negb orb]. destruct (prefix (u_path reg) (u_path q)) eqn:E2.
    + apply prefix_spec in E2. cbn [negb]. assert (Hu : under_registry reg q) by (split; auto).
      destruct (sget (nerf_dart reg) m) as [c|] eqn:E3; [|intros H; injection H as <-; auto].
      destruct (auth_value c) as [v| |] eqn:E4; cbn [rbind]; try discriminate. intros H. injection H as <-. right. split; [auto|]. exists c, v. auto.
    + cbn [negb]. intros H. injection H as <-. left. split; [auto|]. left. intros [_ H]. apply prefix_spec in H. congruence.
  - cbn [negb orb]. intros H. injection H as <-. left. split; [auto|]. left. intros [H _]. rewrite H in E1.
    assert (ostr_eqb (u_host reg) (u_host reg) = true) by (now apply ostr_eqb_spec). congruence.
Qed.
Lemma handle_under m reg q hs c : under_registry reg q -> sget (nerf_dart reg) m = Some c ->
  handle m reg q hs = (let! v := auth_value c in Ok (hs ++ [("authorization", v)])).
Proof.
  intros [H1 H2] Hc. unfold handle. rewrite H1. replace (ostr_eqb (u_host reg) (u_host reg)) with true by (symmetry; now apply ostr_eqb_spec).
  apply prefix_spec in H2. rewrite H2. cbn [negb orb]. now rewrite Hc.
Qed.
(** ** joining *)
Lemma sapp_assoc a b c : ((a ++ b) ++ c)%string = (a ++ (b ++ c))%string.
Proof. induction a as [|x a IH]; [reflexivity|]. cbn [String.append]. now rewrite IH. Qed.
Lemma upto_slash_end p : upto_slash (p ++ "/") = (p ++ "/")%string.
Proof.
  assert (Hn : forall s, no_char "/" (s ++ "/") = false).
  { intros s. induction s as [|c s IH]; [reflexivity|]. cbn [String.append no_char]. rewrite IH. apply andb_false_r. }
  induction p as [|c p IH]; [reflexivity|]. cbn [String.append upto_slash].
  replace (no_char "/" (String c (p ++ "/"))) with false by (symmetry; exact (Hn (String c p))). now rewrite IH.
Qed.

(** ** command line credentials *)
Section Args.
  Variable uparse : string -> option url.
  Definition entry_cred (all : list (string * string * string)) (e : string * string * string) : list (url * cred) :=
    let '(reg, key, val) := e in
    match uparse reg with
    | None => []
    | Some u => if String.eqb key "token" then [(u, Token val)]
                else if String.eqb key "username" then [(u, Basic val (password_for reg all))]
                else if String.eqb key "legacy-auth" then [(u, EncodedBasic val)] else []
    end.
  Lemma auth_loop_ok all : forall l m m', auth_loop uparse all l m = Ok m' ->
    m' = fold_left (fun m e => configure (fst e) (snd e) m) (flat_map (entry_cred all) l) m.
  Proof.
    induction l as [|[[reg key] val] l IH]; intros m m' H; cbn [auth_loop] in H; [now injection H as <-|].
    cbn [flat_map entry_cred]. destruct (uparse reg) as [u|]; [|discriminate]. apply IH in H. rewrite fold_left_app. subst m'. f_equal.
    destruct (String.eqb key "token"); [reflexivity|]. destruct (String.eqb key "username"); [reflexivity|]. destruct (String.eqb key "legacy-auth"); reflexivity.
  Qed.
  Lemma auth_loop_total all : forall l m, (forall e, In e l -> uparse (fst (fst e)) <> None) -> exists m', auth_loop uparse all l m = Ok m'.
  Proof.
    induction l as [|[[reg key] val] l IH]; intros m H; cbn [auth_loop]; [eauto|].
    destruct (uparse reg) as [u|] eqn:E; [|exfalso; apply (H (reg, key, val)); [now left|exact E]]. apply IH. intros e He. apply H. now right.
  Qed.
  Lemma build_ok l m : build_creds uparse l = Ok m -> m = configured (flat_map (entry_cred l) l).
  Proof. intros H. apply auth_loop_ok in H. exact H. Qed.
End Args.
