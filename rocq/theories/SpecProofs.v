(** * Facts about the package spec parser *)
From Verif Require Import Base Types StdPath SpecModel SpecSpec.
Open Scope list_scope.
Open Scope string_scope.

(** ** characters *)
Lemma lower_fix c d : In d [at_sign; slash; hash; colon; dot; "+"%char] -> lower c = d -> c = d.
Proof. intros Hd H. destruct c as [[] [] [] [] [] [] [] []]; vm_compute in H; cbn in Hd; decompose [or] Hd; clear Hd; subst d; try discriminate; try contradiction; reflexivity. Qed.
Lemma sall_app f a b : sall f (a ++ b) = sall f a && sall f b.
Proof. induction a as [|c a IH]; cbn; [reflexivity|]. now rewrite IH, andb_assoc. Qed.
Lemma sall_no_char f ch s : f ch = false -> sall f s = true -> no_char ch s = true.
Proof.
  intros Hf. induction s as [|c s IH]; cbn; [reflexivity|]. rewrite !andb_true_iff. intros [H1 H2]. split; [|auto].
  rewrite negb_true_iff. destruct (Ascii.eqb_spec c ch) as [-> |]; [congruence|reflexivity].
Qed.

(** ** tags *)
Lemma strip_tag_app t r : strip_tag t (t ++ r) = Some r.
Proof. induction t as [|c t IH]; cbn; [reflexivity|]. now rewrite Ascii.eqb_refl. Qed.
Lemma strip_tag_inv t : forall s r, strip_tag t s = Some r -> exists q, s = q ++ r /\ lowers q = lowers t.
Proof.
  induction t as [|c t IH]; cbn; intros s r H; [injection H as ->; now exists ""|]. destruct s as [|d s]; [discriminate|].
  destruct (Ascii.eqb_spec (lower c) (lower d)) as [E|]; [|discriminate]. destruct (IH _ _ H) as (q & -> & Hq). exists (String d q). cbn. now rewrite Hq, E.
Qed.
Lemma strip_tag_starts t s : (exists r, strip_tag t s = Some r) <-> starts t s.
Proof.
  split.
  - intros (r & H). destruct (strip_tag_inv _ _ _ H) as (q & -> & Hq). now exists q, r.
  - intros (q & r & -> & Hq). exists r. revert q Hq. induction t as [|c t IH]; intros [|d q] Hq; cbn in *; try discriminate; [reflexivity|].
    injection Hq as H1 H2. rewrite H1, Ascii.eqb_refl. now apply IH.
Qed.
Lemma tag_app t r : tag t (t ++ r) = POk r tt.
Proof. unfold tag. now rewrite strip_tag_app. Qed.
Lemma tag_inv t s r u : tag t s = POk r u -> exists q, s = q ++ r /\ lowers q = lowers t.
Proof. unfold tag. destruct (strip_tag t s) eqn:E; [|discriminate]. intros H. injection H as ->. eapply strip_tag_inv, E. Qed.
Lemma tag1_inv c s r u : In c [at_sign; slash; hash; colon; dot; "+"%char] -> tag (String c "") s = POk r u -> s = String c r.
Proof.
  intros Hc H. destruct (tag_inv _ _ _ _ H) as (q & -> & Hq). destruct q as [|d [|? ?]]; cbn in Hq; try discriminate. injection Hq as Hq. cbn.
  f_equal. apply lower_fix with (d := c); [exact Hc|]. rewrite Hq. cbn in Hc. decompose [or] Hc; subst; try contradiction; reflexivity.
Qed.
Lemma tag_err t s : tag t s = PErr \/ exists r, tag t s = POk r tt.
Proof. unfold tag. destruct (strip_tag t s); eauto. Qed.

(** ** take_till1 *)
Definition stops (stop : ascii -> bool) (s : string) : Prop := match s with EmptyString => True | String c _ => stop c = true end.
Lemma span_spec f s : let '(a, b) := span f s in s = a ++ b /\ sall f a = true /\ match b with EmptyString => True | String c _ => f c = false end.
Proof.
  induction s as [|c s IH]; cbn; [auto|]. destruct (f c) eqn:E; [|auto]. destruct (span f s) as [a b]. destruct IH as (-> & H1 & H2). cbn. rewrite E. auto.
Qed.
Lemma span_app f a b : sall f a = true -> match b with EmptyString => True | String c _ => f c = false end -> span f (a ++ b) = (a, b).
Proof.
  intros Ha Hb. induction a as [|c a IH]; cbn in *.
  - destruct b as [|c b]; [reflexivity|]. cbn. now rewrite Hb.
  - apply andb_true_iff in Ha. destruct Ha as [-> Ha]. now rewrite (IH Ha).
Qed.
Lemma till1_inv stop s r a : till1 stop s = POk r a -> s = a ++ r /\ a <> "" /\ sall (fun c => negb (stop c)) a = true /\ stops stop r.
Proof.
  unfold till1. pose proof (span_spec (fun c => negb (stop c)) s) as H. destruct (span _ s) as [x b]. destruct H as (-> & H1 & H2). destruct x as [|c x]; [discriminate|].
  intros E. injection E as -> <-. repeat split; auto; [easy|]. unfold stops. destruct r; [exact I|]. now apply negb_false_iff in H2.
Qed.
Lemma till1_app stop a b : a <> "" -> sall (fun c => negb (stop c)) a = true -> stops stop b -> till1 stop (a ++ b) = POk b a.
Proof.
  intros Hn Ha Hb. unfold till1. rewrite span_app; [destruct a; easy|exact Ha|]. destruct b; [exact I|]. cbn in Hb. now rewrite Hb.
Qed.
Lemma till1_err stop s : till1 stop s = PErr \/ exists r a, till1 stop s = POk r a.
Proof. unfold till1. destruct (span _ s) as [[|c a] b]; eauto. Qed.

Definition safe_name (s : string) : Prop := s <> "" /\ sall urlc s = true.
(** a name, then a stop character *)
Definition name_till (stop : ascii -> bool) (s : string) := pres_map no_url_encode (till1 stop s).
Lemma name_inv stop s r a : name_till stop s = POk r a -> s = a ++ r /\ safe_name a /\ sall (fun c => negb (stop c)) a = true /\ stops stop r.
Proof.
  unfold name_till, pres_map, pbind. destruct (till1 stop s) as [r' x| | |] eqn:E; try discriminate. unfold no_url_encode. destruct (sall urlc x) eqn:U; [|discriminate].
  intros H. injection H as -> ->. destruct (till1_inv _ _ _ _ E) as (-> & H1 & H2 & H3). unfold safe_name. auto.
Qed.
Lemma name_app stop a b : safe_name a -> sall (fun c => negb (stop c)) a = true -> stops stop b -> name_till stop (a ++ b) = POk b a.
Proof. intros [H1 H2] H3 H4. unfold name_till, pres_map, pbind. rewrite till1_app by assumption. unfold no_url_encode. now rewrite H2. Qed.
Lemma name_err stop s : name_till stop s = PErr \/ exists r a, name_till stop s = POk r a.
Proof. unfold name_till, pres_map. destruct (till1_err stop s) as [-> | (r & a & ->)]; [now left|]. cbn. destruct (no_url_encode a); eauto. Qed.
(** a forbidden character before the first stop character *)
Lemma name_bad stop a c b : sall (fun c => negb (stop c)) a = true -> stop c = false -> urlc c = false -> name_till stop (a ++ String c b) = PErr.
Proof.
  intros Ha Hc Hu. destruct (name_err stop (a ++ String c b)) as [E | (r & x & E)]; [exact E|]. exfalso. destruct (name_inv _ _ _ _ E) as (E1 & [_ H2] & _ & H4).
  clear E. revert x E1 H2. induction a as [|d a IH]; cbn in *; intros [|e x] E1 H2; cbn in *; try discriminate.
  - subst r. cbn in H4. congruence.
  - injection E1 as -> ->. apply andb_true_iff in H2. destruct H2. congruence.
  - subst r. cbn in H4. apply andb_true_iff in Ha. destruct Ha as [Ha _]. now rewrite H4 in Ha.
  - injection E1 as -> E1. apply andb_true_iff in H2, Ha. eapply IH; [apply Ha|exact E1|apply H2].
Qed.
Definition urlc_not c : urlc c = true -> is slash c = false /\ is at_sign c = false /\ is hash c = false /\ is colon c = false.
Proof. destruct c as [[] [] [] [] [] [] [] []]; vm_compute; auto. Qed.
Lemma urlc_till stop a : (forall c, urlc c = true -> stop c = false) -> sall urlc a = true -> sall (fun c => negb (stop c)) a = true.
Proof. intros Hs. induction a as [|c a IH]; cbn; [reflexivity|]. rewrite !andb_true_iff. intros [H1 H2]. split; [now rewrite (Hs c H1)|auto]. Qed.
Lemma urlc_slash a : sall urlc a = true -> sall (fun c => negb (is slash c)) a = true.
Proof. apply urlc_till. intros c Hc. now apply urlc_not in Hc. Qed.
Lemma urlc_at a : sall urlc a = true -> sall (fun c => negb (at_or_slash c)) a = true.
Proof. apply urlc_till. intros c Hc. unfold at_or_slash. apply urlc_not in Hc. now destruct Hc as (-> & -> & _). Qed.
Lemma at_not c : at_or_slash c = false -> is slash c = false.
Proof. unfold at_or_slash. now rewrite orb_false_iff. Qed.
Lemma at_sall a : sall (fun c => negb (at_or_slash c)) a = true -> sall (fun c => negb (is slash c)) a = true.
Proof. induction a as [|c a IH]; cbn; [reflexivity|]. rewrite !andb_true_iff, !negb_true_iff. intros [H1 H2]. split; [now apply at_not|auto]. Qed.

Section S.
  Variable vparse : string -> option version.
  Variable vshow : version -> string.
  Variable rparse : string -> option range.
  Variable uparse : string -> option string.
  Variable uhost : string -> option string.
  Variable upath : string -> string.
  Variable uscheme : string -> string.
  Notation version_req := (version_req vparse rparse).
  Notation npm_spec := (npm_spec vparse rparse).
  Notation committish := (committish rparse).
  Notation git_shorthand := (git_shorthand rparse).
  Notation git_url := (git_url rparse uparse uhost upath).
  Notation git_scp := (git_scp rparse).
  Notation git_spec := (git_spec rparse uparse uhost upath).
  Notation prefixed := (prefixed_package_spec vparse rparse uparse uhost upath).
  Notation alias_spec := (alias_spec vparse rparse uparse uhost upath).
  Notation package_spec := (package_spec vparse rparse uparse uhost upath).
  Notation parse := (parse_package_spec vparse rparse uparse uhost upath).
  Notation show := (show_spec vshow uscheme).
  Notation show_git := (show_git uscheme).

  (** ** shapes of parsed specs *)
  Definition req_shape (r : option vspec) : Prop :=
    match r with
    | None => True
    | Some (VVersion v) => exists s, vparse s = Some v
    | Some (VRange x) => exists s, rparse s = Some x
    | Some (VTag t) => safe_name t /\ vparse t = None /\ rparse t = None
    end.
  Inductive npm_shape : pspec -> Prop :=
  | ns_plain n r : safe_name n -> req_shape r -> npm_shape (SNpm None n r)
  | ns_scoped sc n r : safe_name sc -> safe_name n -> req_shape r -> npm_shape (SNpm (Some sc) ("@" ++ sc ++ "/" ++ n) r).
  Definition ref_shape (c : option string) (r : option range) : Prop :=
    match c, r with
    | None, None => True
    | Some c, None => sall urlc c = true
    | None, Some r => exists s, rparse s = Some r
    | _, _ => False
    end.
  Definition user_shape (user : option string) (host : string) (path : option string) : Prop :=
    match user with
    | Some u => u <> "" /\ no_char "@" u = true
    | None => no_char "@" (host ++ match path with Some p => ":" ++ p | None => "" end) = true \/ exists t, host = String "@" t
    end.
  Inductive git_shape : gitinfo -> Prop :=
  | gs_short o p h c r : safe_name o -> no_char "#" p = true -> ref_shape c r -> git_shape (GHosted o p h c r None)
  | gs_url s u c r i : uparse s = Some u -> no_char "#" s = true -> ref_shape c r -> url_info uhost upath u (c, r) = Some i -> git_shape i
  | gs_scp user host path c r : user_shape user host path -> host <> "" -> no_char ":" host = true -> no_char "#" host = true ->
      (forall p, path = Some p -> p <> "" /\ no_char "#" p = true) -> ref_shape c r -> git_shape (scp_info user host path (c, r)).
  Definition dir_shape (p : string) : Prop := path_spec p = POk "" (SDir p).

  Lemma version_req_inv s r q : version_req s = POk r q -> r = "" /\ req_shape (Some q) /\ s <> "".
  Proof.
    unfold SpecModel.version_req. destruct s as [|c s]; [discriminate|]. set (t := String c s). destruct (vparse t) eqn:V; [intros H; injection H as <- <-; repeat split; [now exists t|easy]|].
    destruct (rparse t) eqn:R; [intros H; injection H as <- <-; repeat split; [now exists t|easy]|]. unfold no_url_encode. destruct (sall urlc t) eqn:U; [|discriminate].
    intros H. injection H as <- <-. repeat split; easy.
  Qed.
  Lemma npm_inv s r sp : npm_spec s = POk r sp -> npm_shape sp.
  Proof.
    unfold SpecModel.npm_spec, npm_scope. fold (name_till (is slash)). fold (name_till at_or_slash).
    destruct (tag_err "@" s) as [E | (r0 & E)]; rewrite E; cbn [pbind popt].
    - fold (name_till at_or_slash s). destruct (name_till at_or_slash s) as [r1 n| | |] eqn:E1; cbn [pbind]; try discriminate.
      destruct (name_inv _ _ _ _ E1) as (_ & Hn & _). destruct (tag_err "@" r1) as [E2 | (r2 & E2)]; rewrite E2; cbn [pbind popt].
      + intros H. injection H as <- <-. constructor; [exact Hn|exact I].
      + destruct (version_req r2) as [r3 q| | |] eqn:E3; cbn [pcut popt pbind]; try discriminate. intros H. injection H as <- <-. constructor; [exact Hn|]. eapply version_req_inv, E3.
    - fold (name_till (is slash) r0). destruct (name_err (is slash) r0) as [E0 | (r1 & sc & E0)]; rewrite E0; cbn [pbind popt].
      + destruct (name_till at_or_slash s) as [r1 n| | |] eqn:E1; unfold name_till in E1; rewrite E1; cbn [pbind]; try discriminate.
        destruct (name_inv _ _ _ _ E1) as (_ & Hn & _). destruct (tag_err "@" r1) as [E2 | (r2 & E2)]; rewrite E2; cbn [pbind popt].
        * intros H. injection H as <- <-. constructor; [exact Hn|exact I].
        * destruct (version_req r2) as [r3 q| | |] eqn:E3; cbn [pcut popt pbind]; try discriminate. intros H. injection H as <- <-. constructor; [exact Hn|]. eapply version_req_inv, E3.
      + destruct (name_inv _ _ _ _ E0) as (_ & Hsc & _). destruct (tag_err "/" r1) as [E4 | (r4 & E4)]; rewrite E4; cbn [pbind popt].
        * destruct (name_till at_or_slash s) as [r5 n| | |] eqn:E1; unfold name_till in E1; rewrite E1; cbn [pbind]; try discriminate.
          destruct (name_inv _ _ _ _ E1) as (_ & Hn & _). destruct (tag_err "@" r5) as [E2 | (r2 & E2)]; rewrite E2; cbn [pbind popt].
          -- intros H. injection H as <- <-. constructor; [exact Hn|exact I].
          -- destruct (version_req r2) as [r3 q| | |] eqn:E3; cbn [pcut popt pbind]; try discriminate. intros H. injection H as <- <-. constructor; [exact Hn|]. eapply version_req_inv, E3.
        * destruct (name_till at_or_slash r4) as [r5 n| | |] eqn:E1; unfold name_till in E1; rewrite E1; cbn [pbind]; try discriminate.
          destruct (name_inv _ _ _ _ E1) as (_ & Hn & _). destruct (tag_err "@" r5) as [E2 | (r2 & E2)]; rewrite E2; cbn [pbind popt].
          -- intros H. injection H as <- <-. constructor; [exact Hsc|exact Hn|exact I].
          -- destruct (version_req r2) as [r3 q| | |] eqn:E3; cbn [pcut popt pbind]; try discriminate. intros H. injection H as <- <-. constructor; [exact Hsc|exact Hn|]. eapply version_req_inv, E3.
  Qed.

  Lemma committish_inv s r cs : committish s = POk r cs -> ref_shape (fst cs) (snd cs).
  Proof.
    unfold SpecModel.committish. destruct (tag_err "#" s) as [E | (r0 & E)]; rewrite E; cbn [pbind popt]; [intros H; injection H as <- <-; exact I|].
    destruct (tag_err "semver:" r0) as [E1 | (r1 & E1)]; rewrite E1; cbn [pbind palt pmap].
    - unfold no_url_encode. destruct (sall urlc r0) eqn:U; cbn [popt pbind]; intros H; injection H as <- <-; cbn; auto.
    - unfold semver_range. destruct r1 as [|c r1]; [discriminate|]. destruct (rparse (String c r1)) eqn:R; [|discriminate]. cbn. intros H. injection H as <- <-. cbn. eauto.
  Qed.
  Lemma prefix_ok s : hosted_git_prefix s = PErr \/ exists r h, hosted_git_prefix s = POk r h.
  Proof.
    unfold hosted_git_prefix. destruct (tag_err "github" s) as [-> | (r0 & ->)]; cbn [pmap pbind palt].
    2:{ destruct (tag_err ":" r0) as [-> | (? & ->)]; cbn; eauto. }
    destruct (tag_err "gist" s) as [-> | (r0 & ->)]; cbn [pmap pbind palt].
    2:{ destruct (tag_err ":" r0) as [-> | (? & ->)]; cbn; eauto. }
    destruct (tag_err "gitlab" s) as [-> | (r0 & ->)]; cbn [pmap pbind palt].
    2:{ destruct (tag_err ":" r0) as [-> | (? & ->)]; cbn; eauto. }
    destruct (tag_err "bitbucket" s) as [-> | (r0 & ->)]; cbn [pmap pbind palt]; [now left|].
    destruct (tag_err ":" r0) as [-> | (? & ->)]; cbn; eauto.
  Qed.
  Lemma sall_hash p : sall (fun c => negb (is hash c)) p = no_char "#" p.
  Proof. induction p as [|c p IH]; [reflexivity|]. cbn [sall no_char]. rewrite IH. unfold is, hash. now rewrite Ascii.eqb_sym. Qed.
  Lemma shorthand_inv s r i : git_shorthand s = POk r i -> git_shape i.
  Proof.
    unfold SpecModel.git_shorthand. assert (G : forall r0 (h : option githost), pbind (pres_map no_url_encode (till1 (is slash) r0)) (fun r owner => pbind (tag "/" r) (fun r _ =>
        let '(repo, r) := span (fun c => negb (is hash c)) r in pbind (committish r) (fun r cs =>
          POk r (GHosted owner repo (match h with Some x => x | None => GitHub end) (fst cs) (snd cs) None)))) = POk r i -> git_shape i).
    { intros r0 h. fold (name_till (is slash) r0). destruct (name_err (is slash) r0) as [E0 | (r1 & o & E0)]; rewrite E0; cbn [pbind]; [discriminate|].
      destruct (tag_err "/" r1) as [-> | (r2 & ->)]; cbn [pbind]; [discriminate|]. pose proof (span_spec (fun c => negb (is hash c)) r2) as H. destruct (span _ r2) as [repo r3]. destruct H as (_ & H & _).
      destruct (committish r3) as [r4 cs| | |] eqn:E4; cbn [pbind]; try discriminate. intros H0. injection H0 as <- <-. constructor; [|now rewrite <- sall_hash|].
      - now destruct (name_inv _ _ _ _ E0).
      - eapply committish_inv, E4. }
    destruct (prefix_ok s) as [-> | (r0 & h & ->)]; cbn [popt pbind]; [exact (G s None)|exact (G r0 (Some h))].
  Qed.
  Lemma url_inv s r i : git_url s = POk r i -> git_shape i.
  Proof.
    unfold SpecModel.git_url. set (p := palt _ _). destruct p as [r0 u0| | |]; cbn [pbind]; try discriminate. unfold pres_map.
    destruct (till1 (is hash) r0) as [r1 t| | |] eqn:E1; cbn [pbind]; try discriminate. destruct (till1_inv _ _ _ _ E1) as (_ & Ht & Hh & _).
    destruct (uparse t) as [u|] eqn:U; cbn [pbind]; [|discriminate]. destruct (committish r1) as [r2 cs| | |] eqn:E2; cbn [pbind]; try discriminate.
    destruct (url_info uhost upath u cs) as [j|] eqn:UI; [|discriminate]. intros H. injection H as <- <-. destruct cs as [c q].
    eapply gs_url; [exact U|now rewrite <- sall_hash|eapply (committish_inv _ _ _ E2)|exact UI].
  Qed.
  Lemma url_inv_panic s : git_url s = PPanic -> exists t u h, uparse t = Some u /\ uhost u = Some h /\ known_host h <> None /\ upath u = "".
  Proof.
    unfold SpecModel.git_url. destruct (tag_err "git+" s) as [-> | (r0 & ->)]; cbn [palt pbind].
    1: destruct (tag_err "git://" s) as [-> | (r0 & ->)]; cbn [palt pbind]; [discriminate|clear r0; generalize s as r0; clear s; intros r0].
    all: unfold pres_map; destruct (till1_err (is hash) r0) as [-> | (r1 & t & ->)]; cbn [pbind]; [discriminate|].
    all: destruct (uparse t) as [u|] eqn:Eu; cbn [pbind]; [|discriminate].
    all: unfold SpecModel.committish; destruct (tag_err "#" r1) as [-> | (r2 & ->)]; cbn [pbind popt].
    all: assert (G : forall cs A (k : gitinfo -> pres A), (match url_info uhost upath u cs with Some i => k i | None => PPanic end) = PPanic -> (forall i, k i <> PPanic) -> exists t u h, uparse t = Some u /\ uhost u = Some h /\ known_host h <> None /\ upath u = "")
      by (intros cs A k H Hk; exists t, u; unfold url_info in H; destruct (uhost u) as [h|]; [exists h; destruct (known_host h) as [g|] eqn:K; [|now apply Hk in H]; destruct (upath u) as [|c p]; [repeat split; auto; congruence|destruct (split _ p) as [|? [|? [|? ?]]]; now apply Hk in H]|now apply Hk in H]).
    1, 3: intros H; eapply (G _ _ (fun i => POk _ i) H); intros; discriminate.
    all: destruct (tag_err "semver:" r2) as [-> | (r3 & ->)]; cbn [pbind palt pmap].
    1, 3: unfold no_url_encode; destruct (sall urlc r2); cbn [popt pbind]; intros H; eapply (G _ _ (fun i => POk _ i) H); intros; discriminate.
    all: unfold semver_range; destruct r3 as [|c r3]; [discriminate|]; destruct (rparse (String c r3)); [|discriminate]; cbn [pcut pbind popt pmap]; intros H; eapply (G _ _ (fun i => POk _ i) H); intros; discriminate.
  Qed.
  Lemma no_char_at s : sall (fun c => negb (is at_sign c)) s = no_char "@" s.
  Proof. induction s as [|c p IH]; [reflexivity|]. cbn [sall no_char]. rewrite IH. unfold is, at_sign. now rewrite Ascii.eqb_sym. Qed.
  Lemma sall_colon_hash s : sall (fun c => negb (is colon c || is hash c)) s = true <-> no_char ":" s = true /\ no_char "#" s = true.
  Proof.
    induction s as [|c p IH]; [cbn; intuition|]. cbn [sall no_char]. rewrite !andb_true_iff, IH, !negb_true_iff, orb_false_iff. unfold is, colon, hash.
    rewrite (Ascii.eqb_sym ":" c), (Ascii.eqb_sym "#" c). tauto.
  Qed.
  Definition userp (r : string) : pres (option string) := popt r (pbind (till1 (is at_sign) r) (fun r' u => pbind (tag "@" r') (fun r' _ => POk r' u))).
  Lemma is_eq a c : is a c = true -> c = a.
  Proof. unfold is. intros H. apply Ascii.eqb_eq in H. congruence. Qed.
  Lemma userp_inv r : (exists u r', u <> "" /\ no_char "@" u = true /\ r = u ++ String "@" r' /\ userp r = POk r' (Some u))
    \/ (userp r = POk r None /\ (no_char "@" r = true \/ exists t, r = String "@" t)).
  Proof.
    unfold userp. destruct (till1 (is at_sign) r) as [r' u| | |] eqn:E; cbn [pbind popt].
    - destruct (till1_inv _ _ _ _ E) as (-> & H1 & H2 & H3). rewrite no_char_at in H2. destruct (tag_err "@" r') as [E1 | (r2 & E1)]; rewrite E1; cbn [pbind popt].
      + right. split; [reflexivity|]. left. destruct r' as [|c r']; [now rewrite sapp_nil|]. unfold stops in H3. apply is_eq in H3. subst c. discriminate E1.
      + left. exists u, r2. rewrite (tag1_inv "@"%char _ _ _ (or_introl eq_refl) E1). auto.
    - right. split; [reflexivity|]. destruct r as [|c r]; [now left|]. right. unfold till1 in E. cbn [span] in E. destruct (is at_sign c) eqn:A.
      + apply is_eq in A. subst c. now exists r.
      + exfalso. cbn in E. destruct (span _ r). discriminate.
    - exfalso. unfold till1 in E. destruct (span _ r) as [[|? ?] ?]; discriminate.
    - exfalso. unfold till1 in E. destruct (span _ r) as [[|? ?] ?]; discriminate.
  Qed.
  Definition pathp (r : string) : pres (option string) := popt r (pbind (tag ":" r) (fun r' _ => till1 (is hash) r')).
  Lemma pathp_inv r : (exists p r', p <> "" /\ no_char "#" p = true /\ stops (is hash) r' /\ r = String ":" (p ++ r') /\ pathp r = POk r' (Some p)) \/ pathp r = POk r None.
  Proof.
    unfold pathp. destruct (tag_err ":" r) as [E | (r1 & E)]; rewrite E; cbn [pbind popt]; [now right|].
    destruct (till1_err (is hash) r1) as [E1 | (r2 & p & E1)]; rewrite E1; cbn [popt]; [now right|]. left. destruct (till1_inv _ _ _ _ E1) as (-> & H1 & H2 & H3).
    exists p, r2. rewrite sall_hash in H2. pose proof (tag1_inv ":"%char _ _ _ (or_intror (or_intror (or_intror (or_introl eq_refl)))) E) as ->. auto.
  Qed.
  Definition scp_body (r : string) : pres gitinfo :=
    pbind (userp r) (fun r user => pbind (till1 (fun c => is colon c || is hash c) r) (fun r host => pbind (pathp r) (fun r path =>
    pbind (committish r) (fun r cs => POk r (scp_info user host path cs))))).
  Lemma scp_body_inv r0 r i : scp_body r0 = POk r i -> git_shape i.
  Proof.
    unfold scp_body. intros H.
    assert (G : exists user r1, userp r0 = POk r1 user /\ match user with Some u => u <> "" /\ no_char "@" u = true | None => no_char "@" r1 = true \/ exists t, r1 = String "@" t end).
    { destruct (userp_inv r0) as [(u & r' & H1 & H2 & -> & E) | (E & H1)]; [exists (Some u), r'|exists None, r0]; auto. }
    destruct G as (user & r1 & E & Hu). rewrite E in H. cbn [pbind] in H.
    destruct (till1 (fun c => is colon c || is hash c) r1) as [r2 host| | |] eqn:E1; cbn [pbind] in H; try discriminate.
    destruct (till1_inv _ _ _ _ E1) as (-> & H1 & H2 & H3). apply sall_colon_hash in H2. destruct H2 as [H2 H2'].
    assert (G : exists path r3, pathp r2 = POk r3 path /\ (forall p, path = Some p -> p <> "" /\ no_char "#" p = true) /\ exists t, r2 = (match path with Some p => ":" ++ p | None => "" end) ++ t).
    { destruct (pathp_inv r2) as [(p & r' & P1 & P2 & P3 & -> & P4) | P4].
      - exists (Some p), r'. repeat split; auto; [now injection H0 as ->|now injection H0 as ->|]. now exists r'.
      - exists None, r2. split; [exact P4|]. split; [discriminate|]. now exists r2. }
    destruct G as (path & r3 & E2 & Hp & (t & ->)). rewrite E2 in H. cbn [pbind] in H. destruct (committish r3) as [r4 cs| | |] eqn:E3; cbn [pbind] in H; try discriminate.
    injection H as <- <-. destruct cs as [c q]. apply gs_scp; auto; [|exact (committish_inv _ _ _ E3)].
    destruct user as [u|]; [exact Hu|]. destruct Hu as [Hu | (t' & Hu)].
    - left. rewrite <- sapp_assoc, no_char_app in Hu. now apply andb_true_iff in Hu.
    - right. destruct host as [|c0 host]; [easy|]. injection Hu as -> _. now exists host.
  Qed.
  Lemma scp_eq s : git_scp s = pbind (popt s (tag "git+" s)) (fun r _ => pbind (tag "ssh://" r) (fun r _ => scp_body r)).
  Proof. reflexivity. Qed.
  Lemma scp_inv s r i : git_scp s = POk r i -> git_shape i.
  Proof.
    rewrite scp_eq. destruct (tag_err "git+" s) as [-> | (r0 & ->)]; cbn [popt pbind].
    - destruct (tag_err "ssh://" s) as [-> | (r1 & ->)]; cbn [pbind]; [discriminate|apply scp_body_inv].
    - destruct (tag_err "ssh://" r0) as [-> | (r1 & ->)]; cbn [pbind]; [discriminate|apply scp_body_inv].
  Qed.
  Lemma git_inv s r sp : git_spec s = POk r sp -> exists i, sp = SGit i /\ git_shape i.
  Proof.
    unfold SpecModel.git_spec. destruct (git_shorthand s) as [r0 i| | |] eqn:E0; cbn [palt pmap pbind]; try discriminate.
    - intros H. injection H as <- <-. exists i. split; [reflexivity|eapply shorthand_inv, E0].
    - destruct (git_url s) as [r0 i| | |] eqn:E1; cbn [palt pmap pbind]; try discriminate.
      + intros H. injection H as <- <-. exists i. split; [reflexivity|eapply url_inv, E1].
      + destruct (git_scp s) as [r0 i| | |] eqn:E2; cbn [palt pmap pbind]; try discriminate. intros H. injection H as <- <-. exists i. split; [reflexivity|eapply scp_inv, E2].
  Qed.
  Lemma path_inv s r sp : path_spec s = POk r sp -> r = "" /\ sp = SDir s.
  Proof.
    unfold path_spec, relative_path, absolute_path. destruct (strip_tag "." s); cbn [palt pmap pbind]; [intros H; injection H as <- <-; auto|].
    set (b := match s with EmptyString => _ | String _ _ => _ end). destruct (starts_sep b); cbn [pmap pbind]; [|discriminate]. intros H. injection H as <- <-. auto.
  Qed.
  Lemma path_err s : path_spec s = PErr \/ path_spec s = POk "" (SDir s).
  Proof.
    unfold path_spec, relative_path, absolute_path. destruct (strip_tag "." s); cbn [palt pmap pbind]; [auto|].
    set (b := match s with EmptyString => _ | String _ _ => _ end). destruct (starts_sep b); cbn [pmap pbind]; auto.
  Qed.
  Definition filep (s : string) : pres pspec := pbind (popt s (tag "file:" s)) (fun r _ => path_spec r).
  Lemma filep_inv s : filep s = PErr \/ exists p, filep s = POk "" (SDir p) /\ dir_shape p.
  Proof.
    unfold filep. destruct (tag_err "file:" s) as [-> | (r & ->)]; cbn [popt pbind].
    - destruct (path_err s) as [-> | E]; [auto|]. rewrite E. right. exists s. auto.
    - destruct (path_err r) as [-> | E]; [auto|]. rewrite E. right. exists r. auto.
  Qed.
  (** parsed specs *)
  Definition base_shape (sp : pspec) : Prop :=
    match sp with SDir p => dir_shape p | SGit i => git_shape i | SNpm _ _ _ => npm_shape sp | SAlias _ _ => False end.
  Inductive alias_name : string -> Prop :=
  | an_plain n : safe_name n -> alias_name n
  | an_scoped sc n : safe_name sc -> safe_name n -> alias_name ("@" ++ sc ++ "/" ++ n)
  | an_bare sc n : safe_name sc -> safe_name n -> alias_name (sc ++ "/" ++ n).
  Definition spec_shape (sp : pspec) : Prop :=
    match sp with SAlias n s => alias_name n /\ base_shape s | _ => base_shape sp end.
  Lemma npm_base sp : npm_shape sp -> base_shape sp.
  Proof. intros H. destruct H; now constructor. Qed.
  Lemma prefixed_inv s r sp : prefixed s = POk r sp -> base_shape sp.
  Proof.
    unfold prefixed_package_spec. fold (filep s). destruct (filep_inv s) as [E | (p & E & Hp)]; rewrite E; cbn [palt]; [|intros H; injection H as <- <-; exact Hp].
    destruct (git_spec s) as [r0 i| | |] eqn:E0; cbn [palt]; try discriminate.
    - intros H. injection H as <- <-. destruct (git_inv _ _ _ E0) as (j & -> & Hj). exact Hj.
    - destruct (tag_err "npm:" s) as [-> | (r0 & ->)]; cbn [pbind]; [discriminate|]. intros H. apply npm_base. eapply npm_inv, H.
  Qed.
  Lemma alias_scope_inv s r sc : alias_scope s = POk r sc -> exists n, safe_name n /\ (sc = "@" ++ n \/ sc = n).
  Proof.
    unfold alias_scope. intros H. assert (G : exists r0 (o : option unit), popt s (tag "@" s) = POk r0 o) by (destruct (tag_err "@" s) as [-> | (r0 & ->)]; cbn; eauto).
    destruct G as (r0 & o & E). rewrite E in H. cbn [pbind] in H. fold (name_till (is slash) r0) in H. destruct (name_err (is slash) r0) as [E0 | (r1 & n & E0)]; rewrite E0 in H; cbn [pbind] in H; [discriminate|].
    destruct (tag_err "/" r1) as [E1 | (r2 & E1)]; rewrite E1 in H; cbn [pbind] in H; [discriminate|]. injection H as <- <-. exists n.
    destruct (name_inv _ _ _ _ E0) as (_ & Hn & _). destruct o; auto.
  Qed.
  Lemma alias_scope_err s : alias_scope s = PErr \/ exists r sc, alias_scope s = POk r sc.
  Proof.
    unfold alias_scope. assert (G : exists r0 (o : option unit), popt s (tag "@" s) = POk r0 o) by (destruct (tag_err "@" s) as [-> | (r0 & ->)]; cbn; eauto).
    destruct G as (r0 & o & ->). cbn [pbind]. fold (name_till (is slash) r0). destruct (name_err (is slash) r0) as [E0 | (r1 & n & E0)]; rewrite E0; cbn [pbind]; [now left|].
    destruct (tag_err "/" r1) as [-> | (r2 & ->)]; cbn [pbind]; eauto.
  Qed.
  Lemma alias_inv s r sp : alias_spec s = POk r sp -> exists n t, sp = SAlias n t /\ alias_name n /\ base_shape t.
  Proof.
    unfold SpecModel.alias_spec. intros H. assert (G : exists r0 o, popt s (alias_scope s) = POk r0 o /\ forall sc, o = Some sc -> exists n, safe_name n /\ (sc = "@" ++ n \/ sc = n)).
    { destruct (alias_scope_err s) as [E | (r0 & sc & E)]; rewrite E; cbn; [exists s, None; split; [reflexivity|discriminate]|]. exists r0, (Some sc). split; [reflexivity|]. intros x Hx. injection Hx as <-. eapply alias_scope_inv, E. }
    destruct G as (r0 & o & E & Ho). rewrite E in H. cbn [pbind] in H. fold (name_till at_or_slash r0) in H. destruct (name_err at_or_slash r0) as [E0 | (r1 & n & E0)]; rewrite E0 in H; cbn [pbind] in H; [discriminate|].
    destruct (name_inv _ _ _ _ E0) as (_ & Hn & _). destruct (tag_err "@" r1) as [E1 | (r2 & E1)]; rewrite E1 in H; cbn [pbind] in H; [discriminate|].
    destruct (prefixed r2) as [r3 t| | |] eqn:E2; cbn [pbind] in H; try discriminate. injection H as <- <-. eexists _, t. split; [reflexivity|]. split; [|eapply prefixed_inv, E2].
    destruct o as [sc|]; [|now constructor]. destruct (Ho sc eq_refl) as (m & Hm & [-> | ->]).
    - rewrite !sapp_assoc. now constructor.
    - rewrite !sapp_assoc. now constructor.
  Qed.
  Lemma package_inv s r sp : package_spec s = POk r sp -> spec_shape sp.
  Proof.
    unfold SpecModel.package_spec. fold (filep s). destruct (alias_spec s) as [r0 t| | |] eqn:E; cbn [palt]; try discriminate.
    - intros H. injection H as <- <-. destruct (alias_inv _ _ _ E) as (n & u & -> & Hn & Hu). split; assumption.
    - destruct (filep_inv s) as [E1 | (p & E1 & Hp)]; rewrite E1; cbn [palt]; [|intros H; injection H as <- <-; exact Hp].
      destruct (git_spec s) as [r0 i| | |] eqn:E0; cbn [palt]; try discriminate.
      + intros H. injection H as <- <-. destruct (git_inv _ _ _ E0) as (j & -> & Hj). exact Hj.
      + assert (G : exists r0 (o : option unit), popt s (tag "npm:" s) = POk r0 o) by (destruct (tag_err "npm:" s) as [-> | (r0 & ->)]; cbn; eauto).
        destruct G as (r0 & o & ->). cbn [pbind]. intros H. apply npm_inv in H. destruct H; now constructor.
  Qed.
  Lemma parse_shape s sp : parse s = Ok sp -> spec_shape sp.
  Proof. unfold parse_package_spec. destruct (package_spec s) as [[|? ?] a| | |] eqn:E; try discriminate. intros H. injection H as <-. eapply package_inv, E. Qed.
End S.
