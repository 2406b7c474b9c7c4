(** * Printing a spec and reading it back *)
From Verif Require Import Base Types StdPath SpecModel SpecSpec SpecProofs.
Open Scope list_scope.
Open Scope string_scope.

Lemma lowers_app a b : lowers (a ++ b) = lowers a ++ lowers b.
Proof. induction a as [|c a IH]; cbn; [reflexivity|]. now rewrite IH. Qed.
Lemma lower_colon c : lower c = ":"%char -> c = ":"%char.
Proof. apply lower_fix. cbn. auto. Qed.
(** no colon, so no tag with a colon *)
Lemma strip_colon t : forall s, no_char ":" t = false -> no_char ":" s = true -> strip_tag t s = None.
Proof.
  induction t as [|c t IH]; [discriminate|]. intros [|d s] Ht Hs; [reflexivity|]. cbn [strip_tag]. destruct (Ascii.eqb_spec (lower c) (lower d)) as [E|]; [|reflexivity].
  cbn [no_char] in *. apply andb_true_iff in Hs. destruct Hs as [H1 H2]. apply andb_false_iff in Ht. destruct Ht as [Ht | Ht]; [|now apply IH].
  exfalso. rewrite negb_true_iff, Ascii.eqb_neq in H1. rewrite negb_false_iff, Ascii.eqb_eq in Ht. subst c. apply H1, lower_colon. rewrite <- E. reflexivity.
Qed.
Lemma tag_colon t s : no_char ":" t = false -> no_char ":" s = true -> tag t s = PErr.
Proof. intros H1 H2. unfold tag. now rewrite strip_colon. Qed.
Lemma tag_not t s : ~ starts t s -> tag t s = PErr.
Proof. intros H. destruct (tag_err t s) as [E | (r & E)]; [exact E|]. exfalso. apply H. destruct (tag_inv _ _ _ _ E) as (q & -> & Hq). now exists q, r. Qed.
Lemma hosted_colon s : no_char ":" s = true -> hosted_git_prefix s = PErr.
Proof.
  intros H. unfold hosted_git_prefix. assert (G : forall t r, tag t s = POk r tt -> tag ":" r = PErr).
  { intros t r E. destruct (tag_inv _ _ _ _ E) as (q & -> & _). rewrite no_char_app in H. apply andb_true_iff in H. now apply tag_colon. }
  destruct (tag_err "github" s) as [-> | (r & E)]; [|rewrite E; cbn [pmap pbind palt]; now rewrite (G _ _ E)]. cbn [pmap pbind palt].
  destruct (tag_err "gist" s) as [-> | (r & E)]; [|rewrite E; cbn [pmap pbind palt]; now rewrite (G _ _ E)]. cbn [pmap pbind palt].
  destruct (tag_err "gitlab" s) as [-> | (r & E)]; [|rewrite E; cbn [pmap pbind palt]; now rewrite (G _ _ E)]. cbn [pmap pbind palt].
  destruct (tag_err "bitbucket" s) as [-> | (r & E)]; [|rewrite E; cbn [pmap pbind palt]; now rewrite (G _ _ E)]. reflexivity.
Qed.
Lemma prefix_split p : forall u, String.prefix p u = true -> exists t, u = p ++ t.
Proof.
  induction p as [|c p IH]; intros u H; [now exists u|]. destruct u as [|d u]; [discriminate|]. cbn [String.prefix] in H. destruct (ascii_dec c d) as [<- |]; [|discriminate].
  destruct (IH u H) as (t & ->). now exists t.
Qed.
(** the first character of a name *)
Lemma safe_cons n : safe_name n -> exists c t, n = String c t /\ urlc c = true.
Proof. intros [H1 H2]. destruct n as [|c t]; [easy|]. cbn in H2. apply andb_true_iff in H2. exists c, t. tauto. Qed.
Lemma urlc_lower_at c : urlc c = true -> Ascii.eqb (lower "@") (lower c) = false.
Proof. destruct c as [[] [] [] [] [] [] [] []]; vm_compute; auto. Qed.
Lemma tag_at_safe n r : safe_name n -> tag "@" (n ++ r) = PErr.
Proof. intros H. destruct (safe_cons _ H) as (c & t & -> & Hc). unfold tag. cbn [append strip_tag]. now rewrite urlc_lower_at. Qed.
Lemma safe_colon n : safe_name n -> no_char ":" n = true.
Proof. intros [_ H]. eapply sall_no_char; [|exact H]. reflexivity. Qed.
Lemma safe_nslash n : safe_name n -> no_char "/" n = true.
Proof. intros [_ H]. eapply sall_no_char; [|exact H]. reflexivity. Qed.
Lemma nslash_sall n : no_char "/" n = true -> sall (fun c => negb (is slash c)) n = true.
Proof. induction n as [|c n IH]; [reflexivity|]. cbn [sall no_char]. rewrite !andb_true_iff. unfold is, slash. rewrite (Ascii.eqb_sym "/" c). intuition. Qed.
Lemma name_noslash n : no_char "/" n = true -> name_till (is slash) n = PErr \/ exists a, name_till (is slash) n = POk "" a.
Proof.
  intros H. destruct (name_err (is slash) n) as [E | (r & a & E)]; [now left|]. right. destruct (name_inv _ _ _ _ E) as (-> & _ & _ & Hr). destruct r as [|c r]; [eauto|].
  cbn [stops] in Hr. apply is_eq in Hr. subst c. rewrite no_char_app in H. cbn in H. now rewrite andb_false_r in H.
Qed.

Section S.
  Variable vparse : string -> option version.
  Variable vshow : version -> string.
  Variable rparse : string -> option range.
  Variable uparse : string -> option string.
  Variable uhost : string -> option string.
  Variable upath : string -> string.
  Variable uscheme : string -> string.
  Hypothesis SP : semver_printing vparse vshow rparse.
  Hypothesis UP : url_printing uparse.
  Notation version_req := (version_req vparse rparse).
  Notation npm_spec := (npm_spec vparse rparse).
  Notation committish := (committish rparse).
  Notation git_shorthand := (git_shorthand rparse).
  Notation git_url := (git_url rparse uparse uhost upath).
  Notation git_scp := (git_scp rparse).
  Notation git_spec := (git_spec rparse uparse uhost upath).
  Notation prefixed := (prefixed_package_spec vparse rparse uparse uhost upath).
  Notation alias_spec := (alias_spec vparse rparse uparse uhost upath).
  Notation package_spec := (package_spec vparse rparse uparse uhost upath).
  Notation parse := (parse_package_spec vparse rparse uparse uhost upath).
  Notation show := (show_spec vshow uscheme).
  Notation show_git := (show_git uscheme).
  Notation plain_req := (plain_req vparse).
  Notation plain_git := (plain_git uparse uhost upath uscheme).
  Notation req_shape := (req_shape vparse rparse).
  Notation npm_shape := (npm_shape vparse rparse).
  Notation git_shape := (git_shape rparse uparse uhost upath).
  Notation ref_shape := (ref_shape rparse).
  Notation base_shape := (base_shape vparse rparse uparse uhost upath).

  Definition req_text (r : option vspec) : string := match r with Some q => "@" ++ show_vspec vshow q | None => "" end.
  Lemma version_req_fwd q : req_shape (Some q) -> plain_req (Some q) -> version_req (show_vspec vshow q) = POk "" q.
  Proof.
    destruct SP as [V1 V2 R1 R2]. destruct q as [t|v|r]; cbn [SpecProofs.req_shape SpecSpec.plain_req show_vspec].
    - intros (Ht & Hv & Hr) _. unfold SpecModel.version_req. rewrite Hv, Hr. unfold no_url_encode. destruct Ht as [H1 ->]. destruct t; easy.
    - intros (s & Hs) _. unfold SpecModel.version_req. rewrite (V1 _ _ Hs). pose proof (V2 _ _ Hs) as [H _]. destruct (vshow v); easy.
    - intros (s & Hs) Hv. unfold SpecModel.version_req. rewrite Hv, (R1 _ _ Hs). pose proof (R2 _ _ Hs) as [H _]. destruct r; easy.
  Qed.
  Lemma req_stops r : stops at_or_slash (req_text r).
  Proof. destruct r; [reflexivity|exact I]. Qed.
  Lemma opt_req_fwd r : req_shape r -> plain_req r ->
    popt (req_text r) (pbind (tag "@" (req_text r)) (fun r' _ => pcut (version_req r'))) = POk "" r.
  Proof.
    destruct r as [q|]; intros H1 H2; [|reflexivity]. unfold req_text. rewrite tag_app. cbn [pbind]. rewrite version_req_fwd by assumption. reflexivity.
  Qed.
  Lemma npm_fwd sp : npm_shape sp -> (match sp with SNpm _ _ r => plain_req r | _ => True end) -> npm_spec (show sp) = POk "" sp.
  Proof.
    intros H P. destruct H as [n r Hn Hr|sc n r Hsc Hn Hr].
    - change (show (SNpm None n r)) with (n ++ req_text r). unfold SpecModel.npm_spec, npm_scope. rewrite tag_at_safe by exact Hn. cbn [pbind popt].
      fold (name_till at_or_slash (n ++ req_text r)). rewrite name_app; [|exact Hn|apply urlc_at, Hn|apply req_stops]. cbn [pbind]. rewrite opt_req_fwd by assumption. reflexivity.
    - change (show (SNpm (Some sc) ("@" ++ sc ++ "/" ++ n) r)) with (("@" ++ sc ++ "/" ++ n) ++ req_text r). rewrite !sapp_assoc.
      unfold SpecModel.npm_spec, npm_scope. rewrite tag_app. cbn [pbind]. fold (name_till (is slash) (sc ++ "/" ++ n ++ req_text r)).
      rewrite name_app; [|exact Hsc|apply urlc_slash, Hsc|reflexivity]. cbn [pbind]. rewrite tag_app. cbn [pbind popt].
      fold (name_till at_or_slash (n ++ req_text r)). rewrite name_app; [|exact Hn|apply urlc_at, Hn|apply req_stops]. cbn [pbind]. rewrite opt_req_fwd by assumption. reflexivity.
  Qed.

  (** ** git *)
  Lemma committish_fwd c r : ref_shape c r -> committish (show_ref c r) = POk "" (c, r).
  Proof.
    destruct SP as [V1 V2 R1 R2]. destruct c as [c|], r as [r|]; cbn [SpecProofs.ref_shape show_ref]; try contradiction; unfold SpecModel.committish.
    - intros H. rewrite tag_app. cbn [pbind]. rewrite tag_colon; [|reflexivity|eapply sall_no_char; [|exact H]; reflexivity]. cbn [pbind palt]. unfold no_url_encode. rewrite H. reflexivity.
    - intros (s & Hs). change ("#semver:" ++ r) with ("#" ++ "semver:" ++ r). rewrite tag_app. cbn [pbind]. rewrite tag_app. cbn [pbind].
      unfold semver_range. rewrite (R1 _ _ Hs). pose proof (R2 _ _ Hs) as [H _]. destruct r; easy.
    - reflexivity.
  Qed.
  Lemma ref_stops c r : stops (is hash) (show_ref c r).
  Proof. destruct c, r; try reflexivity; exact I. Qed.
  Lemma alias_bad a c b : sall (fun c => negb (at_or_slash c)) a = true -> at_or_slash c = false -> urlc c = false -> alias_spec (a ++ String c b) = PErr.
  Proof.
    intros Ha Hc Hu. unfold SpecModel.alias_spec.
    assert (Hs : alias_scope (a ++ String c b) = PErr).
    { unfold alias_scope. assert (Ht : tag "@" (a ++ String c b) = PErr).
      { destruct (tag_err "@" (a ++ String c b)) as [E | (r & E)]; [exact E|]. apply (tag1_inv "@"%char) in E; [|cbn; auto]. exfalso. destruct a as [|d a].
        - cbn in E. injection E as -> _. discriminate.
        - cbn in E. injection E as -> _. cbn in Ha. discriminate. }
      rewrite Ht. cbn [popt pbind]. fold (name_till (is slash) (a ++ String c b)). rewrite name_bad; [reflexivity|now apply at_sall|now apply at_not|exact Hu]. }
    rewrite Hs. cbn [popt pbind]. fold (name_till at_or_slash (a ++ String c b)). rewrite name_bad; [reflexivity|exact Ha|exact Hc|exact Hu].
  Qed.
  Lemma alias_git t : alias_spec ("git+" ++ t) = PErr.
  Proof. exact (alias_bad "git" "+" t eq_refl eq_refl eq_refl). Qed.
  Lemma alias_gits t : alias_spec ("git:" ++ t) = PErr.
  Proof. exact (alias_bad "git" ":" t eq_refl eq_refl eq_refl). Qed.
  Lemma shorthand_bad a c b : hosted_git_prefix (a ++ String c b) = PErr -> sall (fun c => negb (is slash c)) a = true -> is slash c = false -> urlc c = false ->
    git_shorthand (a ++ String c b) = PErr.
  Proof. intros H Ha Hc Hu. unfold SpecModel.git_shorthand. rewrite H. cbn [popt pbind]. fold (name_till (is slash) (a ++ String c b)). now rewrite name_bad. Qed.
  Lemma shorthand_git t : git_shorthand ("git+" ++ t) = PErr.
  Proof. exact (shorthand_bad "git" "+" t eq_refl eq_refl eq_refl eq_refl). Qed.
  Lemma shorthand_gits t : git_shorthand ("git:" ++ t) = PErr.
  Proof. exact (shorthand_bad "git" ":" t eq_refl eq_refl eq_refl eq_refl). Qed.
  Lemma hosted_fwd h t : hosted_git_prefix (show_host h ++ ":" ++ t) = POk t h.
  Proof. destruct h; reflexivity. Qed.
  Lemma nhash_sall p : no_char "#" p = true -> sall (fun c => negb (is hash c)) p = true.
  Proof. now rewrite sall_hash. Qed.
  Lemma shorthand_fwd o p h c r : safe_name o -> no_char "#" p = true -> ref_shape c r ->
    git_shorthand (show_host h ++ ":" ++ o ++ "/" ++ p ++ show_ref c r) = POk "" (GHosted o p h c r None).
  Proof.
    intros Ho Hp Hr. unfold SpecModel.git_shorthand. rewrite hosted_fwd. cbn [popt pbind]. fold (name_till (is slash) (o ++ "/" ++ p ++ show_ref c r)).
    rewrite name_app; [|exact Ho|apply urlc_slash, Ho|reflexivity]. cbn [pbind]. rewrite tag_app. cbn [pbind].
    rewrite span_app; [|now apply nhash_sall|]. 2:{ pose proof (ref_stops c r) as H. destruct (show_ref c r); [exact I|]. cbn [stops] in H. now rewrite H. }
    rewrite committish_fwd by exact Hr. reflexivity.
  Qed.
  Lemma url_fwd pre u c r i : uparse u = Some u -> u <> "" -> no_char "#" u = true -> ref_shape c r -> url_info uhost upath u (c, r) = Some i ->
    (pre = "git+" \/ pre = "" /\ String.prefix "git://" u = true) -> git_url (pre ++ u ++ show_ref c r) = POk "" i.
  Proof.
    intros Hu Hne Hh Hr Hi Hp. unfold SpecModel.git_url. assert (G : palt (tag "git+" (pre ++ u ++ show_ref c r)) (pbind (tag "git://" (pre ++ u ++ show_ref c r)) (fun _ _ => POk (pre ++ u ++ show_ref c r) tt)) = POk (u ++ show_ref c r) tt).
    { destruct Hp as [-> | [-> Hp]]; [now rewrite tag_app|]. destruct (prefix_split _ _ Hp) as (t & ->). cbn [append]. reflexivity. }
    rewrite G. cbn [pbind]. unfold pres_map. rewrite till1_app; [|exact Hne|now apply nhash_sall|apply ref_stops]. cbn [pbind]. rewrite Hu. cbn [pbind].
    rewrite committish_fwd by exact Hr. cbn [pbind]. now rewrite Hi.
  Qed.
  Lemma ref_at c r : ref_shape c r -> no_char "@" (show_ref c r) = true.
  Proof.
    destruct SP as [V1 V2 R1 R2]. destruct c as [c|], r as [r|]; cbn [SpecProofs.ref_shape show_ref]; try contradiction; auto.
    - intros H. cbn. eapply sall_no_char; [|exact H]. reflexivity.
    - intros (s & Hs). pose proof (R2 _ _ Hs) as (_ & _ & _ & H & _). exact H.
  Qed.
  Lemma userp_fwd user host path t : user_shape user host path -> host <> "" -> no_char "@" t = true ->
    userp (scp_raw user host path ++ t) = POk (host ++ (match path with Some p => ":" ++ p | None => "" end) ++ t) user.
  Proof.
    intros Hu Hh Ht. unfold scp_raw. destruct user as [u|]; cbn [user_shape] in Hu.
    - destruct Hu as [H1 H2]. rewrite !sapp_assoc. unfold userp. rewrite till1_app; [|exact H1|now rewrite no_char_at|reflexivity]. cbn [pbind]. rewrite tag_app. cbn [pbind popt]. reflexivity.
    - cbn [append]. rewrite !sapp_assoc. set (rest := host ++ _ ++ t). unfold userp. destruct Hu as [Hu | (x & ->)]; [|reflexivity].
      assert (N : no_char "@" rest = true). { unfold rest. cbn [append] in Hu. rewrite <- sapp_assoc, no_char_app, Hu. exact Ht. }
      assert (T : till1 (is at_sign) rest = POk "" rest) by (rewrite <- (sapp_nil rest) at 1; apply till1_app; [unfold rest; destruct host; easy|now rewrite no_char_at|exact I]). rewrite T. reflexivity.
  Qed.
  Lemma scp_fwd user host path c r : user_shape user host path -> host <> "" -> no_char ":" host = true -> no_char "#" host = true ->
    (forall p, path = Some p -> p <> "" /\ no_char "#" p = true) -> ref_shape c r ->
    git_scp ("git+ssh://" ++ scp_raw user host path ++ show_ref c r) = POk "" (scp_info user host path (c, r)).
  Proof.
    intros Hu Hh Hc Hs Hp Hr. rewrite scp_eq. change ("git+ssh://" ++ scp_raw user host path ++ show_ref c r) with ("git+" ++ "ssh://" ++ scp_raw user host path ++ show_ref c r).
    rewrite tag_app. cbn [popt pbind]. rewrite tag_app. cbn [pbind]. unfold scp_body. rewrite userp_fwd; [|exact Hu|exact Hh|now apply ref_at]. cbn [pbind].
    rewrite till1_app; [|exact Hh|now apply sall_colon_hash|destruct path; [reflexivity|]; pose proof (ref_stops c r) as H; cbn [append]; destruct (show_ref c r); [exact I|]; cbn [stops] in *; now rewrite H, orb_true_r].
    cbn [pbind]. unfold pathp. destruct path as [p|].
    - rewrite sapp_assoc, tag_app. cbn [pbind]. destruct (Hp p eq_refl) as [H1 H2]. rewrite till1_app; [|exact H1|now apply nhash_sall|apply ref_stops]. cbn [popt pbind].
      rewrite committish_fwd by exact Hr. reflexivity.
    - cbn [append]. assert (T : tag ":" (show_ref c r) = PErr) by (destruct c, r; reflexivity). rewrite T. cbn [pbind popt]. rewrite committish_fwd by exact Hr. reflexivity.
  Qed.
  Lemma url_info_cases u cs i : url_info uhost upath u cs = Some i ->
    i = GUrl u (fst cs) (snd cs) \/ exists o p h, i = GHosted o p h (fst cs) (snd cs) (Some u).
  Proof.
    unfold url_info. destruct (match uhost u with Some h => known_host h | None => None end) as [h|]; [|intros H; injection H as <-; now left].
    destruct (upath u) as [|? p]; [discriminate|]. destruct (split "/" p) as [|o [|q [|? ?]]]; intros H; injection H as <-; eauto 6.
  Qed.
  Lemma scp_info_cases user host path cs : scp_info user host path cs = GSsh (scp_raw user host path) (fst cs) (snd cs)
    \/ exists o p h, scp_info user host path cs = GHosted o p h (fst cs) (snd cs) (Some (scp_raw user host path)).
  Proof.
    unfold scp_info. destruct (known_host host) as [h|]; [|now left]. destruct path as [p|]; [|now left]. destruct user as [u|]; [|now left].
    destruct (split "/" p) as [|o [|q [|? ?]]]; eauto.
  Qed.
  (** what a printed git spec looks like *)
  Lemma git_fwd i : git_shape i -> plain_git i -> git_spec (show_git i) = POk "" (SGit i)
    /\ ((exists t, show_git i = "git+" ++ t) \/ (exists t, show_git i = "git://" ++ t) \/ (exists h t, show_git i = show_host h ++ ":" ++ t)).
  Proof.
    intros Hi Pi. unfold SpecModel.git_spec.
    assert (U : forall u c r pre, uparse u = Some u -> u <> "" -> no_char "#" u = true -> ref_shape c r -> url_info uhost upath u (c, r) = Some i ->
      show_git i = pre ++ u ++ show_ref c r -> (pre = "git+" \/ pre = "" /\ String.prefix "git://" u = true) ->
      pmap SGit (palt (git_shorthand (show_git i)) (palt (git_url (show_git i)) (git_scp (show_git i)))) = POk "" (SGit i)
      /\ ((exists t, show_git i = "git+" ++ t) \/ (exists t, show_git i = "git://" ++ t) \/ (exists h t, show_git i = show_host h ++ ":" ++ t))).
    { intros u c r pre H1 H2 H3 H4 H5 E Hp. rewrite E. assert (G : git_shorthand (pre ++ u ++ show_ref c r) = PErr /\ ((exists t, pre ++ u ++ show_ref c r = "git+" ++ t) \/ exists t, pre ++ u ++ show_ref c r = "git://" ++ t)).
      { destruct Hp as [-> | [-> Hp]]; [split; [apply shorthand_git|left; eauto]|]. cbn [append].
        assert (exists t, u = "git://" ++ t) as (t & ->) by now apply prefix_split.
        split; [|right; exists (t ++ show_ref c r); reflexivity]. rewrite sapp_assoc. exact (shorthand_gits ("//" ++ t ++ show_ref c r)). }
      destruct G as [-> G]. cbn [palt]. rewrite (url_fwd pre u c r i) by assumption. cbn [palt pmap pbind]. split; [reflexivity|tauto]. }
    destruct Hi as [o p h c r Ho Hp Hr|s u c r i H1 H2 H3 H4|user host path c r H1 H2 H3 H4 H5 H6].
    - cbn [SpecModel.show_git]. rewrite shorthand_fwd by assumption. cbn [palt pmap pbind]. split; [reflexivity|]. right. right. eauto.
    - destruct (url_info_cases _ _ _ H4) as [E | (o & p & h & E)]; cbn [fst snd] in E.
      + rewrite E in Pi. cbn [SpecSpec.plain_git] in Pi. eapply (U u c r (if String.eqb (uscheme u) "git" then "" else "git+")); try assumption.
        * eapply up_same; eassumption.
        * eapply up_ne; eassumption.
        * eapply up_hash; eassumption.
        * rewrite E. reflexivity.
        * destruct (String.eqb_spec (uscheme u) "git"); auto.
      + eapply (U u c r (if String.prefix "git://" u then "" else "git+")); try assumption.
        * eapply up_same; eassumption.
        * eapply up_ne; eassumption.
        * eapply up_hash; eassumption.
        * rewrite E. reflexivity.
        * destruct (String.prefix "git://" u); auto.
    - destruct (scp_info_cases user host path (c, r)) as [E | (o & p & h & E)]; cbn [fst snd] in E.
      + assert (Es : show_git (scp_info user host path (c, r)) = "git+ssh://" ++ scp_raw user host path ++ show_ref c r) by now rewrite E.
        rewrite E in Pi. cbn [SpecSpec.plain_git] in Pi. destruct Pi as [P1 P2]. rewrite Es. split; [|left; now exists ("ssh://" ++ scp_raw user host path ++ show_ref c r)].
        rewrite scp_fwd by assumption. assert (Hsh : git_shorthand ("git+ssh://" ++ scp_raw user host path ++ show_ref c r) = PErr) by exact (shorthand_git ("ssh://" ++ scp_raw user host path ++ show_ref c r)).
        rewrite Hsh. cbn [palt]. assert (Hurl : git_url ("git+ssh://" ++ scp_raw user host path ++ show_ref c r) = PErr).
        { unfold SpecModel.git_url. change ("git+ssh://" ++ scp_raw user host path ++ show_ref c r) with ("git+" ++ "ssh://" ++ scp_raw user host path ++ show_ref c r).
          rewrite tag_app. cbn [palt pbind]. rewrite <- (sapp_assoc "ssh://"). unfold pres_map. rewrite till1_app; [|easy| |apply ref_stops]; [cbn [pbind]; now rewrite P1|].
          apply nhash_sall. now rewrite no_char_app, P2. }
        rewrite Hurl. reflexivity.
      + assert (Pi' := Pi). rewrite E in Pi'. cbn [SpecSpec.plain_git] in Pi'. destruct Pi' as (P1 & P2 & P3).
        eapply (U (scp_raw user host path) c r (if String.prefix "git://" (scp_raw user host path) then "" else "git+")); try assumption.
        * unfold scp_raw. destruct user as [[|? ?]|]; try easy. destruct host; easy.
        * now rewrite E.
        * rewrite E. reflexivity.
        * destruct (String.prefix "git://" (scp_raw user host path)); auto.
  Qed.
  Lemma filep_git i : ((exists t, show_git i = "git+" ++ t) \/ (exists t, show_git i = "git://" ++ t) \/ (exists h t, show_git i = show_host h ++ ":" ++ t)) ->
    filep (show_git i) = PErr /\ alias_spec (show_git i) = PErr.
  Proof.
    intros [(t & ->) | [(t & ->) | (h & t & ->)]].
    - split; [reflexivity|apply alias_git].
    - split; [reflexivity|exact (alias_gits ("//" ++ t))].
    - split; [destruct h; reflexivity|]. exact (alias_bad (show_host h) ":" t ltac:(destruct h; reflexivity) eq_refl eq_refl).
  Qed.

  (** ** aliases *)
  Lemma alias_fwd n x t : alias_name n -> prefixed x = POk "" t -> alias_spec (n ++ "@" ++ x) = POk "" (SAlias n t).
  Proof.
    intros Hn Hx. unfold SpecModel.alias_spec, alias_scope. destruct Hn as [n Hn|sc n Hsc Hn|sc n Hsc Hn].
    - rewrite tag_at_safe by exact Hn. cbn [popt pbind]. fold (name_till (is slash) (n ++ "@" ++ x)).
      assert (B : name_till (is slash) (n ++ "@" ++ x) = PErr) by (apply name_bad; [apply urlc_slash, Hn|reflexivity|reflexivity]).
      rewrite B. cbn [pbind popt]. fold (name_till at_or_slash (n ++ "@" ++ x)). rewrite name_app; [|exact Hn|apply urlc_at, Hn|reflexivity]. cbn [pbind]. rewrite tag_app. cbn [pbind]. rewrite Hx. reflexivity.
    - rewrite !sapp_assoc, tag_app. cbn [popt pbind]. fold (name_till (is slash) (sc ++ "/" ++ n ++ "@" ++ x)). rewrite name_app; [|exact Hsc|apply urlc_slash, Hsc|reflexivity].
      cbn [pbind]. rewrite tag_app. cbn [pbind popt]. fold (name_till at_or_slash (n ++ "@" ++ x)). rewrite name_app; [|exact Hn|apply urlc_at, Hn|reflexivity]. cbn [pbind]. rewrite tag_app. cbn [pbind]. rewrite Hx.
      cbn [pbind]. now rewrite !sapp_assoc.
    - rewrite !sapp_assoc, tag_at_safe by exact Hsc. cbn [popt pbind]. fold (name_till (is slash) (sc ++ "/" ++ n ++ "@" ++ x)). rewrite name_app; [|exact Hsc|apply urlc_slash, Hsc|reflexivity].
      cbn [pbind]. rewrite tag_app. cbn [pbind popt]. fold (name_till at_or_slash (n ++ "@" ++ x)). rewrite name_app; [|exact Hn|apply urlc_at, Hn|reflexivity]. cbn [pbind]. rewrite tag_app. cbn [pbind]. rewrite Hx.
      cbn [pbind]. now rewrite !sapp_assoc.
  Qed.
  Lemma dir_not_file p : dir_shape p -> tag "file:" p = PErr.
  Proof.
    unfold dir_shape. intros H. destruct (tag_err "file:" p) as [E | (r & E)]; [exact E|]. exfalso. destruct (tag_inv _ _ _ _ E) as (q & -> & Hq).
    destruct q as [|c0 [|c1 q]]; try discriminate. cbn in Hq. injection Hq as H0 H1 _.
    assert (c0 = "f"%char \/ c0 = "F"%char) as Hc by (clear - H0; destruct c0 as [[] [] [] [] [] [] [] []]; vm_compute in H0; try discriminate; auto).
    assert (c1 = "i"%char \/ c1 = "I"%char) as Hd by (clear - H1; destruct c1 as [[] [] [] [] [] [] [] []]; vm_compute in H1; try discriminate; auto).
    destruct Hc as [-> | ->], Hd as [-> | ->]; discriminate H.
  Qed.
  Lemma filep_dir p : dir_shape p -> filep p = POk "" (SDir p).
  Proof. intros H. unfold filep. rewrite dir_not_file by exact H. exact H. Qed.
  Lemma prefixed_npm x : prefixed ("npm:" ++ x) = npm_spec x.
  Proof.
    unfold prefixed_package_spec. fold (filep ("npm:" ++ x)). change (filep ("npm:" ++ x)) with (@PErr pspec). cbn [palt]. unfold SpecModel.git_spec.
    assert (S0 : git_shorthand ("npm:" ++ x) = PErr) by exact (shorthand_bad "npm" ":" x eq_refl eq_refl eq_refl eq_refl). rewrite S0. cbn [palt].
    assert (U0 : git_url ("npm:" ++ x) = PErr) by reflexivity. rewrite U0. cbn [palt]. assert (C0 : git_scp ("npm:" ++ x) = PErr) by reflexivity. rewrite C0. cbn [palt pmap pbind].
    rewrite tag_app. reflexivity.
  Qed.
  Lemma show_alias n s : show (SAlias n s) = n ++ "@" ++ (match s with SNpm _ _ _ => "npm:" | _ => "" end) ++ show s.
  Proof. reflexivity. Qed.
  Lemma alias_round n s : alias_name n -> base_shape s -> plain_spec vparse uparse uhost upath uscheme (SAlias n s) -> alias_spec (show (SAlias n s)) = POk "" (SAlias n s).
  Proof.
    intros Hn Hs Ps. rewrite show_alias. apply alias_fwd; [exact Hn|]. destruct s as [p|? ?|sc m r|i]; cbn [SpecProofs.base_shape SpecSpec.plain_spec] in *.
    - cbn [append show_spec]. unfold prefixed_package_spec. fold (filep p). now rewrite filep_dir.
    - contradiction.
    - rewrite prefixed_npm. now apply npm_fwd.
    - cbn [append show_spec]. destruct (git_fwd i Hs Ps) as [G1 G2]. destruct (filep_git i G2) as [F _]. unfold prefixed_package_spec. fold (filep (show_git i)). rewrite F. cbn [palt]. rewrite G1. reflexivity.
  Qed.

  (** ** registry specs at top level *)
  Definition quiet (t : string) : Prop :=
    t <> "" /\ no_char ":" t = true /\ no_char "/" t = true /\ (forall x, t <> String "." x) /\ (forall x, t <> String backslash x) /\ ~ starts "git+" t.
  Lemma path_quiet t : no_char ":" t = true -> (forall x, t <> String "." x) -> (forall x, t <> String backslash x) -> (forall x, t <> String "/" x) -> path_spec t = PErr.
  Proof.
    intros Hc Hd Hb Hs. unfold path_spec, relative_path, absolute_path. destruct t as [|c t]; [reflexivity|].
    destruct (strip_tag "." (String c t)) as [r|] eqn:E.
    { exfalso. destruct (strip_tag_inv _ _ _ E) as (q & Eq & Hq). destruct q as [|d [|? ?]]; try discriminate. cbn in Hq, Eq. injection Eq as -> ->. injection Hq as Hq.
      apply (Hd r). f_equal. apply lower_fix; [cbn; auto 10|exact Hq]. }
    assert (St : strip_tag ":" t = None) by (apply strip_colon; [reflexivity|]; cbn [no_char] in Hc; now apply andb_true_iff in Hc).
    rewrite St. cbn [palt]. replace (if alpha c then String c t else String c t) with (String c t) by (destruct (alpha c); reflexivity).
    cbn [starts_sep]. unfold path_sep. destruct (is slash c) eqn:A; [apply is_eq in A; subst c; now destruct (Hs t)|].
    destruct (is backslash c) eqn:B; [apply is_eq in B; subst c; now destruct (Hb t)|]. reflexivity.
  Qed.
  Lemma filep_quiet t : no_char ":" t = true -> (forall x, t <> String "." x) -> (forall x, t <> String backslash x) -> (forall x, t <> String "/" x) -> filep t = PErr.
  Proof. intros Hc Hd Hb Hs. unfold filep. rewrite tag_colon; [|reflexivity|exact Hc]. cbn [popt pbind]. now apply path_quiet. Qed.
  Lemma url_quiet t : no_char ":" t = true -> ~ starts "git+" t -> git_url t = PErr /\ git_scp t = PErr.
  Proof.
    intros Hc Hg. split.
    - unfold SpecModel.git_url. rewrite (tag_not "git+") by exact Hg. rewrite tag_colon; [reflexivity|reflexivity|exact Hc].
    - rewrite scp_eq. rewrite (tag_not "git+") by exact Hg. cbn [popt pbind]. rewrite tag_colon; [reflexivity|reflexivity|exact Hc].
  Qed.
  Lemma prefixed_quiet t : quiet t -> prefixed t = PErr.
  Proof.
    intros (Hne & Hc & Hs & Hd & Hb & Hg). assert (Hsl : forall x, t <> String "/" x) by (intros x ->; discriminate Hs).
    unfold prefixed_package_spec. fold (filep t). rewrite filep_quiet by assumption. cbn [palt]. unfold SpecModel.git_spec.
    destruct (url_quiet t Hc Hg) as [-> ->]. assert (S0 : git_shorthand t = PErr).
    { unfold SpecModel.git_shorthand. rewrite hosted_colon by exact Hc. cbn [popt pbind]. fold (name_till (is slash) t).
      destruct (name_noslash t Hs) as [-> | (a & ->)]; reflexivity. }
    rewrite S0. cbn [palt pmap pbind]. rewrite tag_colon; [reflexivity|reflexivity|exact Hc].
  Qed.
  Lemma req_quiet q : req_shape (Some q) -> (forall t, q = VTag t -> ~ starts_dot t) -> quiet (show_vspec vshow q).
  Proof.
    destruct SP as [V1 V2 R1 R2]. destruct q as [t|v|r]; cbn [SpecProofs.req_shape show_vspec].
    - intros (Ht & _ & _) Hd. destruct Ht as [H1 H2]. assert (Ht : safe_name t) by (split; assumption). repeat split.
      + exact H1.
      + now apply safe_colon.
      + now apply safe_nslash.
      + intros x ->. eapply Hd; [reflexivity|]. now exists x.
      + intros x ->. discriminate H2.
      + intros (q & r & -> & Hq). destruct q as [|c0 [|c1 [|c2 [|c3 q]]]]; try discriminate. cbn in Hq. injection Hq as _ _ _ E3 _.
        assert (c3 = "+"%char) as -> by (apply lower_fix; [cbn; auto 10|exact E3]). cbn [append sall] in H2. rewrite !andb_true_iff in H2. decompose [and] H2. discriminate.
    - intros (s & Hs) _. destruct (V2 _ _ Hs) as (H1 & H2 & H3 & H4 & H5 & H6 & H7 & H8). repeat split; assumption.
    - intros (s & Hs) _. destruct (R2 _ _ Hs) as (H1 & H2 & H3 & H4 & H5 & H6 & H7 & H8). repeat split; assumption.
  Qed.
  Lemma req_text_chars r : req_shape r -> (forall t, r = Some (VTag t) -> ~ starts_dot t) -> no_char ":" (req_text r) = true /\ no_char "/" (req_text r) = true.
  Proof.
    intros H1 H2. destruct r as [q|]; [|auto]. destruct (req_quiet q H1) as (_ & Q2 & Q3 & _); [intros t ->; now apply H2|]. unfold req_text. now rewrite !no_char_app, Q2, Q3.
  Qed.
  Lemma name_not_git n t : safe_name n -> (t = "" \/ exists x, t = String "@" x) -> ~ starts "git+" (n ++ t).
  Proof.
    intros [_ Hn] Ht (q & r & E & Hq). destruct q as [|c0 [|c1 [|c2 [|c3 q]]]]; try discriminate. cbn in Hq. injection Hq as E0 E1 E2 E3 _.
    assert (c3 = "+"%char) as -> by (apply lower_fix; [cbn; auto 10|exact E3]).
    assert (Hat : forall c, lower c = "g"%char \/ lower c = "i"%char \/ lower c = "t"%char -> c <> "@"%char) by (intros c H ->; vm_compute in H; intuition discriminate).
    destruct n as [|n0 [|n1 [|n2 [|n3 n]]]]; cbn in E.
    - destruct Ht as [-> | (x & ->)]; [discriminate|]. injection E as E _. subst c0. now apply (Hat "@"%char); auto.
    - injection E as -> E. destruct Ht as [-> | (x & ->)]; [discriminate|]. injection E as E _. subst c1. now apply (Hat "@"%char); auto.
    - injection E as -> -> E. destruct Ht as [-> | (x & ->)]; [discriminate|]. injection E as E _. subst c2. now apply (Hat "@"%char); auto.
    - injection E as -> -> -> E. destruct Ht as [-> | (x & ->)]; [discriminate|]. discriminate.
    - injection E as -> -> -> -> _. cbn [sall] in Hn. rewrite !andb_true_iff in Hn. decompose [and] Hn. discriminate.
  Qed.
  Lemma npm_round sp : npm_shape sp -> plain_spec vparse uparse uhost upath uscheme sp -> package_spec (show sp) = POk "" sp.
  Proof.
    intros Hs Ps. assert (Hf : npm_spec (show sp) = POk "" sp) by (apply npm_fwd; [exact Hs|]; destruct sp; cbn in *; tauto).
    unfold SpecModel.package_spec. fold (filep (show sp)).
    assert (G : alias_spec (show sp) = PErr /\ no_char ":" (show sp) = true /\ (forall x, show sp <> String "." x) /\ (forall x, show sp <> String backslash x) /\ (forall x, show sp <> String "/" x)
      /\ ~ starts "git+" (show sp) /\ git_shorthand (show sp) = PErr).
    { destruct Hs as [n r Hn Hr|sc n r Hsc Hn Hr]; cbn [SpecSpec.plain_spec] in Ps; destruct Ps as (P1 & P2 & P3); destruct (req_text_chars r Hr P3) as [Q1 Q2].
      - change (show (SNpm None n r)) with (n ++ req_text r) in *. assert (Hc : no_char ":" (n ++ req_text r) = true) by (rewrite no_char_app, safe_colon, Q1 by exact Hn; reflexivity).
        assert (Hsl : no_char "/" (n ++ req_text r) = true) by (rewrite no_char_app, safe_nslash, Q2 by exact Hn; reflexivity).
        destruct (safe_cons _ Hn) as (c & n' & En & Hcu). repeat split.
        + unfold SpecModel.alias_spec, alias_scope. rewrite tag_at_safe by exact Hn. cbn [popt pbind]. fold (name_till (is slash) (n ++ req_text r)).
          assert (Sc : forall k, pbind (name_till (is slash) (n ++ req_text r)) (fun r n0 => pbind (tag "/" r) (fun r _ => POk r (k n0))) = @PErr string)
            by (intros k; destruct (name_noslash _ Hsl) as [-> | (a & ->)]; reflexivity).
          rewrite (Sc (fun x => x)). cbn [popt pbind]. fold (name_till at_or_slash (n ++ req_text r)). rewrite name_app; [|exact Hn|apply urlc_at, Hn|apply req_stops].
          cbn [pbind]. destruct r as [q|]; [|reflexivity]. unfold req_text. rewrite tag_app. cbn [pbind]. rewrite prefixed_quiet; [reflexivity|]. apply req_quiet; [exact Hr|]. intros t ->. now apply P3.
        + exact Hc.
        + intros x E. apply P1. rewrite En in E |- *. cbn in E. injection E as -> _. now exists n'.
        + intros x E. rewrite En in E. cbn in E. injection E as -> _. discriminate Hcu.
        + intros x E. rewrite En in E. cbn in E. injection E as -> _. discriminate Hcu.
        + apply name_not_git; [exact Hn|]. destruct r; [right; eexists; reflexivity|now left].
        + unfold SpecModel.git_shorthand. rewrite hosted_colon by exact Hc. cbn [popt pbind]. fold (name_till (is slash) (n ++ req_text r)).
          destruct (name_noslash _ Hsl) as [-> | (a & ->)]; reflexivity.
      - change (show (SNpm (Some sc) ("@" ++ sc ++ "/" ++ n) r)) with (("@" ++ sc ++ "/" ++ n) ++ req_text r) in *. rewrite !sapp_assoc in *.
        assert (Hc : no_char ":" ("@" ++ sc ++ "/" ++ n ++ req_text r) = true) by (rewrite !no_char_app, (safe_colon sc Hsc), (safe_colon n Hn), Q1; reflexivity).
        repeat split; try (intros x E; discriminate E).
        + unfold SpecModel.alias_spec, alias_scope. rewrite tag_app. cbn [popt pbind]. fold (name_till (is slash) (sc ++ "/" ++ n ++ req_text r)).
          rewrite name_app; [|exact Hsc|apply urlc_slash, Hsc|reflexivity]. cbn [pbind]. rewrite tag_app. cbn [pbind popt]. fold (name_till at_or_slash (n ++ req_text r)).
          rewrite name_app; [|exact Hn|apply urlc_at, Hn|apply req_stops]. cbn [pbind]. destruct r as [q|]; [|reflexivity]. unfold req_text. rewrite tag_app. cbn [pbind].
          rewrite prefixed_quiet; [reflexivity|]. apply req_quiet; [exact Hr|]. intros t ->. now apply P3.
        + exact Hc.
        + intros (q & r0 & E & Hq). destruct q as [|c q]; [discriminate|]. cbn in E, Hq. injection E as <- _. discriminate Hq.
        + apply (shorthand_bad "" "@" (sc ++ "/" ++ n ++ req_text r)); [now apply hosted_colon|reflexivity|reflexivity|reflexivity]. }
    destruct G as (-> & G1 & G2 & G3 & G4 & G5 & G6). cbn [palt]. rewrite filep_quiet by assumption. cbn [palt]. unfold SpecModel.git_spec. rewrite G6. destruct (url_quiet _ G1 G5) as [-> ->].
    cbn [palt pmap pbind]. rewrite tag_colon; [|reflexivity|exact G1]. cbn [popt pbind]. exact Hf.
  Qed.
  Lemma alias_noat s : no_char "@" s = true -> alias_spec s = PErr.
  Proof.
    intros H. unfold SpecModel.alias_spec. assert (G : forall r x, (exists p, s = p ++ r) -> tag "@" r = POk x tt -> False).
    { intros r x (p & ->) E. apply (tag1_inv "@"%char) in E; [|cbn; auto]. subst r. rewrite no_char_app in H. cbn in H. now rewrite andb_false_r in H. }
    assert (G1 : exists r0 o, popt s (alias_scope s) = POk r0 o /\ exists p, s = p ++ r0).
    { destruct (alias_scope_err s) as [E | (r0 & sc & E)]; rewrite E; cbn [popt]; [exists s, None; split; [reflexivity|now exists ""]|]. exists r0, (Some sc). split; [reflexivity|].
      unfold alias_scope in E. destruct (tag_err "@" s) as [E1 | (r1 & E1)]; [|exfalso; apply (G s r1); [now exists ""|exact E1]]. rewrite E1 in E. cbn [popt pbind] in E.
      fold (name_till (is slash) s) in E. destruct (name_err (is slash) s) as [E2 | (r2 & n & E2)]; rewrite E2 in E; cbn [pbind] in E; [discriminate|].
      destruct (tag_err "/" r2) as [E3 | (r3 & E3)]; rewrite E3 in E; cbn [pbind] in E; [discriminate|]. injection E as <- _.
      destruct (name_inv _ _ _ _ E2) as (-> & _). destruct (tag_inv _ _ _ _ E3) as (q & -> & _). exists (n ++ q). now rewrite sapp_assoc. }
    destruct G1 as (r0 & o & -> & (p & ->)). cbn [pbind]. fold (name_till at_or_slash r0). destruct (name_err at_or_slash r0) as [-> | (r1 & n & E)]; [reflexivity|]. rewrite E. cbn [pbind].
    destruct (name_inv _ _ _ _ E) as (-> & _). destruct (tag_err "@" r1) as [-> | (r2 & E2)]; [reflexivity|]. exfalso. apply (G r1 r2); [exists (p ++ n); now rewrite sapp_assoc|exact E2].
  Qed.
  (** every plain spec reads back as itself *)
  Lemma round sp : spec_shape vparse rparse uparse uhost upath sp -> plain_spec vparse uparse uhost upath uscheme sp -> parse (show sp) = Ok sp.
  Proof.
    intros Hs Ps. unfold parse_package_spec. assert (G : package_spec (show sp) = POk "" sp); [|now rewrite G].
    destruct sp as [p|n s|sc n r|i]; cbn [SpecProofs.spec_shape SpecProofs.base_shape] in Hs.
    - cbn [show_spec SpecSpec.plain_spec] in *. unfold SpecModel.package_spec. fold (filep p). rewrite alias_noat by exact Ps. cbn [palt]. now rewrite filep_dir.
    - destruct Hs as [Hn Hs]. unfold SpecModel.package_spec. rewrite alias_round by assumption. reflexivity.
    - now apply npm_round.
    - cbn [show_spec SpecSpec.plain_spec] in *. destruct (git_fwd i Hs Ps) as [G1 G2]. destruct (filep_git i G2) as [F A]. unfold SpecModel.package_spec. fold (filep (show_git i)). rewrite A, F. cbn [palt]. rewrite G1. reflexivity.
  Qed.
End S.
