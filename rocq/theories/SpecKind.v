(** * Which kind of spec a string stands for *)
From Verif Require Import Base Types StdPath SpecModel SpecSpec SpecProofs SpecRound.
Open Scope list_scope.
Open Scope string_scope.

(** two words that differ, in any case, at some common position *)
Fixpoint mism (t p : string) : bool :=
  match t, p with
  | String a t, String b p => negb (Ascii.eqb (lower a) (lower b)) || mism t p
  | _, _ => false
  end.
Lemma strip_mism t : forall q p r, mism t p = true -> lowers q = lowers p -> strip_tag t (q ++ r) = None.
Proof.
  induction t as [|a t IH]; intros [|d q] [|b p] r; cbn [mism lowers]; try discriminate. intros H E. injection E as E0 E. cbn [append strip_tag].
  destruct (Ascii.eqb_spec (lower a) (lower d)) as [A|]; [|reflexivity]. rewrite A, E0, Ascii.eqb_refl in H. cbn in H. eapply IH; eassumption.
Qed.
Lemma tag_mism t p s : mism t p = true -> starts p s -> tag t s = PErr.
Proof. intros H (q & r & -> & Hq). unfold tag. now rewrite (strip_mism t q p r). Qed.
Lemma tag_starts t s : starts t s -> exists r, tag t s = POk r tt.
Proof. intros H. apply strip_tag_starts in H. destruct H as (r & H). exists r. unfold tag. now rewrite H. Qed.
Lemma lower_stop c : at_or_slash c = at_or_slash (lower c).
Proof. destruct c as [[] [] [] [] [] [] [] []]; reflexivity. Qed.
Lemma lower_alpha c : alpha c = alpha (lower c).
Proof. destruct c as [[] [] [] [] [] [] [] []]; reflexivity. Qed.
Lemma lowers_stop q p : lowers q = lowers p -> sall (fun c => negb (at_or_slash c)) p = true -> sall (fun c => negb (at_or_slash c)) q = true.
Proof.
  revert p. induction q as [|c q IH]; intros [|d p]; cbn [lowers sall]; try discriminate; [auto|]. intros E H. injection E as E0 E. apply andb_true_iff in H. destruct H as [H1 H2].
  rewrite (IH _ E H2), andb_true_r. rewrite lower_stop, E0, <- lower_stop. exact H1.
Qed.
Lemma lowers_split a : forall q b, lowers q = a ++ b -> exists x y, q = x ++ y /\ lowers x = a /\ lowers y = b.
Proof.
  induction a as [|c a IH]; intros q b H; [exists "", q; auto|]. destruct q as [|d q]; [discriminate|]. cbn in H. injection H as H0 H.
  destruct (IH _ _ H) as (x & y & -> & H1 & H2). exists (String d x), y. cbn. rewrite H0, H1. auto.
Qed.
(** the words that say what follows, each a word and a mark *)
Definition marks : list (string * ascii) :=
  [("npm", ":"%char); ("file", ":"%char); ("git", "+"%char); ("git", ":"%char); ("github", ":"%char); ("gist", ":"%char); ("gitlab", ":"%char); ("bitbucket", ":"%char); ("ssh", ":"%char)].
Lemma marked w c s : In (w, c) marks -> starts (w ++ String c "") s ->
  exists a b, s = a ++ String c b /\ lowers a = w /\ sall (fun c => negb (at_or_slash c)) a = true /\ at_or_slash c = false /\ urlc c = false /\ is slash c = false /\ is at_sign c = false
    /\ exists x y a', a = String x (String y a') /\ is colon y = false /\ path_sep x = false /\ is dot x = false.
Proof.
  intros Hin (q & r & -> & Hq). rewrite lowers_app in Hq.
  assert (W : lowers w = w /\ sall (fun c => negb (at_or_slash c)) w = true /\ In c [colon; "+"%char] /\ exists x y t, w = String x (String y t) /\ alpha x = true /\ alpha y = true).
  { cbn in Hin. repeat (destruct Hin as [Hin | Hin]; [injection Hin as <- <-; repeat split; [cbn; auto|do 3 eexists; repeat split; reflexivity]|]). destruct Hin. }
  destruct W as (W1 & W2 & W3 & x0 & y0 & t0 & W4 & W5 & W6). rewrite W1 in Hq. destruct (lowers_split _ _ _ Hq) as (a & m & -> & Ha & Hm).
  destruct m as [|d [|? ?]]; try discriminate. cbn in Hm. injection Hm as Hm. assert (lower c = c) as Hc by (destruct W3 as [<- | [<- | []]]; reflexivity). rewrite Hc in Hm.
  assert (d = c) as -> by (apply lower_fix; [destruct W3 as [<- | [<- | []]]; cbn; auto 10|exact Hm]). exists a, r. rewrite sapp_assoc. cbn [append].
  split; [reflexivity|]. split; [exact Ha|]. split; [eapply lowers_stop; [|exact W2]; now rewrite Ha, W1|]. split; [destruct W3 as [<- | [<- | []]]; reflexivity|].
  split; [destruct W3 as [<- | [<- | []]]; reflexivity|]. split; [destruct W3 as [<- | [<- | []]]; reflexivity|]. split; [destruct W3 as [<- | [<- | []]]; reflexivity|].
  rewrite W4 in Ha. destruct a as [|x [|y a]]; try discriminate. cbn in Ha. injection Ha as X Y _. exists x, y, a. split; [reflexivity|].
  rewrite <- X, <- lower_alpha in W5. rewrite <- Y, <- lower_alpha in W6. clear - W5 W6.
  split; [destruct y as [[] [] [] [] [] [] [] []]; vm_compute in W6 |- *; congruence|].
  split; destruct x as [[] [] [] [] [] [] [] []]; vm_compute in W5 |- *; congruence.
Qed.

Section S.
  Variable vparse : string -> option version.
  Variable rparse : string -> option range.
  Variable uparse : string -> option string.
  Variable uhost : string -> option string.
  Variable upath : string -> string.
  Notation npm_spec := (npm_spec vparse rparse).
  Notation git_shorthand := (git_shorthand rparse).
  Notation git_url := (git_url rparse uparse uhost upath).
  Notation git_scp := (git_scp rparse).
  Notation git_spec := (git_spec rparse uparse uhost upath).
  Notation prefixed := (prefixed_package_spec vparse rparse uparse uhost upath).
  Notation alias_spec := (alias_spec vparse rparse uparse uhost upath).
  Notation package_spec := (package_spec vparse rparse uparse uhost upath).
  Notation parse := (parse_package_spec vparse rparse uparse uhost upath).

  Lemma path_marked x y t : is colon y = false -> path_sep x = false -> is dot x = false -> path_spec (String x (String y t)) = PErr.
  Proof.
    intros Hy Hs Hd. unfold path_spec, relative_path, absolute_path.
    assert (D : strip_tag "." (String x (String y t)) = None).
    { cbn [strip_tag]. destruct (Ascii.eqb_spec (lower ".") (lower x)) as [E|]; [|reflexivity]. exfalso. symmetry in E. change (lower ".") with dot in E.
      apply lower_fix in E; [|cbn; auto 10]. subst x. discriminate Hd. }
    assert (C : strip_tag ":" (String y t) = None).
    { cbn [strip_tag]. destruct (Ascii.eqb_spec (lower ":") (lower y)) as [E|]; [|reflexivity]. exfalso. symmetry in E. change (lower ":") with colon in E.
      apply lower_fix in E; [|cbn; auto 10]. subst y. discriminate Hy. }
    rewrite D, C. cbn [palt]. replace (if alpha x then String x (String y t) else String x (String y t)) with (String x (String y t)) by (destruct (alpha x); reflexivity).
    cbn [starts_sep]. rewrite Hs. reflexivity.
  Qed.
  Lemma filep_marked w c s : In (w, c) marks -> starts (w ++ String c "") s -> tag "file:" s = PErr -> filep s = PErr.
  Proof.
    intros Hin Hs Hf. destruct (marked _ _ _ Hin Hs) as (a & b & -> & _ & _ & _ & _ & _ & _ & x & y & a' & -> & H1 & H2 & H3). unfold filep. rewrite Hf. cbn [popt pbind append]. now apply path_marked.
  Qed.
  Lemma tag_at_marked a c b : sall (fun c => negb (at_or_slash c)) a = true -> is at_sign c = false -> tag "@" (a ++ String c b) = PErr.
  Proof.
    intros Ha Hc. destruct (tag_err "@" (a ++ String c b)) as [E | (r & E)]; [exact E|]. apply (tag1_inv "@"%char) in E; [|cbn; auto]. exfalso. destruct a as [|d a]; cbn in E; injection E as -> _.
    - discriminate Hc.
    - discriminate Ha.
  Qed.
  Lemma npm_marked a c b : sall (fun c => negb (at_or_slash c)) a = true -> at_or_slash c = false -> urlc c = false -> is at_sign c = false -> npm_spec (a ++ String c b) = PErr.
  Proof.
    intros Ha Hs Hu Hc. unfold SpecModel.npm_spec, npm_scope. rewrite tag_at_marked by assumption. cbn [pbind popt]. fold (name_till at_or_slash (a ++ String c b)). now rewrite name_bad.
  Qed.
  Lemma alias_marked w c s : In (w, c) marks -> starts (w ++ String c "") s -> alias_spec s = PErr.
  Proof. intros Hin Hs. destruct (marked _ _ _ Hin Hs) as (a & b & -> & _ & H1 & H2 & H3 & _). now apply alias_bad. Qed.
  Lemma hosted_mism p s : mism "github" p = true -> mism "gist" p = true -> mism "gitlab" p = true -> mism "bitbucket" p = true -> starts p s -> hosted_git_prefix s = PErr.
  Proof. intros H1 H2 H3 H4 Hs. unfold hosted_git_prefix. now rewrite !(tag_mism _ p) by assumption. Qed.
  Lemma git_none w c s : In (w, c) [("npm", ":"%char); ("file", ":"%char)] -> starts (w ++ String c "") s -> git_spec s = PErr.
  Proof.
    intros Hin Hs. assert (Hm : In (w, c) marks) by (cbn in *; intuition). destruct (marked _ _ _ Hm Hs) as (a & b & E & _ & H1 & H2 & H3 & H4 & H5 & _).
    unfold SpecModel.git_spec. assert (G : git_shorthand s = PErr).
    { rewrite E. apply shorthand_bad; try assumption; [|now apply at_sall]. rewrite <- E. destruct Hin as [Hin | [Hin | []]]; injection Hin as <- <-; eapply hosted_mism; try exact Hs; reflexivity. }
    rewrite G. cbn [palt]. assert (U : git_url s = PErr /\ git_scp s = PErr).
    { unfold SpecModel.git_url. rewrite scp_eq. destruct Hin as [Hin | [Hin | []]]; injection Hin as <- <-; (rewrite (tag_mism "git+" _ s) with (2 := Hs) by reflexivity; rewrite (tag_mism "git://" _ s) with (2 := Hs) by reflexivity; cbn [popt pbind palt]; rewrite (tag_mism "ssh://" _ s) with (2 := Hs) by reflexivity; split; reflexivity). }
    destruct U as [-> ->]. reflexivity.
  Qed.
  Definition gitmarks : list (string * ascii) :=
    [("git", "+"%char); ("git", ":"%char); ("github", ":"%char); ("gist", ":"%char); ("gitlab", ":"%char); ("bitbucket", ":"%char); ("ssh", ":"%char)].
  (** a spec that starts with a git word *)
  Lemma parse_git w c s : In (w, c) gitmarks -> starts (w ++ String c "") s -> package_spec s = git_spec s /\ prefixed s = git_spec s.
  Proof.
    intros Hin Hs. assert (Hm : In (w, c) marks) by (cbn in *; intuition). unfold SpecModel.package_spec, prefixed_package_spec. fold (filep s). rewrite (alias_marked w c) by assumption. cbn [palt].
    assert (F : tag "file:" s = PErr /\ tag "npm:" s = PErr).
    { cbn in Hin. repeat (destruct Hin as [Hin | Hin]; [injection Hin as <- <-; split; eapply tag_mism; try exact Hs; reflexivity|]). destruct Hin. }
    destruct F as [F N]. rewrite (filep_marked w c) by assumption. cbn [palt]. rewrite N. cbn [popt pbind].
    destruct (marked _ _ _ Hm Hs) as (a & b & -> & _ & H1 & H2 & H3 & H4 & H5 & _). rewrite npm_marked by assumption. destruct (git_spec (a ++ String c b)); split; reflexivity.
  Qed.
  Lemma parse_npm s : starts "npm:" s -> exists r, tag "npm:" s = POk r tt /\ package_spec s = npm_spec r /\ prefixed s = npm_spec r.
  Proof.
    intros Hs. destruct (tag_starts _ _ Hs) as (r & Hr). exists r. split; [exact Hr|]. unfold SpecModel.package_spec, prefixed_package_spec. fold (filep s).
    assert (Hm : In ("npm", ":"%char) marks) by (cbn; auto). rewrite (alias_marked "npm" ":") by assumption. rewrite (filep_marked "npm" ":"); [|assumption|exact Hs|now apply (tag_mism _ "npm:")].
    rewrite (git_none "npm" ":"); [|cbn; auto|exact Hs]. cbn [palt]. rewrite Hr. cbn [popt pbind]. auto.
  Qed.
  Lemma parse_file s : starts "file:" s -> exists r, tag "file:" s = POk r tt /\ package_spec s = path_spec r /\ prefixed s = path_spec r.
  Proof.
    intros Hs. destruct (tag_starts _ _ Hs) as (r & Hr). exists r. split; [exact Hr|]. unfold SpecModel.package_spec, prefixed_package_spec.
    assert (Hm : In ("file", ":"%char) marks) by (cbn; auto). rewrite (alias_marked "file" ":") by assumption. rewrite (git_none "file" ":"); [|cbn; auto|exact Hs]. cbn [palt]. rewrite Hr. cbn [popt pbind].
    rewrite (tag_mism "npm:" "file:") by (auto). cbn [popt pbind]. destruct (marked _ _ _ Hm Hs) as (a & b & -> & _ & H1 & H2 & H3 & H4 & H5 & _). rewrite npm_marked by assumption.
    destruct (path_err r) as [-> | ->]; split; reflexivity.
  Qed.
  Definition mark_kind (w : string) : kind := if String.eqb w "npm" then KNpm else if String.eqb w "file" then KDir else KGit.
  Lemma parse_ok s sp : parse s = Ok sp <-> package_spec s = POk "" sp.
  Proof. unfold parse_package_spec. destruct (package_spec s) as [[|? ?] a| | |]; split; intros H; try discriminate; congruence. Qed.
  Lemma marked_prefixed w c s : In (w, c) marks -> starts (w ++ String c "") s -> package_spec s = prefixed s.
  Proof.
    intros Hin Hs. assert (In (w, c) gitmarks \/ (w, c) = ("npm", ":"%char) \/ (w, c) = ("file", ":"%char)) as [G | [G | G]] by (cbn in *; intuition).
    - destruct (parse_git _ _ _ G Hs) as [-> ->]. reflexivity.
    - injection G as -> ->. destruct (parse_npm s Hs) as (r & _ & -> & ->). reflexivity.
    - injection G as -> ->. destruct (parse_file s Hs) as (r & _ & -> & ->). reflexivity.
  Qed.
  Lemma marked_kind w c s sp : In (w, c) marks -> starts (w ++ String c "") s -> parse s = Ok sp -> kind_of sp = mark_kind w.
  Proof.
    intros Hin Hs Hp. apply parse_ok in Hp. assert (In (w, c) gitmarks \/ (w, c) = ("npm", ":"%char) \/ (w, c) = ("file", ":"%char)) as [G | [G | G]] by (cbn in *; intuition).
    - destruct (parse_git _ _ _ G Hs) as [E _]. rewrite E in Hp. apply (git_inv vparse rparse uparse uhost upath (fun x => x)) in Hp. destruct Hp as (i & -> & _).
      cbn in G. repeat (destruct G as [G | G]; [injection G as <- <-; reflexivity|]). destruct G.
    - injection G as -> ->. destruct (parse_npm s Hs) as (r & _ & E & _). rewrite E in Hp. apply npm_inv in Hp. destruct Hp; reflexivity.
    - injection G as -> ->. destruct (parse_file s Hs) as (r & _ & E & _). rewrite E in Hp. apply path_inv in Hp. destruct Hp as [_ ->]. reflexivity.
  Qed.
  Lemma alias_parse w c n s sp : alias_name n -> In (w, c) marks -> starts (w ++ String c "") s -> parse s = Ok sp -> parse (n ++ "@" ++ s) = Ok (SAlias n sp).
  Proof.
    intros Hn Hin Hs Hp. apply parse_ok in Hp. apply parse_ok. rewrite (marked_prefixed w c) in Hp by assumption. unfold SpecModel.package_spec.
    rewrite (alias_fwd vparse rparse uparse uhost upath n s sp Hn Hp). reflexivity.
  Qed.

  (** ** panics *)
  Definition bad_url : Prop := exists t u h, uparse t = Some u /\ uhost u = Some h /\ known_host h <> None /\ upath u = "".
  Lemma committish_np s : committish rparse s <> PPanic.
  Proof.
    unfold committish. destruct (tag_err "#" s) as [-> | (r & ->)]; cbn [popt pbind]; [discriminate|]. destruct (tag_err "semver:" r) as [-> | (r' & ->)]; cbn [pbind palt].
    - destruct (no_url_encode r); cbn; discriminate.
    - unfold semver_range. destruct r'; [cbn; discriminate|]. destruct (rparse _); cbn; discriminate.
  Qed.
  Lemma shorthand_np s : git_shorthand s <> PPanic.
  Proof.
    unfold SpecModel.git_shorthand. destruct (prefix_ok s) as [-> | (r & h & ->)]; cbn [popt pbind].
    - fold (name_till (is slash) s). destruct (name_err (is slash) s) as [-> | (r & a & ->)]; cbn [pbind]; [discriminate|]. destruct (tag_err "/" r) as [-> | (r' & ->)]; cbn [pbind]; [discriminate|].
      destruct (span _ r') as [p q]. destruct (committish rparse q) eqn:E; cbn [pbind]; try discriminate. now apply committish_np in E.
    - fold (name_till (is slash) r). destruct (name_err (is slash) r) as [-> | (r0 & a & ->)]; cbn [pbind]; [discriminate|]. destruct (tag_err "/" r0) as [-> | (r' & ->)]; cbn [pbind]; [discriminate|].
      destruct (span _ r') as [p q]. destruct (committish rparse q) eqn:E; cbn [pbind]; try discriminate. now apply committish_np in E.
  Qed.
  Lemma scp_body_np s : scp_body rparse s <> PPanic.
  Proof.
    unfold scp_body. assert (U : exists r u, userp s = POk r u) by (destruct (userp_inv s) as [(u & r' & _ & _ & _ & ->) | (-> & _)]; eauto). destruct U as (r & u & ->). cbn [pbind].
    destruct (till1_err (fun c => is colon c || is hash c) r) as [-> | (r1 & h & ->)]; cbn [pbind]; [discriminate|].
    assert (P : exists r u, pathp r1 = POk r u) by (destruct (pathp_inv r1) as [(p & r' & _ & _ & _ & _ & ->) | ->]; eauto). destruct P as (r2 & p & ->). cbn [pbind].
    destruct (committish rparse r2) eqn:E; cbn [pbind]; try discriminate. now apply committish_np in E.
  Qed.
  Lemma git_panic s : git_spec s = PPanic -> bad_url.
  Proof.
    unfold SpecModel.git_spec. destruct (git_shorthand s) eqn:E0; cbn [palt pmap pbind]; try discriminate; [|now apply shorthand_np in E0].
    destruct (git_url s) eqn:E1; cbn [palt pmap pbind]; try discriminate; [|intros _; eapply url_inv_panic, E1].
    destruct (git_scp s) eqn:E2; cbn [palt pmap pbind]; try discriminate. exfalso. revert E2. rewrite scp_eq.
    destruct (tag_err "git+" s) as [-> | (r0 & ->)]; cbn [popt pbind].
    - destruct (tag_err "ssh://" s) as [-> | (r1 & ->)]; cbn [pbind]; [discriminate|apply scp_body_np].
    - destruct (tag_err "ssh://" r0) as [-> | (r1 & ->)]; cbn [pbind]; [discriminate|apply scp_body_np].
  Qed.
  Lemma npm_np s : npm_spec s <> PPanic.
  Proof.
    unfold SpecModel.npm_spec. assert (Hs : exists r o, popt s (npm_scope s) = POk r o).
    { unfold npm_scope. destruct (tag_err "@" s) as [-> | (r & ->)]; cbn [popt pbind]; [eauto|]. fold (name_till (is slash) r). destruct (name_err (is slash) r) as [-> | (r0 & a & ->)]; cbn [popt pbind]; [eauto|].
      destruct (tag_err "/" r0) as [-> | (r' & ->)]; cbn [popt pbind]; eauto. }
    destruct Hs as (r & o & ->). cbn [pbind]. fold (name_till at_or_slash r). destruct (name_err at_or_slash r) as [-> | (r0 & a & ->)]; cbn [pbind]; [discriminate|].
    destruct (tag_err "@" r0) as [-> | (r1 & ->)]; cbn [popt pbind]; [discriminate|]. unfold version_req. destruct r1; [cbn; discriminate|].
    destruct (vparse _); [cbn; discriminate|]. destruct (rparse _); [cbn; discriminate|]. destruct (no_url_encode _); cbn; discriminate.
  Qed.
  Lemma filep_np s : filep s <> PPanic.
  Proof. destruct (filep_inv s) as [-> | (p & -> & _)]; discriminate. Qed.
  Lemma prefixed_panic s : prefixed s = PPanic -> bad_url.
  Proof.
    unfold prefixed_package_spec. fold (filep s). destruct (filep s) eqn:E; cbn [palt]; try discriminate; [|now apply filep_np in E].
    destruct (git_spec s) eqn:E1; cbn [palt]; try discriminate; [|intros _; eapply git_panic, E1].
    destruct (tag_err "npm:" s) as [-> | (r & ->)]; cbn [pbind]; [discriminate|]. intros H. now apply npm_np in H.
  Qed.
  Lemma alias_panic s : alias_spec s = PPanic -> bad_url.
  Proof.
    unfold SpecModel.alias_spec. assert (Hs : exists r o, popt s (alias_scope s) = POk r o) by (destruct (alias_scope_err s) as [-> | (r & sc & ->)]; cbn [popt]; eauto).
    destruct Hs as (r & o & ->). cbn [pbind]. fold (name_till at_or_slash r). destruct (name_err at_or_slash r) as [-> | (r0 & a & ->)]; cbn [pbind]; [discriminate|].
    destruct (tag_err "@" r0) as [-> | (r1 & ->)]; cbn [pbind]; [discriminate|]. destruct (prefixed r1) eqn:E; cbn [pbind]; try discriminate. intros _. eapply prefixed_panic, E.
  Qed.
  Lemma parse_panic s : parse s = Panic -> bad_url.
  Proof.
    unfold parse_package_spec. destruct (package_spec s) as [[|? ?] a| | |] eqn:E; try discriminate. intros _. revert E. unfold SpecModel.package_spec. fold (filep s).
    destruct (alias_spec s) eqn:E0; cbn [palt]; try discriminate; [|intros _; eapply alias_panic, E0].
    destruct (filep s) eqn:E1; cbn [palt]; try discriminate; [|now apply filep_np in E1].
    destruct (git_spec s) eqn:E2; cbn [palt]; try discriminate; [|intros _; eapply git_panic, E2].
    destruct (tag_err "npm:" s) as [-> | (r & ->)]; cbn [popt pbind]; intros H; now apply npm_np in H.
  Qed.
  Lemma parse_target s sp : parse s = Ok sp -> is_alias (target sp) = false.
  Proof.
    intros H. apply (parse_shape vparse rparse uparse uhost upath (fun x => x)) in H. destruct sp as [p|n t|sc n r|i]; [reflexivity| |reflexivity|reflexivity]. destruct H as [_ H]. destruct t; [reflexivity|destruct H|reflexivity|reflexivity].
  Qed.
  (** owner/repo *)
  Lemma owner_repo o p : safe_name o -> safe_name p -> ~ starts_dot o -> parse (o ++ "/" ++ p) = Ok (SGit (GHosted o p GitHub None None None)).
  Proof.
    intros Ho Hp Hd. apply parse_ok. assert (Hc : no_char ":" (o ++ "/" ++ p) = true) by (rewrite !no_char_app, (safe_colon o Ho), (safe_colon p Hp); reflexivity).
    destruct (safe_cons _ Ho) as (c & o' & Eo & Hcu). unfold SpecModel.package_spec. fold (filep (o ++ "/" ++ p)).
    assert (A : alias_spec (o ++ "/" ++ p) = PErr).
    { unfold SpecModel.alias_spec, alias_scope. rewrite tag_at_safe by exact Ho. cbn [popt pbind]. fold (name_till (is slash) (o ++ "/" ++ p)). rewrite name_app; [|exact Ho|apply urlc_slash, Ho|reflexivity].
      cbn [pbind]. rewrite tag_app. cbn [pbind popt]. fold (name_till at_or_slash p). assert (N : name_till at_or_slash p = POk "" p) by (rewrite <- (sapp_nil p) at 1; apply name_app; [exact Hp|apply urlc_at, Hp|exact I]).
      rewrite N. reflexivity. }
    rewrite A. cbn [palt]. rewrite filep_quiet; [|exact Hc| | |].
    - cbn [palt]. unfold SpecModel.git_spec, SpecModel.git_shorthand. rewrite hosted_colon by exact Hc. cbn [popt pbind]. fold (name_till (is slash) (o ++ "/" ++ p)).
      rewrite name_app; [|exact Ho|apply urlc_slash, Ho|reflexivity]. cbn [pbind]. rewrite tag_app. cbn [pbind].
      assert (Sp : span (fun c => negb (is hash c)) p = (p, "")) by (rewrite <- (sapp_nil p) at 1; apply span_app; [apply nhash_sall; destruct Hp as [_ Hp]; eapply sall_no_char; [|exact Hp]; reflexivity|exact I]).
      rewrite Sp. reflexivity.
    - intros x E. apply Hd. rewrite Eo in E |- *. cbn in E. injection E as -> _. now exists o'.
    - intros x E. rewrite Eo in E. cbn in E. injection E as -> _. discriminate Hcu.
    - intros x E. rewrite Eo in E. cbn in E. injection E as -> _. discriminate Hcu.
  Qed.
End S.
