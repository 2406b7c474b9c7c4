(** * name@text: how dependencies are read (graph.rs:90) *)
From Verif Require Import Base Types StdPath SpecModel SpecSpec SpecProofs SpecRound SpecKind.
Open Scope list_scope.
Open Scope string_scope.

Lemma strip_mark ch w t : In ch [":"%char; "+"%char] -> no_char ch w = false -> no_char "@" w = true -> forall x, no_char ch x = true -> strip_tag w (x ++ String "@" t) = None.
Proof.
  intros Hch Hw Ha. revert Hw Ha. induction w as [|c w IH]; intros Hw Ha x Hx; [discriminate|]. cbn [no_char] in Hw, Ha. apply andb_true_iff in Ha. destruct Ha as [Ha Ha'].
  destruct x as [|d x]; cbn [append strip_tag].
  - destruct (Ascii.eqb_spec (lower c) (lower "@")) as [E|]; [|reflexivity]. exfalso. change (lower "@") with "@"%char in E. apply lower_fix in E; [|cbn; auto]. subst c. discriminate Ha.
  - cbn [no_char] in Hx. apply andb_true_iff in Hx. destruct Hx as [Hd Hx]. destruct (Ascii.eqb_spec (lower c) (lower d)) as [E|]; [|reflexivity].
    apply IH; auto. apply andb_false_iff in Hw. destruct Hw as [Hw|Hw]; [|exact Hw]. exfalso. apply negb_false_iff, Ascii.eqb_eq in Hw. subst c.
    assert (lower ch = ch) as E1 by (cbn in Hch; destruct Hch as [<-|[<-|[]]]; reflexivity). rewrite E1 in E. symmetry in E.
    apply lower_fix in E; [|cbn in *; tauto]. subst d. rewrite Ascii.eqb_refl in Hd. discriminate Hd.
Qed.
Lemma hosted_inv s r h : hosted_git_prefix s = POk r h -> starts (show_host h ++ ":") s.
Proof.
  unfold hosted_git_prefix. assert (G : forall w h0 r0 u, tag w s = POk r0 u -> show_host h0 = w -> pbind (tag ":" r0) (fun r _ => POk r h0) = POk r h -> starts (show_host h ++ ":") s).
  { intros w h0 r0 u E Hw H. destruct (tag_err ":" r0) as [E1|(r1 & E1)]; rewrite E1 in H; [discriminate|]. cbn [pbind] in H. injection H as -> ->.
    destruct (tag_inv _ _ _ _ E) as (q & -> & Hq). apply (tag1_inv ":"%char) in E1; [|cbn; tauto]. subst r0. exists (q ++ ":"), r. rewrite sapp_assoc. split; [reflexivity|].
    rewrite !lowers_app, Hq, Hw. reflexivity. }
  destruct (tag_err "github" s) as [E|(r0 & E)]; rewrite E; cbn [pmap pbind palt]; [|now apply (G "github" GitHub r0 tt)].
  destruct (tag_err "gist" s) as [E2|(r0 & E2)]; rewrite E2; cbn [pmap pbind palt]; [|now apply (G "gist" Gist r0 tt)].
  destruct (tag_err "gitlab" s) as [E3|(r0 & E3)]; rewrite E3; cbn [pmap pbind palt]; [|now apply (G "gitlab" GitLab r0 tt)].
  destruct (tag_err "bitbucket" s) as [E4|(r0 & E4)]; rewrite E4; cbn [pmap pbind palt]; [discriminate|now apply (G "bitbucket" Bitbucket r0 tt)].
Qed.

Section S.
  Variable vparse : string -> option version.
  Variable vshow : version -> string.
  Variable rparse : string -> option range.
  Variable uparse : string -> option string.
  Variable uhost : string -> option string.
  Variable upath : string -> string.
  Variable uscheme : string -> string.
  Notation version_req := (version_req vparse rparse).
  Notation npm_spec := (npm_spec vparse rparse).
  Notation git_shorthand := (git_shorthand rparse).
  Notation git_url := (git_url rparse uparse uhost upath).
  Notation git_scp := (git_scp rparse).
  Notation git_spec := (git_spec rparse uparse uhost upath).
  Notation prefixed := (prefixed_package_spec vparse rparse uparse uhost upath).
  Notation alias_spec := (alias_spec vparse rparse uparse uhost upath).
  Notation package_spec := (package_spec vparse rparse uparse uhost upath).
  Notation parse := (parse_package_spec vparse rparse uparse uhost upath).

  (** a package name, its scope *)
  Inductive pkg_name : option string -> string -> Prop :=
  | pkn_plain n : safe_name n -> ~ starts_dot n -> pkg_name None n
  | pkn_scoped sc n : safe_name sc -> safe_name n -> pkg_name (Some sc) ("@" ++ sc ++ "/" ++ n).
  Lemma safe_no ch n : urlc ch = false -> safe_name n -> no_char ch n = true.
  Proof. intros H [_ Hn]. eapply sall_no_char; eauto. Qed.
  Lemma pkg_no ch sc x : In ch [":"%char; "+"%char] -> pkg_name sc x -> no_char ch x = true.
  Proof.
    intros Hc [n Hn _|s n Hs Hn]; [apply safe_no; [|exact Hn]; cbn in Hc; destruct Hc as [<-|[<-|[]]]; reflexivity|].
    rewrite !no_char_app, (safe_no ch s), (safe_no ch n); auto; cbn in Hc; destruct Hc as [<-|[<-|[]]]; reflexivity.
  Qed.
  Lemma alias_at sc x t : pkg_name sc x -> alias_spec (x ++ "@" ++ t) = pbind (prefixed t) (fun r sp => POk r (SAlias x sp)).
  Proof.
    intros Hx. unfold SpecModel.alias_spec, alias_scope. destruct Hx as [n Hn _|s n Hs Hn].
    - rewrite tag_at_safe by exact Hn. cbn [popt pbind]. fold (name_till (is slash) (n ++ "@" ++ t)).
      assert (N : name_till (is slash) (n ++ "@" ++ t) = PErr) by (apply (name_bad (is slash) n "@" t); [apply urlc_slash, Hn|reflexivity|reflexivity]). rewrite N. cbn [pbind popt]. fold (name_till at_or_slash (n ++ "@" ++ t)).
      rewrite name_app; [|exact Hn|apply urlc_at, Hn|reflexivity]. cbn [pbind]. rewrite tag_app. cbn [pbind append]. reflexivity.
    - rewrite !sapp_assoc. rewrite tag_app. cbn [popt pbind]. fold (name_till (is slash) (s ++ "/" ++ n ++ "@" ++ t)).
      rewrite name_app; [|exact Hs|apply urlc_slash, Hs|reflexivity]. cbn [pbind]. rewrite tag_app. cbn [pbind popt]. fold (name_till at_or_slash (n ++ "@" ++ t)).
      rewrite name_app; [|exact Hn|apply urlc_at, Hn|reflexivity]. cbn [pbind]. rewrite tag_app. cbn [pbind]. rewrite !sapp_assoc. reflexivity.
  Qed.
  Lemma tag_none w sc x t : pkg_name sc x -> (no_char ":" w = false \/ no_char "+" w = false) -> no_char "@" w = true -> tag w (x ++ "@" ++ t) = PErr.
  Proof.
    intros Hx [H|H] Ha; unfold tag; change ("@" ++ t) with (String "@" t).
    - now rewrite (strip_mark ":" w t ltac:(cbn; auto) H Ha x (pkg_no ":" sc x ltac:(cbn; auto) Hx)).
    - now rewrite (strip_mark "+" w t ltac:(cbn; auto) H Ha x (pkg_no "+" sc x ltac:(cbn; auto) Hx)).
  Qed.
  Lemma path_none sc x t : pkg_name sc x -> path_spec (x ++ "@" ++ t) = PErr.
  Proof.
    intros Hx. assert (G : exists c d s, x ++ "@" ++ t = String c (String d s) /\ c <> "."%char /\ path_sep c = false /\ d <> ":"%char).
    { destruct Hx as [n Hn Hd|s n Hs Hn].
      - destruct (safe_cons _ Hn) as (c & n' & En & Hc). assert (c <> "."%char) by (intros ->; apply Hd; now exists n'). assert (path_sep c = false) by (clear - Hc; destruct c as [[] [] [] [] [] [] [] []]; vm_compute in Hc |- *; try reflexivity; discriminate Hc).
        destruct n' as [|d n']; subst n; [exists c, "@"%char, t; repeat split; auto; discriminate|]. exists c, d, (n' ++ "@" ++ t). repeat split; auto. intros ->. destruct Hn as [_ Hn]. cbn [sall] in Hn.
        apply andb_true_iff in Hn. destruct Hn as [_ Hn]. apply andb_true_iff in Hn. destruct Hn as [Hn _]. discriminate Hn.
      - destruct (safe_cons _ Hs) as (c & s' & Es & Hc). subst s. exists "@"%char, c, (s' ++ "/" ++ n ++ "@" ++ t). rewrite !sapp_assoc. repeat split; try discriminate; try reflexivity. intros ->. discriminate Hc. }
    destruct G as (c & d & s & Eq & H1 & H2 & H3); rewrite Eq. unfold path_spec, relative_path, absolute_path. cbn [strip_tag].
    assert (E : Ascii.eqb (lower ".") (lower c) = false) by (apply Ascii.eqb_neq; intros E; symmetry in E; apply (lower_fix c ".") in E; [exact (H1 E)|cbn; tauto]). rewrite E. cbn [palt].
    assert (E2 : Ascii.eqb (lower ":") (lower d) = false) by (apply Ascii.eqb_neq; intros E2; symmetry in E2; apply (lower_fix d ":") in E2; [exact (H3 E2)|cbn; tauto]). rewrite E2.
    destruct (alpha c); cbn [starts_sep]; now rewrite H2.
  Qed.
  Lemma git_none_at sc x t : pkg_name sc x -> git_spec (x ++ "@" ++ t) = PErr.
  Proof.
    intros Hx. unfold SpecModel.git_spec. assert (S : git_shorthand (x ++ "@" ++ t) = PErr).
    { unfold SpecModel.git_shorthand. assert (Hp : hosted_git_prefix (x ++ "@" ++ t) = PErr).
      { destruct (prefix_ok (x ++ "@" ++ t)) as [E|(r & h & E)]; [exact E|]. exfalso. apply hosted_inv in E. apply strip_tag_starts in E. destruct E as (r' & E).
        change ("@" ++ t) with (String "@" t) in E. rewrite (strip_mark ":" (show_host h ++ ":") t) in E; [discriminate|cbn; auto|destruct h; reflexivity|destruct h; reflexivity|now apply (pkg_no ":" sc); [cbn; auto|]]. }
      rewrite Hp. cbn [popt pbind]. fold (name_till (is slash) (x ++ "@" ++ t)). destruct Hx as [n Hn _|s n Hs Hn].
      - assert (N : name_till (is slash) (n ++ "@" ++ t) = PErr) by (apply (name_bad (is slash) n "@" t); [apply urlc_slash, Hn|reflexivity|reflexivity]). now rewrite N.
      - assert (N := name_bad (is slash) "" "@" (s ++ "/" ++ n ++ "@" ++ t) eq_refl eq_refl eq_refl). rewrite !sapp_assoc. cbn [append] in *. rewrite N. reflexivity. }
    rewrite S. unfold SpecModel.git_url. rewrite scp_eq. rewrite (tag_none "git+" sc), (tag_none "git://" sc) by auto. cbn [palt popt pbind]. rewrite (tag_none "ssh://" sc) by auto. reflexivity.
  Qed.
  Lemma npm_at sc x t : pkg_name sc x -> npm_spec (x ++ "@" ++ t) = match version_req t with POk r q => POk r (SNpm sc x (Some q)) | PPanic => PPanic | _ => PFail end.
  Proof.
    intros Hx. unfold SpecModel.npm_spec, npm_scope. destruct Hx as [n Hn _|s n Hs Hn].
    - rewrite tag_at_safe by exact Hn. cbn [popt pbind]. fold (name_till at_or_slash (n ++ "@" ++ t)).
      rewrite name_app; [|exact Hn|apply urlc_at, Hn|reflexivity]. cbn [pbind]. rewrite tag_app. cbn [pbind]. destruct (version_req t); reflexivity.
    - rewrite !sapp_assoc. rewrite tag_app. cbn [pbind]. fold (name_till (is slash) (s ++ "/" ++ n ++ "@" ++ t)).
      rewrite name_app; [|exact Hs|apply urlc_slash, Hs|reflexivity]. cbn [pbind]. rewrite tag_app. cbn [pbind popt]. fold (name_till at_or_slash (n ++ "@" ++ t)).
      rewrite name_app; [|exact Hn|apply urlc_at, Hn|reflexivity]. cbn [pbind]. rewrite tag_app. cbn [pbind]. destruct (version_req t); reflexivity.
  Qed.
  (** name@text is an alias if the text by itself is a spec with a prefix, a path or a git shorthand, else a version requirement *)
  Lemma dep_parse sc x t sp : pkg_name sc x -> (parse (x ++ "@" ++ t) = Ok sp <->
    (exists s, prefixed t = POk "" s /\ sp = SAlias x s) \/ (prefixed t = PErr /\ exists q, version_req t = POk "" q /\ sp = SNpm sc x (Some q))).
  Proof.
    intros Hx. rewrite parse_ok. unfold SpecModel.package_spec. rewrite (alias_at sc) by exact Hx.
    destruct (prefixed t) as [r s| | |]; cbn [pbind palt].
    - split; [intros H; injection H as -> <-; eauto|]. intros [(s' & H & ->)|[H _]]; [|discriminate]. now injection H as -> ->.
    - rewrite (tag_none "file:" sc) by auto. cbn [popt pbind]. rewrite (path_none sc) by auto. cbn [palt]. rewrite (git_none_at sc) by auto. cbn [palt].
      rewrite (tag_none "npm:" sc) by auto. cbn [popt pbind]. rewrite (npm_at sc) by auto. split.
      + intros H. right. split; [reflexivity|]. destruct (version_req t) as [r q| | |]; try discriminate. injection H as -> <-. eauto.
      + intros [(s & H & _)|[_ (q & -> & ->)]]; [discriminate|reflexivity].
    - split; [discriminate|]. intros [(s & H & _)|[H _]]; discriminate.
    - split; [discriminate|]. intros [(s & H & _)|[H _]]; discriminate.
  Qed.
End S.
