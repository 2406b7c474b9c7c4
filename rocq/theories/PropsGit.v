(** * C66: a git dependency is at the commit it asks for *)
From Verif Require Import Base Types StdPath VersionModel VersionSpec VersionProofs FetchModel GitModel.
Set Implicit Arguments.
Open Scope string_scope.
Open Scope list_scope.

Section Thms.
  Variable commit : Type.
  Variable sha : commit -> string.
  Variable remote : string -> option (repo commit).
  Variable vparse : string -> option version.
  Variable vshow : version -> string.
  Variable rsat : range -> version -> bool.
  Notation fetch_clone := (fetch_clone sha remote vparse vshow rsat).

  Lemma last_piece_tag pre t : no_char "/" t = true -> last_piece (pre ++ String "/" t) = Some t.
  Proof. intros H. unfold last_piece. rewrite split_app, (split_whole _ _ H), rev_app_distr. reflexivity. Qed.
  Lemma show_line c (t : string) : no_char "/" t = true -> last_piece (sha c ++ " refs/tags/" ++ t) = Some t.
  Proof.
    intros H. replace (sha c ++ " refs/tags/" ++ t)%string with ((sha c ++ " refs/tags") ++ String "/" t)%string by (rewrite sapp_assoc; reflexivity).
    now apply last_piece_tag.
  Qed.

  Lemma versions_in g v : In v (versions sha vparse g) <-> exists t c x, In (t, c) (g_tags g) /\ last_piece (sha c ++ " refs/tags/" ++ t) = Some x /\ vparse x = Some v.
  Proof.
    unfold versions, show_ref. rewrite in_flat_map. split.
    - intros (line & I & H). apply in_map_iff in I as ([t c] & <- & I). cbn in *. destruct (last_piece _) as [x|] eqn:E; [|contradiction].
      destruct (vparse x) as [w|] eqn:P; [|contradiction]. destruct H as [->|[]]. eauto 10.
    - intros (t & c & x & I & E & P). exists (sha c ++ " refs/tags/" ++ t)%string. split; [apply in_map_iff; exists (t, c); auto|]. rewrite E, P. now left.
  Qed.

  (** With a range: what is checked out is the text of the highest version in range among the tags, as far as they are versions. *)
  Theorem C66_range : forall url co r c, fetch_clone url co (Some r) = Ok c ->
    exists g v, remote url = Some g /\ In v (versions sha vparse g) /\ rsat r v = true /\
      (forall w, In w (versions sha vparse g) -> rsat r w = true -> vle w v) /\ checkout g (vshow v) = Some c.
  Proof.
    intros url co r c H. unfold fetch_clone in H. destruct (remote url) as [g|]; [|discriminate].
    pose proof (vmax_spec (filter (rsat r) (versions sha vparse g))) as M. destruct (vmax _) as [v|]; [|discriminate].
    cbn in H. destruct (checkout g (vshow v)) as [c'|] eqn:E; [|discriminate]. injection H as ->. destruct M as [I M].
    apply filter_In in I as [I S]. exists g, v. repeat split; auto. intros w Iw Sw. apply M. apply filter_In. auto.
  Qed.

  (** A repository whose version tags are written as versions are displayed (no "v", no slash), have different names, and are not the
      name of the default branch. *)
  Definition tidy (g : repo commit) : Prop :=
    NoDup (map fst (g_tags g)) /\
    forall t c, In (t, c) (g_tags g) -> no_char "/" t = true /\ dashed t = false /\ t <> g_head g /\ forall v, vparse t = Some v -> t = vshow v.

  Lemma tidy_versions g v : tidy g -> In v (versions sha vparse g) <-> exists t c, In (t, c) (g_tags g) /\ vparse t = Some v.
  Proof.
    intros [_ T]. rewrite versions_in. split.
    - intros (t & c & x & I & E & P). destruct (T _ _ I) as (N & _). rewrite show_line in E by assumption. injection E as <-. eauto.
    - intros (t & c & I & P). exists t, c, t. destruct (T _ _ I) as (N & _). rewrite show_line by assumption. auto.
  Qed.
  Lemma checkout_tag g t c : tidy g -> In (t, c) (g_tags g) -> checkout g t = Some c.
  Proof.
    intros [ND T] I. destruct (T _ _ I) as (_ & D & H & _). unfold checkout. rewrite D. destruct (String.eqb_spec t (g_head g)); [contradiction|].
    rewrite (In_aget _ seqb_spec _ _ _ ND I). reflexivity.
  Qed.

  (** C66 (partial), ranges: in such a repository the commit is that of the tag with the highest version in range, and without one
      the dependency fails. Missing: tags written otherwise (C66_tags_refuted). *)
  Theorem C66_range_partial : forall url co r g, remote url = Some g -> tidy g -> forall o, fetch_clone url co (Some r) = o ->
    (forall c, o = Ok c <-> exists t v, In (t, c) (g_tags g) /\ vparse t = Some v /\ rsat r v = true /\
                 forall t' c' v', In (t', c') (g_tags g) -> vparse t' = Some v' -> rsat r v' = true -> vle v' v)
    /\ (o = Err NoTag <-> forall t c v, In (t, c) (g_tags g) -> vparse t = Some v -> rsat r v = false).
  Proof.
    intros url co r g Hg T o <-. unfold fetch_clone. rewrite Hg.
    pose proof (vmax_spec (filter (rsat r) (versions sha vparse g))) as M.
    destruct (vmax (filter (rsat r) (versions sha vparse g))) as [v|] eqn:E; cbn [rbind].
    - destruct M as [I M]. apply filter_In in I as [I S]. pose proof I as I0. apply (@tidy_versions g v T) in I as (t & c & I & P).
      assert (Tv : t = vshow v) by (destruct T as [_ T]; destruct (T _ _ I) as (_ & _ & _ & K); auto).
      rewrite <- Tv, (@checkout_tag g t c T I). split; [intros c0; split|split; [discriminate|]].
      + intros H. injection H as <-. exists t, v. repeat split; auto. intros t' c' v' I' P' S'. apply M, filter_In. split; [|assumption].
        apply (@tidy_versions g v' T). eauto.
      + intros (t' & v' & I' & P' & S' & M'). f_equal.
        assert (V : v = v').
        { apply vle_antisym; [exact (M' t c v I P S)|]. apply M, filter_In. split; [|assumption]. apply (@tidy_versions g v' T). eauto. }
        subst v'. assert (t' = vshow v) by (destruct T as [_ T]; destruct (T _ _ I') as (_ & _ & _ & K); auto). assert (t' = t) by congruence. subst t'.
        destruct T as [ND _]. pose proof (In_aget _ seqb_spec _ _ _ ND I). pose proof (In_aget _ seqb_spec _ _ _ ND I'). congruence.
      + intros H. specialize (H t c v I P). congruence.
    - assert (N : forall t c v, In (t, c) (g_tags g) -> vparse t = Some v -> rsat r v = false).
      { intros t c v I P. destruct (rsat r v) eqn:S; [|reflexivity]. exfalso.
        assert (K : In v (filter (rsat r) (versions sha vparse g))) by (apply filter_In; split; [apply (@tidy_versions g v T); eauto|assumption]).
        rewrite M in K. exact K. }
      split; [intros c; split; [discriminate|]|split; auto].
      intros (t & v & I & P & S & _). specialize (N t c v I P). congruence.
  Qed.

  (** With a committish that names a tag, a commit or a branch, it is that commit; without one, the tip of the default branch. *)
  Theorem C66_committish : forall url g, remote url = Some g ->
    fetch_clone url None None = Ok (g_tip g) /\
    forall t, dashed t = false -> forall c,
      (t = g_head g -> c = g_tip g) ->
      (t <> g_head g -> sget t (g_tags g) = Some c \/ sget t (g_tags g) = None /\ (g_other g t = Some c \/ g_other g t = None /\ sget t (g_branches g) = Some c)) ->
      fetch_clone url (Some t) None = Ok c.
  Proof.
    intros url g Hg. unfold fetch_clone. rewrite Hg. split; [reflexivity|]. intros t D c H1 H2. cbn. unfold checkout. rewrite D.
    destruct (String.eqb_spec t (g_head g)) as [E|E]; [now rewrite (H1 E)|].
    destruct (H2 E) as [->|[-> [->|[-> ->]]]]; reflexivity.
  Qed.
  (** Whatever comes out is a commit of that repository, and it fails only if the repository cannot be cloned, no tag is in range,
      or git refuses the reference. *)
  Theorem C66_outcomes : forall url co r, match fetch_clone url co r with
    | Ok c => exists g, remote url = Some g /\ (c = g_tip g \/ exists t, checkout g t = Some c)
    | Err CloneFailed => remote url = None
    | Err NoTag => exists g q, remote url = Some g /\ r = Some q /\ forall v, In v (versions sha vparse g) -> rsat q v = false
    | Err CheckoutFailed => exists g t, remote url = Some g /\ checkout g t = None
    | Panic => False
    end.
  Proof.
    intros url co r. unfold fetch_clone. destruct (remote url) as [g|] eqn:G; [|reflexivity]. destruct r as [q|]; cbn.
    - pose proof (vmax_spec (filter (rsat q) (versions sha vparse g))) as M. destruct (vmax _) as [v|]; cbn.
      + destruct (checkout g (vshow v)) eqn:E; eauto.
      + exists g, q. repeat split; auto. intros v I. destruct (rsat q v) eqn:S; [|reflexivity].
        assert (K : In v (filter (rsat q) (versions sha vparse g))) by (apply filter_In; auto). rewrite M in K. contradiction.
    - destruct co as [t|]; [|eauto]. destruct (checkout g t) eqn:E; eauto.
  Qed.
End Thms.

(** ** What does not hold *)
Definition v120 : version := mkV 1 2 0 [].
Definition v110 : version := mkV 1 1 0 [].
Definition show2 (v : version) : string := if N.eqb (v_minor v) 2 then "1.2.0" else "1.1.0".
Definition with_tags (l : list (string * nat)) : repo nat := mkRepo "main" 0 [("main", 0)] l (fun _ => None) (fun _ f => String.eqb f "README.md") (fun o => String.eqb o "--detach").
Definition vany (_ : range) (_ : version) : bool := true.

(** A tag "v1.2.0" is never used, whether or not the parser of versions accepts the "v"; and a tag "release/1.2.0", which is read as
    1.2.0, makes the dependency fail although 1.1.0 is in range. *)
Theorem C66_tags_refuted :
  (forall sha vparse c, vparse "v1.2.0" = None \/ vparse "v1.2.0" = Some v120 ->
     exists f, fetch_clone sha (fun _ => Some (with_tags [("v1.2.0", c)])) vparse show2 vany "u" None (Some "^1") = Err f) /\
  (forall sha vparse, vparse "1.2.0" = Some v120 -> vparse "1.1.0" = Some v110 ->
     fetch_clone sha (fun _ => Some (with_tags [("1.1.0", 1); ("release/1.2.0", 2)])) vparse show2 vany "u" None (Some "^1") = Err CheckoutFailed).
Proof.
  split.
  - intros sha vparse c H. unfold fetch_clone, versions, show_ref, with_tags. cbn [map g_tags flat_map fst snd]. rewrite show_line by reflexivity.
    destruct H as [-> | ->]; cbn; eauto.
  - intros sha vparse H1 H2. unfold fetch_clone, versions, show_ref, with_tags. cbn [map g_tags flat_map fst snd]. rewrite show_line by reflexivity.
    replace (sha 2 ++ " refs/tags/" ++ "release/1.2.0")%string with ((sha 2 ++ " refs/tags/release") ++ String "/" "1.2.0")%string by (rewrite !sapp_assoc; reflexivity).
    rewrite last_piece_tag by reflexivity. rewrite H1, H2. reflexivity.
Qed.
(** A committish that names no commit but a file of the default branch, or an option of git checkout, gives the tip of the default
    branch instead of an error. *)
Theorem C66_committish_refuted : forall sha vparse, 
  fetch_clone sha (fun _ => Some (with_tags [("1.2.0", 7)])) vparse show2 vany "u" (Some "README.md") None = Ok 0 /\
  fetch_clone sha (fun _ => Some (with_tags [("1.2.0", 7)])) vparse show2 vany "u" (Some "--detach") None = Ok 0.
Proof. intros. split; reflexivity. Qed.
(** No git dependency can be installed, whatever commit it has, nor one on a directory: extracting it panics. *)
Fixpoint at_end (s : pspec) : pspec := match s with SAlias _ t => at_end t | _ => s end.
Theorem C66_install_refuted : forall (A : Type) s (download : res err A) unpack,
  (exists i, at_end s = SGit i) \/ (exists d, at_end s = SDir d) -> extract_spec s download unpack = Panic.
Proof.
  intros A s download unpack H. unfold extract_spec. assert (E : pick_fetcher s = FGit \/ pick_fetcher s = FDir).
  { induction s as [d|n s IH|sc n r|i]; cbn in *.
    - now right.
    - now apply IH.
    - destruct H as [[i H]|[d H]]; discriminate.
    - now left. }
  destruct E as [-> | ->]; reflexivity.
Qed.

(** ** An example: the highest tag in range *)
Example ex_git : fetch_clone (fun _ => "abc") (fun _ => Some (with_tags [("1.1.0", 1); ("1.2.0", 2); ("nightly", 3)]))
  (fun s => if String.eqb s "1.2.0" then Some v120 else if String.eqb s "1.1.0" then Some v110 else None) show2 vany "u" None (Some "^1") = Ok 2.
Proof. reflexivity. Qed.
Example ex_tidy : tidy (fun s => if String.eqb s "1.2.0" then Some v120 else if String.eqb s "1.1.0" then Some v110 else None) show2
  (with_tags [("1.1.0", 1); ("1.2.0", 2); ("nightly", 3)]).
Proof.
  split; [cbn; repeat constructor; cbn; intuition discriminate|]. intros t c [E|[E|[E|[]]]]; injection E as <- <-;
    (repeat split; [discriminate|]; cbn; intros v E; (discriminate || (injection E as <-; reflexivity))).
Qed.

Print Assumptions C66_range.
Print Assumptions C66_range_partial.
Print Assumptions C66_committish.
Print Assumptions C66_outcomes.
Print Assumptions C66_tags_refuted.
Print Assumptions C66_committish_refuted.
Print Assumptions C66_install_refuted.
