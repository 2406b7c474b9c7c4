(** * Importing package-lock.json *)
From Verif Require Import Base Types Kdl ResolverModel LockfileModel LockfileProofs LockfileGraph LockfileFacts.
Open Scope list_scope.
Open Scope string_scope.
Set Implicit Arguments.

(** a package name: not empty, and whose part after the scope is not "node_modules" *)
Definition npm_name (n : string) : Prop := valid_name n /\ n <> "" /\ forall s, n <> (String "@" s ++ "/node_modules").
(** the key of the package installed at a path *)
Definition npm_key (p : list string) : string := "node_modules/" ++ path_key p.

Lemma starts_app p s : starts_with p s = true <-> exists r, s = p ++ r.
Proof.
  revert s. induction p as [|a p IH]; intros s; cbn; [split; eauto|]. destruct s as [|b s]; [split; [discriminate|intros (r & ?); discriminate]|].
  rewrite andb_true_iff, Ascii.eqb_eq, IH. split; [intros [-> (r & ->)]; eauto|]. intros (r & [= -> ->]). eauto.
Qed.
(** no separator begins inside [x] when [r] follows *)
Inductive quiet (r : string) : string -> Prop :=
| q_nil : quiet r ""
| q_cons c x : starts_with nm_sep (String c x ++ r) = false -> quiet r x -> quiet r (String c x).
Lemma no_slash_quiet r x : no_slash x = true -> quiet r x.
Proof.
  induction x as [|c x IH]; [constructor|]. cbn [no_slash]. intros H. apply andb_true_iff in H. destruct H as [H1 H2]. constructor; [|auto].
  apply negb_true_iff in H1. unfold nm_sep. cbn [append starts_with]. rewrite Ascii.eqb_sym in H1. now rewrite H1.
Qed.
Lemma quiet_app r a b : no_slash a = true -> quiet r b -> quiet r (a ++ b).
Proof.
  induction a as [|c a IH]; [auto|]. cbn [no_slash append]. intros H Hb. apply andb_true_iff in H. destruct H as [H1 H2]. constructor; [|auto].
  apply negb_true_iff in H1. unfold nm_sep. cbn [append starts_with]. rewrite Ascii.eqb_sym in H1. now rewrite H1.
Qed.
Lemma name_quiet r x : npm_name x -> tail_ok r -> quiet r x.
Proof.
  intros (V & _ & N) Hr. destruct V as [[Hx _] | (s & m & -> & Hs & Hm)]; [now apply no_slash_quiet|].
  change (String "@" (s ++ "/" ++ m)) with (String "@" s ++ String "/" m). apply quiet_app; [exact Hs|]. constructor; [|now apply no_slash_quiet].
  destruct (starts_with nm_sep (String "/" m ++ r)) eqn:E; [|reflexivity]. apply starts_app in E. destruct E as (z & E). cbn in E. injection E as E. exfalso.
  change ("node_modules/" ++ z) with ("node_modules" ++ String "/" z) in E.
  destruct Hr as [-> | (k & ->)].
  - rewrite append_nil_r in E. exact (slash_none m "node_modules" z Hm E).
  - destruct (slash_split m "node_modules" _ z Hm eq_refl E) as [-> _]. now apply (N s).
Qed.
Lemma skip_all sep k : sskip (String.length sep) (sep ++ k) = k.
Proof. induction sep as [|c sep IH]; [reflexivity|exact IH]. Qed.
Lemma split_quiet r x : quiet r x -> forall f cur, String.length x + String.length r < f -> split_at f nm_sep cur (x ++ r) = split_at (f - String.length x) nm_sep (cur ++ x) r.
Proof.
  induction 1 as [|c x Hs Q IH]; intros f cur Hf; cbn [String.length append] in *.
  - now rewrite append_nil_r, Nat.sub_0_r.
  - destruct f as [|f]; [lia|]. cbn [split_at]. rewrite Hs. cbn [append]. rewrite IH by lia. cbn [Nat.sub]. now rewrite append_assoc.
Qed.
Lemma slen_app (a b : string) : String.length (a ++ b) = String.length a + String.length b.
Proof. induction a; cbn; congruence. Qed.
Lemma split_path p : forall f, Forall npm_name p -> p <> [] -> String.length (path_key p) < f -> split_at f nm_sep "" (path_key p) = p.
Proof.
  induction p as [|x p IH]; [easy|]. intros f F _ Hf. inversion F as [|? ? Hx Hp]; subst. destruct p as [|y p].
  - change (path_key [x]) with x in *. rewrite <- (append_nil_r x) at 1. rewrite (@split_quiet "" x) by (try (apply name_quiet; [assumption|now left]); cbn; lia).
    cbn [append]. destruct (f - String.length x) eqn:E; [lia|]. reflexivity.
  - rewrite path_key_cons in *. rewrite slen_app in Hf. rewrite (@split_quiet (nm_sep ++ path_key (y :: p)) x).
    2:{ apply name_quiet; [assumption|]. right. eauto. }
    2:{ lia. }
    cbn [append]. destruct (f - String.length x) as [|f'] eqn:E; [lia|]. cbn [split_at]. assert (starts_with nm_sep (nm_sep ++ path_key (y :: p)) = true) as -> by (apply starts_app; eauto).
    rewrite skip_all. f_equal. apply IH; [assumption|discriminate|]. rewrite slen_app in Hf. change (String.length nm_sep) with 14 in Hf. lia.
Qed.
Lemma npm_path p : Forall npm_name p -> p <> [] -> tl (split nm_sep ("/" ++ npm_key p)) = p.
Proof.
  intros F Hp. unfold split, npm_key. change ("/" ++ "node_modules/" ++ path_key p) with (nm_sep ++ path_key p). remember (S (String.length (nm_sep ++ path_key p))) as f eqn:Ef.
  destruct f as [|f]; [discriminate|]. cbn [split_at]. assert (starts_with nm_sep (nm_sep ++ path_key p) = true) as -> by (apply starts_app; eauto).
  rewrite skip_all. cbn [tl]. apply split_path; auto. rewrite slen_app in Ef. change (String.length nm_sep) with 14 in Ef. lia.
Qed.
Lemma ufold_app a b : ufold (a ++ b) = ufold a ++ ufold b.
Proof. induction a as [|c a IH]; cbn; congruence. Qed.

Section N.
  Variable vparse : string -> option version.
  Variable iparse : string -> option string.
  Notation lnode_from_npm := (lnode_from_npm vparse iparse).
  Notation from_npm := (from_npm vparse iparse).
  (** specification: an imported entry says what the npm entry says *)
  Definition imports (p : list string) (e : npm_entry) (n : lnode) : Prop :=
    l_path n = p /\ l_is_root n = false /\ (p_name e = Some (l_name n) \/ p_name e = None /\ exists q, p = (q ++ [l_name n])%list)
    /\ l_resolved n = p_resolved e /\ match p_version e with Some s => vparse s = l_version n /\ l_version n <> None | None => l_version n = None end
    /\ match p_integrity e with Some s => iparse s = l_integrity n /\ l_integrity n <> None | None => l_integrity n = None end
    /\ l_deps n = p_deps e /\ l_dev n = p_dev e /\ l_opt n = p_opt e /\ l_peer n = p_peer e.
  Lemma lnode_imports p e n : Forall npm_name p -> p <> [] -> lnode_from_npm (npm_key p) e = Ok n -> imports p e n.
  Proof.
    intros F Hp H. unfold LockfileModel.lnode_from_npm in H. rewrite (npm_path F Hp) in H. change (String.eqb (npm_key p) "") with false in H. cbv iota in H.
    destruct (exists_last Hp) as (q & x & E).
    assert (Hname : exists nm, (match p_name e with Some x => Ok x | None => match rev p with x :: _ => Ok x | [] => Err EMissingName end end) = @Ok err string nm
      /\ (p_name e = Some nm \/ p_name e = None /\ exists q, p = (q ++ [nm])%list)).
    { destruct (p_name e) as [y|]; [eauto|]. rewrite E, rev_app_distr. cbn. exists x. split; [reflexivity|]. right. eauto. }
    destruct Hname as (nm & En & Hnm). rewrite En in H. cbn [rbind] in H. clear En.
    unfold parse_opt in H. destruct (p_integrity e) as [i|] eqn:Ei; [destruct (iparse i) as [i'|] eqn:Ei'|]; cbn [rbind] in H; try discriminate;
      (destruct (p_version e) as [v|] eqn:Ev; [destruct (vparse v) as [v'|] eqn:Ev'|]; cbn [rbind] in H; try discriminate; injection H as <-).
    all: unfold imports; cbn; rewrite ?Ev, ?Ei; assert (Hroot : match p with [] => true | _ => false end = false) by (destruct p; [easy|reflexivity]); rewrite Hroot; repeat split; auto; try discriminate.
  Qed.
  Lemma rmap_all A B (f : A -> res err B) : forall l r, rmap f l = Ok r -> Forall2 (fun a b => f a = Ok b) l r.
  Proof.
    induction l as [|a l IH]; cbn; intros r H; [injection H as <-; constructor|]. destruct (f a) as [b| |] eqn:E; try discriminate. cbn in H.
    destruct (rmap f l) as [bs| |]; try discriminate. injection H as <-. constructor; auto.
  Qed.
  (** the import of a lockfile whose entries are the root and installed packages *)
  Lemma npm_import ver re (l : list (list string * npm_entry)) lf :
    Forall (fun e => fst e <> [] /\ Forall npm_name (fst e)) l -> NoDup (map (fun e => ufold (path_key (fst e))) l) ->
    from_npm ver (("", re) :: map (fun e => (npm_key (fst e), snd e)) l) = Ok lf ->
    (exists n, lf_packages lf = ("", lf_root lf) :: n /\ Forall2 (fun e kn => fst kn = path_key (fst e) /\ imports (fst e) (snd e) (snd kn)) l n)
    /\ lf_version lf = match ver with Some v => v | None => 3%N end
    /\ l_is_root (lf_root lf) = true /\ l_path (lf_root lf) = [] /\ l_deps (lf_root lf) = p_deps re /\ l_dev (lf_root lf) = p_dev re /\ l_opt (lf_root lf) = p_opt re /\ l_peer (lf_root lf) = p_peer re.
  Proof.
    intros F N H. unfold LockfileModel.from_npm in H. cbn [rmap fst snd] in H. destruct (lnode_from_npm "" re) as [rn| |] eqn:Er; try discriminate. cbn [rbind] in H.
    destruct (rmap (fun e => lnode_from_npm (fst e) (snd e)) (map (fun e => (npm_key (fst e), snd e)) l)) as [ns| |] eqn:En; try discriminate. cbn [rbind] in H.
    cbn [aget String.eqb] in H. rewrite Er in H. cbn [rbind] in H. injection H as <-. cbn [lf_packages lf_root lf_version].
    apply rmap_all in En.
    assert (I : Forall2 (fun e n => imports (fst e) (snd e) n) l ns).
    { clear -En F. revert ns En. induction l as [|e l IH]; cbn; intros ns En; inversion En as [|? n ? ns' H1 H2]; subst; constructor.
      - inversion F as [|? ? [H3 H4] _]; subst. cbn in H1. now apply lnode_imports.
      - apply IH; [now inversion F|assumption]. }
    assert (Rp : l_path rn = [] /\ l_is_root rn = true /\ l_deps rn = p_deps re /\ l_dev rn = p_dev re /\ l_opt rn = p_opt re /\ l_peer rn = p_peer re).
    { unfold LockfileModel.lnode_from_npm in Er. cbn [append split String.length split_at starts_with nm_sep Ascii.eqb Bool.eqb andb tl String.eqb rbind] in Er.
      unfold parse_opt in Er. destruct (p_integrity re) as [i|]; [destruct (iparse i)|]; cbn in Er; try discriminate;
      (destruct (p_version re) as [v|]; [destruct (vparse v)|]; cbn in Er; try discriminate; injection Er as <-; cbn; auto 7). }
    destruct Rp as (R1 & R2 & R3 & R4 & R5 & R6). split; [|auto 9].
    assert (P : map (fun n => path_key (l_path n)) ns = map (fun e => path_key (fst e)) l).
    { clear -I. induction I as [|e n l ns H I IH]; [reflexivity|]. cbn. f_equal; [|exact IH]. now destruct H as (-> & _). }
    rewrite keyed_eq.
    - cbn [map]. rewrite R1. change (path_key []) with "". eexists. split; [reflexivity|]. clear -I. induction I as [|e n l ns H I IH]; constructor; [|exact IH].
      cbn. split; [now destruct H as (-> & _)|exact H].
    - cbn [map]. rewrite R1. assert (map (fun n => ufold (path_key (l_path n))) ns = map (fun e => ufold (path_key (fst e))) l) as ->.
      { rewrite <- (map_map (fun n => path_key (l_path n)) ufold), P. now rewrite map_map. }
      constructor; [|exact N]. intros Hin. apply in_map_iff in Hin. destruct Hin as (e & E & He). rewrite Forall_forall in F. destruct (F e He) as [H1 H2].
      destruct (fst e) as [|x t]; [easy|]. inversion H2 as [|? ? (_ & Hx & _) _]; subst. destruct x as [|c x]; [easy|]. destruct t; discriminate.
  Qed.
End N.
