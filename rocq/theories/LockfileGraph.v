(** * Lockfiles of resolved graphs: uniqueness of keys, the --locked check *)
From Verif Require Import Base Types Kdl ResolverModel ResolverProofs ResolverRun ResolverSpec ResolverThms ResolverSteps
  LockfileModel LockfileProofs.
From Coq Require Import Permutation.
Open Scope string_scope.
Open Scope list_scope.

(** ** npm package names: "name", or "@scope/name", without other slashes *)
Fixpoint no_slash (s : string) : bool :=
  match s with EmptyString => true | String c t => negb (Ascii.eqb c "/") && no_slash t end.
Definition valid_name (n : string) : Prop :=
  (no_slash n = true /\ forall t, n <> String "@" t)
  \/ exists s m, n = String "@" (s ++ "/" ++ m) /\ no_slash s = true /\ no_slash m = true.

Lemma slash_split a b r r' : no_slash a = true -> no_slash b = true ->
  (a ++ String "/" r = b ++ String "/" r')%string -> a = b /\ r = r'.
Proof.
  revert b; induction a as [|c a IH]; destruct b as [|d b]; cbn; intros Ha Hb H.
  - injection H; auto.
  - injection H as <- _. cbn in Hb. discriminate.
  - injection H as -> _. cbn in Ha. discriminate.
  - injection H as <- H. apply andb_true_iff in Ha, Hb. destruct (IH b) as [-> ->]; tauto.
Qed.
Lemma slash_none a b r : no_slash a = true -> (a = b ++ String "/" r)%string -> False.
Proof.
  revert a; induction b as [|d b IH]; cbn; intros a Ha E; subst a; cbn in Ha; [discriminate|].
  apply andb_true_iff in Ha. eapply IH; [|reflexivity]. tauto.
Qed.

(** one path element followed by the rest *)
Lemma append_assoc (a b c : string) : ((a ++ b) ++ c = a ++ (b ++ c))%string.
Proof. induction a as [|x a IH]; cbn; [easy|]. now rewrite IH. Qed.
Lemma append_nil_r (a : string) : (a ++ "" = a)%string.
Proof. induction a as [|x a IH]; cbn; [easy|]. now rewrite IH. Qed.

Lemma path_key_cons x y t : path_key (x :: y :: t) = (x ++ nm_sep ++ path_key (y :: t))%string.
Proof. reflexivity. Qed.

(* the text after a name: nothing, or "/node_modules/" and more *)
Definition tail_ok (r : string) : Prop := r = "" \/ exists k, r = (nm_sep ++ k)%string.
Lemma plain_tail x x' r r' : no_slash x = true -> no_slash x' = true -> tail_ok r -> tail_ok r' ->
  (x ++ r = x' ++ r')%string -> x = x' /\ r = r'.
Proof.
  intros Hx Hx' [->|[k ->]] [->|[k' ->]] E.
  - rewrite !append_nil_r in E. auto.
  - exfalso. rewrite append_nil_r in E. eapply slash_none; [exact Hx | exact E].
  - exfalso. symmetry in E. rewrite append_nil_r in E. eapply slash_none; [exact Hx' | exact E].
  - destruct (slash_split x x' _ _ Hx Hx' E) as [-> E2]. split; [auto|]. unfold nm_sep. cbn. now rewrite E2.
Qed.
Lemma name_tail x x' r r' : valid_name x -> valid_name x' -> tail_ok r -> tail_ok r' -> (x ++ r = x' ++ r')%string -> x = x' /\ r = r'.
Proof.
  intros [[Hx Hn]|(s & m & -> & Hs & Hm)] [[Hx' Hn']|(s' & m' & -> & Hs' & Hm')] Hr Hr' E.
  - now apply plain_tail.
  - exfalso. destruct x as [|c x].
    + cbn in E. destruct Hr as [->|[k ->]]; discriminate.
    + cbn in E. injection E as -> _. eapply Hn; reflexivity.
  - exfalso. destruct x' as [|c x'].
    + cbn in E. destruct Hr' as [->|[k ->]]; discriminate.
    + cbn in E. injection E as <- _. eapply Hn'; reflexivity.
  - cbn [append] in E. injection E as E. rewrite !append_assoc in E. cbn [append] in E.
    destruct (slash_split s s' _ _ Hs Hs' E) as [-> E2]. destruct (plain_tail m m' r r' Hm Hm' Hr Hr' E2) as [-> ->]. auto.
Qed.

Lemma path_key_inj : forall l l', Forall valid_name l -> Forall valid_name l' -> l <> [] -> l' <> [] -> path_key l = path_key l' -> l = l'.
Proof.
  induction l as [|x t IH]; intros l' Hl Hl' Hne Hne' E; [congruence|]. destruct l' as [|x' t']; [congruence|].
  inversion Hl as [|? ? Hx Ht]; subst. inversion Hl' as [|? ? Hx' Ht']; subst.
  set (r := match t with [] => "" | _ => (nm_sep ++ path_key t)%string end).
  set (r' := match t' with [] => "" | _ => (nm_sep ++ path_key t')%string end).
  assert (Er : path_key (x :: t) = (x ++ r)%string) by (unfold r; destruct t; [now rewrite append_nil_r | reflexivity]).
  assert (Er' : path_key (x' :: t') = (x' ++ r')%string) by (unfold r'; destruct t'; [now rewrite append_nil_r | reflexivity]).
  rewrite Er, Er' in E.
  assert (Hr : tail_ok r) by (unfold r, tail_ok; destruct t; eauto).
  assert (Hr' : tail_ok r') by (unfold r', tail_ok; destruct t'; eauto).
  destruct (name_tail x x' r r' Hx Hx' Hr Hr' E) as [-> Err]. f_equal.
  unfold r, r' in Err. destruct t as [|y t], t' as [|y' t']; auto; try discriminate.
  apply IH; auto; try discriminate.
  assert (Hsep : forall a b : string, (nm_sep ++ a = nm_sep ++ b)%string -> a = b) by (intros a b Hab; unfold nm_sep in Hab; cbn in Hab; injection Hab; auto).
  exact (Hsep _ _ Err).
Qed.

Lemma ufold_app a b : ufold (a ++ b)%string = (ufold a ++ ufold b)%string.
Proof. induction a as [|c a IH]; cbn; [easy|]. now rewrite IH. Qed.
Lemma ufold_path_key l : (forall x, In x l -> ufold x = x) -> ufold (path_key l) = path_key l.
Proof.
  unfold path_key. induction l as [|x t IH]; intros H; [easy|]. destruct t as [|y t]; [apply H; now left|].
  change (join nm_sep (x :: y :: t)) with (x ++ nm_sep ++ join nm_sep (y :: t))%string.
  rewrite !ufold_app, IH by (intros z Hz; apply H; now right). rewrite (H x) by now left. reflexivity.
Qed.
Lemma fold_ascii_idem c : fold_ascii (fold_ascii c) = fold_ascii c.
Proof. destruct c as [[] [] [] [] [] [] [] []]; reflexivity. Qed.
Lemma ufold_idem s : ufold (ufold s) = ufold s.
Proof. induction s as [|c s IH]; cbn; [easy|]. now rewrite fold_ascii_idem, IH. Qed.

Section Graph.
  Variable rsat : range -> version -> bool.
  Variable canon : string -> option string.
  Variable parse_dep : string -> string -> res err pspec.
  Variable lnodeT : Type.
  Variable lpath : lnodeT -> list string.
  Variable lman : lnodeT -> manifest.
  Variable to_package : lnodeT -> res err (option package).
  Variable deliver : pspec -> outcome -> Prop.
  Variable lock : option (lockpkgs lnodeT).
  Notation reach := (reach rsat canon parse_dep lnodeT lpath lman to_package deliver lock).
  Notation new_node := (new_node parse_dep).

  (** names of installed packages are the (case-folded) names of accepted dependencies *)
  Variable Q : string -> Prop.
  Hypothesis Hnames : forall nm str sp, parse_dep nm str = Ok sp -> Q (ufold nm).

  Lemma add_reqs_Q l t : forall acc r, add_reqs parse_dep l t acc = Ok r -> (forall x, In x (map fst acc) -> Q x) -> forall x, In x (map fst r) -> Q x.
  Proof.
    induction l as [|[nm str] tl IH]; cbn; intros acc r H Ha; [injection H as <-; exact Ha|].
    destruct (parse_dep nm str) as [sp| |] eqn:E; cbn in H; try discriminate.
    eapply IH; [exact H|]. intros x Hx.
    assert (Hx' : x = ufold nm \/ In x (map fst acc)).
    { clear -Hx. induction acc as [|[k v] acc IHa]; cbn in *; [intuition|].
      destruct (String.eqb (ufold nm) k); cbn in Hx; [destruct Hx as [<-|Hx]; [right; now left | right; now right]|].
      destruct Hx as [<-|Hx]; [right; now left|]. destruct (IHa Hx) as [->|?]; [now left | right; now right]. }
    destruct Hx' as [->|Hx']; [eapply Hnames; eauto | auto].
  Qed.
  Lemma new_node_Q name p m b n : new_node name p m b = Ok n -> forall x, In x (map fst (n_reqs n)) -> Q x.
  Proof.
    unfold ResolverModel.new_node. intros H.
    destruct (add_reqs parse_dep (m_deps m) Prod []) as [r1| |] eqn:E1; cbn in H; try discriminate.
    destruct (add_reqs parse_dep (m_opt m) Opt r1) as [r2| |] eqn:E2; cbn in H; try discriminate.
    destruct (if b then add_reqs parse_dep (m_dev m) Dev r2 else Ok r2) as [r3| |] eqn:E3; cbn in H; try discriminate.
    injection H as <-. cbn.
    assert (H1 : forall x, In x (map fst r1) -> Q x) by (eapply add_reqs_Q; [exact E1 | intros x []]).
    assert (H2 : forall x, In x (map fst r2) -> Q x) by (eapply add_reqs_Q; [exact E2 | exact H1]).
    destruct b; [eapply add_reqs_Q; [exact E3 | exact H2] | injection E3 as <-; exact H2].
  Qed.
  Lemma sget_in V x (l : list (string * V)) v : sget x l = Some v -> In x (map fst l).
  Proof. intros H. apply aget_In in H; [|apply seqb_spec]. apply (in_map fst) in H. exact H. Qed.

  Variables (root : node) (pkg : package) (m : manifest) (name : string).
  Hypothesis Hroot : new_node name pkg m true = Ok root.

  Lemma reqs_Q s : reach root s -> forall j y r, req_of (s_g s) j y = Some r -> Q y.
  Proof.
    intros Hs.
    set (J := fun (k : nat) (g : graph) (q : list nat) (P : list dep) => forall j y r, req_of g j y = Some r -> Q y).
    destruct (reach_J rsat canon parse_dep lnodeT lpath lman to_package deliver lock 0 J)
      with (5 := Hroot) (k := 0) (s := s) as (k' & _ & H); auto.
    - intros k g q P d g' x I HJ Hsat. exists k. split; [lia|].
      destruct (satisfy_some _ _ _ _ _ _ Hsat) as (nx & Hr & Hx & Hss & Hg).
      pose proof (ginv_parlt _ _ _ _ _ _ I) as Hp.
      intros j y r Hq. apply (HJ j y r). rewrite <- Hq. subst g'. unfold add_edge, link_dep, req_of. cbn.
      destruct (gi_P _ _ _ _ _ _ I d (or_introl eq_refl)) as (Hdn & _).
      destruct (getn (mkGraph (g_nodes g) (g_edges g ++ [mkEdge (d_node d) x (d_spec d) (d_type d)])) (d_node d)) as [n0|] eqn:E0; [|reflexivity].
      change (getn g (d_node d) = Some n0) in E0.
      rewrite getn_setn by (cbn; exact Hdn). destruct (Nat.eqb_spec (d_node d) j) as [<-|_]; [|reflexivity].
      rewrite E0. reflexivity.
    - intros k g q P d p m' tp g' ci I HJ Hsat Hpr Hpl. exists k. split; [lia|].
      pose proof (ginv_parlt _ _ _ _ _ _ I) as Hp.
      destruct (gi_P _ _ _ _ _ _ I d (or_introl eq_refl)) as (Hdn & _).
      destruct (place_child_inv _ _ _ _ _ _ _ _ _ _ Hdn Hp Hpl) as (cn & tgt & Hcn & -> & U & Htl & Hut & Hpass).
      destruct U as (Usz & Hed & Upar & Uch & Unm & Upk & Urq & Udp & Unr).
      intros j y r. rewrite Urq. destruct (Nat.eqb j (size g)); [|apply HJ].
      intros E. eapply new_node_Q; [exact Hcn|]. eapply sget_in; eauto.
    - intros k g i q P n I HJ Hn. exists k. split; [lia|]. exact HJ.
    - intros j y r. unfold req_of. destruct j as [|j]; [|destruct j; discriminate]. cbn. intros E.
      eapply new_node_Q; [exact Hroot|]. eapply sget_in; eauto.
  Qed.

  Lemma names_Q s : reach root s -> forall i, 0 < i < size (s_g s) -> Q (name_of (s_g s) i).
  Proof.
    intros Hs i Hi. pose proof (reach_inv _ _ _ _ _ _ _ _ _ _ _ _ _ _ Hroot Hs) as [I _ _ _ _].
    destruct (gi_par _ _ _ _ _ _ I i Hi) as (p & Hp & _).
    destruct (gi_in _ _ _ _ _ _ I _ _ Hp) as (e & He & Het & _).
    apply In_nth_error in He. destruct He as [ei He].
    destruct (gi_edep _ _ _ _ _ _ I _ _ He) as (x & Hx).
    destruct (gi_dep _ _ _ _ _ _ I _ _ _ Hx) as (e' & He' & Hf & Hr & Hn & _).
    rewrite He in He'. injection He' as <-. rewrite <- Het, Hn. eapply reqs_Q; [exact Hs | exact Hr].
  Qed.
  Lemma path_Q s : reach root s -> forall i, i < size (s_g s) -> forall x, In x (node_path (s_g s) i) -> Q x.
  Proof.
    intros Hs. pose proof (reach_inv _ _ _ _ _ _ _ _ _ _ _ _ _ _ Hroot Hs) as [I _ _ _ _].
    pose proof (ginv_parlt _ _ _ _ _ _ I) as Hp. destruct (gi_root _ _ _ _ _ _ I) as [Hz Hr].
    induction i as [i IH] using lt_wf_ind. intros Hi x. destruct (Nat.eq_dec i 0) as [->|Hne].
    - rewrite node_path_root by auto. intros [].
    - destruct (gi_par _ _ _ _ _ _ I i ltac:(lia)) as (p & Hpp & Hlt & Hc).
      rewrite (node_path_step _ Hp i p) by auto. intros Hx. apply in_app_iff in Hx. destruct Hx as [Hx|[<-|[]]].
      + eapply (IH p); eauto. lia.
      + apply names_Q; [auto | lia].
  Qed.
  Lemma path_nonempty s : reach root s -> forall i, 0 < i < size (s_g s) -> node_path (s_g s) i <> [].
  Proof.
    intros Hs i Hi. pose proof (reach_inv _ _ _ _ _ _ _ _ _ _ _ _ _ _ Hroot Hs) as [I _ _ _ _].
    pose proof (ginv_parlt _ _ _ _ _ _ I) as Hp. destruct (gi_par _ _ _ _ _ _ I i Hi) as (p & Hpp & Hlt & Hc).
    rewrite (node_path_step _ Hp i p) by (auto; lia). intros E. destruct (node_path (s_g s) p); discriminate.
  Qed.
End Graph.

(** ** to_lockfile *)
Section ToLock.
  Variable requested : pspec -> string.
  Variable gitshow : gitinfo -> string.
  Notation node_lnode := (node_lnode requested gitshow).
  Notation to_lockfile := (to_lockfile requested gitshow).

  (** ** the dependency maps of nodes have distinct keys *)
  Definition deps_nodup (g : graph) : Prop := forall i n, getn g i = Some n -> NoDup (map fst (n_deps n)).
  Lemma setn_nodup g i n : deps_nodup g -> NoDup (map fst (n_deps n)) -> deps_nodup (setn g i n).
  Proof.
    intros H Hn j nj. unfold setn, getn. cbn. destruct (Nat.eq_dec i j) as [<-|Hne].
    - destruct (Nat.lt_ge_cases i (List.length (g_nodes g))) as [Hl|Hl].
      + rewrite nth_lset_eq by auto. intros E. injection E as <-. exact Hn.
      + intros E. assert (i < List.length (lset (g_nodes g) i n)) by (apply nth_error_Some; congruence). rewrite lset_length in *. lia.
    - rewrite nth_lset_neq by auto. apply H.
  Qed.
  Lemma link_nodup g i x e : deps_nodup g -> deps_nodup (link_dep g i x e).
  Proof.
    intros H. unfold link_dep. destruct (getn g i) as [n|] eqn:E; [|auto]. apply setn_nodup; [auto|]. cbn.
    apply aput_keys_NoDup; [apply seqb_spec|]. eapply H; eauto.
  Qed.
  Lemma set_parent_nodup g i p : deps_nodup g -> deps_nodup (set_parent_at g i p).
  Proof. intros H. unfold set_parent_at. destruct (getn g i) as [n|] eqn:E; [|auto]. apply setn_nodup; [auto|]. cbn. eapply H; eauto. Qed.
  Lemma add_child_nodup g i x c : deps_nodup g -> deps_nodup (add_child g i x c).
  Proof. intros H. unfold add_child. destruct (getn g i) as [n|] eqn:E; [|auto]. apply setn_nodup; [auto|]. cbn. eapply H; eauto. Qed.
  Lemma app_nodup g cn es : deps_nodup g -> n_deps cn = [] -> deps_nodup (mkGraph (g_nodes g ++ [cn]) es).
  Proof.
    intros H Hc j n. unfold getn. cbn. destruct (Nat.lt_ge_cases j (List.length (g_nodes g))) as [Hl|Hl].
    - rewrite nth_error_app1 by auto. apply H.
    - rewrite nth_error_app2 by auto. destruct (j - List.length (g_nodes g)) as [|k]; cbn; [|destruct k; discriminate].
      intros E. injection E as <-. rewrite Hc. constructor.
  Qed.

  Section Reach.
    Variable rsat : range -> version -> bool.
    Variable canon : string -> option string.
    Variable parse_dep : string -> string -> res err pspec.
    Variable lnodeT : Type.
    Variable lpath : lnodeT -> list string.
    Variable lman : lnodeT -> manifest.
    Variable to_package : lnodeT -> res err (option package).
    Variable deliver : pspec -> outcome -> Prop.
    Variable lock : option (lockpkgs lnodeT).
    Notation reach := (reach rsat canon parse_dep lnodeT lpath lman to_package deliver lock).
    Lemma satisfy_nodup g d g' x : deps_nodup g -> satisfy_dependency rsat canon g d = Ok (Some (g', x)) -> deps_nodup g'.
    Proof.
      intros H Hs. destruct (satisfy_some _ _ _ _ _ _ Hs) as (nx & _ & _ & _ & ->). cbn.
      apply link_nodup. intros i n Hn. apply (H i n). exact Hn.
    Qed.
    Lemma place_nodup g d p m tp g' ci : deps_nodup g -> place_child rsat canon parse_dep g d p m tp = Ok (g', ci) -> deps_nodup g'.
    Proof.
      intros H Hp. unfold place_child in Hp.
      destruct (new_node parse_dep (d_name d) p m false) as [cn| |] eqn:Ec; cbn [rbind] in Hp; try discriminate.
      destruct (target_parent tp) as [lp| |]; cbn [rbind] in Hp; try discriminate.
      match type of Hp with (let! _ := ?c in _) = _ => destruct c as [tgt| |] end; cbn [rbind] in Hp; try discriminate.
      injection Hp as <- _. apply add_child_nodup, set_parent_nodup, link_nodup, app_nodup; [auto|].
      apply new_node_ok in Ec. tauto.
    Qed.
    Lemma reach_nodup root pkg m name s : new_node parse_dep name pkg m true = Ok root -> reach root s -> deps_nodup (s_g s).
    Proof.
      intros Hroot Hs.
      destruct (reach_J rsat canon parse_dep lnodeT lpath lman to_package deliver lock 0 (fun _ g _ _ => deps_nodup g))
        with (5 := Hroot) (k := 0) (s := s) as (k' & _ & H); auto.
      - intros k g q P d g' x I HJ Hsat. exists k. split; [lia|]. eapply satisfy_nodup; eauto.
      - intros k g q P d p m' tp g' ci I HJ Hsat Hpr Hpl. exists k. split; [lia|]. eapply place_nodup; eauto.
      - intros k g i q P n I HJ Hn. exists k. split; [lia|]. exact HJ.
      - intros i n. unfold getn. cbn. destruct i as [|i]; cbn; [|destruct i; discriminate]. intros E. injection E as <-.
        apply new_node_ok in Hroot. destruct Hroot as (_ & _ & _ & _ & -> & _). constructor.
    Qed.
  End Reach.

  (** ** linked_deps: the dependencies of one type, as requested *)
  Definition dep_text (g : graph) (t : deptype) (ei : nat) : option string :=
    match nth_error (g_edges g) ei with
    | Some ed => if deptype_eqb (e_type ed) t then Some (requested (e_spec ed)) else None
    | None => None
    end.
  Lemma linked_deps_acc g t l : forall acc, NoDup (map fst acc) -> NoDup (map fst l) ->
    let r := fold_left (fun acc e => match nth_error (g_edges g) (snd e) with
                            | Some ed => if deptype_eqb (e_type ed) t then sput (fst e) (requested (e_spec ed)) acc else acc
                            | None => acc
                            end) l acc in
    NoDup (map fst r) /\ forall x, sget x r = match obind (sget x l) (dep_text g t) with Some v => Some v | None => sget x acc end.
  Proof.
    induction l as [|[k ei] tl IH]; cbn -[sget sput]; intros acc Ha Hl; [split; auto|].
    inversion Hl as [|? ? Hni Hnd]; subst.
    set (acc' := match nth_error (g_edges g) ei with Some ed => if deptype_eqb (e_type ed) t then sput k (requested (e_spec ed)) acc else acc | None => acc end).
    assert (Hacc' : NoDup (map fst acc') /\ forall x, sget x acc' = if String.eqb x k then match dep_text g t ei with Some v => Some v | None => sget x acc end else sget x acc).
    { unfold acc', dep_text. destruct (nth_error (g_edges g) ei) as [ed|]; [destruct (deptype_eqb (e_type ed) t)|]; (split; [|intros x]).
      - apply aput_keys_NoDup; [apply seqb_spec | auto].
      - destruct (String.eqb_spec x k) as [->|Hne]; [apply sget_sput_eq | now apply sget_sput_neq].
      - auto.
      - destruct (String.eqb x k); auto.
      - auto.
      - destruct (String.eqb x k); auto. }
    destruct Hacc' as [Hn' Hg']. destruct (IH acc' Hn' Hnd) as [HN HG]. split; [exact HN|].
    intros x. rewrite HG, Hg'. cbn [aget]. destruct (String.eqb_spec x k) as [->|Hne]; [|reflexivity].
    assert (Ek : sget k tl = None) by (apply aget_None; [apply seqb_spec | exact Hni]). rewrite Ek. reflexivity.
  Qed.
  Lemma linked_deps_spec g t n : NoDup (map fst (n_deps n)) ->
    NoDup (map fst (linked_deps requested g t n)) /\ forall x, sget x (linked_deps requested g t n) = obind (sget x (n_deps n)) (dep_text g t).
  Proof.
    intros H. destruct (linked_deps_acc g t (n_deps n) [] ltac:(constructor) H) as [HN HG]. split; [exact HN|].
    intros x. unfold linked_deps. rewrite HG. destruct (obind _ _); reflexivity.
  Qed.

  Lemma node_lnode_ok g i b n : getn g i = Some n -> exists ln, node_lnode g i b = Ok ln /\ l_path ln = node_path g i /\ l_is_root ln = b
    /\ l_resolved ln <> None.
  Proof. intros H. unfold LockfileModel.node_lnode. rewrite H. eexists. repeat split. discriminate. Qed.
  Lemma node_lnode_deps_ok g i b ln : deps_nodup g -> node_lnode g i b = Ok ln -> deps_ok ln.
  Proof.
    intros H E. unfold LockfileModel.node_lnode in E. destruct (getn g i) as [n|] eqn:En; [|discriminate]. injection E as <-.
    specialize (H i n En). repeat split; cbn; now apply linked_deps_spec.
  Qed.

  Definition entry (g : graph) (i : nat) : lnode := match node_lnode g i false with Ok ln => ln | _ => mkLn "" false [] None None None [] [] [] [] end.
  Lemma entry_eq g i : i < size g -> node_lnode g i false = Ok (entry g i) /\ l_path (entry g i) = node_path g i.
  Proof.
    intros Hi. apply getn_lt in Hi. destruct Hi as [n Hn]. destruct (node_lnode_ok g i false n Hn) as (ln & E & Hp & _). unfold entry. rewrite E. auto.
  Qed.
  Lemma rmap_map A B (f : A -> res err B) (h : A -> B) l : (forall a, In a l -> f a = Ok (h a)) -> rmap f l = Ok (map h l).
  Proof. induction l as [|a t IH]; cbn; intros H; [easy|]. rewrite (H a) by now left. cbn. rewrite IH by auto. reflexivity. Qed.

  Definition rest (g : graph) : list nat := filter (fun i => negb (Nat.eqb i 0)) (seq 0 (size g)).
  Lemma rest_in g i : In i (rest g) <-> 0 < i < size g.
  Proof. unfold rest. rewrite filter_In, in_seq, negb_true_iff, Nat.eqb_neq. lia. Qed.
  Lemma rest_nodup g : NoDup (rest g).
  Proof. apply NoDup_filter, seq_NoDup. Qed.

  Lemma to_lockfile_eq g r : 0 < size g -> node_lnode g 0 true = Ok r ->
    to_lockfile g = Ok (mkLf 1 r (keyed (map (entry g) (rest g)))).
  Proof.
    intros Hz Er. unfold LockfileModel.to_lockfile. rewrite Er. cbn [rbind]. fold (size g). fold (rest g).
    rewrite (rmap_map _ _ _ (entry g)); [reflexivity|]. intros i Hi. apply rest_in in Hi. now apply entry_eq.
  Qed.
End ToLock.
