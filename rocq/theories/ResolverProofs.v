(** * Invariants of the resolver, for every schedule. *)
From Verif Require Import Base Types ResolverModel.
From Coq Require Import Permutation.

Arguments parents : simpl never.

Section RP.
  Variable rsat : range -> version -> bool.
  Variable canon : string -> option string.
  Variable parse_dep : string -> string -> res err pspec.
  Variable lnode : Type.
  Variable lnode_path : lnode -> list string.
  Variable lnode_manifest : lnode -> manifest.
  Variable to_package : lnode -> res err (option package).
  (** what the registry may answer for a spec *)
  Variable deliver : pspec -> outcome -> Prop.

  Notation sat := (satisfies rsat canon).
  Notation satisfy_dependency := (satisfy_dependency rsat canon).
  Notation conflict_existing := (conflict_existing rsat canon).
  Notation conflict_req := (conflict_req rsat canon).
  Notation climb := (climb rsat canon).
  Notation place_child := (place_child rsat canon parse_dep).
  Notation new_node := (new_node parse_dep).

  Definition size (g : graph) := length (g_nodes g).
  Definition parent_of (g : graph) (i : nat) : option nat :=
    match getn g i with Some n => n_parent n | None => None end.
  Definition dep_of (g : graph) (i : nat) (x : string) : option nat :=
    match getn g i with Some n => sget x (n_deps n) | None => None end.
  Definition req_of (g : graph) (i : nat) (x : string) : option (pspec * deptype) :=
    match getn g i with Some n => sget x (n_reqs n) | None => None end.
  Definition pkg_of (g : graph) (i : nat) : option package :=
    match getn g i with Some n => Some (n_pkg n) | None => None end.

  (** [under g i a]: [a] is [i] or one of the packages that contain it *)
  Inductive under (g : graph) : nat -> nat -> Prop :=
  | under_refl i : under g i i
  | under_step i p a : parent_of g i = Some p -> under g p a -> under g i a.

  Definition good (g : graph) (i : nat) (s : pspec) : Prop :=
    exists p, pkg_of g i = Some p /\ (sat (pk_resolved p) s = Ok true \/ exists m, deliver s (Ok (p, m))).

  Definition dkey (d : dep) := (d_node d, d_name d).

  Record GInv (g : graph) (q : list nat) (P : list dep) : Prop := {
    gi_root : size g > 0 /\ parent_of g 0 = None;
    gi_par : forall i, 0 < i < size g ->
       exists p, parent_of g i = Some p /\ p < i /\ child_of g p (name_of g i) = Some i;
    gi_child : forall p x c, child_of g p x = Some c -> c < size g /\ parent_of g c = Some p /\ name_of g c = x;
    gi_edge : forall e, In e (g_edges g) -> e_from e < size g /\ e_to e < size g;
    gi_in : forall i p, parent_of g i = Some p -> exists e, In e (g_edges g) /\ e_to e = i /\ under g (e_from e) p;
    gi_dep : forall i x ei, dep_of g i x = Some ei ->
       exists e, nth_error (g_edges g) ei = Some e /\ e_from e = i /\ req_of g i x = Some (e_spec e, e_type e)
                 /\ name_of g (e_to e) = x /\ e_to e <> 0 /\ good g (e_to e) (e_spec e);
    gi_edep : forall ei e, nth_error (g_edges g) ei = Some e -> exists x, dep_of g (e_from e) x = Some ei;
    gi_reqs : forall i n, getn g i = Some n -> NoDup (map fst (n_reqs n));
    gi_P : forall d, In d P -> d_node d < size g /\ ~ In (d_node d) q /\ dep_of g (d_node d) (d_name d) = None
             /\ req_of g (d_node d) (d_name d) = Some (d_spec d, d_type d);
    gi_Pnd : NoDup (map dkey P);
    gi_q : NoDup q /\ forall i, In i q -> i < size g /\ (forall x, dep_of g i x = None) /\ (forall x, child_of g i x = None);
    gi_all : forall i x r, i < size g -> ~ In i q -> req_of g i x = Some r ->
       dep_of g i x <> None \/ exists d, In d P /\ dkey d = (i, x);
    gi_own : forall i x s t c p, req_of g i x = Some (s, t) -> dep_of g i x = None -> child_of g i x = Some c ->
       pkg_of g c = Some p -> sat (pk_resolved p) s = Ok true
  }.

  (** ** the parent chain *)
  Lemma getn_lt g i : i < size g <-> exists n, getn g i = Some n.
  Proof.
    unfold getn, size. split.
    - intros H. destruct (nth_error (g_nodes g) i) eqn:E; [eauto|]. apply nth_error_None in E. lia.
    - intros [n H]. apply nth_error_Some. congruence.
  Qed.
  Lemma parent_of_lt g i p : parent_of g i = Some p -> i < size g.
  Proof. unfold parent_of. destruct (getn g i) eqn:E; [|discriminate]. intros _. apply getn_lt; eauto. Qed.
  Lemma child_of_lt g i x c : child_of g i x = Some c -> i < size g.
  Proof. unfold child_of. destruct (getn g i) eqn:E; [|discriminate]. intros _. apply getn_lt; eauto. Qed.
  Lemma dep_of_lt g i x c : dep_of g i x = Some c -> i < size g.
  Proof. unfold dep_of. destruct (getn g i) eqn:E; [|discriminate]. intros _. apply getn_lt; eauto. Qed.
  Lemma req_of_lt g i x c : req_of g i x = Some c -> i < size g.
  Proof. unfold req_of. destruct (getn g i) eqn:E; [|discriminate]. intros _. apply getn_lt; eauto. Qed.
  Lemma pkg_of_lt g i : i < size g <-> exists p, pkg_of g i = Some p.
  Proof.
    rewrite getn_lt. unfold pkg_of. split; [intros [n ->]; eauto | destruct (getn g i); [eauto | intros [? ?]; discriminate]].
  Qed.

  (** only what the chain needs *)
  Definition parlt (g : graph) := forall i p, parent_of g i = Some p -> p < i.

  Lemma chain_enough g : parlt g -> forall i f, i < f -> chain f g i = chain (S i) g i.
  Proof.
    intros Hp. induction i as [i IH] using lt_wf_ind. intros f Hf.
    destruct f as [|f]; [lia|]. cbn.
    destruct (getn g i) as [n|] eqn:E; [|easy]. f_equal.
    destruct (n_parent n) as [p|] eqn:Ep; [|easy].
    assert (Hlt : p < i) by (apply Hp; unfold parent_of; now rewrite E).
    rewrite (IH p Hlt f) by lia. rewrite (IH p Hlt i) by lia. easy.
  Qed.

  Lemma parents_unfold g i : parlt g -> i < size g ->
    parents g i = i :: match parent_of g i with None => [] | Some p => parents g p end.
  Proof.
    intros Hp Hi. apply getn_lt in Hi. destruct Hi as [n Hn].
    unfold parents at 1. cbn. rewrite Hn. f_equal.
    unfold parent_of. rewrite Hn. destruct (n_parent n) as [p|] eqn:Ep; [|easy].
    apply chain_enough; auto. apply Hp. unfold parent_of; now rewrite Hn.
  Qed.

  Lemma under_lt g : parlt g -> forall i a, under g i a -> a <= i.
  Proof. intros Hp i a H; induction H as [|i p a Hpa _ IH]; [lia|]. apply Hp in Hpa; lia. Qed.

  Lemma under_parents g : parlt g -> forall i, i < size g -> forall a, In a (parents g i) <-> under g i a.
  Proof.
    intros Hp. induction i as [i IH] using lt_wf_ind. intros Hi a.
    rewrite parents_unfold by auto. cbn. split.
    - intros [<- | Hin]; [constructor|].
      destruct (parent_of g i) as [p|] eqn:Ep; [|easy].
      assert (p < i) by (now apply Hp).
      eapply under_step; [eauto|]. apply IH; auto. unfold size in *; lia.
    - intros H. inversion H as [|? p ? Hpar Hu]; subst; [auto|]. right. rewrite Hpar.
      assert (p < i) by (now apply Hp). apply IH; auto. unfold size in *; lia.
  Qed.

  Lemma is_ancestor_spec g a i : parlt g -> i < size g -> is_ancestor g a i = true <-> under g i a.
  Proof.
    intros Hp Hi. unfold is_ancestor. rewrite existsb_exists. rewrite <- under_parents by auto.
    split; [intros (x & Hx & E); apply Nat.eqb_eq in E; now subst | intros H; exists a; split; [auto | apply Nat.eqb_refl]].
  Qed.

  Lemma under_trans g i j k : under g i j -> under g j k -> under g i k.
  Proof. intros H1 H2; induction H1; [auto | eapply under_step; eauto]. Qed.

  (** two containers of the same package are nested *)
  Lemma under_linear g i a b : under g i a -> under g i b -> under g a b \/ under g b a.
  Proof.
    intros H; revert b; induction H as [i | i p a Hp Hu IH]; intros b Hb; [auto|].
    inversion Hb as [|? p' ? Hp' Hu']; subst.
    - right. eapply under_step; eauto.
    - rewrite Hp in Hp'; inversion Hp'; subst. auto.
  Qed.
  Lemma under_antisym g i j : parlt g -> under g i j -> under g j i -> i = j.
  Proof. intros Hp H1 H2. apply under_lt in H1; auto. apply under_lt in H2; auto. lia. Qed.

  (** ** walk-up lookup *)
  Inductive lookup (g : graph) : nat -> string -> nat -> Prop :=
  | lk_here i x c : child_of g i x = Some c -> lookup g i x c
  | lk_up i p x c : child_of g i x = None -> parent_of g i = Some p -> lookup g p x c -> lookup g i x c.

  Lemma lookup_resolve g : parlt g -> forall i, i < size g -> forall x c, resolve_dep g i x = Some c <-> lookup g i x c.
  Proof.
    intros Hp. induction i as [i IH] using lt_wf_ind. intros Hi x c.
    unfold resolve_dep. rewrite parents_unfold by auto. cbn.
    destruct (child_of g i x) as [c'|] eqn:Ec.
    - split; [intros E; inversion E; subst; now constructor|].
      intros H; inversion H; subst; congruence.
    - destruct (parent_of g i) as [p|] eqn:Ep.
      + assert (p < i) by (now apply Hp).
        fold (resolve_dep g p x). rewrite IH by (auto; lia).
        split; [intros; eapply lk_up; eauto|].
        intros H1; inversion H1; subst; congruence.
      + cbn. split; [discriminate|]. intros H1; inversion H1; subst; congruence.
  Qed.

  (** where the lookup found it: a container of [i], with no hit below *)
  Lemma lookup_spec g i x c : lookup g i x c -> exists q, under g i q /\ child_of g q x = Some c
      /\ forall j, under g i j -> child_of g j x <> None -> under g q j.
  Proof.
    induction 1 as [i x c Hc | i p x c Hn Hp Hl (q & Hu & Hc & Hmin)].
    - exists i. repeat split; [constructor | auto | auto].
    - exists q. repeat split; [eapply under_step; eauto | auto |].
      intros j Hj Hcj. inversion Hj as [|? p' ? Hp' Hu']; subst; [congruence|].
      rewrite Hp in Hp'; inversion Hp'; subst; auto.
  Qed.
  (** the same lookup from anywhere between [i] and the hit *)
  Lemma lookup_between g i x c q j : parlt g -> lookup g i x c -> child_of g q x = Some c -> under g i q ->
     (forall k, under g i k -> child_of g k x <> None -> under g q k) ->
     under g i j -> under g j q -> lookup g j x c.
  Proof.
    intros Hp Hl Hc Hq Hmin Hij Hjq.
    induction Hjq as [j | j p q Hpj Hpq IH].
    - now constructor.
    - destruct (child_of g j x) as [c'|] eqn:Ej.
      + assert (under g q j) by (apply Hmin; [auto | congruence]).
        apply under_lt in H; auto. apply under_lt in Hpq; auto. apply Hp in Hpj. lia.
      + eapply lk_up; eauto. apply IH; auto. eapply under_trans; [eauto|]. eapply under_step; [eauto | constructor].
  Qed.

  Lemma ginv_parlt g q P : GInv g q P -> parlt g.
  Proof.
    intros I i p H. destruct (Nat.eq_dec i 0) as [->|Hne].
    - rewrite (proj2 (gi_root _ _ _ I)) in H; discriminate.
    - destruct (gi_par _ _ _ I i) as (p' & Hp' & Hlt & _); [split; [lia | eapply parent_of_lt; eauto]|]. congruence.
  Qed.

  (** ** accessors after the graph updates *)
  Lemma getn_setn g i n j : i < size g -> getn (setn g i n) j = if i =? j then Some n else getn g j.
  Proof.
    intros Hi. unfold getn, setn; cbn. destruct (Nat.eqb_spec i j) as [->|Hne].
    - now apply nth_lset_eq. - now apply nth_lset_neq.
  Qed.
  Lemma size_setn g i n : size (setn g i n) = size g.
  Proof. unfold size, setn; cbn. apply lset_length. Qed.

  Definition upd_dep (g : graph) (i : nat) (x : string) (e : nat) (g' : graph) : Prop :=
    size g' = size g
    /\ (forall j, parent_of g' j = parent_of g j)
    /\ (forall j y, child_of g' j y = child_of g j y)
    /\ (forall j, name_of g' j = name_of g j)
    /\ (forall j, pkg_of g' j = pkg_of g j)
    /\ (forall j y, req_of g' j y = req_of g j y)
    /\ (forall j y, dep_of g' j y = if (i =? j) && String.eqb x y then Some e else dep_of g j y)
    /\ (forall j n, getn g' j = Some n -> exists n0, getn g j = Some n0 /\ n_reqs n = n_reqs n0).

  Lemma link_dep_upd g i x e : i < size g -> upd_dep g i x e (link_dep g i x e) /\ g_edges (link_dep g i x e) = g_edges g.
  Proof.
    intros Hi. unfold link_dep. destruct (proj1 (getn_lt g i) Hi) as [n Hn]. rewrite Hn.
    split; [|reflexivity].
    assert (G : forall j, getn (setn g i (set_deps n (sput x e (n_deps n)))) j
                = if i =? j then Some (set_deps n (sput x e (n_deps n))) else getn g j)
      by (intros; apply getn_setn; auto).
    unfold upd_dep, parent_of, child_of, name_of, pkg_of, req_of, dep_of. rewrite size_setn.
    repeat split; intros j; try intros y; try rewrite (G j);
      try (destruct (Nat.eqb_spec i j) as [<-|]; [rewrite Hn; cbn; reflexivity | reflexivity]).
    - destruct (Nat.eqb_spec i j) as [<-|]; cbn; [|reflexivity]. rewrite Hn.
      destruct (String.eqb_spec x y) as [->|Hne]; [apply sget_sput_eq | apply sget_sput_neq; congruence].
    - destruct (Nat.eqb_spec i j) as [<-|]; intros H.
      + inversion H; subst. exists n; auto.
      + exists y; auto.
  Qed.

  Lemma under_ext g g' : (forall j, parent_of g' j = parent_of g j) -> forall i a, under g i a -> under g' i a.
  Proof.
    intros H i a Hu; induction Hu; [constructor|]. eapply under_step; [rewrite H; eauto | auto].
  Qed.

  (** ** a dependency satisfied by an existing package *)
  Lemma satisfy_some g d g' x : satisfy_dependency g d = Ok (Some (g', x)) ->
    exists nx, resolve_dep g (d_node d) (d_name d) = Some x /\ getn g x = Some nx
      /\ sat (pk_resolved (n_pkg nx)) (d_spec d) = Ok true
      /\ g' = link_dep (mkGraph (g_nodes g) (g_edges g ++ [mkEdge (d_node d) x (d_spec d) (d_type d)]))
                (d_node d) (d_name d) (length (g_edges g)).
  Proof.
    unfold ResolverModel.satisfy_dependency.
    destruct (resolve_dep g (d_node d) (d_name d)) as [x'|] eqn:E; [|discriminate].
    destruct (getn g x') as [nx|] eqn:En; [|discriminate].
    destruct (sat (pk_resolved (n_pkg nx)) (d_spec d)) as [[]|e|] eqn:Es; cbn; try discriminate.
    intros H; inversion H; subst. eauto 10.
  Qed.
  Lemma satisfy_none g d : satisfy_dependency g d = Ok None ->
    forall x nx, resolve_dep g (d_node d) (d_name d) = Some x -> getn g x = Some nx ->
      sat (pk_resolved (n_pkg nx)) (d_spec d) = Ok false.
  Proof.
    unfold ResolverModel.satisfy_dependency. intros H x nx Hr Hn. rewrite Hr, Hn in H.
    destruct (sat (pk_resolved (n_pkg nx)) (d_spec d)) as [[]|e|] eqn:Es; cbn in H; try discriminate. easy.
  Qed.

  Lemma req_mono_none A (o : option A) : o = None \/ exists a, o = Some a.
  Proof. destruct o; eauto. Qed.

  Lemma GInv_satisfy g q P d g' x : GInv g q (d :: P) -> satisfy_dependency g d = Ok (Some (g', x)) -> GInv g' q P.
  Proof.
    intros I H. destruct (satisfy_some _ _ _ _ H) as (nx & Hr & Hx & Hs & ->).
    pose proof (ginv_parlt _ _ _ I) as Hpl.
    destruct (gi_P _ _ _ I d (or_introl eq_refl)) as (Hdn & Hdq & Hdd & Hdr).
    set (e := mkEdge (d_node d) x (d_spec d) (d_type d)).
    set (g0 := mkGraph (g_nodes g) (g_edges g ++ [e])).
    set (ei := length (g_edges g)).
    destruct (link_dep_upd g0 (d_node d) (d_name d) ei) as [U Hed]; [exact Hdn|].
    set (g' := link_dep g0 (d_node d) (d_name d) ei) in *.
    destruct U as (Usz & Upar & Uch & Unm & Upk & Urq & Udp & Unr).
    change (size g0) with (size g) in Usz.
    change (parent_of g0) with (parent_of g) in Upar. change (child_of g0) with (child_of g) in Uch.
    change (name_of g0) with (name_of g) in Unm. change (pkg_of g0) with (pkg_of g) in Upk.
    change (req_of g0) with (req_of g) in Urq. change (dep_of g0) with (dep_of g) in Udp.
    cbn in Hed.
    assert (Hlk : lookup g (d_node d) (d_name d) x) by (apply lookup_resolve; auto).
    destruct (lookup_spec _ _ _ _ Hlk) as (px & Hupx & Hcpx & _).
    destruct (gi_child _ _ _ I _ _ _ Hcpx) as (Hxs & Hxp & Hxn).
    assert (Hx0 : x <> 0) by (intros ->; rewrite (proj2 (gi_root _ _ _ I)) in Hxp; discriminate).
    assert (Hgood : forall i s, good g i s -> good g' i s).
    { intros i s (p & Hp & Hg). exists p. rewrite Upk. auto. }
    constructor.
    - rewrite Usz, Upar. apply I.
    - intros i Hi. rewrite Usz in Hi. destruct (gi_par _ _ _ I i Hi) as (p & ? & ? & ?).
      exists p. rewrite Upar, Unm, Uch. auto.
    - intros p y c. rewrite Uch, Usz, Upar, Unm. apply I.
    - intros e' He'. rewrite Hed in He'. rewrite Usz. apply in_app_iff in He'. destruct He' as [He'|[<-|[]]].
      + apply (gi_edge _ _ _ I _ He'). + cbn. auto.
    - intros i p Hip. rewrite Upar in Hip. destruct (gi_in _ _ _ I _ _ Hip) as (e' & He' & Ht & Hu).
      exists e'. rewrite Hed, in_app_iff. repeat split; auto. eapply under_ext; eauto.
    - intros i y e' He'. rewrite Udp in He'. rewrite Urq.
      destruct ((d_node d =? i) && (d_name d =? y)%string) eqn:Ek.
      + apply andb_true_iff in Ek. destruct Ek as [E1 E2]. apply Nat.eqb_eq in E1. apply String.eqb_eq in E2.
        subst i y. inversion He'; subst e'. exists e. rewrite Hed, nth_error_app2 by lia.
        unfold ei; rewrite Nat.sub_diag. cbn. rewrite Unm. repeat split; auto.
        exists (n_pkg nx). rewrite Upk. unfold pkg_of; rewrite Hx. auto.
      + destruct (gi_dep _ _ _ I _ _ _ He') as (e2 & Hn2 & Hf2 & Hr2 & Hnm2 & Hz2 & Hg2).
        exists e2. rewrite Hed, Unm. repeat split; auto.
        rewrite nth_error_app1; auto. apply nth_error_Some. congruence.
    - intros k e' He'. rewrite Hed in He'. destruct (Nat.lt_ge_cases k (length (g_edges g))) as [Hk|Hk].
      + rewrite nth_error_app1 in He' by auto. destruct (gi_edep _ _ _ I _ _ He') as (y & Hy).
        exists y. rewrite Udp. destruct ((d_node d =? e_from e') && (d_name d =? y)%string) eqn:Ek; [|auto].
        apply andb_true_iff in Ek. destruct Ek as [E1 E2]. apply Nat.eqb_eq in E1. apply String.eqb_eq in E2.
        rewrite <- E1, <- E2 in Hy. congruence.
      + rewrite nth_error_app2 in He' by auto.
        destruct (k - length (g_edges g)) as [|kk] eqn:Ekk; cbn in He'; [|destruct kk; discriminate].
        inversion He'; subst e'. exists (d_name d). rewrite Udp. cbn. rewrite Nat.eqb_refl, String.eqb_refl. cbn.
        f_equal. unfold ei. lia.
    - intros i n Hn. destruct (Unr _ _ Hn) as (n0 & Hn0 & ->). apply (gi_reqs _ _ _ I i). exact Hn0.
    - intros d' Hd'. destruct (gi_P _ _ _ I d' (or_intror Hd')) as (? & ? & ? & ?).
      rewrite Usz, Udp, Urq. repeat split; auto.
      destruct ((d_node d =? d_node d') && (d_name d =? d_name d')%string) eqn:Ek; [|auto].
      exfalso. apply andb_true_iff in Ek. destruct Ek as [E1 E2]. apply Nat.eqb_eq in E1. apply String.eqb_eq in E2.
      pose proof (gi_Pnd _ _ _ I) as Hnd. cbn in Hnd. inversion Hnd as [|? ? Hni _]; subst.
      apply Hni. unfold dkey. rewrite E1, E2. change (In (dkey d') (map dkey P)). now apply in_map.
    - pose proof (gi_Pnd _ _ _ I) as Hnd. cbn in Hnd. now inversion Hnd.
    - destruct (gi_q _ _ _ I) as (Hnd & Hq). split; [auto|]. intros i Hi. destruct (Hq i Hi) as (? & Hd & Hc).
      rewrite Usz. repeat split; auto; intros y; [rewrite Udp | rewrite Uch; auto].
      destruct (Nat.eqb_spec (d_node d) i) as [<-|]; cbn; [contradiction | auto].
    - intros i y r Hi Hiq Hr'. rewrite Usz in Hi. rewrite Urq in Hr'. rewrite Udp.
      destruct ((d_node d =? i) && (d_name d =? y)%string) eqn:Ek; [left; discriminate|].
      destruct (gi_all _ _ _ I _ _ _ Hi Hiq Hr') as [Hl | (d' & Hd' & Hk)]; [auto|].
      right. exists d'. split; [|auto]. destruct Hd' as [<-|]; [|auto].
      exfalso. unfold dkey in Hk. inversion Hk; subst. rewrite Nat.eqb_refl, String.eqb_refl in Ek. discriminate.
    - intros i y s t c p Hr' Hd' Hc' Hp'. rewrite Urq in Hr'. rewrite Udp in Hd'. rewrite Uch in Hc'. rewrite Upk in Hp'.
      destruct ((d_node d =? i) && (d_name d =? y)%string) eqn:Ek; [discriminate|].
      eapply (gi_own _ _ _ I); eauto.
  Qed.

  (** ** placing a new package *)
  Definition upd_place (g : graph) (d : dep) (cn : node) (tgt : nat) (g' : graph) : Prop :=
    let ci := size g in
    size g' = S ci
    /\ g_edges g' = g_edges g ++ [mkEdge (d_node d) ci (d_spec d) (d_type d)]
    /\ (forall j, parent_of g' j = if j =? ci then Some tgt else parent_of g j)
    /\ (forall j y, child_of g' j y = if (j =? tgt) && String.eqb y (d_name d) then Some ci else child_of g j y)
    /\ (forall j, name_of g' j = if j =? ci then n_name cn else name_of g j)
    /\ (forall j, pkg_of g' j = if j =? ci then Some (n_pkg cn) else pkg_of g j)
    /\ (forall j y, req_of g' j y = if j =? ci then sget y (n_reqs cn) else req_of g j y)
    /\ (forall j y, dep_of g' j y = if (j =? d_node d) && String.eqb y (d_name d) then Some (length (g_edges g)) else dep_of g j y)
    /\ (forall j n, getn g' j = Some n -> if j =? ci then n_reqs n = n_reqs cn else exists n0, getn g j = Some n0 /\ n_reqs n = n_reqs n0).

  Lemma getn_app g n e j : getn (mkGraph (g_nodes g ++ [n]) e) j = if j =? size g then Some n else getn g j.
  Proof.
    unfold getn, size; cbn. destruct (Nat.eqb_spec j (length (g_nodes g))) as [->|Hne].
    - rewrite nth_error_app2, Nat.sub_diag by lia. easy.
    - destruct (Nat.lt_ge_cases j (length (g_nodes g))).
      + now rewrite nth_error_app1.
      + rewrite (proj2 (nth_error_None _ _)) by (rewrite app_length; cbn; lia).
        symmetry. now apply nth_error_None.
  Qed.

  Lemma place_upd g d cn tgt : d_node d < size g -> tgt < size g -> n_deps cn = [] -> n_children cn = [] ->
    let ci := length (g_nodes g) in
    let g1 := mkGraph (g_nodes g ++ [cn]) (g_edges g ++ [mkEdge (d_node d) ci (d_spec d) (d_type d)]) in
    upd_place g d cn tgt
      (add_child (set_parent_at (link_dep g1 (d_node d) (d_name d) (length (g_edges g))) ci (Some tgt)) tgt (d_name d) ci).
  Proof.
    intros Hd Ht Hcd Hcc ci g1.
    assert (Hci : ci = size g) by reflexivity.
    assert (Hs1 : size g1 = S ci) by (unfold size, g1; cbn; rewrite app_length; cbn; lia).
    assert (G1 : forall j, getn g1 j = if j =? ci then Some cn else getn g j) by (intros; apply getn_app).
    destruct (proj1 (getn_lt g _) Hd) as [nd Hnd].
    destruct (proj1 (getn_lt g _) Ht) as [nt Hnt].
    assert (Ed : (d_node d =? ci) = false) by (apply Nat.eqb_neq; lia).
    assert (Et : (tgt =? ci) = false) by (apply Nat.eqb_neq; lia).
    set (nd' := set_deps nd (sput (d_name d) (length (g_edges g)) (n_deps nd))).
    set (g2 := link_dep g1 (d_node d) (d_name d) (length (g_edges g))).
    assert (G2 : forall j, getn g2 j = if j =? ci then Some cn else if j =? d_node d then Some nd' else getn g j).
    { intros j. unfold g2, link_dep. rewrite G1, Ed, Hnd. rewrite getn_setn by lia. rewrite G1.
      destruct (Nat.eqb_spec (d_node d) j) as [<-|]; [now rewrite Ed, Nat.eqb_refl|].
      destruct (j =? ci); [easy|]. destruct (Nat.eqb_spec j (d_node d)); [congruence | easy]. }
    assert (E2 : g_edges g2 = g_edges g1) by (unfold g2, link_dep; rewrite G1, Ed, Hnd; reflexivity).
    assert (S2 : size g2 = S ci) by (unfold g2, link_dep; rewrite G1, Ed, Hnd; rewrite size_setn; auto).
    set (g3 := set_parent_at g2 ci (Some tgt)).
    assert (G3 : forall j, getn g3 j = if j =? ci then Some (set_parent cn (Some tgt)) else if j =? d_node d then Some nd' else getn g j).
    { intros j. unfold g3, set_parent_at. rewrite G2, Nat.eqb_refl. rewrite getn_setn by lia. rewrite G2.
      rewrite (Nat.eqb_sym ci j). destruct (j =? ci); easy. }
    assert (E3 : g_edges g3 = g_edges g1) by (unfold g3, set_parent_at; rewrite G2, Nat.eqb_refl; cbn; auto).
    assert (S3 : size g3 = S ci) by (unfold g3, set_parent_at; rewrite G2, Nat.eqb_refl, size_setn; auto).
    set (nt0 := if tgt =? d_node d then nd' else nt).
    assert (Hnt0 : getn g3 tgt = Some nt0).
    { rewrite G3, Et. unfold nt0. destruct (tgt =? d_node d); auto. }
    set (g4 := add_child g3 tgt (d_name d) ci).
    assert (G4 : forall j, getn g4 j = if j =? tgt then Some (set_children nt0 (sput (d_name d) ci (n_children nt0))) else getn g3 j).
    { intros j. unfold g4, add_child. rewrite Hnt0. rewrite getn_setn by lia. rewrite (Nat.eqb_sym tgt j). easy. }
    assert (E4 : g_edges g4 = g_edges g1) by (unfold g4, add_child; rewrite Hnt0; cbn; auto).
    assert (S4 : size g4 = S ci) by (unfold g4, add_child; rewrite Hnt0, size_setn; auto).
    assert (Fch : n_children nt0 = n_children nt).
    { unfold nt0. destruct (Nat.eqb_spec tgt (d_node d)) as [->|]; [|easy].
      rewrite Hnt in Hnd; inversion Hnd; subst. reflexivity. }
    assert (Fpar : n_parent nt0 = n_parent nt).
    { unfold nt0. destruct (Nat.eqb_spec tgt (d_node d)) as [->|]; [|easy].
      rewrite Hnt in Hnd; inversion Hnd; subst. reflexivity. }
    assert (Fnm : n_name nt0 = n_name nt).
    { unfold nt0. destruct (Nat.eqb_spec tgt (d_node d)) as [->|]; [|easy].
      rewrite Hnt in Hnd; inversion Hnd; subst. reflexivity. }
    assert (Fpk : n_pkg nt0 = n_pkg nt).
    { unfold nt0. destruct (Nat.eqb_spec tgt (d_node d)) as [->|]; [|easy].
      rewrite Hnt in Hnd; inversion Hnd; subst. reflexivity. }
    assert (Frq : n_reqs nt0 = n_reqs nt).
    { unfold nt0. destruct (Nat.eqb_spec tgt (d_node d)) as [->|]; [|easy].
      rewrite Hnt in Hnd; inversion Hnd; subst. reflexivity. }
    unfold upd_place. rewrite <- Hci. rewrite E4.
    assert (Gci : getn g ci = None).
    { destruct (getn g ci) eqn:E; [|easy]. assert (ci < size g) by (apply getn_lt; eauto). lia. }
    split; [exact S4|]. split; [reflexivity|].
    split; [|split; [|split; [|split; [|split; [|split]]]]].
    - intros j. unfold parent_of. rewrite G4, G3.
      destruct (Nat.eqb_spec j tgt) as [->|]; [rewrite Et; cbn; rewrite Hnt; auto|].
      destruct (j =? ci); [reflexivity|]. destruct (Nat.eqb_spec j (d_node d)) as [->|]; [rewrite Hnd; reflexivity | reflexivity].
    - intros j y. unfold child_of. rewrite G4, G3.
      destruct (Nat.eqb_spec j tgt) as [->|]; cbn.
      + rewrite Fch, Hnt. destruct (String.eqb_spec y (d_name d)) as [->|Hne]; [apply sget_sput_eq | now apply sget_sput_neq].
      + destruct (Nat.eqb_spec j ci) as [->|]; [rewrite Gci; cbn; now rewrite Hcc|].
        destruct (Nat.eqb_spec j (d_node d)) as [->|]; [rewrite Hnd; reflexivity | reflexivity].
    - intros j. unfold name_of. rewrite G4, G3.
      destruct (Nat.eqb_spec j tgt) as [->|]; [rewrite Et; cbn; rewrite Hnt; auto|].
      destruct (j =? ci); [reflexivity|]. destruct (Nat.eqb_spec j (d_node d)) as [->|]; [rewrite Hnd; reflexivity | reflexivity].
    - intros j. unfold pkg_of. rewrite G4, G3.
      destruct (Nat.eqb_spec j tgt) as [->|]; [rewrite Et; cbn; rewrite Hnt, Fpk; auto|].
      destruct (j =? ci); [reflexivity|]. destruct (Nat.eqb_spec j (d_node d)) as [->|]; [rewrite Hnd; reflexivity | reflexivity].
    - intros j y. unfold req_of. rewrite G4, G3.
      destruct (Nat.eqb_spec j tgt) as [->|]; [rewrite Et; cbn; rewrite Hnt, Frq; auto|].
      destruct (j =? ci); [reflexivity|]. destruct (Nat.eqb_spec j (d_node d)) as [->|]; [rewrite Hnd; reflexivity | reflexivity].
    - intros j y. unfold dep_of. rewrite G4, G3.
      destruct (Nat.eqb_spec j tgt) as [->|].
      + cbn. unfold nt0. destruct (Nat.eqb_spec tgt (d_node d)) as [->|]; cbn.
        * rewrite Hnd. destruct (String.eqb_spec y (d_name d)) as [->|Hne]; [apply sget_sput_eq | now apply sget_sput_neq].
        * now rewrite Hnt.
      + destruct (Nat.eqb_spec j ci) as [->|].
        * rewrite Gci. cbn. rewrite Hcd. cbn. rewrite (Nat.eqb_sym ci), Ed. reflexivity.
        * destruct (Nat.eqb_spec j (d_node d)) as [->|]; cbn; [|easy].
          rewrite Hnd. destruct (String.eqb_spec y (d_name d)) as [->|Hne]; [apply sget_sput_eq | now apply sget_sput_neq].
    - intros j n. rewrite G4, G3.
      destruct (Nat.eqb_spec j tgt) as [->|].
      + intros H; inversion H; subst. rewrite Et. exists nt; cbn; auto.
      + destruct (Nat.eqb_spec j ci) as [->|]; [intros H; inversion H; reflexivity|].
        destruct (Nat.eqb_spec j (d_node d)) as [->|].
        * intros H; inversion H; subst. exists nd; auto.
        * intros H. exists n; auto.
  Qed.

  Lemma add_reqs_nodup l t : forall acc r, NoDup (map fst acc) -> add_reqs parse_dep l t acc = Ok r -> NoDup (map fst r).
  Proof.
    induction l as [|[nm sp] tl IH]; cbn; intros acc r Hnd H; [inversion H; now subst|].
    destruct (parse_dep nm sp) as [s| |]; cbn in H; try discriminate.
    eapply IH; [|eauto]. apply aput_keys_NoDup; auto. apply seqb_spec.
  Qed.
  Lemma new_node_ok name pkg m b n : new_node name pkg m b = Ok n ->
    n_name n = name /\ n_pkg n = pkg /\ n_parent n = None /\ n_children n = [] /\ n_deps n = [] /\ NoDup (map fst (n_reqs n)).
  Proof.
    unfold ResolverModel.new_node. intros H.
    destruct (add_reqs parse_dep (m_deps m) Prod []) as [r1| |] eqn:E1; cbn in H; try discriminate.
    destruct (add_reqs parse_dep (m_opt m) Opt r1) as [r2| |] eqn:E2; cbn in H; try discriminate.
    assert (N1 : NoDup (map fst r1)) by (eapply add_reqs_nodup; [|eauto]; constructor).
    assert (N2 : NoDup (map fst r2)) by (eapply add_reqs_nodup; [|eauto]; auto).
    destruct b.
    - destruct (add_reqs parse_dep (m_dev m) Dev r2) as [r3| |] eqn:E3; cbn in H; try discriminate.
      inversion H; subst; cbn. repeat split; auto. eapply add_reqs_nodup; eauto.
    - cbn in H. inversion H; subst; cbn. auto 10.
  Qed.

  (** what the climbing loop guarantees about the place it returns: it is the dependent, or it is above it and
      every container from the dependent up to it passed both checks *)
  Definition passed (g : graph) (name : string) (requested : pspec) (pkg : package) (j : nat) : Prop :=
    conflict_existing g j name requested = Ok false /\ conflict_req g j name pkg = Ok false.

  Lemma climb_spec g name requested pkg locked : parlt g -> forall i, i < size g -> forall tgt r,
    climb g name requested pkg locked tgt (parents g i) = Ok r ->
    r = tgt \/ (under g i r /\ forall j, under g i j -> under g j r -> passed g name requested pkg j).
  Proof.
    intros Hp. induction i as [i IH] using lt_wf_ind. intros Hi tgt r.
    rewrite parents_unfold by auto. cbn.
    destruct (conflict_existing g i name requested) as [[]| |] eqn:E1; cbn; try discriminate;
      [intros H; inversion H; auto|].
    destruct (conflict_req g i name pkg) as [[]| |] eqn:E2; cbn; try discriminate; [intros H; inversion H; auto|].
    assert (Hi1 : forall j, under g i j -> under g j i -> passed g name requested pkg j).
    { intros j H1 H2. assert (i = j) by (eapply under_antisym; eauto). subst j. split; auto. }
    assert (Hrec : climb g name requested pkg locked i match parent_of g i with Some p => parents g p | None => [] end = Ok r ->
       r = tgt \/ (under g i r /\ forall j, under g i j -> under g j r -> passed g name requested pkg j)).
    { intros H. right. destruct (parent_of g i) as [p|] eqn:Ep.
      - assert (p < i) by (now apply Hp).
        destruct (IH p ltac:(auto) ltac:(lia) _ _ H) as [-> | [Hu Hall]].
        + split; [constructor | exact Hi1].
        + split; [eapply under_step; eauto|]. intros j Hij Hjr.
          inversion Hij as [|? p' ? Hp' Hu']; subst; [split; auto|].
          rewrite Ep in Hp'; inversion Hp'; subst. auto.
      - cbn in H. inversion H; subst. split; [constructor | exact Hi1]. }
    destruct locked as [lp|]; [|exact Hrec].
    destruct (lpath_eqb lp (node_path g i)); [|exact Hrec].
    intros H; inversion H; subst. right. split; [constructor | exact Hi1].
  Qed.

  (** the graph with the new node and edge but not yet hooked into the tree *)
  Definition pre_place (g : graph) (d : dep) (cn : node) : graph :=
    mkGraph (g_nodes g ++ [cn]) (g_edges g ++ [mkEdge (d_node d) (length (g_nodes g)) (d_spec d) (d_type d)]).

  Lemma pre_getn g d cn j : getn (pre_place g d cn) j = if j =? size g then Some cn else getn g j.
  Proof. apply getn_app. Qed.

  Lemma getn_size g : getn g (size g) = None.
  Proof. destruct (getn g (size g)) eqn:E; [|easy]. assert (size g < size g) by (apply getn_lt; eauto). lia. Qed.

  Lemma pre_parent g d cn j : n_parent cn = None -> parent_of (pre_place g d cn) j = parent_of g j.
  Proof.
    intros H. unfold parent_of. rewrite pre_getn. destruct (Nat.eqb_spec j (size g)) as [->|]; [|easy].
    now rewrite getn_size, H.
  Qed.
  Lemma pre_child g d cn j y : n_children cn = [] -> child_of (pre_place g d cn) j y = child_of g j y.
  Proof.
    intros H. unfold child_of. rewrite pre_getn. destruct (Nat.eqb_spec j (size g)) as [->|]; [|easy].
    now rewrite getn_size, H.
  Qed.
  Lemma pre_req g d cn j y : j < size g -> req_of (pre_place g d cn) j y = req_of g j y.
  Proof.
    intros H. unfold req_of. rewrite pre_getn. destruct (Nat.eqb_spec j (size g)) as [->|]; [lia|easy].
  Qed.
  Lemma pre_size g d cn : size (pre_place g d cn) = S (size g).
  Proof. unfold size, pre_place; cbn. rewrite app_length; cbn; lia. Qed.

  Lemma lookup_ext g g' : (forall j, parent_of g' j = parent_of g j) -> (forall j y, child_of g' j y = child_of g j y) ->
     forall i x c, lookup g i x c -> lookup g' i x c.
  Proof.
    intros Hp Hc i x c H; induction H as [i x c H | i p x c H1 H2 _ IH].
    - constructor. now rewrite Hc.
    - eapply lk_up; [rewrite Hc; auto | rewrite Hp; eauto | auto].
  Qed.

  Lemma place_child_inv g d pkg m tp g' ci : d_node d < size g -> parlt g ->
    place_child g d pkg m tp = Ok (g', ci) ->
    exists cn tgt, new_node (d_name d) pkg m false = Ok cn /\ ci = size g /\ upd_place g d cn tgt g'
      /\ tgt < size g /\ under g (d_node d) tgt
      /\ (tgt = d_node d \/ forall j, under g (d_node d) j -> under g j tgt -> passed (pre_place g d cn) (d_name d) (d_spec d) pkg j).
  Proof.
    intros Hd Hp H. unfold ResolverModel.place_child in H.
    destruct (new_node (d_name d) pkg m false) as [cn| |] eqn:En; cbn in H; try discriminate.
    destruct (new_node_ok _ _ _ _ _ En) as (Hnm & Hpk & Hpa & Hch & Hde & Hnd).
    change (mkGraph (g_nodes g ++ [cn]) (g_edges g ++ [mkEdge (d_node d) (length (g_nodes g)) (d_spec d) (d_type d)]))
      with (pre_place g d cn) in H.
    destruct (target_parent tp) as [lp| |] eqn:Et; cbn in H; try discriminate.
    destruct (climb (pre_place g d cn) (d_name d) (d_spec d) pkg lp (d_node d) (parents (pre_place g d cn) (d_node d)))
      as [tgt| |] eqn:Ec; cbn in H; try discriminate.
    inversion H; subst g' ci. clear H.
    assert (Hp1 : parlt (pre_place g d cn)).
    { intros i p. rewrite pre_parent by auto. apply Hp. }
    assert (Hu12 : forall i a, under (pre_place g d cn) i a -> under g i a).
    { intros i a. apply under_ext. intros; symmetry; now apply pre_parent. }
    assert (Hu21 : forall i a, under g i a -> under (pre_place g d cn) i a).
    { intros i a. apply under_ext. intros; now apply pre_parent. }
    assert (Hutgt : under g (d_node d) tgt /\ (tgt = d_node d \/ forall j, under g (d_node d) j -> under g j tgt -> passed (pre_place g d cn) (d_name d) (d_spec d) pkg j)).
    { destruct (climb_spec _ _ _ _ _ Hp1 (d_node d) ltac:(rewrite pre_size; lia) _ _ Ec) as [-> | [Hu Hall]].
      - split; [constructor | auto].
      - split; [auto | right; auto]. }
    destruct Hutgt as [Hut Hpass].
    assert (tgt < size g) by (apply under_lt in Hut; auto; lia).
    exists cn, tgt. repeat split; auto; try (apply place_upd; auto).
  Qed.

  Lemma passed_existing g d cn name requested pkg j r nr e : parlt g -> n_parent cn = None -> n_children cn = [] ->
     j < size g -> passed (pre_place g d cn) name requested pkg j -> lookup g j name r -> getn g r = Some nr ->
     In e (g_edges g) -> e_to e = r -> e_from e < size g -> under g (e_from e) j ->
     sat (pk_resolved (n_pkg nr)) requested = Ok true.
  Proof.
    intros Hp Hpa Hch Hj [H _] Hl Hr He Het Hef Hu. unfold ResolverModel.conflict_existing in H.
    assert (Hp1 : parlt (pre_place g d cn)) by (intros i p; rewrite pre_parent by auto; apply Hp).
    assert (Hl1 : resolve_dep (pre_place g d cn) j name = Some r).
    { apply lookup_resolve; auto; [rewrite pre_size; lia|].
      eapply lookup_ext; [| |eauto]; intros; [now apply pre_parent | now apply pre_child]. }
    rewrite Hl1 in H.
    assert (Hex : existsb (fun e => (e_to e =? r) && is_ancestor (pre_place g d cn) j (e_from e)) (g_edges (pre_place g d cn)) = true).
    { apply existsb_exists. exists e. split; [cbn; apply in_app_iff; auto|].
      rewrite Het, Nat.eqb_refl. cbn. apply is_ancestor_spec; auto; [rewrite pre_size; lia|].
      eapply under_ext; [|eauto]. intros; now apply pre_parent. }
    rewrite Hex in H. rewrite pre_getn in H.
    assert (r < size g) by (apply getn_lt; eauto).
    destruct (Nat.eqb_spec r (size g)); [lia|]. rewrite Hr in H.
    destruct (sat (pk_resolved (n_pkg nr)) requested) as [[]| |]; cbn in H; congruence.
  Qed.

  Lemma passed_req g d cn name requested pkg j s t : j < size g ->
     passed (pre_place g d cn) name requested pkg j -> req_of g j name = Some (s, t) ->
     sat (pk_resolved pkg) s = Ok true.
  Proof.
    intros Hj [_ H] Hr. unfold ResolverModel.conflict_req in H. rewrite pre_getn in H.
    destruct (Nat.eqb_spec j (size g)); [lia|]. unfold req_of in Hr.
    destruct (getn g j) as [nj|]; [|discriminate]. rewrite Hr in H.
    destruct (sat (pk_resolved pkg) s) as [[]| |]; cbn in H; congruence.
  Qed.

  (** if the target is above the dependent, nothing of that name is visible strictly below or at the target:
      otherwise the loop would have stopped there *)
  Lemma target_clear g q P d cn tgt pkg : GInv g q (d :: P) -> n_parent cn = None -> n_children cn = [] ->
     satisfy_dependency g d = Ok None -> under g (d_node d) tgt ->
     (forall j, under g (d_node d) j -> under g j tgt -> passed (pre_place g d cn) (d_name d) (d_spec d) pkg j) ->
     forall j, under g (d_node d) j -> under g j tgt -> child_of g j (d_name d) = None.
  Proof.
    intros I Hpa Hch Hs Hut Hpass j Hj Hjt.
    pose proof (ginv_parlt _ _ _ I) as Hp.
    destruct (gi_P _ _ _ I d (or_introl eq_refl)) as (Hdn & _).
    destruct (child_of g j (d_name d)) as [c|] eqn:Ec; [exfalso|easy].
    assert (Hlk : exists r, lookup g (d_node d) (d_name d) r).
    { clear -Hj Ec. induction Hj as [i | i p a Hp Hu IH]; [exists c; now constructor|].
      destruct (child_of g i (d_name d)) eqn:E; [eexists; constructor; eauto|].
      destruct (IH Ec) as [r Hr]. exists r. eapply lk_up; eauto. }
    destruct Hlk as [r Hlk].
    destruct (lookup_spec _ _ _ _ Hlk) as (qq & Hq & Hcq & Hmin).
    assert (Hqj : under g qq j) by (apply Hmin; [auto | congruence]).
    assert (Hqt : under g qq tgt) by (eapply under_trans; eauto).
    destruct (gi_child _ _ _ I _ _ _ Hcq) as (Hrs & Hrp & Hrn).
    destruct (proj1 (getn_lt g r) Hrs) as [nr Hnr].
    assert (Hunsat := satisfy_none _ _ Hs r nr ltac:(apply lookup_resolve; auto) Hnr).
    destruct (gi_in _ _ _ I _ _ Hrp) as (e & He & Het & Heu).
    assert (Hqs : qq < size g) by (eapply child_of_lt; eauto).
    assert (sat (pk_resolved (n_pkg nr)) (d_spec d) = Ok true).
    { apply (passed_existing g d cn (d_name d) (d_spec d) pkg qq r nr e Hp Hpa Hch Hqs); auto.
      - now constructor.
      - apply (gi_edge _ _ _ I _ He). }
    congruence.
  Qed.

  (** the place is always free: no "clobber" *)
  Lemma target_free g q P d cn tgt pkg : GInv g q (d :: P) -> n_parent cn = None -> n_children cn = [] ->
     satisfy_dependency g d = Ok None -> under g (d_node d) tgt ->
     (tgt = d_node d \/ forall j, under g (d_node d) j -> under g j tgt -> passed (pre_place g d cn) (d_name d) (d_spec d) pkg j) ->
     child_of g tgt (d_name d) = None.
  Proof.
    intros I Hpa Hch Hs Hut [-> | Hpass].
    - destruct (child_of g (d_node d) (d_name d)) as [c|] eqn:Ec; [exfalso|easy].
      destruct (gi_P _ _ _ I d (or_introl eq_refl)) as (Hdn & _ & Hdd & Hdr).
      destruct (gi_child _ _ _ I _ _ _ Ec) as (Hcs & _ & _).
      destruct (proj1 (getn_lt g c) Hcs) as [nc Hnc].
      assert (sat (pk_resolved (n_pkg nc)) (d_spec d) = Ok true).
      { eapply (gi_own _ _ _ I); eauto. unfold pkg_of; now rewrite Hnc. }
      assert (sat (pk_resolved (n_pkg nc)) (d_spec d) = Ok false).
      { eapply satisfy_none; eauto. apply lookup_resolve; auto; [eapply ginv_parlt; eauto | now constructor]. }
      congruence.
    - eapply target_clear; eauto. constructor.
  Qed.

  Lemma under_new g g' ci tgt : parlt g -> ci = size g -> (forall j, parent_of g' j = if j =? ci then Some tgt else parent_of g j) ->
     forall i a, i < size g -> (under g' i a <-> under g i a).
  Proof.
    intros Hp -> Hpar. induction i as [i IH] using lt_wf_ind. intros a Hi.
    assert (Ei : (i =? size g) = false) by (apply Nat.eqb_neq; lia).
    split; intros H; inversion H as [|? p ? Hpi Hu]; subst; try constructor.
    - rewrite Hpar, Ei in Hpi. eapply under_step; eauto. apply IH; auto. apply Hp in Hpi; lia.
    - eapply under_step; [rewrite Hpar, Ei; eauto|]. apply IH; auto; apply Hp in Hpi; lia.
  Qed.

  Lemma GInv_place g q P d pkg m tp g' ci : GInv g q (d :: P) -> satisfy_dependency g d = Ok None ->
    place_child g d pkg m tp = Ok (g', ci) ->
    (sat (pk_resolved pkg) (d_spec d) = Ok true \/ exists m', deliver (d_spec d) (Ok (pkg, m'))) ->
    GInv g' (q ++ [ci]) P.
  Proof.
    intros I Hs Hpl Hgood0.
    pose proof (ginv_parlt _ _ _ I) as Hp.
    destruct (gi_P _ _ _ I d (or_introl eq_refl)) as (Hdn & Hdq & Hdd & Hdr).
    destruct (place_child_inv _ _ _ _ _ _ _ Hdn Hp Hpl) as (cn & tgt & Hcn & -> & U & Htl & Hut & Hpass).
    destruct (new_node_ok _ _ _ _ _ Hcn) as (Hnm & Hpk & Hpa & Hch & Hde & Hnd).
    pose proof (target_free _ _ _ _ _ _ _ I Hpa Hch Hs Hut Hpass) as Hfree.
    destruct U as (Usz & Hed & Upar & Uch & Unm & Upk & Urq & Udp & Unr).
    set (ci := size g) in *.
    assert (NE : forall j, j < size g -> (j =? ci) = false) by (intros; apply Nat.eqb_neq; unfold ci; lia).
    assert (Hu : forall i a, i < size g -> under g i a -> under g' i a).
    { intros i a Hi H. apply (under_new g g' ci tgt Hp eq_refl Upar i a Hi). auto. }
    assert (Htq : ~ In tgt q).
    { intros Hin. destruct (gi_q _ _ _ I) as (_ & Hq). destruct (Hq tgt Hin) as (_ & _ & Hleaf).
      inversion Hut as [|? p ? Hpd Hpu]; subst; [now apply Hdq|].
      assert (exists x, child_of g tgt x <> None) as [x Hx]; [|now rewrite Hleaf in Hx].
      assert (forall i a, under g i a -> i < size g -> i <> a -> exists x, child_of g a x <> None) as Hcc.
      { clear -I. intros i a H. induction H as [|i p a Hpi Hpa IH]; intros Hi Hne; [congruence|].
        destruct (Nat.eq_dec p a) as [->|Hn].
        - destruct (Nat.eq_dec i 0) as [->|]; [rewrite (proj2 (gi_root _ _ _ I)) in Hpi; discriminate|].
          destruct (gi_par _ _ _ I i ltac:(lia)) as (p' & Hp' & _ & Hc).
          exists (name_of g i). rewrite Hpi in Hp'. inversion Hp'; subst. congruence.
        - apply IH; auto. apply ginv_parlt in I. apply I in Hpi. lia. }
      apply (Hcc (d_node d) tgt Hut Hdn). intros E. apply Hdq. now rewrite E. }
    constructor.
    - rewrite Usz, Upar. destruct (gi_root _ _ _ I) as [Hz Hz2]. rewrite (NE 0) by lia. split; [lia|auto].
    - intros i Hi. rewrite Usz in Hi. rewrite Upar, Unm. destruct (Nat.eqb_spec i ci) as [->|Hne].
      + exists tgt. rewrite Hnm, Uch, Nat.eqb_refl, String.eqb_refl. cbn. auto.
      + destruct (gi_par _ _ _ I i) as (p & Hpp & Hlt & Hc); [lia|].
        exists p. rewrite Uch. repeat split; auto.
        destruct ((p =? tgt) && (name_of g i =? d_name d)%string) eqn:Ek; [|auto].
        apply andb_true_iff in Ek. destruct Ek as [E1 E2]. apply Nat.eqb_eq in E1. apply String.eqb_eq in E2. congruence.
    - intros p x c. rewrite Uch, Usz, Upar, Unm.
      destruct ((p =? tgt) && (x =? d_name d)%string) eqn:Ek.
      + apply andb_true_iff in Ek. destruct Ek as [E1 E2]. apply Nat.eqb_eq in E1. apply String.eqb_eq in E2.
        subst. intros H; inversion H; subst. rewrite Nat.eqb_refl. auto.
      + intros H. destruct (gi_child _ _ _ I _ _ _ H) as (? & ? & ?). rewrite NE by auto. auto.
    - intros e He. rewrite Hed, in_app_iff in He. rewrite Usz. destruct He as [He|[<-|[]]].
      + apply (gi_edge _ _ _ I) in He. lia. + cbn. lia.
    - intros i p Hip. rewrite Upar in Hip. destruct (Nat.eqb_spec i ci) as [->|Hne].
      + inversion Hip; subst p. exists (mkEdge (d_node d) ci (d_spec d) (d_type d)).
        rewrite Hed, in_app_iff. cbn. repeat split; auto.
      + destruct (gi_in _ _ _ I _ _ Hip) as (e & He & Het & Heu). exists e. rewrite Hed, in_app_iff.
        repeat split; auto. apply Hu; auto. apply (gi_edge _ _ _ I _ He).
    - intros i x ei Hei. rewrite Udp in Hei.
      destruct ((i =? d_node d) && (x =? d_name d)%string) eqn:Ek.
      + apply andb_true_iff in Ek. destruct Ek as [E1 E2]. apply Nat.eqb_eq in E1. apply String.eqb_eq in E2. subst i x.
        inversion Hei; subst ei. eexists. rewrite Hed, nth_error_app2, Nat.sub_diag by lia. cbn.
        split; [reflexivity|]. cbn. rewrite Urq, (NE _ Hdn), Unm, Nat.eqb_refl. repeat split; auto.
        * unfold ci. destruct (gi_root _ _ _ I). lia.
        * exists pkg. rewrite Upk, Nat.eqb_refl, Hpk. auto.
      + pose proof (dep_of_lt _ _ _ _ Hei) as Hil.
        destruct (gi_dep _ _ _ I _ _ _ Hei) as (e & Hne & Hf & Hr & Hn2 & Hz & (p & Hp1 & Hp2)).
        assert (Hto : e_to e < size g) by (apply pkg_of_lt; eauto).
        exists e. rewrite Hed, nth_error_app1 by (apply nth_error_Some; congruence).
        rewrite Urq, Unm, !NE by auto. repeat split; auto. exists p. rewrite Upk, NE by auto. auto.
    - intros k e He. rewrite Hed in He. destruct (Nat.lt_ge_cases k (length (g_edges g))) as [Hk|Hk].
      + rewrite nth_error_app1 in He by auto. destruct (gi_edep _ _ _ I _ _ He) as (y & Hy).
        exists y. rewrite Udp. destruct ((e_from e =? d_node d) && (y =? d_name d)%string) eqn:Ek; [|auto].
        apply andb_true_iff in Ek. destruct Ek as [E1 E2]. apply Nat.eqb_eq in E1. apply String.eqb_eq in E2.
        rewrite E1, E2 in Hy. congruence.
      + rewrite nth_error_app2 in He by auto.
        destruct (k - length (g_edges g)) as [|kk] eqn:Ekk; cbn in He; [|destruct kk; discriminate].
        inversion He; subst e. exists (d_name d). rewrite Udp. cbn. rewrite Nat.eqb_refl, String.eqb_refl. cbn.
        f_equal. lia.
    - intros i n Hn. specialize (Unr _ _ Hn). destruct (i =? ci).
      + now rewrite Unr. + destruct Unr as (n0 & Hn0 & ->). eapply (gi_reqs _ _ _ I); eauto.
    - intros d' Hd'. destruct (gi_P _ _ _ I d' (or_intror Hd')) as (Hl & Hnq & Hdd' & Hr').
      rewrite Usz, Udp, Urq, (NE _ Hl). repeat split; auto.
      + rewrite in_app_iff. intros [|[E|[]]]; [auto|]. unfold ci in E. lia.
      + destruct ((d_node d' =? d_node d) && (d_name d' =? d_name d)%string) eqn:Ek; [|auto].
        exfalso. apply andb_true_iff in Ek. destruct Ek as [E1 E2]. apply Nat.eqb_eq in E1. apply String.eqb_eq in E2.
        pose proof (gi_Pnd _ _ _ I) as Hndp. cbn in Hndp. inversion Hndp as [|? ? Hni _]; subst.
        apply Hni. unfold dkey. rewrite <- E1, <- E2. change (In (dkey d') (map dkey P)). now apply in_map.
    - pose proof (gi_Pnd _ _ _ I) as Hndp. cbn in Hndp. now inversion Hndp.
    - destruct (gi_q _ _ _ I) as (Hndq & Hq). split.
      + apply (Permutation_NoDup (l := ci :: q)); [apply Permutation_cons_append|].
        constructor; [|auto]. intros Hin. apply Hq in Hin. unfold ci in Hin. lia.
      + intros i Hi. rewrite in_app_iff in Hi. rewrite Usz. destruct Hi as [Hi|[<-|[]]].
        * destruct (Hq i Hi) as (Hl & Hd0 & Hc0). repeat split; [lia| |]; intros x.
          -- rewrite Udp. destruct (Nat.eqb_spec i (d_node d)) as [->|]; [contradiction | cbn; auto].
          -- rewrite Uch. destruct (Nat.eqb_spec i tgt) as [->|]; [contradiction | cbn; auto].
        * repeat split; [unfold ci; lia| |]; intros x.
          -- rewrite Udp. destruct (Nat.eqb_spec ci (d_node d)) as [E|]; [unfold ci in E; lia | cbn].
             unfold dep_of, ci. now rewrite getn_size.
          -- rewrite Uch. destruct (Nat.eqb_spec ci tgt) as [E|]; [unfold ci in E; lia | cbn].
             unfold child_of, ci. now rewrite getn_size.
    - intros i x r Hi Hiq Hr. rewrite Usz in Hi. rewrite in_app_iff in Hiq. rewrite Urq in Hr. rewrite Udp.
      assert (Hic : i <> ci) by (intros ->; apply Hiq; right; left; reflexivity).
      rewrite (proj2 (Nat.eqb_neq _ _) Hic) in Hr.
      destruct ((i =? d_node d) && (x =? d_name d)%string) eqn:Ek; [left; discriminate|].
      destruct (gi_all _ _ _ I i x r ltac:(unfold ci in Hic; lia) ltac:(tauto) Hr) as [Hl | (d' & Hd' & Hk)]; [auto|].
      right. exists d'. split; [|auto]. destruct Hd' as [<-|]; [|auto].
      exfalso. unfold dkey in Hk. inversion Hk; subst. rewrite Nat.eqb_refl, String.eqb_refl in Ek. discriminate.
    - intros i x s t c p Hr Hd' Hc' Hp'. rewrite Urq in Hr. rewrite Udp in Hd'. rewrite Uch in Hc'. rewrite Upk in Hp'.
      destruct ((i =? d_node d) && (x =? d_name d)%string) eqn:Ek; [discriminate|].
      destruct ((i =? tgt) && (x =? d_name d)%string) eqn:Ek2.
      + apply andb_true_iff in Ek2. destruct Ek2 as [E1 E2]. apply Nat.eqb_eq in E1. apply String.eqb_eq in E2. subst i x.
        inversion Hc'; subst c. rewrite Nat.eqb_refl in Hp'. inversion Hp'; subst p. rewrite Hpk.
        rewrite (NE _ Htl) in Hr. destruct Hpass as [-> | Hpass].
        * rewrite Nat.eqb_refl, String.eqb_refl in Ek. discriminate.
        * eapply (passed_req g d cn); eauto. apply Hpass; [auto | constructor].
      + destruct (gi_child _ _ _ I _ _ _ Hc') as (Hcs & _). rewrite NE in Hp' by auto.
        pose proof (child_of_lt _ _ _ _ Hc') as Hil. rewrite NE in Hr by auto.
        eapply (gi_own _ _ _ I); eauto.
  Qed.

  (** ** starting to process a queued package *)
  Lemma GInv_pop g i q P n : GInv g (i :: q) P -> getn g i = Some n -> GInv g q (deps_of i n ++ P).
  Proof.
    intros I Hn. destruct (gi_q _ _ _ I) as (Hnd & Hq). inversion Hnd as [|? ? Hiq Hndq]; subst.
    destruct (Hq i (or_introl eq_refl)) as (Hil & Hid & Hic).
    constructor; try apply I.
    - intros d Hd. apply in_app_iff in Hd. destruct Hd as [Hd|Hd].
      + unfold deps_of in Hd. apply in_map_iff in Hd. destruct Hd as ([x [s t]] & <- & Hin). cbn.
        repeat split; auto. unfold req_of. rewrite Hn. apply In_aget; auto; [apply seqb_spec | eapply (gi_reqs _ _ _ I); eauto].
      + destruct (gi_P _ _ _ I d Hd) as (? & Hq' & ? & ?). repeat split; auto. intros Hin; apply Hq'; now right.
    - rewrite map_app. apply NoDup_app_iff_; [| apply I |].
      + unfold deps_of. rewrite map_map. unfold dkey; cbn.
        pose proof (gi_reqs _ _ _ I _ _ Hn) as Hk. clear -Hk.
        induction (n_reqs n) as [|[x r] t IH]; cbn in *; [constructor|].
        inversion Hk as [|? ? Hni Hk']; subst. constructor; [|auto].
        intros Hin. apply Hni. apply in_map_iff in Hin. destruct Hin as ([y r'] & E & Hin). cbn in E. inversion E; subst.
        change x with (fst (x, r')). now apply in_map.
      + intros k H1 H2. apply in_map_iff in H1. destruct H1 as (d & <- & H1). apply in_map_iff in H2.
        destruct H2 as (d' & Hk & H2). unfold deps_of in H1. apply in_map_iff in H1. destruct H1 as ([x r] & <- & _).
        unfold dkey in Hk. cbn in Hk. inversion Hk as [[Hk1 Hk2]].
        destruct (gi_P _ _ _ I d' H2) as (_ & Hnq & _). apply Hnq. left. auto.
    - split; [auto|]. intros j Hj. apply Hq. now right.
    - intros j x r Hj Hjq Hr. destruct (Nat.eq_dec j i) as [->|Hne].
      + right. unfold req_of in Hr. rewrite Hn in Hr. destruct r as [s t].
        exists (mkDep x s t i). split; [|reflexivity]. apply in_app_iff. left. unfold deps_of.
        apply in_map_iff. exists (x, (s, t)). split; [reflexivity|]. eapply aget_In; [apply seqb_spec | eauto].
      + destruct (gi_all _ _ _ I j x r Hj) as [?|(d & Hd & Hk)]; auto.
        * intros [E|]; [congruence | auto].
        * right. exists d. split; [apply in_app_iff; auto | auto].
  Qed.

  Lemma GInv_perm g q q' P P' : Permutation q q' -> Permutation P P' -> GInv g q P -> GInv g q' P'.
  Proof.
    intros Hq HP I. constructor; try apply I.
    - intros d Hd. destruct (gi_P _ _ _ I d) as (? & ? & ? & ?); [eapply Permutation_in; [symmetry|]; eauto|].
      repeat split; auto. intros Hin. eapply Permutation_in in Hin; [|symmetry; eauto]. auto.
    - eapply Permutation_NoDup; [apply Permutation_map; eauto | apply I].
    - destruct (gi_q _ _ _ I) as [Hnd Hq']. split; [eapply Permutation_NoDup; eauto|].
      intros i Hi. apply Hq'. eapply Permutation_in; [symmetry|]; eauto.
    - intros i x r Hi Hiq Hr. destruct (gi_all _ _ _ I i x r Hi) as [?|(d & Hd & Hk)]; auto.
      + intros Hin. apply Hiq. eapply Permutation_in; eauto.
      + right. exists d. split; [eapply Permutation_in; eauto | auto].
  Qed.
End RP.
