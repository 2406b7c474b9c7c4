(** * Invariants over whole runs of the resolver *)
From Verif Require Import Base Types ResolverModel ResolverProofs.
From Coq Require Import Permutation.

Section RR.
  Variable rsat : range -> version -> bool.
  Variable canon : string -> option string.
  Variable parse_dep : string -> string -> res err pspec.
  Variable lnode : Type.
  Variable lnode_path : lnode -> list string.
  Variable lnode_manifest : lnode -> manifest.
  Variable to_package : lnode -> res err (option package).
  Variable deliver : pspec -> outcome -> Prop.
  Variable lock : option (lockpkgs lnode).

  Notation sat := (satisfies rsat canon).
  Notation satisfy_dependency := (satisfy_dependency rsat canon).
  Notation place_child := (place_child rsat canon parse_dep).
  Notation GInv := (GInv rsat canon deliver).
  Notation process_dep := (process_dep rsat canon parse_dep lnode lnode_path lnode_manifest to_package lock).
  Notation process_deps := (process_deps rsat canon parse_dep lnode lnode_path lnode_manifest to_package lock).
  Notation pop_step := (pop_step rsat canon parse_dep lnode lnode_path lnode_manifest to_package lock).
  Notation place_fetched := (place_fetched rsat canon parse_dep).
  Notation place_all := (place_all rsat canon parse_dep).
  Notation result_step := (result_step rsat canon parse_dep).
  Notation results_step := (results_step rsat canon parse_dep).
  Notation exec := (exec rsat canon parse_dep lnode lnode_path lnode_manifest to_package lock).
  Notation new_node := (new_node parse_dep).
  Notation lock_walk := (lock_walk rsat canon lnode to_package).

  Definition waiting (s : st) : list dep := s_sink s ++ concat (map snd (s_fetches s)).

  Record SInv (s : st) (todo : list dep) : Prop := {
    si_g : GInv (s_g s) (s_q s) (todo ++ waiting s);
    si_cnt : s_inflight s = length (waiting s);
    si_keys : NoDup (map fst (s_fetches s));
    si_spec : forall sp l d, In (sp, l) (s_fetches s) -> In d l -> d_spec d = sp;
    si_ne : forall sp l, In (sp, l) (s_fetches s) -> l <> []
  }.

  (** the two outcomes of handling one dependency *)
  Lemma lock_walk_sat lf name req : forall rp p ln, lock_walk lf rp name req = Ok (Some (p, ln)) -> sat (pk_resolved p) req = Ok true.
  Proof.
    induction rp as [|a rp IH]; cbn; intros p ln H.
    - destruct (aget lpath_eqb [name] lf) as [l|]; [|discriminate].
      destruct (to_package l) as [[pp|]| |]; cbn in H; try discriminate.
      destruct (sat (pk_resolved pp) req) as [[]| |] eqn:Es; cbn in H; try discriminate. inversion H; subst; auto.
    - destruct (aget lpath_eqb ((rev rp ++ [a]) ++ [name]) lf) as [l|]; [|eauto].
      destruct (to_package l) as [[pp|]| |]; cbn in H; try discriminate; [|eauto].
      destruct (sat (pk_resolved pp) req) as [[]| |] eqn:Es; cbn in H; try discriminate. inversion H; subst; auto.
  Qed.

  Lemma process_dep_inv s d todo s' : SInv s (d :: todo) -> process_dep s d = Ok s' -> SInv s' todo.
  Proof.
    intros [I C K S N] H. unfold ResolverModel.process_dep in H.
    destruct (satisfy_dependency (s_g s) d) as [[[g' x]|]| |] eqn:E; cbn in H; try discriminate.
    - inversion H; subst. constructor; auto. cbn. eapply GInv_satisfy; eauto.
    - set (lk := match lock with Some lf => satisfy_from_lockfile rsat canon lnode to_package (s_g s) (d_node d) lf (d_name d) (d_spec d) | None => Ok None end) in H.
      destruct lk as [[[p ln]|]| |] eqn:El; cbn in H; try discriminate.
      + destruct (place_child (s_g s) d p (lnode_manifest ln) (Some (lnode_path ln))) as [[g' ci]| |] eqn:Ep; cbn in H; try discriminate.
        inversion H; subst. constructor; auto. cbn. eapply GInv_place; eauto.
        left. unfold lk in El. destruct lock as [lf|]; [|discriminate]. eapply lock_walk_sat; eauto.
      + inversion H; subst. constructor; cbn; auto.
        * eapply GInv_perm; [reflexivity| |exact I]. unfold waiting; cbn.
          rewrite !app_assoc. rewrite <- (app_assoc todo (s_sink s) [d]).
          rewrite <- app_assoc. cbn.
          rewrite <- !app_assoc.
          transitivity (todo ++ d :: (s_sink s ++ concat (map snd (s_fetches s)))); [apply Permutation_middle|].
          apply Permutation_app_head. rewrite app_comm_cons. change (d :: s_sink s) with ([d] ++ s_sink s).
          rewrite (app_assoc (s_sink s)). apply Permutation_app_tail. apply Permutation_app_comm.
        * unfold waiting in *; cbn. rewrite C, !app_length. cbn. lia.
  Qed.

  Lemma process_deps_inv l : forall s todo s', SInv s (l ++ todo) -> process_deps s l = Ok s' -> SInv s' todo.
  Proof.
    induction l as [|d t IH]; cbn; intros s todo s' I H; [inversion H; now subst|].
    destruct (process_dep s d) as [s1| |] eqn:E; cbn in H; try discriminate.
    eapply IH; [|eauto]. eapply process_dep_inv; eauto.
  Qed.

  Lemma pop_inv s s' : SInv s [] -> pop_step s = Some (Ok s') -> SInv s' [].
  Proof.
    intros [I C K S N] H. unfold ResolverModel.pop_step in H. destruct (s_q s) as [|i q] eqn:Eq; [discriminate|].
    destruct (getn (s_g s) i) as [n|] eqn:En; [|discriminate]. inversion H as [H1].
    eapply process_deps_inv; [|eauto]. rewrite app_nil_r. constructor; cbn; auto. eapply GInv_pop; eauto.
  Qed.

  (** *** the stream pulls dependencies from the channel *)
  Definition fwait (f : list (pspec * list dep)) := concat (map snd f).

  Lemma aput_fwait k d : forall f l, aget pspec_eqb k f = Some l ->
     Permutation (fwait (aput pspec_eqb k (l ++ [d]) f)) (d :: fwait f).
  Proof.
    induction f as [|[k' l'] t IH]; cbn; intros l H; [discriminate|].
    destruct (pspec_eqb k k') eqn:E; cbn.
    - inversion H; subst. unfold fwait; cbn. rewrite <- app_assoc. cbn. symmetry. apply Permutation_middle.
    - unfold fwait in *; cbn. rewrite (IH _ H). symmetry. apply Permutation_middle.
  Qed.
  Lemma aput_fwait_new k d : forall f, aget pspec_eqb k f = None ->
     Permutation (fwait (aput pspec_eqb k [d] f)) (d :: fwait f).
  Proof.
    induction f as [|[k' l'] t IH]; cbn; intros H; [reflexivity|].
    destruct (pspec_eqb k k') eqn:E; cbn; [discriminate|].
    unfold fwait in *; cbn. rewrite (IH H). symmetry. apply Permutation_middle.
  Qed.
  Lemma aput_In_ k v : forall (f : list (pspec * list dep)) sp l, In (sp, l) (aput pspec_eqb k v f) -> (sp = k /\ l = v) \/ In (sp, l) f.
  Proof.
    induction f as [|[k' l'] t IH]; cbn; intros sp l H.
    - destruct H as [E|[]]; inversion E; auto.
    - destruct (pspec_eqb k k') eqn:E; cbn in H.
      + apply pspec_eqb_spec in E; subst. destruct H as [E|H]; [inversion E; auto | auto].
      + destruct H as [E'|H]; [auto|]. apply IH in H. tauto.
  Qed.

  Definition fgood (f : list (pspec * list dep)) :=
    NoDup (map fst f) /\ (forall sp l d, In (sp, l) f -> In d l -> d_spec d = sp) /\ (forall sp l, In (sp, l) f -> l <> []).

  Lemma pull1_ok f d : fgood f -> fgood (pull1 f d) /\ Permutation (fwait (pull1 f d)) (d :: fwait f).
  Proof.
    intros (K & S & N). unfold pull1. destruct (aget pspec_eqb (d_spec d) f) as [l|] eqn:E.
    - split; [|now apply aput_fwait]. split; [apply aput_keys_NoDup; auto; apply pspec_eqb_spec|]. split.
      + intros sp l' d' Hin Hd'. apply aput_In_ in Hin. destruct Hin as [[-> ->]|Hin]; [|eauto].
        apply in_app_iff in Hd'. destruct Hd' as [Hd'|[<-|[]]]; [|auto].
        eapply S; [|eauto]. eapply aget_In; [apply pspec_eqb_spec | eauto].
      + intros sp l' Hin. apply aput_In_ in Hin. destruct Hin as [[-> ->]|Hin]; [|eauto].
        intros E2; apply app_eq_nil in E2; easy.
    - split; [|now apply aput_fwait_new]. split; [apply aput_keys_NoDup; auto; apply pspec_eqb_spec|]. split.
      + intros sp l' d' Hin Hd'. apply aput_In_ in Hin. destruct Hin as [[-> ->]|Hin]; [|eauto].
        destruct Hd' as [<-|[]]; auto.
      + intros sp l' Hin. apply aput_In_ in Hin. destruct Hin as [[-> ->]|Hin]; [easy | eauto].
  Qed.
  Lemma pulls_ok l : forall f, fgood f -> fgood (fold_left pull1 l f) /\ Permutation (fwait (fold_left pull1 l f)) (l ++ fwait f).
  Proof.
    induction l as [|d t IH]; cbn; intros f Hf; [auto|].
    destruct (pull1_ok f d Hf) as [Hf1 Hp]. destruct (IH _ Hf1) as [Hf2 Hp2]. split; [auto|].
    rewrite Hp2, Hp. symmetry. apply Permutation_middle.
  Qed.

  Lemma pull_inv k s todo : SInv s todo -> SInv (pull k s) todo /\ Permutation (waiting (pull k s)) (waiting s).
  Proof.
    intros [I C K S N].
    destruct (pulls_ok (firstn k (s_sink s)) (s_fetches s)) as [(K' & S' & N') HP]; [repeat split; auto|].
    assert (HW : Permutation (waiting (pull k s)) (waiting s)).
    { unfold waiting, pull; cbn. fold (fwait (fold_left pull1 (firstn k (s_sink s)) (s_fetches s))).
      rewrite HP. rewrite app_assoc. apply Permutation_app; [|reflexivity].
      rewrite Permutation_app_comm. now rewrite firstn_skipn. }
    split; [|auto]. constructor; cbn; auto.
    - eapply GInv_perm; [reflexivity | | exact I]. apply Permutation_app_head. symmetry. exact HW.
    - rewrite C. symmetry. apply Permutation_length. exact HW.
  Qed.

  (** *** a fetch completes *)
  Lemma place_fetched_inv s p m d todo s' : SInv s (d :: todo) -> (exists m', deliver (d_spec d) (Ok (p, m'))) ->
    place_fetched s p m d = Ok s' -> SInv s' todo.
  Proof.
    intros [I C K S N] Hd H. unfold ResolverModel.place_fetched in H.
    destruct (satisfy_dependency (s_g s) d) as [[[g' x]|]| |] eqn:E; cbn in H; try discriminate.
    - inversion H; subst. constructor; auto. cbn. eapply GInv_satisfy; eauto.
    - destruct (place_child (s_g s) d p m None) as [[g' ci]| |] eqn:Ep; cbn in H; try discriminate.
      inversion H; subst. constructor; auto. cbn. eapply GInv_place; eauto.
  Qed.
  Lemma place_all_inv l p m : forall s todo s', SInv s (l ++ todo) ->
    (forall d, In d l -> exists m', deliver (d_spec d) (Ok (p, m'))) ->
    place_all s p m l = Ok s' -> SInv s' todo.
  Proof.
    induction l as [|d t IH]; cbn; intros s todo s' I Hd H; [inversion H; now subst|].
    destruct (place_fetched s p m d) as [s1| |] eqn:E; cbn in H; try discriminate.
    eapply IH; [| |eauto]; [eapply place_fetched_inv; eauto | auto].
  Qed.

  Lemma adel_fwait k : forall f l, NoDup (map fst f) -> aget pspec_eqb k f = Some l -> Permutation (fwait f) (l ++ fwait (adel pspec_eqb k f)).
  Proof.
    induction f as [|[k' l'] t IH]; cbn; intros l K H; [discriminate|].
    inversion K as [|? ? Hni K']; subst.
    destruct (pspec_eqb k k') eqn:E; cbn.
    - inversion H; subst. apply pspec_eqb_spec in E; subst. unfold fwait; cbn. apply Permutation_app_head.
      assert (Hf : filter (fun e : pspec * list dep => negb (pspec_eqb k' (fst e))) t = t); [|unfold adel; rewrite Hf; reflexivity].
      clear -Hni. induction t as [|[a b] t IHt]; cbn in *; [easy|].
      destruct (pspec_eqb k' a) eqn:E; [apply pspec_eqb_spec in E; subst; exfalso; auto|]. cbn. f_equal. auto.
    - unfold fwait in *; cbn. rewrite (IH _ K' H). rewrite !app_assoc. apply Permutation_app_tail. apply Permutation_app_comm.
  Qed.

  Definition legal_result (r : pspec * outcome) := deliver (fst r) (snd r).

  Lemma result_step_inv s spec o s' : SInv s [] -> deliver spec o -> result_step s spec o = Ok s' -> SInv s' [].
  Proof.
    intros [I C K S N] Hd H. unfold ResolverModel.result_step in H.
    destruct o as [[p m]| |]; cbn in H; try discriminate.
    destruct (aget pspec_eqb spec (s_fetches s)) as [l|] eqn:E; [|inversion H; subst; now constructor].
    assert (Hin : In (spec, l) (s_fetches s)) by (eapply aget_In; [apply pspec_eqb_spec | eauto]).
    pose proof (adel_fwait _ _ _ K E) as HP.
    assert (HW : Permutation (waiting s) (l ++ (s_sink s ++ fwait (adel pspec_eqb spec (s_fetches s))))).
    { unfold waiting. fold (fwait (s_fetches s)). rewrite HP. rewrite !app_assoc. apply Permutation_app_tail. apply Permutation_app_comm. }
    eapply place_all_inv; [| |eauto].
    - rewrite app_nil_r. constructor; cbn.
      + eapply GInv_perm; [reflexivity | | exact I]. exact HW.
      + unfold waiting; cbn. rewrite C, (Permutation_length HW), app_length. unfold fwait. lia.
      + unfold adel. clear -K. induction (s_fetches s) as [|[a b] t IH]; cbn in *; [constructor|].
        inversion K as [|? ? Hni K']; subst. destruct (negb (pspec_eqb spec a)); cbn; [|auto].
        constructor; [|auto]. intros Hin. apply Hni. apply in_map_iff in Hin. destruct Hin as (e & E1 & E2).
        apply filter_In in E2. apply in_map_iff. exists e. tauto.
      + intros sp l' d Hi Hd'. unfold adel in Hi. apply filter_In in Hi. eapply S; [apply Hi | auto].
      + intros sp l' Hi. unfold adel in Hi. apply filter_In in Hi. eapply N; apply Hi.
    - intros d Hdl. exists m. rewrite (S _ _ _ Hin Hdl). auto.
  Qed.
  Lemma results_step_inv l : forall s s', SInv s [] -> Forall legal_result l -> results_step s l = Ok s' -> SInv s' [].
  Proof.
    induction l as [|[sp o] t IH]; cbn; intros s s' I Hl H; [inversion H; now subst|].
    inversion Hl as [|? ? Ho Ht]; subst.
    destruct (result_step s sp o) as [s1| |] eqn:E; cbn in H; try discriminate.
    eapply IH; [| |eauto]; [eapply result_step_inv; eauto | auto].
  Qed.

  Lemma insert_perm g a : forall l, Permutation (insert g a l) (a :: l).
  Proof.
    induction l as [|b t IH]; cbn; [reflexivity|]. destruct (before g a b); [reflexivity|].
    rewrite IH. apply perm_swap.
  Qed.
  Lemma sort_perm g l : Permutation (sort g l) l.
  Proof. induction l as [|a t IH]; cbn; [reflexivity|]. rewrite insert_perm, IH. reflexivity. Qed.

  Definition legal (a : action) : Prop := match a with APop => True | AChunk _ rs => Forall legal_result rs end.

  Lemma exec_inv s a s' : SInv s [] -> legal a -> exec s a = Some (Ok s') -> SInv s' [].
  Proof.
    intros I Hl H. destruct a as [|k rs]; cbn [ResolverModel.exec] in H.
    - eapply pop_inv; eauto.
    - destruct (s_q s) as [|? ?]; [|discriminate].
      destruct (s_inflight s =? 0); [discriminate|].
      destruct (existsb _ rs); [discriminate|].
      destruct (results_step (pull k s) rs) as [s1| |] eqn:E;
        (destruct rs as [|r rs]; [discriminate|]); cbn [rbind] in H; try discriminate.
      injection H as <-. destruct (pull_inv k s [] I) as [I1 _].
      pose proof (results_step_inv _ _ _ I1 Hl E) as [Ig C K S N].
      constructor; cbn; auto. eapply GInv_perm; [symmetry; apply sort_perm | reflexivity | exact Ig].
  Qed.

  (** ** reachable states *)
  Inductive reach (root : node) : st -> Prop :=
  | reach_init : reach root (init root)
  | reach_step s a s' : reach root s -> legal a -> exec s a = Some (Ok s') -> reach root s'.

  Lemma init_inv pkg m name root : new_node name pkg m true = Ok root -> SInv (init root) [].
  Proof.
    intros H. destruct (new_node_ok _ _ _ _ _ _ H) as (Hn & Hp & Hpa & Hc & Hd & Hnd).
    assert (G0 : getn (init_graph root) 0 = Some root) by reflexivity.
    assert (GS : forall i, getn (init_graph root) (S i) = None) by (intros i; unfold getn, init_graph; cbn; destruct i; reflexivity).
    constructor; [change (GInv (init_graph root) [0] []) | reflexivity | constructor | easy | easy].
    constructor.
    - split; [unfold size; cbn; lia|]. unfold parent_of. now rewrite G0.
    - intros i Hi. unfold size in Hi; cbn in Hi. lia.
    - intros p x c. unfold child_of. destruct p; [rewrite G0, Hc; discriminate | rewrite GS; discriminate].
    - intros e [].
    - intros i p. unfold parent_of. destruct i; [rewrite G0, Hpa; discriminate | rewrite GS; discriminate].
    - intros i x ei. unfold dep_of. destruct i; [rewrite G0, Hd; discriminate | rewrite GS; discriminate].
    - intros ei e. cbn. destruct ei; discriminate.
    - intros i n. destruct i; [rewrite G0; intros E; inversion E; now subst | rewrite GS; discriminate].
    - intros d [].
    - constructor.
    - split; [repeat constructor; easy|]. intros i [<-|[]]. split; [unfold size; cbn; lia|]. split; intros x.
      + unfold dep_of. rewrite G0, Hd. reflexivity.
      + unfold child_of. rewrite G0, Hc. reflexivity.
    - intros i x r Hi Hq. unfold size in Hi; cbn in Hi. exfalso. apply Hq. left. lia.
    - intros i x s t c p _ _. unfold child_of. destruct i; [rewrite G0, Hc; discriminate | rewrite GS; discriminate].
  Qed.

  Lemma reach_inv root pkg m name s : new_node name pkg m true = Ok root -> reach root s -> SInv s [].
  Proof. intros Hr H; induction H as [|s a s' H IH Hl He]; [eapply init_inv; eauto | eapply exec_inv; eauto]. Qed.

  (** ** correctness of walk-up lookup for calm schedules *)
  Definition LkInv (g : graph) : Prop :=
    forall i x ei e, dep_of g i x = Some ei -> nth_error (g_edges g) ei = Some e -> lookup g i x (e_to e).
  Definition BInv (g : graph) (P : list dep) : Prop :=
    forall d, In d P -> forall j, under g j (d_node d) -> j <> d_node d -> j < size g ->
      (forall x, dep_of g j x = None) /\ (forall d', In d' P -> d_node d' <> j).

  Lemma BInv_perm g P P' : Permutation P P' -> BInv g P -> BInv g P'.
  Proof.
    intros HP B d Hd j Hu Hj Hs. destruct (B d) with (j := j) as [H1 H2]; auto.
    - eapply Permutation_in; [symmetry; eauto | auto].
    - split; [auto|]. intros d' Hd'. apply H2. eapply Permutation_in; [symmetry; eauto | auto].
  Qed.

  Lemma satisfy_lk g q P d g' x : GInv g q (d :: P) -> satisfy_dependency g d = Ok (Some (g', x)) ->
    LkInv g -> BInv g (d :: P) -> LkInv g' /\ BInv g' P.
  Proof.
    intros I H L B. destruct (satisfy_some _ _ _ _ _ _ H) as (nx & Hr & Hx & Hs & ->).
    pose proof (ginv_parlt _ _ _ _ _ _ I) as Hpl.
    destruct (gi_P _ _ _ _ _ _ I d (or_introl eq_refl)) as (Hdn & Hdq & Hdd & Hdr).
    set (e := mkEdge (d_node d) x (d_spec d) (d_type d)).
    set (g0 := mkGraph (g_nodes g) (g_edges g ++ [e])).
    set (ei := length (g_edges g)).
    destruct (link_dep_upd g0 (d_node d) (d_name d) ei) as [U Hed]; [exact Hdn|].
    set (g' := link_dep g0 (d_node d) (d_name d) ei) in *.
    destruct U as (Usz & Upar & Uch & Unm & Upk & Urq & Udp & Unr).
    change (size g0) with (size g) in Usz.
    change (parent_of g0) with (parent_of g) in Upar. change (child_of g0) with (child_of g) in Uch.
    change (dep_of g0) with (dep_of g) in Udp. cbn in Hed.
    split.
    - intros i y k e' Hk He'. rewrite Udp in Hk. rewrite Hed in He'.
      apply (lookup_ext g g' Upar Uch).
      destruct ((d_node d =? i) && (d_name d =? y)%string) eqn:Ek.
      + apply andb_true_iff in Ek. destruct Ek as [E1 E2]. apply Nat.eqb_eq in E1. apply String.eqb_eq in E2. subst i y.
        inversion Hk; subst k. unfold ei in He'. rewrite nth_error_app2, Nat.sub_diag in He' by lia. cbn in He'.
        inversion He'; subst e'. cbn. apply lookup_resolve; auto.
      + eapply L; eauto. destruct (gi_dep _ _ _ _ _ _ I _ _ _ Hk) as (e2 & Hn2 & _).
        rewrite nth_error_app1 in He'; [auto | apply nth_error_Some; congruence].
    - intros d' Hd' j Hu Hj Hjs. rewrite Usz in Hjs.
      assert (Hu' : under g j (d_node d')) by (eapply under_ext; [|eauto]; intros; symmetry; apply Upar).
      destruct (B d' (or_intror Hd') j Hu' Hj Hjs) as [H1 H2]. split.
      + intros y. rewrite Udp. destruct (Nat.eqb_spec (d_node d) j) as [E|]; cbn; [|auto].
        exfalso. apply (H2 d); [now left | auto].
      + intros d'' Hd''. apply H2. now right.
  Qed.

  Lemma lookup_place g g' tgt name ci : parlt g -> ci = size g ->
    (forall j, parent_of g' j = if j =? ci then Some tgt else parent_of g j) ->
    (forall j y, child_of g' j y = if (j =? tgt) && String.eqb y name then Some ci else child_of g j y) ->
    forall i x c, lookup g i x c -> i < size g -> (x = name -> ~ (under g i tgt /\ lookup g tgt x c)) -> lookup g' i x c.
  Proof.
    intros Hp -> Hpar Hch i x c H. induction H as [i x c H | i p x c H1 H2 H3 IH]; intros Hi Hno.
    - constructor. rewrite Hch. destruct (Nat.eqb_spec i tgt) as [->|]; cbn; [|auto].
      destruct (String.eqb_spec x name) as [->|]; [|auto].
      exfalso. apply Hno; [auto|]. split; [constructor | now constructor].
    - assert (p < i) by (now apply Hp).
      eapply lk_up with (p := p).
      + rewrite Hch. destruct (Nat.eqb_spec i tgt) as [->|]; cbn; [|auto].
        destruct (String.eqb_spec x name) as [->|]; [|auto].
        exfalso. apply Hno; [auto|]. split; [constructor | eapply lk_up; eauto].
      + rewrite Hpar. rewrite (proj2 (Nat.eqb_neq _ _)) by lia. auto.
      + apply IH; [lia|]. intros E [Hu Hl]. apply Hno; auto. split; [eapply under_step; eauto | auto].
  Qed.

  Lemma lookup_climb g name c : forall i a, under g i a -> (forall j, under g i j -> under g j a -> j <> a -> child_of g j name = None) ->
     parlt g -> lookup g a name c -> lookup g i name c.
  Proof.
    intros i a Hu. induction Hu as [i | i p a Hp Hu IH]; intros Hno Hpl Hl; [auto|].
    assert (a < i) by (pose proof (under_lt _ Hpl _ _ Hu); apply Hpl in Hp; lia).
    eapply lk_up; [|eauto|].
    - apply Hno; [constructor | eapply under_step; eauto | lia].
    - apply IH; auto. intros j Hj1 Hj2 Hne. apply Hno; auto. eapply under_step; eauto.
  Qed.

  Lemma place_lk g q P d pkg m tp g' ci : GInv g q (d :: P) -> satisfy_dependency g d = Ok None ->
    place_child g d pkg m tp = Ok (g', ci) -> LkInv g -> BInv g (d :: P) -> LkInv g' /\ BInv g' P.
  Proof.
    intros I Hs Hpl L B.
    pose proof (ginv_parlt _ _ _ _ _ _ I) as Hp.
    destruct (gi_P _ _ _ _ _ _ I d (or_introl eq_refl)) as (Hdn & Hdq & Hdd & Hdr).
    destruct (place_child_inv _ _ _ _ _ _ _ _ _ _ Hdn Hp Hpl) as (cn & tgt & Hcn & -> & U & Htl & Hut & Hpass).
    destruct (new_node_ok _ _ _ _ _ _ Hcn) as (Hnm & Hpk & Hpa & Hch & Hde & Hnd).
    pose proof (target_free _ _ _ _ _ _ _ _ _ _ I Hpa Hch Hs Hut Hpass) as Hfree.
    destruct U as (Usz & Hed & Upar & Uch & Unm & Upk & Urq & Udp & Unr).
    assert (NE : forall j, j < size g -> (j =? size g) = false) by (intros; apply Nat.eqb_neq; lia).
    assert (Hu2 : forall i a, i < size g -> (under g' i a <-> under g i a)) by (intros; eapply under_new; eauto).
    assert (Hp' : parlt g').
    { intros i p. rewrite Upar. destruct (Nat.eqb_spec i (size g)) as [->|]; [intros E; inversion E; now subst | apply Hp]. }
    split.
    - intros i x k e Hk He. rewrite Udp in Hk. rewrite Hed in He.
      destruct ((i =? d_node d) && (x =? d_name d)%string) eqn:Ek.
      + apply andb_true_iff in Ek. destruct Ek as [E1 E2]. apply Nat.eqb_eq in E1. apply String.eqb_eq in E2. subst i x.
        inversion Hk; subst k. rewrite nth_error_app2, Nat.sub_diag in He by lia. cbn in He. inversion He; subst e. cbn.
        assert (Ht' : lookup g' tgt (d_name d) (size g)) by (constructor; rewrite Uch, Nat.eqb_refl, String.eqb_refl; reflexivity).
        apply (lookup_climb g' (d_name d) (size g) (d_node d) tgt); auto; [apply Hu2; auto|].
        intros j Hj1 Hj2 Hjt. apply Hu2 in Hj1; auto.
        assert (Hjs : j < size g) by (apply under_lt in Hj1; auto; lia).
        apply Hu2 in Hj2; auto.
        rewrite Uch. rewrite (proj2 (Nat.eqb_neq _ _) Hjt). cbn.
        destruct Hpass as [-> | Hpass].
        * exfalso. apply Hjt. apply (under_antisym g); auto.
        * apply (target_clear rsat canon deliver g q P d cn tgt pkg); auto.
      + destruct (gi_dep _ _ _ _ _ _ I _ _ _ Hk) as (e2 & Hn2 & Hf2 & Hr2 & Hm2 & Hz2 & Hg2).
        rewrite nth_error_app1 in He by (apply nth_error_Some; congruence).
        rewrite Hn2 in He. inversion He; subst e2. clear He.
        assert (Hil : i < size g) by (eapply dep_of_lt; eauto).
        assert (Hl : lookup g i x (e_to e)) by (eapply L; eauto).
        apply (lookup_place g g' tgt (d_name d) (size g) Hp eq_refl Upar Uch); auto. intros -> [Hit Hlt].
        destruct Hpass as [-> | Hpass].
        * destruct (Nat.eq_dec i (d_node d)) as [->|Hne].
          -- congruence.
          -- destruct (B d (or_introl eq_refl) i Hit Hne Hil) as [Hno _]. rewrite Hno in Hk. discriminate.
        * assert (He : In e (g_edges g)) by (eapply nth_error_In; eauto).
          destruct (gi_edge _ _ _ _ _ _ I _ He) as [Hes1 Hes2].
          destruct (proj1 (getn_lt g _) Hes2) as [nr Hnr].
          assert (sat (pk_resolved (n_pkg nr)) (d_spec d) = Ok true).
          { apply (passed_existing rsat canon g d cn (d_name d) (d_spec d) pkg tgt (e_to e) nr e Hp Hpa Hch Htl); auto.
            - apply Hpass; [auto | constructor].
            - now rewrite Hf2. }
          assert (sat (pk_resolved (n_pkg nr)) (d_spec d) = Ok false); [|congruence].
          eapply satisfy_none; eauto. apply lookup_resolve; auto.
          apply (lookup_climb g (d_name d) (e_to e) (d_node d) tgt); auto.
          intros j Hj1 Hj2 _. apply (target_clear rsat canon deliver g q P d cn tgt pkg); auto.
    - intros d' Hd' j Hu Hj Hjs. rewrite Usz in Hjs.
      destruct (gi_P _ _ _ _ _ _ I d' (or_intror Hd')) as (Hdn' & _).
      destruct (Nat.eq_dec j (size g)) as [->|Hjn].
      + split.
        * intros x. rewrite Udp. rewrite (Nat.eqb_sym (size g)), (NE _ Hdn). cbn. unfold dep_of. now rewrite getn_size.
        * intros d'' Hd'' E. destruct (gi_P _ _ _ _ _ _ I d'' (or_intror Hd'')) as (Hl & _). lia.
      + assert (Hjl : j < size g) by lia. apply Hu2 in Hu; auto.
        destruct (B d' (or_intror Hd') j Hu Hj Hjl) as [H1 H2]. split.
        * intros y. rewrite Udp. destruct (Nat.eqb_spec j (d_node d)) as [E|]; cbn; [|auto].
          exfalso. apply (H2 d); [now left | auto].
        * intros d'' Hd''. apply H2. now right.
  Qed.

  Definition LInv (s : st) (todo : list dep) := LkInv (s_g s) /\ BInv (s_g s) (todo ++ waiting s).

  Lemma process_dep_lk s d todo s' : SInv s (d :: todo) -> LInv s (d :: todo) -> process_dep s d = Ok s' -> LInv s' todo.
  Proof.
    intros [I C K S N] [L B] H. unfold ResolverModel.process_dep in H.
    destruct (satisfy_dependency (s_g s) d) as [[[g' x]|]| |] eqn:E; cbn in H; try discriminate.
    - inversion H; subst. unfold LInv; cbn. eapply satisfy_lk; eauto.
    - set (lk := match lock with Some lf => satisfy_from_lockfile rsat canon lnode to_package (s_g s) (d_node d) lf (d_name d) (d_spec d) | None => Ok None end) in H.
      destruct lk as [[[p ln]|]| |] eqn:El; cbn in H; try discriminate.
      + destruct (place_child (s_g s) d p (lnode_manifest ln) (Some (lnode_path ln))) as [[g' ci]| |] eqn:Ep; cbn in H; try discriminate.
        inversion H; subst. unfold LInv; cbn. eapply place_lk; eauto.
      + inversion H; subst. unfold LInv; cbn. split; [auto|].
        eapply BInv_perm; [|exact B]. unfold waiting; cbn.
        rewrite <- !app_assoc.
        transitivity (todo ++ d :: (s_sink s ++ concat (map snd (s_fetches s)))); [apply Permutation_middle|].
        apply Permutation_app_head. cbn. symmetry. apply Permutation_sym, Permutation_middle.
  Qed.
  Lemma process_deps_lk l : forall s todo s', SInv s (l ++ todo) -> LInv s (l ++ todo) -> process_deps s l = Ok s' -> LInv s' todo.
  Proof.
    induction l as [|d t IH]; cbn; intros s todo s' I L H; [inversion H; now subst|].
    destruct (process_dep s d) as [s1| |] eqn:E; cbn in H; try discriminate.
    eapply IH; [| |eauto]; [eapply process_dep_inv; eauto | eapply process_dep_lk; eauto].
  Qed.

  (** a step is calm when it does not process a package while a package containing it still waits for a fetch *)
  Definition calm (s : st) (a : action) : Prop :=
    match a with
    | AChunk _ _ => True
    | APop => match s_q s with
              | [] => True
              | i :: _ => forall d, In d (waiting s) -> under (s_g s) i (d_node d) -> i = d_node d
              end
    end.

  Lemma under_leaf g q P i j : GInv g q P -> (forall x, child_of g i x = None) -> j < size g -> under g j i -> j = i.
  Proof.
    intros I Hleaf Hj Hu. induction Hu as [|j p a Hpj Hu IH]; [easy|].
    assert (p < j) by (eapply ginv_parlt; eauto).
    assert (p = a) by (apply IH; [auto | lia]). subst p.
    destruct (Nat.eq_dec j 0) as [->|]; [lia|].
    destruct (gi_par _ _ _ _ _ _ I j ltac:(lia)) as (p' & Hp' & _ & Hc). rewrite Hpj in Hp'. inversion Hp'; subst.
    rewrite Hleaf in Hc. discriminate.
  Qed.

  Lemma pop_lk s s' : SInv s [] -> LInv s [] -> calm s APop -> pop_step s = Some (Ok s') -> LInv s' [].
  Proof.
    intros SI [L B] Hc H. pose proof SI as [I C K S N]. unfold ResolverModel.pop_step in H. cbn in Hc.
    destruct (s_q s) as [|i q] eqn:Eq; [discriminate|].
    destruct (getn (s_g s) i) as [n|] eqn:En; [|discriminate]. inversion H as [H1].
    assert (I' : GInv (s_g s) q (deps_of i n ++ waiting s)) by (eapply GInv_pop; eauto).
    destruct (gi_q _ _ _ _ _ _ I) as [_ Hq]. destruct (Hq i (or_introl eq_refl)) as (Hil & Hid & Hic).
    eapply process_deps_lk; [| |eauto].
    - rewrite app_nil_r. constructor; cbn; auto.
    - rewrite app_nil_r. split; cbn; [auto|].
      intros d Hd j Hu Hj Hjs. apply in_app_iff in Hd. destruct Hd as [Hd|Hd].
      + unfold deps_of in Hd. apply in_map_iff in Hd. destruct Hd as (r & <- & _). cbn in Hu, Hj.
        exfalso. apply Hj. eapply under_leaf; eauto.
      + destruct (B d Hd j Hu Hj Hjs) as [H2 H3]. split; [auto|].
        intros d' Hd'. apply in_app_iff in Hd'. destruct Hd' as [Hd'|Hd']; [|auto].
        unfold deps_of in Hd'. apply in_map_iff in Hd'. destruct Hd' as (r & <- & _). cbn. intros <-.
        apply Hj. apply Hc; auto.
  Qed.

  Lemma place_all_lk l p m : forall s todo s', SInv s (l ++ todo) -> LInv s (l ++ todo) ->
    (forall d, In d l -> exists m', deliver (d_spec d) (Ok (p, m'))) ->
    place_all s p m l = Ok s' -> LInv s' todo.
  Proof.
    induction l as [|d t IH]; cbn; intros s todo s' I L Hd H; [inversion H; now subst|].
    destruct (place_fetched s p m d) as [s1| |] eqn:E; cbn in H; try discriminate.
    eapply IH; [| | |eauto]; [eapply place_fetched_inv; eauto | | auto].
    destruct I as [I C K S N]. destruct L as [L B]. unfold ResolverModel.place_fetched in E.
    destruct (satisfy_dependency (s_g s) d) as [[[g' x]|]| |] eqn:E1; cbn in E; try discriminate.
    - inversion E; subst. unfold LInv; cbn. eapply satisfy_lk; eauto.
    - destruct (place_child (s_g s) d p m None) as [[g' ci]| |] eqn:Ep; cbn in E; try discriminate.
      inversion E; subst. unfold LInv; cbn. eapply place_lk; eauto.
  Qed.

  Lemma result_step_lk s spec o s' : SInv s [] -> LInv s [] -> deliver spec o -> result_step s spec o = Ok s' -> LInv s' [].
  Proof.
    intros [I C K S N] [L B] Hd H. unfold ResolverModel.result_step in H.
    destruct o as [[p m]| |]; cbn in H; try discriminate.
    destruct (aget pspec_eqb spec (s_fetches s)) as [l|] eqn:E; [|inversion H; subst; now split].
    assert (Hin : In (spec, l) (s_fetches s)) by (eapply aget_In; [apply pspec_eqb_spec | eauto]).
    pose proof (adel_fwait _ _ _ K E) as HP.
    assert (HW : Permutation (waiting s) (l ++ (s_sink s ++ fwait (adel pspec_eqb spec (s_fetches s))))).
    { unfold waiting. fold (fwait (s_fetches s)). rewrite HP. rewrite !app_assoc. apply Permutation_app_tail. apply Permutation_app_comm. }
    eapply place_all_lk; [| | |eauto].
    - rewrite app_nil_r. constructor; cbn.
      + eapply GInv_perm; [reflexivity | | exact I]. exact HW.
      + unfold waiting; cbn. rewrite C, (Permutation_length HW), app_length. unfold fwait. lia.
      + unfold adel. clear -K. induction (s_fetches s) as [|[a b] t IH]; cbn in *; [constructor|].
        inversion K as [|? ? Hni K']; subst. destruct (negb (pspec_eqb spec a)); cbn; [|auto].
        constructor; [|auto]. intros Hin. apply Hni. apply in_map_iff in Hin. destruct Hin as (e & E1 & E2).
        apply filter_In in E2. apply in_map_iff. exists e. tauto.
      + intros sp l' d Hi Hd'. unfold adel in Hi. apply filter_In in Hi. eapply S; [apply Hi | auto].
      + intros sp l' Hi. unfold adel in Hi. apply filter_In in Hi. eapply N; apply Hi.
    - rewrite app_nil_r. split; cbn; [auto|]. eapply BInv_perm; [exact HW | exact B].
    - intros d Hdl. exists m. rewrite (S _ _ _ Hin Hdl). auto.
  Qed.
  Lemma results_step_lk l : forall s s', SInv s [] -> LInv s [] -> Forall legal_result l -> results_step s l = Ok s' -> LInv s' [].
  Proof.
    induction l as [|[sp o] t IH]; cbn; intros s s' I L Hl H; [inversion H; now subst|].
    inversion Hl as [|? ? Ho Ht]; subst.
    destruct (result_step s sp o) as [s1| |] eqn:E; cbn in H; try discriminate.
    eapply IH; [| | |eauto]; [eapply result_step_inv; eauto | eapply result_step_lk; eauto | auto].
  Qed.

  Lemma exec_lk s a s' : SInv s [] -> LInv s [] -> legal a -> calm s a -> exec s a = Some (Ok s') -> LInv s' [].
  Proof.
    intros I L Hl Hc H. destruct a as [|k rs]; cbn [ResolverModel.exec] in H.
    - eapply pop_lk; eauto.
    - destruct (s_q s) as [|? ?]; [|discriminate].
      destruct (s_inflight s =? 0); [discriminate|].
      destruct (existsb _ rs); [discriminate|].
      destruct (results_step (pull k s) rs) as [s1| |] eqn:E;
        (destruct rs as [|r rs]; [discriminate|]); cbn [rbind] in H; try discriminate.
      injection H as <-. destruct (pull_inv k s [] I) as [I1 HW].
      assert (L1 : LInv (pull k s) []).
      { destruct L as [L B]. split; [exact L|]. eapply BInv_perm; [symmetry; exact HW | exact B]. }
      pose proof (results_step_lk _ _ _ I1 L1 Hl E) as [L2 B2]. split; auto.
  Qed.

  Inductive reach_calm (root : node) : st -> Prop :=
  | rc_init : reach_calm root (init root)
  | rc_step s a s' : reach_calm root s -> legal a -> calm s a -> exec s a = Some (Ok s') -> reach_calm root s'.

  Lemma reach_calm_reach root s : reach_calm root s -> reach root s.
  Proof. induction 1; [constructor | econstructor; eauto]. Qed.

  Lemma reach_calm_inv root pkg m name s : new_node name pkg m true = Ok root -> reach_calm root s -> LInv s [].
  Proof.
    intros Hr H. induction H as [|s a s' H IH Hl Hc He].
    - split; cbn.
      + intros i x ei e _. destruct ei; discriminate.
      + intros d [].
    - eapply exec_lk; eauto. eapply reach_inv; eauto. now apply reach_calm_reach.
  Qed.
End RR.
