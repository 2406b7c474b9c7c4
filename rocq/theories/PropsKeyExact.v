(** * Property C09 for packages of any names: exactly when the lockfile has one entry per package.
    PropsLockfile and PropsKey settle valid package names, and refute names with "/node_modules/" in them. Here: the lockfile has
    one entry per package iff no two packages have the same path text ([C09_exact]), and that holds whenever no
    "/"-separated part of a name is "node_modules" ([C09_any_names]), whatever else the names contain. *)
From Verif Require Import Base Types Kdl StdPath SpecModel SpecSpec PropsSpec ResolverModel ResolverProofs ResolverRun ResolverSpec ResolverThms ResolverSteps
  ResolverExamples LockfileModel LockfileSpec LockfileProofs LockfileGraph LockfileFacts LockfileReplay LockfileView PropsReplay PropsRequested PropsKey.
Open Scope string_scope.
Open Scope list_scope.

(** the parts of a text between its slashes: "a/b//c" has "a", "b", "", "c" *)
Fixpoint parts (s : string) : list string :=
  match s with
  | EmptyString => [""]
  | String c t => if Ascii.eqb c "/" then "" :: parts t
                  else match parts t with [] => [String c ""] | h :: r => String c h :: r end
  end.
Lemma parts_nonempty s : parts s <> [].
Proof. destruct s as [|c t]; cbn; [discriminate|]. destruct (Ascii.eqb c "/"); [discriminate|]. destruct (parts t); discriminate. Qed.
Lemma parts_inj : forall a b, parts a = parts b -> a = b.
Proof.
  induction a as [|c a IH]; destruct b as [|d b]; cbn; intros E; [easy| | |].
  - destruct (Ascii.eqb d "/"); [injection E as E; symmetry in E; now apply parts_nonempty in E|]. destruct (parts b); discriminate.
  - destruct (Ascii.eqb c "/"); [injection E as E; now apply parts_nonempty in E|]. destruct (parts a); discriminate.
  - destruct (Ascii.eqb_spec c "/") as [->|Hc], (Ascii.eqb_spec d "/") as [->|Hd].
    + injection E as E. now rewrite (IH b E).
    + destruct (parts b); discriminate.
    + destruct (parts a); discriminate.
    + pose proof (parts_nonempty a). pose proof (parts_nonempty b). specialize (IH b). destruct (parts a) as [|x r], (parts b) as [|y t]; try congruence.
      injection E as -> -> ->. now rewrite IH.
Qed.
Lemma parts_app a b : parts (a ++ "/" ++ b)%string = parts a ++ parts b.
Proof.
  induction a as [|c a IH]; [reflexivity|]. cbn -[append]. change ((String c a ++ "/" ++ b)%string) with (String c (a ++ "/" ++ b)). cbn [parts].
  rewrite IH. destruct (Ascii.eqb c "/"); [reflexivity|]. pose proof (parts_nonempty a). destruct (parts a); [congruence|reflexivity].
Qed.
Lemma path_parts x t : parts (path_key (x :: t)) = parts x ++ flat_map (fun y => "node_modules" :: parts y) t.
Proof.
  revert x; induction t as [|y t IH]; intros x; [cbn; now rewrite app_nil_r|].
  change (path_key (x :: y :: t)) with (x ++ "/" ++ "node_modules" ++ "/" ++ path_key (y :: t))%string.
  rewrite parts_app, (parts_app "node_modules"), IH. reflexivity.
Qed.
Lemma cut_at (k : string) : forall a b r s, ~ In k a -> ~ In k b -> (r = [] \/ exists r', r = k :: r') -> (s = [] \/ exists s', s = k :: s') ->
  a ++ r = b ++ s -> a = b /\ r = s.
Proof.
  induction a as [|x a IH]; destruct b as [|y b]; cbn [app In]; intros r s Ha Hb Hr Hs E.
  - auto.
  - destruct Hr as [->|(r' & ->)]; [discriminate|]. injection E as <- _. tauto.
  - destruct Hs as [->|(s' & ->)]; [discriminate|]. injection E as -> _. tauto.
  - injection E as -> E. destruct (IH b r s) as [-> ->]; auto; tauto.
Qed.
Lemma key_inj : forall l l', (forall x, In x l \/ In x l' -> ~ In "node_modules" (parts x)) -> l <> [] -> l' <> [] -> path_key l = path_key l' -> l = l'.
Proof.
  assert (G : forall l l', (forall x, In x l \/ In x l' -> ~ In "node_modules" (parts x)) ->
    flat_map (fun y => "node_modules" :: parts y) l = flat_map (fun y => "node_modules" :: parts y) l' -> l = l').
  { induction l as [|x l IH]; destruct l' as [|y l']; cbn [flat_map app]; intros H E; try easy; try discriminate.
    injection E as E. apply (cut_at "node_modules") in E.
    - destruct E as [E1 E2]. apply parts_inj in E1. subst y. f_equal. apply IH; [|exact E2]. intros z Hz. apply H. cbn [In]. tauto.
    - apply H. left. now left.
    - apply H. right. now left.
    - destruct l; [now left|right; cbn; eauto].
    - destruct l'; [now left|right; cbn; eauto]. }
  intros l l' H Hne Hne' E. apply G; [exact H|]. destruct l as [|x l]; [congruence|]. destruct l' as [|y l']; [congruence|].
  apply (f_equal parts) in E. rewrite !path_parts in E. cbn [flat_map app]. now rewrite E.
Qed.

Section World.
  Variable rsat : range -> version -> bool.
  Variable canon : string -> option string.
  Variable parse_dep : string -> string -> res err pspec.
  Variable lnodeT : Type.
  Variable lpath : lnodeT -> list string.
  Variable lman : lnodeT -> manifest.
  Variable topkg : lnodeT -> res err (option package).
  Variable deliver : pspec -> outcome -> Prop.
  Variable lock : option (lockpkgs lnodeT).
  Variable requested : pspec -> string.
  Variable gitshow : gitinfo -> string.
  Notation reach := (reach rsat canon parse_dep lnodeT lpath lman topkg deliver lock).
  Notation to_lockfile := (to_lockfile requested gitshow).
  Variables (root : node) (pkg : package) (m : manifest) (name : string).
  Hypothesis Hroot : new_node parse_dep name pkg m true = Ok root.

  Lemma names_folded s : reach root s -> forall i, i < size (s_g s) -> forall x, In x (node_path (s_g s) i) -> ufold x = x.
  Proof.
    intros Hs i Hi x Hx. apply (path_Q rsat canon parse_dep lnodeT lpath lman topkg deliver lock (fun x => ufold x = x)) with (root := root) (pkg := pkg) (m := m) (name := name) (s := s) (i := i); auto.
    intros nm str sp E. apply ufold_idem.
  Qed.
  Lemma path_names g q P : GInv rsat canon deliver g q P -> forall i, i < size g -> forall x, In x (node_path g i) -> exists j, 0 < j < size g /\ x = name_of g j.
  Proof.
    intros I. pose proof (ginv_parlt _ _ _ _ _ _ I) as Hp. destruct (gi_root _ _ _ _ _ _ I) as [Hz Hr].
    induction i as [i IH] using lt_wf_ind. intros Hi x Hx. destruct (Nat.eq_dec i 0) as [->|Hne].
    - rewrite node_path_root in Hx by auto. destruct Hx.
    - destruct (gi_par _ _ _ _ _ _ I i ltac:(lia)) as (p & Hpp & Hlt & Hc). rewrite (node_path_step g Hp i p) in Hx by auto.
      apply in_app_iff in Hx. destruct Hx as [Hx|[<-|[]]]; [apply (IH p); auto; lia | exists i; split; [lia|auto]].
  Qed.

  (** C09, for any names: the lockfile is always written, its keys are always distinct, and it has one entry per package other than
      the root exactly when no two packages have the same path text. *)
  Theorem C09_exact : forall s, reach root s -> exists lf, to_lockfile (s_g s) = Ok lf
    /\ NoDup (map (fun e => ufold (fst e)) (lf_packages lf))
    /\ (List.length (lf_packages lf) = size (s_g s) - 1 <->
        forall i j, 0 < i < size (s_g s) -> 0 < j < size (s_g s) -> path_key (node_path (s_g s) i) = path_key (node_path (s_g s) j) -> i = j).
  Proof.
    intros s Hs. pose proof (reach_inv _ _ _ _ _ _ _ _ _ _ _ _ _ _ Hroot Hs) as SI. pose proof SI as [I _ _ _ _].
    destruct (gi_root _ _ _ _ _ _ I) as [Hz _]. set (g := s_g s) in *.
    destruct (proj1 (getn_lt g 0) Hz) as [n0 Hn0]. destruct (node_lnode_ok requested gitshow g 0 true n0 Hn0) as (r & Er & _).
    assert (EL : to_lockfile g = Ok (mkLf 1 r (keyed (map (entry requested gitshow g) (rest g))))) by (apply to_lockfile_eq; [exact Hz|exact Er]). eexists. split; [exact EL|]. cbn [lf_packages].
    split; [apply keyed_facts|]. split.
    - intros HL i j Hi Hj E.
      set (ents := map (entry requested gitshow g) (rest g)) in *.
      set (all := map (fun n => ufold (path_key (l_path n))) ents).
      assert (Hlen : List.length (rest g) = size g - 1).
      { unfold rest. destruct (size g) as [|k] eqn:Esz; [lia|]. cbn. rewrite filter_all; [rewrite seq_length; lia|].
        intros a Ha. apply in_seq in Ha. apply negb_true_iff, Nat.eqb_neq. lia. }
      destruct (keyed_facts ents) as [HN HI].
      assert (Hinc : incl (map (fun e : string * lnode => ufold (fst e)) (keyed ents)) all).
      { intros k Hk. apply in_map_iff in Hk. destruct Hk as ((k' & n) & <- & Hin). cbn [fst]. rewrite (keyed_key _ _ _ Hin).
        apply HI in Hin. unfold all. apply in_map_iff. exists n. auto. }
      assert (Hall : NoDup all).
      { apply (@NoDup_incl_NoDup _ (map (fun e : string * lnode => ufold (fst e)) (keyed ents)) all HN).
        - unfold all. rewrite !map_length. unfold ents at 1. rewrite map_length. lia.
        - exact Hinc. }
      unfold all, ents in Hall. rewrite map_map in Hall.
      assert (Einj : forall (f : nat -> string) l, NoDup (map f l) -> forall a b, In a l -> In b l -> f a = f b -> a = b).
      { clear. intros f l. induction l as [|x t IH]; cbn; intros H a b Ha Hb E; [easy|]. inversion H; subst.
        destruct Ha as [<-|Ha], Hb as [<-|Hb]; auto.
        - exfalso. apply H2. rewrite E. now apply in_map.
        - exfalso. apply H2. rewrite <- E. now apply in_map. }
      apply (Einj _ _ Hall i j); [now apply rest_in|now apply rest_in|].
      rewrite (proj2 (entry_eq requested gitshow g i ltac:(lia))), (proj2 (entry_eq requested gitshow g j ltac:(lia))). now rewrite E.
    - intros Hk. destruct (@lockfile_complete_keys rsat canon parse_dep lnodeT lpath lman topkg deliver lock requested gitshow root pkg m name Hroot s Hs Hk) as (lf & E & HL & _).
      fold g in E. rewrite EL in E. injection E as <-. exact HL.
  Qed.

  (** C09, for trees in which no part of a package's name is "node_modules": exactly one entry per package other than the root,
      under the key of its path, describing it. *)
  Theorem C09_any_names_partial : forall s, reach root s ->
    (forall i, 0 < i < size (s_g s) -> ~ In "node_modules" (parts (name_of (s_g s) i))) ->
    exists lf, to_lockfile (s_g s) = Ok lf
      /\ List.length (lf_packages lf) = size (s_g s) - 1
      /\ NoDup (map (fun e => ufold (fst e)) (lf_packages lf))
      /\ describes requested gitshow (s_g s) 0 (lf_root lf)
      /\ (forall i, 0 < i < size (s_g s) -> exists ln, In (path_key (node_path (s_g s) i), ln) (lf_packages lf) /\ describes requested gitshow (s_g s) i ln)
      /\ (forall k ln, In (k, ln) (lf_packages lf) -> exists i, 0 < i < size (s_g s) /\ k = path_key (node_path (s_g s) i) /\ describes requested gitshow (s_g s) i ln).
  Proof.
    intros s Hs Hn. apply (@lockfile_complete_keys rsat canon parse_dep lnodeT lpath lman topkg deliver lock requested gitshow root pkg m name Hroot s Hs).
    pose proof (reach_inv _ _ _ _ _ _ _ _ _ _ _ _ _ _ Hroot Hs) as SI. pose proof SI as [I _ _ _ _].
    intros i j Hi Hj E. assert (Li : i < size (s_g s)) by lia. assert (Lj : j < size (s_g s)) by lia. apply key_inj in E.
    - eapply node_path_inj; eauto.
    - intros x [Hx|Hx].
      + destruct (path_names _ _ _ I i Li x Hx) as (k & Hk & ->). now apply Hn.
      + destruct (path_names _ _ _ I j Lj x Hx) as (k & Hk & ->). now apply Hn.
    - eapply path_nonempty; [exact Hroot|exact Hs|exact Hi].
    - eapply path_nonempty; [exact Hroot|exact Hs|exact Hj].
  Qed.
End World.
Print Assumptions C09_exact.
Print Assumptions C09_any_names_partial.

(** the project ./a (a directory, which depends on b 1.0.0) and b 2.0.0: a package whose name has a slash, with one below it *)
Definition man_a : manifest := man [("b", "2.0.0"); ("./a", "x")].
Definition root_a : node := match new_node parse9 "root" root_pkg man_a true with Ok n => n | _ => mkNode "" root_pkg None [] [] [] end.
Definition sched_a : list action :=
  [APop; AChunk 2 [rs9 (npm "b" (VVersion (v 2 0))); rs9 (SDir "./a@x")]; APop; APop; AChunk 1 [rs9 (npm "b" (VVersion (v 1 0)))]; APop].
Definition end_a : st := get (run9 (init root_a) sched_a) root_a.
Example C09_any_names_nonvacuous : new_node parse9 "root" root_pkg man_a true = Ok root_a /\ reach9 root_a end_a /\ finished end_a = true
  /\ (forall i, 0 < i < size (s_g end_a) -> ~ In "node_modules" (parts (name_of (s_g end_a) i)))
  /\ ~ valid_name "./a"
  /\ exists lf, to_lockfile (requested vshow6 (fun _ => "")) (show_git (fun _ => "")) (s_g end_a) = Ok lf
     /\ map fst (lf_packages lf) = ["b"; "./a"; "./a/node_modules/b"].
Proof.
  split; [vm_compute; reflexivity|]. split; [apply run9_reach with (l := sched_a); [repeat constructor|vm_compute; reflexivity]|].
  split; [vm_compute; reflexivity|]. split; [|split].
  - intros i Hi. assert (E : size (s_g end_a) = 4) by (vm_compute; reflexivity). rewrite E in Hi.
    do 4 (destruct i as [|i]; [try lia; vm_compute; intuition discriminate|]). lia.
  - intros [[H _]|(a & b & H & _)]; [vm_compute in H; discriminate H|discriminate H].
  - eexists. split; [vm_compute; reflexivity|reflexivity].
Qed.
(** C09_exact in the refuted tree of PropsKey: two packages there do have the same path text *)
Example C09_exact_nonvacuous : ~ (forall i j, 0 < i < size (s_g end9) -> 0 < j < size (s_g end9) ->
  path_key (node_path (s_g end9) i) = path_key (node_path (s_g end9) j) -> i = j).
Proof.
  intros H. assert (E : size (s_g end9) = 5) by (vm_compute; reflexivity). rewrite E in H.
  specialize (H 3 4 ltac:(lia) ltac:(lia)). assert (3 = 4) by (apply H; vm_compute; reflexivity). discriminate.
Qed.
