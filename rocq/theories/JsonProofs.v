(** * Facts about package.json edits *)
From Verif Require Import Base Types JsonModel JsonSpec.
From Coq Require Import Permutation.
Set Implicit Arguments.
Open Scope list_scope.
Open Scope string_scope.

Lemma swap_remove_perm V k : forall (l : list (string * V)) x, sget k l = Some x -> Permutation l ((k, x) :: swap_remove k l).
Proof.
  induction l as [|[k' v] t IH]; cbn; [discriminate|]. intros x H. destruct (String.eqb k k') eqn:E.
  - apply String.eqb_eq in E. subst k'. injection H as ->. constructor. rewrite <- (rev_involutive t) at 1.
    destruct (rev t) as [|a r]; [constructor|]. cbn [rev]. symmetry. apply Permutation_cons_append.
  - rewrite perm_swap. constructor. now apply IH.
Qed.
Lemma sget_perm' V (l l' : list (string * V)) k : Permutation l l' -> NoDup (map fst l) -> sget k l = sget k l'.
Proof.
  intros P N. assert (N' : NoDup (map fst l')) by (eapply Permutation_NoDup; [apply Permutation_map, P|exact N]).
  destruct (sget k l) as [x|] eqn:E.
  - symmetry. apply In_aget; [apply seqb_spec|exact N'|]. eapply Permutation_in; [exact P|]. eapply aget_In; [apply seqb_spec|exact E].
  - symmetry. apply aget_None; [apply seqb_spec|]. apply aget_None in E; [|apply seqb_spec]. intros H. apply E.
    eapply Permutation_in; [symmetry; apply Permutation_map, P|exact H].
Qed.
Lemma swap_remove_get V k (l : list (string * V)) x : NoDup (map fst l) -> sget k l = Some x ->
  sget k (swap_remove k l) = None /\ (forall n, n <> k -> sget n (swap_remove k l) = sget n l) /\ NoDup (map fst (swap_remove k l)) /\ S (List.length (swap_remove k l)) = List.length l
  /\ (forall e, In e (swap_remove k l) -> In e l).
Proof.
  intros N H. pose proof (swap_remove_perm k l H) as P.
  assert (N' : NoDup (map fst ((k, x) :: swap_remove k l))) by (eapply Permutation_NoDup; [apply Permutation_map, P|exact N]).
  repeat split.
  - apply aget_None; [apply seqb_spec|]. now inversion N'.
  - intros n Hn. rewrite (sget_perm' n P N). cbn. apply String.eqb_neq in Hn. now rewrite Hn.
  - now inversion N'.
  - now rewrite (Permutation_length P).
  - intros e He. eapply Permutation_in; [symmetry; exact P|now right].
Qed.
Lemma sput_keys_in V k (v : V) : forall l, sget k l <> None -> map fst (sput k v l) = map fst l.
Proof. induction l as [|[k' v'] t IH]; cbn; [easy|]. destruct (String.eqb k k') eqn:E; cbn; [reflexivity|]. intros H. now rewrite IH. Qed.
Lemma sput_keys_new V k (v : V) : forall l, sget k l = None -> sput k v l = (l ++ [(k, v)])%list.
Proof. induction l as [|[k' v'] t IH]; cbn; [easy|]. destruct (String.eqb k k') eqn:E; cbn; [discriminate|]. intros H. now rewrite IH. Qed.
Lemma sput_Forall V (P : string * V -> Prop) k v : forall l, Forall P l -> P (k, v) -> (forall k', k = k' -> P (k', v)) -> Forall P (sput k v l).
Proof. intros l F H H'. induction F as [|[k' v'] t A F IH]; cbn; [now constructor|]. destruct (String.eqb k k') eqn:E; constructor; auto. apply H'. now apply String.eqb_eq. Qed.
Lemma sget_Forall V (P : string * V -> Prop) k v l : Forall P l -> sget k l = Some v -> P (k, v).
Proof. intros F H. rewrite Forall_forall in F. apply F. eapply aget_In; [apply seqb_spec|exact H]. Qed.

(** one section *)
Lemma remove_in_spec name ty v : jwf v -> let w := fst (remove_in name ty v) in
  jwf w /\ keys w = keys v /\ is_obj w = is_obj v /\ (forall k, k <> ty -> field w k = field v k)
  /\ dep_of w ty name = None /\ (forall n, n <> name -> dep_of w ty n = dep_of v ty n)
  /\ (forall o, field v ty = Some o -> is_obj o = false -> field w ty = Some o)
  /\ entries (field v ty) = snd (remove_in name ty v) + entries (field w ty).
Proof.
  intros W. unfold remove_in, dep_of. destruct v as [ | | | | |l]; try (cbn; repeat split; now auto). destruct (sget ty l) as [o|] eqn:E.
  2:{ cbn [fst snd field keys is_obj]. rewrite E. repeat split; auto; discriminate. }
  destruct o as [ | | | | |o]; try (cbn [fst snd field]; rewrite E; cbn; repeat split; now auto).
  destruct (sget name o) as [x|] eqn:Ex.
  2:{ cbn [fst snd field keys is_obj]. rewrite E. cbn [field entries]. repeat split; auto. }
  inversion W as [ | | | | |l' N F]; subst l'. pose proof (sget_Forall _ F E) as Wo. cbn in Wo. inversion Wo as [ | | | | |o' No Fo]; subst o'.
  destruct (swap_remove_get _ _ No Ex) as (H1 & H2 & H3 & H4 & H5). cbn [fst snd field keys is_obj]. rewrite E. rewrite sget_sput_eq. cbn [field entries]. repeat split; auto.
  - constructor; [rewrite sput_keys_in; [exact N|congruence]|]. apply sput_Forall; [exact F| |]; cbn; intros; constructor; auto;
      rewrite Forall_forall in *; intros e He; apply Fo, H5, He.
  - apply sput_keys_in. congruence.
  - intros k Hk. apply sget_sput_neq, Hk.
  - intros o0 H6 H7. injection H6 as <-. discriminate.
Qed.
Lemma remove_from_spec name v : jwf v -> let w := fst (remove_from_manifest name v) in
  jwf w /\ keys w = keys v /\ is_obj w = is_obj v /\ (forall k, ~ dependency_section k -> field w k = field v k)
  /\ (forall sec, dependency_section sec -> dep_of w sec name = None /\ forall n, n <> name -> dep_of w sec n = dep_of v sec n)
  /\ (forall sec o, dependency_section sec -> field v sec = Some o -> is_obj o = false -> field w sec = Some o)
  /\ declared v = snd (remove_from_manifest name v) + declared w.
Proof.
  intros W. unfold remove_from_manifest, sections. cbn [fold_left].
  destruct (remove_in_spec name "dependencies" W) as (A1 & A2 & A3 & A4 & A5 & A6 & A7 & A8).
  cbn [fst]. destruct (remove_in name "dependencies" v) as [v1 n1] eqn:E1. cbn [fst snd] in *.
  destruct (remove_in_spec name "devDependencies" A1) as (B1 & B2 & B3 & B4 & B5 & B6 & B7 & B8).
  destruct (remove_in name "devDependencies" v1) as [v2 n2] eqn:E2. cbn [fst snd] in *.
  destruct (remove_in_spec name "optionalDependencies" B1) as (C1 & C2 & C3 & C4 & C5 & C6 & C7 & C8).
  destruct (remove_in name "optionalDependencies" v2) as [v3 n3] eqn:E3. cbn [fst snd] in *.
  destruct (remove_in_spec name "peerDependencies" C1) as (D1 & D2 & D3 & D4 & D5 & D6 & D7 & D8).
  destruct (remove_in name "peerDependencies" v3) as [v4 n4] eqn:E4. cbn [fst snd] in *.
  split; [assumption|]. split; [congruence|]. split; [congruence|]. split; [|split; [|split]].
  - intros k Hk. unfold dependency_section in Hk. rewrite D4, C4, B4, A4 by tauto. reflexivity.
  - unfold dep_of in *. intros sec [-> | [-> | [-> | ->]]].
    + rewrite D4, C4, B4 by discriminate. auto.
    + rewrite D4, C4 by discriminate. rewrite A4 in B6 by discriminate. auto.
    + rewrite D4 by discriminate. rewrite B4, A4 in C6 by discriminate. auto.
    + rewrite C4, B4, A4 in D6 by discriminate. auto.
  - intros sec o [-> | [-> | [-> | ->]]] H1 H2.
    + rewrite D4, C4, B4 by discriminate. auto.
    + rewrite D4, C4 by discriminate. apply B7; [rewrite A4 by discriminate|]; auto.
    + rewrite D4 by discriminate. apply C7; [rewrite B4, A4 by discriminate|]; auto.
    + apply D7; [rewrite C4, B4, A4 by discriminate|]; auto.
  - unfold declared. rewrite (D4 "dependencies"), (C4 "dependencies"), (B4 "dependencies") by discriminate.
    rewrite (D4 "devDependencies"), (C4 "devDependencies") by discriminate. rewrite (D4 "optionalDependencies") by discriminate.
    rewrite (A4 "devDependencies") in B8 by discriminate. rewrite (B4 "optionalDependencies"), (A4 "optionalDependencies") in C8 by discriminate.
    rewrite (C4 "peerDependencies"), (B4 "peerDependencies"), (A4 "peerDependencies") in D8 by discriminate. lia.
Qed.

Section R.
  Variable parse : string -> res err pspec.
  Lemma remove_names_spec args : forall v c w n, jwf v -> remove_names parse args v c = Ok (w, n) ->
    let gone x := exists a, In a args /\ names_package parse a x in
    jwf w /\ keys w = keys v /\ is_obj w = is_obj v /\ (forall k, ~ dependency_section k -> field w k = field v k)
    /\ (forall sec x, dependency_section sec -> gone x -> dep_of w sec x = None)
    /\ (forall sec x, dependency_section sec -> ~ gone x -> dep_of w sec x = dep_of v sec x)
    /\ (forall sec o, dependency_section sec -> field v sec = Some o -> is_obj o = false -> field w sec = Some o)
    /\ c + declared v = n + declared w.
  Proof.
    cbv zeta. induction args as [|a args IH]; cbn [remove_names]; intros v c w n W H.
    - injection H as <- <-. split; [exact W|]. do 3 (split; [auto|]). split; [|repeat split; auto]. intros sec x _ (? & [] & _).
    - destruct (parse a) as [[?|?|sc nm r|?]| |] eqn:E; try discriminate. destruct (remove_from_manifest nm v) as [v1 c1] eqn:E1.
      pose proof (remove_from_spec nm W) as S1. rewrite E1 in S1. cbn [fst snd] in S1. destruct S1 as (A1 & A2 & A3 & A4 & A5 & A6 & A7).
      destruct (IH _ _ _ _ A1 H) as (B1 & B2 & B3 & B4 & B5 & B6 & B7 & B8).
      assert (Hd : forall x, (exists b, In b args /\ names_package parse b x) \/ ~ (exists b, In b args /\ names_package parse b x)).
      { intros x. clear. induction args as [|b l IH]; [right; intros (? & [] & _)|].
        destruct (parse b) as [[?|?|s0 n0 r0|?]| |] eqn:E; try (destruct IH as [(b' & H1 & H2) | IH]; [left; exists b'; split; [now right|exact H2]|
          right; intros (b' & [<- | H1] & H2); [destruct H2 as (? & ? & ?); congruence|apply IH; eauto]]).
        destruct (String.eqb_spec n0 x) as [-> | Hn]; [left; exists b; split; [now left|exists s0, r0; exact E]|].
        destruct IH as [(b' & H1 & H2) | IH]; [left; exists b'; split; [now right|exact H2]|].
        right. intros (b' & [<- | H1] & H2); [destruct H2 as (? & ? & ?); congruence|apply IH; eauto]. }
      split; [exact B1|]. split; [congruence|]. split; [congruence|]. split; [intros k Hk; rewrite B4, A4; auto|]. split; [|split; [|split]].
      + intros sec x Hs (b & [<- | Hb] & Hp); [|apply B5; eauto]. destruct Hp as (s0 & r0 & Hp). rewrite E in Hp. injection Hp as <- <- <-.
        destruct (Hd nm) as [Hy | Hy]; [exact (B5 sec nm Hs Hy)|]. rewrite (B6 sec nm Hs Hy). exact (proj1 (A5 sec Hs)).
      + intros sec x Hs Hx. rewrite B6; [|auto|intros (b & Hb & Hp); apply Hx; exists b; split; [now right|exact Hp]]. refine (proj2 (A5 sec Hs) x _). intros ->. apply Hx. exists a. split; [now left|]. now exists sc, r.
      + intros sec o Hs H1 H2. apply B7; auto.
      + lia.
  Qed.
  Lemma remove_names_err args : forall v c, (exists w n, remove_names parse args v c = Ok (w, n)) <-> forall a, In a args -> exists nm, names_package parse a nm.
  Proof.
    induction args as [|a args IH]; cbn [remove_names In]; intros v c; [split; [intros _ a []|eauto]|]. unfold names_package in *. destruct (parse a) as [[?|?|sc nm r|?]| |] eqn:E.
    all: try (split; [intros (? & ? & ?); discriminate|intros H; destruct (H a (or_introl eq_refl)) as (? & ? & ? & ?); congruence]).
    destruct (remove_from_manifest nm v) as [v1 c1]. rewrite IH. split.
    - intros H b [<- | Hb]; [exists nm, sc, r; exact E|auto].
    - intros H b Hb. auto.
  Qed.
End R.

(** a section that is an object stays one *)
Lemma remove_in_obj name ty v sec lo : field v sec = Some (JObj lo) -> exists lo', field (fst (remove_in name ty v)) sec = Some (JObj lo').
Proof.
  unfold remove_in. destruct v as [ | | | | |l]; cbn [field]; try discriminate. intros H. destruct (sget ty l) as [o|] eqn:E; [|cbn; eauto].
  destruct o as [ | | | | |o]; try (cbn; eauto; fail). destruct (sget name o) eqn:Ex; [|cbn; eauto]. cbn [fst field].
  destruct (String.eqb_spec sec ty) as [-> | Hn]; [rewrite sget_sput_eq; eauto|]. rewrite sget_sput_neq by auto. eauto.
Qed.
Lemma remove_is_obj name v sec lo : field v sec = Some (JObj lo) -> exists lo', field (fst (remove_from_manifest name v)) sec = Some (JObj lo').
Proof.
  unfold remove_from_manifest. assert (G : forall tys acc lo, field (fst acc) sec = Some (JObj lo) ->
    exists lo', field (fst (fold_left (fun acc ty => let '(w, n) := remove_in name ty (fst acc) in (w, snd acc + n)) tys acc)) sec = Some (JObj lo')).
  { induction tys as [|ty tys IH]; cbn [fold_left]; intros acc lo0 H; [eauto|]. destruct (@remove_in_obj name ty (fst acc) sec lo0 H) as (lo1 & H1).
    destruct (remove_in name ty (fst acc)) as [w n]. cbn [fst] in H1. eapply IH. exact H1. }
  intros H. exact (G sections (v, 0) lo H).
Qed.

(** adding *)
Lemma dep_kind_section dev opt : dependency_section (dep_kind dev opt).
Proof. unfold dependency_section. destruct dev, opt; cbn; auto. Qed.
Lemma add_to_spec dev opt name spec v w : jwf v -> add_to_manifest dev opt name spec v = Ok w ->
  jwf w /\ (forall k, k <> dep_kind dev opt -> field w k = field v k)
  /\ dep_of w (dep_kind dev opt) name = Some (JStr spec) /\ (forall n, n <> name -> dep_of w (dep_kind dev opt) n = dep_of v (dep_kind dev opt) n)
  /\ (forall k, In k (keys v) -> In k (keys w)) /\ keys w = (if is_some (field v (dep_kind dev opt)) then keys v else keys v ++ [dep_kind dev opt])%list.
Proof.
  unfold add_to_manifest, dep_of. set (K := dep_kind dev opt). clearbody K. intros W H. destruct v as [ | | | | |l]; cbn [jupdate rbind] in H; try discriminate.
  - injection H as <-. cbn. rewrite !String.eqb_refl. cbn. rewrite !String.eqb_refl. repeat split; auto.
    + constructor; [cbn; constructor; [easy|constructor]|]. constructor; [|constructor]. constructor; [cbn; constructor; [easy|constructor]|repeat constructor].
    + intros k Hk. apply String.eqb_neq in Hk. now rewrite Hk.
    + intros n Hn. apply String.eqb_neq in Hn. now rewrite Hn.
  - inversion W as [ | | | | |l' N F]; subst l'. cbn [field keys] in *. destruct (sget K l) as [o|] eqn:E.
    + assert (exists o', (o = JNull \/ exists l0, o = JObj l0) /\ jupdate name (fun _ => Ok (JStr spec)) o = Ok o' /\ w = JObj (sput K o' l)) as (o' & Ho & Hu & ->).
      { destruct o as [ | | | | |l0]; cbn in H; try discriminate; injection H as <-; cbn [jupdate rbind]; eexists; (split; [|split; reflexivity]); eauto. }
      cbn [field keys is_some]. rewrite sget_sput_eq. assert (Hkeys : map fst (sput K o' l) = map fst l) by (apply sput_keys_in; congruence).
      assert (Ho' : jwf o' /\ field o' name = Some (JStr spec) /\ forall n, n <> name -> field o' n = field o n).
      { destruct Ho as [-> | (l0 & ->)]; cbn in Hu; injection Hu as <-; cbn [field].
        - split; [constructor; [cbn; constructor; [easy|constructor]|repeat constructor]|]. cbn. rewrite String.eqb_refl. split; [reflexivity|]. intros n Hn. apply String.eqb_neq in Hn. now rewrite Hn.
        - pose proof (sget_Forall _ F E) as Wo. cbn in Wo. inversion Wo as [ | | | | |o' No Fo]; subst o'. split.
          + constructor; [apply aput_keys_NoDup; [apply seqb_spec|exact No]|]. apply sput_Forall; cbn; [exact Fo|constructor|constructor].
          + split; [apply sget_sput_eq|]. intros n Hn. now apply sget_sput_neq. }
      destruct Ho' as (J1 & J2 & J3). repeat split; auto.
      * constructor; [rewrite Hkeys; exact N|]. apply sput_Forall; cbn; auto.
      * intros k Hk. now apply sget_sput_neq.
      * intros k Hk. now rewrite Hkeys.
    + cbn in H. injection H as <-. cbn [field keys is_some]. rewrite sget_sput_eq. cbn [field]. rewrite sput_keys_new, map_app by exact E.
      cbn. rewrite String.eqb_refl. repeat split; auto.
      * rewrite <- sput_keys_new by exact E. constructor; [apply aput_keys_NoDup; [apply seqb_spec|exact N]|]. 
        assert (J : jwf (JObj [(name, JStr spec)])) by (constructor; [cbn; constructor; [easy|constructor]|repeat constructor]). apply sput_Forall; cbn; auto.
      * intros k Hk. rewrite <- sput_keys_new by exact E. now apply sget_sput_neq.
      * intros n Hn. apply String.eqb_neq in Hn. now rewrite Hn.
      * intros k Hk. apply in_or_app. now left.
Qed.
(** the one way adding can fail: the section, or the document, is neither null nor an object *)
Lemma add_to_ok dev opt name spec v : (exists w, add_to_manifest dev opt name spec v = Ok w) <->
  (v = JNull \/ is_obj v = true) /\ forall o, field v (dep_kind dev opt) = Some o -> o = JNull \/ is_obj o = true.
Proof.
  unfold add_to_manifest. set (K := dep_kind dev opt). clearbody K. split.
  - intros (w & H). destruct v as [ | | | | |l]; cbn [jupdate rbind] in H; try discriminate; (split; [auto|]); cbn [field].
    + discriminate.
    + intros o Ho. rewrite Ho in H. destruct o; cbn in H; try discriminate; cbn; auto.
  - intros ([-> | Hv] & H); [cbn; eauto|]. destruct v as [ | | | | |l]; try discriminate. cbn [jupdate rbind field] in *. destruct (sget K l) as [o|].
    + destruct (H o eq_refl) as [-> | Ho]; [cbn; eauto|]. destruct o; try discriminate. cbn. eauto.
    + cbn. eauto.
Qed.

Section A.
  Variable resolve : string -> res err package.
  Variable parse_spec : string -> res err pspec.
  Variable vshow : version -> string.
  Variable gitshow : gitinfo -> string.
  Variable requested : pspec -> string.
  Variable prefix : string.
  Let rec_ := recorded parse_spec vshow gitshow requested prefix.
  Let adds := add_specs resolve parse_spec vshow gitshow requested prefix.

  Lemma add_one dev opt s v w pkg r : jwf v -> resolve s = Ok pkg -> rec_ s pkg = Ok r ->
    add_to_manifest dev opt (pk_name pkg) r (fst (remove_from_manifest (pk_name pkg) v)) = Ok w ->
    jwf w /\ (forall k, ~ dependency_section k -> field w k = field v k)
    /\ (forall sec n, dependency_section sec -> n <> pk_name pkg -> dep_of w sec n = dep_of v sec n)
    /\ (forall sec, dependency_section sec -> dep_of w sec (pk_name pkg) = if String.eqb sec (dep_kind dev opt) then Some (JStr r) else None)
    /\ exists extra, keys w = (keys v ++ extra)%list.
  Proof.
    intros W _ _ H. pose proof (remove_from_spec (pk_name pkg) W) as S1. destruct (remove_from_manifest (pk_name pkg) v) as [v1 c1].
    cbn [fst] in *. destruct S1 as (A1 & A2 & A3 & A4 & A5 & A6 & A7).
    destruct (add_to_spec dev opt (pk_name pkg) r A1 H) as (B1 & B2 & B3 & B4 & B5 & B6). pose proof (dep_kind_section dev opt) as Hk.
    split; [exact B1|]. split; [|split; [|split]].
    - intros k Hn. rewrite B2, A4; auto. intros ->. auto.
    - intros sec n Hs Hn. destruct (String.eqb_spec sec (dep_kind dev opt)) as [-> | Hne].
      + rewrite B4 by auto. now apply A5.
      + unfold dep_of. rewrite B2 by auto. now apply A5.
    - intros sec Hs. destruct (String.eqb_spec sec (dep_kind dev opt)) as [-> | Hne]; [exact B3|].
      unfold dep_of. rewrite B2 by auto. now apply A5.
    - rewrite B6, <- A2. destruct (is_some _); [exists []; now rewrite app_nil_r|eauto].
  Qed.
End A.
