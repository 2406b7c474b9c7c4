(** * Property C64: a recorded integrity is always enforced; the same lockfile gives the same files.
    A [machine] is one on which packages were extracted one after the other, any number of times, successfully or not, from any registry, with or without
    the cache, in any mode, starting with an empty cache; in between, anything may happen to the files, and the cache may lose or damage entries and
    contents. [holds_package], [vacant], [proper], [contents_at], [well_formed]: TarSpec; [received]: TarStream; [same_tree], [tree_has], [pinned]: LockfileReplay, ResolverSpec. *)
From Verif Require Import Base Types Kdl ResolverModel ResolverProofs ResolverRun ResolverSpec ResolverThms ResolverSteps LockfileModel LockfileSpec
  LockfileReplay LockfileReplayRun LockfileView PropsResolver PropsReplay.
From Verif Require Import StdPath Fs TarModel TarStream TarProofs TarContents TarSpec TarThms TarCache TarHistory PropsTar IntegrityModel.
From Coq Require Import Permutation.
Open Scope string_scope.
Open Scope list_scope.

Section Files.
  Variable check : string -> string -> bool.
  Variable xxh : string -> string.
  Variable untar : string -> list entry * bool.
  Variable manifest : string -> option (bool * list string).
  Notation entries := (entries untar).
  (** the archives that ever arrive from somewhere, and the contents that files ever have *)
  Variables A U : string -> Prop.
  (** no two of these contents have the same hash, no two of these archives match the same integrity, and archives match the integrity computed from them;
      archives have distinct paths without ".." (see C22_refuted for others) *)
  Record honest_hashes : Prop := mkHonest {
    hh_empty : U "";
    hh_content : forall a b, U a -> U b -> xxh a = xxh b -> a = b;
    hh_archive : forall k a b, A a -> A b -> check k a = true -> check k b = true -> a = b;
    hh_own : forall a, A a -> check (xxh a) a = true;
    hh_proper : forall a, A a -> proper (entries a) /\ Forall U (contents_of (entries a)) }.
  (** what a machine's file systems can do, the mode of its content files, its spill limit *)
  Record kind := mkKind { k_limit : nat; k_linkable : bool; k_reflinkable : bool; k_blob_mode : nat }.
  Definition extract (m : kind) := extract_to_dir check (k_limit m) xxh (k_linkable m) (k_reflinkable m) (k_blob_mode m) untar manifest.
  Definition package_at (m : kind) := extract_package check (k_limit m) xxh (k_linkable m) (k_reflinkable m) (k_blob_mode m) untar manifest.
  (** if an archive arrives that matches the integrity asked for (any archive, if none is asked for), it is one of [A] *)
  Definition arrives (sri : option string) (fetch : option (list event)) : Prop :=
    forall ev bytes, fetch = Some ev -> received ev = Some bytes -> match sri with Some k => check k bytes = true | None => True end -> A bytes.
  Definition some_order (order : tindex -> list (string * (string * nat))) : Prop := forall idx, Permutation (x_files idx) (order idx).
  Definition contents_in (s : st) : Prop := Forall (fun v => U (fst v)) (s_inodes s).

  Inductive machine (m : kind) : st -> Prop :=
  | m_start s : (forall key, s_index s key = None) -> well_formed s -> contents_in s -> machine m s
  | m_extract s fetch order d sri cached x : machine m s -> vacant d s -> some_order order -> arrives sri fetch -> machine m (snd (extract m fetch order d sri cached x s))
  | m_else s s' : machine m s -> well_formed s' -> contents_in s' -> (forall key idx, s_index s' key = Some (Some idx) -> s_index s key = Some (Some idx)) -> machine m s'.

  Lemma machine_sound m s : honest_hashes -> machine m s -> fine U s /\ sound check xxh untar manifest A s.
  Proof.
    intros [H1 H2 H3 H4 H5]. induction 1 as [s Hi W C|s fetch order d sri cached x _ [F So] V Ho Hf|s s' _ [F So] W C Hi].
    - split; [now split|]. intros key idx E. rewrite Hi in E. discriminate.
    - exact (whole_step check (k_limit m) xxh (k_linkable m) (k_reflinkable m) (k_blob_mode m) untar manifest A U H1 H2 H5 H3 H4 fetch order d sri cached x s F So V Ho Hf).
    - split; [now split|]. intros key idx E. apply Hi in E. exact (So key idx E).
  Qed.

  (** C64 (1). Whatever happened on a machine before, whatever the registry sends now: when a package whose recorded integrity is [k] has been extracted,
      the files below its directory are exactly those of an archive that matches [k]. *)
  Theorem C64_enforced : honest_hashes -> forall m s, machine m s -> forall fetch order p d k cached x k' s', integrity_of (pk_resolved p) = Some k ->
    vacant d s -> some_order order -> arrives (Some k) (fetch (pk_resolved p)) ->
    package_at m fetch order p d cached x s = (Ok k', s') -> k' = k /\ exists bytes, check k bytes = true /\ holds_package d (entries bytes) s'.
  Proof.
    intros H m s Hm fetch order p d k cached x k' s' Hk V Ho Hf E. destruct (machine_sound m s H Hm) as [F So]. destruct H as [H1 H2 H3 H4 H5].
    unfold package_at, extract_package in E. rewrite Hk in E.
    destruct (whole_files check (k_limit m) xxh (k_linkable m) (k_reflinkable m) (k_blob_mode m) untar manifest A U H2 H5 H3 (fetch (pk_resolved p)) order d k cached x s k' s' F So V Ho Hf E) as [Ek (b & _ & Hb & Hh)].
    split; [exact Ek|]. eauto.
  Qed.
  (** C64 (2). So two machines, with different histories, registries, file systems and modes, that extract packages with the same recorded integrity get the same files with
      the same contents, if they do not fail. *)
  Theorem C64_same_files : honest_hashes -> forall m1 m2 s1 s2, machine m1 s1 -> machine m2 s2 ->
    forall fetch1 fetch2 order1 order2 p1 p2 d1 d2 k c1 c2 x1 x2 k1 k2 s1' s2',
    integrity_of (pk_resolved p1) = Some k -> integrity_of (pk_resolved p2) = Some k ->
    vacant d1 s1 -> some_order order1 -> arrives (Some k) (fetch1 (pk_resolved p1)) -> package_at m1 fetch1 order1 p1 d1 c1 x1 s1 = (Ok k1, s1') ->
    vacant d2 s2 -> some_order order2 -> arrives (Some k) (fetch2 (pk_resolved p2)) -> package_at m2 fetch2 order2 p2 d2 c2 x2 s2 = (Ok k2, s2') ->
    forall q, contents_at s1' (d1 ++ q) = contents_at s2' (d2 ++ q).
  Proof.
    intros H m1 m2 s1 s2 M1 M2 fetch1 fetch2 order1 order2 p1 p2 d1 d2 k c1 c2 x1 x2 k1 k2 s1' s2' I1 I2 V1 O1 A1 E1 V2 O2 A2 E2 q.
    destruct (machine_sound m1 s1 H M1) as [F1 So1]. destruct (machine_sound m2 s2 H M2) as [F2 So2]. destruct H as [H1 H2 H3 H4 H5].
    unfold package_at, extract_package in E1, E2. rewrite I1 in E1. rewrite I2 in E2.
    destruct (whole_files check (k_limit m1) xxh (k_linkable m1) (k_reflinkable m1) (k_blob_mode m1) untar manifest A U H2 H5 H3 (fetch1 (pk_resolved p1)) order1 d1 k c1 x1 s1 k1 s1' F1 So1 V1 O1 A1 E1) as [_ (b1 & B1 & B2 & B3)].
    destruct (whole_files check (k_limit m2) xxh (k_linkable m2) (k_reflinkable m2) (k_blob_mode m2) untar manifest A U H2 H5 H3 (fetch2 (pk_resolved p2)) order2 d2 k c2 x2 s2 k2 s2' F2 So2 V2 O2 A2 E2) as [_ (b2 & C1 & C2 & C3)].
    rewrite (B3 q), (C3 q), (H3 k b1 b2 B1 C1 B2 C2). reflexivity.
  Qed.

  (** ** with the lockfile *)
  Section World.
    Variable rsat : range -> version -> bool.
    Variable canon : string -> option string.
    Variable parse_dep : string -> string -> res err pspec.
    Variable requested : pspec -> string.
    Variable gitshow : gitinfo -> string.
    Variable vshow : version -> string.
    Variable vparse : string -> option version.
    Variable iparse : string -> option string.
    Variable parse_spec : string -> res err pspec.
    Variable parse_url : string -> option string.
    Variable lookup : string -> res err package.
    Variable spec_show : pspec -> string.
    Notation to_package := (to_package vshow parse_spec parse_url lookup spec_show).
    Notation reach := (reach rsat canon parse_dep lnode entry_path lnode_manifest to_package).
    Notation steps := (steps rsat canon parse_dep lnode entry_path lnode_manifest to_package).
    Lemma source_integrity r r' : source r = source r' -> integrity_of r = integrity_of r'.
    Proof. destruct r, r'; cbn; intros H; try discriminate; try reflexivity. now injection H. Qed.
    Lemma resolved_alike deliver lock root pkg m name : new_node parse_dep name pkg m true = Ok root ->
      forall s, reach deliver lock root s -> forall g, same_tree g (s_g s) -> forall path p p', tree_has g path p -> tree_has (s_g s) path p' -> source (pk_resolved p) = source (pk_resolved p').
    Proof.
      intros Hroot s Hs g [T _] path p p' (i & Hi) H'. destruct (T path (pk_resolved p)) as [T1 _]. destruct T1 as (p'' & H'' & E); [exists p; split; [exists i; exact Hi|reflexivity]|].
      destruct (C01_tree_unique rsat canon parse_dep lnode entry_path lnode_manifest to_package deliver lock root pkg m name Hroot s Hs) as (_ & Un & _).
      rewrite <- E. f_equal. f_equal. destruct H' as (a & n & Ha & Hn & <-). destruct H'' as (b & n' & Hb & Hn' & <-). rewrite (Un b a path Hb Ha) in Hn'. congruence.
    Qed.
    (** C64 (3) (partial: C06's conditions on the tree, packages with a recorded integrity; see C64_refuted). Two projects with this lockfile and the same package.json, whatever their registries
      have become ([deliver1], [deliver2]), whatever happened to their machines: the packages they install at the same path have the same version, URL and integrity, those of
      the tree the lockfile was written for, and if there is an integrity and they do not fail, the same files with the same contents. *)
    Theorem C64_reproducible_partial : honest_hashes -> forall deliver0 lock0 root pkg m name rname dir, new_node parse_dep name pkg m true = Ok root ->
      forall s, reach deliver0 lock0 root s -> finished s = true ->
      registry_tree vshow vparse iparse parse_spec parse_url (s_g s) -> pk_resolved pkg = RDir rname dir ->
      (forall i x sp t, declares (s_g s) i x sp t -> parse_dep x (requested sp) = Ok sp) ->
      pinned rsat canon (s_g s) ->
      exists lf lf', to_lockfile requested gitshow (s_g s) = Ok lf /\ from_kdl vparse iparse (to_kdl vshow lf) = Ok lf' /\
      forall deliver1 n1 r1 deliver2 n2 r2, steps deliver1 (Some (lock_view lf')) root n1 r1 -> finished r1 = true -> steps deliver2 (Some (lock_view lf')) root n2 r2 -> finished r2 = true ->
      forall path p1 p2, tree_has (s_g r1) path p1 -> tree_has (s_g r2) path p2 ->
        source (pk_resolved p1) = source (pk_resolved p2) /\ (forall p, tree_has (s_g s) path p -> source (pk_resolved p1) = source (pk_resolved p)) /\
        forall m1 m2 s1 s2 fetch1 fetch2 order1 order2 d1 d2 k c1 c2 x1 x2 k1 k2 s1' s2', machine m1 s1 -> machine m2 s2 ->
        integrity_of (pk_resolved p1) = Some k ->
        vacant d1 s1 -> some_order order1 -> arrives (Some k) (fetch1 (pk_resolved p1)) -> package_at m1 fetch1 order1 p1 d1 c1 x1 s1 = (Ok k1, s1') ->
        vacant d2 s2 -> some_order order2 -> arrives (Some k) (fetch2 (pk_resolved p2)) -> package_at m2 fetch2 order2 p2 d2 c2 x2 s2 = (Ok k2, s2') ->
        forall q, contents_at s1' (d1 ++ q) = contents_at s2' (d2 ++ q).
    Proof.
      intros H deliver0 lock0 root pkg m name rname dir Hroot s Hs Hfin Hreg Hr0 Hparse Hpin.
      destruct (C06_partial rsat canon parse_dep requested gitshow vshow vparse iparse parse_spec parse_url lookup spec_show deliver0 lock0 root pkg m name rname dir Hroot s Hs Hfin Hreg Hr0 Hparse Hpin) as (lf & lf' & L1 & L2 & _ & R).
      exists lf, lf'. split; [exact L1|]. split; [exact L2|]. intros deliver1 n1 r1 deliver2 n2 r2 S1 F1 S2 F2 path p1 p2 T1 T2.
      destruct (R deliver1 n1 r1 S1) as (_ & _ & _ & G1). destruct (R deliver2 n2 r2 S2) as (_ & _ & _ & G2). specialize (G1 F1). specialize (G2 F2).
      assert (E0 : forall p, tree_has (s_g s) path p -> source (pk_resolved p1) = source (pk_resolved p)) by (intros p Tp; exact (resolved_alike deliver0 lock0 root pkg m name Hroot s Hs (s_g r1) G1 path p1 p T1 Tp)).
      assert (E2 : forall p, tree_has (s_g s) path p -> source (pk_resolved p2) = source (pk_resolved p)) by (intros p Tp; exact (resolved_alike deliver0 lock0 root pkg m name Hroot s Hs (s_g r2) G2 path p2 p T2 Tp)).
      assert (E : source (pk_resolved p1) = source (pk_resolved p2)).
      { destruct (proj1 (proj1 G1 path (pk_resolved p1)) (ex_intro _ p1 (conj T1 eq_refl))) as (p & Tp & _). rewrite (E0 p Tp). symmetry. now apply E2. }
      split; [exact E|]. split; [exact E0|]. intros m1 m2 s1 s2 fetch1 fetch2 order1 order2 d1 d2 k c1 c2 x1 x2 k1 k2 s1' s2' M1 M2 I1.
      intros V1 O1 A1 X1 V2 O2 A2 X2.
      exact (C64_same_files H m1 m2 s1 s2 M1 M2 fetch1 fetch2 order1 order2 p1 p2 d1 d2 k c1 c2 x1 x2 k1 k2 s1' s2' I1 (eq_trans (eq_sym (source_integrity _ _ E)) I1) V1 O1 A1 X1 V2 O2 A2 X2).
    Qed.
  End World.
End Files.

(** ** concrete cases (the oracles of PropsTar: a content is its own hash, an integrity is the bytes themselves) *)
Definition ex_kind : kind := mkKind 3 true false 420.
Definition ex_kind2 : kind := mkKind 1000 false true 384.
Definition ex_A (b : string) : Prop := proper (entries ex_untar b).
Definition ex_npm (i : option string) : package := mkPkg "tool" (SNpm None "tool" (Some (VTag "latest"))) (RNpm "tool" (mkV 1 0 0 []) "https://r/tool.tgz" i).
Definition ex_machine := machine ex_check ex_xxh ex_untar ex_manifest ex_A (fun _ => True).
Definition ex_install := package_at ex_check ex_xxh ex_untar ex_manifest.
Lemma ex_any (s : st) : contents_in (fun _ => True) s.
Proof. apply Forall_forall. auto. Qed.
Lemma ex_A_tool : ex_A "tool.tgz". Proof. apply ex_tool_ok. Qed.
Lemma ex_A_flat : ex_A "flat.tgz".
Proof.
  split; [repeat (constructor; [intros _ H; vm_compute in H; repeat (destruct H as [H|H]; [discriminate|]); exact H|]); constructor|].
  vm_compute. repeat (constructor; [intros H; repeat (destruct H as [H|H]; [discriminate|]); exact H|]). constructor.
Qed.
Lemma ex_arrives sri b : ex_A b -> arrives ex_check ex_A sri (Some [Chunk b]).
Proof. intros H ev bytes [= <-] R _. cbn [received option_map] in R. rewrite sapp_nil in R. destruct b; injection R as <-; exact H. Qed.
Lemma ex_honest : honest_hashes ex_check ex_xxh ex_untar ex_A (fun _ => True).
Proof.
  constructor; auto.
  - unfold ex_check. intros k a b _ _ H1 H2. apply String.eqb_eq in H1, H2. congruence.
  - intros a _. apply String.eqb_refl.
  - intros a H. split; [exact H|]. apply Forall_forall. auto.
Qed.
(** a machine that had the package in its cache, lost a content file of it, and extracts it again, offline and then with the network; another one, of another kind,
    without a cache: as the theorem says, the same files. A registry that sends something else gets nowhere. *)
Definition ex_old : st := snd (extract ex_check ex_xxh ex_untar ex_manifest ex_kind (Some [Chunk "tool.tgz"]) ex_order ["nm"; "old"] (Some "tool.tgz") true Auto ex_root).
Definition ex_before : st := set_blob "a" None ex_old.
Lemma ex_old_machine : ex_machine ex_kind ex_old.
Proof.
  unfold ex_machine, ex_old.
  refine (m_extract ex_check ex_xxh ex_untar ex_manifest ex_A (fun _ => True) ex_kind ex_root (Some [Chunk "tool.tgz"]) ex_order ["nm"; "old"] (Some "tool.tgz") true Auto _ _ ex_order_perm (ex_arrives (Some "tool.tgz") _ ex_A_tool)).
  - apply m_start; [reflexivity|apply ex_root_wf|apply ex_any].
  - apply ex_root_free; discriminate.
Qed.
Lemma ex_before_machine : ex_machine ex_kind ex_before.
Proof.
  unfold ex_before. generalize ex_old_machine. generalize ex_old. intros s M. pose proof (machine_sound ex_check ex_xxh ex_untar ex_manifest ex_A (fun _ => True) ex_kind s ex_honest M) as [[[W1 W2] _] _].
  unfold ex_machine. apply m_else with (s := s); [exact M| |apply ex_any|auto]. split; [exact W1|]. intros h i. cbn [s_blob set_blob s_inodes]. unfold supd. destruct (String.eqb h "a"); [discriminate|]. apply W2.
Qed.
Definition ex_p : package := ex_npm (Some "tool.tgz").
Example C64_example :
  honest_hashes ex_check ex_xxh ex_untar ex_A (fun _ => True) /\ ex_machine ex_kind ex_before /\ ex_machine ex_kind2 ex_root /\ integrity_of (pk_resolved ex_p) = Some "tool.tgz"
  /\ fst (ex_install ex_kind2 (fun _ => Some [Chunk "tool.tgz"]) ex_order ex_p ["nm"; "tool"] false Hardlink ex_root) = Ok "tool.tgz"
  /\ fst (ex_install ex_kind (fun _ => Some [Chunk "flat.tgz"]) ex_order ex_p ["nm"; "tool"] true Auto ex_root) = Err EIntegrity
  /\ fst (ex_install ex_kind (fun _ => Some [Chunk "flat.tgz"]) ex_order ex_p ["nm"; "tool"] true Auto (set_blob "a" (Some 0) ex_before)) <> Ok "tool.tgz"
  /\ fst (ex_install ex_kind (fun _ => None) ex_order ex_p ["nm"; "tool"] true Hardlink ex_old) = Ok "tool.tgz".
Proof.
  split; [exact ex_honest|]. split; [exact ex_before_machine|]. split; [apply m_start; [reflexivity|apply ex_root_wf|apply ex_any]|]. split; [reflexivity|].
  split; [vm_compute; reflexivity|]. split; [vm_compute; reflexivity|]. split; [vm_compute; discriminate|]. vm_compute. reflexivity.
Qed.
Lemma ok_pair A B (r : res err A * B) a : fst r = Ok a -> r = (Ok a, snd r).
Proof. destruct r; cbn. now intros ->. Qed.
(** C64 fails for packages of a registry that gives no integrity (many give only a "shasum", which is not looked at): the lockfile entry then has none, the package read back
    from it has none, and two machines accept whatever they are sent, although an integrity was computed from it. *)
Theorem C64_refuted : exists n p d s1 s2 m f1 f2 k1 k2 q,
  to_package (fun _ => "1.0.0") (fun _ => Ok (SNpm None "tool" (Some (VTag "1.0.0")))) Some (fun _ => Panic) (fun _ => "") n = Ok (Some p) /\ l_integrity n = None /\ integrity_of (pk_resolved p) = None
  /\ ex_machine m ex_root /\ vacant d ex_root /\ arrives ex_check ex_A None f1 /\ arrives ex_check ex_A None f2
  /\ ex_install m (fun _ => f1) ex_order p d true Auto ex_root = (Ok k1, s1) /\ ex_install m (fun _ => f2) ex_order p d true Auto ex_root = (Ok k2, s2)
  /\ contents_at s1 (d ++ q) <> contents_at s2 (d ++ q).
Proof.
  set (p := mkPkg "tool" (SNpm None "tool" (Some (VTag "1.0.0"))) (RNpm "tool" (mkV 1 0 0 []) "https://r/tool.tgz" None)). set (d := ["nm"; "tool"]).
  exists (mkLn "tool" false ["tool"] (Some "https://r/tool.tgz") (Some (mkV 1 0 0 [])) None [] [] [] []), p, d.
  exists (snd (ex_install ex_kind (fun _ => Some [Chunk "tool.tgz"]) ex_order p d true Auto ex_root)), (snd (ex_install ex_kind (fun _ => Some [Chunk "flat.tgz"]) ex_order p d true Auto ex_root)).
  exists ex_kind, (Some [Chunk "tool.tgz"]), (Some [Chunk "flat.tgz"]), "tool.tgz", "flat.tgz", ["index.js"].
  split; [reflexivity|]. split; [reflexivity|]. split; [reflexivity|]. split; [apply m_start; [reflexivity|apply ex_root_wf|apply ex_any]|].
  split; [apply ex_root_free; discriminate|]. split; [exact (ex_arrives None _ ex_A_tool)|]. split; [exact (ex_arrives None _ ex_A_flat)|].
  split; [apply ok_pair; vm_compute; reflexivity|]. split; [apply ok_pair; vm_compute; reflexivity|]. vm_compute. discriminate.
Qed.

Print Assumptions C64_enforced.
Print Assumptions C64_same_files.
Print Assumptions C64_reproducible_partial.
Print Assumptions C64_refuted.
