(** * What the resolver properties mean, stated on the resulting tree only. *)
From Verif Require Import Base Types ResolverModel ResolverProofs ResolverRun.

(** Package [i] is in the directory <root>/node_modules/x1/node_modules/x2/.../node_modules/xk for the
    path [x1; ...; xk]: follow the entries of the node_modules directories from the root. *)
Inductive installed_at (g : graph) : nat -> list string -> Prop :=
| at_root : installed_at g 0 []
| at_child p path x c : installed_at g p path -> child_of g p x = Some c -> installed_at g c (path ++ [x]).

(** Node.js resolution: package [i] requiring "x" gets package [c] when [c] is installed as x in the
    node_modules of some directory [pre] on [i]'s path and no deeper directory of the path has an x. *)
Definition visible (g : graph) (i : nat) (x : string) (c : nat) : Prop :=
  exists pre suf, installed_at g i (pre ++ suf) /\ installed_at g c (pre ++ [x])
    /\ forall pre' suf' c', pre' ++ suf' = pre ++ suf -> length pre < length pre' -> ~ installed_at g c' (pre' ++ [x]).

(** what package [i] declares *)
Definition declares (g : graph) (i : nat) (x : string) (s : pspec) (t : deptype) : Prop :=
  exists n, getn g i = Some n /\ sget x (n_reqs n) = Some (s, t).
(** package [i]'s dependency [x] has been linked to package [c] *)
Definition linked (g : graph) (i : nat) (x : string) (s : pspec) (t : deptype) (c : nat) : Prop :=
  exists n ei, getn g i = Some n /\ sget x (n_deps n) = Some ei /\ nth_error (g_edges g) ei = Some (mkEdge i c s t).
(** package [c] is an acceptable answer to request [s]: it satisfies it, or the registry answered it *)
Definition acceptable rsat canon (deliver : pspec -> outcome -> Prop) (g : graph) (c : nat) (s : pspec) : Prop :=
  exists n, getn g c = Some n /\
    (satisfies rsat canon (pk_resolved (n_pkg n)) s = Ok true \/ exists m, deliver s (Ok (n_pkg n, m))).

(** the installed tree as seen from outside: which package is at which path *)
Definition tree_has (g : graph) (path : list string) (p : package) : Prop :=
  exists i n, installed_at g i path /\ getn g i = Some n /\ n_pkg n = p.

Section Facts.
  Variable rsat : range -> version -> bool.
  Variable canon : string -> option string.
  Variable deliver : pspec -> outcome -> Prop.
  Notation GInv := (GInv rsat canon deliver).

  Lemma node_path_step g : parlt g -> forall i p, i < size g -> i <> 0 -> parent_of g i = Some p ->
    node_path g i = node_path g p ++ [name_of g i].
  Proof.
    intros Hp i p Hi Hne Hpi. unfold node_path at 1. rewrite parents_unfold by auto. rewrite Hpi.
    cbn. destruct (Nat.eqb_spec i 0); [lia|]. cbn. reflexivity.
  Qed.
  Lemma node_path_root g : parlt g -> 0 < size g -> parent_of g 0 = None -> node_path g 0 = [].
  Proof. intros Hp Hz Hr. unfold node_path. rewrite parents_unfold by auto. rewrite Hr. reflexivity. Qed.

  Lemma installed_path g q P : GInv g q P -> forall i path, installed_at g i path -> i < size g /\ path = node_path g i.
  Proof.
    intros I. pose proof (ginv_parlt _ _ _ _ _ _ I) as Hp. destruct (gi_root _ _ _ _ _ _ I) as [Hz Hr].
    induction 1 as [|p path x c H [IHl IH] Hc].
    - split; [lia|]. symmetry. now apply node_path_root.
    - destruct (gi_child _ _ _ _ _ _ I _ _ _ Hc) as (Hcs & Hcp & Hcn). split; [auto|].
      rewrite (node_path_step g Hp c p); auto; [now rewrite <- IH, Hcn|].
      intros ->. rewrite Hr in Hcp. discriminate.
  Qed.
  Lemma installed_all g q P : GInv g q P -> forall i, i < size g -> installed_at g i (node_path g i).
  Proof.
    intros I. pose proof (ginv_parlt _ _ _ _ _ _ I) as Hp. destruct (gi_root _ _ _ _ _ _ I) as [Hz Hr].
    induction i as [i IH] using lt_wf_ind. intros Hi. destruct (Nat.eq_dec i 0) as [->|Hne].
    - rewrite node_path_root by auto. constructor.
    - destruct (gi_par _ _ _ _ _ _ I i ltac:(lia)) as (p & Hpp & Hlt & Hc).
      rewrite (node_path_step g Hp i p) by auto. econstructor; [|exact Hc]. apply IH; lia.
  Qed.
  Lemma installed_inj g : forall i path, installed_at g i path -> forall j, installed_at g j path -> i = j.
  Proof.
    induction 1 as [|p path x c H IH Hc]; intros j Hj.
    - inversion Hj as [|p' path' x' c' H' Hc' E0 E]; [easy|]. destruct path'; discriminate.
    - inversion Hj as [E0 E|p' path' x' c' H' Hc' E0 E]; [destruct path; discriminate|].
      apply app_inj_tail in E. destruct E as [-> ->]. rewrite <- (IH _ H') in Hc'. congruence.
  Qed.

  Lemma installed_under g q P : GInv g q P -> forall i a, under g i a -> i < size g -> exists suf, node_path g i = node_path g a ++ suf.
  Proof.
    intros I. pose proof (ginv_parlt _ _ _ _ _ _ I) as Hp. destruct (gi_root _ _ _ _ _ _ I) as [Hz Hr].
    intros i a Hu. induction Hu as [i|i p a Hpi Hu IH]; intros Hi; [exists []; now rewrite app_nil_r|].
    assert (p < i) by now apply Hp. destruct IH as [suf Hs]; [lia|].
    exists (suf ++ [name_of g i]). rewrite (node_path_step g Hp i p); auto; [|lia]. now rewrite Hs, app_assoc.
  Qed.

  (** prefixes of a package's path belong to the packages that contain it *)
  Lemma prefix_under g q P : GInv g q P -> forall i, i < size g -> forall pre suf j, node_path g i = pre ++ suf -> installed_at g j pre -> under g i j.
  Proof.
    intros I. pose proof (ginv_parlt _ _ _ _ _ _ I) as Hp. destruct (gi_root _ _ _ _ _ _ I) as [Hz Hr].
    induction i as [i IH] using lt_wf_ind. intros Hi pre suf j Hpath Hj.
    destruct suf as [|y suf] using rev_ind.
    - rewrite app_nil_r in Hpath. assert (i = j).
      { eapply installed_inj; [|exact Hj]. rewrite <- Hpath. eapply installed_all; eauto. }
      subst; constructor.
    - clear IHsuf. destruct (Nat.eq_dec i 0) as [->|Hne].
      + rewrite node_path_root in Hpath by auto. destruct pre; [destruct suf; discriminate | discriminate].
      + destruct (gi_par _ _ _ _ _ _ I i ltac:(lia)) as (p & Hpp & Hlt & Hc).
        rewrite (node_path_step g Hp i p) in Hpath by auto. rewrite app_assoc in Hpath.
        apply app_inj_tail in Hpath. destruct Hpath as [Hpath _].
        eapply under_step; [eauto|]. eapply IH; eauto. lia.
  Qed.

  Lemma lookup_visible g q P : GInv g q P -> forall i x c, i < size g -> lookup g i x c <-> visible g i x c.
  Proof.
    intros I i x c Hi. pose proof (ginv_parlt _ _ _ _ _ _ I) as Hp. split.
    - intros Hl. destruct (lookup_spec _ _ _ _ Hl) as (qq & Hu & Hc & Hmin).
      destruct (installed_under _ _ _ I _ _ Hu Hi) as [suf Hs].
      assert (Hqs : qq < size g) by (eapply child_of_lt; eauto).
      exists (node_path g qq), suf. rewrite <- Hs. repeat split.
      + eapply installed_all; eauto.
      + econstructor; [eapply installed_all; eauto | exact Hc].
      + intros pre' suf' c' E Hlen Hin.
        inversion Hin as [E0 E0'|p' path' x' c'' H' Hc' E0 E']; [destruct pre'; discriminate|].
        apply app_inj_tail in E'. destruct E' as [-> ->]. subst c''.
        assert (Hu' : under g i p') by (apply (prefix_under g q P I i Hi pre' suf' p'); auto).
        assert (Hqp : under g qq p') by (apply Hmin; [auto | congruence]).
        destruct (installed_under _ _ _ I _ _ Hqp Hqs) as [s2 Hs2].
        destruct (installed_path _ _ _ I _ _ H') as [_ Hpp]. rewrite Hs2, <- Hpp, app_length in Hlen. lia.
    - intros (pre & suf & Hin & Hc & Hno).
      destruct (installed_path _ _ _ I _ _ Hin) as [_ Hpath].
      inversion Hc as [E0 E0'|p' path' x' c'' H' Hc' E0 E']; [destruct pre; discriminate|].
      apply app_inj_tail in E'. destruct E' as [-> ->]. subst c''.
      assert (Hu : under g i p') by (apply (prefix_under g q P I i Hi pre suf p'); auto).
      destruct (installed_path _ _ _ I _ _ H') as [Hps Hpp].
      apply (lookup_climb g x c i p'); auto; [|now constructor].
      intros j Hij Hjp Hne. destruct (child_of g j x) as [cj|] eqn:E; [exfalso|easy].
      assert (Hjs : j < size g) by (eapply child_of_lt; eauto).
      destruct (installed_under _ _ _ I _ _ Hij Hi) as [s1 Hs1].
      destruct (installed_under _ _ _ I _ _ Hjp Hjs) as [s2 Hs2].
      apply (Hno (node_path g j) s1 cj).
      + now rewrite <- Hs1.
      + rewrite Hs2, Hpp, app_length. destruct s2; [|cbn; lia].
        rewrite app_nil_r in Hs2. exfalso. apply Hne. eapply installed_inj; [eapply installed_all; eauto|].
        rewrite Hs2. eapply installed_all; eauto.
      + econstructor; [eapply installed_all; eauto | exact E].
  Qed.
End Facts.
