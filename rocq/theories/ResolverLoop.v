(** * A registry of four exact versions for which resolution never ends.
    a 1.0.0 needs b 1.0.0, which needs a 2.0.0, which needs b 2.0.0, which needs a 1.0.0. Each package is put where the next one
    sees the wrong version of what it needs. *)
From Verif Require Import Base Types ResolverModel ResolverProofs ResolverRun ResolverSpec ResolverThms ResolverSteps ResolverTerm ResolverSafe ResolverExamples.
From Coq Require Import Permutation.
Open Scope string_scope.
Open Scope list_scope.

(** the four packages: name (false: a, true: b) and major version (false: 1, true: 2) *)
Definition nm (b : bool) : string := if b then "b" else "a".
Definition vr (c : bool) : version := if c then v 2 0 else v 1 0.
Definition vtext (c : bool) : string := if c then "2.0.0" else "1.0.0".
Definition nextv (b c : bool) : bool := if b then negb c else c.
Definition spec8 (b c : bool) : pspec := npm (nm b) (VVersion (vr c)).
Definition man8 (b c : bool) : manifest := man [(nm (negb b), vtext (nextv b c))].
Definition reg8 : registry := [("a", [(v 1 0, man8 false false); (v 2 0, man8 false true)]); ("b", [(v 1 0, man8 true false); (v 2 0, man8 true true)])].
Definition root8 := mk_root (man [("a", "1.0.0")]).
Lemma root8_new : new_node ex_parse "root" root_pkg (man [("a", "1.0.0")]) true = Ok root8.
Proof. reflexivity. Qed.

(** in JSON: {"a":{"1.0.0":{"b":"1.0.0"},"2.0.0":{"b":"2.0.0"}},"b":{"1.0.0":{"a":"2.0.0"},"2.0.0":{"a":"1.0.0"}}} *)
Example reg8_is : reg8 =
  [("a", [(v 1 0, man [("b", "1.0.0")]); (v 2 0, man [("b", "2.0.0")])]); ("b", [(v 1 0, man [("a", "2.0.0")]); (v 2 0, man [("a", "1.0.0")])])].
Proof. reflexivity. Qed.

Definition is8 (g : graph) (i : nat) (b c : bool) : Prop :=
  name_of g i = nm b /\ (exists p, pkg_of g i = Some p /\ pk_resolved p = RNpm (nm b) (vr c) (nm b) None)
  /\ (forall y, req_of g i y = if String.eqb y (nm (negb b)) then Some (spec8 (negb b) (nextv b c), Prod) else None).

Lemma answer8 b c : answer reg8 (spec8 b c) = Ok (mkPkg (nm b) (spec8 b c) (RNpm (nm b) (vr c) (nm b) None), man8 b c).
Proof. destruct b, c; reflexivity. Qed.
Lemma unsat8 b c p : pk_resolved p = RNpm (nm b) (vr c) (nm b) None -> satisfies ex_rsat ex_canon (pk_resolved p) (spec8 b (negb c)) = Ok false.
Proof. intros ->. destruct b, c; reflexivity. Qed.
Lemma reqs8 b c name p n : new_node ex_parse name p (man8 b c) false = Ok n -> n_reqs n = [(nm (negb b), (spec8 (negb b) (nextv b c), Prod))].
Proof. destruct b, c; cbn; intros E; injection E as <-; reflexivity. Qed.

(** what package [f] needs: nothing of that name is there yet and [f] is at the top, or the copy it sees is of the wrong version and
        is installed beside [f] or beside the package that contains [f] *)
Definition sees8 (g : graph) (f : nat) (b c : bool) : Prop :=
  (parent_of g f = Some 0 /\ child_of g 0 (nm (negb b)) = None)
  \/ exists P h o, parent_of g f = Some P /\ (h = P \/ parent_of g P = Some h) /\ child_of g h (nm (negb b)) = Some o
       /\ (h <> P -> child_of g P (nm (negb b)) = None) /\ is8 g o (negb b) (negb (nextv b c)).
Definition J8 (k : nat) (g : graph) (q : list nat) (P : list dep) : Prop :=
  exists f, ((q = [f] /\ P = []) \/ (q = [] /\ exists d, P = [d] /\ d_node d = f))
   /\ (forall x, child_of g f x = None)
   /\ ((f = 0 /\ size g = 1 /\ forall y, req_of g 0 y = if String.eqb y "a" then Some (spec8 false false, Prod) else None)
       \/ (0 < f < size g /\ exists b c, is8 g f b c /\ sees8 g f b c)).

Lemma nm_neq b : String.eqb (nm b) (nm (negb b)) = false. Proof. destruct b; reflexivity. Qed.
Lemma nextv2 b c : nextv (negb b) (nextv b c) = negb c. Proof. destruct b, c; reflexivity. Qed.

Lemma J8_reach s : ex_reach reg8 root8 s -> J8 0 (s_g s) (s_q s) (waiting s).
Proof.
  intros Hs.
  destruct (reach_J ex_rsat ex_canon ex_parse unit (fun _ => []) (fun _ => no_deps) (fun _ => Ok None) (ex_deliver reg8) None 0 J8)
    with (root := root8) (pkg := root_pkg) (m := man [("a", "1.0.0")]) (name := "root") (k := 0) (s := s) as (k' & _ & H); auto.
  - intros k g q q' P P' Hq HP (f & [[-> ->]|[-> (d & -> & Hd)]] & H2).
    + apply Permutation_nil in HP. apply Permutation_length_1_inv in Hq. subst. exists f. split; [left; auto|auto].
    + apply Permutation_nil in Hq. apply Permutation_length_1_inv in HP. subst. exists (d_node d). split; [right; eauto|auto].
  - intros k g q P d g' x I (f & [[_ E]|[-> (d' & E & Hd)]] & Hleaf & Hf) Hsat; [discriminate|]. injection E as <- ->. exfalso.
    pose proof (ginv_parlt _ _ _ _ _ _ I) as Hp.
    destruct (gi_P _ _ _ _ _ _ I d (or_introl eq_refl)) as (Hdn & _ & _ & Hdr). rewrite Hd in Hdn, Hdr.
    destruct (satisfy_some _ _ _ _ _ _ Hsat) as (nx & Hr & Hx & Hss & _). rewrite Hd in Hr.
    apply (lookup_resolve g Hp f Hdn) in Hr.
    assert (Hup : forall y P0, parent_of g f = Some P0 -> lookup g f y x -> lookup g P0 y x).
    { intros y P0 HP0 Hl. inversion Hl as [? ? ? Hc|? ? ? ? _ Hp0 Hl']; subst; [rewrite Hleaf in Hc; discriminate|congruence]. }
    destruct Hf as [(-> & Hsz & Hq)|(Hfs & b & c & (Hn & _ & Hq) & Hsee)].
    + inversion Hr as [? ? ? Hc|? ? ? ? _ Hp0 _]; subst; [rewrite Hleaf in Hc; discriminate|].
      rewrite (proj2 (gi_root _ _ _ _ _ _ I)) in Hp0. discriminate.
    + rewrite Hq in Hdr. destruct (String.eqb_spec (d_name d) (nm (negb b))) as [En|]; [|discriminate]. injection Hdr as Esp _. rewrite En in Hr.
      destruct Hsee as [[Hpf Hc0]|(P0 & h & o & Hpf & Hh & Hc & Hno & Ho)].
      * apply (Hup _ _ Hpf) in Hr. inversion Hr as [? ? ? Hc|? ? ? ? _ Hp0 _]; subst; [rewrite Hc0 in Hc; discriminate|].
        rewrite (proj2 (gi_root _ _ _ _ _ _ I)) in Hp0. discriminate.
      * apply (Hup _ _ Hpf) in Hr. assert (x = o).
        { destruct Hh as [->|Hh].
          - inversion Hr as [? ? ? Hc1|? ? ? ? Hc1 Hp0 _]; subst; congruence.
          - destruct (Nat.eq_dec h P0) as [->|Hne]; [apply Hp in Hh; lia|].
            inversion Hr as [? ? ? Hc1|? ? ? ? Hc1 Hp0 Hr']; subst; [rewrite Hno in Hc1 by auto; discriminate|].
            rewrite Hh in Hp0. injection Hp0 as <-. inversion Hr' as [? ? ? Hc2|? ? ? ? Hc2 _ _]; subst; congruence. }
        subst x. destruct Ho as (_ & (po & Hpo & Eo) & _). unfold pkg_of in Hpo. rewrite Hx in Hpo. injection Hpo as <-.
        pose proof (unsat8 _ _ _ Eo) as Hun. rewrite negb_involutive in Hun. rewrite <- Esp in Hss. congruence.
  - intros k g q P d p m' tp g' ci I (f & [[_ E]|[-> (d' & E & Hd)]] & Hleaf & Hf) Hsat Hpr Hpl; [discriminate|]. injection E as <- ->.
    exists k. split; [lia|].
    pose proof (ginv_parlt _ _ _ _ _ _ I) as Hp. destruct (gi_root _ _ _ _ _ _ I) as [Hz Hr0].
    destruct (gi_P _ _ _ _ _ _ I d (or_introl eq_refl)) as (Hdn & _ & _ & Hdr). rewrite Hd in Hdn, Hdr.
    destruct (place_child_inv _ _ _ _ _ _ _ _ _ _ ltac:(rewrite Hd; exact Hdn) Hp Hpl) as (cn & tgt & Hcn & -> & U & Htl & Hut & Hpass).
    destruct U as (Usz & Hed & Upar & Uch & Unm & Upk & Urq & Udp & Unr).
    destruct (new_node_ok _ _ _ _ _ _ Hcn) as (Hnm & Hpk & Hpa & Hch & Hde & Hnd).
    destruct Hpr as [[-> Hdel]|(lf & ln & E & _)]; [|discriminate]. rewrite Hd in *.
    assert (Hgo : forall b c, d_name d = nm b -> d_spec d = spec8 b c -> is8 g' (size g) b c).
    { intros b c En Es. unfold ex_deliver in Hdel. rewrite Es, answer8 in Hdel. injection Hdel as -> ->.
      split; [|split].
      - rewrite Unm, Nat.eqb_refl. congruence.
      - exists (n_pkg cn). rewrite Upk, Nat.eqb_refl. split; [auto|]. rewrite Hpk. reflexivity.
      - intros y. rewrite Urq, Nat.eqb_refl, (reqs8 _ _ _ _ _ Hcn). cbn. reflexivity. }
    assert (Hcnew : forall x, child_of g' (size g) x = None).
    { intros x. rewrite Uch. destruct (Nat.eqb_spec (size g) tgt) as [E|]; [lia|]. cbn.
      destruct (child_of g (size g) x) eqn:E; [|auto]. apply child_of_lt in E. lia. }
    exists (size g). split; [left; auto|]. split; [exact Hcnew|]. right. split; [lia|].
    destruct Hf as [(-> & Hsz & Hq)|(Hfs & b & c & H8 & Hsee)].
    + rewrite Hq in Hdr. destruct (String.eqb_spec (d_name d) "a") as [En|]; [|discriminate]. injection Hdr as Esp _.
      exists false, false. split; [apply Hgo; auto|]. left. assert (tgt = 0) by (pose proof (under_lt _ Hp _ _ Hut); lia). subst tgt.
      split; [rewrite Upar, Nat.eqb_refl; auto|]. rewrite Uch, En. cbn. apply Hleaf.
    + destruct H8 as (Hn & (pf & Hpf & Epf) & Hq).
      rewrite Hq in Hdr. destruct (String.eqb_spec (d_name d) (nm (negb b))) as [En|]; [|discriminate]. injection Hdr as Esp _.
      exists (negb b), (nextv b c). split; [apply Hgo; auto|]. right.
      destruct (gi_par _ _ _ _ _ _ I f ltac:(lia)) as (P0 & HP0 & HP0lt & HP0c). rewrite Hn in HP0c.
      assert (Hf' : is8 g' f (negb (negb b)) (negb (nextv (negb b) (nextv b c)))).
      { rewrite nextv2, !negb_involutive. split; [|split].
        - rewrite Unm. destruct (Nat.eqb_spec f (size g)); [lia|auto].
        - exists pf. rewrite Upk. destruct (Nat.eqb_spec f (size g)); [lia|auto].
        - intros y. rewrite Urq. destruct (Nat.eqb_spec f (size g)); [lia|auto]. }
      assert (Htgt : tgt = f \/ tgt = P0).
      { destruct (Nat.eq_dec tgt f) as [|Hne]; [auto|right].
        destruct Hpass as [|Hpass]; [congruence|].
        pose proof (target_clear ex_rsat ex_canon (ex_deliver reg8) g [] [] d cn tgt p I Hpa Hch Hsat ltac:(rewrite Hd; exact Hut)) as Hclear. rewrite Hd in Hclear.
        specialize (Hclear Hpass).
        inversion Hut as [|? p1 ? Hp1 Hu1]; subst; [congruence|]. rewrite HP0 in Hp1. injection Hp1 as <-.
        inversion Hu1 as [|? p2 ? Hp2 Hu2]; subst; [auto|]. exfalso.
        assert (Uf : under g (d_node d) P0) by (eapply under_step; [exact HP0|constructor]).
        assert (Uh : under g (d_node d) p2) by (eapply under_trans; [exact Uf|eapply under_step; [exact Hp2|constructor]]).
        destruct Hsee as [[Hpz _]|(P1 & h & o & HP1 & Hh & Hc & _)].
        - rewrite HP0 in Hpz. injection Hpz as ->. congruence.
        - rewrite HP0 in HP1. injection HP1 as <-. rewrite En in Hclear. destruct Hh as [->|Hh].
          + rewrite (Hclear P0) in Hc; [discriminate|exact Uf|exact Hu1].
          + rewrite Hp2 in Hh. injection Hh as <-. rewrite (Hclear p2) in Hc; [discriminate|exact Uh|exact Hu2]. }
      assert (Hcf : forall x, x = nm b -> child_of g' P0 x = Some f).
      { intros x ->. rewrite Uch, En. rewrite nm_neq, andb_false_r. exact HP0c. }
      exists tgt, P0, f. rewrite !negb_involutive. split; [rewrite Upar, Nat.eqb_refl; auto|].
      split; [destruct Htgt as [->| ->]; [right|left; auto]; rewrite Upar; destruct (Nat.eqb_spec f (size g)); [lia|auto]|].
      split; [apply Hcf; auto|]. split.
      * intros Hne. destruct Htgt as [->| ->]; [|congruence]. rewrite Uch, En, nm_neq, andb_false_r. apply Hleaf.
      * rewrite nextv2, negb_involutive in Hf' |- *. rewrite negb_involutive in Hf'. exact Hf'.
  - intros k g i q P n I (f & [[E ->]|[E _]] & Hleaf & Hf) Hn; [|discriminate]. injection E as -> ->. exists k. split; [lia|].
    exists f. split; [|auto]. right. split; [auto|]. rewrite app_nil_r.
    assert (Hone : exists x sp t, n_reqs n = [(x, (sp, t))]).
    { assert (Hr : exists x r, forall y, sget y (n_reqs n) = if String.eqb y x then Some r else None).
      { destruct Hf as [(-> & _ & Hq)|(_ & b & c & (_ & _ & Hq) & _)]; unfold req_of in Hq; rewrite Hn in Hq; eauto. }
      destruct Hr as (x & [sp t] & Hr). pose proof (gi_reqs _ _ _ _ _ _ I _ _ Hn) as Hnd. exists x, sp, t.
      destruct (n_reqs n) as [|[y e] l]; [specialize (Hr x); rewrite String.eqb_refl in Hr; discriminate|].
      pose proof (Hr y) as E. cbn [aget] in E. rewrite String.eqb_refl in E. destruct (String.eqb_spec y x) as [->|]; [|discriminate]. injection E as ->.
      destruct l as [|[z e'] l]; [auto|]. exfalso. inversion Hnd as [|? ? Hni _]; subst. cbn in Hni.
      pose proof (Hr z) as E. cbn [aget] in E. destruct (String.eqb_spec z x) as [->|]; [tauto|]. rewrite String.eqb_refl in E. discriminate. }
    destruct Hone as (x & sp & t & E). unfold deps_of. rewrite E. cbn. eexists. split; [reflexivity|reflexivity].
  - exists 0. split; [left; auto|]. split; [intros x; reflexivity|]. left. split; [auto|]. split; [reflexivity|].
    intros y. reflexivity.
Qed.

Lemma reg8_never s : ex_reach reg8 root8 s -> finished s = false.
Proof.
  intros Hs. pose proof (reach_inv _ _ _ _ _ _ _ _ _ _ _ _ _ _ root8_new Hs) as SI. destruct (finished s) eqn:Hf; [exfalso|auto].
  destruct (finished_nil _ _ _ _ SI Hf) as [Hq Hw]. destruct (J8_reach s Hs) as (f & [[E _]|[_ (d & E & _)]] & _); congruence.
Qed.
Lemma reg8_pending s : ex_reach reg8 root8 s -> forall d, In d (waiting s) -> exists b c, d_spec d = spec8 b c.
Proof.
  intros Hs d Hd. pose proof (reach_inv _ _ _ _ _ _ _ _ _ _ _ _ _ _ root8_new Hs) as SI. pose proof SI as [I _ _ _ _].
  destruct (gi_P _ _ _ _ _ _ I d Hd) as (_ & _ & _ & Hr).
  destruct (J8_reach s Hs) as (f & [[_ E]|[_ (d' & E & Ef)]] & _ & Hf); rewrite E in Hd; [destruct Hd|]. destruct Hd as [<-|[]]. rewrite Ef in Hr.
  destruct Hf as [(-> & _ & Hq)|(_ & b & c & (_ & _ & Hq) & _)]; rewrite Hq in Hr.
  - destruct (String.eqb _ _); [|discriminate]. injection Hr as <- _. eauto.
  - destruct (String.eqb _ _); [|discriminate]. injection Hr as <- _. eauto.
Qed.
Lemma reg8_runs_on n : exists s, ex_steps reg8 root8 n s.
Proof.
  induction n as [|n [s IH]]; [exists (init root8); constructor|].
  pose proof (steps_reach _ _ _ _ _ _ _ _ _ _ _ _ IH) as Hs.
  pose proof (reach_inv _ _ _ _ _ _ _ _ _ _ _ _ _ _ root8_new Hs) as SI.
  pose proof (reg8_never s Hs) as Hf.
  assert (Hgo : forall a r, legal (ex_deliver reg8) a -> fine_action false a -> ex_exec s a = Some r -> exists s', ex_steps reg8 root8 (S n) s').
  { intros a r Hl Hfa He. assert (Hfine : fine false r).
    { eapply (exec_fine ex_rsat ex_canon ex_parse unit (fun _ => []) (fun _ => no_deps) (fun _ => Ok None) (ex_deliver reg8) None false); eauto.
      - intros nm0 sp. unfold ex_parse. repeat match goal with |- fine _ (if ?b then _ else _) => destruct b end; exact Logic.I.
      - intros p. right. discriminate.
      - discriminate. }
    destruct r as [s'|e|]; cbn in Hfine; [|discriminate|destruct Hfine]. exists s'. econstructor; eauto. }
  destruct (progress ex_rsat ex_canon ex_parse unit (fun _ => []) (fun _ => no_deps) (fun _ => Ok None) (ex_deliver reg8) None s SI Hf) as [[r Hr]|(k & spec & Hch)].
  - eapply (Hgo APop); eauto; exact Logic.I.
  - destruct (Hch (answer reg8 spec)) as [r Hr].
    assert (Hspec : exists b c, spec = spec8 b c).
    { cbn [exec] in Hr. destruct (s_q s); [|discriminate]. destruct (Nat.eqb (s_inflight s) 0); [discriminate|].
      cbn [existsb fst] in Hr. destruct (aget pspec_eqb spec (s_fetches (pull k s))) as [l|] eqn:E; [|discriminate].
      destruct (pull_inv _ _ _ k s [] SI) as [[_ _ _ S N] HW]. apply aget_In in E; [|apply pspec_eqb_spec].
      destruct l as [|d l]; [exfalso; eapply N; eauto|].
      rewrite <- (S _ _ d E (or_introl eq_refl)). apply (reg8_pending s Hs).
      eapply Permutation.Permutation_in; [exact HW|]. unfold waiting. apply in_app_iff. right.
      apply in_concat. exists (d :: l). split; [|now left]. apply in_map_iff. exists (spec, d :: l). auto. }
    destruct Hspec as (b & c & ->). eapply (Hgo (AChunk k [_])); [| |exact Hr].
    + constructor; [reflexivity | constructor].
    + constructor; [cbn [snd]; rewrite answer8; exact Logic.I | constructor].
Qed.
