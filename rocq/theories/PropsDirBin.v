(** * C45 where it holds: directories.bin, for a package whose directory orogene runs in *)
From Verif Require Import Base Types StdPath BinModel BinProofs PathLookup LockfileGraph PropsBin.
From Coq Require Import Permutation.
Set Implicit Arguments.
Open Scope string_scope.
Open Scope list_scope.

(** a relative path, by its names *)
Definition path_text (ns : list string) : string := String.concat "/" ns.
(** an ordinary name, without Windows separators *)
Definition plain_name (n : string) : Prop := single n /\ no_char "\" n = true /\ no_char ":" n = true.

Lemma text_cons a ns : ns <> [] -> path_text (a :: ns) = (a ++ String "/" (path_text ns))%string.
Proof. destruct ns; [contradiction|reflexivity]. Qed.
Lemma text_body ns : Forall single ns -> ns <> [] -> body (path_text ns) = map CNormal ns.
Proof.
  induction 1 as [|a ns Ha F IH]; intros N; [contradiction|]. destruct ns as [|b ns].
  - cbn. now apply body_single.
  - rewrite text_cons by discriminate. rewrite body_app, body_single, IH by (assumption || discriminate). reflexivity.
Qed.
Lemma text_plain ns : Forall single ns -> ns <> [] -> components (path_text ns) = map CNormal ns /\ dot_first (path_text ns) = false.
Proof.
  intros F N. pose proof (text_body F N) as B. destruct F as [|a ns Ha F]; [contradiction|]. clear N.
  assert (Hd : lead_cur (path_text (a :: ns)) = false /\ is_abs (path_text (a :: ns)) = false).
  { destruct Ha as (A1 & A2 & A3 & A4). assert (E : exists t, split "/" (path_text (a :: ns)) = a :: t).
    { destruct ns as [|b ns]; [exists []; now apply split_whole|]. rewrite text_cons by discriminate. rewrite split_cons by assumption. eauto. }
    destruct E as [t E]. unfold lead_cur. rewrite E. split; [now apply String.eqb_neq|].
    destruct a as [|c a]; [contradiction|]. cbn in A2. apply andb_true_iff in A2 as [A2 _]. apply negb_true_iff in A2. destruct ns; exact A2. }
  destruct Hd as [L A]. split; [|unfold dot_first; now rewrite L, andb_false_r]. unfold components. rewrite A, L. exact B.
Qed.
Lemma last_map (ns : list string) n : last_comp (map CNormal (ns ++ [n])) = Some (CNormal n).
Proof. rewrite map_app. apply last_comp_app2. reflexivity. Qed.
Lemma text_name ns n : Forall single (ns ++ [n]) -> file_name (path_text (ns ++ [n])) = Some n.
Proof.
  intros F. destruct (text_plain F) as [C _]; [destruct ns; discriminate|]. unfold file_name. now rewrite C, last_map.
Qed.
Lemma aput_end {V} k (v : V) l : ~ In k (map fst l) -> sput k v l = l ++ [(k, v)].
Proof.
  induction l as [|[k' v'] l IH]; cbn; intros H; [reflexivity|]. destruct (String.eqb_spec k k') as [E|_]; [exfalso; apply H; left; now symmetry|].
  rewrite IH; [reflexivity|]. intros I. apply H. now right.
Qed.

Section Walk.
  Variable walkdir : string -> list (option string).
  (** an entry of the listing: its directory and its name *)
  Definition entry_text (e : list string * string) : string := path_text (fst e ++ [snd e]).
  Lemma walk_all ents : Forall (fun e => Forall single (fst e ++ [snd e])) ents -> forall acc, NoDup (map fst acc ++ map snd ents) ->
    walk_map (map (fun e => Some (entry_text e)) ents) acc = Ok (acc ++ map (fun e => (snd e, entry_text e)) ents).
  Proof.
    induction 1 as [|[ns n] ents Hs F IH]; intros acc ND; cbn [map walk_map]; [now rewrite app_nil_r|].
    unfold entry_text at 1 2 3. cbn [fst snd] in *. destruct (text_plain Hs) as [_ ->]; [destruct ns; discriminate|]. rewrite text_name by assumption.
    assert (N : ~ In n (map fst acc)). { intros I. cbn in ND. apply NoDup_remove_2 in ND. apply ND, in_app_iff. now left. }
    rewrite aput_end by assumption. rewrite IH; [now rewrite <- app_assoc|]. rewrite map_app. cbn. now rewrite <- app_assoc.
  Qed.

  (** C45 (partial): when what WalkDir finds under the declared directory, read from the directory orogene runs in, is [ents] (all
      paths below it, and the directory itself, with different names), the package's commands are those names, each leading to
      the entry's place in the package: the right ones if that is what the package contains there. Missing: any other current
      directory (C45_refuted); and the directory itself, and directories below it, get commands as well. *)
  Theorem C45_here_partial nm d ents : walkdir d = map (fun e => Some (entry_text e)) ents ->
    Forall (fun e => Forall plain_name (fst e ++ [snd e])) ents -> NoDup (map snd ents) ->
    exists m, normalize walkdir (mkRaw nm None (Some d)) (Ok m) /\
      forall m', normalize walkdir (mkRaw nm None (Some d)) (Ok m') -> forall n p,
        sget n m' = Some p <-> exists ns, In (ns, n) ents /\ p = map CNormal (ns ++ [n]).
  Proof.
    intros W F ND.
    assert (F' : Forall (fun e => Forall single (fst e ++ [snd e])) ents).
    { eapply Forall_impl; [|exact F]. intros e H. eapply Forall_impl; [|exact H]. now intros a []. }
    assert (Hbm : bin_map walkdir (mkRaw nm None (Some d)) = Ok (map (fun e => (snd e, entry_text e)) ents)).
    { unfold bin_map. cbn. rewrite W. now rewrite (walk_all F' []). }
    assert (P : forall e, In e ents -> bin_base (snd e) = Some (snd e) /\ bin_target (entry_text e) = Some (map CNormal (fst e ++ [snd e]))).
    { intros e I. rewrite Forall_forall in F, F'. specialize (F _ I). specialize (F' _ I). split.
      - rewrite Forall_app in F. destruct F as [_ F]. inversion F as [|? ? (A & B & C) _]; subst. now apply bin_base_id.
      - rewrite bin_target_spec. unfold entry_text. rewrite text_body; [|assumption|destruct (fst e); discriminate]. destruct (fst e); reflexivity. }
    assert (D : distinct_links (map (fun e => (snd e, entry_text e)) ents)).
    { intros n b n' b' x I I' E E'. apply in_map_iff in I as (e & Ee & I), I' as (e' & Ee' & I'). injection Ee as <- <-. injection Ee' as <- <-.
      destruct (P _ I) as [B _], (P _ I') as [B' _]. assert (K : snd e = snd e') by congruence.
      assert (e = e') as ->; [|reflexivity]. clear - ND I I' K. induction ents as [|a l IH]; [contradiction|]. cbn in ND. inversion ND; subst.
      destruct I as [->|I], I' as [->|I']; [reflexivity| | |now apply IH]; exfalso; match goal with H : ~ In _ _ |- _ => apply H end;
        [rewrite K|rewrite <- K]; now apply in_map. }
    eexists. split; [apply (norm_ok walkdir _ _ _ Hbm (Permutation_refl _))|]. intros m' H n p.
    rewrite (@c44 walkdir _ _ _ Hbm D H n p). split.
    - intros (n0 & b & I & B & T). apply in_map_iff in I as ([ns k] & E & I). injection E as <- <-. destruct (P _ I) as [B' T']. cbn [fst snd] in *.
      assert (k = n) as -> by congruence. exists ns. split; [assumption|congruence].
    - intros (ns & I & ->). destruct (P _ I) as [B T]. exists n, (entry_text (ns, n)). cbn [fst snd] in *. repeat split; try assumption.
      apply in_map_iff. exists (ns, n). auto.
  Qed.
End Walk.

(** the link of a command leads to the same path inside the package *)
Theorem C45_inside : forall dir ns n, snd (bin_link dir (n, map CNormal (ns ++ [n]))) = map CNormal (dir ++ ns ++ [n]).
Proof. intros. cbn. now rewrite !map_app. Qed.

Example ex_dirbin : exists m, normalize (fun _ => [Some "bin"; Some "bin/a.js"; Some "bin/lib/b.js"]) (mkRaw None None (Some "bin")) (Ok m)
  /\ sget "b.js" m = Some [CNormal "bin"; CNormal "lib"; CNormal "b.js"] /\ sget "bin" m = Some [CNormal "bin"].
Proof.
  destruct (@C45_here_partial (fun _ => [Some "bin"; Some "bin/a.js"; Some "bin/lib/b.js"]) None "bin" [([], "bin"); (["bin"], "a.js"); (["bin"; "lib"], "b.js")]) as (m & H & S).
  - reflexivity.
  - repeat constructor; discriminate.
  - cbn. repeat constructor; cbn; intuition discriminate.
  - exists m. split; [exact H|]. split; apply (S m H); [exists ["bin"; "lib"]|exists []]; cbn; auto.
Qed.

Print Assumptions C45_here_partial.
Print Assumptions C45_inside.
