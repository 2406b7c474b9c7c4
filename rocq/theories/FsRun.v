(** * Running the machine of Fs.v on concrete file systems (for examples and counterexamples) *)
From Verif Require Import Base Fs.
Open Scope list_scope.

Fixpoint fs_of (l : list (path * ent)) : fs := fun q =>
  match l with [] => None | (p, e) :: t => if path_eq_dec q p then Some e else fs_of t q end.
Lemma fs_of_supp l q : fs_of l q <> None -> In q (map fst l).
Proof. induction l as [|[p e] t IH]; cbn; [congruence|]. destruct (path_eq_dec q p); auto. Qed.

Definition condb (D : path -> bool) (q : path) : bool := existsb (fun n => D (firstn n q)) (seq 0 (S (length q))).
Lemma condb_spec D q : condb D q = true <-> condemned D q.
Proof.
  unfold condb. split.
  - intros E. apply existsb_exists in E. destruct E as (n & _ & H). exists (firstn n q). split; [auto|]. exists (skipn n q). now rewrite firstn_skipn.
  - intros (d & Hd & [r ->]). apply existsb_exists. exists (length d). split; [apply in_seq; rewrite app_length; lia|]. rewrite firstn_app, firstn_all, Nat.sub_diag. cbn. now rewrite app_nil_r.
Qed.
Definition put_okb (p : path) (e : ent) (f : fs) : bool :=
  forallb (fun n => match firstn n p with [] => true | q => match f q with None | Some EDir => true | _ => false end end) (seq 0 (length p))
  && match e, f p with EDir, (None | Some EDir) => true | EFile _, (None | Some (EFile _)) => true | ELink _, _ => true | _, _ => false end.
Lemma put_okb_spec p e f : put_okb p e f = true -> put_ok p e f.
Proof.
  unfold put_okb. rewrite andb_true_iff. intros [H1 H2]. split.
  - intros q ([r ->] & Hne & Hq). rewrite forallb_forall in H1. specialize (H1 (length q)). rewrite firstn_app, firstn_all, Nat.sub_diag in H1. cbn in H1.
    rewrite app_nil_r in H1. assert (Hin : In (length q) (seq 0 (length (q ++ r)))).
    { apply in_seq. rewrite app_length. destruct r; [rewrite app_nil_r in Hne; congruence|]. cbn. lia. }
    specialize (H1 Hin). destruct q as [|a q]; [congruence|]. destruct (f (a :: q)) as [[| |]|]; auto; discriminate.
  - destruct e; [destruct (f p) as [[| |]|]; auto; discriminate | | auto]. destruct (f p) as [[| |]|]; eauto; discriminate.
Qed.

Section Run.
  Variable META : Type.
  Variable doomed : path -> bool.
  Variable wipe : bool.
  Variable insts : list inst.
  Variable final_meta : META.
  Notation world := (world META).
  Notation wstep := (wstep META doomed wipe insts final_meta).
  Notation wsteps := (wsteps META doomed wipe insts final_meta).

  Inductive op := ORemove (p : path) | OUnmeta | OPruned | OStart | OPut (k : nat) | OTorn (k : nat) (b : string) | ODone.
  Fixpoint allnil (l : list (list item)) : bool := match l with [] => true | [] :: t => allnil t | _ => false end.
  (** [supp]: every path where something may exist *)
  Definition ostep (supp : list path) (w : world) (o : op) : option world :=
    match o, w_phase _ w with
    | ORemove p, Pruning =>
        if condb doomed p && match w_fs _ w p with Some _ => true | None => false end
           && forallb (fun q => negb (prefixb p q) || (if path_eq_dec q p then true else false) || match w_fs _ w q with None => true | _ => false end) supp
        then Some (mkW _ (fun q => if path_eq_dec q p then None else w_fs _ w q) (w_meta _ w) Pruning) else None
    | OUnmeta, Pruning => if wipe then Some (mkW _ (w_fs _ w) None Pruning) else None
    | OPruned, Pruning =>
        if forallb (fun q => negb (condb doomed q) || match w_fs _ w q with None => true | _ => false end) supp
           && (negb wipe || match w_meta _ w with None => true | _ => false end)
        then Some (mkW _ (w_fs _ w) (w_meta _ w) (Extracting insts [])) else None
    | OStart, Extracting (i :: next) live =>
        Some (mkW _ (w_fs _ w) (w_meta _ w) (Extracting next ((match i_check i with
                                        | Some d => match w_fs _ w d with None => items i | Some _ => i_links i end
                                        | None => i_links i end) :: live)))
    | OPut k, Extracting next live =>
        match skipn k live with
        | ((p, e) :: rest) :: l2 => if put_okb p e (w_fs _ w) then Some (mkW _ (put p e (w_fs _ w)) (w_meta _ w) (Extracting next (firstn k live ++ rest :: l2))) else None
        | _ => None
        end
    | OTorn k b', Extracting next live =>
        match skipn k live with
        | ((p, EFile b) :: rest) :: l2 => if put_okb p (EFile b) (w_fs _ w) then Some (mkW _ (put p (EFile b') (w_fs _ w)) (w_meta _ w) (Extracting next live)) else None
        | _ => None
        end
    | ODone, Extracting [] live => if allnil live then Some (mkW _ (w_fs _ w) (Some final_meta) Done) else None
    | _, _ => None
    end.
  Fixpoint orun (supp : list path) (w : world) (l : list op) : option world :=
    match l with [] => Some w | o :: t => match ostep supp w o with Some w' => orun supp w' t | None => None end end.

  Definition covers (supp : list path) (w : world) : Prop := match w_phase _ w with Pruning => forall q, w_fs _ w q <> None -> In q supp | _ => True end.
  Lemma allnil_spec l : allnil l = true -> Forall (fun x => x = []) l.
  Proof. induction l as [|[|] t IH]; cbn; [constructor | intros; constructor; auto | discriminate]. Qed.
  Lemma ostep_sound supp w o w' : covers supp w -> ostep supp w o = Some w' -> wstep w w' /\ covers supp w'.
  Proof.
    destruct w as [f m ph]. unfold covers, ostep. cbn [w_fs w_meta w_phase].
    destruct o as [p| | | |k|k b'|]; destruct ph as [|next live|]; try discriminate; intros Hc.
    - destruct (condb doomed p) eqn:E1; [|discriminate]. destruct (f p) eqn:E2; [|discriminate]. destruct (forallb _ supp) eqn:E3; [|discriminate]. cbn.
      intros H. injection H as <-. split.
      + apply s_remove; [now apply condb_spec | congruence|]. intros q Hp Hne. destruct (f q) eqn:E; [|auto]. exfalso.
        rewrite forallb_forall in E3. specialize (E3 q (Hc q ltac:(congruence))). rewrite E, (proj2 (prefixb_spec p q) Hp) in E3. destruct (path_eq_dec q p); [congruence|discriminate].
      + cbn. intros q Hq. destruct (path_eq_dec q p); [congruence | auto].
    - destruct wipe eqn:Ew; [|discriminate]. intros H. injection H as <-. split; [apply s_unmeta; reflexivity | exact Hc].
    - destruct (forallb _ supp) eqn:E1; [|discriminate]. cbn [andb]. destruct (negb wipe || _) eqn:E2; [|discriminate]. intros H. injection H as <-. split; [|exact Logic.I].
      apply s_pruned.
      + intros q Hq. destruct (f q) eqn:E; [|auto]. exfalso. rewrite forallb_forall in E1. specialize (E1 q (Hc q ltac:(congruence))). rewrite E in E1.
        rewrite (proj2 (condb_spec doomed q) Hq) in E1. discriminate.
      + intros ->. destruct m; [discriminate|auto].
    - destruct next as [|i next]; [discriminate|]. intros H. injection H as <-. split; [constructor | exact Logic.I].
    - destruct (skipn k live) as [|[|[p e] rest] l2] eqn:E; try discriminate. destruct (put_okb p e f) eqn:Eo; [|discriminate]. intros H. injection H as <-.
      split; [|exact Logic.I]. rewrite <- (firstn_skipn k live) at 1. rewrite E. constructor. now apply put_okb_spec.
    - destruct (skipn k live) as [|[|[p [|b|]] rest] l2] eqn:E; try discriminate. destruct (put_okb p (EFile b) f) eqn:Eo; [|discriminate]. intros H. injection H as <-.
      split; [|exact Logic.I]. rewrite <- (firstn_skipn k live). rewrite E. constructor. now apply put_okb_spec.
    - destruct next as [|i next]; [|discriminate]. destruct (allnil live) eqn:E; [|discriminate]. intros H. injection H as <-. split; [|exact Logic.I].
      constructor. now apply allnil_spec.
  Qed.
  Lemma orun_sound supp l : forall w w', covers supp w -> orun supp w l = Some w' -> wsteps w w'.
  Proof.
    assert (G : forall w0 w w', wsteps w0 w -> covers supp w -> orun supp w l = Some w' -> wsteps w0 w').
    { induction l as [|o t IH]; intros w0 w w' S Hc H; [injection H as <-; exact S|]. cbn in H. destruct (ostep supp w o) as [w1|] eqn:E; [|discriminate].
      destruct (ostep_sound _ _ _ _ Hc E) as [Hs Hc']. eapply IH; [|exact Hc'|exact H]. econstructor; eauto. }
    intros w w' Hc H. eapply G; eauto. constructor.
  Qed.

  (** where anything can exist after a run *)
  Definition supp_of (l : list inst) : list path :=
    flat_map (fun i => flat_map (fun t : item => map (fun n => firstn n (fst t)) (seq 0 (S (length (fst t))))) (items i)) l.
  Lemma supp_item i t q : In i insts -> In t (items i) -> q = fst t \/ above q (fst t) -> In q (supp_of insts).
  Proof.
    intros Hi Ht Hq. unfold supp_of. apply in_flat_map. exists i. split; [auto|]. apply in_flat_map. exists t. split; [auto|].
    assert (Hp : prefix q (fst t)) by (destruct Hq as [-> |Hq]; [apply prefix_refl | apply Hq]). destruct Hp as [r E].
    apply in_map_iff. exists (length q). rewrite E, firstn_app, firstn_all, Nat.sub_diag, firstn_O, app_nil_r. split; [auto|].
    rewrite app_length. change (0 :: seq 1 (length q + length r)) with (seq 0 (S (length q + length r))). apply in_seq. lia.
  Qed.
  Lemma wsteps_supp supp f m w : (forall q, f q <> None -> In q supp) -> wsteps (mkW _ f m Pruning) w -> forall q, w_fs _ w q <> None -> In q (supp ++ supp_of insts).
  Proof.
    intros Hf S.
    assert (G : (forall q, w_fs _ w q <> None -> In q (supp ++ supp_of insts))
      /\ forall next live, w_phase _ w = Extracting next live -> (forall i, In i next -> In i insts) /\ forall t, In t (concat live) -> exists i, In i insts /\ In t (items i)); [|apply G].
    induction S as [|w1 w2 S [IH1 IH2] Hs]; [split; [intros q Hq; apply in_app_iff; left; now apply Hf | discriminate]|].
    assert (PUT : forall (h : fs) p e i e', (forall q, h q <> None -> In q (supp ++ supp_of insts)) -> In i insts -> In (p, e) (items i) -> forall q, put p e' h q <> None -> In q (supp ++ supp_of insts)).
    { intros h p e i e' Hh Hi Hp q Hq. unfold put in Hq. destruct (path_eq_dec q p) as [->|Hn].
      - apply in_app_iff. right. apply (supp_item i (p, e)); auto.
      - destruct (aboveb q p) eqn:Ea; [|auto]. apply in_app_iff. right. apply (supp_item i (p, e)); auto. right. now apply aboveb_spec. }
    destruct Hs as [f1 m1 p Hc Hp Hl|f1 m1 Hw|f1 m1 Hc Hm|f1 m1 i next live|f1 m1 next l1 l2 p e rest Hok|f1 m1 next l1 l2 p b rest b' Hok|f1 m1 m' live Hl|f1 m1 live Hl];
      cbn [w_fs w_meta w_phase] in *; try (split; [assumption|]; discriminate).
    - split; [|discriminate]. intros q Hq. destruct (path_eq_dec q p); [congruence|auto].
    - split; [assumption|]. intros next live E. injection E as <- <-. split; [auto | intros t []].
    - destruct (IH2 _ _ eq_refl) as [A B]. split; [assumption|]. intros next' live' E. injection E as <- <-. split; [intros j Hj; apply A; now right|].
      intros t Ht. cbn in Ht. apply in_app_iff in Ht. destruct Ht as [Ht|Ht]; [|auto]. exists i. split; [apply A; now left|].
      destruct (i_check i) as [d|]; [destruct (f1 d)|]; auto; unfold items; apply in_app_iff; auto.
    - destruct (IH2 _ _ eq_refl) as [A B]. destruct (B (p, e)) as (i & Hi & Ht); [apply in_concat_mid; right; left; now left|]. split; [eapply PUT; eauto|].
      intros next' live' E. injection E as <- <-. split; [auto|]. intros t Ht'. apply B. apply in_concat_mid in Ht'. apply in_concat_mid. cbn. tauto.
    - destruct (IH2 _ _ eq_refl) as [A B]. destruct (B (p, EFile b)) as (i & Hi & Ht); [apply in_concat_mid; right; left; now left|]. split; [eapply PUT; eauto|].
      intros next' live' E. injection E as <- <-. auto.
    - destruct (IH2 _ _ eq_refl) as [A B]. split; [assumption|]. intros next' live' E. injection E as <- <-. auto.
  Qed.
End Run.
