(** * Running the machine of IsoMkdirModel on concrete file systems (for examples and counterexamples) *)
From Verif Require Import Base Types ResolverModel LockfileModel Fs FsRun FsPad HoistedModel IsolatedSpec IsolatedModel IsoMkdirModel.
Open Scope string_scope.
Open Scope list_scope.

Section Run.
  Variable META : Type.
  Variable doomed : path -> bool.
  Variable wipe : bool.
  Variable insts : list inst.
  Variable final_meta : META.
  Notation rworld := (rworld META).
  Notation rstep := (rstep META doomed wipe insts final_meta).
  Notation rsteps := (rsteps META doomed wipe insts final_meta).

  Inductive rop := RRemove (p : path) | RUnmeta | RPruned | RTop | RStart | RGo (k : nat) | RFinish.
  Definition atlinkb (l : list item) : bool := match l with (_, EDir) :: (_, ELink _) :: _ => true | (_, ELink _) :: _ => true | _ => false end.
  Definition isdirb (e : option ent) : bool := match e with Some EDir => true | _ => false end.
  Definition inb (p : path) (c : list path) : bool := if in_dec path_eq_dec p c then true else false.
  Definition mkdirp_okb (f : fs) (c : list path) (d : path) : bool :=
    if inb d c then true else if inb (removelast d) c then match f d with None => isdirb (f (removelast d)) | _ => false end else put_okb d EDir f.
  Definition upb (f : fs) (p : path) : bool := forallb (fun n => match firstn n p with [] => true | q => isdirb (f q) end) (seq 0 (List.length p)).
  Fixpoint rallnil (l : list task) : bool := match l with [] => true | (_, []) :: t => rallnil t | _ => false end.
  Definition rostep (supp : list path) (w : rworld) (o : rop) : option rworld :=
    let f := r_fs _ w in let m := r_meta _ w in let c := r_cache _ w in
    match o, r_phase _ w with
    | RRemove p, RPruning =>
        if condb doomed p && match f p with Some _ => true | None => false end
           && forallb (fun q => negb (prefixb p q) || (if path_eq_dec q p then true else false) || match f q with None => true | _ => false end) supp
           && match c with [] => true | _ => false end
        then Some (mkR _ (fun q => if path_eq_dec q p then None else f q) m RPruning []) else None
    | RUnmeta, RPruning => if wipe then match c with [] => Some (mkR _ f None RPruning []) | _ => None end else None
    | RPruned, RPruning =>
        if forallb (fun q => negb (condb doomed q) || match f q with None => true | _ => false end) supp
           && (negb wipe || match m with None => true | _ => false end) && match c with [] => true | _ => false end
        then Some (mkR _ f m (RExtracting insts []) []) else None
    | RTop, RExtracting (i :: next) [] =>
        match i_check i, i_links i, c with
        | None, [(d, EDir)], [] => if put_okb d EDir f then Some (mkR _ (put d EDir f) m (RExtracting next [(false, [])]) (ancestors d)) else None
        | _, _, _ => None
        end
    | RStart, RExtracting (i :: next) live =>
        match c with [] => None | _ =>
          Some (mkR _ f m (RExtracting next ((false, match i_check i with
                                        | Some d => match f d with None => items i | Some _ => i_links i end
                                        | None => i_links i end) :: live)) c)
        end
    | RGo k, RExtracting next live =>
        match skipn k live with
        | (b, (p, e) :: rest) :: l2 =>
            let back := fun f' x c' => Some (mkR _ f' m (RExtracting next (firstn k live ++ x :: l2)) c') in
            match e, rest, b with
            | ELink t, _, false => if isdirb (f (removelast p)) then back (put p (ELink t) f) (false, rest) c else None
            | EDir, (q, ELink t) :: rest', false =>
                if exists_at f q
                then if (put_okb p EDir f && upb f q)%bool then back (put q (ELink t) (put p EDir f)) (false, rest') c else None
                else back f (true, (p, e) :: rest) c
            | EDir, (q, ELink t) :: rest', true => if mkdirp_okb f c p then back (put p EDir f) (false, rest) (mkdirp_cache c p) else None
            | _, _, false => if put_okb p e f then back (put p e f) (false, rest) c else None
            | _, _, true => None
            end
        | _ => None
        end
    | RFinish, RExtracting [] live => if rallnil live then Some (mkR _ f (Some final_meta) RDone c) else None
    | _, _ => None
    end.
  Fixpoint rorun (supp : list path) (w : rworld) (l : list rop) : option rworld :=
    match l with [] => Some w | o :: t => match rostep supp w o with Some w' => rorun supp w' t | None => None end end.
  Definition rcovers (supp : list path) (w : rworld) : Prop := match r_phase _ w with RPruning => forall q, r_fs _ w q <> None -> In q supp | _ => True end.

  Lemma rallnil_spec l : rallnil l = true -> Forall (fun x => snd x = []) l.
  Proof. induction l as [|[b [|]] t IH]; cbn; [constructor | intros; constructor; auto | discriminate]. Qed.
  Lemma mkdirp_okb_spec f c d : mkdirp_okb f c d = true -> mkdirp_ok f c d.
  Proof.
    unfold mkdirp_okb, inb, mkdirp_ok. destruct (in_dec path_eq_dec d c); [auto|]. destruct (in_dec path_eq_dec (removelast d) c).
    - destruct (f d) eqn:E; [discriminate|]. destruct (f (removelast d)) as [[]|] eqn:E2; try discriminate. intros _. right. left. auto.
    - intros H. apply put_okb_spec in H. auto.
  Qed.
  Lemma upb_spec f p : upb f p = true -> forall a, above a p -> f a = Some EDir.
  Proof.
    unfold upb. rewrite forallb_forall. intros H a ([r ->] & Hne & Ha). specialize (H (List.length a)). rewrite firstn_app, firstn_all, Nat.sub_diag in H. cbn in H. rewrite app_nil_r in H.
    assert (I : In (List.length a) (seq 0 (List.length (a ++ r)))). { apply in_seq. rewrite app_length. destruct r; [rewrite app_nil_r in Hne; congruence|]. cbn. lia. }
    specialize (H I). destruct a as [|x a]; [congruence|]. destruct (f (x :: a)) as [[]|]; try discriminate. reflexivity.
  Qed.
  Lemma rostep_sound supp w o w' : rcovers supp w -> rostep supp w o = Some w' -> rstep w w' /\ rcovers supp w'.
  Proof.
    destruct w as [f m ph c]. unfold rcovers, rostep. cbn [r_fs r_meta r_phase r_cache].
    destruct o as [p| | | | |k|]; destruct ph as [|next live|]; try discriminate; intros Hc.
    - destruct (condb doomed p) eqn:E1; [|discriminate]. destruct (f p) eqn:E2; [|discriminate]. destruct (forallb _ supp) eqn:E3; [|discriminate]. destruct c; [|discriminate]. cbn.
      intros H. injection H as <-. split.
      + apply r_remove; [now apply condb_spec | congruence|]. intros q Hp Hne. destruct (f q) eqn:E; [|auto]. exfalso.
        rewrite forallb_forall in E3. specialize (E3 q (Hc q ltac:(congruence))). rewrite E, (proj2 (prefixb_spec p q) Hp) in E3. destruct (path_eq_dec q p); [congruence|discriminate].
      + cbn. intros q Hq. destruct (path_eq_dec q p); [congruence | auto].
    - destruct wipe eqn:Ew; [|discriminate]. destruct c; [|discriminate]. intros H. injection H as <-. split; [apply r_unmeta; reflexivity | exact Hc].
    - destruct (forallb _ supp) eqn:E1; [|discriminate]. cbn [andb]. destruct (negb wipe || _) eqn:E2; [|discriminate]. destruct c; [|discriminate]. intros H. injection H as <-. split; [|exact Logic.I].
      apply r_pruned.
      + intros q Hq. destruct (f q) eqn:E; [|auto]. exfalso. rewrite forallb_forall in E1. specialize (E1 q (Hc q ltac:(congruence))). rewrite E in E1.
        rewrite (proj2 (condb_spec doomed q) Hq) in E1. discriminate.
      + intros ->. destruct m; [discriminate|auto].
    - destruct next as [|i next]; [discriminate|]. destruct live; [|discriminate]. destruct (i_check i) eqn:Ec; [discriminate|]. destruct (i_links i) as [|[d [| |]] [|]] eqn:El; try discriminate.
      destruct c; [|discriminate]. destruct (put_okb d EDir f) eqn:Eo; [|discriminate]. intros H. injection H as <-. split; [|exact Logic.I]. apply r_top; auto. now apply put_okb_spec.
    - destruct next as [|i next]; [discriminate|]. destruct c as [|c0 c]; [discriminate|]. intros H. injection H as <-. split; [|exact Logic.I]. apply r_start. discriminate.
    - destruct (skipn k live) as [|[b [|[p e] rest]] l2] eqn:E; try discriminate.
      assert (El : live = firstn k live ++ (b, (p, e) :: rest) :: l2) by (transitivity (firstn k live ++ skipn k live); [symmetry; apply firstn_skipn|now rewrite E]).
      set (l1 := firstn k live) in *. clearbody l1. subst live. clear E.
      destruct e as [|x|t].
      + destruct rest as [|[q [|y|t]] rest]; destruct b; try discriminate.
        * destruct (put_okb p EDir f) eqn:Eo; [|discriminate]. intros H. injection H as <-. split; [|exact Logic.I]. apply r_item; [intros []|now apply put_okb_spec].
        * destruct (put_okb p EDir f) eqn:Eo; [|discriminate]. intros H. injection H as <-. split; [|exact Logic.I]. apply r_item; [intros []|now apply put_okb_spec].
        * destruct (put_okb p EDir f) eqn:Eo; [|discriminate]. intros H. injection H as <-. split; [|exact Logic.I]. apply r_item; [intros []|now apply put_okb_spec].
        * destruct (mkdirp_okb f c p) eqn:Eo; [|discriminate]. intros H. injection H as <-. split; [|exact Logic.I]. apply r_mkdir. now apply mkdirp_okb_spec.
        * destruct (exists_at f q) eqn:Ex.
          -- destruct (put_okb p EDir f) eqn:Eo; [|discriminate]. destruct (upb f q) eqn:Eu; [|discriminate]. intros H. injection H as <-. split; [|exact Logic.I].
             apply r_skip; [auto|now apply put_okb_spec|now apply upb_spec].
          -- intros H. injection H as <-. split; [|exact Logic.I]. now apply r_check.
      + destruct b; [destruct rest; discriminate|]. assert (Z : (if put_okb p (EFile x) f then Some (mkR META (put p (EFile x) f) m (RExtracting next (l1 ++ (false, rest) :: l2)) c) else None) = Some w' -> rstep (mkR META f m (RExtracting next (l1 ++ (false, (p, EFile x) :: rest) :: l2)) c) w' /\ match r_phase _ w' with RPruning => forall q, r_fs _ w' q <> None -> In q supp | _ => True end).
        { destruct (put_okb p (EFile x) f) eqn:Eo; [|discriminate]. intros H. injection H as <-. split; [|exact Logic.I]. apply r_item; [intros []|now apply put_okb_spec]. }
        destruct rest; exact Z.
      + destruct b; [destruct rest; discriminate|]. assert (Z : (if isdirb (f (removelast p)) then Some (mkR META (put p (ELink t) f) m (RExtracting next (l1 ++ (false, rest) :: l2)) c) else None) = Some w' -> rstep (mkR META f m (RExtracting next (l1 ++ (false, (p, ELink t) :: rest) :: l2)) c) w' /\ match r_phase _ w' with RPruning => forall q, r_fs _ w' q <> None -> In q supp | _ => True end).
        { destruct (f (removelast p)) as [[]|] eqn:Eo; try discriminate. intros H. injection H as <-. split; [|exact Logic.I]. now apply r_link. }
        destruct rest; exact Z.
    - destruct next as [|i next]; [|discriminate]. destruct (rallnil live) eqn:E; [|discriminate]. intros H. injection H as <-. split; [|exact Logic.I].
      constructor. now apply rallnil_spec.
  Qed.
  Lemma rorun_covers supp l : forall w w', rcovers supp w -> rorun supp w l = Some w' -> rsteps w w' /\ rcovers supp w'.
  Proof.
    assert (G : forall w0 w w', rsteps w0 w -> rcovers supp w -> rorun supp w l = Some w' -> rsteps w0 w' /\ rcovers supp w').
    { induction l as [|o t IH]; intros w0 w w' S Hc H; [injection H as <-; auto|]. cbn in H. destruct (rostep supp w o) as [w1|] eqn:E; [|discriminate].
      destruct (rostep_sound _ _ _ _ Hc E) as [Hs Hc']. eapply IH; [|exact Hc'|exact H]. econstructor; eauto. }
    intros w w' Hc H. eapply G; eauto. constructor.
  Qed.
  (** extraction to the end, one package after the other *)
  Definition choose (w : rworld) : rop :=
    match r_phase _ w with
    | RExtracting _ ((_, _ :: _) :: _) => RGo 0
    | RExtracting [] _ => RFinish
    | RExtracting _ _ => match r_cache _ w with [] => RTop | _ => RStart end
    | _ => RPruned
    end.
  Fixpoint rauto (supp : list path) (fuel : nat) (w : rworld) : option rworld :=
    match r_phase _ w, fuel with
    | RDone, _ => Some w
    | _, O => None
    | _, S n => match rostep supp w (choose w) with Some w' => rauto supp n w' | None => None end
    end.
  Lemma rauto_sound supp : forall n w w', rcovers supp w -> rauto supp n w = Some w' -> rsteps w w' /\ r_phase _ w' = RDone.
  Proof.
    assert (T : forall w1 w2 w3, rsteps w1 w2 -> rsteps w2 w3 -> rsteps w1 w3) by (intros w1 w2 w3 H1 H2; induction H2; [exact H1|econstructor; eauto]).
    assert (D : forall n w, rauto supp n w = match r_phase _ w, n with RDone, _ => Some w | _, O => None | _, S n => match rostep supp w (choose w) with Some w' => rauto supp n w' | None => None end end) by (destruct n; reflexivity).
    induction n as [|n IH]; intros w w' Hc; rewrite D; destruct (r_phase _ w) eqn:P; try discriminate; try (intros E; injection E as <-; split; [constructor|exact P]).
    - destruct (rostep supp w (choose w)) as [w1|] eqn:E; [|discriminate]. destruct (rostep_sound _ _ _ _ Hc E) as [Hs Hc']. intros Hr. destruct (IH w1 w' Hc' Hr) as [H1 H2]. split; [|exact H2].
      eapply T; [|exact H1]. econstructor; [constructor|exact Hs].
    - destruct (rostep supp w (choose w)) as [w1|] eqn:E; [|discriminate]. destruct (rostep_sound _ _ _ _ Hc E) as [Hs Hc']. intros Hr. destruct (IH w1 w' Hc' Hr) as [H1 H2]. split; [|exact H2].
      eapply T; [|exact H1]. econstructor; [constructor|exact Hs].
  Qed.
End Run.
