(** * Extraction: effects of the basic operations, and confinement to the destination, proofs *)
From Verif Require Import Base Types StdPath Fs TarModel.
Open Scope string_scope.
Open Scope list_scope.

(** ** paths *)
Definition names (rel : string) : path := flat_map (fun c => match c with CNormal x => [x] | _ => [] end) (body rel).
(** a relative path without "..": it leads below the directory it starts from *)
Definition tame (rel : string) : Prop := ~ In CParent (body rel).
Lemma resolve_from_plain l : forall stack, resolve_from stack (map CNormal l) = rev stack ++ l.
Proof.
  induction l as [|x l IH]; intros stack; cbn [map resolve_from]; [now rewrite app_nil_r|]. rewrite IH. cbn [rev]. now rewrite <- app_assoc.
Qed.
Lemma resolve_plain l : resolve (map CNormal l) = l.
Proof. unfold resolve. now rewrite resolve_from_plain. Qed.
Lemma at_dir_plain d rel : tame rel -> at_dir d rel = map CNormal (d ++ names rel).
Proof.
  unfold tame, at_dir, names. intros H. rewrite map_app. f_equal.
  assert (K : forall c, In c (body rel) -> exists x, c = CNormal x).
  { intros c Hc. destruct (body_kinds _ _ Hc) as [->|K]; [contradiction|exact K]. }
  clear H. induction (body rel) as [|c l IH]; [reflexivity|]. destruct (K c (or_introl eq_refl)) as (x & ->). cbn. f_equal. apply IH. intros; apply K. now right.
Qed.
Lemma sparent_plain l : sparent (map CNormal l) = map CNormal (removelast l).
Proof. unfold sparent. induction l as [|x [|y l] IH]; [reflexivity|reflexivity|]. cbn [map removelast] in *. now rewrite IH. Qed.
Lemma comp_eqb_spec a b : comp_eqb a b = true <-> a = b.
Proof. destruct a, b; cbn; try (split; congruence). rewrite String.eqb_eq. split; congruence. Qed.
Lemma spath_eqb_spec a : forall b, spath_eqb a b = true <-> a = b.
Proof.
  induction a as [|x a IH]; intros [|y b]; cbn; try (split; congruence). rewrite andb_true_iff, comp_eqb_spec, IH. split; [intros [-> ->]; reflexivity|intros H; injection H; auto].
Qed.
Lemma known_spec p l : known p l = true <-> In p l.
Proof. unfold known. rewrite existsb_exists. split; [intros (y & H & E); apply spath_eqb_spec in E; now subst|intros H; exists p; split; [auto|now apply spath_eqb_spec]]. Qed.
Lemma prefix_removelast (l : path) : prefix (removelast l) l.
Proof. destruct l as [|x l]; [apply prefix_refl|]. exists [last (x :: l) ""]. apply app_removelast_last. discriminate. Qed.
Lemma prefix_nil (q : path) : prefix q [] -> q = [].
Proof. intros [r H]. destruct q; [reflexivity|discriminate]. Qed.
Lemma prefix_snoc (q l : path) x : prefix q (l ++ [x]) -> prefix q l \/ q = l ++ [x].
Proof.
  intros [r H]. destruct r as [|y r] using rev_ind; [right; now rewrite app_nil_r in H|]. left. rewrite app_assoc in H. apply app_inj_tail in H. destruct H as [-> _]. now exists r.
Qed.
Lemma in_prefixes_plain l : forall p, In p (prefixes (map CNormal l)) <-> exists k, p = map CNormal k /\ prefix k l.
Proof.
  induction l as [|x l IH]; intros p; cbn [map prefixes In].
  - split; [intros [<-|[]]; exists []; split; [reflexivity|apply prefix_refl]|intros (k & -> & H); apply prefix_nil in H; subst; auto].
  - split.
    + intros [<-|H]; [exists []; split; [reflexivity|now exists (x :: l)]|]. apply in_map_iff in H. destruct H as (p' & <- & H). apply IH in H.
      destruct H as (k & -> & [r ->]). exists (x :: k). split; [reflexivity|now exists r].
    + intros (k & -> & [r H]). destruct k as [|y k]; [now left|]. right. cbn in H. injection H as <- H. cbn. apply in_map. apply IH. exists k. split; [reflexivity|now exists r].
Qed.

(** ** making directories *)
(** only directories differ, and none went away *)
Record dirs_grow (s s' : st) : Prop := mkGrow {
  dg_file : s_file s' = s_file s; dg_inodes : s_inodes s' = s_inodes s; dg_blob : s_blob s' = s_blob s; dg_index : s_index s' = s_index s;
  dg_mono : forall q, s_dir s q = true -> s_dir s' q = true }.
Lemma dirs_grow_refl s : dirs_grow s s. Proof. constructor; auto. Qed.
Lemma dirs_grow_trans a b c : dirs_grow a b -> dirs_grow b c -> dirs_grow a c.
Proof. intros [A1 A2 A3 A4 A5] [B1 B2 B3 B4 B5]. constructor; [congruence|congruence|congruence|congruence|auto]. Qed.
Lemma set_dir_grow p s : dirs_grow s (set_dir p s).
Proof. constructor; try reflexivity. intros q H. cbn. unfold upd. destruct (path_eq_dec q p); auto. Qed.
Lemma set_dir_in p s q : s_dir (set_dir p s) q = true <-> q = p \/ s_dir s q = true.
Proof. cbn. unfold upd. destruct (path_eq_dec q p); subst; intuition congruence. Qed.
Lemma create_all_plain : forall l k s,
  match create_all_from (map CNormal k) (map CNormal l) s with
  | (Ok _, s') => dirs_grow s s' /\ forall q, s_dir s' q = true <-> s_dir s q = true \/ (prefix q (k ++ l) /\ prefix k q /\ q <> k)
  | (Err _, s') => dirs_grow s s' /\ forall q, s_dir s' q = true -> s_dir s q = true \/ (prefix q (k ++ l) /\ prefix k q /\ q <> k)
  | (Panic, _) => False
  end.
Proof.
  induction l as [|x l IH]; intros k s; cbn [map create_all_from].
  - split; [apply dirs_grow_refl|]. intros q. split; [auto|]. intros [H|(H1 & H2 & H3)]; [exact H|]. rewrite app_nil_r in H1. exfalso. apply H3. now apply prefix_antisym.
  - change [CNormal x] with (map CNormal [x]). rewrite <- map_app, resolve_plain.
    assert (K : forall q, (prefix q (k ++ x :: l) /\ prefix k q /\ q <> k) <-> q = k ++ [x] \/ (prefix q ((k ++ [x]) ++ l) /\ prefix (k ++ [x]) q /\ q <> k ++ [x])).
    { intros q. rewrite <- app_assoc. cbn [app]. split.
      - intros ([r H1] & [r2 ->] & H3). destruct r2 as [|y r2]; [now rewrite app_nil_r in H3|]. rewrite <- app_assoc in H1. apply app_inv_head in H1. cbn in H1. injection H1 as -> ->.
        destruct r2 as [|z r2]; [now left|]. right. split; [exists r; now rewrite <- app_assoc|]. split; [exists (z :: r2); now rewrite <- app_assoc|]. intros E. apply app_inv_head in E. discriminate.
      - intros [->|(H1 & H2 & H3)].
        + split; [exists l; now rewrite <- app_assoc|]. split; [apply prefix_app|]. intros E. rewrite <- (app_nil_r k) in E at 2. apply app_inv_head in E. discriminate.
        + split; [exact H1|]. split; [apply prefix_trans with (k ++ [x]); [apply prefix_app|exact H2]|]. intros ->. destruct H2 as [r H2]. rewrite <- app_assoc in H2. rewrite <- (app_nil_r k) in H2 at 1. apply app_inv_head in H2. discriminate. }
    destruct (s_dir s (k ++ [x])) eqn:E.
    + specialize (IH (k ++ [x]) s). destruct (create_all_from _ _ s) as [[a|e|] s']; [|destruct IH as [G IH]; split; [exact G|]; intros q H; apply IH in H; rewrite K; tauto|contradiction].
      destruct IH as [G IH]. split; [exact G|]. intros q. rewrite IH, K. split; [tauto|]. intros [H|[->|H]]; tauto.
    + destruct (exists_at s (k ++ [x])); [split; [apply dirs_grow_refl|auto]|].
      specialize (IH (k ++ [x]) (set_dir (k ++ [x]) s)). destruct (create_all_from _ _ _) as [[a|e|] s']; [| |contradiction]; destruct IH as [G IH];
        (split; [exact (dirs_grow_trans _ _ _ (set_dir_grow _ s) G)|]); intros q; [|intros H; apply IH in H; revert H]; [rewrite IH|]; rewrite set_dir_in, K; tauto.
Qed.
(** the set of directories known to exist is right *)
Definition created_ok (created : list spath) (s : st) : Prop :=
  forall k q, In (map CNormal k) created -> prefix q k -> q <> [] -> s_dir s q = true.
Lemma mkdirp_plain l created s : created_ok created s ->
  match mkdirp (map CNormal l) created s with
  | (Ok created', s') => dirs_grow s s' /\ created_ok created' s' /\ In (map CNormal l) created' /\ (forall p, In p created -> In p created') /\
                         (forall q, s_dir s' q = true <-> s_dir s q = true \/ (q <> [] /\ prefix q l))
  | (Err _, s') => dirs_grow s s' /\ (forall q, s_dir s' q = true -> s_dir s q = true \/ (q <> [] /\ prefix q l))
  | (Panic, _) => False
  end.
Proof.
  intros C. unfold mkdirp. destruct (known (map CNormal l) created) eqn:K.
  { apply known_spec in K. split; [apply dirs_grow_refl|]. split; [exact C|]. split; [exact K|]. split; [auto|]. intros q. split; [auto|]. intros [H|[H1 H2]]; [exact H|]. apply (C l q); auto. }
  assert (CG : forall s' c', created_ok c' s -> dirs_grow s s' -> created_ok c' s') by (intros s' c' Hc G k q H1 H2 H3; apply (dg_mono _ _ G); now apply (Hc k q)).
  destruct (match map CNormal l with [] => true | _ => known (sparent (map CNormal l)) created end) eqn:P.
  - unfold create_dir. rewrite resolve_plain. destruct (negb (exists_at s l) && parent_ok s l) eqn:E; [|split; [apply dirs_grow_refl|auto]].
    apply andb_true_iff in E. destruct E as [E1 E2]. split; [apply set_dir_grow|].
    assert (Pre : forall q, prefix q l -> q <> [] -> q <> l -> s_dir s q = true).
    { destruct l as [|x l]; [discriminate E2|]. cbn [map] in P. change (known (sparent (map CNormal (x :: l))) created = true) in P. rewrite sparent_plain in P. apply known_spec in P.
      intros q H1 H2 H3. apply (C _ _ P); [|exact H2]. rewrite (app_removelast_last "" (l := x :: l)) in H1 by discriminate. apply prefix_snoc in H1.
      destruct H1 as [H1|H1]; [exact H1|]. rewrite <- app_removelast_last in H1 by discriminate. contradiction. }
    split; [|split; [now left|split; [intros p H; now right|]]].
    + intros k q [H|H] H2 H3.
      * assert (Ek : k = l) by (apply (f_equal resolve) in H; rewrite !resolve_plain in H; congruence). subst k. apply set_dir_in. destruct (path_eq_dec q l); [now left|right; now apply Pre].
      * apply set_dir_in. right. now apply (C k q).
    + intros q. rewrite set_dir_in. split.
      * intros [->|H]; [|auto]. right. split; [|apply prefix_refl]. intros ->. discriminate E2.
      * intros [H|[H1 H2]]; [auto|]. destruct (path_eq_dec q l); [now left|right; now apply Pre].
  - pose proof (create_all_plain l [] s) as A. cbn [map app] in A. unfold create_dir_all. destruct (create_all_from [] (map CNormal l) s) as [[a|e|] s']; [| |exact A].
    + destruct A as [G A]. split; [exact G|].
      assert (A' : forall q, s_dir s' q = true <-> s_dir s q = true \/ (q <> [] /\ prefix q l)).
      { intros q. rewrite A. split; [tauto|]. intros [H|[H1 H2]]; [auto|]. right. split; [exact H2|]. split; [now exists q|exact H1]. }
      split; [|split; [apply in_or_app; left; apply in_prefixes_plain; exists l; split; [reflexivity|apply prefix_refl]|split; [intros p H; apply in_or_app; now right|exact A']]].
      intros k q H H2 H3. apply in_app_or in H. destruct H as [H|H]; [|apply (dg_mono _ _ G); now apply (C k q)].
      apply in_prefixes_plain in H. destruct H as (k' & Ek & Hk). apply (f_equal resolve) in Ek. rewrite !resolve_plain in Ek. subst k'. apply A'. right. split; [exact H3|now apply prefix_trans with k].
    + destruct A as [G A]. split; [exact G|]. intros q H. apply A in H. tauto.
Qed.

(** ** running operations *)
Definition hoare {A} (P : st -> Prop) (m : op A) (Q : A -> st -> Prop) (R : st -> Prop) : Prop :=
  forall s, P s -> match m s with (Ok a, s') => Q a s' | (Err _, s') => R s' | (Panic, _) => False end.
Lemma hoare_bind A B (P : st -> Prop) (Q : A -> st -> Prop) (Q' : B -> st -> Prop) (R : st -> Prop) (m : op A) (f : A -> op B) : hoare P m Q R -> (forall a, hoare (Q a) (f a) Q' R) -> hoare P (bind m f) Q' R.
Proof. intros H1 H2 s Hs. unfold bind. specialize (H1 s Hs). destruct (m s) as [[a|e|] s']; [now apply H2|exact H1|contradiction]. Qed.
Lemma hoare_ret A (P : st -> Prop) (a : A) (Q : A -> st -> Prop) R : (forall s, P s -> Q a s) -> hoare P (ret a) Q R.
Proof. intros H s Hs. cbn. auto. Qed.
Lemma hoare_fail A (P : st -> Prop) e (Q : A -> st -> Prop) (R : st -> Prop) : (forall s, P s -> R s) -> hoare P (fail e) Q R.
Proof. intros H s Hs. cbn. auto. Qed.
Lemma hoare_weaken A (P P' : st -> Prop) (Q Q' : A -> st -> Prop) (R R' : st -> Prop) m : hoare P m Q R -> (forall s, P' s -> P s) -> (forall a s, Q a s -> Q' a s) -> (forall s, R s -> R' s) -> hoare P' m Q' R'.
Proof. intros H H1 H2 H3 s Hs. specialize (H s (H1 s Hs)). destruct (m s) as [[a|e|] s']; auto. Qed.

Lemma lset_out A (l : list A) i x : List.length l <= i -> lset l i x = l.
Proof. revert i. induction l as [|a l IH]; intros i H; [reflexivity|]. destruct i as [|i]; cbn in *; [lia|]. rewrite IH by lia. reflexivity. Qed.
Lemma lset_snoc A (l : list A) a x : lset (l ++ [a]) (List.length l) x = l ++ [x].
Proof. induction l as [|b l IH]; cbn; [reflexivity|now rewrite IH]. Qed.
Lemma lset_twice A (l : list A) i x y : lset (lset l i x) i y = lset l i y.
Proof. revert i. induction l as [|a l IH]; intros [|i]; cbn; [reflexivity|reflexivity|reflexivity|]. now rewrite IH. Qed.
Lemma nth_snoc A (l : list A) a : nth_error (l ++ [a]) (List.length l) = Some a.
Proof. rewrite nth_error_app2 by lia. now rewrite Nat.sub_diag. Qed.

Section Extract.
  Variable xxh : string -> string.
  Variables linkable reflinkable : bool.
  Notation efc := (extract_from_cache xxh linkable reflinkable).
  Definition mode_of (mode m0 : nat) : nat := if Nat.eqb mode m644 then m0 else mode.
  (** what extracting one file from the cache does when it succeeds *)
  Definition placed (h : string) (p : path) (x : xmode) (mode : nat) (s s' : st) : Prop :=
    exists i c m0, blob xxh h s = Some (i, c, m0) /\ s_dir s p = false /\
      ((is_copy x = false /\ s_file s p = None /\ s' = set_inodes (if Nat.eqb mode m644 then s_inodes s else lset (s_inodes s) i (c, mode)) (set_file p (Some i) s)) \/
       (s_file s p = None /\ s' = set_file p (Some (List.length (s_inodes s))) (set_inodes (s_inodes s ++ [(c, mode_of mode m0)]) s)) \/
       (exists j, s_file s p = Some j /\ s' = set_inodes (lset (s_inodes s) j (if Nat.eqb i j then "" else c, mode_of mode m0)) s)).
  Lemma st_eta s : mkSt (s_dir s) (s_file s) (s_inodes s) (s_blob s) (s_index s) = s.
  Proof. now destruct s. Qed.
  Lemma blob_spec h s i c m : blob xxh h s = Some (i, c, m) <-> s_blob s h = Some i /\ nth_error (s_inodes s) i = Some (c, m) /\ xxh c = h.
  Proof.
    unfold blob. destruct (s_blob s h) as [i0|]; [|split; [discriminate|intros (H & _); discriminate]].
    destruct (nth_error (s_inodes s) i0) as [[c0 m0]|] eqn:E; [|split; [discriminate|intros (H & H2 & _); congruence]].
    destruct (String.eqb_spec (xxh c0) h) as [Eh|Eh].
    - split; [intros H; injection H as <- <- <-; auto|]. intros (H1 & H2 & H3). injection H1 as <-. rewrite E in H2. congruence.
    - split; [discriminate|]. intros (H1 & H2 & H3). injection H1 as <-. rewrite E in H2. congruence.
  Qed.
  (** chmod of the file just placed *)
  Lemma chmod_after (s : st) p i c m mode : s_file s p = Some i -> nth_error (s_inodes s) i = Some (c, m) ->
    (if Nat.eqb mode m644 then ret tt else chmod (fun _ => mode) p) s = (Ok tt, set_inodes (if Nat.eqb mode m644 then s_inodes s else lset (s_inodes s) i (c, mode)) s).
  Proof.
    intros H1 H2. destruct (Nat.eqb mode m644); [unfold ret, set_inodes; now rewrite st_eta|]. unfold chmod. now rewrite H1, H2.
  Qed.
  Lemma upd_eq A p (v : A) f : upd p v f p = v.
  Proof. unfold upd. destruct (path_eq_dec p p); congruence. Qed.
  Lemma upd_neq A p q (v : A) f : q <> p -> upd p v f q = f q.
  Proof. unfold upd. destruct (path_eq_dec q p); congruence. Qed.
  Definition try (x : xmode) (h : string) (p : path) : op unit :=
    match x with
    | Auto | Reflink => or_else (reflink xxh reflinkable h p) (copy xxh h p)
    | AutoHardlink | Hardlink => or_else (or_else (hard_link xxh linkable h p) (reflink xxh reflinkable h p)) (copy xxh h p)
    | XCopy => copy xxh h p
    end.
  Lemma efc_bind h p x mode : efc h p x mode = bind (try x h p) (fun _ => if Nat.eqb mode m644 then ret tt else chmod (fun _ => mode) p).
  Proof. reflexivity. Qed.
  Lemma try_none x h p s : blob xxh h s = None -> try x h p s = (Err EIntegrity, s).
  Proof. intros E. unfold try, or_else, reflink, hard_link, copy. destruct x; rewrite !E; reflexivity. Qed.
  Lemma try_some x h p s i c m0 : blob xxh h s = Some (i, c, m0) ->
    match try x h p s with
    | (Ok _, s') => s_dir s p = false /\
        ((is_copy x = false /\ s_file s p = None /\ s' = set_file p (Some i) s) \/
         (s_file s p = None /\ s' = set_file p (Some (List.length (s_inodes s))) (set_inodes (s_inodes s ++ [(c, m0)]) s)) \/
         (exists j, s_file s p = Some j /\ s' = set_inodes (lset (s_inodes s) j (if Nat.eqb i j then "" else c, m0)) s))
    | (Err _, s') => s' = s
    | (Panic, _) => False
    end.
  Proof.
    intros E.
    assert (C : match copy xxh h p s with
                | (Ok _, s') => s_dir s p = false /\
                    ((s_file s p = None /\ s' = set_file p (Some (List.length (s_inodes s))) (set_inodes (s_inodes s ++ [(c, m0)]) s)) \/
                     (exists j, s_file s p = Some j /\ s' = set_inodes (lset (s_inodes s) j (if Nat.eqb i j then "" else c, m0)) s))
                | (Err _, s') => s' = s | (Panic, _) => False end).
    { unfold copy. rewrite E. destruct (s_dir s p) eqn:D; [reflexivity|]. destruct (s_file s p) as [j|] eqn:F.
      - split; [reflexivity|]. right. exists j. split; reflexivity.
      - destruct (parent_ok s p); [|reflexivity]. cbn [new_inode]. split; [reflexivity|]. left. split; reflexivity. }
    assert (R : match reflink xxh reflinkable h p s with
                | (Ok _, s') => s_dir s p = false /\ s_file s p = None /\ s' = set_file p (Some (List.length (s_inodes s))) (set_inodes (s_inodes s ++ [(c, m0)]) s)
                | (Err _, s') => s' = s | (Panic, _) => False end).
    { unfold reflink. rewrite E. destruct (reflinkable && negb (exists_at s p) && parent_ok s p) eqn:G; [|reflexivity]. cbn [new_inode].
      apply andb_true_iff in G. destruct G as [G _]. apply andb_true_iff in G. destruct G as [_ G]. apply negb_true_iff in G. unfold exists_at in G. apply orb_false_iff in G. destruct G as [G1 G2].
      split; [exact G1|]. split; [destruct (s_file s p); [discriminate|reflexivity]|reflexivity]. }
    assert (H : match hard_link xxh linkable h p s with
                | (Ok _, s') => s_dir s p = false /\ s_file s p = None /\ s' = set_file p (Some i) s
                | (Err _, s') => s' = s | (Panic, _) => False end).
    { unfold hard_link. rewrite E. destruct (linkable && negb (exists_at s p) && parent_ok s p) eqn:G; [|reflexivity].
      apply andb_true_iff in G. destruct G as [G _]. apply andb_true_iff in G. destruct G as [_ G]. apply negb_true_iff in G. unfold exists_at in G. apply orb_false_iff in G. destruct G as [G1 G2].
      split; [exact G1|]. split; [destruct (s_file s p); [discriminate|reflexivity]|reflexivity]. }
    assert (RC : match or_else (reflink xxh reflinkable h p) (copy xxh h p) s with
                | (Ok _, s') => s_dir s p = false /\
                    ((s_file s p = None /\ s' = set_file p (Some (List.length (s_inodes s))) (set_inodes (s_inodes s ++ [(c, m0)]) s)) \/
                     (exists j, s_file s p = Some j /\ s' = set_inodes (lset (s_inodes s) j (if Nat.eqb i j then "" else c, m0)) s))
                | (Err _, s') => s' = s | (Panic, _) => False end).
    { unfold or_else. destruct (reflink xxh reflinkable h p s) as [[a|e|] s']; [tauto| |contradiction]. subst s'. exact C. }
    assert (HRC : match or_else (or_else (hard_link xxh linkable h p) (reflink xxh reflinkable h p)) (copy xxh h p) s with
                | (Ok _, s') => s_dir s p = false /\
                    ((s_file s p = None /\ s' = set_file p (Some i) s) \/ (s_file s p = None /\ s' = set_file p (Some (List.length (s_inodes s))) (set_inodes (s_inodes s ++ [(c, m0)]) s)) \/
                     (exists j, s_file s p = Some j /\ s' = set_inodes (lset (s_inodes s) j (if Nat.eqb i j then "" else c, m0)) s))
                | (Err _, s') => s' = s | (Panic, _) => False end).
    { unfold or_else in *. destruct (hard_link xxh linkable h p s) as [[a|e|] s']; [tauto| |contradiction]. subst s'.
      destruct (reflink xxh reflinkable h p s) as [[a|e'|] s']; [tauto| |contradiction]. subst s'. destruct (copy xxh h p s) as [[a|e3|] s']; [|exact C|contradiction]. destruct C as [C1 [C2|C2]]; auto. }
    destruct x; cbn [try is_copy].
    - destruct (or_else (reflink xxh reflinkable h p) (copy xxh h p) s) as [[a|e|] s']; [|exact RC|contradiction]. destruct RC as [C1 [C2|C2]]; auto.
    - destruct (copy xxh h p s) as [[a|e|] s']; [|exact C|contradiction]. destruct C as [C1 [C2|C2]]; auto.
    - destruct (or_else (reflink xxh reflinkable h p) (copy xxh h p) s) as [[a|e|] s']; [|exact RC|contradiction]. destruct RC as [C1 [C2|C2]]; auto.
    - destruct (or_else (or_else (hard_link xxh linkable h p) (reflink xxh reflinkable h p)) (copy xxh h p) s) as [[a|e|] s']; [|exact HRC|contradiction].
      destruct HRC as [C1 [C2|[C2|C2]]]; auto.
    - destruct (or_else (or_else (hard_link xxh linkable h p) (reflink xxh reflinkable h p)) (copy xxh h p) s) as [[a|e|] s']; [|exact HRC|contradiction].
      destruct HRC as [C1 [C2|[C2|C2]]]; auto.
  Qed.
  Lemma efc_cases h p x mode s :
    match efc h p x mode s with (Ok _, s') => placed h p x mode s s' | (Err _, s') => s' = s | (Panic, _) => False end.
  Proof.
    rewrite efc_bind. unfold bind. destruct (blob xxh h s) as [[[i c] m0]|] eqn:B; [|rewrite (try_none x h p s B); reflexivity].
    pose proof (try_some x h p s i c m0 B) as T. destruct (try x h p s) as [[a|e|] s']; [|exact T|contradiction]. destruct T as (D & T).
    pose proof B as B'. apply blob_spec in B'. destruct B' as (B1 & B2 & B3).
    destruct T as [(T1 & T2 & ->)|[(T1 & ->)|(j & T1 & ->)]].
    - assert (F : s_file (set_file p (Some i) s) p = Some i) by (cbn; apply upd_eq).
      rewrite (chmod_after _ _ _ _ _ mode F B2). exists i, c, m0. split; [exact B|]. split; [exact D|]. left. auto.
    - set (s1 := set_file p (Some (List.length (s_inodes s))) (set_inodes (s_inodes s ++ [(c, m0)]) s)).
      assert (F : s_file s1 p = Some (List.length (s_inodes s))) by (cbn; apply upd_eq).
      assert (F2 : nth_error (s_inodes s1) (List.length (s_inodes s)) = Some (c, m0)) by apply nth_snoc.
      rewrite (chmod_after _ _ _ _ _ mode F F2). exists i, c, m0. split; [exact B|]. split; [exact D|]. right. left. split; [exact T1|]. unfold mode_of. destruct (Nat.eqb mode m644).
      + unfold set_inodes. now rewrite st_eta.
      + subst s1. cbn. rewrite lset_snoc. reflexivity.
    - set (s1 := set_inodes (lset (s_inodes s) j (if Nat.eqb i j then "" else c, m0)) s).
      destruct (Nat.lt_ge_cases j (List.length (s_inodes s))) as [L|L].
      + assert (F2 : nth_error (s_inodes s1) j = Some (if Nat.eqb i j then "" else c, m0)) by (apply nth_lset_eq; exact L).
        rewrite (chmod_after s1 p _ _ _ mode T1 F2). exists i, c, m0. split; [exact B|]. split; [exact D|]. right. right. exists j. split; [exact T1|]. unfold mode_of. destruct (Nat.eqb mode m644).
        * unfold set_inodes. now rewrite st_eta.
        * subst s1. cbn. rewrite lset_twice. reflexivity.
      + assert (E1 : s1 = s) by (subst s1; unfold set_inodes; rewrite lset_out by exact L; apply st_eta). rewrite E1. destruct (Nat.eqb mode m644) eqn:Em.
        * cbn. exists i, c, m0. split; [exact B|]. split; [exact D|]. right. right. exists j. split; [exact T1|]. unfold set_inodes. rewrite lset_out by exact L. now rewrite st_eta.
        * unfold chmod. rewrite T1. destruct (nth_error (s_inodes s) j) eqn:N; [|reflexivity]. exfalso. assert (j < List.length (s_inodes s)) by (apply nth_error_Some; rewrite N; discriminate). lia.
  Qed.
End Extract.
