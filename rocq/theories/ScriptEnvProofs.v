(** * The PATH of a script *)
From Verif Require Import Base Types StdPath ScriptEnv.
Open Scope string_scope.
Open Scope list_scope.
Set Implicit Arguments.

(** the directories from [root ++ rel] up to [root], nearest first: [rel] without its last k names *)
Definition enclosing (root rel : list string) : list (list string) := map (fun k => root ++ firstn k rel) (rev (seq 0 (S (List.length rel)))).
(** the .bin directory of a package at a given directory *)
Definition bin_of (dir : list string) : string := (fold_right (fun n s => "/" ++ n ++ s) "" dir ++ "/node_modules/.bin")%string.

Lemma comps_eqb_spec a : forall b, comps_eqb a b = true <-> a = b.
Proof.
  assert (C : forall x y, comp_eqb x y = true <-> x = y).
  { intros [] []; cbn; try easy. rewrite String.eqb_eq. split; congruence. }
  induction a as [|x a IH]; intros [|y b]; cbn; try easy. rewrite andb_true_iff, C, IH. split; [intros [-> ->]; easy|now intros [= -> ->]].
Qed.
Lemma join_split l : Forall (fun s => no_char colon s = true) l -> l <> [] -> split colon (join_colon l) = l.
Proof.
  induction l as [|x l IH]; [easy|]. intros F _. inversion F as [|? ? Hx Hl]; subst. destruct l as [|y l]; [cbn; now apply split_whole|].
  change (join_colon (x :: y :: l)) with (x ++ String colon (join_colon (y :: l)))%string. rewrite split_cons by assumption. f_equal. now apply IH.
Qed.
Lemma up_text_app r n : up_text (r ++ [n]) = ("/" ++ n ++ up_text r)%string.
Proof. induction r as [|m r IH]; cbn; [now rewrite sapp_nil|]. rewrite IH. cbn. now rewrite !sapp_assoc. Qed.
Lemma fold_up d : fold_right (fun n s => "/" ++ n ++ s)%string "" d = up_text (rev d).
Proof. induction d as [|n d IH]; [reflexivity|]. cbn [fold_right rev]. now rewrite up_text_app, IH. Qed.
Lemma ends_slash_app a b : b <> "" -> ends_slash (a ++ b) = ends_slash b.
Proof. intros Hb. induction a as [|c a IH]; [reflexivity|]. cbn. destruct (a ++ b)%string eqn:E; [destruct a; cbn in E; [now subst|discriminate]|exact IH]. Qed.
Lemma no_slash_end n : n <> "" -> no_char "/" n = true -> ends_slash n = false.
Proof.
  induction n as [|c n IH]; [easy|]. intros _ H. cbn [no_char] in H. apply andb_true_iff in H. destruct H as [H1 H2]. apply negb_true_iff in H1. cbn [ends_slash].
  destruct n; [exact H1|apply IH; easy].
Qed.
Lemma bin_dir_eq r : Forall single r -> bin_dir r = bin_of (rev r).
Proof.
  intros F. unfold bin_dir, bin_of. rewrite fold_up, rev_involutive. destruct r as [|n r]; [reflexivity|]. inversion F as [|? ? (H1 & H2 & _ & _) _]; subst. cbn [abs_text].
  assert (E : join (up_text (n :: r)) "node_modules" = (up_text (n :: r) ++ "/node_modules")%string).
  { unfold join. cbn [is_abs Ascii.eqb Bool.eqb]. cbn [up_text]. assert (ends_slash (up_text r ++ "/" ++ n)%string = false) as ->.
    { change ("/" ++ n)%string with (String "/" n). rewrite ends_slash_app by easy. destruct n; [easy|]. exact (@no_slash_end (String a n) H1 H2). }
    assert (String.eqb (up_text r ++ "/" ++ n) "" = false) as -> by (destruct (up_text r); reflexivity). reflexivity. }
  rewrite E. unfold join. cbn [is_abs Ascii.eqb Bool.eqb]. assert (String.eqb (up_text (n :: r) ++ "/node_modules") "" = false) as -> by (destruct (up_text (n :: r)); reflexivity).
  rewrite ends_slash_app by easy. change (ends_slash "/node_modules") with false. cbv iota. now rewrite sapp_assoc.
Qed.
Lemma up_comps_inj a b : up_comps a = up_comps b -> a = b.
Proof.
  unfold up_comps. intros [= H]. assert (rev a = rev b).
  { revert H. generalize (rev a) (rev b). induction l as [|x l IH]; intros [|y m]; cbn; try easy. intros [= -> H]. f_equal. auto. }
  rewrite <- (rev_involutive a), H0. apply rev_involutive.
Qed.
(** with the root of the workspace above the package *)
Lemma push_inside ws root rel : components ws = CRoot :: map CNormal root -> Forall single root -> Forall single rel ->
  push_bins (Some ws) (ancestors (rev (root ++ rel))) = map bin_of (enclosing root rel).
Proof.
  intros Hw Fr Fl. unfold enclosing. remember (List.length rel) as n eqn:En. revert rel Fl En. induction n as [|n IH]; intros rel Fl En.
  - destruct rel; [|discriminate]. cbn [seq rev map app firstn]. rewrite app_nil_r. destruct (rev root) as [|x r] eqn:E.
    + cbn [ancestors push_bins]. assert (root = []) as -> by (rewrite <- (rev_involutive root), E; reflexivity).
      unfold up_comps. rewrite Hw. cbn. reflexivity.
    + cbn [ancestors push_bins]. rewrite <- E. rewrite bin_dir_eq by (apply Forall_rev, Fr). rewrite rev_involutive.
      assert (comps_eqb (up_comps (rev root)) (components ws) = true) as ->; [|reflexivity].
      apply comps_eqb_spec. unfold up_comps. now rewrite rev_involutive.
  - destruct (exists_last (l := rel)) as (rel' & x & ->); [intros ->; discriminate|]. rewrite app_length in En. cbn in En. assert (n = List.length rel') as Hn by lia.
    apply Forall_app in Fl. destruct Fl as [Fl Fx]. rewrite app_assoc, rev_app_distr. cbn [rev app ancestors push_bins].
    rewrite seq_S. cbn [Nat.add]. rewrite (rev_app_distr (seq 0 (S n))). cbn [rev app map]. f_equal.
    + rewrite bin_dir_eq. 2:{ constructor; [now inversion Fx|]. apply Forall_rev, Forall_app. auto. }
      cbn [rev]. rewrite rev_involutive. f_equal. rewrite firstn_all2 by (rewrite app_length; cbn; lia). now rewrite app_assoc.
    + assert (comps_eqb (up_comps (x :: rev (root ++ rel'))) (components ws) = false) as ->.
      { destruct (comps_eqb _ _) eqn:E; [|reflexivity]. apply comps_eqb_spec in E. rewrite Hw in E. assert (up_comps (x :: rev (root ++ rel')) = up_comps (rev root)) as E2.
        { rewrite E. unfold up_comps. now rewrite rev_involutive. }
        apply up_comps_inj in E2. apply (f_equal (@List.length string)) in E2. cbn in E2. rewrite !rev_length, app_length in E2. lia. }
      rewrite (IH rel' Fl Hn). f_equal. apply map_ext_in. intros k Hk. apply in_rev in Hk. apply in_seq in Hk. f_equal. rewrite firstn_app. replace (k - List.length rel') with 0 by lia. now rewrite app_nil_r.
Qed.
(** with a workspace path that is not the text of a directory above the package *)
Lemma push_outside ws pkg : (forall k, components ws <> CRoot :: map CNormal (firstn k pkg)) -> Forall single pkg ->
  push_bins (Some ws) (ancestors (rev pkg)) = map bin_of (enclosing [] pkg).
Proof.
  intros Hw Fl. unfold enclosing. remember (List.length pkg) as n eqn:En. revert pkg Hw Fl En. induction n as [|n IH]; intros pkg Hw Fl En.
  - destruct pkg; [|discriminate]. cbn. destruct (components ws) as [|[] ?] eqn:E; try reflexivity. destruct l; [|reflexivity]. exfalso. now apply (Hw 0).
  - destruct (exists_last (l := pkg)) as (rel' & x & ->); [intros ->; discriminate|]. rewrite app_length in En. cbn in En. assert (n = List.length rel') as Hn by lia.
    apply Forall_app in Fl. destruct Fl as [Fl Fx]. rewrite rev_app_distr. cbn [rev app ancestors push_bins].
    rewrite seq_S. cbn [Nat.add]. rewrite (rev_app_distr (seq 0 (S n))). cbn [rev app map]. f_equal.
    + rewrite bin_dir_eq. 2:{ constructor; [now inversion Fx|]. apply Forall_rev. auto. }
      cbn [rev]. rewrite rev_involutive. f_equal. now rewrite firstn_all2 by (rewrite app_length; cbn; lia).
    + assert (comps_eqb (up_comps (x :: rev rel')) (components ws) = false) as ->.
      { destruct (comps_eqb _ _) eqn:E; [|reflexivity]. apply comps_eqb_spec in E. exfalso. apply (Hw (S n)). rewrite <- E. unfold up_comps. cbn [rev]. rewrite rev_involutive.
        now rewrite firstn_all2 by (rewrite app_length; cbn; lia). }
      rewrite (IH rel'); auto.
      * f_equal. apply map_ext_in. intros k Hk. apply in_rev in Hk. apply in_seq in Hk. f_equal. rewrite firstn_app. replace (k - List.length rel') with 0 by lia. cbn [firstn app]. now rewrite app_nil_r.
      * intros k. specialize (Hw (Nat.min k (List.length rel'))). rewrite firstn_app in Hw. replace (Nat.min k (List.length rel') - List.length rel') with 0 in Hw by lia. cbn [firstn] in Hw.
        rewrite app_nil_r in Hw. destruct (Nat.le_ge_cases k (List.length rel')); [now rewrite Nat.min_l in Hw|]. rewrite Nat.min_r in Hw by auto. rewrite firstn_all in Hw. now rewrite firstn_all2.
Qed.
(** joining and setting *)
Lemma bin_of_colon d : Forall (fun n => no_char colon n = true) d -> no_char colon (bin_of d) = true.
Proof.
  intros F. unfold bin_of. rewrite no_char_app. apply andb_true_iff. split; [|reflexivity]. induction F as [|n d H F IH]; [reflexivity|]. cbn [fold_right]. rewrite !no_char_app, H, IH. reflexivity.
Qed.
Lemma existing_colon env s : In s (get_existing_paths env) -> no_char colon s = true.
Proof.
  unfold get_existing_paths, current_paths. intros H. apply in_flat_map in H. destruct H as (e & He & Hs). apply in_flat_map in He. destruct He as (f & _ & Hf).
  destruct (String.eqb _ _); [|easy]. destruct Hf as [<- | []]. cbn in Hs. exact (split_pieces _ _ _ Hs).
Qed.
Lemma set_spec env ws pkg bins : push_bins ws (ancestors pkg) = bins -> Forall (fun s => no_char colon s = true) bins -> bins <> [] ->
  exists env', set_all_paths env ws pkg = Ok env'
  /\ (forall v, lower v = "path" -> In v (map fst env) -> exists p, sget v env' = Some p /\ split colon p = get_existing_paths env ++ bins)
  /\ (forall v, lower v <> "path" -> sget v env' = sget v env)
  /\ (forall v, ~ In v (map fst env) -> sget v env' = None).
Proof.
  intros Hb F Hn. unfold set_all_paths. rewrite Hb. unfold join_paths.
  assert (A : Forall (fun s => no_char colon s = true) (get_existing_paths env ++ bins)).
  { apply Forall_app. split; [|exact F]. apply Forall_forall. intros s. apply existing_colon. }
  assert (forallb (no_char colon) (get_existing_paths env ++ bins) = true) as ->. { apply forallb_forall. now rewrite Forall_forall in A. }
  cbn [rbind]. set (p := join_colon _). eexists. split; [reflexivity|].
  assert (S : split colon p = get_existing_paths env ++ bins).
  { apply join_split; [exact A|]. destruct (get_existing_paths env); [exact Hn|discriminate]. }
  assert (G : forall l e v, sget v (fold_left (fun e (x : string * list string) => sput (fst x) p e) l e) = if existsb (String.eqb v) (map fst l) then Some p else sget v e).
  { induction l as [|[k q] l IH]; intros e v; [reflexivity|]. cbn [fold_left map existsb fst]. rewrite IH. destruct (existsb _ (map fst l)) eqn:E; [now rewrite orb_true_r|].
    rewrite orb_false_r. destruct (String.eqb_spec v k) as [-> | Hk]; [apply sget_sput_eq|now rewrite sget_sput_neq]. }
  assert (K : forall v, existsb (String.eqb v) (map fst (current_paths env)) = true <-> In v (map fst env) /\ lower v = "path").
  { intros v. rewrite existsb_exists. split.
    - intros (x & Hx & E). apply String.eqb_eq in E. subst x. apply in_map_iff in Hx. destruct Hx as ([v' l] & <- & Hx). unfold current_paths in Hx. apply in_flat_map in Hx.
      destruct Hx as (f & Hf & Hx). destruct (String.eqb (lower (fst f)) "path") eqn:E; [|easy]. destruct Hx as [[= <- <-] | []]. cbn [fst]. split; [now apply in_map|now apply String.eqb_eq].
    - intros [Hv Hl]. exists v. split; [|apply String.eqb_refl]. apply in_map_iff in Hv. destruct Hv as (f & <- & Hf). apply in_map_iff. exists (fst f, split colon (snd f)). split; [reflexivity|].
      apply in_flat_map. exists f. split; [exact Hf|]. rewrite Hl. now left. }
  split; [|split].
  - intros v Hv Hi. exists p. split; [|exact S]. rewrite G. now rewrite (proj2 (K v)).
  - intros v Hv. rewrite G. destruct (existsb _ _) eqn:E; [|reflexivity]. apply K in E. tauto.
  - intros v Hv. rewrite G. destruct (existsb _ _) eqn:E; [apply K in E; tauto|]. apply aget_None; [apply seqb_spec|exact Hv].
Qed.
