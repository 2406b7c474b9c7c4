(** * Facts about bins *)
From Verif Require Import Base Types StdPath BinModel PathLookup HoistedProofs LockfileGraph.
From Coq Require Import Permutation.
Open Scope string_scope.
Open Scope list_scope.

Lemma unslash_clean s : no_char "\" (unslash s) = true /\ no_char ":" (unslash s) = true.
Proof.
  induction s as [|c s [IH1 IH2]]; [auto|]. cbn [unslash no_char]. rewrite IH1, IH2.
  destruct (Ascii.eqb_spec c "\") as [->|H1]; [auto|]. destruct (Ascii.eqb_spec c ":") as [->|H2]; [auto|]. cbn [orb].
  split; rewrite andb_true_r, negb_true_iff; now apply Ascii.eqb_neq.
Qed.
Lemma split_no_char ch d s : no_char d s = true -> forall p, In p (split ch s) -> no_char d p = true.
Proof.
  unfold split. intros H. assert (no_char d "" = true) as H0 by auto. revert H H0. generalize "".
  induction s as [|c s IH]; cbn; intros cur H H0 p; [intros [<-|[]]; auto|].
  apply andb_true_iff in H. destruct H as [H1 H2]. destruct (Ascii.eqb c ch); cbn.
  - intros [<-|Hin]; [auto|]. now apply (IH "" H2 eq_refl).
  - intros Hin. eapply IH; [auto| |exact Hin]. rewrite no_char_app, H0. cbn. now rewrite H1.
Qed.
Lemma body_no_char d s : no_char d s = true -> forall x, In (CNormal x) (body s) -> no_char d x = true.
Proof.
  intros H x Hx. unfold body in Hx. rewrite in_flat_map in Hx. destruct Hx as (p & Hp & Hx). apply seg_comp_normal in Hx. destruct Hx as (-> & _).
  eapply split_no_char; eauto.
Qed.

Lemma bin_base_safe n x : bin_base n = Some x -> single x /\ no_char "\" x = true /\ no_char ":" x = true.
Proof.
  unfold bin_base. destruct (file_name n) as [base|]; [|discriminate]. rewrite components_join_root.
  destruct (last_comp (body (unslash base))) as [[| | |y]|] eqn:E; try discriminate. intros H. injection H as ->.
  apply last_comp_In in E. destruct (unslash_clean base) as [H1 H2].
  repeat split; try (eapply body_no_char; eassumption); try apply body_normal in E; try apply E.
Qed.
Lemma bin_target_spec b : bin_target b = match body b with [] => None | l => Some l end.
Proof. unfold bin_target. rewrite components_join_root. destruct (body b); auto. Qed.
Lemma unslash_id s : no_char "\" s = true -> no_char ":" s = true -> unslash s = s.
Proof.
  induction s as [|c s IH]; [auto|]. cbn. intros H1 H2. apply andb_true_iff in H1, H2. destruct H1 as [H1 H1'], H2 as [H2 H2'].
  rewrite negb_true_iff in H1, H2. rewrite H1, H2, IH by auto. reflexivity.
Qed.
Lemma bin_base_id s : single s -> no_char "\" s = true -> no_char ":" s = true -> bin_base s = Some s.
Proof.
  intros H H1 H2. unfold bin_base. rewrite file_name_id by auto. rewrite unslash_id by auto. rewrite components_join_root, body_single by auto. reflexivity.
Qed.
Lemma last_comp_app2 l l' c : last_comp l' = Some c -> last_comp (l ++ l') = Some c.
Proof.
  intros H. induction l as [|a l IH]; [auto|]. cbn [app last_comp]. destruct (l ++ l') eqn:E; [|auto].
  destruct l; [|discriminate]. cbn in E. subst l'. discriminate.
Qed.
Lemma file_name_join sc m : single m -> file_name (sc ++ String "/" m)%string = Some m.
Proof.
  intros H. unfold file_name, components. rewrite body_app, (body_single m) by auto.
  rewrite (last_comp_app2 _ _ (CNormal m)); [reflexivity|]. apply last_comp_app.
Qed.
Lemma bin_base_scoped sc m : single m -> no_char "\" m = true -> no_char ":" m = true -> bin_base (sc ++ String "/" m)%string = Some m.
Proof.
  intros H H1 H2. unfold bin_base. rewrite file_name_join by auto. rewrite unslash_id by auto. rewrite components_join_root, body_single by auto. reflexivity.
Qed.

(** what the loop leaves behind *)
Lemma norm_loop_in order : forall acc x p, sget x (norm_loop order acc) = Some p ->
  (exists n b, In (n, b) order /\ bin_base n = Some x /\ bin_target b = Some p) \/ sget x acc = Some p.
Proof.
  induction order as [|[n b] t IH]; intros acc x p H; cbn in H; [auto|].
  destruct (IH _ _ _ H) as [(n' & b' & Hin & H1 & H2)|H']; [left; exists n', b'; cbn; auto|].
  destruct (bin_base n) as [y|] eqn:E1; [|auto]. destruct (bin_target b) as [q|] eqn:E2; [|auto].
  destruct (String.eqb_spec x y) as [->|Hne].
  - rewrite sget_sput_eq in H'. injection H' as ->. left. exists n, b. cbn; auto.
  - rewrite sget_sput_neq in H' by auto. auto.
Qed.
Lemma norm_loop_keeps order : forall acc x p, sget x acc = Some p -> exists q, sget x (norm_loop order acc) = Some q.
Proof.
  induction order as [|[n b] t IH]; intros acc x p H; cbn; [eauto|].
  destruct (bin_base n) as [y|]; [|eauto]. destruct (bin_target b) as [q|]; [|eauto].
  destruct (String.eqb_spec x y) as [->|Hne].
  - eapply IH. apply sget_sput_eq.
  - eapply IH. rewrite sget_sput_neq; eauto.
Qed.
Lemma norm_loop_has order : forall acc n b x p, In (n, b) order -> bin_base n = Some x -> bin_target b = Some p ->
  exists q, sget x (norm_loop order acc) = Some q.
Proof.
  induction order as [|[n' b'] t IH]; intros acc n b x p Hin H1 H2; [easy|]. cbn. destruct Hin as [E|Hin]; [|eauto].
  injection E as -> ->. rewrite H1, H2. eapply norm_loop_keeps. apply sget_sput_eq.
Qed.
(** if no two bins want the same link, the iteration order is immaterial *)
Definition distinct_links (m : list (string * string)) : Prop :=
  forall n b n' b' x, In (n, b) m -> In (n', b') m -> bin_base n = Some x -> bin_base n' = Some x -> b = b'.
Lemma norm_exact m order : Permutation order m -> distinct_links m -> forall x p,
  sget x (norm_loop order []) = Some p <-> exists n b, In (n, b) m /\ bin_base n = Some x /\ bin_target b = Some p.
Proof.
  intros HP Hd x p. split.
  - intros H. destruct (norm_loop_in _ _ _ _ H) as [(n & b & Hin & H1 & H2)|H']; [|discriminate].
    exists n, b. split; [eapply Permutation_in; eauto|auto].
  - intros (n & b & Hin & H1 & H2). assert (In (n, b) order) as Ho by (eapply Permutation_in; [apply Permutation_sym|]; eauto).
    destruct (norm_loop_has _ [] _ _ _ _ Ho H1 H2) as (q & Hq). destruct (norm_loop_in _ _ _ _ Hq) as [(n' & b' & Hin' & H1' & H2')|H']; [|discriminate].
    rewrite Hq. rewrite (Hd n b n' b' x) in H2; auto; [congruence|]. eapply Permutation_in; eauto.
Qed.

(** the .bin directory used is the one beside the package *)
Lemma removelast_app1 A (l : list A) x : removelast (l ++ [x]) = l.
Proof. rewrite removelast_app by discriminate. apply app_nil_r. Qed.
Lemma last_str_app l x : last_str (l ++ [x]) = Some x.
Proof. unfold last_str. now rewrite rev_app_distr. Qed.
Lemma hoisted_bin_dir_good pre x : good_name x -> hoisted_bin_dir (disk (pre ++ [x])) = disk pre ++ ["node_modules"; ".bin"].
Proof.
  intros Hg. rewrite disk_app. unfold disk at 2. cbn [flat_map]. rewrite app_nil_r.
  destruct Hg as [Hp|(s & m & -> & Hs & Hf & Hm)].
  - rewrite comps_plain by now apply plain_no_slash. unfold hoisted_bin_dir.
    change ["node_modules"; x] with (["node_modules"] ++ [x]). rewrite app_assoc, removelast_app1, last_str_app. cbn [String.eqb].
    change (String.eqb "node_modules" "node_modules") with true. cbn iota. now rewrite <- app_assoc.
  - rewrite comps_scoped by (auto; now apply plain_no_slash). unfold hoisted_bin_dir.
    change ["node_modules"; String "@" s; m] with ((["node_modules"] ++ [String "@" s]) ++ [m]). rewrite app_assoc, removelast_app1, app_assoc, last_str_app.
    destruct (String.eqb_spec (String "@" s) "node_modules"); [discriminate|]. rewrite removelast_app1. now rewrite <- app_assoc.
Qed.

Lemma body_no_parent b : ~ In ".." (split "/" b) -> ~ In CParent (body b).
Proof.
  intros H Hin. unfold body in Hin. rewrite in_flat_map in Hin. destruct Hin as (p & Hp & Hc). unfold seg_comp in Hc.
  destruct (String.eqb p ""); [easy|]. destruct (String.eqb p "."); [easy|]. destruct (String.eqb_spec p ".."); [subst; auto|]. destruct Hc as [|[]]; discriminate.
Qed.
Lemma no_parent_normals l : (forall c, In c l -> c = CParent \/ exists x, c = CNormal x) -> ~ In CParent l -> exists names, l = map CNormal names.
Proof.
  induction l as [|c l IH]; intros Hk Hn; [now exists []|]. destruct IH as (names & ->); [firstorder..|].
  destruct (Hk c (or_introl eq_refl)) as [->|(x & ->)]; [exfalso; apply Hn; now left|]. now exists (x :: names).
Qed.
Lemma target_inside b p : bin_target b = Some p -> ~ In ".." (split "/" b) -> exists names, p = map CNormal names /\ names <> [] /\ Forall single names.
Proof.
  rewrite bin_target_spec. intros H Hn. destruct (no_parent_normals (body b)) as (names & E).
  - intros c. apply body_kinds.
  - now apply body_no_parent.
  - destruct (body b) as [|c l] eqn:Eb; [discriminate|]. injection H as <-. exists names. split; [auto|]. split; [intros ->; discriminate|].
    rewrite Forall_forall. intros x Hx. apply (body_normal b). rewrite Eb, E. now apply in_map.
Qed.
