(** * Facts about log retention *)
From Verif Require Import Base Types StdPath CliModel CliProofs.
From Coq Require Import Permutation.
Open Scope string_scope.
Open Scope list_scope.

Lemma nat_of_ascii_inj a b : nat_of_ascii a = nat_of_ascii b -> a = b.
Proof. intros H. rewrite <- (ascii_nat_embedding a), <- (ascii_nat_embedding b). now rewrite H. Qed.
Lemma slt_irrefl a : slt a a = false.
Proof. induction a as [|c a IH]; cbn [slt append]; [auto|]. now rewrite Nat.ltb_irrefl. Qed.
Lemma slt_trans a : forall b c, slt a b = true -> slt b c = true -> slt a c = true.
Proof.
  induction a as [|x a IH]; intros [|y b] [|z c]; cbn [slt]; try discriminate; auto.
  destruct (Nat.ltb_spec (nat_of_ascii x) (nat_of_ascii y)); destruct (Nat.ltb_spec (nat_of_ascii y) (nat_of_ascii z)); intros H1 H2.
  - destruct (Nat.ltb_spec (nat_of_ascii x) (nat_of_ascii z)); [auto|lia].
  - destruct (Nat.ltb_spec (nat_of_ascii z) (nat_of_ascii y)); [discriminate|]. destruct (Nat.ltb_spec (nat_of_ascii x) (nat_of_ascii z)); [auto|lia].
  - destruct (Nat.ltb_spec (nat_of_ascii y) (nat_of_ascii x)); [discriminate|]. destruct (Nat.ltb_spec (nat_of_ascii x) (nat_of_ascii z)); [auto|lia].
  - destruct (Nat.ltb_spec (nat_of_ascii y) (nat_of_ascii x)); [discriminate|]. destruct (Nat.ltb_spec (nat_of_ascii z) (nat_of_ascii y)); [discriminate|].
    destruct (Nat.ltb_spec (nat_of_ascii x) (nat_of_ascii z)); [auto|]. destruct (Nat.ltb_spec (nat_of_ascii z) (nat_of_ascii x)); [lia|]. eauto.
Qed.
Lemma slt_total a : forall b, slt a b = false -> a = b \/ slt b a = true.
Proof.
  induction a as [|x a IH]; intros [|y b]; cbn [slt]; auto.
  destruct (Nat.ltb_spec (nat_of_ascii x) (nat_of_ascii y)); [discriminate|]. destruct (Nat.ltb_spec (nat_of_ascii y) (nat_of_ascii x)); [auto|].
  intros E. assert (x = y) as -> by (apply nat_of_ascii_inj; lia). destruct (IH _ E) as [->|H1]; auto.
Qed.

Lemma insert_perm e l : Permutation (insert_entry e l) (e :: l).
Proof.
  induction l as [|x l IH]; cbn; [auto|]. destruct (slt (fst x) (fst e)); [|auto].
  eapply perm_trans; [apply perm_skip, IH|apply perm_swap].
Qed.
Lemma sort_perm l : Permutation (sort_entries l) l.
Proof. induction l as [|e l IH]; cbn; [auto|]. eapply perm_trans; [apply insert_perm|now apply perm_skip]. Qed.
Fixpoint sorted (l : list entry) : Prop :=
  match l with [] => True | x :: t => (forall y, In y t -> slt (fst y) (fst x) = false) /\ sorted t end.
Lemma insert_sorted e l : sorted l -> sorted (insert_entry e l).
Proof.
  induction l as [|x l IH]; cbn; intros H; [split; [intros y []|exact I]|]. destruct H as [H1 H2]. destruct (slt (fst x) (fst e)) eqn:E; cbn.
  - split; [|auto]. intros y Hy. apply (Permutation_in _ (insert_perm e l)) in Hy. destruct Hy as [<-|Hy]; [|auto].
    apply not_true_is_false. intros H. pose proof (slt_trans _ _ _ E H) as H'. rewrite slt_irrefl in H'. discriminate.
  - split; [|split; auto]. intros y [<-|Hy]; [auto|]. apply not_true_is_false. intros H. specialize (H1 _ Hy).
    destruct (slt_total _ _ E) as [E'|E']; [rewrite E' in H1; congruence|]. pose proof (slt_trans _ _ _ H E'). congruence.
Qed.
Lemma sort_sorted l : sorted (sort_entries l).
Proof. induction l as [|e l IH]; cbn; [exact I|now apply insert_sorted]. Qed.
Lemma sorted_app a b : sorted (a ++ b) -> forall x y, In x a -> In y b -> slt (fst y) (fst x) = false.
Proof.
  induction a as [|e a IH]; cbn; intros H x y Hx Hy; [easy|]. destruct H as [H1 H2]. destruct Hx as [<-|Hx]; [|eauto].
  apply H1. rewrite in_app_iff. auto.
Qed.

Lemma clean_loop_spec fuel : forall l d0 r d k, clean_loop fuel l d0 = (r, d, k) -> List.length l < fuel ->
  d ++ k = d0 ++ l /\ (exists d1, d = d0 ++ d1 /\ forall e, In e d1 -> snd e = true)
  /\ (r = Ok tt /\ List.length k = Nat.min (max_retained - 1) (List.length l)
      \/ r = Err EIo /\ max_retained <= List.length k /\ exists e t, k = e :: t /\ snd e = false).
Proof.
  induction fuel as [|fuel IH]; intros l d0 r d k H L; [lia|]. cbn [clean_loop] in H. destruct (Nat.leb_spec max_retained (List.length l)) as [Hl|Hl].
  - destruct l as [|e t]; [cbn in Hl; unfold max_retained in Hl; lia|]. destruct (snd e) eqn:Es.
    + destruct (IH _ _ _ _ _ H) as (H1 & (d1 & Hd & Hs) & H3); [cbn in L; lia|]. rewrite <- app_assoc in H1, Hd. split; [auto|]. split.
      * exists (e :: d1). split; [auto|]. intros x [<-|Hx]; auto.
      * destruct H3 as [(-> & Hk)|H3]; [|auto]. left. split; [auto|]. rewrite Hk. cbn [List.length] in *. unfold max_retained in *. lia.
    + injection H as <- <- <-. split; [auto|]. split; [exists []; rewrite app_nil_r; split; [auto|intros x []]|]. right. split; [auto|]. split; [auto|]. eauto.
  - injection H as <- <- <-. split; [auto|]. split; [exists []; rewrite app_nil_r; split; [auto|intros x []]|]. left. split; [auto|]. unfold max_retained in *. lia.
Qed.
Lemma clean_spec l r d k : NoDup (map fst l) -> clean_old_logs (Some l) = (r, d, k) ->
  Permutation (d ++ k) l /\ (forall x y, In x d -> In y k -> slt (fst x) (fst y) = true) /\ (forall e, In e d -> snd e = true)
  /\ (r = Ok tt /\ List.length k = Nat.min (max_retained - 1) (List.length l)
      \/ r = Err EIo /\ max_retained <= List.length k /\ exists e, In e k /\ snd e = false).
Proof.
  intros Hnd H. unfold clean_old_logs in H. destruct (clean_loop_spec _ _ _ _ _ _ H) as (H1 & (d1 & Hd & Hs) & H3); [lia|].
  cbn in H1, Hd. subst d1. pose proof (sort_perm l) as HP. split; [rewrite H1; auto|]. split; [|split; [auto|]].
  - intros x y Hx Hy. pose proof (sort_sorted l) as Hso. rewrite <- H1 in Hso. pose proof (sorted_app _ _ Hso _ _ Hx Hy) as E.
    destruct (slt_total _ _ E) as [E'|E']; [|auto]. exfalso.
    assert (Hnd' : NoDup (map fst (d ++ k))). { rewrite H1. eapply Permutation_NoDup; [apply Permutation_map, Permutation_sym, HP|auto]. }
    rewrite map_app in Hnd'. apply in_split in Hx. destruct Hx as (d1 & d2 & ->). apply (in_map fst) in Hy. rewrite map_app in Hnd'. cbn in Hnd'. rewrite <- app_assoc in Hnd'. cbn in Hnd'.
    apply NoDup_remove_2 in Hnd'. apply Hnd'. rewrite !in_app_iff. right. right. now rewrite <- E'.
  - rewrite (Permutation_length HP) in H3. destruct H3 as [H3|(-> & Hk & e & t & -> & He)]; [auto|]. right. split; [auto|]. split; [auto|]. exists e. cbn. auto.
Qed.

(** ** names in chronological order *)
Lemma slt_app_same a x y : slt (a ++ x)%string (a ++ y)%string = slt x y.
Proof. induction a as [|c a IH]; cbn [slt append]; [auto|]. now rewrite Nat.ltb_irrefl. Qed.
Lemma slt_app_lt a b x y : String.length a = String.length b -> slt a b = true -> slt (a ++ x)%string (b ++ y)%string = true.
Proof.
  revert b. induction a as [|c a IH]; intros [|d b]; cbn [slt append]; intros L H; try discriminate.
  destruct (Nat.ltb (nat_of_ascii c) (nat_of_ascii d)); [auto|]. destruct (Nat.ltb (nat_of_ascii d) (nat_of_ascii c)); [discriminate|]. apply IH; [now injection L|auto].
Qed.
Lemma digit_nat n : n < 10 -> nat_of_ascii (digit n) = 48 + n.
Proof. intros H. unfold digit. apply nat_ascii_embedding. lia. Qed.
Lemma pad_length w : forall n, String.length (pad w n) = w.
Proof. induction w as [|w IH]; intros n; cbn; [auto|]. rewrite length_app, IH. cbn. lia. Qed.
Lemma pad_lt w : forall n m, n < m -> m < 10 ^ w -> slt (pad w n) (pad w m) = true.
Proof.
  induction w as [|w IH]; intros n m H L; [cbn in L; lia|]. cbn [pad].
  assert (Hm : m / 10 < 10 ^ w) by (apply Nat.div_lt_upper_bound; [lia|]; cbn in L; lia).
  pose proof (Nat.div_mod n 10 ltac:(lia)) as Dn. pose proof (Nat.div_mod m 10 ltac:(lia)) as Dm.
  pose proof (Nat.mod_upper_bound n 10 ltac:(lia)) as Bn. pose proof (Nat.mod_upper_bound m 10 ltac:(lia)) as Bm.
  destruct (Nat.lt_ge_cases (n / 10) (m / 10)) as [Hd|Hd].
  - apply slt_app_lt; [now rewrite !pad_length|auto].
  - assert (n / 10 = m / 10) as E by (assert (n / 10 <= m / 10) by (apply Nat.div_le_mono; lia); lia). rewrite E, slt_app_same. cbn [slt].
    rewrite !digit_nat by auto. destruct (Nat.ltb_spec (48 + n mod 10) (48 + m mod 10)); [auto|]. rewrite E in Dn. lia.
Qed.

(** earlier than, field by field *)
Definition fields (t : stamp) : list nat := [t_year t; t_month t; t_day t; t_hour t; t_min t; t_sec t; t_ms t].
Fixpoint lex (a b : list nat) : Prop :=
  match a, b with x :: a', y :: b' => x < y \/ (x = y /\ lex a' b') | _, _ => False end.
Definition earlier (t u : stamp) : Prop := lex (fields t) (fields u).
Definition plausible (t : stamp) : Prop :=
  t_year t < 10 ^ 4 /\ t_month t < 10 ^ 2 /\ t_day t < 10 ^ 2 /\ t_hour t < 10 ^ 2 /\ t_min t < 10 ^ 2 /\ t_sec t < 10 ^ 2 /\ t_ms t < 10 ^ 3.

Lemma step_lt w n m x y c : n < 10 ^ w -> m < 10 ^ w -> n < m \/ (n = m /\ slt x y = true) -> slt (pad w n ++ (String c x))%string (pad w m ++ String c y)%string = true.
Proof.
  intros Hn Hm [H|[-> H]].
  - apply slt_app_lt; [now rewrite !pad_length|now apply pad_lt].
  - rewrite slt_app_same. cbn [slt]. now rewrite Nat.ltb_irrefl.
Qed.
Lemma names_ordered t u i j : plausible t -> plausible u -> earlier t u -> slt (log_name t i) (log_name u j) = true.
Proof.
  intros (T1 & T2 & T3 & T4 & T5 & T6 & T7) (U1 & U2 & U3 & U4 & U5 & U6 & U7) H. unfold earlier in H. cbn [fields lex] in H. unfold log_name.
  rewrite slt_app_same. cbn [append].
  apply step_lt; [assumption|assumption|]. destruct H as [H|[E H]]; [auto|right; split; [auto|]].
  apply step_lt; [assumption|assumption|]. destruct H as [H|[E2 H]]; [auto|right; split; [auto|]].
  apply step_lt; [assumption|assumption|]. destruct H as [H|[E3 H]]; [auto|right; split; [auto|]].
  apply step_lt; [assumption|assumption|]. destruct H as [H|[E4 H]]; [auto|right; split; [auto|]].
  apply step_lt; [assumption|assumption|]. destruct H as [H|[E5 H]]; [auto|right; split; [auto|]].
  apply step_lt; [assumption|assumption|]. destruct H as [H|[E6 H]]; [auto|right; split; [auto|]].
  apply step_lt; [assumption|assumption|]. destruct H as [H|[E7 H]]; [auto|contradiction].
Qed.
