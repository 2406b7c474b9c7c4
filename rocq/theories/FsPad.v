(** * Making the directory of a link before the link: what changes in the machine of Fs.v (nothing, except for the moments in between) *)
From Verif Require Import Base Fs FsPlain.
Open Scope string_scope.
Open Scope list_scope.

(** isolated.rs:534-556: [mkdirp] of the directory the link goes into, then the link *)
Definition pad_item (t : item) : list item := match snd t with ELink _ => [(removelast (fst t), EDir); t] | _ => [t] end.
Definition pad (i : inst) : inst := mkInst (i_check i) (i_main i) (flat_map pad_item (i_links i)).

Lemma pad_links i t : In t (i_links (pad i)) <-> In t (i_links i) \/ exists l x, In l (i_links i) /\ snd l = ELink x /\ t = (removelast (fst l), EDir).
Proof.
  cbn. rewrite in_flat_map. split.
  - intros (l & Hl & Ht). unfold pad_item in Ht. destruct (snd l) as [|b|x] eqn:E; cbn in Ht.
    + destruct Ht as [<-|[]]. auto.
    + destruct Ht as [<-|[]]. auto.
    + destruct Ht as [<-|[<-|[]]]; [right; eauto 6 | auto].
  - intros [Ht|(l & x & Hl & Hx & ->)].
    + exists t. split; [auto|]. unfold pad_item. destruct (snd t); cbn; auto.
    + exists l. split; [auto|]. unfold pad_item. rewrite Hx. cbn. auto.
Qed.
Lemma pad_items i t : In t (items (pad i)) <-> In t (items i) \/ exists l x, In l (i_links i) /\ snd l = ELink x /\ t = (removelast (fst l), EDir).
Proof. unfold items. rewrite !in_app_iff, pad_links. cbn [i_main pad]. tauto. Qed.
Lemma above_removelast p : 2 <= length p -> above (removelast p) p.
Proof.
  intros H. assert (Hn : p <> []) by (destruct p; [cbn in H; lia|discriminate]). split; [|split].
  - exists [last p ""]. apply app_removelast_last. auto.
  - intros E. pose proof (f_equal (@List.length _) E) as E'. rewrite (app_removelast_last "" Hn) in E' at 2. rewrite app_length in E'. cbn in E'. lia.
  - intros E. rewrite (app_removelast_last "" Hn), E in H. cbn in H. lia.
Qed.
Lemma above_trans a b c : above a b -> above b c -> above a c.
Proof.
  intros (H1 & H2 & H3) (H4 & H5 & H6). split; [eapply prefix_trans; eauto|]. split; [|auto]. intros ->. apply H2. now apply prefix_antisym.
Qed.

Section Pad.
  Variable insts : list inst.
  (** links are in directories below the project root *)
  Hypothesis H_deep : forall i t x, In i insts -> In t (i_links i) -> snd t = ELink x -> 2 <= length (fst t).

  Lemma wanted_pad q e : wanted (map pad insts) q e <-> wanted insts q e.
  Proof.
    split.
    - intros [(j & Hj & Ht)|(-> & j & p & e' & Hj & Ht & Ha)]; apply in_map_iff in Hj; destruct Hj as (i & <- & Hi); apply pad_items in Ht.
      + destruct Ht as [Ht|(l & x & Hl & Hx & E)]; [left; eauto|]. injection E as -> ->. right. split; [auto|].
        exists i, (fst l), (snd l). split; [auto|]. split; [unfold items; apply in_app_iff; right; now destruct l|].
        apply above_removelast. eapply H_deep; eauto.
      + right. split; [auto|]. destruct Ht as [Ht|(l & x & Hl & Hx & E)]; [eauto 8|]. injection E as -> ->.
        exists i, (fst l), (snd l). split; [auto|]. split; [unfold items; apply in_app_iff; right; now destruct l|].
        eapply above_trans; [exact Ha|]. apply above_removelast. eapply H_deep; eauto.
    - intros [(i & Hi & Ht)|(-> & i & p & e' & Hi & Ht & Ha)].
      + left. exists (pad i). split; [now apply in_map|]. apply pad_items. auto.
      + right. split; [auto|]. exists (pad i), p, e'. split; [now apply in_map|]. split; [apply pad_items; auto|auto].
  Qed.
  Lemma pad_in j : In j (map pad insts) -> exists i, In i insts /\ j = pad i.
  Proof. intros H. apply in_map_iff in H. destruct H as (i & <- & Hi). eauto. Qed.

  Lemma pad_fun : (forall q e e', wanted insts q e -> wanted insts q e' -> e = e') -> forall q e e', wanted (map pad insts) q e -> wanted (map pad insts) q e' -> e = e'.
  Proof. intros H q e e' H1 H2. apply wanted_pad in H1, H2. eauto. Qed.
  Lemma pad_rel (rel : path -> Prop) : (forall q e, wanted insts q e -> rel q) -> forall q e, wanted (map pad insts) q e -> rel q.
  Proof. intros H q e H1. apply wanted_pad in H1. eauto. Qed.
  Lemma pad_main : (forall i d, In i insts -> i_check i = Some d -> forall t, In t (i_main i) -> prefix d (fst t)) ->
    forall i d, In i (map pad insts) -> i_check i = Some d -> forall t, In t (i_main i) -> prefix d (fst t).
  Proof. intros H j d Hj Hd t Ht. destruct (pad_in j Hj) as (i & Hi & ->). eapply H; eauto. Qed.
  Lemma pad_nocheck : (forall i, In i insts -> i_check i = None -> i_main i = []) -> forall i, In i (map pad insts) -> i_check i = None -> i_main i = [].
  Proof. intros H j Hj Hd. destruct (pad_in j Hj) as (i & Hi & ->). exact (H i Hi Hd). Qed.
  Lemma pad_ne : (forall i d, In i insts -> i_check i = Some d -> d <> []) -> forall i d, In i (map pad insts) -> i_check i = Some d -> d <> [].
  Proof. intros H j d Hj Hd. destruct (pad_in j Hj) as (i & Hi & ->). eapply H; eauto. Qed.
  Lemma pad_nofile : (forall i t, In i insts -> In t (i_links i) -> forall b, snd t <> EFile b) -> forall i t, In i (map pad insts) -> In t (i_links i) -> forall b, snd t <> EFile b.
  Proof.
    intros H j t Hj Ht b. destruct (pad_in j Hj) as (i & Hi & ->). apply pad_links in Ht. destruct Ht as [Ht|(l & x & _ & _ & ->)]; [eapply H; eauto | discriminate].
  Qed.
  Lemma pad_ord : (forall l1 i l2 i' d, insts = l1 ++ i :: l2 -> In i' l2 -> i_check i' = Some d -> forall t, In t (items i) -> ~ prefix d (fst t)) ->
    forall l1 i l2 i' d, map pad insts = l1 ++ i :: l2 -> In i' l2 -> i_check i' = Some d -> forall t, In t (items i) -> ~ prefix d (fst t).
  Proof.
    intros H l1 j l2 j' d E Hj' Hd t Ht Hp. apply map_eq_app in E. destruct E as (k1 & k2 & E & <- & E2). apply map_eq_cons in E2. destruct E2 as (i & k3 & -> & <- & <-).
    apply in_map_iff in Hj'. destruct Hj' as (i' & <- & Hi'). cbn [i_check pad] in Hd.
    apply pad_items in Ht. destruct Ht as [Ht|(l & x & Hl & Hx & ->)]; [eapply H; eauto|].
    assert (Hi : In i insts) by (rewrite E; apply in_app_iff; right; now left).
    refine (H k1 i k3 i' d E Hi' Hd l _ _); [unfold items; apply in_app_iff; auto|]. cbn [fst] in Hp. eapply prefix_trans; [exact Hp|].
    apply above_removelast. eapply H_deep; eauto.
  Qed.
  Lemma pad_good rel f : good_start insts rel f -> good_start (map pad insts) rel f.
  Proof.
    intros [H1 H2]. constructor.
    - intros q e Hr Hq. apply wanted_pad. eauto.
    - intros j d Hj Hd Hf t Ht. destruct (pad_in j Hj) as (i & Hi & ->). eapply H2; eauto.
  Qed.
  Lemma pad_solid rel f : solid insts rel f <-> solid (map pad insts) rel f.
  Proof.
    split; intros [H1 H2]; constructor.
    - intros q e Hr Hq. apply wanted_pad. eauto.
    - intros j d Hj Hd t Ht. destruct (pad_in j Hj) as (i & Hi & ->). eapply H2; eauto.
    - intros q e Hr Hq. apply wanted_pad. eauto.
    - intros i d Hi Hd t Ht. apply (H2 (pad i) d); auto. now apply in_map.
  Qed.
  Lemma pad_keep (P : path -> Prop) : (forall i d, In i insts -> i_check i = Some d -> forall t, In t (i_main i) -> P (fst t)) ->
    forall i d, In i (map pad insts) -> i_check i = Some d -> forall t, In t (i_main i) -> P (fst t).
  Proof. intros H j d Hj Hd t Ht. destruct (pad_in j Hj) as (i & Hi & ->). eapply H; eauto. Qed.
End Pad.
