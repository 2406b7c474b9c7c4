(** * The machine of IsoMkdirModel: its runs are runs of Fs.v, and when they do not fail *)
From Verif Require Import Base Types ResolverModel LockfileModel Fs FsPlain FsPad HoistedModel IsolatedSpec IsolatedModel IsoMkdirModel.
Open Scope string_scope.
Open Scope list_scope.

(** ** paths *)
Lemma above_split a d : above a d -> a = removelast d \/ above a (removelast d).
Proof.
  intros ([r Hr] & H2 & H3). assert (r <> []) by (intros ->; rewrite app_nil_r in Hr; congruence).
  destruct (exists_last H) as (r' & z & ->). rewrite Hr, app_assoc, removelast_last. destruct r' as [|y r']; [left; now rewrite app_nil_r|].
  right. split; [exists (y :: r'); auto|]. split; [|auto]. intros E. rewrite <- (app_nil_r a) in E at 1. apply app_inv_head in E. discriminate.
Qed.
Lemma above_len a p : above a p -> List.length a < List.length p.
Proof.
  intros ([r ->] & H & _). rewrite app_length. destruct r; [rewrite app_nil_r in H; congruence|]. cbn. lia.
Qed.
Lemma in_ancestors q d : d <> [] -> (In q (ancestors d) <-> q = d \/ above q d).
Proof.
  intros Hd. unfold ancestors. rewrite in_map_iff. split.
  - intros (n & <- & Hn). apply in_seq in Hn. destruct (Nat.eq_dec n (List.length d)) as [->|Hne]; [left; apply firstn_all|].
    right. split; [exists (skipn n d); now rewrite firstn_skipn|]. split.
    + intros E. apply (f_equal (@List.length _)) in E. rewrite firstn_length in E. lia.
    + intros E. apply (f_equal (@List.length _)) in E. rewrite firstn_length in E. cbn in E. lia.
  - intros [->|([r ->] & H2 & H3)].
    + exists (List.length d). split; [apply firstn_all|]. apply in_seq. destruct d; [congruence|]. cbn. lia.
    + exists (List.length q). split; [rewrite firstn_app, Nat.sub_diag, firstn_all; cbn; apply app_nil_r|]. apply in_seq. rewrite app_length. destruct q; [congruence|]. cbn. lia.
Qed.
Lemma removelast_above d : removelast d <> [] -> above (removelast d) d.
Proof.
  intros H. apply above_removelast. destruct d as [|x [|y d]]; [cbn in H; congruence|cbn in H; congruence|cbn; lia].
Qed.

(** ** what [put] keeps *)
Lemma put_dir_stays p e f q : f q = Some EDir -> put_ok p e f -> put p e f q = Some EDir.
Proof.
  intros H Hok. unfold put. destruct (path_eq_dec q p) as [->|Hn]; [|now destruct (aboveb q p); rewrite H].
  rewrite H. destruct e; auto. destruct Hok as [_ [Hok|[b Hok]]]; congruence.
Qed.
Lemma put_dir_made d f : put_ok d EDir f -> forall a, a = d \/ above a d -> put d EDir f a = Some EDir.
Proof.
  intros Hok a [->|Ha]; [|now apply put_above]. unfold put. destruct (path_eq_dec d d); [|congruence]. destruct Hok as [_ [-> | ->]]; reflexivity.
Qed.
Lemma put_link_stays p e f q t : f q = Some (ELink t) -> put_ok p e f -> put p e f q = Some (ELink t).
Proof.
  intros H Hok. unfold put. destruct (path_eq_dec q p) as [->|Hn]; [|now destruct (aboveb q p); rewrite H].
  rewrite H. destruct e; auto. destruct Hok as [_ [Hok|[b Hok]]]; congruence.
Qed.
Lemma put_some_stays p e f q : f q <> None -> put p e f q <> None.
Proof.
  intros H. unfold put. destruct (path_eq_dec q p) as [->|Hn]; [|destruct (aboveb q p); destruct (f q); congruence].
  destruct e; destruct (f p); congruence.
Qed.
Lemma put_new p e f q : f q = None -> put p e f q <> None -> q = p \/ above q p.
Proof.
  intros H. unfold put. destruct (path_eq_dec q p) as [->|Hn]; [auto|]. destruct (aboveb q p) eqn:E; [right; now apply aboveb_spec|congruence].
Qed.
Lemma exists_stays p e f q : exists_at f q = true -> put_ok p e f -> exists_at (put p e f) q = true.
Proof.
  unfold exists_at. intros H Hok.
  assert (K : forall q', (f q' = Some EDir \/ exists b, f q' = Some (EFile b)) -> put p e f q' = Some EDir \/ exists b, put p e f q' = Some (EFile b)).
  { intros q' [Hq|[b Hq]]; [left; now apply put_dir_stays|]. right. unfold put. destruct (path_eq_dec q' p) as [->|Hn]; [|destruct (aboveb q' p); rewrite Hq; eauto].
    rewrite Hq. destruct e; eauto. }
  destruct (f q) as [[|b|t]|] eqn:E; [| | |discriminate].
  - rewrite (put_dir_stays p e f q E Hok). reflexivity.
  - destruct (K q) as [Hk|[b' Hk]]; [eauto|rewrite Hk; auto|rewrite Hk; auto].
  - rewrite (put_link_stays p e f q t E Hok). destruct (walk (removelast q) t) as [r|]; [|discriminate].
    destruct (K r) as [Hk|[b' Hk]]; [destruct (f r) as [[|b|]|]; try discriminate; eauto|now rewrite Hk|now rewrite Hk].
Qed.
Lemma exists_some f p : exists_at f p = true -> f p <> None.
Proof. unfold exists_at. destruct (f p); congruence. Qed.
(** [r_skip] changes nothing *)
Lemma skip_same f p t d : exists_at f p = true -> d = removelast p -> (forall a, above a p -> f a = Some EDir) -> 2 <= List.length p ->
  forall q, put p (ELink t) (put d EDir f) q = f q.
Proof.
  intros Hx -> Hup Hl q. apply exists_some in Hx. assert (Ad : above (removelast p) p) by now apply above_removelast.
  assert (In1 : forall q, put (removelast p) EDir f q = f q).
  { intros q'. unfold put. destruct (path_eq_dec q' (removelast p)) as [->|Hn]; [now rewrite (Hup _ Ad)|]. destruct (aboveb q' (removelast p)) eqn:E; [|auto].
    apply aboveb_spec in E. rewrite (Hup q'); [auto|]. eapply above_trans; [exact E|]. apply Ad. }
  unfold put at 1. rewrite In1. destruct (path_eq_dec q p) as [->|Hn]; [destruct (f p); congruence|]. destruct (aboveb q p) eqn:E; [|auto]. apply aboveb_spec in E. now rewrite (Hup q E).
Qed.

(** ** lists of things to do *)
Fixpoint wp (l : list item) : Prop :=
  match l with
  | [] => True
  | (d, EDir) :: l' => match l' with (p, ELink _) :: l'' => d = removelast p /\ 2 <= List.length p /\ wp l'' | _ => wp l' end
  | (_, EFile _) :: l' => wp l'
  | (_, ELink _) :: _ => False
  end.
Lemma wp_cons p e l : wp l -> (forall t, e <> ELink t) -> wp ((p, e) :: l).
Proof. intros H He. destruct e as [|b|t]; cbn; [|exact H|destruct (He t eq_refl)]. destruct l as [|[q [|b|t]] l]; auto. destruct H. Qed.
Lemma wp_next p e l : wp ((p, e) :: l) -> ~ at_link ((p, e) :: l) -> wp l.
Proof. destruct e as [|b|t]; cbn; [|auto|intros []]. destruct l as [|[q [|b|t]] l]; auto. intros _ H. destruct H; exact Logic.I. Qed.
Lemma wp_pair d p t l : wp ((d, EDir) :: (p, ELink t) :: l) -> d = removelast p /\ 2 <= List.length p /\ wp l.
Proof. intros H. exact H. Qed.
Lemma wp_pad l : (forall t, In t l -> (exists x, snd t = ELink x) /\ 2 <= List.length (fst t)) -> wp (flat_map pad_item l).
Proof.
  induction l as [|[p e] l IH]; intros H; [exact Logic.I|]. cbn [flat_map]. destruct (H (p, e) (or_introl eq_refl)) as [[x Hx] Hl]. cbn [snd fst] in *. subst e.
  unfold pad_item at 1. cbn [snd fst app]. change (removelast p = removelast p /\ 2 <= List.length p /\ wp (flat_map pad_item l)). split; [auto|]. split; [auto|]. apply IH. intros t Ht. apply H. now right.
Qed.
Lemma wp_app l l' : (forall t, In t l -> forall x, snd t <> ELink x) -> wp l' -> wp (l ++ l').
Proof.
  induction l as [|[p e] l IH]; intros H H'; [exact H'|]. cbn [app]. apply wp_cons; [|apply (H (p, e)); now left]. apply IH; auto. intros t Ht. apply H. now right.
Qed.

Section Machine.
  Variable META : Type.
  Variable doomed : path -> bool.
  Variable wipe : bool.
  Variable top : path.
  Hypothesis H_top : top <> [].
  Variable rest : list inst.
  Variable final_meta : META.
  Notation insts := (mkInst None [] [(top, EDir)] :: rest).
  Notation pinsts := (map pad insts).
  Notation rworld := (rworld META).
  Notation rstep := (rstep META doomed wipe pinsts final_meta).
  Notation rsteps := (rsteps META doomed wipe pinsts final_meta).
  Notation wstep := (wstep META doomed wipe pinsts final_meta).
  Notation wsteps := (wsteps META doomed wipe pinsts final_meta).
  (** packages link to others by symbolic links, their files are files *)
  Hypothesis H_kind : forall x t, In x rest -> In t (i_links x) -> (exists l, snd t = ELink l) /\ 2 <= List.length (fst t).
  Hypothesis H_kindm : forall x t, In x rest -> In t (i_main x) -> forall l, snd t <> ELink l.

  Definition proj (w : rworld) : world META :=
    mkW _ (r_fs _ w) (r_meta _ w) (match r_phase _ w with RPruning => Pruning | RExtracting next live => Extracting next (map snd live) | RDone => Done end).

  Definition task_ok (f : fs) (x : task) : Prop :=
    wp (snd x) \/ exists p t l, snd x = (p, ELink t) :: l /\ fst x = false /\ wp l /\ 2 <= List.length p /\ forall a, above a p -> f a = Some EDir.
  (** what is cached is a directory, and so is everything above it *)
  Definition cache_ok (f : fs) (c : list path) : Prop := forall q, In q c -> q <> [] /\ f q = Some EDir /\ forall a, above a q -> In a c.
  Definition rinv (w : rworld) : Prop :=
    match r_phase _ w with
    | RPruning => r_cache _ w = []
    | RExtracting next live =>
        (exists st, pinsts = st ++ next /\ (st = [] -> live = [] /\ r_cache _ w = []) /\ (st <> [] -> r_cache _ w <> []))
        /\ (forall x, In x live -> task_ok (r_fs _ w) x) /\ cache_ok (r_fs _ w) (r_cache _ w)
    | RDone => True
    end.
  Lemma task_ok_put p e f x : put_ok p e f -> task_ok f x -> task_ok (put p e f) x.
  Proof.
    intros Hok [H|(q & t & l & E & Hf & Hw & Hl & Hup)]; [left; auto|]. right. exists q, t, l. repeat (split; [auto|]). intros a Ha. apply put_dir_stays; auto.
  Qed.
  Lemma cache_ok_put p e f c : put_ok p e f -> cache_ok f c -> cache_ok (put p e f) c.
  Proof. intros Hok H q Hq. destruct (H q Hq) as (H1 & H2 & H3). split; [auto|]. split; [now apply put_dir_stays|auto]. Qed.
  Lemma mkdirp_put_ok f c d : cache_ok f c -> d <> [] -> removelast d <> [] -> mkdirp_ok f c d -> put_ok d EDir f.
  Proof.
    intros HC Hne Hne' [H|[(_ & H & H2 & H3)|(_ & _ & H)]]; [| |exact H].
    - destruct (HC d H) as (_ & H1 & H2). split; [|auto]. intros q Hq. right. apply (HC q). auto.
    - split; [|auto]. intros q Hq. right. destruct (above_split q d Hq) as [->|Ha]; [auto|]. destruct (HC _ H) as (_ & _ & H5). apply (HC q). auto.
  Qed.
  Lemma mkdirp_cache_in c d q : d <> [] -> In q (mkdirp_cache c d) -> In q c \/ q = d \/ above q d.
  Proof.
    intros Hd. unfold mkdirp_cache. destruct (in_dec path_eq_dec d c); [auto|]. destruct (in_dec path_eq_dec (removelast d) c).
    - intros [<-|H]; auto.
    - intros H. apply in_app_iff in H. destruct H as [H|H]; [|auto]. right. now apply in_ancestors.
  Qed.
  Lemma mkdirp_cache_keeps c d q : In q c -> In q (mkdirp_cache c d).
  Proof. unfold mkdirp_cache. intros H. destruct (in_dec _ _ _); [auto|]. destruct (in_dec _ _ _); [now right|]. apply in_app_iff. auto. Qed.
  Lemma mkdirp_cache_d c d : d <> [] -> In d (mkdirp_cache c d).
  Proof.
    intros Hd. unfold mkdirp_cache. destruct (in_dec _ _ _); [auto|]. destruct (in_dec _ _ _); [now left|]. apply in_app_iff. left. apply in_ancestors; auto.
  Qed.
  Lemma cache_ok_mkdir f c d : cache_ok f c -> d <> [] -> removelast d <> [] -> mkdirp_ok f c d -> cache_ok (put d EDir f) (mkdirp_cache c d).
  Proof.
    intros HC Hne Hne' M. pose proof (mkdirp_put_ok f c d HC Hne Hne' M) as Hok. pose proof (cache_ok_put d EDir f c Hok HC) as HC'.
    unfold mkdirp_cache. destruct (in_dec path_eq_dec d c) as [Hi|Hi]; [exact HC'|].
    assert (MADE : forall a, a = d \/ above a d -> put d EDir f a = Some EDir) by now apply put_dir_made.
    destruct (in_dec path_eq_dec (removelast d) c) as [Hr|Hr].
    - intros q [<-|Hq]; [|destruct (HC' q Hq) as (H1 & H2 & H3); split; [auto|]; split; [auto|]; intros a Ha; right; auto].
      split; [auto|]. split; [apply MADE; auto|]. intros a Ha. right. destruct (above_split a d Ha) as [->|Ha']; [auto|]. apply (HC _ Hr). auto.
    - intros q Hq. apply in_app_iff in Hq. destruct Hq as [Hq|Hq].
      + apply in_ancestors in Hq; [|auto]. split; [destruct Hq as [->|Hq]; [auto|apply Hq]|]. split; [now apply MADE|]. intros a Ha. apply in_app_iff. left. apply in_ancestors; [auto|].
        right. destruct Hq as [->|Hq]; [auto|]. eapply FsPad.above_trans; eauto.
      + destruct (HC' q Hq) as (H1 & H2 & H3). split; [auto|]. split; [auto|]. intros a Ha. apply in_app_iff. right. auto.
  Qed.
  Lemma pad_wp i : In i rest -> wp (items (pad i)) /\ wp (i_links (pad i)).
  Proof.
    intros Hi. assert (H : wp (i_links (pad i))) by (apply wp_pad; intros t Ht; eapply H_kind; eauto). split; [|auto].
    unfold items. cbn [pad i_main]. apply wp_app; [|exact H]. intros t Ht x. eapply H_kindm; eauto.
  Qed.
  Lemma in_mid (l1 l2 : list task) x y : In y (l1 ++ x :: l2) <-> y = x \/ In y l1 \/ In y l2.
  Proof. rewrite in_app_iff. cbn. intuition auto. Qed.

  Lemma rinv_step w w' : rinv w -> rstep w w' -> rinv w' /\ wsteps (proj w) (proj w').
  Proof.
    intros K S. assert (ONE : forall a b, wstep a b -> wsteps a b) by (intros a b H; eapply ws_step; [apply ws_refl|exact H]).
    destruct S as [f m p Hc Hp Hl|f m Hw|f m Hc Hm|f m i next d Hi Hil Hok|f m i next live c Hc|f m next l1 l2 p e rst c Hna Hok|f m next l1 l2 p x rst x' c Hok
      |f m next l1 l2 d p t rst c Hx Hok Hup|f m next l1 l2 d p t rst c Hx|f m next l1 l2 d p t rst c Hok|f m next l1 l2 p t rst c Hd|f m m' live c Hl|f m live c Hl];
      unfold rinv in K |- *; cbn [r_fs r_meta r_phase r_cache] in *; unfold proj; cbn [r_fs r_meta r_phase r_cache].
    - split; [auto|]. apply ONE. now constructor.
    - split; [auto|]. apply ONE. now constructor.
    - split; [|apply ONE; now constructor]. split; [exists []; split; [reflexivity|]; split; [auto|congruence]|]. split; [intros x []|intros q []].
    - destruct K as [(st & Hst & _ & Hne) (_ & _)]. assert (Est : st = []) by (destruct st; [auto|destruct (Hne ltac:(discriminate) eq_refl)]). subst st. cbn [app] in Hst.
      cbn [map] in Hst. injection Hst as <- <-. cbn [pad i_links flat_map pad_item snd app] in Hil. injection Hil as <-.
      split.
      + split; [exists [pad (mkInst None [] [(top, EDir)])]; split; [reflexivity|]; split; [discriminate|]; intros _ E; assert (In top (ancestors top)) by (apply in_ancestors; auto); rewrite E in *; contradiction|].
        split; [intros x [<-|[]]; left; exact Logic.I|]. intros q Hq. apply in_ancestors in Hq; [|auto]. split; [destruct Hq as [->|Hq]; [auto|apply Hq]|]. split; [apply put_dir_made; auto|].
        intros a Ha. apply in_ancestors; [auto|]. right. destruct Hq as [->|Hq]; [auto|]. eapply FsPad.above_trans; eauto.
      + eapply ws_step; [eapply ws_step; [apply ws_refl|apply s_start]|]. cbn [i_check pad i_links flat_map pad_item snd app map].
        change ([[(top, EDir)]]) with ([] ++ ((top, EDir) :: []) :: @nil (list item)). change ([@nil item]) with ([] ++ [] :: @nil (list item)). now apply s_put.
    - destruct K as [(st & Hst & He & Hne) (HT & HC)]. assert (st <> []) by (intros E; destruct (He E); congruence). destruct st as [|i0 st]; [congruence|]. cbn [app map] in Hst. injection Hst as E0 Hst.
      assert (Hin : In i (map pad rest)) by (rewrite Hst; apply in_app_iff; right; now left). apply in_map_iff in Hin. destruct Hin as (j & <- & Hj). destruct (pad_wp j Hj) as [W1 W2].
      split; [|apply ONE; constructor]. split; [exists (i0 :: st ++ [pad j]); split; [cbn [app map]; rewrite <- app_assoc; cbn [app]; now rewrite E0, <- Hst|]; split; [discriminate|auto]|].
      split; [|auto]. intros x [<-|Hx]; [|auto]. left. cbn [snd]. destruct (i_check (pad j)) as [d|]; [destruct (f d)|]; auto.
    - destruct K as [HS (HT & HC)]. split.
      + destruct HS as (st & Hst & He & Hne). split; [exists st; split; [auto|]; split; [intros E; destruct (He E) as [E' _]; destruct l1; discriminate|auto]|]. split.
        * intros x Hx. apply in_mid in Hx. destruct Hx as [->|Hx]; [|apply task_ok_put; [auto|]; apply HT; apply in_mid; auto].
          destruct (HT (false, (p, e) :: rst)) as [H|(q & t & l & E & _)]; [apply in_mid; auto| |].
          { left. cbn [snd] in *. now apply wp_next in H. }
          exfalso. cbn [snd] in E. injection E as -> -> ->. apply Hna. exact Logic.I.
        * now apply cache_ok_put.
      + apply ONE. rewrite !map_app. cbn [map snd]. now apply s_put.
    - destruct K as [HS (HT & HC)]. assert (Hok' : put_ok p (EFile x') f) by exact Hok. split.
      + split; [exact HS|]. split; [intros y Hy; apply task_ok_put; auto | now apply cache_ok_put].
      + apply ONE. rewrite !map_app. cbn [map snd]. now apply s_torn.
    - destruct K as [HS (HT & HC)]. pose proof (put_exact d EDir f Hok) as _.
      assert (Hok2 : put_ok p (ELink t) (put d EDir f)) by (split; [intros q Hq; right; apply put_dir_stays; auto | auto]). split.
      + destruct HS as (st & Hst & He & Hne). split; [exists st; split; [auto|]; split; [intros E; destruct (He E) as [E' _]; destruct l1; discriminate|auto]|]. split.
        * intros x Hxx. apply in_mid in Hxx. destruct Hxx as [->|Hxx]; [|apply task_ok_put; [auto|]; apply task_ok_put; [auto|]; apply HT; apply in_mid; auto].
          destruct (HT (false, (d, EDir) :: (p, ELink t) :: rst)) as [H|(q & t' & l & E & _)]; [apply in_mid; auto| |discriminate E].
          left. cbn [snd] in *. apply wp_pair in H. tauto.
        * now apply cache_ok_put; [|apply cache_ok_put].
      + eapply ws_step; [apply ONE|]; rewrite !map_app; cbn [map snd]; now apply s_put.
    - destruct K as [HS (HT & HC)]. split.
      + destruct HS as (st & Hst & He & Hne). split; [exists st; split; [auto|]; split; [intros E; destruct (He E) as [E' _]; destruct l1; discriminate|auto]|]. split; [|auto].
        intros x Hxx. apply in_mid in Hxx. destruct Hxx as [->|Hxx]; [|apply HT; apply in_mid; auto].
        destruct (HT (false, (d, EDir) :: (p, ELink t) :: rst)) as [H|(q & t' & l & E & _)]; [apply in_mid; auto| |discriminate E]. left. exact H.
      + rewrite !map_app. cbn [map snd]. apply ws_refl.
    - destruct K as [HS (HT & HC)].
      destruct (HT (true, (d, EDir) :: (p, ELink t) :: rst)) as [H|(q & t' & l & E & _)]; [apply in_mid; auto| |discriminate E]. cbn [snd] in H. apply wp_pair in H. destruct H as (Ed & Hlen & Hwp).
      assert (Ad : above d p) by (rewrite Ed; now apply above_removelast).
      assert (Hne : d <> []) by apply Ad. 
      assert (Hok' : put_ok d EDir f).
      { destruct Hok as [H|[(_ & H & H2 & H3)|(_ & _ & H)]]; [| |exact H].
        - destruct (HC d H) as (_ & H1 & H2). split; [|auto]. intros q Hq. right. apply (HC q). auto.
        - split; [|auto]. intros q Hq. right. destruct (above_split q d Hq) as [->|Ha]; [auto|]. destruct (HC _ H) as (_ & _ & H5). apply (HC q). auto. }
      assert (HCn : cache_ok (put d EDir f) (mkdirp_cache c d)).
      { destruct (path_eq_dec (removelast d) []) as [E0|E0]; [|now apply cache_ok_mkdir].
        pose proof (cache_ok_put d EDir f c Hok' HC) as HC'. unfold mkdirp_cache. destruct (in_dec path_eq_dec d c) as [Hi|Hi]; [exact HC'|].
        assert (NA : forall a, ~ above a d).
        { intros a Ha. destruct (above_split a d Ha) as [->|Ha']; [destruct Ha as (_ & _ & Ha); congruence|]. rewrite E0 in Ha'. apply above_len in Ha'. cbn in Ha'. lia. }
        destruct (in_dec path_eq_dec (removelast d) c) as [Hr|Hr].
        - intros q [<-|Hq]; [|destruct (HC' q Hq) as (H1 & H2 & H3); split; [auto|]; split; [auto|]; intros a Ha; right; auto].
          split; [auto|]. split; [apply put_dir_made; auto|]. intros a Ha. destruct (NA a Ha).
        - intros q Hq. apply in_app_iff in Hq. destruct Hq as [Hq|Hq]; [|destruct (HC' q Hq) as (H1 & H2 & H3); split; [auto|]; split; [auto|]; intros a Ha; apply in_app_iff; right; auto].
          apply in_ancestors in Hq; [|auto]. destruct Hq as [->|Hq]; [|destruct (NA q Hq)]. split; [auto|]. split; [apply put_dir_made; auto|]. intros a Ha. destruct (NA a Ha). }
      split.
      + destruct HS as (st & Hst & He & Hnst). split; [exists st; split; [auto|]; split; [intros E; destruct (He E) as [E' _]; destruct l1; discriminate|]|].
        { intros _ E. assert (X : In d (mkdirp_cache c d)) by now apply mkdirp_cache_d. rewrite E in X. destruct X. }
        split; [|exact HCn]. intros x Hxx. apply in_mid in Hxx. destruct Hxx as [->|Hxx]; [|apply task_ok_put; [auto|]; apply HT; apply in_mid; auto].
        right. exists p, t, rst. split; [auto|]. split; [auto|]. split; [auto|]. split; [auto|]. intros a Ha. apply put_dir_made; [auto|]. rewrite Ed. now apply above_split.
      + apply ONE. rewrite !map_app. cbn [map snd]. now apply s_put.
    - destruct K as [HS (HT & HC)].
      destruct (HT (false, (p, ELink t) :: rst)) as [H|(q & t' & l & E & Hf & Hwp & Hlen & Hup)]; [apply in_mid; auto|destruct H|]. cbn [snd] in E. injection E as <- <- <-.
      assert (Hok : put_ok p (ELink t) f) by (split; [intros q Hq; right; auto|auto]). split.
      + destruct HS as (st & Hst & He & Hne). split; [exists st; split; [auto|]; split; [intros E; destruct (He E) as [E' _]; destruct l1; discriminate|auto]|]. split.
        * intros x Hx. apply in_mid in Hx. destruct Hx as [->|Hx]; [|apply task_ok_put; [auto|]; apply HT; apply in_mid; auto]. left. exact Hwp.
        * now apply cache_ok_put.
      + apply ONE. rewrite !map_app. cbn [map snd]. now apply s_put.
    - split; [exact K|]. apply ONE. apply s_torn_meta. apply Forall_map. exact Hl.
    - split; [exact Logic.I|]. apply ONE. apply s_done. apply Forall_map. exact Hl.
  Qed.
  (** runs with the cache are runs without *)
  Lemma rsteps_proj f m w : rsteps (mkR _ f m RPruning []) w -> rinv w /\ wsteps (mkW _ f m Pruning) (proj w).
  Proof.
    intros S. induction S as [|w1 w2 S [IH1 IH2] H]; [split; [reflexivity|apply ws_refl]|]. destruct (rinv_step _ _ IH1 H) as [K1 K2]. split; [auto|].
    eapply wsteps_trans; eauto.
  Qed.

  (** ** when nothing fails *)
  Definition treelike (f : fs) : Prop := forall q a, f q <> None -> above a q -> f a = Some EDir.
  Lemma treelike_put p e f : put_ok p e f -> treelike f -> treelike (put p e f).
  Proof.
    intros Hok T q a Hq Ha. destruct (f q) as [x|] eqn:E; [apply put_dir_stays; auto; apply (T q a); [congruence|auto]|].
    destruct (put_new p e f q E Hq) as [->|Hqp]; [now apply put_above|]. apply put_above; [auto|]. eapply FsPad.above_trans; eauto.
  Qed.
  Lemma treelike_ext f f' : (forall q, f' q = f q) -> treelike f -> treelike f'.
  Proof. intros E T q a Hq Ha. rewrite E in *. eauto. Qed.

  Variable rel : path -> Prop.
  Hypothesis H_fun : forall q e e', wanted pinsts q e -> wanted pinsts q e' -> e = e'.
  Hypothesis H_rel : forall q e, wanted pinsts q e -> rel q.
  Hypothesis H_main : forall i d, In i pinsts -> i_check i = Some d -> forall t, In t (i_main i) -> prefix d (fst t).
  Hypothesis H_nocheck : forall i, In i pinsts -> i_check i = None -> i_main i = [].
  Hypothesis H_ord : forall l1 i l2 i' d, pinsts = l1 ++ i :: l2 -> In i' l2 -> i_check i' = Some d -> forall t, In t (items i) -> ~ prefix d (fst t).
  (** the node_modules directory of each package: its links are in it, or in a scope directory in it *)
  Variable nm : inst -> path.
  Hypothesis H_nm : forall x, In x rest -> nm x <> [].
  Hypothesis H_base : forall x t, In x rest -> In t (i_links x) -> removelast (fst t) = nm x \/ exists s, removelast (fst t) = nm x ++ [s].
  Hypothesis H_sepN : forall x y t, In x rest -> In y rest -> In t (i_links y) -> prefix (removelast (nm x)) (removelast (fst t)) -> prefix (nm x) (removelast (fst t)).
  Hypothesis H_sepM : forall x t s y u, In x rest -> In t (i_links x) -> removelast (fst t) = nm x ++ [s] -> In y rest -> In u (i_main y) -> ~ prefix (removelast (fst t)) (fst u).
  Hypothesis H_top1 : List.length top = 1.
  Hypothesis H_nmtop : forall x, In x rest -> nm x = top \/ ~ prefix (removelast (nm x)) top.

  (** scope directories used by links *)
  Definition scope_dir (x : inst) (t : item) : Prop := In x rest /\ In t (i_links x) /\ exists s, removelast (fst t) = nm x ++ [s].
  Definition shape (l : list item) : Prop :=
    l = [] \/ exists x ms ls, In x rest /\ incl ms (i_main x) /\ incl ls (i_links x)
      /\ (l = ms ++ flat_map pad_item ls \/ exists p t, In (p, ELink t) (i_links x) /\ l = (p, ELink t) :: flat_map pad_item ls).
  Record safe (f : fs) (next : list inst) (live : list task) (c : list path) : Prop := {
    k_inv : Fs.inv pinsts rel f next (map snd live);
    k_tree : treelike f;
    k_shape : forall x, In x live -> shape (snd x);
    k_nm : forall x, In x rest -> In (removelast (nm x)) c -> In (nm x) c;
    k_scope : forall x t, scope_dir x t -> exists_at f (fst t) = true \/ (f (removelast (fst t)) <> None -> In (removelast (fst t)) c);
    k_true : forall l, In (true, l) live -> exists d p t r, l = (d, EDir) :: (p, ELink t) :: r;
    k_flag : forall d p l r, In (true, (d, EDir) :: (p, ELink l) :: r) live -> forall x, scope_dir x (p, ELink l) -> f d <> None -> In d c }.
  Definition rsafe (w : rworld) : Prop :=
    match r_phase _ w with
    | RPruning => treelike (r_fs _ w)
    | RExtracting next live => safe (r_fs _ w) next live (r_cache _ w)
    | RDone => True
    end.
  (** what holds right after pruning *)
  Definition scopes_free (f : fs) : Prop := forall x t, scope_dir x t -> exists_at f (fst t) = true \/ f (removelast (fst t)) = None.

  Lemma shape_item p e l : shape ((p, e) :: l) -> ~ at_link ((p, e) :: l) -> (exists x, In x rest /\ In (p, e) (i_main x)) /\ shape l.
  Proof.
    intros [H|(x & ms & ls & Hx & Hm & Hl & [H|(q & t & Hq & H)])] Hna; [discriminate| |].
    - destruct ms as [|u ms].
      + exfalso. cbn [app] in H. destruct ls as [|[q e'] ls]; [discriminate|]. destruct (H_kind x (q, e') Hx (Hl _ (or_introl eq_refl))) as [[t Ht] _]. cbn [snd] in Ht. subst e'.
        cbn [flat_map pad_item snd fst app] in H. injection H as -> -> ->. apply Hna. exact Logic.I.
      + cbn [app] in H. injection H as <- ->. split; [exists x; split; [auto|]; apply Hm; now left|]. right. exists x, ms, ls. split; [auto|]. split; [intros u Hu; apply Hm; now right|]. auto.
    - exfalso. injection H as -> -> ->. apply Hna. exact Logic.I.
  Qed.
  Lemma shape_pair d p t l : shape ((d, EDir) :: (p, ELink t) :: l) -> exists x, In x rest /\ In (p, ELink t) (i_links x) /\ d = removelast p /\ shape l /\ shape ((p, ELink t) :: l).
  Proof.
    intros [H|(x & ms & ls & Hx & Hm & Hl & [H|(q & t' & Hq & H)])]; [discriminate| |discriminate]. destruct ms as [|u ms].
    - cbn [app] in H. destruct ls as [|[q e'] ls]; [discriminate|]. pose proof (Hl _ (or_introl eq_refl)) as Hq. destruct (H_kind x (q, e') Hx Hq) as [[t' Ht] _]. cbn [snd] in Ht. subst e'.
      cbn [flat_map pad_item snd fst app] in H. injection H as -> -> -> ->. assert (Hl' : incl ls (i_links x)) by (intros u Hu; apply Hl; now right).
      exists x. split; [auto|]. split; [auto|]. split; [auto|]. split; right; exists x, [], ls; (split; [auto|]; split; [intros u []|]; split; [auto|]); [left; reflexivity|right; eauto].
    - exfalso. cbn [app] in H. injection H as <- H. destruct ms as [|v ms].
      + cbn [app] in H. destruct ls as [|[q e'] ls]; [discriminate|]. destruct (H_kind x (q, e') Hx (Hl _ (or_introl eq_refl))) as [[t' Ht] _]. cbn [snd] in Ht. subst e'. discriminate.
      + cbn [app] in H. injection H as <- _. exact (H_kindm x (p, ELink t) Hx (Hm _ (or_intror (or_introl eq_refl))) t eq_refl).
  Qed.
  Lemma shape_link p t l : shape ((p, ELink t) :: l) -> exists x, In x rest /\ In (p, ELink t) (i_links x) /\ shape l.
  Proof.
    intros [H|(x & ms & ls & Hx & Hm & Hl & [H|(q & t' & Hq & H)])]; [discriminate| |].
    - exfalso. destruct ms as [|u ms].
      + cbn [app] in H. destruct ls as [|[q e'] ls]; [discriminate|]. destruct (H_kind x (q, e') Hx (Hl _ (or_introl eq_refl))) as [[t' Ht] _]. cbn [snd] in Ht. subst e'. discriminate.
      + cbn [app] in H. injection H as <- _. exact (H_kindm x (p, ELink t) Hx (Hm _ (or_introl eq_refl)) t eq_refl).
    - injection H as -> -> ->. exists x. split; [auto|]. split; [auto|]. right. exists x, [], ls. split; [auto|]. split; [intros u []|]. auto.
  Qed.
  Lemma shape_start i (f : fs) : In i rest -> shape (match i_check (pad i) with Some d => match f d with None => items (pad i) | Some _ => i_links (pad i) end | None => i_links (pad i) end).
  Proof.
    intros Hi. assert (A : shape (items (pad i))) by (right; exists i, (i_main i), (i_links i); repeat split; auto using incl_refl).
    assert (B : shape (i_links (pad i))) by (right; exists i, [], (i_links i); split; [auto|]; split; [intros u []|]; split; [apply incl_refl|left; reflexivity]).
    destruct (i_check (pad i)) as [d|]; [destruct (f d)|]; auto.
  Qed.
  Lemma link_wanted x t : In x rest -> In t (i_links x) -> wanted pinsts (fst t) (snd t) /\ wanted pinsts (removelast (fst t)) EDir.
  Proof.
    intros Hx Ht. assert (Hin : In (pad x) pinsts) by (apply in_map; now right). split.
    - apply (want_item pinsts (pad x) t Hin). apply pad_items. left. unfold items. apply in_app_iff. auto.
    - destruct (H_kind x t Hx Ht) as [[l Hl] _]. apply (want_item pinsts (pad x) (removelast (fst t), EDir) Hin). apply pad_items. right. exists t, l. auto.
  Qed.
  (** a scope directory appears only by [mkdirp] *)
  Lemma scope_item f x t p e y : scope_dir x t -> In y rest -> In (p, e) (i_main y) -> f (removelast (fst t)) = None -> put p e f (removelast (fst t)) = None.
  Proof.
    intros (Hx & Ht & s & Hs) Hy Hp Hn. destruct (put p e f (removelast (fst t))) eqn:E; [|auto]. exfalso.
    assert (HP : prefix (removelast (fst t)) p).
    { destruct (put_new p e f _ Hn (fun Z => ltac:(rewrite E in Z; discriminate Z))) as [->|Ha]; [apply prefix_refl|apply Ha]. }
    exact (H_sepM x t s y (p, e) Hx Ht Hs Hy Hp HP).
  Qed.
  Lemma scope_mkdir f c d x t : cache_ok f c -> d <> [] -> mkdirp_ok f c d -> scope_dir x t -> (f (removelast (fst t)) <> None -> In (removelast (fst t)) c) ->
    put d EDir f (removelast (fst t)) <> None -> In (removelast (fst t)) (mkdirp_cache c d).
  Proof.
    intros HC Hd M _ HP Hq. destruct (f (removelast (fst t))) as [e|] eqn:E; [apply mkdirp_cache_keeps; apply HP; congruence|].
    destruct (put_new d EDir f _ E Hq) as [->|Ha]; [now apply mkdirp_cache_d|]. unfold mkdirp_cache. destruct M as [H|[(H0 & H & _)|(H0 & H & _)]].
    - exfalso. destruct (HC d H) as (_ & _ & H'). destruct (HC _ (H' _ Ha)) as (_ & X & _). congruence.
    - exfalso. destruct (above_split _ _ Ha) as [X|X].
      + rewrite X in E. destruct (HC _ H) as (_ & Y & _). congruence.
      + destruct (HC _ H) as (_ & _ & H'). destruct (HC _ (H' _ X)) as (_ & Y & _). congruence.
    - destruct (in_dec path_eq_dec d c); [contradiction|]. destruct (in_dec path_eq_dec (removelast d) c); [contradiction|]. apply in_app_iff. left. apply in_ancestors; auto.
  Qed.
  Lemma scope_link f x t p l y : scope_dir x t -> In y rest -> In (p, ELink l) (i_links y) -> (forall a, above a p -> f a = Some EDir) ->
    f (removelast (fst t)) = None -> put p (ELink l) f (removelast (fst t)) = None.
  Proof.
    intros (Hx & Ht & s & Hs) Hy Hp Hup Hn. destruct (put p (ELink l) f (removelast (fst t))) eqn:E; [|auto]. exfalso.
    destruct (put_new p (ELink l) f _ Hn (fun Z => ltac:(rewrite E in Z; discriminate Z))) as [X|Ha]; [|rewrite (Hup _ Ha) in Hn; discriminate].
    destruct (link_wanted x t Hx Ht) as [_ H1]. destruct (link_wanted y (p, ELink l) Hy Hp) as [H2 _]. cbn [fst snd] in H2. rewrite X in H1. pose proof (H_fun _ _ _ H1 H2). discriminate.
  Qed.
  Lemma exists_ext f f' p : (forall q, f' q = f q) -> exists_at f' p = exists_at f p.
  Proof. intros E. unfold exists_at. rewrite E. destruct (f p) as [[| |t]|]; auto. destruct (walk (removelast p) t) as [q|]; auto. now rewrite E. Qed.

  Lemma safe_step f0 w w' : (forall f', pruned doomed f0 f' -> good_start pinsts rel f') -> (forall f', pruned doomed f0 f' -> treelike f' -> scopes_free f') -> ok META doomed pinsts final_meta rel f0 (proj w) ->
    rinv w -> rsafe w -> rstep w w' -> rsafe w'.
  Proof.
    intros Hgood Hscope Hok0 RI K S.
    destruct S as [f m p Hc Hp Hl|f m Hw|f m Hc Hm|f m i next d Hi Hil Hok|f m i next live c Hc|f m next l1 l2 p e rst c Hna Hok|f m next l1 l2 p x rst x' c Hok
      |f m next l1 l2 d p t rst c Hx Hok Hup|f m next l1 l2 d p t rst c Hx|f m next l1 l2 d p t rst c Hok|f m next l1 l2 p t rst c Hd|f m m' live c Hl|f m live c Hl];
      unfold rsafe in K |- *; cbn [r_fs r_meta r_phase r_cache] in *.
    - intros q a Hq Ha. destruct (path_eq_dec q p) as [->|Hqp]; [congruence|]. destruct (path_eq_dec a p) as [->|Hap]; [|eapply K; eauto]. exfalso.
      apply Hq. apply Hl; [apply Ha|auto].
    - exact K.
    - assert (PR : pruned doomed f0 f) by (split; [|exact Hc]; intros q Hq; unfold ok, proj in Hok0; cbn in Hok0; now apply Hok0).
      pose proof (Hgood f PR) as G. pose proof (Hscope f PR K) as SF.
      constructor.
      + cbn [map]. now apply inv_start.
      + exact K.
      + intros x [].
      + intros x _ [].
      + intros x t Hxt. destruct (SF x t Hxt) as [H|H]; [auto|right; congruence].
      + intros l [].
      + intros d p l r [].
    - pose proof RI as [(st & Hst & _ & Hne) _]. cbn [r_cache] in Hne. assert (Est : st = []) by (destruct st; [auto|destruct (Hne ltac:(discriminate) eq_refl)]). subst st. cbn [app] in Hst.
      cbn [map] in Hst. injection Hst as <- <-. cbn [pad i_links flat_map pad_item snd app] in Hil. injection Hil as <-. destruct K as [K1 K2 K3 K4 K5 KT K6].
      assert (TOP : forall x t, scope_dir x t -> f (removelast (fst t)) = None -> put top EDir f (removelast (fst t)) = None).
      { intros x t (Hx & Ht & s & Hs) Hn. destruct (put top EDir f (removelast (fst t))) eqn:E; [|auto]. exfalso.
        assert (L : List.length (removelast (fst t)) <= 1).
        { destruct (put_new top EDir f _ Hn (fun Z => ltac:(rewrite E in Z; discriminate Z))) as [->|Ha]; [lia|]. apply above_len in Ha. lia. }
        rewrite Hs, app_length in L. cbn in L. pose proof (H_nm x Hx). destruct (nm x); [congruence|]. cbn in L. lia. }
      constructor.
      + cbn [map snd]. apply (inv_begin doomed pinsts rel H_nocheck) in K1. cbn [map] in K1. unfold todo in K1. cbn [pad i_check i_links flat_map pad_item snd app] in K1.
        apply (inv_put doomed pinsts rel H_fun H_rel H_main H_ord) with (l1 := []) (l2 := []) (p := top) (e := EDir); auto.
      + now apply treelike_put.
      + intros x [<-|[]]. left. reflexivity.
      + intros x Hx H. destruct (H_nmtop x Hx) as [->|Hno]; [apply in_ancestors; auto|]. exfalso. apply Hno. apply in_ancestors in H; [|auto]. destruct H as [->|H]; [apply prefix_refl|apply H].
      + intros x t Hxt. destruct (K5 x t Hxt) as [H|H]; [left; now apply exists_stays|]. right. intros Hq. exfalso. apply Hq. apply (TOP x t Hxt).
        destruct (f (removelast (fst t))); [destruct (H ltac:(congruence))|auto].
      + intros l [H|[]]. discriminate.
      + intros d p l r [H|[]]. discriminate.
    - pose proof RI as [(st & Hst & He & Hne) _]. cbn [r_cache] in *. assert (Hs : st <> []) by (intros E; destruct (He E); congruence). destruct st as [|i0 st]; [congruence|]. cbn [app map] in Hst. injection Hst as E0 Hst.
      assert (Hin : In i (map pad rest)) by (rewrite Hst; apply in_app_iff; right; now left). apply in_map_iff in Hin. destruct Hin as (j & <- & Hj).
      destruct K as [K1 K2 K3 K4 K5 KT K6]. constructor; auto.
      + cbn [map snd]. apply (inv_begin doomed pinsts rel H_nocheck). exact K1.
      + intros x [<-|Hx]; [|auto]. cbn [snd]. now apply shape_start.
      + intros l [H|H]; [discriminate|auto].
      + intros d p l r [H|H]; [discriminate|eauto].
    - destruct K as [K1 K2 K3 K4 K5 KT K6]. destruct (shape_item p e rst (K3 (false, (p, e) :: rst) ltac:(apply in_mid; auto)) Hna) as [(y & Hy & Hyp) Hsh].
      assert (Sc : forall x t, scope_dir x t -> (f (removelast (fst t)) <> None -> In (removelast (fst t)) c) -> put p e f (removelast (fst t)) <> None -> In (removelast (fst t)) c).
      { intros x t Hxt HP Hq. apply HP. intros Hn. apply Hq. eapply scope_item; eauto. }
      constructor.
      + rewrite map_app in *. cbn [map snd] in *. now apply (inv_put doomed pinsts rel H_fun H_rel H_main H_ord) with (p := p) (e := e).
      + now apply treelike_put.
      + intros x Hx. apply in_mid in Hx. destruct Hx as [->|Hx]; [exact Hsh|]. apply K3. apply in_mid. auto.
      + auto.
      + intros x t Hxt. destruct (K5 x t Hxt) as [H|H]; [left; now apply exists_stays|right; eauto].
      + intros l' Hin. apply in_mid in Hin. destruct Hin as [E|Hin]; [discriminate|]. apply KT. apply in_mid. auto.
      + intros d' p' l r Hin x Hxt. apply in_mid in Hin. destruct Hin as [E|Hin]; [discriminate|].
        destruct (shape_pair _ _ _ _ (K3 _ ltac:(apply in_mid; right; exact Hin))) as (? & _ & _ & -> & _). apply (Sc x (p', ELink l) Hxt). cbn [fst]. eapply K6; [apply in_mid; right; exact Hin|exact Hxt].
    - destruct K as [K1 K2 K3 K4 K5 KT K6]. assert (Hok' : put_ok p (EFile x') f) by exact Hok.
      destruct (shape_item p (EFile x) rst (K3 (false, (p, EFile x) :: rst) ltac:(apply in_mid; auto)) ltac:(intros [])) as [(y & Hy & Hyp) Hsh].
      assert (Sc : forall z t, scope_dir z t -> (f (removelast (fst t)) <> None -> In (removelast (fst t)) c) -> put p (EFile x') f (removelast (fst t)) <> None -> In (removelast (fst t)) c).
      { intros z t Hxt HP Hq. apply HP. intros Hn. apply Hq. pose proof (scope_item f z t p (EFile x) y Hxt Hy Hyp Hn) as Z. clear -Z Hn. unfold put in *. destruct (path_eq_dec _ _); [discriminate|exact Z]. }
      constructor.
      + rewrite map_app in *. cbn [map snd] in *. now apply (inv_torn pinsts rel H_main H_ord) with (b := x).
      + now apply treelike_put.
      + auto.
      + auto.
      + intros z t Hxt. destruct (K5 z t Hxt) as [H|H]; [left; now apply exists_stays|right; eauto].
      + exact KT.
      + intros d' p' l r Hin z Hxt. destruct (shape_pair _ _ _ _ (K3 _ Hin)) as (? & _ & _ & -> & _). apply (Sc z (p', ELink l) Hxt). cbn [fst]. eapply K6; eauto.
    - destruct K as [K1 K2 K3 K4 K5 KT K6]. destruct (shape_pair _ _ _ _ (K3 (false, (d, EDir) :: (p, ELink t) :: rst) ltac:(apply in_mid; auto))) as (y & Hy & Hyp & Ed & Hsh & _).
      destruct (H_kind y _ Hy Hyp) as [_ Hlen]. cbn [fst] in Hlen.
      assert (Same : forall q, put p (ELink t) (put d EDir f) q = f q) by now apply skip_same.
      assert (Hok2 : put_ok p (ELink t) (put d EDir f)) by (split; [intros q Hq; right; apply put_dir_stays; auto | auto]).
      constructor.
      + rewrite map_app in *. cbn [map snd] in *. apply (inv_put doomed pinsts rel H_fun H_rel H_main H_ord) with (p := p) (e := ELink t); [|auto].
        now apply (inv_put doomed pinsts rel H_fun H_rel H_main H_ord) with (p := d) (e := EDir).
      + now apply (treelike_ext f).
      + intros x Hx'. apply in_mid in Hx'. destruct Hx' as [->|Hx']; [exact Hsh|]. apply K3. apply in_mid. auto.
      + auto.
      + intros x u Hxt. rewrite Same, (exists_ext f _ (fst u) Same). exact (K5 x u Hxt).
      + intros l' Hin. apply in_mid in Hin. destruct Hin as [E|Hin]; [discriminate|]. apply KT. apply in_mid. auto.
      + intros d' p' l r Hin x Hxt. apply in_mid in Hin. destruct Hin as [E|Hin]; [discriminate|]. rewrite Same. eapply K6; [apply in_mid; right; exact Hin|exact Hxt].
    - destruct K as [K1 K2 K3 K4 K5 KT K6]. destruct (shape_pair _ _ _ _ (K3 (false, (d, EDir) :: (p, ELink t) :: rst) ltac:(apply in_mid; auto))) as (y & Hy & Hyp & Ed & Hsh & _). constructor; auto.
      + rewrite map_app in *. exact K1.
      + intros x Hx'. apply in_mid in Hx'. destruct Hx' as [->|Hx']; [|apply K3; apply in_mid; auto]. apply (K3 (false, (d, EDir) :: (p, ELink t) :: rst)). apply in_mid. auto.
      + intros l' Hin. apply in_mid in Hin. destruct Hin as [E|Hin]; [injection E as ->; eauto 6|apply KT; apply in_mid; auto].
      + intros d' p' l r Hin x Hxt. apply in_mid in Hin. destruct Hin as [E|Hin]; [|eapply K6; [apply in_mid; right; exact Hin|exact Hxt]]. injection E as -> -> -> ->.
        destruct (K5 x _ Hxt) as [H|H]; cbn [fst] in H; [congruence|]. rewrite Ed. exact H.
    - destruct K as [K1 K2 K3 K4 K5 KT K6]. destruct (shape_pair _ _ _ _ (K3 (true, (d, EDir) :: (p, ELink t) :: rst) ltac:(apply in_mid; auto))) as (y & Hy & Hyp & Ed & Hsh & Hsh').
      destruct (H_kind y _ Hy Hyp) as [_ Hlen]. cbn [fst] in Hlen. destruct RI as [_ (_ & HC)]. cbn [r_fs r_cache] in HC.
      assert (Ad : above d p) by (rewrite Ed; now apply above_removelast). assert (Hne : d <> []) by apply Ad.
      assert (Hok' : put_ok d EDir f).
      { eapply (inv_put_ok pinsts rel H_fun H_rel); [exact K1|]. rewrite map_app. cbn [map snd]. apply in_concat_mid. right. left. now left. }
      assert (Sc : forall x t, scope_dir x t -> (f (removelast (fst t)) <> None -> In (removelast (fst t)) c) -> put d EDir f (removelast (fst t)) <> None -> In (removelast (fst t)) (mkdirp_cache c d)).
      { intros x u Hxt HP Hq. eapply scope_mkdir; eauto. }
      constructor.
      + rewrite map_app in *. cbn [map snd] in *. now apply (inv_put doomed pinsts rel H_fun H_rel H_main H_ord) with (p := d) (e := EDir).
      + now apply treelike_put.
      + intros x Hx'. apply in_mid in Hx'. destruct Hx' as [->|Hx']; [exact Hsh'|]. apply K3. apply in_mid. auto.
      + intros x Hx' H. destruct (in_dec path_eq_dec (removelast (nm x)) c) as [Hi|Hi]; [apply mkdirp_cache_keeps; auto|].
        destruct (mkdirp_cache_in c d _ Hne H) as [H'|H']; [contradiction|].
        assert (P1 : prefix (removelast (nm x)) d) by (destruct H' as [->|H']; [apply prefix_refl|apply H']).
        pose proof (H_sepN x y (p, ELink t) Hx' Hy Hyp) as P2. cbn [fst] in P2. rewrite <- Ed in P2. specialize (P2 P1). pose proof (H_nm x Hx') as Hn.
        destruct (path_eq_dec (nm x) d) as [->|Hnd]; [now apply mkdirp_cache_d|]. assert (Ha : above (nm x) d) by (split; auto).
        unfold mkdirp_cache in H |- *. destruct (in_dec path_eq_dec d c); [contradiction|]. destruct (in_dec path_eq_dec (removelast d) c).
        * exfalso. destruct H as [H|H]; [|contradiction]. apply above_len in Ha. assert (Z : List.length d <= List.length (nm x)); [|lia].
          rewrite H. pose proof (app_removelast_last "" Hn) as E. apply (f_equal (@List.length _)) in E. rewrite app_length in E. cbn in E. lia.
        * apply in_app_iff. left. apply in_ancestors; auto.
      + intros x u Hxt. destruct (K5 x u Hxt) as [H|H]; [left; now apply exists_stays|right; eauto].
      + intros l' Hin. apply in_mid in Hin. destruct Hin as [E|Hin]; [discriminate|]. apply KT. apply in_mid. auto.
      + intros d' p' l r Hin x Hxt. apply in_mid in Hin. destruct Hin as [E|Hin]; [discriminate|].
        destruct (shape_pair _ _ _ _ (K3 _ ltac:(apply in_mid; right; exact Hin))) as (? & _ & _ & -> & _). apply (Sc x (p', ELink l) Hxt). cbn [fst]. eapply K6; [apply in_mid; right; exact Hin|exact Hxt].
    - destruct K as [K1 K2 K3 K4 K5 KT K6]. destruct (shape_link _ _ _ (K3 (false, (p, ELink t) :: rst) ltac:(apply in_mid; auto))) as (y & Hy & Hyp & Hsh).
      assert (Hok : put_ok p (ELink t) f).
      { eapply (inv_put_ok pinsts rel H_fun H_rel); [exact K1|]. rewrite map_app. cbn [map snd]. apply in_concat_mid. right. left. now left. }
      destruct (H_kind y _ Hy Hyp) as [_ Hlen]. cbn [fst] in Hlen.
      assert (Hup : forall a, above a p -> f a = Some EDir).
      { intros a Ha. destruct (above_split a p Ha) as [->|Ha']; [exact Hd|]. apply (K2 (removelast p)); [congruence|auto]. }
      assert (Sc : forall x u, scope_dir x u -> (f (removelast (fst u)) <> None -> In (removelast (fst u)) c) -> put p (ELink t) f (removelast (fst u)) <> None -> In (removelast (fst u)) c).
      { intros x u Hxt HP Hq. apply HP. intros Hn. apply Hq. eapply scope_link; eauto. }
      constructor.
      + rewrite map_app in *. cbn [map snd] in *. now apply (inv_put doomed pinsts rel H_fun H_rel H_main H_ord) with (p := p) (e := ELink t).
      + now apply treelike_put.
      + intros x Hx'. apply in_mid in Hx'. destruct Hx' as [->|Hx']; [exact Hsh|]. apply K3. apply in_mid. auto.
      + auto.
      + intros x u Hxt. destruct (K5 x u Hxt) as [H|H]; [left; now apply exists_stays|right; eauto].
      + intros l' Hin. apply in_mid in Hin. destruct Hin as [E|Hin]; [discriminate|]. apply KT. apply in_mid. auto.
      + intros d' p' l r Hin x Hxt. apply in_mid in Hin. destruct Hin as [E|Hin]; [discriminate|].
        destruct (shape_pair _ _ _ _ (K3 _ ltac:(apply in_mid; right; exact Hin))) as (? & _ & _ & -> & _). apply (Sc x (p', ELink l) Hxt). cbn [fst]. eapply K6; [apply in_mid; right; exact Hin|exact Hxt].
    - exact K.
    - exact Logic.I.
  Qed.

  Lemma rsteps_trans w1 w2 w3 : rsteps w1 w2 -> rsteps w2 w3 -> rsteps w1 w3.
  Proof. intros H1 H2. induction H2; [auto|econstructor; eauto]. Qed.
  Lemma safe_mkdirp f next live c d p t rst : cache_ok f c -> safe f next live c -> In (true, (d, EDir) :: (p, ELink t) :: rst) live -> mkdirp_ok f c d.
  Proof.
    intros HC [K1 K2 K3 K4 K5 KT K6] Hin. destruct (shape_pair _ _ _ _ (K3 _ Hin)) as (y & Hy & Hyp & Ed & _).
    assert (Hok : put_ok d EDir f).
    { eapply (inv_put_ok pinsts rel H_fun H_rel); [exact K1|]. apply in_concat. exists ((d, EDir) :: (p, ELink t) :: rst). split; [|now left].
      apply (in_map snd) in Hin. exact Hin. }
    destruct (in_dec path_eq_dec d c) as [H|H]; [left; auto|]. right. destruct (in_dec path_eq_dec (removelast d) c) as [Hr|Hr]; [left|right; auto].
    split; [auto|]. split; [auto|]. split; [|apply (HC _ Hr)].
    destruct (H_base y (p, ELink t) Hy Hyp) as [Hb|[s Hb]]; cbn [fst] in Hb; rewrite <- Ed in Hb.
    - exfalso. apply H. rewrite Hb in *. auto.
    - destruct (f d) as [e|] eqn:E; [|auto]. exfalso. apply H. apply (K6 d p t rst Hin y); [|congruence]. split; [auto|]. split; [auto|]. exists s. cbn [fst]. now rewrite <- Ed.
  Qed.
  Lemma safe_item f next live c b p e rst : safe f next live c -> In (b, (p, e) :: rst) live -> put_ok p e f.
  Proof.
    intros [K1 _ _ _ _ _ _] Hin. eapply (inv_put_ok pinsts rel H_fun H_rel); [exact K1|]. apply in_concat. exists ((p, e) :: rst). split; [|now left].
    apply (in_map snd) in Hin. exact Hin.
  Qed.
  Lemma safe_top f m i next : rinv (mkR META f m (RExtracting (i :: next) []) []) -> safe f (i :: next) [] [] -> i = pad (mkInst None [] [(top, EDir)]) /\ put_ok top EDir f.
  Proof.
    intros [(st & Hst & _ & Hne) _] [K1 _ _ _ _ _ _]. cbn [r_cache] in Hne. assert (Est : st = []) by (destruct st; [auto|destruct (Hne ltac:(discriminate) eq_refl)]). subst st. cbn [app map] in Hst.
    injection Hst as <- <-. split; [reflexivity|]. apply (inv_begin doomed pinsts rel H_nocheck) in K1. cbn [map] in K1. unfold todo in K1. cbn [pad i_check i_links flat_map pad_item snd app] in K1.
    eapply (inv_put_ok pinsts rel H_fun H_rel); [exact K1|]. left. reflexivity.
  Qed.
  Lemma safe_no_fail w : rinv w -> rsafe w -> ~ failed META w.
  Proof.
    intros RI K F. destruct F as [f m i next d Hi Hil Hok|f m next live c x Hin Hf]; unfold rsafe in K; cbn [r_fs r_meta r_phase r_cache] in *.
    - destruct (safe_top f m i next RI K) as [-> Ho]. cbn [pad i_links flat_map pad_item snd app] in Hil. injection Hil as <-. contradiction.
    - destruct RI as [_ (HT & HC)]. cbn [r_fs r_cache] in *. destruct Hf as [p e rst Hna Hok|d p t rst Hok|p t rst Hd].
      + apply Hok. eapply safe_item; eauto.
      + apply Hok. eapply safe_mkdirp; eauto.
      + apply Hd. destruct (HT _ Hin) as [[]|(q & t' & l & E & _ & _ & Hlen & Hup)]. cbn [snd] in E. injection E as <- <- <-. apply Hup. now apply above_removelast.
  Qed.
  Definition weigh (x : task) : nat := 4 * List.length (snd x) + if fst x then 0 else 1.
  Fixpoint weighs (l : list task) : nat := match l with [] => 0 | x :: l => weigh x + weighs l end.
  Fixpoint weighn (l : list inst) : nat := match l with [] => 0 | i :: l => 2 + 4 * List.length (items i) + weighn l end.
  Lemma weighs_app l1 x l2 : weighs (l1 ++ x :: l2) = weighs l1 + weigh x + weighs l2.
  Proof. induction l1 as [|y l1 IH]; cbn [app weighs]; [lia|]. rewrite IH. lia. Qed.
  Lemma some_task live : Forall (fun l : task => snd l = []) live \/ exists l1 b t l l2, live = l1 ++ (b, t :: l) :: l2.
  Proof.
    induction live as [|[b [|t l]] live IH]; [left; constructor| |].
    - destruct IH as [IH|(l1 & b' & t & l & l2 & ->)]; [left; constructor; auto|]. right. exists ((b, []) :: l1), b', t, l, l2. reflexivity.
    - right. exists [], b, t, l, live. reflexivity.
  Qed.
  (** each step forward lowers the weight; a state that is not done has one *)
  Lemma forward f m next live c : rinv (mkR META f m (RExtracting next live) c) -> safe f next live c ->
    (next = [] /\ Forall (fun l : task => snd l = []) live) \/ exists f' next' live' c', rstep (mkR META f m (RExtracting next live) c) (mkR META f' m (RExtracting next' live') c') /\ weighn next' + weighs live' < weighn next + weighs live.
  Proof.
    intros RI K. destruct (some_task live) as [Hl|(l1 & b & [p e] & l & l2 & ->)].
    - destruct next as [|i next]; [auto|]. right. destruct c as [|c0 c].
      + assert (live = []) as ->.
        { destruct RI as [(st & Hst & He & Hne) _]. cbn [r_cache] in *. destruct st; [apply He; auto|destruct (Hne ltac:(discriminate) eq_refl)]. }
        destruct (safe_top f m i next RI K) as [-> Ho]. do 4 eexists. split; [eapply r_top; [reflexivity|reflexivity|exact Ho]|]. cbn [weighs weighn]. unfold weigh. cbn [snd fst List.length]. lia.
      + do 4 eexists. split; [apply r_start; discriminate|]. cbn [weighs weighn]. unfold weigh. cbn [snd fst].
        assert (List.length (match i_check i with Some d => match f d with None => items i | Some _ => i_links i end | None => i_links i end) <= List.length (items i)).
        { assert (Q : List.length (i_links i) <= List.length (items i)) by (unfold items; rewrite app_length; lia). destruct (i_check i) as [d|]; [destruct (f d)|]; lia. }
        lia.
    - right. assert (Hin : In (b, (p, e) :: l) (l1 ++ (b, (p, e) :: l) :: l2)) by (apply in_mid; auto).
      assert (D : at_link ((p, e) :: l) \/ ~ at_link ((p, e) :: l)) by (destruct e as [| |]; cbn; [destruct l as [|[q [| |]] l]|..]; cbn; auto).
      pose proof RI as [_ (HT & HC)]. cbn [r_fs r_cache] in HT, HC. pose proof K as [K1 K2 K3 K4 K5 KT K6].
      destruct D as [D|D].
      + destruct e as [|x|t].
        * destruct l as [|[q [|x|t]] l]; try contradiction. destruct (shape_pair _ _ _ _ (K3 _ Hin)) as (y & Hy & Hyp & Ed & _). destruct (H_kind y _ Hy Hyp) as [_ Hlen]. cbn [fst] in Hlen. destruct b.
          -- do 4 eexists. split; [apply r_mkdir; eapply safe_mkdirp; eauto|]. rewrite !weighs_app. unfold weigh. cbn [snd fst List.length]. lia.
          -- destruct (exists_at f q) eqn:Ex.
             ++ assert (Hup : forall a, above a q -> f a = Some EDir) by (intros a Ha; apply (K2 q a); [now apply exists_some|auto]).
                do 4 eexists. split; [apply r_skip; [auto|eapply safe_item; eauto|auto]|]. rewrite !weighs_app. unfold weigh. cbn [snd fst List.length]. lia.
             ++ do 4 eexists. split; [apply r_check; auto|]. rewrite !weighs_app. unfold weigh. cbn [snd fst List.length]. lia.
        * contradiction.
        * destruct (HT _ Hin) as [[]|(q & t' & l' & E & Hb & _ & Hlen & Hup)]. cbn [snd fst] in *. injection E as <- <- <-. subst b.
          do 4 eexists. split; [apply r_link; apply Hup; now apply above_removelast|]. rewrite !weighs_app. unfold weigh. cbn [snd fst List.length]. lia.
      + assert (b = false) as ->.
        { destruct b; [|auto]. exfalso. destruct (KT _ Hin) as (d & q & t & r & E). injection E as -> -> ->. apply D. exact Logic.I. }
        do 4 eexists. split; [apply r_item; [auto|eapply safe_item; eauto]|]. rewrite !weighs_app. unfold weigh. cbn [snd fst List.length]. lia.
  Qed.

  Lemma prune_lift f m w : wsteps (mkW _ f m Pruning) w ->
    (w_phase _ w = Pruning /\ rsteps (mkR _ f m RPruning []) (mkR _ (w_fs _ w) (w_meta _ w) RPruning []))
    \/ exists f' m', rsteps (mkR _ f m RPruning []) (mkR _ f' m' (RExtracting pinsts []) []).
  Proof.
    intros S. induction S as [|w1 w2 S IH H]; [left; split; [reflexivity|apply rs_refl]|]. destruct IH as [[Hp Hr]|IH]; [|auto].
    destruct H as [f1 m1 p Hc' Hf Hl|f1 m1 Hw'|f1 m1 Hc' Hm|f1 m1 i next live|f1 m1 next l1 l2 p e rst Hok|f1 m1 next l1 l2 p b rst b' Hok|f1 m1 m' live Hl|f1 m1 live Hl]; try discriminate; cbn [w_fs w_meta w_phase] in *.
    - left. split; [auto|]. eapply rs_step; [exact Hr|]. now apply r_remove.
    - left. split; [auto|]. eapply rs_step; [exact Hr|]. now apply r_unmeta.
    - right. exists f1, m1. eapply rs_step; [exact Hr|]. now apply r_pruned.
  Qed.

  Section Good.
    Variable f0 : fs.
    Variable m0 : option META.
    Hypothesis G_start : forall f', pruned doomed f0 f' -> good_start pinsts rel f'.
    Hypothesis G_scope : forall f', pruned doomed f0 f' -> treelike f' -> scopes_free f'.
    Hypothesis G_tree : treelike f0.
    Hypothesis H_dec : forall q, condemned doomed q \/ ~ condemned doomed q.
    Lemma reach_safe w : rsteps (mkR _ f0 m0 RPruning []) w -> rinv w /\ ok META doomed pinsts final_meta rel f0 (proj w) /\ rsafe w.
    Proof.
      intros S. assert (G : rinv w /\ ok META doomed pinsts final_meta rel f0 (proj w)).
      { destruct (rsteps_proj f0 m0 w S) as [H1 H2]. split; [auto|]. exact (ok_steps META doomed wipe pinsts final_meta rel H_fun H_rel H_main H_nocheck H_ord f0 m0 _ G_start H2). }
      split; [apply G|]. split; [apply G|]. clear G. induction S as [|w1 w2 S IH H]; [exact G_tree|].
      destruct (rsteps_proj f0 m0 w1 S) as [H1 H2]. pose proof (ok_steps META doomed wipe pinsts final_meta rel H_fun H_rel H_main H_nocheck H_ord f0 m0 _ G_start H2) as H3.
      eapply safe_step; eauto.
    Qed.
    Lemma never_fails w : rsteps (mkR _ f0 m0 RPruning []) w -> ~ failed META w.
    Proof. intros S. destruct (reach_safe w S) as (H1 & _ & H3). now apply safe_no_fail. Qed.
    Lemma finish n : forall f m next live c, rsteps (mkR _ f0 m0 RPruning []) (mkR _ f m (RExtracting next live) c) -> weighn next + weighs live < n ->
      exists w', rsteps (mkR META f m (RExtracting next live) c) w' /\ r_phase _ w' = RDone.
    Proof.
      induction n as [|n IH]; intros f m next live c S L; [lia|]. destruct (reach_safe _ S) as (H1 & _ & H3).
      destruct (forward f m next live c H1 H3) as [[-> Hl]|(f' & next' & live' & c' & St & Lt)].
      - eexists. split; [eapply rs_step; [apply rs_refl|now apply r_done]|reflexivity].
      - destruct (IH f' m next' live' c') as (w' & S' & Hd); [eapply rs_step; eauto|lia|]. exists w'. split; [|auto]. eapply rsteps_trans; [|exact S']. eapply rs_step; [apply rs_refl|exact St].
    Qed.
    (** from every state on the way the apply can go on to the end *)
    Lemma can_finish l w : (forall p, f0 p <> None -> In p l) -> rsteps (mkR _ f0 m0 RPruning []) w -> exists w', rsteps w w' /\ r_phase _ w' = RDone.
    Proof.
      intros Hl S. destruct w as [f m [|next live|] c].
      - destruct (reach_safe _ S) as (H1 & H2 & _). cbn in H1. subst c. unfold ok in H2. cbn in H2.
        assert (Hl' : forall p, f p <> None -> In p l) by (intros p Hp; apply Hl; destruct (proj2 (H2 p)) as [X|X]; congruence).
        destruct (plain_prune META doomed wipe pinsts final_meta H_dec _ f m l Hl' (le_n _)) as (f' & m' & Sp).
        destruct (prune_lift f m _ Sp) as [[X _]|(f2 & m2 & Sr)]; [discriminate|].
        destruct (finish (Datatypes.S (weighn pinsts + weighs [])) f2 m2 pinsts [] []) as (w' & S' & Hd); [eapply rsteps_trans; eauto|lia|]. exists w'. split; [|auto]. eapply rsteps_trans; eauto.
      - eapply finish; [exact S|]. apply Nat.lt_succ_diag_r.
      - eexists. split; [apply rs_refl|reflexivity].
    Qed.
  End Good.

  (** ** when the apply cannot end: a link is to be made in a directory of the project's node_modules that is there already *)
  Section Stuck.
    Variable f0 : fs.
    Variable m0 : option META.
    Variables d p t : path.
    Hypothesis T_d : d = removelast p.
    Hypothesis T_len : 2 <= List.length p.
    Hypothesis T_up : removelast d = top.
    Variable x0 : inst.
    Hypothesis T_x0 : In x0 rest.
    Hypothesis T_link : In (p, ELink t) (i_links x0).
    Hypothesis T_keep : ~ condemned doomed d.
    Hypothesis T_there : f0 d = Some EDir.
    Hypothesis T_not : f0 p = None.
    Hypothesis T_scope : forall y u, In y rest -> In u (i_links y) -> prefix d (removelast (fst u)) -> removelast (fst u) = d.
    Definition waits (l : list item) : Prop := exists l' r, l = l' ++ (d, EDir) :: (p, ELink t) :: r.
    Record stuck (f : fs) (next : list inst) (live : list task) (c : list path) : Prop := {
      j_dir : f d = Some EDir;
      j_none : f p = None;
      j_cache : ~ In d c;
      j_top : c <> [] -> In top c;
      j_wait : In (pad x0) next \/ exists x, In x live /\ waits (snd x);
      j_shape : forall x, In x live -> shape (snd x);
      j_head : forall x q l r, In x live -> snd x = (q, ELink l) :: r -> q <> p }.
    Definition jam (w : rworld) : Prop :=
      match r_phase _ w with
      | RPruning => r_fs _ w d = Some EDir /\ r_fs _ w p = None
      | RExtracting next live => stuck (r_fs _ w) next live (r_cache _ w)
      | RDone => False
      end.
    Lemma p_wanted : wanted pinsts p (ELink t).
    Proof. exact (proj1 (link_wanted x0 (p, ELink t) T_x0 T_link)). Qed.
    Lemma none_put q e f : f p = None -> q <> p -> (above p q -> wanted pinsts p EDir) -> put q e f p = None.
    Proof.
      intros Hn Hne Hq. destruct (put q e f p) eqn:E; [|auto]. exfalso.
      destruct (put_new q e f p Hn ltac:(congruence)) as [X|X]; [congruence|]. pose proof (H_fun _ _ _ p_wanted (Hq X)). discriminate.
    Qed.
    Lemma wp_head l q e r : wp l -> l = (q, e) :: r -> forall x, e <> ELink x.
    Proof. intros H -> x ->. exact H. Qed.
    Lemma waits_next u l : waits (u :: l) -> (forall r, u :: l <> (d, EDir) :: (p, ELink t) :: r) -> waits l.
    Proof. intros (l' & r & E) H. destruct l' as [|v l']; [destruct (H r E)|]. cbn in E. injection E as _ E. exists l', r. exact E. Qed.
    Lemma waits_move next (l1 l2 : list task) x y : (waits (snd x) -> waits (snd y)) ->
      In (pad x0) next \/ (exists z, In z (l1 ++ x :: l2) /\ waits (snd z)) -> In (pad x0) next \/ exists z, In z (l1 ++ y :: l2) /\ waits (snd z).
    Proof.
      intros H [K|(z & Hz & K)]; [auto|]. right. apply in_mid in Hz. destruct Hz as [->|Hz]; [exists y; split; [apply in_mid; auto|auto]|]. exists z. split; [apply in_mid; auto|auto].
    Qed.
    Lemma jam_step w w' : rinv w -> jam w -> rstep w w' -> jam w'.
    Proof.
      intros RI K S.
      destruct S as [f m q Hc Hp Hl|f m Hw|f m Hc Hm|f m i next e Hi Hil Hok|f m i next live c Hc|f m next l1 l2 q e rst c Hna Hok|f m next l1 l2 q x rst x' c Hok
        |f m next l1 l2 e q u rst c Hx Hok Hup|f m next l1 l2 e q u rst c Hx|f m next l1 l2 e q u rst c Hok|f m next l1 l2 q u rst c Hd|f m m' live c Hl|f m live c Hl];
        unfold jam in K |- *; cbn [r_fs r_meta r_phase r_cache] in *.
      - destruct K as [K1 K2]. split; [destruct (path_eq_dec d q) as [->|]; [contradiction|auto]|]. destruct (path_eq_dec p q); auto.
      - exact K.
      - destruct K as [K1 K2]. constructor.
        + exact K1.
        + exact K2.
        + intros [].
        + congruence.
        + left. apply in_map. now right.
        + intros x [].
        + intros x q l r [].
      - pose proof RI as [(st & Hst & _ & Hne) _]. cbn [r_cache] in Hne. assert (Est : st = []) by (destruct st; [auto|destruct (Hne ltac:(discriminate) eq_refl)]). subst st. cbn [app] in Hst.
        cbn [map] in Hst. injection Hst as <- <-. cbn [pad i_links flat_map pad_item snd app] in Hil. injection Hil as <-. destruct K as [K1 K2 K3 K4 K5 K6 K7].
        assert (Ld : List.length d = 2 \/ List.length d = 0 \/ List.length d = 1 \/ 3 <= List.length d) by lia.
        assert (Pd : prefix d p) by (rewrite T_d; apply above_removelast; exact T_len).
        assert (Hdt : d <> top).
        { intros E. pose proof H_top1 as L1. rewrite <- T_up in L1. rewrite E in L1. destruct top as [|? [|? ?]]; cbn in *; try discriminate. }
        constructor.
        + now apply put_dir_stays.
        + destruct (put top EDir f p) eqn:E; [|auto]. exfalso. destruct (put_new top EDir f p K2 ltac:(congruence)) as [X|X]; [rewrite X in T_len; lia|]. apply above_len in X. lia.
        + intros Hin. apply in_ancestors in Hin; [|auto]. destruct Hin as [X|X]; [congruence|]. apply above_len in X. destruct d; [|cbn in X; lia].
          cbn in T_up. congruence.
        + intros _. apply in_ancestors; auto.
        + left. destruct K5 as [[K5|K5]|(x & [] & _)]; [|auto]. exfalso. destruct (H_kind x0 _ T_x0 T_link) as [_ _].
          assert (Z : In (p, ELink t) (i_links (pad x0))) by (apply pad_links; auto). rewrite <- K5 in Z. cbn in Z. destruct Z as [Z|[]]. discriminate.
        + intros x [<-|[]]. left. reflexivity.
        + intros x q l r [<-|[]]. discriminate.
      - pose proof RI as [(st & Hst & He & Hne) _]. cbn [r_cache] in *. assert (Hs : st <> []) by (intros E; destruct (He E); congruence). destruct st as [|i0 st]; [congruence|]. cbn [app map] in Hst. injection Hst as E0 Hst.
        assert (Hin : In i (map pad rest)) by (rewrite Hst; apply in_app_iff; right; now left). apply in_map_iff in Hin. destruct Hin as (j & <- & Hj). destruct (pad_wp j Hj) as [W1 W2].
        destruct K as [K1 K2 K3 K4 K5 K6 K7].
        assert (WW : wp (match i_check (pad j) with Some d => match f d with None => items (pad j) | Some _ => i_links (pad j) end | None => i_links (pad j) end)) by (destruct (i_check (pad j)) as [z|]; [destruct (f z)|]; auto).
        constructor; auto.
        + destruct K5 as [[K5|K5]|(x & Hx & K5)]; [|auto|right; exists x; split; [now right|auto]]. right. eexists. split; [left; reflexivity|]. cbn [snd].
          assert (L : waits (i_links (pad j))).
          { rewrite K5. cbn [pad i_links]. apply in_split in T_link. destruct T_link as (a1 & a2 & El). rewrite El, flat_map_app. cbn [flat_map].
            unfold pad_item at 2. cbn [snd fst app]. rewrite <- T_d. eexists _, _. reflexivity. }
          assert (L' : waits (items (pad j))) by (destruct L as (a1 & a2 & El); unfold items; rewrite El; exists (i_main (pad j) ++ a1), a2; now rewrite app_assoc).
          destruct (i_check (pad j)) as [z|]; [destruct (f z)|]; auto.
        + intros x [<-|Hx]; [|auto]. cbn [snd]. now apply shape_start.
        + intros x q l r [<-|Hx]; [|eauto]. cbn [snd]. intros E. exfalso. exact (wp_head _ _ _ _ WW E l eq_refl).
      - destruct K as [K1 K2 K3 K4 K5 K6 K7]. destruct (shape_item q e rst (K6 (false, (q, e) :: rst) ltac:(apply in_mid; auto)) Hna) as [(y & Hy & Hyq) Hsh].
        pose proof RI as [_ (HT & HC)]. cbn [r_fs r_cache] in HT, HC.
        assert (WR : wp rst).
        { destruct (HT (false, (q, e) :: rst) ltac:(apply in_mid; auto)) as [H|(q' & u & l & E & _)]; cbn [snd] in *; [eapply wp_next; eauto|]. injection E as -> -> ->. destruct Hna. exact Logic.I. }
        assert (Wq : wanted pinsts q e) by (apply (want_item pinsts (pad y) (q, e)); [apply in_map; now right|apply pad_items; left; unfold items; apply in_app_iff; auto]).
        constructor; auto.
        + now apply put_dir_stays.
        + apply none_put; [auto| |].
          * intros ->. pose proof (H_fun _ _ _ p_wanted Wq) as E. subst e. exact (H_kindm y _ Hy Hyq t eq_refl).
          * intros Ha. apply (want_above pinsts (pad y) (q, e)); [apply in_map; now right|apply pad_items; left; unfold items; apply in_app_iff; auto|exact Ha].
        + revert K5. apply waits_move. cbn [snd]. intros H. apply (waits_next (q, e)); [auto|]. intros r E. injection E as -> -> ->. destruct Hna. exact Logic.I.
        + intros x Hx. apply in_mid in Hx. destruct Hx as [->|Hx]; [exact Hsh|]. apply K6. apply in_mid. auto.
        + intros x q' l r Hx E. apply in_mid in Hx. destruct Hx as [->|Hx]; [cbn [snd] in E; destruct (wp_head _ _ _ _ WR E l eq_refl)|]. eapply K7; [apply in_mid; right; exact Hx|exact E].
      - destruct K as [K1 K2 K3 K4 K5 K6 K7]. destruct (shape_item q (EFile x) rst (K6 (false, (q, EFile x) :: rst) ltac:(apply in_mid; auto)) ltac:(intros [])) as [(y & Hy & Hyq) Hsh].
        assert (Wq : wanted pinsts q (EFile x)) by (apply (want_item pinsts (pad y) (q, EFile x)); [apply in_map; now right|apply pad_items; left; unfold items; apply in_app_iff; auto]).
        constructor; auto.
        + now apply put_dir_stays.
        + apply none_put; [auto| |].
          * intros ->. pose proof (H_fun _ _ _ p_wanted Wq) as E. discriminate.
          * intros Ha. apply (want_above pinsts (pad y) (q, EFile x)); [apply in_map; now right|apply pad_items; left; unfold items; apply in_app_iff; auto|exact Ha].
      - destruct K as [K1 K2 K3 K4 K5 K6 K7]. destruct (shape_pair _ _ _ _ (K6 (false, (e, EDir) :: (q, ELink u) :: rst) ltac:(apply in_mid; auto))) as (y & Hy & Hyp & Ed & Hsh & _).
        destruct (H_kind y _ Hy Hyp) as [_ Hlen]. cbn [fst] in Hlen.
        assert (Same : forall z, put q (ELink u) (put e EDir f) z = f z) by now apply skip_same.
        pose proof RI as [_ (HT & HC)]. cbn [r_fs r_cache] in HT, HC.
        assert (WR : wp rst).
        { destruct (HT (false, (e, EDir) :: (q, ELink u) :: rst) ltac:(apply in_mid; auto)) as [H|(q' & u' & l & E & _)]; cbn [snd] in *; [apply (wp_pair e q u rst H)|discriminate]. }
        constructor; auto.
        + now rewrite Same.
        + now rewrite Same.
        + revert K5. apply waits_move. cbn [snd]. intros H. apply waits_next in H; [|intros r E; injection E as -> -> -> ->; apply exists_some in Hx; congruence].
          apply waits_next in H; [auto|]. discriminate.
        + intros x Hx'. apply in_mid in Hx'. destruct Hx' as [->|Hx']; [exact Hsh|]. apply K6. apply in_mid. auto.
        + intros x q' l r Hx' E. apply in_mid in Hx'. destruct Hx' as [->|Hx']; [cbn [snd] in E; destruct (wp_head _ _ _ _ WR E l eq_refl)|]. eapply K7; [apply in_mid; right; exact Hx'|exact E].
      - destruct K as [K1 K2 K3 K4 K5 K6 K7]. constructor; auto.
        + revert K5. apply waits_move. auto.
        + intros x Hx'. apply in_mid in Hx'. destruct Hx' as [->|Hx']; [|apply K6; apply in_mid; auto]. apply (K6 (false, (e, EDir) :: (q, ELink u) :: rst)). apply in_mid. auto.
        + intros x q' l r Hx' E. apply in_mid in Hx'. destruct Hx' as [->|Hx']; [discriminate E|]. eapply K7; [apply in_mid; right; exact Hx'|exact E].
      - destruct K as [K1 K2 K3 K4 K5 K6 K7]. destruct (shape_pair _ _ _ _ (K6 (true, (e, EDir) :: (q, ELink u) :: rst) ltac:(apply in_mid; auto))) as (y & Hy & Hyp & Ed & Hsh & Hsh').
        destruct (H_kind y _ Hy Hyp) as [_ Hlen]. cbn [fst] in Hlen.
        pose proof RI as [(st & Hst & He & Hne) (HT & HC)]. cbn [r_fs r_cache] in *.
        assert (Cn : c <> []) by (apply Hne; intros E; destruct (He E) as [E' _]; destruct l1; discriminate).
        assert (ND : e <> d).
        { intros ->. destruct Hok as [H|[(_ & _ & H & _)|(_ & H & _)]]; [contradiction|congruence|]. apply H. rewrite T_up. auto. }
        assert (Ae : above e q) by (rewrite Ed; now apply above_removelast). assert (Hen : e <> []) by apply Ae.
        assert (Wu : forall a, a = e \/ above a e -> wanted pinsts a EDir).
        { intros a Ha. apply (want_above pinsts (pad y) (q, ELink u)); [apply in_map; now right|apply pad_items; left; unfold items; apply in_app_iff; auto|].
          cbn [fst]. destruct Ha as [->|Ha]; [auto|]. eapply FsPad.above_trans; eauto. }
        destruct (link_wanted y _ Hy Hyp) as [Wq We]. cbn [fst snd] in *. rewrite <- Ed in We.
        assert (MK : mkdirp_ok f c e -> put_ok e EDir f).
        { intros [H|[(_ & H & H2 & H3)|(_ & _ & H)]]; [| |exact H].
          - destruct (HC e H) as (_ & H1 & H2). split; [|auto]. intros z Hz. right. apply (HC z). auto.
          - destruct (HC _ H) as (_ & _ & H5). split; [|auto]. intros z Hz. right. destruct (above_split z e Hz) as [->|Ha]; [auto|]. apply (HC z). auto. }
        constructor; auto.
        + apply put_dir_stays; auto.
        + apply none_put; [auto| |].
          * intros ->. pose proof (H_fun _ _ _ p_wanted (Wu p (or_introl eq_refl))). discriminate.
          * intros Ha. apply Wu. auto.
        + intros Hin. destruct (mkdirp_cache_in c e _ Hen Hin) as [H|[H|H]]; [contradiction|congruence|]. apply ND. rewrite Ed. apply (T_scope y (q, ELink u) Hy Hyp). cbn [fst]. rewrite <- Ed. apply H.
        + intros _. apply mkdirp_cache_keeps. auto.
        + revert K5. apply waits_move. cbn [snd]. intros H. apply (waits_next (e, EDir)); [auto|]. intros r E. injection E as -> -> -> ->. congruence.
        + intros x Hx'. apply in_mid in Hx'. destruct Hx' as [->|Hx']; [exact Hsh'|]. apply K6. apply in_mid. auto.
        + intros x q' l r Hx' E. apply in_mid in Hx'. destruct Hx' as [->|Hx']; [|eapply K7; [apply in_mid; right; exact Hx'|exact E]].
          cbn [snd] in E. injection E as <- _ _. intros ->. apply ND. now rewrite Ed, T_d.
      - destruct K as [K1 K2 K3 K4 K5 K6 K7]. destruct (shape_link _ _ _ (K6 (false, (q, ELink u) :: rst) ltac:(apply in_mid; auto))) as (y & Hy & Hyp & Hsh).
        pose proof RI as [_ (HT & HC)]. cbn [r_fs r_cache] in HT, HC.
        assert (WR : wp rst /\ forall a, above a q -> f a = Some EDir).
        { destruct (HT (false, (q, ELink u) :: rst) ltac:(apply in_mid; auto)) as [[]|(q' & u' & l & E & _ & H & _ & Hu)]. cbn [snd] in E. injection E as <- <- <-. auto. }
        destruct WR as [WR Hup].
        constructor; auto.
        + apply put_dir_stays; [auto|]. split; [intros z Hz; right; auto|exact Logic.I].
        + apply none_put; [auto| |].
          * eapply K7; [apply in_mid; left; reflexivity|reflexivity].
          * intros Ha. apply (want_above pinsts (pad y) (q, ELink u)); [apply in_map; now right|apply pad_items; left; unfold items; apply in_app_iff; auto|exact Ha].
        + revert K5. apply waits_move. cbn [snd]. intros H. apply (waits_next (q, ELink u)); [auto|]. discriminate.
        + intros x Hx'. apply in_mid in Hx'. destruct Hx' as [->|Hx']; [exact Hsh|]. apply K6. apply in_mid. auto.
        + intros x q' l r Hx' E. apply in_mid in Hx'. destruct Hx' as [->|Hx']; [cbn [snd] in E; destruct (wp_head _ _ _ _ WR E l eq_refl)|]. eapply K7; [apply in_mid; right; exact Hx'|exact E].
      - exact K.
      - destruct K as [_ _ _ _ [[]|(x & Hx & a & b & E)] _ _]. rewrite Forall_forall in Hl. rewrite (Hl x Hx) in E. destruct a; discriminate.
    Qed.
    Lemma never_done w : rsteps (mkR _ f0 m0 RPruning []) w -> r_phase _ w <> RDone.
    Proof.
      intros S. assert (J : jam w); [|intros E; unfold jam in J; rewrite E in J; exact J].
      induction S as [|w1 w2 S IH H]; [split; auto|]. destruct (rsteps_proj f0 m0 w1 S) as [H1 _]. eapply jam_step; eauto.
    Qed.
  End Stuck.
End Machine.
