(** * The machine of Fs.v when only the state right after pruning is known to be good *)
From Verif Require Import Base Fs.
Open Scope list_scope.

Section Machine.
  Variable META : Type.
  Variable doomed : path -> bool.
  Variable wipe : bool.
  Variable insts : list inst.
  Variable final_meta : META.
  Notation wanted := (wanted insts).
  Notation condemned := (condemned doomed).
  Notation wstep := (wstep META doomed wipe insts final_meta).
  Notation wsteps := (wsteps META doomed wipe insts final_meta).
  Variable rel : path -> Prop.
  Hypothesis H_fun : forall q e e', wanted q e -> wanted q e' -> e = e'.
  Hypothesis H_rel : forall q e, wanted q e -> rel q.
  Hypothesis H_main : forall i d, In i insts -> i_check i = Some d -> forall t, In t (i_main i) -> prefix d (fst t).
  Hypothesis H_nocheck : forall i, In i insts -> i_check i = None -> i_main i = [].
  Hypothesis H_ord : forall l1 i l2 i' d, insts = l1 ++ i :: l2 -> In i' l2 -> i_check i' = Some d -> forall t, In t (items i) -> ~ prefix d (fst t).
  Notation inv := (Fs.inv insts rel).
  Notation good_start := (Fs.good_start insts rel).

  (** what pruning makes of [f] *)
  Definition pruned (f f' : fs) : Prop := (forall q, ~ condemned q -> f' q = f q) /\ (forall q, condemned q -> f' q = None).
  Definition ok (f : fs) (w : world META) : Prop :=
    match w_phase _ w with
    | Pruning => forall q, (~ condemned q -> w_fs _ w q = f q) /\ (w_fs _ w q = None \/ w_fs _ w q = f q)
    | Extracting next live => inv (w_fs _ w) next live
    | Done => w_meta _ w = Some final_meta /\ forall q e, rel q -> (w_fs _ w q = Some e <-> wanted q e)
    end.
  Lemma ok_step f w w' : (forall f', pruned f f' -> good_start f') -> ok f w -> wstep w w' -> ok f w'.
  Proof.
    intros Hs K S.
    destruct S as [f1 m p Hc Hp Hl|f1 m Hw|f1 m Hc Hm|f1 m i next live|f1 m next l1 l2 p e rest Hok|f1 m next l1 l2 p b rest b' Hok|f1 m m' live Hl|f1 m live Hl];
      unfold ok in *; cbn [w_fs w_meta w_phase] in *.
    - intros q. specialize (K q). destruct (path_eq_dec q p) as [->|]; [|exact K]. split; [contradiction|auto].
    - exact K.
    - apply inv_start. apply Hs. split; [intros q Hq; now apply K | exact Hc].
    - apply (inv_begin doomed insts rel H_nocheck). exact K.
    - now apply (inv_put doomed insts rel H_fun H_rel H_main H_ord) with (p := p) (e := e).
    - now apply (inv_torn insts rel H_main H_ord) with (b := b).
    - exact K.
    - split; [reflexivity|]. now apply (inv_done insts rel f1 live).
  Qed.
  Lemma ok_steps f m w : (forall f', pruned f f' -> good_start f') -> wsteps (mkW _ f m Pruning) w -> ok f w.
  Proof.
    intros Hs S. induction S as [|w1 w2 S IH H]; [intros q; auto|]. eapply ok_step; eauto.
  Qed.
  (** a completed run is exact *)
  Lemma plain_exact f m w : (forall f', pruned f f' -> good_start f') -> wsteps (mkW _ f m Pruning) w -> w_phase _ w = Done ->
    w_meta _ w = Some final_meta /\ forall q e, rel q -> (w_fs _ w q = Some e <-> wanted q e).
  Proof. intros Hs S D. pose proof (ok_steps f m w Hs S) as K. unfold ok in K. now rewrite D in K. Qed.

  (** nothing outside the condemned and wanted paths changes *)
  Lemma plain_frame f m w : (forall f', pruned f f' -> good_start f') -> wsteps (mkW _ f m Pruning) w ->
    forall q, ~ condemned q -> (forall e, ~ wanted q e) -> w_fs _ w q = f q.
  Proof.
    intros Hs S q Hc Hw. induction S as [|w1 w2 S IH H]; [reflexivity|]. rewrite <- IH. pose proof (ok_steps f m w1 Hs S) as K. unfold ok in K. clear -H K Hc Hw.
    destruct H as [f1 m1 p Hc' Hp Hl|f1 m1 Hw'|f1 m1 Hc' Hm|f1 m1 i next live|f1 m1 next l1 l2 p e rest Hok|f1 m1 next l1 l2 p b rest b' Hok|f1 m1 m' live Hl|f1 m1 live Hl];
      cbn [w_fs w_meta w_phase] in *; auto.
    - destruct (path_eq_dec q p) as [->|]; [contradiction|auto].
    - destruct K as [_ (st & Hst & _ & V3) _]. destruct (V3 (p, e)) as (i & H1 & H2); [apply in_concat_mid; right; left; now left|].
      assert (Hi : In i insts) by (rewrite Hst; apply in_app_iff; auto). apply put_same.
      + intros ->. eapply Hw. apply (want_item insts i (p, e) Hi H2).
      + intros Ha. eapply Hw. apply (want_above insts i (p, e) q Hi H2 Ha).
    - destruct K as [_ (st & Hst & _ & V3) _]. destruct (V3 (p, EFile b)) as (i & H1 & H2); [apply in_concat_mid; right; left; now left|].
      assert (Hi : In i insts) by (rewrite Hst; apply in_app_iff; auto). apply put_same.
      + intros ->. eapply Hw. apply (want_item insts i (p, EFile b) Hi H2).
      + intros Ha. eapply Hw. apply (want_above insts i (p, EFile b) q Hi H2 Ha).
  Qed.

  (** what pruning removes stays away, unless wanted *)
  Lemma plain_gone f m w : (forall f', pruned f f' -> good_start f') -> wsteps (mkW _ f m Pruning) w -> w_phase _ w <> Pruning ->
    forall q, condemned q -> (forall e, ~ wanted q e) -> w_fs _ w q = None.
  Proof.
    intros Hs S. induction S as [|w1 w2 S IH H]; [intros Hp; destruct (Hp eq_refl)|]. intros Hp q Hc Hw. pose proof (ok_steps f m w1 Hs S) as K. unfold ok in K.
    destruct H as [f1 m1 p Hc' Hp' Hl|f1 m1 Hw'|f1 m1 Hc' Hm|f1 m1 i next live|f1 m1 next l1 l2 p e rest Hok|f1 m1 next l1 l2 p b rest b' Hok|f1 m1 m' live Hl|f1 m1 live Hl];
      cbn [w_fs w_meta w_phase] in *; try (apply IH; auto; discriminate); try (destruct (Hp eq_refl)).
    - auto.
    - rewrite <- (IH ltac:(discriminate) q Hc Hw). destruct K as [_ (st & Hst & _ & V3) _]. destruct (V3 (p, e)) as (i & H1 & H2); [apply in_concat_mid; right; left; now left|].
      assert (Hi : In i insts) by (rewrite Hst; apply in_app_iff; auto). apply put_same.
      + intros ->. eapply Hw. apply (want_item insts i (p, e) Hi H2).
      + intros Ha. eapply Hw. apply (want_above insts i (p, e) q Hi H2 Ha).
    - rewrite <- (IH ltac:(discriminate) q Hc Hw). destruct K as [_ (st & Hst & _ & V3) _]. destruct (V3 (p, EFile b)) as (i & H1 & H2); [apply in_concat_mid; right; left; now left|].
      assert (Hi : In i insts) by (rewrite Hst; apply in_app_iff; auto). apply put_same.
      + intros ->. eapply Hw. apply (want_item insts i (p, EFile b) Hi H2).
      + intros Ha. eapply Hw. apply (want_above insts i (p, EFile b) q Hi H2 Ha).
  Qed.
  (** a crash: the metadata is still the old one, or wiped, or the tree is already exact *)
  Lemma plain_cases f m w : (forall f', pruned f f' -> good_start f') -> wsteps (mkW _ f m Pruning) w ->
    w_meta _ w = m \/ (wipe = true /\ w_meta _ w = None) \/ (forall q e, rel q -> (w_fs _ w q = Some e <-> wanted q e)).
  Proof.
    intros Hs S.
    assert (G : (w_meta _ w = m \/ (wipe = true /\ w_meta _ w = None))
                \/ ((forall q e, rel q -> (w_fs _ w q = Some e <-> wanted q e)) /\ (w_phase _ w = Done \/ exists live, w_phase _ w = Extracting [] live /\ Forall (fun l => l = []) live))); [|tauto].
    induction S as [|w1 w2 S IH H]; [left; left; reflexivity|]. pose proof (ok_steps f m w1 Hs S) as K. unfold ok in K.
    destruct H as [f1 m1 p Hc Hp Hl|f1 m1 Hw|f1 m1 Hc Hm|f1 m1 i next live|f1 m1 next l1 l2 p e rest Hok|f1 m1 next l1 l2 p b rest b' Hok|f1 m1 m' live Hl|f1 m1 live Hl];
      cbn [w_fs w_meta w_phase] in *.
    - destruct IH as [IH|[_ [IH|(l & IH & _)]]]; [auto|discriminate|discriminate].
    - auto.
    - destruct IH as [IH|[_ [IH|(l & IH & _)]]]; [auto|discriminate|discriminate].
    - destruct IH as [IH|[_ [IH|(l & IH & _)]]]; [auto|discriminate|discriminate].
    - destruct IH as [IH|[_ [IH|(l & IH & Hl)]]]; [auto|discriminate|]. exfalso. injection IH as -> <-.
      apply Forall_app in Hl. destruct Hl as [_ Hl]. inversion Hl. discriminate.
    - destruct IH as [IH|[_ [IH|(l & IH & Hl)]]]; [auto|discriminate|]. exfalso. injection IH as -> <-.
      apply Forall_app in Hl. destruct Hl as [_ Hl]. inversion Hl. discriminate.
    - right. split; [exact (inv_done _ _ _ _ K Hl)|]. right. eauto.
    - right. split; [exact (inv_done _ _ _ _ K Hl) | auto].
  Qed.

  (** extraction can always be completed *)
  Lemma plain_finish n : forall f m next live, inv f next live -> length next + length (concat live) + length (concat (map items next)) <= n ->
    exists w', wsteps (mkW _ f m (Extracting next live)) w' /\ w_phase _ w' = Done.
  Proof.
    induction n as [n IH] using lt_wf_ind. intros f m next live K Hn. destruct next as [|i next].
    - destruct (all_empty live) as [Hl|Hl].
      + eexists. split; [eapply ws_step; [apply ws_refl|]; now apply s_done | reflexivity].
      + assert (exists l1 p e rest l2, live = l1 ++ ((p, e) :: rest) :: l2) as (l1 & p & e & rest & l2 & ->).
        { clear -Hl. induction live as [|l live IH]; [destruct Hl; constructor|]. destruct l as [|[p e] rest].
          - destruct IH as (l1 & p & e & rest & l2 & ->); [intros H; apply Hl; now constructor|]. exists ([] :: l1), p, e, rest, l2. reflexivity.
          - exists [], p, e, rest, live. reflexivity. }
        assert (Hok : put_ok p e f).
        { eapply (inv_put_ok insts rel H_fun H_rel); [exact K|]. apply in_concat_mid. right. left. now left. }
        assert (S : wstep (mkW _ f m (Extracting [] (l1 ++ ((p, e) :: rest) :: l2))) (mkW _ (put p e f) m (Extracting [] (l1 ++ rest :: l2)))) by now constructor.
        destruct (IH (n - 1)) with (f := put p e f) (m := m) (next := @nil inst) (live := l1 ++ rest :: l2) as (w' & H1 & H2); auto.
        * cbn in Hn. rewrite concat_app, app_length in Hn. cbn in Hn. lia.
        * now apply (inv_put doomed insts rel H_fun H_rel H_main H_ord) with (p := p) (e := e).
        * cbn in *. rewrite concat_app, app_length in *. cbn in *. rewrite app_length in *. lia.
        * exists w'. split; [|auto]. eapply wsteps_trans; [|exact H1]. eapply ws_step; [apply ws_refl | exact S].
    - pose proof (s_start META doomed wipe insts final_meta f m i next live) as S.
      destruct (IH (n - 1)) with (f := f) (m := m) (next := next)
        (live := (match i_check i with Some d => match f d with None => items i | Some _ => i_links i end | None => i_links i end) :: live) as (w' & H1 & H2); auto.
      + cbn in Hn. lia.
      + apply (inv_begin doomed insts rel H_nocheck). exact K.
      + cbn in *. rewrite app_length in *. 
        assert (length (match i_check i with Some d => match f d with None => items i | Some _ => i_links i end | None => i_links i end) <= length (items i)).
        { unfold items. rewrite app_length. destruct (i_check i) as [d|]; [destruct (f d)|]; try lia. rewrite app_length. lia. }
        lia.
      + exists w'. split; [|auto]. eapply wsteps_trans; [|exact H1]. eapply ws_step; [apply ws_refl | exact S].
  Qed.
  Hypothesis H_dec : forall q, condemned q \/ ~ condemned q.
  Lemma plain_prune n : forall f m l, (forall p, f p <> None -> In p l) -> length l <= n -> exists f' m', wsteps (mkW _ f m Pruning) (mkW _ f' m' (Extracting insts [])).
  Proof.
    induction n as [n IH] using lt_wf_ind. intros f m l Hl Hn.
    assert (D : (forall q, In q l -> condemned q -> f q = None) \/ exists q, In q l /\ condemned q /\ f q <> None /\ forall q', condemned q' -> f q' <> None -> length q' <= length q).
    { assert (G : forall l', (forall q, In q l' -> In q l) -> (forall q, In q l' -> condemned q -> f q = None)
        \/ exists q, In q l /\ condemned q /\ f q <> None /\ forall q', In q' l' -> condemned q' -> f q' <> None -> length q' <= length q).
      { induction l' as [|a l' IHl]; intros Hin; [left; intros q []|].
        destruct IHl as [H|(q & H1 & H2 & H3 & H4)]; [intros q Hq; apply Hin; now right| |].
        - destruct (H_dec a) as [Ha|Ha]; [destruct (f a) as [x|] eqn:Ef|].
          + right. exists a. split; [apply Hin; now left|]. split; [auto|]. split; [congruence|]. intros q' [<-|Hq'] Hc Hf; [auto|]. destruct (Hf (H q' Hq' Hc)).
          + left. intros q [<-|Hq] Hc; [auto | now apply H].
          + left. intros q [<-|Hq] Hc; [contradiction | now apply H].
        - right. destruct (H_dec a) as [Ha|Ha]; [destruct (f a) as [x|] eqn:Ef|].
          + destruct (le_lt_dec (length a) (length q)) as [Hle|Hlt].
            * exists q. repeat split; auto. intros q' [<-|Hq'] Hc Hf; auto.
            * exists a. split; [apply Hin; now left|]. split; [auto|]. split; [congruence|]. intros q' [<-|Hq'] Hc Hf; [auto|]. specialize (H4 q' Hq' Hc Hf). lia.
          + exists q. repeat split; auto. intros q' [<-|Hq'] Hc Hf; [congruence | auto].
          + exists q. repeat split; auto. intros q' [<-|Hq'] Hc Hf; [contradiction | auto]. }
      destruct (G l ltac:(auto)) as [H|(q & H1 & H2 & H3 & H4)]; [now left|]. right. exists q. repeat split; auto. }
    destruct D as [H|(q & H1 & H2 & H3 & H4)].
    - assert (Hc : forall q, condemned q -> f q = None).
      { intros q Hq. destruct (f q) as [x|] eqn:E; [|auto]. rewrite <- E. apply H; [apply Hl; congruence | auto]. }
      assert (exists m', wsteps (mkW _ f m Pruning) (mkW _ f m' Pruning) /\ (wipe = true -> m' = None)) as (m' & S & Hm).
      { destruct wipe eqn:Ew; [|exists m; split; [constructor|discriminate]]. exists None. split; [|auto]. eapply ws_step; [apply ws_refl|]. now constructor. }
      exists f, m'. eapply ws_step; [exact S|]; now apply s_pruned.
    - assert (S : wstep (mkW _ f m Pruning) (mkW _ (fun q' => if path_eq_dec q' q then None else f q') m Pruning)).
      { apply s_remove; auto. intros q' [r ->] Hne. destruct (f (q ++ r)) as [x|] eqn:E; [|auto]. exfalso.
        assert (Hc : condemned (q ++ r)) by (destruct H2 as (d & Hd & Hp); exists d; split; [auto | eapply prefix_trans; [exact Hp | apply prefix_app]]).
        specialize (H4 _ Hc ltac:(congruence)). rewrite app_length in H4. destruct r; [rewrite app_nil_r in Hne; congruence | cbn in H4; lia]. }
      destruct (IH (n - 1)) with (f := fun q' => if path_eq_dec q' q then None else f q') (m := m) (l := remove path_eq_dec q l) as (f' & m' & Hw).
      + destruct l; [destruct H1|]. cbn in Hn. lia.
      + intros p Hp. destruct (path_eq_dec p q) as [->|Hne]; [congruence|]. apply in_in_remove; auto.
      + pose proof (remove_length_lt path_eq_dec l q H1). lia.
      + exists f', m'. eapply wsteps_trans; [|exact Hw]. eapply ws_step; [apply ws_refl | exact S].
  Qed.
  Lemma plain_complete f m l : (forall f', pruned f f' -> good_start f') -> (forall p, f p <> None -> In p l) -> exists w', wsteps (mkW _ f m Pruning) w' /\ w_phase _ w' = Done.
  Proof.
    intros Hs Hl. destruct (plain_prune _ f m l Hl (le_n _)) as (f' & m' & S).
    pose proof (ok_steps f m _ Hs S) as K. unfold ok in K. cbn [w_phase w_fs] in K. destruct (plain_finish _ f' m' _ _ K (le_n _)) as (w' & S' & Hd).
    exists w'. split; [eapply wsteps_trans; eauto | auto].
  Qed.

  (** ** crashes: packages that exist are complete, and nothing else is there *)
  Record solid (f : fs) : Prop := {
    so_sound : forall q e, rel q -> f q = Some e -> wanted q e;
    so_full : forall i d, In i insts -> i_check i = Some d -> forall t, In t (i_main i) -> complete t f }.
  Hypothesis H_links : forall i t, In i insts -> In t (i_links i) -> forall b, snd t <> EFile b.
  Hypothesis H_ne : forall i d, In i insts -> i_check i = Some d -> d <> [].
  (** pruning leaves the packages alone *)
  Hypothesis H_keep : forall i d, In i insts -> i_check i = Some d -> forall t, In t (i_main i) -> ~ condemned (fst t).
  Lemma keep_up q d : ~ condemned q -> prefix d q -> ~ condemned d.
  Proof. intros H Hp (x & H1 & H2). apply H. exists x. split; [auto | eapply prefix_trans; eauto]. Qed.
  Lemma solid_pruned f f' : solid f -> (forall q, (~ condemned q -> f' q = f q) /\ (f' q = None \/ f' q = f q)) -> solid f'.
  Proof.
    intros [S1 S2] H. constructor.
    - intros q e Hr Hq. destruct (proj2 (H q)) as [E|E]; [congruence|]. apply S1; congruence.
    - intros i d Hi Hc t Ht. destruct (S2 i d Hi Hc t Ht) as [A B]. pose proof (H_keep i d Hi Hc t Ht) as K. split.
      + now rewrite (proj1 (H _) K).
      + intros q Hq. rewrite (proj1 (H q)); [now apply B|]. eapply keep_up; [exact K|]. apply Hq.
  Qed.
  Lemma solid_good f f' : solid f -> pruned f f' -> good_start f'.
  Proof.
    intros S [P1 P2]. assert (S' : solid f').
    { apply (solid_pruned f); [exact S|]. intros q. split; [apply P1|]. destruct (H_dec q) as [C|C]; [left; auto | right; auto]. }
    destruct S' as [S1 S2]. constructor; [exact S1|]. intros i d Hi Hc _. eapply S2; eauto.
  Qed.
  (** the state after any step, with live packages that write no file *)
  Definition sok (f : fs) (w : world META) : Prop :=
    solid (w_fs _ w) /\ forall next live, w_phase _ w = Extracting next live ->
      (exists st, insts = st ++ next) /\ forall t, In t (concat live) -> (forall b, snd t <> EFile b) /\ wanted (fst t) (snd t) /\ exists i, In i insts /\ In t (items i).
  Lemma sok_step f w w' : solid f -> (w_phase _ w = Pruning -> ok f w) -> sok f w -> wstep w w' -> sok f w'.
  Proof.
    intros Sf K0 [Sw K] S.
    assert (PUT : forall f1 p e, solid f1 -> put_ok p e f1 -> (forall b, e <> EFile b) -> wanted p e -> (exists i, In i insts /\ In (p, e) (items i)) -> solid (put p e f1)).
    { intros f1 p e [S1 S2] Hok Hnf Hw (i & Hi & Hin). constructor.
      - intros q x Hr Hq. destruct (path_eq_dec q p) as [->|Hn].
        + unfold put in Hq. destruct (path_eq_dec p p); [|congruence]. destruct e as [|b|l]; [|destruct (Hnf b eq_refl)|]; (destruct (f1 p) as [y|] eqn:E; injection Hq as <-; [apply S1; auto | exact Hw]).
        + apply put_other in Hq; [|auto]. destruct Hq as [Hq|[Ha ->]]; [auto|]. exact (want_above insts i (p, e) q Hi Hin Ha).
      - intros i' d Hi' Hc' t Ht. pose proof (S2 i' d Hi' Hc' t Ht) as Hco. destruct (path_eq_dec (fst t) p) as [E|E]; [|now apply complete_put].
        destruct Hco as [A B]. split.
        + unfold put. destruct (path_eq_dec (fst t) p); [|contradiction]. rewrite A. destruct e as [|b|l]; auto. destruct (Hnf b eq_refl).
        + intros q Hq. unfold put. destruct (path_eq_dec q p) as [->|]; [rewrite E in Hq; destruct Hq as (_ & Hq & _); congruence|].
          rewrite (B q Hq). now destruct (aboveb q p). }
    destruct S as [f1 m p Hc Hp Hl|f1 m Hw|f1 m Hc Hm|f1 m i next live|f1 m next l1 l2 p e rest Hok|f1 m next l1 l2 p b rest b' Hok|f1 m m' live Hl|f1 m live Hl];
      unfold sok; cbn [w_fs w_meta w_phase] in *.
    - split; [|discriminate]. apply (solid_pruned f); [exact Sf|]. intros q. specialize (K0 eq_refl). unfold ok in K0. cbn [w_phase w_fs] in K0. specialize (K0 q).
      destruct (path_eq_dec q p) as [->|]; [split; [contradiction|auto] | exact K0].
    - split; [auto|discriminate].
    - split; [auto|]. intros next live E. injection E as <- <-. split; [exists []; reflexivity|]. intros t [].
    - split; [auto|]. destruct (K _ _ eq_refl) as [[st Hst] KL]. assert (Hi : In i insts) by (rewrite Hst; apply in_app_iff; right; now left).
      intros next' live' E. injection E as <- <-. split; [exists (st ++ [i]); rewrite <- app_assoc; exact Hst|].
      intros t Ht. cbn in Ht. apply in_app_iff in Ht. destruct Ht as [Ht|Ht]; [|auto].
      assert (Hlk : In t (i_links i)).
      { destruct (i_check i) as [d|] eqn:Ec; [|exact Ht]. destruct (f1 d) as [x|] eqn:Ed; [exact Ht|].
        unfold items in Ht. apply in_app_iff in Ht. destruct Ht as [Ht|Ht]; [|exact Ht]. exfalso.
        destruct Sw as [_ S2]. destruct (S2 i d Hi Ec t Ht) as [A B]. pose proof (H_main i d Hi Ec t Ht) as Hpre.
        destruct (path_eq_dec d (fst t)) as [->|Hn]; [congruence|]. rewrite (B d) in Ed; [discriminate|]. split; [auto|]. split; [auto|]. eapply H_ne; eauto. }
      split; [eapply H_links; eauto|]. assert (Hit : In t (items i)) by (unfold items; apply in_app_iff; auto). split; [now apply (want_item insts i)|eauto].
    - destruct (K _ _ eq_refl) as [Hst KL]. destruct (KL (p, e)) as (A & B & C); [apply in_concat_mid; right; left; now left|].
      split; [apply PUT; auto|]. intros next' live' E. injection E as <- <-. split; [exact Hst|]. intros t Ht. apply KL. apply in_concat_mid in Ht. apply in_concat_mid. cbn. tauto.
    - destruct (K _ _ eq_refl) as [Hst KL]. destruct (KL (p, EFile b)) as (A & _); [apply in_concat_mid; right; left; now left|]. destruct (A b eq_refl).
    - destruct (K _ _ eq_refl) as [Hst KL]. split; [auto|]. intros next' live' E. injection E as <- <-. auto.
    - split; [auto|discriminate].
  Qed.
  Lemma sok_steps f m w : solid f -> wsteps (mkW _ f m Pruning) w -> solid (w_fs _ w).
  Proof.
    intros Sf S. cut (sok f w /\ ok f w); [intros [[H _] _]; exact H|].
    induction S as [|w1 w2 S IH H]; [split; [split; [exact Sf|discriminate] | intros q; auto]|]. destruct IH as [A B]. split.
    - eapply sok_step; eauto.
    - eapply ok_step; eauto. intros f'. now apply solid_good.
  Qed.
End Machine.
