(** * A file system, and the prune/extract machine shared by the linkers.
    Paths are lists of components from the project root. *)
From Verif Require Import Base.
Open Scope list_scope.

Definition path := list string.
Definition path_eq_dec : forall p q : path, {p = q} + {p <> q} := list_eq_dec string_dec.
Definition prefix (p q : path) : Prop := exists r, q = p ++ r.
Fixpoint prefixb (p q : path) : bool :=
  match p, q with
  | [], _ => true
  | x :: p', y :: q' => String.eqb x y && prefixb p' q'
  | _, [] => false
  end.
Lemma prefixb_spec p q : prefixb p q = true <-> prefix p q.
Proof.
  revert q; induction p as [|x p IH]; intros q; cbn; [split; [exists q; auto | auto]|].
  destruct q as [|y q]; [split; [discriminate | intros [r H]; discriminate]|].
  rewrite andb_true_iff, String.eqb_eq, IH. split.
  - intros [-> [r ->]]. exists r. reflexivity.
  - intros [r H]. cbn in H. injection H as -> ->. split; [auto | exists r; auto].
Qed.
Lemma prefix_refl p : prefix p p.
Proof. exists []. now rewrite app_nil_r. Qed.
Lemma prefix_trans p q r : prefix p q -> prefix q r -> prefix p r.
Proof. intros [a ->] [b ->]. exists (a ++ b). now rewrite app_assoc. Qed.
Lemma prefix_app p r : prefix p (p ++ r).
Proof. exists r. reflexivity. Qed.
(** a directory strictly above [q], other than the project root *)
Definition above (p q : path) : Prop := prefix p q /\ p <> q /\ p <> [].
Definition aboveb (p q : path) : bool := prefixb p q && (if path_eq_dec p q then false else true) && (if path_eq_dec p [] then false else true).
Lemma aboveb_spec p q : aboveb p q = true <-> above p q.
Proof.
  unfold aboveb, above. rewrite !andb_true_iff, prefixb_spec.
  destruct (path_eq_dec p q), (path_eq_dec p []); intuition congruence.
Qed.
Lemma prefix_antisym p q : prefix p q -> prefix q p -> p = q.
Proof.
  intros [a ->] [b H]. rewrite <- app_assoc in H. rewrite <- (app_nil_r p) in H at 1. apply app_inv_head in H.
  symmetry in H. apply app_eq_nil in H. destruct H as [-> _]. now rewrite app_nil_r.
Qed.
Lemma prefix_linear a b q : prefix a q -> prefix b q -> prefix a b \/ prefix b a.
Proof.
  revert b q; induction a as [|x a IH]; intros b q Ha Hb; [left; exists b; reflexivity|].
  destruct b as [|y b]; [right; exists (x :: a); reflexivity|].
  destruct Ha as [r ->], Hb as [r' H]. cbn in H. injection H as -> H.
  destruct (IH b (a ++ r)) as [[z ->]|[z ->]]; [exists r; auto | exists r'; auto | left; exists z; reflexivity | right; exists z; reflexivity].
Qed.

Inductive ent := EDir | EFile (bytes : string) | ELink (target : path).
Definition fs := path -> option ent.

(** [std::fs::create_dir_all] of the parents, then: create the directory if missing; create or overwrite the file;
    create the link if nothing is there (isolated.rs:534-556) *)
Definition put (p : path) (e : ent) (f : fs) : fs := fun q =>
  if path_eq_dec q p then match e, f q with EFile _, _ => Some e | _, None => Some e | _, Some x => Some x end
  else if aboveb q p then match f q with None => Some EDir | Some x => Some x end
  else f q.
(** when that succeeds: no file or link is in the way *)
Definition put_ok (p : path) (e : ent) (f : fs) : Prop :=
  (forall q, above q p -> f q = None \/ f q = Some EDir)
  /\ match e with
     | EDir => f p = None \/ f p = Some EDir
     | EFile _ => f p = None \/ exists b, f p = Some (EFile b)
     | ELink _ => True
     end.

(** what one package contributes: [i_main] is done only if the directory [i_check] does not exist yet, [i_links] always *)
Definition item := (path * ent)%type.
Record inst := mkInst { i_check : option path; i_main : list item; i_links : list item }.
Definition items (i : inst) : list item := i_main i ++ i_links i.

(** one apply: first everything below a doomed path is removed, then the packages are extracted; [wipe]: the metadata
    file goes too *)
Section Machine.
  Variable META : Type.                            (* contents of node_modules/.orogene-meta.kdl, once parsed *)
  Variable doomed : path -> bool.
  Variable wipe : bool.
  Variable insts : list inst.
  Variable final_meta : META.

  Definition condemned (q : path) : Prop := exists d, doomed d = true /\ prefix d q.
  Inductive phase : Type :=
  | Pruning
  | Extracting (next : list inst) (live : list (list item))   (* not looked at yet; under way, with what is left to do *)
  | Done.
  Record world := mkW { w_fs : fs; w_meta : option META; w_phase : phase }.

  Inductive wstep : world -> world -> Prop :=
  (* remove_dir_all / remove_file, one entry at a time, leaves first *)
  | s_remove f m p : condemned p -> f p <> None -> (forall q, prefix p q -> q <> p -> f q = None) ->
      wstep (mkW f m Pruning) (mkW (fun q => if path_eq_dec q p then None else f q) m Pruning)
  | s_unmeta f m : wipe = true -> wstep (mkW f m Pruning) (mkW f None Pruning)
  | s_pruned f m : (forall q, condemned q -> f q = None) -> (wipe = true -> m = None) ->
      wstep (mkW f m Pruning) (mkW f m (Extracting insts []))
  (* packages are looked at in graph order (futures polled in the order of node_indices); they then proceed concurrently *)
  | s_start f m i next live : 
      wstep (mkW f m (Extracting (i :: next) live))
            (mkW f m (Extracting next ((match i_check i with
                                        | Some d => match f d with None => items i | Some _ => i_links i end
                                        | None => i_links i end) :: live)))
  | s_put f m next l1 l2 p e rest : put_ok p e f ->
      wstep (mkW f m (Extracting next (l1 ++ ((p, e) :: rest) :: l2))) (mkW (put p e f) m (Extracting next (l1 ++ rest :: l2)))
  (* a file caught in the middle of being written *)
  | s_torn f m next l1 l2 p b rest b' : put_ok p (EFile b) f ->
      wstep (mkW f m (Extracting next (l1 ++ ((p, EFile b) :: rest) :: l2)))
            (mkW (put p (EFile b') f) m (Extracting next (l1 ++ ((p, EFile b) :: rest) :: l2)))
  (* the metadata file is written last; caught in the middle it may contain anything *)
  | s_torn_meta f m m' live : Forall (fun l => l = []) live ->
      wstep (mkW f m (Extracting [] live)) (mkW f m' (Extracting [] live))
  | s_done f m live : Forall (fun l => l = []) live ->
      wstep (mkW f m (Extracting [] live)) (mkW f (Some final_meta) Done).
  Inductive wsteps (w : world) : world -> Prop :=
  | ws_refl : wsteps w w
  | ws_step w1 w2 : wsteps w w1 -> wstep w1 w2 -> wsteps w w2.

  (** what the packages want on disk: their items, and the directories above them *)
  Definition wanted (q : path) (e : ent) : Prop :=
    (exists i, In i insts /\ In (q, e) (items i))
    \/ (e = EDir /\ exists i p e', In i insts /\ In (p, e') (items i) /\ above q p).
  Definition complete (t : item) (f : fs) : Prop :=
    f (fst t) = Some (snd t) /\ forall q, above q (fst t) -> f q = Some EDir.

  Variable rel : path -> Prop.
  Hypothesis H_fun : forall q e e', wanted q e -> wanted q e' -> e = e'.
  Hypothesis H_rel : forall q e, wanted q e -> rel q.
  Hypothesis H_main : forall i d, In i insts -> i_check i = Some d -> forall t, In t (i_main i) -> prefix d (fst t).
  Hypothesis H_ne : forall i d, In i insts -> i_check i = Some d -> d <> [].
  Hypothesis H_nocheck : forall i, In i insts -> i_check i = None -> i_main i = [].
  Hypothesis H_ord : forall l1 i l2 i' d, insts = l1 ++ i :: l2 -> In i' l2 -> i_check i' = Some d -> forall t, In t (items i) -> ~ prefix d (fst t).

  Lemma want_item i t : In i insts -> In t (items i) -> wanted (fst t) (snd t).
  Proof. intros Hi Ht. left. exists i. destruct t; auto. Qed.
  Lemma want_above i t q : In i insts -> In t (items i) -> above q (fst t) -> wanted q EDir.
  Proof. intros Hi Ht Hq. right. split; [auto|]. destruct t as [p e]. exists i, p, e. auto. Qed.

  (** ** extraction *)
  Record good_start (f : fs) : Prop := {
    gs_sound : forall q e, rel q -> f q = Some e -> wanted q e;
    gs_full : forall i d, In i insts -> i_check i = Some d -> f d <> None -> forall t, In t (i_main i) -> complete t f }.

  Record inv (f : fs) (next : list inst) (live : list (list item)) : Prop := {
    v_sound : forall q e, rel q -> f q = Some e -> wanted q e \/ exists b b', e = EFile b' /\ In (q, EFile b) (concat live);
    v_next : exists started, insts = started ++ next
      /\ (forall i, In i started -> forall t, In t (items i) -> complete t f \/ exists e, In (fst t, e) (concat live))
      /\ (forall t, In t (concat live) -> exists i, In i started /\ In t (items i));
    v_full : forall i d, In i next -> i_check i = Some d -> f d <> None -> forall t, In t (i_main i) -> complete t f }.

  Lemma inv_start f : good_start f -> inv f insts [].
  Proof.
    intros [H1 H2]. constructor.
    - intros q e Hr Hq. left. auto.
    - exists []. split; [reflexivity|]. split; [intros i []|]. intros t [].
    - intros i d Hi. eapply H2; eauto.
  Qed.

  Lemma put_same p e f q : q <> p -> ~ above q p -> put p e f q = f q.
  Proof.
    intros H1 H2. unfold put. destruct (path_eq_dec q p); [contradiction|]. destruct (aboveb q p) eqn:E; [|auto].
    apply aboveb_spec in E. contradiction.
  Qed.
  Lemma put_other p e f q x : q <> p -> put p e f q = Some x -> f q = Some x \/ (above q p /\ x = EDir).
  Proof.
    unfold put. destruct (path_eq_dec q p) as [->|Hn]; [congruence|]. intros _ H. destruct (aboveb q p) eqn:E; [|auto]. apply aboveb_spec in E.
    destruct (f q) as [y|]; injection H as <-; auto.
  Qed.
  Lemma put_ok_file p e f : put_ok p e f -> (forall x, f p = Some x -> match e with EFile _ => exists b, x = EFile b | EDir => x = EDir | ELink _ => True end).
  Proof. intros [_ H] x Hx. destruct e; auto; destruct H as [H|H]; try congruence. destruct H as [b H]. exists b. congruence. Qed.
  Lemma put_above p e f q : put_ok p e f -> above q p -> put p e f q = Some EDir.
  Proof.
    intros [H _] Hq. unfold put. destruct (path_eq_dec q p) as [->|Hn]; [destruct Hq as (_ & Hq & _); congruence|].
    rewrite (proj2 (aboveb_spec q p) Hq). destruct (H q Hq) as [-> | ->]; reflexivity.
  Qed.
  Lemma above_trans q p p' : above q p -> prefix p p' -> above q p'.
  Proof.
    intros (H1 & H2 & H3) H4. split; [eapply prefix_trans; eauto|]. split; [|auto]. intros ->. apply H2. now apply prefix_antisym.
  Qed.
  (** what is complete stays complete, unless it is the very file being written *)
  Lemma complete_put t p e f : fst t <> p -> put_ok p e f -> complete t f -> complete t (put p e f).
  Proof.
    intros Hn Hok [H1 H2]. split.
    - unfold put. destruct (path_eq_dec (fst t) p); [contradiction|]. destruct (aboveb (fst t) p); rewrite H1; reflexivity.
    - intros q Hq. specialize (H2 q Hq). unfold put. destruct (path_eq_dec q p) as [->|Hp].
      + rewrite H2. destruct e; auto. destruct Hok as [_ [Hok|[b Hok]]]; congruence.
      + destruct (aboveb q p); rewrite H2; reflexivity.
  Qed.
  Lemma put_exact p e f : put_ok p e f -> (forall x, f p = Some x -> (exists b, e = EFile b) \/ x = e) -> complete (p, e) (put p e f).
  Proof.
    intros Hok Hx. split; cbn [fst snd].
    - unfold put. destruct (path_eq_dec p p); [|congruence]. destruct e; auto; destruct (f p) as [y|] eqn:E; auto;
        destruct (Hx y eq_refl) as [[b Hb]|]; congruence.
    - intros q Hq. now apply put_above.
  Qed.

  Lemma in_concat_mid (l1 l2 : list (list item)) l t : In t (concat (l1 ++ l :: l2)) <-> In t (concat l1) \/ In t l \/ In t (concat l2).
  Proof. rewrite concat_app, in_app_iff. cbn. rewrite in_app_iff. tauto. Qed.

  (** a blocking entry never exists *)
  Lemma inv_put_ok f next live p e : inv f next live -> In (p, e) (concat live) -> put_ok p e f.
  Proof.
    intros [V1 (st & Hs & V2 & V3) V4] Hin. destruct (V3 _ Hin) as (i & Hi & Ht).
    assert (Hii : In i insts) by (rewrite Hs; apply in_app_iff; auto).
    pose proof (want_item i (p, e) Hii Ht) as Hw. cbn in Hw.
    assert (A : forall q x, rel q -> f q = Some x -> forall y, wanted q y -> x = y \/ exists b b', x = EFile b' /\ y = EFile b).
    { intros q x Hr Hq y Hy. destruct (V1 q x Hr Hq) as [H|(b & b' & -> & H)]; [left; eapply H_fun; eauto|].
      right. exists b, b'. split; [auto|]. destruct (V3 _ H) as (i' & Hi' & Ht'). eapply H_fun; [exact Hy|].
      eapply (want_item i' (q, EFile b)); [rewrite Hs; apply in_app_iff; auto | exact Ht']. }
    split.
    - intros q Hq. destruct (f q) as [x|] eqn:Ex; [|auto]. right.
      assert (Hwq : wanted q EDir) by (eapply (want_above i (p, e)); eauto).
      destruct (A q x ltac:(eapply H_rel; eauto) Ex EDir Hwq) as [->|(b & b' & _ & H)]; [auto | discriminate].
    - destruct (f p) as [x|] eqn:Ex; [|destruct e; auto].
      destruct (A p x ltac:(eapply H_rel; eauto) Ex e Hw) as [->|(b & b' & -> & ->)]; [destruct e; eauto | eauto].
  Qed.

  Lemma inv_put f next l1 p e rest l2 : inv f next (l1 ++ ((p, e) :: rest) :: l2) -> put_ok p e f -> inv (put p e f) next (l1 ++ rest :: l2).
  Proof.
    intros [V1 (st & Hs & V2 & V3) V4] Hok.
    assert (Hpe : In (p, e) (concat (l1 ++ ((p, e) :: rest) :: l2))) by (apply in_concat_mid; right; left; now left).
    destruct (V3 _ Hpe) as (i & Hi & Ht). assert (Hii : In i insts) by (rewrite Hs; apply in_app_iff; auto).
    pose proof (want_item i (p, e) Hii Ht) as Hw. cbn in Hw.
    assert (Hcomp : complete (p, e) (put p e f)).
    { apply put_exact; [auto|]. intros x Hx. destruct (V1 p x ltac:(eapply H_rel; eauto) Hx) as [H|(b & b' & -> & H)].
      - right. eapply H_fun; eauto.
      - left. exists b. eapply H_fun; [exact Hw|]. destruct (V3 _ H) as (i' & Hi' & Ht').
        eapply (want_item i' (p, EFile b)); [rewrite Hs; apply in_app_iff; auto | exact Ht']. }
    assert (Hsame : forall t, wanted (fst t) (snd t) -> fst t = p -> complete t (put p e f)).
    { intros [p' e'] Hw' E. cbn in *. subst p'. rewrite (H_fun _ _ _ Hw' Hw). exact Hcomp. }
    constructor.
    - intros q x Hr Hq. destruct (path_eq_dec q p) as [->|Hn].
      + left. destruct Hcomp as [E _]. cbn in E. rewrite E in Hq. injection Hq as <-. exact Hw.
      + apply put_other in Hq; [|auto]. destruct Hq as [Hq|[Ha ->]].
        * destruct (V1 q x Hr Hq) as [H|(b & b' & -> & H)]; [auto|]. right. exists b, b'. split; [auto|].
          apply in_concat_mid in H. apply in_concat_mid. destruct H as [H|[[H|H]|H]]; auto. injection H as -> _. congruence.
        * left. eapply (want_above i (p, e)); eauto.
    - exists st. split; [auto|]. split.
      + intros i' Hi' t Ht'. assert (Hw' : wanted (fst t) (snd t)) by (eapply want_item; [rewrite Hs; apply in_app_iff; left; exact Hi' | exact Ht']).
        destruct (path_eq_dec (fst t) p) as [E|E]; [left; auto|]. destruct (V2 i' Hi' t Ht') as [H|[e' H]].
        * left. now apply complete_put.
        * right. exists e'. apply in_concat_mid in H. apply in_concat_mid. destruct H as [H|[[H|H]|H]]; auto. injection H as H _. congruence.
      + intros t H. apply V3. apply in_concat_mid in H. apply in_concat_mid. cbn. tauto.
    - intros i' d Hi' Hc Hd t Ht'.
      assert (Hord : ~ prefix d p).
      { apply in_split in Hi. destruct Hi as (s1 & s2 & ->). intros Hpre. apply (H_ord s1 i (s2 ++ next) i' d) with (t := (p, e)); auto.
        - rewrite Hs, <- app_assoc. reflexivity.
        - apply in_app_iff. auto. }
      assert (Hd' : f d <> None).
      { intros Hf. apply Hd. rewrite <- Hf. apply put_same; [intros ->; apply Hord, prefix_refl | intros (Ha & _); auto]. }
      apply complete_put; [|auto|eapply V4; eauto]. intros E. apply Hord. rewrite <- E. eapply H_main; [|exact Hc|exact Ht'].
      rewrite Hs. apply in_app_iff. auto.
  Qed.
  Lemma inv_torn f next l1 p b rest l2 b' : inv f next (l1 ++ ((p, EFile b) :: rest) :: l2) -> put_ok p (EFile b) f ->
    inv (put p (EFile b') f) next (l1 ++ ((p, EFile b) :: rest) :: l2).
  Proof.
    intros [V1 (st & Hs & V2 & V3) V4] Hok.
    assert (Hok' : put_ok p (EFile b') f) by (destruct Hok; split; auto).
    assert (Hpe : In (p, EFile b) (concat (l1 ++ ((p, EFile b) :: rest) :: l2))) by (apply in_concat_mid; right; left; now left).
    destruct (V3 _ Hpe) as (i & Hi & Ht). assert (Hii : In i insts) by (rewrite Hs; apply in_app_iff; auto).
    constructor.
    - intros q x Hr Hq. destruct (path_eq_dec q p) as [->|Hn].
      + right. exists b, b'. split; [|exact Hpe]. unfold put in Hq. destruct (path_eq_dec p p); [|congruence]. congruence.
      + apply put_other in Hq; [|auto]. destruct Hq as [Hq|[Ha ->]]; [auto|]. left. eapply (want_above i (p, EFile b)); eauto.
    - exists st. split; [auto|]. split; [|exact V3]. intros i' Hi' t Ht'. destruct (path_eq_dec (fst t) p) as [->|E]; [right; eauto|].
      destruct (V2 i' Hi' t Ht') as [H|H]; [left; now apply complete_put | auto].
    - intros i' d Hi' Hc Hd t Ht'.
      assert (Hord : ~ prefix d p).
      { apply in_split in Hi. destruct Hi as (s1 & s2 & ->). intros Hpre. apply (H_ord s1 i (s2 ++ next) i' d) with (t := (p, EFile b)); auto.
        - rewrite Hs, <- app_assoc. reflexivity.
        - apply in_app_iff. auto. }
      assert (Hd' : f d <> None).
      { intros Hf. apply Hd. rewrite <- Hf. apply put_same; [intros ->; apply Hord, prefix_refl | intros (Ha & _); auto]. }
      apply complete_put; [|auto|eapply V4; eauto]. intros E. apply Hord. rewrite <- E. eapply H_main; [|exact Hc|exact Ht'].
      rewrite Hs. apply in_app_iff. auto.
  Qed.
  Definition todo (i : inst) (f : fs) : list item :=
    match i_check i with Some d => match f d with None => items i | Some _ => i_links i end | None => i_links i end.
  Lemma inv_begin f i next live : inv f (i :: next) live -> inv f next (todo i f :: live).
  Proof.
    intros [V1 (st & Hs & V2 & V3) V4]. assert (Hii : In i insts) by (rewrite Hs; apply in_app_iff; right; now left).
    constructor.
    - intros q x Hr Hq. destruct (V1 q x Hr Hq) as [H|(b & b' & E & H)]; [auto|]. right. exists b, b'. split; [auto|]. cbn. apply in_app_iff. auto.
    - exists (st ++ [i]). split; [rewrite <- app_assoc; exact Hs|]. split.
      + intros i' Hi' t Ht. apply in_app_iff in Hi'. destruct Hi' as [Hi'|[<-|[]]].
        * destruct (V2 i' Hi' t Ht) as [H|[e H]]; [auto|]. right. exists e. cbn. apply in_app_iff. auto.
        * unfold items in Ht. apply in_app_iff in Ht. unfold todo. destruct (i_check i) as [d|] eqn:Ec.
          -- destruct (f d) as [x|] eqn:Ed.
             ++ destruct Ht as [Ht|Ht]; [left; eapply V4; eauto; [now left | congruence] | right; exists (snd t); cbn; apply in_app_iff; left; destruct t; auto].
             ++ right. exists (snd t). cbn. apply in_app_iff. left. unfold items. apply in_app_iff. destruct t; auto.
          -- rewrite (H_nocheck i Hii Ec) in Ht. destruct Ht as [[]|Ht]. right. exists (snd t). cbn. apply in_app_iff. left. destruct t; auto.
      + intros t H. cbn in H. apply in_app_iff in H. destruct H as [H|H].
        * exists i. split; [apply in_app_iff; right; now left|]. unfold todo in H. unfold items. apply in_app_iff.
          destruct (i_check i) as [d|]; [destruct (f d); [auto|]|auto]. unfold items in H. apply in_app_iff in H. tauto.
        * destruct (V3 _ H) as (i' & Hi' & Ht'). exists i'. split; [apply in_app_iff; auto | auto].
    - intros i' d Hi'. apply V4. now right.
  Qed.
  (** the result is exact *)
  Lemma inv_done f live : inv f [] live -> Forall (fun l => l = []) live -> forall q e, rel q -> (f q = Some e <-> wanted q e).
  Proof.
    intros [V1 (st & Hs & V2 & _) _] Hl. assert (El : concat live = []) by (clear -Hl; induction Hl as [|l live -> _ IH]; auto).
    rewrite El in *. rewrite app_nil_r in Hs. subst st.
    assert (C : forall i, In i insts -> forall t, In t (items i) -> complete t f) by (intros i Hi t Ht; destruct (V2 i Hi t Ht) as [H|[e []]]; exact H).
    intros q e Hr. split.
    - intros H. destruct (V1 q e Hr H) as [Hw|(b & b' & _ & [])]. exact Hw.
    - intros [(i & Hi & Ht)|(-> & i & p & e' & Hi & Ht & Ha)].
      + apply (C i Hi (q, e) Ht).
      + apply (C i Hi (p, e') Ht). exact Ha.
  Qed.

  (** ** the whole apply *)
  (** what pruning leaves behind is right: it is all wanted, and complete for the packages that will not be extracted *)
  Definition kept (q : path) : Prop := ~ condemned q.
  Record trusted (f : fs) : Prop := {
    t_sound : forall q e, rel q -> kept q -> f q = Some e -> wanted q e;
    t_full : forall i d, In i insts -> i_check i = Some d -> kept d -> forall t, In t (i_main i) -> complete t f }.
  (** a package that survives pruning survives entirely *)
  Hypothesis H_whole : forall i d, In i insts -> i_check i = Some d -> kept d -> forall t, In t (i_main i) -> kept (fst t).
  Hypothesis H_links : forall i t, In i insts -> In t (i_links i) -> forall b, snd t <> EFile b.
  Hypothesis H_dec : forall q, condemned q \/ ~ condemned q.

  Lemma kept_prefix p q : kept q -> prefix p q -> kept p.
  Proof. intros H Hp (d & H1 & H2). apply H. exists d. split; [auto | eapply prefix_trans; eauto]. Qed.
  Lemma trusted_pruned f f' : trusted f -> (forall q, kept q -> f' q = f q) -> trusted f'.
  Proof.
    intros [H1 H2] E. constructor.
    - intros q e Hr Hk. rewrite E by auto. auto.
    - intros i d Hi Hc Hk t Ht. pose proof (H_whole i d Hi Hc Hk t Ht) as Hkt. destruct (H2 i d Hi Hc Hk t Ht) as [A B]. split.
      + now rewrite E.
      + intros q Hq. rewrite E; [now apply B|]. eapply kept_prefix; [exact Hkt|]. apply Hq.
  Qed.
  Lemma trusted_start f : trusted f -> (forall q, condemned q -> f q = None) -> good_start f.
  Proof.
    intros [H1 H2] Hc. constructor.
    - intros q e Hr Hq. apply H1; auto. intros C. rewrite (Hc _ C) in Hq. discriminate.
    - intros i d Hi Hch Hd t Ht. eapply H2; eauto. intros C. apply Hd. auto.
  Qed.

  (** every reachable world: the kept part is trusted again, so that pruning anew makes a good start *)
  Record winv (w : world) : Prop := {
    wi_trusted : trusted (w_fs w);
    wi_ext : forall next live, w_phase w = Extracting next live -> inv (w_fs w) next live
       /\ (forall t, In t (concat live) -> condemned (fst t) \/ forall b, snd t <> EFile b);
    wi_done : w_phase w = Done -> w_meta w = Some final_meta /\ forall q e, rel q -> (w_fs w q = Some e <-> wanted q e) }.

  Lemma trusted_put f p e : trusted f -> put_ok p e f -> (exists i, In i insts /\ In (p, e) (items i)) -> (condemned p \/ forall b, e <> EFile b) -> trusted (put p e f).
  Proof.
    intros [T1 T2] Hok (i & Hi & Ht) Hc. pose proof (want_item i (p, e) Hi Ht) as Hw. cbn in Hw. constructor.
    - intros q x Hr Hk Hq. destruct (path_eq_dec q p) as [->|Hn].
      + destruct Hc as [Hc|Hnf]; [contradiction|]. unfold put in Hq. destruct (path_eq_dec p p); [|congruence].
        destruct e as [|b|l]; [|destruct (Hnf b eq_refl)|]; (destruct (f p) as [y|] eqn:E; injection Hq as <-; [apply T1; auto | exact Hw]).
      + apply put_other in Hq; [|auto]. destruct Hq as [Hq|[Ha ->]]; [auto|]. eapply (want_above i (p, e)); eauto.
    - intros i' d Hi' Hc' Hk t Ht'. pose proof (T2 i' d Hi' Hc' Hk t Ht') as Hco. destruct (path_eq_dec (fst t) p) as [E|E].
      + destruct Hc as [Hcon|Hnf].
        * exfalso. apply (H_whole i' d Hi' Hc' Hk t Ht'). now rewrite E.
        * destruct Hco as [A B]. split.
          -- unfold put. destruct (path_eq_dec (fst t) p); [|contradiction]. rewrite A. destruct e as [|b|l]; auto. destruct (Hnf b eq_refl).
          -- intros q Hq. unfold put. destruct (path_eq_dec q p) as [->|]; [rewrite E in Hq; destruct Hq as (_ & Hq & _); congruence|].
             rewrite (B q Hq). now destruct (aboveb q p).
      + now apply complete_put.
  Qed.
  Lemma trusted_torn f p b b' : trusted f -> put_ok p (EFile b) f -> (exists i, In i insts /\ In (p, EFile b) (items i)) -> condemned p -> trusted (put p (EFile b') f).
  Proof.
    intros [T1 T2] Hok (i & Hi & Ht) Hc. assert (Hok' : put_ok p (EFile b') f) by (destruct Hok; split; auto). constructor.
    - intros q x Hr Hk Hq. destruct (path_eq_dec q p) as [->|Hn]; [contradiction|].
      apply put_other in Hq; [|auto]. destruct Hq as [Hq|[Ha ->]]; [auto|]. eapply (want_above i (p, EFile b)); eauto.
    - intros i' d Hi' Hc' Hk t Ht'. apply complete_put; [|auto|eapply T2; eauto].
      intros E. apply (H_whole i' d Hi' Hc' Hk t Ht'). now rewrite E.
  Qed.

  Lemma winv_step w w' : winv w -> wstep w w' -> winv w'.
  Proof.
    intros [T X D] S. destruct S as [f m p Hc Hp Hl|f m Hw|f m Hc Hm|f m i next live|f m next l1 l2 p e rest Hok|f m next l1 l2 p b rest b' Hok|f m m' live Hl|f m live Hl];
      cbn [w_fs w_meta w_phase] in *.
    - constructor; cbn [w_fs w_meta w_phase]; [|discriminate|discriminate]. apply (trusted_pruned f); [auto|]. intros q Hq.
      destruct (path_eq_dec q p) as [->|]; [contradiction|auto].
    - constructor; cbn [w_fs w_meta w_phase]; [auto|discriminate|discriminate].
    - constructor; cbn [w_fs w_meta w_phase]; [auto| |discriminate]. intros next live E. injection E as <- <-. split; [|intros t []].
      apply inv_start, trusted_start; auto.
    - destruct (X _ _ eq_refl) as [I L]. pose proof (inv_begin _ _ _ _ I) as I'. constructor; cbn [w_fs w_meta w_phase]; [auto| |discriminate].
      intros next' live' E. injection E as <- <-. split; [exact I'|]. intros t Ht. cbn in Ht. apply in_app_iff in Ht. destruct Ht as [Ht|Ht]; [|auto].
      assert (Hi : In i insts) by (destruct I as [_ (st & -> & _) _]; apply in_app_iff; right; now left).
      assert (Hlk : In t (i_links i) -> condemned (fst t) \/ forall b, snd t <> EFile b) by (intros H; right; eapply H_links; eauto).
      destruct (i_check i) as [d|] eqn:Ec; [|auto]. destruct (f d) as [x|] eqn:Ed; [auto|].
      unfold items in Ht. apply in_app_iff in Ht. destruct Ht as [Ht|Ht]; [|auto]. left.
      destruct (H_dec (fst t)) as [H|H]; [auto|]. exfalso.
      assert (Hkd : kept d) by (eapply kept_prefix; [exact H | eapply H_main; eauto]).
      destruct T as [_ T2]. pose proof (T2 i d Hi Ec Hkd t Ht) as [A B]. pose proof (H_main i d Hi Ec t Ht) as Hpre.
      destruct (path_eq_dec d (fst t)) as [->|Hn]; [congruence|]. destruct d as [|s d].
      + (* the project root is never a package directory to check *) exfalso. eapply (H_ne i); eauto.
      + rewrite (B (s :: d)) in Ed; [discriminate|]. split; [auto|]. split; [auto|discriminate].
    - destruct (X _ _ eq_refl) as [I L].
      assert (Hin : In (p, e) (concat (l1 ++ ((p, e) :: rest) :: l2))) by (apply in_concat_mid; right; left; now left).
      assert (Hex : exists i, In i insts /\ In (p, e) (items i)).
      { destruct I as [_ (st & Hs & _ & V3) _]. destruct (V3 _ Hin) as (i & H1 & H2). exists i. split; [rewrite Hs; apply in_app_iff; auto | auto]. }
      constructor; cbn [w_fs w_meta w_phase]; [|intros next' live' E; injection E as <- <-|discriminate].
      + apply trusted_put; auto. exact (L _ Hin).
      + split; [now apply inv_put with (p := p) (e := e)|]. intros t Ht. apply L. apply in_concat_mid in Ht. apply in_concat_mid. cbn. tauto.
    - destruct (X _ _ eq_refl) as [I L].
      assert (Hin : In (p, EFile b) (concat (l1 ++ ((p, EFile b) :: rest) :: l2))) by (apply in_concat_mid; right; left; now left).
      assert (Hex : exists i, In i insts /\ In (p, EFile b) (items i)).
      { destruct I as [_ (st & Hs & _ & V3) _]. destruct (V3 _ Hin) as (i & H1 & H2). exists i. split; [rewrite Hs; apply in_app_iff; auto | auto]. }
      constructor; cbn [w_fs w_meta w_phase]; [|intros next' live' E; injection E as <- <-|discriminate].
      + eapply trusted_torn; eauto. destruct (L _ Hin) as [H|H]; [exact H | destruct (H b eq_refl)].
      + split; [now apply inv_torn with (b := b)|exact L].
    - destruct (X _ _ eq_refl) as [I L]. constructor; cbn [w_fs w_meta w_phase]; [auto| |discriminate]. intros next' live' E. injection E as <- <-. auto.
    - destruct (X _ _ eq_refl) as [I L]. constructor; cbn [w_fs w_meta w_phase]; [auto|discriminate|]. intros _. split; [auto|].
      now apply inv_done with (live := live).
  Qed.
  Lemma winv_steps w w' : winv w -> wsteps w w' -> winv w'.
  Proof. intros I. induction 1; [auto|]. eapply winv_step; eauto. Qed.
  Lemma winv_init f m : trusted f -> winv (mkW f m Pruning).
  Proof. intros T. constructor; cbn [w_fs w_meta w_phase]; [auto|discriminate|discriminate]. Qed.
  (** an exact tree is trusted whatever is pruned *)
  Lemma exact_trusted f : (forall q e, rel q -> (f q = Some e <-> wanted q e)) -> trusted f.
  Proof.
    intros H. constructor.
    - intros q e Hr _ Hq. now apply H.
    - intros i d Hi Hc Hk t Ht. assert (Ht' : In t (items i)) by (unfold items; apply in_app_iff; auto). split.
      + apply H; [eapply H_rel, want_item; eauto | eapply want_item; eauto].
      + intros q Hq. apply H; [eapply H_rel, want_above; eauto | eapply want_above; eauto].
  Qed.
  (** nothing outside the condemned and wanted paths ever changes *)
  Lemma frame_step w w' : winv w -> wstep w w' -> forall q, ~ condemned q -> (forall e, ~ wanted q e) -> w_fs w' q = w_fs w q.
  Proof.
    intros [T X D] S q Hc Hw. destruct S as [f m p Hc' Hp Hl|f m Hw'|f m Hc' Hm|f m i next live|f m next l1 l2 p e rest Hok|f m next l1 l2 p b rest b' Hok|f m m' live Hl|f m live Hl];
      cbn [w_fs w_meta w_phase] in *; auto.
    - destruct (path_eq_dec q p) as [->|]; [contradiction|auto].
    - destruct (X _ _ eq_refl) as [[_ (st & Hs & _ & V3) _] _].
      destruct (V3 (p, e)) as (i & H1 & H2); [apply in_concat_mid; right; left; now left|].
      assert (Hi : In i insts) by (rewrite Hs; apply in_app_iff; auto). apply put_same.
      + intros ->. eapply Hw. apply (want_item i (p, e) Hi H2).
      + intros Ha. eapply Hw. apply (want_above i (p, e) q Hi H2 Ha).
    - destruct (X _ _ eq_refl) as [[_ (st & Hs & _ & V3) _] _].
      destruct (V3 (p, EFile b)) as (i & H1 & H2); [apply in_concat_mid; right; left; now left|].
      assert (Hi : In i insts) by (rewrite Hs; apply in_app_iff; auto). apply put_same.
      + intros ->. eapply Hw. apply (want_item i (p, EFile b) Hi H2).
      + intros Ha. eapply Hw. apply (want_above i (p, EFile b) q Hi H2 Ha).
  Qed.
  Lemma frame_steps w w' : winv w -> wsteps w w' -> forall q, ~ condemned q -> (forall e, ~ wanted q e) -> w_fs w' q = w_fs w q.
  Proof.
    intros I S q Hc Hw. induction S as [|w1 w2 S IH Hs]; [auto|]. rewrite <- IH. eapply frame_step; eauto. eapply winv_steps; eauto.
  Qed.
  (** a crash: the metadata is still the old one, or wiped, or the tree is already exact *)
  Definition exact (f : fs) : Prop := forall q e, rel q -> (f q = Some e <-> wanted q e).
  Lemma crash_cases f m w : trusted f -> wsteps (mkW f m Pruning) w ->
    w_meta w = m \/ (wipe = true /\ w_meta w = None) \/ exact (w_fs w).
  Proof.
    intros T S. pose proof (winv_init f m T) as I0.
    assert (G : (w_meta w = m \/ (wipe = true /\ w_meta w = None))
                \/ (exact (w_fs w) /\ (w_phase w = Done \/ exists live, w_phase w = Extracting [] live /\ Forall (fun l => l = []) live))); [|tauto].
    induction S as [|w1 w2 S IH Hs]; [left; left; reflexivity|]. pose proof (winv_steps _ _ I0 S) as [T1 X1 D1].
    destruct Hs as [f1 m1 p Hc Hp Hl|f1 m1 Hw|f1 m1 Hc Hm|f1 m1 i next live|f1 m1 next l1 l2 p e rest Hok|f1 m1 next l1 l2 p b rest b' Hok|f1 m1 m' live Hl|f1 m1 live Hl];
      cbn [w_fs w_meta w_phase] in *.
    - destruct IH as [IH|[_ [IH|(l & IH & _)]]]; [auto|discriminate|discriminate].
    - auto.
    - destruct IH as [IH|[_ [IH|(l & IH & _)]]]; [auto|discriminate|discriminate].
    - destruct IH as [IH|[_ [IH|(l & IH & _)]]]; [auto|discriminate|discriminate].
    - destruct IH as [IH|[_ [IH|(l & IH & Hl)]]]; [auto|discriminate|]. exfalso. injection IH as -> <-.
      apply Forall_app in Hl. destruct Hl as [_ Hl]. inversion Hl. discriminate.
    - destruct IH as [IH|[_ [IH|(l & IH & Hl)]]]; [auto|discriminate|]. exfalso. injection IH as -> <-.
      apply Forall_app in Hl. destruct Hl as [_ Hl]. inversion Hl. discriminate.
    - right. destruct (X1 _ _ eq_refl) as [I _]. split; [exact (inv_done _ _ I Hl)|]. right. eauto.
    - right. destruct (X1 _ _ eq_refl) as [I _]. split; [exact (inv_done _ _ I Hl) | auto].
  Qed.
  (** what pruning does *)
  Lemma prune_steps f m w : wsteps (mkW f m Pruning) w -> w_phase w = Pruning ->
    (forall q, ~ condemned q -> w_fs w q = f q) /\ (forall q, w_fs w q = None \/ w_fs w q = f q) /\ (w_meta w = m \/ wipe = true /\ w_meta w = None).
  Proof.
    intros S. remember (mkW f m Pruning) as w0. induction S as [|w1 w2 S IH Hs]; intros Hph; [subst; cbn; auto|].
    destruct Hs; cbn [w_fs w_meta w_phase] in *; try discriminate.
    - destruct (IH eq_refl) as (A & B & C). split; [|split; [|exact C]].
      + intros q Hq. destruct (path_eq_dec q p) as [->|]; [contradiction|auto].
      + intros q. destruct (path_eq_dec q p) as [->|]; [auto | apply B].
    - destruct (IH eq_refl) as (A & B & C). auto.
  Qed.
  (** an extraction never gets stuck on something in its way *)
  Lemma no_obstacle w next live l1 l2 p e rest : winv w -> w_phase w = Extracting next live -> live = l1 ++ ((p, e) :: rest) :: l2 -> put_ok p e (w_fs w).
  Proof.
    intros [T X D] E ->. destruct (X _ _ E) as [I _]. eapply inv_put_ok; [exact I|]. apply in_concat_mid. right. left. now left.
  Qed.
  (** right after pruning *)
  Lemma pruned_steps f m w : insts <> [] -> wsteps (mkW f m Pruning) w -> w_phase w = Extracting insts [] ->
    (forall q, ~ condemned q -> w_fs w q = f q) /\ (forall q, condemned q -> w_fs w q = None).
  Proof.
    intros Hne S Hph.
    assert (G : forall next live, w_phase w = Extracting next live -> length next <= length insts /\
      (length next = length insts -> live = [] /\ (forall q, ~ condemned q -> w_fs w q = f q) /\ (forall q, condemned q -> w_fs w q = None))).
    { clear Hph. induction S as [|w1 w2 S IH Hs]; [discriminate|].
      destruct Hs as [f1 m1 p Hc Hp Hl|f1 m1 Hw|f1 m1 Hc Hm|f1 m1 i next live|f1 m1 next l1 l2 p e rest Hok|f1 m1 next l1 l2 p b rest b' Hok|f1 m1 m' live Hl|f1 m1 live Hl];
        cbn [w_fs w_meta w_phase] in *; intros next' live' E; try discriminate; injection E as <- <-.
      - split; [auto|]. intros _. split; [auto|]. split; [|auto]. apply (prune_steps _ _ _ S eq_refl).
      - destruct (IH _ _ eq_refl) as [H _]. cbn in H. split; [lia|]. lia.
      - destruct (IH _ _ eq_refl) as [H1 H2]. split; [auto|]. intros E. destruct (H2 E) as [H _]. destruct l1; discriminate.
      - destruct (IH _ _ eq_refl) as [H1 H2]. split; [auto|]. intros E. destruct (H2 E) as [H _]. destruct l1; discriminate.
      - split; [cbn; lia|]. cbn. destruct insts; [congruence|discriminate]. }
    destruct (G _ _ Hph) as [_ H]. destruct (H eq_refl) as (_ & H1 & H2). auto.
  Qed.
  Lemma wsteps_trans w w1 w2 : wsteps w w1 -> wsteps w1 w2 -> wsteps w w2.
  Proof. intros H. induction 1; [auto|]. econstructor; eauto. Qed.
  Lemma all_empty (live : list (list item)) : Forall (fun l => l = []) live \/ ~ Forall (fun l => l = []) live.
  Proof.
    induction live as [|l live IH]; [left; constructor|]. destruct l; [|right; intros H; inversion H; discriminate].
    destruct IH as [H|H]; [left; now constructor | right; intros H'; inversion H'; contradiction].
  Qed.
  (** extraction can always be completed *)
  Lemma can_finish n : forall w next live, winv w -> w_phase w = Extracting next live -> length next + length (concat live) + length (concat (map items next)) <= n ->
    exists w', wsteps w w' /\ w_phase w' = Done.
  Proof.
    induction n as [n IH] using lt_wf_ind. intros [f m ph] next live I E Hn. cbn in E. subst ph. destruct next as [|i next].
    - destruct (all_empty live) as [Hl|Hl].
      + eexists. split; [eapply ws_step; [apply ws_refl|]; now apply s_done | reflexivity].
      + assert (exists l1 p e rest l2, live = l1 ++ ((p, e) :: rest) :: l2) as (l1 & p & e & rest & l2 & ->).
        { clear -Hl. induction live as [|l live IH]; [destruct Hl; constructor|]. destruct l as [|[p e] rest].
          - destruct IH as (l1 & p & e & rest & l2 & ->); [intros H; apply Hl; now constructor|]. exists ([] :: l1), p, e, rest, l2. reflexivity.
          - exists [], p, e, rest, live. reflexivity. }
        pose proof (no_obstacle _ _ _ _ _ _ _ _ I eq_refl eq_refl) as Hok. cbn [w_fs] in Hok.
        assert (S : wstep (mkW f m (Extracting [] (l1 ++ ((p, e) :: rest) :: l2))) (mkW (put p e f) m (Extracting [] (l1 ++ rest :: l2)))) by now constructor.
        destruct (IH (n - 1)) with (w := mkW (put p e f) m (Extracting [] (l1 ++ rest :: l2))) (next := @nil inst) (live := l1 ++ rest :: l2) as (w' & H1 & H2); auto.
        * cbn in Hn. rewrite concat_app, app_length in Hn. cbn in Hn. lia.
        * eapply winv_step; eauto.
        * cbn in *. rewrite concat_app, app_length in *. cbn in *. rewrite app_length in *. lia.
        * exists w'. split; [|auto]. eapply wsteps_trans; [|exact H1]. eapply ws_step; [apply ws_refl | exact S].
    - pose proof (s_start f m i next live) as S.
      match type of S with wstep _ ?w1 => destruct (IH (n - 1)) with (w := w1) (next := next)
        (live := (match i_check i with Some d => match f d with None => items i | Some _ => i_links i end | None => i_links i end) :: live) as (w' & H1 & H2); auto end.
      + cbn in Hn. lia.
      + eapply winv_step; eauto.
      + cbn in *. rewrite app_length in *. 
        assert (length (match i_check i with Some d => match f d with None => items i | Some _ => i_links i end | None => i_links i end) <= length (items i)).
        { unfold items. rewrite app_length. destruct (i_check i) as [d|]; [destruct (f d)|]; try lia. rewrite app_length. lia. }
        lia.
      + exists w'. split; [|auto]. eapply wsteps_trans; [|exact H1]. eapply ws_step; [apply ws_refl | exact S].
  Qed.
  (** and so can pruning, when there are finitely many files *)
  Lemma can_prune n : forall f m l, trusted f -> (forall p, f p <> None -> In p l) -> length l <= n -> exists w', wsteps (mkW f m Pruning) w' /\ w_phase w' = Extracting insts [].
  Proof.
    induction n as [n IH] using lt_wf_ind. intros f m l T Hl Hn.
    assert (D : (forall q, In q l -> condemned q -> f q = None) \/ exists q, In q l /\ condemned q /\ f q <> None /\ forall q', condemned q' -> f q' <> None -> length q' <= length q).
    { assert (G : forall l', (forall q, In q l' -> In q l) -> (forall q, In q l' -> condemned q -> f q = None)
        \/ exists q, In q l /\ condemned q /\ f q <> None /\ forall q', In q' l' -> condemned q' -> f q' <> None -> length q' <= length q).
      { induction l' as [|a l' IHl]; intros Hin; [left; intros q []|].
        destruct IHl as [H|(q & H1 & H2 & H3 & H4)]; [intros q Hq; apply Hin; now right| |].
        - destruct (H_dec a) as [Ha|Ha]; [destruct (f a) as [x|] eqn:Ef|].
          + right. exists a. split; [apply Hin; now left|]. split; [auto|]. split; [congruence|]. intros q' [<-|Hq'] Hc Hf; [auto|]. destruct (Hf (H q' Hq' Hc)).
          + left. intros q [<-|Hq] Hc; [auto | now apply H].
          + left. intros q [<-|Hq] Hc; [contradiction | now apply H].
        - right. destruct (H_dec a) as [Ha|Ha]; [destruct (f a) as [x|] eqn:Ef|].
          + destruct (le_lt_dec (length a) (length q)) as [Hle|Hlt].
            * exists q. repeat split; auto. intros q' [<-|Hq'] Hc Hf; auto.
            * exists a. split; [apply Hin; now left|]. split; [auto|]. split; [congruence|]. intros q' [<-|Hq'] Hc Hf; [auto|]. specialize (H4 q' Hq' Hc Hf). lia.
          + exists q. repeat split; auto. intros q' [<-|Hq'] Hc Hf; [congruence | auto].
          + exists q. repeat split; auto. intros q' [<-|Hq'] Hc Hf; [contradiction | auto]. }
      destruct (G l ltac:(auto)) as [H|(q & H1 & H2 & H3 & H4)]; [now left|]. right. exists q. repeat split; auto. }
    destruct D as [H|(q & H1 & H2 & H3 & H4)].
    - assert (Hc : forall q, condemned q -> f q = None).
      { intros q Hq. destruct (f q) as [x|] eqn:E; [|auto]. rewrite <- E. apply H; [apply Hl; congruence | auto]. }
      assert (exists m', wsteps (mkW f m Pruning) (mkW f m' Pruning) /\ (wipe = true -> m' = None)) as (m' & S & Hm).
      { destruct wipe eqn:Ew; [|exists m; split; [constructor|discriminate]]. exists None. split; [|auto]. eapply ws_step; [apply ws_refl|]. constructor. exact Ew. }
      eexists. split; [eapply ws_step; [exact S|]; now apply s_pruned | reflexivity].
    - assert (S : wstep (mkW f m Pruning) (mkW (fun q' => if path_eq_dec q' q then None else f q') m Pruning)).
      { apply s_remove; auto. intros q' [r ->] Hne. destruct (f (q ++ r)) as [x|] eqn:E; [|auto]. exfalso.
        assert (Hc : condemned (q ++ r)) by (destruct H2 as (d & Hd & Hp); exists d; split; [auto | eapply prefix_trans; [exact Hp | apply prefix_app]]).
        specialize (H4 _ Hc ltac:(congruence)). rewrite app_length in H4. destruct r; [rewrite app_nil_r in Hne; congruence | cbn in H4; lia]. }
      destruct (IH (n - 1)) with (f := fun q' => if path_eq_dec q' q then None else f q') (m := m) (l := remove path_eq_dec q l) as (w' & Hw & Hph).
      + destruct l; [destruct H1|]. cbn in Hn. lia.
      + apply (trusted_pruned f); [auto|]. intros q' Hq'. destruct (path_eq_dec q' q) as [->|]; [contradiction|auto].
      + intros p Hp. destruct (path_eq_dec p q) as [->|Hne]; [congruence|]. apply in_in_remove; auto.
      + pose proof (remove_length_lt path_eq_dec l q H1). lia.
      + exists w'. split; [|auto]. eapply wsteps_trans; [|exact Hw]. eapply ws_step; [apply ws_refl | exact S].
  Qed.
  Lemma can_complete f m l : trusted f -> (forall p, f p <> None -> In p l) -> exists w', wsteps (mkW f m Pruning) w' /\ w_phase w' = Done.
  Proof.
    intros T Hl. destruct (can_prune _ f m l T Hl (le_n _)) as (w & S & Hph).
    pose proof (winv_steps _ _ (winv_init f m T) S) as I. destruct (can_finish _ w _ _ I Hph (le_n _)) as (w' & S' & Hd).
    exists w'. split; [eapply wsteps_trans; eauto | auto].
  Qed.
End Machine.
