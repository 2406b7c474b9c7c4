(** * What a command can leave on disk *)
From Verif Require Import Base Types StdPath JsonModel JsonSpec JsonProofs CmdModel.
Open Scope list_scope.
Open Scope string_scope.
Set Implicit Arguments.

Section P.
  Variables N T M : Type.
  Variable manifest : string -> option M.
  Variable parse : string -> option json.
  Variable resolves : bool -> M -> disk N -> T -> Prop.
  Variables prunes extracts : T -> N -> N -> Prop.
  Variable rebuilds : bool -> T -> N -> N -> Prop.
  Variable clears : N -> N -> Prop.
  Variable lock_text : T -> res err string.
  Let aargs := apply_args resolves prunes extracts rebuilds lock_text.
  Let acmd := apply_cmd manifest resolves prunes extracts rebuilds lock_text.
  Let recmd := reapply_cmd manifest resolves prunes extracts rebuilds clears lock_text.
  Let aedit := apply_edited manifest resolves prunes extracts rebuilds lock_text.

  (** specification: the tree was installed completely, from files [n] to files [n'] *)
  Definition installed (o : opts) (t : T) (n n' : N) : Prop :=
    if o_lockfile_only o then n' = n else exists n1 n2, prunes t n n1 /\ extracts t n1 n2 /\ rebuilds (o_scripts o) t n2 n'.
  (** what one installation of manifest [m] leaves behind, however it ends *)
  Definition lock_after (o : opts) (m : M) (d d' : disk N) : Prop :=
    d_lock d' = d_lock d \/
    exists t s, o_apply o = true /\ o_lockfile o = true /\ resolves (o_locked o) m d t /\ installed o t (d_rest d) (d_rest d')
      /\ lock_text t = Ok s /\ torn (d_lock d) s (d_lock d').
  Definition finished (o : opts) (m : M) (d d' : disk N) : Prop :=
    if o_apply o then exists t, resolves (o_locked o) m d t /\ installed o t (d_rest d) (d_rest d')
      /\ (if o_lockfile o then exists s, lock_text t = Ok s /\ d_lock d' = Some s else d_lock d' = d_lock d)
    else d_lock d' = d_lock d /\ d_rest d' = d_rest d.

  Lemma bind_inv A B (m : prog N A) (f : A -> prog N B) d o d' : bind m f d o d' ->
    (exists a d1, m d (Fin a) d1 /\ f a d1 o d') \/ (exists e, m d e d' /\ ends e /\ ends o /\ (o = Failed -> e = Failed)).
  Proof.
    intros [H | [[H ->] | [H ->]]]; [now left|right; exists Failed|right; exists Crashed]; unfold ends; repeat split; auto; discriminate.
  Qed.
  Lemma pure_inv A (R : disk N -> A -> Prop) d o d' : pure_ R d o d' -> d' = d /\ forall a, o = Fin a -> R d a.
  Proof. intros (-> & [(a & -> & H) | [-> | ->]]); split; auto; try discriminate. now intros ? [= <-]. Qed.
  Lemma pure_bind A B (R : disk N -> A -> Prop) (f : A -> prog N B) d o d' : bind (pure_ R) f d o d' ->
    (exists a, R d a /\ f a d o d') \/ (d' = d /\ ends o).
  Proof.
    intros H. destruct (bind_inv H) as [(a & d1 & H1 & H2) | (e & H1 & _ & H2 & _)]; destruct (pure_inv H1) as [-> H3]; [left; exists a; auto|right; auto].
  Qed.
  Lemma not_fin A (o : ending A) a : ends o -> o = Fin a -> False.
  Proof. intros [-> | ->]; discriminate. Qed.

  Lemma install_run o t d e d' :
    (if negb (o_lockfile_only o) then do _ <- phase (prunes t); do _ <- phase (extracts t); phase (rebuilds (o_scripts o) t) else ret tt) d e d' ->
    d_json d' = d_json d /\ d_lock d' = d_lock d /\ (e = Fin tt -> installed o t (d_rest d) (d_rest d')).
  Proof.
    unfold installed. destruct (o_lockfile_only o); cbn [negb].
    - intros [-> ->]. auto.
    - intros H. destruct (bind_inv H) as [([] & d1 & (J1 & L1 & H1) & H') | (e1 & (J1 & L1 & H1) & F1 & F2 & _)].
      2:{ repeat split; auto. intros E. destruct (not_fin F2 E). }
      destruct H1 as [[_ H1] | F]; [|destruct (not_fin F eq_refl)].
      destruct (bind_inv H') as [([] & d2 & (J2 & L2 & H2) & H'') | (e2 & (J2 & L2 & H2) & F1 & F2 & _)].
      2:{ repeat split; try congruence. intros E. destruct (not_fin F2 E). }
      destruct H2 as [[_ H2] | F]; [|destruct (not_fin F eq_refl)].
      destruct H'' as (J3 & L3 & H3). repeat split; try congruence. intros ->. destruct H3 as [[_ H3] | F]; [eauto|destruct (not_fin F eq_refl)].
  Qed.
  Lemma apply_run o m d e d' : aargs o m d e d' ->
    d_json d' = d_json d /\ lock_after o m d d' /\ (e = Fin tt -> finished o m d d').
  Proof.
    unfold aargs, apply_args, finished, lock_after. destruct (o_apply o) eqn:Ea; cbn [negb].
    2:{ intros [-> ->]. auto. }
    intros H. destruct (pure_bind H) as [(t & Hr & H1) | [-> F]].
    2:{ split; [auto|]. split; [auto|]. intros E. destruct (not_fin F E). }
    destruct (bind_inv H1) as [([] & d1 & H2 & H3) | (e1 & H2 & F1 & F2 & _)].
    2:{ destruct (install_run _ _ _ _ _ H2) as (J & L & _). split; [auto|]. split; [auto|]. intros E. destruct (not_fin F2 E). }
    destruct (install_run _ _ _ _ _ H2) as (J & L & I). specialize (I eq_refl). destruct (o_lockfile o) eqn:El.
    - unfold write_lockfile in H3. destruct (pure_bind H3) as [(s & Hs & H4) | [-> F]].
      2:{ split; [auto|]. split; [auto|]. intros E. destruct (not_fin F E). }
      destruct H4 as (J1 & R1 & H4). split; [congruence|]. rewrite R1, <- L. split.
      + right. exists t, s. do 5 (split; [assumption || reflexivity|]). destruct H4 as [[_ H4] | [_ H4]]; [|exact H4].
        right. exists s, "". split; [exact H4|]. now rewrite sapp_nil.
      + intros ->. exists t. split; [assumption|]. split; [assumption|]. exists s. split; [assumption|]. destruct H4 as [[_ H4] | [F _]]; [exact H4|destruct (not_fin F eq_refl)].
    - destruct H3 as [-> ->]. split; [auto|]. split; [auto|]. intros _. eauto.
  Qed.
  Lemma apply_cmd_run o d e d' : acmd o d e d' ->
    d_json d' = d_json d /\ (d_lock d' = d_lock d \/ exists s m, d_json d = Some s /\ manifest s = Some m /\ lock_after (with_apply o) m d d')
    /\ (e = Fin tt -> exists s m, d_json d = Some s /\ manifest s = Some m /\ finished (with_apply o) m d d').
  Proof.
    intros H. unfold acmd, apply_cmd in H. destruct (pure_bind H) as [(s & Hs & H1) | [-> F]].
    2:{ repeat split; auto. intros E. destruct (not_fin F E). }
    destruct (pure_bind H1) as [(m & Hm & H2) | [-> F]].
    2:{ repeat split; auto. intros E. destruct (not_fin F E). }
    destruct (apply_run _ _ _ _ _ H2) as (J & L & Q). split; [auto|]. split; [right; eauto|]. intros E. exists s, m. auto.
  Qed.
  Lemma reapply_cmd_run o d e d' : recmd o d e d' ->
    d_json d' = d_json d /\ (d_lock d' = d_lock d \/ exists n s m, clears (d_rest d) n /\ d_json d = Some s /\ manifest s = Some m
        /\ lock_after (with_apply o) m (mkDisk (d_json d) (d_lock d) n) d')
    /\ (e = Fin tt -> exists n s m, clears (d_rest d) n /\ d_json d = Some s /\ manifest s = Some m /\ finished (with_apply o) m (mkDisk (d_json d) (d_lock d) n) d').
  Proof.
    intros H. unfold recmd, reapply_cmd in H. destruct (bind_inv H) as [([] & d0 & (J0 & L0 & H0) & H') | (e0 & (J0 & L0 & _) & F1 & F2 & _)].
    2:{ repeat split; auto. intros E. destruct (not_fin F2 E). }
    destruct H0 as [[_ H0] | F]; [|destruct (not_fin F eq_refl)]. destruct d0 as [j0 l0 n]. cbn [d_json d_lock d_rest] in *. subst j0 l0.
    destruct (pure_bind H') as [(s & Hs & H1) | [-> F]].
    2:{ repeat split; auto. intros E. destruct (not_fin F E). }
    destruct (pure_bind H1) as [(m & Hm & H2) | [-> F]].
    2:{ repeat split; auto. intros E. destruct (not_fin F E). }
    destruct (apply_run _ _ _ _ _ H2) as (J & L & Q). cbn [d_json d_lock] in *. split; [auto|]. split; [right; exists n, s, m; auto|]. intros E. exists n, s, m. auto.
  Qed.
  Lemma edited_run o f d e d' : aedit o f d e d' ->
    (d_lock d' = d_lock d \/ exists m, manifest (to_string_pretty f) = Some m /\ lock_after (unlocked o) m d d')
    /\ (d_json d' = d_json d \/ exists m, manifest (to_string_pretty f) = Some m /\ finished (unlocked o) m d d' /\ torn (d_json d) (to_string_pretty f) (d_json d'))
    /\ (e = Fin tt -> d_json d' = Some (to_string_pretty f) /\ exists m, manifest (to_string_pretty f) = Some m /\ finished (unlocked o) m d d').
  Proof.
    intros H. unfold aedit, apply_edited in H. destruct (pure_bind H) as [(m & Hm & H1) | [-> F]].
    2:{ split; [now left|]. split; [now left|]. intros E. destruct (not_fin F E). }
    destruct (bind_inv H1) as [([] & d1 & H2 & H3) | (e1 & H2 & F1 & F2 & _)].
    2:{ destruct (apply_run _ _ _ _ _ H2) as (J & L & _). split; [right; eauto|]. split; [auto|]. intros E. destruct (not_fin F2 E). }
    destruct (apply_run _ _ _ _ _ H2) as (J & L & Q). specialize (Q eq_refl). destruct H3 as (L1 & R1 & H3).
    assert (Q' : finished (unlocked o) m d d'). { revert Q. unfold finished. now rewrite L1, R1. }
    assert (L' : lock_after (unlocked o) m d d'). { revert L. unfold lock_after. now rewrite L1, R1. }
    split; [right; eauto|]. split.
    - right. exists m. split; [auto|]. split; [auto|]. rewrite <- J. destruct H3 as [[_ H3] | [_ H3]]; [|exact H3]. right. exists (to_string_pretty f), "". now rewrite sapp_nil.
    - intros ->. destruct H3 as [[_ H3] | [F _]]; [|destruct (not_fin F eq_refl)]. split; [auto|]. eauto.
  Qed.
End P.
