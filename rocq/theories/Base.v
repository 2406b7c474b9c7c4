(** * Base: results, insertion-ordered maps, small list facts.
    Shared vocabulary of the model; nothing here is specific to orogene. *)
From Coq Require Export Arith Lia Bool Ascii NArith ZArith String List.
Export ListNotations.
Set Implicit Arguments.

(** Rust [Result<T, E>], plus an explicit outcome for a panic. *)
Inductive res (E A : Type) : Type :=
| Ok (a : A)
| Err (e : E)
| Panic.
Arguments Ok {E A} _.
Arguments Err {E A} _.
Arguments Panic {E A}.

Definition rbind {E A B} (r : res E A) (f : A -> res E B) : res E B :=
  match r with Ok a => f a | Err e => Err e | Panic => Panic end.
Notation "'let!' x ':=' e 'in' b" := (rbind e (fun x => b))
  (at level 200, x pattern, e at level 100, b at level 200).

(** [indexmap::IndexMap<K, V>] as an association list with the order of first insertion. *)
Section Map.
  Context {K V : Type} (eqb : K -> K -> bool).
  (* IndexMap::get *)
  Fixpoint aget (k : K) (l : list (K * V)) : option V :=
    match l with
    | [] => None
    | (k', v) :: t => if eqb k k' then Some v else aget k t
    end.
  (* IndexMap::insert: an existing key keeps its position and gets the new value *)
  Fixpoint aput (k : K) (v : V) (l : list (K * V)) : list (K * V) :=
    match l with
    | [] => [(k, v)]
    | (k', v') :: t => if eqb k k' then (k', v) :: t else (k', v') :: aput k v t
    end.
  (* order-preserving removal (IndexMap::shift_remove) *)
  Definition adel (k : K) (l : list (K * V)) : list (K * V) :=
    filter (fun e => negb (eqb k (fst e))) l.
End Map.

Notation sget := (aget String.eqb).
Notation sput := (aput String.eqb).
Notation sdel := (adel String.eqb).

Definition is_some {A} (o : option A) : bool := match o with Some _ => true | None => false end.

Section MapFacts.
  Context {K V : Type} (eqb : K -> K -> bool).
  Hypothesis eqb_spec : forall a b, eqb a b = true <-> a = b.

  Lemma eqb_refl' k : eqb k k = true.
  Proof. apply eqb_spec; reflexivity. Qed.
  Lemma eqb_neq' a b : a <> b -> eqb a b = false.
  Proof. intros H; destruct (eqb a b) eqn:E; [apply eqb_spec in E; contradiction | reflexivity]. Qed.

  Lemma aget_aput_eq k (v : V) l : aget eqb k (aput eqb k v l) = Some v.
  Proof.
    induction l as [|[k' v'] t IH]; cbn; [now rewrite eqb_refl'|].
    destruct (eqb k k') eqn:E; cbn; rewrite E; auto.
  Qed.
  Lemma aget_aput_neq k k' (v : V) l : k <> k' -> aget eqb k (aput eqb k' v l) = aget eqb k l.
  Proof.
    intros Hn; induction l as [|[k2 v2] t IH]; cbn.
    - now rewrite eqb_neq'.
    - destruct (eqb k' k2) eqn:E; cbn.
      + apply eqb_spec in E; subst k2. now rewrite eqb_neq'.
      + destruct (eqb k k2); auto.
  Qed.
  Lemma aget_In k (v : V) l : aget eqb k l = Some v -> In (k, v) l.
  Proof.
    induction l as [|[k' v'] t IH]; cbn; [discriminate|].
    destruct (eqb k k') eqn:E; intros H.
    - apply eqb_spec in E; subst k'. inversion H; auto.
    - auto.
  Qed.
  Lemma aget_None k (l : list (K * V)) : aget eqb k l = None <-> ~ In k (map fst l).
  Proof.
    induction l as [|[k' v'] t IH]; cbn; [tauto|].
    destruct (eqb k k') eqn:E.
    - apply eqb_spec in E; subst k'. split; [discriminate | intros H; exfalso; apply H; auto].
    - rewrite IH. assert (k' <> k) by (intros ->; rewrite eqb_refl' in E; discriminate). tauto.
  Qed.
  Lemma In_aget k (v : V) l : NoDup (map fst l) -> In (k, v) l -> aget eqb k l = Some v.
  Proof.
    induction l as [|[k' v'] t IH]; cbn; [contradiction|].
    intros Hnd Hin. inversion Hnd as [|? ? Hni Hnd']; subst.
    destruct Hin as [Heq | Hin].
    - inversion Heq; subst. now rewrite eqb_refl'.
    - destruct (eqb k k') eqn:E; [|auto].
      apply eqb_spec in E; subst k'. exfalso. apply Hni.
      change k with (fst (k, v)). now apply in_map.
  Qed.
  Lemma aput_keys_NoDup k (v : V) l : NoDup (map fst l) -> NoDup (map fst (aput eqb k v l)).
  Proof.
    induction l as [|[k' v'] t IH]; cbn; intros H.
    - constructor; [easy | constructor].
    - inversion H as [|? ? Hni Hnd]; subst.
      destruct (eqb k k') eqn:E; cbn; [constructor; auto|].
      constructor; [|auto].
      intros Hin. apply Hni.
      assert (Hk : forall l', In k' (map fst (aput eqb k v l')) -> k' = k \/ In k' (map fst l')).
      { induction l' as [|[a b] t' IH']; cbn; [intuition|].
        destruct (eqb k a); cbn; intuition. }
      destruct (Hk _ Hin) as [-> | ?]; [now rewrite eqb_refl' in E | auto].
  Qed.
  Lemma aget_adel_eq k (l : list (K * V)) : aget eqb k (adel eqb k l) = None.
  Proof.
    apply aget_None. unfold adel. rewrite in_map_iff. intros ([k' v] & <- & Hin).
    apply filter_In in Hin. cbn in Hin. rewrite eqb_refl' in Hin. easy.
  Qed.
  Lemma aget_adel_neq k k' (l : list (K * V)) : k <> k' -> aget eqb k (adel eqb k' l) = aget eqb k l.
  Proof.
    intros Hn; unfold adel. induction l as [|[k2 v2] t IH]; cbn; [easy|].
    destruct (eqb k' k2) eqn:E; cbn.
    - apply eqb_spec in E; subst k2. rewrite eqb_neq'; auto.
    - destruct (eqb k k2); auto.
  Qed.
End MapFacts.

Lemma seqb_spec : forall a b : string, String.eqb a b = true <-> a = b.
Proof. intros; apply String.eqb_eq. Qed.

Lemma sget_sput_eq V k (v : V) l : sget k (sput k v l) = Some v.
Proof. apply aget_aput_eq, seqb_spec. Qed.
Lemma sget_sput_neq V k k' (v : V) l : k <> k' -> sget k (sput k' v l) = sget k l.
Proof. apply aget_aput_neq, seqb_spec. Qed.

(** list update *)
Fixpoint lset {A} (l : list A) (i : nat) (x : A) : list A :=
  match l, i with
  | [], _ => []
  | _ :: t, 0 => x :: t
  | a :: t, S i' => a :: lset t i' x
  end.
Lemma lset_length A (l : list A) i x : List.length (lset l i x) = List.length l.
Proof. revert i; induction l as [|a t IH]; destruct i; cbn; auto. Qed.
Lemma nth_lset_eq A (l : list A) i x : i < List.length l -> nth_error (lset l i x) i = Some x.
Proof. revert i; induction l as [|a t IH]; destruct i; cbn; intros H; try lia; auto. apply IH; lia. Qed.
Lemma nth_lset_neq A (l : list A) i j x : i <> j -> nth_error (lset l i x) j = nth_error l j.
Proof. revert i j; induction l as [|a t IH]; destruct i, j; cbn; intros H; try lia; auto. Qed.

Lemma NoDup_app_iff_ A (l1 l2 : list A) : NoDup l1 -> NoDup l2 -> (forall x, In x l1 -> In x l2 -> False) -> NoDup (l1 ++ l2).
Proof.
  induction l1 as [|a t IH]; cbn; intros H1 H2 Hd; [auto|].
  inversion H1 as [|? ? Hni Hnd]; subst. constructor.
  - rewrite in_app_iff. intros [|Hin]; [auto|]. eapply Hd; eauto.
  - apply IH; auto. intros x Hx Hx2. eapply Hd; eauto.
Qed.
