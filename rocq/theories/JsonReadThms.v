(** * Whole documents: what is printed is read back, and what is read is well formed *)
From Verif Require Import Base Types StdPath JsonModel JsonSpec JsonProofs JsonPrint JsonRead JsonReadProofs.
From Coq Require Import Lia NArith Permutation.
Set Implicit Arguments.
Open Scope list_scope.
Open Scope string_scope.

Lemma len_app a b : String.length (a ++ b) = String.length a + String.length b.
Proof. induction a; cbn; [reflexivity|]. now rewrite IHa. Qed.
Lemma len_sjoin sep l : list_sum (map String.length l) <= String.length (sjoin sep l).
Proof.
  induction l as [|x l IH]; [cbn; lia|]. cbn [map]. rewrite sum_cons. destruct l as [|y l]; [cbn; lia|]. rewrite sjoin_cons by discriminate. rewrite !len_app. lia.
Qed.
Lemma sum_le A (f g : A -> nat) l : (forall x, In x l -> f x <= g x) -> list_sum (map f l) <= list_sum (map g l).
Proof. induction l as [|x l IH]; [cbn; lia|]. intros H. cbn [map]. rewrite !sum_cons. pose proof (H x (or_introl eq_refl)). specialize (IH (fun y Hy => H y (or_intror Hy))). lia. Qed.
Lemma sum_twice A (f : A -> nat) l : list_sum (map (fun x => 2 * f x) l) = 2 * list_sum (map f l).
Proof. induction l as [|x l IH]; [reflexivity|]. cbn [map]. rewrite !sum_cons, IH. lia. Qed.

Section Docs.
  Variable number : string -> option string.
  Notation jread := (jread number).
  Notation jstable := (jstable number).

  Lemma size_len ind e v : jstable v -> forall n, S (jsize v) <= 2 * String.length (pretty ind e n v).
  Proof.
    induction v as [ | b | s | s | l IH | l IH] using json_ind'; intros J n.
    - cbn. lia.
    - destruct b; cbn; lia.
    - inversion J as [| |? [H _]| | |]; subst. destruct (read_num_text _ H) as (_ & _ & N). destruct s; [easy|]. cbn. lia.
    - cbn. lia.
    - inversion J as [| | | |? F|]; subst. destruct l as [|x l]; [cbn; lia|]. set (L := x :: l) in *.
      change (pretty ind e n (JArr L)) with ("[" ++ e ++ sjoin ("," ++ e) (map (fun x => srepeat ind (S n) ++ pretty ind e (S n) x) L) ++ e ++ srepeat ind n ++ "]").
      rewrite !len_app. pose proof (len_sjoin ("," ++ e) (map (fun x => srepeat ind (S n) ++ pretty ind e (S n) x) L)) as B. rewrite map_map in B.
      assert (C : list_sum (map (fun x => S (jsize x)) L) <= 2 * list_sum (map (fun x => String.length (srepeat ind (S n) ++ pretty ind e (S n) x)) L)).
      { rewrite <- sum_twice. apply sum_le. intros y Hy. rewrite Forall_forall in IH, F. specialize (IH y Hy (F y Hy) (S n)). rewrite len_app. lia. }
      cbn [jsize]. change (String.length "[") with 1. change (String.length "]") with 1. cbn [jsize] in C. lia.
    - inversion J as [| | | | |? F]; subst. destruct l as [|x l]; [cbn; lia|]. set (L := x :: l) in *.
      change (pretty ind e n (JObj L)) with ("{" ++ e ++ sjoin ("," ++ e) (map (fun x => srepeat ind (S n) ++ quote (fst x) ++ ": " ++ pretty ind e (S n) (snd x)) L) ++ e ++ srepeat ind n ++ "}").
      rewrite !len_app. pose proof (len_sjoin ("," ++ e) (map (fun x => srepeat ind (S n) ++ quote (fst x) ++ ": " ++ pretty ind e (S n) (snd x)) L)) as B. rewrite map_map in B.
      assert (C : list_sum (map (fun x => S (jsize (snd x))) L) <= 2 * list_sum (map (fun x => String.length (srepeat ind (S n) ++ quote (fst x) ++ ": " ++ pretty ind e (S n) (snd x))) L)).
      { rewrite <- sum_twice. apply sum_le. intros y Hy. rewrite Forall_forall in IH, F. specialize (IH y Hy (F y Hy) (S n)). rewrite !len_app. lia. }
      cbn [jsize]. change (String.length "{") with 1. change (String.length "}") with 1. lia.
  Qed.
  Theorem read_layout ind e tr v : sall ws ind = true -> sall ws e = true -> jwf v -> jstable v -> jdepth v <= 127 ->
    jread (layout ind e tr v) = Some v.
  Proof.
    intros Hi He W J D. rewrite layout_pretty. unfold JsonRead.jread. set (rest := if tr then e else "").
    assert (Hr : sall ws rest = true) by (subst rest; destruct tr; [exact He | reflexivity]).
    assert (Z : S (jsize v) <= 2 * String.length (pretty ind e 0 v ++ rest)). { pose proof (@size_len ind e v J 0). rewrite len_app. lia. }
    pose proof (@pretty_back number ind e Hi He v W J (S (2 * String.length (pretty ind e 0 v ++ rest))) 127 0 rest ltac:(lia) D (stops_ws _ Hr) "" eq_refl) as P. cbn [append] in P.
    rewrite P. rewrite <- (sapp_nil rest), skip_ws by exact Hr. reflexivity.
  Qed.

  (** what is read *)
  Hypothesis Hnum : forall s t, number s = Some t -> stable_num number t.
  Definition good (d : nat) (v : json) : Prop := jwf v /\ jstable v /\ jdepth v <= d.
  Lemma max_le l d : (forall x, In x l -> x <= d) -> list_max l <= d.
  Proof. induction l as [|a l IH]; [cbn; lia|]. intros H. change (list_max (a :: l)) with (Nat.max a (list_max l)). pose proof (H a (or_introl eq_refl)). specialize (IH (fun y Hy => H y (or_intror Hy))). lia. Qed.
  Lemma good_arr d l : Forall (good d) l -> good (S d) (JArr l).
  Proof.
    intros F. rewrite Forall_forall in F. split; [constructor; rewrite Forall_forall; intros x Hx; now destruct (F x Hx)|]. split; [constructor; rewrite Forall_forall; intros x Hx; now destruct (F x Hx)|].
    cbn [jdepth]. apply le_n_S, max_le. intros x Hx. apply in_map_iff in Hx. destruct Hx as (y & <- & Hy). now destruct (F y Hy) as (_ & _ & ?).
  Qed.
  Lemma good_obj d l : NoDup (map fst l) -> Forall (fun x => good d (snd x)) l -> good (S d) (JObj l).
  Proof.
    intros N F. rewrite Forall_forall in F. split; [constructor; [exact N|]; rewrite Forall_forall; intros x Hx; now destruct (F x Hx)|]. split; [constructor; rewrite Forall_forall; intros x Hx; now destruct (F x Hx)|].
    cbn [jdepth]. apply le_n_S, max_le. intros x Hx. apply in_map_iff in Hx. destruct Hx as (y & <- & Hy). now destruct (F y Hy) as (_ & _ & ?).
  Qed.
  Lemma sput_nodup V k (v : V) l : NoDup (map fst l) -> NoDup (map fst (sput k v l)).
  Proof.
    intros H. destruct (in_dec string_dec k (map fst l)) as [I|N].
    - replace (map fst (sput k v l)) with (map fst l); [exact H|]. clear H. induction l as [|[k' w] l IH]; [easy|]. cbn. destruct (String.eqb_spec k k') as [->|Ne]; [reflexivity|]. cbn. f_equal. apply IH. destruct I as [E|I]; [cbn in E; congruence | exact I].
    - rewrite sput_fresh by exact N. rewrite map_app. cbn. apply NoDup_rev in H. rewrite <- (rev_involutive (map fst l ++ [k])), rev_app_distr. apply NoDup_rev. cbn. constructor; [now rewrite <- in_rev | exact H].
  Qed.
  Lemma sput_forall V (P : string * V -> Prop) k v l : P (k, v) -> Forall P l -> Forall P (sput k v l).
  Proof.
    intros Hp F. induction F as [|[k' w] l Hx F IH]; cbn; [constructor; [exact Hp | constructor]|]. destruct (String.eqb_spec k k') as [->|Ne]; constructor; auto.
  Qed.
  Lemma read_good k :
    (forall d s v r, rv number k d s = Some (v, r) -> good d v)
    /\ (forall d acc s v r, Forall (good d) acc -> ra number k d acc s = Some (v, r) -> good (S d) v)
    /\ (forall d acc s v r, NoDup (map fst acc) -> Forall (fun x => good d (snd x)) acc -> ro number k d acc s = Some (v, r) -> good (S d) v).
  Proof.
    induction k as [|k (IHv & IHa & IHo)]; [split; [|split]; intros; discriminate|]. split; [|split].
    - intros d s v r E. rewrite rv_S in E. destruct (skip s) as [|c t]; [discriminate|].
      destruct (Ascii.eqb c "n"); [destruct (drop_prefix _ _); [injection E as <- <-; split; [constructor | split; [constructor | cbn; lia]] | discriminate]|].
      destruct (Ascii.eqb c "t"); [destruct (drop_prefix _ _); [injection E as <- <-; split; [constructor | split; [constructor | cbn; lia]] | discriminate]|].
      destruct (Ascii.eqb c "f"); [destruct (drop_prefix _ _); [injection E as <- <-; split; [constructor | split; [constructor | cbn; lia]] | discriminate]|].
      destruct (Ascii.eqb c dq); [destruct (read_str t) as [[x u]|]; [injection E as <- <-; split; [constructor | split; [constructor | cbn; lia]] | discriminate]|].
      destruct (Ascii.eqb c "["); [|destruct (Ascii.eqb c "{")].
      + destruct d as [|d]; [discriminate|]. destruct (skip t) as [|c' t']; [discriminate|]. destruct (Ascii.eqb c' "]").
        * injection E as <- <-. apply good_arr. constructor.
        * refine (IHa d [] t v r _ E); constructor.
      + destruct d as [|d]; [discriminate|]. destruct (skip t) as [|c' t']; [discriminate|]. destruct (Ascii.eqb c' "}").
        * injection E as <- <-. apply good_obj; constructor.
        * refine (IHo d [] t v r _ _ E); constructor.
      + destruct (read_num _) as [[x u]|]; [|discriminate]. destruct (number x) as [y|] eqn:Ny; [|discriminate]. injection E as <- <-.
        split; [constructor|]. split; [constructor; eapply Hnum; exact Ny | cbn; lia].
    - intros d acc s v r F E. rewrite ra_S in E. destruct (rv number k d s) as [[x u]|] eqn:Ev; [|discriminate]. assert (F' : Forall (good d) (acc ++ [x])) by (apply Forall_app; split; [exact F | constructor; [eapply IHv; exact Ev | constructor]]).
      destruct (skip u) as [|c t]; [discriminate|]. destruct (Ascii.eqb c ","); [eapply IHa; [exact F' | exact E]|]. destruct (Ascii.eqb c "]"); [|discriminate]. injection E as <- <-. now apply good_arr.
    - intros d acc s v r N F E. rewrite ro_S in E. destruct (skip s) as [|q t]; [discriminate|]. destruct (Ascii.eqb q dq); [|discriminate]. destruct (read_str t) as [[key u]|]; [|discriminate].
      destruct (skip u) as [|c t1]; [discriminate|]. destruct (Ascii.eqb c ":"); [|discriminate]. destruct (rv number k d t1) as [[x w]|] eqn:Ev; [|discriminate].
      assert (N' : NoDup (map fst (sput key x acc))) by (now apply sput_nodup). assert (F' : Forall (fun z => good d (snd z)) (sput key x acc)) by (apply sput_forall; [eapply IHv; exact Ev | exact F]).
      destruct (skip w) as [|c' t2]; [discriminate|]. destruct (Ascii.eqb c' ","); [eapply IHo; [exact N' | exact F' | exact E]|]. destruct (Ascii.eqb c' "}"); [|discriminate]. injection E as <- <-. now apply good_obj.
  Qed.
  Lemma jread_good s v : jread s = Some v -> good 127 v.
  Proof.
    unfold JsonRead.jread. destruct (rv number _ 127 s) as [[x r]|] eqn:E; [|discriminate]. destruct (String.eqb (skip r) ""); [|discriminate]. intros [= <-]. exact (proj1 (read_good _) _ _ _ _ E).
  Qed.

  (** the style found in any document is made of white space *)
  Lemma lead_ws_ws s : forall n l c m, match l with Some x => ws x = true | None => True end -> lead_ws n l s = Some (c, m) -> ws c = true.
  Proof.
    induction s as [|a s IH]; intros n l c m Hl E; cbn in E; [discriminate|]. destruct (ws a) eqn:Wa; [exact (IH (S n) (Some a) c m Wa E)|]. destruct l; [injection E as <- <-; exact Hl | discriminate].
  Qed.
  Lemma first_end_ws s x : first_end s = Some x -> sall ws x = true.
  Proof.
    induction s as [|c s IH]; cbn [first_end]; [discriminate|]. destruct (Ascii.eqb_spec c cr) as [->|]; [|destruct (Ascii.eqb_spec c nl) as [->|]; [intros [= <-]; reflexivity | exact IH]].
    intros [= <-]. destruct s as [|c' s]; [reflexivity|]. destruct (Ascii.eqb c' nl); reflexivity.
  Qed.
  Lemma from_str_ws parse s f : from_str parse s = Some f -> parse s = Some (f_value f) /\ ws (f_char f) = true /\ sall ws (f_end f) = true.
  Proof.
    unfold from_str. destruct (parse s) as [v|]; [|discriminate]. destruct (detect_indentation s) as [[c n]|] eqn:Ed.
    - assert (Wc : ws c = true). { unfold detect_indentation in Ed. destruct (lines s) as [|? [|l2 ?]]; try discriminate. exact (@lead_ws_ws l2 0 None c n I Ed). }
      unfold detect_line_end. destruct (first_end s) as [x|] eqn:Ef; intros [= <-]; cbn; [|auto]. split; [reflexivity|]. split; [exact Wc | eapply first_end_ws; exact Ef].
    - unfold detect_line_end. destruct (first_end s) as [x|] eqn:Ef; intros [= <-]; cbn; [|auto]. split; [reflexivity|]. split; [reflexivity | eapply first_end_ws; exact Ef].
  Qed.
  Theorem write_read s f v : from_str jread s = Some f -> jwf v -> jstable v -> jdepth v <= 127 -> jread (to_string_pretty (with_value v f)) = Some v.
  Proof.
    intros H W J D. destruct (from_str_ws _ _ H) as (_ & Wc & We). rewrite to_string_layout by (eapply stable_jnum; exact J). cbn [with_value f_char f_count f_end f_trail f_value].
    apply read_layout; auto. apply sall_repeat. cbn. now rewrite Wc.
  Qed.
  Theorem write_read_same s f : from_str jread s = Some f -> jread (to_string_pretty f) = Some (f_value f).
  Proof.
    intros H. destruct (from_str_ws _ _ H) as (P & _). destruct (@jread_good s (f_value f) P) as (W & J & D). pose proof (@write_read s f (f_value f) H W J D) as R. destruct f; exact R.
  Qed.

  (** editing keeps values good *)
  Lemma good_le d d' v : d <= d' -> good d v -> good d' v.
  Proof. intros H (A & B & C). split; [exact A|]. split; [exact B|]. lia. Qed.
  Lemma good_obj_inv d l : good d (JObj l) -> exists d', d = S d' /\ NoDup (map fst l) /\ Forall (fun x => good d' (snd x)) l.
  Proof.
    intros (W & J & D). cbn [jdepth] in D. destruct d as [|d]; [lia|]. exists d. split; [reflexivity|]. inversion W as [| | | | |? N F]; subst. inversion J as [| | | | |? G]; subst. split; [exact N|].
    rewrite Forall_forall in *. intros x Hx. split; [auto|]. split; [auto|]. pose proof (@list_max_le (jdepth (snd x)) (map (fun e => jdepth (snd e)) l) (in_map (fun e => jdepth (snd e)) l x Hx)). lia.
  Qed.
  Lemma sget_good d l k x : Forall (fun x => good d (snd x)) l -> sget k l = Some x -> good d x.
  Proof. intros F H. exact (sget_Forall _ F H). Qed.
  Lemma remove_in_good d name ty v : good d v -> good d (fst (remove_in name ty v)).
  Proof.
    intros G. unfold remove_in. destruct v as [ | | | | |l]; try exact G. destruct (sget ty l) as [[ | | | | |o]|] eqn:E; try exact G. destruct (sget name o) as [x|] eqn:Eo; [|exact G]. cbn [fst].
    destruct (good_obj_inv G) as (d1 & -> & N & F). destruct (good_obj_inv (sget_good _ F E)) as (d2 & -> & N2 & F2). apply good_obj; [now apply sput_nodup|]. apply sput_forall; [|exact F].
    cbn [snd]. pose proof (swap_remove_perm _ _ Eo) as P. apply good_obj.
    - pose proof (Permutation_NoDup (Permutation_map fst P) N2) as P2. cbn in P2. now inversion P2.
    - pose proof (Permutation_Forall P F2) as P2. now inversion P2.
  Qed.
  Lemma remove_from_good d name v : good d v -> good d (fst (remove_from_manifest name v)).
  Proof.
    unfold remove_from_manifest. generalize 0. generalize sections. intros ls. revert v. induction ls as [|t ls IH]; intros v n G; [exact G|]. cbn [fold_left fst snd].
    pose proof (@remove_in_good d name t v G) as G'. destruct (remove_in name t v) as [w c]. cbn [fst] in G'. apply IH. exact G'.
  Qed.
  Lemma remove_names_good parse d : forall names v c w n, good d v -> remove_names parse names v c = Ok (w, n) -> good d w.
  Proof.
    induction names as [|a names IH]; intros v c w n G E; cbn [remove_names] in E; [injection E as <- <-; exact G|]. destruct (parse a) as [[]| |]; try discriminate.
    destruct (remove_from_manifest name v) as [v' c'] eqn:Er. eapply IH; [|exact E]. pose proof (@remove_from_good d name v G) as G'. now rewrite Er in G'.
  Qed.
  Lemma jupdate_good d k f v w : good (S d) v -> (forall x y, good d x -> f x = Ok y -> good d y) -> jupdate k f v = Ok w -> good (S d) w.
  Proof.
    intros G Hf E. destruct v as [ | | | | |l]; try discriminate; cbn in E.
    - destruct (f JNull) as [x| |] eqn:Ex; try discriminate. injection E as <-. apply good_obj; [constructor; [easy | constructor]|]. constructor; [|constructor]. cbn. eapply Hf; [|exact Ex]. split; [constructor|]. split; [constructor | cbn; lia].
    - destruct (good_obj_inv G) as (d1 & [= <-] & N & F). set (z := match sget k l with Some x => x | None => JNull end) in E. assert (Gz : good d z).
      { subst z. destruct (sget k l) eqn:Ek; [eapply sget_good; eauto | split; [constructor | split; [constructor | cbn; lia]]]. }
      destruct (f z) as [x| |] eqn:Ex; try discriminate. injection E as <-. apply good_obj; [now apply sput_nodup|]. apply sput_forall; [cbn; eauto | exact F].
  Qed.
  Lemma add_to_good d dev opt name spec v w : good (S (S d)) v -> add_to_manifest dev opt name spec v = Ok w -> good (S (S d)) w.
  Proof.
    intros G E. eapply jupdate_good; [exact G| |exact E]. intros x y Gx Ex. eapply jupdate_good; [exact Gx| |exact Ex]. intros x' y' _ [= <-]. split; [constructor|]. split; [constructor | cbn; lia].
  Qed.
  Lemma add_specs_good resolve parse vshow gitshow requested px d dev opt : forall specs v w, good (S (S d)) v ->
    add_specs resolve parse vshow gitshow requested px dev opt specs v = Ok w -> good (S (S d)) w.
  Proof.
    induction specs as [|a specs IH]; intros v w G E; cbn [add_specs] in E; [injection E as <-; exact G|]. destruct (resolve a) as [pkg| |]; try discriminate. cbn [rbind] in E.
    destruct (recorded _ _ _ _ _ a pkg) as [r| |]; try discriminate. cbn [rbind] in E. destruct (add_to_manifest _ _ _ _ _) as [v2| |] eqn:Ea; try discriminate. cbn [rbind] in E.
    eapply IH; [|exact E]. eapply add_to_good; [|exact Ea]. now apply remove_from_good.
  Qed.
End Docs.
