(** * Reading back what was printed *)
From Verif Require Import Base Types StdPath JsonModel JsonSpec JsonPrint JsonRead.
From Coq Require Import Lia NArith.
Set Implicit Arguments.
Open Scope list_scope.
Open Scope string_scope.

(** ** strings *)
Lemma read_esc_char c r : read_str (esc_char c ++ r) = cons_opt (s1 c) (read_str r).
Proof. destruct c as [[] [] [] [] [] [] [] []]; reflexivity. Qed.
Lemma read_esc s r : read_str (esc s ++ String dq r) = Some (s, r).
Proof.
  induction s as [|c s IH]; [reflexivity|]. cbn [esc]. rewrite sapp_assoc, read_esc_char, IH. reflexivity.
Qed.

(** ** numbers *)
Lemma sum_cons x l : list_sum (x :: l) = x + list_sum l.
Proof. reflexivity. Qed.
Definition stops (s : string) : Prop := match s with String c _ => digit c = false /\ c <> "."%char /\ c <> "e"%char /\ c <> "E"%char | EmptyString => True end.
Lemma digits_app s r i t : digits s = (i, t) -> t <> "" -> digits (s ++ r) = (i, t ++ r).
Proof.
  revert i t; induction s as [|c s IH]; intros i t E Ht; cbn in E |- *; [injection E as <- <-; easy|]. destruct (digit c).
  - destruct (digits s) as [a b]. injection E as <- <-. rewrite (IH a b eq_refl Ht). reflexivity.
  - injection E as <- <-. reflexivity.
Qed.
Lemma digits_stop r : stops r -> digits r = ("", r).
Proof. destruct r as [|c r]; [reflexivity|]. intros (H & _). cbn. now rewrite H. Qed.
Lemma digits_end s r i : stops r -> digits s = (i, "") -> digits (s ++ r) = (i, r).
Proof.
  intros Hr. revert i; induction s as [|c s IH]; intros i E; cbn in E |- *; [injection E as <-; now apply digits_stop|]. destruct (digit c).
  - destruct (digits s) as [a b]. injection E as <- ->. rewrite (IH a eq_refl). reflexivity.
  - discriminate.
Qed.
Lemma digits_any s r i t : stops r -> digits s = (i, t) -> digits (s ++ r) = (i, t ++ r).
Proof. intros Hr E. destruct t; [now apply digits_end | now apply digits_app]. Qed.
Lemma read_exp_app s r x t : stops r -> read_exp s = Some (x, t) -> read_exp (s ++ r) = Some (x, t ++ r).
Proof.
  intros Hr E. destruct s as [|c s].
  - injection E as <- <-. cbn. destruct r as [|c r]; [reflexivity|]. destruct Hr as (_ & _ & H1 & H2). cbn.
    rewrite (proj2 (Ascii.eqb_neq _ _) H1), (proj2 (Ascii.eqb_neq _ _) H2). reflexivity.
  - cbn [read_exp append] in *. destruct (Ascii.eqb c "e" || Ascii.eqb c "E"); [|injection E as <- <-; reflexivity].
    destruct s as [|k s].
    + cbn in E. discriminate.
    + cbn [append]. destruct (Ascii.eqb k "+" || Ascii.eqb k "-").
      * destruct (digits s) as [i u] eqn:D. rewrite (digits_any _ _ Hr D). destruct (String.eqb i ""); [discriminate|]. injection E as <- <-. reflexivity.
      * destruct (digits (String k s)) as [i u] eqn:D. pose proof (digits_any _ _ Hr D) as D'. cbn [append] in D'. rewrite D'. destruct (String.eqb i ""); [discriminate|]. injection E as <- <-. reflexivity.
Qed.
Lemma read_frac_app s r x t : stops r -> read_frac s = Some (x, t) -> read_frac (s ++ r) = Some (x, t ++ r).
Proof.
  intros Hr E. destruct s as [|c s].
  - injection E as <- <-. cbn. destruct r as [|c r]; [reflexivity|]. destruct Hr as (_ & H & _). cbn. rewrite (proj2 (Ascii.eqb_neq _ _) H). reflexivity.
  - cbn [read_frac append] in *. destruct (Ascii.eqb c "."); [|injection E as <- <-; reflexivity].
    destruct (digits s) as [i u] eqn:D. rewrite (digits_any _ _ Hr D). destruct (String.eqb i ""); [discriminate|]. injection E as <- <-. reflexivity.
Qed.
Lemma read_int_app s r x t : stops r -> read_int s = Some (x, t) -> read_int (s ++ r) = Some (x, t ++ r).
Proof.
  intros Hr E. unfold read_int in *. destruct (digits s) as [i u] eqn:D. rewrite (digits_any _ _ Hr D). destruct i as [|c i]; [discriminate|].
  destruct (Ascii.eqb c "0" && negb (String.eqb i "")); [discriminate|]. injection E as <- <-. reflexivity.
Qed.
Lemma read_num_app s r x t : stops r -> read_num s = Some (x, t) -> read_num (s ++ r) = Some (x, t ++ r).
Proof.
  intros Hr E. unfold read_num in *. destruct s as [|c s]; [discriminate|]. cbn [append read_sign] in *.
  set (p := if Ascii.eqb c "-" then ("-", s) else ("", String c s)) in E.
  assert (Ep : (if Ascii.eqb c "-" then ("-", s ++ r) else ("", String c (s ++ r))) = (fst p, snd p ++ r)) by (subst p; destruct (Ascii.eqb c "-"); reflexivity).
  rewrite Ep. destruct p as [sg s']. cbn [fst snd]. clear Ep. destruct (read_int s') as [[i s2]|] eqn:E1; [|discriminate]. rewrite (read_int_app _ _ Hr E1).
  destruct (read_frac s2) as [[f s3]|] eqn:E2; [|discriminate]. rewrite (read_frac_app _ _ Hr E2). destruct (read_exp s3) as [[e s4]|] eqn:E3; [|discriminate].
  rewrite (read_exp_app _ _ Hr E3). injection E as <- <-. reflexivity.
Qed.

(** the text read is the text consumed *)
Lemma digits_text s i t : digits s = (i, t) -> s = i ++ t.
Proof.
  revert i t; induction s as [|c s IH]; intros i t E; cbn in E; [injection E as <- <-; reflexivity|]. destruct (digit c); [|injection E as <- <-; reflexivity].
  destruct (digits s) as [a b]. injection E as <- <-. cbn. f_equal. now apply IH.
Qed.
(** number characters *)
Definition numch (c : ascii) : bool := digit c || Ascii.eqb c "-" || Ascii.eqb c "+" || Ascii.eqb c "." || Ascii.eqb c "e" || Ascii.eqb c "E".
Fixpoint sall (f : ascii -> bool) (s : string) : bool := match s with EmptyString => true | String c t => f c && sall f t end.
Lemma sall_app f a b : sall f (a ++ b) = sall f a && sall f b.
Proof. induction a; cbn; [reflexivity|]. rewrite IHa. now rewrite andb_assoc. Qed.
Lemma digits_all s i t : digits s = (i, t) -> sall digit i = true.
Proof.
  revert i t; induction s as [|c s IH]; intros i t E; cbn in E; [injection E as <- <-; reflexivity|]. destruct (digit c) eqn:D; [|injection E as <- <-; reflexivity].
  destruct (digits s) as [a b]. injection E as <- <-. cbn. rewrite D. eapply IH; reflexivity.
Qed.
Lemma digit_numch s : sall digit s = true -> sall numch s = true.
Proof. induction s; cbn; [easy|]. rewrite !andb_true_iff. unfold numch. intros [-> H]. auto. Qed.
Lemma read_num_text s x t : read_num s = Some (x, t) -> s = x ++ t /\ sall numch x = true /\ x <> "".
Proof.
  unfold read_num. destruct s as [|c s]; [discriminate|]. cbn [read_sign]. set (p := if Ascii.eqb c "-" then ("-", s) else ("", String c s)).
  assert (Ep : String c s = fst p ++ snd p /\ sall numch (fst p) = true). { subst p. destruct (Ascii.eqb c "-") eqn:Ec; [apply Ascii.eqb_eq in Ec; subst c|]; split; reflexivity. }
  destruct p as [sg s']. cbn [fst snd] in Ep. destruct Ep as [-> A1]. unfold read_int. destruct (digits s') as [i s2] eqn:D1. pose proof (digits_text _ D1) as ->. pose proof (digit_numch _ (digits_all _ D1)) as A2.
  destruct i as [|a i]; [discriminate|]. destruct (Ascii.eqb a "0" && negb (String.eqb i "")); [discriminate|].
  destruct (read_frac s2) as [[f s3]|] eqn:E2; [|discriminate]. destruct (read_exp s3) as [[e s4]|] eqn:E3; [|discriminate]. intros [= <- <-].
  assert (B2 : s2 = f ++ s3 /\ sall numch f = true).
  { unfold read_frac in E2. destruct s2 as [|k s2]; [injection E2 as <- <-; auto|]. destruct (Ascii.eqb k ".") eqn:Ek; [|injection E2 as <- <-; auto].
    destruct (digits s2) as [u w] eqn:D2. destruct (String.eqb u ""); [discriminate|]. injection E2 as <- <-. pose proof (digits_text _ D2) as ->. split; [reflexivity|]. cbn.
    rewrite (digit_numch _ (digits_all _ D2)). unfold numch. rewrite Ek, !orb_true_r. reflexivity. }
  destruct B2 as [-> A3].
  assert (B3 : s3 = e ++ s4 /\ sall numch e = true).
  { unfold read_exp in E3. destruct s3 as [|k s3]; [injection E3 as <- <-; auto|]. destruct (Ascii.eqb k "e" || Ascii.eqb k "E") eqn:Ek; [|injection E3 as <- <-; auto].
    set (q := match s3 with String k0 t1 => if Ascii.eqb k0 "+" || Ascii.eqb k0 "-" then (s1 k0, t1) else ("", s3) | EmptyString => ("", s3) end) in E3.
    assert (Eq : s3 = fst q ++ snd q /\ sall numch (fst q) = true).
    { subst q. destruct s3 as [|b s3]; [auto|]. destruct (Ascii.eqb b "+" || Ascii.eqb b "-") eqn:Eb; [|auto]. split; [reflexivity|]. cbn. unfold numch. apply orb_true_iff in Eb. destruct Eb as [-> | ->]; rewrite ?orb_true_r; reflexivity. }
    destruct q as [sg2 t']. cbn [fst snd] in Eq. destruct Eq as [-> A4]. destruct (digits t') as [u w] eqn:D2. destruct (String.eqb u ""); [discriminate|]. injection E3 as <- <-. pose proof (digits_text _ D2) as ->.
    split; [cbn; now rewrite sapp_assoc|]. cbn. rewrite sall_app, A4, (digit_numch _ (digits_all _ D2)). unfold numch. apply orb_true_iff in Ek. destruct Ek as [-> | ->]; rewrite ?orb_true_r; reflexivity. }
  destruct B3 as [-> A4]. split; [cbn [append]; rewrite !sapp_assoc; cbn [append]; now rewrite !sapp_assoc|]. split; [|].
  { change (sall numch (sg ++ String a i ++ f ++ e) = true). rewrite sall_app, A1, sall_app, A2, sall_app, A3, A4. reflexivity. } destruct sg; discriminate.
Qed.
Lemma numch_ws c : numch c = true -> ws c = false.
Proof. destruct c as [[] [] [] [] [] [] [] []]; vm_compute; auto; intros H; discriminate H. Qed.
Lemma sall_in f s c : sall f s = true -> In c (list_ascii_of_string s) -> f c = true.
Proof. induction s; cbn; [easy|]. rewrite andb_true_iff. intros [H1 H2] [<-|H]; auto. Qed.

(** ** values that print as numbers serde_json reads back unchanged *)
Section Stable.
  Variable number : string -> option string.
  (** a number text that is read back as itself *)
  Definition stable_num (s : string) : Prop := read_num s = Some (s, "") /\ number s = Some s.
  Inductive jstable : json -> Prop :=
  | js_null : jstable JNull
  | js_bool b : jstable (JBool b)
  | js_num s : stable_num s -> jstable (JNum s)
  | js_str s : jstable (JStr s)
  | js_arr l : Forall jstable l -> jstable (JArr l)
  | js_obj l : Forall (fun e => jstable (snd e)) l -> jstable (JObj l).
  Lemma stable_jnum v : jstable v -> jnum v.
  Proof.
    induction v as [ | b | s | s | l IH | l IH] using json_ind'; intros J; try constructor.
    - inversion J as [| |? [H _]| | |]; subst. destruct (read_num_text _ H) as (_ & A & N). split; [exact N|]. intros c Hc. apply numch_ws. eapply sall_in; eauto.
    - inversion J as [| | | |? F|]; subst. rewrite Forall_forall in *. auto.
    - inversion J as [| | | | |? F]; subst. rewrite Forall_forall in *. auto.
  Qed.
End Stable.
(** how deeply arrays and objects are nested *)
Fixpoint jdepth (v : json) : nat :=
  match v with
  | JArr l => S (list_max (map jdepth l))
  | JObj l => S (list_max (map (fun e => jdepth (snd e)) l))
  | _ => 0
  end.
Fixpoint jsize (v : json) : nat :=
  match v with
  | JArr l => S (list_sum (map (fun x => S (jsize x)) l))
  | JObj l => S (list_sum (map (fun e => S (jsize (snd e))) l))
  | _ => 1
  end.

(** ** the printed text, by recursion, for any indentation and line ending *)
Section Pretty.
  Variables (ind e : string).
  Fixpoint pretty (d : nat) (v : json) : string :=
    let block (o c : string) (items : list string) : string :=
      (o ++ e ++ sjoin ("," ++ e) items ++ e ++ srepeat ind d ++ c)%string in
    match v with
    | JNull => "null"
    | JBool true => "true"
    | JBool false => "false"
    | JNum s => s
    | JStr s => quote s
    | JArr [] => "[]"
    | JArr l => block "[" "]" (map (fun x => (srepeat ind (S d) ++ pretty (S d) x)%string) l)
    | JObj [] => "{}"
    | JObj l => block "{" "}" (map (fun e => (srepeat ind (S d) ++ quote (fst e) ++ ": " ++ pretty (S d) (snd e))%string) l)
    end.
  Definition ln' (r : nat * string) : string := srepeat ind (fst r) ++ snd r.
  Definition pr' (l : list (nat * string)) : string := sjoin e (map ln' l).
  Lemma pr_app' a b : a <> [] -> b <> [] -> pr' (a ++ b)%list = (pr' a ++ e ++ pr' b)%string.
  Proof. intros Ha Hb. unfold pr'. rewrite map_app, sjoin_app; [reflexivity| |]; (intros E; apply map_eq_nil in E; contradiction). Qed.
  Lemma pr_add_end' q l : l <> [] -> pr' (add_end q l) = (pr' l ++ q)%string.
  Proof.
    induction l as [|[d s] l IH]; [easy|]. intros _. destruct l as [|x l]; [unfold pr', ln'; cbn; now rewrite sapp_assoc|].
    change (add_end q ((d, s) :: x :: l)) with ([(d, s)] ++ add_end q (x :: l))%list. change ((d, s) :: x :: l) with ([(d, s)] ++ x :: l)%list.
    rewrite !pr_app' by (easy || now apply add_end_ne). rewrite IH by easy. now rewrite !sapp_assoc.
  Qed.
  Lemma pr_commas' ls : Forall (fun x => x <> []) ls -> pr' (commas ls) = sjoin ("," ++ e) (map pr' ls).
  Proof.
    induction ls as [|x ls IH]; [reflexivity|]. intros F. inversion F as [|? ? Hx F']; subst. destruct ls as [|y ls]; [reflexivity|].
    change (commas (x :: y :: ls)) with (add_end "," x ++ commas (y :: ls))%list. rewrite pr_app'; [|now apply add_end_ne|now apply commas_ne].
    rewrite pr_add_end', IH by easy. cbn [map]. rewrite (sjoin_cons _ (pr' x)) by easy. now rewrite !sapp_assoc.
  Qed.
  Lemma pretty_rows v : forall d, exists s t, rows d v = (d, s) :: t /\ pretty d v = sjoin e (s :: map ln' t).
  Proof.
    induction v as [ | b | s | s | l IH | l IH] using json_ind'; intros d.
    1: now exists "null", [].
    1: now destruct b; [exists "true", []|exists "false", []].
    1: now exists s, [].
    1: now exists (quote s), [].
    - destruct l as [|x l]; [now exists "[]", []|]. set (L := x :: l) in *.
      exists "[", (commas (map (rows (S d)) L) ++ [(d, "]")])%list. split; [reflexivity|].
      assert (E : map pr' (map (rows (S d)) L) = map (fun x => (srepeat ind (S d) ++ pretty (S d) x)%string) L).
      { rewrite map_map. apply map_ext_in. intros a Ha. rewrite Forall_forall in IH. destruct (IH a Ha (S d)) as (s & t & E1 & E2).
        rewrite E1, E2. unfold pr'. destruct t as [|r t]; [reflexivity|]. cbn [map]. rewrite !sjoin_cons by easy. unfold ln' at 1. cbn [fst snd]. now rewrite !sapp_assoc. }
      assert (Hne : Forall (fun x => x <> []) (map (rows (S d)) L)).
      { rewrite Forall_map. eapply Forall_impl; [|exact IH]. intros a Ha. destruct (Ha (S d)) as (? & ? & E1 & _). now rewrite E1. }
      rewrite sjoin_cons, map_app, sjoin_app; cycle 1.
      { intros E0. apply map_eq_nil in E0. revert E0. now apply commas_ne. }
      { easy. }
      { intros E0. apply map_eq_nil in E0. apply app_eq_nil in E0. now destruct E0. }
      change (sjoin e (map ln' (commas (map (rows (S d)) L)))) with (pr' (commas (map (rows (S d)) L))). rewrite pr_commas' by exact Hne.
      rewrite E. reflexivity.
    - destruct l as [|x l]; [now exists "{}", []|]. set (L := x :: l) in *.
      set (R := fun e : string * json => prepend (quote (fst e) ++ ": ") (rows (S d) (snd e))).
      exists "{", (commas (map R L) ++ [(d, "}")])%list. split; [reflexivity|].
      assert (E : map pr' (map R L) = map (fun e => (srepeat ind (S d) ++ quote (fst e) ++ ": " ++ pretty (S d) (snd e))%string) L).
      { rewrite map_map. apply map_ext_in. intros a Ha. rewrite Forall_forall in IH. destruct (IH a Ha (S d)) as (s & t & E1 & E2).
        unfold R. rewrite E1, E2. cbn [prepend]. unfold pr'. destruct t as [|r t]; [unfold ln'; cbn [map fst snd sjoin]; now rewrite !sapp_assoc|]. cbn [map]. rewrite !sjoin_cons by easy. unfold ln' at 1. cbn [fst snd]. now rewrite !sapp_assoc. }
      assert (Hne : Forall (fun x => x <> []) (map R L)).
      { rewrite Forall_map. eapply Forall_impl; [|exact IH]. intros a Ha. destruct (Ha (S d)) as (? & ? & E1 & _). unfold R. now rewrite E1. }
      rewrite sjoin_cons, map_app, sjoin_app; cycle 1.
      { intros E0. apply map_eq_nil in E0. revert E0. now apply commas_ne. }
      { easy. }
      { intros E0. apply map_eq_nil in E0. apply app_eq_nil in E0. now destruct E0. }
      change (sjoin e (map ln' (commas (map R L)))) with (pr' (commas (map R L))). rewrite pr_commas' by exact Hne.
      rewrite E. reflexivity.
  Qed.
  Lemma layout_pretty tr v : layout ind e tr v = pretty 0 v ++ (if tr then e else "").
  Proof. unfold layout. destruct (pretty_rows v 0) as (s & t & E & ->). rewrite E. reflexivity. Qed.
End Pretty.

(** ** reading it *)
Lemma skip_ws w s : sall ws w = true -> skip (w ++ s) = skip s.
Proof. induction w; cbn; [reflexivity|]. rewrite andb_true_iff. intros [-> H]. auto. Qed.
Lemma skip_vis c s : ws c = false -> skip (String c s) = String c s.
Proof. cbn. now intros ->. Qed.
Lemma sall_repeat f s n : sall f s = true -> sall f (srepeat s n) = true.
Proof. intros H. induction n; cbn; [reflexivity|]. now rewrite sall_app, H, IHn. Qed.

Ltac chars := repeat match goal with |- context [Ascii.eqb ?a ?b] =>
  let r := eval vm_compute in (Ascii.eqb a b) in
  match r with true => change (Ascii.eqb a b) with true | false => change (Ascii.eqb a b) with false end end; cbv iota.
(** unfolding *)
Section Unfold.
  Variable number : string -> option string.
  Notation rv := (rv number).
  Notation ra := (ra number).
  Notation ro := (ro number).
  Lemma rv_S k depth s : rv (S k) depth s =

        match skip s with
        | EmptyString => None
        | String c t =>
            if Ascii.eqb c "n" then match drop_prefix "ull" t with Some r => Some (JNull, r) | None => None end
            else if Ascii.eqb c "t" then match drop_prefix "rue" t with Some r => Some (JBool true, r) | None => None end
            else if Ascii.eqb c "f" then match drop_prefix "alse" t with Some r => Some (JBool false, r) | None => None end
            else if Ascii.eqb c dq then match read_str t with Some (x, r) => Some (JStr x, r) | None => None end
            else if Ascii.eqb c "[" then
              match depth with
              | 0 => None
              | S d => match skip t with
                       | String c' r => if Ascii.eqb c' "]" then Some (JArr [], r) else ra k d [] t
                       | EmptyString => None
                       end
              end
            else if Ascii.eqb c "{" then
              match depth with
              | 0 => None
              | S d => match skip t with
                       | String c' r => if Ascii.eqb c' "}" then Some (JObj [], r) else ro k d [] t
                       | EmptyString => None
                       end
              end
            else match read_num (String c t) with
                 | Some (x, r) => match number x with Some y => Some (JNum y, r) | None => None end
                 | None => None
                 end
        end
    .
  Proof. reflexivity. Qed.
  Lemma ra_S k depth acc s : ra (S k) depth acc s =

        match rv k depth s with
        | None => None
        | Some (v, r) =>
            match skip r with
            | String c t => if Ascii.eqb c "," then ra k depth (acc ++ [v]) t
                            else if Ascii.eqb c "]" then Some (JArr (acc ++ [v]), t) else None
            | EmptyString => None
            end
        end
    .
  Proof. reflexivity. Qed.
  Lemma ro_S k depth acc s : ro (S k) depth acc s =

        match skip s with
        | String q t =>
            if Ascii.eqb q dq then
              match read_str t with
              | None => None
              | Some (key, r) =>
                  match skip r with
                  | String c t1 =>
                      if Ascii.eqb c ":" then
                        match rv k depth t1 with
                        | None => None
                        | Some (v, r2) =>
                            match skip r2 with
                            | String c' t2 => if Ascii.eqb c' "," then ro k depth (sput key v acc) t2
                                              else if Ascii.eqb c' "}" then Some (JObj (sput key v acc), t2) else None
                            | EmptyString => None
                            end
                        end
                      else None
                  | EmptyString => None
                  end
              end
            else None
        | EmptyString => None
        end
    .
  Proof. reflexivity. Qed.
End Unfold.

  Lemma sput_fresh (V : Type) k (v : V) l : ~ In k (map fst l) -> sput k v l = (l ++ [(k, v)])%list.
  Proof.
    induction l as [|[k' v'] l IH]; cbn; [reflexivity|]. intros H. destruct (String.eqb_spec k k') as [->|]; [tauto|]. now rewrite IH by tauto.
  Qed.
  Lemma list_max_le x l : In x l -> x <= list_max l.
  Proof. induction l as [|a l IHl]; [easy|]. change (list_max (a :: l)) with (Nat.max a (list_max l)). intros [-> | H]; [lia|]. specialize (IHl H). lia. Qed.

Section Back.
  Variable number : string -> option string.
  Variables (ind e : string).
  Hypothesis Hi : sall ws ind = true.
  Hypothesis He : sall ws e = true.
  Notation pretty := (pretty ind e).
  Notation rv := (rv number).
  Notation ra := (ra number).
  Notation ro := (ro number).
  Lemma ws_stops w c r : sall ws w = true -> (c = ","%char \/ c = "]"%char \/ c = "}"%char) -> stops (w ++ String c r).
  Proof.
    intros Hw Hc. destruct w as [|a w]; cbn [append stops].
    - destruct Hc as [-> | [-> | ->]]; repeat split; discriminate.
    - cbn in Hw. apply andb_true_iff in Hw. destruct Hw as [Ha _]. clear - Ha. unfold ws in Ha. rewrite !orb_true_iff, !Ascii.eqb_eq in Ha.
      destruct Ha as [[[-> | ->] | ->] | ->]; repeat split; discriminate.
  Qed.
  Lemma stops_ws w : sall ws w = true -> stops w.
  Proof.
    intros Hw. destruct w as [|a w]; cbn [stops]; auto. cbn in Hw. apply andb_true_iff in Hw. destruct Hw as [Ha _]. unfold ws in Ha. rewrite !orb_true_iff, !Ascii.eqb_eq in Ha.
    destruct Ha as [[[-> | ->] | ->] | ->]; repeat split; discriminate.
  Qed.
  Definition first_vis (s : string) : Prop := exists c t, s = String c t /\ ws c = false /\ c <> "]"%char /\ c <> "}"%char.
  Lemma num_first s : stable_num number s -> exists c t, s = String c t /\ (digit c = true \/ c = "-"%char).
  Proof.
    intros [H _]. unfold read_num in H. destruct s as [|c s]; [discriminate|]. exists c, s. split; [reflexivity|]. cbn [read_sign] in H.
    destruct (Ascii.eqb c "-") eqn:E; [right; now apply Ascii.eqb_eq|left]. unfold read_int in H. cbn [digits] in H. destruct (digit c); [reflexivity|]. discriminate.
  Qed.
  Lemma digit_not c : digit c = true \/ c = "-"%char -> ws c = false /\ c <> "]"%char /\ c <> "}"%char
    /\ Ascii.eqb c "n" = false /\ Ascii.eqb c "t" = false /\ Ascii.eqb c "f" = false /\ Ascii.eqb c dq = false /\ Ascii.eqb c "[" = false /\ Ascii.eqb c "{" = false.
  Proof. intros [H| ->]; [|repeat split; discriminate]. revert H. destruct c as [[] [] [] [] [] [] [] []]; vm_compute; intros H; try discriminate H; repeat split; discriminate. Qed.
  Lemma pretty_first d v : jstable number v -> first_vis (pretty d v).
  Proof.
    intros J. destruct v as [ |[]| s | s |[|x l]|[|x l]]; cbn; try (eexists; eexists; split; [reflexivity|]; repeat split; discriminate).
    inversion J; subst. destruct (@num_first s H0) as (c & t & -> & Hc). exists c, t. destruct (digit_not Hc) as (A & B & C & _). auto.
  Qed.

  Definition reads_back (v : json) : Prop := jwf v -> jstable number v -> forall k d n rest, jsize v <= k -> jdepth v <= d -> stops rest ->
    forall w, sall ws w = true -> rv k d (w ++ pretty n v ++ rest) = Some (v, rest).


  Lemma ra_back l : forall n d k acc tail rest, l <> [] -> Forall reads_back l -> Forall jwf l -> Forall (jstable number) l ->
    list_sum (map (fun x => S (jsize x)) l) <= k -> list_max (map jdepth l) <= d -> sall ws tail = true ->
    forall w, sall ws w = true ->
    ra k d acc (w ++ sjoin ("," ++ e) (map (fun x => srepeat ind n ++ pretty n x) l) ++ tail ++ String "]" rest) = Some (JArr (acc ++ l), rest).
  Proof.
    induction l as [|x l IH]; [easy|]. intros n d k acc tail rest _ Fr Fw Fs Hk Hd Ht w Hw. pose proof (Forall_inv Fr) as Rx.
    cbn [map] in Hk, Hd. rewrite sum_cons in Hk. change (list_max (jdepth x :: map jdepth l)) with (Nat.max (jdepth x) (list_max (map jdepth l))) in Hd.
    destruct k as [|k]; [lia|]. rewrite ra_S. destruct l as [|y l].
    - cbn [map sjoin]. rewrite (sapp_assoc (srepeat ind n)), <- (sapp_assoc w). rewrite Rx; [|exact (Forall_inv Fw) | exact (Forall_inv Fs) | lia | lia | apply ws_stops; auto | rewrite sall_app, Hw; apply sall_repeat; auto].
      rewrite skip_ws by auto. rewrite skip_vis by reflexivity. reflexivity.
    - cbn [map]. rewrite sjoin_cons by discriminate. rewrite !sapp_assoc. rewrite <- (sapp_assoc w). cbn [append].
      rewrite Rx; [|exact (Forall_inv Fw) | exact (Forall_inv Fs) | lia | lia | apply (ws_stops ""); auto | rewrite sall_app, Hw; apply sall_repeat; auto].
      rewrite skip_vis by reflexivity. cbn [Ascii.eqb Bool.eqb].
      replace (acc ++ x :: y :: l)%list with ((acc ++ [x]) ++ y :: l)%list by (now rewrite <- app_assoc).
      change (map (fun x0 => srepeat ind n ++ pretty n x0) (y :: l)) with (map (fun x0 => srepeat ind n ++ pretty n x0) (y :: l)).
      refine (IH n d k (acc ++ [x])%list tail rest _ (Forall_inv_tail Fr) (Forall_inv_tail Fw) (Forall_inv_tail Fs) _ _ Ht e He); [discriminate | lia | lia].
  Qed.
  Lemma ro_back l : forall n d k acc tail rest, l <> [] -> Forall (fun x => reads_back (snd x)) l -> NoDup (map fst (acc ++ l)) -> Forall (fun x => jwf (snd x)) l -> Forall (fun x => jstable number (snd x)) l ->
    list_sum (map (fun x => S (jsize (snd x))) l) <= k -> list_max (map (fun x => jdepth (snd x)) l) <= d -> sall ws tail = true ->
    forall w, sall ws w = true ->
    ro k d acc (w ++ sjoin ("," ++ e) (map (fun x => srepeat ind n ++ quote (fst x) ++ ": " ++ pretty n (snd x)) l) ++ tail ++ String "}" rest) = Some (JObj (acc ++ l), rest).
  Proof.
    induction l as [|[key x] l IH]; [easy|]. intros n d k acc tail rest _ Fr Nd Fw Fs Hk Hd Ht w Hw. pose proof (Forall_inv Fr) as Rx. cbn [snd] in Rx.
    cbn [map snd] in Hk, Hd. rewrite sum_cons in Hk. match goal with H : list_max (jdepth x :: ?m) <= d |- _ => change (list_max (jdepth x :: m)) with (Nat.max (jdepth x) (list_max m)) in H end.
    assert (Hf : ~ In key (map fst acc)). { rewrite map_app in Nd. cbn in Nd. apply NoDup_remove_2 in Nd. intros H. apply Nd, in_or_app. auto. }
    pose proof (Forall_inv Fw) as Wx. pose proof (Forall_inv Fs) as Sx. cbn [snd] in Wx, Sx.
    assert (Hws : sall ws (w ++ srepeat ind n) = true) by (rewrite sall_app, Hw; apply sall_repeat; auto).
    destruct k as [|k]; [lia|]. rewrite ro_S. destruct l as [|y l].
    - cbn [map sjoin fst snd]. rewrite !sapp_assoc, <- (sapp_assoc w), skip_ws by exact Hws. unfold quote. cbn [append]. rewrite skip_vis by reflexivity. rewrite Ascii.eqb_refl.
      rewrite sapp_assoc. unfold s1 at 1. cbn [append]. rewrite read_esc. rewrite skip_vis by reflexivity. cbn [Ascii.eqb Bool.eqb].
      change (String " " (pretty n x ++ tail ++ String "}" rest)) with (" " ++ pretty n x ++ tail ++ String "}" rest).
      rewrite Rx; [|exact Wx | exact Sx | lia | lia | apply ws_stops; auto | reflexivity].
      rewrite skip_ws by auto. rewrite skip_vis by reflexivity. cbn [Ascii.eqb Bool.eqb]. now rewrite sput_fresh by exact Hf.
    - cbn [map fst snd]. rewrite sjoin_cons by discriminate. rewrite !sapp_assoc, <- (sapp_assoc w), skip_ws by exact Hws. unfold quote at 1. cbn [append]. rewrite skip_vis by reflexivity. rewrite Ascii.eqb_refl.
      rewrite sapp_assoc. unfold s1 at 1. cbn [append]. rewrite read_esc. rewrite skip_vis by reflexivity. cbn [Ascii.eqb Bool.eqb].
      match goal with |- context [rv k d (String " " (pretty n x ++ ?r))] => change (String " " (pretty n x ++ r)) with (" " ++ pretty n x ++ r) end.
      rewrite Rx; [|exact Wx | exact Sx | lia | lia | apply (ws_stops ""); auto | reflexivity].
      rewrite skip_vis by reflexivity. cbn [Ascii.eqb Bool.eqb]. rewrite sput_fresh by exact Hf.
      replace (acc ++ (key, x) :: y :: l)%list with ((acc ++ [(key, x)]) ++ y :: l)%list by (now rewrite <- app_assoc).
      refine (IH n d k (acc ++ [(key, x)])%list tail rest _ (Forall_inv_tail Fr) _ (Forall_inv_tail Fw) (Forall_inv_tail Fs) _ _ Ht e He); [discriminate | rewrite <- app_assoc; exact Nd | lia | lia].
  Qed.
  Lemma pretty_back v : reads_back v.
  Proof.
    induction v as [ | b | s | s | l IH | l IH] using json_ind'; intros W J k d n rest Hk Hd Hr w Hw; (destruct k as [|k]; [cbn in Hk; lia|]); rewrite rv_S; rewrite skip_ws by exact Hw.
    - reflexivity.
    - destruct b; reflexivity.
    - inversion J; subst. destruct (@num_first s H0) as (c & t & -> & Hc). destruct (digit_not Hc) as (A & _ & _ & B1 & B2 & B3 & B4 & B5 & B6). cbn [pretty append]. rewrite skip_vis by exact A.
      rewrite B1, B2, B3, B4, B5, B6. destruct H0 as [R1 R2]. pose proof (read_num_app _ _ Hr R1) as R3. cbn [append] in R3. rewrite R3, R2. reflexivity.
    - cbn [pretty]. unfold quote. cbn [append]. rewrite skip_vis by reflexivity. cbn. rewrite sapp_assoc. cbn [s1 append]. now rewrite read_esc.
    - destruct l as [|x l]; [cbn in Hd; destruct d; [lia|]; reflexivity|]. set (L := x :: l) in *. inversion W as [| | | |? Fw|]; subst. inversion J as [| | | |? Fs|]; subst.
      change (pretty n (JArr L)) with ("[" ++ e ++ sjoin ("," ++ e) (map (fun x => srepeat ind (S n) ++ pretty (S n) x) L) ++ e ++ srepeat ind n ++ "]").
      rewrite !sapp_assoc. cbn [append]. rewrite skip_vis by reflexivity. chars. cbn [jdepth] in Hd. destruct d as [|d]; [lia|].
      match goal with |- context [skip (e ++ ?r)] => assert (S1 : exists c t, skip (e ++ r) = String c t /\ Ascii.eqb c "]" = false) end.
      { rewrite skip_ws by exact He. subst L. destruct (pretty_first (S n) (Forall_inv Fs)) as (c & t & E & V & V1 & _). cbn [map].
        assert (G : forall r, skip ((srepeat ind (S n) ++ pretty (S n) x) ++ r) = String c (t ++ r)).
        { intros r. rewrite sapp_assoc, skip_ws by (apply sall_repeat; exact Hi). rewrite E. cbn [append]. now apply skip_vis. }
        destruct (map (fun x0 => srepeat ind (S n) ++ pretty (S n) x0) l) as [|y m]; [cbn [sjoin]|rewrite sjoin_cons by discriminate; rewrite (sapp_assoc (srepeat ind (S n) ++ pretty (S n) x))]; rewrite G; exists c; eexists; (split; [reflexivity | now apply Ascii.eqb_neq]). }
      destruct S1 as (c & t & -> & Ec). rewrite Ec. rewrite <- (sapp_assoc e (srepeat ind n)).
      match goal with |- ra k d [] ?s = _ => replace s with (e ++ sjoin ("," ++ e) (map (fun x => srepeat ind (S n) ++ pretty (S n) x) L) ++ (e ++ srepeat ind n) ++ String "]" rest) by (now rewrite !sapp_assoc) end.
      assert (Hs : sall ws (e ++ srepeat ind n) = true) by (rewrite sall_app, He; apply sall_repeat; exact Hi).
      refine (@ra_back L (S n) d k [] (e ++ srepeat ind n) rest _ IH Fw Fs _ _ Hs e He); [subst L; discriminate | cbn [jsize] in Hk; lia | lia].
    - destruct l as [|x l]; [cbn in Hd; destruct d; [lia|]; reflexivity|]. set (L := x :: l) in *. inversion W as [| | | | |? Nd Fw]; subst. inversion J as [| | | | |? Fs]; subst.
      change (pretty n (JObj L)) with ("{" ++ e ++ sjoin ("," ++ e) (map (fun x => srepeat ind (S n) ++ quote (fst x) ++ ": " ++ pretty (S n) (snd x)) L) ++ e ++ srepeat ind n ++ "}").
      rewrite !sapp_assoc. cbn [append]. rewrite skip_vis by reflexivity. chars. cbn [jdepth] in Hd. destruct d as [|d]; [lia|].
      match goal with |- context [skip (e ++ ?r)] => assert (S1 : exists t, skip (e ++ r) = String dq t) end.
      { rewrite skip_ws by exact He. subst L. cbn [map].
        assert (G : forall u r, exists t, skip ((srepeat ind (S n) ++ quote (fst x) ++ u) ++ r) = String dq t).
        { intros u r. rewrite sapp_assoc, skip_ws by (apply sall_repeat; exact Hi). unfold quote. cbn [append]. eexists. now apply skip_vis. }
        destruct l as [|y l]; cbn [map]; [cbn [sjoin]; apply G|]. rewrite sjoin_cons by discriminate. match goal with |- context [skip ((?a ++ ?b) ++ _)] => rewrite (sapp_assoc a b) end. apply G. }
      destruct S1 as (t & ->). chars.
      match goal with |- ro k d [] ?s = _ => replace s with (e ++ sjoin ("," ++ e) (map (fun x => srepeat ind (S n) ++ quote (fst x) ++ ": " ++ pretty (S n) (snd x)) L) ++ (e ++ srepeat ind n) ++ String "}" rest) by (now rewrite !sapp_assoc) end.
      assert (Hs : sall ws (e ++ srepeat ind n) = true) by (rewrite sall_app, He; apply sall_repeat; exact Hi).
      refine (@ro_back L (S n) d k [] (e ++ srepeat ind n) rest _ IH Nd Fw Fs _ _ Hs e He); [subst L; discriminate | cbn [jsize] in Hk; lia | lia].
  Qed.
End Back.
