(** * Facts about printing package.json *)
From Verif Require Import Base Types StdPath JsonModel JsonSpec.
Set Implicit Arguments.
Open Scope list_scope.
Open Scope string_scope.

Section Ind.
  Variable P : json -> Prop.
  Hypothesis Hn : P JNull.
  Hypothesis Hb : forall b, P (JBool b).
  Hypothesis Hu : forall s, P (JNum s).
  Hypothesis Hs : forall s, P (JStr s).
  Hypothesis Ha : forall l, Forall P l -> P (JArr l).
  Hypothesis Ho : forall l, Forall (fun e => P (snd e)) l -> P (JObj l).
  Fixpoint json_ind' (v : json) : P v :=
    match v with
    | JNull => Hn
    | JBool b => Hb b
    | JNum s => Hu s
    | JStr s => Hs s
    | JArr l => Ha ((fix go (l : list json) : Forall P l := match l with [] => Forall_nil _ | x :: t => Forall_cons _ (json_ind' x) (go t) end) l)
    | JObj l => Ho ((fix go (l : list (string * json)) : Forall (fun e => P (snd e)) l :=
                       match l with [] => Forall_nil _ | x :: t => Forall_cons _ (json_ind' (snd x)) (go t) end) l)
    end.
End Ind.

(** ** joining *)
Lemma sjoin_app sep : forall a b, a <> [] -> b <> [] -> sjoin sep (a ++ b)%list = (sjoin sep a ++ sep ++ sjoin sep b)%string.
Proof.
  induction a as [|x a IH]; [easy|]. intros b _ Hb. destruct a as [|y a].
  - destruct b; [easy|]. reflexivity.
  - change ((x :: y :: a) ++ b)%list with (x :: (y :: a) ++ b)%list. change (sjoin sep (x :: y :: a)) with (x ++ sep ++ sjoin sep (y :: a))%string.
    assert (E : forall l, l <> [] -> sjoin sep (x :: l) = (x ++ sep ++ sjoin sep l)%string) by (intros [|? ?]; easy).
    rewrite E by easy. rewrite IH by easy. now rewrite !sapp_assoc.
Qed.
Lemma sjoin_cons sep x l : l <> [] -> sjoin sep (x :: l) = (x ++ sep ++ sjoin sep l)%string.
Proof. destruct l; easy. Qed.

Definition ln (r : nat * string) : string := srepeat "  " (fst r) ++ snd r.
Definition pr (l : list (nat * string)) : string := sjoin (s1 nl) (map ln l).
Lemma pr_app a b : a <> [] -> b <> [] -> pr (a ++ b)%list = (pr a ++ s1 nl ++ pr b)%string.
Proof. intros Ha Hb. unfold pr. rewrite map_app, sjoin_app; [reflexivity| |]; (intros E; apply map_eq_nil in E; contradiction). Qed.
Lemma add_end_ne q l : l <> [] -> add_end q l <> [].
Proof. destruct l as [|[d s] [|? ?]]; easy. Qed.
Lemma pr_add_end q l : l <> [] -> pr (add_end q l) = (pr l ++ q)%string.
Proof.
  induction l as [|[d s] l IH]; [easy|]. intros _. destruct l as [|e l]; [unfold pr, ln; cbn; now rewrite sapp_assoc|].
  change (add_end q ((d, s) :: e :: l)) with ([(d, s)] ++ add_end q (e :: l))%list. change ((d, s) :: e :: l) with ([(d, s)] ++ e :: l)%list.
  rewrite !pr_app by (easy || now apply add_end_ne). rewrite IH by easy. now rewrite !sapp_assoc.
Qed.
Lemma commas_ne ls : ls <> [] -> Forall (fun x => x <> []) ls -> commas ls <> [].
Proof. intros Hl F. destruct F as [|x l Hx F]; [easy|]. cbn. destruct l; [exact Hx|]. intros E. apply app_eq_nil in E. destruct E as [E _]. now apply add_end_ne in E. Qed.
Lemma pr_commas ls : Forall (fun x => x <> []) ls -> pr (commas ls) = sjoin ("," ++ s1 nl) (map pr ls).
Proof.
  induction ls as [|x ls IH]; [reflexivity|]. intros F. inversion F as [|? ? Hx F']; subst. destruct ls as [|y ls]; [reflexivity|].
  change (commas (x :: y :: ls)) with (add_end "," x ++ commas (y :: ls))%list. rewrite pr_app; [|now apply add_end_ne|now apply commas_ne].
  rewrite pr_add_end, IH by easy. cbn [map]. rewrite (sjoin_cons _ (pr x)) by easy. now rewrite !sapp_assoc.
Qed.

(** serde's printer, seen as lines *)
Lemma serde_rows v : forall d, exists s t, rows d v = (d, s) :: t /\ serde_pretty d v = sjoin (s1 nl) (s :: map ln t).
Proof.
  induction v as [ | b | s | s | l IH | l IH] using json_ind'; intros d.
  1: now exists "null", [].
  1: now destruct b; [exists "true", []|exists "false", []].
  1: now exists s, [].
  1: now exists (quote s), [].
  - destruct l as [|x l]; [now exists "[]", []|]. set (L := x :: l) in *.
    exists "[", (commas (map (rows (S d)) L) ++ [(d, "]")])%list. split; [reflexivity|].
    assert (E : map pr (map (rows (S d)) L) = map (fun x => (srepeat "  " (S d) ++ serde_pretty (S d) x)%string) L).
    { rewrite map_map. apply map_ext_in. intros a Ha. rewrite Forall_forall in IH. destruct (IH a Ha (S d)) as (s & t & E1 & E2).
      rewrite E1, E2. unfold pr. destruct t as [|r t]; [reflexivity|]. cbn [map]. rewrite !sjoin_cons by easy. unfold ln at 1. cbn [fst snd]. now rewrite !sapp_assoc. }
    assert (Hne : Forall (fun x => x <> []) (map (rows (S d)) L)).
    { rewrite Forall_map. eapply Forall_impl; [|exact IH]. intros a Ha. destruct (Ha (S d)) as (? & ? & E1 & _). now rewrite E1. }
    rewrite sjoin_cons, map_app, sjoin_app; cycle 1.
    { intros E0. apply map_eq_nil in E0. revert E0. now apply commas_ne. }
    { easy. }
    { intros E0. apply map_eq_nil in E0. apply app_eq_nil in E0. now destruct E0. }
    change (sjoin (s1 nl) (map ln (commas (map (rows (S d)) L)))) with (pr (commas (map (rows (S d)) L))). rewrite pr_commas by exact Hne.
    rewrite E. reflexivity.
  - destruct l as [|x l]; [now exists "{}", []|]. set (L := x :: l) in *.
    set (R := fun e : string * json => prepend (quote (fst e) ++ ": ") (rows (S d) (snd e))).
    exists "{", (commas (map R L) ++ [(d, "}")])%list. split; [reflexivity|].
    assert (E : map pr (map R L) = map (fun e => (srepeat "  " (S d) ++ quote (fst e) ++ ": " ++ serde_pretty (S d) (snd e))%string) L).
    { rewrite map_map. apply map_ext_in. intros a Ha. rewrite Forall_forall in IH. destruct (IH a Ha (S d)) as (s & t & E1 & E2).
      unfold R. rewrite E1, E2. cbn [prepend]. unfold pr. destruct t as [|r t]; [unfold ln; cbn [map fst snd sjoin]; now rewrite !sapp_assoc|]. cbn [map]. rewrite !sjoin_cons by easy. unfold ln at 1. cbn [fst snd]. now rewrite !sapp_assoc. }
    assert (Hne : Forall (fun x => x <> []) (map R L)).
    { rewrite Forall_map. eapply Forall_impl; [|exact IH]. intros a Ha. destruct (Ha (S d)) as (? & ? & E1 & _). unfold R. now rewrite E1. }
    rewrite sjoin_cons, map_app, sjoin_app; cycle 1.
    { intros E0. apply map_eq_nil in E0. revert E0. now apply commas_ne. }
    { easy. }
    { intros E0. apply map_eq_nil in E0. apply app_eq_nil in E0. now destruct E0. }
    change (sjoin (s1 nl) (map ln (commas (map R L)))) with (pr (commas (map R L))). rewrite pr_commas by exact Hne.
    rewrite E. reflexivity.
Qed.
Lemma serde_pr v : serde_pretty 0 v = pr (rows 0 v).
Proof. destruct (serde_rows v 0) as (s & t & -> & ->). reflexivity. Qed.

(** ** clean lines: no line ends inside, starting with a visible character *)
Definition clean (s : string) : Prop := no_char nl s = true /\ no_char cr s = true /\ match s with String c _ => ws c = false | EmptyString => False end.
Lemma no_char_spec ch s : no_char ch s = true <-> forall c, In c (list_ascii_of_string s) -> c <> ch.
Proof.
  induction s as [|c s IH]; cbn; [intuition|]. rewrite andb_true_iff, negb_true_iff, Ascii.eqb_neq, IH. split.
  - intros [H1 H2] x [<- | Hx]; auto.
  - intros H. split; [apply H; now left|intros x Hx; apply H; now right].
Qed.
Lemma esc_char_clean c : no_char nl (esc_char c) = true /\ no_char cr (esc_char c) = true.
Proof. destruct c as [[] [] [] [] [] [] [] []]; vm_compute; auto. Qed.
Lemma esc_clean s : no_char nl (esc s) = true /\ no_char cr (esc s) = true.
Proof. induction s as [|c s [IH1 IH2]]; [auto|]. cbn [esc]. rewrite !no_char_app, IH1, IH2. destruct (esc_char_clean c) as [-> ->]. auto. Qed.
Lemma quote_clean s : clean (quote s).
Proof. unfold clean, quote. destruct (esc_clean s) as [H1 H2]. cbn [no_char]. rewrite !no_char_app, H1, H2. auto. Qed.
Lemma number_clean s : number_text s -> clean s.
Proof.
  intros [H1 H2]. split; [|split].
  - apply no_char_spec. intros c Hc ->. now specialize (H2 _ Hc).
  - apply no_char_spec. intros c Hc ->. now specialize (H2 _ Hc).
  - destruct s as [|c s]; [easy|]. apply H2. now left.
Qed.
Lemma clean_app a b : clean a -> no_char nl b = true -> no_char cr b = true -> clean (a ++ b).
Proof. intros (H1 & H2 & H3) H4 H5. split; [|split]; [now rewrite no_char_app, H1, H4|now rewrite no_char_app, H2, H5|destruct a; easy]. Qed.
Definition cleans (l : list (nat * string)) : Prop := Forall (fun r => clean (snd r)) l.
Lemma add_end_clean q l : no_char nl q = true -> no_char cr q = true -> cleans l -> cleans (add_end q l).
Proof.
  intros H1 H2 F. unfold cleans in *. induction F as [|[d s] t Hs F IH]; [constructor|]. destruct t as [|e t]; cbn [add_end] in *.
  - constructor; [|constructor]. cbn [snd] in *. now apply clean_app.
  - constructor; assumption.
Qed.
Lemma commas_clean ls : Forall cleans ls -> cleans (commas ls).
Proof.
  induction ls as [|x ls IH]; intros F; [constructor|]. inversion F as [|? ? Hx F']; subst. cbn [commas]. destruct ls as [|y ls]; [exact Hx|].
  apply Forall_app. split; [now apply add_end_clean|now apply IH].
Qed.
Lemma rows_clean v : jnum v -> forall d, cleans (rows d v).
Proof.
  induction v as [ | b | s | s | l IH | l IH] using json_ind'; intros J d.
  1: repeat constructor.
  1: destruct b; repeat constructor.
  1: inversion J; subst; constructor; [|constructor]; now apply number_clean.
  1: constructor; [|constructor]; apply quote_clean.
  - destruct l as [|x l]; [repeat constructor|]. set (L := x :: l) in *. inversion J as [ | | | | l' F | ]; subst l'.
    change (rows d (JArr L)) with ((d, "[") :: (commas (map (rows (S d)) L) ++ [(d, "]")])%list). constructor; [repeat constructor|].
    apply Forall_app. split; [|repeat constructor]. apply commas_clean. rewrite Forall_map. rewrite Forall_forall in *. intros a Ha. auto.
  - destruct l as [|x l]; [repeat constructor|]. set (L := x :: l) in *. inversion J as [ | | | | | l' F]; subst l'.
    change (rows d (JObj L)) with ((d, "{") :: (commas (map (fun e => prepend (quote (fst e) ++ ": ") (rows (S d) (snd e))) L) ++ [(d, "}")])%list). constructor; [repeat constructor|].
    apply Forall_app. split; [|repeat constructor]. apply commas_clean. rewrite Forall_map. rewrite Forall_forall in *. intros a Ha.
    specialize (IH a Ha (F a Ha) (S d)). destruct (rows (S d) (snd a)) as [|[d' s] t]; [constructor|]. inversion IH as [|? ? C1 C2]; subst. constructor; [|exact C2].
    cbn [snd] in *. destruct C1 as (N1 & N2 & _). apply clean_app; [|assumption|assumption]. apply clean_app; [apply quote_clean|reflexivity|reflexivity].
Qed.

(** ** str::lines *)
Lemma strip_cr_clean s : no_char cr s = true -> strip_cr s = s.
Proof.
  induction s as [|c s IH]; [reflexivity|]. cbn [no_char]. intros H. apply andb_true_iff in H. destruct H as [H1 H2]. cbn [strip_cr]. destruct s as [|c' s].
  - apply negb_true_iff in H1. now rewrite H1.
  - now rewrite IH.
Qed.
Lemma strip_cr_crlf s : no_char cr s = true -> strip_cr (s ++ s1 cr) = s.
Proof.
  induction s as [|c s IH]; [reflexivity|]. cbn [no_char]. intros H. apply andb_true_iff in H. destruct H as [H1 H2]. cbn [append].
  specialize (IH H2). destruct s as [|c' s]; cbn in *; [reflexivity|]. f_equal. exact IH.
Qed.
(** the line endings the model handles *)
Notation eol := line_end.
Notation flat := one_line.
Lemma split_join e l : eol e -> l <> [] -> Forall flat l -> forall rest,
  lines (sjoin e l ++ e ++ rest) = (l ++ lines rest)%list.
Proof.
  intros He. induction l as [|x l IH]; [easy|]. intros _ F rest. inversion F as [|? ? [H1 H2] F']; subst.
  assert (Hx : forall r, lines (x ++ e ++ r) = x :: lines r).
  { intros r. unfold lines. destruct He as [-> | ->].
    - cbn [s1 append]. rewrite split_cons by exact H1. assert (Hne : split nl r <> []) by (unfold split; generalize ""; induction r; cbn; intros; [easy|destruct (Ascii.eqb _ _); easy]).
      destruct (split nl r) eqn:Er; [easy|]. cbn [lines_of]. now rewrite strip_cr_clean.
    - cbn [s1 append]. replace (x ++ String cr (String nl r)) with ((x ++ s1 cr) ++ String nl r) by (rewrite sapp_assoc; reflexivity).
      rewrite split_cons by (rewrite no_char_app, H1; reflexivity).
      assert (Hne : split nl r <> []) by (unfold split; generalize ""; induction r; cbn; intros; [easy|destruct (Ascii.eqb _ _); easy]).
      destruct (split nl r) eqn:Er; [easy|]. cbn [lines_of]. now rewrite strip_cr_crlf. }
  destruct l as [|y l]; [exact (Hx rest)|]. rewrite sjoin_cons by easy. rewrite !sapp_assoc, Hx. cbn [List.app]. f_equal. apply IH; easy.
Qed.
Lemma lines_join e l : eol e -> l <> [] -> Forall flat l -> (forall x, In x l -> x <> "") -> lines (sjoin e l) = l.
Proof.
  intros He Hl F Hn. destruct (exists_last Hl) as (l' & x & ->). destruct l' as [|y l'].
  - cbn [sjoin]. unfold lines. rewrite Forall_app in F. destruct F as [_ F]. inversion F as [|? ? [H1 H2] _]; subst. cbn [List.app sjoin]. rewrite split_whole by exact H1. cbn [lines_of].
    destruct (String.eqb_spec x ""); [|reflexivity]. exfalso. apply (Hn x); [now left|assumption].
  - apply Forall_app in F. destruct F as [F1 F2]. rewrite sjoin_app by easy. change (sjoin e [x]) with x. rewrite split_join by easy. f_equal. unfold lines.
    inversion F2 as [|? ? [H1 H2] _]; subst. rewrite split_whole by exact H1. cbn [lines_of]. destruct (String.eqb_spec x ""); [|reflexivity].
    exfalso. apply (Hn x); [apply in_or_app; right; now left|assumption].
Qed.

(** ** re-indenting *)
Lemma count_ws_indent d s : clean s -> count_ws (srepeat "  " d ++ s) = Some (2 * d).
Proof.
  intros (_ & _ & H). induction d as [|d IH].
  - cbn. destruct s as [|c s]; [easy|]. cbn. now rewrite H.
  - change (srepeat "  " (S d) ++ s) with (String " " (String " " (srepeat "  " d ++ s))). cbn [count_ws ws]. rewrite IH.
    change (ws " ") with true. cbn [option_map]. f_equal. lia.
Qed.
Lemma drop_indent d s : drop_n (2 * d) (srepeat "  " d ++ s) = s.
Proof. induction d as [|d IH]; [reflexivity|]. replace (2 * S d) with (S (S (2 * d))) by lia. exact IH. Qed.
Lemma srepeat_add s a b : srepeat s (a + b) = srepeat s a ++ srepeat s b.
Proof. induction a as [|a IH]; [reflexivity|]. cbn [Nat.add srepeat]. now rewrite IH, sapp_assoc. Qed.
Lemma srepeat_mul c n d : srepeat (s1 c) (n * d) = srepeat (srepeat (s1 c) n) d.
Proof. induction d as [|d IH]; [now rewrite Nat.mul_0_r|]. cbn [srepeat]. rewrite <- IH, <- srepeat_add. f_equal. lia. Qed.
Definition unit_of (f : formatted) : string := srepeat (s1 (f_char f)) (f_count f).
Lemma reindent_ln f r : clean (snd r) -> reindent f (ln r) = srepeat (unit_of f) (fst r) ++ snd r.
Proof.
  intros H. unfold reindent, ln. rewrite count_ws_indent by exact H. rewrite drop_indent. replace (2 * fst r / 2) with (fst r) by (rewrite Nat.mul_comm, Nat.div_mul; lia).
  unfold unit_of. now rewrite srepeat_mul.
Qed.
Lemma join_lines_sjoin f l : join_lines f l = sjoin (f_end f) (map (reindent f) l).
Proof. induction l as [|x l IH]; [reflexivity|]. destruct l as [|y l]; [reflexivity|]. change (join_lines f (x :: y :: l)) with (reindent f x ++ f_end f ++ join_lines f (y :: l)). now rewrite IH. Qed.
Lemma ln_flat r : clean (snd r) -> flat (ln r) /\ ln r <> "".
Proof.
  intros (H1 & H2 & H3). unfold one_line, ln. rewrite !no_char_app, H1, H2. assert (forall ch d, (ch = nl \/ ch = cr) -> no_char ch (srepeat "  " d) = true) as E.
  { intros ch d Hc. induction d as [|d IH]; [reflexivity|]. destruct Hc as [-> | ->]; exact IH. }
  rewrite !E by auto. split; [auto|]. destruct (snd r); [easy|]. destruct (fst r); easy.
Qed.
Lemma rows_ne d v : rows d v <> [].
Proof. destruct (serde_rows v d) as (s & t & -> & _). easy. Qed.
(** to_string_pretty lays the value out in the style of [f] *)
Lemma to_string_layout f : jnum (f_value f) -> to_string_pretty f = layout (unit_of f) (f_end f) (f_trail f) (f_value f).
Proof.
  intros J. unfold to_string_pretty, layout. f_equal. rewrite serde_pr. unfold pr. pose proof (rows_clean J 0) as C.
  rewrite lines_join.
  - rewrite join_lines_sjoin, map_map. f_equal. apply map_ext_in. intros r Hr. unfold cleans in C. rewrite Forall_forall in C. apply reindent_ln, C, Hr.
  - now left.
  - intros E. apply map_eq_nil in E. now apply rows_ne in E.
  - rewrite Forall_map. eapply Forall_impl; [|exact C]. intros r Hr. now apply ln_flat.
  - intros x Hx. apply in_map_iff in Hx. destruct Hx as (r & <- & Hr). unfold cleans in C. rewrite Forall_forall in C. apply ln_flat, C, Hr.
Qed.

(** ** detection *)
Lemma first_end_app s r : flat s -> first_end (s ++ r) = first_end r.
Proof.
  intros [H1 H2]. induction s as [|c s IH]; [reflexivity|]. cbn [no_char] in *. apply andb_true_iff in H1, H2. destruct H1 as [H1 H1'], H2 as [H2 H2'].
  cbn [String.append first_end]. apply negb_true_iff in H1, H2. rewrite H2, H1. now apply IH.
Qed.
Lemma first_end_eol e r : eol e -> first_end (e ++ r) = Some e.
Proof. intros [-> | ->]; reflexivity. Qed.
Lemma last_char_app s r : r <> "" -> last_char (s ++ r) = last_char r.
Proof. intros Hr. induction s as [|c s IH]; [reflexivity|]. cbn. destruct (s ++ r) eqn:E; [destruct s; cbn in E; [now subst|discriminate]|exact IH]. Qed.
Definition is_end (c : ascii) : bool := Ascii.eqb c nl || Ascii.eqb c cr.
Lemma last_char_flat s : flat s -> match last_char s with Some c => is_end c | None => false end = false.
Proof.
  intros [H1 H2]. induction s as [|c s IH]; [reflexivity|]. cbn [no_char] in *. apply andb_true_iff in H1, H2. destruct H1 as [H1 H1'], H2 as [H2 H2'].
  cbn [last_char]. destruct s; [|now apply IH]. unfold is_end. apply negb_true_iff in H1, H2. now rewrite H1, H2.
Qed.
Lemma lead_ws_repeat c n s : ws c = true -> clean s -> lead_ws 0 None (srepeat (s1 c) (S n) ++ s) = Some (c, S n).
Proof.
  intros Hc (_ & _ & Hs). assert (G : forall m k, lead_ws k (Some c) (srepeat (s1 c) m ++ s) = Some (c, k + m)).
  { induction m as [|m IH]; intros k; cbn.
    - destruct s as [|c' s]; [easy|]. cbn. rewrite Hs, Nat.add_0_r. reflexivity.
    - rewrite Hc. rewrite IH. do 2 f_equal. lia. }
  cbn. rewrite Hc, G. reflexivity.
Qed.
(** a document of more than one line *)
Definition block_value (v : json) : Prop := (exists x l, v = JArr (x :: l)) \/ (exists x l, v = JObj (x :: l)).
Lemma rows_depth d v : exists s t, rows d v = (d, s) :: t.
Proof. destruct (serde_rows v d) as (s & t & E & _). eauto. Qed.
Lemma add_end_first q d s t : exists s' t', add_end q ((d, s) :: t) = (d, s') :: t'.
Proof. destruct t; cbn; eauto. Qed.
Lemma rows_block v : block_value v -> exists s s' t, rows 0 v = (0, s) :: (1, s') :: t.
Proof.
  assert (G : forall R L (tl : list (nat * string)), L <> [] -> (forall x : json, In x L -> exists s t, R x = (1, s) :: t) -> exists s t, (commas (map R L) ++ tl)%list = (1, s) :: t).
  { intros R L tl Hl H. destruct L as [|x [|y L]]; [easy| |].
    - destruct (H x (or_introl eq_refl)) as (s & t & E). cbn. rewrite E. cbn. eauto.
    - destruct (H x (or_introl eq_refl)) as (s & t & E). change (commas (map R (x :: y :: L))) with (add_end "," (R x) ++ commas (map R (y :: L)))%list. rewrite E.
      destruct (add_end_first "," 1 s t) as (s' & t' & ->). cbn. eauto. }
  assert (G' : forall R L (tl : list (nat * string)), L <> [] -> (forall x : string * json, In x L -> exists s t, R x = (1, s) :: t) -> exists s t, (commas (map R L) ++ tl)%list = (1, s) :: t).
  { intros R L tl Hl H. destruct L as [|x [|y L]]; [easy| |].
    - destruct (H x (or_introl eq_refl)) as (s & t & E). cbn. rewrite E. cbn. eauto.
    - destruct (H x (or_introl eq_refl)) as (s & t & E). change (commas (map R (x :: y :: L))) with (add_end "," (R x) ++ commas (map R (y :: L)))%list. rewrite E.
      destruct (add_end_first "," 1 s t) as (s' & t' & ->). cbn. eauto. }
  intros [(x & l & ->) | (x & l & ->)].
  - change (rows 0 (JArr (x :: l))) with ((0, "[") :: (commas (map (rows 1) (x :: l)) ++ [(0, "]")])%list).
    destruct (G (rows 1) (x :: l) [(0, "]")]) as (s & t & ->); [easy|intros; apply rows_depth|]. now exists "[", s, t.
  - change (rows 0 (JObj (x :: l))) with ((0, "{") :: (commas (map (fun e => prepend (quote (fst e) ++ ": ") (rows 1 (snd e))) (x :: l)) ++ [(0, "}")])%list).
    destruct (G' (fun e => prepend (quote (fst e) ++ ": ") (rows 1 (snd e))) (x :: l) [(0, "}")]) as (s & t & ->); [easy| |now exists "{", s, t].
    intros e _. destruct (rows_depth 1 (snd e)) as (s & t & ->). cbn. eauto.
Qed.
Lemma rows_single v : ~ block_value v -> exists s, rows 0 v = [(0, s)].
Proof.
  intros H. destruct v as [ | | | |[|? ?]|[|? ?]]; cbn [rows]; eauto; exfalso; apply H; [left|right]; eauto.
Qed.

(** ** reading the style back *)
Lemma split_ne ch r : split ch r <> [].
Proof. unfold split. generalize "". induction r; cbn; intros; [easy|]. destruct (Ascii.eqb _ _); easy. Qed.
Lemma split_prefix ch q b : no_char ch q = true -> exists h t, split ch (q ++ b) = (q ++ h)%string :: t.
Proof.
  intros H. unfold split. assert (G : forall cur, exists h t, split_aux ch cur (q ++ b) = (cur ++ q ++ h)%string :: t).
  { induction q as [|c q IH]; intros cur.
    - cbn [append]. revert cur. induction b as [|c b IH]; intros cur; cbn [split_aux].
      + exists "", []. now rewrite sapp_nil.
      + destruct (Ascii.eqb c ch); [exists ""; eexists; now rewrite sapp_nil|]. destruct (IH (cur ++ s1 c)%string) as (h & t & E). exists (s1 c ++ h), t.
        change (cur ++ String c "") with (cur ++ s1 c). rewrite E. now rewrite sapp_assoc.
    - cbn [no_char] in H. apply andb_true_iff in H. destruct H as [H1 H2]. apply negb_true_iff in H1. cbn [append split_aux]. rewrite H1.
      destruct (IH H2 (cur ++ s1 c)%string) as (h & t & E). exists h, t. change (cur ++ String c "") with (cur ++ s1 c). rewrite E. now rewrite sapp_assoc. }
  exact (G "").
Qed.
Lemma strip_cr_prefix q h : no_char cr q = true -> strip_cr (q ++ h) = q ++ strip_cr h.
Proof.
  intros H. induction q as [|c q IH]; [reflexivity|]. cbn [no_char] in H. apply andb_true_iff in H. destruct H as [H1 H2]. apply negb_true_iff in H1. specialize (IH H2).
  cbn [append strip_cr]. destruct (q ++ h) as [|c' r] eqn:E.
  - destruct q; [|discriminate]. cbn in E. subst h. cbn [append strip_cr]. now rewrite H1.
  - now rewrite IH.
Qed.
Lemma lines_first q b : flat q -> q <> "" -> exists h t, lines (q ++ b) = (q ++ h)%string :: t.
Proof.
  intros [H1 H2] Hq. destruct (@split_prefix nl q b H1) as (h & t & E). unfold lines. rewrite E. cbn [lines_of]. destruct t.
  - assert (String.eqb (q ++ h) "" = false) as -> by (destruct q; easy). eauto.
  - rewrite strip_cr_prefix by exact H2. eauto.
Qed.
Lemma lines_second e a r : eol e -> flat a -> lines (a ++ e ++ r) = a :: lines r.
Proof. intros He Ha. exact (@split_join e [a] He ltac:(easy) (Forall_cons _ Ha (Forall_nil _)) r). Qed.
Lemma lead_ws_repeat' c n x h : ws c = true -> ws x = false -> lead_ws 0 None (srepeat (s1 c) (S n) ++ String x h) = Some (c, S n).
Proof.
  intros Hc Hx. assert (G : forall m k, lead_ws k (Some c) (srepeat (s1 c) m ++ String x h) = Some (c, k + m)).
  { induction m as [|m IH]; intros k; cbn [srepeat append lead_ws s1].
    - rewrite Hx, Nat.add_0_r. reflexivity.
    - rewrite Hc. rewrite IH. do 2 f_equal. lia. }
  cbn [srepeat append lead_ws s1]. rewrite Hc. exact (G n 1).
Qed.
Lemma repeat_flat c n : indent_char c -> flat (srepeat (s1 c) n).
Proof. intros Hc. split; (induction n as [|n IH]; [reflexivity|]; destruct Hc as [-> | ->]; exact IH). Qed.
Lemma indent_ws c : indent_char c -> ws c = true.
Proof. intros [-> | ->]; reflexivity. Qed.
Lemma last_char_inv s c : last_char s = Some c -> exists t, s = t ++ s1 c.
Proof.
  induction s as [|a s IH]; cbn [last_char]; [discriminate|]. destruct s as [|b s]; [intros [= ->]; now exists ""|]. intros H. destruct (IH H) as (t & E).
  exists (String a t). cbn [append]. now rewrite <- E.
Qed.
Definition ends_lineb (s : string) : bool := match last_char s with Some c => is_end c | None => false end.
Lemma ends_lineb_spec s : ends_lineb s = true <-> ends_line s.
Proof.
  unfold ends_lineb, ends_line. split.
  - destruct (last_char s) as [c|] eqn:E; [|discriminate]. unfold is_end. rewrite orb_true_iff, !Ascii.eqb_eq. intros H. destruct (@last_char_inv s c E) as (t & ->). eauto.
  - intros (t & c & -> & H). rewrite last_char_app by easy. cbn. unfold is_end. now rewrite orb_true_iff, !Ascii.eqb_eq.
Qed.
Lemma from_str_style parse a e c n b v : flat a -> eol e -> indent_char c -> visible_start b -> parse (a ++ e ++ srepeat (s1 c) (S n) ++ b) = Some v ->
  from_str parse (a ++ e ++ srepeat (s1 c) (S n) ++ b) = Some (mkF v c (S n) e (ends_lineb (a ++ e ++ srepeat (s1 c) (S n) ++ b))).
Proof.
  intros Ha He Hc Hb Hp. unfold from_str. rewrite Hp. unfold detect_indentation. rewrite lines_second by assumption.
  destruct b as [|x b]; [easy|]. cbn in Hb. assert (Hx : x <> nl /\ x <> cr) by (split; intros ->; discriminate Hb). 
  destruct (@lines_first (srepeat (s1 c) (S n) ++ s1 x) b) as (h & t & E).
  { destruct (repeat_flat (S n) Hc) as [H1 H2]. split; rewrite no_char_app, ?H1, ?H2; cbn; rewrite (proj2 (Ascii.eqb_neq _ _)) by tauto; reflexivity. }
  { destruct n; easy. }
  rewrite sapp_assoc in E. change (s1 x ++ b) with (String x b) in E. rewrite E. rewrite sapp_assoc. change (s1 x ++ h) with (String x h). rewrite lead_ws_repeat' by (auto using indent_ws).
  unfold detect_line_end. rewrite first_end_app by assumption. rewrite first_end_eol by assumption. reflexivity.
Qed.
Definition with_value (v : json) (f : formatted) : formatted := mkF v (f_char f) (f_count f) (f_end f) (f_trail f).
Lemma style_kept parse a e c n b v : flat a -> eol e -> indent_char c -> visible_start b -> parse (a ++ e ++ srepeat (s1 c) (S n) ++ b) = Some v ->
  exists f, from_str parse (a ++ e ++ srepeat (s1 c) (S n) ++ b) = Some f /\ f_value f = v /\
  exists tr, (tr = true <-> ends_line (a ++ e ++ srepeat (s1 c) (S n) ++ b)) /\
  forall v', jnum v' -> to_string_pretty (with_value v' f) = layout (srepeat (s1 c) (S n)) e tr v'.
Proof.
  intros Ha He Hc Hb Hp. rewrite (from_str_style _ _ _ Ha He Hc Hb Hp). eexists. split; [reflexivity|]. split; [reflexivity|].
  eexists. split; [apply ends_lineb_spec|]. intros v' J. rewrite to_string_layout by exact J. reflexivity.
Qed.
Lemma ends_layout ind e tr v : (exists c n, ind = srepeat (s1 c) n /\ indent_char c) -> eol e -> jnum v -> ends_lineb (layout ind e tr v) = tr.
Proof.
  intros (c & n & -> & Hc) He J. unfold layout, ends_lineb. destruct tr.
  - rewrite last_char_app by (destruct He as [-> | ->]; easy). destruct He as [-> | ->]; reflexivity.
  - rewrite sapp_nil. pose proof (rows_clean J 0) as C. set (g := fun r => srepeat (srepeat (s1 c) n) (fst r) ++ snd r).
    assert (F : Forall flat (map g (rows 0 v))).
    { rewrite Forall_map. eapply Forall_impl; [|exact C]. intros r (H1 & H2 & _). unfold g. rewrite <- srepeat_mul. destruct (repeat_flat (n * fst r) Hc) as [H3 H4].
      split; now rewrite no_char_app, ?H1, ?H2, ?H3, ?H4. }
    assert (G : forall x, In x (map g (rows 0 v)) -> x <> "").
    { intros x Hx. apply in_map_iff in Hx. destruct Hx as (r & <- & Hr). unfold cleans in C. rewrite Forall_forall in C. destruct (C r Hr) as (_ & _ & H). unfold g. destruct (snd r); [easy|]. intros E. destruct (srepeat (srepeat (s1 c) n) (fst r)); discriminate. }
    assert (Hn : map g (rows 0 v) <> []) by (intros E; apply map_eq_nil in E; now apply rows_ne in E).
    destruct (exists_last Hn) as (l & x & El). rewrite El in *. apply Forall_app in F. destruct F as [_ F]. inversion F as [|? ? Fx _]; subst.
    destruct l as [|y l]; [exact (last_char_flat Fx)|]. rewrite sjoin_app by easy. change (sjoin e [x]) with x. rewrite <- sapp_assoc, last_char_app; [exact (last_char_flat Fx)|].
    apply G. apply in_or_app. right. now left.
Qed.
Lemma unchanged parse c n e tr v : indent_char c -> eol e -> jnum v -> parse (layout (srepeat (s1 c) (S n)) e tr v) = Some v ->
  exists f, from_str parse (layout (srepeat (s1 c) (S n)) e tr v) = Some f /\ f_value f = v /\ to_string_pretty f = layout (srepeat (s1 c) (S n)) e tr v.
Proof.
  intros Hc He J Hp. pose proof (@ends_layout (srepeat (s1 c) (S n)) e tr v) as Ht. pose proof (rows_clean J 0) as C.
  assert (D : block_value v \/ ~ block_value v).
  { unfold block_value. destruct v as [ | | | |[|x l]|[|x l]]; try (right; intros [(? & ? & ?) | (? & ? & ?)]; discriminate); left; [left|right]; eauto. }
  destruct D as [D | D].
  - destruct (rows_block D) as (s & s' & t & E). assert (L : exists b, layout (srepeat (s1 c) (S n)) e tr v = s ++ e ++ srepeat (s1 c) (S n) ++ b /\ visible_start b).
    { unfold cleans in C. rewrite E in C. inversion C as [|? ? _ C']; subst. inversion C' as [|? ? (_ & _ & V) _]; subst. cbn [snd] in V. unfold layout. rewrite E. cbn [map]. rewrite sjoin_cons by easy.
      exists (s' ++ (match t with [] => "" | _ => e ++ sjoin e (map (fun r => srepeat (srepeat (s1 c) (S n)) (fst r) ++ snd r) t) end) ++ (if tr then e else "")). split; [|destruct s'; easy].
      cbn [fst snd]. replace (srepeat (srepeat (s1 c) (S n)) 1) with (srepeat (s1 c) (S n)) by (cbn [srepeat]; now rewrite sapp_nil). destruct t as [|r t].
      - cbn [map sjoin]. change (srepeat (srepeat (s1 c) (S n)) 0) with "". rewrite !sapp_assoc. reflexivity.
      - cbn [map]. rewrite sjoin_cons by easy. change (srepeat (srepeat (s1 c) (S n)) 0) with "". rewrite !sapp_assoc. reflexivity. }
    destruct L as (b & L & Hb). unfold cleans in C. rewrite E in C. inversion C as [|? ? (F1 & F2 & _) _]; subst. cbn [snd] in F1, F2.
    assert (Ha : flat s) by (split; assumption). rewrite L in Hp |- *. rewrite (from_str_style _ _ _ Ha He Hc Hb Hp). eexists. split; [reflexivity|]. split; [reflexivity|].
    rewrite to_string_layout by exact J. cbn [f_trail f_end f_value]. rewrite <- L. rewrite Ht; [reflexivity| |assumption|assumption]. eauto.
  - destruct (rows_single D) as (s & E). unfold cleans in C. rewrite E in C. inversion C as [|? ? (F1 & F2 & F3) _]; subst. cbn [snd] in *.
    assert (L : layout (srepeat (s1 c) (S n)) e tr v = s ++ (if tr then e else "")) by (unfold layout; now rewrite E).
    assert (L' : forall u e' tr', layout u e' tr' v = s ++ (if tr' then e' else "")) by (intros; unfold layout; now rewrite E).
    rewrite L in *. unfold from_str. rewrite Hp. set (d := match detect_indentation _ with Some p => p | None => _ end). destruct d as [ch k].
    unfold detect_line_end. rewrite first_end_app by (split; assumption). assert (Hlast : match last_char (s ++ e) with Some c0 => is_end c0 | None => false end = true).
    { rewrite last_char_app by (destruct He as [-> | ->]; easy). destruct He as [-> | ->]; reflexivity. }
    destruct tr.
    + assert (Fe : first_end e = Some e) by (destruct He as [-> | ->]; reflexivity). cbv iota. rewrite Fe. eexists. split; [reflexivity|]. split; [reflexivity|]. rewrite to_string_layout by exact J. cbn [f_trail f_end f_value].
      unfold is_end in Hlast. rewrite Hlast. apply L'.
    + cbv iota. cbn [first_end]. eexists. split; [reflexivity|]. split; [reflexivity|]. rewrite to_string_layout by exact J. apply L'.
Qed.
