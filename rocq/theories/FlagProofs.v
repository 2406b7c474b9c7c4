(** * Flags, "--", and first-time setup: proofs *)
From Verif Require Import Base Types Kdl StdPath CliModel CliSpec CliProofs AuthModel AuthSpec AuthProofs AccountProofs AccountNext FlagModel.
Open Scope string_scope.
Open Scope list_scope.

(** ** reading a command line *)
Lemma dashed_same s : dashed' s = dashed s.
Proof. reflexivity. Qed.
Lemma cread_app_open takes : forall n a x p b, List.length a <= n -> cread takes a = Some (x, p, false) ->
  cread takes (a ++ b) = option_map (fun '(o, q, e) => (x ++ o, p ++ q, e)) (cread takes b).
Proof.
  induction n as [|n IH]; intros a x p b L H.
  - destruct a; [|cbn in L; lia]. cbn in H. injection H as <- <-. cbn. destruct (cread takes b) as [[[? ?] ?]|]; reflexivity.
  - destruct a as [|t r]; [cbn in H; injection H as <- <-; cbn; destruct (cread takes b) as [[[? ?] ?]|]; reflexivity|].
    cbn [cread app] in *. destruct (String.eqb t "--"); [discriminate|]. destruct (strip "--" t) as [m|].
    + destruct (takes m).
      * destruct r as [|v r]; [discriminate|]. cbn [app]. destruct (dashed' v); [discriminate|]. destruct (cread takes r) as [[[y q] e]|] eqn:E; [|discriminate].
        cbn [option_map] in H. injection H as <- <- ->. rewrite (IH r y q b) by (cbn in L; (lia || auto)). destruct (cread takes b) as [[[? ?] ?]|]; reflexivity.
      * destruct (cread takes r) as [[[y q] e]|] eqn:E; [|discriminate]. cbn [option_map] in H. injection H as <- <- ->.
        rewrite (IH r y q b) by (cbn in L; (lia || auto)). destruct (cread takes b) as [[[? ?] ?]|]; reflexivity.
    + destruct (dashed' t); [discriminate|]. destruct (cread takes r) as [[[y q] e]|] eqn:E; [|discriminate]. cbn [option_map] in H. injection H as <- <- ->.
      rewrite (IH r y q b) by (cbn in L; (lia || auto)). destruct (cread takes b) as [[[? ?] ?]|]; reflexivity.
Qed.
Lemma cread_app_ended takes : forall n a x p b, List.length a <= n -> cread takes a = Some (x, p, true) -> cread takes (a ++ b) = Some (x, p ++ b, true).
Proof.
  induction n as [|n IH]; intros a x p b L H.
  - destruct a; [|cbn in L; lia]. discriminate.
  - destruct a as [|t r]; [discriminate|].
    cbn [cread app] in *. destruct (String.eqb t "--"); [injection H as <- <-; reflexivity|]. destruct (strip "--" t) as [m|].
    + destruct (takes m).
      * destruct r as [|v r]; [discriminate|]. cbn [app]. destruct (dashed' v); [discriminate|]. destruct (cread takes r) as [[[y q] e]|] eqn:E; [|discriminate].
        cbn [option_map] in H. injection H as <- <- ->. rewrite (IH r y q b) by (cbn in L; (lia || auto)). reflexivity.
      * destruct (cread takes r) as [[[y q] e]|] eqn:E; [|discriminate]. cbn [option_map] in H. injection H as <- <- ->.
        rewrite (IH r y q b) by (cbn in L; (lia || auto)). reflexivity.
    + destruct (dashed' t); [discriminate|]. destruct (cread takes r) as [[[y q] e]|] eqn:E; [|discriminate]. cbn [option_map] in H. injection H as <- <- ->.
      rewrite (IH r y q b) by (cbn in L; (lia || auto)). reflexivity.
Qed.
(** without positional arguments the two readers agree *)
Lemma cread_clap takes : takes "" = false -> forall n a x, List.length a <= n -> ~ In "--" a -> clap takes a = Some x -> cread takes a = Some (x, [], false).
Proof.
  intros T0. induction n as [|n IH]; intros a x L Hn H.
  - destruct a; [|cbn in L; lia]. injection H as <-. reflexivity.
  - destruct a as [|t r]; [injection H as <-; reflexivity|]. cbn [clap cread] in *. destruct (String.eqb_spec t "--") as [->|_]; [exfalso; apply Hn; now left|].
    destruct (strip "--" t) as [m|]; [|discriminate]. destruct (takes m).
    + destruct r as [|v r]; [discriminate|]. rewrite dashed_same. destruct (dashed v); [discriminate|]. destruct (clap takes r) as [y|] eqn:E; [|discriminate].
      injection H as <-. rewrite (IH r y); auto; [cbn in L; lia|]. intros Hi. apply Hn. right. now right.
    + destruct (clap takes r) as [y|] eqn:E; [|discriminate]. injection H as <-. rewrite (IH r y); auto; [cbn in L; lia|]. intros Hi. apply Hn. now right.
Qed.

(** ** flags *)
Lemma flagged_fold x l : forall acc, fold_left (fun acc e => if String.eqb (fst e) x then Some true else if String.eqb (fst e) ("no-" ++ x) then Some false else acc) l acc
  = match flagged x l with Some b => Some b | None => acc end.
Proof.
  induction l as [|e l IH]; intros acc; [reflexivity|]. unfold flagged. cbn [fold_left]. rewrite !IH.
  destruct (String.eqb (fst e) x); [now destruct (flagged x l)|]. destruct (String.eqb (fst e) ("no-" ++ x)); now destruct (flagged x l).
Qed.
Lemma flagged_app x a b : flagged x (a ++ b) = match flagged x b with Some r => Some r | None => flagged x a end.
Proof. unfold flagged at 1. rewrite fold_left_app. apply flagged_fold. Qed.
Lemma flagged_none x l : (forall e, In e l -> fst e <> x /\ fst e <> ("no-" ++ x)%string) -> flagged x l = None.
Proof.
  induction l as [|e l IH]; intros H; [reflexivity|]. change (e :: l) with ([e] ++ l). rewrite flagged_app, IH by (intros e' Hi; apply H; now right).
  unfold flagged. cbn [fold_left]. destruct (H e (or_introl eq_refl)) as [H1 H2]. apply String.eqb_neq in H1, H2. now rewrite H1, H2.
Qed.
Lemma no_neq s : ("no-" ++ s)%string <> s.
Proof. intros E. apply (f_equal String.length) in E. cbn in E. lia. Qed.
(** the names a read-back of emitted arguments mentions *)
Lemma strip_in_clap takes : forall n a x, List.length a <= n -> clap takes a = Some x -> forall e, In e x -> In ("--" ++ fst e)%string a.
Proof.
  induction n as [|n IH]; intros a x L H e He.
  - destruct a; [|cbn in L; lia]. injection H as <-. contradiction.
  - destruct a as [|t r]; [injection H as <-; contradiction|]. cbn [clap] in H. destruct (strip "--" t) as [m|] eqn:Es; [|discriminate].
    assert (Et : t = ("--" ++ m)%string).
    { clear - Es. destruct t as [|c t]; [discriminate|]. cbn [strip] in Es. destruct (Ascii.eqb_spec "-" c) as [<-|]; [|discriminate].
      destruct t as [|c t]; [discriminate|]. destruct (Ascii.eqb_spec "-" c) as [<-|]; [|discriminate]. injection Es as ->. reflexivity. }
    destruct (takes m).
    + destruct r as [|v r]; [discriminate|]. destruct (dashed v); [discriminate|]. destruct (clap takes r) as [y|] eqn:E; [|discriminate].
      injection H as <-. destruct He as [<-|He]; [left; exact Et|]. right; right. apply (IH r y); auto. cbn in L; lia.
    + destruct (clap takes r) as [y|] eqn:E; [|discriminate]. injection H as <-. destruct He as [<-|He]; [left; exact Et|]. right. apply (IH r y); auto. cbn in L; lia.
Qed.

Section Show.
  Variable zshow : Z -> string.
  (** the configuration names neither the negation of [x] nor something whose negation is [x] *)
  Definition apart (x : string) (cfg : list (string * cval)) : Prop := forall k v, sget k cfg = Some v -> k <> ("no-" ++ x)%string /\ x <> ("no-" ++ k)%string.
  Lemma emit_names takes cfg o : typed takes o (sget o cfg) -> o <> "" ->
    exists vals, clap takes (emit zshow cfg o) = Some vals /\ ~ In "--" (emit zshow cfg o)
      /\ (forall e, In e vals -> fst e = o \/ fst e = ("no-" ++ o)%string)
      /\ (forall t, In t (emit zshow cfg o) -> dashed t = true -> t = ("--" ++ o)%string \/ t = ("--no-" ++ o)%string)
      /\ (sget o cfg = None -> vals = [])
      /\ (takes o = false -> forall v, sget o cfg = Some v -> flagged o vals = get_bool v).
  Proof.
    intros Hty Hne. destruct (emit_clap zshow takes cfg o Hty) as (vals & Hc & _ & Hd). exists vals.
    assert (Hn : ~ In "--" (emit zshow cfg o)).
    { intros Hi. destruct (Hd _ Hi eq_refl) as [E|E]; [|discriminate]. cbn in E. destruct o; [contradiction|discriminate]. }
    split; [auto|]. split; [auto|]. split.
    { intros e He. pose proof (strip_in_clap takes _ _ _ (le_n _) Hc e He) as Hi. destruct (Hd _ Hi eq_refl) as [E|E].
      - apply (app_inv_len "--" _ "--" _ eq_refl) in E. left. apply E.
      - change ("--no-" ++ o)%string with ("--" ++ ("no-" ++ o))%string in E. apply (app_inv_len "--" _ "--" _ eq_refl) in E. right. apply E. }
    split; [auto|]. split.
    - intros E. unfold emit in Hc. rewrite E in Hc. now injection Hc as <-.
    - intros Ht v Hv. rewrite Hv in Hty. destruct (emit_flag zshow _ _ _ _ Hv Ht Hty) as (b & Hb & Ee & Hn'). rewrite Hb, Ee in *. destruct b.
      + cbn [clap] in Hc. rewrite strip_dd, Ht in Hc. injection Hc as <-. unfold flagged. cbn [fold_left fst]. now rewrite String.eqb_refl.
      + cbn [clap] in Hc. change ("--no-" ++ o)%string with ("--" ++ ("no-" ++ o))%string in Hc. rewrite strip_dd, Hn' in Hc by auto. injection Hc as <-.
        unfold flagged. cbn [fold_left fst]. pose proof (no_neq o) as N. apply String.eqb_neq in N. change (String "n" (String "o" (String "-" o))) with ("no-" ++ o)%string. now rewrite N, String.eqb_refl.
  Qed.

  Lemma layered_flag takes given cfg x : takes x = false -> takes "" = false -> apart x cfg -> forall ids,
    (forall id, In id ids -> dashes id <> "" /\ typed takes (dashes id) (sget (dashes id) cfg)) -> NoDup (map dashes ids) ->
    forall args vals p, cread takes args = Some (vals, p, false) ->
    exists vals', cread takes (layered zshow given cfg ids args) = Some (vals ++ vals', p, false)
      /\ flagged x vals' = if existsb (fun i => String.eqb (dashes i) x && negb (given i)) ids && negb (existsb (String.eqb ("--no-" ++ x)) args)
                           then match sget x cfg with Some v => get_bool v | None => None end else None.
  Proof.
    intros Hx T0 Hap. induction ids as [|i ids IH]; intros Hty Hnd args vals p Hc; cbn [layered].
    - exists []. rewrite app_nil_r. split; [auto|]. reflexivity.
    - cbn [map] in Hnd. inversion Hnd as [|? ? Hni Hnd']; subst.
      assert (Hty' : forall id, In id ids -> dashes id <> "" /\ typed takes (dashes id) (sget (dashes id) cfg)) by (intros id Hin; apply Hty; now right).
      destruct (given i) eqn:Hg.
      { destruct (IH Hty' Hnd' args vals p Hc) as (vals' & H1 & H2). exists vals'. split; [auto|]. rewrite H2. cbn [existsb]. rewrite Hg, andb_false_r. reflexivity. }
      destruct (existsb (String.eqb ("--no-" ++ dashes i)) args) eqn:Hno.
      { destruct (IH Hty' Hnd' args vals p Hc) as (vals' & H1 & H2). exists vals'. split; [auto|]. rewrite H2. cbn [existsb].
        rewrite Hg. cbn [negb]. rewrite andb_true_r. destruct (String.eqb_spec (dashes i) x) as [E|]; [|reflexivity]. rewrite <- E, Hno. cbn [negb]. now rewrite !andb_false_r. }
      destruct (Hty i (or_introl eq_refl)) as [Hne Hti].
      destruct (emit_names takes cfg (dashes i) Hti Hne) as (ve & Ece & Hnn & Hnames & Htok & Hnone & Hflag).
      destruct (IH Hty' Hnd' (args ++ emit zshow cfg (dashes i)) (vals ++ ve) p) as (vals' & H1 & H2).
      { rewrite (cread_app_open _ (List.length args) args vals p _ (le_n _) Hc). rewrite (cread_clap takes T0 _ _ _ (le_n _) Hnn Ece). cbn [option_map]. now rewrite app_nil_r. }
      exists (ve ++ vals'). split; [rewrite H1; now rewrite app_assoc|].
      rewrite flagged_app, H2. cbn [existsb]. rewrite Hg. cbn [negb]. rewrite andb_true_r.
      destruct (String.eqb_spec (dashes i) x) as [E|Hne'].
      + assert (existsb (fun j => String.eqb (dashes j) x && negb (given j)) ids = false) as ->.
        { apply not_true_is_false. intros Hxx. apply existsb_exists in Hxx. destruct Hxx as (j & Hj & Hxx). apply andb_true_iff in Hxx. destruct Hxx as [Hxx _].
          apply String.eqb_eq in Hxx. apply Hni. rewrite E, <- Hxx. now apply in_map. }
        rewrite <- E, Hno. cbn [andb orb negb]. destruct (sget (dashes i) cfg) as [v|] eqn:Ev; [apply Hflag; [now rewrite E|reflexivity]|now rewrite Hnone].
      + cbn [orb]. rewrite existsb_app. assert (existsb (String.eqb ("--no-" ++ x)) (emit zshow cfg (dashes i)) = false) as ->.
        { apply not_true_is_false. intros Hxx. apply existsb_exists in Hxx. destruct Hxx as (t & Hin & Hxx). apply String.eqb_eq in Hxx. subst t.
          destruct (Htok _ Hin eq_refl) as [E|E].
          - change ("--no-" ++ x)%string with ("--" ++ ("no-" ++ x))%string in E. apply (app_inv_len "--" _ "--" _ eq_refl) in E. destruct E as [_ E].
            destruct (sget (dashes i) cfg) as [v|] eqn:Ev; [destruct (Hap _ _ Ev); congruence|]. unfold emit in Hin. rewrite Ev in Hin. contradiction.
          - apply (app_inv_len "--no-" _ "--no-" _ eq_refl) in E. destruct E as [_ E]. congruence. }
        rewrite orb_false_r. assert (flagged x ve = None) as ->; [|match goal with |- match ?c with _ => _ end = _ => now destruct c end].
        destruct (sget (dashes i) cfg) as [v|] eqn:Ev; [|rewrite Hnone by auto; reflexivity]. destruct (Hap _ _ Ev) as [A1 A2].
        apply flagged_none. intros e He. destruct (Hnames e He) as [->| ->]; split; try congruence.
        intros E. apply (app_inv_len "no-" _ "no-" _ eq_refl) in E. destruct E. congruence.
  Qed.
  (** the same for options that take a value *)
  Lemma layered_value takes given cfg : takes "" = false -> forall ids,
    (forall id, In id ids -> dashes id <> "" /\ typed takes (dashes id) (sget (dashes id) cfg)) -> NoDup (map dashes ids) ->
    forall args vals p, cread takes args = Some (vals, p, false) ->
    exists vals', cread takes (layered zshow given cfg ids args) = Some (vals ++ vals', p, false)
      /\ forall x, takes x = true -> sget ("no-" ++ x)%string cfg = None ->
           settings x vals' = if existsb (fun i => String.eqb (dashes i) x && negb (given i)) ids && negb (existsb (String.eqb ("--no-" ++ x)) args)
                              then match sget x cfg with Some v => option_values zshow v | None => [] end else [].
  Proof.
    intros T0. induction ids as [|i ids IH]; intros Hty Hnd args vals p Hc; cbn [layered].
    - exists []. rewrite app_nil_r. split; [auto|]. intros x _ _. reflexivity.
    - cbn [map] in Hnd. inversion Hnd as [|? ? Hni Hnd']; subst.
      assert (Hty' : forall id, In id ids -> dashes id <> "" /\ typed takes (dashes id) (sget (dashes id) cfg)) by (intros id Hin; apply Hty; now right).
      destruct (given i) eqn:Hg.
      { destruct (IH Hty' Hnd' args vals p Hc) as (vals' & H1 & H2). exists vals'. split; [auto|]. intros x Hx Hn. rewrite (H2 x Hx Hn). cbn [existsb]. rewrite Hg, andb_false_r. reflexivity. }
      destruct (existsb (String.eqb ("--no-" ++ dashes i)) args) eqn:Hno.
      { destruct (IH Hty' Hnd' args vals p Hc) as (vals' & H1 & H2). exists vals'. split; [auto|]. intros x Hx Hn. rewrite (H2 x Hx Hn). cbn [existsb].
        rewrite Hg. cbn [negb]. rewrite andb_true_r. destruct (String.eqb_spec (dashes i) x) as [E|]; [|reflexivity]. rewrite <- E, Hno. cbn [negb]. now rewrite !andb_false_r. }
      destruct (Hty i (or_introl eq_refl)) as [Hne Hti].
      destruct (emit_clap zshow takes cfg (dashes i) Hti) as (ve & Ece & Hse & Hte).
      assert (Hnn : ~ In "--" (emit zshow cfg (dashes i))).
      { intros Hi. destruct (Hte _ Hi eq_refl) as [E|E]; [|discriminate]. cbn in E. destruct (dashes i); [contradiction|discriminate]. }
      destruct (IH Hty' Hnd' (args ++ emit zshow cfg (dashes i)) (vals ++ ve) p) as (vals' & H1 & H2).
      { rewrite (cread_app_open _ (List.length args) args vals p _ (le_n _) Hc). rewrite (cread_clap takes T0 _ _ _ (le_n _) Hnn Ece). cbn [option_map]. now rewrite app_nil_r. }
      exists (ve ++ vals'). split; [rewrite H1; now rewrite app_assoc|].
      intros x Ht Hn. rewrite settings_app, (H2 x Ht Hn), (Hse _ Ht). cbn [existsb]. rewrite Hg. cbn [negb]. rewrite andb_true_r.
      destruct (String.eqb_spec (dashes i) x) as [E|Hne'].
      + rewrite E, String.eqb_refl. cbn [orb andb]. rewrite <- E, Hno. cbn [negb].
        assert (existsb (fun j => String.eqb (dashes j) (dashes i) && negb (given j)) ids = false) as ->.
        { apply not_true_is_false. intros Hx. apply existsb_exists in Hx. destruct Hx as (j & Hj & Hx). apply andb_true_iff in Hx. destruct Hx as [Hx _].
          apply String.eqb_eq in Hx. apply Hni. rewrite <- Hx. now apply in_map. }
        cbn [andb]. apply app_nil_r.
      + assert (String.eqb x (dashes i) = false) as -> by (apply String.eqb_neq; congruence). cbn [orb app].
        rewrite existsb_app. assert (existsb (String.eqb ("--no-" ++ x)) (emit zshow cfg (dashes i)) = false) as ->; [|now rewrite orb_false_r].
        apply not_true_is_false. intros Hx. apply existsb_exists in Hx. destruct Hx as (t & Hin & Hx). apply String.eqb_eq in Hx. subst t.
        destruct (Hte _ Hin eq_refl) as [E|E].
        * change ("--no-" ++ x)%string with ("--" ++ ("no-" ++ x))%string in E.
          apply (app_inv_len "--" _ "--" _ eq_refl) in E. destruct E as [_ E]. rewrite E in Hn. unfold emit in Hin. rewrite Hn in Hin. easy.
        * apply (app_inv_len "--no-" _ "--no-" _ eq_refl) in E. destruct E as [_ E]. congruence.
  Qed.
  (** once "--" has been seen, everything that is appended is positional *)
  Lemma layered_more given cfg ids : forall args, exists more, layered zshow given cfg ids args = args ++ more.
  Proof.
    induction ids as [|i ids IH]; intros args; cbn [layered]; [exists []; now rewrite app_nil_r|].
    destruct (given i); [apply IH|]. destruct (existsb _ args); [apply IH|]. destruct (IH (args ++ emit zshow cfg (dashes i))) as (m & ->).
    exists (emit zshow cfg (dashes i) ++ m). now rewrite app_assoc.
  Qed.
End Show.

(** ** the configuration file *)
Definition option_count (d : kdoc) : nat := List.length (filter (fun n => String.eqb (k_name n) "options") d).
Definition named (name : string) (l : kdoc) : nat := List.length (filter (fun n => String.eqb (k_name n) name) l).
Lemma query_one name d : option_count d <= 1 -> opt_query name d = is_some (kget name (options_of d)).
Proof.
  unfold option_count, opt_query, options_of. induction d as [|a d IH]; [reflexivity|]. cbn [filter existsb kget].
  destruct (String.eqb (k_name a) "options") eqn:E; cbn [andb].
  - cbn [List.length]. intros H. assert (Hz : filter (fun n => String.eqb (k_name n) "options") d = []) by (destruct (filter _ d); [auto|cbn in H; lia]).
    assert (existsb (fun n => String.eqb (k_name n) "options" && match k_children n with Some c => is_some (kget name c) | None => false end) d = false) as ->.
    { clear - Hz. induction d as [|b d IH]; [auto|]. cbn [filter existsb] in *. destruct (String.eqb (k_name b) "options"); [discriminate|]. auto. }
    rewrite orb_false_r. destruct (k_children a); reflexivity.
  - intros H. cbn [orb]. now apply IH.
Qed.
Lemma count_upd s f d : keeps f -> option_count (kupd s f d) = option_count d.
Proof.
  intros Hf. unfold option_count. induction d as [|a d IH]; [auto|]. cbn [kupd]. destruct (String.eqb (k_name a) s); cbn [filter]; [rewrite Hf; destruct (String.eqb (k_name a) "options"); reflexivity|].
  destruct (String.eqb (k_name a) "options"); cbn [List.length]; auto.
Qed.
Lemma keeps_arg0 v : keeps (set_arg0 v).
Proof. intros [s e c]. reflexivity. Qed.
Lemma kupd_last s f l n : kget s l = None -> k_name n = s -> kupd s f (l ++ [n]) = l ++ [f n].
Proof.
  intros H Hn. induction l as [|a l IH]; cbn [app kupd kget] in *; [rewrite Hn, String.eqb_refl; reflexivity|].
  destruct (String.eqb (k_name a) s); [discriminate|]. now rewrite IH.
Qed.
Lemma write_ok name b ex d : kget "options" d <> None -> ex = is_some (kget name (options_of d)) ->
  exists d', write_option name b ex d = Ok d' /\ kget "options" d' <> None /\ option_count d' = option_count d /\ others d' = others d
    /\ options_of d' = if ex then kupd name (set_arg0 (KBool b)) (options_of d) else options_of d ++ [KNode name [(None, KBool b)] None].
Proof.
  intros Ho Hex. unfold write_option.
  set (d1 := if ex then d else _).
  assert (H1 : kget "options" d1 <> None /\ option_count d1 = option_count d /\ others d1 = others d
    /\ obind (kget "options" d1) k_children = Some (options_of d1)
    /\ options_of d1 = if ex then options_of d else options_of d ++ [KNode name [(None, KBool b)] None]).
  { subst d1. destruct ex.
    - split; [auto|]. split; [auto|]. split; [auto|]. split; [|auto]. unfold options_of in *. destruct (kget "options" d) as [o|]; [|discriminate]. cbn [obind].
      destruct (k_children o); [reflexivity|discriminate].
    - set (f := fun o : knode => map_children (fun c => c ++ [KNode name [(None, KBool b)] None]) (ensure_children o)).
      assert (K : keeps f) by (intros [s e [c|]]; reflexivity).
      unfold options_of. rewrite !(kget_upd_eq "options" f d K). destruct (kget "options" d) as [o|] eqn:Eo; [|contradiction]. cbn [option_map obind].
      split; [discriminate|]. split; [now apply count_upd|]. split; [now apply others_upd|].
      destruct o as [s e [c|]]; cbn; auto. }
  destruct H1 as (A1 & A2 & A3 & A4 & A5). rewrite A4. eexists. split; [reflexivity|].
  pose proof (keeps_map_children (kupd name (set_arg0 (KBool b)))) as K.
  split; [rewrite kget_upd_eq by auto; destruct (kget "options" d1); [discriminate|contradiction]|].
  split; [rewrite count_upd by auto; exact A2|]. split; [rewrite others_upd by auto; exact A3|].
  assert (E : options_of (kupd "options" (map_children (kupd name (set_arg0 (KBool b)))) d1) = kupd name (set_arg0 (KBool b)) (options_of d1)).
  { unfold options_of. rewrite kget_upd_eq by auto. destruct (kget "options" d1) as [[s e [c|]]|]; reflexivity. }
  rewrite E, A5. destruct ex; [reflexivity|]. rewrite kupd_last; [reflexivity| |reflexivity]. destruct (kget name (options_of d)); [discriminate|reflexivity].
Qed.

(** what a file says about an option *)
Lemma collect_get k d : sget k (collect d) = layer_get k (map (fun m => (k_name m, node_value m)) (options_of d)).
Proof. rewrite collect_opts. apply to_map_get. Qed.
Lemma layer_get_app A k (a b : list (string * A)) : layer_get k (a ++ b) = match layer_get k b with Some v => Some v | None => layer_get k a end.
Proof. unfold layer_get. rewrite rev_app_distr. apply aget_app. Qed.
Lemma layer_upd_other k name f l : keeps f -> k <> name ->
  layer_get k (map (fun m => (k_name m, node_value m)) (kupd name f l)) = layer_get k (map (fun m => (k_name m, node_value m)) l).
Proof.
  intros Hf Hne. induction l as [|a l IH]; [reflexivity|]. cbn [kupd]. destruct (String.eqb_spec (k_name a) name) as [E|E]; cbn [map]; rewrite !layer_get_cons; cbn [fst snd].
  - rewrite Hf. destruct (String.eqb_spec k (k_name a)) as [E'|]; [congruence|]. reflexivity.
  - now rewrite IH.
Qed.
Lemma layer_none name l : kget name l = None -> layer_get name (map (fun m => (k_name m, node_value m)) l) = None.
Proof.
  induction l as [|a l IH]; [reflexivity|]. cbn [kget map]. rewrite layer_get_cons. cbn [fst snd]. destruct (String.eqb_spec (k_name a) name) as [|Hn]; [discriminate|].
  intros H. rewrite IH by auto. destruct (String.eqb_spec name (k_name a)); [congruence|reflexivity].
Qed.
Lemma layer_upd_same name f l n : keeps f -> named name l <= 1 -> kget name l = Some n ->
  layer_get name (map (fun m => (k_name m, node_value m)) (kupd name f l)) = Some (node_value (f n)).
Proof.
  intros Hf Hc Hg. unfold named in Hc. induction l as [|a l IH]; [discriminate|]. cbn [kupd kget filter] in *. destruct (String.eqb_spec (k_name a) name) as [E|E]; cbn [map]; rewrite layer_get_cons; cbn [fst snd].
  - injection Hg as ->. rewrite layer_none.
    + rewrite Hf, E, String.eqb_refl. reflexivity.
    + cbn [List.length] in Hc. clear - Hc. induction l as [|b l IH]; [auto|]. cbn [filter kget] in *. destruct (String.eqb (k_name b) name); [cbn in Hc; lia|auto].
  - rewrite IH by auto. reflexivity.
Qed.
Definition positional (n : knode) : nat := List.length (k_args n).
Lemma arg0_value v n : positional n <= 1 -> node_value (set_arg0 v n) = value_kind v.
Proof.
  destruct n as [s e c]. unfold positional, k_args. cbn [k_entries set_arg0]. intros H.
  assert (E : flat_map (fun e => match fst e with None => [value_kind (snd e)] | Some _ => [] end) (arg0_entries v e) = [value_kind v]).
  { induction e as [|[[k|] w] e IH]; cbn [arg0_entries flat_map fst snd app] in *; [reflexivity|apply IH; exact H|].
    cbn [List.length] in H. f_equal. clear - H. induction e as [|[[k|] w] e IH]; cbn [flat_map fst snd app List.length] in *; [reflexivity|auto|lia]. }
  cbn [node_value]. rewrite E. reflexivity.
Qed.

(** the file mentions the option at most once, with at most one value *)
Definition tidy_option (name : string) (d : kdoc) : Prop :=
  named name (options_of d) <= 1 /\ forall n, kget name (options_of d) = Some n -> positional n <= 1.
Lemma named_app name a b : named name (a ++ b) = named name a + named name b.
Proof. unfold named. rewrite filter_app. apply app_length. Qed.
Lemma named_upd name s f l : keeps f -> named name (kupd s f l) = named name l.
Proof.
  intros Hf. unfold named. induction l as [|a l IH]; [auto|]. cbn [kupd]. destruct (String.eqb (k_name a) s); cbn [filter]; [rewrite Hf; destruct (String.eqb (k_name a) name); reflexivity|].
  destruct (String.eqb (k_name a) name); cbn [List.length]; auto.
Qed.
Lemma write_get name b ex d d' : tidy_option name d -> kget "options" d <> None -> ex = is_some (kget name (options_of d)) -> write_option name b ex d = Ok d' ->
  sget name (collect d') = Some (CBool b) /\ (forall k, k <> name -> sget k (collect d') = sget k (collect d))
  /\ (forall k, k <> name -> tidy_option k d -> tidy_option k d') /\ tidy_option name d'.
Proof.
  intros [T1 T2] Ho Hex Hw. destruct (write_ok name b ex d Ho Hex) as (d2 & E & _ & _ & _ & Hopt). rewrite E in Hw. injection Hw as ->.
  rewrite collect_get, Hopt. destruct (kget name (options_of d)) as [n|] eqn:En; cbn [is_some] in Hex; subst ex.
  - split; [rewrite (layer_upd_same _ _ _ n) by (auto using keeps_arg0); now rewrite arg0_value by auto|].
    split; [intros k Hk; rewrite !collect_get, Hopt; apply layer_upd_other; auto using keeps_arg0|]. split.
    + intros k Hk [U1 U2]. unfold tidy_option. rewrite Hopt, named_upd by apply keeps_arg0. split; [auto|]. rewrite kget_upd_neq by auto using keeps_arg0. auto.
    + unfold tidy_option. rewrite Hopt, named_upd by apply keeps_arg0. split; [auto|]. rewrite kget_upd_eq, En by apply keeps_arg0. cbn [option_map]. intros m Hm. injection Hm as <-.
      specialize (T2 _ eq_refl). destruct n as [s e c]. unfold positional, k_args in *. cbn [set_arg0 k_entries] in *. clear - T2.
      induction e as [|[[k|] w] e IH]; cbn [arg0_entries flat_map fst snd app List.length] in *; auto.
  - split; [rewrite map_app, layer_get_app; cbn [map]; rewrite layer_get_cons; cbn; now rewrite String.eqb_refl|].
    split; [intros k Hk; rewrite !collect_get, Hopt, map_app, layer_get_app; cbn [map]; rewrite layer_get_cons; cbn; apply String.eqb_neq in Hk; now rewrite Hk|]. split.
    + intros k Hk [U1 U2]. unfold tidy_option. rewrite Hopt, named_app. unfold named at 2. cbn [filter k_name]. pose proof Hk as Hk'. apply not_eq_sym, String.eqb_neq in Hk. rewrite Hk. cbn [List.length].
      rewrite Nat.add_0_r. split; [auto|]. intros m. rewrite kget_app. destruct (kget k (options_of d)) eqn:Ek; [intros Hm; injection Hm as <-; now apply U2|].
      cbn [kget k_name]. rewrite Hk. discriminate.
    + unfold tidy_option. rewrite Hopt, named_app. unfold named. rewrite filter_none by exact En. cbn [filter k_name]. rewrite String.eqb_refl. cbn. split; [lia|].
      intros m. rewrite kget_app, En. cbn [kget k_name]. rewrite String.eqb_refl. intros Hm. injection Hm as <-. cbn. lia.
Qed.

(** a file that sets neither option twice *)
Definition tidy (d : kdoc) : Prop := option_count d <= 1 /\ tidy_option "telemetry" d /\ tidy_option "first-time" d.
Definition tidy_file (f : cfile) : Prop := match f with FText (Some d) => tidy d | FText None => False | _ => True end.
Definition doc_of (f : cfile) : kdoc := match f with FText (Some d) => d | _ => [] end.
Definition setting (f : cfile) (o : string) : option cval := sget o (collect (doc_of f)).
Lemma setup_ok tty answer f : tidy_file f -> (tty = true -> answer <> None) ->
  exists d', first_time_setup true false tty answer f = Ok (Some d', if tty then answer else None)
    /\ tidy d' /\ others d' = others (doc_of f)
    /\ setting (FText (Some d')) "first-time" = Some (CBool false)
    /\ setting (FText (Some d')) "telemetry" = (if tty then option_map CBool answer else setting f "telemetry")
    /\ forall o, o <> "first-time" -> o <> "telemetry" -> setting (FText (Some d')) o = setting f o.
Proof.
  intros Ht Ha. unfold first_time_setup. cbn [andb negb].
  assert (E0 : match f with FText d => d | _ => Some [] end = Some (doc_of f)) by (destruct f as [| |[d|]]; [reflexivity|reflexivity|reflexivity|contradiction]).
  rewrite E0. set (d := doc_of f) in *.
  assert (Td : tidy d).
  { subst d. destruct f as [| |[d|]]; [| |exact Ht|contradiction]; (split; [cbn; lia|split; (split; [cbn; lia|discriminate])]). }
  set (d1 := if is_some (kget "options" d) then d else d ++ [KNode "options" [] None]).
  assert (H1 : kget "options" d1 <> None /\ option_count d1 <= 1 /\ others d1 = others d /\ options_of d1 = options_of d).
  { subst d1. destruct Td as (C & _). unfold options_of. destruct (kget "options" d) as [o|] eqn:Eo; cbn [is_some]; [rewrite Eo; repeat split; auto; discriminate|].
    rewrite kget_app, Eo. cbn [kget k_name]. change (String.eqb "options" "options") with true. cbn [k_children]. split; [discriminate|].
    unfold option_count, others. rewrite !filter_app. rewrite (filter_none _ _ Eo). cbn. rewrite app_nil_r. auto. }
  destruct H1 as (A1 & A2 & A3 & A4).
  assert (Tt : forall o, tidy_option o d -> tidy_option o d1) by (intros o; unfold tidy_option; now rewrite A4).
  assert (Col : forall k, sget k (collect d1) = sget k (collect d)) by (intros k; rewrite !collect_get, A4; reflexivity).
  destruct Td as (C & T1 & T2).
  assert (Hr : exists d2, (if tty then match answer with None => Err EIo | Some b => let! d0 := write_option "telemetry" b (opt_query "telemetry" d) d1 in Ok (d0, Some b) end
                           else Ok (d1, None)) = Ok (d2, if tty then answer else None)
    /\ kget "options" d2 <> None /\ option_count d2 <= 1 /\ others d2 = others d /\ tidy_option "telemetry" d2 /\ tidy_option "first-time" d2
    /\ sget "telemetry" (collect d2) = (if tty then option_map CBool answer else sget "telemetry" (collect d))
    /\ forall k, k <> "telemetry" -> sget k (collect d2) = sget k (collect d)).
  { destruct tty; [|exists d1; repeat split; auto; try apply Tt; auto; now apply Tt].
    destruct answer as [b|]; [|now destruct (Ha eq_refl)].
    assert (Q : opt_query "telemetry" d = is_some (kget "telemetry" (options_of d1))) by (rewrite A4; now apply query_one).
    destruct (write_ok "telemetry" b _ d1 A1 Q) as (d2 & W & B1 & B2 & B3 & B4). rewrite W. cbn [rbind]. exists d2.
    destruct (write_get "telemetry" b _ d1 d2 (Tt _ T1) A1 Q W) as (G1 & G2 & G3 & G4).
    split; [reflexivity|]. split; [auto|]. split; [rewrite B2; exact A2|]. split; [rewrite B3; exact A3|]. split; [exact G4|]. split; [apply G3; [discriminate|now apply Tt]|].
    split; [exact G1|]. intros k Hk. rewrite G2 by auto. apply Col. }
  cbv zeta. fold d1. destruct Hr as (d2 & Er & B1 & B2 & B3 & B4 & B5 & B6 & B7). match goal with |- exists _, rbind ?e _ = _ /\ _ => change e with (if tty then match answer with None => Err EIo | Some b => let! d0 := write_option "telemetry" b (opt_query "telemetry" d) d1 in Ok (d0, Some b) end
                           else Ok (d1, None)) end. rewrite Er. cbn [rbind fst snd].
  assert (Q : opt_query "first-time" d2 = is_some (kget "first-time" (options_of d2))) by now apply query_one.
  destruct (write_ok "first-time" false _ d2 B1 Q) as (d3 & W & C1 & C2 & C3 & C4). rewrite W. cbn [rbind]. exists d3.
  destruct (write_get "first-time" false _ d2 d3 B5 B1 Q W) as (G1 & G2 & G3 & G4). split; [reflexivity|]. unfold setting. fold d. cbn [doc_of].
  split; [split; [lia|split; [apply G3; [discriminate|exact B4]|exact G4]]|]. split; [congruence|]. split; [exact G1|].
  split; [rewrite G2 by discriminate; exact B6|]. intros o Ho1 Ho2. rewrite G2, B7 by auto. reflexivity.
Qed.
