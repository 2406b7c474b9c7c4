(** * Facts about the command line model *)
From Verif Require Import Base Types Kdl StdPath CliModel CliSpec.
From Coq Require Import Permutation.
Open Scope string_scope.
Open Scope list_scope.

(** ** KEY=VALUE *)
Lemma sfind_app ch a b : no_char ch a = true -> sfind ch (a ++ String ch b)%string = Some (String.length a).
Proof.
  induction a as [|c a IH]; cbn; [now rewrite Ascii.eqb_refl|]. intros H. apply andb_true_iff in H. destruct H as [H1 H2].
  rewrite negb_true_iff in H1. rewrite H1, IH by auto. reflexivity.
Qed.
Lemma sfind_split ch s n : sfind ch s = Some n -> exists b, s = (stake n s ++ String ch b)%string /\ no_char ch (stake n s) = true /\ String.length (stake n s) = n.
Proof.
  revert n. induction s as [|c s IH]; cbn; intros n H; [discriminate|]. destruct (Ascii.eqb_spec c ch) as [->|Hne].
  - injection H as <-. exists s. auto.
  - destruct (sfind ch s) as [m|]; [|discriminate]. injection H as <-. destruct (IH m eq_refl) as (b & E & H1 & H2).
    exists b. cbn. split; [now f_equal|]. split; [|now rewrite H2]. rewrite H1. apply Ascii.eqb_neq in Hne. now rewrite Hne.
Qed.
Lemma stake_app a b : stake (String.length a) (a ++ b)%string = a.
Proof. induction a; cbn; [now destruct b|congruence]. Qed.
Lemma sdrop_app a b : sdrop (String.length a) (a ++ b)%string = b.
Proof. induction a; cbn; auto. Qed.
Lemma sdrop_app_S a c b : sdrop (S (String.length a)) (a ++ String c b)%string = b.
Proof. induction a; cbn in *; auto. Qed.
Lemma length_app a b : String.length (a ++ b)%string = String.length a + String.length b.
Proof. induction a; cbn; congruence. Qed.

Lemma sdrop_0 s : sdrop 0 s = s.
Proof. reflexivity. Qed.
Lemma kv_ok V (pv : string -> option V) k v x : no_char "=" k = true -> pv v = Some x -> parse_key_value pv (k ++ "=" ++ v)%string = Ok (k, x).
Proof.
  intros H Hv. unfold parse_key_value. cbn [append]. rewrite sfind_app by auto. unfold slice. cbn [Nat.leb rbind].
  rewrite Nat.sub_0_r, sdrop_0, stake_app, sdrop_app_S, Hv. reflexivity.
Qed.
Lemma kv_total V (pv : string -> option V) s : parse_key_value pv s <> Panic.
Proof. unfold parse_key_value. destruct (sfind "=" s); [|discriminate]. cbn. destruct (pv _); discriminate. Qed.
Lemma kv_exact V (pv : string -> option V) s k x : parse_key_value pv s = Ok (k, x) <-> exists v, s = (k ++ "=" ++ v)%string /\ no_char "=" k = true /\ pv v = Some x.
Proof.
  split.
  - unfold parse_key_value. destruct (sfind "=" s) as [n|] eqn:E; [|discriminate]. unfold slice. cbn [Nat.leb rbind]. rewrite Nat.sub_0_r, sdrop_0.
    destruct (sfind_split _ _ _ E) as (b & Hs & Hn & Hl). set (a := stake n s) in *.
    intros H. pose proof (sdrop_app_S a "=" b) as Hd. rewrite <- Hs, Hl in Hd. rewrite Hd in H. destruct (pv b) eqn:Ep; [|discriminate].
    injection H as <- <-. exists b. cbn [append]. auto.
  - intros (v & -> & H & Hv). now apply kv_ok.
Qed.

Lemma nkv_ok pre t k v : no_char "{" pre = true -> no_char "}" pre = true -> no_char "=" pre = true ->
  no_char "}" t = true -> no_char "=" t = true -> no_char "=" k = true ->
  parse_nested_key_value (pre ++ "{" ++ t ++ "}" ++ k ++ "=" ++ v)%string = Ok (t, k, v).
Proof.
  intros P1 P2 P3 H1 H2 H3. unfold parse_nested_key_value. cbn [append].
  rewrite sfind_app by auto.
  assert (E1 : (pre ++ String "{" (t ++ String "}" (k ++ String "=" v)))%string = ((pre ++ String "{" t) ++ String "}" (k ++ String "=" v))%string).
  { rewrite sapp_assoc. reflexivity. }
  assert (E2 : (pre ++ String "{" (t ++ String "}" (k ++ String "=" v)))%string = ((pre ++ String "{" (t ++ String "}" k)) ++ String "=" v)%string).
  { rewrite sapp_assoc. cbn [append]. rewrite sapp_assoc. reflexivity. }
  rewrite E1 at 1. rewrite sfind_app by (rewrite no_char_app, P2; cbn; auto).
  rewrite E2 at 1. rewrite sfind_app by (rewrite no_char_app, P3; cbn; rewrite no_char_app, H2; cbn; auto).
  unfold slice. rewrite !length_app. cbn [String.length]. rewrite !length_app. cbn [String.length].
  destruct (Nat.leb_spec (S (String.length pre)) (String.length pre + S (String.length t))); [|lia].
  replace (String.length pre + S (String.length t) - S (String.length pre)) with (String.length t) by lia.
  rewrite sdrop_app_S, stake_app. cbn [rbind].
  destruct (Nat.leb_spec (S (String.length pre + S (String.length t))) (String.length pre + S (String.length t + S (String.length k)))); [|lia].
  rewrite E1 at 1. replace (S (String.length pre + S (String.length t))) with (S (String.length (pre ++ String "{" t))) by (rewrite length_app; cbn; lia).
  rewrite sdrop_app_S. rewrite length_app. cbn [String.length].
  replace (String.length pre + S (String.length t + S (String.length k)) - S (String.length pre + S (String.length t))) with (String.length k) by lia.
  rewrite stake_app. cbn [rbind]. rewrite E2.
  replace (S (String.length pre + S (String.length t + S (String.length k)))) with (S (String.length (pre ++ String "{" (t ++ String "}" k)))) by (rewrite !length_app; cbn; rewrite length_app; cbn; lia).
  now rewrite sdrop_app_S.
Qed.

Lemma no_char_stake ch n s : no_char ch s = true -> no_char ch (stake n s) = true.
Proof. revert n. induction s as [|c s IH]; intros n H; destruct n; cbn in *; auto. apply andb_true_iff in H. destruct H as [H1 H2]. now rewrite H1, IH. Qed.
Lemma app_inv_len a b a' b' : String.length a = String.length a' -> (a ++ b = a' ++ b')%string -> a = a' /\ b = b'.
Proof.
  revert a'. induction a as [|c a IH]; destruct a'; cbn; intros L E; try discriminate; auto.
  injection E as -> E. injection L as L. destruct (IH _ L E) as [-> ->]. auto.
Qed.
(** a longer prefix of the same string extends the shorter one *)
Lemma app_prefix a b a' b' : String.length a <= String.length a' -> (a ++ b = a' ++ b')%string -> exists m, a' = (a ++ m)%string /\ b = (m ++ b')%string.
Proof.
  revert a'. induction a as [|c a IH]; cbn; intros a' L E; [now exists a'|].
  destruct a' as [|c' a']; cbn in L; [lia|]. cbn in E. injection E as -> E. destruct (IH a') as (m & -> & ->); [lia|auto|]. now exists m.
Qed.
Lemma nkv_exact s t k v : parse_nested_key_value s = Ok (t, k, v) <->
  exists pre, s = (pre ++ "{" ++ t ++ "}" ++ k ++ "=" ++ v)%string /\ no_char "{" pre = true /\ no_char "}" pre = true /\ no_char "=" pre = true
    /\ no_char "}" t = true /\ no_char "=" t = true /\ no_char "=" k = true.
Proof.
  split.
  - unfold parse_nested_key_value. destruct (sfind "{" s) as [o|] eqn:Eo; [|discriminate]. destruct (sfind "}" s) as [c|] eqn:Ec; [|discriminate].
    destruct (sfind "=" s) as [e|] eqn:Ee; [|discriminate]. unfold slice.
    destruct (Nat.leb_spec (S o) c); [|discriminate]. cbn [rbind]. destruct (Nat.leb_spec (S c) e); [|discriminate]. cbn [rbind].
    destruct (sfind_split _ _ _ Eo) as (ro & So & No & Lo). destruct (sfind_split _ _ _ Ec) as (rc & Sc & Nc & Lc). destruct (sfind_split _ _ _ Ee) as (re & Se & Ne & Le).
    set (po := stake o s) in *. set (pc := stake c s) in *. set (pe := stake e s) in *.
    destruct (app_prefix (po ++ "{") ro pc (String "}" rc)) as (mt & Emt & Ert).
    { rewrite length_app. cbn. lia. } { rewrite sapp_assoc. cbn [append]. congruence. }
    destruct (app_prefix (pc ++ "}") rc pe (String "=" re)) as (mk & Emk & Erk).
    { rewrite length_app. cbn. lia. } { rewrite sapp_assoc. cbn [append]. congruence. }
    intros H1.
    assert (Hs : s = (po ++ String "{" (mt ++ String "}" (mk ++ String "=" re)))%string) by congruence.
    assert (Npc : no_char "}" po = true /\ no_char "}" mt = true).
    { rewrite Emt, !no_char_app in Nc. apply andb_true_iff in Nc. destruct Nc as [Nc ->]. apply andb_true_iff in Nc. now destruct Nc as [-> _]. }
    assert (Npe : no_char "=" po = true /\ no_char "=" mt = true /\ no_char "=" mk = true).
    { rewrite Emk, Emt, !no_char_app in Ne. repeat (apply andb_true_iff in Ne; destruct Ne as [Ne ?]). auto. }
    destruct Npc as [Npc1 Npc2]. destruct Npe as (Npe1 & Npe2 & Npe3).
    pose proof (nkv_ok po mt mk re No Npc1 Npe1 Npc2 Npe2 Npe3) as Hok. cbn [append] in Hok. rewrite <- Hs in Hok.
    unfold parse_nested_key_value in Hok. rewrite Eo, Ec, Ee in Hok. unfold slice in Hok.
    destruct (Nat.leb_spec (S o) c); [|lia]. cbn [rbind] in Hok. destruct (Nat.leb_spec (S c) e); [|lia]. cbn [rbind] in Hok.
    rewrite Hok in H1. injection H1 as <- <- <-. exists po. cbn [append]. repeat split; auto.
  - intros (pre & -> & H1 & H2 & H3 & H4 & H5 & H6). now apply nkv_ok.
Qed.

(** ** layers *)
Lemma mset_other v k k' m : k <> k' -> sget k (mset v k' m) = sget k m.
Proof. intros H. destruct v; cbn [mset]; now rewrite sget_sput_neq. Qed.
Lemma mset_scalar v k m : scalar v -> sget k (mset v k m) = Some v.
Proof. destruct v; cbn [mset scalar]; intros H; try contradiction; apply sget_sput_eq. Qed.
Lemma aget_app K V (eqb : K -> K -> bool) k (a b : list (K * V)) : aget eqb k (a ++ b) = match aget eqb k a with Some v => Some v | None => aget eqb k b end.
Proof. induction a as [|[k' v'] a IH]; cbn; [auto|]. destruct (eqb k k'); auto. Qed.
Lemma layer_get_cons A k (e : string * A) l : layer_get k (e :: l) = match layer_get k l with Some v => Some v | None => if String.eqb k (fst e) then Some (snd e) else None end.
Proof. unfold layer_get. cbn [rev]. rewrite aget_app. destruct (sget k (rev l)); [auto|]. destruct e; cbn. now destruct (String.eqb k s). Qed.
Lemma layer_get_In A k (v : A) l : layer_get k l = Some v -> In (k, v) l.
Proof. unfold layer_get. intros H. apply aget_In in H; [|apply seqb_spec]. now apply in_rev in H. Qed.
Lemma add_layer_get k layer : forall m, (forall v, In (k, v) layer -> scalar v) ->
  sget k (add_layer m layer) = match layer_get k layer with Some v => Some v | None => sget k m end.
Proof.
  unfold add_layer. induction layer as [|[k' v'] layer IH]; intros m H; [reflexivity|]. cbn [fold_left fst snd].
  rewrite IH by (intros v Hv; apply H; now right). rewrite layer_get_cons. cbn [fst snd]. destruct (layer_get k layer); [auto|].
  destruct (String.eqb_spec k k') as [->|Hne].
  - apply mset_scalar, H. now left.
  - now apply mset_other.
Qed.
Lemma env_scalar env k v : In (k, v) (env_layer env) -> exists s, v = CStr s.
Proof. unfold env_layer. rewrite in_flat_map. intros ([n w] & _ & H). cbn [fst snd] in H. destruct (strip "oro_config_" (lower n)); [|easy]. destruct H as [H|[]]. injection H as <- <-. eauto. Qed.
Lemma layer_get_map A B (f : A -> B) k (l : list (string * A)) : layer_get k (map (fun e => (fst e, f (snd e))) l) = option_map f (layer_get k l).
Proof.
  induction l as [|[k' v'] l IH]; [reflexivity|]. cbn [map]. rewrite !layer_get_cons, IH. cbn. destruct (layer_get k l); [auto|]. cbn. now destruct (String.eqb k k').
Qed.
Lemma load_precedence s o : scalar_option s o -> sget o (load_config s) = precedence s o.
Proof.
  intros [H1 H2]. unfold load_config, precedence. cbn [first_of].
  rewrite add_layer_get by auto. destruct (layer_get o (file_layer (src_project s))); [auto|].
  rewrite add_layer_get by (intros v Hv; destruct (env_scalar _ _ _ Hv) as (x & ->); exact I). destruct (layer_get o (env_layer (src_env s))); [auto|].
  rewrite add_layer_get by auto. destruct (layer_get o (file_layer (src_global s))); [auto|].
  rewrite add_layer_get.
  - rewrite (@layer_get_map _ _ CStr). destruct (layer_get o (src_default s)); reflexivity.
  - intros v Hv. rewrite in_map_iff in Hv. destruct Hv as (e & E & _). injection E as _ <-. exact I.
Qed.

(** ** reading back the generated arguments *)
Lemma clap_app takes : forall n a x b, List.length a <= n -> clap takes a = Some x -> clap takes (a ++ b) = option_map (app x) (clap takes b).
Proof.
  induction n as [|n IH]; intros a x b L H.
  - destruct a; [|cbn in L; lia]. injection H as <-. cbn. now destruct (clap takes b).
  - destruct a as [|t r]; [injection H as <-; cbn; now destruct (clap takes b)|]. cbn [clap app] in *. destruct (strip "--" t) as [m|]; [|discriminate].
    destruct (takes m).
    + destruct r as [|v r]; [discriminate|]. cbn [app]. destruct (dashed v); [discriminate|]. destruct (clap takes r) as [y|] eqn:E; [|discriminate].
      injection H as <-. rewrite (IH r y b) by (cbn in L; (lia || auto)). destruct (clap takes b); reflexivity.
    + destruct (clap takes r) as [y|] eqn:E; [|discriminate]. injection H as <-. rewrite (IH r y b) by (cbn in L; (lia || auto)). destruct (clap takes b); reflexivity.
Qed.
Lemma strip_dd o : strip "--" ("--" ++ o)%string = Some o.
Proof. reflexivity. Qed.
Lemma clap_values takes o vs : takes o = true -> (forall v, In v vs -> dashed v = false) ->
  clap takes (flat_map (fun v => [("--" ++ o)%string; v]) vs) = Some (map (fun v => (o, Some v)) vs).
Proof.
  intros Ht. induction vs as [|v vs IH]; intros H; [reflexivity|]. cbn [flat_map app clap]. rewrite strip_dd, Ht, H by now left.
  rewrite IH; [reflexivity|]. intros w Hw. apply H. now right.
Qed.
Lemma settings_app n a b : settings n (a ++ b) = settings n a ++ settings n b.
Proof. apply flat_map_app. Qed.
Lemma settings_same o vs : settings o (map (fun v => (o, Some v)) vs) = vs.
Proof. induction vs as [|v vs IH]; [auto|]. unfold settings in *. cbn. rewrite String.eqb_refl. cbn. now rewrite IH. Qed.
Lemma settings_other o o' vs : o <> o' -> settings o (map (fun v => (o', Some v)) vs) = [].
Proof. intros H. induction vs as [|v vs IH]; [auto|]. unfold settings in *. cbn. apply not_eq_sym, String.eqb_neq in H. rewrite H. auto. Qed.

Section Show.
  Variable zshow : Z -> string.

  (** a map or list option: the values it stands for *)
  Definition option_values (v : cval) : list string :=
    match v with
    | CStr s => [s]
    | CTable l => flat_map (fun e => match snd e with
                                     | CTable m => map (fun f => ("{" ++ fst e ++ "}" ++ fst f ++ "=" ++ show zshow (snd f))%string) m
                                     | w => [(fst e ++ "=" ++ show zshow w)%string]
                                     end) l
    | CArray l => flat_map (fun w => match get_string zshow w with Some s => [s] | None => [] end) l
    | _ => []
    end.
  Lemma emit_values takes cfg o v : sget o cfg = Some v -> takes o = true -> typed takes o (Some v) ->
    emit zshow cfg o = flat_map (fun x => [("--" ++ o)%string; x]) (option_values v) /\ forall x, In x (option_values v) -> dashed x = false.
  Proof.
    intros Hv Ht Hty. unfold emit. rewrite Hv. cbn in Hty. rewrite Ht in Hty. destruct v as [s| | | |l|l]; try contradiction.
    - destruct Hty as [Hb Hd]. rewrite Hb. cbn [get_string option_values flat_map app]. split; [reflexivity|]. intros x [<-|[]]; auto.
    - cbn [get_bool get_string option_values]. split.
      + clear. induction l as [|[k w] l IH]; [reflexivity|]. cbn [flat_map]. rewrite flat_map_app, IH. f_equal. cbn [fst snd]. destruct w as [| | | |m|]; try reflexivity.
        induction m as [|f m IH0]; [reflexivity|]. cbn [flat_map map]. rewrite IH0. reflexivity.
      + intros x Hx. rewrite in_flat_map in Hx. destruct Hx as ([k w] & Hin & Hx). specialize (Hty _ _ Hin). cbn [fst snd] in Hx.
        assert (Hk : forall y, dashed (k ++ String "=" y)%string = false) by (intros y; destruct k; cbn in *; auto).
        destruct w; try (destruct Hx as [<-|[]]; apply Hk). rewrite in_map_iff in Hx. destruct Hx as (f & <- & _). reflexivity.
    - cbn [get_bool get_string option_values]. split.
      + clear. induction l as [|w l IH]; [reflexivity|]. cbn [flat_map]. rewrite IH, flat_map_app. f_equal. now destruct (get_string zshow w).
      + intros x Hx. rewrite in_flat_map in Hx. destruct Hx as (w & Hin & Hx). destruct (Hty _ Hin) as (s & -> & Hd). destruct Hx as [<-|[]]. auto.
  Qed.
  Lemma emit_flag takes cfg o v : sget o cfg = Some v -> takes o = false -> typed takes o (Some v) ->
    exists b, get_bool v = Some b /\ emit zshow cfg o = [if b then ("--" ++ o)%string else ("--no-" ++ o)%string] /\ (b = false -> takes ("no-" ++ o)%string = false).
  Proof. intros Hv Ht Hty. cbn in Hty. rewrite Ht in Hty. destruct Hty as (b & Hb & Hn). exists b. unfold emit. rewrite Hv, Hb. destruct b; auto. Qed.

  (** what an option contributes *)
  Lemma emit_clap takes cfg o : typed takes o (sget o cfg) ->
    exists vals, clap takes (emit zshow cfg o) = Some vals
      /\ (forall o', takes o' = true -> settings o' vals = if String.eqb o' o then match sget o cfg with Some v => option_values v | None => [] end else [])
      /\ (forall t, In t (emit zshow cfg o) -> dashed t = true -> t = ("--" ++ o)%string \/ t = ("--no-" ++ o)%string).
  Proof.
    intros Hty. destruct (sget o cfg) as [v|] eqn:Hv.
    - destruct (takes o) eqn:Ht.
      + destruct (emit_values _ _ _ _ Hv Ht Hty) as [E Hd]. rewrite E. exists (map (fun x => (o, Some x)) (option_values v)).
        split; [now apply clap_values|]. split.
        * intros o' Ho'. destruct (String.eqb_spec o' o) as [->|Hne]; [apply settings_same|now apply settings_other].
        * intros t Hin Hda. rewrite in_flat_map in Hin. destruct Hin as (x & Hx & [<-|[<-|[]]]); [auto|]. rewrite Hd in Hda by auto. discriminate.
      + destruct (emit_flag _ _ _ _ Hv Ht Hty) as (b & Hb & E & Hn). rewrite E. destruct b.
        * exists [(o, None)]. split; [cbn [clap]; rewrite strip_dd, Ht; reflexivity|]. split.
          -- intros o' Ho'. unfold settings. cbn. destruct (String.eqb_spec o o') as [->|]; [congruence|]. destruct (String.eqb_spec o' o); [congruence|auto].
          -- intros t [<-|[]] _. auto.
        * exists [(("no-" ++ o)%string, None)]. split.
          -- cbn [clap]. change ("--no-" ++ o)%string with ("--" ++ ("no-" ++ o))%string. rewrite strip_dd, Hn by auto. reflexivity.
          -- split; [|intros t [<-|[]] _; auto]. intros o' Ho'. unfold settings. cbn [flat_map fst snd]. destruct (String.eqb_spec ("no-" ++ o)%string o') as [E'|]; [rewrite <- E', Hn in Ho'; congruence|].
             destruct (String.eqb_spec o' o) as [->|]; [congruence|auto].
    - exists []. unfold emit. rewrite Hv. split; [reflexivity|]. split; [|intros t []]. intros o' _. cbn. now destruct (String.eqb o' o).
  Qed.

  Lemma layered_spec takes given cfg ids : (forall id, In id ids -> typed takes (dashes id) (sget (dashes id) cfg)) -> NoDup (map dashes ids) ->
    forall args vals, clap takes args = Some vals ->
    exists vals', clap takes (layered zshow given cfg ids args) = Some (vals ++ vals')
      /\ forall id, takes (dashes id) = true -> sget ("no-" ++ dashes id)%string cfg = None ->
           settings (dashes id) vals' = if existsb (fun i => String.eqb (dashes i) (dashes id) && negb (given i)) ids && negb (existsb (String.eqb ("--no-" ++ dashes id)) args)
                                        then match sget (dashes id) cfg with Some v => option_values v | None => [] end else [].
  Proof.
    induction ids as [|i ids IH]; intros Hty Hnd args vals Hc; cbn [layered].
    - exists []. rewrite app_nil_r. split; [auto|]. intros id _ _. reflexivity.
    - inversion Hnd as [|? ? Hni Hnd']; subst.
      assert (Hty' : forall id, In id ids -> typed takes (dashes id) (sget (dashes id) cfg)) by (intros id Hin; apply Hty; now right).
      assert (Hskip : exists vals', clap takes (layered zshow given cfg ids args) = Some (vals ++ vals')
        /\ forall id, takes (dashes id) = true -> sget ("no-" ++ dashes id)%string cfg = None ->
             settings (dashes id) vals' = if existsb (fun i => String.eqb (dashes i) (dashes id) && negb (given i)) ids && negb (existsb (String.eqb ("--no-" ++ dashes id)) args)
                                          then match sget (dashes id) cfg with Some v => option_values v | None => [] end else []).
      { now apply IH. }
      destruct (given i) eqn:Hg.
      { destruct Hskip as (vals' & H1 & H2). exists vals'. split; [auto|]. intros id Ht Hn. rewrite (H2 id Ht Hn). cbn [existsb]. rewrite Hg, andb_false_r. reflexivity. }
      destruct (existsb (String.eqb ("--no-" ++ dashes i)) args) eqn:Hno.
      { destruct Hskip as (vals' & H1 & H2). exists vals'. split; [auto|]. intros id Ht Hn. rewrite (H2 id Ht Hn). cbn [existsb].
        rewrite Hg. cbn [negb]. rewrite andb_true_r. destruct (String.eqb_spec (dashes i) (dashes id)) as [E|]; [|reflexivity]. rewrite <- E, Hno. cbn [negb]. now rewrite !andb_false_r. }
      destruct (emit_clap takes cfg (dashes i) (Hty i (or_introl eq_refl))) as (ve & Ece & Hse & Hte).
      destruct (IH Hty' Hnd' (args ++ emit zshow cfg (dashes i)) (vals ++ ve)) as (vals' & H1 & H2).
      { rewrite (clap_app _ (List.length args) args vals _ (le_n _) Hc), Ece. reflexivity. }
      exists (ve ++ vals'). split; [rewrite H1; now rewrite app_assoc|].
      intros id Ht Hn. rewrite settings_app, (H2 id Ht Hn), (Hse _ Ht). cbn [existsb]. rewrite Hg. cbn [negb]. rewrite andb_true_r.
      destruct (String.eqb_spec (dashes i) (dashes id)) as [E|Hne].
      + rewrite E, String.eqb_refl. cbn [orb andb]. rewrite <- E, Hno. cbn [negb].
        assert (existsb (fun j => String.eqb (dashes j) (dashes i) && negb (given j)) ids = false) as ->.
        { apply not_true_is_false. intros Hx. apply existsb_exists in Hx. destruct Hx as (j & Hj & Hx). apply andb_true_iff in Hx. destruct Hx as [Hx _].
          apply String.eqb_eq in Hx. apply Hni. rewrite <- Hx. now apply in_map. }
        cbn [andb]. apply app_nil_r.
      + assert (String.eqb (dashes id) (dashes i) = false) as -> by (apply String.eqb_neq; congruence). cbn [orb app].
        rewrite existsb_app. assert (existsb (String.eqb ("--no-" ++ dashes id)) (emit zshow cfg (dashes i)) = false) as ->; [|now rewrite orb_false_r].
        apply not_true_is_false. intros Hx. apply existsb_exists in Hx. destruct Hx as (t & Hin & Hx). apply String.eqb_eq in Hx. subst t.
        destruct (Hte _ Hin eq_refl) as [E|E].
        * change ("--no-" ++ dashes id)%string with ("--" ++ ("no-" ++ dashes id))%string in E.
          apply (app_inv_len "--" _ "--" _ eq_refl) in E. destruct E as [_ E]. rewrite E in Hn. unfold emit in Hin. rewrite Hn in Hin. easy.
        * apply (app_inv_len "--no-" _ "--no-" _ eq_refl) in E. destruct E as [_ E]. congruence.
  Qed.
End Show.
