(** * From a saved credential to the client of the next run: proofs *)
From Verif Require Import Base Types Kdl StdPath CliModel CliSpec CliProofs PropsCli AuthModel AuthSpec AuthProofs AccountProofs.
From Coq Require Import Permutation.
Open Scope string_scope.
Open Scope list_scope.

(** ** maps *)
Lemma sput_new A k (v : A) m : sget k m = None -> sput k v m = m ++ [(k, v)].
Proof. induction m as [|[k' v'] m IH]; cbn [aget aput app]; [reflexivity|]. destruct (String.eqb k k'); [discriminate|]. intros H. now rewrite IH. Qed.
Lemma sget_app_none A k (a b : list (string * A)) : sget k a = None -> sget k (a ++ b) = sget k b.
Proof. intros H. now rewrite aget_app, H. Qed.
Lemma to_map_nodup A (l : list (string * A)) : NoDup (map fst l) -> to_map l = l.
Proof.
  unfold to_map. assert (G : forall m, NoDup (map fst (m ++ l)) -> fold_left (fun m e => sput (fst e) (snd e) m) l m = m ++ l).
  { induction l as [|[k v] l IH]; intros m Hm; cbn [fold_left]; [now rewrite app_nil_r|]. cbn [fst snd]. rewrite sput_new.
    - rewrite IH; rewrite <- app_assoc; [reflexivity|exact Hm].
    - apply aget_None; [apply seqb_spec|]. rewrite map_app in Hm. cbn [map fst] in Hm. apply NoDup_remove_2 in Hm. intros H. apply Hm. apply in_or_app; auto. }
  intros H. now rewrite (G []).
Qed.
Lemma to_map_get A k (l : list (string * A)) : sget k (to_map l) = layer_get k l.
Proof.
  unfold to_map, layer_get. rewrite <- (app_nil_r (rev l)). change (sget k (fold_left (fun m e => sput (fst e) (snd e) m) l []) = sget k (rev l ++ [])).
  assert (G : forall (l : list (string * A)) m, sget k (fold_left (fun m e => sput (fst e) (snd e) m) l m) = sget k (rev l ++ m)).
  { clear l. induction l as [|[k' v] l IH]; intros m; cbn [fold_left rev]; [reflexivity|]. rewrite IH, !aget_app. cbn [fst snd].
    destruct (String.eqb_spec k k') as [<-|Hn].
    - rewrite sget_sput_eq. destruct (sget k (rev l)); [reflexivity|]. cbn. now rewrite String.eqb_refl.
    - rewrite sget_sput_neq by auto. destruct (sget k (rev l)); [reflexivity|]. cbn. destruct (String.eqb_spec k k'); [congruence|reflexivity]. }
  apply G.
Qed.
Lemma to_map_keys A (l : list (string * A)) : NoDup (map fst (to_map l)).
Proof.
  unfold to_map. assert (G : forall m, NoDup (map fst m) -> NoDup (map fst (fold_left (fun m e => sput (fst e) (snd e) m) l m))).
  { induction l as [|[k v] l IH]; intros m H; cbn [fold_left]; [auto|]. apply IH. apply aput_keys_NoDup; [apply seqb_spec|auto]. }
  apply G. constructor.
Qed.
Lemma add_layer_none k layer : forall m, (forall v, ~ In (k, v) layer) -> sget k (add_layer m layer) = sget k m.
Proof.
  unfold add_layer. induction layer as [|[k' v'] l IH]; intros m H; cbn [fold_left]; [reflexivity|]. rewrite IH by (intros v Hv; apply (H v); now right).
  cbn [fst snd]. apply mset_other. intros ->. apply (H v'). now left.
Qed.
Lemma add_layer_one k v layer : forall m, NoDup (map fst layer) -> In (k, v) layer -> sget k m = None -> exists m', sget k m' = None /\ sget k (add_layer m layer) = sget k (mset v k m').
Proof.
  induction layer as [|[k' v'] l IH]; intros m Hd Hi Hm; [contradiction|]. cbn [map fst] in Hd. inversion Hd; subst. destruct Hi as [E|Hi].
  - injection E as -> ->. exists m. split; [auto|]. unfold add_layer. cbn [fold_left fst snd]. apply (add_layer_none k l).
    intros w Hw. apply H1. change k with (fst (k, w)). now apply in_map.
  - unfold add_layer. cbn [fold_left fst snd]. destruct (IH (mset v' k' m)) as (m' & H' & E); auto.
    + rewrite mset_other; [auto|]. intros ->. apply H1. change k' with (fst (k', v)). now apply in_map.
    + exists m'. split; [auto|exact E].
Qed.
(** a table all of whose values are flat is copied as it is *)
Definition flat_value (v : cval) : Prop := match v with CTable t => NoDup (map fst t) /\ (forall k w, In (k, w) t -> scalar w) | _ => True end.
Lemma mset_scalar_eq v k m : scalar v -> mset v k m = sput k v m.
Proof. destruct v; cbn; intros H; try reflexivity. contradiction. Qed.
Fixpoint fill (l t : list (string * cval)) : list (string * cval) := match l with [] => t | (k', v') :: r => fill r (mset v' k' t) end.
Lemma mset_table inc k m : sget k m = None -> sget k (mset (CTable inc) k m) = Some (CTable (fill inc [])).
Proof. intros H. cbn [mset]. rewrite H, sget_sput_eq. reflexivity. Qed.
Lemma mset_flat v k t : flat_value v -> sget k t = None -> mset v k t = t ++ [(k, v)].
Proof.
  destruct v as [s|z|b| |l|l]; cbn [flat_value]; intros Hv Hk; try (cbn [mset]; now apply sput_new).
  cbn [mset]. rewrite Hk. destruct Hv as [Hd Hs].
  assert (G : forall acc, NoDup (map fst (acc ++ l)) -> fill l acc = acc ++ l).
  { clear Hd. induction l as [|[k' v'] l IH]; intros acc Ha; cbn [fill]; [now rewrite app_nil_r|].
    rewrite mset_scalar_eq by (apply (Hs k'); now left). rewrite sput_new.
    - rewrite IH; [now rewrite <- app_assoc| |now rewrite <- app_assoc]. intros k1 w Hw. apply (Hs k1). now right.
    - apply aget_None; [apply seqb_spec|]. rewrite map_app in Ha. cbn [map fst] in Ha. apply NoDup_remove_2 in Ha. intros H. apply Ha. apply in_or_app; auto. }
  change ((fix go (l0 t0 : list (string * cval)) {struct l0} : list (string * cval) := match l0 with [] => t0 | (k', v') :: r => go r (mset v' k' t0) end) l []) with (fill l []).
  rewrite (G []) by auto. now apply sput_new.
Qed.
Lemma fill_flat l : NoDup (map fst l) -> (forall k v, In (k, v) l -> flat_value v) -> fill l [] = l.
Proof.
  intros Hd Hf. assert (G : forall acc, NoDup (map fst (acc ++ l)) -> fill l acc = acc ++ l).
  { clear Hd. induction l as [|[k' v'] l IH]; intros acc Ha; cbn [fill]; [now rewrite app_nil_r|].
    rewrite mset_flat; [| |].
    - rewrite IH; [now rewrite <- app_assoc| |now rewrite <- app_assoc]. intros k1 w Hw. apply (Hf k1). now right.
    - apply (Hf k'). now left.
    - apply aget_None; [apply seqb_spec|]. rewrite map_app in Ha. cbn [map fst] in Ha. apply NoDup_remove_2 in Ha. intros H. apply Ha. apply in_or_app; auto. }
  now rewrite (G []).
Qed.
Lemma collect_opts d : collect d = to_map (map (fun m => (k_name m, node_value m)) (options_of d)).
Proof. unfold collect, options_of. destruct (kget "options" d) as [o|]; [|reflexivity]. destruct (k_children o); reflexivity. Qed.

(** ** the stored list *)
Definition node_of (e : url * stored) : knode := KNode (ushow (fst e)) (cred_entries (snd e)) None.
Definition auth_nodes (d : kdoc) : kdoc := filter (fun n => String.eqb (k_name n) "auth") (options_of d).
Definition rep (L : list (url * stored)) (d : kdoc) : Prop :=
  auth_nodes d = match L with [] => [] | _ => [KNode "auth" [] (Some (map node_of L))] end.
Lemma filter_upd_hd s f d : keeps f -> filter (fun n => String.eqb (k_name n) s) (kupd s f d) =
  match filter (fun n => String.eqb (k_name n) s) d with [] => [] | a :: t => f a :: t end.
Proof.
  intros Hf. induction d as [|a d IH]; cbn [kupd]; [reflexivity|]. destruct (String.eqb (k_name a) s) eqn:E; cbn [filter].
  - now rewrite Hf, E.
  - now rewrite E, IH.
Qed.
Lemma kget_filter s d : kget s d = hd_error (filter (fun n => String.eqb (k_name n) s) d).
Proof. induction d as [|a d IH]; cbn [kget filter]; [reflexivity|]. destruct (String.eqb (k_name a) s); [reflexivity|auto]. Qed.
Lemma rep_section L d : rep L d -> section_children "auth" d = match L with [] => None | _ => Some (map node_of L) end.
Proof. intros H. rewrite section_opts, kget_filter. fold (auth_nodes d). rewrite H. destruct L; reflexivity. Qed.

Section Next.
  Variable uparse : string -> option url.
  Definition known (e : url * stored) : Prop := uparse (ushow (fst e)) = Some (fst e).
  Definition unlike (u : url) (L : list (url * stored)) : list (url * stored) := filter (fun e => negb (String.eqb (nerf_dart (fst e)) (nerf_dart u))) L.
  Lemma clean_nodes u L : Forall known L -> clean_auth_nodes uparse u (map node_of L) = map node_of (unlike u L).
  Proof.
    unfold clean_auth_nodes, unlike. induction 1 as [|e L He _ IH]; [reflexivity|]. cbn [map filter k_name node_of]. unfold known in He. rewrite He.
    destruct (String.eqb (nerf_dart (fst e)) (nerf_dart u)); cbn [negb map]; [exact IH|now rewrite IH].
  Qed.
  Lemma set_rep L d u c : Forall known L -> rep L d -> rep (unlike u L ++ [(u, c)]) (set_credentials uparse u c d).
  Proof.
    intros HL H. unfold rep, auth_nodes, set_credentials. rewrite in_opts, ensure_opts, filter_upd_hd by apply keeps_map_children.
    assert (E : filter (fun n => String.eqb (k_name n) "auth") (with_section "auth" (options_of d)) = [KNode "auth" [] (Some (map node_of L))]).
    { unfold with_section, has_node. rewrite kget_filter. unfold rep, auth_nodes in H. rewrite H. destruct L as [|e L]; cbn [hd_error is_some].
      - rewrite filter_app, H. reflexivity.
      - exact H. }
    rewrite E. cbn [map_children]. rewrite clean_nodes by auto. destruct (unlike u L ++ [(u, c)]) eqn:E2; [now destruct (unlike u L)|].
    rewrite <- E2, map_app. reflexivity.
  Qed.
  Lemma filter_but_nil s l : filter (fun n => String.eqb (k_name n) s) (but s l) = [].
  Proof. unfold but. induction l as [|n l IH]; [reflexivity|]. cbn [filter]. destruct (String.eqb (k_name n) s) eqn:E; cbn [negb filter]; [exact IH|now rewrite E]. Qed.
  Lemma clear_rep L d u : Forall known L -> rep L d -> rep (unlike u L) (clear_credentials uparse u d).
  Proof.
    intros HL H. unfold clear_credentials. rewrite in_section_same, (rep_section L d H). destruct L as [|e L].
    - cbn [option_map]. unfold rep, auth_nodes. rewrite in_opts, filter_upd_hd by apply keeps_map_children. unfold rep, auth_nodes in H. rewrite H. reflexivity.
    - cbn [option_map]. rewrite clean_nodes by auto.
      assert (E : auth_nodes (in_section "auth" (clean_auth_nodes uparse u) d) = [KNode "auth" [] (Some (map node_of (unlike u (e :: L))))]).
      { unfold auth_nodes. rewrite in_opts, filter_upd_hd by apply keeps_map_children. unfold rep, auth_nodes in H. rewrite H. cbn [map_children]. now rewrite clean_nodes. }
      destruct (unlike u (e :: L)) as [|e' L'] eqn:E2; cbn [map].
      + unfold rep, auth_nodes. rewrite drop_opts. apply filter_but_nil.
      + unfold rep. rewrite E. reflexivity.
  Qed.
  Lemma scope_rep L d s u : rep L d -> rep L (set_scoped_registry s u d).
  Proof.
    unfold rep, auth_nodes, set_scoped_registry. intros H. rewrite in_opts, ensure_opts.
    rewrite (filter_upd_other (fun x => String.eqb x "auth")) by (auto using keeps_map_children). rewrite <- H. unfold with_section.
    destruct (has_node _ _); [reflexivity|]. rewrite filter_app. cbn [filter k_name String.eqb]. apply app_nil_r.
  Qed.
  Definition good (L : list (url * stored)) : Prop := Forall known L /\ NoDup (map (fun e => nerf_dart (fst e)) L).
  Lemma unlike_sub u L e : In e (unlike u L) -> In e L /\ nerf_dart (fst e) <> nerf_dart u.
  Proof. unfold unlike. intros H. apply filter_In in H as [H1 H2]. split; [auto|]. apply negb_true_iff, String.eqb_neq in H2. auto. Qed.
  Lemma unlike_nodup u L : NoDup (map (fun e : url * stored => nerf_dart (fst e)) L) -> NoDup (map (fun e => nerf_dart (fst e)) (unlike u L)).
  Proof.
    induction L as [|e L IH]; intros H; [constructor|]. cbn [map] in H. inversion H; subst. unfold unlike. cbn [filter].
    destruct (negb _); [|auto]. cbn [map]. constructor; [|auto]. intros Hi. apply H2. apply in_map_iff in Hi as (x & E & Hx). apply unlike_sub in Hx as [Hx _].
    rewrite <- E. apply in_map_iff. eauto.
  Qed.
  Lemma good_unlike u L : good L -> good (unlike u L).
  Proof.
    intros [H1 H2]. split; [|now apply unlike_nodup]. apply Forall_forall. intros e He. apply unlike_sub in He as [He _]. eapply Forall_forall in H1; eauto.
  Qed.
  Lemma good_snoc u c L : uparse (ushow u) = Some u -> good L -> good (unlike u L ++ [(u, c)]).
  Proof.
    intros Hu HL. destruct (good_unlike u L HL) as [H1 H2]. split.
    - apply Forall_app. split; [auto|]. constructor; [exact Hu|constructor].
    - rewrite map_app. apply NoDup_app_iff_; [auto|constructor; [easy|constructor]|]. intros x Hx [<-|[]]. apply in_map_iff in Hx as (e & E & He).
      apply unlike_sub in He as [_ He]. cbn [fst] in E. congruence.
  Qed.
  Lemma perform_rep L d o : op_ok uparse o -> good L -> rep L d -> exists L', good L' /\ rep L' (perform uparse o d) /\ forall e, In e L' -> In e L \/ exists u c, o = Save u c /\ e = (u, c).
  Proof.
    intros Ho HL H. destruct o as [u c|u|s u]; cbn [perform].
    - exists (unlike u L ++ [(u, c)]). split; [now apply good_snoc|]. split; [apply set_rep; [apply HL|auto]|].
      intros e He. apply in_app_or in He as [He|[<-|[]]]; [left; now apply unlike_sub in He|right; eauto].
    - exists (unlike u L). split; [now apply good_unlike|]. split; [apply clear_rep; [apply HL|auto]|]. intros e He. left. now apply unlike_sub in He.
    - exists L. split; [auto|]. split; [now apply scope_rep|auto].
  Qed.
  Lemma perform_all_rep l : forall L d, Forall (op_ok uparse) l -> good L -> rep L d ->
    exists L', good L' /\ rep L' (perform_all uparse l d) /\ forall e, In e L' -> In e L \/ exists u c, In (Save u c) l /\ e = (u, c).
  Proof.
    induction l as [|o l IH]; intros L d Hl HL H; [exists L; cbn; auto|]. inversion Hl; subst. cbn [perform_all fold_left].
    destruct (perform_rep L d o H2 HL H) as (L1 & G1 & R1 & S1). destruct (IH L1 _ H3 G1 R1) as (L2 & G2 & R2 & S2). exists L2. split; [auto|]. split; [exact R2|].
    intros e He. destruct (S2 e He) as [Hi|(u & c & Hi & ->)].
    - destruct (S1 e Hi) as [?|(u & c & -> & ->)]; [auto|]. right. exists u, c. cbn. auto.
    - right. exists u, c. cbn. auto.
  Qed.

  (** ** reading it back on the next run *)
  Definition fields (c : stored) : list (string * string) :=
    match c with
    | SToken t => [("token", t)]
    | SLegacy t => [("legacy-auth", t)]
    | SBasic n p => ("username", n) :: match p with Some p => [("password", p)] | None => [] end
    end.
  Definition as_table (c : stored) : cval := CTable (map (fun f => (fst f, CStr (snd f))) (fields c)).
  Lemma node_value_of e : node_value (node_of e) = as_table (snd e).
  Proof. destruct e as [u [t|t|n [p|]]]; reflexivity. Qed.
  Lemma ushow_not_dash u : String.eqb (ushow u) "-" = false.
  Proof.
    apply String.eqb_neq. intros H. apply (f_equal String.length) in H. unfold ushow in H. rewrite !length_app in H. cbn [String.length] in H. lia.
  Qed.
  Lemma good_keys L : good L -> NoDup (map (fun e : url * stored => ushow (fst e)) L).
  Proof.
    intros [H1 H2]. induction L as [|e L IH]; [constructor|]. inversion H1 as [|? ? Hk Hks]; subst. cbn [map] in *. inversion H2 as [|? ? Hn Hns]; subst. constructor; [|auto].
    intros Hi. apply in_map_iff in Hi as (e' & E & He'). apply Hn. apply in_map_iff. exists e'. split; [|auto].
    assert (known e') by (eapply Forall_forall in Hks; eauto). unfold known in *. congruence.
  Qed.
  Lemma auth_value_table L : good L -> L <> [] ->
    node_value (KNode "auth" [] (Some (map node_of L))) = CTable (map (fun e => (ushow (fst e), as_table (snd e))) L).
  Proof.
    intros HL Hn. cbn [node_value flat_map]. destruct L as [|e L]; [contradiction|]. cbn [map forallb node_of k_name]. rewrite ushow_not_dash. cbn [andb].
    f_equal. change (to_map (map (fun m => (k_name m, node_value m)) (map node_of (e :: L))) = map (fun e => (ushow (fst e), as_table (snd e))) (e :: L)).
    rewrite map_map. rewrite (map_ext _ (fun e => (ushow (fst e), as_table (snd e)))) by (intros x; now rewrite node_value_of).
    apply to_map_nodup. rewrite map_map. cbn [fst]. now apply good_keys.
  Qed.
  Lemma layer_get_filter A (p : string) (l : list (string * A)) : layer_get p l = layer_get p (filter (fun e => String.eqb (fst e) p) l).
  Proof.
    induction l as [|e l IH]; [reflexivity|]. rewrite layer_get_cons. cbn [filter]. destruct (String.eqb_spec (fst e) p) as [E|E].
    - rewrite layer_get_cons, <- IH. reflexivity.
    - rewrite <- IH. destruct (layer_get p l); [reflexivity|]. destruct (String.eqb_spec p (fst e)); [congruence|reflexivity].
  Qed.
  Lemma filter_map_swap A B (f : A -> B) (p : B -> bool) l : filter p (map f l) = map f (filter (fun x => p (f x)) l).
  Proof. induction l as [|a l IH]; [reflexivity|]. cbn [map filter]. destruct (p (f a)); cbn [map]; now rewrite IH. Qed.
  Lemma collect_auth L d : good L -> rep L d ->
    sget "auth" (collect d) = match L with [] => None | _ => Some (CTable (map (fun e => (ushow (fst e), as_table (snd e))) L)) end.
  Proof.
    intros HL H. rewrite collect_opts, to_map_get, layer_get_filter, filter_map_swap. cbn [fst].
    change (filter (fun x => String.eqb (k_name x) "auth") (options_of d)) with (auth_nodes d). rewrite H. destruct L as [|e L]; [reflexivity|].
    cbn [map]. rewrite layer_get_cons. cbn [fst snd]. unfold layer_get. cbn [rev aget k_name]. rewrite String.eqb_refl.
    change (node_value (KNode "auth" [] (Some (node_of e :: map node_of L)))) with (node_value (KNode "auth" [] (Some (map node_of (e :: L))))).
    rewrite auth_value_table by (auto; discriminate). reflexivity.
  Qed.
  Lemma loaded_auth L d def env proj : good L -> rep L d ->
    (forall v, ~ In ("auth", v) def) -> (forall v, ~ In ("auth", v) (env_layer env)) -> (forall v, ~ In ("auth", v) (file_layer proj)) ->
    sget "auth" (load_config (mkSrc def (Some d) env proj)) = match L with [] => None | _ => Some (CTable (map (fun e => (ushow (fst e), as_table (snd e))) L)) end.
  Proof.
    intros HL H Hd He Hp. unfold load_config. cbn [src_default src_global src_env src_project file_layer].
    rewrite add_layer_none by exact Hp. rewrite add_layer_none by exact He.
    assert (H0 : sget "auth" (add_layer [] (map (fun e : string * string => (fst e, CStr (snd e))) def)) = None).
    { rewrite add_layer_none; [reflexivity|]. intros v Hv. apply in_map_iff in Hv as ([k x] & E & Hx). injection E as E1 E2. cbn in E1. subst k. exact (Hd x Hx). }
    assert (Hc := collect_auth L d HL H). destruct L as [|e L].
    - rewrite add_layer_none; [exact H0|]. intros v Hv. rewrite aget_None in Hc by apply seqb_spec. apply Hc. change "auth" with (fst ("auth", v)). now apply in_map.
    - apply aget_In in Hc as Hi; [|apply seqb_spec].
      destruct (add_layer_one "auth" _ (collect d) _ (ltac:(rewrite collect_opts; apply to_map_keys)) Hi H0) as (m' & Hm' & E).
      rewrite E, mset_table by exact Hm'. rewrite fill_flat; [reflexivity| |].
      + rewrite map_map. cbn [fst]. now apply good_keys.
      + intros k v Hv. apply in_map_iff in Hv as ([u c] & E1 & _). injection E1 as <- <-. cbn [snd]. unfold as_table, flat_value. split.
        * destruct c as [t|t|n [p|]]; cbn; repeat constructor; cbn; intuition discriminate.
        * intros k' w Hw. apply in_map_iff in Hw as ([a b] & E2 & _). injection E2 as _ <-. exact I.
  Qed.
  Definition triples (L : list (url * stored)) : list (string * string * string) :=
    flat_map (fun e => map (fun f => (ushow (fst e), fst f, snd f)) (fields (snd e))) L.
  Lemma emitted zshow L cfg : L <> [] ->
    sget "auth" cfg = Some (CTable (map (fun e => (ushow (fst e), as_table (snd e))) L)) ->
    (forall e, In e L -> no_char "=" (ushow (fst e)) = true /\ no_char "}" (ushow (fst e)) = true) ->
    exists args, emit zshow cfg "auth" = flat_map (fun a => ["--auth"; a]) args /\ map parse_nested_key_value args = map Ok (triples L).
  Proof.
    intros Hn H Hc. destruct (c34_nested zshow cfg "auth" (map (fun e => (ushow (fst e), fields (snd e))) L)) as (args & A1 & A2).
    - rewrite H, map_map. reflexivity.
    - intros k m Hi. apply in_map_iff in Hi as (e & E & He). injection E as <- <-. destruct (Hc e He). split; [auto|]. split; [auto|].
      intros n v Hv. destruct (snd e) as [t|t|x [p|]]; cbn in Hv; intuition (try congruence); match goal with H : (_, _) = (_, _) |- _ => injection H as <- _; reflexivity end.
    - exists args. split; [exact A1|]. rewrite A2. f_equal. unfold triples. rewrite flat_map_concat_map, map_map, <- flat_map_concat_map. reflexivity.
  Qed.

  (** the credentials of the arguments, in whatever order they come *)
  Lemma triple_In L r k v : In (r, k, v) (triples L) <-> exists u c, In (u, c) L /\ r = ushow u /\ In (k, v) (fields c).
  Proof.
    unfold triples. rewrite in_flat_map. split.
    - intros ([u c] & Hi & H). apply in_map_iff in H as ([k' v'] & E & Hf). injection E as <- <- <-. exists u, c. auto.
    - intros (u & c & Hi & -> & Hf). exists (u, c). split; [auto|]. apply in_map_iff. exists (k, v). auto.
  Qed.
  Lemma good_unique L u c u' c' : good L -> In (u, c) L -> In (u', c') L -> nerf_dart u = nerf_dart u' -> u = u' /\ c = c'.
  Proof.
    intros [_ H] H1 H2 E. revert H H1 H2. induction L as [|e L IH]; [contradiction|]. cbn [map]. intros Hd [->|H1] [E2|H2]; inversion Hd as [|? ? Hno Hnd]; subst.
    - injection E2 as -> ->. auto.
    - exfalso. apply Hno. cbn [fst]. rewrite E. apply in_map_iff. exists (u', c'). auto.
    - exfalso. apply Hno. cbn [fst]. rewrite <- E. apply in_map_iff. exists (u, c). auto.
    - now apply IH.
  Qed.
  Lemma password_is L tr u n p : good L -> Permutation tr (triples L) -> In (u, SBasic n p) L -> password_for (ushow u) tr = p.
  Proof.
    intros HL HP Hi. unfold password_for. destruct (find _ tr) as [[[r k] v]|] eqn:E.
    - apply find_some in E as [E1 E2]. apply andb_true_iff in E2 as [E2 E3]. apply String.eqb_eq in E2, E3. subst r k.
      apply (Permutation_in _ HP), triple_In in E1 as (u' & c' & Hi' & Eu & Hf).
      assert (u = u').
      { destruct HL as [HL _]. rewrite Forall_forall in HL. pose proof (HL _ Hi) as A. pose proof (HL _ Hi') as B. unfold known in A, B. cbn [fst] in A, B. congruence. }
      subst u'. destruct (good_unique L u _ u _ HL Hi Hi' eq_refl) as [_ <-]. cbn in Hf. destruct p as [p|]; cbn in Hf; destruct Hf as [Hf|Hf]; try discriminate Hf.
      + destruct Hf as [Hf|[]]. injection Hf as <-. reflexivity.
      + contradiction.
    - destruct p as [p|]; [|reflexivity]. exfalso.
      assert (Ht : In (ushow u, "password", p) tr).
      { apply (Permutation_in _ (Permutation_sym HP)), triple_In. exists u, (SBasic n (Some p)). cbn. auto. }
      apply (find_none _ _ E) in Ht. now rewrite String.eqb_refl in Ht.
  Qed.
  Lemma entry_cred_In L tr u c : good L -> Permutation tr (triples L) ->
    In (u, c) (flat_map (entry_cred uparse tr) tr) <-> exists s, In (u, s) L /\ c = as_cred s.
  Proof.
    intros HL HP. rewrite in_flat_map. split.
    - intros ([[r k] v] & Hi & H). apply (Permutation_in _ HP), triple_In in Hi as (u' & s & Hi & -> & Hf).
      cbn [entry_cred] in H. destruct HL as [HL1 HL2]. pose proof HL1 as HL1'. rewrite Forall_forall in HL1. pose proof (HL1 _ Hi) as A. unfold known in A. cbn [fst] in A. rewrite A in H.
      destruct s as [t|t|n p]; cbn [fields] in Hf.
      + destruct Hf as [Hf|[]]. injection Hf as <- <-. cbn in H. destruct H as [H|[]]. injection H as <- <-. eauto.
      + destruct Hf as [Hf|[]]. injection Hf as <- <-. cbn in H. destruct H as [H|[]]. injection H as <- <-. eauto.
      + destruct Hf as [Hf|Hf].
        * injection Hf as <- <-. cbn in H. destruct H as [H|[]]. injection H as <- <-. exists (SBasic n p). split; [auto|]. cbn. f_equal. eapply password_is; eauto. split; auto.
        * destruct p as [p|]; [|contradiction]. destruct Hf as [Hf|[]]. injection Hf as <- <-. cbn in H. contradiction.
    - intros (s & Hi & ->). pose proof HL as [HL1 _]. rewrite Forall_forall in HL1. pose proof (HL1 _ Hi) as A. unfold known in A. cbn [fst] in A.
      destruct s as [t|t|n p].
      + exists (ushow u, "token", t). split; [apply (Permutation_in _ (Permutation_sym HP)), triple_In; exists u, (SToken t); cbn; auto|]. cbn [entry_cred]. rewrite A. cbn. auto.
      + exists (ushow u, "legacy-auth", t). split; [apply (Permutation_in _ (Permutation_sym HP)), triple_In; exists u, (SLegacy t); cbn; auto|]. cbn [entry_cred]. rewrite A. cbn. auto.
      + exists (ushow u, "username", n). split; [apply (Permutation_in _ (Permutation_sym HP)), triple_In; exists u, (SBasic n p); cbn; auto|]. cbn [entry_cred]. rewrite A. cbn.
        left. f_equal. f_equal. eapply password_is; eauto.
  Qed.
  Lemma configured_In k c : forall l m, sget k (fold_left (fun m e => configure (fst e) (snd e) m) l m) = Some c ->
    (exists u, In (u, c) l /\ nerf_dart u = k) \/ ((forall u c', In (u, c') l -> nerf_dart u <> k) /\ sget k m = Some c).
  Proof.
    induction l as [|[u c0] l IH]; intros m H; cbn [fold_left] in H; [right; split; [intros ? ? []|auto]|].
    apply IH in H as [(u' & Hi & E)|[Hn H]]; [left; exists u'; cbn; auto|]. cbn [fst snd] in H. unfold configure in H.
    destruct (string_dec k (nerf_dart u)) as [->|Hk].
    - rewrite sget_sput_eq in H. injection H as ->. left. exists u. cbn. auto.
    - rewrite sget_sput_neq in H by auto. right. split; [|auto]. intros u' c' [E|Hi]; [injection E as <- _; auto|eauto].
  Qed.
  Lemma configured_None k : forall l m, sget k (fold_left (fun m e => configure (fst e) (snd e) m) l m) = None -> (forall u c', In (u, c') l -> nerf_dart u <> k) /\ sget k m = None.
  Proof.
    induction l as [|[u c0] l IH]; intros m H; cbn [fold_left] in H; [split; [intros ? ? []|auto]|].
    apply IH in H as [Hn H]. cbn [fst snd] in H. unfold configure in H.
    destruct (string_dec k (nerf_dart u)) as [->|Hk]; [rewrite sget_sput_eq in H; discriminate|]. rewrite sget_sput_neq in H by auto. split; [|auto].
    intros u' c' [E|Hi]; [injection E as <- _; auto|eauto].
  Qed.
  Lemma build_any_order L tr : good L -> Permutation tr (triples L) -> exists m, build_creds uparse tr = Ok m /\
    forall u c, sget (nerf_dart u) m = Some c <-> exists v s, In (v, s) L /\ nerf_dart v = nerf_dart u /\ c = as_cred s.
  Proof.
    intros HL HP. destruct (auth_loop_total uparse tr tr []) as [m Hm].
    { intros [[r k] v] He. apply (Permutation_in _ HP), triple_In in He as (u & c & Hi & -> & _). destruct HL as [HL _]. rewrite Forall_forall in HL.
      pose proof (HL _ Hi) as A. unfold known in A. cbn [fst] in *. congruence. }
    exists m. split; [exact Hm|]. apply build_ok in Hm. unfold configured in Hm. intros u c. split.
    - intros H. rewrite Hm in H. apply configured_In in H as [(v & Hi & E)|[_ H]]; [|discriminate]. apply (entry_cred_In L) in Hi as (s & Hi & ->); [|auto|auto]. eauto.
    - intros (v & s & Hi & E & ->). destruct (sget (nerf_dart u) m) as [c|] eqn:Es.
      + rewrite Hm in Es. apply configured_In in Es as [(v' & Hi' & E')|[_ H]]; [|discriminate]. apply (entry_cred_In L) in Hi' as (s' & Hi' & ->); [|auto|auto].
        destruct (good_unique L v' s' v s HL Hi' Hi) as [_ ->]; [congruence|reflexivity].
      + exfalso. rewrite Hm in Es. apply configured_None in Es as [Hn _]. apply (Hn v (as_cred s)); [|exact E]. apply (entry_cred_In L); eauto.
  Qed.
  (** the stored list agrees with the history *)
  Lemma ushow_inj u v : uparse (ushow u) = Some u -> uparse (ushow v) = Some v -> ushow u = ushow v -> u = v.
  Proof. congruence. Qed.
  Lemma fields_inj c c' : cred_entries c = cred_entries c' -> c = c'.
  Proof. destruct c as [t|t|n [p|]], c' as [t'|t'|n' [p'|]]; cbn; intros H; try discriminate; injection H; intros; subst; reflexivity. Qed.
  Lemma last_word_known u l c v : Forall (op_ok uparse) l -> last_word u l = Saved c v -> uparse (ushow v) = Some v /\ nerf_dart v = nerf_dart u.
  Proof.
    induction 1 as [|o l Ho _ IH]; cbn [last_word]; [discriminate|]. destruct (last_word u l) as [c' v'| |] eqn:E.
    - intros H. injection H as -> ->. auto.
    - discriminate.
    - destruct o as [w c0|w|s w]; cbn [about]; [|destruct (String.eqb _ _); discriminate|discriminate].
      destruct (String.eqb_spec (nerf_dart w) (nerf_dart u)); [|discriminate]. intros H. injection H as <- <-. auto.
  Qed.
  Lemma stored_is_history L d l u c : good L -> rep L (perform_all uparse l d) -> rep [] d -> Forall (op_ok uparse) l ->
    (exists v s, In (v, s) L /\ nerf_dart v = nerf_dart u /\ c = as_cred s) <-> exists v s, last_word u l = Saved s v /\ c = as_cred s.
  Proof.
    intros HL HR H0 Hl. assert (Hw : writable "auth" d).
    { intros a Ha. rewrite kget_filter in Ha. fold (auth_nodes d) in Ha. rewrite H0 in Ha. discriminate. }
    assert (E := perform_all_entry uparse u l d Hl Hw). rewrite (rep_section L _ HR) in E.
    assert (E0 : obind (section_children "auth" d) (find (same_dart uparse u)) = None) by (rewrite (rep_section [] d H0); reflexivity).
    assert (F : forall M, Forall known M -> (forall v s, find (same_dart uparse u) (map node_of M) = Some (node_of (v, s)) -> uparse (ushow v) = Some v -> In (v, s) M /\ nerf_dart v = nerf_dart u)
                /\ ((exists v s, In (v, s) M /\ nerf_dart v = nerf_dart u) -> exists v s, find (same_dart uparse u) (map node_of M) = Some (node_of (v, s)) /\ In (v, s) M /\ nerf_dart v = nerf_dart u)).
    { clear. intros M HM. induction HM as [|[w t] M Hk _ [IH1 IH2]]; cbn [map find]; [split; [discriminate|intros (? & ? & [] & _)]|]. unfold same_dart at 1 3. cbn [k_name node_of fst].
      unfold known in Hk. cbn [fst] in Hk. rewrite Hk. destruct (String.eqb_spec (nerf_dart w) (nerf_dart u)) as [Ew|Ew]; split.
      - intros v s H Hv. injection H as A B. cbn [fst snd] in *. apply fields_inj in B. assert (w = v) by congruence. subst. split; [now left|auto].
      - intros _. exists w, t. split; [reflexivity|]. split; [now left|auto].
      - intros v s H Hv. destruct (IH1 v s H Hv). split; [now right|auto].
      - intros (v & s & [A|A] & B); [injection A as <- <-; contradiction|]. destruct IH2 as (v' & s' & A1 & A2 & A3); [eauto|]. exists v', s'. split; [auto|]. split; [now right|auto]. }
    destruct HL as [HL1 HL2]. destruct (F L HL1) as [F1 F2]. assert (HL : good L) by (split; auto). split.
    - intros (v & s & Hi & Ed & ->). destruct F2 as (v' & s' & A1 & A2 & A3); [eauto|].
      destruct (good_unique L v' s' v s HL A2 Hi) as [-> ->]; [congruence|].
      destruct L as [|e0 L0]; [contradiction|]. cbn [obind] in E. rewrite A1 in E. destruct (last_word u l) as [c' w| |] eqn:Ew; cbn [worded] in E.
      + exists w, c'. split; [reflexivity|]. injection E as B1 B2. apply fields_inj in B2. cbn in B2. now subst.
      + discriminate.
      + rewrite E0 in E. discriminate.
    - intros (v & s & Ew & ->). rewrite Ew in E. cbn [worded] in E. destruct (last_word_known u l s v Hl Ew) as [Hv Hd].
      destruct L as [|e0 L0]; [discriminate|]. cbn [obind] in E. exists v, s. destruct (F1 v s E Hv). auto.
  Qed.
End Next.
