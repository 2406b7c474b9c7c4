(** * Stored credentials: proofs *)
From Verif Require Import Base Types Kdl StdPath CliModel CliSpec CliProofs AuthModel AuthSpec AuthProofs.
From Coq Require Import Permutation.
Open Scope string_scope.
Open Scope list_scope.

Definition keeps (f : knode -> knode) : Prop := forall n, k_name (f n) = k_name n.
Lemma keeps_map_children f : keeps (map_children f).
Proof. intros [s e [c|]]; reflexivity. Qed.
Lemma keeps_ensure : keeps ensure_children.
Proof. intros [s e [c|]]; reflexivity. Qed.
Lemma kget_name s d n : kget s d = Some n -> k_name n = s.
Proof. induction d as [|a d IH]; cbn [kget]; [discriminate|]. destruct (String.eqb_spec (k_name a) s); [intros H; now injection H as <-|auto]. Qed.
Lemma kget_upd_eq s f d : keeps f -> kget s (kupd s f d) = option_map f (kget s d).
Proof.
  intros Hf. induction d as [|a d IH]; cbn [kget kupd]; [reflexivity|]. destruct (String.eqb (k_name a) s) eqn:E; cbn [kget].
  - now rewrite Hf, E.
  - now rewrite E.
Qed.
Lemma kget_upd_neq s s' f d : keeps f -> s <> s' -> kget s (kupd s' f d) = kget s d.
Proof.
  intros Hf Hn. induction d as [|a d IH]; cbn [kget kupd]; [reflexivity|]. destruct (String.eqb_spec (k_name a) s') as [E|E]; cbn [kget].
  - rewrite Hf. destruct (String.eqb_spec (k_name a) s); [congruence|reflexivity].
  - now rewrite IH.
Qed.
Lemma kget_app s d d' : kget s (d ++ d') = match kget s d with Some n => Some n | None => kget s d' end.
Proof. induction d as [|a d IH]; cbn [kget app]; [reflexivity|]. destruct (String.eqb (k_name a) s); auto. Qed.
Lemma kupd_none s f d : kget s d = None -> kupd s f d = d.
Proof. induction d as [|a d IH]; cbn [kget kupd]; [reflexivity|]. destruct (String.eqb (k_name a) s); [discriminate|]. intros H. now rewrite IH. Qed.
Lemma kupd_id s f d : (forall n, kget s d = Some n -> f n = n) -> kupd s f d = d.
Proof. induction d as [|a d IH]; cbn [kget kupd]; [reflexivity|]. destruct (String.eqb (k_name a) s); intros H; [now rewrite H|]. now rewrite IH. Qed.
(** splitting a document by name *)
Lemma filter_upd_other (p : string -> bool) s f d : keeps f -> p s = false -> filter (fun n => p (k_name n)) (kupd s f d) = filter (fun n => p (k_name n)) d.
Proof.
  intros Hf Hp. induction d as [|a d IH]; cbn [kupd]; [reflexivity|]. destruct (String.eqb_spec (k_name a) s) as [E|E]; cbn [filter].
  - rewrite Hf, E, Hp. reflexivity.
  - now rewrite IH.
Qed.
Lemma filter_upd_tl s f d : keeps f -> tl (filter (fun n => String.eqb (k_name n) s) (kupd s f d)) = tl (filter (fun n => String.eqb (k_name n) s) d).
Proof.
  intros Hf. induction d as [|a d IH]; cbn [kupd]; [reflexivity|]. destruct (String.eqb (k_name a) s) eqn:E; cbn [filter].
  - rewrite Hf, E. reflexivity.
  - now rewrite E.
Qed.
Lemma filter_none s d : kget s d = None -> filter (fun n => String.eqb (k_name n) s) d = [].
Proof. induction d as [|a d IH]; cbn [kget filter]; [reflexivity|]. destruct (String.eqb (k_name a) s); [discriminate|auto]. Qed.

Lemma section_opts s d : section_children s d = obind (kget s (options_of d)) k_children.
Proof. unfold section_children, options_of. destruct (kget "options" d) as [o|]; cbn [obind]; [|reflexivity]. destruct (k_children o); reflexivity. Qed.

(** ** the section made by [ensure_section] *)
Definition with_section (s : string) (c : kdoc) : kdoc := if has_node s c then c else c ++ [KNode s [] (Some [])].
Lemma keeps_comp f g : keeps f -> keeps g -> keeps (fun n => f (g n)).
Proof. intros Hf Hg n. now rewrite Hf. Qed.
Lemma ensure_get s d : exists o, kget "options" (ensure_section s d) = Some o /\ k_children o = Some (with_section s (options_of d))
  /\ k_entries o = match kget "options" d with Some o => k_entries o | None => [] end.
Proof.
  unfold ensure_section. fold (with_section s).
  set (d1 := if has_node "options" d then d else d ++ [KNode "options" [] None]).
  assert (H1 : exists o, kget "options" d1 = Some o /\ options_of d1 = options_of d /\ k_entries o = match kget "options" d with Some o => k_entries o | None => [] end).
  { subst d1. unfold has_node, options_of. destruct (kget "options" d) as [o|] eqn:E; cbn [is_some].
    - exists o. rewrite E. auto.
    - exists (KNode "options" [] None). rewrite kget_app, E. cbn [kget k_name]. rewrite String.eqb_refl. cbn. auto. }
  destruct H1 as (o & Ho & Hc & He). rewrite kget_upd_eq by (apply keeps_comp; [apply keeps_map_children|apply keeps_ensure]).
  rewrite Ho. cbn [option_map]. eexists. split; [reflexivity|]. unfold options_of in Hc. rewrite Ho in Hc. fold (options_of d) in Hc.
  destruct o as [n e [c|]]; cbn [ensure_children map_children k_children k_entries] in *; rewrite <- Hc; auto.
Qed.
Lemma ensure_opts s d : options_of (ensure_section s d) = with_section s (options_of d).
Proof. destruct (ensure_get s d) as (o & Ho & Hc & _). unfold options_of at 1. now rewrite Ho, Hc. Qed.
Lemma in_opts s f d : options_of (in_section s f d) = kupd s (map_children f) (options_of d).
Proof.
  unfold in_section, options_of. rewrite kget_upd_eq by apply keeps_map_children. destruct (kget "options" d) as [[n e [c|]]|]; reflexivity.
Qed.
Lemma with_other s s' c : s <> s' -> kget s (with_section s' c) = kget s c.
Proof.
  intros H. unfold with_section. destruct (has_node s' c); [reflexivity|]. rewrite kget_app. cbn [kget k_name]. destruct (kget s c); [reflexivity|].
  destruct (String.eqb_spec s' s); [congruence|reflexivity].
Qed.
Lemma with_same s c : (forall a, kget s c = Some a -> k_children a <> None) ->
  exists a l, kget s (with_section s c) = Some a /\ k_children a = Some l /\ l = match obind (kget s c) k_children with Some l => l | None => [] end.
Proof.
  intros H. unfold with_section, has_node. destruct (kget s c) as [a|] eqn:E; cbn [is_some obind].
  - exists a. rewrite E. destruct (k_children a) as [l|] eqn:E'; [eauto|]. exfalso. exact (H a eq_refl E').
  - exists (KNode s [] (Some [])), []. rewrite kget_app, E. cbn [kget k_name]. rewrite String.eqb_refl. auto.
Qed.
(** what writing a section does *)
Lemma write_same s f d : writable s d ->
  section_children s (in_section s f (ensure_section s d)) = Some (f (match section_children s d with Some l => l | None => [] end)).
Proof.
  intros Hw. rewrite !section_opts, in_opts, ensure_opts, kget_upd_eq by apply keeps_map_children.
  destruct (with_same s (options_of d) Hw) as (a & l & Ha & Hl & E). rewrite Ha. cbn [option_map obind]. rewrite <- E.
  destruct a as [n e c]; cbn in *. subst c. reflexivity.
Qed.
Lemma write_other s s' f d : s <> s' -> section_children s (in_section s' f (ensure_section s' d)) = section_children s d.
Proof.
  intros Hn. rewrite !section_opts, in_opts, ensure_opts, kget_upd_neq by (auto using keeps_map_children). now rewrite with_other.
Qed.
Lemma write_writable s s' f d : writable s d -> writable s (in_section s' f (ensure_section s' d)).
Proof.
  unfold writable. intros Hw a. rewrite in_opts, ensure_opts. destruct (string_dec s s') as [<-|Hn].
  - rewrite kget_upd_eq by apply keeps_map_children. destruct (with_same s (options_of d) Hw) as (b & l & Hb & Hl & _). rewrite Hb.
    cbn [option_map]. intros H. injection H as <-. destruct b as [n e c]; cbn in *. subst c. discriminate.
  - rewrite kget_upd_neq by (auto using keeps_map_children). rewrite with_other by auto. apply Hw.
Qed.
Lemma but_upd s f l : keeps f -> but s (kupd s f l) = but s l.
Proof. intros Hf. unfold but. apply (filter_upd_other (fun x => negb (String.eqb x s))); [auto|]. now rewrite String.eqb_refl. Qed.
Lemma others_upd f d : keeps f -> others (kupd "options" f d) = others d.
Proof. intros Hf. unfold others. apply (filter_upd_other (fun x => negb (String.eqb x "options"))); [auto|reflexivity]. Qed.
Lemma in_untouched s f d : untouched_but s d (in_section s f d).
Proof.
  assert (K := keeps_map_children (kupd s (map_children f))). split; [|split; [|split]].
  - unfold in_section. now apply others_upd.
  - unfold in_section, option_nodes. now apply filter_upd_tl.
  - rewrite in_opts. apply but_upd, keeps_map_children.
  - intros o Ho. exists (map_children (kupd s (map_children f)) o). unfold in_section. rewrite kget_upd_eq, Ho by auto. split; [reflexivity|]. destruct o as [n e [c|]]; reflexivity.
Qed.
Lemma ensure_untouched s d : untouched_but s d (ensure_section s d).
Proof.
  split; [|split; [|split]].
  - unfold ensure_section. rewrite others_upd by (apply keeps_comp; [apply keeps_map_children|apply keeps_ensure]).
    destruct (has_node "options" d); [reflexivity|]. unfold others. rewrite filter_app. cbn [filter k_name String.eqb negb]. apply app_nil_r.
  - unfold ensure_section, option_nodes. rewrite filter_upd_tl by (apply keeps_comp; [apply keeps_map_children|apply keeps_ensure]).
    unfold has_node. destruct (kget "options" d) eqn:E; cbn [is_some]; [reflexivity|]. rewrite filter_app, (filter_none _ _ E). reflexivity.
  - rewrite ensure_opts. unfold with_section. destruct (has_node s (options_of d)); [reflexivity|]. unfold but. rewrite filter_app. cbn [filter k_name].
    rewrite String.eqb_refl. apply app_nil_r.
  - intros o Ho. destruct (ensure_get s d) as (o' & H1 & _ & H2). exists o'. rewrite Ho in H2. auto.
Qed.
Lemma untouched_trans s d d' d'' : untouched_but s d d' -> untouched_but s d' d'' -> untouched_but s d d''.
Proof.
  intros (A1 & A2 & A3 & A4) (B1 & B2 & B3 & B4). split; [congruence|]. split; [congruence|]. split; [congruence|].
  intros o Ho. destruct (A4 o Ho) as (o' & Ho' & E). destruct (B4 o' Ho') as (o'' & Ho'' & E'). exists o''. split; [auto|congruence].
Qed.
Lemma write_untouched s f d : untouched_but s d (in_section s f (ensure_section s d)).
Proof. eapply untouched_trans; [apply ensure_untouched|apply in_untouched]. Qed.

Section Account.
  Variable uparse : string -> option url.
  Variable utf8_lossy : string -> string.
  Notation entry u d := (obind (section_children "auth" d) (find (same_dart uparse u))).
  Lemma find_clean_same u l : find (same_dart uparse u) (clean_auth_nodes uparse u l) = None.
  Proof.
    induction l as [|n l IH]; [reflexivity|]. unfold clean_auth_nodes in *. cbn [filter]. destruct (uparse (k_name n)) as [v|] eqn:E; [|exact IH].
    destruct (String.eqb (nerf_dart v) (nerf_dart u)) eqn:E2; cbn [negb]; [exact IH|]. cbn [find]. unfold same_dart at 1. now rewrite E, E2.
  Qed.
  Lemma find_clean_other u v l : nerf_dart v <> nerf_dart u -> find (same_dart uparse v) (clean_auth_nodes uparse u l) = find (same_dart uparse v) l.
  Proof.
    intros Hn. induction l as [|n l IH]; [reflexivity|]. unfold clean_auth_nodes in *. cbn [filter find]. unfold same_dart at 2. destruct (uparse (k_name n)) as [w|] eqn:E; [|exact IH].
    destruct (String.eqb_spec (nerf_dart w) (nerf_dart u)) as [E2|E2]; cbn [negb find].
    - destruct (String.eqb_spec (nerf_dart w) (nerf_dart v)); [congruence|exact IH].
    - unfold same_dart at 1. rewrite E. destruct (String.eqb (nerf_dart w) (nerf_dart v)); [reflexivity|exact IH].
  Qed.
  Lemma find_app A (p : A -> bool) a b : find p (a ++ b) = match find p a with Some x => Some x | None => find p b end.
  Proof. induction a as [|x a IH]; cbn; [reflexivity|]. destruct (p x); auto. Qed.

  Lemma set_same u c d : uparse (ushow u) = Some u -> writable "auth" d -> entry u (set_credentials uparse u c d) = Some (KNode (ushow u) (cred_entries c) None).
  Proof.
    intros Hu Hw. unfold set_credentials. rewrite write_same by auto. cbn [obind]. rewrite find_app, find_clean_same. cbn [find]. unfold same_dart.
    cbn [k_name]. now rewrite Hu, String.eqb_refl.
  Qed.
  Lemma set_other u v c d : uparse (ushow u) = Some u -> writable "auth" d -> nerf_dart v <> nerf_dart u ->
    entry v (set_credentials uparse u c d) = entry v d.
  Proof.
    intros Hu Hw Hn. unfold set_credentials. rewrite write_same by auto. cbn [obind]. rewrite find_app, find_clean_other by auto. cbn [find]. unfold same_dart at 2. cbn [k_name].
    rewrite Hu. destruct (String.eqb_spec (nerf_dart u) (nerf_dart v)); [congruence|].
    destruct (section_children "auth" d) as [l|]; cbn [obind]; [|reflexivity]. destruct (find (same_dart uparse v) l); reflexivity.
  Qed.
  Lemma set_writable u c d : writable "auth" d -> writable "auth" (set_credentials uparse u c d).
  Proof. apply write_writable. Qed.
  Lemma set_untouched u c d : untouched_but "auth" d (set_credentials uparse u c d).
  Proof. apply write_untouched. Qed.
  Lemma scope_entry v s u d : entry v (set_scoped_registry s u d) = entry v d.
  Proof. unfold set_scoped_registry. now rewrite write_other. Qed.
  Lemma in_section_same s f d : section_children s (in_section s f d) = option_map f (section_children s d).
  Proof.
    rewrite !section_opts, in_opts, kget_upd_eq by apply keeps_map_children. destruct (kget s (options_of d)) as [[n e [c|]]|]; reflexivity.
  Qed.
  Lemma drop_opts d : options_of (kupd "options" (map_children (filter (fun n => negb (String.eqb (k_name n) "auth")))) d) = but "auth" (options_of d).
  Proof. unfold options_of. rewrite kget_upd_eq by apply keeps_map_children. destruct (kget "options" d) as [[n e [c|]]|]; reflexivity. Qed.
  Lemma kget_but s l : kget s (but s l) = None.
  Proof.
    induction l as [|n l IH]; [reflexivity|]. unfold but in *. cbn [filter]. destruct (String.eqb (k_name n) s) eqn:E; cbn [negb]; [exact IH|]. cbn [kget]. now rewrite E.
  Qed.
  Lemma clear_entry u v d : entry v (clear_credentials uparse u d) = if String.eqb (nerf_dart v) (nerf_dart u) then None else entry v d.
  Proof.
    unfold clear_credentials. rewrite in_section_same. destruct (section_children "auth" d) as [l|] eqn:E; cbn [option_map].
    - assert (H : entry v (in_section "auth" (clean_auth_nodes uparse u) d) = if String.eqb (nerf_dart v) (nerf_dart u) then None else find (same_dart uparse v) l).
      { rewrite in_section_same, E. cbn [option_map obind]. destruct (String.eqb_spec (nerf_dart v) (nerf_dart u)) as [Eq|Eq].
        - assert (Hs : forall n, same_dart uparse v n = same_dart uparse u n) by (intros n; unfold same_dart; now rewrite Eq).
          rewrite <- (find_clean_same u l). induction (clean_auth_nodes uparse u l) as [|n t IH]; cbn [find]; [reflexivity|]. now rewrite Hs, IH.
        - now apply find_clean_other. }
      cbn [obind]. destruct (clean_auth_nodes uparse u l) eqn:Ec; [|exact H].
      rewrite <- H, section_opts, drop_opts, kget_but. rewrite in_section_same, E. cbn [obind option_map]. now rewrite Ec.
    - rewrite in_section_same, E. cbn [obind option_map]. destruct (String.eqb (nerf_dart v) (nerf_dart u)); reflexivity.
  Qed.
  Lemma clear_writable u d : writable "auth" d -> writable "auth" (clear_credentials uparse u d).
  Proof.
    intros Hw. unfold clear_credentials.
    assert (H : writable "auth" (in_section "auth" (clean_auth_nodes uparse u) d)).
    { intros a. rewrite in_opts, kget_upd_eq by apply keeps_map_children. destruct (kget "auth" (options_of d)) as [b|] eqn:E; [|discriminate].
      cbn [option_map]. intros H. injection H as <-. specialize (Hw b E). destruct b as [n e [c|]]; cbn in *; congruence. }
    destruct (section_children "auth" _) as [[|]|]; try exact H.
    intros a. rewrite drop_opts, kget_but. discriminate.
  Qed.
  Lemma clear_untouched u d : untouched_but "auth" d (clear_credentials uparse u d).
  Proof.
    unfold clear_credentials. assert (H := in_untouched "auth" (clean_auth_nodes uparse u) d).
    destruct (section_children "auth" _) as [[|]|]; try exact H.
    eapply untouched_trans; [exact H|]. assert (K := keeps_map_children (filter (fun n => negb (String.eqb (k_name n) "auth")))). split; [|split; [|split]].
    - now apply others_upd.
    - unfold option_nodes. now apply filter_upd_tl.
    - rewrite drop_opts. unfold but. induction (options_of (in_section "auth" (clean_auth_nodes uparse u) d)) as [|n l IH]; [reflexivity|].
      cbn [filter]. destruct (negb (String.eqb (k_name n) "auth")) eqn:E; cbn [filter]; [now rewrite E, IH|exact IH].
    - intros o Ho. eexists. rewrite kget_upd_eq, Ho by auto. split; [reflexivity|]. destruct o as [n e [c|]]; reflexivity.
  Qed.
  Lemma scope_writable s u d : writable "auth" d -> writable "auth" (set_scoped_registry s u d).
  Proof. apply write_writable. Qed.

  (** ** histories *)
  Definition perform (o : op) (d : kdoc) : kdoc :=
    match o with Save u c => set_credentials uparse u c d | Forget u => clear_credentials uparse u d | Scope s u => set_scoped_registry s u d end.
  Definition perform_all (l : list op) (d : kdoc) : kdoc := fold_left (fun d o => perform o d) l d.
  Definition op_ok (o : op) : Prop := match o with Save u _ => uparse (ushow u) = Some u | _ => True end.
  Lemma perform_writable o d : writable "auth" d -> writable "auth" (perform o d).
  Proof. destruct o; [apply set_writable|apply clear_writable|apply scope_writable]. Qed.
  Lemma perform_all_writable l : forall d, writable "auth" d -> writable "auth" (perform_all l d).
  Proof. induction l as [|o l IH]; intros d H; cbn; [auto|]. apply IH, perform_writable, H. Qed.
  Definition worded (u : url) (w : verdict) (d : kdoc) : option knode :=
    match w with Saved c v => Some (KNode (ushow v) (cred_entries c) None) | Forgotten => None | Untouched => entry u d end.
  Lemma perform_entry u o d : op_ok o -> writable "auth" d ->
    entry u (perform o d) = worded u (match about u o with Some v => v | None => Untouched end) d.
  Proof.
    intros Ho Hw. destruct o as [v c|v|s v]; cbn [perform about].
    - destruct (String.eqb_spec (nerf_dart v) (nerf_dart u)) as [E|E]; cbn [worded].
      + cbn in Ho. rewrite <- (set_same v c d Ho Hw). destruct (section_children "auth" (set_credentials uparse v c d)) as [l|]; [|reflexivity]. cbn [obind].
        assert (Hs : forall n, same_dart uparse u n = same_dart uparse v n) by (intros n; unfold same_dart; now rewrite E).
        induction l as [|n l IH]; [reflexivity|]. cbn [find]. now rewrite Hs, IH.
      + apply set_other; auto.
    - rewrite clear_entry. rewrite String.eqb_sym. destruct (String.eqb (nerf_dart v) (nerf_dart u)); reflexivity.
    - cbn [worded]. apply scope_entry.
  Qed.
  Lemma perform_all_entry u l : forall d, Forall op_ok l -> writable "auth" d -> entry u (perform_all l d) = worded u (last_word u l) d.
  Proof.
    induction l as [|o l IH]; intros d Hl Hw; [reflexivity|]. inversion Hl; subst. cbn [perform_all fold_left last_word].
    fold (perform_all l (perform o d)). rewrite IH by auto using perform_writable.
    destruct (last_word u l) eqn:E; cbn [worded]; try reflexivity. now apply perform_entry.
  Qed.
  Lemma perform_untouched o d : match o with Scope _ _ => untouched_but "scoped-registries" d (perform o d) | _ => untouched_but "auth" d (perform o d) end.
  Proof. destruct o; [apply set_untouched|apply clear_untouched|apply write_untouched]. Qed.
  Lemma get_is u d : get_credentials uparse utf8_lossy u d = obind (entry u d) (read_node utf8_lossy).
  Proof. unfold get_credentials. destruct (section_children "auth" d); reflexivity. Qed.
  (** what is read back from a saved node *)
  Definition returned (c : stored) : option stored :=
    match c with
    | SToken t => Some (SLegacy t)
    | SLegacy t => Some (SToken t)
    | SBasic n (Some p) => obind (b64_decode p) (fun q => Some (SLegacy (b64_encode (n ++ ":" ++ utf8_lossy q))))
    | SBasic _ None => None
    end.
  Lemma read_cred u c : read_node utf8_lossy (KNode u (cred_entries c) None) = returned c.
  Proof. destruct c as [t|t|n [p|]]; reflexivity. Qed.
End Account.
