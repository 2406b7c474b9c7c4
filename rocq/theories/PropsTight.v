(** * Small facts the other properties rest on: letter case of names (C01), header values (C32), base64 (C33), values of map options
    (C34), and `oro apply` with apply turned off in the configuration (C39). *)
From Verif Require Import Base Types Kdl StdPath ResolverModel ResolverProofs ResolverRun ResolverSpec ResolverThms ResolverExamples LockfileGraph
  CliModel CliSpec CliProofs AuthModel AuthSpec AuthProofs JsonModel CmdModel PropsResolver.
Open Scope string_scope.
Open Scope list_scope.

(** ** C01: names that differ only in the case of their letters *)
Definition upper_letters : string := "ABCDEFGHIJKLMNOPQRSTUVWXYZ".
Definition lower_letters : string := "abcdefghijklmnopqrstuvwxyz".
(** the same letter in upper and lower case, or the same character *)
Definition same_letter (c d : ascii) : Prop := c = d \/ exists i, (String.get i upper_letters = Some c /\ String.get i lower_letters = Some d)
                                                              \/ (String.get i upper_letters = Some d /\ String.get i lower_letters = Some c).
Fixpoint same_but_case (a b : string) : Prop :=
  match a, b with
  | EmptyString, EmptyString => True
  | String c a', String d b' => same_letter c d /\ same_but_case a' b'
  | _, _ => False
  end.
Fixpoint same_letter_b (u l : string) (c d : ascii) : bool :=
  match u, l with
  | String x u', String y l' => (Ascii.eqb x c && Ascii.eqb y d) || (Ascii.eqb x d && Ascii.eqb y c) || same_letter_b u' l' c d
  | _, _ => false
  end.
Lemma same_letter_b_spec u : forall l c d, String.length u = String.length l -> same_letter_b u l c d = true <->
  exists i, (String.get i u = Some c /\ String.get i l = Some d) \/ (String.get i u = Some d /\ String.get i l = Some c).
Proof.
  induction u as [|x u IH]; intros [|y l] c d L; cbn [String.length] in L; try discriminate.
  - cbn. split; [discriminate|]. intros (i & [[H _]|[H _]]); destruct i; discriminate.
  - cbn [same_letter_b]. rewrite !orb_true_iff, !andb_true_iff, !Ascii.eqb_eq, IH by lia. split.
    + intros [[[-> ->]|[-> ->]]|(i & H)]; [exists 0; auto|exists 0; auto|exists (Datatypes.S i); exact H].
    + intros ([|i] & H); cbn [String.get] in H; [|right; eauto]. left. destruct H as [[H1 H2]|[H1 H2]]; injection H1 as ->; injection H2 as ->; auto.
Qed.
Definition bits : list bool := [true; false].
Definition bytes : list ascii := map ascii_of_nat (seq 0 256).
Lemma in_bytes c : In c bytes.
Proof.
  unfold bytes. apply in_map_iff. exists (nat_of_ascii c). split; [apply ascii_nat_embedding|]. apply in_seq. pose proof (nat_ascii_bounded c). lia.
Qed.
Lemma fold_table : forallb (fun c => forallb (fun d => Bool.eqb (Ascii.eqb (fold_ascii c) (fold_ascii d)) (Ascii.eqb c d || same_letter_b upper_letters lower_letters c d)) bytes) bytes = true.
Proof. vm_compute. reflexivity. Qed.
Lemma fold_same c d : fold_ascii c = fold_ascii d <-> same_letter c d.
Proof.
  pose proof fold_table as H. rewrite forallb_forall in H. specialize (H c (in_bytes c)). rewrite forallb_forall in H. specialize (H d (in_bytes d)).
  apply eqb_prop in H. rewrite <- Ascii.eqb_eq, H, orb_true_iff, Ascii.eqb_eq, same_letter_b_spec by reflexivity. reflexivity.
Qed.
Lemma ufold_same a : forall b, ufold a = ufold b <-> same_but_case a b.
Proof.
  induction a as [|c a IH]; intros [|d b]; cbn [ufold same_but_case]; [tauto|split; [discriminate|tauto]|split; [discriminate|tauto]|].
  rewrite <- fold_same, <- IH. split; [intros H; injection H as -> ->; auto|intros [-> ->]; auto].
Qed.

Section World.
  Variable rsat : range -> version -> bool.
  Variable canon : string -> option string.
  Variable parse_dep : string -> string -> res err pspec.
  Variable lnode : Type.
  Variable lnode_path : lnode -> list string.
  Variable lnode_manifest : lnode -> manifest.
  Variable to_package : lnode -> res err (option package).
  Variable deliver : pspec -> outcome -> Prop.
  Variable lock : option (lockpkgs lnode).
  Notation reach := (reach rsat canon parse_dep lnode lnode_path lnode_manifest to_package deliver lock).
  Variables (root : node) (pkg : package) (m : manifest) (name : string).
  Hypothesis Hroot : new_node parse_dep name pkg m true = Ok root.
  (** C01: two packages in the same node_modules directory never differ only in letter case: the tree can be installed on a
      file system that ignores case. *)
  Theorem C01_case : forall s, reach root s -> forall p i j x y,
    child_of (s_g s) p x = Some i -> child_of (s_g s) p y = Some j -> same_but_case x y -> i = j /\ x = y.
  Proof.
    intros s Hs p i j x y Hi Hj Hxy.
    assert (Hfold : forall q z k, child_of (s_g s) q z = Some k -> ufold z = z).
    { intros q z k Hk. destruct (C01_tree_unique rsat canon parse_dep lnode lnode_path lnode_manifest to_package deliver lock root pkg m name Hroot s Hs) as (_ & _ & T).
      pose proof (reach_inv _ _ _ _ _ _ _ _ _ _ _ _ _ _ Hroot Hs) as [I _ _ _ _].
      destruct (gi_child _ _ _ _ _ _ I q z k Hk) as (Hlt & Hpar & Hnm).
      assert (Hk0 : 0 < k < size (s_g s)).
      { split; [|lia]. destruct k; [|lia]. exfalso. destruct (gi_root _ _ _ _ _ _ I) as [_ R]. congruence. }
      destruct (gi_par _ _ _ _ _ _ I k Hk0) as (p' & Hp' & Hlt' & Hc').
      apply (path_Q rsat canon parse_dep lnode lnode_path lnode_manifest to_package deliver lock (fun x => ufold x = x)) with (root := root) (pkg := pkg) (m := m) (name := name) (s := s) (i := k); [intros ? ? ? _; apply ufold_idem|exact Hroot|exact Hs|exact Hlt|].
      rewrite (node_path_step _ (ginv_parlt _ _ _ _ _ _ I) k p') by (auto; lia). apply in_app_iff. right. left. auto. }
    apply ufold_same in Hxy. rewrite (Hfold _ _ _ Hi), (Hfold _ _ _ Hj) in Hxy. subst y. split; congruence.
  Qed.
End World.
(** non-trivial: "React" and "rEACT" are the same name; "React" and "react-" are not *)
Example C01_case_ex : same_but_case "React@Z" "rEACT@z" /\ ~ same_but_case "React" "Reach".
Proof.
  split; [now apply ufold_same|]. intros H. apply ufold_same in H. discriminate.
Qed.

(** ** C32: what may stand in a header *)
(** no control character: a tab, or from blank on but not DEL *)
Definition printable (c : ascii) : Prop := c = ascii_of_nat 9 \/ (32 <= nat_of_ascii c /\ nat_of_ascii c <> 127).
Fixpoint each (P : ascii -> Prop) (s : string) : Prop := match s with EmptyString => True | String c t => P c /\ each P t end.
Lemma header_each s : header_ok s = true -> each printable s.
Proof.
  induction s as [|c s IH]; [exact (fun _ => I)|]. cbn [header_ok each]. intros H. apply andb_true_iff in H. destruct H as [H1 H2]. split; [|auto].
  unfold header_char in H1. apply orb_true_iff in H1. destruct H1 as [H1|H1].
  - apply andb_true_iff in H1. destruct H1 as [A B]. apply Nat.leb_le in A. apply negb_true_iff, Nat.eqb_neq in B. right. auto.
  - apply Nat.eqb_eq in H1. left. rewrite <- H1. symmetry. apply ascii_nat_embedding.
Qed.
(** C32: whatever the credentials are, a request is sent only with an Authorization header without control characters:
    a token with a line break or another control character is refused. *)
Theorem C32_header : forall m reg req headers hs, handle m reg req headers = Ok hs ->
  hs = headers \/ exists v, hs = headers ++ [("authorization", v)] /\ each printable v.
Proof.
  intros m reg req headers hs H. unfold handle in H. destruct (orb _ _); [left; now injection H|]. destruct (sget (nerf_dart reg) m) as [c|]; [|left; now injection H].
  destruct (auth_value c) as [v| |] eqn:E; try discriminate. injection H as <-. right. exists v. split; [reflexivity|]. apply header_each.
  destruct c as [n p|a|t]; cbn [auth_value] in E; unfold header_value in E.
  - injection E as <-. change (header_ok ("Basic " ++ b64_encode (n ++ ":" ++ oval p))%string = true). rewrite header_ok_app, (b64_header _ _ (le_n _)). reflexivity.
  - destruct (header_ok ("Basic " ++ a)) eqn:Eh; [|discriminate]. now injection E as <-.
  - destruct (header_ok ("Bearer " ++ t)) eqn:Eh; [|discriminate]. now injection E as <-.
Qed.
Example C32_header_ex : handle [("//r.example/", Token ("abc" ++ String (ascii_of_nat 127) "")%string)] (mkUrl "https" None (Some "r.example") None "/" None None) (mkUrl "https" None (Some "r.example") None "/x" None None) [] = Err EParse
  /\ handle [("//r.example/", Token "abc")] (mkUrl "https" None (Some "r.example") None "/" None None) (mkUrl "https" None (Some "r.example") None "/x" None None) [] = Ok [("authorization", "Bearer abc")].
Proof. split; vm_compute; reflexivity. Qed.

(** ** C33: base64 is exact *)
Lemma index_get c s : forall i n, index_in c s i = Some n -> String.get (n - i) s = Some c /\ i <= n < i + String.length s.
Proof.
  induction s as [|d s IH]; intros i n; cbn [index_in]; [discriminate|]. destruct (Ascii.eqb_spec c d) as [->|Hne].
  - intros H. injection H as <-. rewrite Nat.sub_diag. cbn [String.get String.length]. split; [reflexivity|lia].
  - intros H. destruct (IH _ _ H) as [H1 H2]. cbn [String.length]. split; [|lia]. replace (n - i) with (Datatypes.S (n - Datatypes.S i)) by lia. exact H1.
Qed.
Lemma char_round c s : char_sextet c = Some s -> sextet_char s = c.
Proof.
  unfold char_sextet. destruct (index_in c alphabet 0) as [n|] eqn:E; [|discriminate]. intros H.
  assert (Es : s = (Nat.testbit n 5, Nat.testbit n 4, Nat.testbit n 3, Nat.testbit n 2, Nat.testbit n 1, Nat.testbit n 0)) by congruence. subst s. clear H.
  destruct (index_get _ _ _ _ E) as [H1 H2]. rewrite Nat.sub_0_r in H1. change (String.length alphabet) with 64 in H2.
  unfold sextet_char. assert (sextet_index (Nat.testbit n 5, Nat.testbit n 4, Nat.testbit n 3, Nat.testbit n 2, Nat.testbit n 1, Nat.testbit n 0) = n) as ->; [|now rewrite H1].
  assert (Hn : In n (seq 0 64)) by (apply in_seq; lia). clear - Hn.
  assert (A : forallb (fun n => Nat.eqb (sextet_index (Nat.testbit n 5, Nat.testbit n 4, Nat.testbit n 3, Nat.testbit n 2, Nat.testbit n 1, Nat.testbit n 0)) n) (seq 0 64) = true) by (vm_compute; reflexivity).
  rewrite forallb_forall in A. now apply Nat.eqb_eq, A.
Qed.
Lemma b64_exact : forall n t s, String.length t <= n -> b64_decode t = Some s -> t = b64_encode s.
Proof.
  induction n as [|n IH]; intros t s Hn H.
  - destruct t; [|cbn in Hn; lia]. injection H as <-. reflexivity.
  - destruct t as [|p [|q [|r [|z t]]]]; try discriminate; [injection H as <-; reflexivity|]. cbn [b64_decode] in H.
    destruct (char_sextet p) as [[[[[[a7 a6] a5] a4] a3] a2]|] eqn:Ep; [|discriminate]. destruct (char_sextet q) as [[[[[[a1 a0] b7] b6] b5] b4]|] eqn:Eq; [|discriminate].
    apply char_round in Ep, Eq. subst p q.
    destruct (Ascii.eqb r "=" && Ascii.eqb z "=") eqn:Epad.
    + apply andb_true_iff in Epad. destruct Epad as [E1 E2]. apply Ascii.eqb_eq in E1, E2. subst r z. destruct t; [|discriminate].
      destruct b7, b6, b5, b4; try discriminate H. injection H as <-. reflexivity.
    + destruct (char_sextet r) as [[[[[[b3 b2] b1] b0] c7] c6]|] eqn:Er; [|discriminate]. apply char_round in Er. subst r. destruct (Ascii.eqb_spec z "=") as [->|Hz].
      * destruct t; [|discriminate]. destruct c7, c6; try discriminate H. injection H as <-. reflexivity.
      * destruct (char_sextet z) as [[[[[[c5 c4] c3] c2] c1] c0]|] eqn:Ez; [|discriminate]. apply char_round in Ez. subst z.
        destruct (b64_decode t) as [t'|] eqn:Et; [|discriminate]. injection H as <-. cbn [b64_encode]. rewrite <- (IH t t'); [reflexivity| |exact Et]. cbn in Hn. lia.
Qed.
(** C33: decoding accepts exactly what encoding produces, so different stored values never stand for the same secret. *)
Theorem C33_base64 : forall t s, b64_decode t = Some s <-> t = b64_encode s.
Proof. intros t s. split; [apply (b64_exact _ t s (le_n _))|intros ->; apply b64_decode_encode]. Qed.
Example C33_base64_ex : b64_encode "me:pw" = "bWU6cHc=" /\ b64_decode "bWU6cHd=" = None.
Proof. split; vm_compute; reflexivity. Qed.

(** ** C34: values of a map option that are not strings *)
Section Show.
  Variable zshow : Z -> string.
  (** how a plain value is written after '=' *)
  Definition written (v : cval) (s : string) : Prop :=
    match v with CStr x => s = x | CBool true => s = "true" | CBool false => s = "false" | CInt z => s = zshow z | _ => False end.
  (** C34: every entry of a map option whose values are strings, booleans and numbers is passed on, with its value as written in the file. *)
  Theorem C34_config_values : forall cfg opt l, sget opt cfg = Some (CTable l) -> (forall k v, In (k, v) l -> scalar v /\ v <> CNil /\ forall a, v <> CArray a) ->
    exists texts, emit zshow cfg opt = flat_map (fun a => [("--" ++ opt)%string; a]) texts
      /\ Forall2 (fun e t => exists s, t = (fst e ++ "=" ++ s)%string /\ written (snd e) s) l texts.
  Proof.
    intros cfg opt l H Hs. unfold emit. rewrite H. cbn [get_bool get_string]. clear H. induction l as [|[k v] l IH]; [exists []; split; [reflexivity|constructor]|].
    destruct IH as (texts & E & F); [intros k' v' Hv; apply (Hs k'); now right|]. destruct (Hs k v (or_introl eq_refl)) as (S1 & S2 & S3).
    exists ((k ++ "=" ++ show zshow v)%string :: texts). cbn [flat_map fst snd]. split.
    - rewrite E. destruct v; try reflexivity. contradiction.
    - constructor; [|exact F]. exists (show zshow v). cbn [fst snd]. split; [reflexivity|]. unfold show. destruct v as [x|z|b| |t|a]; cbn [get_string written]; auto; try contradiction.
      + now destruct b.
      + now destruct (S3 a).
  Qed.
End Show.

(** ** C39: oro apply and oro reapply install even if the configuration says "apply false" *)
Theorem C39_apply_forced : forall N T M (manifest : string -> option M) resolves prunes extracts rebuilds clears (lock_text : T -> res err string) a l lo k s (d d' : disk N) e,
  (apply_cmd manifest resolves prunes extracts rebuilds lock_text (mkOpts a l lo k s) d e d' <-> apply_cmd manifest resolves prunes extracts rebuilds lock_text (mkOpts true l lo k s) d e d')
  /\ (reapply_cmd manifest resolves prunes extracts rebuilds clears lock_text (mkOpts a l lo k s) d e d' <-> reapply_cmd manifest resolves prunes extracts rebuilds clears lock_text (mkOpts true l lo k s) d e d').
Proof. intros. split; reflexivity. Qed.

Print Assumptions C01_case.
Print Assumptions C32_header.
Print Assumptions C33_base64.
Print Assumptions C34_config_values.
Print Assumptions C39_apply_forced.
