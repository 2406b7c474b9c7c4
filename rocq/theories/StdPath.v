(** * std::path on Unix: components, joining, file names.
    The Rust standard library is external; this is the documented behaviour of the operations orogene uses. *)
From Verif Require Import Base.
Open Scope string_scope.
Open Scope list_scope.

(** splitting at a character; empty pieces are kept ("a//b" gives "a", "", "b") *)
Fixpoint split_aux (ch : ascii) (cur s : string) : list string :=
  match s with
  | EmptyString => [cur]
  | String c t => if Ascii.eqb c ch then cur :: split_aux ch "" t else split_aux ch (cur ++ String c "") t
  end.
Definition split (ch : ascii) (s : string) : list string := split_aux ch "" s.
Fixpoint no_char (ch : ascii) (s : string) : bool :=
  match s with EmptyString => true | String c t => negb (Ascii.eqb c ch) && no_char ch t end.

(** std::path::Component *)
Inductive comp := CRoot | CCur | CParent | CNormal (s : string).
Definition comp_eqb (a b : comp) : bool :=
  match a, b with
  | CRoot, CRoot | CCur, CCur | CParent, CParent => true
  | CNormal x, CNormal y => String.eqb x y
  | _, _ => false
  end.
(** a piece between separators: "" and "." vanish *)
Definition seg_comp (s : string) : list comp :=
  if String.eqb s "" then [] else if String.eqb s "." then [] else if String.eqb s ".." then [CParent] else [CNormal s].
Definition body (s : string) : list comp := flat_map seg_comp (split "/" s).
Definition is_abs (s : string) : bool := match s with String c _ => Ascii.eqb c "/" | _ => false end.
Definition lead_cur (s : string) : bool := match split "/" s with x :: _ => String.eqb x "." | [] => false end.
(** Path::components: a leading "." of a relative path is the only "." kept *)
Definition components (s : string) : list comp :=
  (if is_abs s then [CRoot] else if lead_cur s then [CCur] else []) ++ body s.
(** Path::file_name: the last component if it is a normal one *)
Fixpoint last_comp (l : list comp) : option comp :=
  match l with [] => None | [c] => Some c | _ :: t => last_comp t end.
Definition file_name (s : string) : option string :=
  match last_comp (components s) with Some (CNormal x) => Some x | _ => None end.
Fixpoint ends_slash (s : string) : bool :=
  match s with EmptyString => false | String c EmptyString => Ascii.eqb c "/" | String _ t => ends_slash t end.
(** Path::join *)
Definition join (a b : string) : string :=
  if is_abs b then b else if String.eqb a "" then b else if ends_slash a then a ++ b else a ++ "/" ++ b.

(** ** where a relative path leads, read lexically from some directory: [None] once it has climbed above it *)
Fixpoint walk_from (stack : list string) (l : list comp) : option (list string) :=
  match l with
  | [] => Some (rev stack)
  | CNormal s :: t => walk_from (s :: stack) t
  | CParent :: t => match stack with [] => None | _ :: st => walk_from st t end
  | (CRoot | CCur) :: t => walk_from stack t
  end.
(** one ordinary path component: nonempty, no separator, neither "." nor ".." *)
Definition single (s : string) : Prop := s <> "" /\ no_char "/" s = true /\ s <> "." /\ s <> "..".

Lemma sapp_assoc (a b c : string) : ((a ++ b) ++ c = a ++ (b ++ c))%string.
Proof. induction a; cbn; congruence. Qed.
Lemma sapp_nil (a : string) : (a ++ "" = a)%string.
Proof. induction a; cbn; congruence. Qed.
Lemma no_char_app ch a b : no_char ch (a ++ b)%string = no_char ch a && no_char ch b.
Proof. induction a as [|c a IH]; cbn; [auto|]. rewrite IH. now rewrite andb_assoc. Qed.
Lemma split_aux_pieces ch s : forall cur, no_char ch cur = true -> Forall (fun p => no_char ch p = true) (split_aux ch cur s).
Proof.
  induction s as [|c s IH]; intros cur H; cbn; [repeat constructor; auto|].
  destruct (Ascii.eqb c ch) eqn:E.
  - constructor; auto.
  - apply IH. rewrite no_char_app, H. cbn. now rewrite E.
Qed.
Lemma split_pieces ch s p : In p (split ch s) -> no_char ch p = true.
Proof. intros H. pose proof (split_aux_pieces ch s "" eq_refl) as F. rewrite Forall_forall in F. now apply F. Qed.
Lemma split_aux_whole ch s : forall cur, no_char ch s = true -> split_aux ch cur s = [(cur ++ s)%string].
Proof.
  induction s as [|c s IH]; intros cur H; cbn; [now rewrite sapp_nil|]. cbn in H. apply andb_true_iff in H. destruct H as [H1 H2].
  destruct (Ascii.eqb c ch); [discriminate|]. rewrite IH by auto. now rewrite sapp_assoc.
Qed.
Lemma split_whole ch s : no_char ch s = true -> split ch s = [s].
Proof. intros H. unfold split. now rewrite split_aux_whole. Qed.
Lemma split_aux_cons ch a b : forall cur, no_char ch a = true -> split_aux ch cur (a ++ String ch b)%string = (cur ++ a)%string :: split_aux ch "" b.
Proof.
  induction a as [|c a IH]; intros cur H; cbn; [now rewrite Ascii.eqb_refl, sapp_nil|]. cbn in H. apply andb_true_iff in H. destruct H as [H1 H2].
  destruct (Ascii.eqb c ch); [discriminate|]. rewrite IH by auto. now rewrite sapp_assoc.
Qed.
Lemma split_cons ch a b : no_char ch a = true -> split ch (a ++ String ch b)%string = a :: split ch b.
Proof. intros H. unfold split. now rewrite split_aux_cons. Qed.
(** general: splitting distributes over the separator *)
Lemma split_aux_app ch a b : forall cur, split_aux ch cur (a ++ String ch b)%string = split_aux ch cur a ++ split ch b.
Proof.
  induction a as [|c a IH]; intros cur; cbn; [now rewrite Ascii.eqb_refl|]. destruct (Ascii.eqb c ch); [cbn; now rewrite IH|apply IH].
Qed.
Lemma split_app ch a b : split ch (a ++ String ch b)%string = split ch a ++ split ch b.
Proof. apply split_aux_app. Qed.

Lemma seg_comp_normal s x : In (CNormal x) (seg_comp s) -> x = s /\ s <> "" /\ s <> "." /\ s <> "..".
Proof.
  unfold seg_comp. destruct (String.eqb_spec s ""); [intros []|]. destruct (String.eqb_spec s "."); [intros []|].
  destruct (String.eqb_spec s ".."); [intros [H|[]]; discriminate|]. intros [H|[]]. injection H as <-. auto.
Qed.
Lemma seg_comp_single s : single s -> seg_comp s = [CNormal s].
Proof.
  intros (H1 & _ & H2 & H3). unfold seg_comp. destruct (String.eqb_spec s ""); [contradiction|]. destruct (String.eqb_spec s "."); [contradiction|].
  destruct (String.eqb_spec s ".."); [contradiction|]. reflexivity.
Qed.
Lemma body_normal s x : In (CNormal x) (body s) -> single x.
Proof.
  unfold body. rewrite in_flat_map. intros (p & Hp & H). apply seg_comp_normal in H. destruct H as (-> & H1 & H2 & H3).
  repeat split; auto. now apply split_pieces in Hp.
Qed.
Lemma body_kinds s c : In c (body s) -> c = CParent \/ exists x, c = CNormal x.
Proof.
  unfold body. rewrite in_flat_map. intros (p & _ & H). unfold seg_comp in H.
  destruct (String.eqb p ""); [easy|]. destruct (String.eqb p "."); [easy|]. destruct (String.eqb p ".."); destruct H as [<-|[]]; eauto.
Qed.
Lemma components_normal s x : In (CNormal x) (components s) -> single x.
Proof.
  unfold components. rewrite in_app_iff. intros [H|H]; [|now apply body_normal in H].
  destruct (is_abs s); [destruct H as [|[]]; discriminate|]. destruct (lead_cur s); [destruct H as [|[]]; discriminate|easy].
Qed.
Lemma last_comp_In l c : last_comp l = Some c -> In c l.
Proof.
  induction l as [|a l IH]; [discriminate|]. destruct l; cbn; [intros H; injection H as ->; auto|]. intros H. right. apply IH. exact H.
Qed.
Lemma last_comp_app l c : last_comp (l ++ [c]) = Some c.
Proof. induction l as [|a l IH]; cbn; [auto|]. destruct (l ++ [c]) eqn:E; [destruct l; discriminate|auto]. Qed.
Lemma file_name_single s x : file_name s = Some x -> single x.
Proof.
  unfold file_name. destruct (last_comp (components s)) as [[| | |y]|] eqn:E; try discriminate. intros H. injection H as ->.
  apply last_comp_In in E. now apply components_normal in E.
Qed.
Lemma body_single s : single s -> body s = [CNormal s].
Proof. intros H. unfold body. rewrite split_whole by apply H. cbn [flat_map]. rewrite seg_comp_single by auto. reflexivity. Qed.
Lemma single_not_abs s : single s -> is_abs s = false.
Proof. intros (H & Hc & _). destruct s as [|c s]; [auto|]. cbn in *. apply andb_true_iff in Hc. destruct Hc as [Hc _]. now destruct (Ascii.eqb c "/"). Qed.
Lemma single_not_cur s : single s -> lead_cur s = false.
Proof. intros (_ & Hc & Hd & _). unfold lead_cur. rewrite split_whole by auto. now apply String.eqb_neq. Qed.
Lemma components_single s : single s -> components s = [CNormal s].
Proof. intros H. unfold components. rewrite single_not_abs, single_not_cur, body_single by auto. reflexivity. Qed.
Lemma file_name_id s : single s -> file_name s = Some s.
Proof. intros H. unfold file_name. now rewrite components_single. Qed.
Lemma body_app a b : body (a ++ String "/" b)%string = body a ++ body b.
Proof. unfold body. rewrite split_app. apply flat_map_app. Qed.
Lemma body_abs s : body (String "/" s) = body s.
Proof. change (String "/" s) with ("" ++ String "/" s)%string. rewrite body_app. reflexivity. Qed.
Lemma components_abs s : components (String "/" s) = CRoot :: body s.
Proof. unfold components. cbn [is_abs Ascii.eqb]. change (Ascii.eqb "/" "/") with true. cbn [app]. now rewrite body_abs. Qed.
Lemma components_of_abs s : is_abs s = true -> components s = CRoot :: body s.
Proof. intros H. unfold components. now rewrite H. Qed.
Lemma components_join_root b : components (join "/" b) = CRoot :: body b.
Proof.
  unfold join. destruct (is_abs b) eqn:E; [now apply components_of_abs|]. change (String.eqb "/" "") with false. change (ends_slash "/") with true.
  cbn [append]. apply components_abs.
Qed.
Lemma ends_slash_cons c s : s <> "" -> ends_slash (String c s) = ends_slash s.
Proof. destruct s; [contradiction|reflexivity]. Qed.
Lemma ends_slash_inv s : ends_slash s = true -> exists t, s = (t ++ "/")%string.
Proof.
  induction s as [|c s IH]; [discriminate|]. destruct s as [|d s].
  - cbn. intros H. apply Ascii.eqb_eq in H. subst c. now exists "".
  - intros H. cbn [ends_slash] in H. destruct (IH H) as (t & Ht). exists (String c t). rewrite Ht. reflexivity.
Qed.
(** joining is concatenation of components (a leading "." of the second path vanishes) *)
Lemma body_join a b : is_abs b = false -> body (join a b) = body a ++ body b.
Proof.
  intros H. unfold join. rewrite H. destruct (String.eqb_spec a "") as [->|Hne]; [reflexivity|].
  destruct (ends_slash a) eqn:E.
  - destruct (ends_slash_inv _ E) as (t & ->). rewrite sapp_assoc. cbn [append]. rewrite body_app. f_equal.
    change (t ++ "/")%string with (t ++ String "/" "")%string. rewrite body_app. cbn. now rewrite app_nil_r.
  - cbn [append]. apply body_app.
Qed.
Lemma walk_from_app l : forall l' st d, walk_from st l = Some d -> walk_from st (l ++ l') = walk_from (rev d) l'.
Proof.
  induction l as [|c l IH]; intros l' st d H; cbn in *.
  - injection H as <-. now rewrite rev_involutive.
  - destruct c; eauto. destruct st; [discriminate|eauto].
Qed.
Lemma walk_from_normals names : forall st, walk_from st (map CNormal names) = Some (rev st ++ names).
Proof.
  induction names as [|x names IH]; intros st; cbn; [now rewrite app_nil_r|]. rewrite IH. cbn. now rewrite <- app_assoc.
Qed.
