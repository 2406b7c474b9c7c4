(** * Properties C37-C40: editing package.json, when it is written, and its formatting.
    JsonSpec: [field], [dep_of section name], [declared], [dependency_section], [names_package], [layout] (a document with a given
    indentation, line ending and trailing newline); CmdProofs: [installed], [lock_after], [finished]. *)
From Verif Require Import Base Types StdPath JsonModel JsonSpec JsonProofs JsonPrint CmdModel CmdProofs SpecModel.
Open Scope list_scope.
Open Scope string_scope.

(** ** C37: remove *)
Section Remove.
  Variable parse_spec : string -> res err pspec.
  Notation removed := (remove_names parse_spec).
  (** The named packages are in no dependency section afterwards; every other dependency, every other field, the set and order of
      fields are unchanged; the number reported is the number of entries that disappeared. *)
  Theorem C37_remove : forall names v w n, jwf v -> removed names v 0 = Ok (w, n) ->
    let named x := exists a, In a names /\ names_package parse_spec a x in
    (forall sec x, dependency_section sec -> named x -> dep_of w sec x = None)
    /\ (forall sec x, dependency_section sec -> ~ named x -> dep_of w sec x = dep_of v sec x)
    /\ (forall k, ~ dependency_section k -> field w k = field v k)
    /\ (forall sec o, dependency_section sec -> field v sec = Some o -> is_obj o = false -> field w sec = Some o)
    /\ keys w = keys v /\ declared v = n + declared w.
  Proof.
    intros names v w n W H named. destruct (remove_names_spec _ _ _ W H) as (B1 & B2 & B3 & B4 & B5 & B6 & B7 & B8). split; [exact B5|]. split; [exact B6|]. auto.
  Qed.
  (** It succeeds exactly when every argument is a package name, possibly with a version. *)
  Theorem C37_accepts : forall names v, (exists w n, removed names v 0 = Ok (w, n)) <-> forall a, In a names -> exists nm, names_package parse_spec a nm.
  Proof. intros. apply remove_names_err. Qed.
  (** The order of the remaining dependencies is not kept: the last entry takes the place of the removed one. *)
  Theorem C37_refuted_order : names_package parse_spec "a" "a" -> exists v w n, jwf v /\ removed ["a"] v 0 = Ok (w, n)
    /\ keys (jindex "dependencies" v) = ["a"; "b"; "c"] /\ keys (jindex "dependencies" w) = ["c"; "b"].
  Proof.
    intros (sc & r & H). exists (JObj [("dependencies", JObj [("a", JNull); ("b", JNull); ("c", JNull)])]). do 2 eexists. split.
    - repeat constructor; cbn; try tauto; intros [E | E]; try discriminate; try tauto; destruct E; try discriminate; easy.
    - cbn [remove_names]. rewrite H. repeat split; reflexivity.
  Qed.
End Remove.

(** ** C38: add *)
Section Add.
  Variable resolve : string -> res err package.
  Variable parse_spec : string -> res err pspec.
  Variable vshow : version -> string.
  Variable gitshow : gitinfo -> string.
  Variable req : pspec -> string.
  Variable prefix : string.
  Notation record_of := (recorded parse_spec vshow gitshow req prefix).
  Notation added := (add_specs resolve parse_spec vshow gitshow req prefix).

  Lemma adds_spec dev opt specs : forall v w, jwf v -> added dev opt specs v = Ok w ->
    exists l : list (package * string), Forall2 (fun s p => resolve s = Ok (fst p) /\ record_of s (fst p) = Ok (snd p)) specs l
    /\ jwf w /\ (forall k, ~ dependency_section k -> field w k = field v k)
    /\ (forall sec x, dependency_section sec -> (forall p, In p l -> pk_name (fst p) <> x) -> dep_of w sec x = dep_of v sec x)
    /\ (forall l1 p l2, l = (l1 ++ p :: l2)%list -> (forall q, In q l2 -> pk_name (fst q) <> pk_name (fst p)) ->
        forall sec, dependency_section sec -> dep_of w sec (pk_name (fst p)) = if String.eqb sec (dep_kind dev opt) then Some (JStr (snd p)) else None)
    /\ exists extra, keys w = (keys v ++ extra)%list.
  Proof.
    induction specs as [|s specs IH]; cbn [add_specs]; intros v w W H.
    - injection H as <-. exists []. repeat split; auto.
      + intros l1 p l2 E. destruct l1; discriminate.
      + exists []. now rewrite app_nil_r.
    - destruct (resolve s) as [pkg| |] eqn:E1; try discriminate. cbn [rbind] in H. destruct (record_of s pkg) as [r| |] eqn:E2; try discriminate. cbn [rbind] in H.
      destruct (add_to_manifest dev opt (pk_name pkg) r (fst (remove_from_manifest (pk_name pkg) v))) as [v2| |] eqn:E3; try discriminate. cbn [rbind] in H.
      destruct (@add_one resolve parse_spec vshow gitshow req prefix dev opt s v v2 pkg r W E1 E2 E3) as (A1 & A2 & A3 & A4 & x1 & A5).
      destruct (IH _ _ A1 H) as (l & F & B1 & B2 & B3 & B4 & x2 & B5). exists ((pkg, r) :: l).
      split; [constructor; auto|]. split; [exact B1|]. split; [intros k Hk; rewrite B2, A2; auto|]. split; [|split].
      + intros sec x Hs Hx. rewrite B3; auto; [|intros p Hp; apply Hx; now right]. apply A3; auto. intros ->. now apply (Hx (pkg, r) (or_introl eq_refl)).
      + intros l1 p l2 El Hl sec Hs. destruct l1 as [|q l1]; cbn in El; injection El as <- ->; [|eapply B4; eauto].
        cbn [fst snd] in *. rewrite B3 by auto. now apply A4.
      + exists (x1 ++ x2)%list. rewrite B5, A5. now rewrite app_assoc.
  Qed.
  (** Each requested package (the last request, if it is requested twice) is in the requested section with the recorded text, and in
      no other section; every other dependency and field is unchanged. *)
  Theorem C38_add : forall dev opt specs v w, jwf v -> added dev opt specs v = Ok w ->
    exists l : list (package * string), Forall2 (fun s p => resolve s = Ok (fst p) /\ record_of s (fst p) = Ok (snd p)) specs l
    /\ (forall l1 p l2, l = (l1 ++ p :: l2)%list -> (forall q, In q l2 -> pk_name (fst q) <> pk_name (fst p)) ->
        forall sec, dependency_section sec -> dep_of w sec (pk_name (fst p)) = if String.eqb sec (dep_kind dev opt) then Some (JStr (snd p)) else None)
    /\ (forall sec x, dependency_section sec -> (forall p, In p l -> pk_name (fst p) <> x) -> dep_of w sec x = dep_of v sec x)
    /\ (forall k, ~ dependency_section k -> field w k = field v k)
    /\ exists extra, keys w = (keys v ++ extra)%list.
  Proof. intros dev opt specs v w W H. destruct (adds_spec _ _ _ _ _ W H) as (l & F & B1 & B2 & B3 & B4 & B5). exists l. split; [exact F|]. split; [exact B4|]. auto. Qed.
  (** It succeeds whenever every package resolves and the manifest and the section, if there, are objects. *)
  Theorem C38_accepts : forall dev opt specs v, jwf v -> is_obj v = true -> (forall o, field v (dep_kind dev opt) = Some o -> is_obj o = true) ->
    (forall s, In s specs -> exists p r, resolve s = Ok p /\ record_of s p = Ok r) -> exists w, added dev opt specs v = Ok w.
  Proof.
    induction specs as [|s specs IH]; cbn [add_specs]; intros v W Hv Ho Hs; [eauto|]. destruct (Hs s (or_introl eq_refl)) as (p & r & E1 & E2). rewrite E1. cbn [rbind]. rewrite E2. cbn [rbind].
    pose proof (remove_from_spec (pk_name p) W) as S1. cbv zeta in S1. destruct (remove_from_manifest (pk_name p) v) as [v1 c1] eqn:Er. cbn [fst] in *.
    destruct S1 as (A1 & A2 & A3 & A4 & A5 & A6 & A7).
    assert (O1 : forall o, field v1 (dep_kind dev opt) = Some o -> is_obj o = true).
    { intros o H1. assert (exists o', field v (dep_kind dev opt) = Some o') as (o' & H').
      { assert (In (dep_kind dev opt) (keys v)) as Hin.
        { rewrite <- A2. destruct v1 as [ | | | | |l1]; cbn in H1; try discriminate. cbn. apply aget_In in H1; [|apply seqb_spec]. apply (in_map fst) in H1. exact H1. }
        destruct v as [ | | | | |l0]; cbn in Hin |- *; try easy. destruct (sget (dep_kind dev opt) l0) eqn:E; [eauto|]. apply aget_None in E; [easy|apply seqb_spec]. }
      pose proof (Ho _ H') as Ho'. destruct o' as [ | | | | |lo]; try discriminate.
      pose proof (remove_is_obj (pk_name p) v (dep_kind dev opt) H') as R. rewrite Er in R. cbn [fst] in R. destruct R as (lo' & R). rewrite R in H1. injection H1 as <-. reflexivity. }
    assert (exists w, add_to_manifest dev opt (pk_name p) r v1 = Ok w) as (w & Hw).
    { apply add_to_ok. split; [right; congruence|]. intros o H1. right. auto. }
    rewrite Hw. cbn [rbind]. destruct (add_to_spec dev opt (pk_name p) r A1 Hw) as (B1 & B2 & B3 & B4 & B5 & B6).
    apply IH; auto.
    - destruct w; try reflexivity; unfold dep_of in B3; cbn in B3; discriminate.
    - intros o H1. unfold dep_of in B3. rewrite H1 in B3. destruct o; try reflexivity; discriminate.
    - intros s' Hin. apply Hs. now right.
  Qed.
End Add.

(** The recorded text: the prefix and the chosen version, for an alias with the real name in front; directories and git remotes as given. *)
Section Text.
  Variable parse_spec : string -> res err pspec.
  Variable vshow : version -> string.
  Variable uscheme : string -> string.
  Variable prefix : string.
  Notation record_of := (recorded parse_spec vshow (show_git uscheme) (requested vshow uscheme) prefix).
  Theorem C38_text_npm : forall s sc n r nm rn v u i, parse_spec s = Ok (SNpm sc n r) ->
    record_of s (mkPkg nm (SNpm sc n r) (RNpm rn v u i)) = Ok (prefix ++ vshow v).
  Proof. intros. unfold recorded. rewrite H. reflexivity. Qed.
  Theorem C38_text_alias : forall s a sc n r nm rn v u i, parse_spec s = Ok (SAlias a (SNpm sc n r)) ->
    record_of s (mkPkg nm (SAlias a (SNpm sc n r)) (RNpm rn v u i)) = Ok ("npm:" ++ n ++ "@" ++ prefix ++ vshow v).
  Proof. intros. unfold recorded. rewrite H. reflexivity. Qed.
  Theorem C38_text_dir : forall s p pkg, (parse_spec s = Ok (SDir p) \/ exists a, parse_spec s = Ok (SAlias a (SDir p))) -> record_of s pkg = Ok p.
  Proof. intros s p pkg [H | (a & H)]; unfold recorded; rewrite H; reflexivity. Qed.
End Text.

(** ** C39: when package.json and the lockfile are written *)
Section Write.
  Variables N T M : Type.
  Variable manifest : string -> option M.
  Variable parse : string -> option json.
  Variable resolves : bool -> M -> disk N -> T -> Prop.
  Variables prunes extracts : T -> N -> N -> Prop.
  Variable rebuilds : bool -> T -> N -> N -> Prop.
  Variable clears : N -> N -> Prop.
  Variable lock_text : T -> res err string.
  Variable parse_spec : string -> res err pspec.
  Notation lock_after := (lock_after resolves prunes extracts rebuilds lock_text).
  Notation finished := (finished resolves prunes extracts rebuilds lock_text).

  (** apply, however it ends (success, error, crash at any point): package.json is untouched; the lockfile is the old one unless
      the manifest was resolved and the tree completely installed, and then the old one or a prefix of the new one; success means
      that all of it happened. *)
  Theorem C39_apply_partial : forall o d e d', apply_cmd manifest resolves prunes extracts rebuilds lock_text o d e d' ->
    d_json d' = d_json d
    /\ (d_lock d' = d_lock d \/ exists s m, d_json d = Some s /\ manifest s = Some m /\ lock_after (with_apply o) m d d')
    /\ (e = Fin tt -> exists s m, d_json d = Some s /\ manifest s = Some m /\ finished (with_apply o) m d d').
  Proof. intros o d e d' H. exact (apply_cmd_run H). Qed.
  Theorem C39_reapply_partial : forall o d e d', reapply_cmd manifest resolves prunes extracts rebuilds clears lock_text o d e d' ->
    d_json d' = d_json d
    /\ (d_lock d' = d_lock d \/ exists n s m, clears (d_rest d) n /\ d_json d = Some s /\ manifest s = Some m
        /\ lock_after (with_apply o) m (mkDisk (d_json d) (d_lock d) n) d')
    /\ (e = Fin tt -> exists n s m, clears (d_rest d) n /\ d_json d = Some s /\ manifest s = Some m /\ finished (with_apply o) m (mkDisk (d_json d) (d_lock d) n) d').
  Proof. intros o d e d' H. exact (reapply_cmd_run H). Qed.
  Notation edited := (apply_edited manifest resolves prunes extracts rebuilds lock_text).
  (** what an edit of package.json to the text [new] may leave behind *)
  Definition edit_outcome (o : opts) (new : string) (d : disk N) (e : ending unit) (d' : disk N) : Prop :=
    (d_lock d' = d_lock d \/ exists m, manifest new = Some m /\ lock_after (unlocked o) m d d')
    /\ (d_json d' = d_json d \/ exists m, manifest new = Some m /\ finished (unlocked o) m d d' /\ torn (d_json d) new (d_json d'))
    /\ (e = Fin tt -> d_json d' = Some new /\ exists m, manifest new = Some m /\ finished (unlocked o) m d d').
  (** remove, however it ends: package.json is the old one unless the edited manifest was installed, and then the old one or a prefix
      of the new one; the lockfile as for apply. *)
  Theorem C39_remove_partial : forall o names d e d', remove_cmd manifest parse resolves prunes extracts rebuilds lock_text parse_spec o names d e d' ->
    (d' = d /\ ends e) \/ exists s f w n, d_json d = Some s /\ from_str parse s = Some f /\ remove_names parse_spec names (f_value f) 0 = Ok (w, n)
      /\ edit_outcome o (to_string_pretty (set_value w f)) d e d'.
  Proof.
    intros o names d e d' H. unfold remove_cmd in H. destruct (pure_bind H) as [(s & Hs & H1) | [-> F]]; [|auto].
    destruct (pure_bind H1) as [(f & Hf & H2) | [-> F]]; [|auto]. destruct (pure_bind H2) as [([w n] & Hw & H3) | [-> F]]; [|auto].
    right. exists s, f, w, n. do 3 (split; [assumption|]). exact (edited_run H3).
  Qed.
  Theorem C39_add_partial : forall resolve vshow gitshow req prefix dev opt o specs d e d',
    add_cmd manifest parse resolves prunes extracts rebuilds lock_text resolve parse_spec vshow gitshow req prefix dev opt o specs d e d' ->
    (d' = d /\ ends e) \/ exists s f w, d_json d = Some s /\ from_str parse s = Some f
      /\ add_specs resolve parse_spec vshow gitshow req prefix dev opt specs (f_value f) = Ok w
      /\ edit_outcome o (to_string_pretty (set_value w f)) d e d'.
  Proof.
    intros resolve vshow gitshow req prefix dev opt o specs d e d' H. unfold add_cmd in H. destruct (pure_bind H) as [(s & Hs & H1) | [-> F]]; [|auto].
    destruct (pure_bind H1) as [(f & Hf & H2) | [-> F]]; [|auto]. destruct (pure_bind H2) as [(w & Hw & H3) | [-> F]]; [|auto].
    right. exists s, f, w. do 3 (split; [assumption|]). exact (edited_run H3).
  Qed.
  (** With the default options, package.json changes only if the new tree is completely installed. *)
  Theorem C39_no_phantom : forall o new d e d', edit_outcome o new d e d' -> o_apply o = true -> o_lockfile_only o = false -> d_json d' <> d_json d ->
    exists m t n1 n2, manifest new = Some m /\ resolves false m d t /\ prunes t (d_rest d) n1 /\ extracts t n1 n2 /\ rebuilds (o_scripts o) t n2 (d_rest d').
  Proof.
    intros o new d e d' (_ & [H | (m & Hm & Hf & _)] & _) Ha Hl Hn; [easy|]. unfold CmdProofs.finished, installed, unlocked in Hf. cbn in Hf. rewrite Ha, Hl in Hf.
    destruct Hf as (t & Hr & (n1 & n2 & H1 & H2 & H3) & _). exists m, t, n1, n2. auto.
  Qed.
End Write.

(** C39 as stated fails in two ways. Writes are not atomic: a crash during a write leaves a file that is neither old nor new. *)
Theorem C39_refuted_torn : exists (lock_text : unit -> res err string) (d d' : disk unit),
  apply_cmd (fun _ => Some tt) (fun _ _ _ _ => True) (fun _ _ _ => True) (fun _ _ _ => True) (fun _ _ _ _ => True) lock_text (mkOpts true true false false true) d Crashed d'
  /\ d_lock d = Some "old" /\ lock_text tt = Ok "new" /\ d_lock d' = Some "n".
Proof.
  exists (fun _ => Ok "new"), (mkDisk (Some "{}") (Some "old") tt), (mkDisk (Some "{}") (Some "n") tt). split; [|auto].
  unfold apply_cmd. left. exists "{}", (mkDisk (Some "{}") (Some "old") tt). split; [unfold read_json, pure_; eauto|].
  left. exists tt, (mkDisk (Some "{}") (Some "old") tt). split; [unfold of_option, pure_; eauto|].
  unfold apply_args. cbn [o_apply with_apply negb o_lockfile o_lockfile_only]. left. exists tt, (mkDisk (Some "{}") (Some "old") tt).
  split; [unfold resolve_phase, pure_; eauto 6|]. left. exists tt, (mkDisk (Some "{}") (Some "old") tt). split.
  - left. exists tt, (mkDisk (Some "{}") (Some "old") tt). split; [unfold phase; auto|].
    left. exists tt, (mkDisk (Some "{}") (Some "old") tt). split; unfold phase; auto.
  - left. exists "new", (mkDisk (Some "{}") (Some "old") tt). split; [unfold of_res, pure_; eauto|].
    unfold write_lock, torn, ends. cbn. repeat split; auto. right. split; [auto|]. right. exists "n", "ew". auto.
Qed.
(** And with --no-apply (or --lockfile-only) the commands write package.json without installing anything. *)
Theorem C39_refuted_no_apply : exists (parse : string -> option json) (d d' : disk unit),
  remove_cmd (fun _ => Some tt) parse (fun _ _ _ (_ : unit) => False) (fun _ _ _ => False) (fun _ _ _ => False) (fun _ _ _ _ => False) (fun _ => Ok "") (fun _ => Err EInvalidSpec)
    (mkOpts false true false false true) [] d (Fin tt) d' /\ d_json d' <> d_json d.
Proof.
  exists (fun _ => Some (JObj [])), (mkDisk (Some "{ }") None tt), (mkDisk (Some "{}") None tt). split; [|discriminate].
  unfold remove_cmd. left. exists "{ }", (mkDisk (Some "{ }") None tt). split; [unfold read_json, pure_; eauto|].
  left. exists (mkF (JObj []) " "%char 2 (s1 nl) false), (mkDisk (Some "{ }") None tt). split; [unfold of_option, pure_; split; [reflexivity|]; left; eexists; split; reflexivity|].
  left. exists (JObj [], 0), (mkDisk (Some "{ }") None tt). split; [unfold of_res, pure_; split; [reflexivity|]; left; eexists; split; reflexivity|].
  unfold apply_edited. left. exists tt, (mkDisk (Some "{ }") None tt). split; [unfold of_option, pure_; eauto|].
  left. exists tt, (mkDisk (Some "{ }") None tt). split; [split; reflexivity|]. unfold write_json. cbn. repeat split; auto.
Qed.

(** ** C40: formatting *)
(** A document laid out with any indentation of blanks or tabs (at least one per level), either line ending, with or without trailing
    newline, and left unchanged, is written back byte for byte. *)
Theorem C40_unchanged_partial : forall parse c n e tr v, indent_char c -> line_end e -> jnum v ->
  parse (layout (srepeat (s1 c) (S n)) e tr v) = Some v ->
  exists f, from_str parse (layout (srepeat (s1 c) (S n)) e tr v) = Some f /\ f_value f = v /\ to_string_pretty f = layout (srepeat (s1 c) (S n)) e tr v.
Proof. exact unchanged. Qed.
(** For any document with a second line, an edited value is written with the indentation of the second line, the first line ending and
    the trailing newline of the original. *)
Theorem C40_style_partial : forall parse a e c n b v, one_line a -> line_end e -> indent_char c -> visible_start b -> parse (a ++ e ++ srepeat (s1 c) (S n) ++ b) = Some v ->
  exists f, from_str parse (a ++ e ++ srepeat (s1 c) (S n) ++ b) = Some f /\ f_value f = v /\
  exists tr, (tr = true <-> ends_line (a ++ e ++ srepeat (s1 c) (S n) ++ b)) /\
  forall v', jnum v' -> to_string_pretty (set_value v' f) = layout (srepeat (s1 c) (S n)) e tr v'.
Proof. exact style_kept. Qed.
(** Not preserved in general: a document on one line is spread over several, one with no indentation gets two blanks, and an array on one line is broken up. *)
Theorem C40_refuted_one_line : forall parse, parse "{""a"":1}" = Some (JObj [("a", JNum "1")]) ->
  exists f, from_str parse "{""a"":1}" = Some f /\ to_string_pretty f = layout "  " (s1 nl) false (JObj [("a", JNum "1")]).
Proof. intros parse H. unfold from_str. rewrite H. eexists. split; reflexivity. Qed.
Theorem C40_refuted_inline : forall parse, let t := layout "  " (s1 nl) false (JObj [("a", JNum "0")]) in
  let t' := ("{" ++ s1 nl ++ "  ""a"": [1, 2]" ++ s1 nl ++ "}") in
  parse t' = Some (JObj [("a", JArr [JNum "1"; JNum "2"])]) ->
  exists f, from_str parse t' = Some f /\ to_string_pretty f <> t'.
Proof. intros parse t t' H. unfold from_str. rewrite H. eexists. split; [reflexivity|]. vm_compute. discriminate. Qed.
Theorem C40_refuted_no_indent : forall parse, let t := layout "" (s1 nl) false (JObj [("a", JNum "1")]) in parse t = Some (JObj [("a", JNum "1")]) ->
  exists f, from_str parse t = Some f /\ to_string_pretty f <> t.
Proof. intros parse t H. unfold from_str. rewrite H. eexists. split; [reflexivity|]. vm_compute. discriminate. Qed.

(** ** the hypotheses are met *)
Definition ex_pkg_json : json := JObj [("name", JStr "demo"); ("dependencies", JObj [("a", JStr "^1.0.0"); ("b", JStr "2")]); ("devDependencies", JObj [("a", JStr "1")])].
Definition ex_parse_spec (s : string) : res err pspec := if String.eqb s "./x" then Ok (SDir s) else Ok (SNpm None s None).
Definition ex_ver : version := mkV 1 2 3 [].
Definition ex_resolve (s : string) : res err package := Ok (mkPkg s (SNpm None s None) (RNpm s ex_ver "u" None)).
Lemma ex_json_wf : jwf ex_pkg_json.
Proof. unfold ex_pkg_json. repeat (constructor; cbn). all: intuition discriminate. Qed.
Example ex_remove : remove_names ex_parse_spec ["a"] ex_pkg_json 0
  = Ok (JObj [("name", JStr "demo"); ("dependencies", JObj [("b", JStr "2")]); ("devDependencies", JObj [])], 2).
Proof. reflexivity. Qed.
Example ex_remove_bad : remove_names ex_parse_spec ["a"; "./x"] ex_pkg_json 0 = Err EInvalidSpec.
Proof. reflexivity. Qed.
Example ex_add : add_specs ex_resolve ex_parse_spec (fun _ => "1.2.3") (fun _ => "") (requested (fun _ => "1.2.3") (fun x => x)) "^" true false ["b"; "c"] ex_pkg_json
  = Ok (JObj [("name", JStr "demo"); ("dependencies", JObj [("a", JStr "^1.0.0")]); ("devDependencies", JObj [("a", JStr "1"); ("b", JStr "^1.2.3"); ("c", JStr "^1.2.3")])]).
Proof. reflexivity. Qed.
Definition ex_text : string := layout (srepeat (s1 tab) 1) (String cr (s1 nl)) true ex_pkg_json.
Example ex_style : exists f, from_str (fun s => if String.eqb s ex_text then Some ex_pkg_json else None) ex_text = Some f /\ to_string_pretty f = ex_text /\ ends_line ex_text.
Proof.
  eexists. split; [reflexivity|]. split; [vm_compute; reflexivity|]. exists (layout (srepeat (s1 tab) 1) (String cr (s1 nl)) false ex_pkg_json ++ s1 cr), nl. split; [vm_compute; reflexivity|auto].
Qed.

Print Assumptions C37_remove.
Print Assumptions C37_accepts.
Print Assumptions C37_refuted_order.
Print Assumptions C38_add.
Print Assumptions C38_accepts.
Print Assumptions C38_text_npm.
Print Assumptions C38_text_alias.
Print Assumptions C38_text_dir.
Print Assumptions C39_apply_partial.
Print Assumptions C39_reapply_partial.
Print Assumptions C39_remove_partial.
Print Assumptions C39_add_partial.
Print Assumptions C39_no_phantom.
Print Assumptions C39_refuted_torn.
Print Assumptions C39_refuted_no_apply.
Print Assumptions C40_unchanged_partial.
Print Assumptions C40_style_partial.
Print Assumptions C40_refuted_one_line.
Print Assumptions C40_refuted_inline.
Print Assumptions C40_refuted_no_indent.
