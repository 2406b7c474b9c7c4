(** * Properties C40 (mixed indentation), C54: package.json as orogene writes it can be read back.
    JsonRead: [jread number t], the value of a JSON text, None if it is not JSON (what serde_json::from_str returns; [number] gives,
    for a number text, the text under which serde_json prints the number it reads). [from_str]: reading package.json with its style,
    [to_string_pretty]: writing it. *)
From Verif Require Import Base Types StdPath JsonModel JsonSpec JsonProofs JsonPrint JsonRead JsonReadProofs JsonReadThms CmdModel SpecModel PropsJson.
From Coq Require Import Lia NArith.
Open Scope list_scope.
Open Scope string_scope.

(** C40: an indentation of blanks and tabs mixed is replaced by as many copies of its last character. *)
Lemma lead_ws_mixed w c x h : sall ws w = true -> ws c = true -> ws x = false -> lead_ws 0 None (w ++ String c (String x h)) = Some (c, S (String.length w)).
Proof.
  intros Hw Hc Hx. assert (G : forall n l, lead_ws n l (w ++ String c (String x h)) = Some (c, n + S (String.length w))).
  { induction w as [|a w IH]; intros n l; cbn [append lead_ws String.length].
    - rewrite Hc, Hx. do 2 f_equal. lia.
    - cbn in Hw. apply andb_true_iff in Hw. destruct Hw as [-> Hw]. rewrite IH by exact Hw. do 2 f_equal. lia. }
  exact (G 0 None).
Qed.
Definition blank (c : ascii) : bool := Ascii.eqb c " " || Ascii.eqb c tab.
Lemma blank_flat w : sall blank w = true -> sall ws w = true /\ no_char nl w = true /\ no_char cr w = true.
Proof.
  induction w as [|a w IH]; [auto|]. cbn [sall no_char]. rewrite andb_true_iff. intros [Ha Hw]. destruct (IH Hw) as (-> & -> & ->). unfold blank in Ha. rewrite orb_true_iff, !Ascii.eqb_eq in Ha. destruct Ha as [-> | ->]; auto.
Qed.
Theorem C40_mixed_partial : forall parse a e w c b v, one_line a -> line_end e -> sall blank w = true -> indent_char c -> visible_start b ->
  parse (a ++ e ++ (w ++ s1 c) ++ b) = Some v ->
  exists f, from_str parse (a ++ e ++ (w ++ s1 c) ++ b) = Some f /\ f_value f = v /\
  exists tr, (tr = true <-> ends_line (a ++ e ++ (w ++ s1 c) ++ b)) /\
  forall v', jnum v' -> to_string_pretty (set_value v' f) = layout (srepeat (s1 c) (String.length (w ++ s1 c))) e tr v'.
Proof.
  intros parse a e w c b v Ha He Hw Hc Hb Hp. destruct b as [|x b]; [easy|]. cbn in Hb. destruct (blank_flat w Hw) as (W1 & W2 & W3).
  assert (Hx : x <> nl /\ x <> cr) by (split; intros ->; discriminate Hb). assert (Hcc : c <> nl /\ c <> cr) by (destruct Hc as [-> | ->]; split; discriminate).
  assert (F : from_str parse (a ++ e ++ (w ++ s1 c) ++ String x b) = Some (mkF v c (S (String.length w)) e (ends_lineb (a ++ e ++ (w ++ s1 c) ++ String x b)))).
  { unfold from_str. rewrite Hp. unfold detect_indentation. rewrite lines_second by assumption.
    destruct (@lines_first ((w ++ s1 c) ++ s1 x) b) as (h & t & E).
    { split; rewrite !no_char_app, ?W2, ?W3; cbn; rewrite !(proj2 (Ascii.eqb_neq _ _)) by tauto; reflexivity. }
    { destruct w; easy. }
    rewrite (sapp_assoc (w ++ s1 c)) in E. change (s1 x ++ b) with (String x b) in E. rewrite E. rewrite !sapp_assoc. cbn [s1 append]. rewrite lead_ws_mixed by (auto; destruct Hc as [-> | ->]; reflexivity).
    unfold detect_line_end. rewrite first_end_app by assumption. rewrite first_end_eol by assumption. reflexivity. }
  eexists. split; [exact F|]. split; [reflexivity|]. eexists. split; [apply ends_lineb_spec|]. intros v' J. rewrite to_string_layout by exact J.
  replace (String.length (w ++ s1 c)) with (S (String.length w)) by (rewrite len_app; cbn; lia). reflexivity.
Qed.
(** so it is not kept: one blank and a tab become two tabs *)
Theorem C40_refuted_mixed : let t := "{" ++ s1 nl ++ (" " ++ s1 tab) ++ quote "a" ++ ": 1" ++ s1 nl ++ "}" in
  exists f, from_str (jread Some) t = Some f /\ to_string_pretty f = "{" ++ s1 nl ++ (s1 tab ++ s1 tab) ++ quote "a" ++ ": 1" ++ s1 nl ++ "}".
Proof. eexists. split; vm_compute; reflexivity. Qed.

Section Numbers.
  Variable number : string -> option string.
  (** a number serde_json has printed is a JSON number, and is read back and printed the same *)
  Hypothesis Hnum : forall s t, number s = Some t -> read_num t = Some (t, "") /\ number t = Some t.
  Notation jread := (jread number).

  (** C54: package.json read (any text, any style) and written back unchanged has the same value. *)
  Theorem C54_unchanged : forall t f, from_str jread t = Some f -> jread (to_string_pretty f) = jread t.
  Proof. intros t f H. destruct (from_str_ws _ _ H) as (-> & _). exact (write_read_same Hnum _ H). Qed.
  (** After removing dependencies, the file written has exactly the edited value. *)
  Theorem C54_remove : forall parse t f names v n, from_str jread t = Some f -> remove_names parse names (f_value f) 0 = Ok (v, n) ->
    jread (to_string_pretty (set_value v f)) = Some v.
  Proof.
    intros parse t f names v n H E. destruct (from_str_ws _ _ H) as (P & _). pose proof (jread_good Hnum _ P) as G. pose proof (@remove_names_good number parse 127 names _ 0 v n G E) as (W & J & D).
    exact (write_read _ H W J D).
  Qed.
  (** The same after adding dependencies, whatever names and texts are recorded. *)
  Theorem C54_add : forall resolve parse vshow gitshow req prefix dev opt t f specs v, from_str jread t = Some f ->
    add_specs resolve parse vshow gitshow req prefix dev opt specs (f_value f) = Ok v -> jread (to_string_pretty (set_value v f)) = Some v.
  Proof.
    intros resolve parse vshow gitshow req px dev opt t f specs v H E. destruct (from_str_ws _ _ H) as (P & _). pose proof (jread_good Hnum _ P) as G.
    pose proof (@add_specs_good number resolve parse vshow gitshow req px 125 dev opt specs _ v G E) as (W & J & D). exact (write_read _ H W J D).
  Qed.
  (** Any value with every key once in each object, numbers as serde_json prints them and at most 127 levels of nesting reads back. *)
  Theorem C54_layout : forall ind e tr v, sall ws ind = true -> sall ws e = true -> jwf v -> jstable number v -> jdepth v <= 127 -> jread (layout ind e tr v) = Some v.
  Proof. exact (read_layout (number := number)). Qed.
  (** C40 with this reader: a document laid out with an indentation of blanks or tabs and left unchanged is written back byte for byte. *)
  Theorem C40_unchanged_doc_partial : forall c n e tr v, indent_char c -> line_end e -> jwf v -> jstable number v -> jdepth v <= 127 ->
    let t := layout (srepeat (s1 c) (S n)) e tr v in exists f, from_str jread t = Some f /\ f_value f = v /\ to_string_pretty f = t.
  Proof.
    intros c n e tr v Hc He W J D t. apply C40_unchanged_partial; auto; [exact (stable_jnum J)|]. apply C54_layout; auto.
    - change (sall ws (srepeat (s1 c) (S n)) = true). apply sall_repeat. destruct Hc as [-> | ->]; reflexivity.
    - destruct He as [-> | ->]; reflexivity.
  Qed.
End Numbers.

(** ** the hypotheses are met *)
Definition int_number (s : string) : option string := match read_num s with Some (t, "") => Some t | _ => None end.
Lemma int_number_ok : forall s t, int_number s = Some t -> read_num t = Some (t, "") /\ int_number t = Some t.
Proof.
  unfold int_number. intros s t H. destruct (read_num s) as [[x [|? ?]]|] eqn:E; try discriminate. injection H as <-.
  pose proof (proj1 (read_num_text _ E)) as Es. rewrite sapp_nil in Es. subst s. rewrite E. auto.
Qed.
Definition ex_odd : string := "{  ""na\u006de"":""a\""b\\\u00e9\ud83d\ude00"" ," ++ s1 cr ++ " ""dependencies"": { ""x"" : ""^1"",""x"":""2"", ""y"":""*"" }, ""n"":[1,-2.5e+3, true ,null,{}]}".
Example ex_read : jread int_number ex_odd = Some (JObj [("name", JStr ("a""b\" ++ utf8 233 ++ utf8 128512)); ("dependencies", JObj [("x", JStr "2"); ("y", JStr "*")]);
  ("n", JArr [JNum "1"; JNum "-2.5e+3"; JBool true; JNull; JObj []])]).
Proof. vm_compute. reflexivity. Qed.
Example ex_read_bad : map (jread int_number) ["{""a"":01}"; "{""a"":1,}"; "[1 2]"; """\x"""; "{} {}"; "{""a"" 1}"; """" ++ s1 nl ++ """"] = repeat None 7.
Proof. vm_compute. reflexivity. Qed.
Example ex_remove_odd : exists f v n, from_str (jread int_number) ex_odd = Some f /\ remove_names ex_parse_spec ["x"] (f_value f) 0 = Ok (v, n) /\ n = 1
  /\ jread int_number (to_string_pretty (set_value v f)) = Some v.
Proof.
  eexists. eexists. eexists. split; [vm_compute; reflexivity|]. split; [vm_compute; reflexivity|]. split; [reflexivity|].
  refine (C54_remove int_number int_number_ok ex_parse_spec ex_odd _ ["x"] _ 1 _ _); vm_compute; reflexivity.
Qed.
Example ex_add_odd : exists f v, from_str (jread int_number) ex_odd = Some f
  /\ add_specs ex_resolve ex_parse_spec (fun _ => "1.2.3") (fun _ => "") (requested (fun _ => "1.2.3") (fun x => x)) "^" true false ["b"; "c"] (f_value f) = Ok v
  /\ jread int_number (to_string_pretty (set_value v f)) = Some v /\ v <> f_value f.
Proof.
  eexists. eexists. split; [vm_compute; reflexivity|]. split; [vm_compute; reflexivity|]. split; [|vm_compute; discriminate].
  refine (C54_add int_number int_number_ok ex_resolve ex_parse_spec (fun _ => "1.2.3") (fun _ => "") (requested (fun _ => "1.2.3") (fun x => x)) "^" true false ex_odd _ ["b"; "c"] _ _ _); vm_compute; reflexivity.
Qed.
(** a printed number that does not read back, as serde_json's floats may be without its feature float_roundtrip, is outside [Hnum] *)

Print Assumptions C40_mixed_partial.
Print Assumptions C40_refuted_mixed.
Print Assumptions C54_unchanged.
Print Assumptions C54_remove.
Print Assumptions C54_add.
Print Assumptions C54_layout.
Print Assumptions C40_unchanged_doc_partial.
