(** * Facts about ScriptRun: lines, UTF-8, the invariants of a run *)
From Verif Require Import Base ScriptRun.
Open Scope list_scope.

(** ** UTF-8 and lines *)
Lemma utf8_cut c (Hc : between 0 127 c = true) : forall n a b, List.length a <= n -> utf8_ok (a ++ c :: b) = utf8_ok a && utf8_ok b.
Proof.
  assert (N : cont c = false) by (unfold between in Hc; unfold cont; apply andb_true_iff in Hc as [_ Hc]; apply Nat.leb_le in Hc;
    apply andb_false_iff; left; apply Nat.leb_gt; lia).
  assert (N' : forall x y, 128 <= x -> between x y c = false) by (intros x y L; unfold between in *; apply andb_true_iff in Hc as [_ Hc];
    apply Nat.leb_le in Hc; apply andb_false_iff; left; apply Nat.leb_gt; lia).
  induction n as [|n IH]; intros a b L.
  - destruct a; [cbn [app utf8_ok]; rewrite Hc; reflexivity | cbn in L; lia].
  - assert (Z : forall t, List.length t <= n -> utf8_ok (t ++ c :: b) = utf8_ok t && utf8_ok b) by (intros; apply IH; assumption).
    destruct a as [|a0 a]; [cbn [app utf8_ok]; rewrite Hc; reflexivity|].
    cbn [List.length] in L. cbn [app utf8_ok].
    destruct (between 0 127 a0); [apply Z; lia|].
    destruct a as [|a1 a]; cbn [app List.length] in *.
    { destruct (between 194 223 a0); [rewrite N; reflexivity|]. destruct b as [|b0 b]; [reflexivity|].
      rewrite !N, !N' by lia. cbn.
      destruct (between 224 224 a0); [reflexivity|]. destruct (between 225 236 a0 || between 238 239 a0); [reflexivity|].
      destruct (between 237 237 a0); [reflexivity|]. destruct b; [reflexivity|]. cbn.
      destruct (between 240 240 a0), (between 241 243 a0), (between 244 244 a0); reflexivity. }
    destruct (between 194 223 a0); [rewrite Z by lia; apply andb_assoc|].
    destruct a as [|a2 a]; cbn [app List.length] in *.
    { rewrite !N. rewrite !andb_false_r. cbn.
      destruct (between 224 224 a0); [reflexivity|]. destruct (between 225 236 a0 || between 238 239 a0); [reflexivity|].
      destruct (between 237 237 a0); [reflexivity|]. destruct b; [reflexivity|]. cbn. rewrite ?andb_false_r. cbn.
      destruct (between 240 240 a0), (between 241 243 a0), (between 244 244 a0); reflexivity. }
    rewrite !Z by lia.
    destruct (between 224 224 a0); [rewrite !andb_assoc; reflexivity|].
    destruct (between 225 236 a0 || between 238 239 a0); [rewrite !andb_assoc; reflexivity|].
    destruct (between 237 237 a0); [rewrite !andb_assoc; reflexivity|].
    destruct a as [|a3 a]; cbn [app List.length] in *.
    { rewrite !N, !andb_false_r. cbn. destruct (between 240 240 a0), (between 241 243 a0), (between 244 244 a0); reflexivity. }
    rewrite !Z by lia.
    destruct (between 240 240 a0); [rewrite !andb_assoc; reflexivity|].
    destruct (between 241 243 a0); [rewrite !andb_assoc; reflexivity|].
    destruct (between 244 244 a0); [rewrite !andb_assoc; reflexivity|]. reflexivity.
Qed.
Lemma utf8_nl a b : utf8_ok (a ++ nl :: b) = utf8_ok a && utf8_ok b.
Proof. apply (utf8_cut nl eq_refl (List.length a)); lia. Qed.
Lemma utf8_nl1 a : utf8_ok (a ++ [nl]) = utf8_ok a.
Proof. rewrite utf8_nl. apply andb_true_r. Qed.

(** what a stream's bytes are as lines *)
Inductive Lines : bytes -> list bytes -> Prop :=
| LNone : Lines [] []
| LLast l : l <> [] -> ~ In nl l -> Lines l [l]
| LLf l r ls : ~ In nl l -> (forall k, l <> k ++ [cr]) -> Lines r ls -> Lines (l ++ nl :: r) (l :: ls)
| LCrLf l r ls : ~ In nl l -> Lines r ls -> Lines (l ++ cr :: nl :: r) (l :: ls).

Definition sealed (d : bytes) := d = [] \/ exists k, d = k ++ [nl].
Lemma utf8_sealed d r : sealed d -> utf8_ok (d ++ r) = utf8_ok d && utf8_ok r.
Proof. intros [->|[k ->]]; [reflexivity|]. rewrite <- app_assoc. cbn [app]. rewrite utf8_nl, utf8_nl1. reflexivity. Qed.

Lemma lines_line l r ls : ~ In nl l -> Lines r ls -> Lines (l ++ nl :: r) (chomp l :: ls).
Proof.
  intros N H. unfold chomp. destruct (rev l) as [|c t] eqn:E.
  - assert (l = []) as -> by (rewrite <- (rev_involutive l), E; reflexivity). apply LLf; [easy| |assumption]. intros [|? ?]; discriminate.
  - assert (E' : l = rev t ++ [c]) by (rewrite <- (rev_involutive l), E; reflexivity).
    destruct (Ascii.eqb_spec c cr) as [->|Nc].
    + rewrite E', <- app_assoc. apply LCrLf; [|assumption]. intros I. apply N. rewrite E'. apply in_app_iff. now left.
    + apply LLf; [assumption| |assumption]. intros k Ek. rewrite E' in Ek. apply app_inj_tail in Ek as [_ ?]. contradiction.
Qed.
Lemma sealed_tail l r : sealed (l ++ nl :: r) -> sealed r.
Proof.
  intros [E|[k E]]; [destruct l; discriminate|].
  destruct r as [|x r] using rev_ind; [now left|]. right. exists r.
  rewrite app_comm_cons, app_assoc in E. apply app_inj_tail in E as [_ ->]. reflexivity.
Qed.
Lemma lines_app d ls : Lines d ls -> sealed d -> forall r ls', Lines r ls' -> Lines (d ++ r) (ls ++ ls').
Proof.
  induction 1 as [|l Hl Nl|l r ls Nl Nc H IH|l r ls Nl H IH]; intros Sd r' ls' H'.
  - assumption.
  - destruct Sd as [->|[k ->]]; [contradiction|]. exfalso. apply Nl, in_app_iff. right. now left.
  - rewrite <- app_assoc. cbn [app]. apply LLf; [assumption..|]. apply IH; [|assumption]. now apply sealed_tail in Sd.
  - rewrite <- app_assoc. cbn [app]. apply LCrLf; [assumption|]. apply IH; [|assumption].
    change (l ++ cr :: nl :: r) with (l ++ [cr] ++ nl :: r) in Sd. rewrite app_assoc in Sd. now apply sealed_tail in Sd.
Qed.
Lemma nl_split : forall b : bytes, {~ In nl b} + {exists l r, b = l ++ nl :: r /\ ~ In nl l}.
Proof.
  induction b as [|c b IH]; [left; easy|]. destruct (ascii_dec c nl) as [->|N].
  - right. exists [], b. split; [reflexivity|easy].
  - destruct IH as [IH|IH]; [left|right].
    + intros [->|I]; [now apply N|now apply IH].
    + destruct IH as (l & r & -> & Nl). exists (c :: l), r. split; [reflexivity|]. intros [->|I]; [now apply N|now apply Nl].
Qed.
Lemma lines_total : forall n b, List.length b <= n -> exists ls, Lines b ls.
Proof.
  induction n as [|n IH]; intros b L.
  - destruct b; [exists []; constructor|cbn in L; lia].
  - destruct (nl_split b) as [N|(l & r & -> & Nl)].
    + destruct b; [exists []; constructor|]. eexists. apply LLast; [discriminate|assumption].
    + destruct (IH r) as [ls H]; [rewrite app_length in L; cbn in L; lia|]. exists (chomp l :: ls). now apply lines_line.
Qed.
Lemma nl_unique (l l' r r' : bytes) : ~ In nl l -> ~ In nl l' -> l ++ nl :: r = l' ++ nl :: r' -> l = l' /\ r = r'.
Proof.
  revert l'; induction l as [|c l IH]; intros [|c' l'] N N' E; cbn in E.
  - now injection E.
  - injection E as <- _. exfalso. apply N'. now left.
  - injection E as -> _. exfalso. apply N. now left.
  - injection E as -> E. destruct (IH l') as [-> ->]; [intros I; apply N; now right|intros I; apply N'; now right|exact E|]. easy.
Qed.
Lemma no_nl l r : ~ In nl (l ++ nl :: r) -> False.
Proof. intros H. apply H, in_app_iff. right. now left. Qed.
Lemma cr_no l : ~ In nl l -> ~ In nl (l ++ [cr]).
Proof. intros N I. apply in_app_iff in I as [I|[I|[]]]; [contradiction|discriminate]. Qed.
Lemma lines_fun b ls : Lines b ls -> forall ls', Lines b ls' -> ls = ls'.
Proof.
  assert (C : forall l r, l ++ cr :: nl :: r = (l ++ [cr]) ++ nl :: r) by (intros; now rewrite <- app_assoc).
  induction 1 as [|l Hl Nl|l r ls Nl Nc H IH|l r ls Nl H IH]; intros ls' H'.
  - inversion H' as [|? A|? ? ? ? ? ? E|? ? ? ? ? E]; subst; [reflexivity|contradiction|destruct l; discriminate|destruct l; discriminate].
  - inversion H'; subst; [contradiction|reflexivity|exfalso; eauto using no_nl|exfalso]. rewrite C in Nl. eauto using no_nl.
  - inversion H' as [E|? ? N1 E|l1 r1 ls1 N1 C1 H1 E|l1 r1 ls1 N1 H1 E]; subst.
    + destruct l; discriminate.
    + exfalso; eauto using no_nl.
    + apply nl_unique in E as [-> ->]; [|assumption..]. f_equal. now apply IH.
    + rewrite C in E. apply nl_unique in E as [<- _]; [|now apply cr_no|assumption]. exfalso. exact (Nc l1 eq_refl).
  - rewrite C in H'. inversion H' as [E|? ? N1 E|l1 r1 ls1 N1 C1 H1 E|l1 r1 ls1 N1 H1 E]; subst.
    + destruct l; discriminate.
    + exfalso; eauto using no_nl.
    + apply nl_unique in E as [-> _]; [|assumption|now apply cr_no]. exfalso. exact (C1 l eq_refl).
    + rewrite C in E. apply nl_unique in E as [E ->]; [|now apply cr_no..]. apply app_inj_tail in E as [-> _]. f_equal. now apply IH.
Qed.
