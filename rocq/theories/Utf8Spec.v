(** * What UTF-8 is (RFC 3629), and that the checker of ScriptRun decides it *)
From Coq Require Import ZifyN ZArith.
From Verif Require Import Base ScriptRun.
Local Open Scope N_scope.
Open Scope list_scope.

(** a Unicode scalar value: a code point up to 10FFFF that is not a surrogate *)
Definition scalar (n : N) : Prop := n < 55296 \/ 57344 <= n < 1114112.
Definition chr (n : N) : ascii := ascii_of_N n.
(** its encoding in one to four bytes *)
Definition encoding (n : N) : bytes :=
  if n <? 128 then [chr n]
  else if n <? 2048 then [chr (192 + n / 64); chr (128 + n mod 64)]
  else if n <? 65536 then [chr (224 + n / 4096); chr (128 + n / 64 mod 64); chr (128 + n mod 64)]
  else [chr (240 + n / 262144); chr (128 + n / 4096 mod 64); chr (128 + n / 64 mod 64); chr (128 + n mod 64)].
(** a text in UTF-8 *)
Definition Utf8 (s : bytes) : Prop := exists ns, Forall scalar ns /\ s = concat (map encoding ns).

Lemma between_N a b c : between a b c = (N.of_nat a <=? N_of_ascii c) && (N_of_ascii c <=? N.of_nat b).
Proof.
  unfold between, nat_of_ascii. rewrite <- (N2Nat.id (N_of_ascii c)) at 3 4.
  destruct (Nat.leb_spec a (N.to_nat (N_of_ascii c))), (Nat.leb_spec (N.to_nat (N_of_ascii c)) b),
    (N.leb_spec (N.of_nat a) (N.of_nat (N.to_nat (N_of_ascii c)))), (N.leb_spec (N.of_nat (N.to_nat (N_of_ascii c))) (N.of_nat b)); cbn; try reflexivity; lia.
Qed.
Lemma cont_b c : cont c = between 128 191 c. Proof. reflexivity. Qed.
Lemma between_chr a b m : m < 256 -> between a b (chr m) = (N.of_nat a <=? m) && (m <=? N.of_nat b).
Proof. intros H. rewrite between_N. unfold chr. rewrite N_ascii_embedding by assumption. reflexivity. Qed.
Lemma between_true a b c : between a b c = true <-> N.of_nat a <= N_of_ascii c <= N.of_nat b.
Proof. rewrite between_N, andb_true_iff, !N.leb_le. reflexivity. Qed.
Lemma chr_of c n : N_of_ascii c = n -> c = chr n.
Proof. intros <-. unfold chr. now rewrite ascii_N_embedding. Qed.
Ltac Zify.zify_post_hook ::= Z.div_mod_to_equations.

Lemma enc_ok n r : scalar n -> utf8_ok (encoding n ++ r) = utf8_ok r.
Proof.
  intros S. unfold encoding.
  assert (B : forall a b m, m < 256 -> N.of_nat a <= m <= N.of_nat b -> between a b (chr m) = true).
  { intros a b m L [? ?]. rewrite between_chr by assumption. apply andb_true_iff; split; apply N.leb_le; assumption. }
  assert (B' : forall a b m, m < 256 -> m < N.of_nat a \/ N.of_nat b < m -> between a b (chr m) = false).
  { intros a b m L D. rewrite between_chr by assumption. apply andb_false_iff. destruct D; [left|right]; apply N.leb_gt; assumption. }
  assert (C : forall m, m < 64 -> cont (chr (128 + m)) = true).
  { intros m L. rewrite cont_b. apply B; lia. }
  assert (M : n mod 64 < 64) by (apply N.mod_lt; lia). assert (M1 : n / 64 mod 64 < 64) by (apply N.mod_lt; lia).
  assert (M2 : n / 4096 mod 64 < 64) by (apply N.mod_lt; lia).
  destruct (N.ltb_spec n 128); [|destruct (N.ltb_spec n 2048); [|destruct (N.ltb_spec n 65536)]]; cbn [app utf8_ok].
  - rewrite B by lia. reflexivity.
  - rewrite B' by lia. rewrite B by lia. rewrite (C (n mod 64)) by assumption. reflexivity.
  - rewrite B' by lia. rewrite B' by lia. rewrite (C (n mod 64)) by assumption.
    destruct (N.lt_ge_cases n 4096); [|destruct (N.lt_ge_cases n 55296); [destruct (N.lt_ge_cases n 53248)|]].
    + rewrite B by lia. rewrite B by lia. reflexivity.
    + rewrite B' by lia. rewrite (B 225%nat 236%nat) by lia. cbn [orb]. rewrite (C (n / 64 mod 64)) by assumption. reflexivity.
    + rewrite B' by lia. rewrite (B' 225%nat 236%nat), (B' 238%nat 239%nat) by lia. cbn [orb]. rewrite (B 237%nat 237%nat) by lia. assert (Q : 832 <= n / 64 < 864) by lia. assert (n / 64 mod 64 < 32) by (clear -Q; generalize dependent (n / 64); intros; lia). rewrite (B 128%nat 159%nat) by lia. reflexivity.
    + rewrite B' by lia. rewrite (B' 225%nat 236%nat), (B 238%nat 239%nat) by (destruct S; lia). cbn [orb]. rewrite (C (n / 64 mod 64)) by assumption. reflexivity.
  - assert (n < 1114112) by (destruct S; lia).
    rewrite B' by lia. rewrite B' by lia. rewrite B' by lia. rewrite (B' 225%nat 236%nat), (B' 238%nat 239%nat) by lia. cbn [orb].
    rewrite B' by lia. rewrite (C (n mod 64)), (C (n / 64 mod 64)) by assumption.
    destruct (N.lt_ge_cases n 262144); [|destruct (N.lt_ge_cases n 1048576)].
    + rewrite B by lia. rewrite B by lia. reflexivity.
    + rewrite B' by lia. rewrite B by lia. rewrite C by assumption. reflexivity.
    + rewrite B' by lia. rewrite B' by lia. rewrite B by lia. rewrite B by lia. reflexivity.
Qed.

Lemma enc_inv : forall k s, (List.length s <= k)%nat -> utf8_ok s = true -> Utf8 s.
Proof.
  induction k as [|k IH]; intros s L H.
  { destruct s; [exists []; now split|cbn in L; lia]. }
  assert (Z : forall n r, (List.length r <= k)%nat -> utf8_ok r = true -> scalar n -> Utf8 (encoding n ++ r)).
  { intros n r Lr Hr Sn. destruct (IH r Lr Hr) as (ns & F & ->). exists (n :: ns). split; [now constructor|reflexivity]. }
  destruct s as [|a s]; [exists []; now split|]. cbn [utf8_ok List.length] in *.
  destruct (between 0 127 a) eqn:A.
  { apply between_true in A. replace (a :: s) with (encoding (N_of_ascii a) ++ s); [apply Z; [lia|assumption|left; lia]|].
    unfold encoding. destruct (N.ltb_spec (N_of_ascii a) 128); [|lia]. cbn. f_equal. symmetry. now apply chr_of. }
  destruct s as [|b s]; [discriminate|]. cbn [List.length] in *.
  destruct (between 194 223 a) eqn:A1.
  { apply between_true in A1. apply andb_true_iff in H as [B H]. rewrite cont_b in B. apply between_true in B.
    set (n := (N_of_ascii a - 192) * 64 + (N_of_ascii b - 128)).
    replace (a :: b :: s) with (encoding n ++ s); [apply Z; [lia|assumption|left; subst n; lia]|].
    unfold encoding. destruct (N.ltb_spec n 128); [subst n; lia|]. destruct (N.ltb_spec n 2048); [|subst n; lia]. cbn [app].
    f_equal; [|f_equal]; symmetry; apply chr_of; subst n; lia. }
  destruct s as [|c s]; [discriminate|]. cbn [List.length] in *.
  assert (T3 : forall x y z, N_of_ascii a = x -> N_of_ascii b = y -> N_of_ascii c = z -> 224 <= x < 240 -> 128 <= y < 192 -> 128 <= z < 192 ->
     let n := (x - 224) * 4096 + (y - 128) * 64 + (z - 128) in 2048 <= n -> scalar n -> utf8_ok s = true -> Utf8 (a :: b :: c :: s)).
  { intros x y z Ea Eb Ec Rx Ry Rz n Ln Sn Hs. replace (a :: b :: c :: s) with (encoding n ++ s); [apply Z; [lia|assumption..]|].
    unfold encoding. destruct (N.ltb_spec n 128); [lia|]. destruct (N.ltb_spec n 2048); [lia|].
    destruct (N.ltb_spec n 65536); [|subst n; lia]. cbn [app].
    f_equal; [|f_equal; [|f_equal]]; symmetry; apply chr_of; subst n; lia. }
  destruct (between 224 224 a) eqn:A2.
  { apply andb_true_iff in H as [H Hs]. apply andb_true_iff in H as [B C]. rewrite cont_b in C. apply between_true in A2, B, C.
    eapply T3; eauto; try lia. left; lia. }
  destruct (between 225 236 a || between 238 239 a) eqn:A3.
  { apply andb_true_iff in H as [H Hs]. apply andb_true_iff in H as [B C]. rewrite cont_b in B, C. apply between_true in B, C.
    apply orb_true_iff in A3 as [A3|A3]; apply between_true in A3; (eapply T3; eauto; try lia); [left|right]; lia. }
  destruct (between 237 237 a) eqn:A4.
  { apply andb_true_iff in H as [H Hs]. apply andb_true_iff in H as [B C]. rewrite cont_b in C. apply between_true in A4, B, C.
    eapply T3; eauto; try lia. left; lia. }
  destruct s as [|d s]; [discriminate|]. cbn [List.length] in *.
  assert (T4 : forall x y z w, N_of_ascii a = x -> N_of_ascii b = y -> N_of_ascii c = z -> N_of_ascii d = w ->
     240 <= x < 245 -> 128 <= y < 192 -> 128 <= z < 192 -> 128 <= w < 192 ->
     let n := (x - 240) * 262144 + (y - 128) * 4096 + (z - 128) * 64 + (w - 128) in 65536 <= n -> n < 1114112 -> utf8_ok s = true -> Utf8 (a :: b :: c :: d :: s)).
  { intros x y z w Ea Eb Ec Ed Rx Ry Rz Rw n Ln Sn Hs.
    replace (a :: b :: c :: d :: s) with (encoding n ++ s); [apply Z; [lia|assumption|right; lia]|].
    unfold encoding. destruct (N.ltb_spec n 128); [lia|]. destruct (N.ltb_spec n 2048); [lia|].
    destruct (N.ltb_spec n 65536); [lia|]. cbn [app].
    f_equal; [|f_equal; [|f_equal; [|f_equal]]]; symmetry; apply chr_of; subst n; lia. }
  destruct (between 240 240 a) eqn:A5; [|destruct (between 241 243 a) eqn:A6; [|destruct (between 244 244 a) eqn:A7; [|discriminate]]];
    apply andb_true_iff in H as [H Hs]; apply andb_true_iff in H as [H D]; apply andb_true_iff in H as [B C];
    rewrite cont_b in *; apply between_true in B, C, D; [apply between_true in A5|apply between_true in A6|apply between_true in A7];
    eapply T4; eauto; lia.
Qed.

Theorem utf8_ok_spec s : utf8_ok s = true <-> Utf8 s.
Proof.
  split; [now apply (@enc_inv (List.length s))|]. intros (ns & F & ->).
  induction F as [|n ns Sn F IH]; [reflexivity|]. cbn. rewrite enc_ok by assumption. exact IH.
Qed.
