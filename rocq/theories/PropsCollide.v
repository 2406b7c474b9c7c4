(** * Property C19: store directories can collide *)
From Coq Require Import FinFun.
From Verif Require Import Base Types ResolverModel ResolverProofs ResolverRun ResolverSpec ResolverThms ResolverSteps ResolverFacts
  LockfileModel LockfileGraph PathLookup Fs FsRun FsPlain HoistedModel HoistedSpec HoistedProofs HoistedThms ResolverExamples HoistedExamples IsolatedModel IsolatedSpec IsolatedProofs IsolatedThms PropsIsolated IsolatedCollide.
Open Scope string_scope.
Open Scope list_scope.
(** ** more names than hashes *)
Definition is_hex (c : Ascii.ascii) : bool := let n := Ascii.N_of_ascii c in ((48 <=? n) && (n <=? 57) || (97 <=? n) && (n <=? 102))%N.
Fixpoint all_hex (s : string) : bool := match s with EmptyString => true | String c t => is_hex c && all_hex t end.
(** the texts of [k] lower-case hexadecimal digits *)
Fixpoint hexes (k : nat) : list string :=
  match k with O => [""] | S k => flat_map (fun n => map (String (hexdigit n)) (hexes k)) [0;1;2;3;4;5;6;7;8;9;10;11;12;13;14;15]%N end.
Lemma hexes_length k : List.length (hexes k) = 16 ^ k.
Proof. induction k as [|k IH]; [reflexivity|]. cbn [hexes flat_map Nat.pow]. rewrite !app_length, !map_length, IH. cbn [List.length]. lia. Qed.
Lemma hexes_all s : all_hex s = true -> In s (hexes (String.length s)).
Proof.
  induction s as [|c s IH]; intros H; [left; reflexivity|]. cbn [all_hex] in H. apply andb_true_iff in H. destruct H as [Hc Hs]. cbn [String.length hexes].
  assert (E : exists n, In n [0;1;2;3;4;5;6;7;8;9;10;11;12;13;14;15]%N /\ hexdigit n = c).
  { clear IH Hs. unfold is_hex in Hc. destruct c as [[] [] [] [] [] [] [] []]; try discriminate Hc;
      match goal with |- exists n, _ /\ hexdigit n = ?c => let m := eval vm_compute in (let k := Ascii.N_of_ascii c in if N.leb k 57 then k - 48 else k - 87)%N in exists m end; (split; [cbn [In]; auto 20 | reflexivity]). }
  destruct E as (n & Hn & <-). apply in_flat_map. exists n. split; [auto|]. apply in_map. auto.
Qed.
Fixpoint bins (k : nat) : list string := match k with O => [""] | S k => map (String "0") (bins k) ++ map (String "1") (bins k) end.
Lemma bins_length k : List.length (bins k) = 2 ^ k.
Proof. induction k as [|k IH]; [reflexivity|]. cbn [bins Nat.pow]. rewrite app_length, !map_length, IH. lia. Qed.
Lemma bins_nodup k : NoDup (bins k).
Proof.
  induction k as [|k IH]; [constructor; [intros [] | constructor]|]. cbn [bins]. apply NoDup_app_iff_.
  - apply Injective_map_NoDup; [intros a b H; now injection H | exact IH].
  - apply Injective_map_NoDup; [intros a b H; now injection H | exact IH].
  - intros s Ha Hb. apply in_map_iff in Ha. apply in_map_iff in Hb. destruct Ha as (a & <- & _), Hb as (b & E & _). discriminate.
Qed.
(** pigeonhole *)
Lemma collide A B (eq_dec : forall a b : B, {a = b} + {a <> b}) (f : A -> B) (l : list A) (L : list B) : NoDup l -> (forall a, In a l -> In (f a) L) -> List.length L < List.length l ->
  exists a b, In a l /\ In b l /\ a <> b /\ f a = f b.
Proof.
  intros Hn Hin Hlt. assert (H : NoDup (map f l) \/ exists a b, In a l /\ In b l /\ a <> b /\ f a = f b).
  { clear Hin Hlt. induction l as [|a l IH]; [left; constructor|]. inversion Hn as [|? ? Ha Hl]; subst. destruct (IH Hl) as [H|(x & y & Hx & Hy & H)]; [|right; exists x, y; split; [now right|]; split; [now right|auto]].
    destruct (in_dec eq_dec (f a) (map f l)) as [Hi|Hi].
    - right. apply in_map_iff in Hi. destruct Hi as (b & E & Hb). exists a, b. split; [now left|]. split; [now right|]. split; [intros ->; contradiction | auto].
    - left. cbn. constructor; auto. }
  destruct H as [H|H]; [|exact H]. exfalso.
  assert (Hi : incl (map f l) L) by (intros b Hb; apply in_map_iff in Hb; destruct Hb as (a & <- & Ha); auto).
  pose proof (NoDup_incl_length H Hi) as Q. rewrite map_length in Q. lia.
Qed.
Definition pname (b : string) : string := String "p" b.
Lemma two_names (hex8 : string -> string) : (forall s, String.length (hex8 s) = 8 /\ all_hex (hex8 s) = true) ->
  exists a b, In a (bins 33) /\ In b (bins 33) /\ a <> b /\ hex8 (path_key [pname a; "x"]) = hex8 (path_key [pname b; "x"]).
Proof.
  intros H. apply (collide string string string_dec (fun a => hex8 (path_key [pname a; "x"])) (bins 33) (hexes 8)); [apply bins_nodup| |].
  - intros a _. destruct (H (path_key [pname a; "x"])) as [L A]. pose proof (hexes_all _ A) as Q. rewrite L in Q. exact Q.
  - rewrite hexes_length, bins_length. assert (E : (2 ^ 4) ^ 8 < 2 ^ 33) by (rewrite <- Nat.pow_mul_r; apply Nat.pow_lt_mono_r; lia). exact E.
Qed.
Lemma bins_ok k b : In b (bins k) -> no_slash b = true /\ ufold b = b /\ (forall c t, b = String c t -> c = "0"%char \/ c = "1"%char) /\ String.length b = k.
Proof.
  revert b; induction k as [|k IH]; intros b H; [destruct H as [<-|[]]; repeat split; discriminate|]. cbn [bins] in H. apply in_app_iff in H.
  destruct H as [H|H]; apply in_map_iff in H; destruct H as (a & <- & Ha); destruct (IH a Ha) as (H1 & H2 & _ & H4); (split; [cbn; now rewrite H1|]); (split; [cbn [ufold]; rewrite H2; reflexivity|]);
    (split; [intros c t E; injection E as <- _; auto | cbn; congruence]).
Qed.

(** the tree above is the result of a resolution *)
Definition sdeliver (p q : string) (s : pspec) (o : outcome) : Prop := exists k l, In (AChunk k l) (ssched p q) /\ In (s, o) l.
Lemma srun_reach (D : pspec -> outcome -> Prop) root l s' : Forall (fun a => match a with APop => True | AChunk _ l => Forall (fun r => D (fst r) (snd r)) l end) l ->
  ex_run (init root) l = Some s' -> reach ex_rsat ex_canon ex_parse unit (fun _ => []) (fun _ => no_deps) (fun _ => Ok None) D None root s'.
Proof.
  assert (G : forall l s s', reach ex_rsat ex_canon ex_parse unit (fun _ => []) (fun _ => no_deps) (fun _ => Ok None) D None root s ->
     Forall (fun a => match a with APop => True | AChunk _ l => Forall (fun r => D (fst r) (snd r)) l end) l -> ex_run s l = Some s' -> reach ex_rsat ex_canon ex_parse unit (fun _ => []) (fun _ => no_deps) (fun _ => Ok None) D None root s').
  { clear. induction l as [|a t IH]; intros s s' Hr Hh H; [injection H as <-; exact Hr|]. cbn [ex_run] in H.
    pose proof (Forall_inv Hh) as Ha. pose proof (Forall_inv_tail Hh) as Ht. destruct (ex_exec s a) as [[s1| |]|] eqn:E; try discriminate.
    eapply IH; [|exact Ht|exact H]. econstructor; [exact Hr | | exact E]. destruct a; cbn in *; auto. }
  intros Hh H. eapply G; eauto. constructor.
Qed.
Lemma sym_tree p q : String.compare p q = Lt -> plain p -> plain q -> (exists a, p = pname a) -> (exists b, q = pname b) ->
  exists g, ex_tree g /\ map n_children (g_nodes g) = [[("x", 1); (p, 2); (q, 3)]; []; [("x", 4)]; [("x", 5)]; []; []]
    /\ map (fun n => (n_name n, pk_name (n_pkg n), pk_resolved (n_pkg n))) (g_nodes g) =
     [("root", "root", RDir "root" "/root"); ("x", "x", RNpm "x" (v 1 0) "x" None); (p, p, RNpm p (v 1 0) p None); (q, q, RNpm q (v 1 0) q None);
      ("x", "x", RNpm "x" (v 1 1) "x" None); ("x", "x", RNpm "x" (v 2 0) "x" None)].
Proof.
  intros C Hp Hq [a Ea] [b Eb].
  assert (Cqp : String.compare q p = Gt) by (rewrite String.compare_antisym, C; reflexivity).
  assert (Hpq : p <> q) by (intros ->; rewrite C in Cqp; discriminate).
  assert (E1 : String.eqb p q = false) by now apply String.eqb_neq. assert (E2 : String.eqb q p = false) by (apply String.eqb_neq; congruence).
  assert (U1 : ufold p = p) by (destruct Hp as (c & t & _ & _ & _ & _ & _ & _ & H); exact H). assert (U2 : ufold q = q) by (destruct Hq as (c & t & _ & _ & _ & _ & _ & _ & H); exact H).
  assert (F : String.eqb p "x" = false /\ String.eqb "x" p = false /\ String.compare p "x" = Lt /\ String.compare "x" p = Gt) by (rewrite Ea; unfold pname; repeat split; reflexivity).
  assert (F' : String.eqb q "x" = false /\ String.eqb "x" q = false /\ String.compare q "x" = Lt /\ String.compare "x" q = Gt) by (rewrite Eb; unfold pname; repeat split; reflexivity).
  destruct F as (F1 & F2 & F3 & F4), F' as (G1 & G2 & G3 & G4).
  destruct (sym_run p q E1 E2 F1 G1 F2 G2 U1 U2 C F4 G4) as (s & Hr & Hf & Hc & Hn). exists (s_g s). split; [|auto].
  split; [|split].
  - exists ex_parse, unit, (fun _ => []), (fun _ => no_deps), (fun _ => Ok None), (sdeliver p q), None, (mk_root (sman p q)), root_pkg, (sman p q), "root", s.
    split; [apply (sym_new p q); auto|]. split; [|auto]. eapply srun_reach; [|exact Hr].
    apply Forall_forall. intros [|k l] Hin; [exact Logic.I|]. apply Forall_forall. intros [sp o] Hin'. exists k, l. auto.
  - intros i x c H. unfold child_of, getn in H. destruct (nth_error (g_nodes (s_g s)) i) as [n|] eqn:En; [|discriminate].
    assert (Hm : In (n_children n) (map n_children (g_nodes (s_g s)))) by (apply in_map; eapply nth_error_In; exact En). rewrite Hc in Hm.
    apply aget_In in H; [|apply seqb_spec]. assert (X : plain "x") by (apply plainb_spec; reflexivity).
    cbn [In] in Hm. destruct Hm as [E|[E|[E|[E|[E|[E|[]]]]]]]; rewrite <- E in H; cbn [In] in H; left;
      repeat match goal with H : _ \/ _ |- _ => destruct H as [H|H] end; try contradiction; injection H as <- _; auto.
  - intros i n H Hi. assert (Hm : nth_error (map (fun n => (n_name n, pk_name (n_pkg n), pk_resolved (n_pkg n))) (g_nodes (s_g s))) i = Some (n_name n, pk_name (n_pkg n), pk_resolved (n_pkg n))) by (rewrite nth_error_map; unfold getn in H; rewrite H; reflexivity).
    rewrite Hn in Hm. destruct i as [|[|[|[|[|[|i]]]]]]; [congruence| | | | | |destruct i; discriminate]; cbn [nth_error] in Hm; injection Hm; congruence.
Qed.
(** C19 is false, whatever hash function yields eight hexadecimal digits: there is a project whose tree has two packages,
    x 1.1.0 and x 2.0.0, with the same directory. *)
Theorem C19_refuted : forall hex8 : string -> string, (forall s, String.length (hex8 s) = 8 /\ all_hex (hex8 s) = true) ->
  exists g i j p q n m, tree ex_rsat ex_canon g /\ installed_at g i p /\ installed_at g j q /\ p <> q /\ p <> [] /\ q <> []
    /\ getn g i = Some n /\ getn g j = Some m /\ pk_resolved (n_pkg n) <> pk_resolved (n_pkg m)
    /\ home hex8 p = home hex8 q /\ store_dir hex8 g i = store_dir hex8 g j.
Proof.
  intros hex8 H. destruct (two_names hex8 H) as (a0 & b0 & Ha0 & Hb0 & Hne0 & E0).
  assert (W : exists a b, In a (bins 33) /\ In b (bins 33) /\ a <> b /\ hex8 (path_key [pname a; "x"]) = hex8 (path_key [pname b; "x"]) /\ String.compare (pname a) (pname b) = Lt).
  { destruct (String.compare (pname a0) (pname b0)) eqn:C.
    - apply String.compare_eq_iff in C. injection C as C. contradiction.
    - exists a0, b0. auto.
    - exists b0, a0. rewrite String.compare_antisym, C. auto 6. }
  clear a0 b0 Ha0 Hb0 Hne0 E0. destruct W as (a & b & Ha & Hb & Hne & E & C).
  assert (P : forall s, In s (bins 33) -> plain (pname s)).
  { intros s Hs. destruct (bins_ok 33 s Hs) as (H1 & H2 & H3 & H4). exists "p"%char, s. split; [reflexivity|]. split; [exact H1|]. split; [discriminate|]. split; [discriminate|]. split; [discriminate|].
    unfold pname. cbn [ufold]. rewrite H2. split; [discriminate|reflexivity]. }
  destruct (sym_tree (pname a) (pname b) C (P a Ha) (P b Hb) ltac:(eauto) ltac:(eauto)) as (g & T & Hc & Hn).
  assert (K : forall i l x c, nth_error (map n_children (g_nodes g)) i = Some l -> sget x l = Some c -> child_of g i x = Some c).
  { intros i l x c Hl Hx. unfold child_of, getn. rewrite nth_error_map in Hl. destruct (nth_error (g_nodes g) i); [|discriminate]. cbn in Hl. injection Hl as ->. exact Hx. }
  assert (NE : String.eqb (pname b) (pname a) = false) by (apply String.eqb_neq; intros Q; injection Q as Q; congruence).
  assert (I4 : installed_at g 4 [pname a; "x"]).
  { apply (at_child g 2 [pname a]); [apply (at_child g 0 []); [constructor|]|]; (eapply K; [rewrite Hc; reflexivity|]); unfold sget; cbn [aget]; [|reflexivity].
    change (String.eqb (pname a) "x") with false. now rewrite String.eqb_refl. }
  assert (I5 : installed_at g 5 [pname b; "x"]).
  { apply (at_child g 3 [pname b]); [apply (at_child g 0 []); [constructor|]|]; (eapply K; [rewrite Hc; reflexivity|]); unfold sget; cbn [aget]; [|reflexivity].
    change (String.eqb (pname b) "x") with false. now rewrite NE, String.eqb_refl. }
  assert (M : forall i t, nth_error (map (fun n => (n_name n, pk_name (n_pkg n), pk_resolved (n_pkg n))) (g_nodes g)) i = Some t -> exists n, getn g i = Some n /\ (n_name n, pk_name (n_pkg n), pk_resolved (n_pkg n)) = t).
  { intros i t Ht. rewrite nth_error_map in Ht. unfold getn. destruct (nth_error (g_nodes g) i) as [n|]; [|discriminate]. exists n. cbn in Ht. injection Ht as <-. auto. }
  destruct (M 4 ("x", "x", RNpm "x" (v 1 1) "x" None)) as (n4 & G4 & N4); [rewrite Hn; reflexivity|].
  destruct (M 5 ("x", "x", RNpm "x" (v 2 0) "x" None)) as (n5 & G5 & N5); [rewrite Hn; reflexivity|].
  injection N4 as N4a N4b N4c. injection N5 as N5a N5b N5c.
  assert (HH : home hex8 [pname a; "x"] = home hex8 [pname b; "x"]) by (unfold home; rewrite E; reflexivity).
  exists g, 4, 5, [pname a; "x"], [pname b; "x"], n4, n5.
  split; [exact T|]. split; [exact I4|]. split; [exact I5|]. split; [intros Q; injection Q as Q; contradiction|]. split; [discriminate|]. split; [discriminate|]. split; [exact G4|]. split; [exact G5|].
  split; [rewrite N4c, N5c; discriminate|]. split; [exact HH|].
  destruct (ex_installed _ _ _ T I4) as [_ Q4]. destruct (ex_installed _ _ _ T I5) as [_ Q5].
  unfold store_dir, dir_name. rewrite <- Q4, <- Q5, E. unfold name_of. rewrite G4, G5, N4a, N5a. reflexivity.
Qed.
Print Assumptions C19_refuted.
