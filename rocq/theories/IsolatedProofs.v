(** * Proofs about the isolated linker: where things go *)
From Verif Require Import Base Types ResolverModel ResolverProofs ResolverSpec ResolverThms LockfileModel LockfileProofs LockfileGraph PathLookup Fs HoistedModel HoistedSpec HoistedProofs
  IsolatedModel IsolatedSpec.
Open Scope string_scope.
Open Scope list_scope.

(** ** link texts *)
Lemma removelast_app_one A (l : list A) x : removelast (l ++ [x]) = l.
Proof. rewrite removelast_app by discriminate. cbn. apply app_nil_r. Qed.
Lemma walk_up : forall (b d t : path), walk (d ++ b) (map (fun _ => "..") b ++ t) = walk d t.
Proof.
  induction b as [|x b IH] using rev_ind; intros d t; [now rewrite app_nil_r|].
  rewrite map_app, <- app_assoc. cbn [map app].
  assert (C : forall (l : path) s, map (fun _ => "..") l ++ ".." :: s = ".." :: map (fun _ => "..") l ++ s) by (induction l as [|y l IHl]; intros s; cbn; [auto | now rewrite IHl]).
  rewrite C. rewrite app_assoc. cbn [walk]. assert (String.eqb ".." ".." = true) as -> by reflexivity. destruct ((d ++ b) ++ [x]) as [|z l] eqn:E; [destruct (d ++ b); discriminate|].
  rewrite <- E, removelast_app_one. apply IH.
Qed.
Lemma walk_down : forall p d, ~ In ".." p -> walk d p = Some (d ++ p).
Proof.
  induction p as [|x p IH]; intros d H; cbn; [now rewrite app_nil_r|]. destruct (String.eqb_spec x "..") as [->|]; [destruct H; now left|].
  rewrite IH by (intros H'; apply H; now right). now rewrite <- app_assoc.
Qed.
(** a relative link leads where it should *)
Lemma walk_diff : forall p base d, ~ In ".." p -> walk (d ++ base) (diff_paths p base) = Some (d ++ p).
Proof.
  induction p as [|x p IH]; intros base d H.
  - cbn. rewrite walk_up, app_nil_r. reflexivity.
  - destruct base as [|y base].
    + cbn [diff_paths map app]. rewrite app_nil_r. now apply walk_down.
    + cbn [diff_paths]. destruct (String.eqb_spec x y) as [->|Hn].
      * change (d ++ y :: base) with (d ++ [y] ++ base). rewrite app_assoc, IH; [now rewrite <- app_assoc|]. intros H'. apply H. now right.
      * rewrite walk_up. now apply walk_down.
Qed.

(** ** directory names *)
Fixpoint has_at (s : string) : bool := match s with EmptyString => false | String c t => Ascii.eqb c "@" || has_at t end.
Lemma has_at_app a b : has_at (a ++ String "@" b)%string = true.
Proof. induction a as [|c a IH]; cbn; [auto|]. rewrite IH. apply orb_true_r. Qed.
Lemma no_slash_app a b : no_slash (a ++ b)%string = no_slash a && no_slash b.
Proof. induction a as [|c a IH]; cbn; [auto|]. now rewrite IH, andb_assoc. Qed.
Lemma plain_at x h : plain x -> no_slash h = true -> ufold h = h -> plain (x ++ "@" ++ h)%string.
Proof.
  intros (c & t & -> & Hs & Hd & Ha & Hb & Hn & Hf) H1 H2. exists c, (t ++ "@" ++ h)%string. split; [reflexivity|]. split.
  - change (String c t ++ "@" ++ h)%string with (String c t ++ String "@" h)%string. rewrite no_slash_app, Hs. exact H1.
  - split; [auto|]. split; [auto|]. split; [destruct t; discriminate|]. rewrite !ufold_app, Hf. cbn [ufold]. change (fold_ascii "@") with "@"%char.
    rewrite H2. split; [|reflexivity]. intros E. pose proof (has_at_app (String c t) h) as A. cbn [append] in E. cbn [append] in A. rewrite E in A. discriminate.
Qed.
Lemma good_at x h : good_name x -> no_slash h = true -> ufold h = h -> good_name (x ++ "@" ++ h)%string.
Proof.
  intros [Hx|(s & m & -> & Hs & Hf & Hm)] H1 H2; [left; now apply plain_at|]. right. exists s, (m ++ "@" ++ h)%string.
  split; [now rewrite !append_assoc|]. split; [auto|]. split; [auto|]. now apply plain_at.
Qed.
Lemma at_inj a b h k : String.length h = String.length k -> (a ++ "@" ++ h)%string = (b ++ "@" ++ k)%string -> a = b /\ h = k.
Proof.
  revert b. induction a as [|c a IH]; intros b L E.
  - destruct b as [|d b]; cbn in E; [injection E as ->; auto|]. injection E as _ E. apply (f_equal String.length) in E.
    exfalso. revert E. clear -L. assert (A : forall u v, String.length (u ++ v)%string = String.length u + String.length v) by (induction u; cbn; auto).
    rewrite A. cbn. lia.
  - destruct b as [|d b]; cbn in E.
    + injection E as _ E. apply (f_equal String.length) in E. exfalso. revert E. clear -L.
      assert (A : forall u v, String.length (u ++ v)%string = String.length u + String.length v) by (induction u; cbn; auto). rewrite A. cbn. lia.
    + injection E as -> E. destruct (IH b L E) as [-> ->]. auto.
Qed.
Lemma comps_good_ne x : good_name x -> comps x <> [].
Proof. intros H E. destruct (comps_last x H) as (pre & m & E' & _). rewrite E in E'. destruct pre; discriminate. Qed.
Lemma good_dotdot x : good_name x -> ~ In ".." (comps x).
Proof.
  intros [Hx|(s & m & -> & Hs & Hf & Hm)] H.
  - rewrite comps_plain in H by now apply plain_no_slash. destruct H as [->|[]]. destruct Hx as (c & t & E & _ & Hd & _). injection E as <- _. congruence.
  - rewrite comps_scoped in H by (auto; now apply plain_no_slash). destruct H as [H|[->|[]]]; [discriminate|].
    destruct Hm as (c & t & E & _ & Hd & _). injection E as <- _. congruence.
Qed.
Lemma good_valid x : good_name x -> valid_name x.
Proof.
  intros [Hx|(s & m & -> & Hs & Hf & Hm)].
  - left. split; [now apply plain_no_slash|]. intros t ->. pose proof (plain_not_at _ Hx). discriminate.
  - right. exists s, m. split; [reflexivity|]. split; [auto|now apply plain_no_slash].
Qed.

(** paths in the store, and in the project's own node_modules *)
Definition sloc (dn : string) (names : list string) : path := "node_modules" :: store_name :: comps dn ++ disk names.
Lemma sloc_prefix dn a f dn' b r : good_name dn -> good_name dn' -> Forall good_name a -> Forall good_name b -> (forall t, f <> "node_modules" :: t) ->
  sloc dn a ++ f = sloc dn' b ++ r -> dn = dn' /\ exists s, a = b ++ s /\ r = disk s ++ f.
Proof.
  intros Hd Hd' Ha Hb Hf E. unfold sloc in E. cbn [app] in E. injection E as E. rewrite <- !app_assoc in E.
  apply comps_inj in E; auto. destruct E as [-> E]. split; [auto|]. now apply disk_prefix.
Qed.
Lemma good_not_store x t u : good_name x -> comps x ++ t <> store_name :: u.
Proof.
  intros [Hx|(s & m & -> & Hs & Hf & Hm)] E.
  - rewrite comps_plain in E by now apply plain_no_slash. injection E as -> _. destruct Hx as (c & s & E & _ & Hd & _). injection E as <- _. congruence.
  - rewrite comps_scoped in E by (auto; now apply plain_no_slash). discriminate.
Qed.
Lemma root_not_store x t dn b r : good_name x -> disk (x :: t) ++ r <> sloc dn b.
Proof. intros Hx E. rewrite disk_cons in E. unfold sloc in E. cbn [app] in E. injection E as E. rewrite <- !app_assoc in E. eapply good_not_store; eauto. Qed.
Lemma root_not_store' x t dn b r r' : good_name x -> disk (x :: t) ++ r <> sloc dn b ++ r'.
Proof. intros Hx E. rewrite disk_cons in E. unfold sloc in E. cbn [app] in E. injection E as E. rewrite <- !app_assoc in E. eapply good_not_store; eauto. Qed.
Lemma sloc_not_nm dn b r : sloc dn b ++ r <> ["node_modules"].
Proof. discriminate. Qed.

Section Tree.
  Variable hex8 : string -> string.
  Hypothesis Hhex : hex_ok hex8.
  Variable contents : resolution -> list (path * string).
  Hypothesis Hcont : plain_contents contents.
  Variable rsat : range -> version -> bool.
  Variable canon : string -> option string.
  Variable deliver : pspec -> outcome -> Prop.
  Notation GInv := (GInv rsat canon deliver).
  Notation dir_name := (dir_name hex8).
  Notation pkg_dir := (pkg_dir hex8).
  Notation nm_dir := (nm_dir hex8).
  Notation iinst := (iinst hex8 contents).
  Notation iinsts := (iinsts hex8 contents).
  Notation wanted g := (wanted (iinsts g)).

  Section Graph.
  Variable g : graph.
  Variable q0 : list nat.
  Variable P0 : list dep.
  Hypothesis I : GInv g q0 P0.
  Hypothesis Hg : good_graph g.
  Hypothesis Hn : named g.

  Lemma name_good i : 0 < i < size g -> good_name (name_of g i).
  Proof. intros Hi. destruct (gi_par _ _ _ _ _ _ I i Hi) as (p & _ & _ & H). eapply Hg; eauto. Qed.
  Lemma dn_good i : 0 < i < size g -> good_name (dir_name g i).
  Proof. intros Hi. destruct (Hhex (path_key (node_path g i))) as (_ & H1 & H2). apply good_at; auto. now apply name_good. Qed.
  Lemma pkg_name_of i : 0 < i < size g -> pkg_name g i = name_of g i.
  Proof.
    intros Hi. destruct (proj1 (getn_lt g i) ltac:(lia)) as [n Hgn]. unfold pkg_name, name_of. rewrite Hgn. apply (Hn i n Hgn). lia.
  Qed.
  Lemma pkg_dir_loc i : 0 < i < size g -> pkg_dir g i = sloc (dir_name g i) [name_of g i].
  Proof.
    intros Hi. unfold IsolatedModel.pkg_dir, IsolatedModel.store_dir, sloc. rewrite (pkg_name_of i Hi). unfold disk. cbn [flat_map app]. now rewrite app_nil_r.
  Qed.
  Lemma nm_dir_loc i x : 0 < i < size g -> nm_dir g i ++ comps x = sloc (dir_name g i) [name_of g i; x].
  Proof.
    intros Hi. unfold IsolatedModel.nm_dir. destruct (Nat.eqb_spec i 0); [lia|]. rewrite (pkg_dir_loc i Hi). unfold sloc, disk. cbn [flat_map app].
    rewrite !app_nil_r. repeat (rewrite <- app_assoc; cbn [app]). reflexivity.
  Qed.
  Lemma nm_dir_root x : nm_dir g 0 ++ comps x = disk [x].
  Proof. unfold IsolatedModel.nm_dir, disk. cbn. now rewrite app_nil_r. Qed.

  (** dependencies *)
  Lemma targets_in i c : In c (targets g i) <-> exists e, In e (g_edges g) /\ e_from e = i /\ e_to e = c.
  Proof.
    unfold targets. rewrite in_map_iff. split.
    - intros (e & <- & H). apply filter_In in H. destruct H as [H1 H2]. apply in_rev in H1. apply Nat.eqb_eq in H2. eauto.
    - intros (e & H & H1 & H2). exists e. split; [auto|]. apply filter_In. split; [now apply -> in_rev | now apply Nat.eqb_eq].
  Qed.
  Lemma depends_edge i x c : depends g i x c <-> name_of g c = x /\ exists e, In e (g_edges g) /\ e_from e = i /\ e_to e = c.
  Proof.
    split.
    - intros (s & t & n & ei & H1 & H2 & H3).
      assert (Hd : dep_of g i x = Some ei) by (unfold dep_of; now rewrite H1).
      destruct (gi_dep _ _ _ _ _ _ I _ _ _ Hd) as (e & He & Hf & _ & Hnm & _). rewrite H3 in He. injection He as <-. cbn in Hnm. split; [auto|].
      exists (mkEdge i c s t). split; [eapply nth_error_In; eauto | auto].
    - intros (<- & e & He & <- & <-). apply In_nth_error in He. destruct He as [ei He]. destruct (gi_edep _ _ _ _ _ _ I _ _ He) as [x Hx].
      destruct (gi_dep _ _ _ _ _ _ I _ _ _ Hx) as (e' & He' & _ & _ & Hnm & _). rewrite He in He'. injection He' as <-. rewrite Hnm.
      exists (e_spec e), (e_type e). unfold dep_of in Hx. destruct (getn g (e_from e)) as [n|] eqn:En; [|discriminate]. exists n, ei. split; [auto|]. split; [auto|].
      rewrite He. now destruct e.
  Qed.
  Lemma depends_lt i x c : depends g i x c -> i < size g /\ 0 < c < size g /\ name_of g c = x.
  Proof.
    intros H. pose proof H as (s & t & n & ei & H1 & H2 & H3). assert (Hd : dep_of g i x = Some ei) by (unfold dep_of; now rewrite H1).
    destruct (gi_dep _ _ _ _ _ _ I _ _ _ Hd) as (e & He & Hf & _ & Hnm & Hz & _). rewrite H3 in He. injection He as <-. cbn in *.
    pose proof (gi_edge _ _ _ _ _ _ I _ (nth_error_In _ _ H3)) as [A B]. cbn in *. repeat split; auto. lia.
  Qed.
  Lemma depends_fun i x c c' : depends g i x c -> depends g i x c' -> c = c'.
  Proof. intros (s & t & n & ei & H1 & H2 & H3) (s' & t' & n' & ei' & H1' & H2' & H3'). congruence. Qed.
  Lemma depends_targets i c : In c (targets g i) <-> depends g i (name_of g c) c.
  Proof. rewrite targets_in, depends_edge. intuition. Qed.

  (** where the link of a dependency goes *)
  Definition link_path (i : nat) (x : string) : path := if Nat.eqb i 0 then disk [x] else sloc (dir_name g i) [name_of g i; x].
  Definition link_text (i : nat) (x : string) (c : nat) : path := diff_paths (pkg_dir g c) (removelast (link_path i x)).
  Lemma link_item i p e : In (p, e) (dep_links hex8 g i) <-> exists x c, depends g i x c /\ p = link_path i x /\ e = ELink (link_text i x c).
  Proof.
    unfold dep_links. rewrite in_map_iff.
    assert (K : forall c, depends g i (name_of g c) c -> link_to hex8 g i c = (link_path i (name_of g c), ELink (link_text i (name_of g c) c))).
    { intros c Hd. destruct (depends_lt _ _ _ Hd) as (Hi & Hc & _). unfold link_to, link_text. rewrite (pkg_name_of c Hc).
      assert (nm_dir g i ++ comps (name_of g c) = link_path i (name_of g c)) as ->; [|reflexivity].
      unfold link_path. destruct (Nat.eqb_spec i 0) as [->|]; [apply nm_dir_root | apply nm_dir_loc; lia]. }
    split.
    - intros (c & H & Hc). apply depends_targets in Hc. rewrite (K c Hc) in H. injection H as <- <-. eauto.
    - intros (x & c & Hd & -> & ->). pose proof (proj2 (proj2 (depends_lt _ _ _ Hd))) as Hx. subst x. exists c. split; [now apply K | now apply depends_targets].
  Qed.
  Lemma link_leads i x c : depends g i x c -> walk (removelast (link_path i x)) (link_text i x c) = Some (pkg_dir g c).
  Proof.
    intros Hd. destruct (depends_lt _ _ _ Hd) as (Hi & Hc & _). unfold link_text. apply (walk_diff _ _ []).
    rewrite (pkg_dir_loc c Hc). unfold sloc, disk. cbn [flat_map]. rewrite app_nil_r. cbn [In app]. rewrite in_app_iff. cbn [In].
    intros [H|[H|[H|[H|H]]]]; try discriminate; eapply good_dotdot; try exact H; [now apply dn_good | now apply name_good].
  Qed.

  (** files of package [i] *)
  Notation pfiles := (pfiles contents g).
  Lemma pf_ok i f e : pfiles i f e -> forall t, f <> "node_modules" :: t.
  Proof. apply pfiles_ok; auto. Qed.
  Lemma ipfiles_item i p e : In (p, e) (i_main (iinst g i)) <-> exists f, p = pkg_dir g i ++ f /\ pfiles i f e.
  Proof.
    cbn. split.
    - intros [H|H].
      + injection H as <- <-. exists []. rewrite app_nil_r. split; [auto | left; auto].
      + apply in_map_iff in H. destruct H as ([f b] & H & Hin). injection H as <- <-. exists f. split; [auto|]. right. eauto.
    - intros (f & -> & [[-> ->]|(b & -> & H)]).
      + left. now rewrite app_nil_r.
      + right. apply in_map_iff. exists (f, b). auto.
  Qed.
  Lemma iinsts_in x : In x (iinsts g) <-> x = mkInst None [] [(["node_modules"], EDir)] \/ x = mkInst None [] (dep_links hex8 g 0) \/ exists i, 0 < i < size g /\ x = iinst g i.
  Proof.
    unfold IsolatedModel.iinsts. cbn [In]. rewrite in_map_iff. split.
    - intros [<-|[<-|(i & <- & H)]]; [auto|auto|]. apply in_seq in H. right. right. exists i. split; [lia|auto].
    - intros [->|[->|(i & H & ->)]]; [auto|auto|]. right. right. exists i. split; [auto|]. apply in_seq. lia.
  Qed.
  Lemma iitem p e : (exists x, In x (iinsts g) /\ In (p, e) (items x)) <->
    (p = ["node_modules"] /\ e = EDir)
    \/ (exists i f, 0 < i < size g /\ p = sloc (dir_name g i) [name_of g i] ++ f /\ pfiles i f e)
    \/ (exists i x c, depends g i x c /\ p = link_path i x /\ e = ELink (link_text i x c)).
  Proof.
    split.
    - intros (x & Hx & Hp). apply iinsts_in in Hx. destruct Hx as [->|[->|(i & Hi & ->)]].
      + cbn in Hp. destruct Hp as [H|[]]. injection H as <- <-. auto.
      + unfold items in Hp. cbn [i_main i_links app] in Hp. apply link_item in Hp. destruct Hp as (y & c & H). eauto 8.
      + unfold items in Hp. apply in_app_iff in Hp. destruct Hp as [Hp|Hp].
        * apply ipfiles_item in Hp. destruct Hp as (f & -> & Hf). rewrite (pkg_dir_loc i Hi). eauto 8.
        * cbn [i_links iinst IsolatedModel.iinst] in Hp. apply link_item in Hp. destruct Hp as (y & c & H). eauto 8.
    - intros [[-> ->]|[(i & f & Hi & -> & Hf)|(i & x & c & Hd & -> & ->)]].
      + eexists. split; [apply iinsts_in; left; reflexivity|]. cbn. auto.
      + exists (iinst g i). split; [apply iinsts_in; eauto|]. unfold items. apply in_app_iff. left. apply ipfiles_item. rewrite (pkg_dir_loc i Hi). eauto.
      + destruct (depends_lt _ _ _ Hd) as (Hi & _). destruct (Nat.eq_dec i 0) as [->|Hne].
        * eexists. split; [apply iinsts_in; right; left; reflexivity|]. unfold items. cbn [i_main i_links app]. apply link_item. eauto 8.
        * exists (iinst g i). split; [apply iinsts_in; right; right; exists i; split; [lia|auto]|]. unfold items. apply in_app_iff. right. cbn [i_links IsolatedModel.iinst]. apply link_item. eauto 8.
  Qed.
  Lemma dep_name_good i x c : depends g i x c -> good_name x.
  Proof. intros Hd. destruct (depends_lt _ _ _ Hd) as (_ & Hc & <-). now apply name_good. Qed.

  (** no two packages in one store directory *)
  Hypothesis Hcol : forall i j, 0 < i < size g -> 0 < j < size g -> dir_name g i = dir_name g j -> i = j.

  Lemma sloc_here i f r j a : 0 < i < size g -> 0 < j < size g -> Forall good_name a -> (forall t, f <> "node_modules" :: t) ->
    sloc (dir_name g j) (name_of g j :: a) ++ f = sloc (dir_name g i) [name_of g i] ++ r -> i = j /\ r = disk a ++ f.
  Proof.
    intros Hi Hj Ha Hf E.
    apply sloc_prefix in E; auto; [|now apply dn_good|now apply dn_good|constructor; [now apply name_good|auto]|constructor; [now apply name_good|constructor]].
    destruct E as (E & s & E1 & E2). apply Hcol in E; auto. subst j. cbn in E1. injection E1 as <-. auto.
  Qed.
  Lemma sloc_link i j a f r x : 0 < i < size g -> 0 < j < size g -> good_name x -> Forall good_name a -> (forall t, f <> "node_modules" :: t) ->
    sloc (dir_name g j) (name_of g j :: a) ++ f = sloc (dir_name g i) [name_of g i; x] ++ r -> i = j /\ exists s, a = x :: s /\ r = disk s ++ f.
  Proof.
    intros Hi Hj Hx Ha Hf E.
    apply sloc_prefix in E; auto; [|now apply dn_good|now apply dn_good|constructor; [now apply name_good|auto]|constructor; [now apply name_good|constructor; auto]].
    destruct E as (E & s & E1 & E2). apply Hcol in E; auto. subst j. cbn in E1. injection E1 as ->. eauto.
  Qed.

  (** a file or link of the install: nothing else wants its place, or a place below *)
  Lemma i_fun q e e' : wanted g q e -> wanted g q e' -> e = e'.
  Proof.
    assert (FILE : forall i f b r, 0 < i < size g -> In (f, b) (package_files contents g i) -> forall p e', (exists x, In x (iinsts g) /\ In (p, e') (items x)) ->
      p = (sloc (dir_name g i) [name_of g i] ++ f) ++ r -> r = [] /\ e' = EFile b).
    { intros i f b r Hi Hf p e1 Hit Hp. destruct (pfiles_file contents Hcont g i _ _ Hf) as [Hne Hu].
      assert (Hnf : forall t, f <> "node_modules" :: t) by (apply (pf_ok i f (EFile b)); right; eauto).
      rewrite <- app_assoc in Hp. apply iitem in Hit. destruct Hit as [[-> _]|[(j & f' & Hj & -> & Hf')|(j & x & c & Hd & -> & _)]].
      - discriminate.
      - apply sloc_here in Hp; [|assumption|assumption|constructor|exact (pf_ok _ _ _ Hf')]. destruct Hp as [<- Hp]. cbn in Hp. subst f'.
        destruct Hf' as [[E _]|(b' & -> & Hin)]; [destruct f; [congruence|discriminate]|].
        destruct (Hu _ _ Hin (prefix_app _ _)) as [E ->]. split; [|auto]. rewrite <- (app_nil_r f) in E at 1. apply app_inv_head in E. auto.
      - destruct (depends_lt _ _ _ Hd) as (Hj & _). pose proof (dep_name_good _ _ _ Hd) as Gx. unfold link_path in Hp. destruct (Nat.eqb_spec j 0) as [->|Hj0].
        + exfalso. eapply (root_not_store' x [] _ _ [] _ Gx). rewrite app_nil_r. exact Hp.
        + rewrite <- (app_nil_r (sloc (dir_name g j) _)) in Hp. apply sloc_here in Hp; auto; [|lia|discriminate].
          destruct Hp as [<- Hp]. cbn in Hp. rewrite app_nil_r in Hp. exfalso. destruct f as [|y f]; [congruence|]. cbn in Hp. injection Hp as -> _. eapply Hnf; eauto. }
    assert (LINK : forall i x c r, depends g i x c -> forall p e', (exists y, In y (iinsts g) /\ In (p, e') (items y)) ->
      p = link_path i x ++ r -> r = [] /\ e' = ELink (link_text i x c)).
    { intros i x c r Hd p e1 Hit Hp. destruct (depends_lt _ _ _ Hd) as (Hi & _). pose proof (dep_name_good _ _ _ Hd) as Gx.
      apply iitem in Hit. destruct Hit as [[-> _]|[(j & f' & Hj & -> & Hf')|(j & y & c' & Hd' & -> & ->)]].
      - exfalso. unfold link_path in Hp. destruct (Nat.eqb i 0); [|discriminate]. rewrite disk_cons in Hp. cbn in Hp. injection Hp as Hp.
        symmetry in Hp. apply app_eq_nil in Hp. destruct Hp as [Hp _]. apply app_eq_nil in Hp. now apply (comps_good_ne x Gx).
      - exfalso. unfold link_path in Hp. destruct (Nat.eqb_spec i 0) as [->|Hi0].
        + symmetry in Hp. eapply root_not_store'; [exact Gx|exact Hp].
        + apply sloc_link in Hp; auto; [|lia|exact (pf_ok _ _ _ Hf')]. destruct Hp as (_ & s & Hs & _). discriminate.
      - destruct (depends_lt _ _ _ Hd') as (Hj & _). pose proof (dep_name_good _ _ _ Hd') as Gy. unfold link_path in Hp |- *.
        destruct (Nat.eqb_spec i 0) as [->|Hi0]; destruct (Nat.eqb_spec j 0) as [->|Hj0].
        + rewrite <- (app_nil_r (disk [y])) in Hp. apply disk_prefix in Hp; [|constructor; [assumption|constructor]|constructor; [assumption|constructor]|discriminate].
          destruct Hp as (s & Es & ->). injection Es as -> <-. split; [reflexivity|]. now rewrite (depends_fun _ _ _ _ Hd Hd').
        + symmetry in Hp. rewrite <- (app_nil_r (sloc _ _)) in Hp. exfalso. eapply root_not_store'; [exact Gx|exact Hp].
        + rewrite <- (app_nil_r (disk _)) in Hp. exfalso. eapply root_not_store'; [exact Gy|exact Hp].
        + rewrite <- (app_nil_r (sloc (dir_name g j) _)) in Hp. apply sloc_link in Hp; auto; [|lia|lia|discriminate]. destruct Hp as (<- & s & Es & ->).
          injection Es as -> <-. split; [reflexivity|]. now rewrite (depends_fun _ _ _ _ Hd Hd'). }
    assert (CASES : forall e, wanted g q e -> e = EDir
      \/ (exists i f b, 0 < i < size g /\ In (f, b) (package_files contents g i) /\ q = sloc (dir_name g i) [name_of g i] ++ f /\ e = EFile b)
      \/ exists i x c, depends g i x c /\ q = link_path i x /\ e = ELink (link_text i x c)).
    { intros e1 [Hw|(-> & _)]; [|auto]. apply iitem in Hw. destruct Hw as [[_ ->]|[(j & f' & Hj & -> & [[-> ->]|(b & -> & Hin)])|(j & y & c' & Hd' & -> & ->)]]; auto.
      - right. left. eauto 8.
      - right. right. eauto 8. }
    assert (ONLY : forall e1 e2, wanted g q e1 -> wanted g q e2 -> e1 <> EDir -> e2 = e1).
    { intros e1 e2 H1 H2 Hne. destruct (CASES e1 H1) as [->|[(i & f & b & Hi & Hf & -> & ->)|(i & x & c & Hd & -> & ->)]]; [congruence| |].
      - destruct H2 as [Hw|(-> & x & p & e3 & Hx & Hp & ([r Hr] & Hn' & _))].
        + destruct (FILE i f b [] Hi Hf _ _ Hw) as [_ ->]; [now rewrite app_nil_r|auto].
        + destruct (FILE i f b r Hi Hf p e3 ltac:(eauto) Hr) as [-> _]. rewrite app_nil_r in Hr. congruence.
      - destruct H2 as [Hw|(-> & y & p & e3 & Hy & Hp & ([r Hr] & Hn' & _))].
        + destruct (LINK i x c [] Hd _ _ Hw) as [_ ->]; [now rewrite app_nil_r|auto].
        + destruct (LINK i x c r Hd p e3 ltac:(eauto) Hr) as [-> _]. rewrite app_nil_r in Hr. congruence. }
    intros H H'. destruct (CASES e H) as [->|C].
    - destruct (CASES e' H') as [->|C']; [auto|]. apply (ONLY e' EDir); auto. destruct C' as [(? & ? & ? & _ & _ & _ & ->)|(? & ? & ? & _ & _ & ->)]; discriminate.
    - symmetry. apply ONLY; auto. destruct C as [(? & ? & ? & _ & _ & _ & ->)|(? & ? & ? & _ & _ & ->)]; discriminate.
  Qed.
  Lemma i_check_in x d : In x (iinsts g) -> i_check x = Some d -> exists i, 0 < i < size g /\ x = iinst g i /\ d = pkg_dir g i.
  Proof. intros Hx Hd. apply iinsts_in in Hx. destruct Hx as [->|[->|(i & Hi & ->)]]; try discriminate. cbn in Hd. injection Hd as <-. eauto. Qed.
  Lemma i_main_in x d : In x (iinsts g) -> i_check x = Some d -> forall t, In t (i_main x) -> prefix d (fst t).
  Proof.
    intros Hx Hd [p e] Ht. destruct (i_check_in _ _ Hx Hd) as (i & Hi & -> & ->). apply ipfiles_item in Ht. destruct Ht as (f & -> & _). apply prefix_app.
  Qed.
  Lemma i_nocheck x : In x (iinsts g) -> i_check x = None -> i_main x = [].
  Proof. intros Hx Hd. apply iinsts_in in Hx. destruct Hx as [->|[->|(i & Hi & ->)]]; [reflexivity|reflexivity|discriminate]. Qed.
  Lemma i_links_nofile x t : In x (iinsts g) -> In t (i_links x) -> forall b, snd t <> EFile b.
  Proof.
    intros Hx Ht b. apply iinsts_in in Hx. destruct Hx as [->|[->|(i & Hi & ->)]].
    - destruct Ht as [<-|[]]. discriminate.
    - destruct t as [p e]. cbn [i_links] in Ht. apply link_item in Ht. destruct Ht as (y & c & _ & _ & ->). discriminate.
    - destruct t as [p e]. cbn [i_links IsolatedModel.iinst] in Ht. apply link_item in Ht. destruct Ht as (y & c & _ & _ & ->). discriminate.
  Qed.
  Lemma iinst_inj i j : 0 < i < size g -> 0 < j < size g -> iinst g i = iinst g j -> i = j.
  Proof.
    intros Hi Hj E. apply (f_equal i_check) in E. change (Some (pkg_dir g i) = Some (pkg_dir g j)) in E. assert (E' : pkg_dir g i = pkg_dir g j) by congruence.
    rewrite (pkg_dir_loc i Hi), (pkg_dir_loc j Hj) in E'. rewrite <- (app_nil_r (sloc (dir_name g i) _)), <- (app_nil_r (sloc (dir_name g j) _)) in E'.
    apply sloc_here in E'; [destruct E'; auto|assumption|assumption|constructor|discriminate].
  Qed.
  Lemma i_ord l1 x l2 x' d : iinsts g = l1 ++ x :: l2 -> In x' l2 -> i_check x' = Some d -> forall t, In t (items x) -> ~ prefix d (fst t).
  Proof.
    intros E Hx' Hd [p e] Ht [r Hr]. cbn [fst] in Hr.
    assert (Hin' : In x' (iinsts g)) by (rewrite E; apply in_app_iff; right; now right).
    destruct (i_check_in _ _ Hin' Hd) as (j & Hj & -> & ->).
    assert (Hx : In x (iinsts g)) by (rewrite E; apply in_app_iff; right; now left).
    rewrite (pkg_dir_loc j Hj) in Hr.
    assert (ROOT : forall y, good_name y -> disk [y] <> sloc (dir_name g j) [name_of g j] ++ r).
    { intros y Gy E'. rewrite <- (app_nil_r (disk [y])) in E'. eapply root_not_store'; eauto. }
    apply iinsts_in in Hx. destruct Hx as [->|[->|(i & Hi & ->)]].
    - cbn in Ht. destruct Ht as [Ht|[]]. injection Ht as <- <-. discriminate.
    - unfold items in Ht. cbn [i_main i_links app] in Ht. apply link_item in Ht. destruct Ht as (y & c & Hdp & -> & _). unfold link_path in Hr. cbn [Nat.eqb] in Hr.
      destruct (ROOT y (dep_name_good _ _ _ Hdp)). exact Hr.
    - assert (Hlt : i <> j).
      { intros ->. unfold IsolatedModel.iinsts in E. destruct l1 as [|z1 l1]; [discriminate|]. destruct l1 as [|z2 l1]; [discriminate|].
        cbn [app] in E. injection E as _ _ E. apply map_eq_app in E. destruct E as (s1 & s2 & Es & _ & E2). destruct s2 as [|a s2]; [discriminate|]. cbn [map] in E2.
        assert (E3 : iinst g a = iinst g j) by congruence. assert (E4 : map (iinst g) s2 = l2) by congruence. clear E2.
        assert (Ha : In a (seq 1 (size g - 1))) by (rewrite Es; apply in_app_iff; right; now left). apply in_seq in Ha.
        apply iinst_inj in E3; [|lia|lia]. subst a. rewrite <- E4 in Hx'. apply in_map_iff in Hx'. destruct Hx' as (j' & Ej & Hj').
        assert (Hs : In j' (seq 1 (size g - 1))) by (rewrite Es; apply in_app_iff; right; now right). apply in_seq in Hs.
        apply iinst_inj in Ej; [|lia|lia]. subst j'. pose proof (seq_split _ _ _ _ _ Es _ Hj'). lia. }
      unfold items in Ht. apply in_app_iff in Ht. destruct Ht as [Ht|Ht].
      + apply ipfiles_item in Ht. destruct Ht as (f & -> & Hf). rewrite (pkg_dir_loc i Hi) in *. apply sloc_here in Hr; [|assumption|assumption|constructor|exact (pf_ok _ _ _ Hf)].
        destruct Hr as [Hr _]. congruence.
      + cbn [i_links IsolatedModel.iinst] in Ht. apply link_item in Ht. destruct Ht as (y & c & Hdp & -> & _). unfold link_path in Hr. destruct (Nat.eqb_spec i 0); [lia|].
        rewrite <- (app_nil_r (sloc (dir_name g i) _)) in Hr. apply sloc_here in Hr; [destruct Hr; congruence |assumption|assumption| | discriminate].
        constructor; [exact (dep_name_good _ _ _ Hdp)|constructor].
  Qed.
  Lemma i_ne x d : In x (iinsts g) -> i_check x = Some d -> d <> [].
  Proof. intros Hx Hd. destruct (i_check_in _ _ Hx Hd) as (i & Hi & -> & ->). discriminate. Qed.
  End Graph.
End Tree.
