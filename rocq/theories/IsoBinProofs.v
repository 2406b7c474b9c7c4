(** * Proofs about linking bins with the isolated linker *)
From Verif Require Import Base Types Kdl ResolverModel ResolverProofs LockfileModel PathLookup Fs StdPath BinModel HoistedModel IsolatedModel BinLinkModel IsoBinModel.
Open Scope string_scope.
Open Scope list_scope.

(** ** path resolution *)
Lemma lookup_nil f k l d : lookup f k l d [] = Some d.
Proof. destruct k; reflexivity. Qed.
Lemma lookup_cons f k l d c r : lookup f k l d (c :: r) =
  if negb (is_dir f d) then None
  else if String.eqb c ".." then match d with [] => None | _ => lookup f k l (removelast d) r end
  else match f (d ++ [c]) with
       | None => None
       | Some (ELink t) => if (match r with [] => negb l | _ => false end) then Some (d ++ [c]) else match k with 0 => None | Datatypes.S k' => lookup f k' l d (t ++ r) end
       | Some _ => lookup f k l (d ++ [c]) r
       end.
Proof. destruct k; reflexivity. Qed.

Definition no_up (p : path) : Prop := ~ In ".." p.
(** [p] and everything above it is a directory *)
Definition dirs (f : fs) (p : path) : Prop := forall a, a <> [] -> prefix a p -> f a = Some EDir.
Lemma dirs_is f p : dirs f p -> forall a, prefix a p -> is_dir f a = true.
Proof. intros H a Ha. destruct a as [|x a]; [reflexivity|]. unfold is_dir. rewrite (H (x :: a)); [reflexivity|discriminate|exact Ha]. Qed.
Lemma lookup_down f k l : forall p d r, no_up p -> dirs f (d ++ p) -> lookup f k l d (p ++ r) = lookup f k l (d ++ p) r.
Proof.
  induction p as [|c p IH]; intros d r Hu Hd; [now rewrite app_nil_r|]. cbn [app]. rewrite lookup_cons. rewrite (dirs_is _ _ Hd d) by apply prefix_app. cbn [negb].
  destruct (String.eqb_spec c "..") as [->|_]; [destruct Hu; now left|].
  replace (d ++ c :: p) with ((d ++ [c]) ++ p) in * by (rewrite <- app_assoc; reflexivity).
  rewrite (Hd (d ++ [c])); [|destruct d; discriminate|apply prefix_app]. apply IH; [|exact Hd]. intros H. apply Hu. now right.
Qed.
Lemma lookup_up f k l r : forall u d, dirs f (d ++ u) -> lookup f k l (d ++ u) (map (fun _ => "..") u ++ r) = lookup f k l d r.
Proof.
  induction u as [|x u IH] using rev_ind; intros d Hd; [now rewrite app_nil_r|].
  replace (map (fun _ : string => "..") (u ++ [x])) with (".." :: map (fun _ : string => "..") u).
  2: { rewrite map_app. cbn. clear. induction u as [|y u IH]; [reflexivity|]. cbn. now rewrite <- IH. }
  cbn [app]. rewrite lookup_cons, (dirs_is _ _ Hd) by apply prefix_refl. cbn [negb String.eqb Ascii.eqb]. change (String.eqb ".." "..") with true. cbn iota.
  rewrite app_assoc, removelast_last. destruct ((d ++ u) ++ [x]) eqn:E; [destruct (d ++ u); discriminate E|]. apply IH. intros a Ha Hp. apply Hd; [exact Ha|].
  eapply prefix_trans; [exact Hp|]. rewrite app_assoc. apply prefix_app.
Qed.
Lemma diff_split p : forall base, exists a p' b', p = a ++ p' /\ base = a ++ b' /\ diff_paths p base = map (fun _ => "..") b' ++ p'.
Proof.
  induction p as [|x p IH]; intros base; [exists [], [], base; auto|]. destruct base as [|y base]; [exists [], (x :: p), []; auto|]. cbn [diff_paths].
  destruct (String.eqb_spec x y) as [->|_]; [|exists [], (x :: p), (y :: base); auto]. destruct (IH base) as (a & p' & b' & -> & -> & ->). exists (y :: a), p', b'. auto.
Qed.
(** following the text of a relative link *)
Lemma lookup_diff f k l p base r : dirs f p -> dirs f base -> no_up p -> lookup f k l base (diff_paths p base ++ r) = lookup f k l p r.
Proof.
  intros Hp Hb Hu. destruct (diff_split p base) as (a & p' & b' & -> & -> & ->). rewrite <- app_assoc, lookup_up by exact Hb. apply lookup_down; [|exact Hp].
  intros H. apply Hu. apply in_or_app. auto.
Qed.

(** ** the loop *)
Definition ok_segs (l : list string) : Prop := l <> [] /\ ~ In "node_modules" l /\ no_up l.
Definition ok_bin (b : string * list comp) : Prop :=
  fst b <> ".bin" /\ fst b <> ".oro-store" /\ fst b <> ".." /\ starts_at (fst b) = false /\ exists segs, snd b = map CNormal segs /\ ok_segs segs.
Definition segs_of (b : string * list comp) : list string := flat_map comp_text (snd b).
Lemma segs_normal l : flat_map comp_text (map CNormal l) = l.
Proof. induction l as [|x l IH]; [reflexivity|]. cbn. now rewrite IH. Qed.
Lemma ok_bin_segs b : ok_bin b -> ok_segs (segs_of b).
Proof. intros (_ & _ & _ & _ & segs & E & H). unfold segs_of. rewrite E, segs_normal. exact H. Qed.

Lemma cached_spec c p : cached c p = true <-> In p c.
Proof.
  unfold cached. rewrite existsb_exists. split.
  - intros (x & Hx & E). destruct (path_eq_dec x p); [subst; exact Hx|discriminate].
  - intros H. exists p. split; [exact H|]. destruct (path_eq_dec p p); [reflexivity|contradiction].
Qed.
Lemma in_anc q p : In q (ancestors p) <-> prefix q p.
Proof.
  revert q. induction p as [|x p IH]; intros q; cbn [ancestors].
  - split; [intros [<-|[]]; apply prefix_refl|]. intros [r E]. destruct q; [now left|discriminate E].
  - split.
    + intros [<-|H]; [exists (x :: p); reflexivity|]. apply in_map_iff in H as (q' & <- & H). apply IH in H as [r ->]. exists r. reflexivity.
    + intros [r E]. destruct q as [|y q]; [now left|]. right. cbn in E. injection E as -> E. apply in_map. apply IH. exists r. exact E.
Qed.

Section Loop.
  Variable f0 : fs.
  Variable V : nat -> Prop.
  Variable N : nat -> path.
  Variable H : path -> Prop.                         (* where packages are *)
  Hypothesis HN : forall i, V i -> dirs f0 (N i) /\ no_up (N i) /\ N i <> [].
  Hypothesis Hnone : forall i r, V i -> f0 (N i ++ ".bin" :: r) = None.
  Hypothesis Htree : forall q a, f0 q <> None -> H a -> prefix a q -> forall b, prefix a b -> prefix b q -> b <> q -> f0 b = Some EDir.
  Hypothesis Hname : forall i n, V i -> n <> ".bin" -> n <> ".oro-store" -> n <> ".." -> starts_at n = false ->
    f0 (N i ++ [n]) = None \/ exists q, f0 (N i ++ [n]) = Some (ELink (diff_paths q (N i))) /\ H q.
  Hypothesis HH : forall q, H q -> dirs f0 q /\ no_up q /\ q <> [].
  Hypothesis Hfiles : forall q segs, H q -> ~ In "node_modules" segs -> (forall t, f0 (q ++ segs) <> Some (ELink t)) /\ forall i, V i -> ~ prefix (N i ++ [".bin"]) (q ++ segs).

  (** below some .bin directory *)
  Definition below (q : path) : Prop := exists i, V i /\ prefix (N i ++ [".bin"]) q.
  Lemma below_none q : below q -> f0 q = None.
  Proof. intros (i & Vi & [r ->]). rewrite <- app_assoc. apply Hnone. exact Vi. Qed.
  Definition agree (f : fs) : Prop := forall q, ~ below q -> f q = f0 q.
  Lemma agree_dirs f p : agree f -> dirs f0 p -> dirs f p.
  Proof. intros A D a Ha Hp. rewrite A; [now apply D|]. intros B. apply below_none in B. rewrite (D a Ha Hp) in B. discriminate. Qed.

  Lemma lookup_in f k l : agree f -> forall segs q, H q \/ (exists a s, H a /\ q = a ++ s /\ ~ In "node_modules" s) -> dirs f q -> ~ In "node_modules" segs -> no_up segs ->
    lookup f k l q segs = match f0 (q ++ segs) with Some _ => Some (q ++ segs) | None => None end.
  Proof.
    intros A. induction segs as [|c segs IH]; intros q Hq D Hn Hu.
    - rewrite lookup_nil, app_nil_r. assert (E : f0 q <> None).
      { assert (q <> []) as Hne by (destruct Hq as [Hq|(a & s & Ha & -> & _)]; [apply (HH _ Hq)|destruct (HH _ Ha) as (_ & _ & Hx); destruct a; [congruence|discriminate]]).
        assert (B : ~ below q).
        { intros (i & Vi & P). destruct Hq as [Hq|(a & s & Ha & -> & Hs)].
          - destruct (Hfiles q [] Hq ltac:(intros [])) as [_ F]. rewrite app_nil_r in F. exact (F i Vi P).
          - destruct (Hfiles a s Ha Hs) as [_ F]. exact (F i Vi P). }
        rewrite <- (A q B), (D q Hne (prefix_refl q)). discriminate. }
      destruct (f0 q); [reflexivity|congruence].
    - rewrite lookup_cons, (dirs_is _ _ D) by apply prefix_refl. cbn [negb]. destruct (String.eqb_spec c "..") as [->|Hc]; [destruct Hu; now left|].
      assert (Q : exists a s, H a /\ q = a ++ s /\ ~ In "node_modules" s) by (destruct Hq as [Hq|Hq]; [exists q, []; rewrite app_nil_r; auto|exact Hq]).
      destruct Q as (a & s & Ha & -> & Hs).
      assert (Hs' : ~ In "node_modules" (s ++ [c])) by (rewrite in_app_iff; cbn; intros [X|[X|[]]]; [auto|apply Hn; left; auto]).
      destruct (Hfiles a (s ++ [c]) Ha Hs') as [F1 F2]. rewrite app_assoc in F1, F2. set (q0 := (a ++ s) ++ [c]) in *.
      replace ((a ++ s) ++ c :: segs) with (q0 ++ segs) by (unfold q0; rewrite <- !app_assoc; reflexivity).
      assert (B : ~ below q0) by (intros (i & Vi & P); exact (F2 i Vi P)).
      assert (Aq : prefix a q0) by (exists (s ++ [c]); unfold q0; rewrite <- app_assoc; reflexivity).
      assert (T : forall x y, f0 (q0 ++ x :: y) <> None -> f0 q0 = Some EDir).
      { intros x y Hx. apply (Htree (q0 ++ x :: y) a Hx Ha); [eapply prefix_trans; [exact Aq|apply prefix_app]|exact Aq|apply prefix_app|].
        intros Y. rewrite <- (app_nil_r q0) in Y at 1. apply app_inv_head in Y. discriminate Y. }
      rewrite (A _ B). destruct (f0 q0) as [e|] eqn:E.
      + destruct e as [|b|t]; [| |destruct (F1 t); reflexivity].
        * apply IH.
          -- right. exists a, (s ++ [c]). unfold q0. rewrite app_assoc. auto.
          -- intros x Hx Px. destruct (path_eq_dec x q0) as [->|Nx]; [rewrite (A _ B); exact E|]. apply D; [exact Hx|].
             destruct Px as [r Er]. destruct r as [|z r _] using rev_ind; [rewrite app_nil_r in Er; congruence|]. unfold q0 in Er. rewrite app_assoc in Er. apply app_inj_tail in Er as [Er _]. exists r. exact Er.
          -- intros X. apply Hn. now right.
          -- intros X. apply Hu. now right.
        * destruct segs as [|c2 segs]; [rewrite lookup_nil, app_nil_r, E; reflexivity|].
          assert (Nd : is_dir f q0 = false).
          { assert (Hz : q0 <> []) by (unfold q0; destruct (a ++ s); discriminate). assert (E' : f q0 = Some (EFile b)) by (rewrite (A _ B); exact E). revert Hz E'. clear. generalize q0. clear. intros q0 Hz E'.
            unfold is_dir. destruct q0; [congruence|]. rewrite E'. reflexivity. }
          rewrite lookup_cons, Nd. cbn [negb]. destruct (f0 (q0 ++ c2 :: segs)) as [e|] eqn:E2; [|reflexivity]. exfalso. assert (Some (EFile b) = Some EDir) as X by (apply (T c2 segs); congruence). discriminate.
      + destruct (f0 (q0 ++ segs)) as [e|] eqn:E2; [|reflexivity]. exfalso. destruct segs as [|c2 segs]; [rewrite app_nil_r in E2; congruence|].
        assert (None = Some EDir) as X by (apply (T c2 segs); congruence). discriminate.
  Qed.

  (** what a bin is taken to be *)
  Definition source (i : nat) (b : string * list comp) : option path :=
    match f0 (N i ++ [fst b]) with
    | Some (ELink _) => lookup f0 max_links true [] (bin_from (N i) b)
    | _ => None
    end.
  Lemma not_below_name i n : V i -> n <> ".bin" -> ~ below (N i ++ [n]).
  Proof.
    intros Vi Hn (j & Vj & [r E]). destruct (HN i Vi) as (Di & _ & Hi). destruct r as [|z r _] using rev_ind.
    - rewrite app_nil_r in E. apply app_inj_tail in E as [_ E]. congruence.
    - rewrite app_assoc in E. apply app_inj_tail in E as [E _]. pose proof (Di (N i) Hi (prefix_refl _)) as X. rewrite E, <- app_assoc in X. cbn [app] in X. rewrite Hnone in X by exact Vj. discriminate.
  Qed.
  Lemma lookup_from f k l i b q : agree f -> V i -> ok_bin b -> f0 (N i ++ [fst b]) = Some (ELink (diff_paths q (N i))) -> H q ->
    lookup f (Datatypes.S k) l (N i) (fst b :: segs_of b) = match f0 (q ++ segs_of b) with Some _ => Some (q ++ segs_of b) | None => None end.
  Proof.
    intros A Vi Hb E Hq. pose proof Hb as (B1 & B2 & B3 & B4 & _). destruct (ok_bin_segs b Hb) as (S1 & S2 & S3). destruct (HN i Vi) as (Di & Ui & Ni). pose proof (agree_dirs f _ A Di) as Di'.
    rewrite lookup_cons, (dirs_is _ _ Di') by apply prefix_refl. cbn [negb]. destruct (String.eqb_spec (fst b) ".."); [congruence|].
    rewrite (A _ (not_below_name i (fst b) Vi B1)), E. destruct (segs_of b) as [|s1 sl] eqn:Es; [congruence|]. rewrite <- Es in *.
    destruct (HH q Hq) as (Dq & Uq & _). rewrite lookup_diff; [|now apply agree_dirs|exact Di'|exact Uq]. apply lookup_in; auto. now apply agree_dirs.
  Qed.
  Lemma from_down f k l i b : agree f -> V i -> lookup f k l [] (bin_from (N i) b) = lookup f k l (N i) (fst b :: segs_of b).
  Proof. intros A Vi. destruct (HN i Vi) as (Di & Ui & _). unfold bin_from. rewrite lookup_down; [reflexivity|exact Ui|]. cbn [app]. now apply agree_dirs. Qed.
  Lemma lookup_job f l i b : agree f -> V i -> ok_bin b -> lookup f max_links l [] (bin_from (N i) b) = source i b.
  Proof.
    intros A Vi Hb. pose proof Hb as (B1 & B2 & B3 & B4 & _). assert (A0 : agree f0) by (intros q _; reflexivity). unfold source.
    rewrite (from_down f _ _ i b A Vi), (from_down f0 _ _ i b A0 Vi). unfold max_links. destruct (Hname i (fst b) Vi B1 B2 B3 B4) as [E|(q & E & Hq)].
    - rewrite E, lookup_cons. destruct (HN i Vi) as (Di & _). rewrite (dirs_is _ _ (agree_dirs f _ A Di)) by apply prefix_refl. cbn [negb]. destruct (String.eqb_spec (fst b) ".."); [congruence|].
      rewrite (A _ (not_below_name i (fst b) Vi B1)), E. reflexivity.
    - rewrite E, (lookup_from f _ _ i b q A Vi Hb E Hq), (lookup_from f0 _ _ i b q A0 Vi Hb E Hq). reflexivity.
  Qed.

  (** two .bin directories are the same or apart *)
  Lemma bin_apart i j r r' : V i -> V j -> N i ++ ".bin" :: r = N j ++ ".bin" :: r' -> N i = N j /\ r = r'.
  Proof.
    intros Vi Vj E. assert (L : prefix (N i) (N j) \/ prefix (N j) (N i)) by (apply (prefix_linear (N i) (N j) (N i ++ ".bin" :: r)); [apply prefix_app|rewrite E; apply prefix_app]).
    assert (P : forall i j z r r', V i -> V j -> N j = N i ++ z -> N i ++ ".bin" :: r = N j ++ ".bin" :: r' -> z = []).
    { clear - HN Hnone. intros i j z r r' Vi Vj Ej E. rewrite Ej, <- app_assoc in E. apply app_inv_head in E. destruct z as [|c z]; [reflexivity|]. cbn in E. injection E as <- _.
      destruct (HN j Vj) as (Dj & _ & Nj). pose proof (Dj (N j) Nj (prefix_refl _)) as X. rewrite Ej, Hnone in X by exact Vi. discriminate. }
    destruct L as [[z Ez]|[z Ez]].
    - pose proof (P i j z r r' Vi Vj Ez E) as ->. rewrite app_nil_r in Ez. split; [congruence|]. rewrite Ez in E. apply app_inv_head in E. congruence.
    - pose proof (P j i z r' r Vj Vi Ez (eq_sym E)) as ->. rewrite app_nil_r in Ez. split; [congruence|]. rewrite Ez in E. apply app_inv_head in E. congruence.
  Qed.

  Notation job := (nat * (string * list comp))%type.
  Definition text (j : job) : path := diff_paths (bin_from (N (fst j)) (snd j)) (N (fst j) ++ [".bin"]).
  Definition ok_job (j : job) : Prop := V (fst j) /\ ok_bin (snd j).
  (** [done]: the jobs done so far *)
  Record linv (done : list job) (f : fs) (c : list path) : Prop := {
    l_agree : agree f;
    l_dir : forall i, V i -> (f (N i ++ [".bin"]) = None /\ ~ In (N i ++ [".bin"]) c /\ forall n, f (N i ++ [".bin"; n]) = None) \/ (f (N i ++ [".bin"]) = Some EDir /\ In (N i ++ [".bin"]) c);
    l_deep : forall i n m r, V i -> f (N i ++ ".bin" :: n :: m :: r) = None;
    l_links : forall i n e, V i -> f (N i ++ [".bin"; n]) = Some e -> exists j, In j done /\ N (fst j) = N i /\ fst (snd j) = n /\ source (fst j) (snd j) <> None /\ e = ELink (text j);
    l_done : forall j, In j done -> source (fst j) (snd j) <> None -> f (N (fst j) ++ [".bin"; fst (snd j)]) <> None;
    l_cache : forall q, In q c -> is_dir f q = true;
    l_only : forall q, f q = f0 q \/ exists i, V i /\ ((q = N i ++ [".bin"] /\ f q = Some EDir) \/ exists n, q = N i ++ [".bin"; n] /\ f q <> None) }.

  Definition add_bin (f : fs) (i : nat) (n : string) (t : path) : fs := fun q =>
    if path_eq_dec q (N i ++ [".bin"; n]) then Some (ELink t) else if path_eq_dec q (N i ++ [".bin"]) then Some EDir else f q.
  Lemma not_up i n : N i ++ [".bin"; n] <> N i ++ [".bin"].
  Proof. intros E. apply app_inv_head in E. discriminate. Qed.

  (** one bin *)
  Lemma one_job done f c j : linv done f c -> ok_job j ->
    exists f' c', link_one (N (fst j)) (snd j) (f, c) = Some (f', c') /\ linv (done ++ [j]) f' c'
      /\ (source (fst j) (snd j) <> None -> f' (N (fst j) ++ [".bin"; fst (snd j)]) = Some (ELink (text j)))
      /\ (source (fst j) (snd j) = None -> f' = f).
  Proof.
    intros I [Vi Hb]. destruct j as [i b]. cbn [fst snd] in *. destruct I as [A Dr De Li Dn Ca On]. unfold link_one.
    rewrite (lookup_job f false i b A Vi Hb). destruct (source i b) as [src|] eqn:Es.
    2: { exists f, c. split; [reflexivity|]. split; [|split; [congruence|reflexivity]]. constructor; auto.
         - intros i' n e Vi' E. destruct (Li i' n e Vi' E) as (j & Hj & R). exists j. split; [apply in_or_app; auto|exact R].
         - intros j Hj S. apply in_app_or in Hj as [Hj|[<-|[]]]; [auto|]. cbn in S. congruence. }
    set (d := N i ++ [".bin"]). set (n := fst b) in *. set (to := bin_to (N i) n).
    assert (Eto : to = d ++ [n]) by (unfold to, bin_to, d; rewrite <- app_assoc; reflexivity).
    destruct (HN i Vi) as (Di & Ui & Ni). pose proof (agree_dirs f _ A Di) as Di'.
    assert (Rd : removelast d = N i) by apply removelast_last.
    (* the directory *)
    assert (M : exists f1 c1, mkdirp f c d = Some (f1, c1) /\ (forall q, f1 q = if path_eq_dec q d then Some EDir else f q) /\ In d c1 /\ (forall q, In q c1 -> In q c \/ prefix q d) /\ forall q, In q c -> In q c1).
    { unfold mkdirp. destruct (Dr i Vi) as [(E & Nc & En)|(E & Hc)].
      - destruct (cached c d) eqn:Ec; [apply cached_spec in Ec; contradiction|]. destruct (cached c (removelast d)) eqn:Ec2.
        + unfold create_dir, exists_. fold d in E. rewrite E, Rd, (dirs_is _ _ Di') by apply prefix_refl. cbn [option_map]. eexists _, _. split; [reflexivity|]. split; [|split; [|split]].
          * intros q. unfold put. destruct (path_eq_dec q d) as [->|Nq]; [rewrite E; reflexivity|]. destruct (aboveb q d) eqn:Ea; [|reflexivity]. apply aboveb_spec in Ea as ([r Er] & _ & Nq2).
            destruct r as [|z r _] using rev_ind; [rewrite app_nil_r in Er; congruence|]. unfold d in Er. rewrite app_assoc in Er. apply app_inj_tail in Er as [Er _].
            rewrite (Di' q Nq2); [reflexivity|]. exists r. exact Er.
          * now left.
          * intros q [<-|Hq]; [right; apply prefix_refl|auto].
          * intros q Hq. now right.
        + unfold create_dir_all. replace (in_the_way f d) with false.
          2: { symmetry. unfold in_the_way. apply not_true_iff_false. intros X. apply existsb_exists in X as (q & Hq & X). apply in_anc in Hq as [r Er]. destruct q as [|q0 q]; [discriminate|].
               destruct r as [|z r _] using rev_ind; [rewrite app_nil_r in Er; rewrite <- Er in X; fold d in E; rewrite E in X; discriminate|].
               unfold d in Er. rewrite app_assoc in Er. apply app_inj_tail in Er as [Er _]. rewrite (Di' (q0 :: q)) in X; [discriminate|discriminate|exists r; exact Er]. }
          cbn [option_map]. eexists _, _. split; [reflexivity|]. split; [|split; [|split]].
          * intros q. unfold put. fold d in E. destruct (path_eq_dec q d) as [->|Nq]; [rewrite E; reflexivity|]. destruct (aboveb q d) eqn:Ea; [|reflexivity]. apply aboveb_spec in Ea as ([r Er] & _ & Nq2).
            destruct r as [|z r _] using rev_ind; [rewrite app_nil_r in Er; congruence|]. unfold d in Er. rewrite app_assoc in Er. apply app_inj_tail in Er as [Er _].
            rewrite (Di' q Nq2); [reflexivity|]. exists r. exact Er.
          * apply in_or_app. left. apply in_anc. apply prefix_refl.
          * intros q Hq. apply in_app_or in Hq as [Hq|Hq]; [right; now apply in_anc|auto].
          * intros q Hq. apply in_or_app. auto.
      - rewrite (proj2 (cached_spec c d) Hc). exists f, c. split; [reflexivity|]. split; [|auto]. intros q. destruct (path_eq_dec q d) as [->|]; [exact E|reflexivity]. }
    destruct M as (f1 & c1 & -> & F1 & Cd & C1 & C2). cbn [obind fst snd].
    assert (T1 : f1 to = f to) by (rewrite F1, Eto; destruct (path_eq_dec (d ++ [n]) d) as [X|]; [rewrite <- (app_nil_r d) in X at 2; apply app_inv_head in X; discriminate|reflexivity]).
    (* what is there *)
    assert (R : exists f2, match f1 to with None => Some f1 | Some EDir => remove_dir_all f1 to | Some _ => remove_file f1 to end = Some f2
      /\ forall q, f2 q = if path_eq_dec q to then None else f1 q).
    { rewrite T1. destruct (f to) as [e|] eqn:E.
      - unfold to, bin_to in E. destruct (Li i n e Vi E) as (j & _ & _ & _ & _ & ->). unfold remove_file. rewrite T1. eexists. split; [reflexivity|]. reflexivity.
      - exists f1. split; [reflexivity|]. intros q. destruct (path_eq_dec q to) as [->|]; [exact T1|reflexivity]. }
    destruct R as (f2 & -> & F2). cbn [obind].
    assert (A2 : agree f2).
    { intros q Hq. rewrite F2, F1. destruct (path_eq_dec q to) as [->|_]; [destruct Hq; exists i; split; [exact Vi|]; rewrite Eto; apply prefix_app|].
      destruct (path_eq_dec q d) as [->|_]; [destruct Hq; exists i; split; [exact Vi|apply prefix_refl]|]. now apply A. }
    rewrite (lookup_job f2 true i b A2 Vi Hb), Es. cbn [obind]. unfold symlink, exists_.
    assert (T2 : f2 to = None) by (rewrite F2; destruct (path_eq_dec to to); [reflexivity|contradiction]). rewrite T2.
    assert (Rt : removelast to = d) by (rewrite Eto; apply removelast_last). rewrite Rt.
    assert (Nd : d <> []) by (unfold d; destruct (N i); discriminate).
    assert (D2 : is_dir f2 d = true).
    { unfold is_dir. destruct d as [|d0 dl] eqn:Ed; [congruence|]. rewrite <- Ed in *. rewrite F2, F1. destruct (path_eq_dec d to) as [X|_]; [rewrite Eto in X; rewrite <- (app_nil_r d) in X at 1; apply app_inv_head in X; discriminate|].
      destruct (path_eq_dec d d); [reflexivity|contradiction]. }
    rewrite D2. cbn [option_map]. set (f3 := fun q => if path_eq_dec q to then Some (ELink (diff_paths (bin_from (N i) b) (N i ++ [".bin"]))) else f2 q).
    assert (F3 : forall q, f3 q = if path_eq_dec q to then Some (ELink (text (i, b))) else if path_eq_dec q d then Some EDir else f q).
    { intros q. unfold f3. destruct (path_eq_dec q to) as [|Nq]; [reflexivity|]. rewrite F2. destruct (path_eq_dec q to); [contradiction|]. apply F1. }
    exists f3, c1. split; [reflexivity|]. split; [|split; [|congruence]].
    2: { intros _. change (N i ++ [".bin"; n]) with to. rewrite F3. destruct (path_eq_dec to to) as [|X]; [reflexivity|]. destruct X. reflexivity. }
    assert (Hto : forall i' r, V i' -> N i' ++ ".bin" :: r = to -> N i' = N i /\ r = [n]) by (intros i' r V' E; apply bin_apart in E; auto).
    assert (Hd : forall i' r, V i' -> N i' ++ ".bin" :: r = d -> N i' = N i /\ r = []) by (intros i' r V' E; apply bin_apart in E; auto).
    constructor.
    - intros q Hq. rewrite F3. destruct (path_eq_dec q to) as [->|_]; [destruct Hq; exists i; split; [exact Vi|]; rewrite Eto; apply prefix_app|].
      destruct (path_eq_dec q d) as [->|_]; [destruct Hq; exists i; split; [exact Vi|apply prefix_refl]|]. now apply A.
    - intros i' V'. destruct (path_eq_dec (N i') (N i)) as [E|NE].
      + right. unfold d in *. rewrite F3, E. fold d. split; [|exact Cd]. destruct (path_eq_dec d to) as [X|_]; [rewrite Eto in X; rewrite <- (app_nil_r d) in X at 1; apply app_inv_head in X; discriminate|].
        destruct (path_eq_dec d d); [reflexivity|contradiction].
      + destruct (Dr i' V') as [(E1 & E2 & E3)|(E1 & E2)].
        * left. rewrite F3. split; [|split].
          -- destruct (path_eq_dec (N i' ++ [".bin"]) to) as [X|_]; [apply Hto in X; [|exact V']; destruct X; contradiction|].
             destruct (path_eq_dec (N i' ++ [".bin"]) d) as [X|_]; [apply Hd in X; [|exact V']; destruct X; contradiction|]. exact E1.
          -- intros X. destruct (C1 _ X) as [Y|[r Er]]; [contradiction|]. unfold d in Er. rewrite <- app_assoc in Er. cbn [app] in Er. symmetry in Er. apply (bin_apart i' i r []) in Er; auto. destruct Er. contradiction.
          -- intros m. rewrite F3. destruct (path_eq_dec (N i' ++ [".bin"; m]) to) as [X|_]; [apply Hto in X; [|exact V']; destruct X; contradiction|].
             destruct (path_eq_dec (N i' ++ [".bin"; m]) d) as [X|_]; [apply Hd in X; [|exact V']; destruct X; contradiction|]. apply E3.
        * right. rewrite F3. split.
          -- destruct (path_eq_dec (N i' ++ [".bin"]) to) as [X|_]; [apply Hto in X; [|exact V']; destruct X; contradiction|].
             destruct (path_eq_dec (N i' ++ [".bin"]) d) as [X|_]; [apply Hd in X; [|exact V']; destruct X; contradiction|]. exact E1.
          -- now apply C2.
    - intros i' m1 m2 r V'. rewrite F3. destruct (path_eq_dec (N i' ++ ".bin" :: m1 :: m2 :: r) to) as [X|_]; [apply Hto in X; [|exact V']; destruct X; discriminate|].
      destruct (path_eq_dec (N i' ++ ".bin" :: m1 :: m2 :: r) d) as [X|_]; [apply Hd in X; [|exact V']; destruct X; discriminate|]. now apply De.
    - intros i' m e V' E. rewrite F3 in E. destruct (path_eq_dec (N i' ++ [".bin"; m]) to) as [X|_].
      + apply Hto in X as [X1 X2]; [|exact V']. injection X2 as ->. injection E as <-. exists (i, b). split; [apply in_or_app; right; now left|]. cbn [fst snd]. split; [congruence|]. split; [reflexivity|]. split; [congruence|reflexivity].
      + destruct (path_eq_dec (N i' ++ [".bin"; m]) d) as [X|_]; [apply Hd in X; [|exact V']; destruct X; discriminate|]. destruct (Li i' m e V' E) as (j & Hj & R). exists j. split; [apply in_or_app; auto|exact R].
    - intros j Hj S. rewrite F3. destruct (path_eq_dec (N (fst j) ++ [".bin"; fst (snd j)]) to); [discriminate|]. destruct (path_eq_dec (N (fst j) ++ [".bin"; fst (snd j)]) d); [discriminate|].
      apply in_app_or in Hj as [Hj|[<-|[]]]; [auto|]. cbn [fst snd] in *. contradiction.
    - intros q Hq. destruct q as [|q0 ql] eqn:Eq; [reflexivity|]. rewrite <- Eq in *. destruct (C1 _ Hq) as [Y|[r Er]].
      + specialize (Ca q Y). unfold is_dir in Ca |- *. rewrite Eq in Ca |- *. rewrite <- Eq in *. rewrite F3. destruct (path_eq_dec q to) as [->|_]; [|destruct (path_eq_dec q d); [reflexivity|exact Ca]].
        exfalso. destruct (f to) as [e|] eqn:E; [|discriminate]. unfold to, bin_to in E. destruct (Li i n e Vi E) as (j & _ & _ & _ & _ & ->). discriminate.
      + unfold is_dir. rewrite Eq. rewrite <- Eq. rewrite F3. destruct (path_eq_dec q to) as [->|_]; [exfalso; apply (f_equal (@List.length string)) in Er; rewrite Eto, !app_length in Er; cbn in Er; lia|].
        destruct (path_eq_dec q d) as [|Nq]; [reflexivity|]. destruct r as [|z r _] using rev_ind; [rewrite app_nil_r in Er; congruence|]. unfold d in Er. rewrite app_assoc in Er. apply app_inj_tail in Er as [Er _].
        rewrite (Di' q); [reflexivity|rewrite Eq; discriminate|exists r; exact Er].
    - intros q. rewrite F3. destruct (path_eq_dec q to) as [->|Nt]; [right; exists i; split; [exact Vi|]; right; exists n; split; [reflexivity|discriminate]|].
      destruct (path_eq_dec q d) as [->|Nd']; [right; exists i; split; [exact Vi|]; left; split; reflexivity|]. exact (On q).
  Qed.

  (** the list of jobs *)
  Lemma all_jobs : forall js done f c, linv done f c -> Forall ok_job js ->
    exists f' c', fold_left (fun o j => obind o (link_one (N (fst j)) (snd j))) js (Some (f, c)) = Some (f', c') /\ linv (done ++ js) f' c'.
  Proof.
    induction js as [|j js IH]; intros done f c I Hj.
    - exists f, c. split; [reflexivity|]. now rewrite app_nil_r.
    - inversion Hj as [|? ? H1 H2]; subst. destruct (one_job done f c j I H1) as (f1 & c1 & E & I1 & _). cbn [fold_left obind]. rewrite E.
      destruct (IH (done ++ [j]) f1 c1 I1 H2) as (f' & c' & E' & I'). exists f', c'. split; [exact E'|]. rewrite <- app_assoc in I'. exact I'.
  Qed.
  Lemma linv_start c : (forall q, In q c -> is_dir f0 q = true) -> (forall i, V i -> ~ In (N i ++ [".bin"]) c) -> linv [] f0 c.
  Proof.
    intros Hc Hb. constructor.
    - intros q _. reflexivity.
    - intros i Vi. left. split; [apply (Hnone i [] Vi)|]. split; [auto|]. intros n. apply (Hnone i [n] Vi).
    - intros i n m r Vi. now apply Hnone.
    - intros i n e Vi E. rewrite (Hnone i [n] Vi) in E. discriminate.
    - intros j [].
    - exact Hc.
    - intros q. now left.
  Qed.

  Lemma diff_app : forall a p b, diff_paths (a ++ p) (a ++ b) = diff_paths p b.
  Proof. induction a as [|x a IH]; intros p b; [reflexivity|]. cbn [app diff_paths]. now rewrite String.eqb_refl. Qed.
  Lemma text_is j : ok_bin (snd j) -> text j = ".." :: fst (snd j) :: segs_of (snd j).
  Proof.
    intros (B1 & _). unfold text, bin_from. rewrite diff_app. cbn [diff_paths]. destruct (String.eqb_spec (fst (snd j)) ".bin"); [congruence|]. reflexivity.
  Qed.
  (** where a bin leads *)
  Lemma follow done f c i n : linv done f c -> Forall ok_job done -> V i -> f (N i ++ [".bin"; n]) <> None ->
    exists j, In j done /\ N (fst j) = N i /\ fst (snd j) = n /\ f (N i ++ [".bin"; n]) = Some (ELink (text j)) /\ source (fst j) (snd j) <> None
      /\ lookup f max_links true [] (N i ++ [".bin"; n]) = source (fst j) (snd j).
  Proof.
    intros I Hok Vi E. destruct (f (N i ++ [".bin"; n])) as [e|] eqn:Ef; [|congruence]. destruct (l_links _ _ _ I i n e Vi Ef) as (j & Hj & Nj & En & Sj & ->).
    exists j. split; [exact Hj|]. split; [exact Nj|]. split; [exact En|]. split; [reflexivity|]. split; [exact Sj|]. rewrite Forall_forall in Hok. destruct (Hok j Hj) as [Vj Bj].
    destruct (HN i Vi) as (Di & Ui & Ni). pose proof (agree_dirs f _ (l_agree _ _ _ I) Di) as Di'.
    assert (Db : f (N i ++ [".bin"]) = Some EDir) by (destruct (l_dir _ _ _ I i Vi) as [(_ & _ & X)|[X _]]; [rewrite X in Ef; discriminate|exact X]).
    assert (Db' : dirs f (N i ++ [".bin"])).
    { intros a Ha Pa. destruct (path_eq_dec a (N i ++ [".bin"])) as [->|Na]; [exact Db|]. apply Di'; [exact Ha|]. destruct Pa as [r Er].
      destruct r as [|z r _] using rev_ind; [rewrite app_nil_r in Er; congruence|]. rewrite app_assoc in Er. apply app_inj_tail in Er as [Er _]. exists r. exact Er. }
    replace (N i ++ [".bin"; n]) with ((N i ++ [".bin"]) ++ [n]) in * by (rewrite <- app_assoc; reflexivity).
    assert (Hn : n <> "..") by (subst n; destruct Bj as (_ & _ & B3 & _); exact B3).
    rewrite lookup_down; [|intros X; apply in_app_or in X as [X|[X|[]]]; [now apply Ui|discriminate]|cbn [app]; exact Db']. cbn [app].
    rewrite lookup_cons, (dirs_is _ _ Db') by apply prefix_refl. cbn [negb]. destruct (String.eqb_spec n ".."); [congruence|].
    rewrite Ef. unfold max_links. cbn [negb]. rewrite app_nil_r, (text_is j Bj), lookup_cons, (dirs_is _ _ Db') by apply prefix_refl. cbn [negb]. change (String.eqb ".." "..") with true. cbn iota.
    rewrite removelast_last. assert (Ez : forall (A : Type) (x y : A), match N i ++ [".bin"] with [] => x | _ :: _ => y end = y) by (intros; destruct (N i); reflexivity). rewrite Ez. clear Ez.
    rewrite <- (lookup_job f true (fst j) (snd j) (l_agree _ _ _ I) Vj Bj), (from_down f _ _ (fst j) (snd j) (l_agree _ _ _ I) Vj), Nj. unfold max_links. rewrite <- Nj.
    destruct (Hname (fst j) (fst (snd j)) Vj) as [X|(q & X & Hq)]; [apply Bj|apply Bj|apply Bj|apply Bj| |].
    - exfalso. apply Sj. unfold source. now rewrite X.
    - rewrite (lookup_from f _ _ (fst j) (snd j) q (l_agree _ _ _ I) Vj Bj X Hq), (lookup_from f _ _ (fst j) (snd j) q (l_agree _ _ _ I) Vj Bj X Hq). reflexivity.
  Qed.
  Lemma source_is i b q : V i -> ok_bin b -> f0 (N i ++ [fst b]) = Some (ELink (diff_paths q (N i))) -> H q ->
    source i b = match f0 (q ++ segs_of b) with Some _ => Some (q ++ segs_of b) | None => None end.
  Proof.
    intros Vi Hb E Hq. assert (A0 : agree f0) by (intros x _; reflexivity). unfold source. rewrite E, (from_down f0 _ _ i b A0 Vi). unfold max_links. apply (lookup_from f0 _ _ i b q A0 Vi Hb E Hq).
  Qed.
End Loop.
