(** * The isolated linker with the cache of [mkdirp]: when an apply fails because a directory is there already.
    The machine of Fs.v, with [link_deps] (crates/node-maintainer/src/linkers/isolated.rs:506-559) spelled out and
    [mkdirp] (crates/node-maintainer/src/linkers/mod.rs:483-514) with its cache of directories. *)
From Verif Require Import Base Types ResolverModel LockfileModel Fs FsPad HoistedModel IsolatedSpec IsolatedModel.
Open Scope string_scope.
Open Scope list_scope.

(** [Path::exists], which follows a link at [p]. Simplification: a link that leads to another link counts as dangling (the
    linker's own links lead to directories of packages). *)
Definition exists_at (f : fs) (p : path) : bool :=
  match f p with
  | None => false
  | Some (ELink t) => match walk (removelast p) t with Some q => match f q with Some EDir | Some (EFile _) => true | _ => false end | None => false end
  | Some _ => true
  end.
(** [Path::ancestors]. Those of the project itself are left out: they are in the cache from the start. *)
Definition ancestors (d : path) : list path := map (fun n => firstn n d) (seq 1 (List.length d)).
(** mod.rs:483-514 [mkdirp] succeeds: the directory is cached; or its parent is, and [create_dir] finds nothing there; or
    [create_dir_all] finds only directories on the way *)
Definition mkdirp_ok (f : fs) (c : list path) (d : path) : Prop :=
  In d c
  \/ (~ In d c /\ In (removelast d) c /\ f d = None /\ f (removelast d) = Some EDir)
  \/ (~ In d c /\ ~ In (removelast d) c /\ put_ok d EDir f).
(** mod.rs:502, 510: the cache afterwards *)
Definition mkdirp_cache (c : list path) (d : path) : list path :=
  if in_dec path_eq_dec d c then c else if in_dec path_eq_dec (removelast d) c then d :: c else ancestors d ++ c.

Section Machine.
  Variable META : Type.
  Variable doomed : path -> bool.
  Variable wipe : bool.
  Variable insts : list inst.                        (* node_modules itself first *)
  Variable final_meta : META.

  (** a task under way: what is left to do, as in Fs.v; [true]: [link_deps] has found (isolated.rs:522) that the link it is
      at does not exist *)
  Definition task := (bool * list item)%type.
  Inductive rphase : Type :=
  | RPruning
  | RExtracting (next : list inst) (live : list task)
  | RDone.
  Record rworld := mkR { r_fs : fs; r_meta : option META; r_phase : rphase; r_cache : list path }.

  (** the directory of a link, and the link *)
  Definition at_link (l : list item) : Prop := match l with (_, EDir) :: (_, ELink _) :: _ => True | (_, ELink _) :: _ => True | _ => False end.

  Inductive rstep : rworld -> rworld -> Prop :=
  (* isolated.rs:38-336 *)
  | r_remove f m p : condemned doomed p -> f p <> None -> (forall q, prefix p q -> q <> p -> f q = None) ->
      rstep (mkR f m RPruning []) (mkR (fun q => if path_eq_dec q p then None else f q) m RPruning [])
  | r_unmeta f m : wipe = true -> rstep (mkR f m RPruning []) (mkR f None RPruning [])
  | r_pruned f m : (forall q, condemned doomed q -> f q = None) -> (wipe = true -> m = None) ->
      rstep (mkR f m RPruning []) (mkR f m (RExtracting insts []) [])
  (* isolated.rs:351-352: the first [mkdirp], with an empty cache *)
  | r_top f m i next d : i_check i = None -> i_links i = [(d, EDir)] -> put_ok d EDir f ->
      rstep (mkR f m (RExtracting (i :: next) []) []) (mkR (put d EDir f) m (RExtracting next [(false, [])]) (ancestors d))
  (* isolated.rs:389-396 *)
  | r_start f m i next live c : c <> [] ->
      rstep (mkR f m (RExtracting (i :: next) live) c)
            (mkR f m (RExtracting next ((false, match i_check i with
                                        | Some d => match f d with None => items i | Some _ => i_links i end
                                        | None => i_links i end) :: live)) c)
  (* the files of a package: nassun has its own [mkdirp] *)
  | r_item f m next l1 l2 p e rest c : ~ at_link ((p, e) :: rest) -> put_ok p e f ->
      rstep (mkR f m (RExtracting next (l1 ++ (false, (p, e) :: rest) :: l2)) c) (mkR (put p e f) m (RExtracting next (l1 ++ (false, rest) :: l2)) c)
  | r_torn f m next l1 l2 p x rest x' c : put_ok p (EFile x) f ->
      rstep (mkR f m (RExtracting next (l1 ++ (false, (p, EFile x) :: rest) :: l2)) c)
            (mkR (put p (EFile x') f) m (RExtracting next (l1 ++ (false, (p, EFile x) :: rest) :: l2)) c)
  (* isolated.rs:522-524: something is there; nothing changes (see [skip_same]) *)
  | r_skip f m next l1 l2 d p t rest c : exists_at f p = true -> put_ok d EDir f -> (forall a, above a p -> f a = Some EDir) ->
      rstep (mkR f m (RExtracting next (l1 ++ (false, (d, EDir) :: (p, ELink t) :: rest) :: l2)) c)
            (mkR (put p (ELink t) (put d EDir f)) m (RExtracting next (l1 ++ (false, rest) :: l2)) c)
  | r_check f m next l1 l2 d p t rest c : exists_at f p = false ->
      rstep (mkR f m (RExtracting next (l1 ++ (false, (d, EDir) :: (p, ELink t) :: rest) :: l2)) c)
            (mkR f m (RExtracting next (l1 ++ (true, (d, EDir) :: (p, ELink t) :: rest) :: l2)) c)
  (* isolated.rs:534-535 *)
  | r_mkdir f m next l1 l2 d p t rest c : mkdirp_ok f c d ->
      rstep (mkR f m (RExtracting next (l1 ++ (true, (d, EDir) :: (p, ELink t) :: rest) :: l2)) c)
            (mkR (put d EDir f) m (RExtracting next (l1 ++ (false, (p, ELink t) :: rest) :: l2)) (mkdirp_cache c d))
  (* isolated.rs:536-553 *)
  | r_link f m next l1 l2 p t rest c : f (removelast p) = Some EDir ->
      rstep (mkR f m (RExtracting next (l1 ++ (false, (p, ELink t) :: rest) :: l2)) c)
            (mkR (put p (ELink t) f) m (RExtracting next (l1 ++ (false, rest) :: l2)) c)
  (* isolated.rs:458-464 *)
  | r_torn_meta f m m' live c : Forall (fun l => snd l = []) live ->
      rstep (mkR f m (RExtracting [] live) c) (mkR f m' (RExtracting [] live) c)
  | r_done f m live c : Forall (fun l => snd l = []) live ->
      rstep (mkR f m (RExtracting [] live) c) (mkR f (Some final_meta) RDone c).
  Inductive rsteps (w : rworld) : rworld -> Prop :=
  | rs_refl : rsteps w w
  | rs_step w1 w2 : rsteps w w1 -> rstep w1 w2 -> rsteps w w2.

  (** a task that gets an error, which ends the apply: a directory or file of a package cannot be written; [mkdirp] fails; the
      link cannot be made *)
  Inductive task_fails (f : fs) (c : list path) : task -> Prop :=
  | tf_item p e rest : ~ at_link ((p, e) :: rest) -> ~ put_ok p e f -> task_fails f c (false, (p, e) :: rest)
  | tf_mkdir d p t rest : ~ mkdirp_ok f c d -> task_fails f c (true, (d, EDir) :: (p, ELink t) :: rest)
  | tf_link p t rest : f (removelast p) <> Some EDir -> task_fails f c (false, (p, ELink t) :: rest).
  Inductive failed : rworld -> Prop :=
  | fl_top f m i next d : i_check i = None -> i_links i = [(d, EDir)] -> ~ put_ok d EDir f -> failed (mkR f m (RExtracting (i :: next) []) [])
  | fl_task f m next live c x : In x live -> task_fails f c x -> failed (mkR f m (RExtracting next live) c).
End Machine.

(** one apply of tree [g] *)
Definition rapply (hex8 : string -> string) (root : path) (contents : resolution -> list (path * string)) {A} (f : fs) (m : option A) (g : graph) (lock : A) : rworld A -> Prop :=
  rsteps A (idoomed hex8 root f m g) (iwipes f m) (map pad (iinsts hex8 contents g)) lock (mkR A f m (RPruning) []).
